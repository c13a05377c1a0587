(** Saving and loading layers. *)
From Coq Require Import ZArith QArith Qcanon List Bool String Lia Arith.
From Verif Require Import Base.Num Base.Tensor Model.Quantizer Model.Layers Model.Conf Model.BatchNorm Model.Serial
  Spec.Serial Proofs.CallP.
Import ListNotations.
Local Open Scope nat_scope.

Definition foreign (rest : config) : Prop := existsb (fun e => existsb (String.eqb (fst e)) all_own_keys) rest = false.

Lemma own_all c k : existsb (String.eqb k) (own_keys c) = true -> existsb (String.eqb k) all_own_keys = true.
Proof.
  intros H. apply existsb_exists in H. destruct H as [x [I E]]. apply existsb_exists. exists x. split; [|exact E].
  destruct c; cbn in I; cbn; tauto.
Qed.

Lemma cfind_foreign rest l key : foreign rest -> existsb (String.eqb key) all_own_keys = true ->
  cfind (rest ++ l) key = cfind l key.
Proof.
  intros F K. induction rest as [|[k v] rest IH]; [reflexivity|].
  unfold foreign in F. cbn [existsb fst] in F. apply orb_false_iff in F. destruct F as [F1 F2].
  unfold cfind in *. cbn [app find fst]. destruct (String.eqb k key) eqn:E; [|apply IH; exact F2].
  apply String.eqb_eq in E. subst k. congruence.
Qed.

Lemma filter_foreign c rest : foreign rest ->
  filter (fun e : string * cval => negb (existsb (String.eqb (fst e)) (own_keys c))) rest = rest.
Proof.
  induction rest as [|[k v] rest IH]; intros F; [reflexivity|].
  unfold foreign in F. cbn [existsb fst] in F. apply orb_false_iff in F. destruct F as [F1 F2].
  cbn [filter fst]. destruct (existsb (String.eqb k) (own_keys c)) eqn:E; [apply own_all in E; congruence|].
  cbn [negb]. f_equal. apply IH. exact F2.
Qed.

Lemma dget_dset d k v : dget (dset d k v) k = Some v.
Proof.
  induction d as [|[k' w] d IH]; cbn [dset dget]; [rewrite String.eqb_refl; reflexivity|].
  destruct (String.eqb k' k) eqn:E; cbn [dget]; rewrite E; [reflexivity|exact IH].
Qed.

Lemma rewrite_idem c p p' : rewrite_conf c p = Ok p' -> rewrite_conf c p' = Ok p'.
Proof.
  destruct c; cbn [rewrite_conf]; try (intros E; reflexivity).
  destruct (dget p "rnd_strategy") as [v|] eqn:D; [|discriminate].
  destruct (is_auto v) eqn:A; intros E; injection E as <-.
  - rewrite dget_dset. reflexivity.
  - rewrite D, A. reflexivity.
Qed.

Lemma conf_arg_nonempty v d r : d <> [] -> conf_arg v d = Ok r -> r <> [].
Proof. intros N. destruct v as [[| |?|[|x l]| |]|]; cbn [conf_arg]; intros E; congruence. Qed.

Lemma conf_arg_conf d d' : d <> [] -> conf_arg (Some (CConf d)) d' = Ok d.
Proof. destruct d; [congruence|reflexivity]. Qed.

Lemma rewrite_nonempty c p p' : p <> [] -> rewrite_conf c p = Ok p' -> p' <> [].
Proof.
  intros N. destruct c; cbn [rewrite_conf]; try congruence.
  destruct (dget p "rnd_strategy"); [|discriminate]. destruct (is_auto p0); intros E; injection E as <-; [|assumption].
  destruct p as [|[k v] p]; [congruence|]. cbn [dset]. destruct (String.eqb k "rnd_strategy"); discriminate.
Qed.

(** What the constructor leaves in the attributes. *)
Lemma construct_facts defaults c cfg a : fst defaults <> [] -> snd defaults <> [] -> construct defaults c cfg = Ok a ->
  a_cls a = c /\ foreign (a_keras a) /\ a_kq a <> [] /\ a_paq a <> [] /\
  (has_kernel c = false -> a_pf a = None) /\ (is_conv c = true -> a_pf a <> None) /\
  (is_bn c = false -> a_eps a = Q2Qc (1 # 1000) /\ a_center a = true /\ a_scale a = true).
Proof.
  intros D1 D2 E. unfold construct in E. cbv zeta in E.
  match type of E with (if ?b then _ else _) = _ => destruct b eqn:F; [discriminate|] end.
  apply rbind_ok in E. destruct E as [kq [E1 E]]. apply rbind_ok in E. destruct E as [paq [E2 E]].
  apply rbind_ok in E. destruct E as [beta [E3 E]]. apply rbind_ok in E. destruct E as [pf [E4 E]].
  apply rbind_ok in E. destruct E as [mom [E5 E]]. apply rbind_ok in E. destruct E as [eps [E6 E]].
  apply rbind_ok in E. destruct E as [cen [E7 E]]. apply rbind_ok in E. destruct E as [sc [E8 E]].
  apply rbind_ok in E. destruct E as [ad [E9 E]].
  assert (H : a = mkA c (filter (fun e => negb (existsb (String.eqb (fst e)) (own_keys c))) cfg) kq paq beta pf mom eps cen sc ad) by congruence.
  subst a. cbn [a_cls a_keras a_kq a_paq a_pf a_eps a_center a_scale].
  split; [reflexivity|]. split; [exact F|].
  split; [exact (conf_arg_nonempty _ _ _ D1 E1)|]. split; [exact (conf_arg_nonempty _ _ _ D2 E2)|].
  split; [intros K; rewrite K in E4; congruence|].
  split.
  - intros K. destruct c; try discriminate; cbn [has_kernel] in E4; unfold pf_arg in E4; cbn [is_conv] in E4;
      destruct (cfind cfg "parallel_factor") as [[| | | | |]|]; congruence.
  - intros K. rewrite K in E6, E7, E8. repeat split; congruence.
Qed.

(** Constructing from the configuration of a layer. *)
Lemma construct_config defaults o : let a := o_args o in foreign (a_keras a) -> a_kq a <> [] -> a_paq a <> [] ->
  (has_kernel (a_cls a) = false -> a_pf a = None) -> (is_conv (a_cls a) = true -> a_pf a <> None) ->
  construct defaults (a_cls a) (get_config o) =
  Ok (mkA (a_cls a) (a_keras a) (a_kq a) (a_paq a) (a_beta a) (a_pf a) (Q2Qc (99 # 100)) (Q2Qc (1 # 1000)) true true true).
Proof.
  cbv zeta. intros F K P N C. unfold construct, get_config. cbv zeta.
  set (own := [("kq_conf"%string, CConf (a_kq (o_args o))); ("paq_conf"%string, CConf (a_paq (o_args o))); ("beta"%string, CNum (a_beta (o_args o)))]
     ++ (if has_kernel (a_cls (o_args o)) then [("parallel_factor"%string, match a_pf (o_args o) with Some z => CInt z | None => CNone end)] else [])).
  rewrite filter_app, (filter_foreign _ _ F).
  assert (O : filter (fun e : string * cval => negb (existsb (String.eqb (fst e)) (own_keys (a_cls (o_args o))))) own = [])
    by (subst own; destruct (a_cls (o_args o)); reflexivity).
  rewrite O, app_nil_r. unfold foreign in F. rewrite F.
  rewrite !(cfind_foreign _ own _ F) by reflexivity.
  assert (Q1 : cfind own "kq_conf" = Some (CConf (a_kq (o_args o)))) by reflexivity.
  assert (Q2 : cfind own "paq_conf" = Some (CConf (a_paq (o_args o)))) by reflexivity.
  rewrite Q1, Q2, !conf_arg_conf by assumption. cbn [rbind].
  subst own. destruct (a_cls (o_args o)) eqn:Hc; cbn [has_kernel is_bn is_conv] in *; cbn;
    try (rewrite (N eq_refl); reflexivity);
    destruct (a_pf (o_args o)) as [z|]; try reflexivity; exfalso; apply (C eq_refl); reflexivity.
Qed.

Lemma set_weights_eq ws vs : map (fun w => shape (snd w)) ws = map shape vs ->
  set_weights ws vs = Ok (combine (map fst ws) vs).
Proof.
  revert vs. induction ws as [|[n w] ws IH]; intros [|v vs] H; cbn [map] in H; try discriminate; [reflexivity|].
  cbn [snd] in H. injection H as H1 H2. cbn [set_weights map fst combine].
  destruct (list_eq_dec Nat.eq_dec (shape w) (shape v)) as [_|N]; [|congruence].
  rewrite (IH vs H2). reflexivity.
Qed.

Lemma combine_fst_snd {A B} (l : list (A * B)) : combine (map fst l) (map snd l) = l.
Proof. induction l as [|[a b] l IH]; cbn [map combine fst snd]; [reflexivity|]. rewrite IH. reflexivity. Qed.

Section S.
  Variable geo_of : cls -> config -> list nat -> geometry.

  Definition fresh (e : ext) (s : list nat) : tensor ext := mkT s (map (fun _ => e) (seq 0 (prodn s))).
  Definition loaded (o : obj) : obj :=
    let a := o_args o in
    mkO (mkA (a_cls a) (a_keras a) (a_kq a) (a_paq a) (a_beta a) (a_pf a) (Q2Qc (99 # 100)) (Q2Qc (1 # 1000))
             (match g_bias (geo geo_of o) with Some _ => true | None => false end) true
             (if has_kernel (a_cls a) then delayed (a_cls a) else true))
        (o_in o) (o_ki o) (o_pi o) (o_w o) (fresh PosInf (i_shape (o_pi o))) (fresh NegInf (i_shape (o_pi o))).

  Lemma load_save defaults init o : in_use geo_of o -> bn_default geo_of o ->
    load geo_of defaults init (save o) = Ok (loaded o).
  Proof.
    intros [d0 [cfg [init0 [a0 [o0 [D1 [D2 [E0 [B0 [HA [HK [HP [WN [WS _]]]]]]]]]]]]]] BN.
    destruct (construct_facts _ _ _ _ D1 D2 E0) as [F1 [F2 [F3 [F4 [F5 [F6 F7]]]]]].
    unfold build in B0. cbv zeta in B0. rewrite F1 in B0.
    apply rbind_ok in B0. destruct B0 as [paq [R B0]]. apply rbind_ok in B0. destruct B0 as [ki [K B0]].
    apply rbind_ok in B0. destruct B0 as [pi [P B0]].
    destruct (dget paq "rnd_strategy") as [v|] eqn:V; [|discriminate].
    match type of B0 with Ok ?t = _ => assert (H : o0 = t) by congruence end. clear B0. subst o0.
    cbn [o_args o_ki o_pi o_w a_cls a_keras a_kq a_paq a_pf a_mom a_eps a_center a_scale] in *.
    destruct o as [a ish oki opi ow omin omax]. cbn [o_args o_in o_ki o_pi o_w] in *. subst oki opi.
    remember (a_cls a) as c eqn:Hc. remember (a_beta a) as be. remember (a_adapt a) as ad. clear Hc Heqbe Heqad. subst a.
    unfold load, save. cbn [o_args o_in o_w a_cls].
    set (pf := match c with
               | HDense | HDenseBN => match a_pf a0 with
                   | Some z => Some z
                   | None => if 1 <? Datatypes.length ish then Some (Z.of_nat (prodn (removelast ish))) else None end
               | _ => a_pf a0 end) in *.
    match goal with |- context [get_config ?ob] => set (o := ob) in * end.
    assert (PF : a_pf (o_args o) = pf).
    { subst o pf. cbn. destruct c; try reflexivity; destruct (a_pf a0); reflexivity. }
    assert (PK : has_kernel c = false -> a_pf (o_args o) = None)
      by (intros N; rewrite PF; subst pf; destruct c; try discriminate; exact (F5 N)).
    assert (PC : is_conv c = true -> a_pf (o_args o) <> None)
      by (intros N; rewrite PF; subst pf; destruct c; try discriminate; exact (F6 N)).
    pose proof (construct_config defaults o F2 F3 (rewrite_nonempty _ _ _ F4 R) PK PC) as CC.
    change (a_cls (o_args o)) with c in CC. rewrite CC.
    change (a_keras (o_args o)) with (a_keras a0). change (a_kq (o_args o)) with (a_kq a0).
    change (a_paq (o_args o)) with paq. change (a_beta (o_args o)) with be.
    rewrite PF. cbn [rbind]. unfold build. cbv zeta. cbn [a_cls a_keras a_kq a_paq a_pf a_beta a_mom a_eps a_center a_scale a_adapt].
    rewrite (rewrite_idem _ _ _ R). cbn [rbind]. rewrite K. cbn [rbind]. rewrite P. cbn [rbind]. rewrite V.
    cbn [rbind o_w].
    rewrite set_weights_eq.
    2: { rewrite !map_map. cbn [snd shape] in *. rewrite !map_map in WS. cbn [snd shape] in WS. rewrite WS. f_equal.
         unfold weight_shapes. cbn [a_cls a_center a_scale]. destruct (is_bn c) eqn:Hb; [|reflexivity].
         destruct (BN Hb) as [_ [B1 B2]]. subst o. unfold geo in B2. cbn in B1, B2. rewrite B1.
         destruct (g_bias (geo_of c (a_keras a0) ish)) as [bs|]; [|rewrite !andb_false_r; reflexivity].
         rewrite B2 by discriminate. reflexivity. }
    cbn [rbind with_weights o_args o_in o_ki o_pi o_w o_min o_max].
    unfold loaded, with_weights, geo. cbn [o o_args o_in o_ki o_pi o_w o_min o_max a_cls a_keras a_kq a_paq a_pf a_beta].
    f_equal. f_equal.
    - f_equal; destruct c; try reflexivity; subst pf; destruct (a_pf a0); try reflexivity; destruct (1 <? Datatypes.length ish) eqn:Z1; try rewrite Z1; reflexivity.
    - match goal with |- combine ?n _ = _ => assert (N : n = map fst ow) end.
      { rewrite WN, !map_map. cbn [fst]. unfold weight_shapes. cbn [a_cls a_center a_scale]. destruct (is_bn c) eqn:Hb; [|reflexivity].
        destruct (BN Hb) as [_ [B1 B2]]. subst o. unfold geo in B2. cbn in B1, B2. rewrite B1.
        destruct (g_bias (geo_of c (a_keras a0) ish)) as [bs|]; [|rewrite !andb_false_r; reflexivity].
        rewrite B2 by discriminate. reflexivity. }
      rewrite N. apply combine_fst_snd.
  Qed.

  Lemma find_shape (ws : list (string * tensor Qc)) (l : list (string * list nat)) name sh :
    map fst ws = map fst l -> map (fun w => shape (snd w)) ws = map snd l ->
    Forall (fun w => Datatypes.length (data (snd w)) = prodn (shape (snd w))) ws ->
    find (fun e => String.eqb (fst e) name) l = Some (name, sh) ->
    exists t, find (fun e => String.eqb (fst e) name) ws = Some (name, t) /\ shape t = sh /\ Datatypes.length (data t) = prodn sh.
  Proof.
    revert l. induction ws as [|[n w] ws IH]; intros [|[n' s'] l] HN HS HF H; cbn [map] in HN, HS; try discriminate.
    cbn [fst snd] in HN, HS. injection HN as -> HN. injection HS as HS1 HS. inversion HF as [|? ? F1 F2]; subst.
    cbn [find fst] in *. destruct (String.eqb n' name) eqn:E.
    - injection H as -> <-. exists w. cbn [snd] in F1. auto.
    - apply (IH l HN HS F2 H).
  Qed.

  Lemma in_use_facts o : in_use geo_of o ->
    shape (weight o "activation_bw") = i_shape (o_pi o) /\
    Datatypes.length (data (weight o "activation_bw")) = prodn (i_shape (o_pi o)) /\
    (g_bias (geo geo_of o) = None -> a_center (o_args o) = false) /\
    (o_ki o = None <-> has_kernel (a_cls (o_args o)) = false).
  Proof.
    intros [d0 [cfg [init0 [a0 [o0 [D1 [D2 [E0 [B0 [HA [HK [HP [WN [WS HF]]]]]]]]]]]]]].
    destruct (construct_facts _ _ _ _ D1 D2 E0) as [F1 _].
    unfold build in B0. cbv zeta in B0. rewrite F1 in B0.
    apply rbind_ok in B0. destruct B0 as [paq [R B0]]. apply rbind_ok in B0. destruct B0 as [ki [K B0]].
    apply rbind_ok in B0. destruct B0 as [pi [P B0]].
    destruct (dget paq "rnd_strategy") as [v|] eqn:V; [|discriminate].
    match type of B0 with Ok ?t = _ => assert (H : o0 = t) by congruence end. clear B0. subst o0.
    cbn [o_args o_ki o_pi o_w a_cls a_keras a_kq a_paq a_pf a_mom a_eps a_center a_scale] in *.
    rewrite map_map in WN, WS. cbn [fst snd shape] in WN, WS.
    match type of WN with _ = map _ ?t => set (l := t) in * end.
    assert (Hf : find (fun e : string * list nat => String.eqb (fst e) "activation_bw") l = Some ("activation_bw"%string, i_shape (o_pi o))).
    { rewrite HP. subst l. unfold weight_shapes. destruct ki, (g_bias (geo_of (a_cls (o_args o)) (a_keras a0) (o_in o))); reflexivity. }
    destruct (find_shape _ l _ _ WN WS HF Hf) as [t [T1 [T2 T3]]].
    assert (W : weight o "activation_bw" = t) by (unfold weight; rewrite T1; reflexivity).
    rewrite W. split; [exact T2|]. split; [exact T3|]. split.
    - unfold geo. intros G. remember (a_cls (o_args o)) as c. rewrite HA in G |- *. cbn [a_keras a_center] in G |- *. rewrite G. apply andb_false_r.
    - rewrite HK. destruct (has_kernel (a_cls (o_args o))).
      + apply rbind_ok in K. destruct K as [i [_ K]]. assert (ki = Some i) by congruence. split; congruence.
      + assert (ki = None) by congruence. split; congruence.
  Qed.

  Lemma map_const {A B C} (x : C) (l : list A) (m : list B) : Datatypes.length l = Datatypes.length m -> map (fun _ => x) l = map (fun _ => x) m.
  Proof. revert m. induction l as [|a l IH]; intros [|b m] H; try discriminate; [reflexivity|]. cbn [map]. f_equal. apply IH. injection H as H. exact H. Qed.

  Variable exact_of : dict -> bool.
  Variable clip_of : dict -> option (Qc * Qc).

  Lemma paq_loaded o : in_use geo_of o -> paq_of exact_of clip_of (loaded o) = minmax_reg_reset (paq_of exact_of clip_of o).
  Proof.
    intros U. destruct (in_use_facts o U) as [S [L _]].
    unfold paq_of, minmax_reg_reset, with_minmax, loaded. cbn [o_args o_in o_pi o_min o_max a_paq q_fbw q_skip q_strategy q_exact q_clip].
    change (weight (mkO _ _ _ _ (o_w o) _ _) "activation_bw") with (weight o "activation_bw").
    f_equal; unfold fresh, tmap; rewrite S; f_equal; apply map_const; rewrite seq_length; symmetry; exact L.
  Qed.

  Lemma layer_loaded rsqrt o : in_use geo_of o -> bn_default geo_of o ->
    layer_of geo_of exact_of clip_of rsqrt (loaded o) = uncalibrated (layer_of geo_of exact_of clip_of rsqrt o).
  Proof.
    intros U BN. pose proof (paq_loaded o U) as PQ. destruct (in_use_facts o U) as [_ [_ [C _]]].
    unfold layer_of. change (o_ki (loaded o)) with (o_ki o). change (geo geo_of (loaded o)) with (geo geo_of o).
    change (a_cls (o_args (loaded o))) with (a_cls (o_args o)).
    destruct (o_ki o) as [i|]; [|unfold uncalibrated; cbn [l_op l_paq l_relu l_loc l_out]; rewrite PQ; reflexivity].
    change (kq_of exact_of clip_of (loaded o) i) with (kq_of exact_of clip_of o i).
    change (bias_of geo_of (loaded o)) with (bias_of geo_of o). change (weight (loaded o)) with (weight o).
    destruct (is_bn (a_cls (o_args o))) eqn:Hb; [|unfold uncalibrated; cbn [l_op l_paq l_relu l_loc l_out]; rewrite PQ; reflexivity].
    destruct (BN Hb) as [B1 [B2 B3]].
    assert (Cn : a_center (o_args (loaded o)) = a_center (o_args o)).
    { unfold loaded. cbn [o_args a_center]. destruct (g_bias (geo geo_of o)); [rewrite B3 by discriminate; reflexivity|rewrite C; reflexivity]. }
    unfold bn_hlayer, bn_of, uncalibrated. cbn [l_op l_paq l_relu l_loc l_out b_ts b_kernel b_kq b_bias b_bias_loc b_paq b_relu b_loc b_out].
    rewrite PQ, Cn, B1, B2. reflexivity.
  Qed.
End S.

(** Registers do not influence calls that do not record. *)
Lemma forward_registers pw ln2 q mn mx x training noise :
  rbind (forward pw ln2 (with_minmax q mn mx) x training false noise) (fun r => Ok (fst r)) =
  rbind (forward pw ln2 q x training false noise) (fun r => Ok (fst r)).
Proof.
  unfold forward. cbn [with_minmax q_fbw q_strategy q_exact negb]. destruct (bmap2 _ _ _ x (q_fbw q)); cbn [rbind]; [|reflexivity].
  destruct (rseq _); reflexivity.
Qed.

Lemma call_registers pw ln2 q mn mx x training noise :
  rbind (call pw ln2 (with_minmax q mn mx) x training false noise) (fun r => Ok (fst r)) =
  rbind (call pw ln2 q x training false noise) (fun r => Ok (fst r)).
Proof.
  unfold call. rewrite <- (forward_registers pw ln2 (clip_fbw q) mn mx). f_equal. f_equal.
  destruct q as [f a b s st e [[lo hi]|]]; reflexivity.
Qed.

Lemma uncalibrated_outputs pw ln2 l xs training nk nb na :
  rbind (hforward pw ln2 (uncalibrated l) xs training false nk nb na) (fun r => Ok (fst r)) =
  rbind (hforward pw ln2 l xs training false nk nb na) (fun r => Ok (fst r)).
Proof.
  unfold hforward. assert (P : pre_activation pw ln2 (uncalibrated l) xs training nk nb = pre_activation pw ln2 l xs training nk nb) by reflexivity.
  rewrite P. destruct (pre_activation pw ln2 l xs training nk nb) as [zo|]; cbn [rbind]; [|reflexivity].
  pose proof (call_registers pw ln2 (l_paq l) (tmap (fun _ => PosInf) (q_fbw (l_paq l))) (tmap (fun _ => NegInf) (q_fbw (l_paq l)))
    (batch_tensor (l_out l) (fst zo)) training na) as H.
  cbn [uncalibrated l_op l_paq l_relu l_loc l_out]. unfold minmax_reg_reset.
  destruct (call pw ln2 (with_minmax _ _ _) _ training false na) as [r1|], (call pw ln2 (l_paq l) _ training false na) as [r2|];
    cbn [rbind fst] in *; try congruence. assert (E : fst r1 = fst r2) by congruence. rewrite E. reflexivity.
Qed.

(** Batch-norm layers in training. *)
Definition uncalibrated_bn (b : bnlayer) : bnlayer :=
  mkB (b_ts b) (b_kernel b) (b_kq b) (b_bias b) (b_bias_loc b) (b_center b) (b_scale b) (b_gamma b) (b_beta b) (b_mean b) (b_var b)
      (b_eps b) (b_momentum b) (minmax_reg_reset (b_paq b)) (b_relu b) (b_loc b) (b_out b).

Lemma bn_loaded geo_of exact_of clip_of o i : in_use geo_of o -> bn_default geo_of o -> is_bn (a_cls (o_args o)) = true ->
  a_mom (o_args o) = Q2Qc (99 # 100) ->
  bn_of geo_of exact_of clip_of (loaded geo_of o) i = uncalibrated_bn (bn_of geo_of exact_of clip_of o i).
Proof.
  intros U BN Hb Hm. pose proof (paq_loaded geo_of exact_of clip_of o U) as PQ. destruct (in_use_facts geo_of o U) as [_ [_ [C _]]].
  destruct (BN Hb) as [B1 [B2 B3]].
  assert (Cn : a_center (o_args (loaded geo_of o)) = a_center (o_args o)).
  { unfold loaded. cbn [o_args a_center]. destruct (g_bias (geo geo_of o)); [rewrite B3 by discriminate; reflexivity|rewrite C; reflexivity]. }
  unfold bn_of, uncalibrated_bn. cbn [b_ts b_kernel b_kq b_bias b_bias_loc b_center b_scale b_gamma b_beta b_mean b_var b_eps b_momentum b_paq b_relu b_loc b_out].
  rewrite PQ, Cn, B1, B2, Hm. reflexivity.
Qed.

Lemma bn_train_registers rsqrt pw ln2 b xs nk nb na :
  rbind (bn_train rsqrt pw ln2 (uncalibrated_bn b) xs false nk nb na) (fun r => Ok (fst r, b_kq (snd r), b_mean (snd r), b_var (snd r))) =
  rbind (bn_train rsqrt pw ln2 b xs false nk nb na) (fun r => Ok (fst r, b_kq (snd r), b_mean (snd r), b_var (snd r))).
Proof.
  assert (BF : forall x t c n, bias_forward pw ln2 (minmax_reg_reset (b_paq b)) x t c n = bias_forward pw ln2 (b_paq b) x t c n) by reflexivity.
  unfold bn_train. cbv zeta. cbn [uncalibrated_bn b_ts b_kernel b_kq b_bias b_bias_loc b_center b_scale b_gamma b_beta b_mean b_var b_eps b_momentum b_paq b_relu b_loc b_out].
  match goal with |- rbind (rbind ?x _) _ = _ => destruct x as [wk|]; cbn [rbind]; [|reflexivity] end.
  match goal with |- rbind (rbind ?x _) _ = _ => destruct x as [wk'|]; cbn [rbind]; [|reflexivity] end.
  change (n_chan (uncalibrated_bn b)) with (n_chan b). change (chans (uncalibrated_bn b)) with (chans b).
  match goal with |- rbind (rbind ?x _) _ = rbind (rbind ?y _) _ => change x with y; destruct y as [z|]; cbn [rbind]; [|reflexivity] end.
  pose proof (call_registers pw ln2 (b_paq b) (tmap (fun _ => PosInf) (q_fbw (b_paq b))) (tmap (fun _ => NegInf) (q_fbw (b_paq b)))
    (batch_tensor (b_out b) z) true na) as H.
  unfold minmax_reg_reset.
  destruct (call pw ln2 (with_minmax _ _ _) _ true false na) as [r1|], (call pw ln2 (b_paq b) _ true false na) as [r2|];
    cbn [rbind fst snd b_kq b_mean b_var] in *; try congruence. assert (E : fst r1 = fst r2) by congruence. rewrite E. reflexivity.
Qed.

(** What the adaptation leaves alone. *)
Lemma train_keeps geo_of exact_of clip_of rsqrt pw ln2 lg o i xs o' :
  first_training_call geo_of exact_of clip_of rsqrt pw ln2 lg o i xs = Ok o' ->
  (let a := o_args o in
   o_args o' = mkA (a_cls a) (a_keras a) (a_kq a) (a_paq a) (a_beta (o_args o')) (a_pf a) (a_mom a) (a_eps a) (a_center a) (a_scale a) (a_adapt (o_args o'))) /\
  o_ki o' = o_ki o /\ o_pi o' = o_pi o /\ map fst (o_w o') = map fst (o_w o) /\ o_in o' = o_in o /\ a_beta (o_args o') = a_beta (o_args o).
Proof.
  unfold first_training_call. destruct (a_adapt (o_args o) && delayed (a_cls (o_args o)))%bool.
  - intros E. apply rbind_ok in E. destruct E as [t [_ E]]. apply rbind_ok in E. destruct E as [f [_ E]].
    match type of E with Ok ?t = _ => assert (H : o' = t) by congruence end. subst o'. cbn.
    repeat split. unfold put. rewrite map_map. apply map_ext. intros [n w]. cbn [fst snd]. destruct (String.eqb n "kernel_bw"); reflexivity.
  - intros E. assert (o' = o) by congruence. subst o'. cbv zeta. destruct (o_args o); repeat split.
Qed.

Lemma weight_loaded geo_of o n : weight (loaded geo_of o) n = weight o n.
Proof. reflexivity. Qed.

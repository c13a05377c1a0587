(** Lemmas about configurations. *)
From Coq Require Import ZArith Qcanon List Bool String Lia.
From Verif Require Import Base.Num Base.Tensor Model.Quantizer Model.Conf Spec.Conf.
Import ListNotations.
Open Scope Z_scope.

Lemma set_dim_length {A} (l : list A) n v : List.length (set_nth l n v) = List.length l.
Proof. revert n. induction l; intros [|n]; cbn; congruence. Qed.
Lemma set_dim_same {A} (l : list A) n v d : (n < List.length l)%nat -> nth n (set_nth l n v) d = v.
Proof. revert n. induction l; intros [|n] H; cbn in *; try lia; [reflexivity|apply IHl; lia]. Qed.
Lemma set_dim_other {A} (l : list A) n m v d : n <> m -> nth m (set_nth l n v) d = nth m l d.
Proof. revert n m. induction l; intros [|n] [|m] H; cbn in *; try congruence; try reflexivity. apply IHl. congruence. Qed.
Lemma set_dim_over {A} (l : list A) n v : (List.length l <= n)%nat -> set_nth l n v = l.
Proof. revert n. induction l; intros [|n] H; cbn in *; try lia; [reflexivity..|]. f_equal. apply IHl. lia. Qed.
Lemma set_dim_In {A} (l : list A) n v x : In x (set_nth l n v) -> x = v \/ In x l.
Proof. revert n. induction l; intros [|n] H; cbn in *; try tauto; [destruct H; auto|]. destruct H as [H|H]; [auto|]. apply IHl in H. tauto. Qed.

Lemma dget_key d k : (exists v, dget d k = Some v) <-> has_key d k.
Proof.
  unfold has_key. induction d as [|[k' v'] d IH]; cbn; [split; [intros [v H]; discriminate|intros [v []]]|].
  destruct (String.eqb_spec k' k) as [->|N].
  - split; intros _; eauto.
  - rewrite IH. split; [intros [v H]; eauto|]. intros [v [E|H]]; [congruence|eauto].
Qed.
Lemma dset_get d k v x : dget (dset d k v) x = if String.eqb k x then Some v else dget d x.
Proof.
  induction d as [|[k' v'] d IH]; cbn; [reflexivity|]. destruct (String.eqb_spec k' k) as [->|N]; cbn.
  - destruct (String.eqb_spec k x); reflexivity.
  - rewrite IH. destruct (String.eqb_spec k' x) as [->|]; [|reflexivity]. destruct (String.eqb_spec k x); [congruence|reflexivity].
Qed.
Lemma dset_key d k v x : has_key (dset d k v) x <-> has_key d x \/ x = k.
Proof.
  rewrite <- !dget_key, dset_get. destruct (String.eqb_spec k x) as [->|N]; [split; [auto|eauto]|]. split; [auto|]. intros [H|H]; [exact H|congruence].
Qed.
Lemma same_keys_spec a b : same_keys a b = true <-> forall k, has_key a k <-> has_key b k.
Proof.
  unfold same_keys. rewrite andb_true_iff, !forallb_forall.
  assert (X : forall (d : dict) k, existsb (fun e' => String.eqb k (fst e')) d = true <-> has_key d k).
  { intros d k. rewrite existsb_exists. split; [intros [[k' v] [H E]]; apply String.eqb_eq in E; cbn in E; subst; exists v; exact H|intros [v H]; exists (k, v); split; [exact H|apply String.eqb_refl]]. }
  split.
  - intros [A B] k. split; intros [v H]; [apply X, (A _ H)|apply X, (B _ H)].
  - intros H. split; intros [k v] Hin; apply X, H; exists v; exact Hin.
Qed.

(** Which objects a statement may change. *)
Lemma rewrite_spec l st st' r : activation_rewrite l st = (st', r) ->
  (st' = st \/ (c_act l = true /\ dget (obj st (c_paq l)) "rnd_strategy" = Some (VStr "auto") /\
    st' = with_dicts st (set_nth (dicts st) (c_paq l) (dset (obj st (c_paq l)) "rnd_strategy" (VStr "standard_round"))))) /\
  (c_act l = true -> r = false -> dget (obj st' (c_paq l)) "rnd_strategy" <> Some (VStr "auto")).
Proof.
  unfold activation_rewrite. fold (obj st (c_paq l)). destruct (c_act l).
  2:{ intros E. assert (st' = st) by congruence. split; [auto|discriminate]. }
  destruct (dget (obj st (c_paq l)) "rnd_strategy") as [v|] eqn:E.
  2:{ intros H. assert (st' = st /\ r = true) as [-> ->] by (split; congruence). split; [auto|discriminate]. }
  assert (D : (is_auto v = true /\ v = VStr "auto") \/ (is_auto v = false /\ v <> VStr "auto")).
  { destruct v as [| |s| | |]; try (right; split; [reflexivity|discriminate]). cbn. destruct (String.eqb_spec s "auto") as [->|N]; [left; auto|right; split; [reflexivity|congruence]]. }
  destruct D as [[AA ->]|[AA N]]; rewrite AA.
  - intros H. assert (st' = with_dicts st (set_nth (dicts st) (c_paq l) (dset (obj st (c_paq l)) "rnd_strategy" (VStr "standard_round")))) by congruence. subst st'. split; [auto|].
    intros _ _. unfold obj at 1, with_dicts. cbn [dicts]. assert (L : (c_paq l < List.length (dicts st))%nat).
    { destruct (Nat.lt_ge_cases (c_paq l) (List.length (dicts st))) as [L|L]; [exact L|]. unfold obj in E. rewrite nth_overflow in E by exact L. discriminate. }
    rewrite set_dim_same by exact L. rewrite dset_get. cbn. discriminate.
  - intros H. assert (st' = st) by congruence.
    subst st'. split; [auto|]. intros _ _ C. rewrite E in C. congruence.
Qed.
Lemma get_default_spec w st : fst (get_default w st) = with_dicts st (dicts st ++ [obj st (default_of w st)]) /\ snd (get_default w st) = List.length (dicts st).
Proof. split; reflexivity. Qed.
Lemma obj_app st d a : (a < List.length (dicts st))%nat -> nth a (dicts st ++ [d]) [] = obj st a.
Proof. intros H. apply app_nth1. exact H. Qed.

(** A state extends another if the objects of the latter are still there. *)
Lemma cod_spec w c st st' a : conf_or_default w c st = (st', a) ->
  (st' = st /\ c = Some a /\ obj st a <> []) \/ (st' = with_dicts st (dicts st ++ [obj st (default_of w st)]) /\ a = List.length (dicts st)).
Proof.
  unfold conf_or_default. destruct c as [b|]; [|intros H; right; unfold get_default, obj in *; split; congruence].
  fold (obj st b). destruct (obj st b) eqn:E; intros H.
  - right. unfold get_default in H. fold (obj st (default_of w st)) in H. split; congruence.
  - left. assert (st' = st /\ a = b) as [-> ->] by (split; congruence). rewrite E. repeat split. discriminate.
Qed.
Lemma new_layer_spec sp k p st : exists more l, dicts (new_layer sp k p st) = dicts st ++ more /\ regs (new_layer sp k p st) = regs st /\
  def_kq (new_layer sp k p st) = def_kq st /\ def_paq (new_layer sp k p st) = def_paq st /\ clayers (new_layer sp k p st) = clayers st ++ [l] /\
  c_act l = s_act sp /\ c_bias l = s_bias sp /\ c_kernel l = s_kernel sp /\ c_outshape l = s_out sp /\ c_loc l = s_loc sp /\
  ((p = Some (c_paq l) /\ nth (c_paq l) (dicts st ++ more) [] <> []) \/
   (List.length (dicts st) <= c_paq l < List.length (dicts st ++ more))%nat /\ (p = None -> (def_paq st < List.length (dicts st))%nat -> nth (c_paq l) (dicts st ++ more) [] = obj st (def_paq st))).
Proof.
  unfold new_layer. destruct (conf_or_default KQ k st) as [st1 kq] eqn:E1. destruct (conf_or_default PAQ p st1) as [st2 paq] eqn:E2.
  apply cod_spec in E1. apply cod_spec in E2.
  assert (D1 : exists more, dicts st1 = dicts st ++ more /\ regs st1 = regs st /\ def_kq st1 = def_kq st /\ def_paq st1 = def_paq st /\ clayers st1 = clayers st).
  { destruct E1 as [[-> _]|[-> _]]; [exists []; rewrite app_nil_r; auto|eexists; split; [reflexivity|auto]]. }
  destruct D1 as (m1 & D1 & R1 & K1 & P1 & L1).
  assert (LB : (List.length (dicts st) <= List.length (dicts st1))%nat) by (rewrite D1, app_length; lia).
  destruct E2 as [(-> & -> & NE)|[-> ->]].
  - exists m1. eexists. cbn. rewrite <- D1. repeat (split; [first [assumption|congruence|reflexivity]|]). split; [rewrite L1; reflexivity|]. cbn. repeat (split; [reflexivity|]). left. split; [reflexivity|exact NE].
  - exists (m1 ++ [obj st1 (def_paq st1)]). eexists. cbn. rewrite app_assoc, <- D1. repeat (split; [first [assumption|congruence|reflexivity]|]). split; [rewrite L1; reflexivity|]. cbn. repeat (split; [reflexivity|]). right.
    rewrite app_length. cbn. split; [lia|]. intros _ Hp. rewrite app_nth2 by lia. rewrite Nat.sub_diag. cbn. rewrite P1. unfold obj. rewrite D1. apply app_nth1. exact Hp.
Qed.
Lemma build_spec n st : exists st1, (forall a, obj (fst (build_layer n st)) a = obj st1 a) /\ def_kq (fst (build_layer n st)) = def_kq st /\ def_paq (fst (build_layer n st)) = def_paq st /\
  List.length (dicts (fst (build_layer n st))) = List.length (dicts st) /\
  (st1 = st \/ exists l, In l (clayers st) /\ c_act l = true /\ dget (obj st (c_paq l)) "rnd_strategy" = Some (VStr "auto") /\
     st1 = with_dicts st (set_nth (dicts st) (c_paq l) (dset (obj st (c_paq l)) "rnd_strategy" (VStr "standard_round")))) /\
  (forall l', In l' (clayers (fst (build_layer n st))) -> exists l, In l (clayers st) /\ c_act l' = c_act l /\ c_paq l' = c_paq l).
Proof.
  unfold build_layer. destruct (nth_error (clayers st) n) as [l|] eqn:EL.
  2:{ exists st. cbn. repeat (split; [auto|]). intros; eauto. }
  pose proof (nth_error_In _ _ EL) as HIn.
  destruct (activation_rewrite l st) as [st' r] eqn:ER. pose proof (rewrite_spec _ _ _ _ ER) as [RS _].
  assert (X : def_kq st' = def_kq st /\ def_paq st' = def_paq st /\ List.length (dicts st') = List.length (dicts st) /\ clayers st' = clayers st).
  { destruct RS as [->|(_ & _ & ->)]; [auto|]. cbn. rewrite set_dim_length. auto. }
  destruct X as (X1 & X2 & X3 & X4).
  assert (Y : st' = st \/ exists l, In l (clayers st) /\ c_act l = true /\ dget (obj st (c_paq l)) "rnd_strategy" = Some (VStr "auto") /\
     st' = with_dicts st (set_nth (dicts st) (c_paq l) (dset (obj st (c_paq l)) "rnd_strategy" (VStr "standard_round")))).
  { destruct RS as [->|(A & B & C)]; [auto|]. right. exists l. auto. }
  exists st'. destruct r; cbn [fst]; [repeat (split; [auto|]); rewrite X4; eauto|].
  destruct (build_quantizers _ _ l) as [[ks ps]|]; cbn [fst]; [|repeat (split; [auto|]); rewrite X4; eauto].
  repeat (split; [auto|]). cbn. rewrite X4. intros l' H. apply set_dim_In in H as [->|H]; eauto.
Qed.

Lemma obj_lt st a : obj st a <> [] -> (a < List.length (dicts st))%nat.
Proof. intros H. destruct (Nat.lt_ge_cases a (List.length (dicts st))) as [L|L]; [exact L|]. exfalso. apply H. unfold obj. apply nth_overflow. exact L. Qed.
Lemma step_wfc o st : wfc st -> wfc (step o st).
Proof.
  intros (A & B & C). destruct o; cbn [step].
  - split; [|split]; cbn; rewrite app_length; cbn; [lia|lia|]. intros l H. specialize (C l H). lia.
  - split; [|split]; cbn; rewrite set_dim_length; [lia|lia|]. exact C.
  - split; [|split]; cbn; rewrite set_dim_length; [lia|lia|]. exact C.
  - split; [|split]; assumption.
  - split; [|split]; cbn; rewrite app_length; cbn; [lia|lia|]. intros l H. specialize (C l H). lia.
  - unfold set_default. destruct v as [|a]; cbn [fst]; [split; auto|]. destruct (nth_error (dicts st) a) as [d|] eqn:E; cbn [fst]; [|split; auto].
    destruct (same_keys _ _); cbn [fst]; [|split; auto]. assert (L : (a < List.length (dicts st))%nat) by (apply nth_error_Some; congruence). destruct w; split; [|split| |split]; cbn; auto.
  - destruct (new_layer_spec sp kq_conf paq_conf st) as (more & l & D & _ & K & P & L & _ & _ & _ & _ & _ & Q). split; [|split].
    + rewrite K, D, app_length. lia. + rewrite P, D, app_length. lia.
    + rewrite L, D. intros l' H. apply in_app_or in H as [H|[<-|[]]]; [specialize (C l' H); rewrite app_length; lia|].
      destruct Q as [[_ Q]|[Q _]]; [|lia]. destruct (Nat.lt_ge_cases (c_paq l) (List.length (dicts st ++ more))) as [Z|Z]; [exact Z|]. exfalso. apply Q. apply nth_overflow. exact Z.
  - destruct (build_spec n st) as (st1 & _ & K & P & LD & _ & LL). split; [|split].
    + rewrite K, LD. exact A. + rewrite P, LD. exact B.
    + intros l' H. apply LL in H as (l & H & _ & E). rewrite LD, E. apply C, H.
Qed.
Lemma run_wfc h st : wfc st -> wfc (run h st).
Proof. revert st. induction h as [|o h IH]; intros st H; [exact H|]. cbn. apply IH, step_wfc, H. Qed.
Lemma init_wfc : wfc cinit.
Proof. split; [cbn; lia|]. split; [cbn; lia|]. intros l []. Qed.

(** An object that no statement writes to or hands to a layer, and that no
    activation layer holds, keeps its contents. *)
Lemma step_keeps o st a : wfc st -> (a < List.length (dicts st))%nat -> not_rewritten a st -> ~ In a (writes o) -> ~ In a (lends o) ->
  obj (step o st) a = obj st a /\ (a < List.length (dicts (step o st)))%nat /\ not_rewritten a (step o st).
Proof.
  intros W L N H1 H2. destruct o; cbn [step writes lends] in *.
  - split; [apply obj_app, L|]. split; [cbn; rewrite app_length; lia|exact N].
  - split; [unfold obj; cbn; apply set_dim_other; intros ->; apply H1; left; reflexivity|]. split; [cbn; rewrite set_dim_length; exact L|exact N].
  - split; [unfold obj; cbn; apply set_dim_other; intros ->; apply H1; left; reflexivity|]. split; [cbn; rewrite set_dim_length; exact L|exact N].
  - auto.
  - split; [apply obj_app, L|]. split; [cbn; rewrite app_length; lia|exact N].
  - unfold set_default. destruct v as [|b]; cbn [fst]; [auto|]. destruct (nth_error (dicts st) b); cbn [fst]; [|auto]. destruct (same_keys _ _); cbn [fst]; [|auto]. destruct w; cbn; auto.
  - destruct (new_layer_spec sp kq_conf paq_conf st) as (more & l & D & _ & K & P & LL & _ & _ & _ & _ & _ & Q). split; [|split].
    + unfold obj. rewrite D. apply app_nth1, L.
    + rewrite D, app_length. lia.
    + intros l' H A. rewrite LL in H. apply in_app_or in H as [H|[<-|[]]]; [apply N; assumption|]. destruct Q as [[-> _]|[Q _]]; [|lia]. intros E. apply H2. left. exact E.
  - destruct (build_spec n st) as (st1 & O & _ & _ & LD & X & LL). split; [|split].
    + rewrite O. destruct X as [->|(l & Hl & Al & _ & ->)]; [reflexivity|]. unfold obj, with_dicts. cbn. apply set_dim_other. apply N; assumption.
    + rewrite LD. exact L.
    + intros l' H A. apply LL in H as (l & H & EA & EP). rewrite EP. apply N; [exact H|congruence].
Qed.
Lemma run_keeps h st a : wfc st -> (a < List.length (dicts st))%nat -> not_rewritten a st -> leaves_alone a h ->
  obj (run h st) a = obj st a /\ (a < List.length (dicts (run h st)))%nat /\ not_rewritten a (run h st).
Proof.
  revert st. induction h as [|o h IH]; intros st W L N H; [auto|]. inversion H as [|? ? [A B] H']; subst. destruct (step_keeps o st a W L N A B) as (E & L' & N').
  destruct (IH (step o st) (step_wfc o st W) L' N' H') as (E2 & L2 & N2). cbn. unfold run in *. rewrite E2. auto.
Qed.
Lemma step_default o st w : (forall v, o <> OSet w v) -> default_of w (step o st) = default_of w st.
Proof.
  intros H. destruct o; cbn [step]; try reflexivity; try (destruct w; reflexivity).
  - unfold set_default. destruct v as [|a]; [reflexivity|]. destruct (nth_error (dicts st) a); [|reflexivity]. destruct (same_keys _ _); [|reflexivity]. cbn [fst]. destruct w, w0; try reflexivity; exfalso; eapply H; reflexivity.
  - destruct (new_layer_spec sp kq_conf paq_conf st) as (more & l & D & _ & K & P & _). destruct w; cbn; assumption.
  - destruct (build_spec n st) as (st1 & _ & K & P & _). destruct w; cbn; assumption.
Qed.
Lemma run_default h st w : no_set w h -> default_of w (run h st) = default_of w st.
Proof. revert st. induction h as [|o h IH]; intros st H; [reflexivity|]. inversion H; subst. cbn. unfold run in IH. rewrite IH by assumption. apply step_default. assumption. Qed.

(** Keys. *)
Lemma step_keys o st a k : wfc st -> (a < List.length (dicts st))%nat -> ~ In a (writes o) -> has_key (obj (step o st) a) k <-> has_key (obj st a) k.
Proof.
  intros W L H. destruct o; cbn [step writes] in *.
  - unfold obj at 1. cbn. rewrite app_nth1 by exact L. reflexivity.
  - unfold obj at 1. cbn. rewrite set_dim_other; [reflexivity|]. intros ->; apply H; left; reflexivity.
  - unfold obj at 1. cbn. rewrite set_dim_other; [reflexivity|]. intros ->; apply H; left; reflexivity.
  - reflexivity.
  - unfold obj at 1. cbn. rewrite app_nth1 by exact L. reflexivity.
  - unfold set_default. destruct v as [|b]; cbn [fst]; [reflexivity|]. destruct (nth_error (dicts st) b); cbn [fst]; [|reflexivity]. destruct (same_keys _ _); cbn [fst]; [|reflexivity]. destruct w; reflexivity.
  - destruct (new_layer_spec sp kq_conf paq_conf st) as (more & l & D & _). unfold obj at 1. rewrite D, app_nth1 by exact L. reflexivity.
  - destruct (build_spec n st) as (st1 & O & _ & _ & LD & X & LL). rewrite O. destruct X as [->|(l & Hl & Al & G & ->)]; [reflexivity|].
    unfold obj at 1, with_dicts. cbn. destruct (Nat.eq_dec (c_paq l) a) as [E|E]; [|rewrite set_dim_other by exact E; reflexivity].
    rewrite E. rewrite set_dim_same by exact L. rewrite dset_key. rewrite E in G. split; [|auto]. intros [A| ->]; [exact A|]. apply dget_key. eauto.
Qed.
Lemma step_set_keys w st v k : wfc st -> has_key (obj (step (OSet w v) st) (default_of w (step (OSet w v) st))) k <-> has_key (obj st (default_of w st)) k.
Proof.
  intros W. cbn [step]. unfold set_default. destruct v as [|b]; cbn [fst]; [reflexivity|]. destruct (nth_error (dicts st) b) as [d|] eqn:E; cbn [fst]; [|reflexivity].
  destruct (same_keys d (nth (default_of w st) (dicts st) [])) eqn:K; cbn [fst]; [|reflexivity]. rewrite same_keys_spec in K.
  assert (O : obj st b = d) by (apply nth_error_nth; exact E).
  destruct w; [change (has_key (obj st b) k <-> has_key (obj st (def_kq st)) k)|change (has_key (obj st b) k <-> has_key (obj st (def_paq st)) k)]; rewrite O; apply K.
Qed.
Lemma tidy_keys w h st given : wfc st -> tidy given h -> In (default_of w st) given ->
  forall k, has_key (obj (run h st) (default_of w (run h st))) k <-> has_key (obj st (default_of w st)) k.
Proof.
  revert st given. induction h as [|o h IH]; intros st given W T I k; [reflexivity|]. destruct T as [T1 T2]. cbn. unfold run in IH.
  assert (D : forall v w0, {o = OSet w0 v} + {o <> OSet w0 v} -> True) by auto.
  assert (L : (default_of w st < List.length (dicts st))%nat) by (destruct W as (? & ? & _), w; assumption).
  assert (NW : ~ In (default_of w st) (writes o)) by (intros C; exact (T1 _ C I)).
  assert (CS : (exists v, o = OSet w v) \/ forall v, o <> OSet w v).
  { destruct o; try (right; intros; discriminate). destruct w, w0; try (right; intros; discriminate); left; eauto. }
  rewrite (IH (step o st) (sets o ++ given) (step_wfc _ _ W) T2).
  - destruct CS as [[v ->]|N].
    + apply step_set_keys, W.
    + rewrite step_default by exact N. apply step_keys; assumption.
  - apply in_or_app. destruct CS as [[v ->]|N].
    + cbn [step]. unfold set_default. destruct v as [|b]; cbn [fst]; [right; exact I|]. destruct (nth_error (dicts st) b); cbn [fst]; [|right; exact I]. destruct (same_keys _ _); cbn [fst]; [|right; exact I].
      left. cbn. left. destruct w; reflexivity.
    + right. rewrite step_default by exact N. exact I.
Qed.

(** Building. *)
Lemma build_strategy n st l st' : nth_error (clayers st) n = Some l -> (c_paq l < List.length (dicts st))%nat -> build_layer n st = (st', false) ->
  exists l' v qs sd deg, nth_error (clayers st') n = Some l' /\ dget (obj st (c_paq l)) "rnd_strategy" = Some v /\
    dget (obj st (c_paq l)) "skip_dims" = Some sd /\ bw_shape sd (c_outshape l) = Ok (map Some qs, deg) /\
    c_pstrat l' = Some (if is_auto v then VInt (if c_act l then 0 else if covers (c_bias l) qs (c_loc l) then 0 else 3) else strategy_of v).
Proof.
  intros EL L H. unfold build_layer in H. rewrite EL in H. destruct (activation_rewrite l st) as [st1 r] eqn:ER. destruct r; [discriminate|].
  destruct (build_quantizers _ _ l) as [[ks ps]|] eqn:EB; [|discriminate]. assert (HS : st' = with_layers st1 (set_nth (clayers st1) n (mkCL (c_act l) (c_kq l) (c_paq l) (c_kernel l) (c_bias l) (c_outshape l) (c_loc l) ks (Some ps)))) by congruence. clear H.
  apply rewrite_spec in ER as [RS RN].
  assert (LY : clayers st1 = clayers st) by (destruct RS as [->|(_ & _ & ->)]; reflexivity).
  assert (LN : (n < List.length (clayers st))%nat) by (apply nth_error_Some; congruence).
  unfold build_quantizers in EB. fold (obj st1 (c_paq l)) in EB.
  destruct (match c_kernel l with Some _ => _ | None => _ end) as [kst|]; cbn [rbind] in EB; [|discriminate].
  destruct (from_config (obj st1 (c_paq l))) as [[qstrat sd]|] eqn:EF; cbn [rbind fst snd] in EB; [|discriminate].
  destruct (bw_shape sd (c_outshape l)) as [[sh deg]|] eqn:EC; cbn [rbind fst snd] in EB; [|discriminate].
  destruct (known sh) as [qs|] eqn:EK; cbn [rbind] in EB; [|discriminate].
  destruct (dget (obj st1 (c_paq l)) "rnd_strategy") as [v|] eqn:EV; [|discriminate].
  assert (Hsh : sh = map Some qs).
  { clear -EK. revert qs EK. induction sh as [|[m|] sh IH]; intros qs E; cbn in E; [assert (qs = []) by congruence; subst; reflexivity| |discriminate].
    destruct (known sh) as [r|]; cbn in E; [|discriminate]. assert (qs = m :: r) by congruence. subst qs. cbn. f_equal. apply IH. reflexivity. }
  subst sh.
  assert (FC : dget (obj st1 (c_paq l)) "skip_dims" = Some sd /\ qstrat = strategy_of v).
  { unfold from_config in EF. destruct (negb _); [discriminate|]. destruct (dget (obj st1 (c_paq l)) "init_bw"); [|discriminate]. destruct (dget (obj st1 (c_paq l)) "skip_dims") as [s'|]; [|discriminate].
    rewrite EV in EF. split; congruence. }
  destruct FC as [FC ->].
  assert (PS : ps = if is_auto v then VInt (if covers (c_bias l) qs (c_loc l) then 0 else 3) else strategy_of v) by congruence.
  eexists. assert (NE : nth_error (clayers st') n = Some (mkCL (c_act l) (c_kq l) (c_paq l) (c_kernel l) (c_bias l) (c_outshape l) (c_loc l) ks (Some ps))).
  { subst st'. cbn. rewrite LY. rewrite (nth_error_nth' _ l) by (rewrite set_dim_length; exact LN). f_equal. apply set_dim_same, LN. }
  destruct RS as [->|(A & B & ->)].
  - exists v, qs, sd, deg. split; [exact NE|]. split; [exact EV|]. split; [exact FC|]. split; [exact EC|]. cbn [c_pstrat]. f_equal. rewrite PS. destruct (c_act l) eqn:EA; [|reflexivity].
    specialize (RN eq_refl eq_refl). destruct v as [| |s| | |]; try reflexivity. cbn. destruct (String.eqb_spec s "auto") as [->|Ns]; [congruence|reflexivity].
  - exists (VStr "auto"), qs, sd, deg. split; [exact NE|]. split; [exact B|].
    assert (O1 : obj (with_dicts st (set_nth (dicts st) (c_paq l) (dset (obj st (c_paq l)) "rnd_strategy" (VStr "standard_round")))) (c_paq l) = dset (obj st (c_paq l)) "rnd_strategy" (VStr "standard_round")).
    { unfold obj at 1. cbn. apply set_dim_same, L. }
    rewrite O1 in FC, EV. rewrite dset_get in FC, EV. cbn in FC, EV. split; [exact FC|]. split; [exact EC|]. cbn [c_pstrat]. f_equal. rewrite PS, A. assert (v = VStr "standard_round") by congruence. subst v. reflexivity.
Qed.

(** Layers against their proxies (C28-C31). *)
From Coq Require Import ZArith Qcanon List Bool String Lia.
From Verif Require Import Base.Num Base.NumFacts Base.Tensor Model.FixedPoint Model.Quantizer Model.Layers
  Spec.Fixed Spec.Quant Spec.Layer Proofs.TensorP Proofs.RecordP Proofs.HistoryP Proofs.ShapeP Proofs.CallP
  Proofs.FixedPointP Proofs.FixedPointLayerP Proofs.QuantizerP Proofs.BitsP Proofs.SampleP Proofs.ProxyElemP.
Import ListNotations.
Local Open Scope nat_scope.

(** ** Channels *)
Definition chan_axis (loc : Z) (c : nat) (out : list nat) : Prop :=
  (loc = (-1)%Z /\ exists pre, out = pre ++ [c]) \/ (loc = 1%Z /\ exists s, out = c :: s).

Lemma prodn1 c : prodn [c] = c.
Proof. unfold prodn. cbn. lia. Qed.

Lemma chan_facts loc c out : chan_axis loc c out -> 0 < prodn out ->
  exists dims, bias_dims loc (S (length out)) = Ok dims /\
    kept (axis_flags (S (length out)) dims) (1 :: out) = [c] /\ 0 < c /\
    forall e, e < prodn out -> ridx (axis_flags (S (length out)) dims) (1 :: out) e = chan loc out e /\ chan loc out e < c.
Proof.
  intros [[-> [pre ->]]|[-> [s ->]]] NZ.
  - exists (map Z.of_nat (seq 0 (S (length (pre ++ [c])) - 1))). split; [reflexivity|].
    rewrite prodn_app, prodn1 in NZ.
    assert (F : axis_flags (S (length (pre ++ [c]))) (map Z.of_nat (seq 0 (S (length (pre ++ [c])) - 1)))
                = repeat true (length (1 :: pre)) ++ repeat false 1).
    { rewrite app_length. cbn [length]. replace (S (length pre + 1)) with (S (length pre) + 1) by lia. rewrite axis_flags_last. reflexivity. }
    rewrite F. change (1 :: pre ++ [c]) with ((1 :: pre) ++ [c]). rewrite kept_prefix. split; [reflexivity|]. split; [nia|].
    intros e He. rewrite ridx_prefix by (cbn [app]; rewrite prodn_cons; lia). rewrite prodn1.
    unfold chan. cbn [Z.eqb]. rewrite last_last. split; [reflexivity|]. apply Nat.mod_upper_bound. nia.
  - exists (0%Z :: map Z.of_nat (seq 2 (S (length (c :: s)) - 2))). split; [reflexivity|].
    rewrite prodn_cons in NZ. cbn [length]. replace (S (S (length s)) - 2) with (length s) by lia.
    rewrite axis_flags_first. split; [cbn [kept]; rewrite kept_true; reflexivity|]. split; [nia|].
    intros e He. rewrite prodn_cons in He. cbn [ridx]. rewrite kept_true. change (prodn []) with 1. rewrite Nat.mul_1_r, prodn_cons.
    rewrite (Nat.mod_small e (c * prodn s)) by assumption.
    assert (Z0 : ridx (repeat true (length s)) s (e mod prodn s) = 0).
    { destruct (ridx_true s (e mod prodn s)) as [E|E]; [assumption|]. subst s. reflexivity. }
    rewrite Z0, Nat.add_0_r. unfold chan. cbn [Z.eqb Pos.eqb tl hd].
    assert (e / prodn s < c) by (apply Nat.div_lt_upper_bound; nia).
    rewrite Nat.mod_small by assumption. auto.
Qed.

Lemma bshape_app_last pre c : forall bw, bshape (pre ++ [c]) bw = Some (pre ++ [c]) ->
  exists pre' c', bw = pre' ++ [c'] /\ length pre' = length pre /\ (c' = c \/ c' = 1) /\ bshape pre pre' = Some pre.
Proof.
  induction pre as [|a pre IH]; intros [|b bw] E.
  - discriminate.
  - cbn [app] in E. apply bshape_cons_inv in E. destruct E as [E Hb]. destruct bw; [|discriminate].
    exists [], b. auto.
  - discriminate.
  - cbn [app] in E. apply (bshape_cons_inv a (pre ++ [c]) b bw) in E. destruct E as [E Hb].
    destruct (IH _ E) as [pre' [c' [-> [L [Hc Hp]]]]]. exists (b :: pre'), c'. cbn [app length bshape]. rewrite Hp.
    repeat split; auto. destruct (Nat.eqb_spec a b); [reflexivity|].
    destruct (Nat.eqb_spec a 1); [lia|]. destruct (Nat.eqb_spec b 1); [reflexivity|lia].
Qed.

Lemma bshape_pos a : forall b, bshape a b = Some a -> 0 < prodn a -> 0 < prodn b.
Proof.
  induction a as [|x a IH]; intros [|y b] E H; try discriminate; [cbn; lia|].
  apply (bshape_cons_inv x a y b) in E. destruct E as [E Hy]. rewrite prodn_cons in *.
  assert (0 < prodn b) by (apply IH; [assumption|nia]). destruct Hy as [->| ->]; nia.
Qed.

Lemma prodn_1_ones s : prodn s = 1 -> s = repeat 1 (length s).
Proof.
  induction s as [|a s IH]; [reflexivity|]. rewrite prodn_cons. intros H. cbn [length repeat].
  assert (a = 1 /\ prodn s = 1) as [-> H2] by (apply Nat.eq_mul_1 in H; exact H). f_equal. auto.
Qed.

(** The bitwidth of a channel's bias. *)
Lemma fmax_facts loc c out q dims : quantizer_shape q out -> chan_axis loc c out -> 0 < prodn out ->
  bias_dims loc (length (shape (q_fbw q))) = Ok dims ->
  exists c', (c' = c \/ c' = 1) /\ shape (reduce_max_q dims (q_fbw q)) = [c'] /\
    length (data (reduce_max_q dims (q_fbw q))) = c'.
Proof.
  intros [bw [Hs [Hb [Hl _]]]] Hc NZ Hd.
  assert (L : length (data (reduce_max_q dims (q_fbw q))) = prodn (shape (reduce_max_q dims (q_fbw q)))).
  { unfold reduce_max_q, treduce. cbn [tmap shape data]. rewrite !map_length, seq_length. reflexivity. }
  assert (W : length (data (q_fbw q)) = prodn (shape (q_fbw q))) by (rewrite Hs, prodn_cons, Hl; lia).
  assert (S' : exists c', (c' = c \/ c' = 1) /\ shape (reduce_max_q dims (q_fbw q)) = [c']).
  { destruct Hc as [[-> [pre ->]]|[-> [s ->]]].
    - destruct (bshape_app_last _ _ _ Hb) as [pre' [c' [-> [_ [Hc' _]]]]]. exists c'. split; [assumption|].
      unfold bias_dims in Hd. cbn [Z.eqb] in Hd. injection Hd as <-. apply (reduce_max_last (1 :: pre') c'); assumption.
    - destruct bw as [|c' s']; [discriminate|]. apply (bshape_cons_inv c s c' s') in Hb. destruct Hb as [_ Hc'].
      exists c'. split; [assumption|]. unfold bias_dims in Hd. cbn [Z.eqb] in Hd. injection Hd as <-.
      apply (reduce_max_first 1 c' s'); assumption. }
  destruct S' as [c' [H1 H2]]. exists c'. rewrite H2, prodn1 in L. auto.
Qed.

Lemma bshape_single l c0 : (exists v, nth_error l 0 = Some v) -> length l = 1 -> c0 = 0 -> nth c0 l (qz 0) = nth 0 l (qz 0).
Proof. intros _ _ ->. reflexivity. Qed.

Lemma greatest_fun P a b : greatest P (Fin a) -> greatest P (Fin b) -> a = b.
Proof.
  intros [[_ H]|[v [Hv [E L]]]]; [discriminate|]. intros [[_ H]|[v' [Hv' [E' L']]]]; [discriminate|].
  injection E as <-. injection E' as <-. apply Qcle_antisym; auto.
Qed.

(** When can_bias_cover_rnd holds, the bias of a channel has the fractional bits of all its outputs. *)
Lemma cover_facts loc c out q dims ts kernel kq b bl relu : quantizer_shape q out -> chan_axis loc c out -> 0 < prodn out ->
  bias_dims loc (length (shape (q_fbw q))) = Ok dims -> shape b = [c] ->
  can_bias_cover_rnd (mkL (Linear ts kernel kq (Some b) bl) q relu loc out) = true ->
  forall e, e < prodn out ->
    nth (bidx (shape (reduce_max_q dims (q_fbw q))) [c] (chan loc out e)) (data (reduce_max_q dims (q_fbw q))) (qz 0)
    = nth (group_of q out e) (data (q_fbw q)) (qz 0).
Proof.
  intros Hq Hc NZ Hd Hbs Hcov e He.
  destruct (fmax_facts loc c out q dims Hq Hc NZ Hd) as [c' [Hc' [Fs Fl]]].
  destruct Hq as [bw [Hs [Hb [Hl _]]]].
  assert (W : length (data (q_fbw q)) = prodn (shape (q_fbw q))) by (rewrite Hs, prodn_cons, Hl; lia).
  assert (PB : 0 < prodn bw) by (apply (bshape_pos out); assumption).
  assert (GL : group_of q out e < prodn bw) by (unfold group_of; rewrite Hs; apply bidx_lt; assumption).
  unfold can_bias_cover_rnd in Hcov. cbn [l_op l_paq l_loc] in Hcov. rewrite Hbs in Hcov. cbn [length Nat.eqb negb] in Hcov.
  assert (SINGLE : prodn bw = 1 -> nth (bidx (shape (reduce_max_q dims (q_fbw q))) [c] (chan loc out e)) (data (reduce_max_q dims (q_fbw q))) (qz 0)
    = nth (group_of q out e) (data (q_fbw q)) (qz 0)).
  { intros P1. assert (E1 : group_of q out e = 0) by lia. rewrite E1.
    assert (LD : length (data (q_fbw q)) = 1) by lia.
    destruct (data (q_fbw q)) as [|f0 [|? ?]] eqn:D; cbn [length] in LD; try lia. cbn [nth].
    rewrite (prodn_1_ones bw P1) in Hs, Hb.
    assert (c' = 1 /\ greatest (fun v => v = f0) (Fin (nth 0 (data (reduce_max_q dims (q_fbw q))) (qz 0)))) as [C1 G].
    { destruct Hc as [[-> [pre ->]]|[-> [s ->]]].
      - unfold bias_dims in Hd. cbn [Z.eqb] in Hd. injection Hd as <-.
        destruct (bshape_app_last _ _ _ Hb) as [pre' [c2 [Ebw [Lp [_ _]]]]].
        assert (ON : forall x, In x (pre' ++ [c2]) -> x = 1) by (rewrite <- Ebw; intros x; apply repeat_spec).
        assert (c2 = 1) by (apply ON, in_or_app; right; left; reflexivity). subst c2. rewrite Ebw in Hs.
        destruct (reduce_max_last (1 :: pre') 1 (q_fbw q) Hs) as [R1 [R2 R3]]; [rewrite D; exact W|].
        split; [congruence|].
        assert (PP : prodn (1 :: pre') <> 0).
        { assert (prodn (pre' ++ [1]) = 1) by (rewrite <- Ebw; apply prodn_ones). rewrite prodn_app, prodn1 in H. rewrite prodn_cons. lia. }
        eapply greatest_ext; [|apply (R3 PP 0 (qz 0)); lia]. rewrite D. intros v. unfold in_group. split.
        + intros [j Hj]. assert (j = 0) by (assert (j * 1 + 0 < length [f0]) by (apply nth_error_Some; congruence); cbn [length] in *; lia).
          subst j. cbn in Hj. congruence.
        + intros ->. exists 0. reflexivity.
      - unfold bias_dims in Hd. cbn [Z.eqb] in Hd. injection Hd as <-.
        destruct (length bw) as [|k] eqn:Lb; [discriminate|]. cbn [repeat] in Hs, Hb.
        destruct (reduce_max_first 1 1 (repeat 1 k) (q_fbw q) Hs) as [R1 R3]; [rewrite D; exact W|].
        split; [congruence|].
        assert (PP : prodn (repeat 1 k) <> 0) by (rewrite prodn_ones; lia).
        eapply greatest_ext; [|apply (R3 ltac:(lia) PP 0 (qz 0)); lia]. rewrite D. intros v. cbn beta. split.
        + intros [p [Hp _]]. destruct p as [|p]; cbn in Hp; [congruence|destruct p; discriminate].
        + intros ->. exists 0. split; [reflexivity|]. rewrite prodn_ones. reflexivity. }
    rewrite Fs, C1. cbn [bidx Nat.eqb]. rewrite Nat.mul_0_l, Nat.add_0_l.
    apply (greatest_fun (fun v => v = f0)); [exact G|apply greatest_single]. }
  destruct (Nat.eqb_spec (prodn (shape (q_fbw q))) 1) as [P1|P1].
  - apply SINGLE. rewrite Hs, prodn_cons in P1. lia.
  - destruct Hc as [[-> [pre ->]]|[-> [s ->]]]; cbn [Z.eqb Pos.eqb] in Hcov.
    + apply andb_true_iff in Hcov. destruct Hcov as [C1 C2].
      destruct (list_eq_dec Nat.eq_dec [c] _) as [C3|]; [clear C2|discriminate]. apply Nat.eqb_eq in C1.
      destruct (bshape_app_last _ _ _ Hb) as [pre' [c2 [-> [Lp [Hc2 _]]]]].
      rewrite Hs in C1, C3. change (1 :: pre' ++ [c2]) with ((1 :: pre') ++ [c2]) in C1, C3.
      rewrite removelast_last in C1. rewrite prodn_cons, Nat.mul_1_l in C1.
      assert (c2 = c).
      { rewrite app_length in C3. cbn [length] in C3. rewrite skipn_app in C3.
        replace (S (length pre') + 1 - 1) with (length (1 :: pre')) in C3 by (cbn [length]; lia).
        rewrite skipn_all, Nat.sub_diag in C3. cbn in C3. congruence. } subst c2.
      unfold bias_dims in Hd. cbn [Z.eqb] in Hd. injection Hd as <-.
      destruct (reduce_max_last (1 :: pre') c (q_fbw q) Hs W) as [R1 [R2 R3]].
      rewrite R1. rewrite prodn_app, prodn1 in NZ.
      assert (EC : chan (-1) (pre ++ [c]) e = e mod c) by (unfold chan; cbn [Z.eqb]; rewrite last_last; reflexivity).
      assert (CL : e mod c < c) by (apply Nat.mod_upper_bound; nia).
      rewrite EC. rewrite bidx_self by (rewrite prodn1; assumption).
      assert (EG : group_of q (pre ++ [c]) e = e mod c).
      { unfold group_of. rewrite Hs. cbn [tl]. rewrite (prodn_1_ones pre' C1), Lp.
        rewrite bidx_prefix by assumption. rewrite prodn1. reflexivity. }
      rewrite EG. assert (PP : prodn (1 :: pre') <> 0) by (rewrite prodn_cons; lia).
      apply (greatest_fun (in_group c (e mod c) (data (q_fbw q)))); [apply R3; assumption|].
      assert (LD : length (data (q_fbw q)) = c) by (rewrite Hl, prodn_app, prodn1; lia).
      eapply greatest_ext; [|apply (greatest_single (nth (e mod c) (data (q_fbw q)) (qz 0)))].
      intros v. unfold in_group. split.
      * intros ->. exists 0. cbn. apply nth_error_nth'. lia.
      * intros [j Hj]. assert (j * c + e mod c < c) by (rewrite <- LD at 3; apply nth_error_Some; congruence).
        assert (j = 0) by nia. subst j. cbn in Hj. symmetry. apply nth_error_nth, Hj.
    + apply andb_true_iff in Hcov. destruct Hcov as [C1 C2].
      apply Nat.eqb_eq in C1. rewrite Hs in C1. cbn [tl] in C1. apply SINGLE. exact C1.
Qed.

(** ** The fused bias *)
Lemma fold_zmax ps : forall a : Z, (a <= fold_left (fun acc (pv : nat * Z) => Z.max acc (snd pv)) ps a)%Z.
Proof. induction ps as [|p ps IH]; intros a; cbn; [lia|]. specialize (IH (Z.max a (snd p))). lia. Qed.

Lemma fold_zmax_cond (f : nat -> bool) ps : forall a : Z,
  (a <= fold_left (fun acc (pv : nat * Z) => if f (fst pv) then Z.max acc (snd pv) else acc) ps a)%Z.
Proof.
  induction ps as [|p ps IH]; intros a; cbn; [lia|]. destruct (f (fst p)); [specialize (IH (Z.max a (snd p))); lia|apply IH].
Qed.

Lemma fold_zmax_in (f : nat -> bool) ps p v : In (p, v) ps -> f p = true -> forall a : Z,
  (v <= fold_left (fun acc (pv : nat * Z) => if f (fst pv) then Z.max acc (snd pv) else acc) ps a)%Z.
Proof.
  induction ps as [|[p' v'] ps IH]; intros H F a; [destruct H|]. cbn [fold_left fst snd]. destruct H as [E|H].
  - injection E as -> ->. rewrite F. pose proof (fold_zmax_cond f ps (Z.max a v)). lia.
  - apply IH; assumption.
Qed.

Lemma treduce_zmax_ge flags (t : tensor Z) p v : nth_error (data t) p = Some v ->
  ridx flags (shape t) p < prodn (kept flags (shape t)) ->
  (v <= nth (ridx flags (shape t) p) (data (treduce Z.max 0 flags false t)) 0)%Z.
Proof.
  intros Hp Hk. unfold treduce. cbn [data]. rewrite nth_map_seq by assumption.
  apply (fold_zmax_in (fun p' => ridx flags (shape t) p' =? ridx flags (shape t) p) _ p).
  - apply combine_seq_In. exact Hp.
  - apply Nat.eqb_refl.
Qed.

Lemma nth_combine {A B} (a : list A) (b : list B) n da db : length a = length b ->
  nth n (combine a b) (da, db) = (nth n a da, nth n b db).
Proof. intros H. apply combine_nth, H. Qed.

(** Approximate width of output element e, from the layer's registers. *)
Definition abw_at (l : hlayer) (e : nat) : Z :=
  let q := l_paq l in let g := group_of q (l_out l) e in
  act_bw_elem (l_relu l) (fin (qz 0) (nth g (data (q_min q)) PosInf)) (fin (qz 0) (nth g (data (q_max q)) NegInf))
    (nth g (data (q_fbw q)) (qz 0)).

Lemma act_bw_spec l : quantizer_shape (l_paq l) (l_out l) ->
  exists t, act_bw l = Ok t /\ shape t = 1 :: l_out l /\ length (data t) = prodn (l_out l) /\
    forall e, e < prodn (l_out l) -> nth e (data t) 0%Z = abw_at l e.
Proof.
  intros [bw [Hs [Hb [Hl [Hm HM]]]]]. unfold act_bw, broadcast_to. cbv zeta. cbn [shape data]. rewrite Hs.
  rewrite (broadcast_out 1 _ _ Hb).
  destruct (list_eq_dec Nat.eq_dec (1 :: l_out l) (1 :: l_out l)) as [_|N]; [|congruence].
  eexists. split; [reflexivity|]. cbn [shape data]. rewrite map_length, seq_length, prodn_cons, Nat.mul_1_l.
  split; [reflexivity|]. split; [reflexivity|]. intros e He. rewrite nth_map_seq by assumption.
  destruct (bshape_length _ _ _ Hb) as [L _]. rewrite pad_to_eq by (cbn [length]; lia).
  assert (G : bidx (1 :: bw) (1 :: l_out l) e = group_of (l_paq l) (l_out l) e).
  { cbn [bidx]. rewrite Nat.mod_small by assumption. unfold group_of. rewrite Hs. reflexivity. }
  rewrite G. assert (GL : group_of (l_paq l) (l_out l) e < prodn bw) by (unfold group_of; rewrite Hs; apply bidx_lt; assumption).
  set (g := group_of (l_paq l) (l_out l) e) in *.
  match goal with |- nth g (map ?f ?li) _ = _ => rewrite (nth_indep (map f li) _ (f ((PosInf, NegInf), qz 0))); [rewrite (map_nth f)|] end.
  - rewrite combine_nth by (rewrite combine_length; lia). rewrite combine_nth by lia. reflexivity.
  - rewrite map_length, !combine_length. lia.
Qed.

Lemma broadcast_chan c c' : c' = c \/ c' = 1 -> broadcast_shape [c] [c'] = Some [c].
Proof.
  intros H. unfold broadcast_shape, pad_to. cbn. destruct (Nat.eqb_spec c c'); [reflexivity|].
  destruct (Nat.eqb_spec c 1) as [->|]; [destruct H; congruence|]. destruct (Nat.eqb_spec c' 1); [reflexivity|destruct H; congruence].
Qed.

(** bias_forward at inference. *)
Definition bias_q (q : hgq) (dims : list Z) (c : nat) (b : tensor Qc) : list Qc :=
  let f := reduce_max_q dims (q_fbw q) in
  map (fun j => qval (q_strategy q) (nth (bidx (shape f) [c] j) (data f) (qz 0)) (nth j (data b) (qz 0))) (seq 0 c).

Lemma bias_forward_val pw ln2 q b loc c out noise dims : quantizer_shape q out -> chan_axis loc c out -> 0 < prodn out ->
  bias_dims loc (length (shape (q_fbw q))) = Ok dims -> shape b = [c] ->
  bias_forward pw ln2 q b false loc noise = Ok (mkT [c] (bias_q q dims c b)).
Proof.
  intros Hq Hc NZ Hd Hb. destruct (fmax_facts loc c out q dims Hq Hc NZ Hd) as [c' [Hc' [Fs Fl]]].
  assert (EX : exists y, bias_forward pw ln2 q b false loc noise = Ok y).
  { unfold bias_forward. rewrite Hd. cbn [rbind]. unfold bmap2. rewrite Hb, Fs, broadcast_chan by assumption. cbn [rbind].
    match goal with |- exists y, rbind (rseq ?li) _ = _ => destruct (rseq_total li) as [ys ->] end.
    { intros e He. apply in_map_iff in He. destruct He as [[p [v f]] [<- _]]. rewrite forward_inference. eauto. }
    cbn [rbind]. eauto. }
  destruct EX as [y E]. rewrite E. f_equal.
  destruct (bias_forward_elems _ _ _ _ _ _ _ _ _ Hd E) as [B [L El]]. rewrite Hb, Fs, broadcast_chan in B by assumption.
  injection B as B. unfold bias_q. cbv zeta in El |- *. remember (reduce_max_q dims (q_fbw q)) as fm.
  destruct y as [s d]. cbn [shape data] in *. subst s. f_equal. rewrite prodn1 in L, El.
  apply (list_nth_ext (qz 0)).
  - rewrite map_length, seq_length. exact L.
  - intros p Hp. rewrite L in Hp. rewrite nth_map_seq by assumption.
    specialize (El p (qz 0) Hp). rewrite forward_inference in El. injection El as El. rewrite <- El. unfold qval.
    rewrite Hb, Fs. rewrite !pad_to_eq by reflexivity. rewrite (bidx_self [c]) by (rewrite prodn1; assumption). reflexivity.
Qed.

Definition shift_at (l : hlayer) (e : nat) : Qc :=
  if (negb (Z.eqb (q_strategy (l_paq l)) 3) && can_bias_cover_rnd l)%bool
  then pow2 (- qround_even (nth (group_of (l_paq l) (l_out l) e) (data (q_fbw (l_paq l))) (qz 0)) - 1) else qz 0.

Lemma chan_axis_layer l c : (l_loc l = (-1)%Z /\ (exists pre, l_out l = pre ++ [c])) \/ (l_loc l = 1%Z /\ (exists s, l_out l = c :: s)) ->
  chan_axis (l_loc l) c (l_out l).
Proof. exact (fun H => H). Qed.

Lemma fused_qbias_spec pw ln2 l ts kernel kq b bl c dims : l_op l = Linear ts kernel kq (Some b) bl ->
  quantizer_shape (l_paq l) (l_out l) -> chan_axis (l_loc l) c (l_out l) -> 0 < prodn (l_out l) ->
  bias_dims (l_loc l) (length (shape (q_fbw (l_paq l)))) = Ok dims -> shape b = [c] ->
  exists qb, fused_qbias pw ln2 l b = Ok qb /\ shape qb = [c] /\ length (data qb) = c /\
    forall e, e < prodn (l_out l) -> (0 < abw_at l e)%Z ->
      nth (chan (l_loc l) (l_out l) e) (data qb) (qz 0) =
      (nth (chan (l_loc l) (l_out l) e) (bias_q (l_paq l) dims c b) (qz 0) + shift_at l e)%Qc.
Proof.
  intros Hop Hq Hc NZ Hd Hb.
  destruct (chan_facts _ _ _ Hc NZ) as [dims' [Hd' [KF [C0 CH]]]].
  assert (LR : length (shape (q_fbw (l_paq l))) = S (length (l_out l))).
  { destruct Hq as [bw [Hs [Hbb _]]]. rewrite Hs. destruct (bshape_length _ _ _ Hbb). cbn [length]. lia. }
  assert (dims' = dims) by (rewrite LR in Hd; congruence). subst dims'.
  destruct (fmax_facts _ c _ _ dims Hq Hc NZ Hd) as [c' [Hc' [Fs Fl]]].
  destruct (act_bw_spec l Hq) as [abw [EA [SA [LA HA]]]].
  unfold fused_qbias. rewrite (bias_forward_val pw ln2 (l_paq l) b (l_loc l) c (l_out l) _ dims Hq Hc NZ Hd Hb).
  cbn [rbind shape]. rewrite Hd. cbn [rbind].
  unfold broadcast_to. rewrite Fs, broadcast_chan by assumption. destruct (list_eq_dec Nat.eq_dec [c] [c]) as [_|N]; [|congruence].
  cbn [rbind]. rewrite EA. cbn [rbind]. rewrite SA. cbn [length].
  set (flags := axis_flags (S (length (l_out l))) dims) in *.
  set (mask := treduce Z.max 0%Z flags false abw).
  assert (MS : shape mask = [c]) by (unfold mask, treduce; cbn [shape]; rewrite SA; exact KF).
  set (fb := mkT [c] (map (fun p => nth (bidx (pad_to 1 [c']) [c] p) (data (reduce_max_q dims (q_fbw (l_paq l)))) (qz 0)) (seq 0 (prodn [c])))).
  assert (BIAS : exists bt, (if (negb (q_strategy (l_paq l) =? 3)%Z && can_bias_cover_rnd l)%bool
        then bmap2 (qz 0) (qz 0) (fun f v => (pow2 (- qround_even f - 1) + v)%Qc) fb (mkT [c] (bias_q (l_paq l) dims c b))
        else Ok (mkT [c] (bias_q (l_paq l) dims c b))) = Ok bt /\ shape bt = [c] /\
        forall e, e < prodn (l_out l) -> nth (chan (l_loc l) (l_out l) e) (data bt) (qz 0) =
          (nth (chan (l_loc l) (l_out l) e) (bias_q (l_paq l) dims c b) (qz 0) + shift_at l e)%Qc).
  { unfold shift_at. destruct (negb (q_strategy (l_paq l) =? 3)%Z && can_bias_cover_rnd l)%bool eqn:CV.
    - destruct (bmap2_same (qz 0) (qz 0) (fun f v => (pow2 (- qround_even f - 1) + v)%Qc) fb (mkT [c] (bias_q (l_paq l) dims c b)) eq_refl)
        as [bt [EB [SB [LB HB]]]]. rewrite EB. cbn [rbind]. exists bt. split; [reflexivity|]. split; [exact SB|].
      intros e He. destruct (CH e He) as [_ CL].
      change (shape fb) with [c] in HB. rewrite prodn1 in HB. rewrite (HB _ _ CL). cbn [data fb].
      rewrite nth_map_seq by (rewrite prodn1; exact CL). rewrite pad_to_eq by reflexivity.
      apply andb_true_iff in CV. destruct CV as [_ CV].
      pose proof (cover_facts (l_loc l) c (l_out l) (l_paq l) dims ts kernel kq b bl (l_relu l) Hq Hc NZ Hd Hb) as CF.
      rewrite Fs in CF. rewrite <- CF; [ring| |assumption].
      destruct l. cbn in Hop. subst. exact CV.
    - eexists. split; [reflexivity|]. split; [reflexivity|]. intros e He. cbn [data]. change (qz 0) with (Q2Qc 0). ring. }
  destruct BIAS as [bt [EB [SB HB]]]. rewrite EB. cbn [rbind].
  destruct (bmap2_same 0%Z (qz 0) (fun m v => if (0 <? m)%Z then v else qz 0) mask bt) as [qb [EQ [SQ [LQ HQ]]]]; [congruence|].
  rewrite EQ. exists qb. rewrite SQ, MS in *. rewrite prodn1 in LQ, HQ. repeat split; try assumption.
  intros e He Ha. destruct (CH e He) as [CR CL]. rewrite (HQ _ _ CL). rewrite <- HB by assumption.
  assert (ME : nth_error (data abw) e = Some (abw_at l e)).
  { rewrite <- (HA e He). apply nth_error_nth'. lia. }
  assert (MG : (0 < nth (chan (l_loc l) (l_out l) e) (data mask) 0)%Z).
  { pose proof (treduce_zmax_ge flags abw e _ ME) as T. rewrite SA, KF, prodn1, CR in T. specialize (T CL). unfold mask. lia. }
  destruct (Z.ltb_spec 0 (nth (chan (l_loc l) (l_out l) e) (data mask) 0%Z)); [reflexivity|lia].
Qed.

(** ** The operation before the quantizer *)
Lemma bias_add_length loc out b z : length (bias_add loc out b z) = length z.
Proof. unfold bias_add. rewrite map_length, combine_length, seq_length. lia. Qed.

Lemma bias_add_nth loc out b z e : e < length z ->
  nth e (bias_add loc out b z) (qz 0) = (nth e z (qz 0) + nth (chan loc out e) b (qz 0))%Qc.
Proof.
  intros H. unfold bias_add.
  match goal with |- nth e (map ?f ?li) _ = _ =>
    rewrite (nth_indep (map f li) _ (f (0, qz 0))) by (rewrite map_length, combine_length, seq_length; lia); rewrite (map_nth f) end.
  rewrite nth_combine_seq by assumption. reflexivity.
Qed.

Lemma linop_length ts w x : length (linop ts w x) = length ts.
Proof. unfold linop. apply map_length. Qed.

Lemma shift_nobias l ts kernel kq bl e : l_op l = Linear ts kernel kq None bl -> shift_at l e = qz 0.
Proof. intros H. unfold shift_at, can_bias_cover_rnd. rewrite H, andb_false_r. reflexivity. Qed.
Lemma shift_fn l g e : l_op l = Fn g -> shift_at l e = qz 0.
Proof. intros H. unfold shift_at, can_bias_cover_rnd. rewrite H, andb_false_r. reflexivity. Qed.

Lemma kernel_call pw ln2 kernel kq s : broadcast_shape (shape kernel) (shape (q_fbw kq)) = Some s ->
  exists w kq', forall nk, call pw ln2 kq kernel false false nk = Ok (w, kq').
Proof.
  intros H. unfold call.
  assert (H' : broadcast_shape (shape kernel) (shape (q_fbw (clip_fbw kq))) = Some s).
  { unfold clip_fbw. destruct (q_clip kq) as [[lo hi]|]; exact H. }
  destruct (forward_ok pw ln2 (clip_fbw kq) kernel false (fun _ => qz 0) s H') as [y [_ E]]; [discriminate|].
  exists y, (clip_fbw kq). intros nk. rewrite (forward_noise pw ln2 pw ln2 _ _ _ nk (fun _ => qz 0)). apply (E false).
Qed.

Lemma op_spec pw ln2 l : layer_ok l -> exists zf g op',
  (forall xs nk nb, pre_activation pw ln2 l xs false nk nb = Ok (map zf xs, op')) /\
  keras_op pw ln2 l = Ok g /\
  forall x, length (zf x) = prodn (l_out l) /\ length (g x) = prodn (l_out l) /\
    forall e, e < prodn (l_out l) -> (0 < abw_at l e)%Z -> nth e (g x) (qz 0) = (nth e (zf x) (qz 0) + shift_at l e)%Qc.
Proof.
  intros [Hq [NZ Hop]]. unfold pre_activation, keras_op.
  destruct (l_op l) as [ts kernel kq bias bl|g] eqn:EO.
  - destruct Hop as [Lt [[s Hk] Hb]]. destruct (kernel_call pw ln2 kernel kq s Hk) as [w [kq' Ek]].
    unfold fused_qkernel. rewrite Ek. cbn [rbind fst].
    destruct bias as [b|].
    + destruct Hb as [-> [c [C0 [Sb Hc]]]]. apply chan_axis_layer in Hc.
      destruct (chan_facts _ _ _ Hc NZ) as [dims [Hd _]].
      assert (LR : length (shape (q_fbw (l_paq l))) = S (length (l_out l))).
      { destruct Hq as [bw [Hs [Hbb _]]]. rewrite Hs. destruct (bshape_length _ _ _ Hbb). cbn [length]. lia. }
      rewrite <- LR in Hd.
      destruct (fused_qbias_spec pw ln2 l ts kernel kq b (l_loc l) c dims EO Hq Hc NZ Hd Sb) as [qb [EQ [SQ [LQ HQ]]]].
      rewrite EQ. cbn [rbind].
      exists (fun x => bias_add (l_loc l) (l_out l) (bias_q (l_paq l) dims c b) (linop ts (data w) (hd [] x))).
      eexists. exists (Linear ts kernel kq' (Some b) (l_loc l)). split; [|split; [reflexivity|]].
      * intros xs nk nb. rewrite Ek. cbn [rbind fst snd].
        rewrite (bias_forward_val pw ln2 (l_paq l) b (l_loc l) c (l_out l) nb dims Hq Hc NZ Hd Sb). cbn [rbind data].
        rewrite map_map. reflexivity.
      * intros x. cbn beta. rewrite !bias_add_length, linop_length. split; [assumption|]. split; [assumption|].
        intros e He Ha. rewrite !bias_add_nth by (rewrite linop_length; lia). rewrite HQ by assumption. ring.
    + exists (fun x => linop ts (data w) (hd [] x)). eexists. exists (Linear ts kernel kq' None bl). split; [|split; [reflexivity|]].
      * intros xs nk nb. rewrite Ek. reflexivity.
      * intros x. cbn beta. rewrite linop_length. split; [assumption|]. split; [assumption|].
        intros e He _. rewrite (shift_nobias l ts kernel kq bl e EO). change (qz 0) with (Q2Qc 0). ring.
  - exists g, g, (Fn g). split; [reflexivity|]. split; [reflexivity|]. intros x. split; [apply Hop|]. split; [apply Hop|].
    intros e He _. rewrite (shift_fn l g e EO). change (qz 0) with (Q2Qc 0). ring.
Qed.

(** ** Rounding of the two sides *)
Lemma qval_spec s f x r : r = qround_even f ->
  (s = 3%Z -> floor_on_grid r x (qval s f x)) /\ (s <> 3%Z -> round_on_grid r x (qval s f x)).
Proof.
  intros ->. unfold qval. split; intros H.
  - subst s. cbn [Z.eqb Pos.eqb]. apply floor_scaled.
  - rewrite (proj2 (Z.eqb_neq s 3) H). apply round_scaled.
Qed.

Definition rnd_fun (l : hlayer) : Qc -> Qc :=
  if (negb (Z.eqb (q_strategy (l_paq l)) 3) && negb (can_bias_cover_rnd l))%bool then RND else TRN.
Lemma rnd_mode_fun l : RND_MAP (rnd_mode l) = Some (rnd_fun l).
Proof. unfold rnd_mode, rnd_fun. destruct (_ && _)%bool; reflexivity. Qed.

(** C28 core: the deployed accumulator, quantized with the proxy's rounding, is HGQ's output. *)
Lemma rounding_agrees l e z r : let q := l_paq l in
  r = qround_even (nth (group_of q (l_out l) e) (data (q_fbw q)) (qz 0)) ->
  let y := qval (q_strategy q) (nth (group_of q (l_out l) e) (data (q_fbw q)) (qz 0)) z in
  (rnd_fun l = TRN /\ floor_on_grid r (z + shift_at l e)%Qc y) \/ (rnd_fun l = RND /\ round_on_grid r (z + shift_at l e)%Qc y).
Proof.
  intros q Hr y. unfold shift_at, rnd_fun. fold q.
  destruct (qval_spec (q_strategy q) _ z r Hr) as [S1 S2]. fold y in S1, S2.
  assert (Z0 : (z + qz 0)%Qc = z) by (change (qz 0) with (Q2Qc 0); ring).
  destruct (Z.eqb_spec (q_strategy q) 3) as [E|E]; cbn [negb andb].
  - left. split; [reflexivity|]. rewrite Z0. auto.
  - destruct (can_bias_cover_rnd l); cbn [negb andb].
    + left. split; [reflexivity|]. rewrite <- Hr. apply prebias. auto.
    + right. split; [reflexivity|]. rewrite Z0. auto.
Qed.

(** ** Configurations *)
Lemma kbi_id k i f : (-128 <= k + i <= 127)%Z -> (-128 <= k + i + f <= 127)%Z -> kbi (k, i, f) = mkCfg k (k + i + f) (k + i).
Proof. intros H1 H2. unfold kbi. rewrite (i8_small (k + i)) by assumption. rewrite i8_small by assumption. reflexivity. Qed.

Definition bits_at (q : hgq) (pos : bool) (g : nat) : Z * Z * Z :=
  bits_exact_elem pos (fin (qz 0) (nth g (data (q_min q)) PosInf)) (fin (qz 0) (nth g (data (q_max q)) NegInf))
    (nth g (data (q_fbw q)) (qz 0)).

Lemma get_bits_at q out pos : quantizer_shape q out -> calibrated q -> exists bits, get_bits_exact q pos = Ok bits /\
  length bits = length (data (q_fbw q)) /\
  forall g d, g < length (data (q_fbw q)) -> nth g bits d = bits_at q pos g.
Proof.
  intros [bw [_ [_ [L1 [L2 L3]]]]] HC. unfold get_bits_exact.
  assert (A : forallb (fun m => range_ok (fst m) (snd m)) (combine (data (q_min q)) (data (q_max q))) = true).
  { apply forallb_forall. intros [a b] H. apply In_combine_nth in H. destruct H as [g [Ha Hb]].
    assert (G : g < length (data (q_fbw q))) by (rewrite L1, <- L2; apply nth_error_Some; congruence).
    destruct (HC g G) as [r [mn [mx [_ [_ [E1 [E2 [_ [_ [Hle _]]]]]]]]]].
    apply (nth_error_nth _ _ PosInf) in Ha. apply (nth_error_nth _ _ NegInf) in Hb. rewrite E1 in Ha. rewrite E2 in Hb. subst a b.
    cbn [fst snd range_ok]. apply qleb_true. exact Hle. }
  rewrite A. cbn [negb]. eexists. split; [reflexivity|]. split.
  - rewrite map_length, !combine_length. lia.
  - intros g d Hg.
    match goal with |- nth g (map ?f ?li) _ = _ =>
      rewrite (nth_indep (map f li) _ (f ((PosInf, NegInf), qz 0))); [rewrite (map_nth f)|] end.
    + rewrite combine_nth by (rewrite combine_length; lia). rewrite combine_nth by lia. reflexivity.
    + rewrite map_length, !combine_length. lia.
Qed.

(** What the calibrated registers of one group say about its bits. *)
Lemma group_bits q g : calibrated q -> g < length (data (q_fbw q)) -> exists r mn mx,
  r = qround_even (nth g (data (q_fbw q)) (qz 0)) /\ (-32 <= r <= 93)%Z /\
  nth g (data (q_min q)) PosInf = Fin mn /\ nth g (data (q_max q)) NegInf = Fin mx /\
  on_grid r mn /\ on_grid r mx /\ (mn <= mx)%Qc /\ (- pow2 32 <= mn)%Qc /\ (mx < pow2 32)%Qc /\
  ((mn = qz 0 /\ mx = qz 0 /\ bits_at q false g = (0, 0, 0)%Z) \/
   ((mn <> qz 0 \/ mx <> qz 0) /\ exists k i, bits_at q false g = (k, i, r) /\ (k = 0 \/ k = 1)%Z /\
      (- r <= i <= 32)%Z /\ (k = 0%Z -> (1 - r <= i)%Z) /\ (- (qz k * pow2 i) <= mn)%Qc /\ (mx < pow2 i)%Qc /\
      (forall i', (- pow2 i' <= mn)%Qc -> (mx < pow2 i')%Qc -> (- r <= i')%Z -> (i <= i')%Z))) /\
  (((mx <= qz 0)%Qc /\ bits_at q true g = (0, 0, 0)%Z) \/
   ((qz 0 < mx)%Qc /\ bits_at q true g = (0, flog2 mx + 1, r)%Z /\ (- r <= flog2 mx < 32)%Z)).
Proof.
  intros HC Hg. destruct (HC g Hg) as [r [mn [mx [Hr [Hb [E1 [E2 [G1 [G2 [Hle [B1 B2]]]]]]]]]]].
  apply nearest_even_fun in Hr. exists r, mn, mx. repeat (split; [assumption|]).
  unfold bits_at. rewrite E1, E2. cbn [fin]. set (f := nth g (data (q_fbw q)) (qz 0)) in *. split.
  - destruct (qeqb_spec mn (qz 0)) as [Emn|Nmn]; [destruct (qeqb_spec mx (qz 0)) as [Emx|Nmx]|].
    + left. subst mn mx. split; [reflexivity|]. split; [reflexivity|]. apply (bits_exact_zero f r); [assumption|lia].
    + right. split; [auto|]. destruct (bits_exact_nonzero f r mn mx Hr ltac:(lia) G1 G2 Hle ltac:(auto) B1 B2) as [i [E [L [U [I1 [I2 [_ I3]]]]]]].
      eexists _, i. split; [exact E|]. subst mn. destruct (qltb_spec (qz 0) (qz 0)) as [C|_]; [exfalso; qlra|].
      split; [auto|]. split; [lia|]. split; [intros _; apply I2; qlra|]. split; [rewrite qz0_mul; qlra|]. split; assumption.
    + right. split; [auto|]. destruct (bits_exact_nonzero f r mn mx Hr ltac:(lia) G1 G2 Hle ltac:(auto) B1 B2) as [i [E [L [U [I1 [I2 [_ I3]]]]]]].
      eexists _, i. split; [exact E|]. destruct (qltb_spec mn (qz 0)) as [C|C].
      * split; [auto|]. split; [lia|]. split; [discriminate|]. split; [rewrite qz1_mul; exact L|]. split; assumption.
      * split; [auto|]. split; [lia|]. split; [intros _; apply I2, C|]. split; [rewrite qz0_mul; qlra|]. split; assumption.
  - destruct (Qclt_le_dec (qz 0) mx) as [P|N].
    + right. split; [exact P|]. apply bits_pos; try assumption. lia.
    + left. split; [exact N|]. apply (bits_pos_nonpos f r); [assumption|lia|assumption].
Qed.

Lemma abw_norelu_pos q g f r mn mx k i : r = qround_even f -> (-32 <= r <= 93)%Z ->
  on_grid r mn -> on_grid r mx -> (mn <= mx)%Qc -> (- pow2 32 <= mn)%Qc -> (mx < pow2 32)%Qc ->
  bits_at q false g = (k, i, r) -> bits_at q false g = bits_exact_elem false mn mx f -> (0 < k + i + r)%Z ->
  (0 < act_bw_elem false mn mx f)%Z.
Proof.
  intros Hr Hb G1 G2 Hle B1 B2 E E' P.
  destruct (act_bw_bounds f r mn mx Hr ltac:(lia) G1 G2 Hle B1 B2) as [[A _] _].
  unfold act_bw_exact_elem in A. rewrite <- E', E in A. lia.
Qed.

Lemma init_kbi_zero : init_elem (kbi (0, 0, 0)%Z) = mkCfg 0 0 0.
Proof. reflexivity. Qed.

Lemma init_kbi k i f : (-128 <= k + i <= 127)%Z -> (-128 <= k + i + f <= 127)%Z -> (k + i + f <> 0)%Z ->
  init_elem (kbi (k, i, f)) = mkCfg k (k + i + f) (k + i).
Proof. intros H1 H2 H3. rewrite kbi_id by assumption. apply init_elem_nz. exact H3. Qed.

Lemma elem_one l sat S e z z' : let q := l_paq l in let g := group_of q (l_out l) e in
  l_relu l = false -> S = "WRAP"%string \/ S = "SAT"%string -> SAT_MAP S = Some sat ->
  calibrated q -> g < length (data (q_fbw q)) ->
  let y := qval (q_strategy q) (nth g (data (q_fbw q)) (qz 0)) z in
  (exists mn mx, nth g (data (q_min q)) PosInf = Fin mn /\ nth g (data (q_max q)) NegInf = Fin mx /\ (mn <= y)%Qc /\ (y <= mx)%Qc) ->
  ((0 < abw_at l e)%Z -> z' = (z + shift_at l e)%Qc) ->
  fval (rnd_fun l) sat (init_elem (kbi (bits_at q false g))) z' = y.
Proof.
  intros q g HR HS Hsat HC Hg y [mn' [mx' [E1' [E2' [Ylo Yhi]]]]] Hz.
  destruct (group_bits q g HC Hg) as [r [mn [mx [Hr [Hb [E1 [E2 [G1 [G2 [Hle [B1 [B2 [D _]]]]]]]]]]]]].
  rewrite E1 in E1'. injection E1' as <-. rewrite E2 in E2'. injection E2' as <-.
  destruct D as [[-> [-> EB]]|[NZ [k [i [EB [Hk [Hi [Hki [Lo [Up _]]]]]]]]]].
  - rewrite EB, init_kbi_zero. unfold fval. cbn [kn bits ints]. rewrite gfixed_elem_z. apply Qcle_antisym; assumption.
  - assert (P : (0 < k + i + r)%Z) by (destruct Hk as [->| ->]; [specialize (Hki eq_refl); lia|lia]).
    rewrite EB, init_kbi by lia. unfold fval. cbn [kn bits ints].
    assert (A : (0 < abw_at l e)%Z).
    { unfold abw_at. fold q. fold g. rewrite HR, E1, E2. cbn [fin].
      apply (abw_norelu_pos q g _ r mn mx k i); try assumption. unfold bits_at. rewrite E1, E2. reflexivity. }
    rewrite (Hz A).
    pose proof (rounding_agrees l e z r Hr) as RA. cbv zeta in RA. fold q in RA. fold g in RA. fold y in RA.
    apply (gfixed_hit (rnd_fun l) sat S); try assumption; [lia|lia|].
    split; [destruct RA as [[_ RA]|[_ RA]]; apply RA|]. split; qlra.
Qed.

Lemma zmax_le l b : l <> [] -> (forall x, In x l -> (x <= b)%Z) -> (zmax_list l <= b)%Z.
Proof. intros N H. apply H, zmax_list_in, N. Qed.

Lemma zero_width_relu rnd sat (c : qcfg) x : bits c = 0%Z -> fval rnd sat c x = qz 0.
Proof. intros H. unfold fval. rewrite H. apply gfixed_elem_z. Qed.

Lemma elem_two l sat S e z z' bits : let q := l_paq l in let g := group_of q (l_out l) e in
  l_relu l = true -> S = "WRAP"%string \/ S = "SAT"%string -> SAT_MAP S = Some sat ->
  calibrated q -> g < length (data (q_fbw q)) ->
  length bits = length (data (q_fbw q)) -> (forall g d, g < length (data (q_fbw q)) -> nth g bits d = bits_at q false g) ->
  let y := qval (q_strategy q) (nth g (data (q_fbw q)) (qz 0)) z in
  (exists mn mx, nth g (data (q_min q)) PosInf = Fin mn /\ nth g (data (q_max q)) NegInf = Fin mx /\ (mn <= y)%Qc /\ (y <= mx)%Qc) ->
  ((0 < abw_at l e)%Z -> z' = (z + shift_at l e)%Qc) ->
  let K := zmax_list (map (fun t => fst (fst t)) bits) in
  let I := zmax_list (map (fun t => snd (fst t)) bits) in
  let F := zmax_list (map snd bits) in
  let fadd := if String.eqb (rnd_mode l) "TRN" then 0%Z else if String.eqb (rnd_mode l) "RND" then 1%Z else 2%Z in
  fval (rnd_fun l) sat (init_elem (kbi (bits_at q true g)))
    (relu (fval TRN sat (init_elem (mkCfg K (i8 (i8 (i8 (K + I) + F) + fadd)) (i8 (K + I)))) z')) = relu y.
Proof.
  intros q g HR HS Hsat HC Hg LB HB y [mn' [mx' [E1' [E2' [Ylo Yhi]]]]] Hz K I F fadd.
  destruct (group_bits q g HC Hg) as [r [mn [mx [Hr [Hb [E1 [E2 [G1 [G2 [Hle [B1 [B2 [D DP]]]]]]]]]]]]].
  rewrite E1 in E1'. injection E1' as <-. rewrite E2 in E2'. injection E2' as <-.
  destruct DP as [[Mx EP]|[Mx [EP FB]]].
  - rewrite EP, init_kbi_zero, zero_width_relu by reflexivity. symmetry. apply relu_nonpos. qlra.
  - rewrite EP. rewrite init_kbi by lia. rewrite Z.add_0_l.
    destruct D as [[-> [-> _]]|[NZ [k [i [EB [Hk [Hi [Hki [Lo [Up _]]]]]]]]]]; [exfalso; qlra|].
    assert (INB : In (k, i, r) bits).
    { rewrite <- EB, <- (HB g (0, 0, 0)%Z Hg). apply nth_In. lia. }
    assert (BND : forall t, In t bits -> (fst (fst t) <= 1 /\ snd (fst t) <= 32 /\ snd t <= 93)%Z /\ (fst (fst t) = 0 \/ fst (fst t) = 1)%Z).
    { intros t Ht. apply (In_nth _ _ (0, 0, 0)%Z) in Ht. destruct Ht as [g' [Hg' Et]]. rewrite LB in Hg'. rewrite HB in Et by assumption.
      destruct (group_bits q g' HC Hg') as [r' [mn'' [mx'' [_ [Hb' [_ [_ [_ [_ [_ [_ [_ [D' _]]]]]]]]]]]]].
      destruct D' as [[_ [_ E]]|[_ [k' [i' [E [Hk' [Hi' _]]]]]]]; rewrite E in Et; subst t; cbn [fst snd]; lia. }
    assert (NE : bits <> []) by (intros ->; destruct INB).
    assert (NEm : forall f : Z * Z * Z -> Z, map f bits <> []) by (intros f C; apply map_eq_nil in C; auto).
    assert (KB : (k <= K)%Z) by (apply zmax_list_ge; apply (in_map (fun t : Z * Z * Z => fst (fst t)) bits (k, i, r)); exact INB).
    assert (IB : (i <= I)%Z) by (apply zmax_list_ge; apply (in_map (fun t : Z * Z * Z => snd (fst t)) bits (k, i, r)); exact INB).
    assert (FBd : (r <= F)%Z) by (apply zmax_list_ge; apply (in_map (snd (A := Z * Z) (B := Z)) bits (k, i, r)); exact INB).
    assert (KU : K = 0%Z \/ K = 1%Z).
    { pose proof (zmax_list_in _ (NEm (fun t => fst (fst t)))) as H. apply in_map_iff in H. destruct H as [t [Et Ht]].
      unfold K. rewrite <- Et. apply BND, Ht. }
    assert (IU : (I <= 32)%Z) by (apply zmax_le; [apply NEm|]; intros x Hx; apply in_map_iff in Hx; destruct Hx as [t [<- Ht]]; apply BND, Ht).
    assert (FU : (F <= 93)%Z) by (apply zmax_le; [apply NEm|]; intros x Hx; apply in_map_iff in Hx; destruct Hx as [t [<- Ht]]; apply BND, Ht).
    assert (FA : (rnd_fun l = TRN /\ fadd = 0%Z) \/ (rnd_fun l = RND /\ fadd = 1%Z)).
    { unfold fadd, rnd_mode, rnd_fun. destruct (_ && _)%bool; [right|left]; split; reflexivity. }
    assert (FI : (flog2 mx + 1 <= i)%Z).
    { assert (flog2 mx < i)%Z; [|lia]. destruct (flog2_spec mx Mx) as [S1 S2].
      apply pow2_lt_inv. apply (Qcle_lt_trans _ mx); assumption. }
    rewrite (i8_small (K + I)) by lia. rewrite (i8_small (K + I + F)) by lia.
    rewrite (i8_small (K + I + F + fadd)) by lia.
    rewrite init_elem_nz by (cbn [FixedPoint.bits]; lia). unfold fval. cbn [kn FixedPoint.bits ints].
    assert (A : (0 < abw_at l e)%Z).
    { unfold abw_at. fold q. fold g. rewrite HR, E1, E2. cbn [fin].
      rewrite (act_bw_relu _ r mn mx Hr) by (try assumption; lia).
      unfold act_bw_exact_elem. unfold bits_at in EP. rewrite E1, E2 in EP. cbn [fin] in EP. rewrite EP. lia. }
    rewrite (Hz A).
    pose proof (rounding_agrees l e z r Hr) as RA. cbv zeta in RA. fold q in RA. fold g in RA. fold y in RA.
    assert (YF : fits K I F y).
    { apply (fits_weaken k i r); [lia|assumption|assumption|].
      split; [destruct RA as [[_ RA]|[_ RA]]; apply RA|]. split; qlra. }
    destruct (flog2_spec mx Mx) as [_ S2].
    destruct RA as [[RM RA]|[RM RA]]; rewrite RM; destruct FA as [[FM ->]|[FM ->]].
    + rewrite Z.add_0_r. apply (relu_chain_trn sat S K I F (flog2 mx + 1) r mx); try assumption; lia.
    + exfalso. rewrite RM in FM. assert (TRN qhalf = RND qhalf) as C by (rewrite FM; reflexivity). vm_compute in C. discriminate.
    + exfalso. rewrite RM in FM. assert (TRN qhalf = RND qhalf) as C by (rewrite FM; reflexivity). vm_compute in C. discriminate.
    + apply (relu_chain_rnd sat S K I F (flog2 mx + 1) r mx); try assumption; lia.
Qed.

(** ** Whole layers *)
Lemma layer_ok_no_relu l : layer_ok l -> layer_ok (no_relu l).
Proof. exact (fun H => H). Qed.

Lemma preact_no_relu pw ln2 l xs t nk nb : pre_activation pw ln2 (no_relu l) xs t nk nb = pre_activation pw ln2 l xs t nk nb.
Proof. reflexivity. Qed.

Lemma zf_lengths (zf : list (list Qc) -> list Qc) n xs : (forall x, length (zf x) = n) -> Forall (fun z => length z = n) (map zf xs).
Proof. intros H. rewrite Forall_forall. intros z Hz. apply in_map_iff in Hz. destruct Hz as [x [<- _]]. apply H. Qed.

Lemma hforward_samples pw ln2 l xs record nk nb na ys l' zf op' :
  quantizer_shape (l_paq l) (l_out l) ->
  pre_activation pw ln2 l xs false nk nb = Ok (map zf xs, op') -> (forall x, length (zf x) = prodn (l_out l)) ->
  hforward pw ln2 l xs false record nk nb na = Ok (ys, l') ->
  ys = map (fun x => let y := qsample (clip_fbw (l_paq l)) (l_out l) (zf x) in if l_relu l then map relu y else y) xs /\
  l_op l' = op' /\ l_relu l' = l_relu l /\ l_loc l' = l_loc l /\ l_out l' = l_out l /\
  call pw ln2 (l_paq l) (batch_tensor (l_out l) (map zf xs)) false record na
    = Ok (batch_tensor (l_out l) (map (fun x => qsample (clip_fbw (l_paq l)) (l_out l) (zf x)) xs), l_paq l').
Proof.
  intros Hq EP HL E. unfold hforward in E. rewrite EP in E. cbn [rbind fst snd] in E.
  apply rbind_ok in E. destruct E as [[y q'] [Ey E]]. cbn [fst snd] in E.
  pose proof (call_samples pw ln2 _ _ _ _ _ _ _ Hq (zf_lengths zf _ xs HL) Ey) as Sy.
  rewrite map_map in Sy. injection E as E1 E2. subst l'. cbn [l_op l_relu l_loc l_out l_paq].
  rewrite <- Sy. split; [|auto]. subst y. rewrite samples_concat in E1.
  - subst ys. destruct (l_relu l); [rewrite map_map; reflexivity|reflexivity].
  - apply zf_lengths. intros x. apply qsample_length.
Qed.

Lemma map_as_seq (f : Qc -> Qc) (z : list Qc) n : length z = n ->
  map f z = map (fun e => f (nth e z (qz 0))) (seq 0 n).
Proof.
  intros <-. apply (list_nth_ext (f (qz 0))); [rewrite !map_length, seq_length; reflexivity|].
  intros p Hp. rewrite map_length in Hp. rewrite map_nth. rewrite nth_map_seq by assumption. reflexivity.
Qed.

Lemma tmap_batch f out zs : tmap f (batch_tensor out zs) = batch_tensor out (map (map f) zs).
Proof. unfold tmap, batch_tensor. cbn [shape data]. rewrite map_length, concat_map. reflexivity. Qed.

(** What the proxy computes at one element of a sample. *)
Definition pval (l : hlayer) (sat : Qc -> Z -> Z -> Qc) (bits : list (Z * Z * Z)) (e : nat) (z : Qc) : Qc :=
  let q := l_paq l in let g := group_of q (l_out l) e in
  if l_relu l then
    let K := zmax_list (map (fun t => fst (fst t)) bits) in
    let I := zmax_list (map (fun t => snd (fst t)) bits) in
    let F := zmax_list (map snd bits) in
    let fadd := if String.eqb (rnd_mode l) "TRN" then 0%Z else if String.eqb (rnd_mode l) "RND" then 1%Z else 2%Z in
    fval (rnd_fun l) sat (init_elem (kbi (bits_at q true g)))
      (relu (fval TRN sat (init_elem (mkCfg K (i8 (i8 (i8 (K + I) + F) + fadd)) (i8 (K + I)))) z))
  else fval (rnd_fun l) sat (init_elem (kbi (bits_at q false g))) z.
Definition psample (l : hlayer) sat bits (z : list Qc) : list Qc :=
  map (fun e => pval l sat bits e (nth e z (qz 0))) (seq 0 (prodn (l_out l))).

Lemma group_lt q out e : quantizer_shape q out -> e < prodn out -> group_of q out e < length (data (q_fbw q)).
Proof. intros [bw [Hs [Hb [Hl _]]]] He. rewrite Hl. unfold group_of. rewrite Hs. apply bidx_lt; assumption. Qed.

Lemma proxy_samples pw ln2 l S g : layer_ok l -> calibrated (l_paq l) -> S = "WRAP"%string \/ S = "SAT"%string ->
  keras_op pw ln2 l = Ok g -> (forall x, length (g x) = prodn (l_out l)) ->
  exists sat bits p, SAT_MAP S = Some sat /\ length bits = length (data (q_fbw (l_paq l))) /\
    (forall gr d, gr < length (data (q_fbw (l_paq l))) -> nth gr bits d = bits_at (l_paq l) false gr) /\
    to_proxy pw ln2 l S = Ok p /\ forall xs, pcall p xs = Ok (map (fun x => psample l sat bits (g x)) xs).
Proof.
  intros HL HC HS EK LG. pose proof HL as [Hq [NZ _]].
  assert (exists sat, SAT_MAP S = Some sat) as [sat Hsat] by (destruct HS as [->| ->]; eexists; reflexivity).
  set (q := l_paq l) in *.
  assert (GL : forall e, e < prodn (l_out l) -> group_of q (l_out l) e < length (data (q_fbw q))) by (intros; apply group_lt; assumption).
  destruct (get_bits_at q (l_out l) false Hq HC) as [bf [EBf [LBf HBf]]].
  destruct (get_bits_at q (l_out l) true Hq HC) as [bt [EBt [LBt HBt]]].
  destruct Hq as [bw [Hs [Hbb [Hlen _]]]].
  assert (NC : forall bits pos e, length bits = length (data (q_fbw q)) ->
            (forall g d, g < length (data (q_fbw q)) -> nth g bits d = bits_at q pos g) -> e < prodn (l_out l) ->
            nth (bidx bw (l_out l) e) (map init_elem (map kbi bits)) (mkCfg 0 0 0) = init_elem (kbi (bits_at q pos (group_of q (l_out l) e)))).
  { intros bits pos e L H He. specialize (GL e He). unfold group_of in *. rewrite Hs in *. cbn [tl] in *.
    rewrite (nth_indep _ _ (init_elem (kbi (0, 0, 0)%Z))) by (rewrite !map_length, L; exact GL).
    rewrite (map_nth init_elem), (map_nth kbi). rewrite H by exact GL. reflexivity. }
  exists sat, bf. unfold to_proxy. rewrite EK. cbn [rbind]. unfold layer_quantizer, first_quantizer. fold q.
  destruct (l_relu l) eqn:ER.
  - rewrite EBf, EBt. cbn [rbind]. eexists. split; [exact Hsat|]. split; [exact LBf|]. split; [exact HBf|]. split; [reflexivity|].
    intros xs. unfold pcall. cbn [p_chain p_out p_op].
    match goal with |- context [fpq_call ?f false (batch_tensor _ (map g xs))] =>
      rewrite (fpq_samples_scalar f TRN sat (nth 0 (data (cfgs f)) (mkCfg 0 0 0)) (l_out l) (map g xs));
        [|reflexivity|exact Hsat|reflexivity|exact (zf_lengths g _ xs LG)] end. cbn [rbind].
    rewrite tmap_batch, !map_map.
    rewrite (fpq_samples _ (rnd_fun l) sat bw (l_out l)); [|apply rnd_mode_fun|exact Hsat|exact Hs|exact Hbb|].
    2:{ rewrite Forall_forall. intros z Hin. apply in_map_iff in Hin. destruct Hin as [x [<- _]]. rewrite !map_length. apply LG. }
    cbn [rbind]. rewrite samples_concat by (rewrite map_map; apply zf_lengths; intros x; apply fsample_length).
    f_equal. rewrite !map_map. apply map_ext.
    intros x. unfold fsample, psample. apply map_ext_in. intros e He. apply in_seq in He. destruct He as [_ He]. cbn in He.
    cbn [fpq_init cfgs tmap data]. rewrite (NC bt true e LBt HBt He).
    rewrite map_map. unfold pval. rewrite ER. fold q.
    match goal with |- fval _ _ _ (nth e (map ?f (g x)) _) = _ => rewrite (nth_indep (map f (g x)) _ (f (qz 0))) by (rewrite map_length, LG; exact He); rewrite (map_nth f) end.
    reflexivity.
  - rewrite EBf. cbn [rbind]. eexists. split; [exact Hsat|]. split; [exact LBf|]. split; [exact HBf|]. split; [reflexivity|].
    intros xs. unfold pcall. cbn [p_chain p_out p_op].
    rewrite (fpq_samples _ (rnd_fun l) sat bw (l_out l)); [|apply rnd_mode_fun|exact Hsat|exact Hs|exact Hbb|apply zf_lengths, LG].
    cbn [rbind]. rewrite samples_concat by (rewrite map_map; apply zf_lengths; intros x; apply fsample_length).
    f_equal. rewrite !map_map. apply map_ext.
    intros x. unfold fsample, psample. apply map_ext_in. intros e He. apply in_seq in He. destruct He as [_ He]. cbn in He.
    cbn [fpq_init cfgs tmap data]. rewrite (NC bf false e LBf HBf He). unfold pval. rewrite ER. reflexivity.
Qed.

Lemma psample_nth l sat bits z e : e < prodn (l_out l) -> nth e (psample l sat bits z) (qz 0) = pval l sat bits e (nth e z (qz 0)).
Proof. intros H. unfold psample. rewrite nth_map_seq by assumption. reflexivity. Qed.
Lemma psample_length l sat bits z : length (psample l sat bits z) = prodn (l_out l).
Proof. unfold psample. rewrite map_length, seq_length. reflexivity. Qed.

Theorem layer_proxy pw ln2 l S : layer_ok l -> bits_clipped (l_paq l) -> calibrated (l_paq l) ->
  S = "WRAP"%string \/ S = "SAT"%string ->
  exists p, to_proxy pw ln2 l S = Ok p /\ forall xs,
    (exists ys, pcall p xs = Ok ys) /\
    forall record nk nb na ys l', hforward pw ln2 (no_relu l) xs false record nk nb na = Ok (ys, l') ->
      Forall (in_range (l_paq l) (l_out l)) ys ->
      pcall p xs = Ok (if l_relu l then map (map relu) ys else ys).
Proof.
  intros HL HB HC HS. destruct (op_spec pw ln2 l HL) as [zf [g [op' [EP [EK Hzg]]]]].
  pose proof HL as [Hq [NZ _]].
  assert (LG : forall x, length (g x) = prodn (l_out l)) by (intros x; apply Hzg).
  assert (LZ : forall x, length (zf x) = prodn (l_out l)) by (intros x; apply Hzg).
  destruct (proxy_samples pw ln2 l S g HL HC HS EK LG) as [sat [bf [p [Hsat [LBf [HBf [EPx PC]]]]]]].
  exists p. split; [exact EPx|]. intros xs. rewrite PC. split; [eauto|].
  intros record nk nb na ys l' E R.
  apply (hforward_samples pw ln2 (no_relu l) xs record nk nb na ys l' zf op' Hq) in E; [|apply EP|exact LZ].
  destruct E as [E _]. cbn [no_relu l_paq l_out l_relu] in E. rewrite (clip_id_fbw _ HB) in E. subst ys.
  set (q := l_paq l) in *.
  f_equal. transitivity (map (fun x => if l_relu l then map relu (qsample q (l_out l) (zf x)) else qsample q (l_out l) (zf x)) xs).
  2:{ destruct (l_relu l); [rewrite map_map|]; reflexivity. }
  apply map_ext_in. intros x Hx.
  assert (RX : forall e, e < prodn (l_out l) -> exists mn mx,
     nth (group_of q (l_out l) e) (data (q_min q)) PosInf = Fin mn /\ nth (group_of q (l_out l) e) (data (q_max q)) NegInf = Fin mx /\
     (mn <= qval (q_strategy q) (nth (group_of q (l_out l) e) (data (q_fbw q)) (qz 0)) (nth e (zf x) (qz 0)))%Qc /\
     (qval (q_strategy q) (nth (group_of q (l_out l) e) (data (q_fbw q)) (qz 0)) (nth e (zf x) (qz 0)) <= mx)%Qc).
  { intros e He. rewrite Forall_forall in R. specialize (R _ (in_map (fun x => qsample q (l_out l) (zf x)) xs x Hx)). specialize (R e He).
    rewrite qsample_nth in R by assumption. exact R. }
  apply (list_nth_ext (qz 0)).
  { rewrite psample_length. destruct (l_relu l); rewrite ?map_length, qsample_length; reflexivity. }
  intros e He. rewrite psample_length in He. rewrite psample_nth by assumption. unfold pval.
  pose proof (group_lt q (l_out l) e Hq He) as GL.
  destruct (l_relu l) eqn:ER.
  - rewrite (nth_indep (map relu _) _ (relu (qz 0))) by (rewrite map_length, qsample_length; exact He).
    rewrite (map_nth relu), qsample_nth by exact He.
    apply (elem_two l sat S e (nth e (zf x) (qz 0)) (nth e (g x) (qz 0)) bf); auto. intros A. apply Hzg; assumption.
  - rewrite qsample_nth by exact He.
    apply (elem_one l sat S e (nth e (zf x) (qz 0)) (nth e (g x) (qz 0))); auto. intros A. apply Hzg; assumption.
Qed.

(** ** Masked positions *)
Lemma masked_bits l e : calibrated (l_paq l) -> quantizer_shape (l_paq l) (l_out l) -> e < prodn (l_out l) ->
  (abw_at l e <= 0)%Z -> exists r mn mx, let g := group_of (l_paq l) (l_out l) e in
    r = qround_even (nth g (data (q_fbw (l_paq l))) (qz 0)) /\
    nth g (data (q_min (l_paq l))) PosInf = Fin mn /\ nth g (data (q_max (l_paq l))) NegInf = Fin mx /\
    bits_at (l_paq l) (l_relu l) g = (0, 0, 0)%Z /\ (mx <= qz 0)%Qc /\ (l_relu l = false -> mn = qz 0).
Proof.
  intros HC Hq He HA. pose proof (group_lt _ _ e Hq He) as GL. set (g := group_of (l_paq l) (l_out l) e) in *.
  destruct (group_bits (l_paq l) g HC GL) as [r [mn [mx [Hr [Hb [E1 [E2 [G1 [G2 [Hle [B1 [B2 [D DP]]]]]]]]]]]]].
  exists r, mn, mx. cbv zeta. unfold abw_at in HA. cbv zeta in HA. fold g in HA. rewrite E1, E2 in HA. cbn [fin] in HA.
  do 3 (split; [assumption|]).
  destruct (l_relu l).
  - destruct DP as [[Mx EP]|[Mx [EP FB]]]; [auto|]; [split; [assumption|split; [assumption|discriminate]]|]. exfalso.
    rewrite (act_bw_relu _ r mn mx Hr) in HA by (try assumption; lia).
    unfold act_bw_exact_elem in HA. unfold bits_at in EP. rewrite E1, E2 in EP. cbn [fin] in EP. rewrite EP in HA. lia.
  - destruct D as [[-> [-> EB]]|[NZ [k [i [EB [Hk [Hi [Hki [Lo [Up _]]]]]]]]]]; [split; [assumption|split; [qlra|auto]]|]. exfalso.
    assert (P : (0 < k + i + r)%Z) by (destruct Hk as [->| ->]; [specialize (Hki eq_refl); lia|lia]).
    assert (0 < act_bw_elem false mn mx (nth g (data (q_fbw (l_paq l))) (qz 0)))%Z; [|lia].
    apply (abw_norelu_pos (l_paq l) g _ r mn mx k i); try assumption. unfold bits_at. rewrite E1, E2. reflexivity.
Qed.

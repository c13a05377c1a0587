(** Tracing: batch-independence and what the registers hold (C18, C40, C42). *)
From Coq Require Import ZArith Qcanon List Bool String Lia.
From Verif Require Import Base.Num Base.NumFacts Base.Tensor Model.FixedPoint Model.Quantizer Model.Layers Model.Graph
  Model.Convert Model.Trace Spec.Fixed Spec.Quant Spec.History Spec.Layer Spec.Trace Proofs.TensorP Proofs.RecordP
  Proofs.HistoryP Proofs.CallP Proofs.SampleP Proofs.LayersP Proofs.ConvertP.
Import ListNotations.
Local Open Scope nat_scope.

(** ** Groups of a recordable quantizer *)
Definition ngroups (q : hgq) : nat := length (data (q_fbw q)).

Lemma recordable_facts q out : recordable q out -> 0 < prodn out -> quantizer_shape q out /\ 0 < ngroups q /\
  (exists K, prodn out = K * ngroups q) /\ forall e, e < prodn out -> group_of q out e = e mod ngroups q.
Proof.
  intros [pre [rest [-> [Sk [F [Mn Mx]]]]]] Hp. destruct F as [Fs Fl], Mn as [Ms Ml], Mx as [Xs Xl].
  unfold ngroups. rewrite Fl. rewrite prodn_app in *. assert (0 < prodn rest) by nia.
  split; [|split; [assumption|split; [eauto|]]].
  - exists (repeat 1 (length pre) ++ rest). rewrite Fs. cbn [repeat app]. rewrite bshape_prefix.
    rewrite prodn_app, prodn_ones, Nat.mul_1_l. auto.
  - intros e He. unfold group_of. rewrite Fs. cbn [repeat app tl]. apply bidx_prefix. rewrite prodn_app. assumption.
Qed.

Lemma in_group_iff' N g l v : N <> 0 -> g < N ->
  (in_group N g l v <-> exists p, nth_error l p = Some v /\ p mod N = g).
Proof.
  intros HN Hg. split.
  - intros [j H]. exists (j * N + g). split; [assumption|]. rewrite Nat.add_comm, Nat.mod_add, Nat.mod_small by lia. reflexivity.
  - intros [p [H E]]. apply (in_group_mod N g l p v HN H E).
Qed.

Lemma nth_err {A} (l : list A) p d : p < length l -> nth_error l p = Some (nth p l d).
Proof. intros H. apply nth_error_nth'. assumption. Qed.

Lemma in_group_concat N g n ys v : N <> 0 -> g < N -> (exists K, n = K * N) -> 0 < n -> Forall (fun y => length y = n) ys ->
  (in_group N g (concat ys) v <-> exists y, In y ys /\ in_group N g y v).
Proof.
  intros HN Hg [K HK] Hn HF. rewrite in_group_iff' by assumption. split.
  - intros [p [H E]]. assert (Hp : p < length (concat ys)) by (apply nth_error_Some; congruence).
    rewrite (concat_length_const ys n HF) in Hp.
    assert (Hj : p / n < length ys) by (apply Nat.div_lt_upper_bound; lia).
    assert (He : p mod n < n) by (apply Nat.mod_upper_bound; lia).
    exists (nth (p / n) ys []). split; [apply nth_In; assumption|].
    rewrite in_group_iff' by assumption. exists (p mod n).
    rewrite (nth_err _ _ v) by (rewrite Forall_forall in HF; rewrite (HF _ (nth_In ys [] Hj)); assumption).
    rewrite (nth_err _ p v) in H by (rewrite (concat_length_const ys n HF); assumption).
    rewrite <- (concat_nth ys n (p / n) (p mod n) v HF Hj He).
    replace (p / n * n + p mod n) with p by (rewrite (Nat.div_mod p n) at 1; lia).
    split; [assumption|]. rewrite <- E. subst n.
    rewrite (Nat.mul_comm K N), Nat.mod_mul_r by lia.
    rewrite (Nat.mul_comm N), Nat.mod_add by lia. apply Nat.mod_mod. assumption.
  - intros [y [Hy H]]. apply In_nth with (d := []) in Hy. destruct Hy as [j [Hj <-]].
    rewrite in_group_iff' in H by assumption. destruct H as [e [H E]].
    assert (Ly : length (nth j ys []) = n) by (rewrite Forall_forall in HF; apply HF, nth_In; assumption).
    assert (He : e < n) by (rewrite <- Ly; apply nth_error_Some; congruence).
    exists (j * n + e). split.
    + rewrite (nth_err _ _ v) by (rewrite (concat_length_const ys n HF); nia).
      rewrite (concat_nth ys n j e v HF Hj He). rewrite (nth_err _ _ v) in H by lia. assumption.
    + subst n. rewrite <- E. replace (j * (K * N) + e) with (e + (j * K) * N) by lia. apply Nat.mod_add. assumption.
Qed.

(** ** Recording, as a function of the registers before *)
Lemma record_min_val s m pre rest y mn : prefix_skip s m -> length pre = m ->
  shape y = pre ++ rest -> length (data y) = prodn (shape y) -> reg_ok m rest mn ->
  exists mn', record_min s y mn = Ok mn' /\ reg_ok m rest mn' /\
    forall g, g < prodn rest -> exists e, least (in_group (prodn rest) g (data y)) e /\
      nth g (data mn') PosInf = ext_min e (nth g (data mn) PosInf).
Proof.
  intros Hs Hm Hy Hl [Rs Rl]. unfold record_min.
  destruct (red_least s m pre rest y Hs Hm Hy Hl) as [t [-> [Ts [Tl Tg]]]].
  destruct (bmap2_lead PosInf PosInf ext_min m rest t mn Ts Rs) as [r [-> [Sr [Lr Gr]]]].
  cbn [rbind]. rewrite Sr, Rs. destruct (list_eq_dec _ _ _); [|congruence].
  exists r. split; [reflexivity|]. split; [split; assumption|].
  intros g Hg. exists (nth g (data t) PosInf). split; [apply Tg; assumption|]. apply Gr. assumption.
Qed.
Lemma record_max_val s m pre rest y mx : prefix_skip s m -> length pre = m ->
  shape y = pre ++ rest -> length (data y) = prodn (shape y) -> reg_ok m rest mx ->
  exists mx', record_max s y mx = Ok mx' /\ reg_ok m rest mx' /\
    forall g, g < prodn rest -> exists e, greatest (in_group (prodn rest) g (data y)) e /\
      nth g (data mx') NegInf = ext_max e (nth g (data mx) NegInf).
Proof.
  intros Hs Hm Hy Hl [Rs Rl]. unfold record_max.
  destruct (red_greatest s m pre rest y Hs Hm Hy Hl) as [t [-> [Ts [Tl Tg]]]].
  destruct (bmap2_lead NegInf NegInf ext_max m rest t mx Ts Rs) as [r [-> [Sr [Lr Gr]]]].
  cbn [rbind]. rewrite Sr, Rs. destruct (list_eq_dec _ _ _); [|congruence].
  exists r. split; [reflexivity|]. split; [split; assumption|].
  intros g Hg. exists (nth g (data t) NegInf). split; [apply Tg; assumption|]. apply Gr. assumption.
Qed.

Lemma ext_min_assoc a b c : ext_min a (ext_min b c) = ext_min (ext_min a b) c.
Proof.
  destruct a as [|a|], b as [|b|], c as [|c|]; unfold ext_min; cbn; try reflexivity;
    repeat (match goal with |- context [qleb ?x ?y] => destruct (qleb_spec x y) | |- context [Qclt_le_dec ?a ?b] => destruct (Qclt_le_dec a b) end; cbn); try reflexivity; try congruence;
    exfalso; qlra.
Qed.
Lemma ext_max_assoc a b c : ext_max a (ext_max b c) = ext_max (ext_max a b) c.
Proof.
  destruct a as [|a|], b as [|b|], c as [|c|]; unfold ext_max; cbn; try reflexivity;
    repeat (match goal with |- context [qleb ?x ?y] => destruct (qleb_spec x y) | |- context [Qclt_le_dec ?a ?b] => destruct (Qclt_le_dec a b) end; cbn); try reflexivity; try congruence;
    exfalso; qlra.
Qed.
Lemma least_unique P Q a b : (forall v, P v <-> Q v) -> least P a -> least Q b -> a = b.
Proof.
  intros H [[N1 ->]|[v [Pv [-> M]]]] [[N2 ->]|[u [Qu [-> M']]]]; auto.
  - exfalso. apply (N1 u), H, Qu.
  - exfalso. apply (N2 v), H, Pv.
  - f_equal. apply Qcle_antisym; [apply M, H, Qu|apply M', H, Pv].
Qed.
Lemma greatest_unique P Q a b : (forall v, P v <-> Q v) -> greatest P a -> greatest Q b -> a = b.
Proof.
  intros H [[N1 ->]|[v [Pv [-> M]]]] [[N2 ->]|[u [Qu [-> M']]]]; auto.
  - exfalso. apply (N1 u), H, Qu.
  - exfalso. apply (N2 v), H, Pv.
  - f_equal. apply Qcle_antisym; [apply M', H, Pv|apply M, H, Qu].
Qed.

(** ** One layer *)
Section P.
Variable pw : Qc -> Qc.
Variable ln2 : Qc.
Notation nd := (fun _ : nat => qz 0).

Definition zfun (l : hlayer) (x : list sample) : sample :=
  match pre_activation pw ln2 l [x] false nd nd with Ok (z :: _, _) => z | _ => [] end.
Definition ysamp (l : hlayer) (x : list sample) : sample := qsample (l_paq l) (l_out l) (zfun l x).
Definition yout (l : hlayer) (x : list sample) : sample := if l_relu l then map relu (ysamp l x) else ysamp l x.
Definition set_mm (l : hlayer) (mn mx : tensor ext) : hlayer :=
  mkL (l_op l) (with_minmax (l_paq l) mn mx) (l_relu l) (l_loc l) (l_out l).
Definition op_clipped (op : lop) : Prop := match op with Linear _ _ kq _ _ => bits_clipped kq | Fn _ => True end.

Lemma zfun_mm l mn mx x : zfun (set_mm l mn mx) x = zfun l x.
Proof. destruct l as [op q r lc out]. destruct op; reflexivity. Qed.
Lemma ysamp_mm l mn mx x : ysamp (set_mm l mn mx) x = ysamp l x.
Proof. unfold ysamp. rewrite zfun_mm. destruct l. reflexivity. Qed.
Lemma yout_mm l mn mx x : yout (set_mm l mn mx) x = yout l x.
Proof. unfold yout. rewrite ysamp_mm. destruct l. reflexivity. Qed.

Lemma op_same l xs zs op' : op_clipped (l_op l) -> pre_activation pw ln2 l xs false nd nd = Ok (zs, op') -> op' = l_op l.
Proof.
  unfold pre_activation. destruct (l_op l) as [ts k kq b bl|g]; intros Hc E; [|injection E; auto].
  apply rbind_ok in E. destruct E as [[w kq'] [E1 E]]. cbn [fst snd] in E.
  assert (kq' = kq).
  { unfold call in E1. rewrite clip_id_fbw in E1 by exact Hc.
    destruct (forward_elems _ _ _ _ _ _ _ _ _ E1) as [_ [_ [_ [H _]]]]. apply H. reflexivity. }
  subst kq'. destruct b as [b|]; [|injection E; auto].
  apply rbind_ok in E. destruct E as [qb [_ E]]. injection E; auto.
Qed.

Lemma zfun_spec l xs : layer_ok l -> op_clipped (l_op l) ->
  pre_activation pw ln2 l xs false nd nd = Ok (map (zfun l) xs, l_op l) /\ forall x, length (zfun l x) = prodn (l_out l).
Proof.
  intros Hok Hc. destruct (op_spec pw ln2 l Hok) as [zf [g [op' [E [_ H]]]]].
  assert (Z : forall x, zfun l x = zf x) by (intros x; unfold zfun; rewrite E; reflexivity).
  split.
  - rewrite E. rewrite (op_same l xs _ op' Hc (E xs nd nd)).
    rewrite (map_ext (zfun l) zf Z). reflexivity.
  - intros x. rewrite Z. apply H.
Qed.

Definition reg_step (q : hgq) (V : nat -> Qc -> Prop) (mn mx : tensor ext) : Prop :=
  shape mn = shape (q_min q) /\ length (data mn) = length (data (q_min q)) /\
  shape mx = shape (q_max q) /\ length (data mx) = length (data (q_max q)) /\
  forall g, g < ngroups q ->
    (exists e, least (V g) e /\ nth g (data mn) PosInf = ext_min e (nth g (data (q_min q)) PosInf)) /\
    (exists e, greatest (V g) e /\ nth g (data mx) NegInf = ext_max e (nth g (data (q_max q)) NegInf)).

Lemma hfwd l xs record : layer_ok l -> recordable (l_paq l) (l_out l) -> bits_clipped (l_paq l) -> op_clipped (l_op l) ->
  exists mn mx, hforward pw ln2 l xs false record nd nd nd = Ok (map (yout l) xs, set_mm l mn mx) /\
    reg_step (l_paq l) (fun g v => record = true /\ exists x, In x xs /\ in_group (ngroups (l_paq l)) g (ysamp l x) v) mn mx /\
    (record = false -> mn = q_min (l_paq l) /\ mx = q_max (l_paq l)).
Proof.
  intros Hok Hr Hc Ho. destruct (zfun_spec l xs Hok Ho) as [EP HL].
  pose proof Hok as [_ [Hp _]]. destruct (recordable_facts _ _ Hr Hp) as [Hq [HN [HK Hg]]].
  destruct Hr as [pre [rest [Eo [Sk [F [Mn Mx]]]]]].
  assert (Br : broadcast_shape (shape (batch_tensor (l_out l) (map (zfun l) xs))) (shape (q_fbw (clip_fbw (l_paq l)))) =
               Some (length xs :: l_out l)).
  { rewrite clip_id_fbw by assumption. cbn [batch_tensor shape]. destruct Hq as [bw [-> [B _]]]. rewrite map_length.
    apply broadcast_out. assumption. }
  destruct (forward_ok pw ln2 (clip_fbw (l_paq l)) (batch_tensor (l_out l) (map (zfun l) xs)) false nd _ Br ltac:(discriminate))
    as [y [Sy Fy]].
  assert (Ey : y = batch_tensor (l_out l) (map (ysamp l) xs)).
  { specialize (Fy false). cbn [negb] in Fy.
    pose proof (call_samples pw ln2 (l_paq l) (l_out l) (map (zfun l) xs) false nd _ _ Hq
      (zf_lengths (zfun l) (prodn (l_out l)) xs HL) Fy) as H.
    rewrite clip_id_fbw in H by assumption. rewrite map_map in H. exact H. }
  assert (Ss : samples (l_out l) y = map (ysamp l) xs).
  { rewrite Ey. apply samples_concat. apply zf_lengths. intros x. apply qsample_length. }
  assert (Out : forall mn mx, (if l_relu l then map (map relu) (samples (l_out l) y) else samples (l_out l) y,
      mkL (l_op l) (with_minmax (clip_fbw (l_paq l)) mn mx) (l_relu l) (l_loc l) (l_out l)) = (map (yout l) xs, set_mm l mn mx)).
  { intros mn mx. rewrite Ss. rewrite clip_id_fbw by assumption. unfold set_mm, yout. f_equal.
    destruct (l_relu l); [rewrite map_map; reflexivity|reflexivity]. }
  assert (WM : forall q, with_minmax q (q_min q) (q_max q) = q) by (intros []; reflexivity).
  unfold hforward. rewrite EP. cbn [rbind fst snd]. unfold call. rewrite (Fy record).
  destruct record; cbn [negb].
  - assert (Yl : length (data y) = prodn (shape y)).
    { rewrite Ey. apply batch_wf. apply zf_lengths. intros x. apply qsample_length. }
    assert (Sh : shape y = (length xs :: pre) ++ rest) by (rewrite Sy, Eo; reflexivity).
    rewrite !clip_id_fbw in * by assumption.
    destruct (record_min_val (q_skip (l_paq l)) (S (length pre)) (length xs :: pre) rest y (q_min (l_paq l)) Sk eq_refl Sh Yl Mn)
      as [mn [-> [Rmn Gmn]]].
    destruct (record_max_val (q_skip (l_paq l)) (S (length pre)) (length xs :: pre) rest y (q_max (l_paq l)) Sk eq_refl Sh Yl Mx)
      as [mx [-> [Rmx Gmx]]].
    cbn [rbind fst snd]. exists mn, mx. rewrite (Out mn mx). split; [reflexivity|]. split; [|discriminate].
    assert (EN : ngroups (l_paq l) = prodn rest) by apply F.
    assert (IG : forall g v, g < prodn rest -> in_group (prodn rest) g (data y) v <->
       (true = true /\ exists x, In x xs /\ in_group (ngroups (l_paq l)) g (ysamp l x) v)).
    { intros g v Hlt. rewrite Ey. cbn [batch_tensor data]. rewrite EN in *.
      rewrite (in_group_concat (prodn rest) g (prodn (l_out l))); [| lia | assumption | exact HK | assumption |].
      - split.
        + intros [s [Hs Hv]]. apply in_map_iff in Hs. destruct Hs as [x [<- Hx]]. eauto.
        + intros [_ [x [Hx Hv]]]. exists (ysamp l x). split; [apply in_map; assumption|assumption].
      - apply zf_lengths. intros x. apply qsample_length. }
    split; [destruct Rmn as [-> _], Mn as [-> _]; reflexivity|].
    split; [destruct Rmn as [_ ->], Mn as [_ ->]; reflexivity|].
    split; [destruct Rmx as [-> _], Mx as [-> _]; reflexivity|].
    split; [destruct Rmx as [_ ->], Mx as [_ ->]; reflexivity|].
    intros g Hlt. rewrite EN in Hlt. split.
    + destruct (Gmn g Hlt) as [e [He Ee]]. exists e. split; [|assumption]. eapply least_ext; [|exact He]. intros v. apply IG. assumption.
    + destruct (Gmx g Hlt) as [e [He Ee]]. exists e. split; [|assumption]. eapply greatest_ext; [|exact He]. intros v. apply IG. assumption.
  - cbn [rbind fst snd]. exists (q_min (l_paq l)), (q_max (l_paq l)).
    specialize (Out (q_min (l_paq l)) (q_max (l_paq l))).
    replace (with_minmax (clip_fbw (l_paq l)) (q_min (l_paq l)) (q_max (l_paq l))) with (clip_fbw (l_paq l)) in Out
      by (rewrite clip_id_fbw by assumption; symmetry; apply WM).
    rewrite Out. split; [reflexivity|]. split; [|auto]. repeat (split; [reflexivity|]).
    intros g Hlt. split; eexists; (split; [left; split; [intros v [? _]; discriminate|reflexivity]|]);
      [destruct (nth g (data (q_min (l_paq l))) PosInf)|destruct (nth g (data (q_max (l_paq l))) NegInf)]; reflexivity.
Qed.

(** ** Objects and stores *)
Definition obj_mm (o : hobj) (mn mx : tensor ext) : hobj := with_layer o (set_mm (o_layer o) mn mx).
Definition obj_rel (o0 : hobj) (V : nat -> Qc -> Prop) (o : hobj) : Prop :=
  exists mn mx, o = obj_mm o0 mn mx /\ reg_step (l_paq (o_layer o0)) (fun g v => o_record o0 = true /\ V g v) mn mx.

Lemma reg_step_ok q V mn mx m rest : reg_step q V mn mx -> reg_ok m rest (q_min q) -> reg_ok m rest (q_max q) ->
  reg_ok m rest mn /\ reg_ok m rest mx.
Proof. intros [A [B [C [D _]]]] [E F] [G H]. repeat split; congruence. Qed.

Lemma obj_ok_mm o mn mx V : obj_ok o -> reg_step (l_paq (o_layer o)) V mn mx -> obj_ok (obj_mm o mn mx).
Proof.
  intros [[Q [Hp Hop]] [R [C O]]] St. destruct o as [l rec a ins b], l as [op q rl lc out]. unfold obj_ok. cbv zeta. unfold obj_mm, with_layer, set_mm.
  cbn [o_layer l_op l_paq l_relu l_loc l_out o_record o_act o_ins o_bops] in *.
  split; [|split; [|split; [exact C|exact O]]].
  - split; [|split; [exact Hp|exact Hop]].
    destruct Q as [bw [Q1 [Q2 [Q3 [Q4 Q5]]]]]. destruct St as [_ [B [_ [D _]]]]. exists bw. cbn [q_fbw q_min q_max with_minmax l_paq o_layer l_out].
    repeat split; try assumption; congruence.
  - destruct R as [pre [rest [E [Sk [F [M X]]]]]]. exists pre, rest. cbn [q_fbw q_min q_max q_skip with_minmax l_paq o_layer l_out].
    destruct (reg_step_ok _ _ _ _ _ _ St M X). auto.
Qed.

Lemma least_false P e : (forall v, ~ P v) -> least P e -> e = PosInf.
Proof. intros H [[_ ->]|[v [Pv _]]]; [reflexivity|]. destruct (H v Pv). Qed.
Lemma greatest_false P e : (forall v, ~ P v) -> greatest P e -> e = NegInf.
Proof. intros H [[_ ->]|[v [Pv _]]]; [reflexivity|]. destruct (H v Pv). Qed.

Lemma reg_step_refl q (V : nat -> Qc -> Prop) : (forall g v, ~ V g v) -> reg_step q V (q_min q) (q_max q).
Proof.
  intros HV. repeat (split; [reflexivity|]). intros g Hlt. split; eexists; (split; [left; split; [apply HV|reflexivity]|]);
    [destruct (nth g (data (q_min q)) PosInf)|destruct (nth g (data (q_max q)) NegInf)]; reflexivity.
Qed.

Lemma reg_step_trans q V W mn mx mn' mx' : reg_step q V mn mx -> reg_step (with_minmax q mn mx) W mn' mx' ->
  reg_step q (fun g v => V g v \/ W g v) mn' mx'.
Proof.
  intros [A [B [C [D E]]]] [A' [B' [C' [D' E']]]]. cbn [with_minmax q_min q_max] in *.
  split; [congruence|]. split; [congruence|]. split; [congruence|]. split; [congruence|].
  intros g Hg. destruct (E g Hg) as [[e1 [L1 M1]] [e2 [L2 M2]]]. destruct (E' g Hg) as [[e1' [L1' M1']] [e2' [L2' M2']]]. split.
  - exists (ext_min e1' e1). split.
    + eapply least_ext; [|apply (least_union _ _ _ _ L1' L1)]. intros v. cbn beta. tauto.
    + rewrite M1', M1. apply ext_min_assoc.
  - exists (ext_max e2' e2). split.
    + eapply greatest_ext; [|apply (greatest_union _ _ _ _ L2' L2)]. intros v. cbn beta. tauto.
    + rewrite M2', M2. apply ext_max_assoc.
Qed.

Lemma reg_step_ext q V W mn mx : (forall g v, V g v <-> W g v) -> reg_step q V mn mx -> reg_step q W mn mx.
Proof.
  intros H [A [B [C [D E]]]]. repeat (split; [assumption|]). intros g Hg. destruct (E g Hg) as [[e1 [L1 M1]] [e2 [L2 M2]]].
  split; [exists e1|exists e2]; (split; [|assumption]); [eapply least_ext|eapply greatest_ext]; eauto; intros; apply H.
Qed.

Lemma tensor_eq {A} (a b : tensor A) : shape a = shape b -> data a = data b -> a = b.
Proof. destruct a, b; cbn; intros; subst; reflexivity. Qed.

Lemma reg_step_unique q V W mn mx mn' mx' : length (data (q_min q)) = ngroups q -> length (data (q_max q)) = ngroups q ->
  (forall g v, V g v <-> W g v) ->
  reg_step q V mn mx -> reg_step q W mn' mx' -> mn = mn' /\ mx = mx'.
Proof.
  intros H1 H2 H [A [B [C [D E]]]] [A' [B' [C' [D' E']]]]. split; apply tensor_eq; try congruence.
  - apply (list_nth_ext PosInf); [congruence|]. intros g Hg. rewrite B, H1 in Hg.
    destruct (E g Hg) as [[e1 [L1 ->]] _], (E' g Hg) as [[e1' [L1' ->]] _].
    rewrite (least_unique _ _ _ _ (H g) L1 L1'). reflexivity.
  - apply (list_nth_ext NegInf); [congruence|]. intros g Hg. rewrite D, H2 in Hg.
    destruct (E g Hg) as [_ [e1 [L1 ->]]], (E' g Hg) as [_ [e1' [L1' ->]]].
    rewrite (greatest_unique _ _ _ _ (H g) L1 L1'). reflexivity.
Qed.

Lemma obj_ok_len o : obj_ok o -> length (data (q_min (l_paq (o_layer o)))) = ngroups (l_paq (o_layer o)) /\
  length (data (q_max (l_paq (o_layer o)))) = ngroups (l_paq (o_layer o)).
Proof. intros [_ [R _]]. destruct R as [pre [rest [_ [_ [[_ F] [[_ M] [_ X]]]]]]]. unfold ngroups. split; congruence. Qed.

Lemma obj_rel_unique o0 V W o o' : obj_ok o0 -> (forall g v, V g v <-> W g v) -> obj_rel o0 V o -> obj_rel o0 W o' -> o = o'.
Proof.
  intros Ok0 H [mn [mx [-> S1]]] [mn' [mx' [-> S2]]]. destruct (obj_ok_len o0 Ok0) as [L1 L2].
  assert (H' : forall g v, (o_record o0 = true /\ V g v) <-> (o_record o0 = true /\ W g v)) by (intros g v; rewrite (H g v); tauto).
  destruct (reg_step_unique _ _ _ _ _ _ _ L1 L2 H' S1 S2) as [-> ->]. reflexivity.
Qed.

Lemma with_minmax_id q : with_minmax q (q_min q) (q_max q) = q.
Proof. destruct q; reflexivity. Qed.
Lemma obj_mm_id o : obj_mm o (q_min (l_paq (o_layer o))) (q_max (l_paq (o_layer o))) = o.
Proof. destruct o as [[op q r lc out] rec a ins b]. unfold obj_mm, with_layer, set_mm. cbn. rewrite with_minmax_id. reflexivity. Qed.

Lemma obj_rel_refl o (V : nat -> Qc -> Prop) : (forall g v, ~ (o_record o = true /\ V g v)) -> obj_rel o V o.
Proof.
  intros H. exists (q_min (l_paq (o_layer o))), (q_max (l_paq (o_layer o))). rewrite obj_mm_id. split; [reflexivity|].
  apply reg_step_refl. exact H.
Qed.

Lemma obj_fwd o0 V o xs : obj_ok o0 -> obj_rel o0 V o ->
  exists l', hforward pw ln2 (o_layer o) xs false (o_record o) nd nd nd = Ok (map (yout (o_layer o0)) xs, l') /\
    obj_rel o0 (fun g v => V g v \/ exists x, In x xs /\ in_group (ngroups (l_paq (o_layer o0))) g (ysamp (o_layer o0) x) v)
      (with_layer o l').
Proof.
  intros Ok0 [mn [mx [-> St]]]. pose proof (obj_ok_mm o0 mn mx _ Ok0 St) as Ok1.
  destruct Ok1 as [A [B [C D]]].
  destruct (hfwd _ xs (o_record (obj_mm o0 mn mx)) A B C D) as [mn' [mx' [E [S2 _]]]].
  exists (set_mm (o_layer (obj_mm o0 mn mx)) mn' mx'). split.
  - rewrite E. reflexivity.
  - exists mn', mx'. split; [reflexivity|].
    eapply reg_step_ext; [|eapply (reg_step_trans _ _ _ _ _ _ _ St); exact S2].
    intros g v. cbn beta. cbn [obj_mm with_layer o_record o_layer].
    replace (ngroups (l_paq (set_mm (o_layer o0) mn mx))) with (ngroups (l_paq (o_layer o0))) by reflexivity.
    split.
    + intros [[H1 H2]|[H1 [x [H2 H3]]]]; [tauto|]. rewrite ysamp_mm in H3. split; [assumption|]. right. eauto.
    + intros [H1 [H2|[x [H2 H3]]]]; [tauto|]. right. split; [assumption|]. exists x. rewrite ysamp_mm. auto.
Qed.

Definition rel (st0 : store) (V : nat -> nat -> Qc -> Prop) (st : store) : Prop :=
  length st = length st0 /\
  forall i o0, nth_error st0 i = Some o0 -> exists o, nth_error st i = Some o /\ obj_rel o0 (V i) o.

Lemma nth_error_ext {A} (a b : list A) : length a = length b ->
  (forall i x y, nth_error a i = Some x -> nth_error b i = Some y -> x = y) -> a = b.
Proof.
  revert b. induction a as [|x a IH]; intros [|y b] H E; try discriminate; [reflexivity|].
  f_equal; [apply (E 0); reflexivity|]. apply IH; [injection H; auto|]. intros i. apply (E (S i)).
Qed.

Lemma rel_unique st0 V W st st' : Forall obj_ok st0 -> (forall i g v, V i g v <-> W i g v) -> rel st0 V st -> rel st0 W st' -> st = st'.
Proof.
  intros Hok H [L1 R1] [L2 R2]. apply nth_error_ext; [congruence|]. intros i x y Ex Ey.
  assert (Hi : i < length st0) by (rewrite <- L1; apply nth_error_Some; congruence).
  destruct (nth_error st0 i) as [o0|] eqn:E0; [|apply nth_error_None in E0; lia].
  destruct (R1 i o0 E0) as [o [A B]], (R2 i o0 E0) as [o' [A' B']].
  replace x with o by congruence. replace y with o' by congruence.
  apply (obj_rel_unique o0 (V i) (W i)); auto. rewrite Forall_forall in Hok. apply Hok. eapply nth_error_In, E0.
Qed.

Lemma rel_refl st (V : nat -> nat -> Qc -> Prop) : (forall i g v, ~ V i g v) -> rel st V st.
Proof. intros H. split; [reflexivity|]. intros i o E. exists o. split; [assumption|]. apply obj_rel_refl. intros g v [_ HV]. apply (H _ _ _ HV). Qed.

Lemma set_nth_length {A} (l : list A) i x : length (set_nth l i x) = length l.
Proof. revert i. induction l as [|a l IH]; intros [|i]; cbn; auto. Qed.
Lemma set_nth_error {A} (l : list A) i j x : nth_error (set_nth l i x) j =
  if Nat.eqb i j then (if Nat.ltb i (length l) then Some x else None) else nth_error l j.
Proof.
  revert i j. induction l as [|a l IH]; intros [|i] [|j]; cbn [set_nth nth_error length Nat.eqb]; try reflexivity.
  - destruct (Nat.eqb i j); reflexivity.
  - rewrite IH. reflexivity.
Qed.
Lemma nth_error_lt {A} (l : list A) i x : nth_error l i = Some x -> i < length l.
Proof. intros H. apply nth_error_Some. congruence. Qed.

Definition grp (st0 : store) (i g : nat) (y : sample) (v : Qc) : Prop :=
  exists o0, nth_error st0 i = Some o0 /\ in_group (ngroups (l_paq (o_layer o0))) g y v.

(** ** Running one sample, with the quantized values that pass each layer *)
Definition visits : Type := list (nat * sample).
Definition sem1 (st0 : store) (x : layer) (ins : list sample) (log : visits) : result (sample * visits) :=
  match snd x with
  | KH i | KQuant i =>
      rbind (get st0 i) (fun o =>
      if negb (sized_all (o_ins o) (map (fun s => [s]) ins)) then Raise
      else match ins with [] => Raise | _ => Ok (yout (o_layer o) ins, log ++ [(i, ysamp (o_layer o) ins)]) end)
  | KSig _ out => rbind (one ins) (fun s => if sized out [s] then Ok (s, log) else Raise)
  | KDrop _ | KLin => rbind (one ins) (fun s => Ok (s, log))
  | KP g | KKeras g => match ins with [] => Raise | _ => Ok (g ins, log) end
  | KFpq _ _ => Raise
  | KRelu => rbind (one ins) (fun s => Ok (map relu s, log))
  end.

Definition cols (ins : list (list sample)) (j : nat) : list sample := map (fun b => nth j b []) ins.

Lemma klayer_ind' {L} (P : klayer L -> Prop) : (forall x, P (Leaf x)) ->
  (forall nin nodes outs, (forall k ins, In (k, ins) nodes -> P k) -> P (Sub nin nodes outs)) -> forall k, P k.
Proof.
  intros HL HS. fix F 1. intros [x|nin nodes outs]; [apply HL|]. apply HS.
  induction nodes as [|[k0 i0] nodes IH]; intros k ins H; [destruct H|].
  destruct H as [H|H]; [injection H as <- <-; apply F|apply (IH _ _ H)].
Qed.

Lemma pick_cols vals j r : pick (map (fun vs => cols vs j) vals) r =
  match pick vals r with Ok b => Ok (nth j b []) | Raise => Raise end.
Proof.
  unfold pick. rewrite nth_error_map. destruct (nth_error vals (fst r)) as [vs|]; [|reflexivity]. cbn [option_map].
  unfold cols. rewrite nth_error_map. destruct (nth_error vs (snd r)); reflexivity.
Qed.
Lemma rseq_cols vals j ins : rseq (map (pick (map (fun vs => cols vs j) vals)) ins) =
  match rseq (map (pick vals) ins) with Ok bs => Ok (cols bs j) | Raise => Raise end.
Proof.
  induction ins as [|r ins IH]; [reflexivity|]. cbn [map rseq]. rewrite pick_cols.
  destruct (pick vals r) as [b|]; [|reflexivity]. cbn [rbind]. rewrite IH.
  destruct (rseq (map (pick vals) ins)); reflexivity.
Qed.
Lemma pick_in {V} (vals : list (list V)) r b : pick vals r = Ok b -> exists vs, In vs vals /\ In b vs.
Proof.
  unfold pick. destruct (nth_error vals (fst r)) as [vs|] eqn:E; [|discriminate].
  destruct (nth_error vs (snd r)) as [c|] eqn:E'; [|discriminate]. injection 1 as ->.
  exists vs. split; [apply nth_error_In in E|apply nth_error_In in E']; assumption.
Qed.
Lemma rseq_pick_forall {V} (P : V -> Prop) vals ins bs : Forall (Forall P) vals -> rseq (map (pick vals) ins) = Ok bs -> Forall P bs.
Proof.
  intros H. revert bs. induction ins as [|r ins IH]; intros bs E; cbn [map rseq] in E.
  - injection E as <-. constructor.
  - destruct (pick vals r) as [b|] eqn:Ep; [|discriminate]. cbn [rbind] in E.
    destruct (rseq _) as [bs'|]; [|discriminate]. cbn [rbind] in E. injection E as <-. constructor; [|apply IH; reflexivity].
    destruct (pick_in _ _ _ Ep) as [vs [H1 H2]]. rewrite Forall_forall in H. specialize (H _ H1).
    rewrite Forall_forall in H. apply H, H2.
Qed.

(** Zipping *)
Lemma zip_ok n ins : Forall (fun b : list sample => length b = n) ins ->
  zip_samples ins = match ins with [] => Raise | _ => Ok (map (cols ins) (seq 0 n)) end.
Proof.
  intros H. destruct ins as [|b ins]; [reflexivity|]. unfold zip_samples.
  replace (length b) with n by (inversion H; congruence).
  replace (forallb _ _) with true; [reflexivity|]. symmetry. apply forallb_forall. intros b' Hb.
  rewrite Forall_forall in H. rewrite (H b' Hb). apply Nat.eqb_refl.
Qed.

Lemma sized_all_cols shapes ins n : Forall (fun b : list sample => length b = n) ins -> 0 < n ->
  (sized_all shapes ins = true -> forall j, j < n -> sized_all shapes (map (fun s => [s]) (cols ins j)) = true) /\
  (sized_all shapes ins = false -> exists j, j < n /\ sized_all shapes (map (fun s => [s]) (cols ins j)) = false).
Proof.
  intros H Hn. unfold sized_all, cols.
  assert (MM : forall j, map (fun s => [s]) (map (fun b : list sample => nth j b []) ins) = map (fun b => [nth j b []]) ins)
    by (intros; apply map_map).
  split.
  - intros E j Hj. rewrite MM. clear MM. apply andb_prop in E. destruct E as [E1 E2]. apply andb_true_intro.
    rewrite map_length. split; [assumption|]. clear E1. revert shapes E2. induction ins as [|b ins IH]; intros [|s shapes] E; try reflexivity.
    cbn [map combine forallb fst snd] in *. inversion H; subst. apply andb_prop in E. destruct E as [E1 E2].
    apply andb_true_intro. split; [|apply IH; assumption]. unfold sized in *. cbn [forallb]. rewrite andb_true_r.
    rewrite forallb_forall in E1. apply E1. apply nth_In. assumption.
  - intros E. apply andb_false_iff in E. destruct E as [E|E].
    + exists 0. split; [assumption|]. rewrite MM, map_length, E. reflexivity.
    + assert (exists j, j < n /\ forallb (fun sb => sized (fst sb) (snd sb)) (combine shapes (map (fun x => [nth j x []]) ins)) = false).
      { clear MM. revert shapes E. induction ins as [|b ins IH]; intros [|s shapes] E; try discriminate.
        cbn [map combine forallb fst snd] in *. inversion H; subst. apply andb_false_iff in E. destruct E as [E|E].
        - assert (exists j, j < length b /\ (length (nth j b []) =? prodn s) = false).
          { clear - E. induction b as [|x b IH]; [discriminate|]. cbn in E. apply andb_false_iff in E. destruct E as [E|E].
            - exists 0. split; [cbn; lia|assumption].
            - destruct (IH E) as [j [Hj Ej]]. exists (S j). split; [cbn; lia|assumption]. }
          destruct H0 as [j [Hj Ej]]. exists j. split; [assumption|]. unfold sized. cbn [forallb]. rewrite Ej. reflexivity.
        - destruct (IH H3 shapes E) as [j [Hj Ej]]. exists j. split; [assumption|]. rewrite Ej. apply andb_false_r. }
      destruct H0 as [j [Hj Ej]]. exists j. split; [assumption|]. rewrite MM, Ej. apply andb_false_r.
Qed.

Definition vadd (st0 : store) (n : nat) (V : nat -> nat -> Qc -> Prop) (vis : nat -> visits) : nat -> nat -> Qc -> Prop :=
  fun i g v => V i g v \/ exists j y, j < n /\ In (i, y) (vis j) /\ grp st0 i g y v.

Lemma rel_ext st0 V W st : (forall i g v, V i g v <-> W i g v) -> rel st0 V st -> rel st0 W st.
Proof.
  intros H [L R]. split; [assumption|]. intros i o0 E. destruct (R i o0 E) as [o [A [mn [mx [B C]]]]]. exists o. split; [assumption|].
  exists mn, mx. split; [assumption|]. eapply reg_step_ext; [|exact C]. intros g v. cbn beta. rewrite (H i g v). tauto.
Qed.

Lemma obj_rel_fields o0 V o : obj_rel o0 V o -> o_ins o = o_ins o0 /\ o_record o = o_record o0 /\ o_act o = o_act o0 /\ o_bops o = o_bops o0.
Proof. intros [mn [mx [-> _]]]. auto. Qed.

Definition sim_leaf_at (st0 : store) (x : layer) : Prop := forall n ins st V, 0 < n ->
  Forall (fun b : list sample => length b = n) ins -> rel st0 V st ->
  match call_layer pw ln2 x ins st with
  | Ok (b, st') => length b = n /\ exists vis, (forall j log, j < n -> sem1 st0 x (cols ins j) log = Ok (nth j b [], log ++ vis j)) /\
      rel st0 (vadd st0 n V vis) st'
  | Raise => exists j, j < n /\ forall log, sem1 st0 x (cols ins j) log = Raise
  end.

Lemma nth_map_cols {A} (f : list sample -> A) ins n j d : j < n -> nth j (map f (map (cols ins) (seq 0 n))) d = f (cols ins j).
Proof. intros H. rewrite map_map. apply (nth_map_seq (fun x => f (cols ins x))). assumption. Qed.

Lemma cols_nil ins j : cols ins j = [] <-> ins = [].
Proof. unfold cols. destruct ins; cbn; split; congruence. Qed.

Lemma vadd_nil st0 n V : forall i g v, V i g v <-> vadd st0 n V (fun _ => []) i g v.
Proof. intros i g v. unfold vadd. split; [tauto|]. intros [H|[j [y [_ [[] _]]]]]. assumption. Qed.

Lemma sim_obj st0 i x : Forall obj_ok st0 -> snd x = KH i \/ snd x = KQuant i -> sim_leaf_at st0 x.
Proof.
  intros Hok Hx n ins st V Hn HF R.
  replace (call_layer pw ln2 x ins st) with (call_obj pw ln2 i ins st) by (unfold call_layer; destruct Hx as [-> | ->]; reflexivity).
  assert (S1 : forall vs log, sem1 st0 x vs log = rbind (get st0 i) (fun o =>
      if negb (sized_all (o_ins o) (map (fun s => [s]) vs)) then Raise
      else match vs with [] => Raise | _ => Ok (yout (o_layer o) vs, log ++ [(i, ysamp (o_layer o) vs)]) end))
    by (intros; unfold sem1; destruct Hx as [-> | ->]; reflexivity).
  unfold call_obj. unfold get at 1. pose proof R as [RL RR].
  destruct (nth_error st0 i) as [o0|] eqn:E0.
  2: { replace (nth_error st i) with (@None hobj) by (symmetry; apply nth_error_None; rewrite RL; apply nth_error_None, E0).
       cbn [rbind]. exists 0. split; [assumption|]. intros log. rewrite S1. unfold get. rewrite E0. reflexivity. }
  destruct (RR i o0 E0) as [o [Eo Ro]]. rewrite Eo. cbn [rbind].
  destruct (obj_rel_fields _ _ _ Ro) as [Ei [Er [Ea Eb]]]. rewrite Ei.
  destruct (sized_all_cols (o_ins o0) ins n HF Hn) as [SA SB].
  destruct (sized_all (o_ins o0) ins) eqn:Es; cbn [negb].
  2: { destruct (SB eq_refl) as [j [Hj Ej]]. exists j. split; [assumption|]. intros log. rewrite S1. unfold get. rewrite E0. cbn [rbind].
       rewrite Ej. reflexivity. }
  rewrite (zip_ok n ins HF). destruct ins as [|b0 ins0] eqn:EI.
  { exists 0. split; [assumption|]. intros log. rewrite S1. unfold get. rewrite E0. cbn [rbind cols map]. destruct (negb _); reflexivity. }
  rewrite <- EI in *. cbn [rbind].
  assert (Ok0 : obj_ok o0) by (rewrite Forall_forall in Hok; apply Hok; eapply nth_error_In, E0).
  destruct (obj_fwd o0 (V i) o (map (cols ins) (seq 0 n)) Ok0 Ro) as [l' [-> R']]. cbn [rbind fst snd].
  split; [rewrite !map_length, seq_length; reflexivity|].
  exists (fun j => [(i, ysamp (o_layer o0) (cols ins j))]). split.
  - intros j log Hj. rewrite S1. unfold get. rewrite E0. cbn [rbind]. rewrite (SA eq_refl j Hj). cbn [negb].
    rewrite nth_map_cols by assumption. destruct (cols ins j) eqn:Ec; [|reflexivity].
    apply (proj1 (cols_nil ins j)) in Ec. congruence.
  - split; [rewrite set_nth_length; assumption|]. intros i' o0' E0'. rewrite set_nth_error.
    destruct (Nat.eqb_spec i i') as [<-|Hne].
    + rewrite (proj2 (Nat.ltb_lt _ _)) by (apply (nth_error_lt _ _ _ Eo)).
      replace o0' with o0 in * by congruence. exists (with_layer o l'). split; [reflexivity|].
      destruct R' as [mn [mx [A B]]]. exists mn, mx. split; [assumption|]. eapply reg_step_ext; [|exact B].
      intros g v. cbn beta. unfold vadd, grp. split.
      * intros [Hr [HV|[y [Hy Hg]]]]; split; auto. right. apply in_map_iff in Hy. destruct Hy as [j [<- Hj]].
        apply in_seq in Hj. exists j, (ysamp (o_layer o0) (cols ins j)). split; [lia|]. split; [left; reflexivity|]. eauto.
      * intros [Hr [HV|[j [y [Hj [[Hy|[]] [o0'' [E'' Hg]]]]]]]]; split; auto. right.
        injection Hy as <-. exists (cols ins j). split; [apply in_map, in_seq; lia|]. replace o0'' with o0 in Hg by congruence. assumption.
    + destruct (RR i' o0' E0') as [o' [Eo' [mn [mx [A B]]]]]. exists o'. split; [assumption|]. exists mn, mx. split; [assumption|].
      eapply reg_step_ext; [|exact B]. intros g v. cbn beta. unfold vadd. split; [tauto|].
      intros [Hr [HV|[j [y [Hj [[Hy|[]] _]]]]]]; split; auto. congruence.
Qed.

Lemma one_cols ins n : Forall (fun b : list sample => length b = n) ins ->
  match one ins with Ok b => length b = n /\ forall j, one (cols ins j) = Ok (nth j b []) | Raise => forall j, one (cols ins j) = Raise end.
Proof.
  intros H. destruct ins as [|b [|b' ins]]; cbn; auto. split; [inversion H; auto|auto].
Qed.

Lemma sim_leaf st0 x : Forall obj_ok st0 -> hgq_layer x -> sim_leaf_at st0 x.
Proof.
  intros Hok Hx. destruct x as [u k]. unfold hgq_layer in Hx. cbn [snd] in Hx.
  destruct k as [i|i|c out|g|p| |g|q out|] eqn:Ek; try (apply (sim_obj st0 i); auto; fail); try contradiction;
    intros n ins st V Hn HF R; unfold call_layer, sem1; cbn [snd].
  - pose proof (one_cols ins n HF) as H1. destruct (one ins) as [b|] eqn:E1; cbn [rbind].
    + destruct H1 as [Lb Hb]. destruct (sized out b) eqn:Es.
      * split; [assumption|]. exists (fun _ => []). split; [|eapply rel_ext; [apply vadd_nil|exact R]].
        intros j log Hj. rewrite Hb. cbn [rbind]. unfold sized. cbn [forallb]. unfold sized in Es. rewrite forallb_forall in Es.
        rewrite (Es (nth j b [])) by (apply nth_In; lia). rewrite app_nil_r. reflexivity.
      * unfold sized in *. assert (exists j, j < length b /\ (length (nth j b []) =? prodn out) = false).
        { clear - Es. induction b as [|y b IH]; [discriminate|]. cbn in Es. apply andb_false_iff in Es. destruct Es as [E|E].
          - exists 0. split; [cbn; lia|assumption].
          - destruct (IH E) as [j [Hj Ej]]. exists (S j). split; [cbn; lia|assumption]. }
        destruct H as [j [Hj Ej]]. exists j. split; [lia|]. intros log. rewrite Hb. cbn [rbind forallb]. rewrite Ej. reflexivity.
    + exists 0. split; [assumption|]. intros log. rewrite H1. reflexivity.
  - rewrite (zip_ok n ins HF). destruct ins as [|b0 ins0] eqn:EI; [exists 0; split; [assumption|reflexivity]|]. rewrite <- EI in *.
    cbn [rbind]. split; [rewrite !map_length, seq_length; reflexivity|]. exists (fun _ => []). split; [|eapply rel_ext; [apply vadd_nil|exact R]].
    intros j log Hj. rewrite nth_map_cols by assumption. rewrite app_nil_r.
    destruct (cols ins j) eqn:Ec; [|reflexivity]. apply (proj1 (cols_nil ins j)) in Ec. congruence.
  - pose proof (one_cols ins n HF) as H1. destruct (one ins) as [b|] eqn:E1; cbn [rbind].
    + destruct H1 as [Lb Hb]. split; [assumption|]. exists (fun _ => []). split; [|eapply rel_ext; [apply vadd_nil|exact R]].
      intros j log Hj. rewrite Hb. cbn [rbind]. rewrite app_nil_r. reflexivity.
    + exists 0. split; [assumption|]. intros log. rewrite H1. reflexivity.
  - pose proof (one_cols ins n HF) as H1. destruct (one ins) as [b|] eqn:E1; cbn [rbind].
    + destruct H1 as [Lb Hb]. split; [assumption|]. exists (fun _ => []). split; [|eapply rel_ext; [apply vadd_nil|exact R]].
      intros j log Hj. rewrite Hb. cbn [rbind]. rewrite app_nil_r. reflexivity.
    + exists 0. split; [assumption|]. intros log. rewrite H1. reflexivity.
  - rewrite (zip_ok n ins HF). destruct ins as [|b0 ins0] eqn:EI; [exists 0; split; [assumption|reflexivity]|]. rewrite <- EI in *.
    cbn [rbind]. split; [rewrite !map_length, seq_length; reflexivity|]. exists (fun _ => []). split; [|eapply rel_ext; [apply vadd_nil|exact R]].
    intros j log Hj. rewrite nth_map_cols by assumption. rewrite app_nil_r.
    destruct (cols ins j) eqn:Ec; [|reflexivity]. apply (proj1 (cols_nil ins j)) in Ec. congruence.
  - pose proof (one_cols ins n HF) as H1. destruct (one ins) as [b|] eqn:E1; cbn [rbind].
    + destruct H1 as [Lb Hb]. split; [rewrite map_length; assumption|]. exists (fun _ => []). split; [|eapply rel_ext; [apply vadd_nil|exact R]].
      intros j log Hj. rewrite Hb. cbn [rbind]. rewrite app_nil_r. do 2 f_equal.
      rewrite (nth_indep (map (map relu) b) [] (map relu [])) by (rewrite map_length; lia). rewrite map_nth. reflexivity.
    + exists 0. split; [assumption|]. intros log. rewrite H1. reflexivity.
Qed.

(** ** Whole graphs *)
Definition sim_at (st0 : store) (k : klayer layer) : Prop := forall n ins st V, 0 < n ->
  Forall (fun b : list sample => length b = n) ins -> rel st0 V st ->
  match run (call_layer pw ln2) k ins st with
  | Ok (outs, st') => Forall (fun b => length b = n) outs /\
      exists vis, (forall j log, j < n -> run (sem1 st0) k (cols ins j) log = Ok (cols outs j, log ++ vis j)) /\
      rel st0 (vadd st0 n V vis) st'
  | Raise => exists j, j < n /\ forall log, run (sem1 st0) k (cols ins j) log = Raise
  end.

Definition sim_nodes_at (st0 : store) (ns : list (klayer layer * list (nat * nat))) : Prop := forall n vals st V, 0 < n ->
  Forall (Forall (fun b : list sample => length b = n)) vals -> rel st0 V st ->
  match run_nodes (call_layer pw ln2) ns vals st with
  | Ok (vals', st') => Forall (Forall (fun b => length b = n)) vals' /\
      exists vis, (forall j log, j < n -> run_nodes (sem1 st0) ns (map (fun vs => cols vs j) vals) log =
                     Ok (map (fun vs => cols vs j) vals', log ++ vis j)) /\
      rel st0 (vadd st0 n V vis) st'
  | Raise => exists j, j < n /\ forall log, run_nodes (sem1 st0) ns (map (fun vs => cols vs j) vals) log = Raise
  end.

Lemma vadd_app st0 n V vis vis' : forall i g v,
  vadd st0 n (vadd st0 n V vis) vis' i g v <-> vadd st0 n V (fun j => vis j ++ vis' j) i g v.
Proof.
  intros i g v. unfold vadd. split.
  - intros [[H|[j [y [Hj [Hy Hg]]]]]|[j [y [Hj [Hy Hg]]]]]; [tauto| |]; right; exists j, y; (split; [assumption|]); (split; [|assumption]);
      apply in_or_app; tauto.
  - intros [H|[j [y [Hj [Hy Hg]]]]]; [tauto|]. apply in_app_or in Hy. destruct Hy as [Hy|Hy]; [left; right|right]; eauto.
Qed.

Lemma sim_nodes st0 ns : (forall k ins, In (k, ins) ns -> sim_at st0 k) -> sim_nodes_at st0 ns.
Proof.
  induction ns as [|[k ins] ns IH]; intros Hk n vals st V Hn HF R; cbn [run_nodes].
  - split; [assumption|]. exists (fun _ => []). split; [|eapply rel_ext; [apply vadd_nil|exact R]]. intros. rewrite app_nil_r. reflexivity.
  - destruct (rseq (map (pick vals) ins)) as [xs|] eqn:Ex; cbn [rbind].
    2: { exists 0. split; [assumption|]. intros log. rewrite rseq_cols, Ex. reflexivity. }
    pose proof (rseq_pick_forall _ _ _ _ HF Ex) as Hxs.
    pose proof (Hk k ins (or_introl eq_refl) n xs st V Hn Hxs R) as Sk.
    destruct (run _ k xs st) as [[outs st1]|]; cbn [rbind fst snd].
    2: { destruct Sk as [j [Hj Ej]]. exists j. split; [assumption|]. intros log. rewrite rseq_cols, Ex. cbn [rbind]. rewrite Ej. reflexivity. }
    destruct Sk as [Lo [vis [Ev R1]]].
    assert (HF' : Forall (Forall (fun b : list sample => length b = n)) (vals ++ [outs])) by (apply Forall_app; auto).
    pose proof (IH (fun k' i' H => Hk k' i' (or_intror H)) n (vals ++ [outs]) st1 _ Hn HF' R1) as Sn.
    destruct (run_nodes _ ns _ st1) as [[vals' st']|].
    + destruct Sn as [Lv [vis' [Ev' R2]]]. split; [assumption|]. exists (fun j => vis j ++ vis' j). split.
      * intros j log Hj. rewrite rseq_cols, Ex. cbn [rbind]. rewrite Ev by assumption. cbn [rbind fst snd].
        specialize (Ev' j (log ++ vis j) Hj). rewrite map_app in Ev'. rewrite <- app_assoc in Ev'. exact Ev'.
      * eapply rel_ext; [apply vadd_app|exact R2].
    + destruct Sn as [j [Hj Ej]]. exists j. split; [assumption|]. intros log. rewrite rseq_cols, Ex. cbn [rbind].
      rewrite Ev by assumption. cbn [rbind fst snd]. specialize (Ej (log ++ vis j)). rewrite map_app in Ej. exact Ej.
Qed.

Lemma sim_run st0 k : Forall obj_ok st0 -> leaves hgq_layer k -> sim_at st0 k.
Proof.
  intros Hok. induction k as [x|nin nodes outs IH] using klayer_ind'; intros Hl n ins st V Hn HF R.
  - inversion Hl; subst. pose proof (sim_leaf st0 x Hok H0 n ins st V Hn HF R) as S. cbn [run].
    destruct (call_layer pw ln2 x ins st) as [[b st']|]; cbn [rbind fst snd].
    + destruct S as [Lb [vis [Ev R']]]. split; [auto|]. exists vis. split; [|assumption]. intros j log Hj. rewrite Ev by assumption. reflexivity.
    + destruct S as [j [Hj Ej]]. exists j. split; [assumption|]. intros log. rewrite Ej. reflexivity.
  - inversion Hl; subst. rewrite run_sub.
    assert (Lc : forall j, length (cols ins j) = length ins) by (intros; apply map_length).
    destruct (Nat.eqb_spec (length ins) nin) as [E|E].
    2: { exists 0. split; [assumption|]. intros log. rewrite run_sub. rewrite Lc. destruct (Nat.eqb_spec (length ins) nin); [congruence|reflexivity]. }
    pose proof (sim_nodes st0 nodes (fun k' i' H => IH k' i' H (H0 k' i' H)) n (map (fun v => [v]) ins) st V Hn
      ltac:(apply Forall_forall; intros vs Hv; apply in_map_iff in Hv; destruct Hv as [b [<- Hb]]; rewrite Forall_forall in HF; auto) R) as S.
    assert (MC : forall j, map (fun v => [v]) (cols ins j) = map (fun vs => cols vs j) (map (fun v => [v]) ins))
      by (intros j; unfold cols; rewrite !map_map; reflexivity).
    destruct (run_nodes _ nodes _ st) as [[vals' st']|]; cbn [rbind fst snd].
    2: { destruct S as [j [Hj Ej]]. exists j. split; [assumption|]. intros log. rewrite run_sub, Lc.
         destruct (Nat.eqb_spec (length ins) nin); [|reflexivity]. rewrite MC, Ej. reflexivity. }
    destruct S as [Lv [vis [Ev R']]].
    destruct (rseq (map (pick vals') outs)) as [ys|] eqn:Ey; cbn [rbind].
    + split; [apply (rseq_pick_forall _ _ _ _ Lv Ey)|]. exists vis. split; [|assumption]. intros j log Hj.
      rewrite run_sub, Lc. destruct (Nat.eqb_spec (length ins) nin); [|congruence]. rewrite MC, Ev by assumption. cbn [rbind fst snd].
      rewrite rseq_cols, Ey. reflexivity.
    + exists 0. split; [assumption|]. intros log. rewrite run_sub, Lc. destruct (Nat.eqb_spec (length ins) nin); [|congruence].
      rewrite MC, Ev by assumption. cbn [rbind fst snd]. rewrite rseq_cols, Ey. reflexivity.
Qed.
End P.

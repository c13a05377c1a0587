(** Lemmas about get_arr_container. *)
From Coq Require Import ZArith Qcanon List Bool Lia.
From Verif Require Import Base.Num Base.NumFacts Model.Precision Spec.Fixed.
Import ListNotations.
Open Scope Z_scope.

Lemma grid_iff f x : on_grid f x <-> exists m, (x * pow2 f)%Qc = qz m.
Proof.
  unfold on_grid. split; intros [m H]; exists m.
  - rewrite H. apply mul_pow2_cancel'.
  - apply pow2_inv_unique in H. exact H.
Qed.
Lemma grid_mono f g x : f <= g -> on_grid f x -> on_grid g x.
Proof.
  intros H. rewrite !grid_iff. intros [m E]. exists (m * 2 ^ (g - f)). rewrite qz_mul, <- pow2_Z by lia. rewrite <- E.
  replace g with (f + (g - f)) at 1 by lia. rewrite pow2_add. ring.
Qed.

(** The range in which the int64 test is meaningful. *)
Definition small (x : Qc) : Prop := (- pow2 32 <= x)%Qc /\ (x < pow2 32)%Qc.

Lemma astype_qz m : - 2 ^ 63 <= m < 2 ^ 63 -> astype_int64 (qz m) = m.
Proof.
  intros H. unfold astype_int64. rewrite qceil_qz, qfloor_qz. destruct (qltb (qz m) (qz 0)).
  all: destruct (Z.leb_spec (- 2 ^ 63) m); [|lia]; destruct (Z.ltb_spec m (2 ^ 63)); [reflexivity|lia].
Qed.
Lemma small_scaled f x m : f <= 31 -> small x -> (x * pow2 f)%Qc = qz m -> - 2 ^ 63 <= m < 2 ^ 63.
Proof.
  intros Hf [Hl Hh] E.
  assert (A : (- pow2 32 * pow2 f <= x * pow2 f)%Qc) by (apply qmul_le_r; [pose proof (pow2_pos f); qlra|exact Hl]).
  assert (B : (x * pow2 f < pow2 32 * pow2 f)%Qc) by (apply qmul_lt_r; [apply pow2_pos|exact Hh]).
  assert (C : (pow2 32 * pow2 f <= qz (2 ^ 63))%Qc) by (rewrite <- pow2_add, <- pow2_Z by lia; apply pow2_le; lia).
  replace (- pow2 32 * pow2 f)%Qc with (- (pow2 32 * pow2 f))%Qc in A by ring. rewrite E in A, B. generalize dependent (pow2 32 * pow2 f)%Qc. intros p A B C.
  split.
  - apply qz_le. rewrite qz_opp. qlra.
  - apply qz_lt. qlra.
Qed.
Lemma all_int_iff arr f : f <= 31 -> Forall small arr -> (all_int arr f = true <-> Forall (on_grid f) arr).
Proof.
  intros Hf Hs. unfold all_int. rewrite forallb_forall, Forall_forall. rewrite Forall_forall in Hs. split; intros H x Hx; specialize (H x Hx); specialize (Hs x Hx).
  - apply qeqb_true in H. apply (proj2 (grid_iff f x)). eexists. symmetry. exact H.
  - apply grid_iff in H. destruct H as [m E]. apply qeqb_true. rewrite E, astype_qz; [reflexivity|]. eapply small_scaled; eauto.
Qed.

(** Bisection finds the least point of an upward closed predicate. *)
Lemma bisect_least arr (P : Z -> Prop) : (forall f, f <= 31 -> (all_int arr f = true <-> P f)) -> (forall f g, f <= g -> P f -> P g) ->
  forall fuel lf hf, (Z.to_nat (hf - lf) <= S fuel)%nat -> lf < hf <= 32 -> P hf ->
  let r := bisect fuel arr lf hf in lf < r <= hf /\ P r /\ forall f, lf < f < r -> ~ P f.
Proof.
  intros HP HM. induction fuel as [|fuel IH]; intros lf hf Hn Hr Hh; cbn [bisect].
  - cbv zeta. split; [lia|]. split; [exact Hh|]. intros f Hf. lia.
  - destruct (Z.leb_spec (hf - lf) 1) as [L|L].
    + cbv zeta. split; [lia|]. split; [exact Hh|]. intros f Hf. lia.
    + pose proof (Z.div_mod (lf + hf) 2 ltac:(lia)) as D. pose proof (Z.mod_pos_bound (lf + hf) 2 ltac:(lia)) as B. set (m := (lf + hf) / 2) in *.
      assert (M : lf < m < hf) by lia. destruct (all_int arr m) eqn:E.
      * apply HP in E; [|lia]. destruct (IH lf m ltac:(lia) ltac:(lia) E) as [A [C D']]. cbv zeta in *. split; [lia|]. split; [exact C|]. try exact D'.
      * assert (N : ~ P m) by (intros Q; apply HP in Q; [congruence|lia]).
        destruct (IH m hf ltac:(lia) ltac:(lia) Hh) as [A [C D']]. cbv zeta in *. split; [lia|]. split; [exact C|]. try exact D'.
        intros f Hf Q. destruct (Z.le_gt_cases f m) as [G|G]; [apply N; eapply HM; eauto|]. apply (D' f ltac:(lia) Q).
Qed.

Definition zle (z : zext) (n : Z) : Prop := match z with ZNegInf => True | ZFin a => a <= n end.
Lemma zext_max_le a b n : zle (zext_max a b) n <-> zle a n /\ zle b n.
Proof. destruct a, b; cbn; try tauto. lia. Qed.
Lemma zmaxs_le l n : zle (zmaxs l) n <-> Forall (fun z => zle z n) l.
Proof.
  unfold zmaxs. assert (G : forall a, zle (fold_left zext_max l a) n <-> zle a n /\ Forall (fun z => zle z n) l).
  { induction l as [|b l IH]; intros a; cbn [fold_left]; [split; [intros H; split; [exact H|constructor]|tauto]|].
    rewrite IH, zext_max_le. split; [intros [[A B] C]; split; [exact A|constructor; assumption]|]. intros [A B]. inversion B; subst. tauto. }
  rewrite G. cbn. tauto.
Qed.
Lemma up_pos_le x n : (qz 0 <= x)%Qc -> (zle (up_pos x) n <-> (x < pow2 n)%Qc).
Proof.
  intros H. unfold up_pos. destruct (qeqb_spec x (qz 0)) as [->|N]; unfold zle.
  - split; [intros _; apply pow2_pos|tauto].
  - assert (P : (qz 0 < x)%Qc) by (apply qc_neq_lt in N; destruct N; [qlra|assumption]). rewrite <- (flog2_lt_iff x n P). lia.
Qed.
Lemma up_neg_le x n : (qz 0 < x)%Qc -> (zle (up_neg x) n <-> (x <= pow2 n)%Qc).
Proof.
  intros H. unfold up_neg. destruct (qeqb_spec x (qz 0)) as [->|N]; [qlra|]. cbn. apply clog2_le_iff, H.
Qed.
Lemma scale_lt x i f : (x * pow2 f < pow2 (i + f))%Qc <-> (x < pow2 i)%Qc.
Proof.
  rewrite pow2_add. split; intros H; [eapply qmul_lt_r_inv; [apply (pow2_pos f)|exact H]|apply qmul_lt_r; [apply pow2_pos|exact H]].
Qed.
Lemma scale_le x i f : (x * pow2 f <= pow2 (i + f))%Qc <-> (x <= pow2 i)%Qc.
Proof.
  rewrite pow2_add. split; intros H; [eapply qmul_le_r_inv; [apply (pow2_pos f)|exact H]|apply qmul_le_r; [pose proof (pow2_pos f); qlra|exact H]].
Qed.

(** The integer bits: everything fits iff they are at least the derived ones. *)
Lemma container_ints arr f i' : ~ Forall (fun x => x = qz 0) arr ->
  let neg := filter (fun x => qltb x (qz 0)) arr in
  let pos := filter (fun x => negb (qltb x (qz 0))) arr in
  let i1 := zmaxs (map (fun x => up_pos (x * pow2 f)%Qc) pos) in
  let i2 := zmaxs (map (fun x => up_neg (- x * pow2 f)%Qc) neg) in
  let i := match zext_max i1 i2 with ZFin z => z | ZNegInf => 0 end in
  let k := if match neg with [] => true | _ => false end then 0 else 1 in
  (k = 0 <-> Forall (fun x => qz 0 <= x)%Qc arr) /\ (k = 0 \/ k = 1) /\
  (i - f <= i' <-> Forall (fun x => - (qz k * pow2 i') <= x /\ x < pow2 i')%Qc arr).
Proof.
  intros NZ neg pos i1 i2 i k.
  assert (Sp : forall x, In x arr <-> In x neg \/ In x pos).
  { intros x. unfold neg, pos. rewrite !filter_In. destruct (qltb x (qz 0)); cbn; intuition. }
  assert (Ng : forall x, In x neg -> (x < qz 0)%Qc) by (intros x H; apply filter_In in H; apply qltb_true, H).
  assert (Ps : forall x, In x pos -> (qz 0 <= x)%Qc).
  { intros x H. apply filter_In in H. destruct H as [_ H]. apply negb_true_iff in H. apply qltb_false, H. }
  assert (K : (neg = [] /\ k = 0) \/ ((exists x, In x neg) /\ k = 1)).
  { unfold k. destruct neg as [|x l]; [left; auto|right; split; [exists x; left; reflexivity|reflexivity]]. }
  split; [|split].
  - split.
    + intros H. destruct K as [[E _]|[_ E]]; [|lia]. apply Forall_forall. intros x Hx. apply Sp in Hx. rewrite E in Hx. destruct Hx as [[]|Hx]. auto.
    + intros H. destruct K as [[_ E]|[[x Hx] _]]; [exact E|]. rewrite Forall_forall in H. specialize (H x (proj2 (Sp x) (or_introl Hx))). specialize (Ng x Hx). qlra.
  - destruct K as [[_ E]|[_ E]]; auto.
  - assert (Z1 : zle (zext_max i1 i2) (i' + f) <-> Forall (fun x => - (qz k * pow2 i') <= x /\ x < pow2 i')%Qc arr).
    { rewrite zext_max_le. unfold i1, i2. rewrite !zmaxs_le, !Forall_map, !Forall_forall. pose proof (pow2_pos i') as PP. split.
      - intros [A B] x Hx. apply Sp in Hx. destruct Hx as [Hx|Hx].
        + destruct K as [[E _]|[_ E]]; [rewrite E in Hx; destruct Hx|]. rewrite E. specialize (B x Hx). specialize (Ng x Hx).
          apply up_neg_le in B. 2: { pose proof (qmul_lt_r (qz 0) (- x) (pow2 f) (pow2_pos f) ltac:(qlra)) as Q. replace (qz 0 * pow2 f)%Qc with (qz 0) in Q by (rewrite qz_0; ring). exact Q. }
          apply scale_le in B. split; qlra.
        + specialize (A x Hx). specialize (Ps x Hx).
          apply up_pos_le in A. 2: { pose proof (qmul_le_r (qz 0) x (pow2 f) ltac:(pose proof (pow2_pos f); qlra) Ps) as Q. replace (qz 0 * pow2 f)%Qc with (qz 0) in Q by (rewrite qz_0; ring). exact Q. }
          apply scale_lt in A. split; [|exact A]. destruct K as [[_ ->]|[_ ->]]; qlra.
      - intros H. split; intros x Hx.
        + destruct (H x (proj2 (Sp x) (or_intror Hx))) as [_ A]. specialize (Ps x Hx). apply up_pos_le.
          * pose proof (qmul_le_r (qz 0) x (pow2 f) ltac:(pose proof (pow2_pos f); qlra) Ps) as Q. replace (qz 0 * pow2 f)%Qc with (qz 0) in Q by (rewrite qz_0; ring). exact Q.
          * apply scale_lt, A.
        + destruct (H x (proj2 (Sp x) (or_introl Hx))) as [A _]. destruct K as [[E _]|[_ E]]; [rewrite E in Hx; destruct Hx|]. rewrite E in A. specialize (Ng x Hx). apply up_neg_le.
          * pose proof (qmul_lt_r (qz 0) (- x) (pow2 f) (pow2_pos f) ltac:(qlra)) as Q. replace (qz 0 * pow2 f)%Qc with (qz 0) in Q by (rewrite qz_0; ring). exact Q.
          * apply scale_le. qlra. }
    rewrite <- Z1. unfold i. destruct (zext_max i1 i2) as [|z] eqn:E; [|unfold zle; lia].
    exfalso. apply NZ. apply Forall_forall. intros x Hx.
    assert (A : forall n, zle i1 n /\ zle i2 n) by (intros n; rewrite <- zext_max_le, E; exact I).
    apply Sp in Hx. destruct Hx as [Hx|Hx].
    + exfalso. destruct (A (clog2 (- x * pow2 f)%Qc - 1)) as [_ B]. unfold i2 in B. rewrite zmaxs_le, Forall_map, Forall_forall in B. specialize (B x Hx). unfold up_neg in B.
      pose proof (qmul_lt_r (qz 0) (- x) (pow2 f) (pow2_pos f) ltac:(specialize (Ng x Hx); qlra)) as Q. replace (qz 0 * pow2 f)%Qc with (qz 0) in Q by (rewrite qz_0; ring).
      destruct (qeqb_spec (- x * pow2 f) (qz 0)) as [E'|N]; [rewrite E' in Q; qlra|]. unfold zle in B. lia.
    + destruct (A (1 + flog2 (x * pow2 f)%Qc - 1)) as [B _]. unfold i1 in B. rewrite zmaxs_le, Forall_map, Forall_forall in B. specialize (B x Hx). unfold up_pos in B.
      destruct (qeqb_spec (x * pow2 f) (qz 0)) as [E'|N]; [|unfold zle in B; lia].
      rewrite <- (mul_pow2_cancel x f), E', qz_0. ring.
Qed.

Lemma not_all_zero arr : forallb (fun x => qeqb x (qz 0)) arr = true <-> Forall (fun x => x = qz 0) arr.
Proof. rewrite forallb_forall, Forall_forall. split; intros H x Hx; specialize (H x Hx); apply qeqb_true; exact H. Qed.

(** What the container of an array is. *)
Lemma container_spec arr k i f : Forall (on_grid 32) arr -> Forall small arr -> ~ Forall (fun x => x = qz 0) arr ->
  get_arr_container arr = (k, i, f) ->
  (k = 0 \/ k = 1) /\ (k = 0 <-> Forall (fun x => qz 0 <= x)%Qc arr) /\ -32 < f <= 32 /\ Forall (fits k i f) arr /\
  (forall f', -32 < f' < f -> ~ Forall (on_grid f') arr) /\ (forall i', Forall (fits k i' f) arr -> i <= i').
Proof.
  intros HG HS NZ. unfold get_arr_container. destruct (forallb (fun x => qeqb x (qz 0)) arr) eqn:E; [apply not_all_zero in E; tauto|]. clear E.
  pose proof (bisect_least arr (fun f => Forall (on_grid f) arr) (fun f Hf => all_int_iff arr f Hf HS) ltac:(intros a b Hab; apply Forall_impl; intros x; apply grid_mono, Hab) 64 (-32) 32 ltac:(cbn; lia) ltac:(lia) HG) as B.
  cbv zeta in B. destruct B as [B1 [B2 B3]]. set (f0 := bisect 64 arr (-32) 32) in *. cbv zeta. intros H.
  pose proof (fun i' => container_ints arr f0 i' NZ) as C. cbv zeta in C. injection H as Hk Hi Hf.
  rewrite Hk in C. rewrite Hi in C. subst f0. rewrite Hf in *. destruct (C i) as [C1 [C2 C3]].
  split; [exact C2|]. split; [exact C1|]. split; [lia|]. split; [|split; [exact B3|]].
  - pose proof (proj1 C3 ltac:(lia)) as D. rewrite Forall_forall in *. intros x Hx. split; [apply B2, Hx|]. apply D, Hx.
  - intros i' Hi'. apply (C i'). eapply Forall_impl; [|exact Hi']. intros x [_ [A A']]. auto.
Qed.

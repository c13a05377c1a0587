(** Facts about the numbers of the model (no modelling content). *)
From Coq Require Import ZArith QArith Qcanon Qround Qpower List Bool Lia Lqa.
From Verif Require Import Base.Num.
Import ListNotations.
Open Scope Z_scope.

(** ** Transfer to Q *)
Lemma this_add x y : (this (Qcplus x y) == this x + this y)%Q.
Proof. unfold Qcplus, Q2Qc; cbn [this]; apply Qred_correct. Qed.
Lemma this_mul x y : (this (Qcmult x y) == this x * this y)%Q.
Proof. unfold Qcmult, Q2Qc; cbn [this]; apply Qred_correct. Qed.
Lemma this_opp x : (this (Qcopp x) == - this x)%Q.
Proof. unfold Qcopp, Q2Qc; cbn [this]; apply Qred_correct. Qed.
Lemma this_sub x y : (this (Qcminus x y) == this x - this y)%Q.
Proof. unfold Qcminus. rewrite this_add, this_opp. reflexivity. Qed.
Lemma this_inv x : (this (Qcinv x) == / this x)%Q.
Proof. unfold Qcinv, Q2Qc; cbn [this]; apply Qred_correct. Qed.
Lemma this_div x y : (this (Qcdiv x y) == this x / this y)%Q.
Proof. unfold Qcdiv. rewrite this_mul, this_inv. reflexivity. Qed.
Lemma this_Q2Qc q : (this (Q2Qc q) == q)%Q.
Proof. unfold Q2Qc; cbn [this]; apply Qred_correct. Qed.
Lemma this_qz z : (this (qz z) == inject_Z z)%Q.
Proof. apply this_Q2Qc. Qed.
Lemma this_half : (this qhalf == 1 # 2)%Q.
Proof. apply this_Q2Qc. Qed.
Lemma qc_eq (x y : Qc) : (this x == this y)%Q -> x = y.
Proof. apply Qc_is_canon. Qed.
Lemma qc_eq_inv (x y : Qc) : x = y -> (this x == this y)%Q.
Proof. intros ->; reflexivity. Qed.
Lemma qc_neq_lt (x y : Qc) : x <> y -> (x < y \/ y < x)%Qc.
Proof.
  intros H. destruct (Q_dec x y) as [[h|h]|h]; [left|right|]; auto.
  exfalso; apply H, qc_eq, h.
Qed.

Lemma this_qz_add a b : (this (qz (a + b)) == this (qz a) + this (qz b))%Q.
Proof. rewrite !this_qz, inject_Z_plus; reflexivity. Qed.
Lemma this_qz_sub a b : (this (qz (a - b)) == this (qz a) - this (qz b))%Q.
Proof. rewrite !this_qz. unfold Z.sub. rewrite inject_Z_plus, inject_Z_opp. reflexivity. Qed.
Lemma this_qz_opp a : (this (qz (- a)) == - this (qz a))%Q.
Proof. rewrite !this_qz, inject_Z_opp; reflexivity. Qed.
Lemma this_qz_mul a b : (this (qz (a * b)) == this (qz a) * this (qz b))%Q.
Proof. rewrite !this_qz, inject_Z_mult; reflexivity. Qed.
Lemma this_qz_succ a : (this (qz (Z.succ a)) == this (qz a) + 1)%Q.
Proof. unfold Z.succ. rewrite this_qz_add. rewrite (this_qz 1). reflexivity. Qed.
Lemma this_qz_1 : (this (qz 1) == 1)%Q.
Proof. apply this_qz. Qed.
Lemma this_qz_0 : (this (qz 0) == 0)%Q.
Proof. apply this_qz. Qed.
Lemma this_qz_m1 : (this (qz (-1)) == -1)%Q.
Proof. rewrite this_qz. reflexivity. Qed.
Lemma this_qz_2 : (this (qz 2) == 2)%Q.
Proof. apply this_qz. Qed.
Lemma this_0 : (this (Q2Qc 0) == 0)%Q.
Proof. apply this_Q2Qc. Qed.
Lemma this_1 : (this (Q2Qc 1) == 1)%Q.
Proof. apply this_Q2Qc. Qed.
Lemma this_q1 : (this q1 == 1)%Q.
Proof. apply this_qz. Qed.

(** Push [this] through every operation, everywhere. *)
Ltac q_push H :=
  try rewrite -> ?this_add, ?this_mul, ?this_opp, ?this_sub, ?this_half,
    ?this_qz_1, ?this_qz_0, ?this_qz_m1, ?this_qz_2, ?this_q1, ?this_0, ?this_1,
    ?this_qz_add, ?this_qz_sub, ?this_qz_opp, ?this_qz_mul, ?this_qz_succ,
    ?this_qz_1, ?this_qz_0, ?this_qz_m1, ?this_qz_2 in H.
Ltac q_push_goal :=
  try rewrite -> ?this_add, ?this_mul, ?this_opp, ?this_sub, ?this_half,
    ?this_qz_1, ?this_qz_0, ?this_qz_m1, ?this_qz_2, ?this_q1, ?this_0, ?this_1,
    ?this_qz_add, ?this_qz_sub, ?this_qz_opp, ?this_qz_mul, ?this_qz_succ,
    ?this_qz_1, ?this_qz_0, ?this_qz_m1, ?this_qz_2.

Ltac q_prep :=
  repeat match goal with
  | H : ~ (_ <= _)%Qc |- _ => apply Qcnot_le_lt in H
  | H : ~ (_ < _)%Qc |- _ => apply Qcnot_lt_le in H
  | H : @eq Qc _ _ |- _ => apply qc_eq_inv in H
  | H : (_ <= _)%Qc |- _ => unfold Qcle in H
  | H : (_ < _)%Qc |- _ => unfold Qclt in H
  | H : _ /\ _ |- _ => destruct H
  end;
  try match goal with
  | |- @eq Qc _ _ => apply qc_eq
  | |- (_ <= _)%Qc => unfold Qcle
  | |- (_ < _)%Qc => unfold Qclt
  end;
  repeat match goal with
  | H : (_ <= _)%Q |- _ => progress (q_push H)
  | H : (_ < _)%Q |- _ => progress (q_push H)
  | H : (_ == _)%Q |- _ => progress (q_push H)
  end;
  repeat progress q_push_goal.

(** Linear arithmetic: name every compound subterm and hand the defining
    equations to [lra]. *)
Ltac q_norm :=
  repeat match goal with
  | H : _ /\ _ |- _ => destruct H
  | H : ~ (_ <= _)%Qc |- _ => apply Qcnot_le_lt in H
  | H : ~ (_ < _)%Qc |- _ => apply Qcnot_lt_le in H
  | H : @eq Qc _ _ |- _ => apply qc_eq_inv in H
  | H : (?a <= ?b)%Qc |- _ => change (this a <= this b)%Q in H
  | H : (?a < ?b)%Qc |- _ => change (this a < this b)%Q in H
  end;
  try match goal with
  | |- @eq Qc _ _ => apply qc_eq
  | |- (?a <= ?b)%Qc => change (this a <= this b)%Q
  | |- (?a < ?b)%Qc => change (this a < this b)%Q
  end;
  repeat match goal with
  | H : (_ <= _)%Q |- _ => revert H
  | H : (_ < _)%Q |- _ => revert H
  | H : (_ == _)%Q |- _ => revert H
  end.
Ltac q_name :=
  repeat match goal with
  | |- context [this (Qcplus ?a ?b)] => generalize (this_add a b); generalize (this (Qcplus a b))
  | |- context [this (Qcmult ?a ?b)] => generalize (this_mul a b); generalize (this (Qcmult a b))
  | |- context [this (Qcopp ?a)] => generalize (this_opp a); generalize (this (Qcopp a))
  | |- context [this (Qcminus ?a ?b)] => generalize (this_sub a b); generalize (this (Qcminus a b))
  | |- context [this (qz (?a + ?b))] => generalize (this_qz_add a b); generalize (this (qz (a + b)))
  | |- context [this (qz (?a - ?b))] => generalize (this_qz_sub a b); generalize (this (qz (a - b)))
  | |- context [this (qz (- ?a))] => generalize (this_qz_opp a); generalize (this (qz (- a)))
  | |- context [this (qz (?a * ?b))] => generalize (this_qz_mul a b); generalize (this (qz (a * b)))
  | |- context [this (qz (Z.succ ?a))] => generalize (this_qz_succ a); generalize (this (qz (Z.succ a)))
  end.
Ltac q_const :=
  change (this qhalf) with (1 # 2)%Q; change (this (qz 1)) with 1%Q; change (this (qz 0)) with 0%Q;
  change (this (qz (-1))) with (- (1))%Q; change (this (qz 2)) with 2%Q; change (this q1) with 1%Q;
  change (this (Q2Qc 0)) with 0%Q; change (this (Q2Qc 1)) with 1%Q.
Ltac qlra_one := q_norm; q_name; q_const; intros; lra.
Ltac qlra := intros; repeat match goal with |- _ /\ _ => split end; qlra_one.
Ltac qnra := intros; repeat match goal with |- _ /\ _ => split end; q_prep; nra.

(** ** Booleans *)
Lemma qleb_spec x y : BoolSpec (x <= y)%Qc (y < x)%Qc (qleb x y).
Proof.
  unfold qleb. destruct (Qle_bool x y) eqn:E; constructor.
  - apply Qle_bool_iff in E; exact E.
  - unfold Qclt. apply Qnot_le_lt. intros C. apply Qle_bool_iff in C. congruence.
Qed.
Lemma qltb_spec x y : BoolSpec (x < y)%Qc (y <= x)%Qc (qltb x y).
Proof.
  unfold qltb. change (Qle_bool y x) with (qleb y x).
  destruct (qleb_spec y x); cbn; constructor; assumption.
Qed.
Lemma qleb_true x y : qleb x y = true <-> (x <= y)%Qc.
Proof. destruct (qleb_spec x y); split; try easy; intros; exfalso; qlra. Qed.
Lemma qleb_false x y : qleb x y = false <-> (y < x)%Qc.
Proof. destruct (qleb_spec x y); split; try easy; intros; exfalso; qlra. Qed.
Lemma qltb_true x y : qltb x y = true <-> (x < y)%Qc.
Proof. destruct (qltb_spec x y); split; try easy; intros; exfalso; qlra. Qed.
Lemma qltb_false x y : qltb x y = false <-> (y <= x)%Qc.
Proof. destruct (qltb_spec x y); split; try easy; intros; exfalso; qlra. Qed.
Lemma qeqb_spec x y : BoolSpec (x = y) (x <> y) (qeqb x y).
Proof.
  unfold qeqb. destruct (Qeq_bool x y) eqn:E; constructor.
  - apply qc_eq, Qeq_bool_eq, E.
  - intros ->. apply Qeq_bool_neq in E. apply E. reflexivity.
Qed.
Lemma qeqb_true x y : qeqb x y = true <-> x = y.
Proof. destruct (qeqb_spec x y); split; congruence. Qed.

Ltac qcases :=
  repeat match goal with
  | |- context [if qleb ?a ?b then _ else _] => destruct (qleb_spec a b)
  | |- context [if qltb ?a ?b then _ else _] => destruct (qltb_spec a b)
  | |- context [if qeqb ?a ?b then _ else _] => destruct (qeqb_spec a b)
  | H : context [if qleb ?a ?b then _ else _] |- _ => destruct (qleb_spec a b)
  | H : context [if qltb ?a ?b then _ else _] |- _ => destruct (qltb_spec a b)
  | H : context [if qeqb ?a ?b then _ else _] |- _ => destruct (qeqb_spec a b)
  end.

(** ** Integers *)
Lemma qz_le a b : (qz a <= qz b)%Qc <-> a <= b.
Proof. unfold Qcle. rewrite !this_qz. rewrite <- Zle_Qle. reflexivity. Qed.
Lemma qz_lt a b : (qz a < qz b)%Qc <-> a < b.
Proof. unfold Qclt. rewrite !this_qz. rewrite <- Zlt_Qlt. reflexivity. Qed.
Lemma qz_inj a b : qz a = qz b -> a = b.
Proof.
  intros H. apply qc_eq_inv in H. rewrite !this_qz in H.
  unfold Qeq in H; cbn in H; lia.
Qed.
Lemma qz_add a b : qz (a + b) = Qcplus (qz a) (qz b).
Proof. qlra. Qed.
Lemma qz_sub a b : qz (a - b) = Qcminus (qz a) (qz b).
Proof. qlra. Qed.
Lemma qz_mul a b : qz (a * b) = Qcmult (qz a) (qz b).
Proof. q_prep. lra. Qed.
Lemma qz_opp a : qz (- a) = Qcopp (qz a).
Proof. qlra. Qed.
Lemma qz_0 : qz 0 = Q2Qc 0.
Proof. reflexivity. Qed.

(** ** Floor and ceiling *)
Lemma qfloor_le x : (qz (qfloor x) <= x)%Qc.
Proof. unfold Qcle. rewrite this_qz. apply Qfloor_le. Qed.
Lemma qfloor_lt x : (x < qz (qfloor x) + qz 1)%Qc.
Proof.
  unfold Qclt. rewrite this_add, !this_qz. rewrite <- inject_Z_plus. apply Qlt_floor.
Qed.
Lemma qfloor_unique x n : (qz n <= x)%Qc -> (x < qz n + qz 1)%Qc -> qfloor x = n.
Proof.
  intros H1 H2. pose proof (qfloor_le x) as H3. pose proof (qfloor_lt x) as H4.
  assert (qfloor x < n + 1). { apply qz_lt. rewrite qz_add. qlra. }
  assert (n < qfloor x + 1). { apply qz_lt. rewrite qz_add. qlra. }
  lia.
Qed.
Lemma qfloor_qz n : qfloor (qz n) = n.
Proof. apply qfloor_unique; qlra. Qed.
Lemma qfloor_add_z x n : qfloor (x + qz n) = qfloor x + n.
Proof.
  pose proof (qfloor_le x). pose proof (qfloor_lt x).
  apply qfloor_unique; rewrite qz_add; qlra.
Qed.
Lemma qfloor_mono x y : (x <= y)%Qc -> qfloor x <= qfloor y.
Proof. intros H. apply Qfloor_resp_le. exact H. Qed.
Lemma qfloor_ge x n : (qz n <= x)%Qc -> n <= qfloor x.
Proof. intros H. rewrite <- (qfloor_qz n). apply qfloor_mono, H. Qed.
Lemma qfloor_lt_iff x n : (x < qz n)%Qc -> qfloor x < n.
Proof. intros H. apply qz_lt. pose proof (qfloor_le x). qlra. Qed.
Lemma qceil_ge x : (x <= qz (qceil x))%Qc.
Proof. unfold Qcle. rewrite this_qz. apply Qle_ceiling. Qed.
Lemma qceil_lt x : (qz (qceil x) - qz 1 < x)%Qc.
Proof.
  unfold Qclt. rewrite this_sub, !this_qz.
  assert (E : (inject_Z (qceil x) - inject_Z 1 == inject_Z (qceil x - 1))%Q).
  { unfold Z.sub, Qminus. rewrite inject_Z_plus. reflexivity. }
  rewrite E. apply Qceiling_lt.
Qed.
Lemma qceil_unique x n : (x <= qz n)%Qc -> (qz n - qz 1 < x)%Qc -> qceil x = n.
Proof.
  intros H1 H2. pose proof (qceil_ge x) as H3. pose proof (qceil_lt x) as H4.
  assert (qceil x < n + 1). { apply qz_lt. rewrite qz_add. qlra. }
  assert (n < qceil x + 1). { apply qz_lt. rewrite qz_add. qlra. }
  lia.
Qed.
Lemma qceil_qz n : qceil (qz n) = n.
Proof. apply qceil_unique; qlra. Qed.
Lemma qceil_le x n : (x <= qz n)%Qc -> qceil x <= n.
Proof.
  intros H. pose proof (qceil_lt x).
  assert (qceil x < n + 1); [|lia]. apply qz_lt. rewrite qz_add. qlra.
Qed.

(** ** Powers of two *)
Lemma pow2_0 : pow2 0 = qz 1.
Proof. reflexivity. Qed.
Lemma pow2_pos e : (qz 0 < pow2 e)%Qc.
Proof.
  unfold Qclt, pow2. rewrite this_qz_0, this_Q2Qc.
  apply Qpower_0_lt. reflexivity.
Qed.
Lemma pow2_nz e : pow2 e <> Q2Qc 0.
Proof.
  intros H. pose proof (pow2_pos e) as P. rewrite H in P. revert P. unfold Qclt. rewrite this_qz_0, this_0. lra.
Qed.
Lemma pow2_add a b : pow2 (a + b) = Qcmult (pow2 a) (pow2 b).
Proof.
  apply qc_eq. unfold pow2. rewrite this_mul, !this_Q2Qc. apply Qpower_plus. easy.
Qed.
Lemma pow2_opp_r e : Qcmult (pow2 e) (pow2 (- e)) = qz 1.
Proof. rewrite <- pow2_add. replace (e + - e) with 0 by lia. reflexivity. Qed.
Lemma pow2_opp_l e : Qcmult (pow2 (- e)) (pow2 e) = qz 1.
Proof. rewrite <- pow2_add. replace (- e + e) with 0 by lia. reflexivity. Qed.
Lemma pow2_Z e : 0 <= e -> pow2 e = qz (2 ^ e).
Proof.
  intros H. apply qc_eq. unfold pow2. rewrite this_Q2Qc, this_qz.
  rewrite Zpower_Qpower by assumption. reflexivity.
Qed.
Lemma pow2_succ e : pow2 (e + 1) = Qcmult (qz 2) (pow2 e).
Proof. rewrite pow2_add. change (pow2 1) with (qz 2). apply Qcmult_comm. Qed.
Lemma pow2_pred e : pow2 (e - 1) = Qcmult qhalf (pow2 e).
Proof. unfold Z.sub. rewrite pow2_add. change (pow2 (-1)) with qhalf. apply Qcmult_comm. Qed.
Lemma qmul_le_r a b c : (qz 0 <= c -> a <= b -> a * c <= b * c)%Qc.
Proof. intros. q_prep. nra. Qed.
Lemma qmul_lt_r a b c : (qz 0 < c -> a < b -> a * c < b * c)%Qc.
Proof. intros. q_prep. nra. Qed.
Lemma qmul_le_r_inv a b c : (qz 0 < c -> a * c <= b * c -> a <= b)%Qc.
Proof. intros. q_prep. nra. Qed.
Lemma qmul_lt_r_inv a b c : (qz 0 < c -> a * c < b * c -> a < b)%Qc.
Proof. intros. q_prep. nra. Qed.
Lemma pow2_ge1 e : 0 <= e -> (qz 1 <= pow2 e)%Qc.
Proof. intros H. rewrite pow2_Z by assumption. apply qz_le. pose proof (Z.pow_pos_nonneg 2 e). lia. Qed.
Lemma pow2_le a b : a <= b -> (pow2 a <= pow2 b)%Qc.
Proof.
  intros H. replace b with ((b - a) + a) by lia. rewrite pow2_add.
  pose proof (pow2_ge1 (b - a) ltac:(lia)). pose proof (pow2_pos a). qnra.
Qed.
Lemma pow2_lt a b : a < b -> (pow2 a < pow2 b)%Qc.
Proof.
  intros H. assert (a + 1 <= b) as H1 by lia. apply pow2_le in H1. rewrite pow2_succ in H1.
  pose proof (pow2_pos a). qnra.
Qed.
Lemma pow2_le_inv a b : (pow2 a <= pow2 b)%Qc -> a <= b.
Proof.
  intros H. destruct (Z_le_gt_dec a b) as [|g]; [assumption|].
  assert (b < a) as L by lia. apply pow2_lt in L. exfalso; qlra.
Qed.
Lemma pow2_lt_inv a b : (pow2 a < pow2 b)%Qc -> a < b.
Proof.
  intros H. destruct (Z_lt_le_dec a b) as [|g]; [assumption|].
  apply pow2_le in g. exfalso; qlra.
Qed.
Lemma pow2_inj a b : pow2 a = pow2 b -> a = b.
Proof. intros H. assert (a <= b /\ b <= a); [|lia]. split; apply pow2_le_inv; rewrite H; qlra. Qed.
Lemma div_pow2 x e : Qcdiv x (pow2 e) = Qcmult x (pow2 (- e)).
Proof.
  unfold Qcdiv. f_equal.
  assert (H : pow2 e <> Q2Qc 0) by apply pow2_nz.
  pose proof (pow2_opp_r e) as E.
  assert (Qcmult (Qcinv (pow2 e)) (Qcmult (pow2 e) (pow2 (-e))) = Qcinv (pow2 e)) as F.
  { rewrite E. change (qz 1) with (Q2Qc 1). ring. }
  rewrite <- F. rewrite Qcmult_assoc. rewrite (Qcmult_comm (Qcinv _)), Qcmult_inv_r by assumption. ring.
Qed.
Lemma mul_pow2_cancel x e : Qcmult (Qcmult x (pow2 e)) (pow2 (- e)) = x.
Proof. rewrite <- Qcmult_assoc, pow2_opp_r. change (qz 1) with (Q2Qc 1). ring. Qed.
Lemma mul_pow2_cancel' x e : Qcmult (Qcmult x (pow2 (- e))) (pow2 e) = x.
Proof. rewrite <- Qcmult_assoc, pow2_opp_l. change (qz 1) with (Q2Qc 1). ring. Qed.
Lemma pow2_inv_unique x y e : Qcmult x (pow2 e) = y -> x = Qcmult y (pow2 (- e)).
Proof. intros <-. symmetry. apply mul_pow2_cancel. Qed.

(** ** Integer logarithms *)
Lemma mul_den (x : Qc) : Qcmult x (qz (Zpos (Qden x))) = qz (Qnum x).
Proof.
  apply qc_eq. rewrite this_mul, !this_qz. destruct x as [[n d] c]; cbn [this Qnum Qden].
  rewrite (Qmake_Qdiv n d). field. easy.
Qed.
Lemma qnum_pos (x : Qc) : (qz 0 < x)%Qc -> 0 < Qnum x.
Proof.
  unfold Qclt. rewrite this_qz_0. destruct x as [[n d] c]; cbn [this]. unfold Qlt; cbn. lia.
Qed.
Lemma flog2_bounds x : (qz 0 < x)%Qc ->
  let e := Z.log2 (Qnum x) - Z.log2 (Zpos (Qden x)) in
  (pow2 (e - 1) < x)%Qc /\ (x < pow2 (e + 1))%Qc.
Proof.
  intros H e. pose proof (qnum_pos x H) as Hn. pose proof (mul_den x) as Hd.
  destruct (Z.log2_spec (Qnum x) Hn) as [N1 N2].
  destruct (Z.log2_spec (Zpos (Qden x)) ltac:(lia)) as [D1 D2].
  set (a := Z.log2 (Qnum x)) in *. set (b := Z.log2 (Zpos (Qden x))) in *.
  assert (0 <= a) as Ha by apply Z.log2_nonneg. assert (0 <= b) as Hb by apply Z.log2_nonneg.
  apply qz_le in N1, D1. apply qz_lt in N2, D2.
  rewrite <- pow2_Z in N1, N2, D1, D2 by lia.
  unfold Z.succ in *. rewrite pow2_succ in N2, D2.
  assert (Ea : pow2 a = Qcmult (pow2 e) (pow2 b)). { rewrite <- pow2_add. f_equal. unfold e; lia. }
  rewrite <- Hd in N1, N2. rewrite Ea in N1, N2.
  pose proof (pow2_pos e). pose proof (pow2_pos b).
  rewrite pow2_succ, pow2_pred. generalize dependent (qz (Zpos (Qden x))). intros d Hd D1 D2 N1 N2.
  clear Hd Ea.
  split; unfold Qclt in *; q_prep.
  - assert (K : (0 < (this x - (1#2) * this (pow2 e)) * this d)%Q) by nra.
    apply Qnot_le_lt. intros C. nra.
  - apply Qnot_le_lt. intros C. nra.
Qed.
Lemma flog2_spec x : (qz 0 < x)%Qc -> (pow2 (flog2 x) <= x)%Qc /\ (x < pow2 (flog2 x + 1))%Qc.
Proof.
  intros H. destruct (flog2_bounds x H) as [H1 H2]. unfold flog2.
  destruct (qleb_spec (pow2 (Z.log2 (Qnum x) - Z.log2 (Zpos (Qden x)))) x).
  - split; assumption.
  - split; [qlra|]. replace (_ - 1 + 1) with (Z.log2 (Qnum x) - Z.log2 (Zpos (Qden x))) by lia. assumption.
Qed.
Lemma flog2_unique x e : (pow2 e <= x)%Qc -> (x < pow2 (e + 1))%Qc -> flog2 x = e.
Proof.
  intros H1 H2. assert (P : (qz 0 < x)%Qc) by (pose proof (pow2_pos e); qlra).
  destruct (flog2_spec x P) as [H3 H4].
  assert (flog2 x < e + 1) by (apply pow2_lt_inv; qlra).
  assert (e < flog2 x + 1) by (apply pow2_lt_inv; qlra). lia.
Qed.
Lemma flog2_pow2 e : flog2 (pow2 e) = e.
Proof. apply flog2_unique; [qlra|apply pow2_lt; lia]. Qed.
Lemma clog2_spec x : (qz 0 < x)%Qc -> (pow2 (clog2 x - 1) < x)%Qc /\ (x <= pow2 (clog2 x))%Qc.
Proof.
  intros H. destruct (flog2_spec x H) as [H1 H2]. unfold clog2.
  destruct (qleb_spec x (pow2 (flog2 x))) as [L|L].
  - split; [|assumption]. assert (x = pow2 (flog2 x)) as -> by qlra. rewrite flog2_pow2. apply pow2_lt; lia.
  - split; [|qlra]. replace (flog2 x + 1 - 1) with (flog2 x) by lia. assumption.
Qed.
Lemma clog2_le_iff x e : (qz 0 < x)%Qc -> (clog2 x <= e <-> (x <= pow2 e)%Qc).
Proof.
  intros H. destruct (clog2_spec x H) as [H1 H2]. split; intros L.
  - apply pow2_le in L. qlra.
  - assert (clog2 x - 1 < e); [|lia]. apply pow2_lt_inv. qlra.
Qed.
Lemma flog2_lt_iff x e : (qz 0 < x)%Qc -> (flog2 x < e <-> (x < pow2 e)%Qc).
Proof.
  intros H. destruct (flog2_spec x H) as [H1 H2]. split; intros L.
  - assert (flog2 x + 1 <= e) as L' by lia. apply pow2_le in L'. qlra.
  - apply pow2_lt_inv. qlra.
Qed.
Lemma clog2_pow2 e : clog2 (pow2 e) = e.
Proof.
  unfold clog2. rewrite flog2_pow2. destruct (qleb_spec (pow2 e) (pow2 e)); [reflexivity|]. exfalso; qlra.
Qed.

(** ** min, max, abs *)
Lemma qmin_spec x y : ((x <= y)%Qc /\ qmin x y = x) \/ ((y < x)%Qc /\ qmin x y = y).
Proof. unfold qmin. destruct (qleb_spec x y); auto. Qed.
Lemma qmax_spec x y : ((x <= y)%Qc /\ qmax x y = y) \/ ((y < x)%Qc /\ qmax x y = x).
Proof. unfold qmax. destruct (qleb_spec x y); auto. Qed.
Lemma qabs_spec x : ((qz 0 <= x)%Qc /\ qabs x = x) \/ ((x < qz 0)%Qc /\ qabs x = Qcopp x).
Proof. unfold qabs. destruct (qleb_spec (qz 0) x); auto. Qed.
Lemma qabs_nonneg x : (qz 0 <= qabs x)%Qc.
Proof. destruct (qabs_spec x) as [[? ->]|[? ->]]; qlra. Qed.

(** ** tf.round *)
Lemma qround_even_qz n : qround_even (qz n) = n.
Proof.
  unfold qround_even; cbv zeta. rewrite qfloor_qz.
  destruct (qltb_spec (Qcminus (qz n) (qz n)) qhalf); [reflexivity|]. exfalso; qlra.
Qed.
Lemma qround_even_near x : (qz (qround_even x) - qhalf <= x)%Qc /\ (x <= qz (qround_even x) + qhalf)%Qc.
Proof.
  unfold qround_even; cbv zeta. pose proof (qfloor_le x). pose proof (qfloor_lt x).
  qcases; try destruct (Z.even _); rewrite ?qz_add; qlra.
Qed.
Lemma qround_even_tie x : x = Qcplus (qz (qfloor x)) qhalf -> Z.even (qround_even x) = true.
Proof.
  intros H. unfold qround_even; cbv zeta. qcases; try (exfalso; clear - H H0 H1; qlra); try (exfalso; clear - H H0; qlra).
  destruct (Z.even (qfloor x)) eqn:E; [assumption|]. rewrite Z.even_add, E. reflexivity.
Qed.
Lemma qround_even_mono x y : (x <= y)%Qc -> qround_even x <= qround_even y.
Proof.
  intros H. pose proof (qfloor_mono x y H) as F.
  pose proof (qfloor_le x). pose proof (qfloor_lt x). pose proof (qfloor_le y). pose proof (qfloor_lt y).
  destruct (Z.eq_dec (qfloor x) (qfloor y)) as [E|E].
  - unfold qround_even; cbv zeta. rewrite <- E in *. qcases; try destruct (Z.even _); try lia; exfalso; qlra.
  - assert (qround_even x <= qfloor x + 1) by (unfold qround_even; cbv zeta; qcases; try destruct (Z.even _); lia).
    assert (qfloor y <= qround_even y) by (unfold qround_even; cbv zeta; qcases; try destruct (Z.even _); lia).
    lia.
Qed.

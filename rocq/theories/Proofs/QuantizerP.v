(** Facts about the element-wise part of the HGQ quantizer. *)
From Coq Require Import ZArith QArith Qcanon List Bool Lia Lqa Field.
From Verif Require Import Base.Num Base.NumFacts Base.Tensor Model.FixedPoint Model.Quantizer
  Spec.Fixed Spec.Quant.
Import ListNotations.
Local Open Scope Z_scope.

Lemma nearest_even_fun f r : nearest_even f r -> r = qround_even f.
Proof.
  intros [[A B] T]. pose proof (qround_even_near f) as [C D].
  assert (- 1 <= r - qround_even f <= 1).
  { split.
    - apply qz_le. rewrite qz_sub. qlra.
    - apply qz_le. rewrite qz_sub. qlra. }
  destruct (Z.eq_dec r (qround_even f)) as [E|N]; [assumption|exfalso].
  assert (Hf : f = (qz (Z.min r (qround_even f)) + qhalf)%Qc).
  { destruct (Z.min_spec r (qround_even f)) as [[L ->]|[L ->]].
    - assert (E : qround_even f = r + 1) by lia. rewrite E in C, D. rewrite qz_add in C, D. clear - A B C D.
      apply Qcle_antisym; qlra.
    - assert (E : r = qround_even f + 1) by lia. rewrite E in A, B. rewrite qz_add in A, B. clear - A B C D.
      apply Qcle_antisym; qlra. }
  assert (T1 : tie f) by (eexists; exact Hf). specialize (T T1).
  assert (Hfl : qfloor f = Z.min r (qround_even f)).
  { remember (Z.min r (qround_even f)) as m. clear - Hf. apply qfloor_unique; qlra. }
  assert (E2 : Z.even (qround_even f) = true).
  { apply qround_even_tie. rewrite Hfl. exact Hf. }
  apply Z.even_spec in E2. destruct T as [a Ha], E2 as [b Hb]. lia.
Qed.
Lemma nearest_even_ex f : nearest_even f (qround_even f).
Proof.
  split; [apply qround_even_near|]. intros [m Hm].
  apply Z.even_spec, qround_even_tie. rewrite Hm at 1.
  f_equal. f_equal. symmetry. apply qfloor_unique; rewrite Hm; qlra.
Qed.

(** floor of a scaled value *)
Lemma floor_scaled r x : floor_on_grid r x (qz (qfloor (x * pow2 r)) / pow2 r)%Qc.
Proof.
  rewrite div_pow2. set (n := qfloor (x * pow2 r)).
  pose proof (qfloor_le (x * pow2 r)) as A. pose proof (qfloor_lt (x * pow2 r)) as B. fold n in A, B.
  split; [exists n; reflexivity|]. split.
  - apply (qmul_le_r_inv _ _ (pow2 r)); [apply pow2_pos|]. rewrite mul_pow2_cancel'. exact A.
  - apply (qmul_lt_r_inv _ _ (pow2 r)); [apply pow2_pos|].
    rewrite Qcmult_plus_distr_l, mul_pow2_cancel', pow2_opp_l. exact B.
Qed.
Lemma round_scaled r x : round_on_grid r x (qz (qfloor (x * pow2 r + qhalf)) / pow2 r)%Qc.
Proof.
  rewrite div_pow2. set (n := qfloor (x * pow2 r + qhalf)).
  pose proof (qfloor_le (x * pow2 r + qhalf)) as A. pose proof (qfloor_lt (x * pow2 r + qhalf)) as B.
  fold n in A, B. unfold round_on_grid; rewrite pow2_pred.
  split; [exists n; reflexivity|]. split.
  - apply (qmul_lt_r_inv _ _ (pow2 r)); [apply pow2_pos|]. rewrite mul_pow2_cancel'.
    replace ((x - qhalf * pow2 (- r)) * pow2 r)%Qc with (x * pow2 r - qhalf * (pow2 (- r) * pow2 r))%Qc by ring.
    rewrite pow2_opp_l. qlra.
  - apply (qmul_le_r_inv _ _ (pow2 r)); [apply pow2_pos|]. rewrite mul_pow2_cancel'.
    replace ((x + qhalf * pow2 (- r)) * pow2 r)%Qc with (x * pow2 r + qhalf * (pow2 (- r) * pow2 r))%Qc by ring.
    rewrite pow2_opp_l. qlra.
Qed.
Lemma floor_on_grid_fun r x y y' : floor_on_grid r x y -> floor_on_grid r x y' -> y = y'.
Proof.
  intros [[m ->] [A B]] [[m' ->] [A' B']]. f_equal. f_equal.
  assert (H : forall a b, (qz a * pow2 (- r) <= x)%Qc -> (x < qz b * pow2 (- r) + pow2 (- r))%Qc -> a < b + 1).
  { intros a b Ha Hb. apply (qz_lt a (b+1)). apply (qmul_lt_r_inv _ _ (pow2 (- r))); [apply pow2_pos|].
    rewrite qz_add, Qcmult_plus_distr_l.
    replace (qz 1 * pow2 (- r))%Qc with (pow2 (- r)) by (change (qz 1) with 1%Qc; ring). qlra. }
  pose proof (H _ _ A B'). pose proof (H _ _ A' B). lia.
Qed.
Lemma round_on_grid_fun r x y y' : round_on_grid r x y -> round_on_grid r x y' -> y = y'.
Proof.
  intros [[m ->] [A B]] [[m' ->] [A' B']]. f_equal. f_equal.
  rewrite pow2_pred in *.
  assert (H : forall a b, (qz a * pow2 (- r) <= x + qhalf * pow2 (- r))%Qc ->
                          (x - qhalf * pow2 (- r) < qz b * pow2 (- r))%Qc -> a < b + 1).
  { intros a b Ha Hb. apply (qz_lt a (b+1)). apply (qmul_lt_r_inv _ _ (pow2 (- r))); [apply pow2_pos|].
    rewrite qz_add, Qcmult_plus_distr_l.
    replace (qz 1 * pow2 (- r))%Qc with (qhalf * pow2 (- r) + qhalf * pow2 (- r))%Qc.
    2:{ rewrite <- Qcmult_plus_distr_l. apply f_equal2; [apply qc_eq; reflexivity|reflexivity]. }
    qlra. }
  pose proof (H _ _ B A'). pose proof (H _ _ B' A). lia.
Qed.

(** ** The quantized value *)
(** The value before the straight-through rewriting. *)
Definition xq_of pw strategy exact training noise f x : result Qc :=
  let scale := q_scale pw exact training f in
  rbind (q_round (x * scale) (eff_strategy training strategy) noise) (fun r => Ok (r / scale)%Qc).

Lemma forward_elem_xq pw ln2 strategy exact training noise f x :
  forward_elem pw ln2 strategy exact training noise f x = xq_of pw strategy exact training noise f x.
Proof.
  unfold forward_elem, xq_of. cbv zeta. destruct (q_round _ _ _) as [r|]; [|reflexivity]. cbn [rbind].
  f_equal. destruct training; ring.
Qed.

Lemma forward_inference pw ln2 strategy exact noise f x :
  forward_elem pw ln2 strategy exact false noise f x =
  Ok (qz (qfloor (if Z.eqb strategy 3 then x * pow2 (qround_even f) else x * pow2 (qround_even f) + qhalf))
      / pow2 (qround_even f))%Qc.
Proof.
  rewrite forward_elem_xq. unfold xq_of, eff_strategy, q_scale. cbn [negb andb]. rewrite orb_true_r.
  destruct (Z.eqb_spec strategy 3) as [->|N]; cbn [negb]; reflexivity.
Qed.

Lemma inference_spec pw ln2 strategy exact noise f x r : nearest_even f r ->
  exists y, forward_elem pw ln2 strategy exact false noise f x = Ok y /\
    (strategy = 3 -> floor_on_grid r x y) /\ (strategy <> 3 -> round_on_grid r x y).
Proof.
  intros H. rewrite (nearest_even_fun _ _ H). rewrite forward_inference. eexists. split; [reflexivity|].
  destruct (Z.eqb_spec strategy 3) as [E|N]; split; try contradiction; try tauto; intros _.
  - apply floor_scaled.
  - apply round_scaled.
Qed.

Lemma inference_mono pw ln2 strategy exact noise noise' f x x' y y' : (x <= x')%Qc ->
  forward_elem pw ln2 strategy exact false noise f x = Ok y ->
  forward_elem pw ln2 strategy exact false noise' f x' = Ok y' -> (y <= y')%Qc.
Proof.
  intros H. rewrite !forward_inference. intros E E'. injection E as <-. injection E' as <-.
  rewrite !div_pow2. apply qmul_le_r; [apply Qclt_le_weak, pow2_pos|]. apply qz_le. apply qfloor_mono.
  assert (x * pow2 (qround_even f) <= x' * pow2 (qround_even f))%Qc
    by (apply qmul_le_r; [apply Qclt_le_weak, pow2_pos|assumption]).
  destruct (Z.eqb strategy 3); [assumption|qlra].
Qed.

(** Inference is the identity on the grid. *)
Lemma inference_on_grid pw ln2 strategy exact noise f y : on_grid (qround_even f) y ->
  forward_elem pw ln2 strategy exact false noise f y = Ok y.
Proof.
  intros [m ->]. rewrite forward_inference. f_equal. rewrite mul_pow2_cancel', div_pow2. f_equal. f_equal.
  destruct (Z.eqb strategy 3); apply qfloor_unique; qlra.
Qed.
Lemma inference_grid pw ln2 strategy exact noise f x y :
  forward_elem pw ln2 strategy exact false noise f x = Ok y -> on_grid (qround_even f) y.
Proof. rewrite forward_inference. intros E; injection E as <-. rewrite div_pow2. eexists; reflexivity. Qed.

(** ** Training strategies *)
Lemma q_round_raise x s noise : q_round x s noise = Raise <-> ~ (0 <= s <= 3).
Proof.
  unfold q_round.
  destruct (Z.eqb_spec s 0); [split; [discriminate|lia]|].
  destruct (Z.eqb_spec s 1); [split; [discriminate|lia]|].
  destruct (Z.eqb_spec s 2); [split; [discriminate|lia]|].
  destruct (Z.eqb_spec s 3); [split; [discriminate|lia]|]. split; [lia|reflexivity].
Qed.
Lemma stochastic_spec x noise y : (qz 0 <= noise)%Qc -> (noise < qz 1)%Qc -> q_round x 1 noise = Ok y ->
  exists n, y = qz n /\ (y < x + qz 1)%Qc /\ (x - qz 1 < y)%Qc /\ (forall m, x = qz m -> y = x).
Proof.
  intros H0 H1 E. unfold q_round in E. cbn [Z.eqb Pos.eqb] in E. cbv zeta in E. injection E as <-.
  pose proof (qfloor_le x). pose proof (qfloor_lt x).
  destruct (qltb_spec noise (x - qz (qfloor x))) as [L|L].
  - exists (qfloor x + 1). rewrite qz_add. split; [reflexivity|]. split; [qlra|]. split; [qlra|].
    intros m ->. rewrite qfloor_qz in *. exfalso. qlra.
  - exists (qfloor x). split; [reflexivity|]. split; [qlra|]. split; [qlra|].
    intros m ->. rewrite qfloor_qz. reflexivity.
Qed.
(** Which of the two neighbours, as a function of the draw. *)
Lemma stochastic_up x noise y : (qz 0 <= noise)%Qc -> (noise < qz 1)%Qc -> q_round x 1 noise = Ok y ->
  (x < y)%Qc <-> (noise < x - qz (qfloor x))%Qc.
Proof.
  intros H0 H1 E. unfold q_round in E. cbn [Z.eqb Pos.eqb] in E. cbv zeta in E. injection E as <-.
  pose proof (qfloor_le x). pose proof (qfloor_lt x).
  destruct (qltb_spec noise (x - qz (qfloor x))) as [L|L]; split; intros; try assumption; exfalso; qlra.
Qed.
Lemma noise_spec x noise y : (- qhalf <= noise)%Qc -> (noise <= qhalf)%Qc -> q_round x 2 noise = Ok y ->
  (x - qhalf <= y)%Qc /\ (y <= x + qhalf)%Qc /\ ((qabs x <= qhalf)%Qc -> y = qz 0).
Proof.
  intros H0 H1 E. unfold q_round in E. cbn [Z.eqb Pos.eqb] in E. cbv zeta in E. injection E as <-.
  destruct (qleb_spec (qabs x) qhalf) as [L|L].
  - assert (M : (- qhalf <= x)%Qc /\ (x <= qhalf)%Qc).
    { destruct (qabs_spec x) as [[A B]|[A B]]; rewrite B in L; qlra. }
    split; [qlra|]. split; [qlra|]. intros _. qlra.
  - split; [qlra|]. split; [qlra|]. intros A. exfalso. qlra.
Qed.

(** ** Gradients *)
Lemma q_round_d_fst x s noise : rbind (q_round_d x s noise) (fun d => Ok (fst d)) = q_round (fst x) s noise.
Proof.
  unfold q_round_d, q_round.
  destruct (Z.eqb s 0); [reflexivity|].
  destruct (Z.eqb s 1). { cbv zeta. cbn [rbind]. f_equal. unfold d_floor; cbn [fst]. destruct (qltb _ _); reflexivity. }
  destruct (Z.eqb s 2). { cbv zeta. cbn [rbind]. f_equal. destruct (qleb _ _); reflexivity. }
  destruct (Z.eqb s 3); reflexivity.
Qed.
Lemma forward_d pw ln2 strategy exact training noise f x y :
  xq_of pw strategy exact training noise (fst f) (fst x) = Ok y ->
  forward_elem_d pw ln2 strategy exact training noise f x =
    Ok (y, if training then snd x - (y - fst x) * ln2 * snd f else snd x)%Qc.
Proof.
  unfold xq_of, forward_elem_d, q_scale. cbv zeta.
  set (sc := if (exact || negb training)%bool then d_const (pow2 (qround_even (fst f)))
             else (pw (fst f), (ln2 * pw (fst f) * snd f)%Qc)).
  assert (E : (if (exact || negb training)%bool then pow2 (qround_even (fst f)) else pw (fst f)) = fst sc)
    by (unfold sc; destruct (exact || negb training)%bool; reflexivity).
  rewrite E. pose proof (q_round_d_fst (d_mul x sc) (eff_strategy training strategy) noise) as Q.
  replace (fst (d_mul x sc)) with (fst x * fst sc)%Qc in Q by reflexivity.
  destruct (q_round_d (d_mul x sc) _ noise) as [d|]; cbn [rbind] in *; rewrite <- Q; cbn [rbind]; [|discriminate].
  intros H; injection H as <-. f_equal.
  destruct training; unfold d_add, d_sub, d_mul, d_div, stop_gradient, d_const; cbn [fst snd]; f_equal; try ring.
  all: change (qz 0) with 0%Qc; ring.
Qed.
Lemma scale_grad_spec x s : scale_grad x (s, qz 0) = (fst x, (snd x * s)%Qc).
Proof.
  unfold scale_grad, d_add, d_mul, d_sub, stop_gradient; cbn [fst snd]. f_equal; change (qz 0) with 0%Qc; ring.
Qed.
Lemma qsum_mono l l' : Forall2 Qcle l l' -> (qsum l <= qsum l')%Qc.
Proof.
  induction 1 as [|a b l l' Hab _ IH]; unfold qsum; cbn [fold_right]; [qlra|]. fold (qsum l). fold (qsum l'). qlra.
Qed.

(** ** Bitwidth clip *)
Lemma clip_bounds x lo hi : (lo <= hi)%Qc -> (lo <= clip_by_value x lo hi)%Qc /\ (clip_by_value x lo hi <= hi)%Qc.
Proof.
  intros H. unfold clip_by_value. destruct (qmin_spec x hi) as [[A ->]|[A ->]];
  match goal with |- context [qmax ?a ?b] => destruct (qmax_spec a b) as [[B ->]|[B ->]] end; qlra.
Qed.
Lemma clip_id x lo hi : (lo <= x)%Qc -> (x <= hi)%Qc -> clip_by_value x lo hi = x.
Proof.
  intros H H'. unfold clip_by_value. destruct (qmin_spec x hi) as [[A ->]|[A ->]];
  match goal with |- context [qmax ?a ?b] => destruct (qmax_spec a b) as [[B ->]|[B ->]] end; qlra.
Qed.

(** C98: casts through other fixed-point types, and accumulation in one. *)
From Coq Require Import ZArith QArith Qcanon List Bool String Lia.
From Verif Require Import Base.Num Base.NumFacts Base.Compute Model.FixedPoint Model.Casts Spec.Fixed Spec.Casts Proofs.FixedPointP Proofs.CastsP.
Import ListNotations.
Local Open Scope Z_scope.

(** C98: in the default modes (TRN, WRAP) a cast through a type with at least as many integer and fractional bits changes nothing, whatever
    the signs of the two types and however far the value is outside of them. *)
Theorem C98_wrap : forall k b i k' b' i' x, k = 0 \/ k = 1 -> k' = 0 \/ k' = 1 -> k <= b -> k' <= b' -> 0 <= b -> i <= i' -> b - i <= b' - i' ->
  after (gfixed_d k b i) (gfixed_d k' b' i') x = gfixed_d k b i x.
Proof. exact wrap_wrap. Qed.
Print Assumptions C98_wrap.

(** C98: with SAT likewise if the range of the inner type covers the outer one. *)
Theorem C98_sat : forall k b i k' b' i' x, k = 0 \/ k = 1 -> k' = 0 \/ k' = 1 -> k <= b -> k' <= b' -> 0 <= b -> k <= k' -> i - k <= i' - k' -> b - i <= b' - i' ->
  after (gfixed k b i "TRN" "SAT") (gfixed k' b' i' "TRN" "SAT") x = gfixed k b i "TRN" "SAT" x.
Proof. exact sat_sat. Qed.
Print Assumptions C98_sat.

(** C98: fixed and ufixed of one width read the same bits: the values agree below half of the range and differ by the range above. *)
Theorem C98_signed : forall b i R x, 1 <= b -> In R rounding_names ->
  exists u, ufixed b i R "WRAP" x = Ok u /\ fixed b i R "WRAP" x = Ok (if qltb u (pow2 (i - 1)) then u else u - pow2 i)%Qc.
Proof. exact signed_pattern. Qed.
Print Assumptions C98_signed.

(** C98: the defaults truncate and wrap: the result is a value of the format, and the input lies in the step above it, up to a multiple of 2^i. *)
Theorem C98_defaults : forall b i x, 1 <= b ->
  (exists y z, ufixed_d b i x = Ok y /\ representable 0 b i y /\ (y + qz z * pow2 i <= x)%Qc /\ (x < y + qz z * pow2 i + pow2 (i - b))%Qc) /\
  (exists y z, fixed_d b i x = Ok y /\ representable 1 b i y /\ (y + qz z * pow2 i <= x)%Qc /\ (x < y + qz z * pow2 i + pow2 (i - b))%Qc).
Proof. intros b i x Hb. split; apply default_value; auto; lia. Qed.
Print Assumptions C98_defaults.

(** C98: overflows of a wrapping accumulator are harmless: terms on the grid of the accumulator, added one by one with a cast after each
    addition and cast to a type of at most as many integer bits, give the cast of the true sum, whatever overflowed on the way. *)
Theorem C98_accumulate : forall k b i k' b' i' vs, k = 0 \/ k = 1 -> k' = 0 \/ k' = 1 -> k <= b -> k' <= b' -> 1 <= b -> 1 <= b' -> i <= i' ->
  Forall (on_grid (b' - i')) vs -> rbind (accumulate (gfixed_d k' b' i') (qz 0) vs) (gfixed_d k b i) = gfixed_d k b i (total vs).
Proof. exact accumulate_wrap. Qed.
Print Assumptions C98_accumulate.
(** ... so a true sum that the accumulator can hold is what it holds in the end. *)
Theorem C98_final : forall k b i vs, k = 0 \/ k = 1 -> k <= b -> 1 <= b -> Forall (on_grid (b - i)) vs -> representable k b i (total vs) ->
  accumulate (gfixed_d k b i) (qz 0) vs = Ok (total vs).
Proof.
  intros k b i vs K Hb H1 G Rt. destruct vs as [|v vs]; [reflexivity|].
  assert (E : forall vs r, vs <> [] -> on_grid (b - i) r -> Forall (on_grid (b - i)) vs ->
    accumulate (gfixed_d k b i) r vs = gfixed_d k b i (r + total vs)%Qc).
  { clear - K Hb H1. induction vs as [|v vs IH]; [intros r N; contradiction (N eq_refl)|]. intros r _ Hr Hvs. inversion Hvs; subst. cbn [accumulate total fold_right].
    destruct (cast_grid k b i (r + v)%Qc K Hb H1 (grid_add _ _ _ Hr H2)) as [z E]. change (gfixed k b i "TRN" "WRAP") with (gfixed_d k b i) in E.
    destruct vs as [|w vs].
    - cbn [accumulate total fold_right]. replace (r + (v + qz 0))%Qc with (r + v)%Qc by (rewrite qz_0; ring). rewrite E. reflexivity.
    - rewrite E. cbn [rbind]. rewrite IH; [|discriminate|apply grid_add; [apply grid_add; assumption|apply grid_period; lia]|exact H3].
      unfold gfixed_d. rewrite <- (cast_period k b i (r + (v + fold_right Qcplus (qz 0) (w :: vs)))%Qc z K Hb H1). f_equal. unfold total. ring. }
  rewrite E; [|discriminate|exists 0; rewrite qz_0; ring|exact G]. replace (qz 0 + total (v :: vs))%Qc with (total (v :: vs)) by (rewrite qz_0; ring).
  unfold gfixed_d. destruct Rt as [m [C ->]]. rewrite gfixed_floor by (cbn; auto).
  assert (Em : (qz m * pow2 (i - b) * pow2 (b - i) = qz m)%Qc) by (rewrite <- Qcmult_assoc, <- pow2_add; replace (i - b + (b - i)) with 0 by lia; rewrite pow2_0, qz1; ring).
  rewrite Em, qfloor_qz. do 3 f_equal. unfold policy, wrapz. cbn [String.eqb Ascii.eqb Bool.eqb]. apply code_iff in C; [|assumption..]. pose proof (hi_lo k b K Hb). rewrite Z.mod_small; lia.
Qed.
Print Assumptions C98_final.

(** C98: with rounding to nearest casts do not compose, in any of the five such modes: 3/8 or 5/8 through fixed<8,7> to fixed<6,6>. *)
Theorem C98_nearest_refuted : forall R, In R ["RND"; "RND_ZERO"; "RND_MIN_INF"; "RND_INF"; "RND_CONV"]%string -> exists x,
  after (gfixed 1 6 6 R "SAT") (gfixed 1 8 7 R "SAT") x <> gfixed 1 6 6 R "SAT" x.
Proof.
  intros R HR. cbn in HR.
  destruct HR as [<-|[<-|[<-|[<-|[<-|[]]]]]];
    [exists (Q2Qc (3 # 8))|exists (Q2Qc (5 # 8))|exists (Q2Qc (5 # 8))|exists (Q2Qc (3 # 8))|exists (Q2Qc (5 # 8))];
    intros E; apply (f_equal (rmap this)) in E; vm_compute in E; discriminate E.
Qed.
Print Assumptions C98_nearest_refuted.
(** C98: a saturating accumulator forgets: 7 + 7 - 7 in fixed<4,4>. *)
Theorem C98_saturating_refuted : Forall (on_grid 0) [qz 7; qz 7; qz (-7)] /\ representable 1 4 4 (total [qz 7; qz 7; qz (-7)]) /\
  accumulate (gfixed 1 4 4 "TRN" "SAT") (qz 0) [qz 7; qz 7; qz (-7)] = Ok (qz 0).
Proof.
  assert (G : forall m, on_grid 0 (qz m)) by (intros m; exists m; change (pow2 (- 0)) with (qz 1); rewrite qz1; ring).
  split; [repeat constructor; apply G|]. split; [exists 7; split; [right; split; [reflexivity|lia]|apply Qc_is_canon; vm_compute; reflexivity]|].
  cbv [accumulate rbind]. assert (H : forall a c, rmap this (gfixed 1 4 4 "TRN" "SAT" a) = Ok (this c) -> gfixed 1 4 4 "TRN" "SAT" a = Ok c).
  { intros a c. destruct (gfixed 1 4 4 "TRN" "SAT" a) as [q|]; cbn; intros E; [injection E as E; f_equal; apply Qc_is_canon; rewrite E; reflexivity|discriminate E]. }
  rewrite (H _ (qz 7)) by (vm_compute; reflexivity). rewrite (H _ (qz 7)) by (vm_compute; reflexivity). rewrite (H _ (qz 0)) by (vm_compute; reflexivity). reflexivity.
Qed.
Print Assumptions C98_saturating_refuted.

(** -100.3 through ufixed<10,7> (27 5/8) to fixed<6,4>, and with SAT; the bits of -3/4 in 4 bits; 7 + 7 - 7 wrapping. *)
Example C98_ex :
  map (rmap this) [gfixed_d 0 10 7 (Q2Qc (-1003 # 10)); after (gfixed_d 1 6 4) (gfixed_d 0 10 7) (Q2Qc (-1003 # 10)); gfixed_d 1 6 4 (Q2Qc (-1003 # 10))]
    = [Ok (221 # 8); Ok (-9 # 2); Ok (-9 # 2)]%Q /\
  map (rmap this) [after (gfixed 1 6 4 "TRN" "SAT") (gfixed 1 10 7 "TRN" "SAT") (Q2Qc (-1003 # 10)); gfixed 1 6 4 "TRN" "SAT" (Q2Qc (-1003 # 10))] = [Ok (-8 # 1); Ok (-8 # 1)]%Q /\
  map (rmap this) [ufixed_d 4 2 (Q2Qc (-3 # 4)); fixed_d 4 2 (Q2Qc (-3 # 4))] = [Ok (13 # 4); Ok (-3 # 4)]%Q /\
  map (rmap this) [gfixed_d 1 4 4 (qz 14); accumulate (gfixed_d 1 4 4) (qz 0) [qz 7; qz 7; qz (-7)]] = [Ok (-2 # 1); Ok (7 # 1)]%Q.
Proof. repeat split; vm_compute; reflexivity. Qed.

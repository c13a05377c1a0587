(** Reducing quantizers to the precision of their input: C46. *)
From Coq Require Import ZArith Qcanon List Bool String Lia.
From Verif Require Import Base.Num Base.NumFacts Base.Tensor Base.Compute Model.FixedPoint Model.Precision Spec.Fixed Spec.Precision.
From Verif Require Import Proofs.FixedPointP Proofs.FitsP Proofs.PrecisionP Proofs.ReduceP.
Import ListNotations.
Open Scope Z_scope.

(** ** C46 *)

(** A uniform quantizer (one format c for all elements), shrunk because its
    input has precision (ik, ii, jf), gives the same result on every input of
    that precision, in the cases collected in [harmless]. *)
Theorem C46_preserved : forall q c q' c' ik ii jf k i f x,
  uniform q c -> (ik = 0 \/ ik = 1) -> fpq_produced (ik, ii, jf) q = ((k, i, f), q') -> In c' (data (cfgs q')) ->
  0 <= i + f -> harmless (sat_name q) ik ii jf (kn c) (ints c - kn c) (bits c - ints c) -> fits ik ii jf x ->
  gfixed_quantizer x (kn c') (bits c') (ints c') (rnd_name q') (sat_name q') = gfixed_quantizer x (kn c) (bits c) (ints c) (rnd_name q) (sat_name q).
Proof. exact fpq_reduce_same. Qed.
Print Assumptions C46_preserved.
(** A 12-bit wrapping quantizer on 4-bit data loses 8 bits; a saturating signed
    quantizer on unsigned data loses its sign bit. *)
Definition q_of (k b i : Z) (R S : string) : fpq unit := mkFPQ (mkT [1%nat] [mkCfg k b i]) R S tt.
Example C46_preserved_ex :
  uniform (q_of 1 12 6 "TRN" "WRAP") (mkCfg 1 12 6) /\ fpq_produced (1, 2, 1) (q_of 1 12 6 "TRN" "WRAP") = ((1, 2, 1), q_of 1 4 3 "TRN" "WRAP") /\
  harmless "WRAP" 1 2 1 1 5 6 /\ fits 1 2 1 (Q2Qc (-7 # 2)) /\
  fpq_produced (0, 5, 3) (q_of 1 6 4 "RND" "SAT") = ((0, 3, 2), q_of 0 5 3 "RND" "SAT") /\ harmless "SAT" 0 5 3 1 3 2.
Proof.
  split; [|split; [vm_compute; reflexivity|split; [left; reflexivity|split; [|split; [vm_compute; reflexivity|]]]]].
  - split; [|apply Forall_cons; [reflexivity|apply Forall_nil]]. split; [discriminate|]. split; [apply Forall_cons; [unfold legal_fmt; cbn; lia|apply Forall_nil]|]. cbn. auto 10.
  - split; [exists (-7); qvm|]. split; [apply qleb_true; vm_compute; reflexivity|apply qltb_true; vm_compute; reflexivity].
  - split; [right; lia|]. unfold exact_top. lia.
Qed.

(** The cases left out do change the quantizer; [changed] says so for one
    input of the given precision. *)
Definition changed (input : kif) (q : fpq unit) (n : nat) : Prop :=
  exists c c' x y y', nth_error (data (cfgs q)) n = Some c /\ nth_error (data (cfgs (snd (fpq_produced input q)))) n = Some c' /\ legal_fpq q /\
    fits (fst (fst input)) (snd (fst input)) (snd input) x /\
    gfixed_quantizer x (kn c) (bits c) (ints c) (rnd_name q) (sat_name q) = Ok y /\
    gfixed_quantizer x (kn c') (bits c') (ints c') (rnd_name q) (sat_name q) = Ok y' /\ y <> y'.
Ltac legal := split; [discriminate|split; [repeat (apply Forall_cons; [unfold legal_fmt; cbn; lia|]); apply Forall_nil|cbn; auto 10]].
Ltac in_format m := split; [exists m; qvm|split; [apply qleb_true; vm_compute; reflexivity|apply qltb_true; vm_compute; reflexivity]].
Ltac differ c' x y y' m := eexists; exists c', x, y, y'; split; [reflexivity|split; [vm_compute; reflexivity|split; [legal|split; [in_format m|split; [qvm|split; [qvm|intros C; apply (f_equal this) in C; vm_compute in C; discriminate]]]]]].

(** Wrap-around: unsigned data wider than a signed quantizer loses the sign
    bit; 15 becomes -1 before, 7 after. *)
Theorem C46_wrap_unsigned_refuted : exists q input, sat_name q = "WRAP"%string /\ changed input q 0.
Proof. exists (q_of 1 4 4 "TRN" "WRAP"), (0, 5, 0). split; [reflexivity|]. differ (mkCfg 0 3 3) (qz 15) (qz (-1)) (qz 7) 15. Qed.
Print Assumptions C46_wrap_unsigned_refuted.
(** Wrap-around: signed data narrower than an unsigned quantizer. *)
Theorem C46_wrap_signed_refuted : exists q input, sat_name q = "WRAP"%string /\ changed input q 0.
Proof. exists (q_of 0 4 4 "TRN" "WRAP"), (1, 2, 0). split; [reflexivity|]. differ (mkCfg 0 2 2) (qz (-1)) (qz 15) (qz 3) (-1). Qed.
Print Assumptions C46_wrap_signed_refuted.
(** Saturation: the largest value loses fractional bits with the input. *)
Theorem C46_saturation_refuted : exists q input, sat_name q = "SAT"%string /\ changed input q 0.
Proof. exists (q_of 1 6 4 "TRN" "SAT"), (1, 5, 0). split; [reflexivity|]. differ (mkCfg 1 4 4) (qz 20) (Q2Qc (31 # 4)) (qz 7) 20. Qed.
Print Assumptions C46_saturation_refuted.
(** Symmetric saturation: the most negative value of the input is cut. *)
Theorem C46_symmetric_refuted : exists q input, sat_name q = "SAT_SYM"%string /\ changed input q 0.
Proof. exists (q_of 1 6 6 "TRN" "SAT_SYM"), (1, 2, 0). split; [reflexivity|]. differ (mkCfg 1 3 3) (qz (-4)) (qz (-4)) (qz (-3)) (-4). Qed.
Print Assumptions C46_symmetric_refuted.
(** Rounding up to the top: the signed quantizer saturates, the unsigned one
    it is turned into got another integer bit. *)
Theorem C46_top_refuted : exists q input, sat_name q = "SAT"%string /\ changed input q 0.
Proof. exists (q_of 1 4 4 "RND" "SAT"), (0, 3, 1). split; [reflexivity|]. differ (mkCfg 0 4 4) (Q2Qc (15 # 2)) (qz 7) (qz 8) 15. Qed.
Print Assumptions C46_top_refuted.
(** No bits left: 5-bit fractions below 1/8 into a quantizer in steps of 4. *)
Theorem C46_no_bits_refuted : exists q input, changed input q 0.
Proof. exists (q_of 1 2 4 "TRN" "WRAP"), (1, -3, 5). differ (mkCfg 1 (-3) (-1)) (Q2Qc (-1 # 32)) (qz (-4)) (qz 0) (-1). Qed.
Print Assumptions C46_no_bits_refuted.
(** Heterogeneous quantizers: the first element gains fractional bits. *)
Theorem C46_heterogeneous_refuted : exists q input, sat_name q = "WRAP"%string /\ changed input q 0.
Proof.
  exists (mkFPQ (mkT [2%nat] [mkCfg 1 6 6; mkCfg 1 6 1]) "TRN" "WRAP" tt), (1, 3, 3). split; [reflexivity|].
  differ (mkCfg 1 6 4) (Q2Qc (1 # 2)) (qz 0) (Q2Qc (1 # 2)) 4.
Qed.
Print Assumptions C46_heterogeneous_refuted.

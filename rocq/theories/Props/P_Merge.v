(** Result types and their consumers: C47, C48. *)
From Coq Require Import ZArith Qcanon List Bool String Lia.
From Verif Require Import Base.Num Base.NumFacts Base.Tensor Base.Compute Model.FixedPoint Model.Apf Model.Precision Spec.Fixed Spec.Apf Spec.Precision.
From Verif Require Import Proofs.FixedPointP Proofs.FitsP Proofs.PrecisionP Proofs.ReduceP Proofs.ApfP Proofs.MergeP Proofs.ConfigP.
Import ListNotations.
Open Scope Z_scope.

(** Storing y in a hardware type with sign flag k, i integer bits (sign
    excluded), f fractional bits, rounding R and overflow S. *)
Definition store (y : Qc) (t : kif) (R S : string) : result Qc :=
  let '(k, i, f) := t in gfixed_quantizer y k (k + i + f) (k + i) R S.
(** Quantizing y with element c of a quantizer. *)
Definition quantize (y : Qc) (o : fpq unit) (c : qcfg) : result Qc :=
  gfixed_quantizer y (kn c) (bits c) (ints c) (rnd_name o) (sat_name o).

(** ** C47 *)

(** The result type of a layer that is neither an input nor followed by a
    single fusible quantizer: every value of the layer's precision, stored in
    that type, is quantized by every directly following truncating or rounding
    quantizer (heterogeneous or not) as if it had not been stored.  Excluded:
    types without bits, and values wider than what is requested unless the
    quantizer wraps around within the range of the type. *)
Theorem C47_result_type : forall fuel net n s k i f R V s' k0 i0 f0 k1 i1 f1 m q ps o c y z,
  result_kifRS (S fuel) net n s = Ok (((k, i, f), R, V), s') ->
  fusible_result net n s = Ok None -> (forall ps, nth_error net n <> Some (NInput, ps)) ->
  produced (S fuel) net n s = Ok ((k0, i0, f0), s') -> requested (S fuel) net n s' = Ok (k1, i1, f1) ->
  In m (out_layers net n) -> nth_error net m = Some (NFpq q, ps) -> nth_error s' q = Some o ->
  legal_fpq o -> In c (data (cfgs o)) -> (rnd_name o = "TRN" \/ rnd_name o = "RND")%string ->
  (k0 = 0 \/ k0 = 1) -> fits k0 i0 f0 y -> 0 <= i + f ->
  (i0 <= i1 \/ (sat_name o = "WRAP"%string /\ (k0 = 1 \/ kn c = 0 \/ ints c - kn c < i1))) ->
  store y (k, i, f) R V = Ok z -> quantize z o c = quantize y o c.
Proof.
  intros fuel net n s k i f R V s' k0 i0 f0 k1 i1 f1 m q ps o c y z HR HF HN HP HQ Hm Em Eo LQ Hc TR Hk Fy HW Cond Ez.
  destruct (result_merged _ _ _ _ _ _ _ _ _ _ _ _ HR HF HN HP HQ) as [EM [-> ->]].
  destruct (requested_ge fuel net n s' k1 i1 f1 m q ps o HQ Hm Em Eo) as [Ri Rf].
  exact (merge_transparent k0 i0 f0 k1 i1 f1 k i f o c y z LQ Hc TR Hk Fy Ri Rf EM HW Cond Ez).
Qed.
Print Assumptions C47_result_type.
(** A quantized input, an addition (8 integer, 6 fractional bits available),
    read by two quantizers: the addition's result type keeps 4 integer and 2
    fractional bits. *)
Definition mnet : pnet := [(NInput, []); (NFpq 0, [0%nat]); (NAdd, [1%nat; 1%nat]); (NFpq 1, [2%nat]); (NFpq 2, [2%nat])].
Definition q_of (k b i : Z) (R S : string) : fpq unit := mkFPQ (mkT [1%nat] [mkCfg k b i]) R S tt.
Definition mst : pst := [q_of 1 14 8 "RND" "SAT"; q_of 1 6 5 "RND" "WRAP"; q_of 1 5 4 "TRN" "WRAP"].
Example C47_result_type_ex : 
  result_kifRS 4 mnet 2 mst = Ok (((1, 4, 2), "TRN"%string, "WRAP"%string), mst) /\ fusible_result mnet 2 mst = Ok None /\
  produced 4 mnet 2 mst = Ok ((1, 8, 6), mst) /\ requested 4 mnet 2 mst = Ok (1, 4, 2) /\ out_layers mnet 2 = [3; 4]%nat /\
  fits 1 8 6 (Q2Qc (1239 # 64)) /\ store (Q2Qc (1239 # 64)) (1, 4, 2) "TRN" "WRAP" = Ok (Q2Qc (-51 # 4)) /\
  quantize (Q2Qc (-51 # 4)) (q_of 1 6 5 "RND" "WRAP") (mkCfg 1 6 5) = Ok (Q2Qc (-25 # 2)).
Proof.
  split; [vm_compute; reflexivity|]. split; [vm_compute; reflexivity|]. split; [vm_compute; reflexivity|]. split; [vm_compute; reflexivity|]. split; [vm_compute; reflexivity|].
  split; [split; [exists 1239; qvm|split; [apply qleb_true; vm_compute; reflexivity|apply qltb_true; vm_compute; reflexivity]]|]. split; qvm.
Qed.

(** When no fractional bit is dropped and nothing overflows, storing is exact,
    whatever the quantizer. *)
Theorem C47_exact : forall k0 i0 f0 k1 i1 f1 k i f y, (k0 = 0 \/ k0 = 1) -> 0 <= i0 + f0 -> fits k0 i0 f0 y -> i0 <= i1 -> f0 <= f1 ->
  merge_precision (k0, i0, f0) (k1, i1, f1) = (k, i, f) -> store y (k, i, f) "TRN" "WRAP" = Ok y.
Proof. exact merge_exact. Qed.
Print Assumptions C47_exact.
Example C47_exact_ex : merge_precision (1, 2, 3) (0, 4, 5) = (1, 2, 3) /\ fits 1 2 3 (Q2Qc (-31 # 8)).
Proof. split; [reflexivity|]. split; [exists (-31); qvm|split; [apply qleb_true; vm_compute; reflexivity|apply qltb_true; vm_compute; reflexivity]]. Qed.

(** The type of an input layer: whatever is fed, storing it first does not
    change the result of the truncating and rounding quantizers reading it. *)
Theorem C47_input : forall net n s k i f R S m q ps o c y z,
  derived_result net n s = Ok ((k, i, f), R, S) -> (k = 0 \/ k = 1) -> In m (out_layers net n) -> nth_error net m = Some (NFpq q, ps) -> nth_error s q = Some o ->
  legal_fpq o -> In c (data (cfgs o)) -> (rnd_name o = "TRN" \/ rnd_name o = "RND")%string -> (S = "WRAP" \/ S = "SAT" \/ S = "SAT_SYM")%string ->
  store y (k, i, f) R S = Ok z -> quantize z o c = quantize y o c.
Proof. exact input_transparent. Qed.
Print Assumptions C47_input.
Definition inet : pnet := [(NInput, []); (NFpq 0, [0%nat]); (NFpq 1, [0%nat])].
Definition ist : pst := [mkFPQ (mkT [2%nat] [mkCfg 1 6 3; mkCfg 1 4 4]) "RND" "SAT" tt; q_of 1 8 2 "TRN" "SAT"].
Example C47_input_ex : derived_result inet 0 ist = Ok ((1, 3, 6), "TRN"%string, "SAT"%string) /\ out_layers inet 0 = [1; 2]%nat /\
  store (Q2Qc (1000 # 3)) (1, 3, 6) "TRN" "SAT" = Ok (Q2Qc (511 # 64)) /\ quantize (Q2Qc (511 # 64)) (q_of 1 8 2 "TRN" "SAT") (mkCfg 1 8 2) = Ok (Q2Qc (127 # 64)).
Proof. split; [vm_compute; reflexivity|]. split; [vm_compute; reflexivity|]. split; qvm. Qed.

(** Failures: [spoiled] exhibits a value of the available precision that is
    quantized differently once stored in the merged precision. *)
Definition spoiled (avail : kif) (o : fpq unit) : Prop :=
  exists c y z u v, data (cfgs o) = [c] /\ legal_fpq o /\ fits (fst (fst avail)) (snd (fst avail)) (snd avail) y /\
    store y (merge_precision avail (fpq_request o)) "TRN" "WRAP" = Ok z /\ quantize y o c = Ok u /\ quantize z o c = Ok v /\ u <> v.
Ltac legal := split; [discriminate|split; [repeat (apply Forall_cons; [unfold legal_fmt; cbn; lia|]); apply Forall_nil|cbn; auto 10]].
Ltac in_format m := split; [exists m; qvm|split; [apply qleb_true; vm_compute; reflexivity|apply qltb_true; vm_compute; reflexivity]].
Ltac spoil y z u v m := eexists; exists y, z, u, v; split; [reflexivity|split; [legal|split; [in_format m|split; [qvm|split; [qvm|split; [qvm|intros C; apply (f_equal this) in C; vm_compute in C; discriminate]]]]]].
(** An unsigned value wider than a signed request. *)
Theorem C47_unsigned_refuted : exists o, rnd_name o = "TRN"%string /\ sat_name o = "WRAP"%string /\ spoiled (0, 3, 0) o.
Proof. exists (q_of 1 3 3 "TRN" "WRAP"). split; [reflexivity|split; [reflexivity|]]. spoil (qz 4) (qz 0) (qz (-4)) (qz 0) 4. Qed.
Print Assumptions C47_unsigned_refuted.
(** No bits left. *)
Theorem C47_no_bits_refuted : exists o avail, rnd_name o = "TRN"%string /\ spoiled avail o.
Proof. exists (q_of 1 3 3 "TRN" "WRAP"), (1, -3, 5). split; [reflexivity|]. spoil (Q2Qc (-1 # 32)) (qz 0) (qz (-1)) (qz 0) (-1). Qed.
Print Assumptions C47_no_bits_refuted.
(** Two guard bits are not enough for the other rounding modes. *)
Theorem C47_other_rounding_refuted : forall R, In R ["RND_CONV"; "RND_ZERO"; "RND_MIN_INF"; "RND_INF"; "TRN_ZERO"]%string ->
  exists o avail, rnd_name o = R /\ spoiled avail o.
Proof.
  intros R [<-|[<-|[<-|[<-|[<-|[]]]]]].
  - exists (q_of 1 4 4 "RND_CONV" "WRAP"), (1, 3, 3). split; [reflexivity|]. spoil (Q2Qc (5 # 8)) (Q2Qc (1 # 2)) (qz 1) (qz 0) 5.
  - exists (q_of 1 4 4 "RND_ZERO" "WRAP"), (1, 3, 3). split; [reflexivity|]. spoil (Q2Qc (5 # 8)) (Q2Qc (1 # 2)) (qz 1) (qz 0) 5.
  - exists (q_of 1 4 4 "RND_MIN_INF" "WRAP"), (1, 3, 3). split; [reflexivity|]. spoil (Q2Qc (5 # 8)) (Q2Qc (1 # 2)) (qz 1) (qz 0) 5.
  - exists (q_of 1 4 4 "RND_INF" "WRAP"), (1, 3, 3). split; [reflexivity|]. spoil (Q2Qc (-3 # 8)) (Q2Qc (-1 # 2)) (qz 0) (qz (-1)) (-3).
  - exists (q_of 1 4 4 "TRN_ZERO" "WRAP"), (1, 3, 3). split; [reflexivity|]. spoil (Q2Qc (-7 # 8)) (qz (-1)) (qz 0) (qz (-1)) (-7).
Qed.
Print Assumptions C47_other_rounding_refuted.
(** An input layer before SAT_ZERO: a value rounding up into the range is
    zeroed by the input type. *)
Theorem C47_input_sat_zero_refuted : exists net s k i f y z u v o c, derived_result net 0 s = Ok ((k, i, f), "TRN", "SAT_ZERO")%string /\
  nth_error net 1 = Some (NFpq 0, [0%nat]) /\ nth_error s 0 = Some o /\ legal_fpq o /\ data (cfgs o) = [c] /\ rnd_name o = "RND"%string /\
  store y (k, i, f) "TRN" "SAT_ZERO" = Ok z /\ quantize y o c = Ok u /\ quantize z o c = Ok v /\ u <> v.
Proof.
  exists [(NInput, []); (NFpq 0, [0%nat])], [q_of 1 3 3 "RND" "SAT_ZERO"], 1, 2, 1, (Q2Qc (-17 # 4)), (qz 0), (qz (-4)), (qz 0), (q_of 1 3 3 "RND" "SAT_ZERO"), (mkCfg 1 3 3).
  split; [vm_compute; reflexivity|]. split; [reflexivity|]. split; [reflexivity|]. split; [legal|]. split; [reflexivity|]. split; [reflexivity|]. split; [qvm|]. split; [qvm|]. split; [qvm|].
  intros C; apply (f_equal this) in C; vm_compute in C; discriminate.
Qed.
Print Assumptions C47_input_sat_zero_refuted.

(** ** C48 *)

(** A configuration is returned only if every type in it is a well-formed type
    of at most 64 bits, not counting the sign. *)
Theorem C48_width : forall fuel net n s offset types size s', layer_config fuel net n s offset = Ok ((types, size), s') ->
  forall name t, In (name, t) types -> exists u b i, type_string t u b i /\ b <= 64 + (if u then 0 else 1).
Proof. exact config_width. Qed.
Print Assumptions C48_width.
Example C48_width_ex : exists s', layer_config 6 mnet 2 mst None = Ok (([("result_t", "fixed<7,5,TRN,WRAP>")], None), s')%string.
Proof. exists mst. vm_compute. reflexivity. Qed.
(** Conversely, a layer whose result type needs more is rejected. *)
Theorem C48_rejected : forall fuel net n s offset k i f R S s', result_kifRS fuel net n s = Ok (((k, i, f), R, S), s') -> 
  (k = 0 \/ k = 1) -> all_chars word_char R -> all_chars word_char S -> 64 < i + f -> layer_config fuel net n s offset = Raise.
Proof. exact config_rejects. Qed.
Print Assumptions C48_rejected.
(** In particular unquantized data: an input flowing through a layer that
    nothing quantizes. *)
Example C48_rejected_ex : let net := [(NInput, []); (NReshape, [0%nat]); (NSelect, [1%nat])] in
  result_kifRS 5 net 1 [] = Ok (((1, 65535, 65535), "TRN"%string, "WRAP"%string), []) /\ layer_config 5 net 1 [] None = Raise.
Proof.
  cbv zeta. assert (E : result_kifRS 5 [(NInput, []); (NReshape, [0%nat]); (NSelect, [1%nat])] 1 [] = Ok (((1, 65535, 65535), "TRN"%string, "WRAP"%string), [])) by (vm_compute; reflexivity).
  split; [exact E|]. eapply C48_rejected; [exact E|auto|cbn; repeat split; unfold word_char; cbn; lia..|lia].
Qed.

(** The limit is not 64 bits in total: a signed type of 65 bits passes. *)
Theorem C48_65_bits_refuted : exists fuel net n s t s' b i, layer_config fuel net n s None = Ok (([("result_t"%string, t)], None), s') /\ type_string t false b i /\ b = 65.
Proof.
  exists 5%nat, [(NInput, []); (NFpq 0, [0%nat]); (NSelect, [1%nat])], 2%nat, [q_of 1 65 33 "RND" "SAT"], "fixed<65,33,TRN,WRAP>"%string, [q_of 1 65 33 "RND" "SAT"], 65, 33.
  split; [vm_compute; reflexivity|]. split; [|reflexivity]. apply match_sound. vm_compute. reflexivity.
Qed.
Print Assumptions C48_65_bits_refuted.

(** Accumulators of layers whose results wrap around have the result's integer
    bits; an accumulated value wraps there without changing the result
    (truncation, rounding, or no fractional bits lost at all). *)
Theorem C48_accumulator : forall fuel net n s kernel div bias ps types size s' k i f R s1 pk pi pf s2,
  nth_error net n = Some (NKernel kernel div bias, ps) -> layer_config fuel net n s None = Ok ((types, size), s') ->
  result_kifRS fuel net n s = Ok (((k, i, f), R, "WRAP"%string), s1) -> produced fuel net n s1 = Ok ((pk, pi, pf), s2) ->
  (k = 0 \/ k = 1) -> 0 <= i + f -> 0 <= i + pf -> 1 <= k + i + pf ->
  exists a, In ("accum_t"%string, a) types /\ In ("bias_t"%string, a) types /\ apf_to_tuple a = Ok (k, i, pf) /\
    forall y z, on_grid pf y -> R = "TRN"%string \/ R = "RND"%string \/ (pf <= f /\ In R rounding_names) ->
      store y (k, i, pf) "TRN" "WRAP" = Ok z -> store z (k, i, f) R "WRAP" = store y (k, i, f) R "WRAP".
Proof. exact accumulator_wraps. Qed.
Print Assumptions C48_accumulator.
(** 7/2 * 3 + 8 = 37/2 in an accumulator of range [-4, 4). *)
Definition anet : pnet := [(NInput, []); (NFpq 0, [0%nat]); (NKernel [qz 3; qz 2; qz (-1); qz 1] 2 None, [1%nat]); (NFpq 1, [2%nat])].
Definition ast : pst := [q_of 1 5 4 "RND" "SAT"; q_of 1 3 3 "RND" "WRAP"].
Example C48_accumulator_ex :
  layer_config 6 anet 2 ast None = Ok (([("weight_t", "fixed<3,3>"); ("accum_t", "fixed<4,3>"); ("result_t", "fixed<3,3,RND,WRAP>"); ("bias_t", "fixed<4,3>")], None), ast)%string /\
  result_kifRS 6 anet 2 ast = Ok (((1, 2, 0), "RND"%string, "WRAP"%string), ast) /\ produced 6 anet 2 ast = Ok ((1, 6, 1), ast) /\
  store (Q2Qc (37 # 2)) (1, 2, 1) "TRN" "WRAP" = Ok (Q2Qc (5 # 2)) /\ store (Q2Qc (5 # 2)) (1, 2, 0) "RND" "WRAP" = Ok (qz 3).
Proof. split; [vm_compute; reflexivity|]. split; [vm_compute; reflexivity|]. split; [vm_compute; reflexivity|]. split; qvm. Qed.
(** With saturating results the accumulator has the full produced precision. *)
Theorem C48_accumulator_full : forall fuel net n s kernel div bias ps types size s' k i f R S s1 pk pi pf s2,
  nth_error net n = Some (NKernel kernel div bias, ps) -> layer_config fuel net n s None = Ok ((types, size), s') ->
  result_kifRS fuel net n s = Ok (((k, i, f), R, S), s1) -> S <> "WRAP"%string -> produced fuel net n s1 = Ok ((pk, pi, pf), s2) ->
  (pk = 0 \/ pk = 1) -> 1 <= pk + pi + pf ->
  exists a, In ("accum_t"%string, a) types /\ apf_to_tuple a = Ok (pk, pi, pf).
Proof. exact accumulator_full. Qed.
Print Assumptions C48_accumulator_full.

(** Proxy networks with lookup tables: C70. *)
From Coq Require Import ZArith Qcanon List Bool String Lia.
From Verif Require Import Base.Num Base.NumFacts Base.Tensor Base.Compute Model.FixedPoint Model.Precision Model.Lut Spec.Fixed Spec.Precision Spec.NetEval.
From Verif Require Import Proofs.FixedPointP Proofs.PrecisionP Proofs.SoundP Proofs.IdemP Proofs.NetEvalP Proofs.TablesP Props.P_Lut.
Import ListNotations.
Open Scope Z_scope.

(** Every element of every tensor the network computes, on any input, is a
    number of the precision derived for the layer. *)
Theorem C70_tensors_fit : forall fuel net s geo feed opaque out n x k i f,
  all_fine net s -> (forall n t ps, nth_error net n <> Some (NLut t, ps)) -> honest net feed opaque ->
  run s geo feed opaque (fun _ => None) net [] = Ok out -> nth_error out n = Some x ->
  produced fuel net n s = Ok ((k, i, f), s) -> Forall (fits k i f) x.
Proof.
  intros fuel net s geo feed opaque out n x k i f AF NL H R E P.
  pose proof (run_value s geo feed opaque (fun _ => None) net H NL net [] [] out eq_refl eq_refl ltac:(intros [|m] y Y; discriminate) R n x E) as V.
  destruct (produced_sound fuel net s AF n (k, i, f) P) as [_ F]. cbn [fst snd] in F. apply Forall_forall. intros y I. apply F. apply (proj1 (Forall_forall _ _) V y I).
Qed.
Print Assumptions C70_tensors_fit.

(** Asking for lookup tables does not change what the network computes: if the
    derivation has no quantizer to shrink, and the layers that get a table are
    read by suitable layers, then on every input every other layer outputs the
    same tensor with and without tables; whatever the order of conversion and
    the limits. *)
Theorem C70_same_outputs : forall limit hls fuel net mx order s tabs geo feed opaque out,
  all_fine net s -> (forall n t ps, nth_error net n <> Some (NLut t, ps)) -> honest net feed opaque ->
  lut_pass limit hls (S fuel) net mx order s = Ok (tabs, s) ->
  (forall n l, In (n, l) tabs -> good_readers (S fuel) net s n) ->
  run s geo feed opaque (fun _ => None) net [] = Ok out ->
  exists out', run s geo feed opaque (table_of tabs) (with_tables net (table_of tabs)) [] = Ok out' /\ List.length out' = List.length out /\
    forall n, table_of tabs n = None -> nth_error out' n = nth_error out n.
Proof.
  intros limit hls fuel net mx order s tabs geo feed opaque out AF NL H P Q R.
  apply (run_tables s geo feed opaque (table_of tabs) net H NL); [|exact R]. intros n l T. apply table_of_in in T.
  destruct (pass_tables _ _ _ _ _ _ _ _ P n l T) as [_ X]. apply (replaced_ok limit hls fuel net n s mx l AF (Q n l T) X).
Qed.
Print Assumptions C70_same_outputs.
(** The network of C49: an input of two elements, a quantizer, the square, a
    quantizer. *)
Definition tgeo (n : nat) : list recipe := match n with 1%nat | 3%nat => [mkR [Some (0%nat, 0%nat)] 0 []; mkR [Some (0%nat, 1%nat)] 0 []] | _ => [] end.
Definition tfeed (n : nat) : list Qc := match n with O => [Q2Qc (-5 # 4); Q2Qc (7 # 8)] | _ => [] end.
Lemma small_float m j : 0 <= j <= 65535 -> Z.abs m < 2 ^ 100 -> float_value (qz m * pow2 (- j))%Qc.
Proof.
  intros J M. split; [exists (m * 2 ^ (65535 - j)); rewrite qz_mul, <- pow2_Z by lia; rewrite <- Qcmult_assoc, <- pow2_add; do 2 f_equal; f_equal; lia|].
  assert (B : (pow2 100 <= pow2 65535)%Qc) by (apply pow2_le; lia).
  assert (P : (pow2 (- j) <= 1)%Qc) by (change 1%Qc with (pow2 0); apply pow2_le; lia). pose proof (pow2_pos (- j)) as P0.
  assert (U : (qz m < pow2 100)%Qc) by (rewrite pow2_Z by lia; apply qz_lt; lia). assert (L : (- pow2 100 < qz m)%Qc) by (rewrite pow2_Z by lia; rewrite <- qz_opp; apply qz_lt; lia).
  pose proof (pow2_pos 100) as P1.
  assert (A1 : (qz m * pow2 (- j) < pow2 100)%Qc).
  { apply Qclt_le_trans with (pow2 100 * pow2 (- j))%Qc; [apply qmul_lt_r; assumption|]. replace (pow2 100) with (pow2 100 * 1)%Qc at 2 by ring. rewrite (Qcmult_comm (pow2 100)), (Qcmult_comm (pow2 100)). apply qmul_le_r; [qlra|exact P]. }
  assert (A2 : (- pow2 100 < qz m * pow2 (- j))%Qc).
  { apply Qcle_lt_trans with (- pow2 100 * pow2 (- j))%Qc; [|apply qmul_lt_r; assumption]. assert (X : (pow2 (- j) * pow2 100 <= 1 * pow2 100)%Qc) by (apply qmul_le_r; [qlra|exact P]).
    replace (- pow2 100 * pow2 (- j))%Qc with (- (pow2 (- j) * pow2 100))%Qc by ring. generalize dependent (pow2 (- j) * pow2 100)%Qc. intros g. intros. qlra. }
  change (qz 1) with 1%Qc. generalize dependent (pow2 65535). intros g B. generalize dependent (pow2 100). intros h. intros. split; qlra.
Qed.
Example C70_same_outputs_ex : exists tabs out, lut_pass 4096 65536 4 lnet 64 [1; 2; 3]%nat lst_ = Ok (tabs, lst_) /\ map fst tabs = [2%nat] /\
  (forall n l, In (n, l) tabs -> good_readers 4 lnet lst_ n) /\ honest lnet tfeed (fun _ _ => []) /\
  run lst_ tgeo tfeed (fun _ _ => []) (fun _ => None) lnet [] = Ok out /\
  map (map this) out = map (map this) [[Q2Qc (-5 # 4); Q2Qc (7 # 8)]; [Q2Qc (-5 # 4); qz 1]; [Q2Qc (25 # 16); qz 1]; [Q2Qc (3 # 2); qz 1]].
Proof.
  destruct (lut_pass 4096 65536 4 lnet 64 [1; 2; 3]%nat lst_) as [[tabs s]|] eqn:E; vm_compute in E; [|discriminate].
  assert (T := f_equal (fun x => match x with Ok y => fst y | Raise => [] end) E). cbn [fst] in T. assert (s = lst_) as ->.
  { assert (X := f_equal (fun x => match x with Ok y => snd y | Raise => [] end) E). cbn [snd] in X. rewrite <- X. vm_compute. reflexivity. }
  destruct (run lst_ tgeo tfeed (fun _ _ => []) (fun _ => None) lnet []) as [out|] eqn:R.
  - exists tabs, out. split; [reflexivity|]. split; [rewrite <- T; reflexivity|]. split.
    + intros n l I. rewrite <- T in I. destruct I as [I|[]]. assert (n = 2%nat) by congruence. subst n. split.
      * intros p k i f [kd En] P. cbn in En. assert (p = 1%nat) by congruence. subst p.
        assert (P' : produced 4 lnet 1 lst_ = Ok ((1, 1, 2), lst_)) by (vm_compute; reflexivity). rewrite P' in P. assert (f = 2) by congruence. lia.
      * right. left. exists 3%nat, 1%nat, (lfpq 0 4 2 "RND" "WRAP"). split; [reflexivity|]. split; [reflexivity|]. split; [reflexivity|]. split; [|vm_compute; reflexivity].
        unfold legal_fpq, legal_fmt. cbn. repeat split; try discriminate; auto 10. constructor; [|constructor]. cbn. lia.
    + split; [|split; [reflexivity|]].
      * split; [|split].
        -- intros [|n]; cbn; [|constructor]. constructor; [|constructor; [|constructor]].
           ++ replace (Q2Qc (-5 # 4)) with (qz (-5) * pow2 (- (2)))%Qc by qvm. apply small_float; lia.
           ++ replace (Q2Qc (7 # 8)) with (qz 7 * pow2 (- (3)))%Qc by qvm. apply small_float; lia.
        -- intros. constructor.
        -- intros. constructor.
      * assert (X := f_equal (fun x => match x with Ok y => map (map this) y | Raise => [] end) R). cbv beta iota in X. rewrite <- X. vm_compute. reflexivity.
  - exfalso. assert (X := f_equal (fun x => match x with Ok _ => true | Raise => false end) R). vm_compute in X. discriminate.
Qed.
Lemma lnet_honest : honest lnet tfeed (fun _ _ => []).
Proof. destruct C70_same_outputs_ex as (tabs & out & _ & _ & _ & H & _). exact H. Qed.
Example C70_tensors_fit_ex : exists out x, all_fine lnet lst_ /\ honest lnet tfeed (fun _ _ => []) /\
  run lst_ tgeo tfeed (fun _ _ => []) (fun _ => None) lnet [] = Ok out /\ nth_error out 1 = Some x /\
  produced 4 lnet 1 lst_ = Ok ((1, 1, 2), lst_) /\ map this x = map this [Q2Qc (-5 # 4); qz 1] /\ Forall (fits 1 1 2) x.
Proof.
  destruct C49_in_network_ex as (_ & _ & P & _ & AF). destruct C70_same_outputs_ex as (tabs & out & _ & _ & _ & H & R & E).
  destruct out as [|y0 [|y1 out]]; [discriminate|discriminate|]. exists (y0 :: y1 :: out), y1. split; [exact AF|]. split; [exact H|]. split; [exact R|]. split; [reflexivity|]. split; [exact P|].
  split; [exact (f_equal (fun z => nth 1 z []) E)|]. apply (C70_tensors_fit 4 lnet lst_ tgeo tfeed (fun _ _ => []) (y0 :: y1 :: out) 1 y1 1 1 2 AF); [|exact H|exact R|reflexivity|exact P].
  intros [|[|[|[|n]]]] t ps; cbn; try discriminate. destruct n; discriminate.
Qed.
(** A layer read by two quantizers. *)
Definition mnet : pnet := [(NInput, []); (NFpq 0, [0%nat]); (NAct AFun square, [1%nat]); (NFpq 1, [2%nat]); (NFpq 2, [2%nat])].
Definition mst : pst := [lfpq 1 4 2 "RND" "SAT"; lfpq 0 4 2 "RND" "WRAP"; lfpq 0 2 3 "TRN" "SAT"].
Example C70_mild_ex : exists l, lut_pass 4096 65536 4 mnet 64 [2]%nat mst = Ok ([(2%nat, l)], mst) /\ good_readers 4 mnet mst 2.
Proof.
  destruct (lut_pass 4096 65536 4 mnet 64 [2]%nat mst) as [[tabs s]|] eqn:E; vm_compute in E; [|discriminate].
  assert (T := f_equal (fun x => match x with Ok y => fst y | Raise => [] end) E). cbn [fst] in T. assert (s = mst) as ->.
  { assert (X := f_equal (fun x => match x with Ok y => snd y | Raise => [] end) E). cbn [snd] in X. rewrite <- X. vm_compute. reflexivity. }
  rewrite <- T. eexists. split; [reflexivity|]. split.
  - intros p k i f [kd En] P. cbn in En. assert (p = 1%nat) by congruence. subst p.
    assert (P' : produced 4 mnet 1 mst = Ok ((1, 1, 2), mst)) by (vm_compute; reflexivity). rewrite P' in P. assert (f = 2) by congruence. lia.
  - right. right. split; [vm_compute; reflexivity|].
    exists 0, 3, 4, 0, 65535, 3, 0, 4, 3. split; [vm_compute; reflexivity|]. split; [vm_compute; reflexivity|]. split; [vm_compute; reflexivity|]. split; [lia|].
    assert (L : forall k b i R V, legal_fmt (mkCfg k b i) -> (R = "TRN" \/ R = "RND")%string -> (V = "SAT" \/ V = "WRAP")%string -> legal_fpq (lfpq k b i R V)).
    { intros k b i R V F HR HV. unfold legal_fpq, lfpq. cbn. repeat split; try discriminate; [constructor; [exact F|constructor]|destruct HR as [->| ->]; auto 10|destruct HV as [->| ->]; auto 10]. }
    intros [|[|[|[|[|m]]]]] kd ps Em I; cbn in Em; try (destruct m; discriminate Em); inversion Em; subst; try (destruct I as [I|[]]; discriminate I); try (exfalso; destruct I; fail); (split; [reflexivity|]).
    + exists 1%nat. split; [reflexivity|]. intros o Eo. cbn in Eo. inversion Eo; subst. split; [apply L; [unfold legal_fmt; cbn; lia|auto|auto]|]. split; [cbn; auto|]. intros. left. lia.
    + exists 2%nat. split; [reflexivity|]. intros o Eo. cbn in Eo. inversion Eo; subst. split; [apply L; [unfold legal_fmt; cbn; lia|auto|auto]|]. split; [cbn; auto|]. intros. left. lia.
Qed.

(** The square read by a reshape, then by a quantizer: the reshape asks for
    everything, the table is exact. *)
Definition dnet : pnet := [(NInput, []); (NFpq 0, [0%nat]); (NAct AFun square, [1%nat]); (NReshape, [2%nat])].
Example C70_demanding_ex : (exists l, lut_pass 4096 65536 4 dnet 64 [2]%nat lst_ = Ok ([(2%nat, l)], lst_)) /\ good_readers 4 dnet lst_ 2.
Proof.
  split.
  - destruct (lut_pass 4096 65536 4 dnet 64 [2]%nat lst_) as [[tabs s]|] eqn:E; vm_compute in E; [|discriminate].
    assert (T := f_equal (fun x => match x with Ok y => fst y | Raise => [] end) E). cbn [fst] in T. assert (s = lst_) as ->.
    { assert (X := f_equal (fun x => match x with Ok y => snd y | Raise => [] end) E). cbn [snd] in X. rewrite <- X. vm_compute. reflexivity. }
    rewrite <- T. eexists. reflexivity.
  - split.
    + intros p k i f [kd En] P. cbn in En. assert (p = 1%nat) by congruence. subst p.
      assert (P' : produced 4 dnet 1 lst_ = Ok ((1, 1, 2), lst_)) by (vm_compute; reflexivity). rewrite P' in P. assert (f = 2) by congruence. lia.
    + left. split; [vm_compute; reflexivity|]. exists 0, 3, 4, 1, 65535, 65535. split; [vm_compute; reflexivity|]. split; [vm_compute; reflexivity|]. lia.
Qed.

(** A layer whose values are not numbers of the derived precision, read by
    something other than a quantizer: the table rounds, the outputs change. *)
Definition third (x : Qc) : Qc := (x / qz 3)%Qc.
Definition rnet : pnet := [(NInput, []); (NFpq 0, [0%nat]); (NAct AFun third, [1%nat]); (NReshape, [2%nat])].
Theorem C70_unquantized_refuted : exists tabs out out' x y,
  lut_pass 4096 65536 4 rnet 64 [1; 2; 3]%nat lst_ = Ok (tabs, lst_) /\
  run lst_ tgeo tfeed (fun _ _ => []) (fun _ => None) rnet [] = Ok out /\
  run lst_ tgeo tfeed (fun _ _ => []) (table_of tabs) (with_tables rnet (table_of tabs)) [] = Ok out' /\
  table_of tabs 3 = None /\ nth_error out 3 = Some x /\ nth_error out' 3 = Some y /\ x <> y.
Proof.
  destruct (lut_pass 4096 65536 4 rnet 64 [1; 2; 3]%nat lst_) as [[tabs s]|] eqn:E; vm_compute in E; [|discriminate].
  assert (T := f_equal (fun x => match x with Ok y => fst y | Raise => [] end) E). cbn [fst] in T. assert (s = lst_) as ->.
  { assert (X := f_equal (fun x => match x with Ok y => snd y | Raise => [] end) E). cbn [snd] in X. rewrite <- X. vm_compute. reflexivity. }
  destruct (run lst_ tgeo tfeed (fun _ _ => []) (fun _ => None) rnet []) as [out|] eqn:R1; [|exfalso; assert (X := f_equal (fun x => match x with Ok _ => true | Raise => false end) R1); vm_compute in X; discriminate].
  rewrite <- T. clear E T. match goal with |- context [Ok (?t, lst_)] => destruct (run lst_ tgeo tfeed (fun _ _ => []) (table_of t) (with_tables rnet (table_of t)) []) as [out'|] eqn:R2 end;
    [|exfalso; assert (X := f_equal (fun x => match x with Ok _ => true | Raise => false end) R2); vm_compute in X; discriminate].
  eexists. exists out, out', (nth 3 out []), (nth 3 out' []). split; [reflexivity|]. split; [reflexivity|]. split; [exact R2|]. split; [reflexivity|].
  assert (X1 := f_equal (fun x => match x with Ok y => map (map this) y | Raise => [] end) R1). vm_compute in X1.
  assert (X2 := f_equal (fun x => match x with Ok y => map (map this) y | Raise => [] end) R2). vm_compute in X2.
  destruct out as [|a [|b [|c [|d out]]]]; try discriminate. destruct out' as [|a' [|b' [|c' [|d' out']]]]; try discriminate. split; [reflexivity|]. split; [reflexivity|]. cbn.
  intros ->. cbn in X1, X2. inversion X1. inversion X2. congruence.
Qed.
Print Assumptions C70_unquantized_refuted.

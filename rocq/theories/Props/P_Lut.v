(** Lookup tables for activations: C49, C50. *)
From Coq Require Import ZArith Qcanon List Bool String Lia.
From Verif Require Import Base.Num Base.NumFacts Base.Tensor Base.Compute Model.FixedPoint Model.Precision Model.Lut Spec.Fixed Spec.Precision.
From Verif Require Import Proofs.FixedPointP Proofs.FixedPointLayerP Proofs.FitsP Proofs.PrecisionP Proofs.SoundP Proofs.IdemP Proofs.LutP.
Import ListNotations.
Open Scope Z_scope.

(** ** C49 *)

(** On every value of the input format, the table returns the activation's
    value in the output format.  (2.**-f is a float64 only up to f = 1074.) *)
Theorem C49_representable : forall limit hls func k i f ko io fo R V l x,
  from_activation limit hls func (k, i, f) ((ko, io, fo), R, V) = Ok l -> (k = 0 \/ k = 1) -> f <= 1074 -> fits k i f x ->
  lut_call l x = gfixed_quantizer (func x) ko (ko + io + fo) (ko + io) R V.
Proof. exact lut_exact. Qed.
Print Assumptions C49_representable.
Definition square (x : Qc) : Qc := (x * x)%Qc.
Example C49_representable_ex : exists l, from_activation 4096 65536 square (1, 1, 2) ((0, 1, 3), "TRN"%string, "SAT"%string) = Ok l /\
  List.length (lut_table l) = 16%nat /\ fits 1 1 2 (Q2Qc (-5 # 4)) /\ lut_call l (Q2Qc (-5 # 4)) = Ok (Q2Qc (3 # 2)).
Proof.
  eexists. split; [vm_compute; reflexivity|]. split; [reflexivity|]. split; [|vm_compute; reflexivity].
  split; [exists (-5); qvm|]. split; [apply qleb_true|apply qltb_true]; vm_compute; reflexivity.
Qed.

(** Any other input is rounded to the nearest multiple of 2^-f (ties to even)
    and brought into the input range by a multiple of 2^(k+i). *)
Theorem C49_wraps : forall limit hls func k i f ko io fo R V l x,
  from_activation limit hls func (k, i, f) ((ko, io, fo), R, V) = Ok l -> (k = 0 \/ k = 1) -> f <= 1074 ->
  exists v m t, rounds_to "RND_CONV" (x * pow2 f)%Qc m /\ v = (qz m * pow2 (- f) + qz t * pow2 (k + i))%Qc /\ fits k i f v /\
    lut_call l x = gfixed_quantizer (func v) ko (ko + io + fo) (ko + io) R V.
Proof. exact lut_wraps. Qed.
Print Assumptions C49_wraps.
Example C49_wraps_ex : exists l, from_activation 4096 65536 square (1, 1, 2) ((0, 1, 3), "TRN"%string, "SAT"%string) = Ok l /\
  lut_call l (Q2Qc (57 # 20)) = Ok (Q2Qc (3 # 2)) (* 2.85 -> 2.75 -> -1.25 *).
Proof. eexists. split; [vm_compute; reflexivity|]. vm_compute. reflexivity. Qed.

(** Every entry of the table belongs to the declared output format. *)
Theorem C49_output_format : forall limit hls func k i f ko io fo R V l,
  from_activation limit hls func (k, i, f) ((ko, io, fo), R, V) = Ok l -> (k = 0 \/ k = 1) -> (ko = 0 \/ ko = 1) -> 0 <= io + fo -> f <= 1074 ->
  lut_out l = (ko, io, fo) /\ Z.of_nat (List.length (lut_table l)) = 2 ^ (k + i + f) /\ forall x y, lut_call l x = Ok y -> fits ko io fo y.
Proof.
  intros limit hls func k i f ko io fo R V l H Hk Hko Hb Hf. pose proof (from_spec _ _ _ _ _ _ _ _ _ _ _ _ H) as (H1 & H2 & _ & _ & _ & _ & HO & HQ).
  split; [exact HO|]. split.
  - apply quantize_table_nth in HQ as [L _]. rewrite map_length in L. rewrite L. apply lut_inputs_length; assumption.
  - intros x y E. destruct (lut_wraps _ _ _ _ _ _ _ _ _ _ _ _ x H Hk Hf) as (v & m & t & _ & _ & _ & E2). rewrite E2 in E.
    assert (Rp : representable ko (ko + io + fo) (ko + io) y) by (eapply gfixed_representable; [exact Hko| | |exact E]; lia).
    replace io with (ko + io - ko) by lia. replace fo with (ko + io + fo - (ko + io)) by lia. apply representable_fits; [exact Hko|lia|exact Rp].
Qed.
Print Assumptions C49_output_format.
Example C49_output_format_ex : exists l, from_activation 4096 65536 square (1, 1, 2) ((0, 1, 3), "TRN"%string, "SAT"%string) = Ok l /\
  map this (lut_table l) = map (fun m => Qreduction.Qred (QArith_base.Qmake m 8)) [0; 0; 2; 4; 8; 12; 15; 15; 15; 15; 15; 12; 8; 4; 2; 0].
Proof. eexists. split; [vm_compute; reflexivity|]. vm_compute. reflexivity. Qed.

(** Replacing an activation that is followed by a single quantizer, the same
    for all elements: for every value x its input can have, quantizing the
    table's output is quantizing the activation's. *)
Theorem C49_in_network : forall limit hls fuel net n s mx l a func p k i f m q o c x,
  all_fine net s ->
  nth_error net n = Some (NAct a func, [p]) -> out_layers net n = [m] -> nth_error net m = Some (NFpq q, [n]) -> nth_error s q = Some o ->
  legal_fpq o -> heterogeneous o = false -> In c (data (cfgs o)) ->
  produced fuel net p s = Ok ((k, i, f), s) -> f <= 1074 ->
  xfr_to_unary_lut limit hls fuel net n s mx = Ok (Replaced l, s) ->
  value net s p x ->
  let quantize y := gfixed_quantizer y (kn c) (bits c) (ints c) (rnd_name o) (sat_name o) in
  rbind (lut_call l x) quantize = quantize (func x).
Proof.
  intros limit hls fuel net n s mx l a func p k i f m q o c x AF En Eo Em Eq Lo He Hc Hp Hf HX Vx quantize.
  destruct (produced_sound fuel net s AF p (k, i, f) Hp) as [Hk Fits]. specialize (Fits x Vx). cbn [fst snd] in Hk, Fits.
  apply xfr_spec in HX as (a' & func' & ps & k' & i' & f' & s1 & r & En' & _ & _ & _ & HI & _ & HR & HF).
  rewrite En in En'. assert (ps = [p] /\ func' = func) as [-> ->] by (split; congruence).
  cbn [input_kifs] in HI. rewrite Hp in HI. cbn [rbind fst snd] in HI. apply okpair in HI as [HI <-]. assert (k' = k /\ i' = i /\ f' = f) as (-> & -> & ->) by (repeat split; congruence).
  destruct Lo as (_ & LF & HRn & HSn). pose proof (proj1 (Forall_forall _ _) LF c Hc) as (Lk & Lb & L1 & L2).
  assert (S8 : i8_safe c) by (split; lia).
  unfold result_kifRS, fusible_result in HR. rewrite Eo, Em, Eq in HR. unfold fusible in HR. cbn [List.length Nat.eqb negb hd] in HR. rewrite Eo in HR. cbn [List.length Nat.eqb negb rbind] in HR.
  rewrite He in HR. cbn [negb rbind] in HR. apply okpair in HR as [<- _]. rewrite (result_t_kif_homog o c He Hc S8) in HF.
  rewrite (lut_exact _ _ _ _ _ _ _ _ _ _ _ _ x HF Hk Hf Fits).
  replace (kn c + (ints c - kn c) + (bits c - ints c)) with (bits c) by lia. replace (kn c + (ints c - kn c)) with (ints c) by lia. fold (quantize (func x)).
  destruct (gfixed_ok (func x) (kn c) (bits c) (ints c) _ _ HRn HSn) as [y Ey]. fold (quantize (func x)) in Ey. rewrite Ey. cbn [rbind].
  destruct (gfixed_ok y (kn c) (bits c) (ints c) _ _ HRn HSn) as [z Ez]. fold (quantize y) in Ez. rewrite Ez. f_equal. exact (gfixed_idem _ _ _ _ _ _ _ _ Lk Lb Ey Ez).
Qed.
Print Assumptions C49_in_network.
Definition lnet : pnet := [(NInput, []); (NFpq 0, [0%nat]); (NAct AFun square, [1%nat]); (NFpq 1, [2%nat])].
Definition lfpq (k b i : Z) (R S : string) : fpq unit := mkFPQ (mkT [1%nat] [mkCfg k b i]) R S tt.
Definition lst_ : pst := [lfpq 1 4 2 "RND" "SAT"; lfpq 0 4 2 "RND" "WRAP"].
Lemma linputs_one fuel net p s ts s' : input_kifs fuel net [p] s = Ok (ts, s') -> exists t, ts = [t] /\ produced fuel net p s = Ok (t, s').
Proof.
  cbn [input_kifs]. destruct (produced fuel net p s) as [[t s1]|]; cbn; [|discriminate]. intros H. apply okpair in H as [<- <-]. eauto.
Qed.
Example C49_in_network_ex : (exists l, xfr_to_unary_lut 4096 65536 4 lnet 2 lst_ 64 = Ok (Replaced l, lst_)) /\
  out_layers lnet 2 = [3%nat] /\ produced 4 lnet 1 lst_ = Ok ((1, 1, 2), lst_) /\ value lnet lst_ 1 (Q2Qc (-5 # 4)) /\ all_fine lnet lst_.
Proof.
  split; [eexists; vm_compute; reflexivity|]. split; [reflexivity|]. split; [vm_compute; reflexivity|]. split.
  - apply (v_fpq lnet lst_ 1 0 0 (lfpq 1 4 2 "RND" "SAT") (mkCfg 1 4 2) (Q2Qc (-5 # 4))); [reflexivity|reflexivity|left; reflexivity| |vm_compute; reflexivity].
    apply (v_input lnet lst_ 0 []); [reflexivity|]. split; [|split].
    + exists (-5 * 2 ^ 65533). replace (Q2Qc (-5 # 4)) with (qz (-5) * pow2 (-2))%Qc by qvm. rewrite qz_mul, <- pow2_Z by lia. rewrite <- Qcmult_assoc, <- pow2_add. reflexivity.
    + assert (A : (pow2 1 <= pow2 65535)%Qc) by (apply pow2_le; lia). change (qz 1) with 1%Qc. assert (B : (- pow2 1 <= Q2Qc (-5 # 4))%Qc) by (apply qleb_true; vm_compute; reflexivity).
      generalize dependent (pow2 65535). intros g A. qlra.
    + pose proof (pow2_pos 65535) as A. assert (B : (Q2Qc (-5 # 4) < 0)%Qc) by (apply qltb_true; vm_compute; reflexivity). generalize dependent (pow2 65535). intros g A. qlra.
  - split; [|intros [|[|[|[|n]]]] k i f ps E; cbn in E; try discriminate; destruct n; discriminate].
    intros [|[|[|[|n]]]] kd ps fuel ts t E HI HP; cbn in E; try discriminate; try (destruct n; discriminate); injection E as <- <-; cbn [node_fine]; try exact I.
    + eexists. split; [reflexivity|]. left. eexists. split; [|apply Forall_cons; [reflexivity|apply Forall_nil]]. unfold legal_fpq, legal_fmt. cbn. repeat split; try discriminate; auto 10. apply Forall_cons; [|apply Forall_nil]. cbn; lia.
    + apply linputs_one in HI as [u [-> HI]].
      assert (Eu : u = (1, 1, 2)).
      { assert (HI' : produced 6 lnet 1 lst_ = Ok ((1, 1, 2), lst_)) by (vm_compute; reflexivity). pose proof (produced_agree _ _ _ _ _ _ _ HI HI'). congruence. }
      subst u. intros k i f [E|[]]. assert (k = 1 /\ i = 1 /\ f = 2) as (-> & -> & ->) by (repeat split; congruence). split; [lia|]. split; [lia|]. split; [lia|]. split; [|lia].
      intros x [[m ->] [A B]]. change (- (qz 1 * pow2 1))%Qc with (- (pow2 1))%Qc in A.
      assert (M : -8 <= m < 8).
      { assert (X : (qz (-8) <= qz m)%Qc) by (apply (qmul_le_r_inv _ _ (pow2 (-2))); [apply pow2_pos|]; replace (qz (-8) * pow2 (-2))%Qc with (- pow2 1)%Qc by qvm; exact A).
        assert (Y : (qz m < qz 8)%Qc) by (apply (qmul_lt_r_inv _ _ (pow2 (-2))); [apply pow2_pos|]; replace (qz 8 * pow2 (-2))%Qc with (pow2 1) by qvm; exact B).
        apply (proj1 (qz_le _ _)) in X. apply (proj1 (qz_lt _ _)) in Y. lia. }
      unfold square. replace (qz m * pow2 (- (2)) * (qz m * pow2 (- (2))))%Qc with (qz (m * m) * pow2 (-4))%Qc by (rewrite qz_mul; change (pow2 (-4)) with (pow2 (- (2)) * pow2 (- (2)))%Qc; ring).
      assert (MM : 0 <= m * m < 65) by nia. generalize dependent (m * m). intros w W. split; [|split].
      * exists (w * 2 ^ 28). rewrite qz_mul, <- pow2_Z by lia. rewrite <- Qcmult_assoc, <- pow2_add. reflexivity.
      * apply Qcle_trans with (qz 0); [apply qleb_true; vm_compute; reflexivity|]. replace (qz 0) with (qz 0 * pow2 (-4))%Qc by (rewrite qz_0; ring). apply qmul_le_r; [pose proof (pow2_pos (-4)); qlra|]. apply qz_le. lia.
      * apply Qclt_trans with (qz 65 * pow2 (-4))%Qc; [|apply qltb_true; vm_compute; reflexivity]. apply qmul_lt_r; [apply pow2_pos|]. apply qz_lt. lia.
    + eexists. split; [reflexivity|]. left. eexists. split; [|apply Forall_cons; [reflexivity|apply Forall_nil]]. unfold legal_fpq, legal_fmt. cbn. repeat split; try discriminate; auto 10. apply Forall_cons; [|apply Forall_nil]. cbn; lia.
Qed.

(** ** C50 *)

(** Only an activation other than softmax, relu and linear with one input is
    replaced, by a table of 2^(k+i+f) entries: at most the requested number,
    at least 2, and below both limits. *)
Theorem C50_replaced : forall limit hls fuel net n s mx l s', xfr_to_unary_lut limit hls fuel net n s mx = Ok (Replaced l, s') ->
  exists a func ps k i f s1, nth_error net n = Some (NAct a func, ps) /\ a <> ASoftmax /\ a <> ARelu /\ a <> ALinear /\
    input_kifs fuel net ps s = Ok ([(k, i, f)], s1) /\
    ((k = 0 \/ k = 1) -> Z.of_nat (List.length (lut_table l)) = 2 ^ (k + i + f)) /\ 2 <= 2 ^ (k + i + f) <= mx /\
    2 ^ (k + i + f) < hls /\ (0 < limit -> 2 ^ (k + i + f) < limit).
Proof.
  intros limit hls fuel net n s mx l s' H. apply xfr_spec in H as (a & func & ps & k & i & f & s1 & [[[[ko io] fo] R] V] & En & A1 & A2 & A3 & HI & HM & HR & HF).
  apply from_spec in HF as (H1 & H2 & H3 & H4 & H5 & H6 & H7 & HQ). exists a, func, ps, k, i, f, s1. do 5 (split; [assumption|]). split; [|split].
  - intros Hk. apply quantize_table_nth in HQ as [L _]. rewrite map_length in L. rewrite L. apply lut_inputs_length; assumption.
  - split; [pose proof (pow_ge2 _ H1); lia|]. rewrite pow2_Z in HM by lia. apply (proj1 (qz_le _ _)) in HM. exact HM.
  - split; assumption.
Qed.
Print Assumptions C50_replaced.
Example C50_replaced_ex : exists l, xfr_to_unary_lut 4096 65536 4 lnet 2 lst_ 16 = Ok (Replaced l, lst_) /\ List.length (lut_table l) = 16%nat.
Proof. eexists. split; vm_compute; reflexivity. Qed.

(** Anything else that does not raise leaves the layer as it was: another kind
    of layer, several inputs, or a table that would be larger than requested. *)
Theorem C50_kept : forall limit hls fuel net n s mx s', xfr_to_unary_lut limit hls fuel net n s mx = Ok (Kept, s') ->
  exists kd ps, nth_error net n = Some (kd, ps) /\
    ((forall a func, kd = NAct a func -> a = ASoftmax \/ a = ARelu \/ a = ALinear) \/
     exists ts, input_kifs fuel net ps s = Ok (ts, s') /\ ((2 <= List.length ts)%nat \/ exists k i f, ts = [(k, i, f)] /\ (qz mx < pow2 (k + i + f))%Qc)).
Proof.
  intros limit hls fuel net n s mx s' H. unfold xfr_to_unary_lut in H. destruct (nth_error net n) as [[kd ps]|]; [|discriminate]. exists kd, ps. split; [reflexivity|].
  destruct kd; try (left; intros; congruence).
  destruct (match a with ASoftmax | ARelu | ALinear => true | _ => false end) eqn:Ea; [left; intros a' func' E; assert (a' = a) by congruence; subst a'; destruct a; auto; discriminate|right].
  assert (H' : rbind (input_kifs fuel net ps s) (fun r => match fst r with [] => Raise | [(k, i, f)] => if qltb (qz mx) (pow2 (k + i + f)) then Ok (Kept, snd r)
      else rbind (result_kifRS fuel net n (snd r)) (fun o => rbind (from_activation limit hls func (k, i, f) (fst o)) (fun l => Ok (Replaced l, snd o))) | _ => Ok (Kept, snd r) end) = Ok (Kept, s'))
    by (destruct a; discriminate || exact H).
  clear H. destruct (input_kifs fuel net ps s) as [[ts s1]|]; cbn [rbind fst snd] in H'; [|discriminate].
  destruct ts as [|[[k i] f] [|t ts]]; [discriminate| |].
  - destruct (qltb_spec (qz mx) (pow2 (k + i + f))).
    + apply okpair in H' as [_ <-]. eexists. split; [reflexivity|]. right. eauto 10.
    + destruct (result_kifRS fuel net n s1) as [[o s2]|]; cbn [rbind fst snd] in H'; [|discriminate]. destruct (from_activation limit hls func (k, i, f) o); cbn [rbind] in H'; [|discriminate]. apply okpair in H' as [H' _]. discriminate.
  - apply okpair in H' as [_ <-]. eexists. split; [reflexivity|]. left. cbn. lia.
Qed.
Print Assumptions C50_kept.
Example C50_kept_ex : xfr_to_unary_lut 4096 65536 4 lnet 2 lst_ 15 = Ok (Kept, lst_) /\ xfr_to_unary_lut 4096 65536 4 lnet 1 lst_ 1024 = Ok (Kept, lst_).
Proof. split; vm_compute; reflexivity. Qed.

(** An admissible request fails with an error if the table reaches a limit or
    if the input has no bits. *)
Theorem C50_raises : forall limit hls fuel net n s mx a func ps k i f s1, nth_error net n = Some (NAct a func, ps) ->
  a <> ASoftmax -> a <> ARelu -> a <> ALinear -> input_kifs fuel net ps s = Ok ([(k, i, f)], s1) -> (pow2 (k + i + f) <= qz mx)%Qc ->
  (0 < limit /\ limit <= 2 ^ (k + i + f)) \/ hls <= 2 ^ (k + i + f) \/ k + i + f <= 0 ->
  xfr_to_unary_lut limit hls fuel net n s mx = Raise.
Proof.
  intros limit hls fuel net n s mx a func ps k i f s1 En A1 A2 A3 HI HM HC.
  destruct (xfr_to_unary_lut limit hls fuel net n s mx) as [[[|l] s']|] eqn:E; [| |reflexivity]; exfalso.
  - apply C50_kept in E as (kd & ps' & En' & [C|(ts & HI' & [C|(k' & i' & f' & C & D)])]); rewrite En in En'; assert (kd = NAct a func /\ ps' = ps) as [-> ->] by (split; congruence).
    + destruct (C a func eq_refl) as [|[|]]; contradiction.
    + rewrite HI in HI'. apply okpair in HI' as [<- _]. cbn in C. lia.
    + rewrite HI in HI'. apply okpair in HI' as [<- _]. assert (k' = k /\ i' = i /\ f' = f) as (-> & -> & ->) by (repeat split; congruence). generalize dependent (pow2 (k + i + f)). intros. qlra.
  - apply C50_replaced in E as (a' & func' & ps' & k' & i' & f' & s1' & En' & _ & _ & _ & HI' & _ & B & C & D). rewrite En in En'. assert (ps' = ps) by congruence. subst ps'.
    rewrite HI in HI'. apply okpair in HI' as [HI' _]. assert (k' = k /\ i' = i /\ f' = f) as (-> & -> & ->) by (repeat split; congruence).
    destruct HC as [[? ?]|[?|?]]; [lia|lia|]. assert (2 ^ (k + i + f) <= 1); [|lia]. destruct (Z.eq_dec (k + i + f) 0) as [->|]; [lia|]. rewrite Z.pow_neg_r by lia. lia.
Qed.
Print Assumptions C50_raises.
(** Asking for tables of up to 4096 entries makes the conversion of a 12-bit
    input fail instead of leaving the layer alone. *)
Definition lst12 : pst := [lfpq 1 12 2 "RND" "SAT"; lfpq 0 4 2 "RND" "WRAP"].
Example C50_raises_ex : input_kifs 4 lnet [1%nat] lst12 = Ok ([(1, 1, 10)], lst12) /\ xfr_to_unary_lut 4096 65536 4 lnet 2 lst12 4096 = Raise.
Proof. split; [vm_compute; reflexivity|]. eapply C50_raises; [reflexivity|discriminate..|vm_compute; reflexivity| |left; vm_compute; split; [reflexivity|discriminate]]. apply qleb_true. vm_compute. reflexivity. Qed.

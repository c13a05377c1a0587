(** C37: weights of converted layers. *)
From Coq Require Import ZArith QArith Qcanon List Bool String Ascii Lia.
From Verif Require Import Base.Num Base.Compute Base.Tensor Model.Quantizer Model.Weights Spec.Weights Proofs.WeightsP.
Import ListNotations.
Local Open Scope string_scope.
Local Open Scope nat_scope.

(** C37: a weight is looked up by the part of its name behind the last slash, with ":0" when it has
    no index; the first weight whose name contains that is returned. *)
Theorem C37_lookup : forall A (ws : list (string * A)) name, exists r, lookup_name name r /\
  (forall r', lookup_name name r' -> r' = r) /\
  (forall v, get_weight ws name = Some v <-> first_match ws r v) /\ (get_weight ws name = None <-> no_match ws r).
Proof.
  intros A ws name. exists (search_name name). assert (H : lookup_name name (search_name name)) by (apply search_name_spec; reflexivity).
  split; [exact H|]. split; [intros r' H'; apply search_name_spec in H'; congruence|].
  split; [intros v; apply get_weight_some; exact H|apply get_weight_none; exact H].
Qed.
Print Assumptions C37_lookup.

(** C37: the kernel and the bias of the converted layer are the quantized fused ones (or the plain
    ones of a source without them), whatever the weights of the source are called. *)
Theorem C37_kernel_and_bias : forall src dst ws' missing j n old,
  copy_fused_weights src dst = Ok (ws', missing) -> nth_error (d_weights dst) j = Some (n, old) ->
  substring "kernel:0" n \/ substring "bias:0" n ->
  (d_kernel dst = Some j -> d_bias dst <> Some j -> forall k, s_qkernel src = Some k \/ s_qkernel src = None /\ s_kernel src = Some k ->
     nth_error ws' j = Some (n, k)) /\
  (d_bias dst = Some j -> forall b, s_qbias src = Some b \/ s_qbias src = None /\ s_bias src = Some b ->
     nth_error ws' j = Some (n, b)).
Proof.
  intros src dst ws' missing j n old H E HN. destruct (copy_ok _ _ _ _ H) as (ws1 & ws2 & E1 & E2 & L & N & M).
  assert (PS : forall v, pull (s_weights src) (n, v) = (n, v)).
  { intros v. unfold pull. cbn [fst]. apply skipped_iff in HN. rewrite HN. reflexivity. }
  destruct (copy_one_ok _ _ _ _ _ E1) as (L1 & N1 & V1). destruct (copy_one_ok _ _ _ _ _ E2) as (L2 & N2 & V2). split.
  - intros HK HB k Hk. destruct (V1 j n old HK E) as (v & Hv & Ev & _). rewrite N, (N2 j HB), Ev, PS. do 2 f_equal.
    destruct Hk as [Hk|[Hk Hk']], Hv as [Hv|[Hv Hv']]; congruence.
  - intros HB b Hb. pose proof (copy_one_name _ _ _ _ _ j E1) as EN. rewrite E in EN. cbn in EN.
    destruct (nth_error ws1 j) as [[n1 o1]|] eqn:EJ; [|discriminate]. cbn in EN. assert (n1 = n) by congruence. subst n1.
    destruct (V2 j n o1 HB EJ) as (v & Hv & Ev & _). rewrite N, Ev, PS. do 2 f_equal.
    destruct Hb as [Hb|[Hb Hb']], Hv as [Hv|[Hv Hv']]; congruence.
Qed.
Print Assumptions C37_kernel_and_bias.

(** C37: every other weight gets the source weight found under its name, or keeps its initial value. *)
Theorem C37_other_weights : forall src dst ws' missing j n old,
  copy_fused_weights src dst = Ok (ws', missing) -> nth_error (d_weights dst) j = Some (n, old) ->
  ~ substring "kernel:0" n -> ~ substring "bias:0" n -> d_kernel dst <> Some j -> d_bias dst <> Some j ->
  forall r, lookup_name n r ->
  (forall v, first_match (s_weights src) r v -> nth_error ws' j = Some (n, v)) /\
  (no_match (s_weights src) r -> nth_error ws' j = Some (n, old)).
Proof.
  intros src dst ws' missing j n old H E NK NB HK HB r HR. destruct (copy_ok _ _ _ _ H) as (ws1 & ws2 & E1 & E2 & L & N & M).
  destruct (copy_one_ok _ _ _ _ _ E1) as (L1 & N1 & V1). destruct (copy_one_ok _ _ _ _ _ E2) as (L2 & N2 & V2).
  assert (ES : skipped n = false). { destruct (skipped n) eqn:EQ; [|reflexivity]. apply skipped_iff in EQ. tauto. }
  rewrite N, N2, N1, E by assumption. unfold pull. cbn [fst]. rewrite ES. split.
  - intros v HV. apply (get_weight_some _ _ _ _ HR) in HV. rewrite HV. reflexivity.
  - intros HV. apply (get_weight_none _ _ _ HR) in HV. rewrite HV. reflexivity.
Qed.
Print Assumptions C37_other_weights.

(** C37: the reported names are exactly those of the weights that are neither kernels nor biases (by name)
    and for which the source has no weight. *)
Theorem C37_reported : forall src dst ws' missing, copy_fused_weights src dst = Ok (ws', missing) ->
  forall n, In n missing <-> exists j old, nth_error (d_weights dst) j = Some (n, old) /\
    ~ substring "kernel:0" n /\ ~ substring "bias:0" n /\ exists r, lookup_name n r /\ no_match (s_weights src) r.
Proof.
  intros src dst ws' missing H n. destruct (copy_ok _ _ _ _ H) as (ws1 & ws2 & E1 & E2 & L & N & ->).
  assert (NM : forall i, option_map fst (nth_error ws2 i) = option_map fst (nth_error (d_weights dst) i)).
  { intros i. rewrite (copy_one_name _ _ _ _ _ i E2). apply (copy_one_name _ _ _ _ _ i E1). }
  assert (LO : forall v, lost (s_weights src) (n, v) = true <->
            ~ substring "kernel:0" n /\ ~ substring "bias:0" n /\ exists r, lookup_name n r /\ no_match (s_weights src) r).
  { intros v. unfold lost. cbn [fst]. rewrite andb_true_iff, negb_true_iff.
    assert (SK : skipped n = false <-> ~ substring "kernel:0" n /\ ~ substring "bias:0" n).
    { rewrite <- not_true_iff_false, skipped_iff. tauto. }
    rewrite SK. split.
    - intros [[A B] C]. split; [exact A|]. split; [exact B|]. exists (search_name n). assert (HR : lookup_name n (search_name n)) by (apply search_name_spec; reflexivity).
      split; [exact HR|]. apply (get_weight_none _ _ _ HR). destruct (get_weight (s_weights src) n); [discriminate|reflexivity].
    - intros (A & B & r & HR & HN). split; [tauto|]. apply (get_weight_none _ _ _ HR) in HN. rewrite HN. reflexivity. }
  rewrite in_map_iff. split.
  - intros [[n' v] [En Hf]]. cbn in En. subst n'. apply filter_In in Hf. destruct Hf as [Hin HL].
    apply In_nth_error in Hin. destruct Hin as [j Hj]. specialize (NM j). rewrite Hj in NM. cbn in NM.
    destruct (nth_error (d_weights dst) j) as [[n1 old]|] eqn:EJ; [|discriminate]. cbn in NM. assert (n1 = n) by congruence. subst n1.
    exists j, old. split; [exact EJ|]. apply (LO v). exact HL.
  - intros (j & old & EJ & HH). specialize (NM j). rewrite EJ in NM. cbn in NM.
    destruct (nth_error ws2 j) as [[n1 v]|] eqn:EJ2; [|discriminate]. cbn in NM. assert (n1 = n) by congruence. subst n1.
    exists (n, v). split; [reflexivity|]. apply filter_In. split; [apply (nth_error_In _ _ EJ2)|]. apply LO. exact HH.
Qed.
Print Assumptions C37_reported.

Definition vec (z : Z) : tensor Qc := mkT [1] [qz z].
Definition scal (z : Z) : tensor Qc := mkT [] [qz z].

(** A batch-norm dense layer (names as keras builds them) deployed as a dense layer with an extra weight. *)
Definition src1 : src_layer :=
  mkSrc (Some (vec 5)) (Some (vec 6)) (Some (vec 1)) (Some (vec 2))
    [("d/kernel:0", vec 1); ("d/bias:0", vec 2); ("d/bn_gamma:0", vec 3); ("beta:0", scal 9)].
Definition dst1 : dst_layer :=
  mkDst (Some 0) (Some 1) [("e/kernel:0", vec 0); ("e/bias:0", vec 0); ("e/gamma:0", vec 0); ("e/moving_mean:0", vec 0)].
Example C37_ex : exists ws missing, copy_fused_weights src1 dst1 = Ok (ws, missing) /\ missing = ["e/moving_mean:0"] /\
  map (fun w => (fst w, map this (data (snd w)))) ws =
    [("e/kernel:0", [5]); ("e/bias:0", [6]); ("e/gamma:0", [3]); ("e/moving_mean:0", [0])]%Q.
Proof. do 2 eexists. split; [vm_compute; reflexivity|]. split; vm_compute; reflexivity. Qed.

(** C37: weights of other names that only contain "kernel:0" or "bias:0" stay at their initial value
    without a report, even when the source has a weight of the same name. *)
Theorem C37_silently_skipped_refuted : exists src dst ws n v old, copy_fused_weights src dst = Ok (ws, []) /\
  nth_error (d_weights dst) 0 = Some (n, old) /\ d_kernel dst = None /\ d_bias dst = None /\ In (n, v) (s_weights src) /\
  nth_error ws 0 = Some (n, old) /\ v <> old.
Proof.
  exists (mkSrc None None None None [("depthwise_kernel:0", vec 1)]), (mkDst None None [("depthwise_kernel:0", vec 0)]).
  do 4 eexists. split; [vm_compute; reflexivity|]. do 3 (split; [reflexivity|]). split; [left; reflexivity|]. split; [reflexivity|].
  intros C. apply (f_equal (fun t => map this (data t))) in C. vm_compute in C. discriminate.
Qed.
Print Assumptions C37_silently_skipped_refuted.

(** C37: the search by substring can return a weight with a different name although one with the same name exists. *)
Theorem C37_substring_refuted : exists A (ws : list (string * A)) n v, In (n, v) ws /\ NoDup (map fst ws) /\
  exists v', get_weight ws n = Some v' /\ v' <> v.
Proof.
  exists nat, [("bn_gamma:0", 1); ("gamma:0", 2)], "gamma:0", 2. split; [right; left; reflexivity|]. split.
  - repeat constructor; cbn; intros H; repeat destruct H as [H|H]; try discriminate; exact H.
  - exists 1. split; [reflexivity|discriminate].
Qed.
Print Assumptions C37_substring_refuted.

(** C37: the standalone batch-norm layer keeps its parameters with leading axes of length one
    (batchnorm_base.py:177-179), so copying them into the keras layer fails. *)
Theorem C37_standalone_batchnorm_raises : forall g b m v c old, shape old = [c] -> shape g = [1; c] ->
  copy_fused_weights (mkSrc None None None None [("bn/bn_beta:0", b); ("bn/bn_gamma:0", g); ("bn/moving_mean:0", m); ("bn/moving_variance:0", v)])
                     (mkDst None None [("k/gamma:0", old)]) = Raise.
Proof.
  intros g b m v c old H1 H2. unfold copy_fused_weights. cbn -[list_eq_dec]. unfold assign. cbn -[list_eq_dec]. rewrite H1, H2.
  destruct (list_eq_dec Nat.eq_dec [c] [1; c]) as [E|_]; [discriminate|reflexivity].
Qed.
Print Assumptions C37_standalone_batchnorm_raises.

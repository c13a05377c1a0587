(** C57: QKeras activations. *)
From Coq Require Import ZArith QArith Qcanon List Bool String Lia.
From Verif Require Import Base.Num Base.NumFacts Base.Compute Base.Tensor Model.FixedPoint Model.Layers Model.Qkeras
  Spec.Fixed Spec.Qkeras Proofs.FixedPointP.
Import ListNotations.
Local Open Scope Z_scope.
Local Open Scope string_scope.

Lemma fixed_round_conv x k b i (V : string) sat c : b <> 0 -> SAT_MAP V = Some sat ->
  rounds_to "RND_CONV" (x * pow2 (b - i))%Qc c ->
  layer_elem (KFixed k b i "RND_CONV" V) x = Ok (sat (qz c) k b * pow2 (i - b))%Qc.
Proof.
  intros Hb ES HR. unfold layer_elem, init_elem, gfixed_quantizer. cbn [kn bits ints]. rewrite ES.
  destruct (Z.eqb_spec b 0) as [E|_]; [contradiction|]. cbn [RND_MAP String.eqb Ascii.eqb Bool.eqb].
  change (RND_MAP "RND_CONV") with (Some RND_CONV). f_equal. rewrite gfixed_elem_nz by exact Hb.
  destruct (RND_CONV_spec (x * pow2 (b - i))%Qc) as (n & E & HR'). rewrite E.
  rewrite (rounds_to_fun _ _ _ _ HR HR'). try reflexivity.
Qed.

(** C57: quantized_bits with alpha = 1 and a magnitude bit becomes one proxy quantizer computing the same function. *)
Theorem C57_quantized_bits : forall bits integer symmetric (keep_negative : bool) SATm,
  let k := if keep_negative then 1 else 0 in
  1 <= bits - k -> symmetric = 0 /\ SATm = "SAT" \/ symmetric = 1 ->
  exists l, to_layers (QBits bits integer symmetric keep_negative (ANum (qz 1))) SATm = Ok [l] /\
    forall x y, chain [l] x = Ok y <-> quantized_bits bits integer symmetric k x y.
Proof.
  intros bits integer symmetric keep_negative SATm k Hb HS.
  assert (Hk : 0 <= k) by (unfold k; destruct keep_negative; lia).
  set (V := if Z.eqb symmetric 0 then SATm else "SAT_SYM").
  exists (KFixed k bits (integer + k) "RND_CONV" V). split.
  { unfold to_layers. cbn [alpha_is_one]. destruct (qeqb_spec (qz 1) (qz 1)) as [_|N]; [|congruence]. cbn [negb].
    unfold V, k. destruct HS as [[-> ->]| ->]; reflexivity. }
  intros x y. cbn [chain fold_left rbind].
  destruct (RND_CONV_spec (x * pow2 (bits - (integer + k)))%Qc) as (n & _ & HR).
  assert (HR' : rounds_to "RND_CONV" (x * pow2 (bits - k - integer))%Qc n) by (replace (bits - k - integer) with (bits - (integer + k)) by lia; exact HR).
  assert (EQ : layer_elem (KFixed k bits (integer + k) "RND_CONV" V) x =
    Ok (qz (Z.max (k * (- 2 ^ (bits - k) + symmetric)) (Z.min n (2 ^ (bits - k) - 1))) * pow2 (integer - (bits - k)))%Qc).
  { destruct HS as [[-> ->]| ->].
    - cbn in V. unfold V. rewrite (fixed_round_conv x k bits (integer + k) "SAT" SAT n ltac:(lia) eq_refl HR).
      rewrite SAT_qz by lia. unfold hi, lo. replace (integer + k - bits) with (integer - (bits - k)) by lia. do 3 f_equal. lia.
    - cbn in V. unfold V. rewrite (fixed_round_conv x k bits (integer + k) "SAT_SYM" SAT_SYM n ltac:(lia) eq_refl HR).
      rewrite SAT_SYM_qz by lia. unfold hi. replace (integer + k - bits) with (integer - (bits - k)) by lia. do 3 f_equal. lia. }
  rewrite EQ. unfold quantized_bits. split.
  - intros E. exists n. split; [exact HR'|congruence].
  - intros (m & HM & ->). rewrite (rounds_to_fun _ _ _ _ HM HR'). reflexivity.
Qed.
Print Assumptions C57_quantized_bits.

(** C57: quantized_relu (no leak, no sigmoid) becomes a ReLU and a proxy quantizer computing the same function. *)
Theorem C57_quantized_relu : forall bits integer SATm, 1 <= bits ->
  exists l1 l2, to_layers (QRelu bits integer (qz 0) false) SATm = Ok [l1; l2] /\
    forall x y, chain [l1; l2] x = Ok y <-> quantized_relu bits integer x y.
Proof.
  intros bits integer SATm Hb. exists KRelu, (KFixed 0 bits integer "RND_CONV" "SAT"). split; [reflexivity|].
  intros x y. cbn [chain fold_left rbind]. change (layer_elem KRelu x) with (Ok (relu x)). cbn [rbind].
  destruct (RND_CONV_spec (relu x * pow2 (bits - integer))%Qc) as (n & _ & HR).
  destruct (RND_CONV_spec (x * pow2 (bits - integer))%Qc) as (m & _ & HM).
  rewrite (fixed_round_conv _ 0 bits integer "SAT" SAT n ltac:(lia) eq_refl HR). rewrite SAT_qz by lia.
  assert (E : Z.max (Z.min n (hi 0 bits)) (lo 0 bits) = Z.max 0 (Z.min m (2 ^ bits - 1))).
  { assert (P2 : 0 < 2 ^ bits) by (apply Z.pow_pos_nonneg; lia). unfold hi, lo. replace (bits - 0) with bits by lia. unfold relu, qmax in HR.
    destruct (qleb_spec x (qz 0)) as [L|L].
    - assert (N0 : n = 0).
      { apply (rounds_to_fun "RND_CONV" (qz 0)); [|apply rounds_to_qz; cbn; tauto].
        replace (qz 0 * pow2 (bits - integer))%Qc with (qz 0) in HR by (change (qz 0) with 0%Qc; ring). exact HR. }
      assert (M0 : m <= 0).
      { assert (LE : (x * pow2 (bits - integer) <= qz 0)%Qc).
        { replace (qz 0) with (qz 0 * pow2 (bits - integer))%Qc by (change (qz 0) with 0%Qc; ring). apply qmul_le_r; [|exact L].
          apply Qclt_le_weak. apply pow2_pos. }
        apply (rounds_to_mono "RND_CONV" _ _ m 0 LE HM). apply rounds_to_qz. cbn; tauto. }
      lia.
    - rewrite (rounds_to_fun _ _ _ _ HR HM). lia. }
  rewrite E. unfold quantized_relu. split.
  - intros EY. exists m. split; [exact HM|congruence].
  - intros (m' & HM' & ->). rewrite (rounds_to_fun _ _ _ _ HM' HM). reflexivity.
Qed.
Print Assumptions C57_quantized_relu.

(** C57: binary without scale keeps its values. *)
Theorem C57_binary : forall SATm x y, exists ls, to_layers (QBinary false ANone) SATm = Ok ls /\
  (chain ls x = Ok y <-> binary (qz 1) x y).
Proof.
  intros SATm x y. eexists. split; [reflexivity|]. cbn [chain fold_left rbind].
  change (layer_elem KBinary x) with (Ok (if qltb x (qz 0) then - qz 1 else qz 1)%Qc). cbn [rbind].
  assert (P : layer_elem (KFixed 1 2 2 "RND" "WRAP") (qz 1) = Ok (qz 1)) by (vm_compute; f_equal; apply this_inj; reflexivity).
  assert (N : layer_elem (KFixed 1 2 2 "RND" "WRAP") (- qz 1)%Qc = Ok (- qz 1)%Qc) by (vm_compute; f_equal; apply this_inj; reflexivity).
  unfold binary. destruct (qltb_spec x (qz 0)) as [L|L].
  - rewrite N. split; [intros E; right; split; [exact L|congruence]|]. intros [[A _]|[_ ->]]; [exfalso; revert A; apply Qclt_not_le; exact L|reflexivity].
  - rewrite P. split; [intros E; left; split; [exact L|congruence]|]. intros [[_ -> ]|[A _]]; [reflexivity|exfalso; revert A; apply Qcle_not_lt; exact L].
Qed.
Print Assumptions C57_binary.

(** C57: what is rejected. *)
Theorem C57_rejected : forall q SATm, to_layers q SATm = Raise <->
  match q with
  | QBits _ _ symmetric _ alpha => alpha <> ANum (qz 1) \/ (symmetric <> 0 /\ symmetric <> 1)
  | QBinary use_01 _ => use_01 = true
  | QTernary | QPo2 => True
  | QLinear | QRelu _ _ _ _ | QOther _ => False
  end.
Proof.
  intros q SATm. destruct q as [|b i s k a|b i n u|u a| | |f]; cbn [to_layers].
  - split; [discriminate|contradiction].
  - assert (A : alpha_is_one a = true <-> a = ANum (qz 1)).
    { destruct a as [| |q]; cbn; [split; discriminate..|]. destruct (qeqb_spec q (qz 1)) as [->|N]; [tauto|]. split; [discriminate|]. intros E. injection E as E. contradiction. }
    destruct (alpha_is_one a) eqn:EA; cbn [negb].
    + assert (E1 : a = ANum (qz 1)) by (apply A; reflexivity). cbv zeta.
      destruct (Z.eqb_spec s 0), (Z.eqb_spec s 1); cbn [negb andb]; split; try discriminate; try tauto; intros [H|H]; try contradiction; try lia; tauto.
    + split; [|reflexivity]. intros _. left. intros E. apply A in E. discriminate.
  - split; [discriminate|contradiction].
  - destruct u; split; try discriminate; reflexivity.
  - tauto.
  - tauto.
  - split; [discriminate|contradiction].
Qed.
Print Assumptions C57_rejected.

Example C57_ex : exists ls, to_layers (QBits 4 1 0 true (ANum (qz 1))) "SAT" = Ok ls /\
  match chain ls (Q2Qc (11 # 8)), chain ls (qz (-5)) with Ok a, Ok b => this a = (3 # 2)%Q /\ this b = (-2)%Q | _, _ => False end.
Proof. eexists. split; [reflexivity|]. vm_compute. split; reflexivity. Qed.

(** C57: without the saturating policy the unsymmetric quantizer wraps instead. *)
Theorem C57_wrap_refuted : exists ls x y, to_layers (QBits 4 1 0 true (ANum (qz 1))) "WRAP" = Ok ls /\ chain ls x = Ok y /\ ~ quantized_bits 4 1 0 1 x y.
Proof.
  do 3 eexists. split; [reflexivity|]. split.
  - instantiate (2 := qz 2). vm_compute. reflexivity.
  - intros (n & HR & E).
    assert (n = 8).
    { apply (rounds_to_fun "RND_CONV" (qz 8)); [|apply rounds_to_qz; cbn; tauto]. replace (qz 2 * pow2 (4 - 1 - 1))%Qc with (qz 8) in HR by (apply this_inj; vm_compute; reflexivity). exact HR. }
    subst n. apply (f_equal this) in E. vm_compute in E. discriminate.
Qed.
Print Assumptions C57_wrap_refuted.

(** C57: a one-bit signed quantizer (binary in QKeras) becomes one with the codes -1 and 0. *)
Theorem C57_one_bit_refuted : exists ls x y, to_layers (QBits 1 0 0 true (ANum (qz 1))) "SAT" = Ok ls /\ chain ls x = Ok y /\ ~ binary (qz 1) x y.
Proof.
  do 3 eexists. split; [reflexivity|]. split.
  - instantiate (2 := qz 1). vm_compute. reflexivity.
  - intros [[_ E]|[_ E]]; apply (f_equal this) in E; vm_compute in E; discriminate.
Qed.
Print Assumptions C57_one_bit_refuted.

(** C57: the scale of a binary quantizer is dropped without complaint. *)
Theorem C57_binary_alpha_refuted : exists ls x y, to_layers (QBinary false (ANum (qz 2))) "SAT" = Ok ls /\ chain ls x = Ok y /\ ~ binary (qz 2) x y.
Proof.
  do 3 eexists. split; [reflexivity|]. split.
  - instantiate (2 := qz 1). vm_compute. reflexivity.
  - intros [[_ E]|[_ E]]; apply (f_equal this) in E; vm_compute in E; discriminate.
Qed.
Print Assumptions C57_binary_alpha_refuted.

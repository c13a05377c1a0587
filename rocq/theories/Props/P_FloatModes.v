(** C97: every rounding and overflow mode of the proxy quantizer in IEEE single precision. *)
From Coq Require Import ZArith QArith Qcanon List Bool String Lia.
From Verif Require Import Base.Num Base.NumFacts Base.Compute Base.Tensor Model.FixedPoint Model.Float32 Model.FloatModes Spec.Fixed Spec.Float Spec.FloatModes
  Proofs.FixedPointP Proofs.Float32P Proofs.Float32Q Proofs.FloatModesP Proofs.FixedPointLayerP Proofs.TensorP Props.P_FixedPoint.
Import ListNotations.
Local Open Scope Z_scope.

(** C97: for formats of at most 22 bits the quantizer evaluated in float32 returns exactly what it returns without rounding errors,
    in each of the 7x5 modes, unless the scaled value is the float next to 1/2 or -1/2 named by [half_case]; the wrapping modes
    below 2^22 steps, the saturating ones for every input whose scaled value is a float (neither overflow nor underflow). *)
Theorem C97_modes : forall x k b i R S, float32 x -> float32 (x * pow2 (b - i))%Qc -> 0 <= k <= 1 -> 1 <= b <= 22 -> -100 <= b - i <= 100 ->
  In R rounding_names -> In S overflow_names -> ~ half_case R (x * pow2 (b - i))%Qc ->
  (qabs (x * pow2 (b - i)) < pow2 22)%Qc \/ In S ["SAT"; "SAT_ZERO"; "SAT_SYM"]%string ->
  exists y, gfixed_float x k b i R S = Ok y /\ gfixed_quantizer x k b i R S = Ok y.
Proof. exact modes_exact. Qed.
Print Assumptions C97_modes.

(** C97: the exceptions are exceptions: without rounding errors the result is 0, in float32 it is one step, in every overflow mode. *)
Theorem C97_half : forall x b i R S, float32 x -> 2 <= b <= 22 -> -100 <= b - i <= 100 -> In S overflow_names -> half_case R (x * pow2 (b - i))%Qc ->
  gfixed_quantizer x 1 b i R S = Ok (qz 0) /\
  gfixed_float x 1 b i R S = Ok (if qltb (qz 0) x then pow2 (i - b) else - pow2 (i - b))%Qc.
Proof. exact modes_half. Qed.
Print Assumptions C97_half.

(** C97: values of the format are floats and pass unchanged in float32 (SAT_SYM lacks the least one). *)
Theorem C97_identity : forall x k b i R S, 0 <= k <= 1 -> 1 <= b <= 22 -> -100 <= b - i <= 100 -> In R rounding_names -> In S overflow_names ->
  representable k b i x -> (S = "SAT_SYM"%string -> k = 1 -> x <> (qz (- 2 ^ (b - 1)) * pow2 (i - b))%Qc) ->
  float32 x /\ gfixed_float x k b i R S = Ok x.
Proof.
  intros x k b i R S Hk Hb Hn HR HS Rx Hs. assert (K : k = 0 \/ k = 1) by lia. pose proof Rx as [m [C E]].
  apply code_iff in C; [|exact K|lia]. assert (P : 0 < 2 ^ (b - k) <= 2 ^ 22) by (split; [apply Z.pow_pos_nonneg; lia|apply Z.pow_le_mono_r; lia]).
  assert (Bm : - 2 ^ 22 <= m < 2 ^ 22) by (unfold lo, hi in C; nia).
  assert (Bk : - 2 ^ 22 < m). { unfold lo in C. destruct K as [-> | ->]; [lia|]. assert (2 ^ (b - 1) < 2 ^ 22) by (apply Z.pow_lt_mono_r; lia). lia. }
  assert (Fx : float32 x) by (rewrite E; apply float_grid; lia). split; [exact Fx|].
  assert (Et : (x * pow2 (b - i))%Qc = qz m) by (rewrite E, <- Qcmult_assoc, <- pow2_add; replace (i - b + (b - i)) with 0 by lia; rewrite pow2_0, qz1; ring).
  assert (NH : forall j, qz j <> below_half /\ qz j <> (- below_half)%Qc).
  { intros j. assert (H1 : (qz 0 < below_half)%Qc) by (vm_compute; reflexivity). assert (H2 : (below_half < qz 1)%Qc) by (vm_compute; reflexivity). split; intros X.
    - assert (A : (qz 0 < qz j)%Qc) by (rewrite X; exact H1). assert (B : (qz j < qz 1)%Qc) by (rewrite X; exact H2). apply (proj1 (qz_lt _ _)) in A. apply (proj1 (qz_lt _ _)) in B. lia.
    - assert (A : (qz (-1) < qz j)%Qc) by (rewrite X; assert (qz (-1) = - qz 1)%Qc by exact (qz_opp 1); qlra). assert (B : (qz j < qz 0)%Qc) by (rewrite X; qlra).
      apply (proj1 (qz_lt _ _)) in A. apply (proj1 (qz_lt _ _)) in B. lia. }
  destruct (C97_modes x k b i R S Fx) as (y & E1 & E2); try assumption.
  - rewrite Et. apply float_qz. lia.
  - rewrite Et. destruct (NH m) as [N1 N2]. intros [[_ X]|[_ X]]; contradiction.
  - left. rewrite Et, qabs_qz, (pow2_Z 22) by lia. apply qz_lt. lia.
  - rewrite E1. f_equal. exact (C02_quantizer_identity_on_representable x k b i R S y K ltac:(lia) Rx Hs E2).
Qed.
Print Assumptions C97_identity.

(** C97: the bound on the width is needed: in a signed format of 24 bits WRAP_SM turns 1 into 2, in every rounding mode. *)
Theorem C97_wide_refuted : representable 1 24 24 (qz 1) /\ float32 (qz 1) /\
  forall R, In R rounding_names -> gfixed_quantizer (qz 1) 1 24 24 R "WRAP_SM" = Ok (qz 1) /\ gfixed_float (qz 1) 1 24 24 R "WRAP_SM" = Ok (qz 2).
Proof.
  split; [exists 1; split; [right; split; [reflexivity|lia]|apply Qc_is_canon; vm_compute; reflexivity]|]. split; [apply float_qz; lia|].
  intros R HR. cbn in HR. destruct HR as [<-|[<-|[<-|[<-|[<-|[<-|[<-|[]]]]]]]]; (split; [unfold gfixed_quantizer|unfold gfixed_float]; cbn [RND_MAP SAT_MAP RND_ALL32 SAT_ALL32 String.eqb Ascii.eqb Bool.eqb]; f_equal; apply Qc_is_canon; vm_compute; reflexivity).
Qed.
Print Assumptions C97_wide_refuted.

(** C97: a whole FixedPointQuantizer layer, one format per element of the sample: on a batch whose entries are in reach of their
    formats (or of a format of width 0) the call in float32 and the call without rounding errors return the same tensor.  With training=True it raises. *)
Theorem C97_layer : forall (O : Type) (q : fpq O) n s x, shape (cfgs q) = (1 :: s)%nat -> shape x = (n :: s)%nat ->
  In (rnd_name q) rounding_names -> In (sat_name q) overflow_names ->
  (forall j p, (j < n)%nat -> (p < prodn s)%nat -> let c := nth p (data (cfgs q)) (mkCfg 0 0 0) in
    bits c = 0 \/ float_range (rnd_name q) (sat_name q) (kn c) (bits c) (ints c) (nth (j * prodn s + p) (data x) (qz 0))) ->
  exists y, fpq_call_float q false x = Ok y /\ fpq_call q false x = Ok y /\ shape y = shape x /\ length (data y) = prodn (shape x) /\
    fpq_call_float q true x = Raise.
Proof.
  intros O q n s x Hc Hx HR HS H. destruct (fpq_call_batch q n s x Hc Hx HR HS) as (y & E & Sy & W & Hy).
  exists y. split; [|split; [exact E|rewrite Sy, Hx; split; [reflexivity|split; [rewrite W, Sy; reflexivity|reflexivity]]]].
  destruct (fpq_call_float_batch q n s x Hc Hx HR HS) as (z & Ez & Sz & Wz & Hz). rewrite Ez. f_equal.
  destruct y as [sy dy], z as [sz dz]. cbn [shape data] in *. unfold wf_tensor in W, Wz. cbn [shape data] in W, Wz. subst sy sz. f_equal.
  apply nth_ext with (d := qz 0) (d' := qz 0); [congruence|]. intros m Hm. rewrite Wz in Hm. change (prodn (n :: s)) with (n * prodn s)%nat in Hm.
  assert (P : (0 < prodn s)%nat) by (destruct (prodn s); lia).
  rewrite (Nat.div_mod m (prodn s)) by lia. rewrite (Nat.mul_comm (prodn s)).
  assert (Hp : (m mod prodn s < prodn s)%nat) by (apply Nat.mod_upper_bound; lia).
  assert (Hj : (m / prodn s < n)%nat) by (apply Nat.div_lt_upper_bound; lia).
  specialize (H _ _ Hj Hp). specialize (Hy _ _ (qz 0) Hj Hp). specialize (Hz _ _ (qz 0) Hj Hp). cbv zeta in H, Hy, Hz.
  set (c := nth (m mod prodn s) (data (cfgs q)) (mkCfg 0 0 0)) in *. destruct H as [H|(F & Fs & K & B & N & NH & D)].
  - rewrite H in Hy, Hz. apply gfixed_zero_bits in Hy. apply gfixed_float_zero_bits in Hz. congruence.
  - destruct (C97_modes _ _ _ _ _ _ F Fs K B N HR HS NH D) as (w & E1 & E2). rewrite E1 in Hz. rewrite E2 in Hy. congruence.
Qed.
Print Assumptions C97_layer.

(** fixed<4,3> at -9: saturated, zero, symmetric, wrapped around and reflected; and the rounding modes at -3/4 (scaled: -3/2, a tie). *)
Definition all_sat (x : Qc) : list (result Q) := map (fun S => rmap this (gfixed_float x 1 4 3 "RND_INF" S)) overflow_names.
Definition all_rnd (x : Qc) : list (result Q) := map (fun R => rmap this (gfixed_float x 1 4 3 R "SAT")) rounding_names.
Example C97_ex :
  float32 (qz (-9)) /\ float32 (qz (-9) * pow2 1)%Qc /\ ~ half_case "RND_INF" (qz (-9) * pow2 1)%Qc /\ (qabs (qz (-9) * pow2 1) < pow2 22)%Qc /\
  all_sat (qz (-9)) = map Ok [-4 # 1; 0; -7 # 2; -1 # 1; 1 # 2]%Q /\
  all_rnd (Q2Qc (-3 # 4)) = map Ok [-1 # 1; -1 # 2; -1 # 2; -1 # 2; -1 # 1; -1 # 1; -1 # 1]%Q.
Proof.
  split; [apply float_qz; lia|]. split; [apply float_grid; lia|].
  split; [intros [[_ E]|[_ E]]; apply (f_equal this) in E; vm_compute in E; discriminate E|]. split; [vm_compute; reflexivity|].
  split; vm_compute; reflexivity.
Qed.
(** The float below 1/2 under fixed<8,8>: RND and RND_INF give 1, its negative gives -1 under RND_MIN_INF and RND_INF, the other modes are right. *)
Example C97_half_ex : float32 below_half /\ half_case "RND" (below_half * pow2 (8 - 8))%Qc /\
  map (fun R => rmap this (gfixed_float below_half 1 8 8 R "WRAP")) rounding_names = map Ok [0; 0; 1; 0; 0; 1; 0]%Q /\
  map (fun R => rmap this (gfixed_float (- below_half)%Qc 1 8 8 R "WRAP")) rounding_names = map Ok [-1 # 1; 0; 0; 0; -1 # 1; -1 # 1; 0]%Q.
Proof.
  split; [replace below_half with (qz (2 ^ 24 - 1) * pow2 (-25))%Qc by (apply Qc_is_canon; vm_compute; reflexivity); apply float_grid; lia|].
  split; [left; split; [left; reflexivity|apply Qc_is_canon; vm_compute; reflexivity]|]. split; vm_compute; reflexivity.
Qed.
(** A layer with the formats fixed<4,3> and width 0 on two samples. *)
Definition two_formats : fpq unit := mkFPQ (mkT [1; 2]%nat [mkCfg 1 4 3; mkCfg 0 0 0]) "RND_CONV" "WRAP_SM" tt.
Definition two_samples : tensor Qc := mkT [2; 2]%nat [qz (-9); qz 7; Q2Qc (5 # 4); qz 1].
Example C97_layer_ex :
  (forall j p, (j < 2)%nat -> (p < prodn [2%nat])%nat -> let c := nth p (data (cfgs two_formats)) (mkCfg 0 0 0) in
    bits c = 0 \/ float_range (rnd_name two_formats) (sat_name two_formats) (kn c) (bits c) (ints c) (nth (j * prodn [2%nat] + p) (data two_samples) (qz 0))) /\
  rmap (fun t => map this (data t)) (fpq_call_float two_formats false two_samples) = Ok [1 # 2; 0; 1; 0]%Q /\
  fpq_call_float two_formats true two_samples = Raise.
Proof.
  assert (G : forall v m, v = (qz m * pow2 (-2))%Qc -> Z.abs m < 2 ^ 20 -> float_range "RND_CONV" "WRAP_SM" 1 4 3 v).
  { intros v m -> Hm. assert (E : (qz m * pow2 (-2) * pow2 (4 - 3) = qz m * pow2 (-1))%Qc) by (rewrite <- Qcmult_assoc, <- pow2_add; reflexivity).
    unfold float_range. rewrite E. split; [apply float_grid; lia|]. split; [apply float_grid; lia|]. do 3 (split; [lia|]).
    split; [intros [[[X|X] _]|[[X|X] _]]; discriminate X|]. left.
    rewrite qabs_scale, qabs_qz.
    apply Qcle_lt_trans with (qz (Z.abs m)).
    - assert (L : (pow2 (-1) <= 1)%Qc) by (vm_compute; discriminate). assert (L0 : (qz 0 <= qz (Z.abs m))%Qc) by (apply qz_le; lia). generalize dependent (pow2 (-1)). intros p _ L. qnra.
    - rewrite (pow2_Z 22) by lia. apply qz_lt. lia. }
  split; [|split; vm_compute; reflexivity].
  intros j p Hj Hp. cbn in Hp. destruct p as [|[|p]]; [right|left; reflexivity|lia].
  destruct j as [|[|j]]; [| |lia]; cbn [two_formats two_samples rnd_name sat_name cfgs data nth kn bits ints prodn].
  - apply (G _ (-36)); [apply Qc_is_canon; vm_compute; reflexivity|lia].
  - apply (G _ 5); [apply Qc_is_canon; vm_compute; reflexivity|lia].
Qed.

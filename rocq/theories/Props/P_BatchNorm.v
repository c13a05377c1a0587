(** C54, C55, C56: batch normalisation. *)
From Coq Require Import ZArith QArith Qcanon List Bool Lia.
From Verif Require Import Base.Num Base.NumFacts Base.Compute Base.Tensor Model.Quantizer Model.Layers Model.BatchNorm
  Spec.Norm Spec.BnStats Proofs.TensorP Proofs.CallP Proofs.BatchNormP Proofs.BnStatsP.
Import ListNotations.
Local Open Scope nat_scope.

(** C54: with the fused kernel and bias every output is
    scale*(Wx - moving_mean) + bias + bn_beta of its channel, before quantization. *)
Theorem C54_affine : forall rsqrt l b x e, channelled (b_ts l) (b_kernel l) (b_loc l) (b_out l) ->
  b_scale l = true -> b_center l = true -> e < length (b_ts l) -> chan (b_loc l) (b_out l) e < n_chan l ->
  let c := chan (b_loc l) (b_out l) e in
  let p v := nth c v (qz 0) in
  nth e (bias_add (b_loc l) (b_out l) (data (bn_fused_bias rsqrt l b)) (linop (b_ts l) (data (bn_fused_kernel rsqrt l)) x)) (qz 0) =
  (normalised (p (b_gamma l)) (p (b_beta l)) (p (b_mean l)) (p (b_var l)) (b_eps l) rsqrt (nth e (linop (b_ts l) (data (b_kernel l)) x) (qz 0))
   + p (data b))%Qc.
Proof.
  intros rsqrt l b x e HC HS HN He Hc. cbv zeta. rewrite nth_bias_add by (rewrite linop_length; exact He).
  unfold bn_fused_kernel, bn_fused_bias. rewrite HS, HN. cbn [data]. rewrite nth_map_chans by exact Hc.
  rewrite (linop_scaled _ _ _ _ _ _ _ HC He). unfold bn_scale, gamma_of, var_of, mean_of, beta_of, normalised. rewrite HS, HN. ring.
Qed.
Print Assumptions C54_affine.

(** C54: without centering there is no mean and no bn_beta. *)
Theorem C54_scale_only : forall rsqrt l b x e, channelled (b_ts l) (b_kernel l) (b_loc l) (b_out l) ->
  b_scale l = true -> b_center l = false -> e < length (b_ts l) ->
  let c := chan (b_loc l) (b_out l) e in
  let p v := nth c v (qz 0) in
  let wx := nth e (linop (b_ts l) (data (b_kernel l)) x) (qz 0) in
  let z := linop (b_ts l) (data (bn_fused_kernel rsqrt l)) x in
  nth e z (qz 0) = normalised (p (b_gamma l)) (qz 0) (qz 0) (p (b_var l)) (b_eps l) rsqrt wx /\
  nth e (bias_add (b_loc l) (b_out l) (data (bn_fused_bias rsqrt l b)) z) (qz 0) =
  (normalised (p (b_gamma l)) (qz 0) (qz 0) (p (b_var l)) (b_eps l) rsqrt wx + p (data b))%Qc.
Proof.
  intros rsqrt l b x e HC HS HN He. cbv zeta. rewrite nth_bias_add by (rewrite linop_length; exact He).
  unfold bn_fused_kernel, bn_fused_bias. rewrite HS, HN. rewrite (linop_scaled _ _ _ _ _ _ _ HC He).
  unfold bn_scale, gamma_of, var_of, normalised. rewrite HS. change (qz 0) with 0%Qc. split; ring.
Qed.
Print Assumptions C54_scale_only.

(** C54: when the quantizers keep the fused kernel and bias, these are the values entering the activation quantizer. *)
Theorem C54_in_layer : forall rsqrt pw ln2 l b xs nk nb kq', channelled (b_ts l) (b_kernel l) (b_loc l) (b_out l) ->
  b_scale l = true -> b_center l = true -> b_bias l = Some b ->
  (forall e, e < length (b_ts l) -> chan (b_loc l) (b_out l) e < n_chan l) ->
  call pw ln2 (b_kq l) (bn_fused_kernel rsqrt l) false false nk = Ok (bn_fused_kernel rsqrt l, kq') ->
  bias_forward pw ln2 (b_paq l) (bn_fused_bias rsqrt l b) false (b_bias_loc l) nb = Ok (bn_fused_bias rsqrt l b) ->
  exists zs op', pre_activation pw ln2 (bn_hlayer rsqrt l) xs false nk nb = Ok (zs, op') /\ length zs = length xs /\
    forall j e, j < length xs -> e < length (b_ts l) ->
    let c := chan (b_loc l) (b_out l) e in
    let p v := nth c v (qz 0) in
    nth e (nth j zs []) (qz 0) =
    (normalised (p (b_gamma l)) (p (b_beta l)) (p (b_mean l)) (p (b_var l)) (b_eps l) rsqrt
       (nth e (linop (b_ts l) (data (b_kernel l)) (hd [] (nth j xs []))) (qz 0)) + p (data b))%Qc.
Proof.
  intros rsqrt pw ln2 l b xs nk nb kq' HC HS HN HB HE EK EB. unfold pre_activation, bn_hlayer. cbn [l_op l_paq l_loc l_out]. rewrite EK, HB.
  cbn [rbind fst snd option_map]. rewrite EB. cbn [rbind]. eexists _, _. split; [reflexivity|]. split; [rewrite !map_length; reflexivity|].
  intros j e Hj He. cbv zeta. rewrite map_map.
  match goal with |- context [nth j (map ?f xs) ?d] => rewrite (nth_indep (map f xs) d (f [])) by (rewrite map_length; exact Hj); rewrite (map_nth f) end.
  apply (C54_affine rsqrt l b (hd [] (nth j xs [])) e HC HS HN He (HE e He)).
Qed.
Print Assumptions C54_in_layer.

(** C54: with a scale the result is the batch normalisation of Wx + bias only where the bias vanishes or the scale is one. *)
Theorem C54_standard_iff : forall rsqrt l b x e, channelled (b_ts l) (b_kernel l) (b_loc l) (b_out l) ->
  b_scale l = true -> b_center l = true -> e < length (b_ts l) -> chan (b_loc l) (b_out l) e < n_chan l ->
  let c := chan (b_loc l) (b_out l) e in
  let p v := nth c v (qz 0) in
  nth e (bias_add (b_loc l) (b_out l) (data (bn_fused_bias rsqrt l b)) (linop (b_ts l) (data (bn_fused_kernel rsqrt l)) x)) (qz 0) =
  normalised (p (b_gamma l)) (p (b_beta l)) (p (b_mean l)) (p (b_var l)) (b_eps l) rsqrt
    (nth e (linop (b_ts l) (data (b_kernel l)) x) (qz 0) + p (data b))%Qc
  <-> (p (data b) = qz 0 \/ p (b_gamma l) * rsqrt (p (b_var l) + b_eps l) = qz 1)%Qc.
Proof.
  intros rsqrt l b x e HC HS HN He Hc. cbv zeta. rewrite (C54_affine rsqrt l b x e HC HS HN He Hc). unfold normalised.
  set (g := nth _ (b_gamma l) _). set (r := rsqrt _). set (v := nth _ (linop _ _ _) _). set (bb := nth _ (data b) _). set (m := nth _ (b_mean l) _). set (be := nth _ (b_beta l) _).
  change (qz 0) with 0%Qc. change (qz 1) with 1%Qc. split.
  - intros E. assert (Z : (bb * (1 - g * r) = 0)%Qc).
    { replace (bb * (1 - g * r))%Qc with ((g * (v - m) * r + be + bb) - (g * (v + bb - m) * r + be))%Qc by ring. rewrite E. ring. }
    apply Qcmult_integral in Z. destruct Z as [Z|Z]; [left; exact Z|right]. replace (g * r)%Qc with (1 - (1 - g * r))%Qc by ring. rewrite Z. ring.
  - intros [-> | E]; [ring|]. replace (g * (v + bb - m) * r)%Qc with (g * (v - m) * r + bb * (g * r))%Qc by ring. rewrite E. ring.
Qed.
Print Assumptions C54_standard_iff.

(** A dense layer from one input to one output, kernel 1, bias 1/2, with the statistics of the batch [1], [3]:
    mean 2 + 1/2, variance 1; epsilon 3. *)
Definition q4 (shp : list nat) : hgq :=
  mkH (mkT shp (repeat (qz 4) (prodn shp))) (mkT shp (repeat PosInf (prodn shp))) (mkT shp (repeat NegInf (prodn shp))) None 0 true None.
Definition bn1 (center scale : bool) (bias : option (tensor Qc)) (beta : Qc) (mean var : list Qc) (eps : Qc) : bnlayer :=
  mkB [[(0, 0)]] (mkT [1; 1] [qz 1]) (q4 [1; 1]) bias (-1)%Z center scale [qz 1] [beta] mean var eps (Q2Qc (99 # 100))
      (q4 [1; 1]) false (-1)%Z [1].
Definition half : tensor Qc := mkT [1] [Q2Qc (1 # 2)].
Definition batch1 : list (list sample) := [[[qz 1]]; [[qz 3]]].
Definition no_noise : nat -> Qc := fun _ => qz 0.
(** A function that is the reciprocal square root at 1, 9/4 and 4. *)
Definition rsqrt_tab (x : Qc) : Qc := if qeqb x (qz 4) then Q2Qc (1 # 2) else if qeqb x (Q2Qc (9 # 4)) then Q2Qc (2 # 3) else qz 1.
Lemma rsqrt_tab_ok : Forall (fun x => rsqrt_tab x * rsqrt_tab x * x = qz 1)%Qc [qz 1; Q2Qc (9 # 4); qz 4].
Proof. repeat (apply Forall_cons; [vm_compute; apply this_inj; reflexivity|]). apply Forall_nil. Qed.

Definition bn_on := bn1 true true (Some half) (qz 0) [Q2Qc (5 # 2)] [qz 1] (qz 3).

Example C54_ex : channelled (b_ts bn_on) (b_kernel bn_on) (b_loc bn_on) (b_out bn_on) /\ b_scale bn_on = true /\ b_center bn_on = true /\
  chan (b_loc bn_on) (b_out bn_on) 0 < n_chan bn_on /\
  map this (bias_add (-1) [1] (data (bn_fused_bias rsqrt_tab bn_on half)) (linop [[(0, 0)]] (data (bn_fused_kernel rsqrt_tab bn_on)) [qz 3])) = [(3 # 4)%Q].
Proof.
  split; [|split; [reflexivity|split; [reflexivity|split; [vm_compute; lia|vm_compute; reflexivity]]]].
  split; [vm_compute; lia|]. intros [|[|e]] ps E; cbn in E; [|discriminate..]. injection E as <-. constructor; [reflexivity|constructor].
Qed.

(** C54: the bias is not part of what is normalised, although the moving mean
    contains it: the fused layer is not the batch normalisation of the dense layer. *)
Theorem C54_standard_refuted : exists l b x, b_scale l = true /\ b_center l = true /\ b_bias l = Some b /\
  nth 0 (bias_add (b_loc l) (b_out l) (data (bn_fused_bias rsqrt_tab l b)) (linop (b_ts l) (data (bn_fused_kernel rsqrt_tab l)) x)) (qz 0) <>
  normalised (hd (qz 0) (b_gamma l)) (hd (qz 0) (b_beta l)) (hd (qz 0) (b_mean l)) (hd (qz 0) (b_var l)) (b_eps l) rsqrt_tab
    (nth 0 (linop (b_ts l) (data (b_kernel l)) x) (qz 0) + hd (qz 0) (data b))%Qc.
Proof.
  exists bn_on, half, [qz 3]. do 3 (split; [reflexivity|]). intros C. apply (f_equal this) in C. vm_compute in C. discriminate.
Qed.
Print Assumptions C54_standard_refuted.

(** C54: with scale off and center on the mean is still multiplied by rsqrt(1 + eps). *)
Theorem C54_center_only_refuted : exists l b x, b_scale l = false /\ b_center l = true /\ b_bias l = Some b /\
  nth 0 (bias_add (b_loc l) (b_out l) (data (bn_fused_bias rsqrt_tab l b)) (linop (b_ts l) (data (bn_fused_kernel rsqrt_tab l)) x)) (qz 0) <>
  (nth 0 (linop (b_ts l) (data (b_kernel l)) x) (qz 0) - hd (qz 0) (b_mean l) + hd (qz 0) (data b) + hd (qz 0) (b_beta l))%Qc.
Proof.
  exists (bn1 true false (Some half) (qz 0) [Q2Qc (5 # 2)] [qz 1] (Q2Qc (5 # 4))), half, [qz 3]. do 3 (split; [reflexivity|]).
  intros C. apply (f_equal this) in C. vm_compute in C. discriminate.
Qed.
Print Assumptions C54_center_only_refuted.

(** ** C55 *)

(** C55: on a batch whose statistics are the moving ones, the training pass of a layer with zero
    bn_beta (center and scale on, or no bias) succeeds exactly when the plain pass with quantizers in
    training mode does, gives the same outputs and leaves the moving statistics alone. *)
Theorem C55_training_formula : forall rsqrt pw ln2 l xs r nk nb na, same_mode l -> stats_match l xs ->
  (forall ys l', bn_train rsqrt pw ln2 l xs r nk nb na = Ok (ys, l') ->
    hforward pw ln2 (bn_hlayer rsqrt l) xs true r nk nb na = Ok (ys, bn_hlayer rsqrt l') /\ b_mean l' = b_mean l /\ b_var l' = b_var l) /\
  (forall ys h', hforward pw ln2 (bn_hlayer rsqrt l) xs true r nk nb na = Ok (ys, h') ->
    exists l', bn_train rsqrt pw ln2 l xs r nk nb na = Ok (ys, l')).
Proof.
  intros rsqrt pw ln2 l xs r nk nb na HM HS. pose proof (train_inference rsqrt pw ln2 l xs r nk nb na HM HS) as T.
  destruct (bn_train rsqrt pw ln2 l xs r nk nb na) as [[ys0 l0]|], (hforward pw ln2 (bn_hlayer rsqrt l) xs true r nk nb na) as [[ys1 h1]|];
    try contradiction.
  - destruct T as (-> & -> & M & V). split.
    + intros ys l' E. assert (ys = ys1 /\ l' = l0) as [-> ->] by (split; congruence). auto.
    + intros ys h' E. exists l0. congruence.
  - split; intros; discriminate.
Qed.
Print Assumptions C55_training_formula.

(** C55: if both quantizers round deterministically at exact bitwidths, those are the inference outputs. *)
Theorem C55_training_is_inference : forall rsqrt pw ln2 l xs r nk nb na ys l', same_mode l -> stats_match l xs ->
  deterministic (b_kq l) -> deterministic (b_paq l) ->
  bn_train rsqrt pw ln2 l xs r nk nb na = Ok (ys, l') ->
  hforward pw ln2 (bn_hlayer rsqrt l) xs false r nk nb na = Ok (ys, bn_hlayer rsqrt l').
Proof.
  intros rsqrt pw ln2 l xs r nk nb na ys l' HM HS DK DP E.
  destruct (C55_training_formula rsqrt pw ln2 l xs r nk nb na HM HS) as [H _]. destruct (H ys l' E) as [E' _].
  rewrite <- hforward_det; [exact E'|exact DP|]. cbn. intros ts k kq b bl EO. injection EO as _ _ <- _ _. exact DK.
Qed.
Print Assumptions C55_training_is_inference.

Example C55_ex : same_mode bn_on /\ stats_match bn_on batch1 /\ deterministic (b_kq bn_on) /\ deterministic (b_paq bn_on) /\
  exists ys l', bn_train rsqrt_tab (fun _ => qz 0) (qz 0) bn_on batch1 false no_noise no_noise no_noise = Ok (ys, l') /\
    map (map this) ys = [[(-1 # 4)%Q]; [(3 # 4)%Q]].
Proof.
  split.
  { split; [vm_compute; lia|]. do 2 (split; [reflexivity|]). do 3 (split; [reflexivity|]). intros [|c] H; [reflexivity|cbn in H; lia]. }
  split.
  { intros [|c] H; [|cbn in H; lia]. cbv zeta. split; [discriminate|]. split.
    - intros _. exists half, (qz 2). split; [reflexivity|]. split; apply this_inj; vm_compute; reflexivity.
    - intros _. exists (qz 2). split; apply this_inj; vm_compute; reflexivity. }
  split; [split; [reflexivity|left; reflexivity]|]. split; [split; [reflexivity|left; reflexivity]|].
  do 2 eexists. split; [vm_compute; reflexivity|vm_compute; reflexivity].
Qed.

(** What the two passes of a one-output layer return on [batch1]. *)
Definition both (l : bnlayer) : option (list (list Q) * list (list Q)) :=
  match bn_train rsqrt_tab (fun _ => qz 0) (qz 0) l batch1 false no_noise no_noise no_noise,
        hforward (fun _ => qz 0) (qz 0) (bn_hlayer rsqrt_tab l) batch1 false false no_noise no_noise no_noise with
  | Ok (a, _), Ok (b, _) => Some (map (map this) a, map (map this) b)
  | _, _ => None
  end.

(** C55: training ignores bn_beta, inference adds it. *)
Theorem C55_beta_refuted : exists l, b_scale l = true /\ b_center l = true /\ stats_match l batch1 /\
  deterministic (b_kq l) /\ deterministic (b_paq l) /\ both l = Some ([[-1 # 4]; [3 # 4]], [[3 # 4]; [7 # 4]])%Q.
Proof.
  exists (bn1 true true (Some half) (qz 1) [Q2Qc (5 # 2)] [qz 1] (qz 3)). do 2 (split; [reflexivity|]). split.
  { intros [|c] H; [|cbn in H; lia]. cbv zeta. split; [discriminate|]. split.
    - intros _. exists half, (qz 2). split; [reflexivity|]. split; apply this_inj; vm_compute; reflexivity.
    - intros _. exists (qz 2). split; apply this_inj; vm_compute; reflexivity. }
  split; [split; [reflexivity|left; reflexivity]|]. split; [split; [reflexivity|left; reflexivity]|]. vm_compute. reflexivity.
Qed.
Print Assumptions C55_beta_refuted.

(** C55: scale=False, center=True: training subtracts the mean, inference the mean times rsqrt(1 + eps). *)
Theorem C55_center_only_refuted : exists l, b_scale l = false /\ b_center l = true /\ b_beta l = [qz 0] /\ stats_match l batch1 /\
  deterministic (b_kq l) /\ deterministic (b_paq l) /\ both l = Some ([[-1]; [1]], [[-3 # 16]; [29 # 16]])%Q.
Proof.
  exists (bn1 true false (Some half) (qz 0) [Q2Qc (5 # 2)] [qz 1] (Q2Qc (5 # 4))). do 3 (split; [reflexivity|]). split.
  { intros [|c] H; [|cbn in H; lia]. cbv zeta. split; [discriminate|]. split; [|discriminate].
    intros _. exists half, (qz 2). split; [reflexivity|]. split; apply this_inj; vm_compute; reflexivity. }
  split; [split; [reflexivity|left; reflexivity]|]. split; [split; [reflexivity|left; reflexivity]|]. vm_compute. reflexivity.
Qed.
Print Assumptions C55_center_only_refuted.

(** C55: center=False with a bias: training leaves the bias out. *)
Theorem C55_bias_dropped_refuted : exists l, b_scale l = true /\ b_center l = false /\ b_bias l = Some half /\ stats_match l batch1 /\
  deterministic (b_kq l) /\ deterministic (b_paq l) /\ both l = Some ([[1 # 2]; [3 # 2]], [[1]; [2]])%Q.
Proof.
  exists (bn1 false true (Some half) (qz 0) [qz 0] [qz 1] (qz 3)). do 3 (split; [reflexivity|]). split.
  { intros [|c] H; [|cbn in H; lia]. cbv zeta. split; [discriminate|]. split; [discriminate|].
    intros _. exists (qz 2). split; apply this_inj; vm_compute; reflexivity. }
  split; [split; [reflexivity|left; reflexivity]|]. split; [split; [reflexivity|left; reflexivity]|]. vm_compute. reflexivity.
Qed.
Print Assumptions C55_bias_dropped_refuted.

(** ** C56 *)

(** C56: what the standalone layer computes with its quantizers removed: ker*x + (beta - mean/ker). *)
Theorem C56_value : forall rsqrt l mean var x s,
  shape (m_gamma l) = s -> shape (m_beta l) = s -> shape mean = s -> shape var = s -> bshape s (shape x) = Some (shape x) ->
  exists z, bnorm_z rsqrt l Ok Ok mean var x = Ok z /\ shape z = shape x /\ length (data z) = prodn (shape x) /\
    forall p, p < prodn (shape x) -> let c := bidx s (shape x) p in
      let ker := (nth c (data (m_gamma l)) (qz 0) * rsqrt (nth c (data var) (qz 0) + m_eps l))%Qc in
      nth p (data z) (qz 0) = (ker * nth p (data x) (qz 0) + (nth c (data (m_beta l)) (qz 0) - nth c (data mean) (qz 0) / ker))%Qc.
Proof. exact bnorm_z_value. Qed.
Print Assumptions C56_value.

(** C56: that is batch normalisation exactly on channels with mean zero or scale 1 or -1. *)
Theorem C56_correct_iff : forall rsqrt l mean var x s z p,
  shape (m_gamma l) = s -> shape (m_beta l) = s -> shape mean = s -> shape var = s -> bshape s (shape x) = Some (shape x) ->
  bnorm_z rsqrt l Ok Ok mean var x = Ok z -> p < prodn (shape x) ->
  let c := bidx s (shape x) p in
  let v t := nth c (data t) (qz 0) in
  let ker := (v (m_gamma l) * rsqrt (v var + m_eps l))%Qc in
  ker <> qz 0 ->
  nth p (data z) (qz 0) = normalised (v (m_gamma l)) (v (m_beta l)) (v mean) (v var) (m_eps l) rsqrt (nth p (data x) (qz 0)) <->
  (v mean = qz 0 \/ ker = qz 1 \/ ker = - qz 1)%Qc.
Proof.
  intros rsqrt l mean var x s z p E1 E2 E3 E4 HB EZ Hp. cbv beta zeta. intros HK.
  destruct (bnorm_z_value rsqrt l mean var x s E1 E2 E3 E4 HB) as (z' & EZ' & _ & _ & N).
  assert (z' = z) by congruence. subst z'. rewrite (N p Hp). unfold normalised.
  set (g := nth _ (data (m_gamma l)) _) in *. set (be := nth _ (data (m_beta l)) _). set (m := nth _ (data mean) _). set (xv := nth p (data x) _).
  set (r := rsqrt _) in *. change (qz 0) with 0%Qc in *. change (qz 1) with 1%Qc. set (k := (g * r)%Qc) in *.
  assert (D : (k * xv + (be - m / k) - (g * (xv - m) * r + be) = m * (k - 1 / k))%Qc) .
  { replace (g * (xv - m) * r)%Qc with (k * (xv - m))%Qc by (unfold k; ring). clearbody k. field. exact HK. }
  assert (F : (k - 1 / k = (k - 1) * (k + 1) / k)%Qc) by (clear D; clearbody k; field; exact HK).
  split.
  - intros E. rewrite E in D. assert (Z : (m * (k - 1 / k) = 0)%Qc) by (rewrite <- D; ring).
    apply Qcmult_integral in Z. destruct Z as [Z|Z]; [left; exact Z|right].
    rewrite F in Z. assert (Z' : ((k - 1) * (k + 1) = 0)%Qc).
    { replace ((k - 1) * (k + 1))%Qc with ((k - 1) * (k + 1) / k * k)%Qc by (clear - HK; clearbody k; field; exact HK). rewrite Z. ring. }
    apply Qcmult_integral in Z'. destruct Z' as [Z'|Z'].
    + left. replace k with ((k - 1) + 1)%Qc by ring. rewrite Z'. ring.
    + right. replace k with ((k + 1) - 1)%Qc by ring. rewrite Z'. ring.
  - intros H. assert (Z : (m * (k - 1 / k) = 0)%Qc).
    { destruct H as [-> | [-> | ->]]; [ring|field; discriminate|field; discriminate]. }
    rewrite Z in D. replace (k * xv + (be - m / k))%Qc with ((k * xv + (be - m / k) - (g * (xv - m) * r + be)) + (g * (xv - m) * r + be))%Qc by ring.
    rewrite D. ring.
Qed.
Print Assumptions C56_correct_iff.

(** C56: the standalone layer does not compute batch normalisation: gamma 1, beta 0, mean 1, variance 1,
    epsilon 3, input 1 gives -3/2 instead of 0 (also through the layer's quantizers). *)
Definition bnorm1 : bnorm :=
  mkN (mkT [1; 1] [qz 1]) (mkT [1; 1] [qz 0]) (mkT [1; 1] [qz 1]) (mkT [1; 1] [qz 1]) (qz 3) (Q2Qc (99 # 100)) [0%Z] (q4 [1; 1]) (q4 [1; 1]).
Theorem C56_refuted : exists l x y z l', shape (m_gamma l) = [1; 1] /\ shape x = [1; 1] /\
  bnorm_forward rsqrt_tab (fun _ => qz 0) (qz 0) l x false false no_noise no_noise no_noise = Ok (y, l') /\
  bnorm_z rsqrt_tab l Ok Ok (m_mean l) (m_var l) x = Ok z /\ data y = data z /\
  let v t := nth 0 (data t) (qz 0) in
  v z <> normalised (v (m_gamma l)) (v (m_beta l)) (v (m_mean l)) (v (m_var l)) (m_eps l) rsqrt_tab (v x).
Proof.
  exists bnorm1, (mkT [1; 1] [qz 1]). do 3 eexists. split; [reflexivity|]. split; [reflexivity|].
  split; [vm_compute; reflexivity|]. split; [vm_compute; reflexivity|]. split.
  - reflexivity.
  - cbv zeta. intros C. apply (f_equal this) in C. vm_compute in C. discriminate.
Qed.
Print Assumptions C56_refuted.

Example C56_ex : exists z, bnorm_z rsqrt_tab bnorm1 Ok Ok (mkT [1; 1] [qz 0]) (m_var bnorm1) (mkT [2; 1] [qz 1; qz 4]) = Ok z /\
  map this (data z) = [(1 # 2)%Q; 2%Q] /\ bshape [1; 1] [2; 1] = Some [2; 1].
Proof. eexists. split; [vm_compute; reflexivity|]. split; vm_compute; reflexivity. Qed.

(** C56: in training the standalone layer uses the mean and variance of the batch over every axis but the
    channel's, for each channel separately, and moves the moving statistics towards them. *)
Theorem C56_statistics : forall rsqrt pw ln2 l x rec n1 n2 n3 y l',
  let s := kept1 (axis_flags (length (shape x)) (m_axes l)) (shape x) in
  wf_tensor x -> shape (m_mean l) = s -> shape (m_var l) = s ->
  bnorm_forward rsqrt pw ln2 l x true rec n1 n2 n3 = Ok (y, l') ->
  exists mean var z, let q quant n t := rbind (call pw ln2 quant t true false n) (fun r => Ok (fst r)) in
    let at_ t c := nth c (data t) (qz 0) in
    shape mean = s /\ shape var = s /\
    (forall c, c < prodn s -> group_of s x c <> [] ->
      is_mean (group_of s x c) (at_ mean c) /\ is_var (group_of s x c) (at_ var c) /\
      at_ (m_mean l') c = (m_momentum l * at_ (m_mean l) c + (qz 1 - m_momentum l) * at_ mean c)%Qc /\
      at_ (m_var l') c = (m_momentum l * at_ (m_var l) c + (qz 1 - m_momentum l) * at_ var c)%Qc) /\
    bnorm_z rsqrt l (q (m_kq l) n1) (q (m_paq l) n2) mean var x = Ok z /\
    exists q', call pw ln2 (clip_fbw (m_paq l)) z true rec n3 = Ok (y, q').
Proof. exact bnorm_statistics. Qed.
Print Assumptions C56_statistics.

(** Two samples (1, 0) and (3, 4): means 2 and 2, variances 1 and 4; momentum 1/2. *)
Definition bnorm2 : bnorm :=
  mkN (mkT [1; 2] [qz 1; qz 1]) (mkT [1; 2] [qz 0; qz 0]) (mkT [1; 2] [qz 1; qz 0]) (mkT [1; 2] [qz 1; qz 1]) (qz 3) (Q2Qc (1 # 2)) [0%Z] (q4 [1; 2]) (q4 [1; 2]).
Definition bnorm2_x : tensor Qc := mkT [2; 2] [qz 1; qz 0; qz 3; qz 4].
Example C56_statistics_ex : wf_tensor bnorm2_x /\ kept1 (axis_flags 2 (m_axes bnorm2)) (shape bnorm2_x) = shape (m_mean bnorm2) /\
  group_of [1; 2] bnorm2_x 0 = [qz 1; qz 3] /\ group_of [1; 2] bnorm2_x 1 = [qz 0; qz 4] /\
  match bnorm_forward rsqrt_tab (fun _ => qz 0) (qz 0) bnorm2 bnorm2_x true false no_noise no_noise no_noise with
  | Ok (_, l') => (map this (data (m_mean l')), map this (data (m_var l'))) | Raise => ([], []) end = ([3 # 2; 1]%Q, [1; 5 # 2]%Q).
Proof. split; [reflexivity|]. split; [reflexivity|]. split; [reflexivity|]. split; [reflexivity|]. vm_compute. reflexivity. Qed.

(** C56: at inference it uses the moving statistics and leaves them alone. *)
Theorem C56_inference : forall rsqrt pw ln2 l x rec n1 n2 n3 y l', bnorm_forward rsqrt pw ln2 l x false rec n1 n2 n3 = Ok (y, l') ->
  m_mean l' = m_mean l /\ m_var l' = m_var l /\
  exists z, let q quant n t := rbind (call pw ln2 quant t false false n) (fun r => Ok (fst r)) in
    bnorm_z rsqrt l (q (m_kq l) n1) (q (m_paq l) n2) (m_mean l) (m_var l) x = Ok z /\
    exists q', call pw ln2 (clip_fbw (m_paq l)) z false rec n3 = Ok (y, q').
Proof.
  intros rsqrt pw ln2 l x rec n1 n2 n3 y l' E. unfold bnorm_forward in E. cbn [rbind] in E. apply rbind_ok in E. destruct E as [z [EZ E]].
  apply rbind_ok in E. destruct E as [[y' q'] [EQ E]]. cbn [fst snd] in E. injection E as -> <-. split; [reflexivity|]. split; [reflexivity|]. exists z. cbv zeta. eauto.
Qed.
Print Assumptions C56_inference.
Example C56_inference_ex :
  match bnorm_forward rsqrt_tab (fun _ => qz 0) (qz 0) bnorm2 bnorm2_x false false no_noise no_noise no_noise with
  | Ok (y, l') => (map this (data y), map this (data (m_mean l'))) | Raise => ([], []) end = ([-3 # 2; 0; -1 # 2; 2]%Q, [1; 0]%Q).
Proof. vm_compute. reflexivity. Qed.

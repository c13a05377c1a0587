(** C68: the adaptation of the kernel bitwidths in the first training call of HDenseBatchNorm
    (batchnorm_base.py:112-126, dense.py:157-163). *)
From Coq Require Import ZArith QArith Qcanon List Bool String Lia.
From Verif Require Import Base.Num Base.NumFacts Base.Compute Base.Tensor Model.Quantizer Model.Layers Model.Conf Model.BatchNorm Model.Serial
  Spec.Fixed Spec.Quant Spec.History Spec.Norm Spec.Serial Spec.Adapt Proofs.CallP Proofs.QuantizerP Proofs.BatchNormP Proofs.AdaptP Proofs.SerialP Proofs.ShapeP Props.P_Serial.
Import ListNotations.
Local Open Scope nat_scope.

(** C68: every bitwidth f becomes f minus the largest log2 |w gamma / sqrt(v + epsilon)| of its weights (cut off at the
    limits of the configuration), v being the variances of the outputs of the layer on the batch, in inference and with
    32-bit weights.  Groups of zeros get the upper limit. *)
Theorem C68_first_call : forall geo_of exact_of clip_of rsqrt pw ln2 lg o i xs o' m pre rest lo hi,
  a_adapt (o_args o) = true -> a_cls (o_args o) = HDenseBN -> a_scale (o_args o) = true ->
  (exists w, In ("kernel_bw"%string, w) (o_w o)) ->
  prefix_skip (i_skip i) m -> List.length pre = m -> reg_ok m rest (weight o "kernel_bw") ->
  shape (weight o "kernel") = (pre ++ rest)%list -> List.length (data (weight o "kernel")) = prodn (shape (weight o "kernel")) ->
  0 < last (shape (weight o "kernel")) 1 -> clip_of (a_kq (o_args o)) = Some (lo, hi) -> (lo <= hi)%Qc ->
  first_training_call geo_of exact_of clip_of rsqrt pw ln2 lg o i xs = Ok o' ->
  let b := bn_of geo_of exact_of clip_of o i in
  exists zs l', hforward pw ln2 (bn_hlayer rsqrt (full_width b)) xs false false (fun _ => qz 0) (fun _ => qz 0) (fun _ => qz 0) = Ok (zs, l') /\
  forall v, (forall c, c < last (shape (weight o "kernel")) 1 ->
              channel_values (b_loc b) (b_out b) zs c <> [] /\ is_var (channel_values (b_loc b) (b_out b) zs c) (v c)) ->
  forall g, g < prodn rest -> exists e,
    adapted lg (weight o "kernel") (prodn rest) g (fun c => nth c (data (weight o "bn_gamma")) (qz 0) * rsqrt (v c + a_eps (o_args o)))%Qc
      (nth g (data (weight o "kernel_bw")) (qz 0)) e /\
    cut lo hi e (nth g (data (weight o' "kernel_bw")) (qz 0)).
Proof.
  intros geo_of exact_of clip_of rsqrt pw ln2 lg o i xs o' m pre rest lo hi HA HC HS HI H1 H2 H3 H4 H5 HL HCl Hlh E b.
  destruct (first_call_form _ _ _ _ _ _ _ o i xs o' HA HC E) as [t [f [T _]]]. fold b in T.
  assert (SB : b_scale b = true) by exact HS.
  destruct (adapt_fused_form _ _ _ _ b xs t SB T) as [[zs l'] [Z _]]. exists zs, l'. split; [exact Z|]. intros v Hv g Hg.
  refine (adapted_ref geo_of exact_of clip_of rsqrt pw lg ln2 o i xs o' m pre rest lo hi _ _ HA HC HI H1 H2 H3 H4 H5 HCl Hlh _ E g Hg).
  intros u U. destruct (adapt_fused_form _ _ _ _ b xs u SB U) as [[zs0 l0] [Z' U']]. assert (zs0 = zs) by congruence. subst zs0.
  cbn [fst] in U'. rewrite <- U'. change (q_skip (b_kq b)) with (i_skip i). change (q_fbw (b_kq b)) with (weight o "kernel_bw"). f_equal.
  change (b_kernel b) with (weight o "kernel"). apply scale_kernel_ext; [exact HL|]. intros c Hc. destruct (Hv c Hc) as [N V].
  rewrite chan_vals_spec, (var_list_spec _ _ N V). unfold gamma_of. rewrite SB. reflexivity.
Qed.
Print Assumptions C68_first_call.

(** C68: without scale the kernel itself is the reference. *)
Theorem C68_without_scale : forall geo_of exact_of clip_of rsqrt pw ln2 lg o i xs o' m pre rest lo hi,
  a_adapt (o_args o) = true -> a_cls (o_args o) = HDenseBN -> a_scale (o_args o) = false ->
  (exists w, In ("kernel_bw"%string, w) (o_w o)) ->
  prefix_skip (i_skip i) m -> List.length pre = m -> reg_ok m rest (weight o "kernel_bw") ->
  shape (weight o "kernel") = (pre ++ rest)%list -> List.length (data (weight o "kernel")) = prodn (shape (weight o "kernel")) ->
  clip_of (a_kq (o_args o)) = Some (lo, hi) -> (lo <= hi)%Qc ->
  first_training_call geo_of exact_of clip_of rsqrt pw ln2 lg o i xs = Ok o' ->
  forall g, g < prodn rest -> exists e,
    adapted lg (weight o "kernel") (prodn rest) g (fun _ => qz 1) (nth g (data (weight o "kernel_bw")) (qz 0)) e /\
    cut lo hi e (nth g (data (weight o' "kernel_bw")) (qz 0)).
Proof.
  intros geo_of exact_of clip_of rsqrt pw ln2 lg o i xs o' m pre rest lo hi HA HC HS HI H1 H2 H3 H4 H5 HCl Hlh E.
  refine (adapted_ref geo_of exact_of clip_of rsqrt pw lg ln2 o i xs o' m pre rest lo hi _ _ HA HC HI H1 H2 H3 H4 H5 HCl Hlh _ E).
  intros u U. unfold adapt_fused_bn in U. assert (SB : b_scale (bn_of geo_of exact_of clip_of o i) = false) by exact HS. rewrite SB in U. cbn [negb] in U.
  rewrite scale_one. exact U.
Qed.
Print Assumptions C68_without_scale.

(** C68: nothing else changes, and later training calls adapt nothing. *)
Theorem C68_once : forall geo_of exact_of clip_of rsqrt pw ln2 lg o i xs o',
  first_training_call geo_of exact_of clip_of rsqrt pw ln2 lg o i xs = Ok o' ->
  (a_cls (o_args o) = HDenseBN -> a_adapt (o_args o') = false) /\
  (forall n, n <> "kernel_bw"%string -> weight o' n = weight o n) /\
  o_min o' = o_min o /\ o_max o' = o_max o /\
  (let a := o_args o in
   o_args o' = mkA (a_cls a) (a_keras a) (a_kq a) (a_paq a) (a_beta a) (a_pf a) (a_mom a) (a_eps a) (a_center a) (a_scale a) (a_adapt (o_args o'))) /\
  forall xs', first_training_call geo_of exact_of clip_of rsqrt pw ln2 lg o' i xs' = Ok o'.
Proof.
  intros geo_of exact_of clip_of rsqrt pw ln2 lg o i xs o' E.
  destruct (a_adapt (o_args o) && delayed (a_cls (o_args o)))%bool eqn:D; unfold first_training_call in E; rewrite D in E.
  - apply rbind_ok in E. destruct E as [t [_ E]]. apply rbind_ok in E. destruct E as [f [_ E]].
    match type of E with Ok ?u = _ => assert (o' = u) by congruence end. subst o'. clear E. split; [reflexivity|].
    split.
    { intros n N. unfold weight. cbn [o_w]. unfold put. induction (o_w o) as [|[a w] ws IH]; [reflexivity|]. cbn [map find fst].
      destruct (String.eqb_spec a "kernel_bw") as [->|N2]; cbn [fst].
      - destruct (String.eqb_spec "kernel_bw" n); [congruence|exact IH].
      - destruct (String.eqb a n); [reflexivity|exact IH]. }
    repeat split.
  - assert (o' = o) by congruence. subst o'.
    split. { intros HC. rewrite HC in D. cbn [delayed] in D. rewrite andb_true_r in D. exact D. }
    do 3 (split; [reflexivity|]). split; [cbv zeta; destruct (o_args o); reflexivity|]. intros xs'. unfold first_training_call. rewrite D. reflexivity.
Qed.
Print Assumptions C68_once.

(** C68: no other layer has anything left to adapt when it has been built; in particular the first training call of a
    convolution with batch normalisation leaves its bitwidths as they are. *)
Theorem C68_only_dense : forall geo_of exact_of clip_of rsqrt pw ln2 lg init a ishape o i xs,
  build geo_of init a ishape = Ok o -> a_cls a <> HDenseBN -> has_kernel (a_cls a) = true ->
  a_adapt (o_args o) = false /\ first_training_call geo_of exact_of clip_of rsqrt pw ln2 lg o i xs = Ok o.
Proof.
  intros geo_of exact_of clip_of rsqrt pw ln2 lg init a ishape o i xs B N K.
  unfold build in B. cbv zeta in B. apply rbind_ok in B. destruct B as [p [_ B]]. apply rbind_ok in B. destruct B as [k [_ B]].
  apply rbind_ok in B. destruct B as [q [_ B]]. destruct (dget p "rnd_strategy"); [|discriminate].
  match type of B with Ok ?t = _ => assert (o = t) by congruence end. subst o. cbn [o_args a_adapt].
  assert (A : (if has_kernel (a_cls a) then a_adapt a && delayed (a_cls a) else a_adapt a)%bool = false).
  { rewrite K. destruct (a_cls a); try (apply andb_false_r); congruence. }
  split; [exact A|]. unfold first_training_call. cbn [o_args a_adapt a_cls]. rewrite A. reflexivity.
Qed.
Print Assumptions C68_only_dense.

Example C68_only_dense_ex : exists a o, construct (default_kq, default_paq) HConvBN [] = Ok a /\ build ex_geo ex_init a [1] = Ok o /\ a_adapt a = true.
Proof. eexists. eexists. split; [reflexivity|]. split; reflexivity. Qed.

(** C68: a weight with its own (integer) bitwidth b keeps b bits, up to two, in the fused kernel of the same training
    step, as long as the scale s' used there is within a factor of two of the scale s adapted to. *)
Theorem C68_same_number_of_bits : forall (lg : Qc -> Qc) b w s s' r e, (w * s)%Qc <> qz 0 ->
  (forall v e, (qz 0 < v)%Qc -> (pow2 e <= v)%Qc -> (qz e <= lg v)%Qc) ->
  (forall v e, (qz 0 < v)%Qc -> (v < pow2 e)%Qc -> (lg v < qz e)%Qc) ->
  adapted lg (mkT [1] [w]) 1 0 (fun _ => s) (qz b) (Fin e) -> nearest_even e r ->
  (qabs (w * s) <= qz 2 * qabs (w * s'))%Qc -> (qabs (w * s') <= qz 2 * qabs (w * s))%Qc ->
  (pow2 (b - 2) <= qabs (w * s') * pow2 r)%Qc /\ (qabs (w * s') * pow2 r < pow2 (b + 2))%Qc.
Proof.
  intros lg b w s s' r e NZ L1 L2 A R H1 H2.
  assert (E : e = (qz b - lg (qabs (w * s)))%Qc).
  { destruct A as [[_ A]|[v [[c [u [[j [J _]] [_ ->]]]] [A _]]]]; [discriminate|]. injection A as ->.
    destruct j as [|j]; [|destruct j; discriminate]. cbn in J. assert (u = w) by congruence. subst u. reflexivity. }
  destruct (adapt_bits lg b (w * s)%Qc r e NZ L1 L2) as [B1 B2]; [|exact R|].
  { unfold adapt_elem. destruct (qeqb_spec (w * s)%Qc (qz 0)); [contradiction|]. rewrite E. reflexivity. }
  assert (P : (qz 0 < pow2 r)%Qc) by apply pow2_pos.
  assert (M1 : (qabs (w * s) * pow2 r <= qz 2 * qabs (w * s') * pow2 r)%Qc) by (apply qmul_le_r; [apply Qclt_le_weak, P|exact H1]).
  assert (M2 : (qabs (w * s') * pow2 r <= qz 2 * qabs (w * s) * pow2 r)%Qc) by (apply qmul_le_r; [apply Qclt_le_weak, P|exact H2]).
  assert (E1 : pow2 (b - 1) = (qz 2 * pow2 (b - 2))%Qc) by (replace (b - 1)%Z with (1 + (b - 2))%Z by lia; rewrite pow2_add; reflexivity).
  assert (E2 : pow2 (b + 2) = (qz 2 * pow2 (b + 1))%Qc) by (replace (b + 2)%Z with (1 + (b + 1))%Z by lia; rewrite pow2_add; reflexivity).
  rewrite E1 in B1. rewrite E2.
  replace (qz 2 * qabs (w * s') * pow2 r)%Qc with (qz 2 * (qabs (w * s') * pow2 r))%Qc in M1 by ring.
  replace (qz 2 * qabs (w * s) * pow2 r)%Qc with (qz 2 * (qabs (w * s) * pow2 r))%Qc in M2 by ring.
  generalize dependent (qabs (w * s') * pow2 r)%Qc. generalize dependent (qabs (w * s) * pow2 r)%Qc. intros. split; qlra.
Qed.
Print Assumptions C68_same_number_of_bits.
Example C68_same_number_of_bits_ex : let lg := fun v => qz (flog2 v) in
  (forall v e, (qz 0 < v)%Qc -> (pow2 e <= v)%Qc -> (qz e <= lg v)%Qc) /\
  (forall v e, (qz 0 < v)%Qc -> (v < pow2 e)%Qc -> (lg v < qz e)%Qc) /\
  adapted lg (mkT [1] [qz 3]) 1 0 (fun _ => qz 2) (qz 4) (Fin (qz 2)) /\ nearest_even (qz 2) 2 /\
  (qabs (qz 3 * qz 2) <= qz 2 * qabs (qz 3 * qz 1))%Qc /\ (qabs (qz 3 * qz 1) <= qz 2 * qabs (qz 3 * qz 2))%Qc.
Proof.
  intros lg. split; [|split; [|split; [|split; [|split; vm_compute; discriminate]]]].
  - intros v e P H. unfold lg. apply (proj2 (qz_le _ _)). destruct (Z.lt_ge_cases (flog2 v) e) as [C|C]; [|assumption].
    apply (flog2_lt_iff v e P) in C. exfalso. qlra.
  - intros v e P H. unfold lg. apply (proj2 (qz_lt _ _)). apply (flog2_lt_iff v e P). assumption.
  - right. exists (qz 2). split; [|split; [reflexivity|]].
    + exists 0, (qz 3). split; [exists 0; split; reflexivity|]. split; [discriminate|qvm].
    + intros u [c [w [[j [J _]] [_ ->]]]]. destruct j as [|j]; [|destruct j; discriminate]. cbn in J. assert (w = qz 3) by congruence. subst w. vm_compute. discriminate.
  - change 2%Z with (qround_even (qz 2)). apply nearest_even_ex.
Qed.

(** ** Examples *)

(** One neuron with ReLU, as it comes out of the constructor: kernel 1 with 2 bits, bias 0, activations with 2 bits,
    gamma 1, beta 0, mean 0, variance 1. *)
Definition ad_geo (c : cls) (k : config) (s : list nat) : geometry :=
  mkG [1; 1] (Some [1]) [1] [[(0, 0)]] (fun x => hd [] x) true (-1) (-1) 1.
Definition ad_init (n : string) (s : list nat) : list Qc :=
  map (fun _ => if existsb (String.eqb n) ["kernel"; "bn_gamma"; "moving_variance"]%string then qz 1
                else if existsb (String.eqb n) ["kernel_bw"; "activation_bw"]%string then qz 2 else qz 0) (seq 0 (prodn s)).
Definition ad_o : obj := ex_get (rbind (construct (default_kq, default_paq) HDenseBN []) (fun a => build ad_geo ad_init a [1])).
Definition ad_i : qinfo := match o_ki ad_o with Some i => i | None => mkI None 0 [] end.
Definition ad_rsqrt (v : Qc) : Qc := if qeqb v (Q2Qc (1 # 1000)) then Q2Qc (316227766 # 10000000) else Q2Qc (99950037 # 100000000).
(** Bounds of log2 that are enough here: 4 < log2 31.6 < 5 and -1 < log2 0.9995 < 0. *)
Definition ad_lg (v : Qc) : Qc := if qltb v (qz 1) then Q2Qc (-1 # 1000) else Q2Qc (319 # 64).
Definition ad_call (xs : list (list (list Qc))) : result obj := first_training_call ad_geo ex_exact ex_clip ad_rsqrt (fun x => x) (qz 0) ad_lg ad_o ad_i xs.

(** The hypotheses of the theorems hold for it.  On the inputs 1 and 3 the outputs are 1 and 3, with variance 1 (1.001
    with epsilon); the weight keeps its 2 bits. *)
Example C68_ex : exists o', ad_call [[[qz 1]]; [[qz 3]]] = Ok o' /\ a_adapt (o_args ad_o) = true /\ a_cls (o_args ad_o) = HDenseBN /\ a_scale (o_args ad_o) = true /\
  prefix_skip (i_skip ad_i) 0 /\ reg_ok 0 [1; 1] (weight ad_o "kernel_bw") /\ shape (weight ad_o "kernel") = [1; 1] /\
  (exists w, In ("kernel_bw"%string, w) (o_w ad_o)) /\
  (let b := bn_of ad_geo ex_exact ex_clip ad_o ad_i in
   rbind (hforward (fun x => x) (qz 0) (bn_hlayer ad_rsqrt (full_width b)) [[[qz 1]]; [[qz 3]]] false false (fun _ => qz 0) (fun _ => qz 0) (fun _ => qz 0))
     (fun r => Ok (channel_values (b_loc b) (b_out b) (fst r) 0)) = Ok [qz 1; qz 3]) /\
  is_var [qz 1; qz 3] (qz 1) /\ data (weight o' "kernel_bw") = [(qz 2 + Q2Qc (1 # 1000))%Qc].
Proof.
  exists (ex_get (ad_call [[[qz 1]]; [[qz 3]]])). split; [apply ex_get_ok; vm_compute; exact I|]. do 3 (split; [reflexivity|]).
  split; [right; split; reflexivity|]. split; [split; reflexivity|]. split; [reflexivity|].
  split; [eexists; vm_compute; right; left; reflexivity|]. split; [qvm|]. split; [exists (qz 2); split; unfold is_mean; qvm|]. qvm.
Qed.

(** C68: the adaptation looks at the outputs of the layer, after activation and quantization, not at what training
    normalises.  On the inputs -1 and -3, whose variance is 1 as well, ReLU leaves 0 and 0, and the weight loses 5 of
    its 2 bits: the kernel used in this training step, 0.9995 before quantization, becomes 0, and the outputs do not
    depend on the inputs.  (rsqrt is accurate to 10^-8, lg brackets log2 where it is used.) *)
Theorem C68_activation_refuted : exists o', ad_call [[[qz (-1)]]; [[qz (-3)]]] = Ok o' /\
  (forall v, In v [Q2Qc (1 # 1000); Q2Qc (1001 # 1000)] -> (qabs (ad_rsqrt v * ad_rsqrt v * v - qz 1) <= Q2Qc (1 # 100000000))%Qc) /\
  (let v := ad_rsqrt (Q2Qc (1 # 1000)) in (pow2 4 < v)%Qc /\ (v < pow2 5)%Qc /\ (qz 4 < ad_lg v)%Qc /\ (ad_lg v < qz 5)%Qc) /\
  is_var (linop [[(0, 0)]] (data (weight ad_o "kernel")) [qz (-1)] ++ linop [[(0, 0)]] (data (weight ad_o "kernel")) [qz (-3)])%list (qz 1) /\
  data (weight ad_o "kernel_bw") = [qz 2] /\ data (weight o' "kernel_bw") = [Q2Qc (-191 # 64)] /\
  rbind (call (fun x => x) (qz 0) (kq_of ex_exact ex_clip o' ad_i) (mkT [1; 1] [ad_rsqrt (Q2Qc (1001 # 1000))]) true false (fun _ => qz 0)) (fun r => Ok (data (fst r))) = Ok [qz 0] /\
  rbind (bn_train ad_rsqrt (fun x => x) (qz 0) (bn_of ad_geo ex_exact ex_clip o' ad_i) [[[qz (-1)]]; [[qz (-3)]]] false (fun _ => qz 0) (fun _ => qz 0) (fun _ => qz 0))
    (fun r => Ok (concat (fst r))) = Ok [qz 2; qz 2].
Proof.
  exists (ex_get (ad_call [[[qz (-1)]]; [[qz (-3)]]])). split; [apply ex_get_ok; vm_compute; exact I|].
  split; [intros v [<-|[<-|[]]]; vm_compute; discriminate|]. split; [cbv zeta; repeat split; vm_compute; reflexivity|].
  split; [exists (qz (-2)); split; unfold is_mean; qvm|]. split; [qvm|]. split; [qvm|]. split; qvm.
Qed.
Print Assumptions C68_activation_refuted.

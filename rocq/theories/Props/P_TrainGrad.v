(** C86: the gradients of a training step. *)
From Coq Require Import ZArith QArith Qcanon List Bool Lia.
From Verif Require Import Base.Num Base.NumFacts Base.Tensor Base.Compute Model.Quantizer Model.Layers Model.BatchNorm Model.BopsGrad Model.Graph Model.Trace Model.TrainGrad
  Model.Bops Spec.Trace Spec.TrainGrad Proofs.TensorP Proofs.SlopeP Proofs.TrainGradP Props.P_BatchNorm.
Import ListNotations.
Local Open Scope nat_scope.

(** C86: whenever the forward pass of a training step succeeds, the gradients that it yields, in any direction of the
    weights, biases, gammas, bitwidths and inputs, are the derivatives of the smooth function of Spec/TrainGrad.v:
    the network without rounding plus the observed rounding errors, which shrink with the bitwidths. *)
Theorem C86_gradients : forall pw ln2 rsqrt m ins paths vs, leaves directions_fit m -> Forall2 tangents ins paths ->
  train_model pw ln2 rsqrt m (map (map (map fst)) ins) = Ok vs ->
  exists outs outs_p, train_model_d pw ln2 rsqrt m ins = Ok outs /\ smooth_model pw ln2 rsqrt m paths = Ok outs_p /\
    vs = map (map (map fst)) outs /\ Forall2 tangents outs outs_p.
Proof.
  intros pw ln2 rsqrt m ins paths vs Hl F E.
  set (tr := map (fun ab => (map (map fst) (fst ab), fst ab, snd ab) : triple) (combine ins paths)).
  assert (L : length ins = length paths) by (clear -F; induction F; cbn; congruence).
  assert (MD : map t_d tr = ins /\ map t_p tr = paths /\ map t_v tr = map (map (map fst)) ins).
  { unfold tr. clear -L. revert paths L. induction ins as [|d ins IH]; intros [|p ps] L; try discriminate L; [repeat split|]. cbn in L. injection L as L.
    destruct (IH ps L) as [A [B C]]. cbn [combine map t_d t_p t_v fst snd]. rewrite A, B, C. repeat split. }
  destruct MD as [MD [MP MV]].
  assert (LK : Forall linked tr).
  { unfold tr. clear -F. induction F as [|d p ds ps H F IH]; [constructor|]. cbn [combine map]. constructor; [|exact IH]. split; [reflexivity|]. apply fb_tangents. exact H. }
  rewrite <- MV in E. destruct (model_follows pw ln2 rsqrt m tr vs Hl LK E) as [o [A [B [C D]]]]. rewrite MD in B. rewrite MP in C.
  exists (map t_d o), (map t_p o). split; [exact B|]. split; [exact C|]. split.
  - rewrite A, map_map. apply map_ext_in. intros x Hx. rewrite Forall_forall in D. exact (proj1 (D x Hx)).
  - clear -D. induction D as [|x o [_ H] D IH]; [constructor|]. cbn [map]. constructor; [apply fb_tangents; exact H|exact IH].
Qed.
Print Assumptions C86_gradients.

(** C86: there is only one such gradient. *)
Theorem C86_unique : forall d1 d2 p, tangents d1 p -> tangents d2 p -> d1 = d2.
Proof.
  intros d1 d2 p [V1 [L1 S1]] [V2 [L2 S2]]. assert (LL : map (@length dual) d1 = map (@length dual) d2) by (rewrite <- (L1 (qz 0)), <- (L2 (qz 0)); reflexivity).
  assert (L : length d1 = length d2) by (apply (f_equal (@length nat)) in LL; rewrite !map_length in LL; exact LL).
  apply nth_ext with [] []; [exact L|]. intros j Hj.
  assert (Lj : length (nth j d1 []) = length (nth j d2 [])).
  { pose proof (f_equal (fun l => nth j l (length (@nil dual))) LL) as Q. cbv beta in Q. rewrite !(map_nth (@length dual)) in Q. exact Q. }
  assert (Vj : map fst (nth j d1 []) = map fst (nth j d2 [])) by (rewrite V1 in V2; pose proof (f_equal (fun l => nth j l (map fst (@nil dual))) V2) as Q; cbv beta in Q; rewrite !(map_nth (map (@fst Qc Qc))) in Q; exact Q).
  apply nth_ext with (qz 0, qz 0) (qz 0, qz 0); [exact Lj|]. intros e _.
  rewrite (surjective_pairing (nth e (nth j d1 []) _)), (surjective_pairing (nth e (nth j d2 []) _)). f_equal.
  - pose proof (f_equal (fun l => nth e l (fst (qz 0, qz 0))) Vj) as Q. cbv beta in Q. rewrite !(map_nth (@fst Qc Qc)) in Q. exact Q.
  - exact (slope_unique _ _ _ (S1 j e) (S2 j e)).
Qed.
Print Assumptions C86_unique.

(** C86: in closed form for a dense or convolution layer with kernel k, bias b and pre-activations z, quantized to qk, qb
    and y0 in the step: a quantizer passes the movement of its input through and adds -ln 2 (y - x) times the movement
    of the bitwidth; a ReLU unit that is off passes nothing. *)
Theorem C86_layer : forall pw ln2 l ts k kq b bl ins qk kq' qb y0 q',
  let h := t_layer l in let out := l_out h in let xs := map (map (map fst)) ins in
  l_op h = Linear ts k kq (Some b) bl -> directions_fit (TH l) -> length ts = prodn out ->
  (forall ps ab, In ps ts -> In ab ps -> snd ab < prodn (shape k)) -> (forall e, e < prodn out -> chan (l_loc h) out e < prodn (shape b)) ->
  call pw ln2 kq k true false (t_nk l) = Ok (qk, kq') -> shape qk = shape k ->
  bias_forward pw ln2 (l_paq h) b true bl (t_nb l) = Ok qb -> shape qb = shape b ->
  let z := map (fun x => bias_add (l_loc h) out (data qb) (linop ts (data qk) (hd [] x))) xs in
  call pw ln2 (l_paq h) (batch_tensor out z) true true (t_na l) = Ok (y0, q') -> shape y0 = length ins :: out ->
  exists D dims, hforward_d pw ln2 l ins = Ok D /\ bias_dims bl (length (shape (q_fbw (l_paq h)))) = Ok dims /\
    forall j e, j < length ins -> e < prodn out ->
    let p := j * prodn out + e in
    let c := chan (l_loc h) out e in
    let y := nth p (data y0) (qz 0) in
    let x a := nth a (hd [] (nth j ins [])) (qz 0, qz 0) in
    let dk p := through ln2 (nth p (data k) (qz 0)) (nth p (data qk) (qz 0)) (nth p (data (t_dk l)) (qz 0)) (seen (t_dfk l) (shape k) p) in
    let db := through ln2 (nth c (data b) (qz 0)) (nth c (data qb) (qz 0)) (nth c (data (t_db l)) (qz 0)) (seen (widest dims (q_fbw (l_paq h)) (t_dfa l)) (shape b) c) in
    let dz := (qsum (map (fun ab => snd (x (fst ab)) * nth (snd ab) (data qk) (qz 0) + fst (x (fst ab)) * dk (snd ab)) (nth e ts [])) + db)%Qc in
    snd (nth e (nth j D []) (qz 0, qz 0)) =
      if (l_relu h && negb (qltb (qz 0) y))%bool then qz 0 else through ln2 (nth e (nth j z []) (qz 0)) y dz (seen (t_dfa l) (length ins :: out) p).
Proof.
  intros pw ln2 l ts k kq b bl ins qk kq' qb y0 q' h out xs Op Fit Lts Hts Hc EK SK EB SB z EY SY.
  exact (layer_tangent pw ln2 l ts k kq b bl ins qk kq' qb y0 q' Op Fit Lts EK SK Hts EB SB Hc EY SY).
Qed.
Print Assumptions C86_layer.

(** A dense layer with two inputs, kernel 17/16, 1/2 (2 bits: 1, 1/2) and a ReLU, followed by batch norm. *)
Definition q2 (shp : list nat) : hgq :=
  hgq_build (mkT shp (repeat (qz 2) (prodn shp))) (Some [0%Z]) 0 true None.
Definition ones (shp : list nat) : tensor Qc := mkT shp (repeat (qz 1) (prodn shp)).
Definition tg_dense : tlayer := mkTL (mkL (Linear (matmul_taps 1 2 1) (mkT [2; 1] [Q2Qc (17 # 16); Q2Qc (1 # 2)]) (q2 [1; 1]) (Some (mkT [1] [Q2Qc (1 # 16)])) (-1)) (q2 [1; 1]) true (-1) [1])
  [[2]] (ones [2; 1]) (ones [1; 1]) (ones [1]) (ones [1; 1]) (fun _ _ => []) no_noise no_noise no_noise.
Definition tg_bn : tbn := mkTB (mkB [[(0, 0)]] (mkT [1; 1] [qz 1]) (q2 [1; 1]) (Some half) (-1)%Z true true [qz 1] [qz 0] [qz 0] [qz 1] (qz 3) (Q2Qc (99 # 100))
    (q2 [1; 1]) false (-1)%Z [1]) [[1]] (ones [1; 1]) (ones [1; 1]) (ones [1]) [qz 1] (ones [1; 1]) no_noise no_noise no_noise.
Definition tg_net : klayer tnode := Sub 1 [(Leaf (TH tg_dense), [(0, 0)]); (Leaf (TB tg_bn), [(1, 0)])] [(2, 0)].
Definition tg_in : list (list (list dual)) := [[[(qz 1, qz 0); (Q2Qc (2 # 3), qz 1)]; [(qz 3, qz 1); (Q2Qc (2 # 3), qz 0)]]].
Definition show_d (r : result (list (list (list dual)))) : option (list (list (list (Q * Q)))) :=
  match r with Ok v => Some (map (map (map (fun d => (this (fst d), this (snd d))))) v) | Raise => None end.
Lemma q2_fits shp : same_shape (q_fbw (q2 shp)) (ones shp).
Proof. split; [reflexivity|]. cbn. rewrite !repeat_length. reflexivity. Qed.
Definition tg_path (t : Qc) : list (list Qc) := [[qz 1; (Q2Qc (2 # 3) + t)%Qc]; [(qz 3 + t)%Qc; Q2Qc (2 # 3)]].
Example C86_gradients_ex : leaves directions_fit tg_net /\ Forall2 tangents tg_in [tg_path] /\
  match train_model (fun _ => qz 0) (qz 1) rsqrt_tab tg_net (map (map (map fst)) tg_in) with Ok _ => true | Raise => false end = true /\
  show_d (train_model_d (fun _ => qz 0) (qz 1) rsqrt_tab (Leaf (TH tg_dense)) tg_in) = Some [[[((5 # 4)%Q, (27 # 8)%Q)]; [((13 # 4)%Q, 6%Q)]]] /\
  show_d (train_model_d (fun _ => qz 0) (qz 1) rsqrt_tab tg_net tg_in) = Some [[[(0%Q, (-313 # 256)%Q)]; [(1%Q, (387 # 256)%Q)]]].
Proof.
  split.
  { constructor. intros k ins [H|[H|[]]]; apply (f_equal fst) in H; cbn [fst] in H; subst k; constructor.
    - repeat split.
    - repeat split. }
  split.
  { constructor; [|constructor]. split; [qvm|]. split; [intros t; reflexivity|].
    assert (C : forall v, slope (fun _ => v) (qz 0)) by (intros v; apply slope_const).
    assert (M : forall v, slope (fun t => v + t)%Qc (qz 1)).
    { intros v. apply slope_ext with (fun t => (v + t * qz 1)%Qc); [intros t; change (qz 1) with 1%Qc; ring|]. exact (proj2 (fo_line (v, qz 1))). }
    assert (N : forall e, slope (fun _ => nth e (@nil Qc) (qz 0)) (snd (nth e (@nil dual) (qz 0, qz 0)))) by (intros [|e]; exact (C _)).
    intros [|[|j]].
    - intros [|[|e]]; [exact (C (qz 1))|exact (M (Q2Qc (2 # 3)))|exact (N e)].
    - intros [|[|e]]; [exact (M (qz 3))|exact (C (Q2Qc (2 # 3)))|exact (N e)].
    - intros e. destruct j; exact (N e). }
  do 2 (split; [vm_compute; reflexivity|]). vm_compute. reflexivity.
Qed.

Lemma ok_with {A B} (r : result A) (f : A -> B) v : rbind r (fun a => Ok (f a)) = Ok v -> exists a, r = Ok a /\ f a = v.
Proof. destruct r as [a|]; [|intros H; discriminate H]. intros H. exists a. split; [reflexivity|]. cbn in H. congruence. Qed.
Example C86_layer_ex : let l := tg_dense in let h := t_layer l in let ins := map (fun s => [s]) (hd [] tg_in) in let xs := map (map (map fst)) ins in
  let ts := matmul_taps 1 2 1 in let k := mkT [2; 1] [Q2Qc (17 # 16); Q2Qc (1 # 2)] in let b := mkT [1] [Q2Qc (1 # 16)] in
  l_op h = Linear ts k (q2 [1; 1]) (Some b) (-1) /\ directions_fit (TH l) /\ length ts = prodn (l_out h) /\
  (forall ps ab, In ps ts -> In ab ps -> snd ab < prodn (shape k)) /\ (forall e, e < prodn (l_out h) -> chan (l_loc h) (l_out h) e < prodn (shape b)) /\
  exists qk qb y0, call (fun _ => qz 0) (qz 1) (q2 [1; 1]) k true false (t_nk l) = Ok qk /\ shape (fst qk) = shape k /\
    bias_forward (fun _ => qz 0) (qz 1) (l_paq h) b true (-1) (t_nb l) = Ok qb /\ shape qb = shape b /\
    call (fun _ => qz 0) (qz 1) (l_paq h) (batch_tensor (l_out h) (map (fun x => bias_add (l_loc h) (l_out h) (data qb) (linop ts (data (fst qk)) (hd [] x))) xs)) true true (t_na l) = Ok y0 /\
    shape (fst y0) = length ins :: l_out h.
Proof.
  cbv zeta. split; [reflexivity|]. split; [repeat split|]. split; [reflexivity|]. split.
  { intros ps ab [<-|[]] [<-|[<-|[]]]; cbn; lia. }
  split; [intros e He; cbn in *; assert (e = 0) as -> by lia; cbn; lia|].
  destruct (ok_with (rbind (call (fun _ => qz 0) (qz 1) (q2 [1; 1]) (mkT [2; 1] [Q2Qc (17 # 16); Q2Qc (1 # 2)]) true false no_noise) (fun qk =>
    rbind (bias_forward (fun _ => qz 0) (qz 1) (q2 [1; 1]) (mkT [1] [Q2Qc (1 # 16)]) true (-1) no_noise) (fun qb =>
    rbind (call (fun _ => qz 0) (qz 1) (q2 [1; 1]) (batch_tensor [1] (map (fun x => bias_add (-1) [1] (data qb) (linop (matmul_taps 1 2 1) (data (fst qk)) (hd [] x)))
      (map (map (map fst)) (map (fun s => [s]) (hd [] tg_in))))) true true no_noise) (fun y0 => Ok (qk, qb, y0)))))
    (fun r => (shape (fst (fst (fst r))), shape (snd (fst r)), shape (fst (snd r)))) ([2; 1], [1], [2; 1])) as [[[qk qb] y0] [E1 E2]]; [vm_compute; reflexivity|].
  destruct (call _ _ _ (mkT [2; 1] _) _ _ _) as [qk1|] eqn:A in E1; [|discriminate E1]. cbn [rbind] in E1. destruct (bias_forward _ _ _ _ _ _ _) as [qb1|] eqn:B in E1; [|discriminate E1]. cbn [rbind] in E1.
  destruct (call _ _ _ (batch_tensor _ _) _ _ _) as [y1|] eqn:C in E1; [|discriminate E1]. cbn [rbind] in E1.
  assert (X : qk1 = qk /\ qb1 = qb /\ y1 = y0) by (repeat split; congruence). destruct X as [-> [-> ->]].
  assert (Y : shape (fst qk) = [2; 1] /\ shape qb = [1] /\ shape (fst y0) = [2; 1]) by (cbn [fst snd] in E2; repeat split; congruence). destruct Y as [Y1 [Y2 Y3]].
  exists qk, qb, y0. split; [exact A|]. split; [exact Y1|]. split; [exact B|]. split; [exact Y2|]. split; [exact C|exact Y3].
Qed.

(** The dense layer followed by an HBatchNormalization: the batch has mean 9/4 and variance 1, epsilon is 3, so the scale is 1/2
    and the bias -9/2; the outputs are rounded. *)
Definition tg_norm : tnorm := mkTN (mkN (mkT [1; 1] [qz 1]) (mkT [1; 1] [qz 0]) (mkT [1; 1] [qz 0]) (mkT [1; 1] [qz 1]) (qz 3) (Q2Qc (99 # 100)) [0%Z] (q2 [1; 1]) (q2 [1; 1])) [1]
  (ones [1; 1]) (ones [1; 1]) (ones [1; 1]) (ones [1; 1]) no_noise no_noise no_noise.
Definition tg_net2 : klayer tnode := Sub 1 [(Leaf (TH tg_dense), [(0, 0)]); (Leaf (TN tg_norm), [(1, 0)])] [(2, 0)].
Example C86_norm_ex : leaves directions_fit tg_net2 /\
  match train_model (fun _ => qz 0) (qz 1) rsqrt_tab tg_net2 (map (map (map fst)) tg_in) with Ok _ => true | Raise => false end = true /\
  show_d (train_model_d (fun _ => qz 0) (qz 1) rsqrt_tab tg_net2 tg_in) = Some [[[((-15 # 4)%Q, (-1725 # 512)%Q)]; [((-11 # 4)%Q, (-709 # 512)%Q)]]].
Proof.
  split.
  { constructor. intros k ins [H|[H|[]]]; apply (f_equal fst) in H; cbn [fst] in H; subst k; constructor; repeat split. }
  split; vm_compute; reflexivity.
Qed.

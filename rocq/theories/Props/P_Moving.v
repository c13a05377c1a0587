(** C66: moving statistics of the fused batch-norm layers. *)
From Coq Require Import ZArith QArith Qcanon List Bool Lia.
From Verif Require Import Base.Num Base.NumFacts Base.Tensor Base.Compute Model.Quantizer Model.Layers Model.BatchNorm Spec.Norm Spec.Moving
  Proofs.BatchNormP Proofs.MovingP Props.P_BatchNorm.
Import ListNotations.
Local Open Scope nat_scope.

(** C66: after any training run, with an optimizer changing kernel, bias, gamma, beta and bitwidths between the calls,
    the moving statistics are the exponentially weighted averages of the statistics of the batches. *)
Theorem C66_moving_statistics : forall rsqrt pw ln2 l steps l' c, training_run rsqrt pw ln2 l steps l' -> c < n_chan l ->
  (b_center l = true -> forall ms, Forall2 (step_mean c) steps ms -> nth c (b_mean l') (qz 0) = weighted (b_momentum l) (nth c (b_mean l) (qz 0)) ms) /\
  (b_scale l = true -> forall vs, Forall2 (step_var c) steps vs -> nth c (b_var l') (qz 0) = weighted (b_momentum l) (nth c (b_var l) (qz 0)) vs).
Proof.
  intros rsqrt pw ln2 l steps l' c R Hc. destruct (run_stats _ _ _ _ _ _ R c Hc) as [HM HV].
  split; intros B ms H; [rewrite (HM B ms H)|rewrite (HV B ms H)]; apply ema_weighted.
Qed.
Print Assumptions C66_moving_statistics.

(** C66: with a momentum between 0 and 1 they stay between the least and the greatest of the initial value and the
    statistics of the batches. *)
Theorem C66_bounded : forall rsqrt pw ln2 l steps l' c lo hi, training_run rsqrt pw ln2 l steps l' -> c < n_chan l ->
  (qz 0 <= b_momentum l)%Qc -> (b_momentum l <= qz 1)%Qc ->
  (b_center l = true -> forall ms, Forall2 (step_mean c) steps ms -> Forall (fun m => lo <= m /\ m <= hi)%Qc (nth c (b_mean l) (qz 0) :: ms) ->
     (lo <= nth c (b_mean l') (qz 0))%Qc /\ (nth c (b_mean l') (qz 0) <= hi)%Qc) /\
  (b_scale l = true -> forall vs, Forall2 (step_var c) steps vs -> Forall (fun v => lo <= v /\ v <= hi)%Qc (nth c (b_var l) (qz 0) :: vs) ->
     (lo <= nth c (b_var l') (qz 0))%Qc /\ (nth c (b_var l') (qz 0) <= hi)%Qc).
Proof.
  intros rsqrt pw ln2 l steps l' c lo hi R Hc M0 M1. destruct (run_stats _ _ _ _ _ _ R c Hc) as [HM HV].
  split; intros B ms H F; inversion F as [|? ? [A1 A2] F']; subst; [rewrite (HM B ms H)|rewrite (HV B ms H)]; apply ema_bounds; assumption.
Qed.
Print Assumptions C66_bounded.

(** C66: in particular the moving variance never becomes negative. *)
Theorem C66_variance_not_negative : forall rsqrt pw ln2 l steps l' c, training_run rsqrt pw ln2 l steps l' -> c < n_chan l ->
  (qz 0 <= b_momentum l)%Qc -> (b_momentum l <= qz 1)%Qc -> b_scale l = true -> (qz 0 <= nth c (b_var l) (qz 0))%Qc ->
  (forall s, In s steps -> step_values s c <> []) -> (qz 0 <= nth c (b_var l') (qz 0))%Qc.
Proof.
  intros rsqrt pw ln2 l steps l' c R Hc M0 M1 SC V0 NE.
  assert (E : exists vs, Forall2 (step_var c) steps vs).
  { clear R. induction steps as [|s steps IH]; [exists []; constructor|].
    destruct IH as [vs Hvs]; [intros; apply NE; right; assumption|].
    destruct (var_exists (step_values s c) (NE s (or_introl eq_refl))) as [v Hv]. exists (v :: vs). constructor; [split; [apply NE; left; reflexivity|exact Hv]|exact Hvs]. }
  destruct E as [vs Hvs]. destruct (run_stats _ _ _ _ _ _ R c Hc) as [_ HV]. rewrite (HV SC vs Hvs).
  assert (P : Forall (fun v => qz 0 <= v)%Qc vs).
  { clear -Hvs. induction Hvs as [|s v steps vs [NE Hv] _ IH]; constructor; [exact (var_nonneg _ _ NE Hv)|exact IH]. }
  clear Hvs HV R. revert V0. generalize (nth c (b_var l) (qz 0)). induction P as [|v vs Hv _ IH]; intros old O; [exact O|].
  apply (IH (b_momentum l * old + (qz 1 - b_momentum l) * v)%Qc).
  destruct (ema_bounds (b_momentum l) (qz 0) (qmax old v) [v] M0 M1) with (old := old) as [X _]; [|exact O| |exact X].
  - constructor; [|constructor]. split; [exact Hv|]. destruct (qmax_spec old v) as [[H ->]|[H ->]]; qlra.
  - destruct (qmax_spec old v) as [[H ->]|[H ->]]; qlra.
Qed.
Print Assumptions C66_variance_not_negative.

(** C66: when every batch has the same statistics, the moving ones approach them geometrically. *)
Theorem C66_converges : forall m mom old eps, (qz 0 <= mom)%Qc -> (mom < qz 1)%Qc -> (qz 0 < eps)%Qc ->
  exists N, forall rsqrt pw ln2 l steps l' c, training_run rsqrt pw ln2 l steps l' -> c < n_chan l -> b_momentum l = mom -> N <= length steps ->
  (b_center l = true -> nth c (b_mean l) (qz 0) = old -> Forall (fun s => step_mean c s m) steps ->
     nth c (b_mean l') (qz 0) = (m + Qcpower mom (length steps) * (old - m))%Qc /\ (qabs (nth c (b_mean l') (qz 0) - m) < eps)%Qc) /\
  (b_scale l = true -> nth c (b_var l) (qz 0) = old -> Forall (fun s => step_var c s m) steps ->
     nth c (b_var l') (qz 0) = (m + Qcpower mom (length steps) * (old - m))%Qc /\ (qabs (nth c (b_var l') (qz 0) - m) < eps)%Qc).
Proof.
  intros m mom old eps M0 M1 E.
  destruct (power_small mom (qabs (old - m)) eps M0 M1 ltac:(destruct (qabs_spec (old - m)%Qc) as [[? ->]|[? ->]]; qlra) E) as [N HN].
  exists N. intros rsqrt pw ln2 l steps l' c R Hc EM LN.
  destruct (run_stats _ _ _ _ _ _ R c Hc) as [HM HV]. specialize (HN _ LN).
  assert (F2 : forall P : step -> Qc -> Prop, Forall (fun s => P s m) steps -> Forall2 P steps (repeat m (length steps))).
  { intros P H. clear -H. induction H as [|s steps Hs _ IH]; cbn [length repeat]; constructor; assumption. }
  assert (D : (qabs (m + Qcpower mom (length steps) * (old - m) - m) < eps)%Qc).
  { replace (m + Qcpower mom (length steps) * (old - m) - m)%Qc with (Qcpower mom (length steps) * (old - m))%Qc by ring.
    destruct (power_bernoulli mom (length steps) M0 ltac:(qlra)) as [P _]. set (p := Qcpower mom (length steps)) in *. clearbody p. set (d := (old - m)%Qc) in *. clearbody d.
    destruct (qabs_spec d) as [[H E1]|[H E1]]; rewrite E1 in HN.
    - pose proof (qmul_le_r (qz 0) d p P H) as X. replace (qz 0 * p)%Qc with (qz 0) in X by (rewrite qz_0; ring). rewrite (Qcmult_comm d p) in X.
      destruct (qabs_spec (p * d)%Qc) as [[_ ->]|[Y ->]]; [exact HN|]. set (t := (p * d)%Qc) in *. clearbody t. qlra.
    - assert (H' : (qz 0 <= - d)%Qc) by qlra. pose proof (qmul_le_r (qz 0) (- d)%Qc p P H') as X. replace (qz 0 * p)%Qc with (qz 0) in X by (rewrite qz_0; ring).
      replace (- d * p)%Qc with (- (p * d))%Qc in X by ring. replace (p * - d)%Qc with (- (p * d))%Qc in HN by ring.
      set (t := (p * d)%Qc) in *. clearbody t. destruct (qabs_spec t) as [[Y ->]|[_ ->]]; qlra. }
  split; intros B EO F.
  - rewrite (HM B _ (F2 _ F)), EM, EO, ema_same. split; [reflexivity|exact D].
  - rewrite (HV B _ (F2 _ F)), EM, EO, ema_same. split; [reflexivity|exact D].
Qed.
Print Assumptions C66_converges.

(** Two training calls from mean 0 and variance 3 on a batch with mean 2 (plus the bias 1/2) and variance 1. *)
Definition mv0 : bnlayer := bn1 true true (Some half) (qz 0) [qz 0] [qz 3] (qz 3).
Definition trained (l : bnlayer) : bnlayer :=
  match bn_train rsqrt_tab (fun _ => qz 0) (qz 0) l batch1 false no_noise no_noise no_noise with Ok (_, l') => l' | Raise => l end.
Example C66_ex : let steps := [(mv0, b_kernel mv0, batch1); (trained mv0, b_kernel (trained mv0), batch1)] in let l' := trained (trained mv0) in
  training_run rsqrt_tab (fun _ => qz 0) (qz 0) mv0 steps l' /\ 0 < n_chan mv0 /\ b_center mv0 = true /\ b_scale mv0 = true /\
  Forall2 (step_mean 0) steps [Q2Qc (5 # 2); Q2Qc (5 # 2)] /\ Forall2 (step_var 0) steps [qz 1; qz 1] /\
  (qz 0 <= b_momentum mv0)%Qc /\ (b_momentum mv0 < qz 1)%Qc /\ (forall s, In s steps -> step_values s 0 <> []) /\
  map this (b_mean l') = [(199 # 4000)%Q] /\ map this (b_var l') = [(14801 # 5000)%Q].
Proof.
  assert (ST : forall l, step_values (l, b_kernel l, batch1) 0 = [qz 1; qz 3] -> step_mean 0 (l, b_kernel l, batch1) (qz 2 + match b_bias l with Some b => nth 0 (data b) (qz 0) | None => qz 0 end)%Qc /\ step_var 0 (l, b_kernel l, batch1) (qz 1)).
  { intros l E. unfold step_mean, step_var. rewrite E. split; (split; [discriminate|]); exists (qz 2); split; try reflexivity; unfold is_mean; qvm. }
  assert (HT : forall l, (match bn_train rsqrt_tab (fun _ => qz 0) (qz 0) l batch1 false no_noise no_noise no_noise with Ok _ => true | Raise => false end) = true ->
    bn_train rsqrt_tab (fun _ => qz 0) (qz 0) l batch1 false no_noise no_noise no_noise =
    Ok (match bn_train rsqrt_tab (fun _ => qz 0) (qz 0) l batch1 false no_noise no_noise no_noise with Ok (ys, _) => ys | Raise => [] end, trained l)).
  { intros l. unfold trained. destruct (bn_train _ _ _ l _ _ _ _ _) as [[ys l1]|]; [reflexivity|discriminate]. }
  assert (V0 : step_values (mv0, b_kernel mv0, batch1) 0 = [qz 1; qz 3]) by qvm.
  assert (V1 : step_values (trained mv0, b_kernel (trained mv0), batch1) 0 = [qz 1; qz 3]) by qvm.
  destruct (ST _ V0) as [A0 B0]. destruct (ST _ V1) as [A1 B1].
  cbv zeta. split.
  { apply (Run_call _ _ _ mv0 mv0 _ batch1 false no_noise no_noise no_noise
      (match bn_train rsqrt_tab (fun _ => qz 0) (qz 0) mv0 batch1 false no_noise no_noise no_noise with Ok (ys, _) => ys | Raise => [] end) (trained mv0)).
    - repeat split.
    - reflexivity.
    - apply HT. vm_compute. reflexivity.
    - apply (Run_call _ _ _ (trained mv0) (trained mv0) _ batch1 false no_noise no_noise no_noise
        (match bn_train rsqrt_tab (fun _ => qz 0) (qz 0) (trained mv0) batch1 false no_noise no_noise no_noise with Ok (ys, _) => ys | Raise => [] end) (trained (trained mv0))).
      + repeat split.
      + reflexivity.
      + apply HT. vm_compute. reflexivity.
      + constructor. repeat split. }
  do 3 (split; [vm_compute; (reflexivity || lia)|]).
  assert (M0 : (qz 2 + match b_bias mv0 with Some b => nth 0 (data b) (qz 0) | None => qz 0 end)%Qc = Q2Qc (5 # 2)) by qvm.
  assert (M1 : (qz 2 + match b_bias (trained mv0) with Some b => nth 0 (data b) (qz 0) | None => qz 0 end)%Qc = Q2Qc (5 # 2)) by qvm.
  rewrite M0 in A0. rewrite M1 in A1.
  split; [constructor; [exact A0|constructor; [exact A1|constructor]]|]. split; [constructor; [exact B0|constructor; [exact B1|constructor]]|].
  split; [vm_compute; discriminate|]. split; [vm_compute; reflexivity|]. split; [|split; vm_compute; reflexivity].
  intros s [<-|[<-|[]]]; [rewrite V0|rewrite V1]; discriminate.
Qed.

(** Whole-tensor facts about __call__. *)
From Coq Require Import ZArith QArith Qcanon List Bool Lia Arith.
From Verif Require Import Base.Num Base.NumFacts Base.Tensor Model.FixedPoint Model.Quantizer
  Spec.Fixed Spec.Quant Spec.History Proofs.TensorP Proofs.QuantizerP Proofs.RecordP Proofs.HistoryP.
Import ListNotations.
Local Open Scope nat_scope.

(** Positions of a call on a tensor of shape pre ++ rest. *)
Lemma forward_pos pw ln2 m pre rest q x training record noise y q' : length pre = m -> shape x = pre ++ rest ->
  reg_ok m rest (q_fbw q) -> forward pw ln2 q x training record noise = Ok (y, q') ->
  shape y = shape x /\ length (data y) = prodn (shape x) /\ q_fbw q' = q_fbw q /\ q_clip q' = q_clip q /\
  q_strategy q' = q_strategy q /\ q_exact q' = q_exact q /\ q_skip q' = q_skip q /\
  forall p, p < prodn (shape x) ->
    forward_elem pw ln2 (q_strategy q) (q_exact q) training (noise p)
      (nth (p mod prodn rest) (data (q_fbw q)) (qz 0)) (nth p (data x) (qz 0)) = Ok (nth p (data y) (qz 0)).
Proof.
  intros Hm Hx [F1 F2] E. apply forward_elems in E. destruct E as [B [W [El [Fr Tr]]]].
  assert (Sy : shape y = shape x) by (rewrite Hx, F1, <- Hm, broadcast_prefix in B; congruence).
  split; [assumption|]. split; [congruence|].
  split; [|split; [|split; [|split; [|split]]]].
  1,2,3,4,5: destruct record; [destruct (Tr eq_refl) as [mn [mx [_ [_ ->]]]]; reflexivity|rewrite (Fr eq_refl); reflexivity].
  intros p Hp. rewrite Sy in El. specialize (El p (qz 0) Hp).
  rewrite F1 in El. rewrite Hx in El at 1 2. rewrite <- Hm in El at 1.
  rewrite (pad_to_eq _ (repeat 1 (length pre) ++ rest)) in El by (rewrite !app_length, repeat_length; reflexivity).
  rewrite bidx_prefix in El by (rewrite <- Hx; assumption).
  rewrite pad_to_eq in El by reflexivity. rewrite bidx_self in El by assumption. exact El.
Qed.

Lemma reg_ok_clip m rest q : reg_ok m rest (q_fbw q) -> reg_ok m rest (q_fbw (clip_fbw q)).
Proof. destruct q as [a1 a2 a3 a4 a5 a6 [[lo hi]|]]; intros H; [apply reg_ok_tmap|]; exact H. Qed.

Lemma call_inference pw ln2 m pre rest q x record noise y q' : length pre = m -> shape x = pre ++ rest ->
  reg_ok m rest (q_fbw q) -> call pw ln2 q x false record noise = Ok (y, q') ->
  shape y = shape x /\
  forall p r, p < prodn (shape x) -> nearest_even (nth (p mod prodn rest) (data (q_fbw q')) (qz 0)) r ->
    (q_strategy q = 3%Z -> floor_on_grid r (nth p (data x) (qz 0)) (nth p (data y) (qz 0))) /\
    (q_strategy q <> 3%Z -> round_on_grid r (nth p (data x) (qz 0)) (nth p (data y) (qz 0))).
Proof.
  intros Hm Hx HF E. unfold call in E.
  destruct (forward_pos _ _ _ _ _ _ _ _ _ _ _ _ Hm Hx (reg_ok_clip _ _ _ HF) E) as [S [L [F [_ [_ [_ [_ El]]]]]]].
  split; [assumption|]. intros p r Hp Hr. specialize (El p Hp). rewrite F in Hr. rewrite clip_strategy in El.
  destruct (inference_spec pw ln2 (q_strategy q) (q_exact (clip_fbw q)) (noise p) _ (nth p (data x) (qz 0)) r Hr)
    as [y' [E' H]].
  rewrite El in E'. injection E' as <-. exact H.
Qed.

Lemma forward_noise pw ln2 pw' ln2' q x record noise noise' :
  forward pw ln2 q x false record noise = forward pw' ln2' q x false record noise'.
Proof.
  unfold forward. destruct (bmap2 _ _ _ x (q_fbw q)) as [vf|]; [|reflexivity]. cbn [rbind].
  erewrite map_ext; [reflexivity|]. intros [p [v f]]. cbn [fst snd]. rewrite !forward_inference. reflexivity.
Qed.

Lemma rbind_ok {A B} (a : result A) (f : A -> result B) b : rbind a f = Ok b -> exists x, a = Ok x /\ f x = Ok b.
Proof. destruct a as [x|]; cbn [rbind]; [eauto|discriminate]. Qed.

Lemma list_nth_ext {A} (d : A) (a b : list A) : length a = length b ->
  (forall p, p < length a -> nth p a d = nth p b d) -> a = b.
Proof. intros L H. apply (nth_ext a b d d L H). Qed.

Lemma call_idem pw ln2 m pre rest q x record noise noise' y q' z q'' :
  (match q_clip q with Some (lo, hi) => (lo <= hi)%Qc | None => True end) ->
  length pre = m -> shape x = pre ++ rest -> reg_ok m rest (q_fbw q) ->
  call pw ln2 q x false record noise = Ok (y, q') -> call pw ln2 q' y false record noise' = Ok (z, q'') -> z = y.
Proof.
  intros Hc Hm Hx HF E E'. unfold call in E, E'.
  pose proof (reg_ok_clip _ _ _ HF) as HF'.
  destruct (forward_pos _ _ _ _ _ _ _ _ _ _ _ _ Hm Hx HF' E) as [S [L [F [C [T [_ [_ El]]]]]]].
  assert (HF2 : reg_ok m rest (q_fbw q')) by (rewrite F; assumption).
  assert (Sx : shape y = pre ++ rest) by congruence.
  destruct (forward_pos _ _ _ _ _ _ _ _ _ _ _ _ Hm Sx (reg_ok_clip _ _ _ HF2) E') as [S' [L' [F' [_ [_ [_ [_ El']]]]]]].
  assert (FF : q_fbw (clip_fbw q') = q_fbw (clip_fbw q)).
  { assert (Cq : q_clip (clip_fbw q) = q_clip q) by (destruct q as [a1 a2 a3 a4 a5 a6 [[lo hi]|]]; reflexivity).
    rewrite Cq in C. unfold clip_fbw at 1. rewrite C. destruct (q_clip q) as [[lo hi]|] eqn:Eq; [|assumption].
    cbn [with_fbw q_fbw]. rewrite F.
    pose proof (clip_fbw_idem q) as I. rewrite Eq in I. specialize (I Hc).
    unfold clip_fbw in I at 1. rewrite Cq in I. rewrite <- I at 2. reflexivity. }
  assert (D : data z = data y).
  { apply (list_nth_ext (qz 0)); [congruence|]. rewrite L'. intros p Hp.
    specialize (El' p Hp). rewrite FF in El'. rewrite S in Hp. specialize (El p Hp). apply inference_grid in El.
    rewrite (inference_on_grid _ _ _ _ _ _ _ El) in El'. congruence. }
  destruct z as [sz dz], y as [sy dy]. cbn [data shape] in *. congruence.
Qed.

(** ** Clipping *)
Lemma call_clip pw ln2 q x training record noise y q' lo hi : q_clip q = Some (lo, hi) -> (lo <= hi)%Qc ->
  call pw ln2 q x training record noise = Ok (y, q') ->
  Forall (fun f => (lo <= f)%Qc /\ (f <= hi)%Qc) (data (q_fbw q')) /\ q_clip q' = Some (lo, hi) /\
  (Forall (fun f => (lo <= f)%Qc /\ (f <= hi)%Qc) (data (q_fbw q)) -> q_fbw q' = q_fbw q) /\
  exists q2, forward pw ln2 (with_fbw q (q_fbw q')) x training record noise = Ok (y, q2).
Proof.
  intros Hq Hc E. unfold call in E.
  assert (EF : q_fbw q' = q_fbw (clip_fbw q) /\ q_clip q' = q_clip (clip_fbw q)).
  { pose proof E as E2. apply forward_elems in E2. destruct E2 as [_ [_ [_ [Fr Tr]]]].
    destruct record; [destruct (Tr eq_refl) as [mn [mx [_ [_ ->]]]]; split; reflexivity|rewrite (Fr eq_refl); auto]. }
  destruct EF as [EF EC]. unfold clip_fbw in *. rewrite Hq in *.
  split; [|split; [|split]].
  - rewrite EF. cbn [with_fbw q_fbw tmap data]. apply Forall_map, Forall_forall. intros f _. apply clip_bounds; assumption.
  - rewrite EC. cbn [with_fbw q_clip]. assumption.
  - intros H. rewrite EF. cbn [with_fbw q_fbw]. destruct (q_fbw q) as [s d]. unfold tmap; cbn [data shape] in *. f_equal.
    rewrite <- (map_id d) at 2. apply map_ext_in. intros f Hf. rewrite Forall_forall in H. destruct (H f Hf). apply clip_id; assumption.
  - exists q'. rewrite EF. exact E.
Qed.

Lemma hstep_qclip pw ln2 st op st' : hstep pw ln2 st op = Ok st' -> q_clip (fst st') = q_clip (fst st).
Proof.
  destruct st as [q log], op as [|f|x t r n]; cbn [hstep]; intros E.
  - injection E as <-. reflexivity.
  - destruct (list_eq_dec _ _ _); [|discriminate]. injection E as <-. reflexivity.
  - apply rbind_ok in E. destruct E as [[y q'] [E1 E2]]. injection E2 as <-. cbn [fst snd].
    unfold call in E1. apply forward_elems in E1. destruct E1 as [_ [_ [_ [Fr Tr]]]].
    destruct r; [destruct (Tr eq_refl) as [mn [mx [_ [_ ->]]]]|rewrite (Fr eq_refl)];
      unfold clip_fbw; cbn [with_minmax q_clip]; destruct (q_clip q) as [[lo hi]|] eqn:C; cbn [with_fbw q_clip]; congruence.
Qed.
Lemma hrun_qclip pw ln2 ops : forall st st', hrun pw ln2 st ops = Ok st' -> q_clip (fst st') = q_clip (fst st).
Proof.
  induction ops as [|op ops IH]; intros st st' E; cbn [hrun] in E; [injection E as <-; reflexivity|].
  apply rbind_ok in E. destruct E as [st1 [E1 E2]]. rewrite (IH _ _ E2). apply (hstep_qclip _ _ _ _ _ E1).
Qed.

Lemma nonrecord_registers pw ln2 q x training noise y q' :
  call pw ln2 q x training false noise = Ok (y, q') -> q_min q' = q_min q /\ q_max q' = q_max q.
Proof.
  unfold call. intros E. apply forward_elems in E. destruct E as [_ [_ [_ [Fr _]]]]. rewrite (Fr eq_refl).
  unfold clip_fbw. destruct (q_clip q) as [[lo hi]|]; split; reflexivity.
Qed.

(** ** Bias *)
From Verif Require Import Proofs.ShapeP.

Lemma bias_forward_ok pw ln2 q x loc noise dims : bias_dims loc (length (shape (q_fbw q))) = Ok dims ->
  shape x = shape (reduce_max_q dims (q_fbw q)) ->
  exists y, bias_forward pw ln2 q x false loc noise = Ok y.
Proof.
  intros Hd Hs. unfold bias_forward. rewrite Hd. cbn [rbind].
  destruct (bmap2_same (qz 0) (qz 0) (fun v f => (v, f)) x (reduce_max_q dims (q_fbw q)) Hs) as [vf [-> _]]. cbn [rbind].
  destruct (rseq_total (map (fun pvf => forward_elem pw ln2 (q_strategy q) (q_exact q) false
    (noise (fst pvf)) (snd (snd pvf)) (fst (snd pvf))) (combine (seq 0 (length (data vf))) (data vf)))) as [ys ->].
  { intros e He. apply in_map_iff in He. destruct He as [[p [v f]] [<- _]]. rewrite forward_inference. eauto. }
  cbn [rbind]. eauto.
Qed.

Lemma bias_vec pw ln2 q x loc noise dims y c : bias_dims loc (length (shape (q_fbw q))) = Ok dims ->
  shape x = [c] -> shape (reduce_max_q dims (q_fbw q)) = [c] ->
  bias_forward pw ln2 q x false loc noise = Ok y ->
  shape y = [c] /\ length (data y) = c /\ forall j, j < c -> exists r,
    nearest_even (nth j (data (reduce_max_q dims (q_fbw q))) (qz 0)) r /\
    (q_strategy q = 3%Z -> floor_on_grid r (nth j (data x) (qz 0)) (nth j (data y) (qz 0))) /\
    (q_strategy q <> 3%Z -> round_on_grid r (nth j (data x) (qz 0)) (nth j (data y) (qz 0))).
Proof.
  intros Hd Hx Hf E. destruct (bias_forward_elems _ _ _ _ _ _ _ _ _ Hd E) as [B [L El]].
  rewrite Hx, Hf, broadcast_self in B. injection B as B.
  assert (Pc : prodn [c] = c) by (cbn; lia). rewrite <- B in *. rewrite Pc in L, El.
  split; [reflexivity|]. split; [assumption|]. intros j Hj. specialize (El j (qz 0) Hj).
  rewrite Hx, Hf in El. rewrite pad_to_eq in El by reflexivity.
  rewrite bidx_self in El by (rewrite Pc; assumption).
  eexists. split; [apply nearest_even_ex|].
  destruct (inference_spec pw ln2 (q_strategy q) (q_exact q) (noise j)
    (nth j (data (reduce_max_q dims (q_fbw q))) (qz 0)) (nth j (data x) (qz 0)) _ (nearest_even_ex _)) as [y' [E' H]].
  rewrite E' in El. injection El as ->. exact H.
Qed.

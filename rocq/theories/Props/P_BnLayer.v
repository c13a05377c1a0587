(** C87, C88: the bit operations and the life of the standalone batch normalisation layer. *)
From Coq Require Import ZArith QArith Qcanon List Bool Lia Arith String Ascii.
From Verif Require Import Base.Num Base.NumFacts Base.Tensor Base.Compute Model.FixedPoint Model.Quantizer Model.Layers Model.Bops Model.TrainBops Model.BatchNorm Model.Weights Model.BnLayer
  Spec.Fixed Spec.Quant Spec.History Spec.Layer Spec.Trace Spec.Bops Spec.Norm Spec.BnStats Spec.Weights Spec.BnLayer Proofs.TensorP Proofs.QuantizerP Proofs.RecordP Proofs.BitsP Proofs.SampleP Proofs.LayersP
  Proofs.BopsP Proofs.BopsL Proofs.CallP Proofs.TrainBopsP Proofs.BnLayerP.
Import ListNotations.
Local Open Scope nat_scope.

(** ** C87 *)

(** C87: the parameters of a layer over one axis, counted from the front or from the end, hold one value per position of the axis. *)
Theorem C87_shapes : forall a pre d post kq paq,
  ba_axis a = [Z.of_nat (S (length pre))] \/ ba_axis a = [- Z.of_nat (S (length post))]%Z ->
  exists l, bn_build a (pre ++ d :: post) kq paq = Ok l /\
    (ba_scale a = true -> shape (m_gamma l) = on_axis pre d post /\ shape (m_var l) = on_axis pre d post) /\
    (ba_center a = true -> shape (m_beta l) = on_axis pre d post /\ shape (m_mean l) = on_axis pre d post) /\
    m_eps l = ba_eps a /\ m_momentum l = ba_momentum a /\ m_kq l = kq /\ m_paq l = paq.
Proof.
  intros a pre d post kq paq H. unfold bn_build.
  assert (V : validate_axis (ba_axis a) (S (length (pre ++ d :: post))) = Ok [Z.of_nat (S (length pre))]).
  { rewrite app_length. cbn [length]. unfold validate_axis. destruct H as [-> | ->].
    - cbn [map]. destruct (Z.ltb_spec (Z.of_nat (S (length pre))) 0); [lia|]. cbn [Nat.eqb negb forallb nodupb existsb andb].
      destruct (Z.leb_spec 0 (Z.of_nat (S (length pre)))); [|lia]. destruct (Z.ltb_spec (Z.of_nat (S (length pre))) (Z.of_nat (S (length pre + S (length post))))); [|lia]. reflexivity.
    - cbn [map]. destruct (Z.ltb_spec (- Z.of_nat (S (length post))) 0); [|lia].
      replace (Z.of_nat (S (length pre + S (length post))) + - Z.of_nat (S (length post)))%Z with (Z.of_nat (S (length pre))) by lia. cbn [Nat.eqb negb forallb nodupb existsb andb].
      destruct (Z.leb_spec 0 (Z.of_nat (S (length pre)))); [|lia]. destruct (Z.ltb_spec (Z.of_nat (S (length pre))) (Z.of_nat (S (length pre + S (length post))))); [|lia]. reflexivity. }
  rewrite V. cbn [rbind]. assert (X : existsb (Z.eqb 0) [Z.of_nat (S (length pre))] = false) by (cbn [existsb]; destruct (Z.eqb_spec 0 (Z.of_nat (S (length pre)))); [lia|reflexivity]). rewrite X.
  eexists. split; [reflexivity|]. cbn [m_gamma m_var m_beta m_mean m_eps m_momentum m_kq m_paq].
  split; [intros ->; cbn [shape]; split; apply ker_shape_axis|]. split; [intros ->; cbn [shape]; split; apply ker_shape_axis|]. repeat split.
Qed.
Print Assumptions C87_shapes.

(** C87: building succeeds exactly for axes in range that are not the batch axis, each given once. *)
Theorem C87_axes : forall a dims kq paq, let rank := Z.of_nat (S (length dims)) in
  (exists l, bn_build a dims kq paq = Ok l) <->
  (forall z, In z (ba_axis a) -> (- rank < z < rank)%Z /\ z <> 0%Z) /\ NoDup (map (fun z => z mod rank)%Z (ba_axis a)).
Proof.
  intros a dims kq paq rank. assert (R : (0 < rank)%Z) by (unfold rank; lia).
  assert (ND : forall l, nodupb l = true <-> NoDup l).
  { induction l as [|z l IH]; cbn; [split; [constructor|reflexivity]|]. rewrite andb_true_iff, IH, negb_true_iff. split.
    - intros [H1 H2]. constructor; [|exact H2]. intros I. assert (existsb (Z.eqb z) l = true) by (apply existsb_exists; exists z; split; [exact I|apply Z.eqb_refl]). congruence.
    - intros H. inversion H as [|? ? H1 H2]; subst. split; [|exact H2]. destruct (existsb (Z.eqb z) l) eqn:E; [|reflexivity].
      apply existsb_exists in E. destruct E as [y [I E]]. apply Z.eqb_eq in E. subst y. contradiction. }
  set (nrm := fun z => if (z <? 0)%Z then (rank + z)%Z else z).
  assert (NM : forall z, (0 <= nrm z < rank)%Z <-> (- rank <= z < rank)%Z) by (intros z; unfold nrm; destruct (Z.ltb_spec z 0); lia).
  assert (NE : forall z, (- rank <= z < rank)%Z -> nrm z = (z mod rank)%Z).
  { intros z H. unfold nrm. destruct (Z.ltb_spec z 0); [apply (Z.mod_unique_pos z rank (-1)); lia|rewrite Z.mod_small; lia]. }
  unfold bn_build, validate_axis. fold rank. cbn [Nat.eqb negb andb]. fold nrm. set (ax := map nrm (ba_axis a)).
  assert (RG : forallb (fun z => (0 <=? z)%Z && (z <? rank)%Z)%bool ax = true <-> forall z, In z (ba_axis a) -> (- rank <= z < rank)%Z).
  { rewrite forallb_forall. unfold ax. split.
    - intros H z I. apply NM. specialize (H (nrm z) (in_map nrm _ _ I)). apply andb_true_iff in H. destruct H as [H1 H2]. apply Z.leb_le in H1. apply Z.ltb_lt in H2. lia.
    - intros H z I. apply in_map_iff in I. destruct I as [y [<- I]]. specialize (H y I). apply NM in H. apply andb_true_iff. split; [apply Z.leb_le|apply Z.ltb_lt]; lia. }
  assert (MP : (forall z, In z (ba_axis a) -> (- rank <= z < rank)%Z) -> ax = map (fun z => z mod rank)%Z (ba_axis a)).
  { intros H. unfold ax. apply map_ext_in. intros z I. apply NE, H, I. }
  assert (BZ : (forall z, In z (ba_axis a) -> (- rank <= z < rank)%Z) ->
    (existsb (Z.eqb 0) ax = false <-> forall z, In z (ba_axis a) -> (- rank < z < rank)%Z /\ z <> 0%Z)).
  { intros H. split.
    - intros E z I. pose proof (H z I). assert (N : nrm z <> 0%Z).
      { intros N. assert (existsb (Z.eqb 0) ax = true) by (apply existsb_exists; exists 0%Z; split; [rewrite <- N; apply in_map, I|reflexivity]). congruence. }
      unfold nrm in N. destruct (Z.ltb_spec z 0); lia.
    - intros Z0. destruct (existsb (Z.eqb 0) ax) eqn:E; [|reflexivity]. apply existsb_exists in E. destruct E as [y [I E]]. apply Z.eqb_eq in E. subst y.
      apply in_map_iff in I. destruct I as [z [Ez I]]. pose proof (Z0 z I). unfold nrm in Ez. destruct (Z.ltb_spec z 0); lia. }
  split.
  - intros [l E]. destruct (forallb _ ax) eqn:F; cbn [andb] in E; [|discriminate]. destruct (nodupb ax) eqn:N; [|discriminate]. cbn [rbind] in E.
    clear F. pose proof (proj1 RG eq_refl) as F. apply ND in N. rewrite (MP F) in N. destruct (existsb (Z.eqb 0) ax) eqn:B; [discriminate|]. split; [apply BZ; [exact F|reflexivity]|exact N].
  - intros [H1 H2]. assert (F : forall z, In z (ba_axis a) -> (- rank <= z < rank)%Z) by (intros z I; specialize (H1 z I); lia).
    rewrite <- (MP F) in H2. apply ND in H2. apply (BZ F) in H1. apply RG in F. rewrite F, H2. cbn [andb rbind]. rewrite H1. eauto.
Qed.
Print Assumptions C87_axes.

(** C87: the exact bit operations are the sum over the elements of one sample of the bits of the element times the bits of the quantized scale
    of its channel (its position along the axis). *)
Theorem C87_exact_bops : forall rsqrt pw ln2 prev l pre d post m p0 rest ker w kq',
  l_out prev = pre ++ d :: post -> quantizer_shape (l_paq prev) (l_out prev) -> calibrated (l_paq prev) ->
  clip_ok (m_kq l) -> length p0 = m -> on_axis pre d post = p0 ++ rest -> reg_ok m rest (q_fbw (m_kq l)) ->
  shape (m_gamma l) = on_axis pre d post -> shape (m_var l) = on_axis pre d post ->
  shape ker = on_axis pre d post -> length (data ker) = d ->
  (forall c, c < d -> nth c (data ker) (qz 0) = (nth c (data (m_gamma l)) (qz 0) * rsqrt (nth c (data (m_var l)) (qz 0) + m_eps l))%Qc) ->
  call pw ln2 (m_kq l) ker false false (fun _ => qz 0) = Ok (w, kq') ->
  (forall v, In v (data w) -> on_grid 31 v /\ (qabs v < pow2 64)%Qc) ->
  exists ib kb, bn_exact_bops rsqrt pw ln2 (fun a => a) prev l = Ok (sum_to (prodn (l_out prev)) (fun e => ib e * kb ((e / prodn post) mod d)%nat))%Z /\
    (forall e, e < prodn (l_out prev) -> exists r mn mx, let g := Spec.Layer.group_of (l_paq prev) (l_out prev) e in
       frac_bits (l_paq prev) g r /\ holds_range (l_paq prev) g mn mx /\
       if l_relu prev then relu_bits r mx (ib e) else range_bits r mn mx (ib e)) /\
    (forall c v, nth_error (data w) c = Some v -> weight_bits v (kb c)).
Proof.
  intros rsqrt pw ln2 prev l pre d post m p0 rest ker w kq' Ho Hq HC Hcl Hm Hs HR Hg Hv Hk Lk Nk Ew HG.
  assert (Ek : bn_ker rsqrt l (m_var l) = Ok ker) by (apply (bn_ker_value rsqrt l (on_axis pre d post)); try assumption; rewrite prodn_axis; assumption).
  destruct (exact_sum rsqrt pw ln2 prev l pre d post m p0 rest ker w kq' Ho Hq HC Hcl Hm Hs HR Hk Ek Ew) as [ib [Ei E]].
  destruct (act_bw_exact_at prev Hq HC) as [ib' [Ei' [_ Ni]]]. assert (ib' = ib) by congruence. subst ib'.
  exists (fun e => nth e (data ib) 0%Z), (fun c => nth c (kernel_bw_exact (fun a => a) (data w)) 0%Z). split; [exact E|]. split.
  - intros e He. assert (GL : Spec.Layer.group_of (l_paq prev) (l_out prev) e < length (data (q_fbw (l_paq prev)))) by (apply group_lt; assumption).
    destruct (width_range _ _ HC GL) as [r [mn [mx [H1 [H2 [H3 H4]]]]]]. exists r, mn, mx. cbv zeta. split; [assumption|]. split; [assumption|].
    rewrite Ni by assumption. destruct (l_relu prev); assumption.
  - intros c v Hc. apply kernel_bits_at; assumption.
Qed.
Print Assumptions C87_exact_bops.

(** C87: the value of bops after an inference call without adaptation is at least that. *)
Theorem C87_over_approximate : forall rsqrt pw ln2 lg prev l pre d post m p0 rest ker w kq' x r n1 n2 n3 ib y l' t,
  l_out prev = pre ++ d :: post -> quantizer_shape (l_paq prev) (l_out prev) -> calibrated (l_paq prev) ->
  clip_ok (m_kq l) -> prefix_skip (q_skip (m_kq l)) m -> length p0 = m -> on_axis pre d post = p0 ++ rest -> reg_ok m rest (q_fbw (m_kq l)) ->
  shape (m_gamma l) = on_axis pre d post -> shape (m_var l) = on_axis pre d post ->
  shape ker = on_axis pre d post -> length (data ker) = d ->
  (forall c, c < d -> nth c (data ker) (qz 0) = (nth c (data (m_gamma l)) (qz 0) * rsqrt (nth c (data (m_var l)) (qz 0) + m_eps l))%Qc) ->
  call pw ln2 (m_kq l) ker false false (fun _ => qz 0) = Ok (w, kq') ->
  (forall v, In v (data w) -> on_grid 31 v /\ (qabs v < pow2 64)%Qc) ->
  act_bw prev = Ok ib -> bn_call rsqrt pw ln2 lg l false x false r (Some ib) n1 n2 n3 = Ok (y, l', t) ->
  exists z e, t = Some z /\ bn_exact_bops rsqrt pw ln2 (fun a => a) prev l = Ok e /\ (0 <= e <= z)%Z.
Proof.
  intros rsqrt pw ln2 lg prev l pre d post m p0 rest ker w kq' x r n1 n2 n3 ib y l' t Ho Hq HC Hcl Hp Hm Hs HR Hg Hv Hk Lk Nk Ew HG Ei EC.
  assert (Ek : bn_ker rsqrt l (m_var l) = Ok ker) by (apply (bn_ker_value rsqrt l (on_axis pre d post)); try assumption; rewrite prodn_axis; assumption).
  destruct (exact_sum rsqrt pw ln2 prev l pre d post m p0 rest ker w kq' Ho Hq HC Hcl Hm Hs HR Hk Ek Ew) as [ie [Ee E]].
  destruct (act_bw_exact_at prev Hq HC) as [ie' [Ee' [_ Ne]]]. assert (ie' = ie) by congruence. subst ie'.
  destruct (act_bw_spec prev Hq) as [it [Et [Si [_ Nt]]]]. assert (it = ib) by congruence. subst it.
  destruct (reported_sum rsqrt pw ln2 prev l pre d post m p0 rest ker w kq' Ho Hm Hs HR Hk Ek Ew x ib n1 Hp Si) as [kb [ER NR]].
  unfold bn_call in EC. cbn [andb] in EC. cbn [rbind] in EC. apply rbind_ok in EC. destruct EC as [yl [_ EC]]. rewrite ER in EC. cbn [rbind] in EC.
  match type of EC with Ok (_, _, ?o) = _ => assert (ET : t = o) by congruence end.
  eexists. eexists. split; [exact ET|]. split; [exact E|]. clear EC ET.
  assert (Lw : length (data w) = d).
  { pose proof Ew as F. unfold call in F. assert (Sx : shape ker = p0 ++ rest) by congruence. destruct (forward_pos _ _ _ _ _ _ _ _ _ _ _ _ Hm Sx (reg_ok_clip _ _ _ HR) F) as [_ [L _]]. rewrite L, Hk. apply prodn_axis. }
  apply sum_to_le. intros e He. rewrite Ne, Nt by assumption. unfold abw_at.
  assert (GL : Spec.Layer.group_of (l_paq prev) (l_out prev) e < length (data (q_fbw (l_paq prev)))) by (apply group_lt; assumption).
  pose proof (act_widths (l_paq prev) (l_relu prev) _ HC GL) as [A1 _].
  assert (ND : d <> 0) by (intros ->; rewrite Ho, prodn_app, prodn_cons in He; lia). set (c := (e / prodn post) mod d). assert (Hc : c < d) by (apply Nat.mod_upper_bound, ND).
  destruct (nth_error (data w) c) as [v|] eqn:Ev; [|apply nth_error_None in Ev; lia].
  pose proof (kernel_bits_at _ _ _ HG Ev) as WB. pose proof (nearest_even_ex (nth (c mod prodn rest) (data (q_fbw kq')) (qz 0))) as Hr.
  assert (PR : prodn rest <> 0) by (intros Z; pose proof (prodn_axis pre d post) as P; rewrite Hs, prodn_app in P; rewrite Z in P; lia).
  pose proof (kernel_grid pw ln2 l pre d post m p0 rest ker w kq' Hm Hs HR Hk Ew _ _ _ Ev Hr) as KG.
  pose proof (weight_le_magnitude _ _ _ _ _ WB (NR _ _ Hc Hr) (in_group_mod _ _ _ _ _ PR Ev eq_refl) KG). pose proof (weight_nonneg _ _ WB). nia.
Qed.
Print Assumptions C87_over_approximate.

(** C87: a call that adapts is a call, without adaptation, of the layer with other bitwidths (those of C88_first_call), bit operations included. *)
Theorem C87_first_call : forall rsqrt pw ln2 lg l x t r ib n1 n2 n3 out, bn_call rsqrt pw ln2 lg l true x t r ib n1 n2 n3 = Ok out ->
  exists f, bn_call rsqrt pw ln2 lg (with_kq l (with_fbw (m_kq l) f)) false x t r ib n1 n2 n3 = Ok out.
Proof.
  intros rsqrt pw ln2 lg l x t r ib n1 n2 n3 out E. unfold bn_call in E. destruct (t && negb (can_update l x)) eqn:C; [discriminate|].
  destruct (bn_adapt rsqrt lg l x t) as [l1|] eqn:A; [|discriminate]. cbn [rbind] in E. unfold bn_adapt in A.
  apply rbind_ok in A. destruct A as [var [_ A]]. apply rbind_ok in A. destruct A as [ker [_ A]]. apply rbind_ok in A. destruct A as [t1 [_ A]].
  apply rbind_ok in A. destruct A as [f [_ A]]. injection A as <-. exists f. unfold bn_call.
  change (can_update (with_kq l (with_fbw (m_kq l) f)) x) with (can_update l x). rewrite C. exact E.
Qed.
Print Assumptions C87_first_call.

(** Samples of shape (2, 2), normalised over the first axis: scales 1/2 (one bit) and 3/2 (two bits), inputs of 5 bits. *)
Definition rsq4 (x : Qc) : Qc := if qeqb x (qz 4) then Q2Qc (1 # 2) else if qeqb x (Q2Qc (1001 # 1000)) then Q2Qc (1999 # 2000) else qz 1.
Definition ln_prev : hlayer := mkL (Fn (fun x => hd [] x))
  (with_minmax (hgq_build (mkT [1; 1; 1] [qz 2]) (Some [0; 1; 2]%Z) 0 true None) (mkT [1; 1; 1] [Fin (Q2Qc (-3 # 2))]) (mkT [1; 1; 1] [Fin (qz 2)])) false (-1) [2; 2].
Definition ln_kq : hgq := hgq_build (mkT [1; 2; 1] [qz 3; qz 3]) None 0 true (Some (qz (-23), qz 23)).
Definition ln_paq : hgq := hgq_build (mkT [1; 2; 2] [qz 3; qz 3; qz 3; qz 3]) (Some [0%Z]) 0 true None.
Definition ln_bn : bnorm := mkN (mkT [1; 2; 1] [qz 1; qz 3]) (mkT [1; 2; 1] [qz 0; qz 0]) (mkT [1; 2; 1] [qz 0; qz 0]) (mkT [1; 2; 1] [qz 1; qz 1]) (qz 3) (Q2Qc (99 # 100)) [0; 2]%Z ln_kq ln_paq.
Example C87_ex : forall pw ln2,
  quantizer_shape (l_paq ln_prev) (l_out ln_prev) /\ calibrated (l_paq ln_prev) /\ clip_ok (m_kq ln_bn) /\ prefix_skip (q_skip (m_kq ln_bn)) 0 /\
  on_axis [] 2 [2] = [1; 2; 1] /\ reg_ok 0 [1; 2; 1] (q_fbw (m_kq ln_bn)) /\
  rbind (call pw ln2 (m_kq ln_bn) (mkT [1; 2; 1] [Q2Qc (1 # 2); Q2Qc (3 # 2)]) false false (fun _ => qz 0)) (fun r => Ok (fst r)) = Ok (mkT [1; 2; 1] [Q2Qc (1 # 2); Q2Qc (3 # 2)]) /\
  bn_exact_bops rsq4 pw ln2 (fun a => a) ln_prev ln_bn = Ok 30%Z /\
  rbind (act_bw ln_prev) (fun ib => rbind (bn_call rsq4 pw ln2 (fun v => qz (flog2 v)) ln_bn false (mkT [1; 2; 2] [qz 1; qz 1; qz 1; qz 1]) false false (Some ib) (fun _ => qz 0) (fun _ => qz 0) (fun _ => qz 0)) (fun r => Ok (snd r))) = Ok (Some 70%Z).
Proof.
  intros. split; [exists [1; 1]; repeat split|]. split.
  { intros g Hg. exists 2%Z. destruct g as [|g]; [|cbn in Hg; lia]. exists (Q2Qc (-3 # 2)), (qz 2). split; [exact (nearest_even_ex (qz 2))|]. split; [lia|]. split; [reflexivity|]. split; [reflexivity|].
    split; [exists (-6)%Z; qvm|]. split; [exists 8%Z; qvm|]. split; [vm_compute; discriminate|]. split; vm_compute; [discriminate|reflexivity]. }
  split; [vm_compute; discriminate|]. split; [right; split; reflexivity|]. split; [reflexivity|]. split; [split; reflexivity|]. split; [qvm|]. split; vm_compute; reflexivity.
Qed.

Example C87_axes_ex :
  bn_build (mkBA [2; -2] (qz 0) (qz 1) true true true)%Z [3; 4; 5] ln_kq ln_paq = Raise /\
  (exists l, bn_build (mkBA [1; -1] (qz 0) (qz 1) true true true)%Z [3; 4; 5] ln_kq ln_paq = Ok l /\ shape (m_gamma l) = [1; 3; 1; 5]) /\
  bn_build (mkBA [-4] (qz 0) (qz 1) true true true)%Z [3; 4; 5] ln_kq ln_paq = Raise.
Proof. split; [reflexivity|]. split; [eexists; split; reflexivity|reflexivity]. Qed.
(** The first call of the layer above adapts, and reports the bit operations of the adapted bitwidths. *)
Example C87_first_call_ex : forall pw ln2,
  rbind (act_bw ln_prev) (fun ib => rbind (bn_call rsq4 pw ln2 (fun v => qz (flog2 v)) ln_bn true (mkT [1; 2; 2] [qz 1; qz 1; qz 1; qz 1]) false false (Some ib) (fun _ => qz 0) (fun _ => qz 0) (fun _ => qz 0))
    (fun r => Ok (map this (data (q_fbw (m_kq (snd (fst r))))), snd r))) = Ok ([4; 3]%Q, Some 80%Z).
Proof. intros. vm_compute. reflexivity. Qed.

(** ** C88 *)

(** C88 (training without center or scale): the switched-off parameters are scalars that the first training call cannot update, so no history of calls,
    traced or not, in which the layer is trained succeeds. *)
Theorem C88_switched_off_refuted : forall rsqrt pw ln2 lg n1 n2 n3 a dims kq paq l flag h s, bn_build a dims kq paq = Ok l ->
  ba_center a = false \/ ba_scale a = false ->
  (forall x t r, In (BEager x t r) h \/ (exists n, In (BRun n x t r) h) -> shape x <> []) ->
  bn_events rsqrt pw ln2 lg n1 n2 n3 h (l, flag, []) = Ok s ->
  forall x t r, In (BEager x t r) h \/ (exists n, In (BRun n x t r) h) -> t = false.
Proof. intros rsqrt pw ln2 lg n1 n2 n3 a dims kq paq l flag h s HB HO HX E. exact (no_training rsqrt pw ln2 lg n1 n2 n3 h (l, flag, []) s (build_off _ _ _ _ _ HB HO) HX E). Qed.
Print Assumptions C88_switched_off_refuted.

(** It can be called at inference, and with both switched on it can be trained. *)
Definition ln_args (center scale : bool) : bnargs := mkBA [1%Z] (Q2Qc (99 # 100)) (qz 3) center scale true.
Definition ln_run (center scale training : bool) : result (list Q) :=
  rbind (bn_build (ln_args center scale) [2; 2] ln_kq ln_paq) (fun l =>
  rbind (bn_events rsq4 (fun _ => qz 0) (qz 0) (fun v => qz (flog2 v)) (fun _ => qz 0) (fun _ => qz 0) (fun _ => qz 0) [BEager (mkT [1; 2; 2] [qz 1; qz 3; qz 0; qz 2]) training false] (l, true, []))
    (fun s => Ok (map this (data (m_mean (fst (fst s)))))%list)).
Example C88_switched_off_ex : ln_run false true true = Raise /\ ln_run true false true = Raise /\ ln_run false false true = Raise /\
  ln_run false true false = Ok [0%Q] /\ ln_run true true true = Ok [1 # 50; 1 # 100]%Q.
Proof. repeat split; vm_compute; reflexivity. Qed.

(** C88 (adaptation): the first call outside a graph, in training or not, sets the bitwidths from the scales it uses: of the moving variance at
    inference, of the batch in training. *)
Theorem C88_first_call : forall rsqrt pw ln2 lg n1 n2 n3 l x t r l' f' g g' m p0 rest lo hi, let s := (p0 ++ rest)%list in
  wf_tensor x -> s = kept1 (axis_flags (length (shape x)) (m_axes l)) (shape x) -> shape (m_gamma l) = s -> shape (m_var l) = s ->
  prefix_skip (q_skip (m_kq l)) m -> length p0 = m -> reg_ok m rest (q_fbw (m_kq l)) -> q_clip (m_kq l) = Some (lo, hi) -> (lo <= hi)%Qc ->
  bn_step rsqrt pw ln2 lg n1 n2 n3 (l, true, g) (BEager x t r) = Ok (l', f', g') ->
  f' = false /\ exists ker, length (data ker) = prodn s /\
    (forall c, c < prodn s -> exists v, nth c (data ker) (qz 0) = (nth c (data (m_gamma l)) (qz 0) * rsqrt (v + m_eps l))%Qc /\
       (t = false -> v = nth c (data (m_var l)) (qz 0)) /\ (t = true -> Spec.BnStats.group_of s x c <> [] -> is_var (Spec.BnStats.group_of s x c) v)) /\
    forall k, k < prodn rest -> exists e,
      least (fun b => exists w, in_group (prodn rest) k (data ker) w /\ w <> qz 0 /\ b = (nth k (data (q_fbw (m_kq l))) (qz 0) - lg (qabs w))%Qc) e /\
      nth k (data (q_fbw (m_kq l'))) (qz 0) = clip_ext e lo hi.
Proof. exact first_call. Qed.
Print Assumptions C88_first_call.

(** C88 (adaptation): after that, nothing but the optimizer changes them. *)
Theorem C88_once : forall rsqrt pw ln2 lg n1 n2 n3 h l graphs l' flag' graphs', bits_clipped (m_kq l) ->
  (forall n x t r, In (BRun n x t r) h -> nth_error graphs n <> Some true) ->
  bn_events rsqrt pw ln2 lg n1 n2 n3 h (l, false, graphs) = Ok (l', flag', graphs') -> m_kq l' = m_kq l /\ flag' = false.
Proof. intros rsqrt pw ln2 lg n1 n2 n3 h l graphs l' flag' graphs' Hc HG E. exact (bits_kept rsqrt pw ln2 lg n1 n2 n3 h l false graphs l' flag' graphs' Hc eq_refl HG E). Qed.
Print Assumptions C88_once.

(** C88 (adaptation) fails in functional models: building one traces the layer in a graph that is thrown away (graph 0 below), which takes
    the flag down; whatever is called afterwards, the bitwidths stay the initial ones. *)
Theorem C88_functional_refuted : forall rsqrt pw ln2 lg n1 n2 n3 h l flag l' flag' graphs', bits_clipped (m_kq l) ->
  (forall x t r, ~ In (BRun 0 x t r) h) ->
  bn_events rsqrt pw ln2 lg n1 n2 n3 (BTrace :: h) (l, flag, []) = Ok (l', flag', graphs') -> m_kq l' = m_kq l.
Proof.
  intros rsqrt pw ln2 lg n1 n2 n3 h l flag l' flag' graphs' Hc HG E. cbn [bn_events bn_step rbind app] in E.
  refine (proj1 (bits_kept rsqrt pw ln2 lg n1 n2 n3 h l false [flag] l' flag' graphs' Hc eq_refl _ E)).
  intros [|n] x t r Hin C; [exact (HG x t r Hin)|]. destruct n; discriminate.
Qed.
Print Assumptions C88_functional_refuted.

(** Scales 1/2 and 3/2, 3 bits at first: an inference call of the layer by itself makes them 4 and 3, in a functional model they stay, also when trained. *)
Definition ln_bits (h : list bn_event) : result (list Q) :=
  rbind (bn_events rsq4 (fun _ => qz 0) (qz 0) (fun v => qz (flog2 v)) (fun _ => qz 0) (fun _ => qz 0) (fun _ => qz 0) h (ln_bn, true, []))
    (fun s => Ok (map this (data (q_fbw (m_kq (fst (fst s))))))%list).
Example C88_adaptation_ex : let x := mkT [1; 2; 2] [qz 1; qz 3; qz 0; qz 2] in
  ln_bits [BEager x false false] = Ok [4; 3]%Q /\ ln_bits [BTrace; BRun 0 x false false] = Ok [4; 3]%Q /\ ln_bits [BTrace; BEager x false false; BTrace; BRun 1 x true false] = Ok [3; 3]%Q.
Proof. repeat split; vm_compute; reflexivity. Qed.
Example C88_first_call_ex : let x := mkT [1; 2; 2] [qz 1; qz 3; qz 0; qz 2] in let s := ([] ++ [1; 2; 1])%list in
  wf_tensor x /\ s = kept1 (axis_flags (length (shape x)) (m_axes ln_bn)) (shape x) /\ shape (m_gamma ln_bn) = s /\ shape (m_var ln_bn) = s /\
  reg_ok 0 [1; 2; 1] (q_fbw (m_kq ln_bn)) /\ prefix_skip (q_skip (m_kq ln_bn)) 0 /\ bits_clipped (m_kq ln_bn).
Proof. repeat split; try reflexivity. - right. split; reflexivity. - repeat constructor; vm_compute; discriminate. Qed.

(** C88 (deployment) fails: to_proxy_model makes a keras BatchNormalization and copies the parameters, whose shapes never fit (beta is looked up by
    name; without center the lookup finds the factor of the bit operations). *)
Theorem C88_deployed_refuted : forall (sname k : string) a dims kq paq l0 l beta, ~ has_char ":" sname -> ~ has_char ":" k -> dims <> [] ->
  bn_build a dims kq paq = Ok l0 -> shape (m_beta l) = shape (m_beta l0) ->
  bn_to_keras sname (k ++ "/")%string a l beta dims = Raise.
Proof.
  intros sname k a dims kq paq l0 l beta Hs Hk HD HB HS. apply to_keras_raises; [exact Hs|exact Hk|]. intros Hc. rewrite HS. unfold bn_build in HB. apply rbind_ok in HB. destruct HB as [ax [_ HB]].
  destruct (existsb _ ax); [discriminate|]. rewrite Hc in HB. apply (f_equal (fun r => match r with Ok l => length (shape (m_beta l)) | Raise => 0 end)) in HB. cbn [m_beta shape] in HB.
  rewrite <- HB. unfold ker_shape. rewrite map_length, combine_length, seq_length. cbn [length]. rewrite Nat.min_id. destruct dims; [contradiction|cbn; lia].
Qed.
Print Assumptions C88_deployed_refuted.
Example C88_deployed_ex : ~ has_char ":" "h_batch_normalization/" /\ exists l, bn_build (ln_args true true) [2; 2] ln_kq ln_paq = Ok l /\
  bn_to_keras "h_batch_normalization/" ("batch_normalization" ++ "/")%string (ln_args true true) l (qz 0) [2; 2] = Raise.
Proof. split; [no_colon|]. eexists. split; [reflexivity|]. vm_compute. reflexivity. Qed.

(** C88 (saving) fails: the configuration holds none of axis, momentum, epsilon, center and scale.  A layer over another axis gets parameters of
    another shape; one with another epsilon loads and computes something else. *)
Theorem C88_saved_refuted :
  (exists a dims kq paq l l', bn_build a dims kq paq = Ok l /\ bn_build (bn_reload a) dims kq paq = Ok l' /\ shape (m_gamma l) <> shape (m_gamma l')) /\
  (exists a dims kq paq l l' x y y' s s', ba_axis a = [-1]%Z /\ ba_center a = true /\ ba_scale a = true /\
     bn_build a dims kq paq = Ok l /\ bn_build (bn_reload a) dims kq paq = Ok l' /\
     m_gamma l' = m_gamma l /\ m_beta l' = m_beta l /\ m_mean l' = m_mean l /\ m_var l' = m_var l /\ m_kq l' = m_kq l /\ m_paq l' = m_paq l /\
     bn_call rsq4 (fun _ => qz 0) (qz 0) (fun v => qz (flog2 v)) l false x false false None (fun _ => qz 0) (fun _ => qz 0) (fun _ => qz 0) = Ok (y, s, None) /\
     bn_call rsq4 (fun _ => qz 0) (qz 0) (fun v => qz (flog2 v)) l' false x false false None (fun _ => qz 0) (fun _ => qz 0) (fun _ => qz 0) = Ok (y', s', None) /\
     map this (data y) = [1 # 2]%Q /\ map this (data y') = [1]%Q).
Proof.
  split.
  - exists (ln_args true true), [2; 3], ln_kq, ln_paq. do 2 eexists. split; [reflexivity|]. split; [reflexivity|]. discriminate.
  - pose (q := hgq_build (mkT [1; 1] [qz 3]) (Some [0%Z]) 0 true None). exists (mkBA [-1]%Z (Q2Qc (99 # 100)) (qz 3) true true true), [1], q, q. do 2 eexists. exists (mkT [1; 1] [qz 1]). do 4 eexists.
    split; [reflexivity|]. split; [reflexivity|]. split; [reflexivity|]. split; [reflexivity|]. split; [reflexivity|]. do 6 (split; [reflexivity|]).
    split; [vm_compute; reflexivity|]. split; [vm_compute; reflexivity|]. split; reflexivity.
Qed.
Print Assumptions C88_saved_refuted.

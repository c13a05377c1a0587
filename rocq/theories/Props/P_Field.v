(** The firmware in the field, on data the model was not calibrated on: C95. *)
From Coq Require Import ZArith QArith Qcanon List Bool String Lia Arith.
From Verif Require Import Base.Num Base.NumFacts Base.Tensor Base.Compute Model.FixedPoint Model.Quantizer Model.Layers Model.Graph Model.Convert Model.Trace Model.Float32 Model.FloatLayer Model.FloatNet
  Model.Precision Model.Register Model.Lut
  Spec.Fixed Spec.Quant Spec.History Spec.Layer Spec.Graph Spec.Trace Spec.Unseen Spec.Prepared Spec.Float Spec.FloatLayer Spec.FloatNet Spec.Precision Spec.NetEval Spec.Firmware Spec.EndToEnd Spec.Staged Spec.Steady
  Proofs.TraceMinmaxP Proofs.ProxyModelP Proofs.ProxyLayerP Proofs.ProxyGuardP Proofs.PrecisionP Proofs.SoundP Proofs.IdemP Proofs.FitsP Proofs.ContainerP Proofs.EndToEndP Proofs.EndQuietP Proofs.FloatNetP Proofs.TraceMoreP Proofs.PreparedP
  Props.P_Trace Props.P_ProxyModel Props.P_Unseen Props.P_FloatLayer Props.P_FloatNet Props.P_Firmware Props.P_Quiet Props.P_Staged Props.P_EndToEnd Props.P_Steady Model.Graph Spec.NetEval Spec.Quiet.
Import ListNotations.
Local Open Scope nat_scope.

Lemma whole_batch n B : dataset n B -> 0 < n -> batch_of n B B.
Proof.
  intros [L _] Hn. exists (seq 0 n). split; [destruct n; [lia|discriminate]|]. split; [apply Forall_forall; intros j Hj; apply in_seq in Hj; lia|].
  rewrite <- (map_id B) at 1. apply map_ext_in. intros b Hb. rewrite Forall_forall in L. rewrite <- (L b Hb). clear.
  induction b as [|x b IH]; [reflexivity|]. cbn [length seq map]. f_equal. rewrite <- seq_shift, map_map. exact IH.
Qed.

(** C95: trace_minmax leaves a model behind that is ready for the conversion. *)
Theorem C95_traced : forall pw ln2 exact_bops m n ds bsz c st bops rs st',
  Forall obj_ok st -> leaves (supported st m) m -> dataset n ds -> 0 < n -> 0 < bsz -> (qz 1 <= c)%Qc ->
  trace_minmax pw ln2 exact_bops m ds bsz true c false st = Ok (bops, rs, st') ->
  (forall i o, In i (top_layers m) -> nth_error st' i = Some o -> in_bounds (l_paq (o_layer o))) ->
  Forall obj_ok st' /\ leaves (supported st' m) m /\ prepared m st'.
Proof. intros pw ln2 eb m n ds bsz c st bops rs st'. apply trace_prepared. Qed.
Print Assumptions C95_traced.

(** C95: such a model is converted; its proxy is described by a network whose layers are given the types derived from the
    quantizers.  On every batch that stays inside the ranges, whether or not it was used for the calibration, the firmware delivers the very
    outputs of the HGQ model, sample by sample. *)
Theorem C95_firmware : forall pw ln2 nin nodes outs st (aggressive : bool) fuel names pm ns cs,
  let m := Sub nin nodes outs in
  Forall obj_ok st -> single m -> leaves (supported st m) m -> prepared m st ->
  depth m + 2 <= fuel -> to_proxy_model pw ln2 fuel aggressive m names st = Ok (pm, ns, cs) ->
  forall net s geo opaque size pfuel confs sizes adder,
  describes s geo opaque size net pm -> all_fine net s -> honest net (fun _ => []) opaque ->
  (forall i kd ps, nth_error net i = Some (kd, ps) -> layer_config (S pfuel) net i s None = Ok ((confs i, sizes i), s)) ->
  (forall i kd ps, nth_error net i = Some (kd, ps) -> synthesized (S pfuel) net s (fun _ => None) i) -> adding adder ->
  (forall i, In i (output_layers pm) -> delivered (S pfuel) net s i) ->
  forall n B, dataset n B -> 0 < n -> proper_inputs size B -> inside pw ln2 m B st -> promises_kept pw ln2 m B st ->
  exists ys, call_model pw ln2 m B st = Ok (ys, st) /\
    forall k, k < n ->
    exists out, fw_run net s geo (sample_feed B k) opaque (fun i => type_named (confs i)) sizes (fun _ => None) adder net [] = Ok out /\
      forall o i, nth_error (output_layers pm) o = Some i -> exists y, nth_error ys o = Some y /\ nth_error out i = Some (nth k y []).
Proof.
  intros pw ln2 nin nodes outs st ag fuel names pm ns cs m HO Hs HL HP Hf EP net s geo opaque size pfuel confs sizes adder D AF HH HC SY AD DL n B HD Hn P HI PK.
  pose proof (whole_batch n B HD Hn) as HBt.
  destruct (prepared_model pw ln2 m st HO HL HP false (if ag then "WRAP" else "SAT")%string (fun H => ltac:(discriminate H)) ltac:(destruct ag; auto) Hs (fun x H => ltac:(discriminate H)) fuel names B Hf HI PK)
    as (pm' & ns' & cs' & ys & EC & _ & E1 & _ & E2). unfold to_proxy_model in EP. rewrite EC in EP. assert (pm' = pm) by congruence. subst pm'.
  exists ys. split; [exact E1|]. intros k Hk. assert (LB : List.length (hd [] B) = n) by (destruct HD as [L N]; destruct B; [congruence|inversion L; assumption]). rewrite <- LB in Hk.
  destruct (describes_run pw ln2 s geo opaque size net pm B (List.length (hd [] B)) k ys [] [] D Hk (fun i b Eb => proj1 (batch_good n B B size HD HBt P i b Eb)) (E2 [])) as (out0 & R & O).
  destruct (C71_network pfuel net s geo (sample_feed B k) opaque confs sizes (fun _ => None) adder out0 AF (honest_feed net n B B size opaque k HD HBt P HH) (fun i kd ps Ei _ => HC i kd ps Ei) SY AD R) as (out & F & _ & S).
  exists out. split; [exact F|]. intros o i Eo. destruct (O o i Eo) as (y & Ey & Ei). exists y. split; [exact Ey|]. rewrite <- Ei. apply S.
  destruct (DL i (nth_error_In _ _ Eo)) as [Q|Q]; auto.
Qed.
Print Assumptions C95_firmware.

(** C95: no quantizer of the proxy overflows on such data, if every ReLU layer is steady. *)
Theorem C95_quiet : forall pw ln2 nin nodes outs st (aggressive : bool) fuel names pm ns cs,
  let m := Sub nin nodes outs in
  Forall obj_ok st -> single m -> leaves (supported st m) m -> prepared m st ->
  (forall i o, In i (top_layers m) -> nth_error st i = Some o -> steady o) ->
  depth m + 2 <= fuel -> to_proxy_model pw ln2 fuel aggressive m names st = Ok (pm, ns, cs) ->
  forall net s geo opaque size, describes s geo opaque size net pm ->
  forall n B, dataset n B -> 0 < n -> proper_inputs size B -> inside pw ln2 m B st -> promises_kept pw ln2 m B st ->
  exists ys, call_model pw ln2 m B st = Ok (ys, st) /\
    forall k, k < n ->
    exists out, run s geo (sample_feed B k) opaque (fun _ => None) net [] = Ok out /\ quiet net s geo out /\
      forall o i, nth_error (output_layers pm) o = Some i -> exists y, nth_error ys o = Some y /\ nth_error out i = Some (nth k y []).
Proof.
  intros pw ln2 nin nodes outs st ag fuel names pm ns cs m HO Hs HL HP HSt Hf EP net s geo opaque size D n B HD Hn P HI PK.
  pose proof (whole_batch n B HD Hn) as HBt.
  destruct (prepared_model pw ln2 m st HO HL HP true (if ag then "WRAP" else "SAT")%string (fun _ => HSt) ltac:(destruct ag; auto) Hs (fun x H => ltac:(discriminate H)) fuel names B Hf HI PK)
    as (pm' & ns' & cs' & ys & EC & _ & E1 & E2 & _). unfold to_proxy_model in EP. rewrite EC in EP. assert (pm' = pm) by congruence. subst pm'.
  exists ys. split; [exact E1|]. intros k Hk. assert (LB : List.length (hd [] B) = n) by (destruct HD as [L N]; destruct B; [congruence|inversion L; assumption]). rewrite <- LB in Hk.
  exact (describes_quiet pw ln2 st s geo opaque size net pm B (List.length (hd [] B)) k ys D Hk (fun i b Eb => proj1 (batch_good n B B size HD HBt P i b Eb)) E2).
Qed.
Print Assumptions C95_quiet.

(** C95: and the firmware is right although the quantizers shrink while the precisions are registered. *)
Theorem C95_registered : forall pw ln2 nin nodes outs st (aggressive : bool) fuel names pm ns cs,
  let m := Sub nin nodes outs in
  Forall obj_ok st -> single m -> leaves (supported st m) m -> prepared m st ->
  (forall i o, In i (top_layers m) -> nth_error st i = Some o -> steady o) ->
  depth m + 2 <= fuel -> to_proxy_model pw ln2 fuel aggressive m names st = Ok (pm, ns, cs) ->
  forall net s geo opaque size, describes s geo opaque size net pm ->
  forall pfuel lnames ov s' ov' confs sizes stage adder,
  topological net -> own_quantizers net -> Forall one_sign s -> Forall moderate s -> Forall moderate s' -> Forall plain_fpq s ->
  register_all (S pfuel) net lnames None (s, ov) = Ok (s', ov') ->
  all_fine net s' -> honest net (fun _ => []) opaque ->
  (forall i q ps fu t o, nth_error net i = Some (NFpq q, ps) -> nth_error s q = Some o -> produced fu net i s' = Ok (t, s') -> shrinks_evenly o t) ->
  same_fusion net s s' ->
  (forall i kd ps, nth_error net i = Some (kd, ps) -> registered_at (S pfuel) net lnames (s, ov) i (confs i) (sizes i) (stage i)) ->
  (forall i kd ps, nth_error net i = Some (kd, ps) -> synthesized (S pfuel) net (stage i) (fun _ => None) i) -> adding adder ->
  (forall i, In i (output_layers pm) -> removed net s' i = true \/ ((forall ps, nth_error net i <> Some (NInput, ps)) /\ demanding_readers (S pfuel) net (stage i) i)) ->
  forall n B, dataset n B -> 0 < n -> proper_inputs size B -> inside pw ln2 m B st -> promises_kept pw ln2 m B st ->
  exists ys, call_model pw ln2 m B st = Ok (ys, st) /\
    forall k, k < n ->
    exists out, fw_run net s' geo (sample_feed B k) opaque (fun i => type_named (confs i)) sizes (fun _ => None) adder net [] = Ok out /\
      forall o i, nth_error (output_layers pm) o = Some i -> exists y, nth_error ys o = Some y /\ nth_error out i = Some (nth k y []).
Proof.
  intros pw ln2 nin nodes outs st ag fuel names pm ns cs m HO Hs HL HP HSt Hf EP net s geo opaque size D pfuel lnames ov s' ov' confs sizes stage adder
    T OQ OS M M' PL RG AF HH SE SF RA SY AD DL n B HD Hn P HI PK.
  destruct (C95_quiet pw ln2 nin nodes outs st ag fuel names pm ns cs HO Hs HL HP HSt Hf EP net s geo opaque size D n B HD Hn P HI PK) as (ys & E1 & F).
  exists ys. split; [exact E1|]. intros k Hk. destruct (F k Hk) as (out0 & R & Q & O).
  destruct (C80_registered pfuel net lnames s ov s' ov' geo (sample_feed B k) opaque confs sizes stage (fun _ => None) adder out0 T OQ OS M M' PL RG AF (honest_feed net n B B size opaque k HD (whole_batch n B HD Hn) P HH)
    ltac:(intros ? ? ? ? ? ? _ X; discriminate X) SE SF RA SY AD R Q) as (out & FW & _ & S).
  exists out. split; [exact FW|]. intros o i Eo. destruct (O o i Eo) as (y & Ey & Ei). exists y. split; [exact Ey|]. rewrite <- Ei. apply S.
  destruct (DL i (nth_error_In _ _ Eo)) as [X|X]; auto.
Qed.
Print Assumptions C95_registered.

(** C95: so the firmware delivers what the HGQ model computes in float32, adding in any order, if the layers leave room. *)
Theorem C95_float32 : forall pw ln2 acc nin nodes outs st (aggressive : bool) fuel names pm ns cs,
  let m := Sub nin nodes outs in
  accumulator acc -> Forall obj_ok st -> single m -> leaves (supported st m) m -> prepared m st ->
  (forall i o, In i (top_layers m) -> nth_error st i = Some o -> steady o) ->
  depth m + 2 <= fuel -> to_proxy_model pw ln2 fuel aggressive m names st = Ok (pm, ns, cs) ->
  forall net s geo opaque size, describes s geo opaque size net pm ->
  forall pfuel lnames ov s' ov' confs sizes stage adder,
  topological net -> own_quantizers net -> Forall one_sign s -> Forall moderate s -> Forall moderate s' -> Forall plain_fpq s ->
  register_all (S pfuel) net lnames None (s, ov) = Ok (s', ov') ->
  all_fine net s' -> honest net (fun _ => []) opaque ->
  (forall i q ps fu t o, nth_error net i = Some (NFpq q, ps) -> nth_error s q = Some o -> produced fu net i s' = Ok (t, s') -> shrinks_evenly o t) ->
  same_fusion net s s' ->
  (forall i kd ps, nth_error net i = Some (kd, ps) -> registered_at (S pfuel) net lnames (s, ov) i (confs i) (sizes i) (stage i)) ->
  (forall i kd ps, nth_error net i = Some (kd, ps) -> synthesized (S pfuel) net (stage i) (fun _ => None) i) -> adding adder ->
  (forall i, In i (output_layers pm) -> removed net s' i = true \/ ((forall ps, nth_error net i <> Some (NInput, ps)) /\ demanding_readers (S pfuel) net (stage i) i)) ->
  forall n B, dataset n B -> 0 < n -> proper_inputs size B -> inside pw ln2 m B st -> promises_kept pw ln2 m B st ->
  every_call pw ln2 st (layer_call_exact pw ln2 st) m B ->
  exists ys, call_model32 acc m B st = Ok (ys, st) /\
    forall k, k < n ->
    exists out, fw_run net s' geo (sample_feed B k) opaque (fun i => type_named (confs i)) sizes (fun _ => None) adder net [] = Ok out /\
      forall o i, nth_error (output_layers pm) o = Some i -> exists y, nth_error ys o = Some y /\ nth_error out i = Some (nth k y []).
Proof.
  intros pw ln2 acc nin nodes outs st ag fuel names pm ns cs m HA HO Hs HL HP HSt Hf EP net s geo opaque size D pfuel lnames ov s' ov' confs sizes stage adder
    T OQ OS M M' PL RG AF HH SE SF RA SY AD DL n B HD Hn P HI PK HE.
  destruct (C95_registered pw ln2 nin nodes outs st ag fuel names pm ns cs HO Hs HL HP HSt Hf EP net s geo opaque size D pfuel lnames ov s' ov' confs sizes stage adder
    T OQ OS M M' PL RG AF HH SE SF RA SY AD DL n B HD Hn P HI PK) as (ys & E1 & F).
  exists ys. split; [|exact F]. destruct (net_exact pw ln2 acc HA st HO m B st ys st (supported_hgq _ _ HL) (alike_refl st HO) E1) as [_ NE]. apply NE. exact HE.
Qed.
Print Assumptions C95_float32.

(** *** Examples *)
Lemma ee_single : single ee_m.
Proof. unfold ee_m; constructor; repeat (apply Forall_cons; [split; [first [exact I|reflexivity]|repeat constructor]|]); apply Forall_nil. Qed.
(** The model of C78_ex (HQuantize and a dense layer) traced on three samples, and two other samples. *)
Definition ee_B : list (list (list Qc)) := [[[Q2Qc (1 # 2); qz (-1)]; [Q2Qc (-3 # 4); Q2Qc (3 # 8)]]].
Lemma ee_new : ~ batch_of 3 ee_ds ee_B.
Proof.
  intros (js & _ & J & E). apply (f_equal (map (map (map this)))) in E. destruct js as [|j js]; [discriminate E|]. inversion J as [|? ? Hj _]; subst.
  destruct j as [|[|[|j]]]; [discriminate E| discriminate E|discriminate E|lia].
Qed.
Example C95_ex : forall pw ln2, exists bops rs st' ys,
  trace_minmax pw ln2 ex_eb ee_m ee_ds 2 true (qz 1) false ee_store = Ok (bops, rs, st') /\ Forall obj_ok st' /\ leaves (supported st' ee_m) ee_m /\ prepared ee_m st' /\
  inside pw ln2 ee_m ee_B st' /\ ~ batch_of 3 ee_ds ee_B /\
  call_model pw ln2 ee_m ee_B st' = Ok ([ys], st') /\ map (map this) ys = [[-3 # 4; -13 # 8]; [1 # 2; 7 # 8]]%Q /\
  forall k, k < 2 -> exists out, fw_run ee_net ee_s ee_geo (sample_feed ee_B k) (fun _ _ => []) (fun i => type_named (ee_conf i)) (fun _ => None) (fun _ => None) one_by_one ee_net [] = Ok out /\
    nth_error out 3 = Some (nth k ys []).
Proof.
  intros pw ln2.
  assert (V : rbind (trace_minmax pw ln2 ex_eb ee_m ee_ds 2 true (qz 1) false ee_store) (fun r => Ok (inside_b pw ln2 ee_m ee_B (snd r),
      match Graph.run (checked pw ln2) ee_m ee_B (snd r) with Ok _ => true | Raise => false end,
      rmap (fun r => map (map (map this)) (fst r)) (call_model pw ln2 ee_m ee_B (snd r)), true)) =
      Ok (true, true, Ok [[[-3 # 4; -13 # 8]; [1 # 2; 7 # 8]]%Q], true)) by (vm_compute; reflexivity).
  destruct (ee_traced pw ln2) as (bops & rs & g & b0 & b1 & r0 & r1 & ET). set (st' := [_; _]) in ET. destruct (ee_converted pw ln2 g r0 r1 b0 b1) as (ns & cs & EP). fold st' in EP.
  rewrite ET in V. cbn [rbind snd] in V. apply ok4 in V. destruct V as (V1 & V2 & V3 & _).
  assert (HB : forall i o, In i (top_layers ee_m) -> nth_error st' i = Some o -> in_bounds (l_paq (o_layer o))).
  { intros [|[|i]] o _ Ho; [..|destruct i; discriminate Ho]; cbn in Ho; injection Ho as <-; apply in_bounds_b_ok; vm_compute; reflexivity. }
  assert (HD : dataset 3 ee_ds) by (split; [repeat constructor|discriminate]).
  destruct (C95_traced pw ln2 ex_eb ee_m 3 ee_ds 2 (qz 1) ee_store bops rs st' ee_ok ee_supported HD ltac:(lia) ltac:(lia) (Qcle_refl _) ET HB) as (O' & L' & P').
  assert (HI : inside pw ln2 ee_m ee_B st') by (apply (inside_b_spec pw ln2 ee_m ee_B st' 2 O' (supported_hgq _ _ L')); [repeat constructor|lia|exact V1]).
  assert (PK : promises_kept pw ln2 ee_m ee_B st') by (unfold promises_kept; destruct (Graph.run (checked pw ln2) ee_m ee_B st'); [eauto|discriminate V2]).
  assert (PI : proper_inputs ee_size ee_B).
  { intros [|i] d x Ed Hx; [|destruct i; discriminate Ed]. cbn in Ed. injection Ed as <-.
    assert (F : forall x, fits 1 4 4 x -> float_value x) by (intros y; apply fits_mono; lia).
    repeat (destruct Hx as [<-|Hx]; [split; [reflexivity|]|]); [| |destruct Hx]; (constructor; [|constructor; [|constructor]]); apply F; [plain 8%Z|plain (-16)%Z|plain (-12)%Z|plain 6%Z]. }
  assert (HH : honest ee_net (fun _ => []) (fun _ _ => [])) by (split; [|split]; intros; constructor).
  destruct (C95_firmware pw ln2 1 _ _ st' true 5 exp_names ee_pm ns cs O' ee_single L' P' ltac:(cbn; lia) EP
    ee_net ee_s ee_geo (fun _ _ => []) ee_size 5 ee_conf (fun _ => None) one_by_one ee_described ee_fine HH) with (n := 2) (B := ee_B) as (zs & EC & FW); try assumption.
  - intros i kd ps E. destruct i as [|[|[|[|i]]]]; [..|destruct i; discriminate E]; vm_compute; reflexivity.
  - exact ee_types.
  - exact one_by_one_adds.
  - intros i [<-|[]]. right. split; [discriminate|]. split; [vm_compute; reflexivity|]. exists 1%Z, 2%Z, 3%Z, 1%Z, 65535%Z, 65535%Z. split; [vm_compute; reflexivity|]. split; [vm_compute; reflexivity|]. lia.
  - split; [repeat constructor|discriminate].
  - lia.
  - change (call_model pw ln2 ee_m ee_B st' = Ok (zs, st')) in EC. rewrite EC in V3. cbn [rmap fst] in V3. injection V3 as V3.
    destruct zs as [|ys [|z zs]]; try discriminate V3. exists bops, rs, st', ys. split; [exact ET|]. split; [exact O'|]. split; [exact L'|]. split; [exact P'|]. split; [exact HI|]. split; [exact ee_new|]. split; [exact EC|].
    split; [cbn [map] in V3; injection V3 as V3; exact V3|].
    intros k Hk. destruct (FW k Hk) as (out & F & O). exists out. split; [exact F|]. destruct (O 0 3 eq_refl) as (y & Ey & Ei). cbn in Ey. assert (y = ys) by congruence. subst y. exact Ei.
Qed.

(** The model of C82_ex (HQuantize, a dense layer with ReLU), whose quantizers shrink when the precisions are registered, on
    three samples it was not traced on; the HGQ model runs in float32. *)
Definition p_B : list (list (list Qc)) := [[[qz 1]; [Q2Qc (5 # 2)]; [Q2Qc (3 # 8)]]].
Example C95_registered_ex : forall pw ln2, exists bops rs st' ys,
  trace_minmax pw ln2 ex_eb ee_m p_ds 2 true (qz 1) false p_store = Ok (bops, rs, st') /\ Forall obj_ok st' /\ leaves (supported st' ee_m) ee_m /\ prepared ee_m st' /\
  (forall i o, In i (top_layers ee_m) -> nth_error st' i = Some o -> steady o) /\ p_s <> p_s2 /\
  inside pw ln2 ee_m p_B st' /\ every_call pw ln2 st' (layer_call_exact pw ln2 st') ee_m p_B /\
  call_model32 acc_fma ee_m p_B st' = Ok ([ys], st') /\ map (map this) ys = [[15 # 16]; [75 # 32]; [15 # 32]]%Q /\
  forall k, k < 3 -> exists out, fw_run p_net p_s2 p_geo (sample_feed p_B k) (fun _ _ => []) (fun i => type_named (p_conf i)) (fun _ => None) (fun _ => None) one_by_one p_net [] = Ok out /\
    nth_error out 5 = Some (nth k ys []).
Proof.
  intros pw ln2.
  assert (V : rbind (trace_minmax pw ln2 ex_eb ee_m p_ds 2 true (qz 1) false p_store) (fun r => Ok (inside_b pw ln2 ee_m p_B (snd r),
      match Graph.run (checked pw ln2) ee_m p_B (snd r) with Ok _ => true | Raise => false end,
      rmap (fun r => map (map (map this)) (fst r)) (call_model pw ln2 ee_m p_B (snd r)),
      every_callb pw ln2 (snd r) (layer_callb pw ln2 (-12) (snd r)) ee_m p_B)) =
      Ok (true, true, Ok [[[15 # 16]; [75 # 32]; [15 # 32]]%Q], true)) by (vm_compute; reflexivity).
  destruct (p_trace pw ln2) as (bops & rs & g & r0 & r1 & b0 & b1 & ET). destruct (p_converted pw ln2 g r0 r1 b0 b1) as (ns & cs & EP). destruct p_registered as [ov' RG].
  set (st' := r_traced g p_q0 p_op p_q1 [1] r0 r1 b0 b1) in *. rewrite ET in V. cbn [rbind snd] in V. apply ok4 in V. destruct V as (V1 & V2 & V3 & V4).
  assert (HB : forall i o, In i (top_layers ee_m) -> nth_error st' i = Some o -> in_bounds (l_paq (o_layer o))).
  { intros [|[|i]] o _ Ho; [..|destruct i; discriminate Ho]; cbn in Ho; injection Ho as <-; apply in_bounds_b_ok; vm_compute; reflexivity. }
  assert (HSt : forall i o, In i (top_layers ee_m) -> nth_error st' i = Some o -> steady o).
  { intros [|[|i]] o _ Ho; [..|destruct i; discriminate Ho]; cbn in Ho; injection Ho as <-; intros RL; [discriminate RL|]. split; [|left; reflexivity].
    intros gr mn mx Hg [_ HM]. cbn in Hg. assert (gr = 0) by lia. subst gr. cbn in HM. injection HM as <-. apply qltb_true. vm_compute. reflexivity. }
  assert (HD : dataset 2 p_ds) by (split; [repeat constructor|discriminate]).
  destruct (C95_traced pw ln2 ex_eb ee_m 2 p_ds 2 (qz 1) p_store bops rs st' p_ok p_supported HD ltac:(lia) ltac:(lia) (Qcle_refl _) ET HB) as (O' & L' & P').
  assert (HI : inside pw ln2 ee_m p_B st') by (apply (inside_b_spec pw ln2 ee_m p_B st' 3 O' (supported_hgq _ _ L')); [repeat constructor|lia|exact V1]).
  assert (PK : promises_kept pw ln2 ee_m p_B st') by (unfold promises_kept; destruct (Graph.run (checked pw ln2) ee_m p_B st'); [eauto|discriminate V2]).
  assert (HE : every_call pw ln2 st' (layer_call_exact pw ln2 st') ee_m p_B) by (apply (every_callb_ok pw ln2 st' _ _ ee_m p_B (layer_callb_ok pw ln2 (-12) st') V4)).
  assert (PI : proper_inputs p_size p_B).
  { intros [|i] d x Ed Hx; [|destruct i; discriminate Ed]. cbn in Ed. injection Ed as <-.
    assert (F : forall x, fits 1 4 4 x -> float_value x) by (intros y; apply fits_mono; lia).
    repeat (destruct Hx as [<-|Hx]; [split; [reflexivity|]|]); [| | |destruct Hx]; (constructor; [|constructor]); apply F; [plain 16%Z|plain 40%Z|plain 6%Z]. }
  assert (HH : honest p_net (fun _ => []) (fun _ _ => [])) by (split; [|split]; intros; constructor).
  assert (SF : same_fusion p_net p_s p_s2).
  { intros m q ps o o' _ E E'. destruct q as [|[|[|q]]]; [| | |destruct q; discriminate E]; cbn in E, E'; injection E as <-; injection E' as <-; vm_compute; reflexivity. }
  assert (EX : exists zs, call_model pw ln2 ee_m p_B st' = Ok (zs, st') /\ call_model32 acc_fma ee_m p_B st' = Ok (zs, st') /\
    forall k, k < 3 -> exists out, fw_run p_net p_s2 p_geo (sample_feed p_B k) (fun _ _ => []) (fun i => type_named (p_conf i)) (fun _ => None) (fun _ => None) one_by_one p_net [] = Ok out /\
      forall o i, nth_error (output_layers p_pm) o = Some i -> exists y, nth_error zs o = Some y /\ nth_error out i = Some (nth k y [])).
  { destruct (C95_float32 pw ln2 acc_fma 1 _ _ st' true 5 exp_names p_pm ns cs acc_fma_ok O' ee_single L' P' HSt ltac:(cbn; lia) EP
      p_net p_s p_geo (fun _ _ => []) p_size p_described 5 r_names r_ov p_s2 ov' p_conf (fun _ => None) p_stage one_by_one p_topo p_own) with (n := 3) (B := p_B) as (zs & EC & FW); try assumption.
    - allfq signq.
    - allfq modq.
    - allfq modq.
    - allfq plainq.
    - exact p_fine.
    - exact p_even.
    - exact p_stages.
    - exact p_types.
    - exact one_by_one_adds.
    - intros i [<-|[]]. left. vm_compute. reflexivity.
    - split; [repeat constructor|discriminate].
    - lia.
    - exists zs. split; [|split; [exact EC|exact FW]].
      destruct (C95_quiet pw ln2 1 _ _ st' true 5 exp_names p_pm ns cs O' ee_single L' P' HSt ltac:(cbn; lia) EP p_net p_s p_geo (fun _ _ => []) p_size p_described 3 p_B ltac:(split; [repeat constructor|discriminate]) ltac:(lia) PI HI PK) as (zs' & E1 & _).
      destruct (net_exact pw ln2 acc_fma acc_fma_ok st' O' ee_m p_B st' zs' st' (supported_hgq _ _ L') (alike_refl st' O') E1) as [_ NE]. specialize (NE HE).
      change (call_model32 acc_fma ee_m p_B st' = Ok (zs, st')) in EC. rewrite NE in EC. assert (zs' = zs) by congruence. subst zs'. exact E1. }
  destruct EX as (zs & E1 & EC & FW). rewrite E1 in V3. cbn [rmap fst] in V3. injection V3 as V3.
  destruct zs as [|ys [|z zs]]; try discriminate V3. exists bops, rs, st', ys. split; [exact ET|]. split; [exact O'|]. split; [exact L'|]. split; [exact P'|]. split; [exact HSt|]. split; [discriminate|]. split; [exact HI|]. split; [exact HE|]. split; [exact EC|].
  split; [cbn [map] in V3; injection V3 as V3; exact V3|].
  intros k Hk. destruct (FW k Hk) as (out & F & O). exists out. split; [exact F|]. destruct (O 0 5 eq_refl) as (y & Ey & Ei). cbn in Ey. assert (y = ys) by congruence. subst y. exact Ei.
Qed.

(** From the HGQ model to the firmware while registration shrinks the
    quantizers: C82. *)
From Coq Require Import ZArith QArith Qcanon List Bool String Lia Arith.
From Verif Require Import Base.Num Base.NumFacts Base.Tensor Base.Compute Model.FixedPoint Model.Quantizer Model.Layers Model.Graph Model.Convert Model.Trace Model.Precision Model.Register Model.Lut
  Spec.Fixed Spec.Quant Spec.History Spec.Layer Spec.Graph Spec.Trace Spec.Precision Spec.NetEval Spec.Firmware Spec.EndToEnd Spec.Staged Spec.Steady
  Proofs.TraceMinmaxP Proofs.ProxyModelP Proofs.ProxyLayerP Proofs.ProxyGuardP Proofs.PrecisionP Proofs.SoundP Proofs.IdemP Proofs.FitsP Proofs.ContainerP Proofs.EndToEndP Proofs.EndQuietP
  Props.P_Trace Props.P_ProxyModel Props.P_Firmware Props.P_Quiet Props.P_Staged Props.P_EndToEnd Spec.Quiet.
Import ListNotations.
Local Open Scope nat_scope.

(** C82: no quantizer of a converted model overflows on the calibration data, if
    every ReLU layer is steady; and the outputs are those of the HGQ model. *)
Theorem C82_quiet : forall pw ln2 exact_bops nin nodes outs n ds bsz c st bops rs st' aggressive fuel names pm ns cs,
  let m := Sub nin nodes outs in
  Forall obj_ok st -> single m -> leaves (supported st m) m -> dataset n ds -> 0 < n -> 0 < bsz -> (qz 1 <= c)%Qc ->
  trace_minmax pw ln2 exact_bops m ds bsz true c false st = Ok (bops, rs, st') ->
  (forall i o, In i (top_layers m) -> nth_error st' i = Some o -> in_bounds (l_paq (o_layer o))) ->
  (forall i o, In i (top_layers m) -> nth_error st' i = Some o -> steady o) ->
  depth m + 2 <= fuel -> to_proxy_model pw ln2 fuel aggressive m names st' = Ok (pm, ns, cs) ->
  forall net s geo opaque size,
  describes s geo opaque size net pm -> proper_inputs size ds ->
  forall B, batch_of n ds B -> promises_kept pw ln2 m B st' ->
  exists ys, call_model pw ln2 m B st' = Ok (ys, st') /\
    forall k, k < List.length (hd [] B) ->
    exists out, run s geo (sample_feed B k) opaque (fun _ => None) net [] = Ok out /\ quiet net s geo out /\
      forall o i, nth_error (output_layers pm) o = Some i -> exists y, nth_error ys o = Some y /\ nth_error out i = Some (nth k y []).
Proof.
  intros pw ln2 eb nin nodes outs n ds bsz c st bops rs st' ag fuel names pm ns cs m HO Hs HL HD Hn Hb Hc ET HB HSt Hf EP net s geo opaque size D P B HBt PK.
  assert (HS0 : (if ag then "WRAP" else "SAT")%string = "WRAP"%string \/ (if ag then "WRAP" else "SAT")%string = "SAT"%string) by (destruct ag; auto).
  destruct (proxy_model_gen pw ln2 eb m n ds bsz c st st' bops rs HO HL HD Hn Hb Hc ET HB true _ (fun _ => HSt) HS0 Hs ltac:(discriminate) fuel names B Hf HBt PK) as (pm' & ns' & cs' & ys & EC & _ & E1 & E2 & _).
  unfold to_proxy_model in EP. rewrite EC in EP. assert (pm' = pm) by congruence. subst pm'.
  exists ys. split; [exact E1|]. intros k Hk.
  exact (describes_quiet pw ln2 st' s geo opaque size net pm B (List.length (hd [] B)) k ys D Hk (fun i b Eb => proj1 (batch_good n ds B size HD HBt P i b Eb)) E2).
Qed.
Print Assumptions C82_quiet.

(** C82: the layers of the proxy are registered one after the other, each with
    the types derived at that moment, while the quantizers are shrunk.  For every
    batch of samples of the dataset and every sample of it, the firmware in these
    types delivers the very outputs of the HGQ model. *)
Theorem C82_firmware : forall pw ln2 exact_bops nin nodes outs n ds bsz c st bops rs st' aggressive fuel names pm ns cs,
  let m := Sub nin nodes outs in
  Forall obj_ok st -> single m -> leaves (supported st m) m -> dataset n ds -> 0 < n -> 0 < bsz -> (qz 1 <= c)%Qc ->
  trace_minmax pw ln2 exact_bops m ds bsz true c false st = Ok (bops, rs, st') ->
  (forall i o, In i (top_layers m) -> nth_error st' i = Some o -> in_bounds (l_paq (o_layer o))) ->
  (forall i o, In i (top_layers m) -> nth_error st' i = Some o -> steady o) ->
  depth m + 2 <= fuel -> to_proxy_model pw ln2 fuel aggressive m names st' = Ok (pm, ns, cs) ->
  forall net s geo opaque size,
  describes s geo opaque size net pm -> proper_inputs size ds ->
  forall pfuel lnames ov s' ov' confs sizes stage adder,
  topological net -> own_quantizers net -> Forall one_sign s -> Forall moderate s -> Forall moderate s' -> Forall plain_fpq s ->
  register_all (S pfuel) net lnames None (s, ov) = Ok (s', ov') ->
  all_fine net s' -> honest net (fun _ => []) opaque ->
  (forall i q ps fu t o, nth_error net i = Some (NFpq q, ps) -> nth_error s q = Some o -> produced fu net i s' = Ok (t, s') -> shrinks_evenly o t) ->
  same_fusion net s s' ->
  (forall i kd ps, nth_error net i = Some (kd, ps) -> registered_at (S pfuel) net lnames (s, ov) i (confs i) (sizes i) (stage i)) ->
  (forall i kd ps, nth_error net i = Some (kd, ps) -> synthesized (S pfuel) net (stage i) (fun _ => None) i) -> adding adder ->
  (forall i, In i (output_layers pm) -> removed net s' i = true \/ ((forall ps, nth_error net i <> Some (NInput, ps)) /\ demanding_readers (S pfuel) net (stage i) i)) ->
  forall B, batch_of n ds B -> promises_kept pw ln2 m B st' ->
  exists ys, call_model pw ln2 m B st' = Ok (ys, st') /\
    forall k, k < List.length (hd [] B) ->
    exists out, fw_run net s' geo (sample_feed B k) opaque (fun i => type_named (confs i)) sizes (fun _ => None) adder net [] = Ok out /\
      forall o i, nth_error (output_layers pm) o = Some i -> exists y, nth_error ys o = Some y /\ nth_error out i = Some (nth k y []).
Proof.
  intros pw ln2 eb nin nodes outs n ds bsz c st bops rs st' ag fuel names pm ns cs m HO Hs HL HD Hn Hb Hc ET HB HSt Hf EP net s geo opaque size D P pfuel lnames ov s' ov' confs sizes stage adder
    T OQ OS M M' PL RG AF HH SE SF RA SY AD DL B HBt PK.
  destruct (C82_quiet pw ln2 eb nin nodes outs n ds bsz c st bops rs st' ag fuel names pm ns cs HO Hs HL HD Hn Hb Hc ET HB HSt Hf EP net s geo opaque size D P B HBt PK) as (ys & E1 & F).
  exists ys. split; [exact E1|]. intros k Hk. destruct (F k Hk) as (out0 & R & Q & O).
  destruct (C80_registered pfuel net lnames s ov s' ov' geo (sample_feed B k) opaque confs sizes stage (fun _ => None) adder out0 T OQ OS M M' PL RG AF (honest_feed net n ds B size opaque k HD HBt P HH)
    ltac:(intros ? ? ? ? ? ? _ X; discriminate X) SE SF RA SY AD R Q) as (out & FW & _ & S).
  exists out. split; [exact FW|]. intros o i Eo. destruct (O o i Eo) as (y & Ey & Ei). exists y. split; [exact Ey|]. rewrite <- Ei. apply S.
  destruct (DL i (nth_error_In _ _ Eo)) as [X|X]; auto.
Qed.
Print Assumptions C82_firmware.

(** *** Examples: HQuantize and a dense layer with ReLU. *)
Definition r_obj (op : lop) (q : hgq) (relu : bool) (out : list nat) : hobj := mkO (mkL op q relu (-1) out) false AOther [out] (qz 0).
Definition r_range (q : hgq) (mn mx : list Qc) : hgq := with_minmax q (mkT (shape (q_fbw q)) (map Fin mn)) (mkT (shape (q_fbw q)) (map Fin mx)).
Definition r_traced (g : list (list Qc) -> list Qc) (q0 : hgq) (op : lop) (q1 : hgq) (out : list nat) (r0 r1 : bool) (b0 b1 : Qc) : store :=
  [mkO (mkL (Fn g) q0 false (-1) out) r0 AOther [out] b0; mkO (mkL op q1 true (-1) out) r1 AOther [out] b1].
Lemma r_trace ds c q0 q1 out ts k kq b loc f0 f1 g0 pw ln2 :
  rmap (fun r => map e_this (snd r)) (trace_minmax pw ln2 ex_eb ee_m ds 2 true c false [r_obj (Fn g0) f0 false out; r_obj (Linear ts k kq b loc) f1 true out]) =
    Ok (map e_this (r_traced g0 q0 (Linear ts k kq b loc) q1 out false false (qz 0) (qz 0))) ->
  exists bops rs g r0 r1 b0 b1, trace_minmax pw ln2 ex_eb ee_m ds 2 true c false [r_obj (Fn g0) f0 false out; r_obj (Linear ts k kq b loc) f1 true out] =
    Ok (bops, rs, r_traced g q0 (Linear ts k kq b loc) q1 out r0 r1 b0 b1).
Proof.
  intros H. destruct (trace_minmax _ _ _ _ _ _ _ _ _ _) as [[[bops rs] st']|]; [|discriminate H]. cbn [rmap snd] in H.
  destruct st' as [|[[op0 p0 rl0 lc0 ot0] r0 a0 i0 b0] [|[[op1 p1 rl1 lc1 ot1] r1 a1 i1 b1] [|? ?]]]; try discriminate H.
  assert (XO : forall (A : Type) (a b : A), Ok a = Ok b -> a = b) by congruence. assert (XC : forall (A : Type) (a b : A) l m, a :: l = b :: m -> a = b /\ l = m) by (intros A a' b' l m E; split; congruence).
  apply XO in H. unfold r_traced in H. cbn [map] in H. apply XC in H as [H0 H1]. apply XC in H1 as [H1 _]. unfold e_this in H0, H1. cbn [o_layer l_op l_paq l_relu l_loc l_out o_act o_ins] in H0, H1.
  do 6 (apply pair_equal_spec in H0 as [H0 ?]). do 6 (apply pair_equal_spec in H1 as [H1 ?]). repeat match goal with E : e_hthis _ = e_hthis _ |- _ => apply e_hthis_inj in E end. subst.
  rename H0 into A1, H1 into B1.
  destruct op0 as [ts0 k0 kq0 b0' lc|g]; [discriminate A1|].
  assert (op1 = Linear ts k kq b loc).
  { destruct op1 as [ts1 k1 kq1 b1' lc|g']; [|discriminate B1]. cbn [e_othis] in B1. assert (X : forall (A : Type) (a b : A), Some a = Some b -> a = b) by congruence. apply X in B1.
    apply pair_equal_spec in B1 as [B1 ->]. apply pair_equal_spec in B1 as [B1 B5]. apply pair_equal_spec in B1 as [B1 B4]. apply pair_equal_spec in B1 as [-> B3].
    apply tthis_inj in B3. apply e_hthis_inj in B4. subst. destruct b as [b|], b1' as [b'|]; try discriminate B5; [|reflexivity]. apply X in B5. apply tthis_inj in B5. subst. reflexivity. }
  subst op1. exists bops, rs, g, r0, r1, b0, b1. reflexivity.
Qed.
(** The proxy. *)
Definition r_pm (out : list nat) (h : list (list Qc) -> list Qc) (f0 f1 f2 : fpq unit) : klayer layer :=
  Sub 1 [(Leaf (81, KFpq f0 out), [(0, 0)]); (Leaf (89, KKeras h), [(1, 0)]); (Leaf (90, KFpq f1 out), [(2, 0)]); (Leaf (91, KRelu), [(3, 0)]); (Leaf (92, KFpq f2 out), [(4, 0)])] [(5, 0)].
Lemma r_converted pw ln2 g q0 op q1 out r0 r1 b0 b1 h f0 f1 f2 :
  layer_quantizer (mkL (Fn g) q0 false (-1) out) false "WRAP" = Ok f0 -> keras_op pw ln2 (mkL op q1 true (-1) out) = Ok h ->
  first_quantizer (mkL op q1 true (-1) out) "WRAP" = Ok f1 -> layer_quantizer (mkL op q1 true (-1) out) true "WRAP" = Ok f2 ->
  exists ns cs, to_proxy_model pw ln2 5 true ee_m exp_names (r_traced g q0 op q1 out r0 r1 b0 b1) = Ok (r_pm out h f0 f1 f2, ns, cs).
Proof.
  intros E0 Q0 Q1 Q2.
  assert (E1 : to_proxy pw ln2 (mkL op q1 true (-1) out) "WRAP" = Ok (mkP h (Two f1 f2) out)) by (unfold to_proxy; rewrite Q0; cbn [rbind l_relu]; rewrite Q1; cbn [rbind]; rewrite Q2; reflexivity).
  unfold to_proxy_model. set (F := proxy_xf pw ln2 _ _).
  assert (F0 : F (Some (10, KQuant 0)) = Ok (XLayer (81, KFpq f0 out))) by (unfold F, r_traced; cbn [proxy_xf get nth_error rbind o_layer]; rewrite E0; reflexivity).
  assert (F1 : F (Some (11, KH 1)) = Ok (XModel (Sub 1 [(Leaf (89, KKeras h), [(0, 0)]); (Leaf (90, KFpq f1 out), [(1, 0)]); (Leaf (91, KRelu), [(2, 0)]); (Leaf (92, KFpq f2 out), [(3, 0)])] [(4, 0)]))).
  { unfold F, r_traced. cbn [proxy_xf get nth_error rbind o_layer]. rewrite E1. reflexivity. }
  clear E0 E1 Q0 Q1 Q2.
  set (F' := fun x => match x with Some (10, KQuant 0) => Ok (XLayer (81, KFpq f0 out)) | Some (11, KH 1) => Ok (XModel (Sub 1 [(Leaf (89, KKeras h), [(0, 0)]); (Leaf (90, KFpq f1 out), [(1, 0)]); (Leaf (91, KRelu), [(2, 0)]); (Leaf (92, KFpq f2 out), [(3, 0)])] [(4, 0)])) | _ => F x end).
  assert (FE : forall x, F x = F' x).
  { intros [[u k]|]; [|reflexivity]. unfold F'. do 10 (destruct u as [|u]; [reflexivity|]). destruct u as [|[|u]]; [|destruct k as [[|[|i]]|i| | | | | | |]; try reflexivity; exact F1|reflexivity].
    destruct k as [i|[|i]| | | | | | |]; try reflexivity. exact F0. }
  rewrite (convert_ext _ _ _ FE). unfold F', F, r_traced. clear. eexists. eexists. vm_compute. reflexivity.
Qed.

(** The network of the proxy; [u] outputs, weight w and perhaps a bias. *)
Definition r_net (w : Qc) (b : option (list Qc)) : pnet := [(NInput, []); (NFpq 0, [0]); (NKernel [w] 1 b, [1]); (NFpq 1, [2]); (NActL false relu, [3]); (NFpq 2, [4])].
Definition r_names : list string := ["in"; "q0"; "d"; "q1"; "relu"; "q2"]%string.
Definition r_ov : ovs := [Some []; Some []; Some []].
Definition r_fq1 (c : qcfg) : fpq unit := mkFPQ (mkT [] [c]) "TRN" "WRAP" tt.

(** HQuantize with two fractional bits and a dense layer with weight 15/16, seven
    fractional bits and truncation, on the samples 15/4 and -1/2.  Registration
    takes one bit from each of the last two quantizers. *)
Definition p_w : Qc := Q2Qc (15 # 16).
Definition p_op : lop := Linear [[(0, 0)]] (mkT [1; 1] [p_w]) (hgq_build (mkT [1; 1] [qz 4]) None 0 true None) None (-1).
Definition p_one (xs : list (list Qc)) : list Qc := [nth 0 (hd [] xs) (qz 0)].
Definition p_q (f : Qc) (sg : Z) : hgq := hgq_build (mkT [1; 1] [f]) (Some [0%Z]) sg true (Some (qz (-23), qz 23)).
Definition p_store : store := [r_obj (Fn p_one) (p_q (qz 2) 0) false [1]; r_obj p_op (p_q (qz 7) 3) true [1]].
Definition p_ds : list (list (list Qc)) := [[[Q2Qc (15 # 4)]; [Q2Qc (-1 # 2)]]].
Definition p_q0 : hgq := r_range (p_q (qz 2) 0) [Q2Qc (-1 # 2)] [Q2Qc (15 # 4)].
Definition p_q1 : hgq := r_range (p_q (qz 7) 3) [Q2Qc (-15 # 32)] [Q2Qc (225 # 64)].
Definition p_f0 : fpq unit := mkFPQ (mkT [1; 1] [mkCfg 1 5 3]) "RND" "WRAP" tt.
Definition p_f2 (c : qcfg) : fpq unit := mkFPQ (mkT [1; 1] [c]) "TRN" "WRAP" tt.
Definition p_s : pst := [p_f0; r_fq1 (mkCfg 1 10 3); p_f2 (mkCfg 0 9 2)].
Definition p_s1 : pst := [p_f0; r_fq1 (mkCfg 1 9 3); p_f2 (mkCfg 0 9 2)].
Definition p_s2 : pst := [p_f0; r_fq1 (mkCfg 1 9 3); p_f2 (mkCfg 0 8 2)].
Definition p_g (x : list (list Qc)) : list Qc := linop [[(0, 0)]] [p_w] (hd [] x).
Definition p_pm : klayer layer := r_pm [1] p_g p_f0 (r_fq1 (mkCfg 1 10 3)) (p_f2 (mkCfg 0 9 2)).
Definition p_net : pnet := r_net p_w None.
Definition p_size (n : nat) : nat := 1.
Definition p_geo (n : nat) : list recipe := [mkR [Some (0, 0)] 0 []].
Definition p_before (n : nat) : pst := match n with 0 | 1 | 2 | 3 => p_s | 4 | 5 => p_s1 | _ => p_s2 end.
Definition p_stage (n : nat) : pst := match n with 0 | 1 | 2 => p_s | 3 | 4 => p_s1 | _ => p_s2 end.
Definition p_conf (n : nat) : list (string * string) := match layer_config 6 p_net n (p_before n) None with Ok ((t, _), _) => t | Raise => [] end.

Lemma p_obj_ok op f sg rl : (qz (-23) <= f)%Qc /\ (f <= qz 23)%Qc -> match op with Fn g => forall x, List.length (g x) = 1 | _ => op = p_op end -> obj_ok (r_obj op (p_q f sg) rl [1]).
Proof.
  intros HF Ho. unfold obj_ok. cbv zeta. split; [|split; [|split]].
  - split; [exists [1]; cbn; auto 6|]. split; [cbn; lia|]. destruct op as [ts k kq b loc|g]; [|exact Ho].
    injection Ho as -> -> -> -> ->. split; [reflexivity|]. split; [eexists; reflexivity|exact I].
  - exists [], [1]. cbn. split; [reflexivity|]. split; [left; reflexivity|]. repeat split; cbn; auto.
  - constructor; [exact HF|constructor].
  - destruct op as [ts k kq b loc|g]; [|exact I]. injection Ho as -> -> -> -> ->. exact I.
Qed.
Lemma p_ok : Forall obj_ok p_store.
Proof. repeat (apply Forall_cons; [apply p_obj_ok; [split; vm_compute; discriminate|reflexivity]|]). apply Forall_nil. Qed.
Lemma p_supported : leaves (supported p_store ee_m) ee_m.
Proof.
  unfold ee_m at 2. constructor. intros k ins H. repeat (destruct H as [H|H]; [injection H as <- <-|]); [| |destruct H].
  - constructor. split; [vm_compute; tauto|]. eexists. split; [reflexivity|]. split; [exact I|]. split; [|reflexivity]. exists p_one. split; [reflexivity|]. split; [reflexivity|].
    intros x Hx. destruct x as [|a [|b x]]; try discriminate Hx. reflexivity.
  - constructor. split; [vm_compute; tauto|]. eexists. split; [reflexivity|]. exact I.
Qed.
Lemma p_trace pw ln2 : exists bops rs g r0 r1 b0 b1, trace_minmax pw ln2 ex_eb ee_m p_ds 2 true (qz 1) false p_store = Ok (bops, rs, r_traced g p_q0 p_op p_q1 [1] r0 r1 b0 b1).
Proof. apply (r_trace p_ds (qz 1) p_q0 p_q1 [1]). vm_compute. reflexivity. Qed.
Lemma p_converted pw ln2 g r0 r1 b0 b1 : exists ns cs, to_proxy_model pw ln2 5 true ee_m exp_names (r_traced g p_q0 p_op p_q1 [1] r0 r1 b0 b1) = Ok (p_pm, ns, cs).
Proof. apply r_converted; vm_compute; reflexivity. Qed.
Lemma p_described : describes p_s p_geo (fun _ _ => []) p_size p_net p_pm.
Proof.
  split; [reflexivity|]. split; [intros [|i] H; [reflexivity|lia]|]. split; [|repeat constructor].
  intros [|[|[|[|[|j]]]]] k ins E; [..|destruct j; discriminate E]; injection E as <- <-; eexists; eexists; (split; [reflexivity|]); (split; [repeat constructor|]); (split; [reflexivity|]).
  - exists 0, 0. do 5 (split; [reflexivity|]). right. exists [1]. repeat split.
  - apply (C78_kernel _ p_geo (fun _ _ => []) p_size 2 1 [[(0, 0)]] [p_w] 1 1 None (-1) [1] (fun _ => [Some 0])); try reflexivity; try exact I; [lia|].
    intros e He. unfold p_size in He. assert (e = 0) by lia. subst e. split; [cbn; lia|]. split; [reflexivity|]. repeat constructor.
  - exists 1, 2. do 5 (split; [reflexivity|]). left. eexists. split; reflexivity.
  - exists 3. repeat split.
  - exists 2, 4. do 5 (split; [reflexivity|]). right. exists [1]. repeat split.
Qed.
Lemma p_topo : topological p_net.
Proof. intros [|[|[|[|[|[|n]]]]]] kd ps E; cbn in E; try (destruct n; discriminate); injection E as <- <-; repeat constructor. Qed.
Lemma p_own : own_quantizers p_net.
Proof. intros [|[|[|[|[|[|n]]]]]] [|[|[|[|[|[|m]]]]]] q ps1 ps2 E1 E2; cbn in E1, E2; try discriminate; try congruence; try (destruct n; discriminate); try (destruct m; discriminate). Qed.
Lemma p_registered : exists ov', register_all 6 p_net r_names None (p_s, r_ov) = Ok (p_s2, ov').
Proof. eexists. vm_compute. reflexivity. Qed.
Lemma p_stages n kd ps : nth_error p_net n = Some (kd, ps) -> registered_at 6 p_net r_names (p_s, r_ov) n (p_conf n) None (p_stage n).
Proof.
  intros E. destruct n as [|[|[|[|[|[|n]]]]]]; [..|destruct n; discriminate E];
    match goal with |- registered_at _ _ _ _ ?n _ _ _ => exists (p_before n) end; eexists; (split; [vm_compute; reflexivity|vm_compute; reflexivity]).
Qed.
Ltac is_produced net n s HP t v := let HI' := fresh in assert (HI' : produced 6 net n s = Ok (v, s)) by (vm_compute; reflexivity); let E := fresh in pose proof (produced_agree _ _ _ _ _ _ _ HP HI') as E; assert (t = v) by congruence; subst t.
Lemma relu_plain x k i f : (i <= 10)%Z -> (f <= 32)%Z -> fits k i f x -> plain_value (relu x).
Proof.
  intros Hi Hf [G [_ Hhi]]. apply (grid_mono f 32 x Hf) in G.
  assert (P : (pow2 i <= pow2 32)%Qc) by (apply pow2_le; lia). pose proof (pow2_pos 32) as P'.
  unfold relu, qmax. destruct (qleb x (qz 0)) eqn:C.
  - split; [exists 0%Z; qvm|]. split; [apply qleb_true|apply qltb_true]; vm_compute; reflexivity.
  - split; [exact G|]. apply qleb_false in C. change (qz 0) with 0%Qc in C. split; qlra.
Qed.
Lemma p_fine : all_fine p_net p_s2.
Proof.
  split; [|intros [|[|[|[|[|[|n]]]]]] k i f ps E; cbn in E; try discriminate; destruct n; discriminate].
  intros [|[|[|[|[|[|n]]]]]] kd ps fuel ts t E HI HP; cbn in E; try discriminate; try (destruct n; discriminate); injection E as <- <-; cbn [node_fine]; try exact I.
  - eexists. split; [reflexivity|]. left. eexists. split; [legal|repeat constructor].
  - apply one_input in HI as [v [-> HI]]. is_produced p_net 1 p_s2 HI v (1, 2, 2)%Z. split; [lia|]. split; [discriminate|]. split; [reflexivity|]. split; [|split].
    + apply Forall_cons; [plain (15 * 2 ^ 28)%Z|]. apply Forall_nil.
    + intros k i f _ _ u e Hu C. assert (u = 0%Z) by lia. subst u. pose proof (pow2_pos e) as P. unfold column in C. cbn in C. inversion C as [|? ? E1 _]; subst.
      assert (Q' : (qz 0 < p_w)%Qc) by (apply qltb_true; vm_compute; reflexivity). assert (Q : (p_w = - pow2 e)%Qc) by exact E1. rewrite Q in Q'. qlra.
    + exact I.
  - eexists. split; [reflexivity|]. left. eexists. split; [legal|repeat constructor].
  - apply one_input in HI as [v [-> HI]]. is_produced p_net 3 p_s2 HI v (1, 2, 6)%Z. intros k i f [X|[]]. injection X as <- <- <-. split; [lia|]. split; [lia|]. split; [lia|]. split; [|lia].
    intros x. apply relu_plain; lia.
  - eexists. split; [reflexivity|]. left. eexists. split; [legal|repeat constructor].
Qed.
Ltac res k i f R V := right; right; split; [discriminate|]; split; [exact I|]; split; [vm_compute; reflexivity|]; exists k, i, f, R, V; split; [vm_compute; reflexivity|]; split; [auto|]; split; [lia|]; split; [lia|]; split; [cbn; auto 10|]; split; [cbn; auto 10|]; split.
Lemma p_types n kd ps : nth_error p_net n = Some (kd, ps) -> synthesized 6 p_net (p_stage n) (fun _ => None) n.
Proof.
  destruct n as [|[|[|[|[|[|n]]]]]]; intros E; [..|destruct n; discriminate E]; try (left; split; vm_compute; reflexivity).
  - res 1%Z 2%Z 2%Z "RND"%string "WRAP"%string; [exact I|]. left. eexists. eexists. eexists. split; [reflexivity|]. split; [reflexivity|]. split; [reflexivity|]. split; [legal|reflexivity].
  - res 1%Z 2%Z 7%Z "TRN"%string "WRAP"%string.
    + exists 1%Z, 2%Z, 6%Z. split; [vm_compute; reflexivity|]. left. split; [reflexivity|]. split; [lia|]. split; [lia|auto].
    + left. eexists. eexists. eexists. split; [reflexivity|]. split; [reflexivity|]. split; [reflexivity|]. split; [legal|reflexivity].
  - res 0%Z 2%Z 7%Z "TRN"%string "WRAP"%string; [exact I|]. left. eexists. eexists. eexists. split; [reflexivity|]. split; [reflexivity|]. split; [reflexivity|]. split; [legal|reflexivity].
Qed.
Lemma p_even m q ps fu t o : nth_error p_net m = Some (NFpq q, ps) -> nth_error p_s q = Some o -> produced fu p_net m p_s2 = Ok (t, p_s2) -> shrinks_evenly o t.
Proof.
  intros Em Eo HP. destruct m as [|[|[|[|[|[|m]]]]]]; cbn in Em; try discriminate Em; [| | |destruct m; discriminate]; injection Em as <- <-; cbn in Eo; injection Eo as <-.
  - is_produced p_net 1 p_s2 HP t (1, 2, 2)%Z. split; [lia|]. intros c [<-|[]]; cbn; lia.
  - is_produced p_net 3 p_s2 HP t (1, 2, 6)%Z. split; [lia|]. intros c [<-|[]]; cbn; lia.
  - is_produced p_net 5 p_s2 HP t (0, 2, 6)%Z. split; [lia|]. intros c [<-|[]]; cbn; lia.
Qed.
(** The firmware delivers 225/64 and 0, as the HGQ model. *)
Example C82_ex : forall pw ln2, exists bops rs st' ys,
  trace_minmax pw ln2 ex_eb ee_m p_ds 2 true (qz 1) false p_store = Ok (bops, rs, st') /\ p_s <> p_s2 /\
  call_model pw ln2 ee_m p_ds st' = Ok ([ys], st') /\ ys = [[Q2Qc (225 # 64)]; [qz 0]] /\
  forall k, k < 2 -> exists out, fw_run p_net p_s2 p_geo (sample_feed p_ds k) (fun _ _ => []) (fun i => type_named (p_conf i)) (fun _ => None) (fun _ => None) one_by_one p_net [] = Ok out /\
    nth_error out 5 = Some (nth k ys []).
Proof.
  intros pw ln2. destruct (p_trace pw ln2) as (bops & rs & g & r0 & r1 & b0 & b1 & ET). destruct (p_converted pw ln2 g r0 r1 b0 b1) as (ns & cs & EP). destruct p_registered as [ov' RG].
  set (st' := r_traced g p_q0 p_op p_q1 [1] r0 r1 b0 b1) in *.
  assert (HB : forall i o, In i (top_layers ee_m) -> nth_error st' i = Some o -> in_bounds (l_paq (o_layer o))).
  { intros [|[|i]] o _ Ho; [..|destruct i; discriminate Ho]; cbn in Ho; injection Ho as <-; apply in_bounds_b_ok; vm_compute; reflexivity. }
  assert (HSt : forall i o, In i (top_layers ee_m) -> nth_error st' i = Some o -> steady o).
  { intros [|[|i]] o _ Ho; [..|destruct i; discriminate Ho]; cbn in Ho; injection Ho as <-; intros RL; [discriminate RL|]. split; [|left; reflexivity].
    intros gr mn mx Hg [_ HM]. cbn in Hg. assert (gr = 0) by lia. subst gr. cbn in HM. injection HM as <-. apply qltb_true. vm_compute. reflexivity. }
  assert (HS : single ee_m) by (unfold ee_m; constructor; repeat (apply Forall_cons; [split; [first [exact I|reflexivity]|repeat constructor]|]); apply Forall_nil).
  assert (HD : dataset 2 p_ds) by (split; [repeat constructor|discriminate]).
  assert (HBt : batch_of 2 p_ds p_ds) by (exists [0; 1]; split; [discriminate|]; split; [repeat constructor|reflexivity]).
  assert (PK : promises_kept pw ln2 ee_m p_ds st').
  { assert (NS : leaves (fun x : layer => match snd x with KSig _ _ => False | _ => True end) ee_m).
    { unfold ee_m. constructor. intros k ins H. repeat (destruct H as [H|H]; [injection H as <- <-; constructor; exact I|]). destruct H. }
    destruct (batch_runs pw ln2 ex_eb ee_m 2 p_ds 2 (qz 1) p_store st' bops rs p_ok p_supported HD ltac:(lia) ltac:(lia) (Qcle_refl _) ET HB p_ds HBt) as [r Er].
    exists r. rewrite <- Er. apply run_ext. eapply leaves_impl; [|exact NS]. intros [u k] H vs s. unfold checked, promise. cbn [snd] in *. destruct k; try reflexivity. destruct H. }
  assert (PI : proper_inputs p_size p_ds).
  { intros [|i] d x Ed Hx; [|destruct i; discriminate Ed]. cbn in Ed. injection Ed as <-.
    assert (F : forall x, fits 1 4 4 x -> float_value x) by (intros y; apply fits_mono; lia).
    repeat (destruct Hx as [<-|Hx]; [split; [reflexivity|]|]); [| |destruct Hx]; (constructor; [|constructor]); apply F; [plain 60%Z|plain (-8)%Z]. }
  assert (HH : honest p_net (fun _ => []) (fun _ _ => [])) by (split; [|split]; intros; constructor).
  assert (SF : same_fusion p_net p_s p_s2).
  { intros m q ps o o' _ E E'. destruct q as [|[|[|q]]]; [| | |destruct q; discriminate E]; cbn in E, E'; injection E as <-; injection E' as <-; vm_compute; reflexivity. }
  destruct (C82_firmware pw ln2 ex_eb 1 _ _ 2 p_ds 2 (qz 1) p_store bops rs st' true 5 exp_names p_pm ns cs p_ok HS p_supported HD ltac:(lia) ltac:(lia) (Qcle_refl _) ET HB HSt ltac:(cbn; lia) EP
    p_net p_s p_geo (fun _ _ => []) p_size p_described PI 5 r_names r_ov p_s2 ov' p_conf (fun _ => None) p_stage one_by_one p_topo p_own) with (B := p_ds) as (zs & EC & FW); try assumption.
  - allfq signq.
  - allfq modq.
  - allfq modq.
  - allfq plainq.
  - exact p_fine.
  - exact p_even.
  - exact p_stages.
  - exact p_types.
  - exact one_by_one_adds.
  - intros i [<-|[]]. left. vm_compute. reflexivity.
  - assert (V : rmap (fun r => map (map (map this)) (fst r)) (rbind (trace_minmax pw ln2 ex_eb ee_m p_ds 2 true (qz 1) false p_store) (fun r => call_model pw ln2 ee_m p_ds (snd r))) =
      Ok [[[225 # 64]; [0]]%Q]) by (vm_compute; reflexivity).
    rewrite ET in V. cbn [rbind snd] in V.
    change (call_model pw ln2 ee_m p_ds st' = Ok (zs, st')) in EC. rewrite EC in V. cbn [rmap fst] in V. assert (V' : map (map (map this)) zs = [[[225 # 64]; [0]]%Q]) by congruence. clear V.
    destruct zs as [|ys [|z zs]]; try discriminate V'. exists bops, rs, st', ys. split; [exact ET|]. split; [discriminate|]. split; [exact EC|]. split.
    + apply map_map_this_inj. cbn [map] in V'. injection V' as V'. rewrite V'. reflexivity.
    + intros k Hk. destruct (FW k Hk) as (out & F & O). exists out. split; [exact F|]. destruct (O 0 5 eq_refl) as (y & Ey & Ei). cbn in Ey. assert (y = ys) by congruence. subst y. exact Ei.
Qed.

(** C82: for layers that round to nearest, the condition is needed for the proxy
    to be quiet.  The same model with rounding and no fractional bits: on -1/2
    the dense layer has -15/32, rounded to 0; the recorded range is [0, 4] and
    the proxy's first quantizer, without sign, overflows.  (The output, 0, is
    right all the same: the second quantizer wraps it back.) *)
Definition n_store : store := [r_obj (Fn p_one) (p_q (qz 2) 0) false [1]; r_obj p_op (p_q (qz 0) 0) true [1]].
Definition n_q1 : hgq := r_range (p_q (qz 0) 0) [qz 0] [qz 4].
Definition n_f2 : fpq unit := mkFPQ (mkT [1; 1] [mkCfg 0 3 3]) "RND" "WRAP" tt.
Definition n_s : pst := [p_f0; r_fq1 (mkCfg 0 4 3); n_f2].
Definition n_pm : klayer layer := r_pm [1] p_g p_f0 (r_fq1 (mkCfg 0 4 3)) n_f2.
Theorem C82_rounding_refuted : forall pw ln2, exists bops rs st' ns cs ys out,
  Forall obj_ok n_store /\ leaves (supported n_store ee_m) ee_m /\
  trace_minmax pw ln2 ex_eb ee_m p_ds 2 true (qz 1) false n_store = Ok (bops, rs, st') /\
  (forall i o, In i (top_layers ee_m) -> nth_error st' i = Some o -> in_bounds (l_paq (o_layer o))) /\
  to_proxy_model pw ln2 5 true ee_m exp_names st' = Ok (n_pm, ns, cs) /\ describes n_s p_geo (fun _ _ => []) p_size p_net n_pm /\
  call_model pw ln2 ee_m p_ds st' = Ok ([ys], st') /\ nth 1 ys [] = [qz 0] /\
  run n_s p_geo (sample_feed p_ds 1) (fun _ _ => []) (fun _ => None) p_net [] = Ok out /\ nth_error out 5 = Some [qz 0] /\ ~ quiet p_net n_s p_geo out.
Proof.
  intros pw ln2.
  assert (ET : exists bops rs g r0 r1 b0 b1, trace_minmax pw ln2 ex_eb ee_m p_ds 2 true (qz 1) false n_store = Ok (bops, rs, r_traced g p_q0 p_op n_q1 [1] r0 r1 b0 b1)) by (apply (r_trace p_ds (qz 1) p_q0 n_q1 [1]); vm_compute; reflexivity).
  destruct ET as (bops & rs & g & r0 & r1 & b0 & b1 & ET).
  assert (EP : exists ns cs, to_proxy_model pw ln2 5 true ee_m exp_names (r_traced g p_q0 p_op n_q1 [1] r0 r1 b0 b1) = Ok (n_pm, ns, cs)) by (apply r_converted; vm_compute; reflexivity).
  destruct EP as (ns & cs & EP). set (st' := r_traced g p_q0 p_op n_q1 [1] r0 r1 b0 b1) in *.
  assert (OK : Forall obj_ok n_store) by (repeat (apply Forall_cons; [apply p_obj_ok; [split; vm_compute; discriminate|reflexivity]|]); apply Forall_nil).
  assert (SU : leaves (supported n_store ee_m) ee_m).
  { unfold ee_m at 2. constructor. intros k ins H. repeat (destruct H as [H|H]; [injection H as <- <-|]); [| |destruct H].
    - constructor. split; [vm_compute; tauto|]. eexists. split; [reflexivity|]. split; [exact I|]. split; [|reflexivity]. exists p_one. split; [reflexivity|]. split; [reflexivity|].
      intros x Hx. destruct x as [|a [|b x]]; try discriminate Hx. reflexivity.
    - constructor. split; [vm_compute; tauto|]. eexists. split; [reflexivity|]. exact I. }
  assert (HB : forall i o, In i (top_layers ee_m) -> nth_error st' i = Some o -> in_bounds (l_paq (o_layer o))).
  { intros [|[|i]] o _ Ho; [..|destruct i; discriminate Ho]; cbn in Ho; injection Ho as <-; apply in_bounds_b_ok; vm_compute; reflexivity. }
  assert (D : describes n_s p_geo (fun _ _ => []) p_size p_net n_pm).
  { split; [reflexivity|]. split; [intros [|i] H; [reflexivity|lia]|]. split; [|repeat constructor].
    intros [|[|[|[|[|j]]]]] k ins E; [..|destruct j; discriminate E]; injection E as <- <-; eexists; eexists; (split; [reflexivity|]); (split; [repeat constructor|]); (split; [reflexivity|]).
    - exists 0, 0. do 5 (split; [reflexivity|]). right. exists [1]. repeat split.
    - apply (C78_kernel _ p_geo (fun _ _ => []) p_size 2 1 [[(0, 0)]] [p_w] 1 1 None (-1) [1] (fun _ => [Some 0])); try reflexivity; try exact I; [lia|].
      intros e He. unfold p_size in He. assert (e = 0) by lia. subst e. split; [cbn; lia|]. split; [reflexivity|]. repeat constructor.
    - exists 1, 2. do 5 (split; [reflexivity|]). left. eexists. split; reflexivity.
    - exists 3. repeat split.
    - exists 2, 4. do 5 (split; [reflexivity|]). right. exists [1]. repeat split. }
  assert (V : rmap (fun r => map (map (map this)) (fst r)) (rbind (trace_minmax pw ln2 ex_eb ee_m p_ds 2 true (qz 1) false n_store) (fun r => call_model pw ln2 ee_m p_ds (snd r))) = Ok [[[4]; [0]]%Q]) by (vm_compute; reflexivity).
  rewrite ET in V. cbn [rbind snd] in V.
  assert (HD : dataset 2 p_ds) by (split; [repeat constructor|discriminate]).
  assert (HBt : batch_of 2 p_ds p_ds) by (exists [0; 1]; split; [discriminate|]; split; [repeat constructor|reflexivity]).
  assert (HS : single ee_m) by (unfold ee_m; constructor; repeat (apply Forall_cons; [split; [first [exact I|reflexivity]|repeat constructor]|]); apply Forall_nil).
  assert (PK : promises_kept pw ln2 ee_m p_ds st').
  { assert (NS : leaves (fun x : layer => match snd x with KSig _ _ => False | _ => True end) ee_m).
    { unfold ee_m. constructor. intros k ins H. repeat (destruct H as [H|H]; [injection H as <- <-; constructor; exact I|]). destruct H. }
    destruct (batch_runs pw ln2 ex_eb ee_m 2 p_ds 2 (qz 1) n_store st' bops rs OK SU HD ltac:(lia) ltac:(lia) (Qcle_refl _) ET HB p_ds HBt) as [r Er].
    exists r. rewrite <- Er. apply run_ext. eapply leaves_impl; [|exact NS]. intros [u k] H vs s. unfold checked, promise. cbn [snd] in *. destruct k; try reflexivity. destruct H. }
  pose proof (C32_proxy_model_exact pw ln2 ex_eb 1 _ _ 2 p_ds 2 (qz 1) n_store bops rs st' true 5 exp_names OK HS SU HD ltac:(lia) ltac:(lia) (Qcle_refl _) ET HB ltac:(cbn; lia)) as T. cbv zeta in T.
  change (Sub 1 _ _) with ee_m in T. rewrite EP in T. destruct (T p_ds HBt PK) as (_ & zs & EC & _). change (call_model pw ln2 ee_m p_ds st' = Ok (zs, st')) in EC. rewrite EC in V. cbn [rmap fst] in V.
  assert (V' : map (map (map this)) zs = [[[4]; [0]]%Q]) by congruence. clear V. destruct zs as [|ys [|z zs]]; try discriminate V'.
  assert (Ey : ys = [[qz 4]; [qz 0]]) by (apply map_map_this_inj; cbn [map] in V'; injection V' as V'; rewrite V'; reflexivity).
  exists bops, rs, st', ns, cs, ys, [[Q2Qc (-1 # 2)]; [Q2Qc (-1 # 2)]; [Q2Qc (-15 # 32)]; [Q2Qc (15 # 2)]; [Q2Qc (15 # 2)]; [qz 0]].
  split; [exact OK|]. split; [exact SU|]. split; [exact ET|]. split; [exact HB|]. split; [exact EP|]. split; [exact D|]. split; [exact EC|]. split; [subst ys; reflexivity|]. split; [|split; [reflexivity|]].
  - match goal with |- ?r = Ok ?o => assert (VR : values r = map (map this) o) by (vm_compute; reflexivity); destruct r; [f_equal; apply map_map_this_inj; exact VR|discriminate VR] end.
  - intros Q. specialize (Q 3 1 2 (mkR [Some (0, 0)] 0 []) 0 (r_fq1 (mkCfg 0 4 3)) (mkCfg 0 4 3) [Q2Qc (-15 # 32)] (Q2Qc (-15 # 32)) eq_refl (or_introl eq_refl) eq_refl eq_refl eq_refl eq_refl eq_refl).
    destruct Q as [Q|(n & RN & [[_ C]|[C _]])]; [discriminate Q| |discriminate C]. cbn [kn bits] in C. destruct RN as [(_ & RN & _)|RN]; [|exfalso; intuition discriminate].
    assert (X : (Q2Qc (-15 # 32) * pow2 (4 - 3) < qz 0)%Qc) by (apply qltb_true; vm_compute; reflexivity).
    assert (Y : (qz n < qz 0)%Qc) by (cbn [bits ints] in RN; exact (Qcle_lt_trans _ _ _ RN X)). rewrite qz_lt in Y. lia.
Qed.
Print Assumptions C82_rounding_refuted.

(** From the HGQ model to the firmware on the calibration data: C78. *)
From Coq Require Import ZArith QArith Qcanon List Bool String Lia Arith.
From Verif Require Import Base.Num Base.NumFacts Base.Tensor Base.Compute Model.FixedPoint Model.Quantizer Model.Layers Model.Graph Model.Convert Model.Trace Model.Precision Model.Lut
  Spec.Fixed Spec.Quant Spec.History Spec.Layer Spec.Graph Spec.Trace Spec.Precision Spec.NetEval Spec.Firmware Spec.EndToEnd
  Proofs.TraceMinmaxP Proofs.ProxyModelP Proofs.ProxyGuardP Proofs.PrecisionP Proofs.SoundP Proofs.IdemP Proofs.FitsP Proofs.EndToEndP Props.P_Trace Props.P_ProxyModel Props.P_Firmware.
Import ListNotations.
Local Open Scope nat_scope.

(** C78: a model is traced on a dataset and converted; its proxy is described by
    a network whose layers are given the types derived from the quantizers.  For
    every batch of samples of the dataset and every sample of it, the firmware
    fed with that sample delivers the very outputs of the HGQ model. *)
Theorem C78_firmware : forall pw ln2 exact_bops nin nodes outs n ds bsz c st bops rs st' aggressive fuel names pm ns cs,
  let m := Sub nin nodes outs in
  Forall obj_ok st -> single m -> leaves (supported st m) m -> dataset n ds -> 0 < n -> 0 < bsz -> (qz 1 <= c)%Qc ->
  trace_minmax pw ln2 exact_bops m ds bsz true c false st = Ok (bops, rs, st') ->
  (forall i o, In i (top_layers m) -> nth_error st' i = Some o -> in_bounds (l_paq (o_layer o))) ->
  depth m + 2 <= fuel -> to_proxy_model pw ln2 fuel aggressive m names st' = Ok (pm, ns, cs) ->
  forall net s geo opaque size pfuel confs sizes adder,
  describes s geo opaque size net pm -> proper_inputs size ds -> all_fine net s -> honest net (fun _ => []) opaque ->
  (forall i kd ps, nth_error net i = Some (kd, ps) -> layer_config (S pfuel) net i s None = Ok ((confs i, sizes i), s)) ->
  (forall i kd ps, nth_error net i = Some (kd, ps) -> synthesized (S pfuel) net s (fun _ => None) i) -> adding adder ->
  (forall i, In i (output_layers pm) -> delivered (S pfuel) net s i) ->
  forall B, batch_of n ds B -> promises_kept pw ln2 m B st' ->
  exists ys, call_model pw ln2 m B st' = Ok (ys, st') /\
    forall k, k < List.length (hd [] B) ->
    exists out, fw_run net s geo (sample_feed B k) opaque (fun i => type_named (confs i)) sizes (fun _ => None) adder net [] = Ok out /\
      forall o i, nth_error (output_layers pm) o = Some i -> exists y, nth_error ys o = Some y /\ nth_error out i = Some (nth k y []).
Proof.
  intros pw ln2 eb nin nodes outs n ds bsz c st bops rs st' ag fuel names pm ns cs m HO Hs HL HD Hn Hb Hc ET HB Hf EP net s geo opaque size pfuel confs sizes adder D P AF HH HC SY AD DL B HBt PK.
  pose proof (C32_proxy_model_exact pw ln2 eb nin nodes outs n ds bsz c st bops rs st' ag fuel names HO Hs HL HD Hn Hb Hc ET HB Hf) as T. cbv zeta in T. fold m in T.
  rewrite EP in T. destruct (T B HBt PK) as (_ & ys & E1 & E2). exists ys. split; [exact E1|]. intros k Hk.
  destruct (describes_run pw ln2 s geo opaque size net pm B (List.length (hd [] B)) k ys [] [] D Hk (fun i b Eb => proj1 (batch_good n ds B size HD HBt P i b Eb)) (E2 [])) as (out0 & R & O).
  destruct (C71_network pfuel net s geo (sample_feed B k) opaque confs sizes (fun _ => None) adder out0 AF (honest_feed net n ds B size opaque k HD HBt P HH) (fun i kd ps Ei _ => HC i kd ps Ei) SY AD R) as (out & F & _ & S).
  exists out. split; [exact F|]. intros o i Eo. destruct (O o i Eo) as (y & Ey & Ei). exists y. split; [exact Ey|]. rewrite <- Ei. apply S.
  destruct (DL i (nth_error_In _ _ Eo)) as [Q|Q]; auto.
Qed.
Print Assumptions C78_firmware.

(** C78: the same with lookup tables in place of activations. *)
Theorem C78_tables : forall pw ln2 exact_bops nin nodes outs n ds bsz c st bops rs st' aggressive fuel names pm ns cs,
  let m := Sub nin nodes outs in
  Forall obj_ok st -> single m -> leaves (supported st m) m -> dataset n ds -> 0 < n -> 0 < bsz -> (qz 1 <= c)%Qc ->
  trace_minmax pw ln2 exact_bops m ds bsz true c false st = Ok (bops, rs, st') ->
  (forall i o, In i (top_layers m) -> nth_error st' i = Some o -> in_bounds (l_paq (o_layer o))) ->
  depth m + 2 <= fuel -> to_proxy_model pw ln2 fuel aggressive m names st' = Ok (pm, ns, cs) ->
  forall net s geo opaque size pfuel limit hls mx order tabs confs sizes adder,
  let net' := with_tables net (table_of tabs) in
  describes s geo opaque size net pm -> proper_inputs size ds -> all_fine net s -> honest net (fun _ => []) opaque -> Forall legal_fpq s ->
  lut_pass limit hls (S pfuel) net mx order s = Ok (tabs, s) -> (forall i l, In (i, l) tabs -> good_readers (S pfuel) net s i) ->
  all_fine net' s ->
  (forall i l kd p, table_of tabs i = Some l -> nth_error net i = Some (kd, [p]) -> exists k z f, produced (S pfuel) net' p s = Ok ((k, z, f), s) /\ (f <= lut_f l)%Z) ->
  (forall i kd ps, nth_error net' i = Some (kd, ps) -> (forall t, kd <> NLut t) -> layer_config (S pfuel) net' i s None = Ok ((confs i, sizes i), s)) ->
  (forall i kd ps, nth_error net' i = Some (kd, ps) -> table_of tabs i = None -> synthesized (S pfuel) net' s (table_of tabs) i) -> adding adder ->
  (forall i, In i (output_layers pm) -> table_of tabs i = None /\ delivered (S pfuel) net' s i) ->
  forall B, batch_of n ds B -> promises_kept pw ln2 m B st' ->
  exists ys, call_model pw ln2 m B st' = Ok (ys, st') /\
    forall k, k < List.length (hd [] B) ->
    exists out, fw_run net' s geo (sample_feed B k) opaque (fun i => type_named (confs i)) sizes (table_of tabs) adder net' [] = Ok out /\
      forall o i, nth_error (output_layers pm) o = Some i -> exists y, nth_error ys o = Some y /\ nth_error out i = Some (nth k y []).
Proof.
  intros pw ln2 eb nin nodes outs n ds bsz c st bops rs st' ag fuel names pm ns cs m HO Hs HL HD Hn Hb Hc ET HB Hf EP net s geo opaque size pfuel limit hls mx order tabs confs sizes adder net' D P AF HH LG LP GR AF' PR HC SY AD DL B HBt PK.
  pose proof (C32_proxy_model_exact pw ln2 eb nin nodes outs n ds bsz c st bops rs st' ag fuel names HO Hs HL HD Hn Hb Hc ET HB Hf) as T. cbv zeta in T. fold m in T.
  rewrite EP in T. destruct (T B HBt PK) as (_ & ys & E1 & E2). exists ys. split; [exact E1|]. intros k Hk.
  destruct (describes_run pw ln2 s geo opaque size net pm B (List.length (hd [] B)) k ys [] [] D Hk (fun i b Eb => proj1 (batch_good n ds B size HD HBt P i b Eb)) (E2 [])) as (out0 & R & O).
  destruct (C71_tables limit hls pfuel net mx order s tabs geo (sample_feed B k) opaque confs sizes adder out0 AF (describes_no_lut _ _ _ _ _ _ D) (honest_feed net n ds B size opaque k HD HBt P HH) LG LP GR AF' PR HC SY AD R) as (out & F & _ & S).
  exists out. split; [exact F|]. intros o i Eo. destruct (O o i Eo) as (y & Ey & Ei). exists y. split; [exact Ey|]. rewrite <- Ei. destruct (DL i (nth_error_In _ _ Eo)) as [Q1 Q2]. exact (S i Q1 Q2).
Qed.
Print Assumptions C78_tables.

(** C78: dense and convolution layers of a converted model are described by
    kernel layers: the output element e belongs to channel chan e and reads the
    input positions srcs e, in the order of the kernel's rows. *)
Theorem C78_kernel : forall s geo opaque size n p ts w div J bias loc out srcs,
  0 < div -> List.length w = J * div ->
  ts = map (fun e => kernel_taps div (srcs e) (chan loc out e)) (seq 0 (size n)) ->
  geo n = map (fun e => kernel_recipe (srcs e) (chan loc out e)) (seq 0 (size n)) ->
  (forall e, e < size n -> chan loc out e < div /\ List.length (srcs e) = J /\ Forall (fun o => match o with Some a => a < size p | None => True end) (srcs e)) ->
  match bias with None => True | Some b => List.length b = div end ->
  same_layer s geo opaque size n (NKernel w (Z.of_nat div) bias) [p]
    (KKeras (fun x => match bias with None => linop ts w (hd [] x) | Some b => bias_add loc out b (linop ts w (hd [] x)) end)).
Proof. exact kernel_same. Qed.
Print Assumptions C78_kernel.

(** *** Example: HQuantize and a dense layer with bias; the quantizer behind the
    dense layer has two formats. *)
Definition e_ethis (t : tensor ext) := (shape t, map ethis (data t)).
Lemma e_ethis_inj a b : e_ethis a = e_ethis b -> a = b.
Proof.
  destruct a as [sa a], b as [sb b]. unfold e_ethis. cbn. intros H. injection H as -> H. f_equal. revert b H. induction a as [|x a IH]; intros [|y b] H; cbn in H; try discriminate; [reflexivity|].
  injection H as H1 H2. f_equal; [apply ethis_inj; exact H1|apply IH; exact H2].
Qed.
Definition e_hthis (q : hgq) := (tthis (q_fbw q), e_ethis (q_min q), e_ethis (q_max q), q_skip q, q_strategy q, q_exact q, match q_clip q with Some (a, b) => Some (this a, this b) | None => None end).
Lemma e_hthis_inj a b : e_hthis a = e_hthis b -> a = b.
Proof.
  destruct a as [f mn mx sk sg ex cl], b as [f' mn' mx' sk' sg' ex' cl']. unfold e_hthis. cbn [q_fbw q_min q_max q_skip q_strategy q_exact q_clip]. intros H.
  assert (H1 : tthis f = tthis f') by congruence. assert (H2 : e_ethis mn = e_ethis mn') by congruence. assert (H3 : e_ethis mx = e_ethis mx') by congruence.
  assert (H4 : match cl with Some (a, b) => Some (this a, this b) | None => None end = match cl' with Some (a, b) => Some (this a, this b) | None => None end) by congruence.
  apply tthis_inj in H1. apply e_ethis_inj in H2, H3. assert (cl = cl').
  { destruct cl as [[a b]|], cl' as [[c d]|]; try discriminate; [|reflexivity]. injection H4 as A B. apply this_inj in A, B. congruence. }
  congruence.
Qed.
Definition e_othis (o : lop) := match o with Fn _ => None | Linear ts k kq b loc => Some (ts, tthis k, e_hthis kq, match b with Some b => Some (tthis b) | None => None end, loc) end.
Definition e_this (o : hobj) := (e_othis (l_op (o_layer o)), e_hthis (l_paq (o_layer o)), l_relu (o_layer o), l_loc (o_layer o), l_out (o_layer o), o_act o, o_ins o).

Definition ee_store : store := [ex_obj (Fn ex_id) [qz 2; qz 2] AOther; ex_obj ex_dense [qz 2; qz 3] AOther].
Definition ee_m : klayer layer := Sub 1 [(Leaf (10, KQuant 0), [(0, 0)]); (Leaf (11, KH 1), [(1, 0)])] [(2, 0)].
Definition ee_ds : list (list (list Qc)) := [[[qz 1; Q2Qc (1 # 2)]; [Q2Qc (-3 # 2); Q2Qc (1 # 8)]; [qz 0; qz (-2)]]].
(** The quantizers after tracing. *)
Definition ee_q0 : hgq := with_minmax (ex_q [qz 2; qz 2]) (mkT [1; 2] [Fin (Q2Qc (-3 # 2)); Fin (qz (-2))]) (mkT [1; 2] [Fin (qz 1); Fin (Q2Qc (1 # 2))]).
Definition ee_q1 : hgq := with_minmax (ex_q [qz 2; qz 3]) (mkT [1; 2] [Fin (qz (-2)); Fin (Q2Qc (-9 # 4))]) (mkT [1; 2] [Fin (Q2Qc (5 # 4)); Fin (Q2Qc (9 # 8))]).
Lemma ee_traced : forall pw ln2, exists bops rs g b0 b1 r0 r1, trace_minmax pw ln2 ex_eb ee_m ee_ds 2 true (qz 1) false ee_store =
  Ok (bops, rs, [mkO (mkL (Fn g) ee_q0 false (-1) [2]) r0 AOther [[2]] b0; mkO (mkL ex_dense ee_q1 false (-1) [2]) r1 AOther [[2]] b1]).
Proof.
  intros pw ln2.
  assert (H : rmap (fun r => map e_this (snd r)) (trace_minmax pw ln2 ex_eb ee_m ee_ds 2 true (qz 1) false ee_store) =
    Ok (map e_this [mkO (mkL (Fn ex_id) ee_q0 false (-1) [2]) false AOther [[2]] (qz 0); mkO (mkL ex_dense ee_q1 false (-1) [2]) false AOther [[2]] (qz 0)])) by (vm_compute; reflexivity).
  destruct (trace_minmax pw ln2 ex_eb ee_m ee_ds 2 true (qz 1) false ee_store) as [[[bops rs] st']|]; [|discriminate H]. cbn [rmap snd] in H.
  destruct st' as [|[[op0 p0 rl0 lc0 ot0] r0 a0 i0 b0] [|[[op1 p1 rl1 lc1 ot1] r1 a1 i1 b1] [|? ?]]]; try discriminate H.
  assert (XO : forall (A : Type) (a b : A), Ok a = Ok b -> a = b) by congruence. assert (XC : forall (A : Type) (a b : A) l m, a :: l = b :: m -> a = b /\ l = m) by (intros A a b l m E; split; congruence).
  apply XO in H. cbn [map] in H. apply XC in H as [H0 H1]. apply XC in H1 as [H1 _]. unfold e_this in H0, H1. cbn [o_layer l_op l_paq l_relu l_loc l_out o_act o_ins] in H0, H1.
  do 6 (apply pair_equal_spec in H0 as [H0 ?]). do 6 (apply pair_equal_spec in H1 as [H1 ?]). repeat match goal with E : e_hthis _ = e_hthis _ |- _ => apply e_hthis_inj in E end. subst.
  rename H0 into A1, H1 into B1.
  destruct op0 as [ts k kq b lc|g]; [discriminate A1|].
  assert (op1 = ex_dense).
  { unfold ex_dense in B1. destruct op1 as [ts k kq b lc|g']; [|discriminate B1]. cbn [e_othis] in B1. assert (X : forall (A : Type) (a b : A), Some a = Some b -> a = b) by congruence. apply X in B1.
    apply pair_equal_spec in B1 as [B1 ->]. apply pair_equal_spec in B1 as [B1 B5]. apply pair_equal_spec in B1 as [B1 B4]. apply pair_equal_spec in B1 as [-> B3].
    apply tthis_inj in B3. apply e_hthis_inj in B4. subst. destruct b as [b|]; [|discriminate B5]. apply X in B5. apply tthis_inj in B5. subst. reflexivity. }
  subst op1. exists bops, rs, g, b0, b1, r0, r1. reflexivity.
Qed.
(** Its proxy. *)
Definition ee_w : list Qc := [Q2Qc (3 # 8); Q2Qc (-3 # 4); Q2Qc (9 # 8); qz 1].
Definition ee_b : list Qc := [Q2Qc (3 # 8); Q2Qc (-3 # 16)].
Definition ee_ts : taps := [[(0, 0); (1, 2)]; [(0, 1); (1, 3)]].
Definition ee_f0 : fpq unit := mkFPQ (mkT [1; 2] [mkCfg 1 4 2; mkCfg 1 4 2]) "RND" "WRAP" tt.
Definition ee_f1 : fpq unit := mkFPQ (mkT [1; 2] [mkCfg 1 4 2; mkCfg 1 6 3]) "TRN" "WRAP" tt.
Definition ee_pm : klayer layer :=
  Sub 1 [(Leaf (81, KFpq ee_f0 [2]), [(0, 0)]); (Leaf (89, KKeras (fun x => bias_add (-1) [2] ee_b (linop ee_ts ee_w (hd [] x)))), [(1, 0)]); (Leaf (90, KFpq ee_f1 [2]), [(2, 0)])] [(3, 0)].
Lemma ee_converted pw ln2 g r0 r1 b0 b1 : exists ns cs, to_proxy_model pw ln2 5 true ee_m exp_names
  [mkO (mkL (Fn g) ee_q0 false (-1) [2]) r0 AOther [[2]] b0; mkO (mkL ex_dense ee_q1 false (-1) [2]) r1 AOther [[2]] b1] = Ok (ee_pm, ns, cs).
Proof.
  assert (E0 : layer_quantizer (mkL (Fn g) ee_q0 false (-1) [2]) false "WRAP" = Ok ee_f0) by (vm_compute; reflexivity).
  assert (E1 : to_proxy pw ln2 (mkL ex_dense ee_q1 false (-1) [2]) "WRAP" = Ok (mkP (fun x => bias_add (-1) [2] ee_b (linop ee_ts ee_w (hd [] x))) (One ee_f1) [2])).
  { unfold to_proxy, keras_op. cbn [l_op ex_dense l_relu].
    assert (EW : fused_qkernel pw ln2 (mkT [2; 2] [Q2Qc (1 # 3); Q2Qc (-5 # 7); Q2Qc (9 # 8); qz 1]) (hgq_build (mkT [1; 1] [qz 3]) None 0 true None) = Ok (mkT [2; 2] ee_w)) by qvm.
    rewrite EW. cbn [rbind].
    assert (EB : fused_qbias pw ln2 (mkL ex_dense ee_q1 false (-1) [2]) (mkT [2] [Q2Qc (1 # 3); Q2Qc (-1 # 5)]) = Ok (mkT [2] ee_b)) by qvm.
    rewrite EB. cbn [rbind data].
    assert (EQ : layer_quantizer (mkL ex_dense ee_q1 false (-1) [2]) false "WRAP" = Ok ee_f1) by (vm_compute; reflexivity). rewrite EQ. reflexivity. }
  unfold to_proxy_model. set (F := proxy_xf pw ln2 _ _).
  assert (F0 : F (Some (10, KQuant 0)) = Ok (XLayer (81, KFpq ee_f0 [2]))) by (unfold F; cbn [proxy_xf get nth_error rbind o_layer]; rewrite E0; reflexivity).
  assert (F1 : F (Some (11, KH 1)) = Ok (XModel (Sub 1 [(Leaf (89, KKeras (fun x => bias_add (-1) [2] ee_b (linop ee_ts ee_w (hd [] x)))), [(0, 0)]); (Leaf (90, KFpq ee_f1 [2]), [(1, 0)])] [(2, 0)]))).
  { unfold F. cbn [proxy_xf get nth_error rbind o_layer]. rewrite E1. reflexivity. }
  set (g2 := fun x : list (list Qc) => bias_add (-1) [2] ee_b (linop ee_ts ee_w (hd [] x))) in *.
  set (F' := fun x => match x with Some (10, KQuant 0) => Ok (XLayer (81, KFpq ee_f0 [2])) | Some (11, KH 1) => Ok (XModel (Sub 1 [(Leaf (89, KKeras g2), [(0, 0)]); (Leaf (90, KFpq ee_f1 [2]), [(1, 0)])] [(2, 0)])) | _ => F x end).
  assert (FE : forall x, F x = F' x).
  { intros [[u k]|]; [|reflexivity]. unfold F'. do 10 (destruct u as [|u]; [reflexivity|]). destruct u as [|[|u]]; [|destruct k as [[|[|i]]|i| | | | | | |]; try reflexivity; exact F1|reflexivity].
    destruct k as [i|[|i]| | | | | | |]; try reflexivity. }
  rewrite (convert_ext _ _ _ FE). unfold ee_pm. fold g2. clearbody g2. unfold F', F. clear. eexists. eexists. vm_compute. reflexivity.
Qed.

(** The network of the proxy and the hypotheses about it. *)
Definition ee_net : pnet := [(NInput, []); (NFpq 0, [0]); (NKernel ee_w 2 (Some ee_b), [1]); (NFpq 1, [2])].
Definition ee_s : pst := [ee_f0; ee_f1].
Definition ee_size (n : nat) : nat := 2.
Definition ee_geo (n : nat) : list recipe :=
  match n with
  | 2 => [mkR [Some (0, 0); Some (0, 1)] 0 []; mkR [Some (0, 0); Some (0, 1)] 1 []]
  | _ => [mkR [Some (0, 0)] 0 []; mkR [Some (0, 1)] 1 []]
  end.
Definition ee_conf (n : nat) : list (string * string) := match layer_config 6 ee_net n ee_s None with Ok ((t, _), _) => t | Raise => [] end.
Lemma ee_described : describes ee_s ee_geo (fun _ _ => []) ee_size ee_net ee_pm.
Proof.
  split; [reflexivity|]. split; [intros [|i] H; [reflexivity|lia]|]. split; [|repeat constructor].
  intros [|[|[|j]]] k ins E; [..|destruct j; discriminate E]; injection E as <- <-; eexists; eexists; (split; [reflexivity|]); (split; [repeat constructor|]); (split; [reflexivity|]).
  - exists 0, 0. do 5 (split; [reflexivity|]). right. exists [2]. repeat split.
  - apply (C78_kernel ee_s ee_geo (fun _ _ => []) ee_size 2 1 ee_ts ee_w 2 2 (Some ee_b) (-1) [2] (fun _ => [Some 0; Some 1])); try reflexivity; [lia|].
    intros e He. split; [cbn [chan]; unfold chan; cbn; destruct e as [|[|e]]; cbn in *; unfold ee_size in He; lia|]. split; [reflexivity|]. repeat constructor; unfold ee_size; lia.
  - exists 1, 2. do 5 (split; [reflexivity|]). right. exists [2]. repeat split.
Qed.
Lemma ee_legal0 : legal_fpq ee_f0.
Proof. split; [discriminate|split; [repeat (apply Forall_cons; [unfold legal_fmt; cbn; lia|]); apply Forall_nil|cbn; auto 10]]. Qed.
Lemma ee_legal1 : legal_fpq ee_f1.
Proof. split; [discriminate|split; [repeat (apply Forall_cons; [unfold legal_fmt; cbn; lia|]); apply Forall_nil|cbn; auto 10]]. Qed.
Lemma ee_fine : all_fine ee_net ee_s.
Proof.
  split; [|intros [|[|[|[|n]]]] k i f ps E; cbn in E; try discriminate; destruct n; discriminate].
  intros [|[|[|[|n]]]] kd ps fuel ts t E HI HP; cbn in E; try discriminate; try (destruct n; discriminate); injection E as <- <-; cbn [node_fine]; try exact I.
  - eexists. split; [reflexivity|]. left. eexists. split; [exact ee_legal0|repeat constructor].
  - apply one_input in HI as [v [-> HI]].
    assert (Ev : v = (1, 1, 2)%Z) by (assert (HI' : produced 6 ee_net 1 ee_s = Ok ((1, 1, 2)%Z, ee_s)) by (vm_compute; reflexivity); pose proof (produced_agree _ _ _ _ _ _ _ HI HI'); congruence).
    assert (Et : t = (1, 3, 5)%Z) by (assert (HI' : produced 6 ee_net 2 ee_s = Ok ((1, 3, 5)%Z, ee_s)) by (vm_compute; reflexivity); pose proof (produced_agree _ _ _ _ _ _ _ HP HI'); congruence).
    subst v t. split; [lia|]. split; [discriminate|]. split; [reflexivity|]. split; [|split].
    + apply Forall_cons; [plain (3 * 2 ^ 29)%Z|]. apply Forall_cons; [plain (-3 * 2 ^ 30)%Z|]. apply Forall_cons; [plain (9 * 2 ^ 29)%Z|]. apply Forall_cons; [plain (2 ^ 32)%Z|]. apply Forall_nil.
    + intros k i f _ _ v e Hv C. assert (EV : v = 0%Z \/ v = 1%Z) by lia. pose proof (pow2_pos e) as P.
      destruct EV as [-> | ->]; unfold column in C; cbn in C; inversion C as [|? ? E1 C']; subst.
      * assert (Q' : (qz 0 < Q2Qc (3 # 8))%Qc) by (apply qltb_true; vm_compute; reflexivity). assert (Q : (Q2Qc (3 # 8) = - pow2 e)%Qc) by exact E1. rewrite Q in Q'. qlra.
      * inversion C' as [|? ? E2 ?]; subst. assert (Q' : (qz 0 < qz 1)%Qc) by (apply qz_lt; lia). assert (Q : (qz 1 = - pow2 e)%Qc) by exact E2. rewrite Q in Q'. qlra.
    + intros k i f v b [E|[]] Hv Eb. injection E as <- <- <-. assert (EV : v = 0%Z \/ v = 1%Z) by lia. cbn [fst snd].
      destruct EV as [-> | ->]; cbn in Eb; injection Eb as <-; (split; [|apply qltb_true; vm_compute; reflexivity]); [exists 12%Z; qvm|exists (-6)%Z; qvm].
  - eexists. split; [reflexivity|]. right. exists 1%Z. split; [exact ee_legal1|]. split; [repeat constructor|reflexivity].
Qed.
Lemma ee_types i kd ps : nth_error ee_net i = Some (kd, ps) -> synthesized 6 ee_net ee_s (fun _ => None) i.
Proof.
  destruct i as [|[|[|[|i]]]]; intros E; [..|destruct i; discriminate E].
  - right. right. split; [discriminate|]. split; [exact I|]. split; [reflexivity|]. exists 1%Z, 1%Z, 2%Z, "RND"%string, "WRAP"%string. split; [vm_compute; reflexivity|]. split; [auto|]. split; [lia|]. split; [lia|]. split; [cbn; auto 10|]. split; [cbn; auto 10|]. split; [exact I|].
    left. exists 1, 0, ee_f0. split; [reflexivity|]. split; [reflexivity|]. split; [reflexivity|]. split; [exact ee_legal0|reflexivity].
  - left. split; vm_compute; reflexivity.
  - right. right. split; [discriminate|]. split; [exact I|]. split; [reflexivity|]. exists 1%Z, 2%Z, 3%Z, "TRN"%string, "WRAP"%string. split; [vm_compute; reflexivity|]. split; [auto|]. split; [lia|]. split; [lia|]. split; [cbn; auto 10|]. split; [cbn; auto 10|]. split.
    + exists 1%Z, 3%Z, 5%Z. split; [vm_compute; reflexivity|]. left. split; [reflexivity|]. split; [lia|]. split; [lia|auto].
    + right. right. split; [discriminate|]. right. split; [vm_compute; reflexivity|]. exists 1%Z, 3%Z, 5%Z, 1%Z, 2%Z, 3%Z, 1%Z, 2%Z, 3%Z. split; [vm_compute; reflexivity|]. split; [vm_compute; reflexivity|]. split; [reflexivity|]. split; [lia|].
      intros [|[|[|[|m]]]] kd' ps' Em IP; cbn in Em; try (destruct m; discriminate Em); injection Em as <- <-; cbn in IP; try (destruct IP as [IP|[]]; discriminate IP); try contradiction.
      split; [reflexivity|]. exists 1. split; [reflexivity|]. intros o Eo. change (Some ee_f1 = Some o) in Eo. injection Eo as <-.
      split; [exact ee_legal1|]. split; [left; reflexivity|]. intros c _. right. auto.
  - right. right. split; [discriminate|]. split; [exact I|]. split; [vm_compute; reflexivity|]. exists 1%Z, 2%Z, 3%Z, "TRN"%string, "WRAP"%string. split; [vm_compute; reflexivity|]. split; [auto|]. split; [lia|]. split; [lia|]. split; [cbn; auto 10|]. split; [cbn; auto 10|]. split; [exact I|].
    right. right. split; [discriminate|]. left. split; [vm_compute; reflexivity|]. exists 1%Z, 2%Z, 3%Z, 1%Z, 65535%Z, 65535%Z. split; [vm_compute; reflexivity|]. split; [vm_compute; reflexivity|]. lia.
Qed.
Lemma ee_ok : Forall obj_ok ee_store.
Proof. unfold ee_store. repeat (apply Forall_cons; [apply ex_obj_ok; [reflexivity|repeat constructor; vm_compute; discriminate|reflexivity]|]). apply Forall_nil. Qed.
Lemma ee_supported : leaves (supported ee_store ee_m) ee_m.
Proof.
  unfold ee_m at 2. constructor. intros k ins H. repeat (destruct H as [H|H]; [injection H as <- <-|]); [| |destruct H].
  - constructor. split; [vm_compute; tauto|]. eexists. split; [reflexivity|]. split; [exact I|]. split; [|reflexivity]. exists ex_id. split; [reflexivity|]. split; [reflexivity|]. exact exp_id.
  - constructor. split; [vm_compute; tauto|]. eexists. split; [reflexivity|]. exact I.
Qed.
(** After tracing the three samples, the firmware delivers the outputs of the
    HGQ model for each of them: (5/4, -1/2), (0, 9/8) and (-2, -9/4). *)
Example C78_ex : forall pw ln2, exists bops rs st' ys,
  trace_minmax pw ln2 ex_eb ee_m ee_ds 2 true (qz 1) false ee_store = Ok (bops, rs, st') /\
  call_model pw ln2 ee_m ee_ds st' = Ok ([ys], st') /\
  ys = [[Q2Qc (5 # 4); Q2Qc (-1 # 2)]; [qz 0; Q2Qc (9 # 8)]; [qz (-2); Q2Qc (-9 # 4)]] /\
  forall k, k < 3 -> exists out, fw_run ee_net ee_s ee_geo (sample_feed ee_ds k) (fun _ _ => []) (fun i => type_named (ee_conf i)) (fun _ => None) (fun _ => None) one_by_one ee_net [] = Ok out /\
    nth_error out 3 = Some (nth k ys []).
Proof.
  intros pw ln2. destruct (ee_traced pw ln2) as (bops & rs & g & b0 & b1 & r0 & r1 & ET). set (st' := [_; _]) in ET. destruct (ee_converted pw ln2 g r0 r1 b0 b1) as (ns & cs & EP). fold st' in EP.
  assert (HB : forall i o, In i (top_layers ee_m) -> nth_error st' i = Some o -> in_bounds (l_paq (o_layer o))).
  { intros [|[|i]] o _ Ho; [..|destruct i; discriminate Ho]; cbn in Ho; injection Ho as <-; apply in_bounds_b_ok; vm_compute; reflexivity. }
  assert (HS : single ee_m) by (unfold ee_m; constructor; repeat (apply Forall_cons; [split; [first [exact I|reflexivity]|repeat constructor]|]); apply Forall_nil).
  assert (HD : dataset 3 ee_ds) by (split; [repeat constructor|discriminate]).
  assert (HBt : batch_of 3 ee_ds ee_ds) by (exists [0; 1; 2]; split; [discriminate|]; split; [repeat constructor|reflexivity]).
  assert (PK : promises_kept pw ln2 ee_m ee_ds st').
  { assert (NS : leaves (fun x : layer => match snd x with KSig _ _ => False | _ => True end) ee_m).
    { unfold ee_m. constructor. intros k ins H. repeat (destruct H as [H|H]; [injection H as <- <-; constructor; exact I|]). destruct H. }
    destruct (batch_runs pw ln2 ex_eb ee_m 3 ee_ds 2 (qz 1) ee_store st' bops rs ee_ok ee_supported HD ltac:(lia) ltac:(lia) (Qcle_refl _) ET HB ee_ds HBt) as [r Er].
    exists r. rewrite <- Er. apply run_ext. eapply leaves_impl; [|exact NS]. intros [u k] H vs s. unfold checked, promise. cbn [snd] in *. destruct k; try reflexivity. destruct H. }
  assert (PI : proper_inputs ee_size ee_ds).
  { intros [|i] d x Ed Hx; [|destruct i; discriminate Ed]. cbn in Ed. injection Ed as <-.
    assert (F : forall x, fits 1 4 4 x -> float_value x) by (intros y; apply fits_mono; lia).
    repeat (destruct Hx as [<-|Hx]; [split; [reflexivity|]|]); [| | |destruct Hx]; (constructor; [|constructor; [|constructor]]); apply F; [plain 16%Z|plain 8%Z|plain (-24)%Z|plain 2%Z|plain 0%Z|plain (-32)%Z]. }
  assert (HH : honest ee_net (fun _ => []) (fun _ _ => [])) by (split; [|split]; intros; constructor).
  destruct (C78_firmware pw ln2 ex_eb 1 _ _ 3 ee_ds 2 (qz 1) ee_store bops rs st' true 5 exp_names ee_pm ns cs ee_ok HS ee_supported HD ltac:(lia) ltac:(lia) (Qcle_refl _) ET HB ltac:(cbn; lia) EP
    ee_net ee_s ee_geo (fun _ _ => []) ee_size 5 ee_conf (fun _ => None) one_by_one ee_described PI ee_fine HH) with (B := ee_ds) as (zs & EC & FW).
  - intros i kd ps E. destruct i as [|[|[|[|i]]]]; [..|destruct i; discriminate E]; vm_compute; reflexivity.
  - exact ee_types.
  - exact one_by_one_adds.
  - intros i [<-|[]]. right. split; [discriminate|]. split; [vm_compute; reflexivity|]. exists 1%Z, 2%Z, 3%Z, 1%Z, 65535%Z, 65535%Z. split; [vm_compute; reflexivity|]. split; [vm_compute; reflexivity|]. lia.
  - exact HBt.
  - exact PK.
  - assert (V : rmap (fun r => map (map (map this)) (fst r)) (rbind (trace_minmax pw ln2 ex_eb ee_m ee_ds 2 true (qz 1) false ee_store) (fun r => call_model pw ln2 ee_m ee_ds (snd r))) =
      Ok [[[5 # 4; -1 # 2]; [0; 9 # 8]; [-2; -9 # 4]]%Q]) by (vm_compute; reflexivity).
    rewrite ET in V. cbn [rbind snd] in V.
    change (call_model pw ln2 ee_m ee_ds st' = Ok (zs, st')) in EC. rewrite EC in V. cbn [rmap fst] in V. assert (V' : map (map (map this)) zs = [[[5 # 4; -1 # 2]; [0; 9 # 8]; [-2; -9 # 4]]%Q]) by congruence. clear V.
    destruct zs as [|ys [|z zs]]; try discriminate V'. exists bops, rs, st', ys. split; [exact ET|]. split; [exact EC|]. split.
    + apply map_map_this_inj. cbn [map] in V'. injection V' as V'. rewrite V'. reflexivity.
    + intros k Hk. destruct (FW k Hk) as (out & F & O). exists out. split; [exact F|]. destruct (O 0 3 eq_refl) as (y & Ey & Ei). cbn in Ey. assert (y = ys) by congruence. subst y. exact Ei.
Qed.

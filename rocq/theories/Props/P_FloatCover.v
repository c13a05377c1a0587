(** C94: models with ranges of any origin, and cover_factor in IEEE single precision. *)
From Coq Require Import ZArith QArith Qcanon List Bool String Lia.
From Verif Require Import Base.Num Base.NumFacts Base.Tensor Base.Compute Model.FixedPoint Model.Quantizer Model.Layers Model.Graph Model.Convert Model.Trace
  Model.Float32 Model.FloatLayer Model.FloatNet Spec.Fixed Spec.Quant Spec.History Spec.Layer Spec.Graph Spec.Trace Spec.Calib Spec.Unseen Spec.Prepared Spec.Float Spec.FloatLayer Spec.FloatNet
  Proofs.CallP Proofs.LayersP Proofs.QuantizerP Proofs.TraceP Proofs.TraceMoreP Proofs.ProxyModelP Proofs.ProxyGuardP Proofs.UnseenP Proofs.FloatNetP Proofs.PreparedP Proofs.FloatCoverP
  Props.P_Trace Props.P_ProxyModel Props.P_FloatLayer Props.P_FloatNet Props.P_Unseen.
Import ListNotations.
Local Open Scope nat_scope.

(** C94: the proxy model agrees with the model on every batch inside the ranges, whatever put the ranges there:
    a calibration, ranges restored from a file, or ranges computed with rounding errors. *)
Theorem C94_prepared : forall pw ln2 nin nodes outs st (aggressive : bool) fuel names,
  let m := Sub nin nodes outs in
  Forall obj_ok st -> single m -> leaves (supported st m) m -> prepared m st -> depth m + 2 <= fuel ->
  forall B, inside pw ln2 m B st -> promises_kept pw ln2 m B st ->
  exists pm ns s ys, to_proxy_model pw ln2 fuel aggressive m names st = Ok (pm, ns, s) /\ leaves proxy_layer pm /\
    call_model pw ln2 m B st = Ok (ys, st) /\ forall any, call_model pw ln2 pm B any = Ok (ys, any).
Proof.
  intros pw ln2 nin nodes outs st ag fuel names m HO Hs HL HP Hf B HI HK.
  destruct (prepared_model pw ln2 m st HO HL HP false (if ag then "WRAP" else "SAT")%string (fun H => ltac:(discriminate H)) ltac:(destruct ag; auto) Hs (fun x H => ltac:(discriminate H)) fuel names B Hf HI HK)
    as (pm & ns & s & ys & E & A & C & _ & D). exists pm, ns, s, ys. auto.
Qed.
Print Assumptions C94_prepared.

(** C94: the same with every operation in float32, each model adding in its own order. *)
Theorem C94_prepared_float32 : forall pw ln2 acc acc' nin nodes outs st (aggressive : bool) fuel names,
  let m := Sub nin nodes outs in
  let S := (if aggressive then "WRAP" else "SAT")%string in
  accumulator acc -> accumulator acc' ->
  Forall obj_ok st -> single m -> leaves (supported st m) m -> prepared m st -> depth m + 2 <= fuel ->
  forall B, inside pw ln2 m B st -> promises_kept pw ln2 m B st ->
  every_call pw ln2 st (fun x ins => layer_call_exact pw ln2 st x ins /\ proxy_call_exact pw ln2 st S x ins) m B ->
  exists pm ns s ys, to_proxy_model32 acc' fuel aggressive m names st = Ok (pm, ns, s) /\ leaves proxy_layer pm /\
    call_model pw ln2 m B st = Ok (ys, st) /\ call_model32 acc m B st = Ok (ys, st) /\ forall any, call_model32 acc pm B any = Ok (ys, any).
Proof.
  intros pw ln2 acc acc' nin nodes outs st ag fuel names m S HA HA' HO Hs HL HP Hf B HI HK HE.
  exact (prepared_net32 pw ln2 m st HO HL HP acc acc' HA HA' S ltac:(unfold S; destruct ag; auto) Hs (fun x H => ltac:(discriminate H)) fuel names B Hf HI HK HE).
Qed.
Print Assumptions C94_prepared_float32.

(** C94: with a cover_factor the ranges computed in float32 need not be the ones of exact arithmetic, but they always contain
    the values seen: they are at least as wide as those of the exact calibration without cover_factor, and the model is ready
    for the conversion. *)
Theorem C94_cover_float32 : forall pw ln2 acc exact_bops exact_bops' m n ds bsz c st bops rs st1 bops' rs' st',
  accumulator acc -> Forall obj_ok st -> leaves (supported st m) m -> dataset n ds -> 0 < n -> 0 < bsz ->
  (qz 1 <= c)%Qc -> (c <= pow2 40)%Qc ->
  (forall B, In B (batches ds bsz) -> every_call pw ln2 st (layer_call_exact pw ln2 st) m B) ->
  trace_minmax pw ln2 exact_bops m ds bsz true (qz 1) false st = Ok (bops, rs, st1) ->
  (forall i o, In i (top_layers m) -> nth_error st1 i = Some o -> roomy (l_paq (o_layer o))) ->
  trace_minmax32 acc exact_bops' m ds bsz true c false st = Ok (bops', rs', st') ->
  rs' = rs /\ wider_store st1 st' /\
  ((forall i o, In i (top_layers m) -> nth_error st' i = Some o -> in_bounds (l_paq (o_layer o))) ->
   prepared m st' /\ forall B, batch_of n ds B -> inside pw ln2 m B st').
Proof.
  intros pw ln2 acc eb eb' m n ds bsz c st bops rs st1 bops' rs' st' HA HO HL HD Hn Hb H1 H2 HE E HR E'.
  destruct (trace32_result pw ln2 acc eb eb' m n ds bsz c st st1 st' bops bops' rs rs' HA HO HL HD Hn Hb H1 H2 HE E HR E') as (A & B & _ & _ & _ & C). auto.
Qed.
Print Assumptions C94_cover_float32.

(** C94: from the calibration with a cover_factor to the proxy model, all in float32: network and proxy model give one and
    the same output on every batch inside the ranges found, which include the calibration data. *)
Theorem C94_deployment : forall pw ln2 acc acc' exact_bops exact_bops' nin nodes outs n ds bsz c st bops rs st1 bops' rs' st' (aggressive : bool) fuel names,
  let m := Sub nin nodes outs in
  let S := (if aggressive then "WRAP" else "SAT")%string in
  accumulator acc -> accumulator acc' -> Forall obj_ok st -> single m -> leaves (supported st m) m -> dataset n ds -> 0 < n -> 0 < bsz ->
  (qz 1 <= c)%Qc -> (c <= pow2 40)%Qc ->
  (forall B, In B (batches ds bsz) -> every_call pw ln2 st (layer_call_exact pw ln2 st) m B) ->
  trace_minmax pw ln2 exact_bops m ds bsz true (qz 1) false st = Ok (bops, rs, st1) ->
  (forall i o, In i (top_layers m) -> nth_error st1 i = Some o -> roomy (l_paq (o_layer o))) ->
  trace_minmax32 acc exact_bops' m ds bsz true c false st = Ok (bops', rs', st') ->
  (forall i o, In i (top_layers m) -> nth_error st' i = Some o -> in_bounds (l_paq (o_layer o))) ->
  depth m + 2 <= fuel ->
  forall B, batch_of n ds B \/ inside pw ln2 m B st' -> promises_kept pw ln2 m B st' ->
  every_call pw ln2 st' (fun x ins => layer_call_exact pw ln2 st' x ins /\ proxy_call_exact pw ln2 st' S x ins) m B ->
  exists pm ns s ys, to_proxy_model32 acc' fuel aggressive m names st' = Ok (pm, ns, s) /\
    call_model32 acc m B st' = Ok (ys, st') /\ forall any, call_model32 acc pm B any = Ok (ys, any).
Proof.
  intros pw ln2 acc acc' eb eb' nin nodes outs n ds bsz c st bops rs st1 bops' rs' st' ag fuel names m S HA HA' HO Hs HL HD Hn Hb H1 H2 HE E HR E' HB Hf B HI HK HX.
  destruct (trace32_result pw ln2 acc eb eb' m n ds bsz c st st1 st' bops bops' rs rs' HA HO HL HD Hn Hb H1 H2 HE E HR E') as (_ & _ & _ & O6 & L6 & C).
  destruct (C HB) as [P6 I6].
  destruct (C94_prepared_float32 pw ln2 acc acc' nin nodes outs st' ag fuel names HA HA' O6 Hs L6 P6 Hf B ltac:(destruct HI; auto) HK HX) as (pm & ns & s & ys & X1 & _ & _ & X2 & X3).
  exists pm, ns, s, ys. auto.
Qed.
Print Assumptions C94_deployment.

(** ** Examples *)
Definition roomy_b (q : hgq) : bool :=
  forallb (fun g => match nth g (data (q_min q)) PosInf, nth g (data (q_max q)) NegInf with
                    | Fin a, Fin b => let r := qround_even (nth g (data (q_fbw q)) (qz 0)) in
                        Z.leb (-32) r && Z.leb r 93 && qleb (qabs a) (pow2 (22 - r)) && qleb (qabs b) (pow2 (22 - r))
                    | _, _ => true
                    end) (seq 0 (List.length (data (q_fbw q)))).
Lemma roomy_b_ok q : roomy_b q = true -> roomy q.
Proof.
  intros H g Hg r a b Hr [H1 H2]. unfold roomy_b in H. rewrite forallb_forall in H. specialize (H g (proj2 (in_seq _ _ _) (conj (Nat.le_0_l _) Hg))).
  rewrite H1, H2 in H. apply nearest_even_fun in Hr. rewrite <- Hr in H. apply andb_prop in H. destruct H as [H H4]. apply andb_prop in H. destruct H as [H H3].
  apply andb_prop in H. destruct H as [H5 H6]. apply Z.leb_le in H5, H6. destruct (qleb_spec (qabs a) (pow2 (22 - r))); [|discriminate]. destruct (qleb_spec (qabs b) (pow2 (22 - r))); [|discriminate]. auto.
Qed.
(** 2.2 as a float32 *)
Definition exc_c : Qc := (qz 9227469 * pow2 (-22))%Qc.
(** A batch not among the calibration data, and outside the ranges without a cover_factor. *)
Definition exc_B : list (list (list Qc)) :=
  [[[Q2Qc (5 # 4); Q2Qc (5 # 8)]; [Q2Qc (-15 # 8); Q2Qc (5 # 32)]; [qz 0; Q2Qc (5 # 2)]]; [[Q2Qc (-5 # 4); qz 7]; [Q2Qc (7 # 4); qz 0]; [qz (-2); qz 1]]].
Lemma pair6 {A B C D E F} (a a' : A) (b b' : B) (c c' : C) (d d' : D) (e e' : E) (f f' : F) :
  Ok (a, b, c, d, e, f) = Ok (a', b', c', d', e', f') -> a = a' /\ b = b' /\ c = c' /\ d = d' /\ e = e' /\ f = f'.
Proof. intros H. injection H. auto 8. Qed.
(** The network of C90_ex calibrated in float32 with cover_factor 2.2; proxy and network agree on exc_B, which is not inside the
    ranges found without a cover_factor. *)
Example C94_ex : forall pw ln2, (qz 1 <= exc_c)%Qc /\ (exc_c <= pow2 40)%Qc /\ Forall obj_ok exf_store /\ single exp_m /\ leaves (supported exf_store exp_m) exp_m /\
  (forall B, In B (batches exp_ds 2) -> every_call pw ln2 exf_store (layer_call_exact pw ln2 exf_store) exp_m B) /\
  exists bops rs st1, trace_minmax pw ln2 ex_eb exp_m exp_ds 2 true (qz 1) false exf_store = Ok (bops, rs, st1) /\
  (forall i o, In i (top_layers exp_m) -> nth_error st1 i = Some o -> roomy (l_paq (o_layer o))) /\
  ends (nth_error st1 0) = [Some (-3 # 2); Some 0; Some 1; Some 2]%Q /\ ends (nth_error st1 1) = [Some (-1 # 4); Some (-1 # 4); Some (5 # 2); Some (15 # 8)]%Q /\
  ~ inside pw ln2 exp_m exc_B st1 /\
  exists bops' st', trace_minmax32 acc_fma ex_eb exp_m exp_ds 2 true exc_c false exf_store = Ok (bops', rs, st') /\
  ends (nth_error st' 0) = [Some (-3); Some (-1); Some (5 # 2); Some 3]%Q /\ ends (nth_error st' 1) = [Some (-2); Some (-3 # 2); Some (17 # 4); Some (25 # 8)]%Q /\
  (forall i o, In i (top_layers exp_m) -> nth_error st' i = Some o -> in_bounds (l_paq (o_layer o))) /\
  Forall obj_ok st' /\ leaves (supported st' exp_m) exp_m /\ prepared exp_m st' /\
  inside pw ln2 exp_m exc_B st' /\ promises_kept pw ln2 exp_m exc_B st' /\
  every_call pw ln2 st' (fun x ins => layer_call_exact pw ln2 st' x ins /\ proxy_call_exact pw ln2 st' "WRAP" x ins) exp_m exc_B /\
  exists pm ns s ys, to_proxy_model32 acc_left 6 true exp_m exp_names st' = Ok (pm, ns, s) /\
    call_model32 acc_fma exp_m exc_B st' = Ok (ys, st') /\ (forall any, call_model32 acc_fma pm exc_B any = Ok (ys, any)) /\
    map this (exp_flat ys) = [1 # 2; 1; 1; 1; 1; 1; 5 # 4; 0; 0; 1; 3; 19 # 8]%Q.
Proof.
  intros pw ln2.
  assert (H1c : (qz 1 <= exc_c)%Qc) by (vm_compute; discriminate). assert (H2c : (exc_c <= pow2 40)%Qc) by (vm_compute; discriminate).
  split; [exact H1c|]. split; [exact H2c|]. split; [exact exf_ok|]. split; [exact exp_single|]. split; [exact exf_supported|].
  assert (HT : forall B, In B (batches exp_ds 2) -> every_call pw ln2 exf_store (layer_call_exact pw ln2 exf_store) exp_m B).
  { assert (F : forallb (every_callb pw ln2 exf_store (layer_callb pw ln2 (-12) exf_store) exp_m) (batches exp_ds 2) = true) by (vm_compute; reflexivity).
    rewrite forallb_forall in F. intros B HB. apply (every_callb_ok pw ln2 exf_store _ _ exp_m B (layer_callb_ok pw ln2 (-12) exf_store) (F B HB)). }
  split; [exact HT|].
  assert (H : rbind (trace_minmax pw ln2 ex_eb exp_m exp_ds 2 true (qz 1) false exf_store) (fun r =>
     Ok (ends (nth_error (snd r) 0), ends (nth_error (snd r) 1), inside_b pw ln2 exp_m exc_B (snd r), forallb (fun o => roomy_b (l_paq (o_layer o))) (snd r))) =
     Ok ([Some (-3 # 2); Some 0; Some 1; Some 2]%Q, [Some (-1 # 4); Some (-1 # 4); Some (5 # 2); Some (15 # 8)]%Q, false, true)) by (vm_compute; reflexivity).
  destruct (trace_minmax pw ln2 ex_eb exp_m exp_ds 2 true (qz 1) false exf_store) as [[[bops rs] st1]|] eqn:ET; [|discriminate]. cbn [rbind snd] in H.
  apply ok4 in H. destruct H as [H1 [H2 [H3 H4]]]. exists bops, rs, st1. split; [reflexivity|].
  assert (HR : forall i o, In i (top_layers exp_m) -> nth_error st1 i = Some o -> roomy (l_paq (o_layer o))).
  { intros i o _ Ho. apply roomy_b_ok. rewrite forallb_forall in H4. apply H4. eapply nth_error_In, Ho. }
  split; [exact HR|]. split; [exact H1|]. split; [exact H2|].
  assert (LB : Forall (fun b => length b = 3) exc_B) by repeat constructor.
  pose proof (supported_hgq _ _ exf_supported) as HL.
  split.
  { intros X. apply (inside_b_spec pw ln2 exp_m exc_B st1 3 (trace_ok pw ln2 ex_eb exp_m 3 exp_ds 2 true (qz 1) false exf_store bops rs st1 exf_ok HL exp_dataset ltac:(lia) ET) HL LB ltac:(lia)) in X. congruence. }
  assert (K : rbind (trace_minmax32 acc_fma ex_eb exp_m exp_ds 2 true exc_c false exf_store) (fun r =>
     Ok (ends (nth_error (snd r) 0), ends (nth_error (snd r) 1), inside_b pw ln2 exp_m exc_B (snd r), forallb (fun o => in_bounds_b (l_paq (o_layer o))) (snd r),
         (match run (checked pw ln2) exp_m exc_B (snd r) with Ok _ => true | Raise => false end,
          rmap (fun r => map this (exp_flat (fst r))) (call_model pw ln2 exp_m exc_B (snd r))),
         every_callb pw ln2 (snd r) (fun x ins => layer_callb pw ln2 (-12) (snd r) x ins && proxy_callb pw ln2 (-12) (snd r) "WRAP" x ins) exp_m exc_B)) =
     Ok ([Some (-3); Some (-1); Some (5 # 2); Some 3]%Q, [Some (-2); Some (-3 # 2); Some (17 # 4); Some (25 # 8)]%Q, true, true,
         (true, Ok [1 # 2; 1; 1; 1; 1; 1; 5 # 4; 0; 0; 1; 3; 19 # 8]%Q), true)) by (vm_compute; reflexivity).
  destruct (trace_minmax32 acc_fma ex_eb exp_m exp_ds 2 true exc_c false exf_store) as [[[bops' rs'] st']|] eqn:ET'; [|discriminate]. cbn [rbind snd] in K.
  apply pair6 in K. destruct K as (K1 & K2 & K3 & K4 & K5 & K6). assert (KA := f_equal fst K5). assert (KB := f_equal snd K5). cbn [fst snd] in KA, KB. clear K5.
  destruct (trace32_result pw ln2 acc_fma ex_eb ex_eb exp_m 3 exp_ds 2 exc_c exf_store st1 st' bops bops' rs rs' acc_fma_ok exf_ok exf_supported exp_dataset ltac:(lia) ltac:(lia) H1c H2c HT ET HR ET') as (R1 & _ & _ & O6 & L6 & R2).
  subst rs'. exists bops', st'. split; [reflexivity|]. split; [exact K1|]. split; [exact K2|].
  assert (HB : forall i o, In i (top_layers exp_m) -> nth_error st' i = Some o -> in_bounds (l_paq (o_layer o))).
  { intros i o _ Ho. apply in_bounds_b_ok. rewrite forallb_forall in K4. apply K4. eapply nth_error_In, Ho. }
  assert (HI : inside pw ln2 exp_m exc_B st') by (apply (inside_b_spec pw ln2 exp_m exc_B st' 3 O6 HL LB ltac:(lia)), K3).
  assert (HP : promises_kept pw ln2 exp_m exc_B st') by (unfold promises_kept; destruct (run (checked pw ln2) exp_m exc_B st'); [eauto|discriminate KA]).
  assert (HE : every_call pw ln2 st' (fun x ins => layer_call_exact pw ln2 st' x ins /\ proxy_call_exact pw ln2 st' "WRAP" x ins) exp_m exc_B).
  { refine (every_callb_ok pw ln2 st' _ _ exp_m exc_B _ K6). intros x ins Hx. cbv beta in Hx. apply andb_prop in Hx. destruct Hx as [X1 X2].
    split; [apply (layer_callb_ok pw ln2 (-12)), X1|apply (proxy_callb_ok pw ln2 (-12)), X2]. }
  destruct (R2 HB) as [P6 I6].
  split; [exact HB|]. split; [exact O6|]. split; [exact L6|]. split; [exact P6|]. split; [exact HI|]. split; [exact HP|]. split; [exact HE|].
  destruct (C94_prepared_float32 pw ln2 acc_fma acc_left _ _ _ st' true 6 exp_names acc_fma_ok acc_left_ok O6 exp_single L6 P6 ltac:(cbn; lia) exc_B HI HP HE) as (pm & ns & s & ys & E1 & _ & EX & E2 & E3).
  exists pm, ns, s, ys. split; [exact E1|]. split; [exact E2|]. split; [exact E3|].
  change (call_model pw ln2 exp_m exc_B st' = Ok (ys, st')) in EX. rewrite EX in KB. cbn [rmap fst] in KB. injection KB as ->. reflexivity.
Qed.

(** The ranges of float32 are indeed not the ones of exact arithmetic: with 20 fractional bits, data from 0 to 3 + 2^-20 and
    cover_factor 100.1 (as a float32) the ends differ in the last bits. *)
Definition exd_store : store := [ex_obj (Fn ex_id) [qz 20; qz 2] AOther].
Definition exd_m : klayer layer := Sub 1 [(Leaf (11, KH 0), [(0, 0)])] [(1, 0)].
Definition exd_ds : list (list (list Qc)) := [[[qz 0; qz 0]; [(qz 3 + pow2 (-20))%Qc; qz 1]]].
Definition exd_c : Qc := (qz 13120307 * pow2 (-17))%Qc.
Definition exd_gap : result (list Q) :=
  rbind (trace_minmax (fun x => x) (qz 1) ex_eb exd_m exd_ds 2 true exd_c false exd_store) (fun a =>
  rbind (trace_minmax32 acc_fma ex_eb exd_m exd_ds 2 true exd_c false exd_store) (fun b =>
  Ok (map (fun p => match p with (Some x, Some y) => this (Q2Qc (y - x) * pow2 20)%Qc | _ => 0%Q end) (combine (ends (nth_error (snd a) 0)) (ends (nth_error (snd b) 0)))))).
(** In units of 2^-20: the lower end is 6 units higher and the upper end 7 units lower than without rounding. *)
Example C94_not_exact : exd_gap = Ok [6; 0; -7; 0]%Q.
Proof. vm_compute. reflexivity. Qed.

(** C85: calibrating from scratch (src/HGQ/bops/bops.py) does not depend on what was recorded before. *)
From Coq Require Import ZArith QArith Qcanon List Bool String Lia.
From Verif Require Import Base.Num Base.NumFacts Base.Tensor Base.Compute Model.FixedPoint Model.Quantizer Model.Layers Model.Conf Model.Serial Model.Graph Model.Trace Model.Bops
  Spec.Trace Spec.Serial Spec.Recalibrate Proofs.CallP Proofs.SerialP Proofs.TraceP Proofs.TraceMinmaxP Proofs.RecalibrateP Props.P_Trace Props.P_ProxyModel Props.P_Serial.
Import ListNotations.
Local Open Scope nat_scope.

(** C85: two states of a model with the same weights, bitwidths and settings
    give the same BOPs, predictions and calibrated layers, or both raise. *)
Theorem C85_forgets : forall pw ln2 eb m ds bsz c st st', only_writes_bops eb -> same_model m st st' ->
  trace_minmax pw ln2 eb m ds bsz true c false st' = trace_minmax pw ln2 eb m ds bsz true c false st.
Proof. exact trace_forgets. Qed.
Print Assumptions C85_forgets.

(** C85: compute_exact_bops only writes the bops variables. *)
Theorem C85_counting : forall pw ln2 fl pred conv, only_writes_bops (exact_bops pw ln2 fl pred conv).
Proof.
  intros pw ln2 fl pred conv s s' i E. unfold exact_bops. change (nobs s = nobs s') in E.
  assert (G : forall j, match get s j, get s' j with Ok o, Ok o' => o_layer o = o_layer o' | Raise, Raise => True | _, _ => False end).
  { intros j. pose proof (get_nobs s j) as G. rewrite E, get_nobs in G. destruct (get s j) as [o|], (get s' j) as [o'|]; try discriminate; [|exact I].
    cbn in G. assert (W : without_bops o' = without_bops o) by congruence. injection W as -> _ _ _. reflexivity. }
  pose proof (G i) as Gi. destruct (get s i) as [o|], (get s' i) as [o'|]; try contradiction; [|reflexivity]. cbn [rbind]. rewrite Gi.
  destruct (l_op (o_layer o')); [|reflexivity]. destruct (pred i) as [p|]; [|reflexivity].
  pose proof (G p) as Gp. destruct (get s p) as [q|], (get s' p) as [q'|]; try contradiction; [|reflexivity]. cbn [rbind]. rewrite Gp. reflexivity.
Qed.
Print Assumptions C85_counting.

(** C85: earlier calibrations, with whatever data and arguments, do not matter:
    calibrating afterwards gives what calibrating at once gives. *)
Theorem C85_again : forall pw ln2 eb m n1 ds1 b1 rst1 c1 nb1 bops rs st1 ds bsz c st,
  only_writes_bops eb -> Forall obj_ok st -> leaves hgq_layer m -> dataset n1 ds1 -> 0 < b1 ->
  (forall i o, nth_error st i = Some o -> In i (top_layers m) \/ o_record o = false) ->
  trace_minmax pw ln2 eb m ds1 b1 rst1 c1 nb1 st = Ok (bops, rs, st1) ->
  trace_minmax pw ln2 eb m ds bsz true c false st1 = trace_minmax pw ln2 eb m ds bsz true c false st.
Proof.
  intros pw ln2 eb m n1 ds1 b1 rst1 c1 nb1 bops rs st1 ds bsz c st HB HO HL HD B1 HR E. apply trace_forgets; [exact HB|].
  exact (trace_same_model pw ln2 eb m n1 ds1 b1 rst1 c1 nb1 st bops rs st1 HO HL HD B1 HR E).
Qed.
Print Assumptions C85_again.

Definition cal_other : list (list (list Qc)) := [[[qz 5; qz (-9)]]; [[qz 1; qz 3]]].
Lemma exp_leaves : leaves hgq_layer exp_m.
Proof.
  constructor. intros k ins H. cbn in H. repeat (destruct H as [H|H]; [injection H as <- <-; constructor; try exact I; intros k0 i0 H0; cbn in H0; repeat (destruct H0 as [H0|H0]; [injection H0 as <- <-; constructor; exact I|]); contradiction|]). contradiction.
Qed.
(** The example network, calibrated with a wide sample and again with its own data. *)
Example C85_again_ex : forall pw ln2, Forall obj_ok exp_store /\ leaves hgq_layer exp_m /\ dataset 1 cal_other /\ dataset 3 exp_ds /\ only_writes_bops ex_eb /\
  (forall i o, nth_error exp_store i = Some o -> In i (top_layers exp_m) \/ o_record o = false) /\
  exists bops rs st1 bops' rs' st', trace_minmax pw ln2 ex_eb exp_m cal_other 1 true (qz 2) true exp_store = Ok (bops, rs, st1) /\
    trace_minmax pw ln2 ex_eb exp_m exp_ds 2 true (qz 1) false exp_store = Ok (bops', rs', st') /\
    trace_minmax pw ln2 ex_eb exp_m exp_ds 2 true (qz 1) false st1 = Ok (bops', rs', st') /\ st1 <> st' /\ st1 <> exp_store.
Proof.
  intros pw ln2. split; [exact exp_ok|]. split; [exact exp_leaves|]. split; [split; [repeat constructor|discriminate]|]. split; [split; [repeat constructor|discriminate]|].
  assert (OW : only_writes_bops ex_eb) by (intros s s' i _; reflexivity).
  assert (HR : forall i o, nth_error exp_store i = Some o -> In i (top_layers exp_m) \/ o_record o = false).
  { intros [|[|[|i]]] o H; cbn in H; try (right; injection H as <-; reflexivity). destruct i; discriminate. }
  split; [exact OW|]. split; [exact HR|].
  assert (H1 : rbind (trace_minmax pw ln2 ex_eb exp_m cal_other 1 true (qz 2) true exp_store) (fun r => Ok (map o_record (snd r))) = Ok [true; true; true]) by (vm_compute; reflexivity).
  assert (H2 : rbind (trace_minmax pw ln2 ex_eb exp_m exp_ds 2 true (qz 1) false exp_store) (fun r => Ok (map o_record (snd r))) = Ok [false; false; false]) by (vm_compute; reflexivity).
  destruct (rbind_ok _ _ _ H1) as [[[bops rs] st1] [E1 R1]]. destruct (rbind_ok _ _ _ H2) as [[[bops' rs'] st'] [E2 R2]]. clear H1 H2. cbn [snd] in R1, R2.
  exists bops, rs, st1, bops', rs', st'. split; [exact E1|]. split; [exact E2|]. split; [|split].
  - rewrite <- E2. apply (C85_again pw ln2 ex_eb exp_m 1 cal_other 1 true (qz 2) true bops rs st1 exp_ds 2 (qz 1) exp_store OW exp_ok exp_leaves); [split; [repeat constructor|discriminate]|lia|exact HR|exact E1].
  - clear E1 E2. intros ->. congruence.
  - clear E1 E2. intros ->. discriminate R1.
Qed.

(** C85: a model that was saved and loaded.  [st] is the model when it was
    saved, [st'] the loaded one; both give the same calibrated layers, BOPs and
    predictions, hence the same proxy model. *)
Theorem C85_loaded : forall geo_of exact_of clip_of rsqrt defaults init os os' (st st' : store) pw ln2 eb m ds bsz c,
  Forall (fun o => in_use geo_of o /\ bn_default geo_of o) os ->
  Forall2 (fun o o' => load geo_of defaults init (save o) = Ok o') os os' ->
  Forall2 (fun o h => o_layer h = layer_of geo_of exact_of clip_of rsqrt o) os st ->
  Forall2 (fun o h => o_layer h = layer_of geo_of exact_of clip_of rsqrt o) os' st' ->
  Forall2 (fun h h' => o_act h' = o_act h /\ o_ins h' = o_ins h) st st' ->
  (forall i, i < List.length st -> In i (top_layers m)) -> only_writes_bops eb ->
  trace_minmax pw ln2 eb m ds bsz true c false st' = trace_minmax pw ln2 eb m ds bsz true c false st /\
  forall fuel aggressive names,
    rbind (trace_minmax pw ln2 eb m ds bsz true c false st') (fun r => to_proxy_model pw ln2 fuel aggressive m names (snd r)) =
    rbind (trace_minmax pw ln2 eb m ds bsz true c false st) (fun r => to_proxy_model pw ln2 fuel aggressive m names (snd r)).
Proof.
  intros geo_of exact_of clip_of rsqrt defaults init os os' st st' pw ln2 eb m ds bsz c HU HL HS HS' HA HT HB.
  assert (EQ : trace_minmax pw ln2 eb m ds bsz true c false st' = trace_minmax pw ln2 eb m ds bsz true c false st).
  2: { split; [exact EQ|]. intros. rewrite EQ. reflexivity. }
  apply trace_forgets; [exact HB|]. split; [clear - HA; induction HA; cbn; congruence|].
  intros i h h' E E'. destruct (in_dec Nat.eq_dec i (top_layers m)) as [_|N]; [|destruct N; apply HT, (nth_error_lt _ _ _ E)].
  clear HT. revert i E E' os os' HU HL HS HS'. induction HA as [|a a' st st' H HA IH]; intros [|i] E E' os os' HU HL HS HS'; try discriminate.
  - cbn in E, E'. injection E as ->. injection E' as ->. destruct H as [H1 H2]. inversion HS; subst. inversion HL; subst. inversion HS'; subst. inversion HU as [|? ? [U B] ?]; subst.
    split; [exact H1|]. split; [exact H2|].
    match goal with X : load _ _ _ (save ?o) = Ok ?o', Y : o_layer h = layer_of _ _ _ _ ?o, Z : o_layer h' = layer_of _ _ _ _ ?o' |- _ =>
      rewrite load_save in X by assumption; assert (o' = loaded geo_of o) by congruence; subst o'; rewrite layer_loaded in Z by assumption; rewrite Z, Y end.
    unfold uncalibrated, minmax_reg_reset. eexists. eexists. reflexivity.
  - cbn in E, E'. inversion HS; subst. inversion HL; subst. inversion HS'; subst. inversion HU; subst. eapply (IH i E E'); eassumption.
Qed.
Print Assumptions C85_loaded.
(** A calibrated dense layer (recorded range -1 to 2) that is saved, loaded and calibrated with other data. *)
Definition sv_o : obj := let o := ex_get (ex_make HDense [("units"%string, CInt 1)]) in
  Serial.mkO (o_args o) (o_in o) (o_ki o) (o_pi o) (o_w o) (tmap (fun _ => Fin (qz (-1))) (o_min o)) (tmap (fun _ => Fin (qz 2)) (o_max o)).
Definition sv_m : klayer layer := Sub 1 [(Leaf (11, KH 0), [(0, 0)])] [(1, 0)].
Definition sv_h (o : obj) (n : Z) : hobj := Trace.mkO (layer_of ex_geo ex_exact ex_clip (fun x => x) o) false AOther [[1]] (qz n).
Definition sv_ds : list (list (list Qc)) := [[[Q2Qc (1 # 2)]; [qz 3]]].
Example C85_loaded_ex : forall pw ln2, in_use ex_geo sv_o /\ bn_default ex_geo sv_o /\
  exists o', load ex_geo (default_kq, default_paq) ex_init (save sv_o) = Ok o' /\
  get_bits_exact (l_paq (o_layer (sv_h sv_o 7))) false <> Raise /\ get_bits_exact (l_paq (o_layer (sv_h o' 0))) false = Raise /\
  trace_minmax pw ln2 ex_eb sv_m sv_ds 1 true (qz 1) false [sv_h o' 0] = trace_minmax pw ln2 ex_eb sv_m sv_ds 1 true (qz 1) false [sv_h sv_o 7] /\
  rbind (trace_minmax pw ln2 ex_eb sv_m sv_ds 1 true (qz 1) false [sv_h sv_o 7]) (fun r => Ok (map this (regs (snd r)))) = Ok [3 # 2; 4 # 1]%Q.
Proof.
  intros pw ln2. assert (U : in_use ex_geo sv_o) by exact (ex_in_use HDense [("units"%string, CInt 1)] I).
  assert (B : bn_default ex_geo sv_o) by (intros H; discriminate H).
  split; [exact U|]. split; [exact B|].
  exists (loaded ex_geo sv_o). assert (L : load ex_geo (default_kq, default_paq) ex_init (save sv_o) = Ok (loaded ex_geo sv_o)) by (apply load_save; assumption).
  split; [exact L|]. split; [vm_compute; discriminate|]. split; [vm_compute; reflexivity|]. split.
  - apply (C85_loaded ex_geo ex_exact ex_clip (fun x => x) (default_kq, default_paq) ex_init [sv_o] [loaded ex_geo sv_o] [sv_h sv_o 7] [sv_h (loaded ex_geo sv_o) 0] pw ln2 ex_eb sv_m sv_ds 1 (qz 1));
      [repeat constructor; assumption|repeat constructor; exact L|repeat constructor|repeat constructor|repeat constructor| |intros s s' i _; reflexivity].
    intros [|i] H; [left; reflexivity|cbn in H; lia].
  - vm_compute. reflexivity.
Qed.

(** C85: it has to be from scratch: with rst=False a loaded model records
    nothing, and cannot be converted. *)
Theorem C85_without_reset_refuted : exists m n ds st, Forall obj_ok st /\ leaves hgq_layer m /\ dataset n ds /\
  forall pw ln2, exists bops rs st', trace_minmax pw ln2 ex_eb m ds n false (qz 1) false (map fresh_copy st) = Ok (bops, rs, st') /\
    (forall aggressive, to_proxy_model pw ln2 6 aggressive m (fun _ => ("l"%string, true)) st' = Raise) /\
    exists bops2 rs2 st2 p, trace_minmax pw ln2 ex_eb m ds n true (qz 1) false (map fresh_copy st) = Ok (bops2, rs2, st2) /\
      to_proxy_model pw ln2 6 true m (fun _ => ("l"%string, true)) st2 = Ok p.
Proof.
  exists exw_m, 1, exw_ds, exp_store. split; [exact exp_ok|].
  split; [constructor; intros k ins H; cbn in H; repeat (destruct H as [H|H]; [injection H as <- <-; constructor; exact I|]); destruct H|]. split; [split; [repeat constructor|discriminate]|]. intros pw ln2.
  assert (H1 : rbind (trace_minmax pw ln2 ex_eb exw_m exw_ds 1 false (qz 1) false (map fresh_copy exp_store)) (fun r =>
    Ok (match to_proxy_model pw ln2 6 true exw_m (fun _ => ("l"%string, true)) (snd r), to_proxy_model pw ln2 6 false exw_m (fun _ => ("l"%string, true)) (snd r) with Raise, Raise => true | _, _ => false end)) = Ok true) by (vm_compute; reflexivity).
  assert (H2 : rbind (trace_minmax pw ln2 ex_eb exw_m exw_ds 1 true (qz 1) false (map fresh_copy exp_store)) (fun r =>
    rbind (to_proxy_model pw ln2 6 true exw_m (fun _ => ("l"%string, true)) (snd r)) (fun _ => Ok tt)) = Ok tt) by (vm_compute; reflexivity).
  destruct (rbind_ok _ _ _ H1) as [[[bops rs] st'] [E1 R1]]. destruct (rbind_ok _ _ _ H2) as [[[bops2 rs2] st2] [E2 R2]]. clear H1 H2. cbn [snd] in R1, R2.
  exists bops, rs, st'. split; [exact E1|]. clear E1. split.
  - intros aggressive. destruct (to_proxy_model pw ln2 6 true exw_m _ st') eqn:T1; [discriminate R1|]. destruct (to_proxy_model pw ln2 6 false exw_m _ st') eqn:T2; [discriminate R1|].
    destruct aggressive; assumption.
  - destruct (rbind_ok _ _ _ R2) as [p [P _]]. exists bops2, rs2, st2, p. split; [exact E2|exact P].
Qed.
Print Assumptions C85_without_reset_refuted.

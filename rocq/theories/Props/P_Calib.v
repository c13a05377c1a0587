(** Theorems about calibrating with other, more or repeated samples (src/HGQ/bops/bops.py): C67. *)
From Coq Require Import ZArith QArith Qcanon List Bool Lia.
From Verif Require Import Base.Num Base.NumFacts Base.Tensor Base.Compute Model.FixedPoint Model.Quantizer Model.Layers Model.Graph Model.Trace Model.Bops Model.Callbacks
  Spec.Fixed Spec.Quant Spec.History Spec.Layer Spec.Graph Spec.Trace Spec.Bops Spec.Calib Proofs.CallP Proofs.LayersP Proofs.QuantizerP
  Proofs.TraceP Proofs.FeedP Proofs.TraceMinmaxP Proofs.CoverP Proofs.TraceMoreP Proofs.CalibP Proofs.CalibBopsP Proofs.CalibStepP Props.P_Trace.
Import ListNotations.
Local Open Scope nat_scope.

(** ** Example: HQuantize -> HDense, three datasets *)
Definition cal_net : klayer layer := Sub 1 [(Leaf (10, KQuant 0), [(0, 0)]); (Leaf (11, KH 1), [(1, 0)])] [(2, 0)].
Definition cal_store : store := [ex_obj (Fn ex_id) [qz 2; qz 1] ALinear; ex_obj ex_dense [qz 2; qz 3] AOther].
Definition cal_a : list (list (list Qc)) := [[[qz 1; Q2Qc (1 # 2)]; [Q2Qc (-3 # 2); Q2Qc (1 # 8)]]].
Definition cal_b : list (list (list Qc)) := [[[qz 0; qz 9]]].
Definition cal_ab : list (list (list Qc)) := [[[qz 0; qz 9]; [Q2Qc (-3 # 2); Q2Qc (1 # 8)]; [qz 1; Q2Qc (1 # 2)]; [qz 0; qz 9]]].
Definition cal_ba : list (list (list Qc)) := [[[qz 1; Q2Qc (1 # 2)]; [Q2Qc (-3 # 2); Q2Qc (1 # 8)]; [qz 0; qz 9]]].
Definition cal_pred (i : nat) : option nat := if Nat.eqb i 1 then Some 0 else None.
Definition pw0 (x : Qc) : Qc := x.
Definition cal_eb := exact_bops pw0 (qz 1) (fun a => a) cal_pred (fun _ => None).

Lemma cal_store_ok : Forall obj_ok cal_store.
Proof. unfold cal_store. repeat (apply Forall_cons; [apply ex_obj_ok; [reflexivity|repeat constructor; vm_compute; discriminate|reflexivity]|]). apply Forall_nil. Qed.
Lemma cal_leaves : leaves hgq_layer cal_net.
Proof. constructor. intros k ins H. cbn in H. repeat (destruct H as [H|H]; [injection H as <- <-; constructor; exact I|]). contradiction. Qed.
Lemma cal_datasets : dataset 2 cal_a /\ dataset 1 cal_b /\ dataset 4 cal_ab /\ dataset 3 cal_ba.
Proof. repeat split; first [discriminate|repeat constructor]. Qed.

(** ** C67: which samples, not their order, number or batches *)
Theorem C67_same_samples : forall pw ln2 exact_bops m n ds n' ds' b b' rst c no_bops st bops rs st',
  Forall obj_ok st -> leaves hgq_layer m -> dataset n ds -> dataset n' ds' -> 0 < b -> 0 < b' -> same_samples n ds n' ds' ->
  trace_minmax pw ln2 exact_bops m ds b rst c no_bops st = Ok (bops, rs, st') ->
  exists rs', trace_minmax pw ln2 exact_bops m ds' b' rst c no_bops st = Ok (bops, rs', st').
Proof. exact trace_same. Qed.
Print Assumptions C67_same_samples.
Example C67_same_samples_ex : forall pw ln2, Forall obj_ok cal_store /\ leaves hgq_layer cal_net /\ same_samples 4 cal_ab 3 cal_ba /\
  rbind (trace_minmax pw ln2 ex_eb cal_net cal_ab 2 true (qz 2) false cal_store) (fun r => Ok (fst (fst r) :: regs (snd r))) =
  Ok [qz 3; Q2Qc (-11 # 4); Q2Qc (-9 # 2); Q2Qc (9 # 4); Q2Qc (27 # 2); Q2Qc (-11 # 2); Q2Qc (-41 # 8); qz 16; Q2Qc (107 # 8)] /\
  rbind (trace_minmax pw ln2 ex_eb cal_net cal_ba 3 true (qz 2) false cal_store) (fun r => Ok (fst (fst r) :: regs (snd r))) =
  rbind (trace_minmax pw ln2 ex_eb cal_net cal_ab 2 true (qz 2) false cal_store) (fun r => Ok (fst (fst r) :: regs (snd r))).
Proof.
  intros. split; [exact cal_store_ok|]. split; [exact cal_leaves|]. split.
  { split; intros s Hs; vm_compute in Hs |- *; intuition auto. }
  split; qvm.
Qed.

(** ** C67: more samples *)
Theorem C67_more_samples_wider_ranges : forall pw ln2 exact_bops m n ds n' ds' b b' rst c no_bops st bops rs s bops' rs' s',
  Forall obj_ok st -> leaves hgq_layer m -> dataset n ds -> dataset n' ds' -> 0 < b -> 0 < b' -> (qz 1 <= c)%Qc -> part_of n ds n' ds' ->
  trace_minmax pw ln2 exact_bops m ds b rst c no_bops st = Ok (bops, rs, s) ->
  trace_minmax pw ln2 exact_bops m ds' b' rst c no_bops st = Ok (bops', rs', s') ->
  wider_store s s'.
Proof. exact trace_wider. Qed.
Print Assumptions C67_more_samples_wider_ranges.

(** Counted on the calibrated ranges, the bit operations do not decrease. *)
Theorem C67_more_samples_more_bops : forall pw ln2 pred conv m n ds n' ds' b b' rst c st bops rs s bops' rs' s',
  Forall obj_ok st -> leaves hgq_layer m -> dataset n ds -> dataset n' ds' -> 0 < b -> 0 < b' -> (qz 1 <= c)%Qc -> part_of n ds n' ds' ->
  (forall i pf sh, conv i = Some (pf, sh) -> (0 <= pf)%Z) ->
  (forall i o, In i (top_layers m) -> nth_error s i = Some o -> kernel_in_bounds pw ln2 o) ->
  (forall p o, reads pred m p -> nth_error s p = Some o -> calibrated (l_paq (o_layer o))) ->
  (forall p o, reads pred m p -> nth_error s' p = Some o -> calibrated (l_paq (o_layer o))) ->
  trace_minmax pw ln2 (exact_bops pw ln2 (fun a => a) pred conv) m ds b rst c false st = Ok (bops, rs, s) ->
  trace_minmax pw ln2 (exact_bops pw ln2 (fun a => a) pred conv) m ds' b' rst c false st = Ok (bops', rs', s') ->
  (bops <= bops')%Qc.
Proof. exact trace_bops_mono. Qed.
Print Assumptions C67_more_samples_more_bops.

Definition got (T : result (Qc * list (list batch) * store)) : store := match T with Ok r => snd r | Raise => [] end.
Lemma got_ok T b : rbind T (fun r => Ok (fst (fst r))) = Ok b -> exists rs, T = Ok (b, rs, got T).
Proof. destruct T as [[[b0 rs] s]|]; cbn; [|discriminate]. intros E. exists rs. congruence. Qed.
Definition cal_tr (ds : list (list (list Qc))) := trace_minmax pw0 (qz 1) cal_eb cal_net ds 2 true (qz 1) false cal_store.
Lemma cal_fin (q : hgq) r0 r1 a0 b0 a1 b1 : map qround_even (data (q_fbw q)) = [r0; r1] -> data (q_min q) = [Fin a0; Fin a1] -> data (q_max q) = [Fin b0; Fin b1] ->
  (-32 <= r0 <= 93)%Z -> (-32 <= r1 <= 93)%Z -> on_grid r0 a0 -> on_grid r0 b0 -> on_grid r1 a1 -> on_grid r1 b1 ->
  (a0 <= b0)%Qc -> (a1 <= b1)%Qc -> (- pow2 32 <= a0)%Qc -> (b0 < pow2 32)%Qc -> (- pow2 32 <= a1)%Qc -> (b1 < pow2 32)%Qc -> calibrated q.
Proof.
  intros EF EMn EMx. intros. destruct (data (q_fbw q)) as [|f0 [|f1 [|]]] eqn:ED; try discriminate. injection EF as <- <-.
  intros g Hg. rewrite ED in Hg. unfold frac_bits. rewrite ED, EMn, EMx. destruct g as [|[|g]]; [| |cbn in Hg; lia]; cbn [nth].
  - exists (qround_even f0), a0, b0. split; [apply nearest_even_ex|]. auto 10.
  - exists (qround_even f1), a1, b1. split; [apply nearest_even_ex|]. auto 10.
Qed.
Lemma map_ethis_inj (a b : list ext) : map ethis a = map ethis b -> a = b.
Proof.
  revert b. induction a as [|x a IH]; intros [|y b]; cbn [map]; intros H; try discriminate; [reflexivity|].
  assert (ethis x = ethis y) by congruence. f_equal; [apply ethis_inj; assumption|apply IH; congruence].
Qed.
Lemma cal_obj T o r0 r1 a0 b0 a1 b1 : nth_error T 0 = Some o ->
  option_map (fun o => let q := l_paq (o_layer o) in (map qround_even (data (q_fbw q)), map ethis (data (q_min q)), map ethis (data (q_max q)))) (nth_error T 0) =
    Some ([r0; r1], map ethis [Fin a0; Fin a1], map ethis [Fin b0; Fin b1]) ->
  (-32 <= r0 <= 93)%Z -> (-32 <= r1 <= 93)%Z -> on_grid r0 a0 -> on_grid r0 b0 -> on_grid r1 a1 -> on_grid r1 b1 ->
  (a0 <= b0)%Qc -> (a1 <= b1)%Qc -> (- pow2 32 <= a0)%Qc -> (b0 < pow2 32)%Qc -> (- pow2 32 <= a1)%Qc -> (b1 < pow2 32)%Qc -> calibrated (l_paq (o_layer o)).
Proof.
  intros -> E. cbn [option_map] in E. cbv zeta in E. apply cal_fin; [congruence| |]; apply map_ethis_inj; congruence.
Qed.
Lemma cal_kernel : forall o, l_op (o_layer o) = ex_dense -> kernel_in_bounds pw0 (qz 1) o.
Proof.
  intros o E. unfold kernel_in_bounds. rewrite E. unfold ex_dense.
  set (kq := hgq_build (mkT [1; 1] [qz 3]) None 0 true None). set (k := mkT [2; 2] [Q2Qc (1 # 3); Q2Qc (-5 # 7); Q2Qc (9 # 8); qz 1]).
  assert (X : rbind (forward pw0 (qz 1) kq k false false (fun _ => qz 0)) (fun r => Ok (fst r)) = Ok (mkT [2; 2] [Q2Qc (3 # 8); Q2Qc (-3 # 4); Q2Qc (9 # 8); qz 1])) by qvm.
  apply rbind_ok in X. destruct X as [[y q] [F X]]. assert (y = mkT [2; 2] [Q2Qc (3 # 8); Q2Qc (-3 # 4); Q2Qc (9 # 8); qz 1]) by (cbn [fst] in X; congruence). subst y.
  eexists. split.
  - rewrite F. do 2 f_equal. unfold forward in F. apply rbind_ok in F. destruct F as [a [_ F]]. apply rbind_ok in F. destruct F as [c [_ F]]. cbn [negb] in F. congruence.
  - intros v [<-|[<-|[<-|[<-|[]]]]]; (split; [|vm_compute; reflexivity]).
    + exists (3 * 2 ^ 28)%Z. qvm. + exists (-3 * 2 ^ 29)%Z. qvm. + exists (9 * 2 ^ 28)%Z. qvm. + exists (2 ^ 31)%Z. qvm.
Qed.
Example C67_more_samples_ex : exists bops rs s bops' rs' s', part_of 2 cal_a 3 cal_ba /\
  cal_tr cal_a = Ok (bops, rs, s) /\ cal_tr cal_ba = Ok (bops', rs', s') /\ bops = qz 21 /\ bops' = qz 41 /\
  (forall i o, In i (top_layers cal_net) -> nth_error s i = Some o -> kernel_in_bounds pw0 (qz 1) o) /\
  (forall p o, reads cal_pred cal_net p -> nth_error s p = Some o -> calibrated (l_paq (o_layer o))) /\
  (forall p o, reads cal_pred cal_net p -> nth_error s' p = Some o -> calibrated (l_paq (o_layer o))) /\
  regs (firstn 1 s) = [Q2Qc (-3 # 2); qz 0; qz 1; Q2Qc (1 # 2)] /\ regs (firstn 1 s') = [Q2Qc (-3 # 2); qz 0; qz 1; qz 9].
Proof.
  destruct (got_ok (cal_tr cal_a) (qz 21) ltac:(qvm)) as [rs E]. destruct (got_ok (cal_tr cal_ba) (qz 41) ltac:(qvm)) as [rs' E'].
  exists (qz 21), rs, (got (cal_tr cal_a)), (qz 41), rs', (got (cal_tr cal_ba)).
  split; [intros s Hs; vm_compute in Hs |- *; intuition auto|]. split; [exact E|]. split; [exact E'|]. split; [reflexivity|]. split; [reflexivity|].
  assert (RD : forall p, reads cal_pred cal_net p -> p = 0).
  { intros p [i [Hi Hp]]. unfold cal_pred in Hp. destruct (Nat.eqb i 1); congruence. }
  split; [|split; [|split; [|split; qvm]]].
  - intros i o Hi Ho. cbn in Hi. destruct Hi as [<-|[<-|[]]].
    + assert (X : option_map (fun o => l_op (o_layer o)) (nth_error (got (cal_tr cal_a)) 0) = Some (Fn ex_id)) by (vm_compute; reflexivity).
      rewrite Ho in X. cbn [option_map] in X. unfold kernel_in_bounds. replace (l_op (o_layer o)) with (Fn ex_id) by congruence. exact I.
    + assert (X : option_map (fun o => l_op (o_layer o)) (nth_error (got (cal_tr cal_a)) 1) = Some ex_dense) by (vm_compute; reflexivity).
      rewrite Ho in X. cbn [option_map] in X. apply cal_kernel. congruence.
  - intros p o Hp Ho. apply RD in Hp. subst p. refine (cal_obj _ o 2 1 (Q2Qc (-3 # 2)) (qz 1) (qz 0) (Q2Qc (1 # 2)) Ho _ _ _ _ _ _ _ _ _ _ _ _ _).
    1: vm_compute; reflexivity. 1, 2: lia. 1: exists (-6)%Z; qvm. 1: exists 4%Z; qvm. 1: exists 0%Z; qvm. 1: exists 1%Z; qvm.
    all: vm_compute; first [reflexivity|discriminate].
  - intros p o Hp Ho. apply RD in Hp. subst p. refine (cal_obj _ o 2 1 (Q2Qc (-3 # 2)) (qz 1) (qz 0) (qz 9) Ho _ _ _ _ _ _ _ _ _ _ _ _ _).
    1: vm_compute; reflexivity. 1, 2: lia. 1: exists (-6)%Z; qvm. 1: exists 4%Z; qvm. 1: exists 0%Z; qvm. 1: exists 18%Z; qvm.
    all: vm_compute; first [reflexivity|discriminate].
Qed.

(** With a cover_factor below 1 another sample can narrow a range: the sample 0 alone gives [0, 0], with the sample 4
    the range is [1, 3]. *)
Theorem C67_cover_below_one_refuted : exists m n ds n' ds' st c, Forall obj_ok st /\ leaves hgq_layer m /\ dataset n ds /\ dataset n' ds' /\ part_of n ds n' ds' /\
  (qz 0 < c)%Qc /\ (c < qz 1)%Qc /\ forall pw ln2 eb,
  rbind (trace_minmax pw ln2 eb m ds 1 true c true st) (fun r => Ok (regs (firstn 1 (snd r)))) = Ok [qz 0; qz 0; qz 0; qz 0] /\
  rbind (trace_minmax pw ln2 eb m ds' 1 true c true st) (fun r => Ok (regs (firstn 1 (snd r)))) = Ok [qz 1; qz 0; qz 3; qz 0].
Proof.
  exists (Sub 1 [(Leaf (10, KQuant 0), [(0, 0)])] [(1, 0)]), 1, [[[qz 0; qz 0]]], 2, [[[qz 0; qz 0]; [qz 4; qz 0]]], [ex_obj (Fn ex_id) [qz 2; qz 1] ALinear], (Q2Qc (1 # 2)).
  split; [repeat (apply Forall_cons; [apply ex_obj_ok; [reflexivity|repeat constructor; vm_compute; discriminate|reflexivity]|]); apply Forall_nil|].
  split; [constructor; intros k ins [H|[]]; injection H as <- <-; constructor; exact I|].
  split; [split; [repeat constructor|discriminate]|]. split; [split; [repeat constructor|discriminate]|].
  split; [intros s Hs; vm_compute in Hs |- *; intuition auto|]. split; [vm_compute; reflexivity|]. split; [vm_compute; reflexivity|]. intros. split; qvm.
Qed.
Print Assumptions C67_cover_below_one_refuted.

(** ** C67: in steps.  As long as the bit operations have not been counted, calibration can be continued with further
    data (rst=False), with the same result as one calibration with all samples. *)
Theorem C67_in_steps : forall pw ln2 exact_bops m n1 d1 b1 n2 d2 b2 n d b rst no_bops st k r1 s1 bops r2 s2,
  Forall obj_ok st -> leaves hgq_layer m -> dataset n1 d1 -> dataset n2 d2 -> dataset n d -> 0 < b1 -> 0 < b2 -> 0 < b ->
  (forall s, In s (all_samples n d) <-> In s (all_samples n1 d1) \/ In s (all_samples n2 d2)) ->
  trace_minmax pw ln2 exact_bops m d1 b1 rst (qz 1) true st = Ok (k, r1, s1) ->
  trace_minmax pw ln2 exact_bops m d2 b2 false (qz 1) no_bops s1 = Ok (bops, r2, s2) ->
  exists r, trace_minmax pw ln2 exact_bops m d b rst (qz 1) no_bops st = Ok (bops, r, s2).
Proof. exact trace_steps. Qed.
Print Assumptions C67_in_steps.
Example C67_in_steps_ex : forall pw ln2, (forall s, In s (all_samples 4 cal_ab) <-> In s (all_samples 2 cal_a) \/ In s (all_samples 1 cal_b)) /\
  rbind (trace_minmax pw ln2 ex_eb cal_net cal_a 1 true (qz 1) true cal_store) (fun x =>
  rbind (trace_minmax pw ln2 ex_eb cal_net cal_b 1 false (qz 1) false (snd x)) (fun r => Ok (fst (fst r) :: regs (snd r)))) =
  Ok [qz 3; Q2Qc (-3 # 2); qz 0; qz 1; qz 9; Q2Qc (-1 # 4); Q2Qc (-1 # 2); Q2Qc (21 # 2); Q2Qc (35 # 4)] /\
  rbind (trace_minmax pw ln2 ex_eb cal_net cal_ab 3 true (qz 1) false cal_store) (fun r => Ok (fst (fst r) :: regs (snd r))) =
  Ok [qz 3; Q2Qc (-3 # 2); qz 0; qz 1; qz 9; Q2Qc (-1 # 4); Q2Qc (-1 # 2); Q2Qc (21 # 2); Q2Qc (35 # 4)].
Proof. intros. split; [intros s; vm_compute; intuition auto|]. split; qvm. Qed.

(** With cover_factor 2 in both calls the range of the first call is stretched twice. *)
Theorem C67_cover_in_steps_refuted : exists m n1 d1 n2 d2 n d st c, Forall obj_ok st /\ leaves hgq_layer m /\ dataset n1 d1 /\ dataset n2 d2 /\ dataset n d /\
  (forall s, In s (all_samples n d) <-> In s (all_samples n1 d1) \/ In s (all_samples n2 d2)) /\ (qz 1 <= c)%Qc /\ forall pw ln2 eb,
  rbind (trace_minmax pw ln2 eb m d1 1 true c true st) (fun x => rbind (trace_minmax pw ln2 eb m d2 1 false c true (snd x)) (fun r => Ok (regs (firstn 1 (snd r))))) = Ok [qz (-6); qz 0; qz 10; qz 0] /\
  rbind (trace_minmax pw ln2 eb m d 1 true c true st) (fun r => Ok (regs (firstn 1 (snd r)))) = Ok [qz (-2); qz 0; qz 6; qz 0].
Proof.
  exists (Sub 1 [(Leaf (10, KQuant 0), [(0, 0)])] [(1, 0)]), 2, [[[qz 0; qz 0]; [qz 4; qz 0]]], 1, [[[qz 1; qz 0]]], 3, [[[qz 0; qz 0]; [qz 4; qz 0]; [qz 1; qz 0]]],
    [ex_obj (Fn ex_id) [qz 2; qz 1] ALinear], (qz 2).
  split; [repeat (apply Forall_cons; [apply ex_obj_ok; [reflexivity|repeat constructor; vm_compute; discriminate|reflexivity]|]); apply Forall_nil|].
  split; [constructor; intros k ins [H|[]]; injection H as <- <-; constructor; exact I|].
  split; [split; [repeat constructor|discriminate]|]. split; [split; [repeat constructor|discriminate]|]. split; [split; [repeat constructor|discriminate]|].
  split; [intros s; vm_compute; intuition auto|]. split; [vm_compute; discriminate|]. intros. split; qvm.
Qed.
Print Assumptions C67_cover_in_steps_refuted.

(** ** C67: CalibratedBOPs *)
(** At the end of an epoch the callback reports what a calibration of the model on all its data gives, whatever batch
    size it was given, and leaves the model so calibrated. *)
Theorem C67_callback : forall pw ln2 exact_bops m n ds as_list bsz b st bops rs st',
  Forall obj_ok st -> leaves hgq_layer m -> dataset n ds -> 0 < n -> 0 < b ->
  trace_minmax pw ln2 exact_bops m ds b true (qz 1) false st = Ok (bops, rs, st') ->
  calibrated_bops pw ln2 exact_bops m as_list ds bsz st = Ok (bops, st').
Proof.
  intros pw ln2 eb m n ds al bsz b st bops rs st' HO HL HD Hn Hb E. unfold calibrated_bops.
  assert (HB : 0 < callback_bsz al ds bsz).
  { destruct HD as [HF HN]. destruct ds as [|d0 ds]; [congruence|]. inversion HF as [|x y H1 _]; subst.
    destruct bsz as [[|k]|]; cbn [callback_bsz hd length]; destruct al; lia. }
  destruct (trace_bsz pw ln2 eb m n ds b _ true (qz 1) false st bops rs st' HO HL HD Hb HB E) as [rs' [-> _]]. reflexivity.
Qed.
Print Assumptions C67_callback.
Example C67_callback_ex : forall pw ln2 as_list,
  rbind (calibrated_bops pw ln2 ex_eb cal_net as_list cal_ab None cal_store) (fun r => Ok (fst r :: regs (snd r))) =
  Ok [qz 3; Q2Qc (-3 # 2); qz 0; qz 1; qz 9; Q2Qc (-1 # 4); Q2Qc (-1 # 2); Q2Qc (21 # 2); Q2Qc (35 # 4)] /\
  callback_bsz false cal_ab None = 4 /\ callback_bsz true cal_ab None = 1 /\ callback_bsz true cal_ab (Some 7) = 7.
Proof. intros pw ln2 [|]; (split; [qvm|]; repeat split). Qed.

(** With an empty array and no batch size the callback fails. *)
Theorem C67_callback_empty : forall pw ln2 exact_bops m ds bsz st, dataset 0 ds -> (bsz = None \/ bsz = Some 0) ->
  calibrated_bops pw ln2 exact_bops m false ds bsz st = Raise.
Proof.
  intros pw ln2 eb m ds bsz st [HF HN] Hb. unfold calibrated_bops, trace_minmax.
  assert (Z : callback_bsz false ds bsz = 0). { destruct ds as [|d ds]; [congruence|]. inversion HF; subst. destruct Hb as [-> | ->]; assumption. }
  rewrite Z. destruct (each start_obj (top_layers m) st); reflexivity.
Qed.
Print Assumptions C67_callback_empty.
Example C67_callback_empty_ex : dataset 0 [[]].
Proof. split; [repeat constructor|discriminate]. Qed.

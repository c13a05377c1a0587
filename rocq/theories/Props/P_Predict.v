(** Theorems about the predictions returned by trace_minmax (src/HGQ/bops/bops.py): C83. *)
From Coq Require Import ZArith QArith Qcanon List Bool Lia.
From Verif Require Import Base.Num Base.NumFacts Base.Tensor Base.Compute Model.FixedPoint Model.Quantizer Model.Layers Model.Graph Model.Trace Model.Predict
  Spec.Fixed Spec.Quant Spec.History Spec.Layer Spec.Graph Spec.Trace Spec.Predict Proofs.FeedP Proofs.PredictP Props.P_Trace.
Import ListNotations.
Local Open Scope nat_scope.

(** One output: row j of the returned predictions is what the model gives for
    row j of the dataset, in any batch, before and after the calibration,
    whatever the batch size of the calibration was. *)
Theorem C83_predictions : forall pw ln2 exact_bops m n ds bsz rst c no_bops st bops rs st' shape,
  Forall obj_ok st -> leaves hgq_layer m -> dataset n ds -> 0 < n -> 0 < bsz -> n_outputs m = 1 ->
  trace_minmax pw ln2 exact_bops m ds bsz rst c no_bops st = Ok (bops, rs, st') ->
  exists y, predictions [shape] rs = Ok (Rows y) /\ length y = n /\
  forall js s, js <> [] -> Forall (fun j => j < n) js -> s = st \/ s = st' ->
    exists s', call_model pw ln2 m (rows js ds) s = Ok ([map (fun j => nth j y []) js], s').
Proof. exact predictions_one. Qed.
Print Assumptions C83_predictions.

(** A model with one output: HQuantize, dense, sigmoid-like activation and the same dense layer again. *)
Definition pr_m : klayer layer :=
  Sub 1 [(Leaf (10, KQuant 0), [(0, 0)]); (Leaf (11, KH 1), [(1, 0)]); (Leaf (13, KH 3), [(2, 0)]); (Leaf (11, KH 1), [(3, 0)])] [(4, 0)].
Lemma pr_leaves : leaves hgq_layer pr_m.
Proof. unfold pr_m. constructor. intros k ins H. cbn in H. repeat (destruct H as [H|H]; [injection H as <- <-; constructor; exact I|]). contradiction. Qed.
Definition pr_rows (r : result ndarray) : list (list Q) := match r with Ok (Rows l) => map (map this) l | _ => [] end.
Definition pr_stack (r : result ndarray) : list (list (list Q)) := match r with Ok (Stack l) => map (map (map this)) l | _ => [] end.
Definition pr_raises (r : result ndarray) : bool := match r with Raise => true | _ => false end.
Definition pr_out (r : result (list (list (list Qc)) * store)) : list (list (list Q)) := match r with Ok (l, _) => map (map (map this)) l | _ => [] end.
Definition pr_trace (m : klayer layer) (shapes : list (list nat)) (bsz : nat) : result ndarray :=
  rbind (trace_minmax (fun _ => qz 1) (qz 0) ex_eb m ex_ds bsz true (qz 2) false ex_store) (fun r => predictions shapes (snd (fst r))).
Definition pr_after (m : klayer layer) (bsz : nat) (js : list nat) : result (list (list (list Qc)) * store) :=
  rbind (trace_minmax (fun _ => qz 1) (qz 0) ex_eb m ex_ds bsz true (qz 2) false ex_store) (fun r => call_model (fun _ => qz 1) (qz 0) m (rows js ex_ds) (snd r)).
Example C83_predictions_ex : Forall obj_ok ex_store /\ leaves hgq_layer pr_m /\ dataset 3 ex_ds /\ n_outputs pr_m = 1 /\
  pr_rows (pr_trace pr_m [[2]] 2) = [[1%Q; (-3 # 4)%Q]; [(3 # 2)%Q; (1 # 2)%Q]; [(7 # 4)%Q; 0%Q]] /\
  pr_rows (pr_trace pr_m [[2]] 1) = pr_rows (pr_trace pr_m [[2]] 2) /\
  pr_out (pr_after pr_m 2 [2; 1]) = [[[(7 # 4)%Q; 0%Q]; [(3 # 2)%Q; (1 # 2)%Q]]].
Proof.
  split; [exact ex_store_ok|]. split; [exact pr_leaves|]. split; [exact ex_dataset|]. split; [reflexivity|].
  split; [vm_compute; reflexivity|]. split; vm_compute; reflexivity.
Qed.

(** Several outputs: with outputs of one shape and batches of one size entry
    k*j+o is output o on batch j; otherwise nothing is returned. *)
Theorem C83_several_outputs : forall pw ln2 exact_bops m n ds bsz rst c no_bops st bops rs st' shapes,
  Forall obj_ok st -> leaves hgq_layer m -> dataset n ds -> 0 < n -> 0 < bsz ->
  2 <= n_outputs m -> length shapes = n_outputs m ->
  trace_minmax pw ln2 exact_bops m ds bsz rst c no_bops st = Ok (bops, rs, st') ->
  ((forall s s', In s shapes -> In s' shapes -> s = s') /\ (n <= bsz \/ Nat.divide bsz n) ->
    exists ys s' p, call_model pw ln2 m ds st' = Ok (ys, s') /\ predictions shapes rs = Ok (Stack p) /\
      length p = n_outputs m * ((n + bsz - 1) / bsz) /\
      forall j o, j < (n + bsz - 1) / bsz -> o < n_outputs m -> nth (n_outputs m * j + o) p [] = firstn bsz (skipn (j * bsz) (nth o ys []))) /\
  (bsz < n -> ~ Nat.divide bsz n -> predictions shapes rs = Raise) /\
  ((exists s s', In s shapes /\ In s' shapes /\ s <> s') -> predictions shapes rs = Raise).
Proof. exact predictions_many. Qed.
Print Assumptions C83_several_outputs.

Example C83_several_outputs_ex : Forall obj_ok ex_store /\ leaves hgq_layer ex_m /\ dataset 3 ex_ds /\ n_outputs ex_m = 2 /\
  pr_stack (pr_trace ex_m [[2]; [2]] 3) = pr_out (pr_after ex_m 3 [0; 1; 2]) /\
  pr_stack (pr_trace ex_m [[2]; [2]] 1) = [[[(1 # 2)%Q; (-1)%Q]]; [[1%Q; (-3 # 4)%Q]]; [[(3 # 2)%Q; 1%Q]]; [[(3 # 2)%Q; (1 # 2)%Q]]; [[(7 # 2)%Q; 0%Q]]; [[(7 # 4)%Q; 0%Q]]].
Proof.
  split; [exact ex_store_ok|]. split; [exact ex_leaves|]. split; [exact ex_dataset|]. split; [reflexivity|]. split; vm_compute; reflexivity.
Qed.

(** With several outputs the predictions are not the outputs of the model on
    the dataset: they depend on the batch size, and a last batch that is not
    full, or outputs of different shapes, leave none, although the BOPs were computed. *)
Theorem C83_several_outputs_refuted : exists m n ds st, Forall obj_ok st /\ leaves hgq_layer m /\ dataset n ds /\ n_outputs m = 2 /\
  forall pw ln2 eb, (forall s i, exists d, eb s i = Ok d) ->
  exists bops st' r1 r2 r3 ys,
    trace_minmax pw ln2 eb m ds 1 true (qz 1) false st = Ok (bops, r1, st') /\
    trace_minmax pw ln2 eb m ds 2 true (qz 1) false st = Ok (bops, r2, st') /\
    trace_minmax pw ln2 eb m ds 3 true (qz 1) false st = Ok (bops, r3, st') /\
    predictions [[2]; [2]] r3 = Ok (Stack ys) /\ length ys = 2 /\
    (exists zs, predictions [[2]; [2]] r1 = Ok (Stack zs) /\ length zs = 6) /\
    predictions [[2]; [2]] r2 = Raise /\
    predictions [[2]; [1; 2]] r3 = Raise.
Proof.
  exists ex_m, 3, ex_ds, ex_store. split; [exact ex_store_ok|]. split; [exact ex_leaves|]. split; [exact ex_dataset|]. split; [reflexivity|].
  intros pw ln2 eb Heb.
  assert (T : exists bops r1 st', trace_minmax pw ln2 eb ex_m ex_ds 1 true (qz 1) false ex_store = Ok (bops, r1, st')).
  { assert (C : forall ids s, (forall i, In i ids -> i < length s) -> exists b s', count_bops eb ids s = Ok (b, s')).
    { induction ids as [|i ids IH]; intros s H; cbn [count_bops]; [eauto|]. unfold get. destruct (nth_error s i) as [o|] eqn:Eo.
      2: { apply nth_error_None in Eo. specialize (H i (or_introl eq_refl)). lia. }
      cbn [rbind]. cbv zeta. destruct (Heb (set_nth s i (with_record o false)) i) as [d Ed]. rewrite Ed. cbn [rbind].
      match goal with |- context [count_bops eb ids ?s1] => destruct (IH s1) as [b [s' E]] end.
      { intros j Hj. rewrite !Proofs.TraceP.set_nth_length. apply H. right. assumption. }
      rewrite E. cbn [rbind fst snd]. eauto. }
    unfold trace_minmax.
    assert (N : (if trace_minmax pw ln2 ex_eb ex_m ex_ds 1 true (qz 1) true ex_store then true else false) = true) by (vm_compute; reflexivity).
    unfold trace_minmax in N. destruct (each start_obj (top_layers ex_m) ex_store) as [s1|] eqn:E1; [|discriminate N]. cbn [rbind Nat.eqb] in N |- *.
    destruct (feed pw ln2 ex_m (batches ex_ds 1) s1) as [[r s2]|] eqn:E2; [|discriminate N]. cbn [rbind fst snd] in N |- *.
    destruct (cover_step pw ln2 ex_m (qz 1) s2) as [s3|] eqn:E3; [|discriminate N]. cbn [rbind] in N |- *.
    destruct (each fix_obj (top_layers ex_m) s3) as [s4|] eqn:E4; [|discriminate N]. cbn [rbind] in N |- *.
    destruct (C (top_layers ex_m) s4) as [b [s5 E5]].
    { intros i Hi. destruct (Proofs.TraceMinmaxP.each_spec _ _ (Proofs.TraceMinmaxP.top_NoDup ex_m) _ _ E4) as [L [A _]]. destruct (A i Hi) as [o [o' [_ [_ Eo]]]].
      apply nth_error_Some. congruence. }
    rewrite E5. cbn [rbind fst snd]. eauto. }
  destruct T as [bops [r1 [st' T1]]].
  destruct (C18_batch_size_irrelevant pw ln2 eb ex_m 3 ex_ds 1 2 true (qz 1) false ex_store bops r1 st' ex_store_ok ex_leaves ex_dataset ltac:(lia) ltac:(lia) T1) as [r2 [T2 _]].
  destruct (C18_batch_size_irrelevant pw ln2 eb ex_m 3 ex_ds 1 3 true (qz 1) false ex_store bops r1 st' ex_store_ok ex_leaves ex_dataset ltac:(lia) ltac:(lia) T1) as [r3 [T3 _]].
  assert (S : forall s s', In s [[2]; [2]] -> In s' [[2]; [2]] -> s = s').
  { intros s s' Hs Hs'. cbn in Hs, Hs'. intuition congruence. }
  destruct (C83_several_outputs pw ln2 eb ex_m 3 ex_ds 1 true (qz 1) false ex_store bops r1 st' [[2]; [2]] ex_store_ok ex_leaves ex_dataset ltac:(lia) ltac:(lia) ltac:(cbn; lia) eq_refl T1) as [A1 _].
  destruct (C83_several_outputs pw ln2 eb ex_m 3 ex_ds 2 true (qz 1) false ex_store bops r2 st' [[2]; [2]] ex_store_ok ex_leaves ex_dataset ltac:(lia) ltac:(lia) ltac:(cbn; lia) eq_refl T2) as [_ [A2 _]].
  destruct (C83_several_outputs pw ln2 eb ex_m 3 ex_ds 3 true (qz 1) false ex_store bops r3 st' [[2]; [2]] ex_store_ok ex_leaves ex_dataset ltac:(lia) ltac:(lia) ltac:(cbn; lia) eq_refl T3) as [A3 _].
  destruct (C83_several_outputs pw ln2 eb ex_m 3 ex_ds 3 true (qz 1) false ex_store bops r3 st' [[2]; [1; 2]] ex_store_ok ex_leaves ex_dataset ltac:(lia) ltac:(lia) ltac:(cbn; lia) eq_refl T3) as [_ [_ A4]].
  destruct A1 as [y1 [s1 [p1 [_ [P1 [L1 _]]]]]]. { split; [exact S|]. right. exists 3. reflexivity. }
  destruct A3 as [y3 [s3 [p3 [_ [P3 [L3 _]]]]]]. { split; [exact S|]. left. lia. }
  exists bops, st', r1, r2, r3, p3. repeat (split; [assumption|]).
  split; [exists p1; split; [assumption|exact L1]|]. split.
  - apply A2; [lia|]. intros [q Hq]. lia.
  - apply A4. exists [2], [1; 2]. cbn. split; [auto|]. split; [auto|]. discriminate.
Qed.
Print Assumptions C83_several_outputs_refuted.

(** Theorems about tracing a model over a dataset (src/HGQ/bops/bops.py):
    C18, C38, C39, C40, C41, C42. *)
From Coq Require Import ZArith QArith Qcanon List Bool Lia.
From Verif Require Import Base.Num Base.NumFacts Base.Tensor Base.Compute Model.FixedPoint Model.Quantizer Model.Layers Model.Graph Model.Trace
  Spec.Fixed Spec.Quant Spec.History Spec.Layer Spec.Graph Spec.Trace Proofs.CallP Proofs.LayersP Proofs.QuantizerP
  Proofs.TraceP Proofs.FeedP Proofs.TraceMinmaxP Proofs.CoverP Proofs.TraceMoreP.
Import ListNotations.
Local Open Scope nat_scope.

(** ** Example: HQuantize, a dense layer, a nested model with another dense layer, and a sigmoid-like HActivation. *)
Definition ex_q (f : list Qc) : hgq := hgq_build (mkT [1; 2] f) (Some [0%Z]) 0 true (Some (qz (-23), qz 23)).
Definition ex_dense : lop :=
  Linear [[(0, 0); (1, 2)]; [(0, 1); (1, 3)]] (mkT [2; 2] [Q2Qc (1 # 3); Q2Qc (-5 # 7); Q2Qc (9 # 8); qz 1])
    (hgq_build (mkT [1; 1] [qz 3]) None 0 true None) (Some (mkT [2] [Q2Qc (1 # 3); Q2Qc (-1 # 5)])) (-1).
Definition ex_pad (s : list Qc) : list Qc := [nth 0 s (qz 0); nth 1 s (qz 0)].
Definition ex_id (xs : list (list Qc)) : list Qc := ex_pad (hd [] xs).
Definition ex_sig (xs : list (list Qc)) : list Qc := map (fun x => clip_by_value ((x + qz 1) / qz 2) (qz 0) (qz 1)) (ex_pad (hd [] xs)).
Definition ex_obj (op : lop) (f : list Qc) (a : act) : hobj := mkO (mkL op (ex_q f) false (-1) [2]) false a [[2]] (qz 7).
Definition ex_store : store :=
  [ex_obj (Fn ex_id) [qz 2; qz 1] AOther; ex_obj ex_dense [qz 2; qz 3] AOther; ex_obj ex_dense [qz 1; qz 0] AOther; ex_obj (Fn ex_sig) [qz 3; qz 3] ASigmoid].
Definition ex_inner : klayer layer := Sub 1 [(Leaf (12, KH 2), [(0, 0)])] [(1, 0)].
Definition ex_m : klayer layer :=
  Sub 1 [(Leaf (10, KQuant 0), [(0, 0)]); (Leaf (11, KH 1), [(1, 0)]); (ex_inner, [(2, 0)]); (Leaf (13, KH 3), [(2, 0)]); (Leaf (11, KH 1), [(4, 0)])] [(3, 0); (5, 0)].
Definition ex_ds : list (list (list Qc)) := [[[qz 1; Q2Qc (1 # 2)]; [Q2Qc (-3 # 2); Q2Qc (1 # 8)]; [qz 0; qz 2]]].
Definition ex_eb (_ : store) (i : nat) : result Qc := Ok (qz (Z.of_nat i + 1)).
Definition regs (st : store) : list Qc :=
  concat (map (fun o => map (fin (qz 77)) (data (q_min (l_paq (o_layer o))) ++ data (q_max (l_paq (o_layer o))))) st).

Lemma ex_obj_ok op f a : length f = 2 -> Forall (fun v => (qz (-23) <= v)%Qc /\ (v <= qz 23)%Qc) f ->
  match op with Fn g => forall x, length (g x) = 2 | _ => op = ex_dense end -> obj_ok (ex_obj op f a).
Proof.
  intros Hf HF Ho. unfold obj_ok. cbv zeta. split; [|split; [|split]].
  - split; [exists [2]; cbn; rewrite ?map_length; auto 6|]. split; [cbn; lia|]. destruct op as [ts k kq b loc|g]; [|exact Ho].
    injection Ho as -> -> -> -> ->. split; [reflexivity|]. split; [eexists; reflexivity|]. split; [reflexivity|]. exists 2. split; [lia|]. split; [reflexivity|].
    left. split; [reflexivity|]. exists []. reflexivity.
  - exists [], [2]. cbn. split; [reflexivity|]. split; [left; reflexivity|]. repeat split; cbn; rewrite ?map_length; auto.
  - exact HF.
  - destruct op as [ts k kq b loc|g]; [|exact I]. injection Ho as -> -> -> -> ->. exact I.
Qed.
Lemma ex_store_ok : Forall obj_ok ex_store.
Proof. unfold ex_store. repeat (apply Forall_cons; [apply ex_obj_ok; [reflexivity|repeat constructor; vm_compute; discriminate|reflexivity]|]). apply Forall_nil. Qed.
Lemma ex_leaves : leaves hgq_layer ex_m.
Proof.
  unfold ex_m, ex_inner. constructor. intros k ins H. cbn in H.
  repeat (destruct H as [H|H]; [injection H as <- <-; try (constructor; exact I)|]); try contradiction.
  constructor. intros k ins H. cbn in H. destruct H as [H|[]]. injection H as <- <-. constructor. exact I.
Qed.
Lemma ex_dataset : dataset 3 ex_ds.
Proof. split; [repeat constructor|discriminate]. Qed.

Lemma ne_qz z : nearest_even (qz z) z.
Proof. rewrite <- (qround_even_qz z) at 2. apply nearest_even_ex. Qed.

(** ** C18 *)
Theorem C18_batch_size_irrelevant : forall pw ln2 exact_bops m n ds b1 b2 rst c no_bops st bops rs st',
  Forall obj_ok st -> leaves hgq_layer m -> dataset n ds -> 0 < b1 -> 0 < b2 ->
  trace_minmax pw ln2 exact_bops m ds b1 rst c no_bops st = Ok (bops, rs, st') ->
  exists rs', trace_minmax pw ln2 exact_bops m ds b2 rst c no_bops st = Ok (bops, rs', st') /\
    forall k, concat (map (fun r => nth k r []) rs') = concat (map (fun r => nth k r []) rs).
Proof. exact trace_bsz. Qed.
Print Assumptions C18_batch_size_irrelevant.

Theorem C18_every_sample_once_in_order : forall n ds bsz k, dataset n ds -> 0 < bsz ->
  concat (map (fun b => nth k b []) (batches ds bsz)) = nth k ds [].
Proof. exact batches_data. Qed.
Print Assumptions C18_every_sample_once_in_order.

Example C18_ex : forall pw ln2, Forall obj_ok ex_store /\ leaves hgq_layer ex_m /\ dataset 3 ex_ds /\
  rbind (trace_minmax pw ln2 ex_eb ex_m ex_ds 2 true (qz 2) false ex_store) (fun r => Ok (fst (fst r) :: regs (snd r))) =
  rbind (trace_minmax pw ln2 ex_eb ex_m ex_ds 1 true (qz 2) false ex_store) (fun r => Ok (fst (fst r) :: regs (snd r))) /\
  rbind (trace_minmax pw ln2 ex_eb ex_m ex_ds 2 true (qz 2) false ex_store) (fun r => Ok (fst (fst r) :: regs (snd r))) =
  Ok [qz 7; Q2Qc (-11 # 4); qz (-1); Q2Qc (9 # 4); qz 3; Q2Qc (-3 # 2); qz (-2); qz 4; qz 3; qz 77; qz 77; qz 77; qz 77;
      Q2Qc (1 # 8); qz 0; qz 1; qz 1].
Proof. intros. split; [exact ex_store_ok|]. split; [exact ex_leaves|]. split; [exact ex_dataset|]. split; qvm. Qed.

(** Without the hypothesis that the bitwidths are inside their clip range the
    batch size matters: bias_forward (quantizer.py:190) reads the unclipped
    bitwidth in the first batch, the call behind it clips the variable
    (quantizer.py:141-142), and later batches use the clipped one. *)
Definition un_obj : hobj :=
  mkO (mkL (Linear [[(0, 0)]] (mkT [1; 1] [qz 1]) (hgq_build (mkT [1; 1] [qz 3]) None 0 true None) (Some (mkT [1] [qz 3])) (-1))
         (hgq_build (mkT [1; 1] [qz (-2)]) (Some [0%Z]) 3 true (Some (qz 0, qz 8))) false (-1) [1]) false AOther [[1]] (qz 0).
Definition un_m : klayer layer := Sub 1 [(Leaf (1, KH 0), [(0, 0)])] [(1, 0)].
Theorem C18_unclipped_bits_refuted : exists m n ds st, leaves hgq_layer m /\ dataset n ds /\ Forall (fun o => layer_ok (o_layer o)) st /\
  forall pw ln2 eb, let tr b := rbind (trace_minmax pw ln2 eb m ds b true (qz 1) true st) (fun r => Ok (regs (snd r))) in
  tr 1 = Ok [qz 0; qz 3] /\ tr 2 = Ok [qz 0; qz 0].
Proof.
  exists un_m, 2, [[[qz 0]; [qz 0]]], [un_obj]. split.
  { constructor. intros k ins [H|[]]. injection H as <- <-. constructor. exact I. }
  split; [split; [repeat constructor|discriminate]|]. split.
  { constructor; [|constructor]. split; [exists [1]; repeat split|]. split; [cbn; lia|]. split; [reflexivity|]. split; [eexists; reflexivity|].
    split; [reflexivity|]. exists 1. split; [lia|]. split; [reflexivity|]. left. split; [reflexivity|]. exists []. reflexivity. }
  intros. split; qvm.
Qed.
Print Assumptions C18_unclipped_bits_refuted.

(** ** C38 *)
Theorem C38_cover_never_shrinks : forall pw ln2 c o o', obj_ok o -> (qz 1 <= c)%Qc -> cover_obj pw ln2 c o = Ok o' ->
  same_but_registers o o' /\ obj_ok o' /\
  forall g r mn mx, g < length (data (q_fbw (l_paq (o_layer o)))) -> frac_bits (l_paq (o_layer o)) g r ->
    holds_range (l_paq (o_layer o)) g mn mx -> on_grid r mn -> on_grid r mx -> (mn <= mx)%Qc ->
    exists mn' mx', holds_range (l_paq (o_layer o')) g mn' mx' /\ on_grid r mn' /\ on_grid r mx' /\ (mn' <= mn)%Qc /\ (mx <= mx')%Qc.
Proof. exact cover_spec. Qed.
Print Assumptions C38_cover_never_shrinks.

Theorem C38_cover_total : forall pw ln2 c o, obj_ok o ->
  (forall g, g < length (data (q_fbw (l_paq (o_layer o)))) -> exists mn mx, holds_range (l_paq (o_layer o)) g mn mx) ->
  exists o', cover_obj pw ln2 c o = Ok o'.
Proof. exact cover_total. Qed.
Print Assumptions C38_cover_total.

(** cover_factor = 1 skips the step; doing it would change nothing either. *)
Theorem C38_cover_one : forall pw ln2 m st, cover_step pw ln2 m (qz 1) st = Ok st /\
  forall o, obj_ok o ->
    (forall g, g < length (data (q_fbw (l_paq (o_layer o)))) -> exists r mn mx, frac_bits (l_paq (o_layer o)) g r /\
       holds_range (l_paq (o_layer o)) g mn mx /\ on_grid r mn /\ on_grid r mx) ->
    cover_obj pw ln2 (qz 1) o = Ok o.
Proof. intros pw ln2 m st. split; [reflexivity|]. apply cover_one. Qed.
Print Assumptions C38_cover_one.

(** A range [-5/4, 3/2] with two fractional bits, factor 3/2: mean 1/8, half width 11/8, new range rounded to the grid. *)
Definition cov_obj : hobj :=
  mkO (mkL (Fn ex_id) (with_minmax (ex_q [qz 2; qz 1]) (mkT [1; 2] [Fin (Q2Qc (-5 # 4)); Fin (qz 0)]) (mkT [1; 2] [Fin (Q2Qc (3 # 2)); Fin (qz 2)])) false (-1) [2])
    true AOther [[2]] (qz 0).
Example C38_ex : forall pw ln2, obj_ok cov_obj /\ frac_bits (l_paq (o_layer cov_obj)) 0 2 /\
  holds_range (l_paq (o_layer cov_obj)) 0 (Q2Qc (-5 # 4)) (Q2Qc (3 # 2)) /\ on_grid 2 (Q2Qc (-5 # 4)) /\ on_grid 2 (Q2Qc (3 # 2)) /\
  rbind (cover_obj pw ln2 (Q2Qc (3 # 2)) cov_obj) (fun o => Ok (regs [o])) = Ok [qz (-2); Q2Qc (-1 # 2); Q2Qc (9 # 4); Q2Qc (5 # 2)].
Proof.
  intros. split.
  { unfold obj_ok. cbv zeta. split; [|split; [|split]]; [|exists [], [2]; cbn; repeat split; left; reflexivity|cbn; repeat constructor; vm_compute; discriminate|exact I].
    split; [exists [2]; repeat split|]. split; [cbn; lia|]. intros x; reflexivity. }
  split; [apply ne_qz|]. split; [split; reflexivity|]. split; [exists (-5)%Z; qvm|]. split; [exists 6%Z; qvm|]. qvm.
Qed.

(** A factor below one can drop recorded values: [0, 3] with no fractional bits becomes [1, 2]. *)
Theorem C38_below_one_refuted : exists o c, obj_ok o /\ (qz 0 < c)%Qc /\ (c < qz 1)%Qc /\ holds_range (l_paq (o_layer o)) 0 (qz 0) (qz 3) /\
  forall pw ln2, exists o', cover_obj pw ln2 c o = Ok o' /\ holds_range (l_paq (o_layer o')) 0 (qz 1) (qz 2).
Proof.
  set (o := mkO (mkL (Fn ex_id) (with_minmax (ex_q [qz 0; qz 0]) (mkT [1; 2] [Fin (qz 0); Fin (qz 0)]) (mkT [1; 2] [Fin (qz 3); Fin (qz 0)])) false (-1) [2])
    true AOther [[2]] (qz 0)).
  exists o, (Q2Qc (1 # 2)). split.
  { unfold obj_ok. cbv zeta. split; [|split; [|split]]; [|exists [], [2]; cbn; repeat split; left; reflexivity|cbn; repeat constructor; vm_compute; discriminate|exact I].
    split; [exists [2]; repeat split|]. split; [cbn; lia|]. intros x; reflexivity. }
  split; [reflexivity|]. split; [reflexivity|]. split; [split; reflexivity|]. intros.
  eexists. split; [vm_compute; reflexivity|]. split; cbn; f_equal; apply this_inj; reflexivity.
Qed.
Print Assumptions C38_below_one_refuted.

(** ** C39 *)
Theorem C39_corrected_ranges : forall o o', obj_ok o -> fix_obj o = Ok o' -> same_but_registers o o' /\ obj_ok o' /\
  forall g mn mx, g < length (data (q_fbw (l_paq (o_layer o)))) -> holds_range (l_paq (o_layer o)) g mn mx ->
    match o_act o with
    | ASoftmax => holds_range (l_paq (o_layer o')) g (qz 0) (qz 1)
    | ASigmoid => holds_range (l_paq (o_layer o')) g (qmax mn (qz 0)) (qmin mx (qz 1))
    | ATanh => holds_range (l_paq (o_layer o')) g (qmax mn (- qz 1)%Qc) (qmin mx (qz 1))
    | ALinear | AOther => holds_range (l_paq (o_layer o')) g mn mx
    end.
Proof. exact fix_spec. Qed.
Print Assumptions C39_corrected_ranges.

(** A quantized value y of a bounded activation that was in the traced range is in the corrected one. *)
Theorem C39_attainable_values_kept : forall o o' g mn mx r x y, obj_ok o -> fix_obj o = Ok o' ->
  g < length (data (q_fbw (l_paq (o_layer o)))) -> frac_bits (l_paq (o_layer o)) g r -> (0 <= r)%Z -> holds_range (l_paq (o_layer o)) g mn mx ->
  match o_act o with
  | ASoftmax | ASigmoid => (qz 0 <= x)%Qc /\ (x <= qz 1)%Qc
  | ATanh => (- qz 1 <= x)%Qc /\ (x <= qz 1)%Qc
  | _ => True
  end -> quantized (l_paq (o_layer o)) r x y -> (mn <= y)%Qc -> (y <= mx)%Qc ->
  exists mn' mx', holds_range (l_paq (o_layer o')) g mn' mx' /\ (mn' <= y)%Qc /\ (y <= mx')%Qc.
Proof.
  intros o o' g mn mx r x y HO E Hg Hr R0 HR Hx HQ H1 H2. destruct (fix_spec o o' HO E) as [_ [_ H]]. specialize (H g mn mx Hg HR).
  assert (N : (- qz 1 = qz (-1))%Qc) by qvm.
  destruct (o_act o).
  - destruct Hx as [X1 X2]. destruct (attain _ r x y 0 1 R0 HQ X1 X2). eauto.
  - destruct Hx as [X1 X2]. destruct (attain _ r x y 0 1 R0 HQ X1 X2). exists (qmax mn (qz 0)), (qmin mx (qz 1)). split; [assumption|].
    unfold qmax, qmin. split; [destruct (qleb mn (qz 0))|destruct (qleb mx (qz 1))]; assumption.
  - rewrite N in *. destruct Hx as [X1 X2]. destruct (attain _ r x y (-1) 1 R0 HQ X1 X2). exists (qmax mn (qz (-1))), (qmin mx (qz 1)). split; [assumption|].
    unfold qmax, qmin. split; [destruct (qleb mn (qz (-1)))|destruct (qleb mx (qz 1))]; assumption.
  - eauto.
  - eauto.
Qed.
Print Assumptions C39_attainable_values_kept.

Definition sig_obj (f mn mx : Qc) : hobj :=
  mkO (mkL (Fn ex_sig) (with_minmax (ex_q [f; f]) (mkT [1; 2] [Fin mn; Fin mn]) (mkT [1; 2] [Fin mx; Fin mx])) false (-1) [2]) true ASigmoid [[2]] (qz 0).
Lemma sig_obj_ok f mn mx : (qz (-23) <= f)%Qc /\ (f <= qz 23)%Qc -> obj_ok (sig_obj f mn mx).
Proof.
  intros Hf. unfold obj_ok. cbv zeta. split; [|split; [|split]]; [|exists [], [2]; cbn; repeat split; left; reflexivity|cbn; repeat constructor; apply Hf|exact I].
  split; [exists [2]; repeat split|]. split; [cbn; lia|]. intros x; reflexivity.
Qed.
(** Cover factor widened the range to [-1/4, 5/4]; the value 3/4 survives the correction to [0, 1]. *)
Example C39_ex : let o := sig_obj (qz 2) (Q2Qc (-1 # 4)) (Q2Qc (5 # 4)) in obj_ok o /\ frac_bits (l_paq (o_layer o)) 1 2 /\
  holds_range (l_paq (o_layer o)) 1 (Q2Qc (-1 # 4)) (Q2Qc (5 # 4)) /\ quantized (l_paq (o_layer o)) 2 (Q2Qc (7 # 10)) (Q2Qc (3 # 4)) /\
  rbind (fix_obj o) (fun o => Ok (regs [o])) = Ok [qz 0; qz 0; qz 1; qz 1].
Proof.
  split; [apply sig_obj_ok; split; vm_compute; discriminate|]. split; [apply ne_qz|]. split; [split; reflexivity|]. split; [|qvm].
  split; [exists 3%Z; qvm|]. split; vm_compute; congruence.
Qed.

(** With a negative number of fractional bits the corrected range loses attainable values: sigmoid output 1 rounds to 2. *)
Theorem C39_negative_fraction_refuted : exists o, obj_ok o /\ o_act o = ASigmoid /\ frac_bits (l_paq (o_layer o)) 0 (-1) /\
  holds_range (l_paq (o_layer o)) 0 (qz 0) (qz 2) /\ quantized (l_paq (o_layer o)) (-1) (qz 1) (qz 2) /\
  exists o', fix_obj o = Ok o' /\ holds_range (l_paq (o_layer o')) 0 (qz 0) (qz 1).
Proof.
  exists (sig_obj (qz (-1)) (qz 0) (qz 2)). split; [apply sig_obj_ok; split; vm_compute; discriminate|]. split; [reflexivity|].
  split; [apply ne_qz|]. split; [split; reflexivity|]. split.
  { split; [exists 1%Z; qvm|]. split; vm_compute; congruence. }
  eexists. split; [reflexivity|]. split; reflexivity.
Qed.
Print Assumptions C39_negative_fraction_refuted.

(** ** C40 *)
Theorem C40_inference_changes_nothing : forall pw ln2 eb m n ds bsz rst c st bops rs st', Forall obj_ok st -> leaves hgq_layer m ->
  dataset n ds -> 0 < bsz -> trace_minmax pw ln2 eb m ds bsz rst c false st = Ok (bops, rs, st') ->
  forall k, leaves (on_object (fun i => In i (top_layers m))) k -> forall calls ys st'', feed pw ln2 k calls st' = Ok (ys, st'') -> st'' = st'.
Proof.
  intros pw ln2 eb m n ds bsz rst c st bops rs st' HO HL HD HB E k Hk calls ys st'' F.
  eapply quiet_feed; [eapply trace_ok; eassumption| |exact F].
  pose proof (trace_quiet pw ln2 eb m ds bsz rst c st bops rs st' E) as Q.
  clear -Hk Q. induction Hk as [x H|nin nodes outs _ IH]; constructor; [|assumption].
  unfold on_object in *. destruct (snd x); auto.
Qed.
Print Assumptions C40_inference_changes_nothing.

Definition ex_flat : klayer layer := Sub 1 [(Leaf (10, KQuant 0), [(0, 0)]); (Leaf (11, KH 1), [(1, 0)]); (Leaf (13, KH 3), [(2, 0)])] [(2, 0); (3, 0)].
Example C40_ex : forall pw ln2, leaves (on_object (fun i => In i (top_layers ex_flat))) ex_flat /\ leaves hgq_layer ex_flat /\
  rbind (trace_minmax pw ln2 ex_eb ex_flat ex_ds 2 true (qz 1) false ex_store) (fun r =>
    rbind (feed pw ln2 ex_flat [[[[qz 100; qz 100]]]] (snd r)) (fun s => Ok (regs (snd s) ++ concat (concat (concat (fst s)))))) =
  Ok [Q2Qc (-3 # 2); qz 0; qz 1; qz 2; Q2Qc (-1 # 4); Q2Qc (-1 # 2); Q2Qc (5 # 2); Q2Qc (7 # 4); qz 77; qz 77; qz 77; qz 77;
      Q2Qc (3 # 8); Q2Qc (1 # 4); qz 1; qz 1; Q2Qc (601 # 4); Q2Qc (99 # 4); qz 1; qz 1].
Proof.
  intros. split; [|split; [|qvm]].
  all: constructor; intros k ins H; cbn in H; repeat (destruct H as [H|H]; [injection H as <- <-; constructor; cbn; auto|]); contradiction.
Qed.

(** no_bops_computation returns before recording is switched off (bops.py:112-118): later inference widens the ranges. *)
Theorem C40_no_bops_refuted : exists m n ds st call, Forall obj_ok st /\ leaves hgq_layer m /\ dataset n ds /\
  leaves (on_object (fun i => In i (top_layers m))) m /\
  forall pw ln2 eb, exists bops rs st' ys st'', trace_minmax pw ln2 eb m ds 2 true (qz 1) true st = Ok (bops, rs, st') /\
    call_model pw ln2 m call st' = Ok (ys, st'') /\ st'' <> st'.
Proof.
  exists ex_flat, 3, ex_ds, ex_store, [[[qz 100; qz 100]]]. split; [exact ex_store_ok|].
  assert (HL : leaves hgq_layer ex_flat /\ leaves (on_object (fun i => In i (top_layers ex_flat))) ex_flat).
  { split; constructor; intros k ins H; cbn in H; repeat (destruct H as [H|H]; [injection H as <- <-; constructor; cbn; auto|]); contradiction. }
  split; [apply HL|]. split; [exact ex_dataset|]. split; [apply HL|]. intros.
  assert (H : rbind (trace_minmax pw ln2 eb ex_flat ex_ds 2 true (qz 1) true ex_store) (fun r =>
    rbind (call_model pw ln2 ex_flat [[[qz 100; qz 100]]] (snd r)) (fun s => Ok (nth 2 (map this (regs (snd r))) 0, nth 2 (map this (regs (snd s))) 0)%Q)) = Ok (1, 100)%Q)
    by (vm_compute; reflexivity).
  destruct (trace_minmax pw ln2 eb ex_flat ex_ds 2 true (qz 1) true ex_store) as [[[b r] st']|]; [|discriminate]. cbn [rbind snd] in H.
  destruct (call_model pw ln2 ex_flat [[[qz 100; qz 100]]] st') as [[ys st'']|] eqn:E; [|discriminate]. cbn [rbind snd] in H.
  exists b, r, st', ys, st''. split; [reflexivity|]. split; [exact E|]. intros ->. injection H as H1 H2. congruence.
Qed.
Print Assumptions C40_no_bops_refuted.

(** A second trace with rst=False records nothing: recording was switched off by the first (bops.py:58-62, 118). *)
Theorem C40_retrace_records_nothing : forall pw ln2 eb m n ds bsz rst c st bops rs st', Forall obj_ok st -> leaves hgq_layer m ->
  leaves (on_object (fun i => In i (top_layers m))) m ->
  dataset n ds -> 0 < bsz -> trace_minmax pw ln2 eb m ds bsz rst c false st = Ok (bops, rs, st') ->
  forall ds2 bsz2 bops2 rs2 st2, trace_minmax pw ln2 eb m ds2 bsz2 false (qz 1) true st' = Ok (bops2, rs2, st2) ->
  exists st3, each fix_obj (top_layers m) st' = Ok st3 /\ st2 = st3.
Proof.
  intros pw ln2 eb m n ds bsz rst c st bops rs st' HO HL HT HD HB E ds2 bsz2 bops2 rs2 st2 E2.
  unfold trace_minmax in E2. cbn [rbind] in E2. destruct (Nat.eqb bsz2 0); [discriminate|].
  destruct (feed pw ln2 m (batches ds2 bsz2) st') as [[r s]|] eqn:F; [|discriminate]. cbn [rbind fst snd] in E2.
  apply (C40_inference_changes_nothing pw ln2 eb m n ds bsz rst c st bops rs st' HO HL HD HB E m HT) in F. subst s.
  change (cover_step pw ln2 m (qz 1) st') with (Ok st') in E2. cbn [rbind] in E2. destruct (each fix_obj (top_layers m) st') as [s3|]; [|discriminate].
  cbn [rbind] in E2. injection E2 as _ _ <-. eauto.
Qed.
Print Assumptions C40_retrace_records_nothing.
(** The second dataset has the value 100, outside every traced range; the ranges stay as they are. *)
Example C40_retrace_ex : forall pw ln2,
  rbind (trace_minmax pw ln2 ex_eb ex_flat ex_ds 2 true (qz 1) false ex_store) (fun r =>
    rbind (trace_minmax pw ln2 ex_eb ex_flat [[[qz 100; qz 100]]] 2 false (qz 1) false (snd r)) (fun s => Ok (regs (snd s)))) =
  rbind (trace_minmax pw ln2 ex_eb ex_flat ex_ds 2 true (qz 1) false ex_store) (fun r => Ok (regs (snd r))).
Proof. qvm. Qed.

(** ** C41 *)
Theorem C41_free_bops_is_sum : forall m st,
  (forall b, free_bops m st = Ok b -> bops_sum st (all_layers m) b) /\
  ((forall i, In i (all_layers m) -> exists o, nth_error st i = Some o) -> exists b, free_bops m st = Ok b).
Proof.
  intros m st. pose proof (free_spec m st) as F. split.
  - intros b E. rewrite E in F. apply bops_sum_iff, F.
  - intros H. destruct (free_bops m st) as [b|]; [eauto|]. destruct F as [i [Hi Hn]]. destruct (H i Hi) as [o Ho]. congruence.
Qed.
Print Assumptions C41_free_bops_is_sum.

(** What trace_minmax returns is the sum of the values it stored in the layers, each computed by compute_exact_bops. *)
Theorem C41_trace_returns_sum : forall pw ln2 eb m ds bsz rst c st bops rs st',
  trace_minmax pw ln2 eb m ds bsz rst c false st = Ok (bops, rs, st') ->
  bops_sum st' (top_layers m) bops /\
  forall i, In i (top_layers m) -> exists o s, nth_error st' i = Some o /\ eb s i = Ok (o_bops o).
Proof.
  unfold trace_minmax. intros pw ln2 eb m ds bsz rst c st bops rs st' E. apply rbind_ok in E. destruct E as [s1 [_ E]]. destruct (Nat.eqb _ _); [discriminate|].
  apply rbind_ok in E. destruct E as [[r s2] [_ E]]. apply rbind_ok in E. destruct E as [s3 [_ E]].
  apply rbind_ok in E. destruct E as [s4 [_ E]]. apply rbind_ok in E. destruct E as [[b s5] [E5 E]]. cbn [fst snd] in E. injection E as <- _ <-.
  destruct (count_spec eb _ (top_NoDup m) _ _ _ E5) as [_ [_ [_ [l [H1 [H2 H3]]]]]]. split.
  - exists l. split; [exact H3|]. exact H2.
  - clear -H1 H3. revert l H1 H3. induction (top_layers m) as [|i ids IH]; intros l H1 H3 j Hj; [contradiction|].
    inversion H1 as [|? d ? l' [s Hs] H1']; subst. inversion H3 as [|? ? ? ? [o [Ho Hd]] H3']; subst. destruct Hj as [<-|Hj]; [|eauto].
    exists o, s. auto.
Qed.
Print Assumptions C41_trace_returns_sum.

(** For a model without nested quantized layers the FreeBOPs callback then reports what trace_minmax returned. *)
Theorem C41_callbacks_agree : forall pw ln2 eb m ds bsz rst c st bops rs st',
  all_layers m = top_layers m -> trace_minmax pw ln2 eb m ds bsz rst c false st = Ok (bops, rs, st') -> free_bops m st' = Ok bops.
Proof.
  intros pw ln2 eb m ds bsz rst c st bops rs st' HA E. apply C41_trace_returns_sum in E. destruct E as [E _].
  pose proof (free_spec m st') as F. apply bops_sum_iff in E. destruct E as [E1 ->]. rewrite HA in F. destruct (free_bops m st') as [b|].
  - destruct F as [_ ->]. reflexivity.
  - destruct F as [i [Hi Hn]]. exfalso. exact (E1 i Hi Hn).
Qed.
Print Assumptions C41_callbacks_agree.

Example C41_ex : forall pw ln2, all_layers ex_m = [0; 3; 1; 2] /\ all_layers ex_flat = top_layers ex_flat /\ free_bops ex_m ex_store = Ok (qz 28) /\
  rbind (trace_minmax pw ln2 ex_eb ex_flat ex_ds 2 true (qz 1) false ex_store) (fun r =>
    rbind (free_bops ex_flat (snd r)) (fun b => Ok [fst (fst r); b])) = Ok [qz 7; qz 7] /\
  rbind (trace_minmax pw ln2 ex_eb ex_m ex_ds 2 true (qz 1) false ex_store) (fun r =>
    rbind (free_bops ex_m (snd r)) (fun b => Ok [fst (fst r); b])) = Ok [qz 7; qz 14].
Proof. intros. split; [reflexivity|]. split; [reflexivity|]. split; [qvm|]. split; qvm. Qed.

(** A nested quantized layer makes the two disagree: trace_minmax does not descend (bops.py:116-120), FreeBOPs does (bops.py:23-24). *)
Theorem C41_nested_not_counted_refuted : exists m st ds, Forall obj_ok st /\ forall pw ln2, exists bops rs st' b,
  trace_minmax pw ln2 ex_eb m ds 2 true (qz 1) false st = Ok (bops, rs, st') /\ free_bops m st' = Ok b /\ b <> bops.
Proof.
  exists ex_m, ex_store, ex_ds. split; [exact ex_store_ok|]. intros.
  assert (H : rbind (trace_minmax pw ln2 ex_eb ex_m ex_ds 2 true (qz 1) false ex_store) (fun r =>
    rbind (free_bops ex_m (snd r)) (fun b => Ok (this (fst (fst r)), this b))) = Ok (7, 14)%Q) by (vm_compute; reflexivity).
  destruct (trace_minmax pw ln2 ex_eb ex_m ex_ds 2 true (qz 1) false ex_store) as [[[b r] st']|]; [|discriminate]. cbn [rbind fst snd] in H.
  destruct (free_bops ex_m st') as [f|] eqn:E; [|discriminate]. cbn [rbind] in H. exists b, r, st', f. split; [reflexivity|]. split; [exact E|].
  intros ->. injection H as H1 H2. congruence.
Qed.
Print Assumptions C41_nested_not_counted_refuted.

(** ** C42 *)
Theorem C42_reset_reaches_every_layer : forall m st st', reset_minmax m st = Ok st' ->
  forall i, (In i (all_layers m) -> exists o o', nth_error st i = Some o /\ nth_error st' i = Some o' /\ same_but_registers o o' /\
    forall g, nth g (data (q_min (l_paq (o_layer o')))) PosInf = PosInf /\ nth g (data (q_max (l_paq (o_layer o')))) NegInf = NegInf) /\
  (~ In i (all_layers m) -> nth_error st' i = nth_error st i).
Proof.
  intros m st st' E i. pose proof (reset_spec m st) as R. rewrite E in R. destruct R as [_ [R1 R2]]. split; [|apply R2].
  intros Hi. destruct (R1 i Hi) as [o [H1 H2]]. exists o, (reset_obj o). split; [assumption|]. split; [assumption|].
  split; [eexists; eexists; reflexivity|]. intros g. unfold reset_obj, with_paq, with_layer, minmax_reg_reset, with_minmax, tmap. cbn [o_layer l_paq q_min q_max data].
  split; generalize (data (q_fbw (l_paq (o_layer o)))); intros l; revert g; induction l as [|a l IH]; intros [|g]; cbn; auto.
Qed.
Print Assumptions C42_reset_reaches_every_layer.

Theorem C42_reset_total : forall m st, (forall i, In i (all_layers m) -> exists o, nth_error st i = Some o) -> exists st', reset_minmax m st = Ok st'.
Proof.
  intros m st H. pose proof (reset_spec m st) as R. destruct (reset_minmax m st) as [st'|]; [eauto|].
  destruct R as [i [Hi Hn]]. destruct (H i Hi) as [o Ho]. congruence.
Qed.
Print Assumptions C42_reset_total.

Example C42_ex : forall pw ln2,
  rbind (trace_minmax pw ln2 ex_eb ex_inner ex_ds 2 true (qz 1) false ex_store) (fun r => Ok (regs (snd r))) =
    Ok [qz 77; qz 77; qz 77; qz 77; qz 77; qz 77; qz 77; qz 77; qz 0; qz 0; qz 3; qz 2; qz 77; qz 77; qz 77; qz 77] /\
  rbind (trace_minmax pw ln2 ex_eb ex_inner ex_ds 2 true (qz 1) false ex_store) (fun r => rbind (reset_minmax ex_m (snd r)) (fun s => Ok (regs s))) =
    Ok [qz 77; qz 77; qz 77; qz 77; qz 77; qz 77; qz 77; qz 77; qz 77; qz 77; qz 77; qz 77; qz 77; qz 77; qz 77; qz 77].
Proof. intros; split; qvm. Qed.

(** trace_minmax works at top level only: a quantized layer inside a nested
    model that was not already recording comes out exactly as it went in. *)
Theorem C42_trace_top_level_only : forall pw ln2 eb m n ds bsz rst c nb st bops rs st', Forall obj_ok st -> leaves hgq_layer m -> dataset n ds -> 0 < bsz ->
  trace_minmax pw ln2 eb m ds bsz rst c nb st = Ok (bops, rs, st') ->
  forall i o, ~ In i (top_layers m) -> nth_error st i = Some o -> o_record o = false -> nth_error st' i = Some o.
Proof. exact trace_others. Qed.
Print Assumptions C42_trace_top_level_only.

(** Hence tracing a model with a nested quantized layer leaves that layer without a range, and its exact bitwidths are an error. *)
Theorem C42_nested_calibration_refuted : exists m n ds st i, Forall obj_ok st /\ leaves hgq_layer m /\ dataset n ds /\ In i (all_layers m) /\
  forall pw ln2, exists bops rs st' o, trace_minmax pw ln2 ex_eb m ds 2 true (qz 1) false st = Ok (bops, rs, st') /\
    nth_error st' i = Some o /\ get_bits_exact (l_paq (o_layer o)) false = Raise.
Proof.
  exists ex_m, 3, ex_ds, ex_store, 2. split; [exact ex_store_ok|]. split; [exact ex_leaves|]. split; [exact ex_dataset|]. split; [cbn; auto|].
  intros.
  assert (H : rbind (trace_minmax pw ln2 ex_eb ex_m ex_ds 2 true (qz 1) false ex_store) (fun r =>
    match nth_error (snd r) 2 with Some o => match get_bits_exact (l_paq (o_layer o)) false with Raise => Ok true | _ => Raise end | None => Raise end) = Ok true)
    by (vm_compute; reflexivity).
  destruct (trace_minmax pw ln2 ex_eb ex_m ex_ds 2 true (qz 1) false ex_store) as [[[b r] st']|]; [|discriminate]. cbn [rbind fst snd] in H.
  destruct (nth_error st' 2) as [o|] eqn:Eo; [|discriminate]. destruct (get_bits_exact _ _) eqn:Eg; [discriminate|]. exists b, r, st', o. auto.
Qed.
Print Assumptions C42_nested_calibration_refuted.

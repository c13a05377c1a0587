(** trace_minmax as a whole (C18, C38, C39, C40, C42). *)
From Coq Require Import ZArith Qcanon List Bool String Lia.
From Verif Require Import Base.Num Base.NumFacts Base.Tensor Model.FixedPoint Model.Quantizer Model.Layers Model.Graph
  Model.Convert Model.Trace Spec.Fixed Spec.Quant Spec.History Spec.Layer Spec.Trace Proofs.TensorP Proofs.RecordP
  Proofs.HistoryP Proofs.CallP Proofs.SampleP Proofs.LayersP Proofs.ConvertP Proofs.TraceP Proofs.FeedP.
Import ListNotations.
Local Open Scope nat_scope.

(** ** Loops over the layers of a model *)
Lemma get_ok st i o : get st i = Ok o <-> nth_error st i = Some o.
Proof. unfold get. destruct (nth_error st i); split; congruence. Qed.

Lemma each_spec f ids : NoDup ids -> forall st st', each f ids st = Ok st' ->
  length st' = length st /\
  (forall i, In i ids -> exists o o', nth_error st i = Some o /\ f o = Ok o' /\ nth_error st' i = Some o') /\
  (forall i, ~ In i ids -> nth_error st' i = nth_error st i).
Proof.
  induction 1 as [|i ids Hn Hd IH]; intros st st' E; cbn [each] in E.
  - injection E as <-. split; [reflexivity|]. split; [intros i []|reflexivity].
  - apply rbind_ok in E. destruct E as [o [Eo E]]. apply get_ok in Eo.
    apply rbind_ok in E. destruct E as [o' [Eo' E]]. destruct (IH _ _ E) as [L [A B]]. rewrite set_nth_length in L.
    assert (Hi : i < length st) by (eapply nth_error_lt, Eo).
    split; [assumption|]. split.
    + intros j [<-|Hj].
      * exists o, o'. split; [assumption|]. split; [assumption|]. rewrite B by assumption. rewrite set_nth_error, Nat.eqb_refl.
        rewrite (proj2 (Nat.ltb_lt _ _) Hi). reflexivity.
      * destruct (A j Hj) as [p [p' [P1 P2]]]. exists p, p'. rewrite set_nth_error in P1.
        destruct (Nat.eqb_spec i j) as [->|]; [contradiction|]. auto.
    + intros j Hj. rewrite B by (intros H; apply Hj; right; assumption). rewrite set_nth_error.
      destruct (Nat.eqb_spec i j) as [->|]; [|reflexivity]. exfalso. apply Hj. left. reflexivity.
Qed.

Lemma each_ok f ids st : NoDup ids -> (forall i, In i ids -> exists o o', nth_error st i = Some o /\ f o = Ok o') ->
  exists st', each f ids st = Ok st'.
Proof.
  intros H. revert st. induction H as [|i ids Hn Hd IH]; intros st A; cbn [each]; [eauto|].
  destruct (A i (or_introl eq_refl)) as [o [o' [E1 E2]]]. rewrite (proj2 (get_ok st i o) E1). cbn [rbind]. rewrite E2. cbn [rbind].
  apply IH. intros j Hj. destruct (A j (or_intror Hj)) as [p [p' [P1 P2]]]. exists p, p'. split; [|assumption].
  rewrite set_nth_error. destruct (Nat.eqb_spec i j) as [->|]; [contradiction|assumption].
Qed.

Lemma top_NoDup m : NoDup (top_layers m).
Proof. destruct m; cbn; [constructor|apply NoDup_nodup]. Qed.

Lemma Forall_nth_error {A} (P : A -> Prop) l : Forall P l <-> forall i x, nth_error l i = Some x -> P x.
Proof.
  rewrite Forall_forall. split.
  - intros H i x E. apply H. eapply nth_error_In, E.
  - intros H x Hx. apply In_nth_error in Hx. destruct Hx as [i E]. eapply H, E.
Qed.

Lemma each_forall (P : hobj -> Prop) f ids st st' : NoDup ids -> Forall P st -> (forall o o', P o -> f o = Ok o' -> P o') ->
  each f ids st = Ok st' -> Forall P st'.
Proof.
  intros Hd HP HF E. destruct (each_spec f ids Hd st st' E) as [L [A B]]. apply Forall_nth_error. intros i x Ex.
  rewrite Forall_nth_error in HP. destruct (in_dec Nat.eq_dec i ids) as [Hi|Hi].
  - destruct (A i Hi) as [o [o' [E1 [E2 E3]]]]. replace x with o' by congruence. eauto.
  - rewrite B in Ex by assumption. eauto.
Qed.

Lemma reg_ok_tmap {A B} m rest (t : tensor A) (f : A -> B) : reg_ok m rest t -> reg_ok m rest (tmap f t).
Proof. intros [H1 H2]. split; cbn; [assumption|]. rewrite map_length. assumption. Qed.

Lemma obj_ok_regs (o : hobj) q : obj_ok o -> q_fbw q = q_fbw (l_paq (o_layer o)) -> q_clip q = q_clip (l_paq (o_layer o)) ->
  q_skip q = q_skip (l_paq (o_layer o)) ->
  shape (q_min q) = shape (q_fbw q) -> length (data (q_min q)) = length (data (q_fbw q)) ->
  shape (q_max q) = shape (q_fbw q) -> length (data (q_max q)) = length (data (q_fbw q)) -> obj_ok (with_paq o q).
Proof.
  intros [[Q [Hp Hop]] [R [C O]]] E1 E2 E3 A1 A2 A3 A4.
  destruct o as [l rec a ins b], l as [op q0 rl lc out]. unfold obj_ok. cbv zeta. unfold with_paq, with_layer. cbv zeta.
  unfold layer_ok, no_relu, bits_clipped in *.
  cbn [o_layer l_op l_paq l_relu l_loc l_out o_record o_act o_ins o_bops] in *.
  split; [|split; [|split; [|exact O]]].
  - split; [|split; [exact Hp|exact Hop]].
    destruct Q as [bw [Q1 [Q2 [Q3 [Q4 Q5]]]]]. exists bw. rewrite A2, A4, E1. auto.
  - destruct R as [pre [rest [E [Sk [F [M X]]]]]]. exists pre, rest. rewrite E3, E1. split; [assumption|]. split; [assumption|].
    split; [assumption|]. destruct F as [F1 F2]. rewrite E1 in *. split; split; congruence.
  - rewrite E2, E1. exact C.
Qed.

Lemma obj_ok_record (o : hobj) b : obj_ok o -> obj_ok (with_record o b).
Proof. destruct o. intros H. exact H. Qed.
Lemma obj_ok_reset o : obj_ok o -> obj_ok (reset_obj o).
Proof.
  intros H. apply obj_ok_regs; try assumption; try reflexivity; cbn [minmax_reg_reset with_minmax q_min q_max q_fbw tmap data];
    apply map_length.
Qed.
Lemma obj_ok_start o o' : obj_ok o -> start_obj o = Ok o' -> obj_ok o'.
Proof. intros H E. injection E as <-. apply obj_ok_record, obj_ok_reset, H. Qed.

(** ** C18 *)
Section T.
Variable pw : Qc -> Qc.
Variable ln2 : Qc.

Lemma start_step m (rst : bool) st st1 : Forall obj_ok st -> (if rst then each start_obj (top_layers m) st else Ok st) = Ok st1 ->
  Forall obj_ok st1.
Proof.
  intros H E. destruct rst; [|injection E as <-; exact H].
  eapply each_forall; [apply top_NoDup|exact H| |exact E]. intros o o'. apply obj_ok_start.
Qed.

Lemma trace_bsz eb m n ds b1 b2 rst c nb st bops rs st' : Forall obj_ok st -> leaves hgq_layer m -> dataset n ds -> 0 < b1 -> 0 < b2 ->
  trace_minmax pw ln2 eb m ds b1 rst c nb st = Ok (bops, rs, st') ->
  exists rs', trace_minmax pw ln2 eb m ds b2 rst c nb st = Ok (bops, rs', st') /\
    forall k, concat (map (fun r => nth k r []) rs') = concat (map (fun r => nth k r []) rs).
Proof.
  intros Hok Hl Hd H1 H2 E. unfold trace_minmax in *.
  apply rbind_ok in E. destruct E as [st1 [E1 E]]. rewrite E1. cbn [rbind].
  pose proof (start_step m rst st st1 Hok E1) as Hok1.
  rewrite (proj2 (Nat.eqb_neq b1 0)) in E by lia. rewrite (proj2 (Nat.eqb_neq b2 0)) by lia.
  apply rbind_ok in E. destruct E as [[rs1 st2] [E2 E]]. cbn [fst snd] in E.
  destruct (feed_bsz pw ln2 st1 m n ds b1 b2 rs1 st2 Hok1 Hl Hd H1 H2 E2) as [rs' [F P]]. rewrite F. cbn [rbind fst snd].
  exists rs'. destruct (cover_step pw ln2 m c st2) as [st3|]; [|discriminate]. cbn [rbind] in *.
  destruct (each fix_obj (top_layers m) st3) as [st4|]; [|discriminate]. cbn [rbind] in *.
  destruct nb.
  - injection E as <- <- <-. split; [reflexivity|exact P].
  - destruct (count_bops eb (top_layers m) st4) as [[d st5]|]; [|discriminate]. cbn [rbind fst snd] in *.
    injection E as <- <- <-. split; [reflexivity|exact P].
Qed.

(** ** What one trace leaves behind (C40) *)
Lemma count_spec eb ids : NoDup ids -> forall st b st', count_bops eb ids st = Ok (b, st') ->
  length st' = length st /\
  (forall i, In i ids -> exists o d, nth_error st i = Some o /\ nth_error st' i = Some (mkO (o_layer o) false (o_act o) (o_ins o) d)) /\
  (forall i, ~ In i ids -> nth_error st' i = nth_error st i) /\
  exists ds, Forall2 (fun i d => exists s, eb s i = Ok d) ids ds /\ b = qsum ds /\
    Forall2 (fun i d => exists o, nth_error st' i = Some o /\ o_bops o = d) ids ds.
Proof.
  induction 1 as [|i ids Hn Hd IH]; intros st b st' E; cbn [count_bops] in E.
  - injection E as <- <-. split; [reflexivity|]. split; [intros i []|]. split; [reflexivity|]. exists []. repeat split; constructor.
  - apply rbind_ok in E. destruct E as [o [Eo E]]. apply get_ok in Eo. cbv zeta in E.
    apply rbind_ok in E. destruct E as [d [Ed E]]. apply rbind_ok in E. destruct E as [[r st2] [Er E]].
    cbn [fst snd] in E. injection E as <- <-.
    destruct (IH _ _ _ Er) as [L [A [B [ds [D1 [D2 D3]]]]]]. rewrite !set_nth_length in L.
    assert (Hi : i < length st) by (eapply nth_error_lt, Eo).
    assert (Ei : nth_error st2 i = Some (mkO (o_layer o) false (o_act o) (o_ins o) d)).
    { rewrite B by assumption. rewrite set_nth_error, Nat.eqb_refl, set_nth_length, (proj2 (Nat.ltb_lt _ _) Hi). reflexivity. }
    split; [assumption|]. split; [|split].
    + intros j [<-|Hj]; [exists o, d; auto|].
      destruct (A j Hj) as [p [e [P1 P2]]]. exists p, e. rewrite !set_nth_error in P1.
      destruct (Nat.eqb_spec i j) as [->|]; [contradiction|]. auto.
    + intros j Hj. rewrite B by (intros H; apply Hj; right; assumption). rewrite !set_nth_error.
      destruct (Nat.eqb_spec i j) as [->|]; [|reflexivity]. exfalso. apply Hj. left. reflexivity.
    + exists (d :: ds). split; [constructor; eauto|]. split; [rewrite D2; reflexivity|]. constructor; [|assumption].
      eexists. split; [exact Ei|]. reflexivity.
Qed.
End T.

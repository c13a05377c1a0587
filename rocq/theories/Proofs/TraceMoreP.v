(** What tracing leaves behind, reset and BOPs over model trees. *)
From Coq Require Import ZArith Qcanon List Bool Lia Permutation.
From Verif Require Import Base.Num Base.NumFacts Base.Tensor Model.FixedPoint Model.Quantizer Model.Layers Model.Graph Model.Trace
  Spec.Fixed Spec.Quant Spec.History Spec.Layer Spec.Graph Spec.Trace Proofs.TensorP Proofs.CallP Proofs.LayersP Proofs.ConvertP
  Proofs.TraceP Proofs.FeedP Proofs.TraceMinmaxP Proofs.CoverP.
Import ListNotations.
Local Open Scope nat_scope.

Lemma set_nth_same {A} (l : list A) i x : nth_error l i = Some x -> set_nth l i x = l.
Proof. revert i. induction l as [|a l IH]; intros [|i] H; try discriminate; cbn in *; [congruence|]. f_equal. apply IH, H. Qed.

Section M.
Variable pw : Qc -> Qc.
Variable ln2 : Qc.

Lemma quiet_leaf x ins st b st' : Forall obj_ok st -> on_object (quiet st) x ->
  call_layer pw ln2 x ins st = Ok (b, st') -> st' = st.
Proof.
  intros HO HQ E. destruct x as [u k]. unfold call_layer, on_object in *. cbn [snd] in *.
  assert (H : forall i, quiet st i -> call_obj pw ln2 i ins st = Ok (b, st') -> st' = st).
  { intros i [o [Ho Hr]] Ec. unfold call_obj, get in Ec. rewrite Ho in Ec. cbn [rbind] in Ec.
    destruct (negb _); [discriminate|]. destruct (zip_samples ins) as [xs|]; [|discriminate]. cbn [rbind] in Ec.
    rewrite Hr in Ec. assert (OK : obj_ok o) by (rewrite Forall_nth_error in HO; eapply HO, Ho).
    destruct OK as [L1 [L2 [L3 L4]]].
    destruct (hfwd pw ln2 (o_layer o) xs false L1 L2 L3 L4) as [mn [mx [Eh [_ Hn]]]]. rewrite Eh in Ec. cbn [rbind fst snd] in Ec.
    injection Ec as _ <-. destruct (Hn eq_refl) as [-> ->]. apply set_nth_same. rewrite Ho. f_equal. symmetry. apply obj_mm_id. }
  destruct k; try (eapply H; eassumption);
    repeat match type of E with rbind ?r _ = _ => destruct r; [cbn [rbind] in E|discriminate] end;
    repeat match type of E with (if ?r then _ else _) = _ => destruct r; [|try discriminate]; try discriminate end;
    repeat match type of E with rbind ?r _ = _ => destruct r; [cbn [rbind] in E|discriminate] end; try congruence.
Qed.

Lemma quiet_run k st : Forall obj_ok st -> leaves (on_object (quiet st)) k ->
  forall ins ys st', run (call_layer pw ln2) k ins st = Ok (ys, st') -> st' = st.
Proof.
  intros HO. induction k as [x|nin nodes outs IH] using klayer_ind'; intros Hl ins ys st' E.
  - inversion Hl as [y H|]; subst. cbn [run] in E. apply rbind_ok in E. destruct E as [[v s1] [E1 E]]. injection E as _ <-.
    eapply quiet_leaf; eassumption.
  - inversion Hl as [|? ? ? HL]; subst. rewrite run_sub in E. destruct (Nat.eqb (length ins) nin); [|discriminate].
    apply rbind_ok in E. destruct E as [[W s1] [EW E]]. cbn [fst snd] in E. apply rbind_ok in E. destruct E as [ys' [Ey E]]. injection E as _ <-.
    clear Ey Hl. revert EW. generalize (map (fun v : list sample => [v]) ins). intros vals.
    assert (N : forall ns vals, (forall k i, In (k, i) ns -> In (k, i) nodes) -> run_nodes (call_layer pw ln2) ns vals st = Ok (W, s1) -> s1 = st).
    { induction ns as [|[k i] ns IHn]; intros vs Hin E0.
      - injection E0 as _ <-. reflexivity.
      - cbn [run_nodes] in E0. apply rbind_ok in E0. destruct E0 as [xs [Ex E0]]. apply rbind_ok in E0. destruct E0 as [[o s2] [Eo E0]].
        cbn [fst snd] in E0. apply (IH k i (Hin _ _ (or_introl eq_refl)) (HL k i (Hin _ _ (or_introl eq_refl)))) in Eo. subst s2.
        eapply IHn; [|eassumption]. intros k' i' H. apply Hin. right. assumption. }
    apply N. auto.
Qed.

Lemma quiet_feed m st bs : Forall obj_ok st -> leaves (on_object (quiet st)) m ->
  forall rs st', feed pw ln2 m bs st = Ok (rs, st') -> st' = st.
Proof.
  intros HO HL. induction bs as [|b bs IH]; intros rs st' E; cbn [feed] in E.
  - injection E as _ <-. reflexivity.
  - apply rbind_ok in E. destruct E as [[y s1] [E1 E]]. cbn [fst snd] in E. apply rbind_ok in E. destruct E as [[r s2] [E2 E]]. injection E as _ <-.
    apply (quiet_run m st HO HL) in E1. subst s1. eapply IH, E2.
Qed.

Lemma run_length k : forall ins st ys st', run (call_layer pw ln2) k ins st = Ok (ys, st') -> length st' = length st.
Proof.
  induction k as [x|nin nodes outs IH] using klayer_ind'; intros ins st ys st' E.
  - cbn [run] in E. apply rbind_ok in E. destruct E as [[v s1] [E1 E]]. injection E as _ <-. destruct x as [u k]. unfold call_layer in E1. cbn [snd] in E1.
    assert (H : forall i, call_obj pw ln2 i ins st = Ok (v, s1) -> length s1 = length st).
    { intros i Ec. unfold call_obj in Ec. apply rbind_ok in Ec. destruct Ec as [o [_ Ec]]. destruct (negb _); [discriminate|].
      apply rbind_ok in Ec. destruct Ec as [xs [_ Ec]]. apply rbind_ok in Ec. destruct Ec as [r [_ Ec]]. injection Ec as _ <-. apply set_nth_length. }
    destruct k; try (eapply H; eassumption);
    repeat match type of E1 with rbind ?r _ = _ => destruct r; [cbn [rbind] in E1|discriminate] end;
    repeat match type of E1 with (if ?r then _ else _) = _ => destruct r; [|try discriminate]; try discriminate end;
    repeat match type of E1 with rbind ?r _ = _ => destruct r; [cbn [rbind] in E1|discriminate] end; congruence.
  - rewrite run_sub in E. destruct (Nat.eqb (length ins) nin); [|discriminate].
    apply rbind_ok in E. destruct E as [[W s1] [EW E]]. cbn [fst snd] in E. apply rbind_ok in E. destruct E as [ys' [Ey E]]. injection E as _ <-.
    clear Ey. revert EW. generalize (map (fun v : list sample => [v]) ins).
    assert (N : forall ns vals st0, (forall k i, In (k, i) ns -> In (k, i) nodes) -> run_nodes (call_layer pw ln2) ns vals st0 = Ok (W, s1) -> length s1 = length st0).
    { induction ns as [|[k i] ns IHn]; intros vs st0 Hin E0.
      - injection E0 as _ <-. reflexivity.
      - cbn [run_nodes] in E0. apply rbind_ok in E0. destruct E0 as [xs [Ex E0]]. apply rbind_ok in E0. destruct E0 as [[o s2] [Eo E0]].
        cbn [fst snd] in E0. apply (IH k i (Hin _ _ (or_introl eq_refl))) in Eo. rewrite <- Eo.
        eapply IHn; [|eassumption]. intros k' i' H. apply Hin. right. assumption. }
    intros vals. apply N. auto.
Qed.

(** After a completed trace every top-level object exists and does not record. *)
Lemma trace_quiet eb m data bsz rst c st bops rs st' : trace_minmax pw ln2 eb m data bsz rst c false st = Ok (bops, rs, st') ->
  forall i, In i (top_layers m) -> quiet st' i.
Proof.
  unfold trace_minmax. intros E i Hi. apply rbind_ok in E. destruct E as [s1 [_ E]]. destruct (Nat.eqb _ _); [discriminate|].
  apply rbind_ok in E. destruct E as [[r s2] [_ E]]. apply rbind_ok in E. destruct E as [s3 [_ E]].
  apply rbind_ok in E. destruct E as [s4 [_ E]]. apply rbind_ok in E. destruct E as [[b s5] [E5 E]]. cbn [fst snd] in E. injection E as _ _ <-.
  destruct (count_spec eb _ (top_NoDup m) _ _ _ E5) as [_ [H _]]. destruct (H i Hi) as [o [d [_ Ho]]]. eexists. split; [exact Ho|]. reflexivity.
Qed.

(** Objects stay well formed through tracing. *)
Lemma feed_ok m n ds bsz st rs st' : Forall obj_ok st -> leaves hgq_layer m -> dataset n ds -> 0 < bsz ->
  feed pw ln2 m (batches ds bsz) st = Ok (rs, st') -> Forall obj_ok st'.
Proof.
  intros HO HL HD HB E. pose proof (feed_spec pw ln2 st m n ds bsz st (fun _ _ _ => False) HO HL HD HB) as F.
  rewrite E in F. destruct F as [_ [R _]]; [apply rel_refl; auto|]. destruct R as [Rl R].
  apply Forall_nth_error. intros i o Ho. destruct (nth_error st i) as [o0|] eqn:E0.
  - destruct (R i o0 E0) as [o1 [E1 [mn [mx [-> RS]]]]]. assert (o = obj_mm o0 mn mx) by congruence. subst o.
    eapply obj_ok_mm; [|exact RS]. rewrite Forall_nth_error in HO. eapply HO, E0.
  - apply nth_error_None in E0. apply nth_error_lt in Ho. lia.
Qed.
Lemma cover_ok c o o' : obj_ok o -> cover_obj pw ln2 c o = Ok o' -> obj_ok o' /\ same_but_registers o o'.
Proof.
  intros HO E. destruct (cover_finite pw ln2 c o o' E) as [mn [mx [Emn Emx]]].
  pose proof (cover_value pw ln2 c o mn mx HO Emn Emx) as V. cbv zeta in V. rewrite E in V. injection V as ->. split; [|eexists; eexists; reflexivity].
  assert (Q : exists m rest, reg_ok m rest (q_fbw (l_paq (o_layer o))) /\ reg_ok m rest (q_min (l_paq (o_layer o))) /\ reg_ok m rest (q_max (l_paq (o_layer o)))).
  { destruct HO as [_ [[pre [rest [_ [_ [R1 [R2 R3]]]]]] _]]. exists (S (length pre)), rest. auto. }
  destruct Q as [m0 [rest [[F1 F2] [[A1 A2] [B1 B2]]]]].
  apply obj_ok_regs; auto; unfold with_minmax; cbn [q_fbw q_min q_max shape Tensor.data];
    first [congruence | unfold reg_vals; rewrite map_length, seq_length; reflexivity].
Qed.
Lemma trace_ok eb m n ds bsz rst c nb st bops rs st' : Forall obj_ok st -> leaves hgq_layer m -> dataset n ds -> 0 < bsz ->
  trace_minmax pw ln2 eb m ds bsz rst c nb st = Ok (bops, rs, st') -> Forall obj_ok st'.
Proof.
  unfold trace_minmax. intros HO HL HD HB E. apply rbind_ok in E. destruct E as [s1 [E1 E]].
  apply (start_step m rst st s1 HO) in E1. destruct (Nat.eqb bsz 0) eqn:Eb; [discriminate|].
  apply rbind_ok in E. destruct E as [[r s2] [E2 E]]. cbn [fst snd] in E. apply (feed_ok m n ds bsz s1 r s2 E1 HL HD HB) in E2.
  apply rbind_ok in E. destruct E as [s3 [E3 E]].
  assert (H3 : Forall obj_ok s3).
  { unfold cover_step in E3. destruct (qeqb c (qz 1)); [injection E3 as <-; assumption|]. destruct (qltb _ _); [|discriminate].
    eapply each_forall; [apply top_NoDup|exact E2| |exact E3]. intros o o' A B. apply (cover_ok c o o' A B). }
  apply rbind_ok in E. destruct E as [s4 [E4 E]].
  assert (H4 : Forall obj_ok s4).
  { eapply each_forall; [apply top_NoDup|exact H3| |exact E4]. intros o o' A B. apply (fix_spec o o' A B). }
  destruct nb; [injection E as _ _ <-; assumption|].
  apply rbind_ok in E. destruct E as [[b s5] [E5 E]]. cbn [fst snd] in E. injection E as _ _ <-.
  destruct (count_spec eb _ (top_NoDup m) _ _ _ E5) as [_ [A [B _]]]. rewrite Forall_nth_error in *. intros i o Ho.
  destruct (in_dec Nat.eq_dec i (top_layers m)) as [Hi|Hi].
  - destruct (A i Hi) as [o1 [d [O1 O2]]]. assert (o = mkO (o_layer o1) false (o_act o1) (o_ins o1) d) by congruence. subst o. exact (H4 i o1 O1).
  - rewrite (B i Hi) in Ho. eapply H4, Ho.
Qed.
End M.

(** ** reset_minmax *)
Fixpoint reset_nodes (ns : list (klayer layer * list (nat * nat))) (st : store) : result store :=
  match ns with
  | [] => Ok st
  | (k, _) :: ns' =>
      rbind (match k with
             | Sub _ _ _ => reset_minmax k st
             | Leaf x => match hid (snd x) with Some i => reset_id st i | None => Ok st end
             end) (reset_nodes ns')
  end.
Lemma reset_sub nin nodes outs st : reset_minmax (Sub nin nodes outs) st = reset_nodes nodes st.
Proof. reflexivity. Qed.

Definition reset_rel (ids : nat -> Prop) (st st' : store) : Prop :=
  length st' = length st /\
  (forall i, ids i -> exists o, nth_error st i = Some o /\ nth_error st' i = Some (reset_obj o)) /\
  (forall i, ~ ids i -> nth_error st' i = nth_error st i).
Lemma reset_idem o : reset_obj (reset_obj o) = reset_obj o.
Proof. destruct o as [l r a i b]. destruct l as [op q rl lo ou]. destruct q. reflexivity. Qed.
Lemma reset_rel_trans (P Q R : nat -> Prop) (dec : forall i, P i \/ ~ P i) (dec' : forall i, Q i \/ ~ Q i) s1 s2 s3 :
  (forall i, R i <-> P i \/ Q i) -> reset_rel P s1 s2 -> reset_rel Q s2 s3 -> reset_rel R s1 s3.
Proof.
  intros H [A1 [A2 A3]] [B1 [B2 B3]]. split; [congruence|]. split.
  - intros i Hi. destruct (dec' i) as [q|q].
    + destruct (B2 i q) as [o [O1 O2]]. destruct (dec i) as [p|p].
      * destruct (A2 i p) as [o' [O3 O4]]. exists o'. split; [assumption|]. rewrite O1 in O4. injection O4 as ->. rewrite reset_idem in O2. assumption.
      * exists o. rewrite <- (A3 i p). auto.
    + destruct (dec i) as [p|p]; [|exfalso; apply H in Hi; tauto]. destruct (A2 i p) as [o [O1 O2]]. exists o. split; [assumption|].
      rewrite (B3 i q). assumption.
  - intros i Hi. rewrite B3, A3; [reflexivity| |]; intros X; apply Hi, H; auto.
Qed.
Lemma reset_rel_ext (P Q : nat -> Prop) s s' : (forall i, P i <-> Q i) -> reset_rel P s s' -> reset_rel Q s s'.
Proof. intros H [A [B C]]. split; [assumption|]. split; intros i Hi; [apply B|apply C]; rewrite H; assumption. Qed.
Lemma reset_rel_none s : reset_rel (fun _ => False) s s.
Proof. repeat split; auto. intros i []. Qed.

Lemma reset_id_spec st i : match reset_id st i with
  | Ok st' => reset_rel (fun j => j = i) st st'
  | Raise => nth_error st i = None
  end.
Proof.
  unfold reset_id, get. destruct (nth_error st i) as [o|] eqn:E; cbn [rbind]; [|reflexivity].
  split; [apply set_nth_length|]. split.
  - intros j ->. exists o. split; [assumption|]. rewrite set_nth_error, Nat.eqb_refl. apply nth_error_lt in E. apply Nat.ltb_lt in E. rewrite E. reflexivity.
  - intros j H. rewrite set_nth_error. destruct (Nat.eqb_spec i j); [congruence|reflexivity].
Qed.

Definition nested_ids (ns : list (klayer layer * list (nat * nat))) : list nat := flat_map (fun n => all_layers (fst n)) ns.
Lemma all_layers_in nin nodes outs i : In i (all_layers (Sub nin nodes outs)) <-> In i (flat_map node_hid nodes) \/ In i (nested_ids nodes).
Proof. cbn [all_layers]. rewrite in_app_iff. unfold top_layers. rewrite nodup_In. reflexivity. Qed.

Lemma reset_spec m : forall st, match reset_minmax m st with
  | Ok st' => reset_rel (fun i => In i (all_layers m)) st st'
  | Raise => exists i, In i (all_layers m) /\ nth_error st i = None
  end.
Proof.
  induction m as [x|nin nodes outs IH] using klayer_ind'; intros st; [apply reset_rel_none|]. rewrite reset_sub.
  assert (N : forall ns st, (forall k i, In (k, i) ns -> In (k, i) nodes) -> match reset_nodes ns st with
    | Ok st' => reset_rel (fun i => In i (flat_map node_hid ns) \/ In i (nested_ids ns)) st st'
    | Raise => exists i, (In i (flat_map node_hid ns) \/ In i (nested_ids ns)) /\ nth_error st i = None end).
  { induction ns as [|[k ins] ns IHn]; intros s Hin; cbn [reset_nodes flat_map].
    - eapply reset_rel_ext; [|apply reset_rel_none]. intros i. cbn. tauto.
    - assert (K : match (match k with Sub _ _ _ => reset_minmax k s | Leaf x => match hid (snd x) with Some i => reset_id s i | None => Ok s end end) with
        | Ok st' => reset_rel (fun i => In i (node_hid (k, ins) ++ all_layers k)) s st'
        | Raise => exists i, In i (node_hid (k, ins) ++ all_layers k) /\ nth_error s i = None end).
      { specialize (IH k ins (Hin _ _ (or_introl eq_refl)) s). destruct k as [x|a b c].
        - cbn [node_hid fst all_layers]. rewrite app_nil_r. destruct (hid (snd x)) as [i|].
          + pose proof (reset_id_spec s i) as R. destruct (reset_id s i).
            * eapply reset_rel_ext; [|exact R]. cbn. intuition.
            * exists i. cbn. auto.
          + eapply reset_rel_ext; [|apply reset_rel_none]. cbn. tauto.
        - exact IH. }
      destruct (match k with Leaf _ => _ | Sub _ _ _ => _ end) as [s1|].
      + cbn [rbind]. specialize (IHn s1 (fun k' i' H => Hin k' i' (or_intror H))). destruct (reset_nodes ns s1) as [s2|].
        * eapply reset_rel_trans; [| | |exact K|exact IHn].
          -- intros i. destruct (in_dec Nat.eq_dec i (node_hid (k, ins) ++ all_layers k)); auto.
          -- intros i. destruct (in_dec Nat.eq_dec i (flat_map node_hid ns)); auto. destruct (in_dec Nat.eq_dec i (nested_ids ns)); auto. right. tauto.
          -- intros i. unfold nested_ids. cbn [flat_map fst]. rewrite !in_app_iff. tauto.
        * destruct IHn as [i [Hi Hn]]. exists i. unfold nested_ids in *. cbn [flat_map fst]. rewrite !in_app_iff. split; [tauto|].
          destruct K as [Kl _]. apply nth_error_None. apply nth_error_None in Hn. lia.
      + cbn [rbind]. destruct K as [i [Hi Hn]]. exists i. split; [|assumption]. unfold nested_ids. cbn [flat_map fst]. rewrite in_app_iff in Hi. rewrite !in_app_iff. tauto. }
  specialize (N nodes st (fun _ _ H => H)). destruct (reset_nodes nodes st) as [st'|].
  - eapply reset_rel_ext; [|exact N]. intros i. symmetry. apply all_layers_in.
  - destruct N as [i [Hi Hn]]. exists i. split; [|assumption]. apply all_layers_in. assumption.
Qed.

(** ** FreeBOPs *)
Definition bops_of (st : store) (i : nat) : Qc := match nth_error st i with Some o => o_bops o | None => qz 0 end.
Definition sumq (l : list Qc) : Qc := fold_right Qcplus (qz 0) l.
Lemma sumq_app a b : sumq (a ++ b) = (sumq a + sumq b)%Qc.
Proof. unfold sumq. induction a as [|x a IH]; cbn [app fold_right]; [change (qz 0) with 0%Qc; ring|]. rewrite IH. ring. Qed.
Lemma sumq_perm a b : Permutation a b -> sumq a = sumq b.
Proof. unfold sumq. induction 1; cbn [fold_right]; [reflexivity|congruence|ring|congruence]. Qed.
Lemma bops_sum_iff st ids b : bops_sum st ids b <-> (forall i, In i ids -> nth_error st i <> None) /\ b = sumq (map (bops_of st) ids).
Proof.
  split.
  - intros [ds [F ->]]. induction F as [|i d ids ds [o [Ho <-]] F [IH1 IH2]]; [split; [intros i []|reflexivity]|]. split.
    + intros j [<-|Hj]; [congruence|auto].
    + cbn. unfold bops_of at 1. rewrite Ho. fold (sumq (map (bops_of st) ids)). rewrite <- IH2. reflexivity.
  - intros [H ->]. exists (map (bops_of st) ids). split; [|reflexivity]. induction ids as [|i ids IH]; constructor.
    + specialize (H i (or_introl eq_refl)). unfold bops_of. destruct (nth_error st i) as [o|]; [eauto|congruence].
    + apply IH. intros j Hj. apply H. right. assumption.
Qed.

Section BopsNodes.
Variable st : store.
Fixpoint bops_nodes (ns : list (klayer layer * list (nat * nat))) (seen : list nat) : result Qc :=
  match ns with
  | [] => Ok (qz 0)
  | (k, _) :: ns' =>
      match k with
      | Sub _ _ _ => rbind (free_bops k st) (fun b => rbind (bops_nodes ns' seen) (fun r => Ok (b + r)%Qc))
      | Leaf x =>
          match hid (snd x) with
          | None => bops_nodes ns' seen
          | Some i => if existsb (Nat.eqb i) seen then bops_nodes ns' seen
                      else rbind (get st i) (fun o => rbind (bops_nodes ns' (i :: seen)) (fun r => Ok (o_bops o + r)%Qc))
          end
      end
  end.
End BopsNodes.
Lemma free_sub nin nodes outs st : free_bops (Sub nin nodes outs) st = bops_nodes st nodes [].
Proof. reflexivity. Qed.
Lemma existsb_in i seen : existsb (Nat.eqb i) seen = true <-> In i seen.
Proof.
  rewrite existsb_exists. split; [intros [j [H1 H2]]; apply Nat.eqb_eq in H2; congruence|]. intros H. exists i. split; [assumption|apply Nat.eqb_refl].
Qed.
(** First occurrences that are not in [seen]. *)
Fixpoint dedup (l seen : list nat) : list nat :=
  match l with
  | [] => []
  | i :: l' => if existsb (Nat.eqb i) seen then dedup l' seen else i :: dedup l' (i :: seen)
  end.
Lemma dedup_in l : forall seen i, In i (dedup l seen) <-> In i l /\ ~ In i seen.
Proof.
  induction l as [|a l IH]; intros seen i; [cbn; tauto|]. cbn [dedup]. destruct (existsb (Nat.eqb a) seen) eqn:E.
  - apply existsb_in in E. rewrite IH. cbn. intuition congruence.
  - assert (E' : ~ In a seen) by (rewrite <- existsb_in; congruence). cbn. rewrite IH. cbn. destruct (Nat.eq_dec a i) as [->|]; intuition congruence.
Qed.
Lemma dedup_NoDup l : forall seen, NoDup (dedup l seen).
Proof.
  induction l as [|a l IH]; intros seen; [constructor|]. cbn [dedup]. destruct (existsb _ _); [apply IH|]. constructor; [|apply IH].
  rewrite dedup_in. cbn. tauto.
Qed.
Lemma dedup_sum f l : sumq (map f (dedup l [])) = sumq (map f (nodup Nat.eq_dec l)).
Proof.
  apply sumq_perm, Permutation_map, NoDup_Permutation; [apply dedup_NoDup|apply NoDup_nodup|]. intros i. rewrite dedup_in, nodup_In. cbn. tauto.
Qed.

Lemma free_spec m : forall st, match free_bops m st with
  | Ok b => (forall i, In i (all_layers m) -> nth_error st i <> None) /\ b = sumq (map (bops_of st) (all_layers m))
  | Raise => exists i, In i (all_layers m) /\ nth_error st i = None
  end.
Proof.
  induction m as [x|nin nodes outs IH] using klayer_ind'; intros st; [split; [intros i []|reflexivity]|]. rewrite free_sub.
  assert (N : forall ns seen, (forall k i, In (k, i) ns -> In (k, i) nodes) -> match bops_nodes st ns seen with
    | Ok b => (forall i, In i (dedup (flat_map node_hid ns) seen) \/ In i (nested_ids ns) -> nth_error st i <> None) /\
        b = (sumq (map (bops_of st) (dedup (flat_map node_hid ns) seen)) + sumq (map (bops_of st) (nested_ids ns)))%Qc
    | Raise => exists i, (In i (dedup (flat_map node_hid ns) seen) \/ In i (nested_ids ns)) /\ nth_error st i = None end).
  { induction ns as [|[k ins] ns IHn]; intros seen Hin.
    - cbn. split; [tauto|]. change (qz 0) with 0%Qc. ring.
    - assert (Hin' : forall k i, In (k, i) ns -> In (k, i) nodes) by (intros k' i' H; apply Hin; right; assumption).
      cbn [bops_nodes]. unfold nested_ids. cbn [flat_map fst]. fold (nested_ids ns). destruct k as [x|a b c].
      + cbn [node_hid fst all_layers app]. destruct (hid (snd x)) as [i|]; [|exact (IHn seen Hin')]. cbn [app dedup].
        destruct (existsb (Nat.eqb i) seen) eqn:Es; [exact (IHn seen Hin')|]. unfold get. specialize (IHn (i :: seen) Hin').
        destruct (nth_error st i) as [o|] eqn:Eo; cbn [rbind].
        * destruct (bops_nodes st ns (i :: seen)) as [r|]; cbn [rbind].
          -- destruct IHn as [A ->]. split.
             ++ intros j [[<-|Hj]|Hj]; [congruence|auto|auto].
             ++ cbn [map]. unfold sumq at 3. cbn [fold_right]. fold (sumq (map (bops_of st) (dedup (flat_map node_hid ns) (i :: seen)))).
                unfold bops_of at 3. rewrite Eo. ring.
          -- destruct IHn as [j [Hj Hn]]. exists j. split; [|assumption]. cbn. tauto.
        * exists i. cbn. auto.
      + change (node_hid (Sub a b c, ins)) with (@nil nat). cbn [app]. specialize (IH _ ins (Hin _ _ (or_introl eq_refl)) st). specialize (IHn seen Hin').
        destruct (free_bops (Sub a b c) st) as [b0|]; cbn [rbind].
        * destruct IH as [I1 ->]. destruct (bops_nodes st ns seen) as [r|]; cbn [rbind].
          -- destruct IHn as [A ->]. split.
             ++ intros j [Hj|Hj]; [auto|]. apply in_app_iff in Hj. destruct Hj; auto.
             ++ rewrite map_app, sumq_app. ring.
          -- destruct IHn as [j [Hj Hn]]. exists j. rewrite in_app_iff. tauto.
        * destruct IH as [j [Hj Hn]]. exists j. rewrite in_app_iff. tauto. }
  specialize (N nodes [] (fun _ _ H => H)). destruct (bops_nodes st nodes []) as [b|].
  - destruct N as [A ->]. split.
    + intros i Hi. apply A. apply all_layers_in in Hi. rewrite dedup_in. cbn. tauto.
    + cbn [all_layers]. rewrite map_app, sumq_app. unfold top_layers. rewrite dedup_sum. reflexivity.
  - destruct N as [i [Hi Hn]]. exists i. split; [|assumption]. apply all_layers_in. rewrite dedup_in in Hi. tauto.
Qed.

(** Objects that are neither at top level nor recording pass through a trace unchanged. *)
Lemma trace_others pw ln2 eb m n ds bsz rst c nb st bops rs st' : Forall obj_ok st -> leaves hgq_layer m -> dataset n ds -> 0 < bsz ->
  trace_minmax pw ln2 eb m ds bsz rst c nb st = Ok (bops, rs, st') ->
  forall i o, ~ In i (top_layers m) -> nth_error st i = Some o -> o_record o = false -> nth_error st' i = Some o.
Proof.
  unfold trace_minmax. intros HO HL HD HB E i o Hi Ho Hr. apply rbind_ok in E. destruct E as [s1 [E1 E]].
  pose proof (start_step m rst st s1 HO E1) as HO1.
  assert (H1 : nth_error s1 i = Some o).
  { destruct rst; [|injection E1 as <-; assumption]. destruct (each_spec _ _ (top_NoDup m) _ _ E1) as [_ [_ H]]. rewrite (H i Hi). assumption. }
  destruct (Nat.eqb bsz 0) eqn:Eb; [discriminate|]. apply rbind_ok in E. destruct E as [[r s2] [E2 E]]. cbn [fst snd] in E.
  assert (H2 : nth_error s2 i = Some o).
  { pose proof (feed_spec pw ln2 s1 m n ds bsz s1 (fun _ _ _ => False) HO1 HL HD HB) as F. rewrite E2 in F.
    destruct F as [_ [[_ R] _]]; [apply rel_refl; auto|]. destruct (R i o H1) as [o2 [Eo2 R2]]. rewrite Eo2. f_equal.
    rewrite Forall_nth_error in HO1. set (W := vall pw ln2 s1 m (fun _ _ _ => False) (map (sample_of ds) (seq 0 n)) i) in *. apply (obj_rel_unique pw ln2 o W W o2 o (HO1 i o H1)); [|exact R2|apply obj_rel_refl].
    - intros g v. reflexivity.
    - rewrite Hr. intros g v [A _]. discriminate. }
  apply rbind_ok in E. destruct E as [s3 [E3 E]].
  assert (H3 : nth_error s3 i = Some o).
  { unfold cover_step in E3. destruct (qeqb c (qz 1)); [injection E3 as <-; assumption|]. destruct (qltb _ _); [|discriminate].
    destruct (each_spec _ _ (top_NoDup m) _ _ E3) as [_ [_ H]]. rewrite (H i Hi). assumption. }
  apply rbind_ok in E. destruct E as [s4 [E4 E]].
  assert (H4 : nth_error s4 i = Some o) by (destruct (each_spec _ _ (top_NoDup m) _ _ E4) as [_ [_ H]]; rewrite (H i Hi); assumption).
  destruct nb; [injection E as _ _ <-; assumption|].
  apply rbind_ok in E. destruct E as [[b s5] [E5 E]]. cbn [fst snd] in E. injection E as _ _ <-.
  destruct (count_spec eb _ (top_NoDup m) _ _ _ E5) as [_ [_ [H _]]]. rewrite (H i Hi). assumption.
Qed.

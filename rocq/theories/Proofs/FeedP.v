(** Feeding a dataset in batches (C18). *)
From Coq Require Import ZArith Qcanon List Bool String Lia.
From Verif Require Import Base.Num Base.NumFacts Base.Tensor Model.FixedPoint Model.Quantizer Model.Layers Model.Graph
  Model.Convert Model.Trace Spec.Fixed Spec.Quant Spec.History Spec.Layer Spec.Trace Proofs.TensorP Proofs.RecordP
  Proofs.HistoryP Proofs.CallP Proofs.SampleP Proofs.LayersP Proofs.ConvertP Proofs.TraceP.
Import ListNotations.
Local Open Scope nat_scope.

(** ** Batches partition the dataset *)
Lemma chunk_seq n b k : flat_map (fun j => seq (j * b) (Nat.min b (n - j * b))) (seq 0 k) = seq 0 (Nat.min (k * b) n).
Proof.
  induction k as [|k IH]; [reflexivity|]. rewrite seq_S, flat_map_app, IH. cbn [flat_map]. rewrite app_nil_r, Nat.add_0_l.
  destruct (le_lt_dec n (k * b)).
  - replace (n - k * b) with 0 by lia. rewrite Nat.min_0_r. cbn [seq]. rewrite app_nil_r. f_equal. cbn [Nat.mul]. lia.
  - rewrite (Nat.min_l (k * b) n) by lia.
    replace (Nat.min (S k * b) n) with (k * b + Nat.min b (n - k * b)) by (cbn [Nat.mul]; lia).
    rewrite seq_app. reflexivity.
Qed.
Lemma ceil_cover n b : 0 < b -> n <= (n + b - 1) / b * b.
Proof. intros H. pose proof (Nat.div_mod (n + b - 1) b ltac:(lia)) as E. pose proof (Nat.mod_upper_bound (n + b - 1) b ltac:(lia)). nia. Qed.
Lemma ceil_tight n b j : 0 < b -> j < (n + b - 1) / b -> j * b < n.
Proof.
  intros H Hj. pose proof (Nat.mul_div_le (n + b - 1) b ltac:(lia)).
  assert ((j + 1) * b <= b * ((n + b - 1) / b)) by nia. nia.
Qed.

Definition cols_of (b : list (list sample)) : list (list sample) := map (cols b) (seq 0 (length (hd [] b))).

Lemma nth_firstn_skipn {A} (l : list A) b a t d : t < b -> nth t (firstn b (skipn a l)) d = nth (a + t) l d.
Proof. apply firstn_skipn_nth. Qed.
Lemma firstn_skipn_length {A} (l : list A) b a : length (firstn b (skipn a l)) = Nat.min b (length l - a).
Proof. rewrite firstn_length, skipn_length. reflexivity. Qed.

Lemma map_flat_map {A B C} (f : B -> C) (g : A -> list B) l : map f (flat_map g l) = flat_map (fun x => map f (g x)) l.
Proof. induction l; cbn; [reflexivity|]. rewrite map_app, IHl. reflexivity. Qed.

Lemma batches_cols n ds bsz : dataset n ds -> 0 < bsz ->
  flat_map cols_of (batches ds bsz) = map (sample_of ds) (seq 0 n).
Proof.
  intros [HF Hd] Hb. unfold batches.
  assert (Hn : length (hd [] ds) = n) by (destruct ds; [congruence|]; inversion HF; auto). rewrite Hn.
  rewrite flat_map_concat_map, map_map, <- flat_map_concat_map.
  rewrite <- (Nat.min_r ((n + bsz - 1) / bsz * bsz) n) at 2 by (apply ceil_cover; assumption).
  rewrite <- chunk_seq, map_flat_map. rewrite !flat_map_concat_map. f_equal. apply map_ext. intros j.
  unfold cols_of. replace (length (hd [] (map (fun d => firstn bsz (skipn (j * bsz) d)) ds))) with (Nat.min bsz (n - j * bsz)).
  2: { destruct ds; [congruence|]. cbn [map hd] in *. rewrite firstn_skipn_length, Hn. reflexivity. }
  rewrite <- (seq_map_add (j * bsz) (Nat.min bsz (n - j * bsz))) || idtac.
  apply (list_nth_ext []); [rewrite !map_length, !seq_length; reflexivity|]. intros t Ht. rewrite map_length, seq_length in Ht.
  rewrite (nth_map_seq _ _ _ _ Ht).
  rewrite (nth_indep _ [] (sample_of ds 0)) by (rewrite map_length, seq_length; assumption).
  rewrite map_nth, seq_nth by assumption. unfold cols, sample_of. rewrite map_map. apply map_ext. intros d.
  apply nth_firstn_skipn. lia.
Qed.

Lemma batches_data n ds bsz k : dataset n ds -> 0 < bsz ->
  concat (map (fun b => nth k b []) (batches ds bsz)) = nth k ds [].
Proof.
  intros [HF Hd] Hb. destruct (le_lt_dec (length ds) k) as [Hk|Hk].
  - rewrite (nth_overflow ds) by assumption. unfold batches. rewrite map_map.
    induction (seq 0 _) as [|j js IH]; [reflexivity|]. cbn [map concat]. rewrite IH, nth_overflow by (rewrite map_length; assumption). reflexivity.
  - unfold batches. rewrite map_map.
    assert (Hn : length (hd [] ds) = n) by (destruct ds; [congruence|]; inversion HF; auto). rewrite Hn.
    set (d := nth k ds []). assert (Ld : length d = n) by (rewrite Forall_forall in HF; apply HF, nth_In; assumption).
    assert (E : forall j, nth k (map (fun d => firstn bsz (skipn (j * bsz) d)) ds) [] = map (fun p => nth p d []) (seq (j * bsz) (Nat.min bsz (n - j * bsz)))).
    { intros j. rewrite (nth_indep _ [] (firstn bsz (skipn (j * bsz) []))) by (rewrite map_length; assumption).
      rewrite (map_nth (fun d => firstn bsz (skipn (j * bsz) d))). fold d.
      apply (list_nth_ext []); [rewrite firstn_skipn_length, map_length, seq_length, Ld; reflexivity|].
      intros t Ht. rewrite firstn_skipn_length, Ld in Ht. rewrite nth_firstn_skipn by lia.
      rewrite (nth_indep (map _ _) [] (nth 0 d [])) by (rewrite map_length, seq_length; lia).
      rewrite (map_nth (fun p => nth p d [])), seq_nth by lia. reflexivity. }
    rewrite (map_ext _ _ E). rewrite <- flat_map_concat_map, <- map_flat_map, chunk_seq, Nat.min_r by (apply ceil_cover; assumption).
    rewrite <- Ld. clear. induction d as [|x d IH] using rev_ind; [reflexivity|].
    rewrite app_length, Nat.add_1_r, seq_S, map_app. cbn [map]. rewrite app_nth2, Nat.add_0_l, Nat.sub_diag by lia. cbn [nth].
    rewrite <- IH at 2. f_equal. apply map_ext_in. intros p Hp. apply in_seq in Hp. apply app_nth1. lia.
Qed.

Section F.
Variable pw : Qc -> Qc.
Variable ln2 : Qc.

Definition out1 (st0 : store) (m : klayer layer) (s : list sample) : list sample :=
  match run (sem1 pw ln2 st0) m s [] with Ok (ys, _) => ys | Raise => [] end.
Definition vis1 (st0 : store) (m : klayer layer) (s : list sample) : visits :=
  match run (sem1 pw ln2 st0) m s [] with Ok (_, v) => v | Raise => [] end.
Definition runs (st0 : store) (m : klayer layer) (s : list sample) : Prop :=
  exists r, run (sem1 pw ln2 st0) m s [] = Ok r.
Definition vall (st0 : store) (m : klayer layer) (V : nat -> nat -> Qc -> Prop) (ss : list (list sample)) : nat -> nat -> Qc -> Prop :=
  fun i g v => V i g v \/ exists s y, In s ss /\ In (i, y) (vis1 st0 m s) /\ grp st0 i g y v.

Definition good_batch (b : list (list sample)) : Prop := b <> [] /\ exists n, 0 < n /\ Forall (fun d => length d = n) b.

Lemma cols_of_good b n : b <> [] -> Forall (fun d : list sample => length d = n) b -> cols_of b = map (cols b) (seq 0 n).
Proof. intros H HF. unfold cols_of. destruct b; [congruence|]. inversion HF; subst. reflexivity. Qed.

Definition nouts (m : klayer layer) : nat := match m with Leaf _ => 1 | Sub _ _ outs => length outs end.
Lemma run_nouts {V St} (f : layer -> list V -> St -> result (V * St)) m ins st outs st' : run f m ins st = Ok (outs, st') -> length outs = nouts m.
Proof.
  destruct m as [x|nin nodes os]; intros E.
  - cbn [run] in E. destruct (f x ins st); [|discriminate]. injection E as <- _. reflexivity.
  - rewrite run_sub in E. destruct (Nat.eqb _ _); [|discriminate]. destruct (run_nodes _ _ _ _); [|discriminate]. cbn [rbind] in E.
    destruct (rseq _) as [l|] eqn:El; [|discriminate]. cbn [rbind] in E. injection E as <- _.
    apply rseq_ok in El. destruct El as [El _]. rewrite map_length in El. exact El.
Qed.

Lemma feed_gen st0 m : Forall obj_ok st0 -> leaves hgq_layer m -> forall bs st V, Forall good_batch bs -> rel st0 V st ->
  match feed pw ln2 m bs st with
  | Ok (rs, st') => Forall (runs st0 m) (flat_map cols_of bs) /\ rel st0 (vall st0 m V (flat_map cols_of bs)) st' /\
      (forall k, k < nouts m -> concat (map (fun r => nth k r []) rs) = map (fun s => nth k (out1 st0 m s) []) (flat_map cols_of bs)) /\
      Forall (fun r => length r = nouts m) rs
  | Raise => exists s, In s (flat_map cols_of bs) /\ run (sem1 pw ln2 st0) m s [] = Raise
  end.
Proof.
  intros Hok Hl. induction bs as [|b bs IH]; intros st V HG R; cbn [feed flat_map].
  - split; [constructor|]. split.
    + eapply (rel_ext pw ln2); [|exact R]. intros i g v. unfold vall. split; [tauto|]. intros [H|[s [y [[] _]]]]. exact H.
    + split; [reflexivity|constructor].
  - inversion HG as [|? ? [Hb [n [Hn HF]]] HG']; subst.
    pose proof (sim_run pw ln2 st0 m Hok Hl n b st V Hn HF R) as S. unfold call_model.
    assert (EC : cols_of b = map (cols b) (seq 0 n)) by (apply cols_of_good; assumption).
    destruct (run _ m b st) as [[outs st1]|] eqn:Er; cbn [rbind fst snd].
    2: { destruct S as [j [Hj Ej]]. exists (cols b j). split; [|apply Ej]. apply in_or_app. left. rewrite EC. apply in_map, in_seq. lia. }
    destruct S as [Lo [vis [Ev R1]]].
    assert (EV : forall j, j < n -> run (sem1 pw ln2 st0) m (cols b j) [] = Ok (cols outs j, vis j)) by (intros j Hj; apply Ev; assumption).
    specialize (IH st1 _ HG' R1). destruct (feed pw ln2 m bs st1) as [[rs st']|]; cbn [rbind fst snd].
    2: { destruct IH as [s [Hs Es]]. exists s. split; [apply in_or_app; right; assumption|assumption]. }
    destruct IH as [Hr [R' [Ho Hrs]]]. split.
    { apply Forall_app. split; [|assumption]. rewrite EC. apply Forall_forall. intros s Hs. apply in_map_iff in Hs.
      destruct Hs as [j [<- Hj]]. apply in_seq in Hj. eexists. apply EV. lia. }
    split.
    { eapply (rel_ext pw ln2); [|exact R']. intros i g v. unfold vall, vadd. split.
      - intros [[H|[j [y [Hj [Hy Hg]]]]]|[s [y [Hs H]]]]; [tauto| |].
        + right. exists (cols b j), y. split; [apply in_or_app; left; rewrite EC; apply in_map, in_seq; lia|].
          unfold vis1. rewrite EV by assumption. auto.
        + right. exists s, y. split; [apply in_or_app; tauto|assumption].
      - intros [H|[s [y [Hs [Hy Hg]]]]]; [tauto|]. apply in_app_or in Hs. destruct Hs as [Hs|Hs]; [left; right|right; eauto].
        rewrite EC in Hs. apply in_map_iff in Hs. destruct Hs as [j [<- Hj]]. apply in_seq in Hj. exists j, y. split; [lia|].
        unfold vis1 in Hy. rewrite EV in Hy by lia. auto. }
    split; [|constructor; [eapply run_nouts, Er|assumption]].
    intros k Hk. cbn [map concat]. rewrite map_app, <- Ho by assumption. f_equal. rewrite EC, map_map.
    assert (Lk : length outs = nouts m) by (eapply run_nouts, Er).
    apply (list_nth_ext []).
    + rewrite map_length, seq_length. rewrite Forall_forall in Lo. apply Lo, nth_In. lia.
    + intros t Ht. assert (Ln : length (nth k outs []) = n) by (rewrite Forall_forall in Lo; apply Lo, nth_In; lia).
      rewrite nth_map_seq by lia. unfold out1. rewrite EV by lia. unfold cols.
      rewrite (nth_indep (map _ outs) [] ((fun b : list sample => nth t b []) [])) by (rewrite map_length; lia).
      rewrite (map_nth (fun b => nth t b [])). reflexivity.
Qed.

Lemma batches_good n ds bsz : dataset n ds -> 0 < bsz -> Forall good_batch (batches ds bsz).
Proof.
  intros [HF Hd] Hb. unfold batches.
  assert (Hn : length (hd [] ds) = n) by (destruct ds; [congruence|]; inversion HF; auto). rewrite Hn.
  apply Forall_forall. intros b H. apply in_map_iff in H. destruct H as [j [<- Hj]]. apply in_seq in Hj.
  split; [destruct ds; [congruence|discriminate]|]. exists (Nat.min bsz (n - j * bsz)). split.
  - pose proof (ceil_tight n bsz j Hb ltac:(lia)). lia.
  - apply Forall_forall. intros x Hx. apply in_map_iff in Hx. destruct Hx as [d [<- Hd']]. rewrite firstn_skipn_length.
    rewrite Forall_forall in HF. rewrite (HF d Hd'). reflexivity.
Qed.

Lemma feed_spec st0 m n ds bsz st V : Forall obj_ok st0 -> leaves hgq_layer m -> dataset n ds -> 0 < bsz -> rel st0 V st ->
  match feed pw ln2 m (batches ds bsz) st with
  | Ok (rs, st') => Forall (runs st0 m) (map (sample_of ds) (seq 0 n)) /\ rel st0 (vall st0 m V (map (sample_of ds) (seq 0 n))) st' /\
      (forall k, k < nouts m -> concat (map (fun r => nth k r []) rs) = map (fun s => nth k (out1 st0 m s) []) (map (sample_of ds) (seq 0 n))) /\
      Forall (fun r => length r = nouts m) rs
  | Raise => exists s, In s (map (sample_of ds) (seq 0 n)) /\ run (sem1 pw ln2 st0) m s [] = Raise
  end.
Proof.
  intros Hok Hl Hd Hb R. pose proof (feed_gen st0 m Hok Hl _ st V (batches_good n ds bsz Hd Hb) R) as H.
  rewrite (batches_cols n ds bsz Hd Hb) in H. exact H.
Qed.

Lemma feed_bsz st m n ds b1 b2 rs st' : Forall obj_ok st -> leaves hgq_layer m -> dataset n ds -> 0 < b1 -> 0 < b2 ->
  feed pw ln2 m (batches ds b1) st = Ok (rs, st') ->
  exists rs', feed pw ln2 m (batches ds b2) st = Ok (rs', st') /\
    forall k, concat (map (fun r => nth k r []) rs') = concat (map (fun r => nth k r []) rs).
Proof.
  intros Hok Hl Hd H1 H2 E. pose proof (rel_refl st (fun _ _ _ => False) ltac:(auto)) as R.
  pose proof (feed_spec st m n ds b1 st _ Hok Hl Hd H1 R) as F1. pose proof (feed_spec st m n ds b2 st _ Hok Hl Hd H2 R) as F2.
  rewrite E in F1. destruct F1 as [A [B [C D]]]. destruct (feed pw ln2 m (batches ds b2) st) as [[rs' st'']|].
  - destruct F2 as [A' [B' [C' D']]]. rewrite (rel_unique pw ln2 st _ _ _ _ Hok (fun i g v => iff_refl _) B B').
    exists rs'. split; [reflexivity|]. intros k. destruct (le_lt_dec (nouts m) k) as [Hk|Hk].
    + assert (Z : forall r : list (list (list (list Qc))), Forall (fun r => length r = nouts m) r -> concat (map (fun r => nth k r []) r) = []).
      { induction 1 as [|r l Hr _ IH]; [reflexivity|]. cbn [map concat]. rewrite IH, nth_overflow by lia. reflexivity. }
      rewrite !Z by assumption. reflexivity.
    + rewrite C, C' by assumption. reflexivity.
  - destruct F2 as [s [Hs Es]]. rewrite Forall_forall in A. destruct (A s Hs) as [r Er]. congruence.
Qed.
End F.

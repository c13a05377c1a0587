(** Facts about whole-tensor quantizer calls and range recording. *)
From Coq Require Import ZArith QArith Qcanon List Bool Lia Arith.
From Verif Require Import Base.Num Base.NumFacts Base.Tensor Model.FixedPoint Model.Quantizer
  Spec.Fixed Spec.Quant Spec.History Proofs.TensorP Proofs.QuantizerP.
Import ListNotations.
Local Open Scope nat_scope.

(** ** forward as an element-wise operation *)
Lemma forward_elems pw ln2 q x training noise y q' record :
  forward pw ln2 q x training record noise = Ok (y, q') ->
  broadcast_shape (shape x) (shape (q_fbw q)) = Some (shape y) /\ length (data y) = prodn (shape y) /\
  (forall p d, p < prodn (shape y) ->
    forward_elem pw ln2 (q_strategy q) (q_exact q) training (noise p)
      (nth (bidx (pad_to (length (shape y)) (shape (q_fbw q))) (shape y) p) (data (q_fbw q)) (qz 0))
      (nth (bidx (pad_to (length (shape y)) (shape x)) (shape y) p) (data x) (qz 0))
    = Ok (nth p (data y) d)) /\
  (record = false -> q' = q) /\
  (record = true -> exists mn mx, record_min (q_skip q) y (q_min q) = Ok mn /\
      record_max (q_skip q) y (q_max q) = Ok mx /\ q' = with_minmax q mn mx).
Proof.
  unfold forward. intros H.
  destruct (bmap2 _ _ _ x (q_fbw q)) as [vf|] eqn:Eb; cbn [rbind] in H; [|discriminate].
  destruct (bmap2_ok _ _ _ _ _ _ Eb) as [B1 [B2 B3]].
  destruct (rseq _) as [ys|] eqn:Er; cbn [rbind] in H; [|discriminate].
  apply rseq_ok in Er. destruct Er as [L N].
  rewrite map_length, combine_length, seq_length, Nat.min_id in L.
  rewrite map_length, combine_length, seq_length, Nat.min_id in N.
  assert (S : shape y = shape vf /\ data y = ys /\
    (record = false -> q' = q) /\
    (record = true -> exists mn mx, record_min (q_skip q) y (q_min q) = Ok mn /\
      record_max (q_skip q) y (q_max q) = Ok mx /\ q' = with_minmax q mn mx)).
  { destruct record; cbn [negb] in H.
    - destruct (record_min _ _ _) as [mn|] eqn:E1; cbn [rbind] in H; [|discriminate].
      destruct (record_max _ _ _) as [mx|] eqn:E2; cbn [rbind] in H; [|discriminate].
      injection H as <- <-. split; [reflexivity|]. split; [reflexivity|]. split; [discriminate|].
      intros _. exists mn, mx. auto.
    - injection H as <- <-. split; [reflexivity|]. split; [reflexivity|]. split; [reflexivity|discriminate]. }
  destruct S as [S1 [S2 [S3 S4]]]. rewrite S1, S2. split; [assumption|]. split; [congruence|]. split; [|split; assumption].
  intros p d Hp. rewrite <- (N p d) by congruence.
  rewrite nth_indep with (d' := (fun pvf : nat * (Qc * Qc) => forward_elem pw ln2 (q_strategy q) (q_exact q) training
      (noise (fst pvf)) (snd (snd pvf)) (fst (snd pvf))) (0, (qz 0, qz 0)))
    by (rewrite map_length, combine_length, seq_length, Nat.min_id; congruence).
  rewrite (map_nth (fun pvf : nat * (Qc * Qc) => forward_elem pw ln2 (q_strategy q) (q_exact q) training
      (noise (fst pvf)) (snd (snd pvf)) (fst (snd pvf)))).
  rewrite nth_combine_seq by congruence. cbn [fst snd].
  rewrite B3 by assumption. cbn [fst snd]. reflexivity.
Qed.

Lemma forward_ok pw ln2 q x training noise s :
  broadcast_shape (shape x) (shape (q_fbw q)) = Some s ->
  (training = true -> (0 <= q_strategy q <= 3)%Z) ->
  exists y, shape y = s /\ forall record, forward pw ln2 q x training record noise =
    if negb record then Ok (y, q)
    else rbind (record_min (q_skip q) y (q_min q)) (fun mn =>
         rbind (record_max (q_skip q) y (q_max q)) (fun mx =>
         Ok (y, with_minmax q mn mx))).
Proof.
  intros Hb Hs. unfold forward, bmap2. rewrite Hb. cbn [rbind data shape].
  match goal with |- context [rseq ?l] => destruct (rseq_total l) as [ys E] end.
  { intros r Hr. apply in_map_iff in Hr. destruct Hr as [[p [v f]] [<- _]]. cbn [fst snd].
    rewrite forward_elem_xq. unfold xq_of.
    destruct (q_round _ _ _) as [z|] eqn:E; [eexists; reflexivity|].
    apply q_round_raise in E. exfalso. apply E. unfold eff_strategy.
    destruct training; cbn [negb andb]; [auto|]. destruct (Z.eqb_spec (q_strategy q) 3); cbn [negb]; lia. }
  rewrite E. cbn [rbind]. exists (mkT s ys). split; [reflexivity|]. intros record. reflexivity.
Qed.

(** ** Minimum and maximum *)
Lemma least_ext P Q e : (forall v, P v <-> Q v) -> least P e -> least Q e.
Proof.
  intros H [[N E]|[v [Pv [E L]]]]; [left|right].
  - split; [|assumption]. intros v Qv. apply (N v), H, Qv.
  - exists v. split; [apply H, Pv|]. split; [assumption|]. intros u Qu. apply L, H, Qu.
Qed.
Lemma greatest_ext P Q e : (forall v, P v <-> Q v) -> greatest P e -> greatest Q e.
Proof.
  intros H [[N E]|[v [Pv [E L]]]]; [left|right].
  - split; [|assumption]. intros v Qv. apply (N v), H, Qv.
  - exists v. split; [apply H, Pv|]. split; [assumption|]. intros u Qu. apply L, H, Qu.
Qed.
Lemma least_union P Q e f : least P e -> least Q f -> least (fun v => P v \/ Q v) (ext_min e f).
Proof.
  unfold ext_min. intros [[N ->]|[v [Pv [-> L]]]] [[M ->]|[w [Qw [-> K]]]]; cbn [ext_leb].
  - left. split; [|reflexivity]. intros u [H|H]; [apply (N u H)|apply (M u H)].
  - right. exists w. split; [auto|]. split; [reflexivity|]. intros u [H|H]; [exfalso; apply (N u H)|auto].
  - right. exists v. split; [auto|]. split; [reflexivity|]. intros u [H|H]; [auto|exfalso; apply (M u H)].
  - right. destruct (qleb_spec v w).
    + exists v. split; [auto|]. split; [reflexivity|]. intros u [Hu|Hu]; [auto|]. eapply Qcle_trans; eauto.
    + exists w. split; [auto|]. split; [reflexivity|]. intros u [Hu|Hu]; [|auto].
      eapply Qcle_trans; [apply Qclt_le_weak; eassumption|auto].
Qed.
Lemma greatest_union P Q e f : greatest P e -> greatest Q f -> greatest (fun v => P v \/ Q v) (ext_max e f).
Proof.
  unfold ext_max. intros [[N ->]|[v [Pv [-> L]]]] [[M ->]|[w [Qw [-> K]]]]; cbn [ext_leb].
  - left. split; [|reflexivity]. intros u [H|H]; [apply (N u H)|apply (M u H)].
  - right. exists w. split; [auto|]. split; [reflexivity|]. intros u [H|H]; [exfalso; apply (N u H)|auto].
  - right. exists v. split; [auto|]. split; [reflexivity|]. intros u [H|H]; [auto|exfalso; apply (M u H)].
  - right. destruct (qleb_spec v w).
    + exists w. split; [auto|]. split; [reflexivity|]. intros u [Hu|Hu]; [|auto].
      eapply Qcle_trans; [|eassumption]. auto.
    + exists v. split; [auto|]. split; [reflexivity|]. intros u [Hu|Hu]; [auto|].
      eapply Qcle_trans; [eauto|]. apply Qclt_le_weak; assumption.
Qed.
Lemma least_single w : least (fun v => v = w) (Fin w).
Proof. right. exists w. split; [reflexivity|]. split; [reflexivity|]. intros u ->. apply Qcle_refl. Qed.
Lemma greatest_single w : greatest (fun v => v = w) (Fin w).
Proof. right. exists w. split; [reflexivity|]. split; [reflexivity|]. intros u ->. apply Qcle_refl. Qed.
Lemma least_none : least (fun _ => False) PosInf.
Proof. left. split; [tauto|reflexivity]. Qed.
Lemma greatest_none : greatest (fun _ => False) NegInf.
Proof. left. split; [tauto|reflexivity]. Qed.

(** Folding over the positions selected by [c]. *)
Lemma fold_least (c : nat -> bool) (ps : list (nat * Qc)) P e : least P e ->
  least (fun v => P v \/ exists p, In (p, v) ps /\ c p = true)
    (fold_left (fun acc pv => if c (fst pv) then ext_min acc (snd pv) else acc)
       (map (fun pv => (fst pv, Fin (snd pv))) ps) e).
Proof.
  revert P e. induction ps as [|[p v] ps IH]; intros P e H; cbn [map fold_left fst snd].
  - eapply least_ext; [|exact H]. intros v; cbn. split; [auto|]. intros [Hv|[p [[] _]]]; assumption.
  - destruct (c p) eqn:E.
    + eapply least_ext; [|apply IH, least_union; [exact H|apply (least_single v)]].
      intros u; cbn. split.
      * intros [[Hu|Hu]|[p' [Hp Hc]]]; [auto|right; exists p; subst; auto|right; exists p'; auto].
      * intros [Hu|[p' [[Hp|Hp] Hc]]]; [auto|injection Hp as -> ->; auto|right; exists p'; auto].
    + eapply least_ext; [|apply IH, H].
      intros u; cbn. split.
      * intros [Hu|[p' [Hp Hc]]]; [auto|right; exists p'; auto].
      * intros [Hu|[p' [[Hp|Hp] Hc]]]; [auto|injection Hp as -> ->; congruence|right; exists p'; auto].
Qed.
Lemma fold_greatest (c : nat -> bool) (ps : list (nat * Qc)) P e : greatest P e ->
  greatest (fun v => P v \/ exists p, In (p, v) ps /\ c p = true)
    (fold_left (fun acc pv => if c (fst pv) then ext_max acc (snd pv) else acc)
       (map (fun pv => (fst pv, Fin (snd pv))) ps) e).
Proof.
  revert P e. induction ps as [|[p v] ps IH]; intros P e H; cbn [map fold_left fst snd].
  - eapply greatest_ext; [|exact H]. intros v; cbn. split; [auto|]. intros [Hv|[p [[] _]]]; assumption.
  - destruct (c p) eqn:E.
    + eapply greatest_ext; [|apply IH, greatest_union; [exact H|apply (greatest_single v)]].
      intros u; cbn. split.
      * intros [[Hu|Hu]|[p' [Hp Hc]]]; [auto|right; exists p; subst; auto|right; exists p'; auto].
      * intros [Hu|[p' [[Hp|Hp] Hc]]]; [auto|injection Hp as -> ->; auto|right; exists p'; auto].
    + eapply greatest_ext; [|apply IH, H].
      intros u; cbn. split.
      * intros [Hu|[p' [Hp Hc]]]; [auto|right; exists p'; auto].
      * intros [Hu|[p' [[Hp|Hp] Hc]]]; [auto|injection Hp as -> ->; congruence|right; exists p'; auto].
Qed.
Lemma combine_seq_In {A} (l : list A) p v : In (p, v) (combine (seq 0 (length l)) l) <-> nth_error l p = Some v.
Proof.
  split.
  - intros H. apply In_nth with (d := (0, v)) in H. destruct H as [n [Hn E]].
    rewrite combine_length, seq_length, Nat.min_id in Hn.
    rewrite nth_combine_seq in E by assumption. injection E as <- E.
    rewrite (nth_error_nth' l v Hn). congruence.
  - intros H. assert (Hp : p < length l) by (apply nth_error_Some; congruence).
    rewrite (nth_error_nth' l v Hp) in H. injection H as H.
    replace (p, v) with (nth p (combine (seq 0 (length l)) l) (0, v))
      by (rewrite nth_combine_seq by assumption; congruence).
    apply nth_In. rewrite combine_length, seq_length, Nat.min_id. assumption.
Qed.
Lemma combine_map_r {A B} (f : A -> B) (l : list A) :
  combine (seq 0 (length (map f l))) (map f l) = map (fun pv => (fst pv, f (snd pv))) (combine (seq 0 (length l)) l).
Proof.
  rewrite map_length. generalize 0. induction l as [|a l IH]; intros n; cbn; [reflexivity|]. rewrite IH. reflexivity.
Qed.

(** Reduction over a prefix of the axes. *)
Lemma in_group_mod N g l p v : N <> 0 -> nth_error l p = Some v -> p mod N = g -> in_group N g l v.
Proof. intros HN H E. exists (p / N). rewrite <- E, Nat.mul_comm, <- Nat.div_mod by assumption. assumption. Qed.
Lemma in_group_iff N g l v : N <> 0 -> g < N ->
  (in_group N g l v <-> exists p, In (p, v) (combine (seq 0 (length l)) l) /\ (p mod N =? g) = true).
Proof.
  intros HN Hg. split.
  - intros [j H]. exists (j * N + g). split; [apply combine_seq_In, H|]. apply Nat.eqb_eq.
    rewrite Nat.add_comm, Nat.mod_add by assumption. apply Nat.mod_small; assumption.
  - intros [p [Hp E]]. apply combine_seq_In in Hp. apply Nat.eqb_eq in E. eapply in_group_mod; eauto.
Qed.
Lemma fold_left_cond_ext {A B} (f f' : nat -> bool) (op : A -> B -> A) (ps : list (nat * B)) e :
  (forall p v, In (p, v) ps -> f p = f' p) ->
  fold_left (fun acc pv => if f (fst pv) then op acc (snd pv) else acc) ps e =
  fold_left (fun acc pv => if f' (fst pv) then op acc (snd pv) else acc) ps e.
Proof.
  revert e. induction ps as [|[p v] ps IH]; intros e H; cbn [fold_left fst snd]; [reflexivity|].
  rewrite (H p v (or_introl eq_refl)). apply IH. intros; eapply H; right; eassumption.
Qed.
Lemma treduce_prefix {A} (op : A -> A -> A) init pre rest r (t : tensor A) : shape t = pre ++ rest ->
  length (data t) = prodn (shape t) ->
  treduce op init (repeat true (length pre) ++ repeat false r) false t =
  mkT rest (map (fun o => fold_left (fun acc pv => if (fst pv mod prodn rest =? o) then op acc (snd pv) else acc)
                   (combine (seq 0 (length (data t))) (data t)) init) (seq 0 (prodn rest))).
Proof.
  intros Hs W. unfold treduce. rewrite Hs, kept_prefix. f_equal. apply map_ext. intros o.
  apply (fold_left_cond_ext (fun p => ridx (repeat true (length pre) ++ repeat false r) (pre ++ rest) p =? o)
           (fun p => p mod prodn rest =? o)).
  intros p v H. rewrite ridx_prefix; [reflexivity|]. apply combine_seq_In in H.
  rewrite <- Hs, <- W. apply nth_error_Some. congruence.
Qed.

(** A skip_dims value that names the first m axes. *)
Lemma prefix_skip_truthy s m : prefix_skip s m ->
  (m = 0 /\ skip_truthy s = None) \/ (m <> 0 /\ skip_truthy s = Some (map Z.of_nat (seq 0 m))).
Proof.
  intros [->|[-> ->]]; [|left; split; reflexivity]. destruct m as [|m]; [left; split; reflexivity|right].
  split; [discriminate|]. reflexivity.
Qed.

Lemma red_least s m pre rest (y : tensor Qc) : prefix_skip s m -> length pre = m ->
  shape y = pre ++ rest -> length (data y) = prodn (shape y) ->
  exists t, match skip_truthy s with
            | Some ds => treduce ext_min PosInf (axis_flags (length (shape y)) ds) false (tmap Fin y)
            | None => tmap Fin y end = t /\ shape t = rest /\ length (data t) = prodn rest /\
    forall g d, g < prodn rest -> least (in_group (prodn rest) g (data y)) (nth g (data t) d).
Proof.
  intros Hp Hm Hs W. destruct (prefix_skip_truthy _ _ Hp) as [[-> ->]|[N ->]].
  - apply length_zero_iff_nil in Hm. subst pre. cbn [app] in Hs. eexists; split; [reflexivity|].
    cbn [tmap shape data]. split; [assumption|]. split; [rewrite map_length; congruence|].
    intros g d Hg. rewrite nth_indep with (d' := Fin (qz 0)) by (rewrite map_length; congruence).
    rewrite (map_nth Fin). eapply least_ext; [|apply least_single]. intros v; cbn beta. split.
    + intros ->. exists 0. cbn. apply nth_error_nth'. congruence.
    + intros [j Hj]. assert (L : j * prodn rest + g < length (data y)) by (apply nth_error_Some; congruence).
      rewrite W, Hs in L. destruct j as [|j]; [|nia]. cbn in Hj.
      symmetry. apply nth_error_nth. assumption.
  - rewrite Hs, app_length, Hm. rewrite axis_flags_prefix. rewrite <- Hm.
    rewrite treduce_prefix with (rest := rest); [|assumption|cbn [tmap data]; rewrite map_length; assumption].
    eexists; split; [reflexivity|]. cbn [shape data]. split; [reflexivity|].
    split; [rewrite map_length, seq_length; reflexivity|].
    intros g d Hg. rewrite nth_map_seq by assumption. cbn [tmap data]. rewrite combine_map_r.
    eapply least_ext; [|apply (fold_least (fun p => p mod prodn rest =? g)), least_none].
    intros v. cbn beta. rewrite in_group_iff by lia. tauto.
Qed.
Lemma red_greatest s m pre rest (y : tensor Qc) : prefix_skip s m -> length pre = m ->
  shape y = pre ++ rest -> length (data y) = prodn (shape y) ->
  exists t, match skip_truthy s with
            | Some ds => treduce ext_max NegInf (axis_flags (length (shape y)) ds) false (tmap Fin y)
            | None => tmap Fin y end = t /\ shape t = rest /\ length (data t) = prodn rest /\
    forall g d, g < prodn rest -> greatest (in_group (prodn rest) g (data y)) (nth g (data t) d).
Proof.
  intros Hp Hm Hs W. destruct (prefix_skip_truthy _ _ Hp) as [[-> ->]|[N ->]].
  - apply length_zero_iff_nil in Hm. subst pre. cbn [app] in Hs. eexists; split; [reflexivity|].
    cbn [tmap shape data]. split; [assumption|]. split; [rewrite map_length; congruence|].
    intros g d Hg. rewrite nth_indep with (d' := Fin (qz 0)) by (rewrite map_length; congruence).
    rewrite (map_nth Fin). eapply greatest_ext; [|apply greatest_single]. intros v; cbn beta. split.
    + intros ->. exists 0. cbn. apply nth_error_nth'. congruence.
    + intros [j Hj]. assert (L : j * prodn rest + g < length (data y)) by (apply nth_error_Some; congruence).
      rewrite W, Hs in L. destruct j as [|j]; [|nia]. cbn in Hj.
      symmetry. apply nth_error_nth. assumption.
  - rewrite Hs, app_length, Hm. rewrite axis_flags_prefix. rewrite <- Hm.
    rewrite treduce_prefix with (rest := rest); [|assumption|cbn [tmap data]; rewrite map_length; assumption].
    eexists; split; [reflexivity|]. cbn [shape data]. split; [reflexivity|].
    split; [rewrite map_length, seq_length; reflexivity|].
    intros g d Hg. rewrite nth_map_seq by assumption. cbn [tmap data]. rewrite combine_map_r.
    eapply greatest_ext; [|apply (fold_greatest (fun p => p mod prodn rest =? g)), greatest_none].
    intros v. cbn beta. rewrite in_group_iff by lia. tauto.
Qed.

(** Broadcasting [rest] against [1..1 ++ rest]. *)
Lemma bmap2_lead {A B C} (da : A) (db : B) (f : A -> B -> C) m rest t1 t2 :
  shape t1 = rest -> shape t2 = repeat 1 m ++ rest ->
  exists y, bmap2 da db f t1 t2 = Ok y /\ shape y = repeat 1 m ++ rest /\ length (data y) = prodn rest /\
    forall g d, g < prodn rest -> nth g (data y) d = f (nth g (data t1) da) (nth g (data t2) db).
Proof.
  intros H1 H2.
  assert (L : length (repeat 1 m ++ rest) = m + length rest) by (rewrite app_length, repeat_length; reflexivity).
  assert (Pd : pad_to (m + length rest) rest = repeat 1 m ++ rest).
  { unfold pad_to. do 2 f_equal. lia. }
  assert (Hb : broadcast_shape (shape t1) (shape t2) = Some (repeat 1 m ++ rest)).
  { unfold broadcast_shape. rewrite H1, H2, L. rewrite Nat.max_r by lia. rewrite Pd.
    rewrite pad_to_eq by (symmetry; assumption). apply bshape_self. }
  assert (Pr : prodn (repeat 1 m ++ rest) = prodn rest) by (rewrite prodn_app, prodn_ones; lia).
  unfold bmap2. rewrite Hb. eexists. split; [reflexivity|]. cbn [shape data]. split; [reflexivity|].
  split; [rewrite map_length, seq_length; assumption|]. intros g d Hg. rewrite nth_map_seq by lia.
  rewrite H1, H2, L, Pd. rewrite pad_to_eq by (symmetry; assumption). rewrite bidx_self by lia. reflexivity.
Qed.


Lemma record_min_spec s m pre rest y mn : prefix_skip s m -> length pre = m ->
  shape y = pre ++ rest -> length (data y) = prodn (shape y) -> reg_ok m rest mn ->
  exists mn', record_min s y mn = Ok mn' /\ reg_ok m rest mn' /\
    forall g d d' P, g < prodn rest -> least P (nth g (data mn) d) ->
      least (fun v => in_group (prodn rest) g (data y) v \/ P v) (nth g (data mn') d').
Proof.
  intros Hp Hm Hs W [R1 R2]. unfold record_min. cbv zeta.
  destruct (red_least s m pre rest y Hp Hm Hs W) as [t [-> [T1 [T2 T3]]]].
  destruct (bmap2_lead PosInf PosInf ext_min m rest t mn T1 R1) as [z [-> [Z1 [Z2 Z3]]]].
  cbn [rbind]. destruct (list_eq_dec Nat.eq_dec (shape z) (shape mn)) as [_|N]; [|congruence].
  eexists; split; [reflexivity|]. split; [split; assumption|].
  intros g d d' P Hg HP. rewrite Z3 by assumption. apply least_union; [apply T3; assumption|].
  rewrite nth_indep with (d' := d) by lia. assumption.
Qed.
Lemma record_max_spec s m pre rest y mx : prefix_skip s m -> length pre = m ->
  shape y = pre ++ rest -> length (data y) = prodn (shape y) -> reg_ok m rest mx ->
  exists mx', record_max s y mx = Ok mx' /\ reg_ok m rest mx' /\
    forall g d d' P, g < prodn rest -> greatest P (nth g (data mx) d) ->
      greatest (fun v => in_group (prodn rest) g (data y) v \/ P v) (nth g (data mx') d').
Proof.
  intros Hp Hm Hs W [R1 R2]. unfold record_max. cbv zeta.
  destruct (red_greatest s m pre rest y Hp Hm Hs W) as [t [-> [T1 [T2 T3]]]].
  destruct (bmap2_lead NegInf NegInf ext_max m rest t mx T1 R1) as [z [-> [Z1 [Z2 Z3]]]].
  cbn [rbind]. destruct (list_eq_dec Nat.eq_dec (shape z) (shape mx)) as [_|N]; [|congruence].
  eexists; split; [reflexivity|]. split; [split; assumption|].
  intros g d d' P Hg HP. rewrite Z3 by assumption. apply greatest_union; [apply T3; assumption|].
  rewrite nth_indep with (d' := d) by lia. assumption.
Qed.

(** ** Histories *)

Definition hinv m rest (st : hgq * list (tensor Qc)) : Prop :=
  let '(q, log) := st in
  prefix_skip (q_skip q) m /\ reg_ok m rest (q_fbw q) /\ reg_ok m rest (q_min q) /\ reg_ok m rest (q_max q) /\
  (forall g, g < prodn rest -> least (logged (prodn rest) g log) (nth g (data (q_min q)) PosInf)) /\
  (forall g, g < prodn rest -> greatest (logged (prodn rest) g log) (nth g (data (q_max q)) NegInf)) /\
  (forall y, In y log -> exists pre, length pre = m /\ shape y = pre ++ rest /\ length (data y) = prodn (shape y)).

Lemma reg_ok_tmap {A B} (f : A -> B) m rest t : reg_ok m rest t -> reg_ok m rest (tmap f t).
Proof. intros [H1 H2]. split; cbn [tmap shape data]; [assumption|rewrite map_length; assumption]. Qed.
Lemma nth_map_const {A B} (b : B) (l : list A) n : nth n (map (fun _ => b) l) b = b.
Proof. revert n; induction l; intros [|n]; cbn; auto. Qed.

Lemma hinv_reset m rest q log : hinv m rest (q, log) -> hinv m rest (minmax_reg_reset q, []).
Proof.
  intros [H1 [H2 [H3 [H4 [H5 [H6 H7]]]]]]. unfold minmax_reg_reset, hinv; cbn [with_minmax q_skip q_fbw q_min q_max].
  split; [assumption|]. split; [assumption|]. split; [apply reg_ok_tmap; assumption|].
  split; [apply reg_ok_tmap; assumption|]. split; [|split].
  - intros g Hg. cbn [tmap data]. rewrite nth_map_const. left. split; [|reflexivity]. intros v [y [[] _]].
  - intros g Hg. cbn [tmap data]. rewrite nth_map_const. left. split; [|reflexivity]. intros v [y [[] _]].
  - intros y [].
Qed.
Lemma hinv_build m rest f s strategy exact clip : prefix_skip s m -> reg_ok m rest f ->
  hinv m rest (hgq_build f s strategy exact clip, []).
Proof.
  intros H1 H2. unfold hgq_build, minmax_reg_reset, hinv; cbn [with_minmax q_skip q_fbw q_min q_max].
  split; [assumption|]. split; [assumption|]. split; [apply reg_ok_tmap; assumption|].
  split; [apply reg_ok_tmap; assumption|]. split; [|split].
  - intros g Hg. cbn [tmap data]. rewrite nth_map_const. left. split; [|reflexivity]. intros v [y [[] _]].
  - intros g Hg. cbn [tmap data]. rewrite nth_map_const. left. split; [|reflexivity]. intros v [y [[] _]].
  - intros y [].
Qed.
Lemma hinv_clip m rest q log : hinv m rest (q, log) -> hinv m rest (clip_fbw q, log).
Proof.
  unfold clip_fbw. destruct (q_clip q) as [[lo hi]|]; [|auto].
  intros [H1 [H2 [H3 [H4 H5]]]]. unfold hinv; cbn [with_fbw q_skip q_fbw q_min q_max].
  split; [assumption|]. split; [apply reg_ok_tmap; assumption|]. auto.
Qed.
Lemma clip_strategy q : q_strategy (clip_fbw q) = q_strategy q.
Proof. unfold clip_fbw. destruct (q_clip q) as [[lo hi]|]; reflexivity. Qed.

Lemma logged_app N g log y v :
  (in_group N g (data y) v \/ logged N g log v) <-> logged N g (log ++ [y]) v.
Proof.
  split.
  - intros [H|[z [Hz H]]]; [exists y|exists z]; (split; [apply in_or_app; cbn; auto|assumption]).
  - intros [z [Hz H]]. apply in_app_or in Hz. destruct Hz as [Hz|[->|[]]]; [right; exists z; auto|left; assumption].
Qed.

Lemma hstep_spec pw ln2 m rest q log op : hinv m rest (q, log) -> ok_op m rest op ->
  (0 <= q_strategy q <= 3)%Z \/ (forall x n r, op <> HCall x true r n) ->
  exists q' log', hstep pw ln2 (q, log) op = Ok (q', log') /\ hinv m rest (q', log') /\ q_strategy q' = q_strategy q.
Proof.
  intros I Hop Hs. destruct op as [|f|x training record noise]; cbn [hstep].
  - eexists _, _. split; [reflexivity|]. split; [eapply hinv_reset; eassumption|reflexivity].
  - cbn [ok_op] in Hop. destruct Hop as [O1 O2]. pose proof I as [H1 [[H2 H2'] H3]].
    destruct (list_eq_dec Nat.eq_dec (shape f) (shape (q_fbw q))) as [E|N]; [|congruence].
    eexists _, _. split; [reflexivity|]. split; [|reflexivity]. unfold hinv; cbn [with_fbw q_skip q_fbw q_min q_max].
    split; [assumption|]. split; [split; assumption|]. assumption.
  - destruct Hop as [pre [Hm [Hx Wx]]]. apply hinv_clip in I. unfold call.
    rewrite <- (clip_strategy q) in *. set (qc := clip_fbw q) in *. clearbody qc. clear q.
    destruct I as [H1 [H2 [H3 [H4 [H5 [H6 H7]]]]]].
    destruct H2 as [S2 L2].
    assert (B : broadcast_shape (shape x) (shape (q_fbw qc)) = Some (pre ++ rest))
      by (rewrite Hx, S2, <- Hm; apply broadcast_prefix).
    destruct (forward_ok pw ln2 qc x training noise (pre ++ rest) B) as [y [Sy Fy]].
    { intros ->. destruct Hs as [Hs|Hs]; [assumption|]. exfalso. eapply Hs; reflexivity. }
    assert (Ly : length (data y) = prodn (shape y)).
    { specialize (Fy false). cbn [negb] in Fy. apply forward_elems in Fy. apply Fy. }
    rewrite (Fy record). destruct record; cbn [negb].
    + destruct (record_min_spec (q_skip qc) m pre rest y (q_min qc) H1 Hm Sy Ly H3) as [mn [-> [R1 R2]]].
      destruct (record_max_spec (q_skip qc) m pre rest y (q_max qc) H1 Hm Sy Ly H4) as [mx [-> [R3 R4]]].
      cbn [rbind fst snd]. eexists _, _. split; [reflexivity|]. split; [|reflexivity].
      unfold hinv; cbn [with_minmax q_skip q_fbw q_min q_max].
      split; [assumption|]. split; [split; assumption|]. split; [assumption|]. split; [assumption|].
      split; [|split].
      * intros g Hg. eapply least_ext; [intros v; apply logged_app|]. eapply R2; [assumption|]. apply H5; assumption.
      * intros g Hg. eapply greatest_ext; [intros v; apply logged_app|]. eapply R4; [assumption|]. apply H6; assumption.
      * intros z Hz. apply in_app_or in Hz. destruct Hz as [Hz|[<-|[]]]; [apply H7; assumption|].
        exists pre. auto.
    + cbn [rbind fst snd]. eexists _, _. split; [reflexivity|]. split; [|reflexivity].
      unfold hinv. split; [assumption|]. split; [split; assumption|]. repeat split; try assumption; try apply H3; apply H4.
Qed.

Lemma hrun_spec pw ln2 m rest ops : forall q log, hinv m rest (q, log) -> Forall (ok_op m rest) ops ->
  (0 <= q_strategy q <= 3)%Z \/ (forall x n r, ~ In (HCall x true r n) ops) ->
  exists q' log', hrun pw ln2 (q, log) ops = Ok (q', log') /\ hinv m rest (q', log').
Proof.
  induction ops as [|op ops IH]; intros q log I F Hs; cbn [hrun].
  - eexists _, _. split; [reflexivity|assumption].
  - inversion F as [|? ? F1 F2]; subst.
    destruct (hstep_spec pw ln2 m rest q log op I F1) as [q' [log' [-> [I' Es]]]].
    { destruct Hs as [Hs|Hs]; [auto|]. right. intros x n r ->. apply (Hs x n r). left; reflexivity. }
    cbn [rbind]. apply IH; [assumption|assumption|]. rewrite Es. destruct Hs as [Hs|Hs]; [auto|right].
    intros x n r Hin. apply (Hs x n r). right; assumption.
Qed.
(** The invariant also holds whenever a run succeeds. *)
Lemma hstep_inv pw ln2 m rest q log op st' : hinv m rest (q, log) -> ok_op m rest op ->
  hstep pw ln2 (q, log) op = Ok st' -> hinv m rest st'.
Proof.
  intros I Hop E.
  destruct op as [|f|x training record noise].
  1: { cbn [hstep] in E. injection E as <-. eapply hinv_reset; eassumption. }
  1: { destruct (hstep_spec pw ln2 m rest q log (HSetBits f) I Hop) as [q' [log' [E' [I' _]]]].
       { right. intros x n r H. discriminate H. }
       rewrite E' in E. injection E as <-. exact I'. }
  destruct Hop as [pre [Hm [Hx Wx]]]. cbn [hstep] in E. unfold call in E. apply hinv_clip in I.
  set (qc := clip_fbw q) in *. clearbody qc. clear q.
  destruct (forward pw ln2 qc x training record noise) as [[y q']|] eqn:Ef; cbn [rbind fst snd] in E; [|discriminate].
  injection E as <-. apply forward_elems in Ef. destruct Ef as [B [Ly [_ [Fr Tr]]]].
  destruct I as [H1 [[S2 L2] [H3 [H4 [H5 [H6 H7]]]]]].
  assert (Sy : shape y = pre ++ rest).
  { rewrite Hx, S2, <- Hm, broadcast_prefix in B. congruence. }
  destruct record.
  - destruct (Tr eq_refl) as [mn [mx [R1 [R2 ->]]]].
    destruct (record_min_spec (q_skip qc) m pre rest y (q_min qc) H1 Hm Sy Ly H3) as [mn' [E1 [R3 R4]]].
    destruct (record_max_spec (q_skip qc) m pre rest y (q_max qc) H1 Hm Sy Ly H4) as [mx' [E2 [R5 R6]]].
    assert (mn' = mn) by congruence. assert (mx' = mx) by congruence. subst mn' mx'.
    unfold hinv; cbn [with_minmax q_skip q_fbw q_min q_max].
    split; [assumption|]. split; [split; assumption|]. split; [assumption|]. split; [assumption|].
    split; [|split].
    + intros g Hg. eapply least_ext; [intros v; apply logged_app|]. eapply R4; [assumption|]. apply H5; assumption.
    + intros g Hg. eapply greatest_ext; [intros v; apply logged_app|]. eapply R6; [assumption|]. apply H6; assumption.
    + intros z Hz. apply in_app_or in Hz. destruct Hz as [Hz|[<-|[]]]; [apply H7; assumption|].
      exists pre. auto.
  - rewrite (Fr eq_refl). unfold hinv. split; [assumption|]. split; [split; assumption|].
    repeat split; try assumption; try apply H3; apply H4.
Qed.
Lemma hrun_inv pw ln2 m rest ops : forall st st', hinv m rest st -> Forall (ok_op m rest) ops ->
  hrun pw ln2 st ops = Ok st' -> hinv m rest st'.
Proof.
  induction ops as [|op ops IH]; intros [q log] st' I F E; cbn [hrun] in E.
  - injection E as <-. assumption.
  - inversion F as [|? ? F1 F2]; subst.
    destruct (hstep pw ln2 (q, log) op) as [st1|] eqn:E1; cbn [rbind] in E; [|discriminate].
    eapply IH; [eapply hstep_inv; eassumption|assumption|eassumption].
Qed.

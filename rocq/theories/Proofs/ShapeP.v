(** Facts about bitwidth shapes, kernel-bit adaptation and bias quantization. *)
From Coq Require Import ZArith QArith Qcanon List Bool Lia String Arith.
From Verif Require Import Base.Num Base.NumFacts Base.Tensor Model.FixedPoint Model.Quantizer
  Spec.Fixed Spec.Quant Spec.History Proofs.TensorP Proofs.QuantizerP Proofs.RecordP.
Import ListNotations.
Local Open Scope nat_scope.

(** ** C24 *)
(** Number of values per sample: an unknown dimension counts as 1. *)

Lemma set_nth_length {A} (l : list A) n v : length (set_nth l n v) = length l.
Proof. revert n; induction l; intros [|n]; cbn; auto. Qed.
Lemma set_nth_nth {A} (l : list A) n v m d : n < length l ->
  nth m (set_nth l n v) d = if Nat.eqb m n then v else nth m l d.
Proof.
  revert n m; induction l as [|a l IH]; intros [|n] [|m] H; cbn in *; try lia; try reflexivity.
  apply IH. lia.
Qed.
Lemma count_set s j : j < length s ->
  (match nth j s None with Some v => v | None => 1 end) * count (set_nth s j (Some 1)) = count s.
Proof.
  revert j. induction s as [|a s IH]; intros [|j] H; cbn [length] in H; try lia.
  - unfold count. cbn. lia.
  - unfold count in *. cbn [set_nth nth map fold_right]. rewrite <- (IH j) by lia.
    set (x := match nth j s None with Some v => v | None => 1 end). lia.
Qed.
Lemma py_index_lt n d j : py_index n d = Some j -> j < n.
Proof.
  unfold py_index. destruct (Z.leb_spec 0 d), (Z.ltb_spec d (Z.of_nat n)); cbn [andb];
  destruct (Z.leb_spec (- Z.of_nat n) d), (Z.ltb_spec d 0); cbn [andb]; intros E; try discriminate;
  injection E as <-; lia.
Qed.
Lemma bw_loop_spec dims : forall s deg s' deg', bw_loop dims s deg = Ok (s', deg') ->
  deg' * count s' = deg * count s /\ length s' = length s /\
  forall m, m < length s -> nth m s' None =
    if existsb (fun d => match py_index (length s) d with Some j => Nat.eqb m j | None => false end) dims
    then Some 1 else nth m s None.
Proof.
  induction dims as [|d ds IH]; intros s deg s' deg' H; cbn [bw_loop] in H.
  - injection H as <- <-. split; [reflexivity|]. split; [reflexivity|]. intros; reflexivity.
  - destruct (py_index (length s) d) as [j|] eqn:E; [|discriminate].
    pose proof (py_index_lt _ _ _ E) as Hj. cbv zeta in H. apply IH in H. rewrite set_nth_length in H.
    destruct H as [H1 [H2 H3]]. split.
    + rewrite H1, <- Nat.mul_assoc, count_set by assumption. reflexivity.
    + split; [assumption|]. intros m Hm. rewrite H3 by assumption. cbn [existsb]. rewrite E.
      rewrite set_nth_nth by assumption. destruct (Nat.eqb m j); cbn [orb]; [|reflexivity].
      destruct (existsb _ _); reflexivity.
Qed.
Lemma bw_loop_raise dims : forall s deg, bw_loop dims s deg = Raise <->
  exists d, In d dims /\ ~ (- Z.of_nat (length s) <= d < Z.of_nat (length s))%Z.
Proof.
  induction dims as [|d ds IH]; intros s deg; cbn [bw_loop].
  - split; [discriminate|]. intros [d [[] _]].
  - unfold py_index at 1.
    destruct (Z.leb_spec 0 d), (Z.ltb_spec d (Z.of_nat (length s))); cbn [andb];
    destruct (Z.leb_spec (- Z.of_nat (length s)) d), (Z.ltb_spec d 0); cbn [andb]; try lia.
    all: try (split; [intros _; exists d; split; [left; reflexivity|lia]|reflexivity]).
    all: rewrite IH, set_nth_length; split;
      [intros [d' [Hd H']]; exists d'; split; [right; assumption|assumption]
      |intros [d' [[<-|Hd] H']]; [lia|exists d'; auto]].
Qed.

(** ** Reductions in general *)
Definition in_red (flags : list bool) (s : list nat) (o : nat) (l : list Qc) (v : Qc) : Prop :=
  exists p, nth_error l p = Some v /\ ridx flags s p = o.
Lemma treduce_max_greatest flags kd (t : tensor Qc) o d : o < prodn (kept flags (shape t)) ->
  greatest (in_red flags (shape t) o (data t)) (nth o (data (treduce ext_max NegInf flags kd (tmap Fin t))) d).
Proof.
  intros H. unfold treduce. cbn [data tmap shape]. rewrite nth_map_seq by assumption. rewrite combine_map_r.
  eapply greatest_ext; [|apply (fold_greatest (fun p => ridx flags (shape t) p =? o)), greatest_none].
  intros v. cbn beta. unfold in_red. split.
  - intros [[]|[p [Hp E]]]. exists p. apply combine_seq_In in Hp. apply Nat.eqb_eq in E. auto.
  - intros [p [Hp E]]. right. exists p. apply combine_seq_In in Hp. apply Nat.eqb_eq in E. auto.
Qed.

(** ** C27: bias_forward as an element-wise operation *)
Lemma bias_forward_elems pw ln2 q x training loc noise y dims :
  bias_dims loc (length (shape (q_fbw q))) = Ok dims ->
  bias_forward pw ln2 q x training loc noise = Ok y ->
  let f := reduce_max_q dims (q_fbw q) in
  broadcast_shape (shape x) (shape f) = Some (shape y) /\ length (data y) = prodn (shape y) /\
  (forall p d, p < prodn (shape y) ->
    forward_elem pw ln2 (q_strategy q) (q_exact q) training (noise p)
      (nth (bidx (pad_to (length (shape y)) (shape f)) (shape y) p) (data f) (qz 0))
      (nth (bidx (pad_to (length (shape y)) (shape x)) (shape y) p) (data x) (qz 0))
    = Ok (nth p (data y) d)).
Proof.
  intros Hd H f. unfold bias_forward in H. rewrite Hd in H. cbn [rbind] in H. fold f in H.
  destruct (forward_elems pw ln2 (with_fbw q f) x training noise y (with_fbw q f) false) as [X1 [X2 [X3 _]]];
    [|split; [exact X1|split; [exact X2|exact X3]]].
  unfold forward. cbn [with_fbw q_fbw q_strategy q_exact negb].
  destruct (bmap2 _ _ _ x f) as [vf|]; cbn [rbind] in *; [|discriminate].
  destruct (rseq _) as [ys|]; cbn [rbind] in *; [|discriminate]. injection H as <-. reflexivity.
Qed.

Lemma axis_flags_last r : axis_flags (r + 1) (map Z.of_nat (seq 0 (r + 1 - 1))) = repeat true r ++ [false].
Proof. replace (r + 1 - 1) with r by lia. rewrite axis_flags_prefix. reflexivity. Qed.

(** Same-shape broadcast. *)
Lemma bmap2_same {A B C} (da : A) (db : B) (f : A -> B -> C) t1 t2 : shape t1 = shape t2 ->
  exists y, bmap2 da db f t1 t2 = Ok y /\ shape y = shape t1 /\ length (data y) = prodn (shape t1) /\
    forall p d, p < prodn (shape t1) -> nth p (data y) d = f (nth p (data t1) da) (nth p (data t2) db).
Proof.
  intros H. unfold bmap2. rewrite <- H, broadcast_self. eexists; split; [reflexivity|]. cbn [shape data].
  split; [reflexivity|]. split; [rewrite map_length, seq_length; reflexivity|].
  intros p d Hp. rewrite nth_map_seq by assumption. rewrite pad_to_self, bidx_self by assumption. reflexivity.
Qed.

(** The bitwidth used for channel j of the bias, channels last. *)
Lemma reduce_max_last pre c (t : tensor Qc) : shape t = pre ++ [c] -> length (data t) = prodn (shape t) ->
  shape (reduce_max_q (map Z.of_nat (seq 0 (length (shape t) - 1))) t) = [c] /\
  length (data (reduce_max_q (map Z.of_nat (seq 0 (length (shape t) - 1))) t)) = c /\
  (prodn pre <> 0 -> forall j d, j < c ->
    greatest (in_group c j (data t)) (Fin (nth j (data (reduce_max_q (map Z.of_nat (seq 0 (length (shape t) - 1))) t)) d))).
Proof.
  intros Hs W. unfold reduce_max_q. rewrite Hs, app_length. cbn [length]. rewrite axis_flags_last.
  change [false] with (repeat false 1).
  assert (K : kept (repeat true (length pre) ++ repeat false 1) (shape (tmap Fin t)) = [c])
    by (cbn [tmap shape]; rewrite Hs; apply kept_prefix).
  assert (P1 : prodn [c] = c) by (unfold prodn; cbn; lia).
  split; [cbn [tmap shape treduce]; cbn [tmap shape] in K; rewrite K; reflexivity|]. split.
  { cbn [tmap data]. rewrite map_length. unfold treduce. cbn [data]. rewrite map_length, seq_length, K. assumption. }
  intros NE j d Hj.
  set (tr := treduce ext_max NegInf (repeat true (length pre) ++ repeat false 1) false (tmap Fin t)).
  assert (G : greatest (in_group c j (data t)) (nth j (data tr) NegInf)).
  { eapply greatest_ext; [|apply treduce_max_greatest; cbn [tmap shape] in K; rewrite K, P1; assumption].
    intros v. unfold in_red. rewrite Hs. split.
    - intros [p [Hp E]]. assert (L : p < prodn (pre ++ [c])) by (rewrite <- Hs, <- W; apply nth_error_Some; congruence).
      rewrite ridx_prefix in E by assumption. rewrite P1 in E. eapply in_group_mod; [lia|eassumption|assumption].
    - intros [k Hk]. exists (k * c + j). split; [assumption|].
      assert (L : k * c + j < prodn (pre ++ [c])) by (rewrite <- Hs, <- W; apply nth_error_Some; congruence).
      rewrite ridx_prefix by assumption. rewrite P1, Nat.add_comm, Nat.mod_add by lia. apply Nat.mod_small; assumption. }
  assert (Lt : length (data tr) = c) by (unfold tr, treduce; cbn [data]; rewrite map_length, seq_length, K; assumption).
  cbn [tmap data]. rewrite nth_indep with (d' := fin (qz 0) NegInf) by (rewrite map_length; lia).
  rewrite (map_nth (fin (qz 0))).
  destruct G as [[N E]|[v [Pv [E L]]]].
  - exfalso. destruct (nth_error (data t) j) as [v|] eqn:Ev.
    + apply (N v). exists 0. assumption.
    + apply nth_error_None in Ev. rewrite W, Hs, prodn_app, P1 in Ev. nia.
  - rewrite E. cbn [fin]. right. exists v. auto.
Qed.

(** channels first *)
Lemma axis_flags_first k : axis_flags (S (S k)) (0%Z :: map Z.of_nat (seq 2 k)) = true :: false :: repeat true k.
Proof.
  unfold axis_flags. cbn [seq map]. f_equal. f_equal.
  - cbn [existsb]. replace (0 =? Z.of_nat 1)%Z with false by reflexivity.
    replace (0 =? Z.of_nat 1 - Z.of_nat (S (S k)))%Z with false by (symmetry; apply Z.eqb_neq; lia). cbn [orb].
    apply not_true_is_false. intros H. apply existsb_exists in H. destruct H as [z [Hz E]].
    apply in_map_iff in Hz. destruct Hz as [i [<- Hi]]. apply in_seq in Hi.
    apply orb_true_iff in E. rewrite !Z.eqb_eq in E. lia.
  - apply nth_ext with (d := true) (d' := true); [rewrite map_length, seq_length, repeat_length; reflexivity|].
    intros n Hn. rewrite map_length, seq_length in Hn. rewrite nth_repeat.
    match goal with |- nth n (map ?f _) _ = _ => rewrite nth_indep with (d' := f 0) by (rewrite map_length, seq_length; assumption);
      rewrite (map_nth f) end.
    rewrite seq_nth by assumption. apply existsb_exists. exists (Z.of_nat (2 + n)). split.
    + right. apply in_map, in_seq. lia.
    + rewrite Z.eqb_refl. reflexivity.
Qed.
Lemma kept_true s : kept (repeat true (length s)) s = [].
Proof. induction s; cbn; auto. Qed.
Lemma ridx_true s p : ridx (repeat true (length s)) s p = 0 \/ s = [].
Proof.
  revert p. induction s as [|a s IH]; intros p; [auto|left]. cbn [length repeat ridx].
  destruct (IH (p mod prodn s)) as [E|E]; [assumption|]. subst s. cbn. reflexivity.
Qed.
Lemma reduce_max_first a c s (t : tensor Qc) : shape t = a :: c :: s -> length (data t) = prodn (shape t) ->
  shape (reduce_max_q (0%Z :: map Z.of_nat (seq 2 (length (shape t) - 2))) t) = [c] /\
  (a <> 0 -> prodn s <> 0 -> forall j d, j < c ->
    greatest (fun v => exists p, nth_error (data t) p = Some v /\ (p / prodn s) mod c = j)
      (Fin (nth j (data (reduce_max_q (0%Z :: map Z.of_nat (seq 2 (length (shape t) - 2))) t)) d))).
Proof.
  intros Hs W. unfold reduce_max_q. rewrite Hs. cbn [length]. replace (S (S (length s)) - 2) with (length s) by lia.
  rewrite axis_flags_first.
  assert (K : kept (true :: false :: repeat true (length s)) (shape (tmap Fin t)) = [c])
    by (cbn [tmap shape]; rewrite Hs; cbn [kept]; rewrite kept_true; reflexivity).
  assert (P1 : prodn [c] = c) by (unfold prodn; cbn; lia).
  split; [cbn [tmap shape treduce]; cbn [tmap shape] in K; rewrite K; reflexivity|].
  intros NA NS j d Hj.
  set (tr := treduce ext_max NegInf (true :: false :: repeat true (length s)) false (tmap Fin t)).
  assert (G : greatest (fun v => exists p, nth_error (data t) p = Some v /\ (p / prodn s) mod c = j) (nth j (data tr) NegInf)).
  { eapply greatest_ext; [|apply treduce_max_greatest; cbn [tmap shape] in K; rewrite K, P1; assumption].
    assert (R : forall p, ridx (true :: false :: repeat true (length s)) (a :: c :: s) p = (p / prodn s) mod c).
    { intros p. cbn [ridx]. rewrite kept_true. change (prodn []) with 1. rewrite Nat.mul_1_r, prodn_cons.
      assert (Z0 : ridx (repeat true (length s)) s ((p mod (c * prodn s)) mod prodn s) = 0).
      { destruct (ridx_true s ((p mod (c * prodn s)) mod prodn s)) as [E|E]; [assumption|].
        subst s. cbn. reflexivity. }
      rewrite Z0, Nat.add_0_r. rewrite (Nat.mul_comm c). rewrite Nat.mod_mul_r by lia.
      rewrite Nat.mul_comm, Nat.div_add by assumption.
      rewrite Nat.div_small by (apply Nat.mod_upper_bound; assumption). reflexivity. }
    intros v. unfold in_red. rewrite Hs. setoid_rewrite R. tauto. }
  assert (Lt : length (data tr) = c) by (unfold tr, treduce; cbn [data]; rewrite map_length, seq_length, K; assumption).
  cbn [tmap data]. rewrite nth_indep with (d' := fin (qz 0) NegInf) by (rewrite map_length; lia).
  rewrite (map_nth (fin (qz 0))).
  destruct G as [[N E]|[v [Pv [E L]]]].
  - exfalso. destruct (nth_error (data t) (j * prodn s)) as [v|] eqn:Ev.
    + apply (N v). exists (j * prodn s). split; [assumption|]. rewrite Nat.div_mul by assumption. apply Nat.mod_small; assumption.
    + apply nth_error_None in Ev. rewrite W, Hs, !prodn_cons in Ev.
      assert (j * prodn s < c * prodn s) by nia. assert (c * prodn s <= a * (c * prodn s)) by nia. lia.
  - rewrite E. cbn [fin]. right. exists v. auto.
Qed.

(** ** C26 *)
Definition fins (ps : list (nat * ext)) (p : nat) (v : Qc) : Prop := In (p, Fin v) ps.
Lemma fold_least_ext (c : nat -> bool) (ps : list (nat * ext)) P e : (forall p x, In (p, x) ps -> x <> NegInf) ->
  least P e ->
  least (fun v => P v \/ exists p, In (p, Fin v) ps /\ c p = true)
    (fold_left (fun acc pv => if c (fst pv) then ext_min acc (snd pv) else acc) ps e).
Proof.
  revert P e. induction ps as [|[p x] ps IH]; intros P e HN H; cbn [fold_left fst snd].
  - eapply least_ext; [|exact H]. intros v; cbn. split; [auto|]. intros [Hv|[p [[] _]]]; assumption.
  - assert (HN' : forall p0 x0, In (p0, x0) ps -> x0 <> NegInf) by (intros; eapply HN; right; eassumption).
    destruct (c p) eqn:E.
    + destruct x as [|w|]; [exfalso; eapply HN; [left|]; reflexivity| |].
      * eapply least_ext; [|apply IH; [assumption|apply least_union; [exact H|apply (least_single w)]]].
        intros u; cbn. split.
        -- intros [[Hu|Hu]|[p' [Hp Hc]]]; [auto|right; exists p; subst; auto|right; exists p'; auto].
        -- intros [Hu|[p' [[Hp|Hp] Hc]]]; [auto|injection Hp as -> ->; auto|right; exists p'; auto].
      * eapply least_ext; [|apply IH; [assumption|apply least_union; [exact H|apply least_none]]].
        intros u; cbn. split.
        -- intros [[Hu|[]]|[p' [Hp Hc]]]; [auto|right; exists p'; auto].
        -- intros [Hu|[p' [[Hp|Hp] Hc]]]; [auto|discriminate|right; exists p'; auto].
    + eapply least_ext; [|apply IH; [assumption|exact H]].
      intros u; cbn. split.
      * intros [Hu|[p' [Hp Hc]]]; [auto|right; exists p'; auto].
      * intros [Hu|[p' [[Hp|Hp] Hc]]]; [auto|injection Hp as -> ->; congruence|right; exists p'; auto].
Qed.
Lemma kept1_prefix pre rest r : kept1 (repeat true (length pre) ++ repeat false r) (pre ++ rest) = repeat 1 (length pre) ++ rest.
Proof.
  induction pre as [|a pre IH]; cbn [app length repeat kept1]; [|rewrite IH; reflexivity].
  revert rest. induction r as [|r IH]; intros [|b rest]; cbn [repeat kept1]; try reflexivity. rewrite IH. reflexivity.
Qed.

Lemma adapt_spec lg s m pre rest fbw ref : prefix_skip s m -> length pre = m ->
  reg_ok m rest fbw -> shape ref = pre ++ rest -> length (data ref) = prodn (shape ref) ->
  exists nf, adapt_bw_bits lg s fbw ref = Ok nf /\ reg_ok m rest nf /\
    forall g d, g < prodn rest ->
      least (fun v => exists w, in_group (prodn rest) g (data ref) w /\ w <> qz 0 /\
                                v = (nth g (data fbw) (qz 0) - lg (qabs w))%Qc) (nth g (data nf) d).
Proof.
  intros Hp Hm [R1 R2] Hs W. unfold adapt_bw_bits.
  assert (Hb : broadcast_shape (shape fbw) (shape ref) = Some (pre ++ rest)).
  { rewrite R1, Hs, <- Hm. unfold broadcast_shape. rewrite !app_length, repeat_length, Nat.max_id.
    rewrite !pad_to_eq by (rewrite app_length, ?repeat_length; reflexivity).
    clear. induction pre as [|a pre IH]; cbn [app length repeat]; [apply bshape_self|]. cbn [bshape]. rewrite IH.
    destruct (Nat.eqb_spec 1 a); subst; reflexivity. }
  destruct (bmap2 (qz 0) (qz 0) (adapt_elem lg) fbw ref) as [nf|] eqn:E; [|unfold bmap2 in E; rewrite Hb in E; discriminate].
  destruct (bmap2_ok _ _ _ _ _ _ E) as [B1 [B2 B3]]. assert (Sn : shape nf = pre ++ rest) by congruence.
  assert (B4 : forall p d, p < prodn (pre ++ rest) ->
    nth p (data nf) d = adapt_elem lg (nth (p mod prodn rest) (data fbw) (qz 0)) (nth p (data ref) (qz 0))).
  { intros p d Hpp. rewrite B3 by (rewrite Sn; assumption). rewrite Sn, R1, Hs.
    rewrite !pad_to_eq by (rewrite !app_length, ?repeat_length; lia).
    rewrite <- Hm. rewrite bidx_prefix by assumption. rewrite bidx_self by assumption. reflexivity. }
  cbn [rbind]. cbv zeta.
  assert (In1 : forall p v, nth_error (data nf) p = Some v -> p < prodn (pre ++ rest)).
  { intros p v Hv. rewrite <- Sn, <- B2. apply nth_error_Some. congruence. }
  assert (NN : forall p x, In (p, x) (combine (seq 0 (length (data nf))) (data nf)) -> x <> NegInf).
  { intros p x Hx. apply combine_seq_In in Hx. pose proof (In1 _ _ Hx) as L.
    apply nth_error_nth with (d := NegInf) in Hx. rewrite B4 in Hx by assumption. subst x.
    unfold adapt_elem. destruct (qeqb _ _); discriminate. }
  assert (Eq : forall g p v, g < prodn rest -> nth_error (data nf) p = Some (Fin v) -> p mod prodn rest = g ->
    exists w, in_group (prodn rest) g (data ref) w /\ w <> qz 0 /\ v = (nth g (data fbw) (qz 0) - lg (qabs w))%Qc).
  { intros g p v Hg Hv Hpg. pose proof (In1 _ _ Hv) as L. apply nth_error_nth with (d := NegInf) in Hv.
    rewrite B4 in Hv by assumption. rewrite Hpg in Hv. unfold adapt_elem in Hv.
    destruct (qeqb_spec (nth p (data ref) (qz 0)) (qz 0)) as [Z|Z]; [discriminate|]. injection Hv as <-.
    exists (nth p (data ref) (qz 0)). split; [|auto]. eapply in_group_mod; [lia| |exact Hpg].
    apply nth_error_nth'. rewrite W, Hs. assumption. }
  assert (Eq' : forall g j w, g < prodn rest -> nth_error (data ref) (j * prodn rest + g) = Some w -> w <> qz 0 ->
    nth_error (data nf) (j * prodn rest + g) = Some (Fin (nth g (data fbw) (qz 0) - lg (qabs w))%Qc)).
  { intros g j w Hg Hw Hz. assert (L : j * prodn rest + g < prodn (pre ++ rest))
      by (rewrite <- Hs, <- W; apply nth_error_Some; congruence).
    rewrite (nth_error_nth' (data nf) NegInf) by (rewrite B2, Sn; assumption). f_equal. rewrite B4 by assumption.
    rewrite Nat.add_comm, Nat.mod_add, Nat.mod_small by lia. rewrite Nat.add_comm.
    apply nth_error_nth with (d := qz 0) in Hw. rewrite Hw. unfold adapt_elem.
    destruct (qeqb_spec w (qz 0)); [contradiction|reflexivity]. }
  destruct (prefix_skip_truthy _ _ Hp) as [[M0 ->]|[N ->]].
  - rewrite M0 in *. apply length_zero_iff_nil in Hm. subst pre. cbn [app repeat] in *.
    destruct (list_eq_dec Nat.eq_dec (shape nf) (shape fbw)) as [_|C]; [|congruence].
    exists nf. split; [reflexivity|]. split; [split; cbn [repeat app]; [assumption|congruence]|].
    intros g d Hg. rewrite B4 by assumption. rewrite Nat.mod_small by assumption. unfold adapt_elem.
    destruct (qeqb_spec (nth g (data ref) (qz 0)) (qz 0)) as [Z|Z].
    + left. split; [|reflexivity]. intros v [w [[j Hj] [Hz _]]].
      assert (L : j * prodn rest + g < length (data ref)) by (apply nth_error_Some; congruence).
      rewrite W, Hs in L. destruct j as [|j]; [|nia]. cbn in Hj. apply nth_error_nth with (d := qz 0) in Hj. congruence.
    + eapply least_ext; [|apply least_single]. intros v; cbn beta. split.
      * intros ->. exists (nth g (data ref) (qz 0)). split; [|auto]. exists 0. cbn. apply nth_error_nth'. congruence.
      * intros [w [[j Hj] [Hz ->]]].
        assert (L : j * prodn rest + g < length (data ref)) by (apply nth_error_Some; congruence).
        rewrite W, Hs in L. destruct j as [|j]; [|nia]. cbn in Hj. apply nth_error_nth with (d := qz 0) in Hj. congruence.
  - rewrite Sn, app_length, Hm, axis_flags_prefix. rewrite <- Hm.
    set (tr := treduce ext_min PosInf _ true nf).
    assert (Str : shape tr = shape fbw) by (unfold tr, treduce; cbn [shape]; rewrite Sn, kept1_prefix, R1, Hm; reflexivity).
    destruct (list_eq_dec Nat.eq_dec (shape tr) (shape fbw)) as [_|C]; [|congruence].
    exists tr. split; [reflexivity|].
    assert (K : kept (repeat true (length pre) ++ repeat false (length rest)) (shape nf) = rest) by (rewrite Sn; apply kept_prefix).
    split. { split; [rewrite Str, R1, Hm; reflexivity|]. unfold tr, treduce. cbn [data]. rewrite map_length, seq_length, K. reflexivity. }
    intros g d Hg. unfold tr, treduce. cbn [data]. rewrite K. rewrite nth_map_seq by assumption.
    eapply least_ext; [|apply (fold_least_ext (fun p => ridx (repeat true (length pre) ++ repeat false (length rest)) (shape nf) p =? g));
                         [exact NN|apply least_none]].
    intros v. cbn beta. split.
    + intros [[]|[p [Hpv E2]]]. apply combine_seq_In in Hpv. apply Nat.eqb_eq in E2. pose proof (In1 _ _ Hpv) as L.
      rewrite Sn, ridx_prefix in E2 by assumption. eapply Eq; eassumption.
    + intros [w [[j Hj] [Hz ->]]]. right. exists (j * prodn rest + g). pose proof (Eq' g j w Hg Hj Hz) as X.
      split; [apply combine_seq_In; assumption|]. apply Nat.eqb_eq. rewrite Sn, ridx_prefix by (eapply In1; eassumption).
      rewrite Nat.add_comm, Nat.mod_add, Nat.mod_small by lia. reflexivity.
Qed.

(** The number of bits given to one weight. *)
Lemma adapt_bits (lg : Qc -> Qc) b w r f : w <> qz 0 ->
  (forall v e, (qz 0 < v)%Qc -> (pow2 e <= v)%Qc -> (qz e <= lg v)%Qc) ->
  (forall v e, (qz 0 < v)%Qc -> (v < pow2 e)%Qc -> (lg v < qz e)%Qc) ->
  adapt_elem lg (qz b) w = Fin f -> nearest_even f r ->
  (pow2 (b - 1) <= qabs w * pow2 r)%Qc /\ (qabs w * pow2 r < pow2 (b + 1))%Qc.
Proof.
  intros NZ L1 L2 H Hr. unfold adapt_elem in H. destruct (qeqb_spec w (qz 0)) as [C|_]; [contradiction|]. injection H as <-.
  assert (P : (qz 0 < qabs w)%Qc).
  { destruct (qabs_spec w) as [[A ->]|[A ->]]; [|qlra]. destruct (qc_neq_lt w (qz 0) NZ); [exfalso; qlra|assumption]. }
  destruct (flog2_spec _ P) as [F1 F2]. apply L1 in F1; [|assumption]. apply L2 in F2; [|assumption].
  destruct Hr as [[N1 N2] T].
  set (e := flog2 (qabs w)) in *.
  assert (R : (b - e - 1 <= r <= b - e)%Z).
  { split.
    - assert (X : (qz (b - e - 1) < qz (r + 1))%Qc) by (rewrite qz_add, !qz_sub in *; qlra).
      apply (proj1 (qz_lt _ _)) in X. lia.
    - assert (X : (qz r < qz (b - e + 1))%Qc) by (rewrite qz_add, !qz_sub in *; qlra).
      apply (proj1 (qz_lt _ _)) in X. lia. }
  destruct (flog2_spec _ P) as [G1 G2]. fold e in G1, G2. split.
  - apply Qcle_trans with (pow2 (e + r)); [apply pow2_le; lia|]. rewrite pow2_add. apply qmul_le_r; [|assumption].
    apply Qclt_le_weak, pow2_pos.
  - apply Qclt_le_trans with (pow2 (e + 1 + r)); [|apply pow2_le; lia]. rewrite pow2_add. apply qmul_lt_r; [apply pow2_pos|assumption].
Qed.

(** ** C25: 'except_1st' *)
Lemma bshape_last a b x y s : length a = length b -> bshape (a ++ [x]) (b ++ [y]) = Some s -> y = 1 ->
  exists s', s = s' ++ [x].
Proof.
  intros H E ->. revert b s H E. induction a as [|u a IH]; intros [|v b] s H E; try discriminate; cbn [app bshape] in E.
  - destruct (Nat.eqb_spec x 1); cbn in E; [injection E as <-; exists []; reflexivity|].
    destruct (Nat.eqb_spec x 1); [contradiction|]. injection E as <-. exists []. reflexivity.
  - cbn in H. destruct (bshape (a ++ [x]) (b ++ [1])) as [t|] eqn:E1; [|discriminate].
    destruct (IH b t ltac:(lia) E1) as [s' ->].
    destruct (u =? v); [injection E as <-; exists (u :: s'); reflexivity|].
    destruct (u =? 1); [injection E as <-; exists (v :: s'); reflexivity|].
    destruct (v =? 1); [injection E as <-; exists (u :: s'); reflexivity|discriminate].
Qed.
Lemma record_min_first c s y mn : s <> [] -> c <> 1 -> (exists n, shape y = n :: c :: s) ->
  shape mn = 1 :: c :: repeat 1 (length s) ->
  record_min (Some (0%Z :: map Z.of_nat (seq 2 (length s)))) y mn = Raise.
Proof.
  intros Hs Hc [n Hy] Hmn. unfold record_min. cbv zeta. cbn [skip_truthy]. rewrite Hy. cbn [length].
  rewrite axis_flags_first.
  match goal with |- rbind (bmap2 _ _ _ ?r mn) _ = _ => assert (K : shape r = [c]) end.
  { unfold treduce. cbn [shape tmap]. rewrite Hy. cbn [kept]. rewrite kept_true. reflexivity. }
  match goal with |- rbind ?b _ = _ => destruct b as [z|] eqn:E end; [|reflexivity]. cbn [rbind].
  apply bmap2_ok in E. destruct E as [E _]. rewrite K, Hmn in E. unfold broadcast_shape in E.
  destruct s as [|u s]; [contradiction|]. cbn [length repeat] in E.
  rewrite Nat.max_r in E by (cbn; lia). rewrite repeat_length in E.
  rewrite (pad_to_eq _ (1 :: c :: 1 :: repeat 1 (length s))) in E by (cbn; rewrite repeat_length; reflexivity).
  unfold pad_to in E. cbn [length] in E.
  assert (R : 1 :: c :: 1 :: repeat 1 (length s) = (1 :: c :: repeat 1 (length s)) ++ [1]).
  { cbn [app]. rewrite <- repeat_cons. reflexivity. }
  rewrite R in E. apply bshape_last in E; [|cbn [length]; rewrite !repeat_length; cbn; lia|reflexivity].
  destruct E as [s' E]. destruct (list_eq_dec Nat.eq_dec (shape z) (shape mn)) as [C|_]; [exfalso|reflexivity].
  rewrite E, Hmn in C. cbn [length repeat] in C. rewrite R in C. apply app_inj_tail in C. destruct C as [_ C]. congruence.
Qed.
Lemma except_1st_raises pw ln2 q x training noise n c s :
  s <> [] -> c <> 1 -> shape x = n :: c :: s -> shape (q_fbw q) = 1 :: c :: repeat 1 (length s) ->
  shape (q_min q) = shape (q_fbw q) -> q_skip q = Some (0%Z :: map Z.of_nat (seq 2 (length s))) ->
  call pw ln2 q x training true noise = Raise.
Proof.
  intros Hs Hc Hx Hf Hm Hk.
  destruct (call pw ln2 q x training true noise) as [[y q']|] eqn:E; [exfalso|reflexivity].
  unfold call in E. apply forward_elems in E. destruct E as [B [_ [_ [_ T]]]].
  destruct (T eq_refl) as [mn [mx [R _]]].
  assert (C : q_skip (clip_fbw q) = q_skip q /\ q_min (clip_fbw q) = q_min q /\ shape (q_fbw (clip_fbw q)) = shape (q_fbw q))
    by (unfold clip_fbw; destruct (q_clip q) as [[lo hi]|]; repeat split).
  destruct C as [C1 [C2 C3]]. rewrite C1, C2, Hk in R. rewrite C3 in B.
  rewrite (record_min_first c s y (q_min q)) in R; [discriminate|assumption|assumption| |congruence].
  rewrite Hx, Hf in B. unfold broadcast_shape in B. cbn [length] in B. rewrite repeat_length, Nat.max_id in B.
  rewrite !pad_to_eq in B by (cbn; rewrite ?repeat_length; reflexivity). cbn [bshape] in B. rewrite bshape_ones in B.
  rewrite Nat.eqb_refl in B. exists n. destruct (Nat.eqb_spec n 1); [congruence|]. cbn in B. congruence.
Qed.

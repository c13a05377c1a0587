(** Kernel bitwidths computed in the forward pass. *)
From Coq Require Import ZArith Qcanon List Bool Lia Arith.
From Verif Require Import Base.Num Base.NumFacts Base.Tensor Model.FixedPoint Model.Quantizer Model.Layers Model.Bops Model.TrainBops
  Spec.Fixed Spec.Quant Spec.History Spec.Layer Spec.Bops Proofs.TensorP Proofs.QuantizerP Proofs.RecordP Proofs.BitsP Proofs.SampleP Proofs.LayersP Proofs.BopsP Proofs.BopsL.
Import ListNotations.
Local Open Scope nat_scope.

Definition zle (e : zext) (z : Z) : Prop := match e with ZNegInf => True | ZFin a => (a <= z)%Z end.
Lemma zle_max e f z : zle (zext_max e f) z <-> zle e z /\ zle f z.
Proof. destruct e, f; cbn; split; try tauto; intros; lia. Qed.
Lemma zle_fold (c : nat -> bool) (ps : list (nat * zext)) z : forall e,
  zle (fold_left (fun acc pv => if c (fst pv) then zext_max acc (snd pv) else acc) ps e) z <->
  zle e z /\ forall p v, In (p, v) ps -> c p = true -> zle v z.
Proof.
  induction ps as [|[p v] ps IH]; intros e; cbn [fold_left fst snd].
  - split; [intros H; split; [exact H|intros p v []]|intros [H _]; exact H].
  - rewrite IH. destruct (c p) eqn:E.
    + rewrite zle_max. split.
      * intros [[A B] C]. split; [exact A|]. intros p' v' [H|H] H'; [injection H as <- <-; exact B|eapply C; eassumption].
      * intros [A B]. split; [split; [exact A|eapply B; [left; reflexivity|exact E]]|]. intros; eapply B; [right; eassumption|assumption].
    + split.
      * intros [A C]. split; [exact A|]. intros p' v' [H|H] H'; [injection H as <- <-; congruence|eapply C; eassumption].
      * intros [A B]. split; [exact A|]. intros; eapply B; [right; eassumption|assumption].
Qed.
Lemma zle_int w z : zle (zext_add (floor_log2 (qabs w)) 1) z <-> (qabs w < pow2 z)%Qc.
Proof.
  unfold floor_log2. destruct (qeqb_spec (qabs w) (qz 0)) as [E|N]; cbn [zext_add zle].
  - rewrite E. split; [intros _; apply pow2_pos|trivial].
  - assert (P : (qz 0 < qabs w)%Qc) by (destruct (qabs_spec w) as [[? E]|[? E]]; rewrite E in *; [|qlra]; destruct (qc_neq_lt w (qz 0) ltac:(congruence)); [exfalso; qlra|assumption]).
    destruct (flog2_spec _ P) as [F1 F2]. split.
    + intros H. assert (pow2 (flog2 (qabs w) + 1) <= pow2 z)%Qc by (destruct (Z.eq_dec (flog2 (qabs w) + 1) z) as [->|]; [apply Qcle_refl|apply Qclt_le_weak, pow2_lt; lia]). qlra.
    + intros H. assert (X : (pow2 (flog2 (qabs w)) < pow2 z)%Qc) by qlra. apply pow2_lt_inv in X. lia.
Qed.
Lemma zle_relu e r b : (0 <= b)%Z -> ((relu_z (zext_add e r) <= b)%Z <-> zle e (b - r)).
Proof. intros Hb. destruct e as [|a]; cbn; [tauto|]. split; lia. Qed.
Lemma relu_nonneg e : (0 <= relu_z e)%Z.
Proof. destruct e; cbn; lia. Qed.

Lemma ref_bits_prefix s m pre rest (y : tensor Qc) : prefix_skip s m -> length pre = m ->
  shape y = pre ++ rest -> length (data y) = prodn (shape y) ->
  shape (ref_int_bits s y) = rest /\ length (data (ref_int_bits s y)) = prodn rest /\
  forall g d z, g < prodn rest -> (zle (nth g (data (ref_int_bits s y)) d) z <-> forall w, in_group (prodn rest) g (data y) w -> (qabs w < pow2 z)%Qc).
Proof.
  intros Hp Hm Hs W. unfold ref_int_bits. set (f := fun w : Qc => zext_add (floor_log2 (qabs w)) 1).
  destruct (prefix_skip_truthy _ _ Hp) as [[-> ->]|[N ->]].
  - apply length_zero_iff_nil in Hm. subst pre. cbn [app] in Hs. cbn [tmap shape data]. split; [assumption|]. split; [rewrite map_length; congruence|].
    intros g d z Hg. rewrite nth_indep with (d' := f (qz 0)) by (rewrite map_length; congruence).
    rewrite (map_nth f). unfold f. rewrite zle_int. split.
    + intros H w [j Hj]. assert (L : j * prodn rest + g < length (data y)) by (apply nth_error_Some; congruence).
      rewrite W, Hs in L. destruct j as [|j]; [|nia]. cbn in Hj. rewrite (nth_error_nth _ _ (qz 0) Hj) in H. exact H.
    + intros H. apply H. exists 0. cbn. apply nth_error_nth'. congruence.
  - rewrite Hs, app_length, Hm. rewrite axis_flags_prefix. rewrite <- Hm.
    rewrite treduce_prefix with (rest := rest); [|assumption|cbn [tmap data]; rewrite map_length; assumption].
    cbn [shape data]. split; [reflexivity|].
    split; [rewrite map_length, seq_length; reflexivity|].
    intros g d z Hg. rewrite nth_map_seq by assumption. cbn [tmap data]. rewrite combine_map_r.
    rewrite (zle_fold (fun p => p mod prodn rest =? g)). cbn [zle]. split.
    + intros [_ H] w Hw. apply in_group_iff in Hw; [|lia|assumption]. destruct Hw as [p [Hp' E]].
      apply zle_int. apply (H p (f w)); [|exact E]. apply in_map_iff. exists (p, w). split; [reflexivity|assumption].
    + intros H. split; [exact I|]. intros p v Hv E. apply in_map_iff in Hv. destruct Hv as [[p' w] [Ev Hw]]. cbn [fst snd] in Ev. injection Ev as <- <-.
      unfold f. apply zle_int. apply H. apply in_group_iff; [lia|assumption|]. exists p'. split; assumption.
Qed.

Lemma broadcast_to_prefix {A} (d : A) pre rest (t : tensor A) : shape t = repeat 1 (length pre) ++ rest ->
  exists y, broadcast_to d t (pre ++ rest) = Ok y /\ shape y = pre ++ rest /\ length (data y) = prodn (pre ++ rest) /\
  forall p, p < prodn (pre ++ rest) -> nth p (data y) d = nth (p mod prodn rest) (data t) d.
Proof.
  intros Hs. unfold broadcast_to. rewrite Hs, broadcast_prefix. destruct (list_eq_dec Nat.eq_dec (pre ++ rest) (pre ++ rest)) as [_|C]; [|contradiction].
  eexists. split; [reflexivity|]. cbn [shape data]. split; [reflexivity|]. split; [rewrite map_length, seq_length; reflexivity|].
  intros p Hp. rewrite nth_map_seq by assumption. rewrite pad_to_eq by (rewrite !app_length, repeat_length; reflexivity). rewrite bidx_prefix by assumption. reflexivity.
Qed.

Lemma trained_bits kq qk m pre rest : prefix_skip (q_skip kq) m -> length pre = m -> shape qk = pre ++ rest ->
  length (data qk) = prodn (shape qk) -> reg_ok m rest (q_fbw kq) ->
  exists kb, trained_kernel_bw kq qk = Ok kb /\ shape kb = shape qk /\ length (data kb) = prodn (shape qk) /\
  forall p r, p < prodn (shape qk) -> nearest_even (nth (p mod prodn rest) (data (q_fbw kq)) (qz 0)) r ->
    magnitude_bits r (in_group (prodn rest) (p mod prodn rest) (data qk)) (nth p (data kb) 0%Z).
Proof.
  intros Hp Hm Hs W [R1 R2]. destruct (ref_bits_prefix _ _ _ _ _ Hp Hm Hs W) as [S1 [L1 N1]]. unfold trained_kernel_bw.
  destruct (bmap2_lead ZNegInf (qz 0) (fun i f => relu_z (zext_add i (qround_even f))) m rest _ _ S1 R1) as [b [Eb [Sb [Lb Nb]]]]. rewrite Eb. cbn [rbind].
  rewrite <- Hm in Sb. destruct (broadcast_to_prefix 0%Z pre rest b Sb) as [kb [Ek [Sk [Lk Nk]]]]. rewrite Hs, Ek. exists kb.
  split; [reflexivity|]. split; [assumption|]. split; [assumption|]. intros p r Hlt Hr. apply nearest_even_fun in Hr. rewrite Nk by assumption.
  assert (PR : prodn rest <> 0) by (rewrite prodn_app in Hlt; nia). pose proof (Nat.mod_upper_bound p (prodn rest) PR) as G. set (g := p mod prodn rest) in *.
  rewrite (Nb g 0%Z G). rewrite <- Hr. set (e := nth g (data (ref_int_bits (q_skip kq) qk)) ZNegInf).
  pose proof (relu_nonneg (zext_add e r)) as P. split; [exact P|]. split.
  - apply (N1 g ZNegInf _ G). fold e. apply zle_relu; [exact P|]. lia.
  - intros b' Hb' H. apply zle_relu; [assumption|]. apply (N1 g ZNegInf _ G). exact H.
Qed.

Lemma forward_grid pw ln2 kq kernel w q m pre rest : forward pw ln2 kq kernel false false (fun _ => qz 0) = Ok (w, q) ->
  length pre = m -> shape kernel = pre ++ rest -> reg_ok m rest (q_fbw kq) ->
  q = kq /\ shape w = pre ++ rest /\ length (data w) = prodn (shape w) /\
  forall p v r, nth_error (data w) p = Some v -> nearest_even (nth (p mod prodn rest) (data (q_fbw kq)) (qz 0)) r -> on_grid r v.
Proof.
  intros E Hm Hs [R1 _]. destruct (forward_elems _ _ _ _ _ _ _ _ _ E) as [B [L [N [Q _]]]]. specialize (Q eq_refl).
  rewrite R1, <- Hm, Hs, broadcast_prefix in B. injection B as B. split; [exact Q|]. split; [congruence|]. split; [exact L|].
  intros p v r Hv Hr. assert (Hp : p < prodn (shape w)) by (rewrite <- L; apply nth_error_Some; congruence).
  specialize (N p (qz 0) Hp). rewrite (nth_error_nth _ _ (qz 0) Hv) in N. apply inference_grid in N.
  rewrite <- B in N, Hp. rewrite R1, <- Hm in N. rewrite pad_to_eq in N by (rewrite !app_length, repeat_length; reflexivity).
  rewrite bidx_prefix in N by assumption. apply nearest_even_fun in Hr. rewrite Hr. exact N.
Qed.

Lemma weight_le_magnitude r P v a b : weight_bits v a -> magnitude_bits r P b -> P v -> on_grid r v -> (a <= b)%Z.
Proof.
  intros [[-> ->]|[NZ [i [f [-> [U [I [G F]]]]]]]] [B0 [B1 _]] HP Hg; [exact B0|]. specialize (I _ (B1 _ HP)).
  assert (f <= r)%Z by (apply F; exact Hg). lia.
Qed.
Lemma weight_nonneg v a : weight_bits v a -> (0 <= a)%Z.
Proof.
  intros [[_ ->]|[NZ [i [f [-> [U [_ [G _]]]]]]]]; [lia|].
  assert (A : (qz 0 < qabs v)%Qc) by (destruct (qabs_spec v) as [[? ->]|[? ->]]; [destruct (qc_neq_lt v (qz 0) NZ); [exfalso; qlra|assumption]|qlra]).
  pose proof (grid_pos_ge f (qabs v) (grid_abs f v G) A) as X. assert (Y : (pow2 (- f) < pow2 i)%Qc) by qlra. apply pow2_lt_inv in Y. lia.
Qed.

Lemma act_widths q relu g : calibrated q -> g < length (data (q_fbw q)) ->
  let a := act_bw_elem relu (fin (qz 0) (nth g (data (q_min q)) PosInf)) (fin (qz 0) (nth g (data (q_max q)) NegInf)) (nth g (data (q_fbw q)) (qz 0)) in
  (0 <= width (bits_at q relu g) <= a)%Z /\ (a <= width (bits_at q relu g) + (if relu then 0 else 1))%Z.
Proof.
  intros HC Hg a. destruct (HC g Hg) as [r [mn [mx [Hr [Hb [E1 [E2 [G1 [G2 [Hle [B1 B2]]]]]]]]]]].
  destruct (width_range q g HC Hg) as [r' [mn' [mx' [Hr' [[H1 H2] [W1 W2]]]]]].
  apply nearest_even_fun in Hr. subst a. unfold bits_at in *. rewrite E1, E2 in *. cbn [fin] in *. set (f := nth g (data (q_fbw q)) (qz 0)) in *.
  assert (X : forall b, width (bits_exact_elem b mn mx f) = act_bw_exact_elem b mn mx f) by reflexivity.
  assert (NN : forall b, (0 <= width (bits_exact_elem b mn mx f))%Z).
  { injection H1 as <-. injection H2 as <-. apply nearest_even_fun in Hr'. fold f in Hr'. assert (r' = r) by congruence. subst r'.
    intros [|].
    - destruct W2 as [[_ ->]|[P [i [-> [U _]]]]]; [lia|]. pose proof (grid_pos_ge r mx G2 P) as Y. assert (Z : (pow2 (- r) < pow2 i)%Qc) by qlra. apply pow2_lt_inv in Z. lia.
    - destruct W1 as [[_ [_ ->]]|[NZ [k [i [-> [Ek [L [U _]]]]]]]]; [lia|]. destruct (qltb_spec mn (qz 0)) as [Neg|Pos].
      + assert (G : on_grid r (- mn)%Qc) by (destruct G1 as [n Gn]; exists (- n)%Z; rewrite qz_opp, Gn; ring).
        pose proof (grid_pos_ge r _ G ltac:(qlra)) as Y. assert (Z : (pow2 (- r) <= pow2 i)%Qc) by qlra. apply pow2_le_inv in Z. lia.
      + assert (P : (qz 0 < mx)%Qc) by (destruct NZ as [NZ|NZ]; [destruct (qc_neq_lt mn (qz 0) NZ); qlra|destruct (qc_neq_lt mx (qz 0) NZ); qlra]).
        pose proof (grid_pos_ge r mx G2 P) as Y. assert (Z : (pow2 (- r) < pow2 i)%Qc) by qlra. apply pow2_lt_inv in Z. lia. }
  destruct relu.
  - rewrite (act_bw_relu f r mn mx Hr ltac:(lia) G2 B2). rewrite <- X. specialize (NN true). lia.
  - destruct (act_bw_bounds f r mn mx Hr ltac:(lia) G1 G2 Hle B1 B2) as [A _]. cbv zeta in A. rewrite <- X in A. specialize (NN false). lia.
Qed.

Lemma zsum_map_le {A} (f g : A -> Z) l : (forall x, In x l -> (f x <= g x)%Z) -> (zsum (map f l) <= zsum (map g l))%Z.
Proof.
  unfold zsum. induction l as [|a l IH]; intros H; cbn [map fold_right]; [lia|]. pose proof (H a (or_introl eq_refl)).
  assert (fold_right Z.add 0 (map f l) <= fold_right Z.add 0 (map g l))%Z by (apply IH; intros; apply H; right; assumption). lia.
Qed.
Lemma zsum_map_nonneg {A} (f : A -> Z) l : (forall x, In x l -> (0 <= f x)%Z) -> (0 <= zsum (map f l))%Z.
Proof.
  unfold zsum. induction l as [|a l IH]; intros H; cbn [map fold_right]; [lia|]. pose proof (H a (or_introl eq_refl)).
  assert (0 <= fold_right Z.add 0 (map f l))%Z by (apply IH; intros; apply H; right; assumption). lia.
Qed.

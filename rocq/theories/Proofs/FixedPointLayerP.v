(** Lemmas about the overflow modes' specifications and the quantizer layer. *)
From Coq Require Import ZArith QArith Qcanon List Bool String Lia Lqa.
From Verif Require Import Base.Num Base.NumFacts Base.Tensor Model.FixedPoint Spec.Fixed
  Proofs.FixedPointP Proofs.TensorP.
Import ListNotations.
Local Open Scope string_scope.
Local Open Scope Z_scope.

(** ** Overflow modes *)
Lemma SAT_closest k b v : k = 0 \/ k = 1 -> k <= b ->
  exists c, SAT (qz v) k b = qz c /\ closest (code k b) v c.
Proof.
  intros Hk Hb. rewrite SAT_qz by assumption. eexists; split; [reflexivity|].
  pose proof (lo_le_hi k b Hk Hb).
  split.
  - apply code_iff; [assumption..|lia].
  - intros c' C. apply code_iff in C; [|assumption..]. lia.
Qed.
Lemma SAT_SYM_closest k b v : k = 0 \/ k = 1 -> k <= b ->
  exists c, SAT_SYM (qz v) k b = qz c /\
    closest (fun m => code k b m /\ (k = 1 -> m <> - 2 ^ (b - 1))) v c.
Proof.
  intros Hk Hb. rewrite SAT_SYM_qz by assumption. eexists; split; [reflexivity|].
  assert (P : 0 < 2 ^ (b - k)) by (apply Z.pow_pos_nonneg; lia).
  split.
  - rewrite code_iff by assumption. unfold hi, lo. destruct Hk; subst k; split; lia.
  - intros c' [C N]. apply code_iff in C; [|assumption..]. unfold hi, lo in *. destruct Hk; subst k; lia.
Qed.
Lemma closest_fun (P : Z -> Prop) v c c' : (forall a b, P a -> P b -> forall m, a <= m <= b -> P m) ->
  closest P v c -> closest P v c' -> c = c'.
Proof.
  intros Conv [H1 H2] [H3 H4]. pose proof (H2 _ H3). pose proof (H4 _ H1).
  destruct (Z.eq_dec c c') as [|N]; [assumption|]. exfalso.
  assert (E : Z.abs (v - c) = Z.abs (v - c')) by lia.
  destruct (Z_lt_le_dec c c').
  - assert (X : P (c + 1)) by (apply (Conv c c'); try assumption; lia). pose proof (H2 _ X). lia.
  - assert (X : P (c' + 1)) by (apply (Conv c' c); try assumption; lia). pose proof (H4 _ X). lia.
Qed.
Lemma SAT_ZERO_spec k b v : k = 0 \/ k = 1 -> k <= b ->
  (code k b v -> SAT_ZERO (qz v) k b = qz v) /\ (~ code k b v -> SAT_ZERO (qz v) k b = qz 0).
Proof.
  intros Hk Hb. rewrite SAT_ZERO_qz by assumption. rewrite code_iff by assumption.
  destruct (Z.leb_spec v (hi k b)), (Z.leb_spec (lo k b) v); cbn [andb]; split; intros; try lia; reflexivity.
Qed.
Lemma WRAP_spec k b v : k = 0 \/ k = 1 -> k <= b ->
  exists c, WRAP (qz v) k b = qz c /\ code k b c /\ (exists t, v - c = t * 2 ^ b) /\
    forall c', code k b c' -> (exists t, v - c' = t * 2 ^ b) -> c' = c.
Proof.
  intros Hk Hb. rewrite WRAP_qz by assumption. eexists; split; [reflexivity|].
  pose proof (hi_lo k b Hk Hb) as HL.
  assert (P : 0 < 2 ^ b) by (apply Z.pow_pos_nonneg; lia).
  pose proof (Z.mod_pos_bound (v - lo k b) (2 ^ b) P).
  split; [apply code_iff; [assumption..|lia]|]. split.
  - exists ((v - lo k b) / 2 ^ b). pose proof (Z.div_mod (v - lo k b) (2 ^ b)). lia.
  - intros c' C [t E]. apply code_iff in C; [|assumption..].
    assert ((v - lo k b) mod 2 ^ b = c' - lo k b); [|lia].
    symmetry. apply Z.mod_unique_pos with (q := t); lia.
Qed.
Lemma wrap_sm_period k b v : k = 0 \/ k = 1 -> k <= b -> wrap_sm k b (v + 2 ^ (b + 1)) = wrap_sm k b v.
Proof.
  intros Hk Hb. unfold wrap_sm. assert (P : 0 < 2 ^ (b + 1)) by (apply Z.pow_pos_nonneg; lia).
  replace (v + 2 ^ (b + 1) - hi k b - 1) with (v - hi k b - 1 + 1 * 2 ^ (b + 1)) by lia.
  rewrite Z.mod_add by lia. reflexivity.
Qed.
Lemma wrap_sm_reflect k b v : k = 0 \/ k = 1 -> k <= b -> wrap_sm k b (2 * hi k b + 1 - v) = wrap_sm k b v.
Proof.
  intros Hk Hb. unfold wrap_sm. cbv zeta. assert (P : 0 < 2 ^ b) by (apply Z.pow_pos_nonneg; lia).
  assert (E2 : 2 ^ (b + 1) = 2 * 2 ^ b) by (apply pow_split; lia).
  set (I := 2 ^ (b + 1)) in *. set (u := v - hi k b - 1).
  replace (2 * hi k b + 1 - v - hi k b - 1) with (- u - 1) by (unfold u; lia).
  pose proof (Z.mod_pos_bound u I ltac:(lia)) as B. pose proof (Z.div_mod u I ltac:(lia)) as D.
  assert (E : (- u - 1) mod I = I - 1 - u mod I).
  { symmetry. apply Z.mod_unique_pos with (q := - (u / I) - 1); lia. }
  rewrite E. destruct (Z.leb_spec (2 ^ b) (I - 1 - u mod I)), (Z.leb_spec (2 ^ b) (u mod I)); lia.
Qed.
Lemma wrap_sm_step k b v : k = 0 \/ k = 1 -> k <= b -> Z.abs (wrap_sm k b (v + 1) - wrap_sm k b v) <= 1.
Proof.
  intros Hk Hb. unfold wrap_sm. cbv zeta. assert (P : 0 < 2 ^ b) by (apply Z.pow_pos_nonneg; lia).
  assert (E2 : 2 ^ (b + 1) = 2 * 2 ^ b) by (apply pow_split; lia).
  set (I := 2 ^ (b + 1)) in *. set (u := v - hi k b - 1).
  replace (v + 1 - hi k b - 1) with (u + 1) by (unfold u; lia).
  pose proof (Z.mod_pos_bound u I ltac:(lia)) as B. pose proof (Z.div_mod u I ltac:(lia)) as D.
  destruct (Z.eq_dec (u mod I) (I - 1)) as [E|E].
  - assert (E' : (u + 1) mod I = 0). { symmetry. apply Z.mod_unique_pos with (q := u / I + 1); lia. }
    rewrite E'. rewrite E. destruct (Z.leb_spec (2 ^ b) 0), (Z.leb_spec (2 ^ b) (I - 1)); lia.
  - assert (E' : (u + 1) mod I = u mod I + 1). { symmetry. apply Z.mod_unique_pos with (q := u / I); lia. }
    rewrite E'. destruct (Z.leb_spec (2 ^ b) (u mod I + 1)), (Z.leb_spec (2 ^ b) (u mod I)); lia.
Qed.

(** ** The layer *)
Lemma init_elem_zero c : bits c = 0 -> init_elem c = mkCfg 0 0 0.
Proof. intros H. unfold init_elem. rewrite H. reflexivity. Qed.
Lemma init_elem_nz c : bits c <> 0 -> init_elem c = c.
Proof. intros H. unfold init_elem. destruct (Z.eqb_spec (bits c) 0); [contradiction|]. destruct c; reflexivity. Qed.

Lemma fpq_call_batch {O} (q : fpq O) n s x :
  shape (cfgs q) = (1 :: s)%nat -> shape x = (n :: s)%nat ->
  In (rnd_name q) rounding_names -> In (sat_name q) overflow_names ->
  exists y, fpq_call q false x = Ok y /\ shape y = (n :: s)%nat /\ wf_tensor y /\
    forall j p d, (j < n)%nat -> (p < prodn s)%nat ->
      let c := nth p (data (cfgs q)) (mkCfg 0 0 0) in
      gfixed_quantizer (nth (j * prodn s + p) (data x) (qz 0)) (kn c) (bits c) (ints c) (rnd_name q) (sat_name q)
      = Ok (nth (j * prodn s + p) (data y) d).
Proof.
  intros Hc Hx HR HS. apply rnd_map_some in HR as [rnd HR]. apply sat_map_some in HS as [sat HS].
  unfold fpq_call, gfixed_quantizer. rewrite HR, HS.
  destruct (bmap2_batch (qz 0) (mkCfg 0 0 0)
    (fun v c => gfixed_elem rnd sat (kn c) (bits c) (ints c) v) n s x (cfgs q) Hx Hc) as [y [E [Sy [W H]]]].
  exists y. repeat split; try assumption. intros j p d Hj Hp. cbv zeta. rewrite (H j p d Hj Hp). reflexivity.
Qed.

Lemma gfixed_zero_bits x k i R S y : gfixed_quantizer x k 0 i R S = Ok y -> y = qz 0.
Proof. intros H. apply gfixed_some in H as [? [? [_ [_ ->]]]]. apply gfixed_elem_z. Qed.

(** Save and load. *)
Definition legal_cfg (c : qcfg) : Prop := (kn c = 0 \/ kn c = 1) /\ 0 <= bits c.

Lemma set_weights_same {O} (q : fpq O) w : shape w = shape (cfgs q) ->
  set_weights q w = Ok (mkFPQ w (rnd_name q) (sat_name q) (overrides q)).
Proof.
  intros H. unfold set_weights. destruct (list_eq_dec Nat.eq_dec (shape w) (shape (cfgs q))); [reflexivity|contradiction].
Qed.

Lemma save_load_id {O} (q : fpq O) n_outbound :
  Forall legal_cfg (data (cfgs q)) ->
  save_load q 1 false n_outbound = Ok q.
Proof.
  intros H. unfold save_load, get_config.
  assert (K : forallb (fun c => (Z.eqb (kn c) 0 || Z.eqb (kn c) 1)%bool) (data (cfgs q)) = true).
  { apply forallb_forall. intros c Hc. rewrite Forall_forall in H. destruct (H c Hc) as [[E|E] _]; rewrite E; reflexivity. }
  assert (B : forallb (fun c => Z.leb 0 (bits c)) (data (cfgs q)) = true).
  { apply forallb_forall. intros c Hc. rewrite Forall_forall in H. destruct (H c Hc) as [_ E]. apply Z.leb_le, E. }
  rewrite K, B. cbn [negb]. unfold fusible. cbn [Nat.eqb negb].
  destruct (negb (Nat.eqb n_outbound 1)); cbn [rbind fst snd]; rewrite set_weights_same by reflexivity; destruct q; reflexivity.
Qed.

Lemma save_load_clamps {O} (q : fpq O) n_outbound :
  Forall (fun c => kn c = 0 \/ kn c = 1) (data (cfgs q)) ->
  exists q', save_load q 1 false n_outbound = Ok q' /\ rnd_name q' = rnd_name q /\ sat_name q' = sat_name q
    /\ overrides q' = overrides q /\ shape (cfgs q') = shape (cfgs q)
    /\ data (cfgs q') = map (fun c => mkCfg (kn c) (Z.max (bits c) 0) (ints c)) (data (cfgs q)).
Proof.
  intros H.
  assert (K : forallb (fun c => (Z.eqb (kn c) 0 || Z.eqb (kn c) 1)%bool) (data (cfgs q)) = true).
  { apply forallb_forall. intros c Hc. rewrite Forall_forall in H. destruct (H c Hc) as [E|E]; rewrite E; reflexivity. }
  destruct (forallb (fun c => Z.leb 0 (bits c)) (data (cfgs q))) eqn:B.
  - exists q. split.
    + apply save_load_id. rewrite forallb_forall in B. rewrite Forall_forall in *. intros c Hc. split; [apply H, Hc|].
      apply Z.leb_le, B, Hc.
    + repeat split. rewrite forallb_forall in B. rewrite <- map_id at 1. apply map_ext_in. intros c Hc.
      apply B, Z.leb_le in Hc. rewrite Z.max_l by assumption. destruct c; reflexivity.
  - unfold save_load, get_config. rewrite K, B. cbn [negb]. unfold fusible. cbn [Nat.eqb negb].
    exists (mkFPQ (tmap (fun c => mkCfg (kn c) (Z.max (bits c) 0) (ints c)) (cfgs q)) (rnd_name q) (sat_name q) (overrides q)).
    split; [|repeat split].
    + destruct (negb (Nat.eqb n_outbound 1)); cbn [rbind fst snd]; rewrite set_weights_same by reflexivity; reflexivity.
Qed.

(** Heterogeneity and exported type. *)
Lemma fold_max_ge l a : a <= fold_left Z.max l a /\ Forall (fun x => x <= fold_left Z.max l a) l.
Proof.
  revert a. induction l as [|b l IH]; intros a; cbn [fold_left]; [split; [lia|constructor]|].
  destruct (IH (Z.max a b)) as [H1 H2]. split; [lia|]. constructor; [lia|assumption].
Qed.
Lemma zmax_list_ge l x : In x l -> x <= zmax_list l.
Proof.
  destruct l as [|a l]; [contradiction|]. cbn [zmax_list]. destruct (fold_max_ge l a) as [H1 H2].
  intros [<-|H]; [assumption|]. rewrite Forall_forall in H2. apply H2, H.
Qed.
Lemma fold_max_in l a : fold_left Z.max l a = a \/ In (fold_left Z.max l a) l.
Proof.
  revert a. induction l as [|b l IH]; intros a; cbn [fold_left]; [left; reflexivity|].
  destruct (IH (Z.max a b)) as [E|E].
  - rewrite E. destruct (Z.max_spec a b) as [[_ ->]|[_ ->]]; [right; left; reflexivity|left; reflexivity].
  - right; right; assumption.
Qed.
Lemma zmax_list_in l : l <> [] -> In (zmax_list l) l.
Proof.
  destruct l as [|a l]; [contradiction|]. intros _. cbn [zmax_list].
  destruct (fold_max_in l a) as [->|H]; [left; reflexivity|right; assumption].
Qed.
Lemma zmax_list_const l a : l <> [] -> (forall x, In x l -> x = a) -> zmax_list l = a.
Proof. intros H1 H2. apply H2, zmax_list_in, H1. Qed.

Lemma forallb_const {A} (f : A -> Z) l :
  forallb (fun c => Z.eqb (f c) (zmax_list (map f l))) l = true <-> (forall c d, In c l -> In d l -> f c = f d).
Proof.
  rewrite forallb_forall. split.
  - intros H c d Hc Hd. apply H, Z.eqb_eq in Hc. apply H, Z.eqb_eq in Hd. congruence.
  - intros H c Hc. apply Z.eqb_eq. symmetry. apply zmax_list_const.
    + destruct l; [contradiction|discriminate].
    + intros x Hx. apply in_map_iff in Hx as [d [<- Hd]]. apply H; assumption.
Qed.

Lemma not_heterogeneous_iff {O} (q : fpq O) :
  heterogeneous q = false <-> forall c d, In c (data (cfgs q)) -> In d (data (cfgs q)) -> c = d.
Proof.
  unfold heterogeneous. cbv zeta.
  pose proof (forallb_const kn (data (cfgs q))) as K. pose proof (forallb_const bits (data (cfgs q))) as B.
  pose proof (forallb_const ints (data (cfgs q))) as I.
  destruct (forallb (fun c => Z.eqb (kn c) _) _); cbn [negb];
  destruct (forallb (fun c => Z.eqb (bits c) _) _); cbn [negb];
  destruct (forallb (fun c => Z.eqb (ints c) _) _); cbn [negb]; split; intros H; try discriminate; try reflexivity.
  1: { intros c d Hc Hd. destruct c as [k1 b1 i1], d as [k2 b2 i2].
    assert (E1 := proj1 K eq_refl _ _ Hc Hd). assert (E2 := proj1 B eq_refl _ _ Hc Hd).
    assert (E3 := proj1 I eq_refl _ _ Hc Hd). cbn in *. congruence. }
  all: exfalso;
   try (assert (X : false = true) by (apply I; intros c d Hc Hd; rewrite (H c d Hc Hd); reflexivity); discriminate X);
   try (assert (X : false = true) by (apply B; intros c d Hc Hd; rewrite (H c d Hc Hd); reflexivity); discriminate X);
   try (assert (X : false = true) by (apply K; intros c d Hc Hd; rewrite (H c d Hc Hd); reflexivity); discriminate X).
Qed.

Lemma i8_id z : -128 <= z <= 127 -> i8 z = z.
Proof. intros H. unfold i8. rewrite Z.mod_small by lia. lia. Qed.

Definition i8_safe (c : qcfg) : Prop := -128 <= ints c - kn c <= 127 /\ -128 <= bits c - ints c <= 127.

Lemma result_t_kif_ge {O} (q : fpq O) k i f c :
  result_t_kif q = (k, i, f) -> In c (data (cfgs q)) -> i8_safe c ->
  kn c <= k /\ ints c - kn c <= i /\ bits c - ints c <= f.
Proof.
  unfold result_t_kif. intros E Hc [S1 S2]. injection E as <- <- <-.
  rewrite <- (i8_id (ints c - kn c)) by assumption. rewrite <- (i8_id (bits c - ints c)) by assumption.
  repeat split; apply zmax_list_ge.
  - apply in_map; assumption.
  - apply (in_map (fun c => i8 (ints c - kn c))); assumption.
  - apply (in_map (fun c => i8 (bits c - ints c))); assumption.
Qed.

Lemma grid_weaken f f' x : f <= f' -> on_grid f x -> on_grid f' x.
Proof.
  intros H [m ->]. exists (m * 2 ^ (f' - f)). rewrite qz_mul, <- pow2_Z by lia.
  rewrite <- Qcmult_assoc, <- pow2_add. f_equal. f_equal. lia.
Qed.

Lemma representable_fits k b i x : k = 0 \/ k = 1 -> k <= b ->
  representable k b i x <-> fits k (i - k) (b - i) x.
Proof.
  intros Hk Hb. unfold representable, fits. split.
  - intros [m [C ->]]. apply code_iff in C; [|assumption..]. split; [exists m; f_equal; f_equal; lia|].
    assert (E : pow2 (i - k) = (pow2 (b - k) * pow2 (i - b))%Qc) by (rewrite <- pow2_add; f_equal; lia).
    rewrite E. rewrite pow2_Z by lia. pose proof (pow2_pos (i - b)) as P.
    unfold hi, lo in C. destruct C as [C1 C2]. split.
    + replace (- (qz k * (qz (2 ^ (b - k)) * pow2 (i - b))))%Qc with (qz (- (k * 2 ^ (b - k))) * pow2 (i - b))%Qc
        by (rewrite qz_opp, qz_mul; ring).
      apply qmul_le_r; [qlra|]. apply qz_le. assumption.
    + apply qmul_lt_r; [assumption|]. apply qz_lt. lia.
  - intros [[m ->] [L U]]. exists m. replace (- (b - i)) with (i - b) in * by lia. split; [|reflexivity].
    assert (E : pow2 (i - k) = (pow2 (b - k) * pow2 (i - b))%Qc) by (rewrite <- pow2_add; f_equal; lia).
    rewrite E in *. rewrite (pow2_Z (b - k)) in * by lia. pose proof (pow2_pos (i - b)) as P.
    apply code_iff; [assumption..|]. unfold hi, lo.
    replace (- (qz k * (qz (2 ^ (b - k)) * pow2 (i - b))))%Qc with (qz (- (k * 2 ^ (b - k))) * pow2 (i - b))%Qc in L
        by (rewrite qz_opp, qz_mul; ring).
    apply qmul_le_r_inv in L; [|assumption]. apply qmul_lt_r_inv in U; [|assumption].
    apply (proj1 (qz_le _ _)) in L. apply (proj1 (qz_lt _ _)) in U. lia.
Qed.

Lemma fits_weaken k i f k' i' f' x : 0 <= k <= k' -> i <= i' -> f <= f' -> fits k i f x -> fits k' i' f' x.
Proof.
  intros Hk Hi Hf [G [L U]]. split; [eapply grid_weaken; eassumption|].
  apply pow2_le in Hi. pose proof (pow2_pos i). split; [|qlra].
  assert ((qz k * pow2 i <= qz k' * pow2 i')%Qc); [|qlra].
  assert (A : (qz k <= qz k')%Qc) by (apply qz_le; lia). assert (B : (qz 0 <= qz k)%Qc) by (apply qz_le; lia).
  generalize dependent (qz k). generalize dependent (qz k'). intros. qnra.
Qed.

Lemma result_t_kif_contains {O} (q : fpq O) k i f c x :
  result_t_kif q = (k, i, f) -> In c (data (cfgs q)) -> i8_safe c -> legal_cfg c -> kn c <= bits c ->
  representable (kn c) (bits c) (ints c) x -> fits k i f x.
Proof.
  intros E Hc S [Lk Lb] Hb R. destruct (result_t_kif_ge q k i f c E Hc S) as [A [B C]].
  apply representable_fits in R; [|assumption..].
  eapply fits_weaken; [| | |exact R]; lia.
Qed.
Lemma result_t_kif_homog {O} (q : fpq O) c :
  heterogeneous q = false -> In c (data (cfgs q)) -> i8_safe c ->
  result_t_kif q = (kn c, ints c - kn c, bits c - ints c).
Proof.
  intros H Hc [S1 S2]. rewrite not_heterogeneous_iff in H. unfold result_t_kif.
  assert (N : data (cfgs q) <> []) by (destruct (data (cfgs q)); [contradiction|discriminate]).
  f_equal; [f_equal|].
  - apply zmax_list_const; [destruct (data (cfgs q)); [contradiction|discriminate]|].
    intros x Hx. apply in_map_iff in Hx as [d [<- Hd]]. rewrite (H d c); auto.
  - apply zmax_list_const; [destruct (data (cfgs q)); [contradiction|discriminate]|].
    intros x Hx. apply in_map_iff in Hx as [d [<- Hd]]. rewrite (H d c); auto. apply i8_id; assumption.
  - apply zmax_list_const; [destruct (data (cfgs q)); [contradiction|discriminate]|].
    intros x Hx. apply in_map_iff in Hx as [d [<- Hd]]. rewrite (H d c); auto. apply i8_id; assumption.
Qed.

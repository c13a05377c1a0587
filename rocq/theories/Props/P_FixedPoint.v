(** Properties C01-C10: the proxy fixed-point quantizer
    (src/HGQ/proxy/fixed_point_quantizer.py). *)
From Coq Require Import ZArith QArith Qcanon List Bool String Lia.
From Verif Require Import Base.Num Base.NumFacts Base.Tensor Base.Compute Model.FixedPoint Spec.Fixed
  Proofs.FixedPointP Proofs.FixedPointLayerP.
Import ListNotations.
Local Open Scope string_scope.
Local Open Scope Z_scope.

(** C01: every output is a value of the declared format. *)
Theorem C01_quantizer_output_representable : forall x k b i R S y,
  k = 0 \/ k = 1 -> 1 <= b ->
  gfixed_quantizer x k b i R S = Ok y -> representable k b i y.
Proof. intros; eapply gfixed_representable; eauto; lia. Qed.
Print Assumptions C01_quantizer_output_representable.

(** C01: and the quantizer does return for each of the 7x5 modes (only unknown names raise). *)
Theorem C01_quantizer_raises_iff_unknown_mode : forall x k b i R S,
  gfixed_quantizer x k b i R S = Raise <-> ~ (In R rounding_names /\ In S overflow_names).
Proof. exact gfixed_raise. Qed.
Print Assumptions C01_quantizer_raises_iff_unknown_mode.

Example C01_ex : exists y, gfixed_quantizer (Q2Qc (-37 # 8)) 1 4 2 "RND_CONV" "WRAP_SM" = Ok y
  /\ y = Q2Qc (1 # 4).
Proof. eexists; split; [reflexivity|]. qvm. Qed.

(** C01: the layer on a batch.  It returns exactly at inference and for known modes, and then every
    element of every sample is in the format of its position; in training it raises. *)
Theorem C01_layer : forall O (q : fpq O) training n s x,
  shape (cfgs q) = (1 :: s)%nat -> shape x = (n :: s)%nat ->
  (forall p, (p < prodn s)%nat -> let c := nth p (data (cfgs q)) (mkCfg 0 0 0) in (kn c = 0 \/ kn c = 1) /\ 1 <= bits c) ->
  match fpq_call q training x with
  | Ok y => training = false /\ shape y = shape x /\
      forall j p d, (j < n)%nat -> (p < prodn s)%nat -> let c := nth p (data (cfgs q)) (mkCfg 0 0 0) in
        representable (kn c) (bits c) (ints c) (nth (j * prodn s + p) (data y) d)
  | Raise => training = true \/ ~ (In (rnd_name q) rounding_names /\ In (sat_name q) overflow_names)
  end.
Proof.
  intros O q training n s x Hc Hx HF. destruct training; [left; reflexivity|].
  destruct (fpq_call q false x) as [y|] eqn:Ey.
  - assert (HR : In (rnd_name q) rounding_names /\ In (sat_name q) overflow_names).
    { unfold fpq_call in Ey. destruct (RND_MAP (rnd_name q)) eqn:E1; [|discriminate].
      destruct (SAT_MAP (sat_name q)) eqn:E2; [|discriminate].
      split; [apply rnd_map_some|apply sat_map_some]; eauto. }
    destruct (fpq_call_batch q n s x Hc Hx (proj1 HR) (proj2 HR)) as [y' [E [S [_ H]]]]. rewrite Ey in E. injection E as <-.
    split; [reflexivity|]. split; [congruence|]. intros j p d Hj Hp. cbv zeta. destruct (HF p Hp) as [F1 F2].
    eapply gfixed_representable; [exact F1|lia|lia|exact (H j p d Hj Hp)].
  - right. intros HR. destruct (fpq_call_batch q n s x Hc Hx (proj1 HR) (proj2 HR)) as [y' [E _]]. congruence.
Qed.
Print Assumptions C01_layer.
Example C01_layer_ex : let q := fpq_init (mkT [1; 2]%nat [mkCfg 0 2 3; mkCfg 1 3 2]) "TRN" "WRAP" tt in
  let x := mkT [2; 2]%nat [qz 5; qz 5; Q2Qc (7#4); Q2Qc (-7#4)] in
  fpq_call q false x = Ok (mkT [2; 2]%nat [qz 4; qz 1; qz 0; qz (-2)]) /\ fpq_call q true x = Raise.
Proof. qvm. Qed.

(** C02: identity on representable values. *)
Theorem C02_quantizer_identity_on_representable : forall x k b i R S y,
  k = 0 \/ k = 1 -> 1 <= b -> representable k b i x ->
  (S = "SAT_SYM" -> k = 1 -> x <> (qz (- 2 ^ (b - 1)) * pow2 (i - b))%Qc) ->
  gfixed_quantizer x k b i R S = Ok y -> y = x.
Proof. intros; eapply gfixed_id; eauto; lia. Qed.
Print Assumptions C02_quantizer_identity_on_representable.

Example C02_ex : representable 1 4 2 (Q2Qc (-2 # 1))
  /\ gfixed_quantizer (Q2Qc (-2 # 1)) 1 4 2 "TRN" "SAT" = Ok (Q2Qc (-2 # 1))
  /\ gfixed_quantizer (Q2Qc (-2 # 1)) 1 4 2 "TRN" "SAT_SYM" = Ok (Q2Qc (-7 # 4)).
Proof.
  split; [|split; qvm].
  exists (-8). split; [right; cbn; lia|]. qvm.
Qed.

(** C02: the excluded case, symmetric saturation of the most negative code. *)
Theorem C02_sat_sym_most_negative : forall x b i R y,
  2 <= b -> x = (qz (- 2 ^ (b - 1)) * pow2 (i - b))%Qc ->
  gfixed_quantizer x 1 b i R "SAT_SYM" = Ok y -> y = (qz (- 2 ^ (b - 1) + 1) * pow2 (i - b))%Qc.
Proof.
  intros x b i R y Hb -> H. apply gfixed_some in H as [rnd [sat [HR [HS ->]]]].
  rewrite gfixed_elem_nz by lia. rewrite mul_pow2_id by lia. rewrite (rnd_qz R) by assumption.
  cbn in HS. injection HS as <-. rewrite SAT_SYM_qz by lia. f_equal. f_equal.
  assert (0 < 2 ^ (b - 1)) by (apply Z.pow_pos_nonneg; lia). unfold hi. lia.
Qed.
Print Assumptions C02_sat_sym_most_negative.

(** C02: idempotence, any mode, any width. *)
Theorem C02_quantizer_idempotent : forall x k b i R S y z,
  k = 0 \/ k = 1 -> k <= b ->
  gfixed_quantizer x k b i R S = Ok y -> gfixed_quantizer y k b i R S = Ok z -> z = y.
Proof. exact gfixed_idem. Qed.
Print Assumptions C02_quantizer_idempotent.

(** C03: each named rounding function follows its rule, and the rule determines the result. *)
Theorem C03_rounding_modes_follow_rules : forall R x, In R rounding_names ->
  exists rnd n, RND_MAP R = Some rnd /\ rnd x = qz n /\ rounds_to R x n
    /\ forall m, rounds_to R x m -> m = n.
Proof.
  intros R x H. apply rnd_map_some in H as [rnd H]. destruct (rnd_spec R rnd x H) as [n [E S]].
  exists rnd, n. repeat split; try assumption. intros m M. eapply rounds_to_fun; eassumption.
Qed.
Print Assumptions C03_rounding_modes_follow_rules.

Example C03_ex :
  map (fun R => match RND_MAP R with Some f => map f [Q2Qc (-5 # 2); Q2Qc (-1 # 2); Q2Qc (1 # 2); Q2Qc (7 # 4)] | None => [] end)
    rounding_names =
  [ map qz [-3; -1; 0; 1]; map qz [-2; 0; 0; 1]; map qz [-2; 0; 1; 2]; map qz [-2; 0; 0; 2];
    map qz [-3; -1; 0; 2]; map qz [-3; -1; 1; 2]; map qz [-2; 0; 0; 2] ].
Proof. qvm. Qed.

(** C03: the comment on RND (fixed_point_quantizer.py:19 "ties to even") is wrong: ties go up. *)
Theorem C03_RND_ties_to_even_refuted :
  ~ (forall x n, RND x = qz n -> tie x -> Z.Even n).
Proof.
  intros H. assert (E : Z.Even 1).
  { apply (H (Q2Qc (1 # 2))); [qvm|]. exists 0. qvm. }
  destruct E; lia.
Qed.
Print Assumptions C03_RND_ties_to_even_refuted.

(** C04 *)
Theorem C04_SAT_is_closest_code : forall k b v, k = 0 \/ k = 1 -> k <= b ->
  exists c, SAT (qz v) k b = qz c /\ closest (code k b) v c.
Proof. exact SAT_closest. Qed.
Print Assumptions C04_SAT_is_closest_code.

Theorem C04_SAT_SYM_is_closest_symmetric_code : forall k b v, k = 0 \/ k = 1 -> k <= b ->
  exists c, SAT_SYM (qz v) k b = qz c /\
    closest (fun m => code k b m /\ (k = 1 -> m <> - 2 ^ (b - 1))) v c.
Proof. exact SAT_SYM_closest. Qed.
Print Assumptions C04_SAT_SYM_is_closest_symmetric_code.

Theorem C04_SAT_ZERO_zeroes_overflow : forall k b v, k = 0 \/ k = 1 -> k <= b ->
  (code k b v -> SAT_ZERO (qz v) k b = qz v) /\ (~ code k b v -> SAT_ZERO (qz v) k b = qz 0).
Proof. exact SAT_ZERO_spec. Qed.
Print Assumptions C04_SAT_ZERO_zeroes_overflow.

Theorem C04_names : SAT_MAP "SAT" = Some SAT /\ SAT_MAP "SAT_SYM" = Some SAT_SYM
  /\ SAT_MAP "SAT_ZERO" = Some SAT_ZERO /\ SAT_MAP "WRAP" = Some WRAP /\ SAT_MAP "WRAP_SM" = Some WRAP_SM.
Proof. repeat split. Qed.
Print Assumptions C04_names.

Example C04_ex : SAT (qz 9) 1 4 = qz 7 /\ SAT (qz (-9)) 1 4 = qz (-8) /\ SAT_SYM (qz (-9)) 1 4 = qz (-7)
  /\ SAT_ZERO (qz 9) 1 4 = qz 0 /\ SAT_ZERO (qz 5) 1 4 = qz 5 /\ SAT (qz (-3)) 0 4 = qz 0.
Proof. qvm. Qed.

(** C05 *)
Theorem C05_WRAP_is_twos_complement : forall k b v, k = 0 \/ k = 1 -> k <= b ->
  exists c, WRAP (qz v) k b = qz c /\ code k b c /\ (exists t, v - c = t * 2 ^ b) /\
    forall c', code k b c' -> (exists t, v - c' = t * 2 ^ b) -> c' = c.
Proof. exact WRAP_spec. Qed.
Print Assumptions C05_WRAP_is_twos_complement.

Example C05_ex : WRAP (qz 9) 1 4 = qz (-7) /\ WRAP (qz (-9)) 1 4 = qz 7 /\ WRAP (qz (-3)) 0 4 = qz 13.
Proof. qvm. Qed.

(** C06 *)
Theorem C06_WRAP_SM_reflects : forall k b, k = 0 \/ k = 1 -> k <= b ->
  let high := 2 ^ (b - k) - 1 in
  exists g : Z -> Z, (forall v, WRAP_SM (qz v) k b = qz (g v)) /\
    (forall v, code k b (g v)) /\
    (forall v, code k b v -> g v = v) /\
    (forall v, g (v + 2 ^ (b + 1)) = g v) /\
    (forall v, g (2 * high + 1 - v) = g v) /\
    (forall v, Z.abs (g (v + 1) - g v) <= 1).
Proof.
  intros k b Hk Hb high. exists (wrap_sm k b). repeat split; intros.
  - apply WRAP_SM_qz; assumption.
  - apply code_iff; [assumption..|]. apply wrap_sm_range; assumption.
  - apply wrap_sm_id; try assumption. apply code_iff; assumption.
  - apply wrap_sm_period; assumption.
  - apply wrap_sm_reflect; assumption.
  - apply wrap_sm_step; assumption.
Qed.
Print Assumptions C06_WRAP_SM_reflects.

Example C06_ex : map (fun v => WRAP_SM (qz v) 1 3) [3; 4; 5; 11; 12; -4; -5; -6] = map qz [3; 3; 2; -4; -4; -4; -4; -3].
Proof. qvm. Qed.

(** C07 *)
Theorem C07_zero_width_is_zero : forall x k i R S y,
  gfixed_quantizer x k 0 i R S = Ok y -> y = qz 0.
Proof. exact gfixed_zero_bits. Qed.
Print Assumptions C07_zero_width_is_zero.

(** C07: on whole batches, element-wise, through the broadcasting call. *)
Theorem C07_zero_width_elements_of_layer : forall O (q : fpq O) n s x y j p d,
  shape (cfgs q) = (1 :: s)%nat -> shape x = (n :: s)%nat ->
  fpq_call q false x = Ok y -> (j < n)%nat -> (p < prodn s)%nat ->
  bits (nth p (data (cfgs q)) (mkCfg 0 0 0)) = 0 -> nth (j * prodn s + p) (data y) d = qz 0.
Proof.
  intros O q n s x y j p d Hc Hx Hy Hj Hp Hb.
  assert (HR : In (rnd_name q) rounding_names /\ In (sat_name q) overflow_names).
  { unfold fpq_call in Hy. destruct (RND_MAP (rnd_name q)) eqn:E1; [|discriminate].
    destruct (SAT_MAP (sat_name q)) eqn:E2; [|discriminate].
    split; [apply rnd_map_some|apply sat_map_some]; eauto. }
  destruct (fpq_call_batch q n s x Hc Hx (proj1 HR) (proj2 HR)) as [y' [E [_ [_ H]]]].
  rewrite Hy in E. injection E as <-. specialize (H j p d Hj Hp). cbv zeta in H. rewrite Hb in H.
  eapply gfixed_zero_bits. exact H.
Qed.
Print Assumptions C07_zero_width_elements_of_layer.

Theorem C07_constructor_normalises : forall O (c : tensor qcfg) R S (o : O) p,
  let q := fpq_init c R S o in
  let e := nth p (data c) (mkCfg 0 0 0) in
  let e' := nth p (data (cfgs q)) (mkCfg 0 0 0) in
  shape (cfgs q) = shape c /\ (bits e = 0 -> e' = mkCfg 0 0 0) /\ (bits e <> 0 -> e' = e).
Proof.
  intros O c R S o p. cbn [fpq_init cfgs tmap data shape]. cbv zeta.
  assert (E : nth p (map init_elem (data c)) (mkCfg 0 0 0) = init_elem (nth p (data c) (mkCfg 0 0 0)))
    by exact (map_nth init_elem (data c) (mkCfg 0 0 0) p).
  rewrite E. split; [reflexivity|]. split; [apply init_elem_zero|apply init_elem_nz].
Qed.
Print Assumptions C07_constructor_normalises.

Example C07_ex :
  let q := fpq_init (mkT [1; 2]%nat [mkCfg 1 0 3; mkCfg 1 3 2]) "TRN" "WRAP" tt in
  data (cfgs q) = [mkCfg 0 0 0; mkCfg 1 3 2] /\
  fpq_call q false (mkT [2; 2]%nat [qz 5; qz 5; Q2Qc (-7#4); Q2Qc (-7#4)])
    = Ok (mkT [2; 2]%nat [qz 0; qz 1; qz 0; qz (-2)]).
Proof. qvm. Qed.

(** C08 *)
Theorem C08_quantizer_monotone : forall x y k b i R S u v,
  k = 0 \/ k = 1 -> k <= b -> S = "SAT" \/ S = "SAT_SYM" -> (x <= y)%Qc ->
  gfixed_quantizer x k b i R S = Ok u -> gfixed_quantizer y k b i R S = Ok v -> (u <= v)%Qc.
Proof. exact gfixed_mono. Qed.
Print Assumptions C08_quantizer_monotone.

(** C08: the restriction is needed. *)
Theorem C08_wrapping_not_monotone : forall S, In S ["SAT_ZERO"; "WRAP"; "WRAP_SM"] ->
  exists x y u v, (x <= y)%Qc /\ gfixed_quantizer x 1 4 4 "TRN" S = Ok u /\
    gfixed_quantizer y 1 4 4 "TRN" S = Ok v /\ (v < u)%Qc.
Proof.
  intros S H. exists (qz 7), (qz 9). cbn in H.
  repeat destruct H as [H|H]; try contradiction; subst S; eexists; eexists;
    (split; [apply qz_le; lia|]; split; [reflexivity|]; split; [reflexivity|]; vm_compute; reflexivity).
Qed.
Print Assumptions C08_wrapping_not_monotone.

(** C09 *)
Theorem C09_save_load_preserves : forall O (q : fpq O) n_outbound,
  (forall c, In c (data (cfgs q)) -> (kn c = 0 \/ kn c = 1) /\ 0 <= bits c) ->
  save_load q 1 false n_outbound = Ok q.
Proof. intros O q n H. apply save_load_id. apply Forall_forall. exact H. Qed.
Print Assumptions C09_save_load_preserves.

Theorem C09_save_load_clamps_negative_widths : forall O (q : fpq O) n_outbound,
  (forall c, In c (data (cfgs q)) -> kn c = 0 \/ kn c = 1) ->
  exists q', save_load q 1 false n_outbound = Ok q' /\ rnd_name q' = rnd_name q /\ sat_name q' = sat_name q
    /\ overrides q' = overrides q /\ shape (cfgs q') = shape (cfgs q)
    /\ data (cfgs q') = map (fun c => mkCfg (kn c) (Z.max (bits c) 0) (ints c)) (data (cfgs q)).
Proof. intros O q n H. apply save_load_clamps. apply Forall_forall. exact H. Qed.
Print Assumptions C09_save_load_clamps_negative_widths.

Example C09_ex :
  let q := fpq_init (mkT [1; 3]%nat [mkCfg 1 5 2; mkCfg 0 0 7; mkCfg 0 3 3]) "RND" "SAT" 7%nat in
  save_load q 1 false 2 = Ok q.
Proof. qvm. Qed.

(** C09: with a negative width saving does change the layer's function. *)
Theorem C09_save_load_preserves_any_width_refuted :
  exists (q q' : fpq unit) x y y', save_load q 1 false 1 = Ok q' /\
    fpq_call q false x = Ok y /\ fpq_call q' false x = Ok y' /\ y <> y'.
Proof.
  exists (mkFPQ (mkT [1]%nat [mkCfg 1 (-1) 0]) "TRN" "SAT" tt).
  eexists. exists (mkT [1]%nat [qz 1]). eexists. eexists.
  split; [vm_compute; reflexivity|]. split; [vm_compute; reflexivity|]. split; [vm_compute; reflexivity|].
  intros E. discriminate E.
Qed.
Print Assumptions C09_save_load_preserves_any_width_refuted.

(** C10 *)
Theorem C10_heterogeneous_iff : forall O (q : fpq O),
  heterogeneous q = true <-> exists c d, In c (data (cfgs q)) /\ In d (data (cfgs q)) /\
    (kn c <> kn d \/ bits c <> bits d \/ ints c <> ints d).
Proof.
  intros O q. split.
  - intros H. apply Bool.not_false_iff_true in H. rewrite not_heterogeneous_iff in H.
    destruct (data (cfgs q)) as [|c l] eqn:E; [exfalso; apply H; intros ? ? []|].
    assert (D : forall a b : qcfg, {a = b} + {a <> b}) by (decide equality; apply Z.eq_dec).
    destruct (Forall_dec (fun x => x = c) (fun x => D x c) l) as [F|F].
    + exfalso. apply H. rewrite Forall_forall in F.
      assert (G : forall x, In x (c :: l) -> x = c) by (intros x [<-|Hx]; auto).
      intros a b Ha Hb. rewrite (G a Ha), (G b Hb). reflexivity.
    + apply Exists_Forall_neg in F; [|intros x; destruct (D x c); tauto].
      apply Exists_exists in F as [x [Hx Nx]]. exists x, c. split; [right; assumption|]. split; [left; reflexivity|].
      destruct x as [k1 b1 i1], c as [k2 b2 i2]; cbn. destruct (Z.eq_dec k1 k2), (Z.eq_dec b1 b2), (Z.eq_dec i1 i2); auto.
      subst. contradiction Nx; reflexivity.
  - intros [c [d [Hc [Hd N]]]]. apply Bool.not_false_iff_true. intros F. rewrite not_heterogeneous_iff in F.
    rewrite (F c d Hc Hd) in N. tauto.
Qed.
Print Assumptions C10_heterogeneous_iff.

Theorem C10_fusible_iff : forall O (q : fpq O) n_outbound,
  fusible q 1 false n_outbound = Ok true <-> n_outbound = 1%nat /\ heterogeneous q = false.
Proof.
  intros O q n. unfold fusible. cbn [Nat.eqb negb].
  destruct (Nat.eqb_spec n 1) as [->|N]; cbn [negb]; destruct (heterogeneous q); cbn; split; try easy; intuition congruence.
Qed.
Print Assumptions C10_fusible_iff.

Theorem C10_homogeneous_type_exact : forall O (q : fpq O) c,
  heterogeneous q = false -> In c (data (cfgs q)) ->
  -128 <= ints c - kn c <= 127 -> -128 <= bits c - ints c <= 127 ->
  result_t_kif q = (kn c, ints c - kn c, bits c - ints c).
Proof. intros. apply result_t_kif_homog; auto. split; assumption. Qed.
Print Assumptions C10_homogeneous_type_exact.

Theorem C10_exported_type_contains_elements : forall O (q : fpq O) k i f c x,
  result_t_kif q = (k, i, f) -> In c (data (cfgs q)) ->
  (kn c = 0 \/ kn c = 1) -> 1 <= bits c ->
  -128 <= ints c - kn c <= 127 -> -128 <= bits c - ints c <= 127 ->
  representable (kn c) (bits c) (ints c) x -> fits k i f x.
Proof.
  intros O q k i f c x E Hc Hk Hb H1 H2 R.
  eapply result_t_kif_contains; try eassumption; [split; assumption|split; [assumption|lia]|lia].
Qed.
Print Assumptions C10_exported_type_contains_elements.

Example C10_ex :
  let q := fpq_init (mkT [1; 3]%nat [mkCfg 1 5 2; mkCfg 0 0 7; mkCfg 0 6 (-1)]) "RND" "SAT" tt in
  heterogeneous q = true /\ result_t_kif q = (1, 1, 7) /\ fusible q 1 false 1 = Ok false.
Proof. qvm. Qed.

(** C10: the exported type is computed in int8; without the range condition it is wrong. *)
Theorem C10_exported_type_int8_refuted :
  exists (q : fpq unit) c x k i f, result_t_kif q = (k, i, f) /\ In c (data (cfgs q)) /\
    (-128 <= bits c <= 127 /\ -128 <= ints c <= 127) /\
    representable (kn c) (bits c) (ints c) x /\ ~ fits k i f x.
Proof.
  exists (fpq_init (mkT [1]%nat [mkCfg 0 100 (-100)]) "TRN" "WRAP" tt), (mkCfg 0 100 (-100)), (pow2 (-200)).
  exists 0, (-100), (-56). split; [vm_compute; reflexivity|]. split; [left; reflexivity|]. split; [cbn; lia|]. split.
  - exists 1. split; [left; cbn [kn bits]; lia|]. qvm.
  - intros [[m E] _]. apply (f_equal (fun v => (v * pow2 200)%Qc)) in E.
    rewrite <- Qcmult_assoc, <- !pow2_add in E. cbn in E.
    change (pow2 0) with (qz 1) in E. rewrite pow2_Z in E by lia. rewrite <- qz_mul in E. apply qz_inj in E.
    assert (H : 1 = 2 * (m * 2 ^ 255)) by (rewrite E; change (2 ^ 256) with (2 * 2 ^ 255); lia). lia.
Qed.
Print Assumptions C10_exported_type_int8_refuted.

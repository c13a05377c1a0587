(** The values the quantizers of a proxy read on calibration data are, after
    rounding, numbers of their formats (C82). *)
From Coq Require Import ZArith Qcanon List Bool String Lia.
From Verif Require Import Base.Num Base.NumFacts Base.Tensor Model.FixedPoint Model.Quantizer Model.Layers Model.Graph Model.Trace
  Spec.Fixed Spec.Quant Spec.Layer Spec.Trace Spec.Quiet Spec.Steady Proofs.TensorP Proofs.CallP Proofs.FixedPointP Proofs.FixedPointLayerP Proofs.QuantizerP Proofs.BitsP Proofs.SampleP
  Proofs.ProxyElemP Proofs.LayersP Proofs.TraceP.
Import ListNotations.
Local Open Scope string_scope.
Local Open Scope Z_scope.

Definition codeb (k b n : Z) : bool :=
  ((k =? 0) && (0 <=? n) && (n <? 2 ^ b) || (k =? 1) && (- 2 ^ (b - 1) <=? n) && (n <? 2 ^ (b - 1)))%bool.
Lemma codeb_spec k b n : codeb k b n = true <-> code k b n.
Proof.
  unfold codeb, code. rewrite orb_true_iff, !andb_true_iff, !Z.eqb_eq, !Z.leb_le, !Z.ltb_lt. tauto.
Qed.

(** x is in the format c when rounded as R says (TRN and RND only). *)
Definition fmt_ok (R : string) (c : qcfg) (x : Qc) : bool :=
  ((bits c =? 0) ||
   (String.eqb R "TRN" && codeb (kn c) (bits c) (qfloor (x * pow2 (bits c - ints c)))) ||
   (String.eqb R "RND" && codeb (kn c) (bits c) (qfloor (x * pow2 (bits c - ints c) + qhalf))))%bool.

Lemma fmt_ok_spec o c x : fmt_ok (rnd_name o) c x = true -> in_format o c x.
Proof.
  unfold fmt_ok, in_format. rewrite !orb_true_iff, !andb_true_iff, Z.eqb_eq, !String.eqb_eq. intros [[H|[H C]]|[H C]].
  - left. exact H.
  - right. apply codeb_spec in C. eexists. split; [|exact C]. rewrite H.
    destruct (TRN_spec (x * pow2 (bits c - ints c))) as [n [E N]]. unfold TRN in E. apply qz_inj in E. rewrite E. exact N.
  - right. apply codeb_spec in C. eexists. split; [|exact C]. rewrite H.
    destruct (RND_spec (x * pow2 (bits c - ints c))) as [n [E N]]. unfold RND in E. apply qz_inj in E. rewrite E. exact N.
Qed.

Lemma fmt_hit R k i f z y : (k = 0 \/ k = 1) -> 0 <= i + f ->
  (R = "TRN" /\ floor_on_grid f z y) \/ (R = "RND" /\ round_on_grid f z y) -> fits k i f y ->
  fmt_ok R (mkCfg k (k + i + f) (k + i)) z = true.
Proof.
  intros Hk H1 HR Hf. unfold fmt_ok. cbn [kn bits ints].
  assert (HF : representable k (k + i + f) (k + i) y).
  { apply representable_fits; [assumption|lia|]. replace (k + i - k) with i by lia. replace (k + i + f - (k + i)) with f by lia. exact Hf. }
  destruct HF as [m [Hm E]].
  replace (k + i + f - (k + i)) with f by lia. replace (k + i - (k + i + f)) with (- f) in * by lia.
  rewrite !orb_true_iff, !andb_true_iff, !String.eqb_eq. destruct HR as [[-> H]|[-> H]].
  - left. right. split; [reflexivity|]. pose proof (floor_TRN f z y m H E) as X. unfold TRN in X. apply qz_inj in X. rewrite X. apply codeb_spec, Hm.
  - right. split; [reflexivity|]. pose proof (round_RND f z y m H E) as X. unfold RND in X. apply qz_inj in X. rewrite X. apply codeb_spec, Hm.
Qed.

Lemma fmt_none R c x : bits c = 0 -> fmt_ok R c x = true.
Proof. intros H. unfold fmt_ok. rewrite H. reflexivity. Qed.

Lemma fits_zero k i f : k = 0 \/ k = 1 -> fits k i f (qz 0).
Proof. intros Hk. split; [apply grid_0|]. assert (P := pow2_pos i). destruct Hk as [->| ->]; split; qlra. Qed.

Lemma rnd_agrees l : (rnd_fun l = TRN /\ rnd_mode l = "TRN") \/ (rnd_fun l = RND /\ rnd_mode l = "RND").
Proof. unfold rnd_fun, rnd_mode. destruct (_ && _)%bool; auto. Qed.

Lemma TRN_RND : TRN <> RND.
Proof. intros E. assert (TRN qhalf = RND qhalf) as C by (rewrite E; reflexivity). vm_compute in C. discriminate. Qed.

Lemma elem_one_fmt l e z z' : let q := l_paq l in let g := group_of q (l_out l) e in
  l_relu l = false -> calibrated q -> (g < length (data (q_fbw q)))%nat ->
  let y := qval (q_strategy q) (nth g (data (q_fbw q)) (qz 0)) z in
  (exists mn mx, nth g (data (q_min q)) PosInf = Fin mn /\ nth g (data (q_max q)) NegInf = Fin mx /\ (mn <= y)%Qc /\ (y <= mx)%Qc) ->
  ((0 < abw_at l e)%Z -> z' = (z + shift_at l e)%Qc) ->
  fmt_ok (rnd_mode l) (init_elem (kbi (bits_at q false g))) z' = true.
Proof.
  intros q g HR HC Hg y [mn' [mx' [E1' [E2' [Ylo Yhi]]]]] Hz.
  destruct (group_bits q g HC Hg) as [r [mn [mx [Hr [Hb [E1 [E2 [G1 [G2 [Hle [B1 [B2 [D _]]]]]]]]]]]]].
  rewrite E1 in E1'. injection E1' as <-. rewrite E2 in E2'. injection E2' as <-.
  destruct D as [[-> [-> EB]]|[NZ [k [i [EB [Hk [Hi [Hki [Lo [Up _]]]]]]]]]].
  - rewrite EB, init_kbi_zero. apply fmt_none. reflexivity.
  - assert (P : (0 < k + i + r)%Z) by (destruct Hk as [->| ->]; [specialize (Hki eq_refl); lia|lia]).
    rewrite EB, init_kbi by lia.
    assert (A : (0 < abw_at l e)%Z).
    { unfold abw_at. fold q. fold g. rewrite HR, E1, E2. cbn [fin].
      apply (abw_norelu_pos q g _ r mn mx k i); try assumption. unfold bits_at. rewrite E1, E2. reflexivity. }
    rewrite (Hz A).
    pose proof (rounding_agrees l e z r Hr) as RA. cbv zeta in RA. fold q in RA. fold g in RA. fold y in RA.
    apply (fmt_hit _ k i r _ y); [assumption|lia| |].
    + destruct (rnd_agrees l) as [[F M]|[F M]]; rewrite M, F in *; (destruct RA as [[C RA]|[C RA]]; [|]); auto; exfalso; apply TRN_RND; congruence.
    + split; [destruct RA as [[_ RA]|[_ RA]]; apply RA|]. split; qlra.
Qed.

(** The two quantizers of a ReLU layer. *)
Lemma relu_fmt_trn sat S K I F i r mx z y :
  S = "WRAP" \/ S = "SAT" -> SAT_MAP S = Some sat -> K = 0 \/ K = 1 -> r <= F -> i <= I -> - r < i ->
  0 <= I + F -> floor_on_grid r z y -> fits K I F y -> (y <= mx)%Qc -> (mx < pow2 i)%Qc ->
  fmt_ok "TRN" (mkCfg K (K + I + F) (K + I)) z = true /\
  fmt_ok "TRN" (mkCfg 0 (i + r) i) (relu (gfixed_elem TRN sat K (K + I + F) (K + I) z)) = true.
Proof.
  intros HS Hsat HK HrF HiI Hi HIF Hz Hy Hmx Hm.
  assert (NB : K + I + F <> 0) by lia.
  destruct (finer_floor F z) as [w Hw].
  assert (Gy : on_grid r y) by apply Hz.
  assert (Yw : (y <= w)%Qc).
  { apply (floor_ge F z); [exact Hw|apply (grid_weaken r); assumption|apply Hz]. }
  assert (Wz : (w <= z)%Qc) by apply Hw.
  assert (Zy : (z < y + pow2 (- r))%Qc) by apply Hz.
  assert (Yi : (y + pow2 (- r) <= pow2 i)%Qc).
  { apply grid_lt_le; [exact Gy|apply grid_pow2; lia|qlra]. }
  assert (Ii : (pow2 i <= pow2 I)%Qc) by (apply pow2_le; lia).
  assert (FW : fits K I F w) by (split; [apply Hw|]; destruct Hy as [_ [L U]]; split; qlra).
  assert (Ew : gfixed_elem TRN sat K (K + I + F) (K + I) z = w) by (apply (gfixed_hit TRN sat S); try assumption; left; auto).
  split; [apply (fmt_hit "TRN" K I F z w); auto|].
  rewrite Ew. replace (i + r) with (0 + i + r) by lia. replace i with (0 + i) at 2 by lia.
  destruct (Qclt_le_dec y (qz 0)) as [N|N].
  - assert (Yr : (y + pow2 (- r) <= qz 0)%Qc) by (apply grid_lt_le; [exact Gy|apply grid_0|exact N]).
    rewrite (relu_nonpos w) by qlra. apply (fmt_hit "TRN" 0 i r (qz 0) (qz 0)); [auto|lia| |apply fits_zero; auto].
    left. split; [reflexivity|]. assert (P := pow2_pos (- r)). split; [apply grid_0|]. split; qlra.
  - rewrite (relu_nonneg w) by qlra. apply (fmt_hit "TRN" 0 i r w y); [auto|lia| |].
    + left. split; [reflexivity|]. split; [exact Gy|]. split; [exact Yw|qlra].
    + split; [exact Gy|]. split; qlra.
Qed.

Lemma relu_fmt_rnd sat S K I F i r mx z y :
  S = "WRAP" \/ S = "SAT" -> SAT_MAP S = Some sat -> K = 1 -> r <= F -> i <= I -> - r < i ->
  0 <= I + F -> round_on_grid r z y -> fits K I F y -> (- pow2 I < y)%Qc -> (y <= mx)%Qc -> (mx < pow2 i)%Qc ->
  fmt_ok "TRN" (mkCfg K (K + I + F + 1) (K + I)) z = true /\
  fmt_ok "RND" (mkCfg 0 (i + r) i) (relu (gfixed_elem TRN sat K (K + I + F + 1) (K + I) z)) = true.
Proof.
  intros HS Hsat HK HrF HiI Hi HIF Hz Hy Hlo Hmx Hm. subst K.
  replace (1 + I + F + 1) with (1 + I + (F + 1)) by lia.
  assert (NB : 1 + I + (F + 1) <> 0) by lia.
  destruct (finer_floor (F + 1) z) as [w Hw].
  destruct Hz as [Gy [Z1 Z2]]. assert (P2 := pow2_half r). assert (PH := pow2_pos (- r - 1)). assert (PI := pow2_pos I).
  assert (Gw : on_grid (F + 1) w) by apply Hw.
  assert (GH : on_grid (F + 1) (y - pow2 (- r - 1))%Qc).
  { apply grid_sub; [apply (grid_weaken r); [lia|exact Gy]|apply grid_pow2; lia]. }
  assert (Yw : (y - pow2 (- r - 1) <= w)%Qc) by (apply (floor_ge (F + 1) z); [exact Hw|exact GH|qlra]).
  assert (Wz : (w <= z)%Qc) by apply Hw.
  assert (Yi : (y + pow2 (- r) <= pow2 i)%Qc).
  { apply grid_lt_le; [exact Gy|apply grid_pow2; lia|qlra]. }
  assert (Ii : (pow2 i <= pow2 I)%Qc) by (apply pow2_le; lia).
  assert (Yl : (- pow2 I + pow2 (- r) <= y)%Qc).
  { apply grid_lt_le; [apply grid_opp, grid_pow2; lia|exact Gy|exact Hlo]. }
  assert (FW : fits 1 I (F + 1) w) by (split; [exact Gw|]; split; [rewrite qz1_mul; qlra|qlra]).
  assert (Ew : gfixed_elem TRN sat 1 (1 + I + (F + 1)) (1 + I) z = w).
  { apply (gfixed_hit TRN sat S); try assumption; auto. lia. }
  split; [apply (fmt_hit "TRN" 1 I (F + 1) z w); auto; lia|].
  rewrite Ew. replace (i + r) with (0 + i + r) by lia. replace i with (0 + i) at 2 by lia.
  destruct (Qclt_le_dec y (qz 0)) as [N|N].
  - assert (Yr : (y + pow2 (- r) <= qz 0)%Qc) by (apply grid_lt_le; [exact Gy|apply grid_0|exact N]).
    rewrite (relu_nonpos w) by qlra. apply (fmt_hit "RND" 0 i r (qz 0) (qz 0)); [auto|lia| |apply fits_zero; auto].
    right. split; [reflexivity|]. split; [apply grid_0|]. split; qlra.
  - apply (fmt_hit "RND" 0 i r (relu w) y); [auto|lia| |].
    + right. split; [reflexivity|]. split; [exact Gy|].
      destruct (Qclt_le_dec w (qz 0)) as [W|W].
      * rewrite relu_nonpos by qlra.
        assert (y = qz 0) as ->.
        { destruct (Qclt_le_dec (qz 0) y) as [C|C]; [|apply Qcle_antisym; assumption].
          pose proof (grid_lt_le r _ _ (grid_0 r) Gy C). qlra. }
        split; qlra.
      * rewrite relu_nonneg by exact W. split; qlra.
    + split; [exact Gy|]. split; qlra.
Qed.

Lemma elem_two_fmt l sat S e z z' bits : let q := l_paq l in let g := group_of q (l_out l) e in
  l_relu l = true -> S = "WRAP"%string \/ S = "SAT"%string -> SAT_MAP S = Some sat ->
  calibrated q -> (g < length (data (q_fbw q)))%nat ->
  length bits = length (data (q_fbw q)) -> (forall g d, (g < length (data (q_fbw q)))%nat -> nth g bits d = bits_at q false g) ->
  let y := qval (q_strategy q) (nth g (data (q_fbw q)) (qz 0)) z in
  (exists mn mx, nth g (data (q_min q)) PosInf = Fin mn /\ nth g (data (q_max q)) NegInf = Fin mx /\ (mn <= y)%Qc /\ (y <= mx)%Qc) ->
  ((0 < abw_at l e)%Z -> z' = (z + shift_at l e)%Qc) ->
  (forall g mn mx, (g < length (data (q_fbw q)))%nat -> holds_range q g mn mx -> (qz 0 < mx)%Qc) ->
  (rnd_mode l = "TRN" \/
   ((exists g mn mx, (g < length (data (q_fbw q)))%nat /\ holds_range q g mn mx /\ (mn < qz 0)%Qc) /\
    forall g mn mx j, (g < length (data (q_fbw q)))%nat -> holds_range q g mn mx -> mn <> (- pow2 j)%Qc)) ->
  let K := zmax_list (map (fun t => fst (fst t)) bits) in
  let I := zmax_list (map (fun t => snd (fst t)) bits) in
  let F := zmax_list (map snd bits) in
  let fadd := if String.eqb (rnd_mode l) "TRN" then 0%Z else if String.eqb (rnd_mode l) "RND" then 1%Z else 2%Z in
  let c1 := init_elem (mkCfg K (i8 (i8 (i8 (K + I) + F) + fadd)) (i8 (K + I))) in
  fmt_ok "TRN" c1 z' = true /\
  fmt_ok (rnd_mode l) (init_elem (kbi (bits_at q true g))) (relu (fval TRN sat c1 z')) = true.
Proof.
  intros q g HR HS Hsat HC Hg LB HB y [mn' [mx' [E1' [E2' [Ylo Yhi]]]]] Hz Hpos Hst K I F fadd c1. subst c1.
  destruct (group_bits q g HC Hg) as [r [mn [mx [Hr [Hb [E1 [E2 [G1 [G2 [Hle [B1 [B2 [D DP]]]]]]]]]]]]].
  rewrite E1 in E1'. injection E1' as <-. rewrite E2 in E2'. injection E2' as <-.
  pose proof (Hpos g mn mx Hg (conj E1 E2)) as Mx.
  destruct DP as [[Mx' _]|[_ [EP FB]]]; [exfalso; qlra|].
  rewrite EP. rewrite init_kbi by lia. rewrite Z.add_0_l.
  destruct D as [[-> [-> _]]|[NZ [k [i [EB [Hk [Hi [Hki [Lo [Up _]]]]]]]]]]; [exfalso; qlra|].
  assert (INB : In (k, i, r) bits).
  { rewrite <- EB, <- (HB g (0, 0, 0)%Z Hg). apply nth_In. lia. }
  assert (BND : forall t, In t bits -> (fst (fst t) <= 1 /\ snd (fst t) <= 32 /\ snd t <= 93)%Z /\ (fst (fst t) = 0 \/ fst (fst t) = 1)%Z).
  { intros t Ht. apply (In_nth _ _ (0, 0, 0)%Z) in Ht. destruct Ht as [g' [Hg' Et]]. rewrite LB in Hg'. rewrite HB in Et by assumption.
    destruct (group_bits q g' HC Hg') as [r' [mn'' [mx'' [_ [Hb' [_ [_ [_ [_ [_ [_ [_ [D' _]]]]]]]]]]]]].
    destruct D' as [[_ [_ E]]|[_ [k' [i' [E [Hk' [Hi' _]]]]]]]; rewrite E in Et; subst t; cbn [fst snd]; lia. }
  assert (NE : bits <> []) by (intros ->; destruct INB).
  assert (NEm : forall f : Z * Z * Z -> Z, map f bits <> []) by (intros f C; apply map_eq_nil in C; auto).
  assert (KB : forall t, In t bits -> (fst (fst t) <= K)%Z) by (intros t Ht; apply zmax_list_ge; apply (in_map (fun t : Z * Z * Z => fst (fst t)) bits t Ht)).
  assert (IB : (i <= I)%Z) by (apply zmax_list_ge; apply (in_map (fun t : Z * Z * Z => snd (fst t)) bits (k, i, r)); exact INB).
  assert (FBd : (r <= F)%Z) by (apply zmax_list_ge; apply (in_map (snd (A := Z * Z) (B := Z)) bits (k, i, r)); exact INB).
  assert (KU : K = 0%Z \/ K = 1%Z).
  { pose proof (zmax_list_in _ (NEm (fun t => fst (fst t)))) as H. apply in_map_iff in H. destruct H as [t [Et Ht]].
    unfold K. rewrite <- Et. apply BND, Ht. }
  assert (IU : (I <= 32)%Z) by (apply zmax_le; [apply NEm|]; intros x Hx; apply in_map_iff in Hx; destruct Hx as [t [<- Ht]]; apply BND, Ht).
  assert (FU : (F <= 93)%Z) by (apply zmax_le; [apply NEm|]; intros x Hx; apply in_map_iff in Hx; destruct Hx as [t [<- Ht]]; apply BND, Ht).
  assert (FI : (flog2 mx + 1 <= i)%Z).
  { assert (flog2 mx < i)%Z; [|lia]. destruct (flog2_spec mx Mx) as [S1 S2].
    apply pow2_lt_inv. apply (Qcle_lt_trans _ mx); assumption. }
  assert (A : (0 < abw_at l e)%Z).
  { unfold abw_at. fold q. fold g. rewrite HR, E1, E2. cbn [fin].
    rewrite (act_bw_relu _ r mn mx Hr) by (try assumption; lia).
    unfold act_bw_exact_elem. unfold bits_at in EP. rewrite E1, E2 in EP. cbn [fin] in EP. rewrite EP. lia. }
  rewrite (Hz A).
  pose proof (rounding_agrees l e z r Hr) as RA. cbv zeta in RA. fold q in RA. fold g in RA. fold y in RA.
  assert (YF : fits K I F y).
  { apply (fits_weaken k i r); [pose proof (KB _ INB) as KB0; cbn [fst] in KB0; lia|assumption|assumption|].
    split; [destruct RA as [[_ RA]|[_ RA]]; apply RA|]. split; qlra. }
  destruct (flog2_spec mx Mx) as [_ S2].
  rewrite (i8_small (K + I)) by lia. rewrite (i8_small (K + I + F)) by lia.
  destruct (rnd_agrees l) as [[RF RM]|[RF RM]].
  - assert (fadd = 0) as -> by (unfold fadd; rewrite RM; reflexivity). rewrite Z.add_0_r. rewrite (i8_small (K + I + F)) by lia.
    rewrite init_elem_nz by (cbn [FixedPoint.bits]; lia). unfold fval. cbn [kn FixedPoint.bits ints]. rewrite RM.
    destruct RA as [[_ RA]|[C _]]; [|exfalso; apply TRN_RND; congruence].
    apply (relu_fmt_trn sat S K I F (flog2 mx + 1) r mx _ y); try assumption; lia.
  - assert (fadd = 1) as -> by (unfold fadd; rewrite RM; reflexivity). rewrite (i8_small (K + I + F + 1)) by lia.
    rewrite init_elem_nz by (cbn [FixedPoint.bits]; lia). unfold fval. cbn [kn FixedPoint.bits ints]. rewrite RM.
    destruct RA as [[C _]|[_ RA]]; [exfalso; apply TRN_RND; congruence|].
    destruct Hst as [C|[[g0 [mn0 [mx0 [Hg0 [HH0 N0]]]]] Hnp]]; [congruence|].
    assert (K1 : K = 1).
    { destruct (group_bits q g0 HC Hg0) as [r0 [mn1 [mx1 [_ [_ [F1 [F2 [_ [_ [_ [_ [_ [D0 _]]]]]]]]]]]]].
      destruct HH0 as [H1 H2]. rewrite F1 in H1. injection H1 as ->. rewrite F2 in H2. injection H2 as ->.
      destruct D0 as [[-> _]|[_ [k0 [i0 [EB0 [Hk0 [_ [_ [Lo0 _]]]]]]]]]; [exfalso; qlra|].
      destruct Hk0 as [->| ->]; [exfalso; rewrite qz0_mul in Lo0; qlra|].
      assert (In (1, i0, r0) bits) as IN0 by (rewrite <- EB0, <- (HB g0 (0, 0, 0)%Z Hg0); apply nth_In; lia).
      specialize (KB _ IN0). cbn [fst] in KB. lia. }
    assert (YL : (- pow2 I < y)%Qc).
    { assert (L1 : (- pow2 I <= mn)%Qc).
      { assert (pow2 i <= pow2 I)%Qc by (apply pow2_le; lia). assert (P := pow2_pos i). destruct Hk as [->| ->]; [rewrite qz0_mul in Lo|rewrite qz1_mul in Lo]; qlra. }
      pose proof (Hnp g mn mx I Hg (conj E1 E2)) as NN. destruct (Qcle_lt_or_eq _ _ L1) as [L|L]; [qlra|]. exfalso. apply NN. symmetry. exact L. }
    apply (relu_fmt_rnd sat S K I F (flog2 mx + 1) r mx _ y); try assumption; lia.
Qed.

(** ** Whole layers *)
Local Open Scope nat_scope.

(** The format a quantizer applies to element e of a sample of shape out. *)
Definition cfg_at (q : fpq unit) (out : list nat) (e : nat) : qcfg :=
  match shape (cfgs q) with
  | [] => nth 0 (data (cfgs q)) (mkCfg 0 0 0)
  | _ :: bw => nth (bidx bw out e) (data (cfgs q)) (mkCfg 0 0 0)
  end.
Definition fpq_guard (q : fpq unit) (out : list nat) (b : list sample) : bool :=
  forallb (fun x => forallb (fun e => fmt_ok (rnd_name q) (cfg_at q out e) (nth e x (qz 0))) (seq 0 (prodn out))) b.

Lemma fpq_guard_spec q out b : fpq_guard q out b = true <->
  forall x e, In x b -> e < prodn out -> fmt_ok (rnd_name q) (cfg_at q out e) (nth e x (qz 0)) = true.
Proof.
  unfold fpq_guard. rewrite forallb_forall. split.
  - intros H x e Hx He. specialize (H x Hx). rewrite forallb_forall in H. apply H, in_seq. lia.
  - intros H x Hx. apply forallb_forall. intros e He. apply in_seq in He. apply H; [exact Hx|lia].
Qed.

Lemma nth_map0 (f : Qc -> Qc) l e d : e < length l -> nth e (map f l) d = f (nth e l (qz 0)).
Proof. intros H. rewrite (nth_indep _ d (f (qz 0))) by (rewrite map_length; exact H). apply map_nth. Qed.

Lemma layer_fmt pw ln2 o S0 xs p : S0 = "WRAP"%string \/ S0 = "SAT"%string ->
  obj_ok o -> calibrated (l_paq (o_layer o)) -> steady o ->
  Forall (fun x => in_range (l_paq (o_layer o)) (l_out (o_layer o)) (ysamp pw ln2 (o_layer o) x)) xs ->
  to_proxy pw ln2 (o_layer o) S0 = Ok p ->
  match p_chain p with
  | One q => fpq_guard q (l_out (o_layer o)) (map (p_op p) xs) = true
  | Two q1 q2 => fpq_guard q1 (l_out (o_layer o)) (map (p_op p) xs) = true /\
      forall sat c, SAT_MAP S0 = Some sat -> q1 = fpq_init (mkT [] [c]) "TRN" S0 tt ->
        fpq_guard q2 (l_out (o_layer o)) (map (map relu) (map (map (fval TRN sat (init_elem c))) (map (p_op p) xs))) = true
  end.
Proof.
  intros HS [HL [_ [HB HO]]] HC HT HR EP. set (l := o_layer o) in *.
  destruct (op_spec pw ln2 l HL) as [zf [g [op' [EPr [EK Hzg]]]]].
  assert (LG : forall x, length (g x) = prodn (l_out l)) by (intros x; apply Hzg).
  pose proof HL as [Hq [NZ _]]. set (q := l_paq l) in *.
  assert (ZF : forall x, zfun pw ln2 l x = zf x) by (intros x; unfold zfun; rewrite EPr; reflexivity).
  assert (RX : forall x e, In x xs -> e < prodn (l_out l) -> exists mn mx,
     nth (group_of q (l_out l) e) (data (q_min q)) PosInf = Fin mn /\ nth (group_of q (l_out l) e) (data (q_max q)) NegInf = Fin mx /\
     (mn <= qval (q_strategy q) (nth (group_of q (l_out l) e) (data (q_fbw q)) (qz 0)) (nth e (zf x) (qz 0)))%Qc /\
     (qval (q_strategy q) (nth (group_of q (l_out l) e) (data (q_fbw q)) (qz 0)) (nth e (zf x) (qz 0)) <= mx)%Qc).
  { intros x e Hx He. rewrite Forall_forall in HR. specialize (HR x Hx e He). unfold ysamp in HR. rewrite ZF in HR.
    fold q in HR. rewrite qsample_nth in HR by assumption. exact HR. }
  assert (GL : forall e, e < prodn (l_out l) -> group_of q (l_out l) e < length (data (q_fbw q))) by (intros; apply group_lt; assumption).
  destruct (get_bits_at q (l_out l) false Hq HC) as [bf [EBf [LBf HBf]]].
  destruct (get_bits_at q (l_out l) true Hq HC) as [bt [EBt [LBt HBt]]].
  pose proof Hq as [bw [Hs [Hbb [Hlen _]]]].
  assert (NC : forall bits pos e R, length bits = length (data (q_fbw q)) ->
            (forall g d, g < length (data (q_fbw q)) -> nth g bits d = bits_at q pos g) -> e < prodn (l_out l) ->
            cfg_at (fpq_init (mkT (shape (q_fbw q)) (map kbi bits)) R S0 tt) (l_out l) e = init_elem (kbi (bits_at q pos (group_of q (l_out l) e)))).
  { intros bits pos e R L H He. specialize (GL e He). unfold cfg_at, group_of in *. cbn [fpq_init cfgs tmap shape data]. rewrite Hs in *. cbn [tl] in *.
    rewrite (nth_indep _ _ (init_elem (kbi (0, 0, 0)%Z))) by (rewrite !map_length, L; exact GL).
    rewrite (map_nth init_elem), (map_nth kbi). rewrite H by exact GL. reflexivity. }
  unfold to_proxy in EP. rewrite EK in EP. cbn [rbind] in EP. unfold layer_quantizer, first_quantizer in EP. fold q in EP.
  destruct (l_relu l) eqn:ER; cbn [rbind] in EP; rewrite EBf in EP; cbn [rbind] in EP.
  - rewrite EBt in EP. cbn [rbind] in EP. injection EP as <-. cbn [p_chain p_op].
    destruct (HT ER) as [Hpos Hst]. fold l q in Hpos, Hst.
    assert (SM : exists sat, SAT_MAP S0 = Some sat) by (destruct HS as [->| ->]; eexists; reflexivity). destruct SM as [sat0 ES].
    split.
    + apply fpq_guard_spec. intros z e Hz He. apply in_map_iff in Hz as [x [<- Hx]].
      apply (elem_two_fmt l sat0 S0 e (nth e (zf x) (qz 0)) (nth e (g x) (qz 0)) bf); auto. intros A. apply Hzg; assumption.
    + intros sat c ES' Eq. apply (f_equal (fun q => nth 0 (data (cfgs q)) (mkCfg 0 0 0))) in Eq. cbn [fpq_init cfgs tmap data map nth] in Eq. apply fpq_guard_spec. intros z e Hz He.
      apply in_map_iff in Hz as [z1 [<- Hz]]. apply in_map_iff in Hz as [z2 [<- Hz]]. apply in_map_iff in Hz as [x [<- Hx]].
      rewrite nth_map0 by (rewrite map_length, LG; exact He). rewrite nth_map0 by (rewrite LG; exact He).
      rewrite (NC bt true e _ LBt HBt He). rewrite <- Eq.
      apply (elem_two_fmt l sat S0 e (nth e (zf x) (qz 0)) (nth e (g x) (qz 0)) bf); auto. intros A. apply Hzg; assumption.
  - injection EP as <-. cbn [p_chain p_op]. apply fpq_guard_spec. intros z e Hz He. apply in_map_iff in Hz as [x [<- Hx]].
    rewrite (NC bf false e _ LBf HBf He).
    apply (elem_one_fmt l e (nth e (zf x) (qz 0)) (nth e (g x) (qz 0))); auto. intros A. apply Hzg; assumption.
Qed.

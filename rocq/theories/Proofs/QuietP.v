(** Shrinking quantizers does not change the values of runs without overflow. *)
From Coq Require Import ZArith Qcanon List Bool String Lia.
From Verif Require Import Base.Num Base.NumFacts Base.Tensor Model.FixedPoint Model.Apf Model.Precision Model.Lut Model.Register Spec.Fixed Spec.Precision Spec.NetEval Spec.Quiet.
From Verif Require Import Proofs.FixedPointP Proofs.FixedPointLayerP Proofs.FitsP Proofs.PrecisionP Proofs.ReduceP Proofs.SoundP Proofs.IdemP Proofs.NetEvalP Proofs.ContainerP Proofs.RegisterP Proofs.FirmwareP.
Import ListNotations.
Open Scope Z_scope.

(** ** One element *)

Lemma scaled_code k b a n : k = 0 \/ k = 1 -> k <= b -> code k b n <-> fits k (a - k) (b - a) (qz n * pow2 (a - b))%Qc.
Proof.
  intros Hk Hb. split; [intros C; apply representable_fits; auto; exists n; auto|]. intros (_ & A & B).
  apply code_iff; auto. unfold lo, hi. pose proof (pow2_pos (b - a)) as P.
  assert (E : (qz n * pow2 (a - b) * pow2 (b - a))%Qc = qz n) by (rewrite <- Qcmult_assoc, <- pow2_add; replace (a - b + (b - a)) with 0 by lia; change (pow2 0) with 1%Qc; ring).
  split.
  - apply (proj1 (qz_le _ _)). rewrite qz_opp, qz_mul, <- pow2_Z by lia. rewrite <- E. replace (b - k) with (a - k + (b - a)) by lia. rewrite pow2_add.
    replace (- (qz k * (pow2 (a - k) * pow2 (b - a))))%Qc with (- (qz k * pow2 (a - k)) * pow2 (b - a))%Qc by ring. apply qmul_le_r; [qlra|exact A].
  - assert (n < 2 ^ (b - k)); [|lia]. apply (proj1 (qz_lt _ _)). rewrite <- pow2_Z by lia. rewrite <- E. replace (b - k) with (a - k + (b - a)) by lia. rewrite pow2_add. apply qmul_lt_r; assumption.
Qed.

Lemma grid_rounds R f F x n : on_grid f x -> f <= F -> rounds_to R (x * pow2 F)%Qc n -> (qz n * pow2 (- F))%Qc = x.
Proof.
  intros G L H. apply (grid_mono f F x L) in G as [m E]. assert (EM : (x * pow2 F)%Qc = qz m).
  { rewrite E, <- Qcmult_assoc, <- pow2_add. replace (- F + F) with 0 by lia. change (pow2 0) with 1%Qc. ring. }
  rewrite EM in H. assert (n = m) by (eapply rounds_to_fun; [exact H|apply rounds_to_qz; eapply rounds_to_inv; eauto]). subst n. symmetry. exact E.
Qed.
Lemma grid_rounds_ex R F x : In R rounding_names -> on_grid F x -> exists n, rounds_to R (x * pow2 F)%Qc n.
Proof.
  intros HR [m E]. exists m. replace (x * pow2 F)%Qc with (qz m); [apply rounds_to_qz; exact HR|].
  rewrite E, <- Qcmult_assoc, <- pow2_add. replace (- F + F) with 0 by lia. change (pow2 0) with 1%Qc. ring.
Qed.

Section Element.
  Variables ik ii jf ok oi of b a : Z.
  Variable (R : string) (x : Qc) (n : Z).
  Hypothesis Hik : ik = 0 \/ ik = 1.
  Hypothesis Hok : ok = 0 \/ ok = 1.
  Hypothesis Hb : ok <= b.
  Hypothesis Ha : a - ok <= oi.
  Hypothesis Hf : b - a <= of.
  Hypothesis Hx : fits ik ii jf x.
  Hypothesis Hn : rounds_to R (x * pow2 (b - a))%Qc n.
  Hypothesis Hc : code ok b n.
  Variables k i f : Z.
  Hypothesis Dk : k = Z.min ik ok.
  Hypothesis Df : f = Z.min jf of.
  Hypothesis Di : i = if (Z.leb ii oi && Z.ltb f jf)%bool then Z.min ii oi + 1 else Z.min ii oi.
  Hypothesis HW : 0 <= i + f.
  Hypothesis HE : a <= k + i \/ f <= b - a.
  Let y := (qz n * pow2 (a - b))%Qc.

  Lemma y_nonneg : k = 0 -> (qz 0 <= y)%Qc.
  Proof.
    intros K. assert (N : 0 <= n).
    { destruct Hok as [E|E].
      - destruct Hc as [[_ C]|[C _]]; lia.
      - assert (Z0 : ik = 0) by lia. eapply rounds_ge; [exact Hn|]. destruct Hx as (_ & A & _). pose proof (pow2_pos (b - a)).
        assert (X : (qz 0 <= x)%Qc) by (rewrite Z0, mul0 in A; qlra).
        pose proof (qmul_le_r (qz 0) x (pow2 (b - a)) ltac:(qlra) X) as Q. rewrite mul0 in Q. exact Q. }
    apply (proj2 (qz_le _ _)) in N. pose proof (pow2_pos (a - b)) as P. pose proof (qmul_le_r (qz 0) (qz n) (pow2 (a - b)) ltac:(qlra) N) as Q. rewrite mul0 in Q. exact Q.
  Qed.

  Lemma shrunk_element : let b' := Z.min b (k + i + f) in let a' := Z.min a (k + i) in
    k <= b' /\ exists n', rounds_to R (x * pow2 (b' - a'))%Qc n' /\ code k b' n' /\ (qz n' * pow2 (a' - b'))%Qc = y.
  Proof.
    intros b' a'. assert (Kb : k <= b') by (unfold b'; lia). split; [exact Kb|].
    assert (Hk : k = 0 \/ k = 1) by lia.
    assert (HR : In R rounding_names) by (eapply rounds_to_inv; exact Hn).
    assert (FY : fits ok (a - ok) (b - a) y) by (apply (scaled_code ok b a n); assumption).
    (* the result is on the new grid *)
    assert (G : b' - a' = b - a \/ (jf <= b' - a' /\ jf <= b - a)).
    { unfold b', a'. destruct (Z.leb_spec ii oi), (Z.ltb_spec f jf); cbn [andb] in Di; lia. }
    assert (RN : exists n', rounds_to R (x * pow2 (b' - a'))%Qc n' /\ (qz n' * pow2 (a' - b'))%Qc = y).
    { destruct G as [G|[G1 G2]].
      - exists n. rewrite G. split; [exact Hn|]. unfold y. f_equal. f_equal. lia.
      - destruct Hx as (GX & _). destruct (grid_rounds_ex R (b' - a') x HR (grid_mono jf _ x G1 GX)) as [n' E']. exists n'. split; [exact E'|].
        unfold y. replace (a' - b') with (- (b' - a')) by lia. replace (a - b) with (- (b - a)) by lia. rewrite (grid_rounds R jf _ x n' GX G1 E'). symmetry. apply (grid_rounds R jf _ x n GX G2 Hn). }
    destruct RN as (n' & R' & E'). exists n'. split; [exact R'|]. split; [|exact E'].
    apply (scaled_code k b' a' n' Hk Kb). rewrite E'. split; [exists n'; rewrite <- E'; f_equal; f_equal; lia|].
    destruct FY as (_ & Y1 & Y2).
    assert (EX : jf <= b - a -> y = x).
    { intros L. unfold y. replace (a - b) with (- (b - a)) by lia. destruct Hx as (GX & _). exact (grid_rounds R jf _ x n GX L Hn). }
    pose proof (pow2_pos ii) as P0. destruct Hx as (_ & X1 & X2).
    (* the new range *)
    assert (B : (k = 1 -> (- pow2 (a' - k) <= y)%Qc) /\ (y < pow2 (a' - k))%Qc).
    { unfold a'. destruct (Z_le_gt_dec a (k + i)) as [L|L].
      - rewrite Z.min_l by lia. split.
        + intros K1. assert (O1 : ok = 1) by lia. rewrite O1 in Y1. rewrite K1. qlra.
        + pose proof (pow2_le (a - ok) (a - k) ltac:(lia)). qlra.
      - rewrite Z.min_r by lia. replace (k + i - k) with i by lia. destruct HE as [HE'|HE']; [lia|].
        destruct (Z.leb_spec ii oi) as [L1|L1]; [destruct (Z.ltb_spec f jf) as [L2|L2]|]; cbn [andb] in Di.
        + assert (F : b - a = f) by lia. assert (I1 : i = ii + 1) by lia. pose proof (pow2_pos (- f)) as PF.
          assert (EY : y = (qz n * pow2 (- f))%Qc) by (unfold y; f_equal; f_equal; lia). rewrite F in Hn.
          destruct (Z_le_gt_dec 0 (ii + f)) as [W|W].
          * destruct (round_coarse ik ii jf f R x n Hik ltac:(split; [apply Hx|split; assumption]) W Hn) as [N1 N2].
            assert (P2 : pow2 ii = (qz (2 ^ (ii + f)) * pow2 (- f))%Qc) by (rewrite <- pow2_Z, <- pow2_add by lia; f_equal; lia).
            assert (U : (y <= pow2 ii)%Qc) by (rewrite EY, P2; apply qmul_le_r; [qlra|apply qz_le; exact N2]).
            assert (D : (- pow2 ii <= y)%Qc).
            { rewrite EY, P2. replace (- (qz (2 ^ (ii + f)) * pow2 (- f)))%Qc with (qz (- 2 ^ (ii + f)) * pow2 (- f))%Qc by (rewrite qz_opp; ring).
              apply qmul_le_r; [qlra|]. apply qz_le. pose proof (Z.pow_pos_nonneg 2 (ii + f) ltac:(lia) W). destruct Hik as [-> | ->]; lia. }
            rewrite I1, pow2_succ. split; [intros _|]; qlra.
          * destruct (round_coarse_tiny ik ii jf f R x n Hik ltac:(split; [apply Hx|split; assumption]) ltac:(lia) Hn) as [N1 N2].
            assert (P2 : pow2 i = pow2 (- f)) by (f_equal; lia). rewrite P2, EY. split.
            -- intros _. replace (- pow2 (- f))%Qc with (qz (-1) * pow2 (- f))%Qc by (change (qz (-1)) with (- (1))%Qc; ring). apply qmul_le_r; [qlra|]. apply qz_le. lia.
            -- apply (proj2 (qz_le _ _)) in N2. pose proof (qmul_le_r (qz n) (qz 0) (pow2 (- f)) ltac:(qlra) N2) as Q. rewrite mul0 in Q. qlra.
        + rewrite EX by lia. assert (I1 : i = ii) by lia. rewrite I1. split; [|exact X2]. intros K1. assert (O1 : ik = 1) by lia. rewrite O1 in X1. qlra.
        + assert (I1 : i = oi) by lia. pose proof (pow2_le (a - ok) i ltac:(lia)). split; [|qlra]. intros K1. lia. }
    destruct B as [B1 B2]. split; [|exact B2]. destruct Hk as [K0|K1].
    - rewrite K0. pose proof (y_nonneg K0). rewrite mul0. qlra.
    - specialize (B1 K1). rewrite K1 in *. qlra.
  Qed.
End Element.

(** A quantizer on an input it does not overflow on. *)
Lemma in_format_quant o c x n : legal_fmt c -> In (rnd_name o) rounding_names -> In (sat_name o) overflow_names -> sat_name o <> "SAT_SYM"%string ->
  rounds_to (rnd_name o) (x * pow2 (bits c - ints c))%Qc n -> code (kn c) (bits c) n -> quant o c x = Ok (qz n * pow2 (ints c - bits c))%Qc.
Proof.
  intros (L1 & L2 & _) HR HS NS Hn Hc. unfold quant. destruct (gfixed_ovf x (kn c) (bits c) (ints c) _ _ HR HS L1 L2) as (m & Hm & E). rewrite E.
  assert (m = n) by (eapply rounds_to_fun; eauto). subst m. rewrite ovf_id; [reflexivity|exact HS|exact L1|exact L2|apply code_iff; assumption|intros; contradiction].
Qed.
Lemma in_format_quant' o c x n : (kn c = 0 \/ kn c = 1) -> kn c <= bits c -> In (rnd_name o) rounding_names -> In (sat_name o) overflow_names -> sat_name o <> "SAT_SYM"%string ->
  rounds_to (rnd_name o) (x * pow2 (bits c - ints c))%Qc n -> code (kn c) (bits c) n -> quant o c x = Ok (qz n * pow2 (ints c - bits c))%Qc.
Proof.
  intros L1 L2 HR HS NS Hn Hc. unfold quant. destruct (gfixed_ovf x (kn c) (bits c) (ints c) _ _ HR HS L1 L2) as (m & Hm & E). rewrite E.
  assert (m = n) by (eapply rounds_to_fun; eauto). subst m. rewrite ovf_id; [reflexivity|exact HS|exact L1|exact L2|apply code_iff; assumption|intros; contradiction].
Qed.

Lemma no_bits_quant o c x : bits c = 0 -> In (rnd_name o) rounding_names -> In (sat_name o) overflow_names -> quant o c x = Ok (qz 0).
Proof.
  intros B HR HS. unfold quant, gfixed_quantizer. rewrite B.
  destruct (RND_MAP (rnd_name o)) as [rnd|] eqn:ER; [|exfalso; cbn in HR; repeat (destruct HR as [HR|HR]; [rewrite <- HR in ER; discriminate|]); destruct HR].
  destruct (SAT_MAP (sat_name o)) as [sat|] eqn:ES; [|exfalso; cbn in HS; repeat (destruct HS as [HS|HS]; [rewrite <- HS in ES; discriminate|]); destruct HS].
  rewrite gfixed_elem_z. reflexivity.
Qed.

Lemma shrunk_quantizer t o r o' j c x : nice o -> low o -> plain_fpq o -> fpq_produced t o = (r, o') -> shrinks_evenly o r ->
  (fst (fst t) = 0 \/ fst (fst t) = 1) -> fits (fst (fst t)) (snd (fst t)) (snd t) x -> nth_error (data (cfgs o)) j = Some c -> in_format o c x ->
  exists c', nth_error (data (cfgs o')) j = Some c' /\ quant o' c' x = quant o c x /\ in_format o' c' x.
Proof.
  intros N L [LQ NS] E SH Hik Hx Hj IF. destruct LQ as (NE & LF & HR & HS). destruct t as [[ik ii] jf]. cbn [fst snd] in *.
  unfold fpq_produced in E. destruct (result_t_kif o) as [[ok oi] of] eqn:ER. cbv zeta in E.
  destruct (result_spec o ok oi of N L ER) as (S1 & S0 & _). pose proof (nth_error_In _ _ Hj) as IC. destruct (S1 c IC) as (K & A1 & A2).
  pose proof (proj1 (Forall_forall _ _) LF c IC) as LC. pose proof LC as (L1 & L2 & _).
  set (k := Z.min ik ok) in *. set (f := Z.min jf of) in *. set (i := if (Z.leb ii oi && Z.ltb f jf)%bool then Z.min ii oi + 1 else Z.min ii oi) in *.
  destruct (negb (Z.eqb k ok) || negb (Z.eqb i oi) || negb (Z.eqb f of))%bool.
  2: { assert (o' = o) by congruence. subst o'. exists c. split; [exact Hj|]. split; [reflexivity|exact IF]. }
  assert (Er : r = (k, i, f)) by congruence. assert (Eo : o' = reduce_fpq (k, i, f) o) by congruence. subst r o'. clear E.
  destruct SH as [W SH]. specialize (SH c IC). rewrite K in *.
  destruct (Z.eq_dec (bits c) 0) as [B0|B0].
  { exists (reduce_elem (k, i, f) c). split; [cbn [reduce_fpq cfgs data tmap]; rewrite nth_error_map, Hj; reflexivity|].
    assert (B' : bits (reduce_elem (k, i, f) c) = 0) by (unfold reduce_elem; cbn [bits]; lia).
    split; [|left; exact B']. rewrite (no_bits_quant o c x B0 HR HS). apply no_bits_quant; assumption. }
  destruct IF as [?|(n & Hn & Hc)]; [contradiction|]. rewrite K in Hc. destruct SH as [?|SH]; [contradiction|].
  destruct (shrunk_element ik ii jf ok oi of (bits c) (ints c) (rnd_name o) x n Hik L1 L2 A1 A2 Hx Hn Hc k i f eq_refl eq_refl eq_refl W SH) as (Kb & n' & Rn & Cn & En).
  exists (reduce_elem (k, i, f) c). split; [cbn [reduce_fpq cfgs data tmap]; rewrite nth_error_map, Hj; reflexivity|].
  assert (Kc : kn (reduce_elem (k, i, f) c) = k) by (unfold reduce_elem; cbn [kn]; rewrite K; lia).
  split.
  - rewrite (in_format_quant o c x n LC HR HS NS Hn) by (rewrite K; exact Hc).
    rewrite (in_format_quant' (reduce_fpq (k, i, f) o) (reduce_elem (k, i, f) c) x n'); try assumption; try (rewrite Kc); try assumption; [|lia].
    unfold reduce_elem. cbn [ints bits]. rewrite En. reflexivity.
  - right. exists n'. rewrite Kc. split; assumption.
Qed.

(** ** What the derivation does to the quantizers *)
Section Store.
  Variable (net : pnet) (s0 : pst).
  Hypothesis topo : topological net.
  Hypothesis own : own_quantizers net.
  Hypothesis nice0 : Forall nice s0.

  (** Each quantizer is as at first or reduced once, to what its input needs. *)
  Definition reduced_once (s : pst) : Prop := forall m q ps, nth_error net m = Some (NFpq q, ps) ->
    nth_error s q = nth_error s0 q \/
    exists p fu t o r o', ps = [p] /\ produced fu net p s = Ok (t, s) /\ nth_error s0 q = Some o /\ fpq_produced t o = (r, o') /\ nth_error s q = Some o' /\ produced (S fu) net m s = Ok (r, s).

  (** The transitions of the store. *)
  Definition moves (s s' : pst) : Prop := Forall nice s -> Forall low s' -> Forall nice s' /\ store_le s' s /\ (reduced_once s -> reduced_once s') /\ keeps net s s'.
  Lemma moves_refl s : moves s s.
  Proof. intros N _. split; [exact N|]. split; [apply store_le_refl|]. split; [auto|apply keeps_refl]. Qed.
  Lemma moves_trans a b c : store_le c b -> moves a b -> moves b c -> moves a c.
  Proof.
    intros LE M1 M2 N L. destruct (M1 N (low_up _ _ LE L)) as (N1 & L1 & R1 & K1). destruct (M2 N1 L) as (N2 & L2 & R2 & K2).
    split; [exact N2|]. split; [eapply store_le_trans; eauto|]. split; [auto|eapply keeps_trans; eauto].
  Qed.

  Lemma inputs_moves fuel : (forall n s t s', produced fuel net n s = Ok (t, s') -> moves s s') -> forall ps s ts s', input_kifs fuel net ps s = Ok (ts, s') -> moves s s'.
  Proof.
    intros IH. induction ps as [|p ps IHp]; intros s ts s' H; cbn [input_kifs] in H.
    - apply okpair in H as [_ <-]. apply moves_refl.
    - destruct (produced fuel net p s) as [[t1 s1]|] eqn:E1; cbn [rbind fst snd] in H; [|discriminate].
      destruct (input_kifs fuel net ps s1) as [[t2 s2]|] eqn:E2; cbn [rbind fst snd] in H; [|discriminate].
      apply okpair in H as [_ <-]. eapply moves_trans; [|eapply IH; exact E1|eapply IHp; exact E2]. eapply input_kifs_le; eauto using produced_le.
  Qed.

  Lemma produced_moves : forall fuel n s t s', produced fuel net n s = Ok (t, s') -> moves s s'.
  Proof.
    induction fuel as [|fuel IH]; intros n s t s' H; [discriminate|]. intros N L.
    destruct (produced_idem net topo own (S fuel) n s t s' N L H) as [_ KP].
    split; [eapply produced_nice; eauto|]. split; [eapply produced_le; eauto|]. split; [|exact KP]. intros RO.
    rewrite produced_S in H. destruct (nth_error net n) as [[kd ps]|] eqn:EN; [|discriminate].
    destruct (source kd) eqn:Hs.
    { destruct kd; try discriminate; apply okpair in H as [_ <-]; exact RO. }
    pose proof (step_inv _ _ _ _ _ H) as SI.
    assert (I : exists ts s1, input_kifs fuel net ps s = Ok (ts, s1) /\ store_le s' s1) by (destruct kd; try discriminate; exact SI). clear SI.
    destruct I as [ts [s1 [HI LE]]]. assert (L1 : Forall low s1) by (eapply low_up; eauto). rewrite HI in H.
    destruct (inputs_moves fuel IH ps s ts s1 HI N L1) as (N1 & _ & R1 & K1). specialize (R1 RO).
    destruct (inputs_idem fuel net (produced_idem net topo own fuel) ps s ts s1 N L1 HI) as [A1 _].
    destruct kd as [|q|a fn|sm fn|pool| | | | |kernel div bias| | |kf|]; try discriminate Hs;
    try (assert (E1 : s' = s1) by (
      unfold step in H; try (destruct a); try (destruct sm); cbn [rbind fst snd] in H;
      repeat match type of H with
      | context [match ?x with _ => _ end] => is_var x; destruct x; cbn [rbind fst snd] in H; try discriminate
      | context [rbind ?x _] => destruct x as [?|]; cbn [rbind fst snd] in H; try discriminate
      end; apply okpair in H as [_ H]; congruence); subst s'; exact R1).
    (* quantizer *)
    unfold step in H. cbn [rbind fst snd] in H. destruct ts as [|u [|? ?]]; try discriminate.
    destruct (nth_error s1 q) as [o1|] eqn:EO; [|discriminate]. destruct (fpq_produced u o1) as [r o'] eqn:EP. apply okpair in H as [<- <-].
    assert (PU : exists p, ps = [p] /\ produced fuel net p s1 = Ok (u, s1)).
    { apply input_kifs_fix in A1. inversion A1 as [|p ? ps' ? R F X1]; subst. inversion F; subst. eauto. }
    destruct PU as (p & -> & PU).
    assert (PS : produced (S fuel) net n s1 = Ok (r, upd s1 q o')).
    { rewrite produced_S, EN. cbn [step]. rewrite A1. cbn [rbind fst snd]. rewrite EO, EP. reflexivity. }
    destruct (produced_idem net topo own (S fuel) n s1 r _ N1 L PS) as [PS' K2].
    destruct (R1 n q [p] EN) as [FR|(p0 & fu & t0 & o & r0 & o2 & E0 & P0 & S0 & F0 & E2 & _)].
    - (* first visit *)
      intros m q2 ps2 Em. destruct (Nat.eq_dec m n) as [->|NM].
      + rewrite EN in Em. assert (q2 = q /\ ps2 = [p]) as [-> ->] by (split; congruence). right.
        exists p, fuel, u, o1, r, o'. split; [reflexivity|]. split; [apply K2; exact PU|]. split; [congruence|]. split; [exact EP|]. split; [eapply nth_upd_same; exact EO|exact PS'].
      + assert (q2 <> q) by (intros ->; apply NM; eapply own; eauto). rewrite nth_upd_other by congruence.
        destruct (R1 m q2 ps2 Em) as [FM|(p2 & fu & t0 & o & r0 & o2 & E0 & P0 & S0 & F0 & E2 & Q2)]; [left; exact FM|right].
        exists p2, fu, t0, o, r0, o2. split; [exact E0|]. split; [apply K2; exact P0|]. split; [exact S0|]. split; [exact F0|]. split; [exact E2|apply K2; exact Q2].
    - (* visited before *)
      assert (p0 = p) by congruence. subst p0. pose proof (produced_agree _ _ _ _ _ _ _ P0 PU) as EU. assert (t0 = u) by congruence. subst t0.
      assert (o2 = o1) by congruence. subst o2.
      assert (FI : fpq_produced u o1 = (r0, o1)) by (eapply fpq_idem; [eapply Forall_nth; [exact nice0|exact S0]|eapply Forall_nth; [exact L1|exact EO]|exact F0]).
      assert (o' = o1) by congruence. subst o'. rewrite (upd_id _ _ _ EO). exact R1.
  Qed.

  Lemma requested_none fuel n s s' t : result_kifRS fuel net n s = Ok (t, s') -> moves s s'.
  Proof.
    unfold result_kifRS. destruct (fusible_result net n s) as [[u|]|]; cbn [rbind]; [intros H; assert (s' = s) by congruence; subst; apply moves_refl| |discriminate].
    assert (G : rbind (produced fuel net n s) (fun p => rbind (requested fuel net n (snd p)) (fun q => Ok ((merge_precision (fst p) q, "TRN"%string, "WRAP"%string), snd p))) = Ok (t, s') -> moves s s').
    { destruct (produced fuel net n s) as [[p s1]|] eqn:E; cbn [rbind fst snd]; [|discriminate]. destruct (requested fuel net n s1); cbn [rbind]; [|discriminate].
      intros H. assert (s1 = s') by congruence. subst. eapply produced_moves; exact E. }
    destruct (nth_error net n) as [[kd ps]|]; [|discriminate]. destruct kd; try exact G.
    destruct (derived_result net n s); cbn [rbind]; [|discriminate]. intros H. assert (s' = s) by congruence. subst. apply moves_refl.
  Qed.
  Lemma result_le fuel n s s' t : result_kifRS fuel net n s = Ok (t, s') -> store_le s' s.
  Proof.
    unfold result_kifRS. destruct (fusible_result net n s) as [[u|]|]; cbn [rbind]; [intros H; assert (s' = s) by congruence; subst; apply store_le_refl| |discriminate].
    assert (G : rbind (produced fuel net n s) (fun p => rbind (requested fuel net n (snd p)) (fun q => Ok ((merge_precision (fst p) q, "TRN"%string, "WRAP"%string), snd p))) = Ok (t, s') -> store_le s' s).
    { destruct (produced fuel net n s) as [[p s1]|] eqn:E; cbn [rbind fst snd]; [|discriminate]. destruct (requested fuel net n s1); cbn [rbind]; [|discriminate].
      intros H. assert (s1 = s') by congruence. subst. eapply produced_le; exact E. }
    destruct (nth_error net n) as [[kd ps]|]; [|discriminate]. destruct kd; try exact G.
    destruct (derived_result net n s); cbn [rbind]; [|discriminate]. intros H. assert (s' = s) by congruence. subst. apply store_le_refl.
  Qed.

  Lemma config_moves fuel n s off c s' : layer_config fuel net n s off = Ok (c, s') -> moves s s' /\ store_le s' s.
  Proof.
    unfold layer_config. intros H. match type of H with rbind ?x _ = _ => destruct x as [[c1 s1]|] eqn:E; [|discriminate] end. cbn [rbind fst] in H.
    destruct (check_types (fst c1)); [|discriminate]. cbn in H. assert (s1 = s') by congruence. subst s1. clear H.
    destruct (nth_error net n) as [[kd ps]|]; [|discriminate].
    assert (G : forall X : result (conf * pst), X = Ok (c1, s') -> X = rbind (result_kifRS fuel net n s) (fun r => Ok (([("result_t"%string, tuple_to_apf (fst (fst (fst r))) (snd (fst (fst r))) (snd (fst r)) true)], None), snd r)) -> moves s s' /\ store_le s' s).
    { intros X HX ->. destruct (result_kifRS fuel net n s) as [[r s2]|] eqn:ER; cbn [rbind snd] in HX; [|discriminate]. assert (s2 = s') by congruence. subst s2.
      split; [eapply requested_none; exact ER|eapply result_le; exact ER]. }
    destruct kd; try (exact (G _ E eq_refl)); clear G.
    - unfold config_table in E. destruct (result_kifRS fuel net n s) as [[[[t R] S] s2]|] eqn:ER; [|discriminate]. cbn [rbind fst snd] in E.
      destruct (input_kifs fuel net ps s2) as [[l s3]|] eqn:EI; [|discriminate]. cbn [rbind fst snd] in E. destruct (kifs_max l) as [[[i_k i_i] i_f]|]; [|discriminate]. cbn [rbind] in E.
      destruct (Z.ltb (i_k + i_i + i_f) 0); [discriminate|]. assert (s3 = s') by congruence. subst s3.
      assert (LE : store_le s' s2) by (eapply input_kifs_le; [|exact EI]; eauto using produced_le).
      split; [|eapply store_le_trans; [exact LE|eapply result_le; exact ER]].
      eapply moves_trans; [exact LE|eapply requested_none; exact ER|]. eapply inputs_moves; [|exact EI]. intros. eapply produced_moves; eauto.
    - unfold config_kernel in E. destruct (result_kifRS fuel net n s) as [[[[[[rk ri] rf] R] S] s2]|] eqn:ER; [|discriminate]. cbn [rbind fst snd] in E.
      destruct (produced fuel net n s2) as [[[[pk pi] pf] s3]|] eqn:EP; [|discriminate]. cbn [rbind] in E. assert (s3 = s') by congruence. subst s3.
      assert (LE : store_le s' s2) by (eapply produced_le; exact EP).
      split; [|eapply store_le_trans; [exact LE|eapply result_le; exact ER]].
      eapply moves_trans; [exact LE|eapply requested_none; exact ER|eapply produced_moves; exact EP].
  Qed.
  Lemma register_moves fuel names off : forall l s ov s' ov', register_layers fuel net names off l (s, ov) = Ok (s', ov') -> moves s s' /\ store_le s' s.
  Proof.
    induction l as [|n l IH]; intros s ov s' ov' H; cbn in H; [assert (s = s') by congruence; subst; split; [apply moves_refl|apply store_le_refl]|].
    destruct (register_qconf fuel net names off n (s, ov)) as [[s1 ov1]|] eqn:E; [|discriminate]. cbn in H. destruct (IH _ _ _ _ H) as [M1 L1].
    apply register_step in E as [(t & ps & _ & -> & _)|(NL & q1 & c & name1 & W & C & _)]; [auto|]. destruct (config_moves _ _ _ _ _ _ C) as [M2 L2].
    split; [eapply moves_trans; eauto|eapply store_le_trans; eauto].
  Qed.
  Lemma reduced_refl : reduced_once s0.
  Proof. intros m q ps _. left. reflexivity. Qed.
  Lemma register_reduced fuel names off ov s' ov' : Forall low s' -> register_all fuel net names off (s0, ov) = Ok (s', ov') -> reduced_once s' /\ Forall nice s' /\ store_le s' s0.
  Proof.
    intros L H. destruct (register_moves fuel names off _ _ _ _ _ H) as [M LE]. destruct (M nice0 L) as (N & _ & R & _). split; [apply R, reduced_refl|]. auto.
  Qed.
End Store.

(** ** Runs *)
Section Runs.
  Variable (net : pnet) (s s' : pst) (geo : nat -> list recipe) (feed : nat -> list Qc) (opaque : nat -> list (list Qc) -> list Qc) (tables : nat -> option ulut).
  Hypothesis hon : honest net feed opaque.
  Hypothesis fine : all_fine net s'.
  Hypothesis tabs : proper_tables net tables.
  Hypothesis nices : Forall nice s.
  Hypothesis lows : Forall low s.
  Hypothesis plains : Forall plain_fpq s.
  Hypothesis once : reduced_once net s s'.
  Hypothesis even : forall m q ps fu t o, nth_error net m = Some (NFpq q, ps) -> nth_error s q = Some o -> produced fu net m s' = Ok (t, s') -> shrinks_evenly o t.

  Lemma entries' n t ps l : nth_error net n = Some (NLut t, ps) -> tables n = Some l -> Forall (value net s' n) (lut_table l).
  Proof.
    destruct t as [[k i] f]. intros En T. pose proof (tabs n k i f ps l En T) as F. destruct fine as [_ AL]. destruct (AL n k i f ps En) as [Hk Hb].
    eapply Forall_impl; [|exact F]. intros y Fy. apply (v_lut net s' n ps k i f y y "TRN" "WRAP" En). apply (cast_fits k i f y Hk); [lia|exact Fy].
  Qed.

  Lemma quiet_element m q p r j c x : nth_error net m = Some (NFpq q, [p]) -> forall o, nth_error s q = Some o -> nth_error (data (cfgs o)) (r_ch r) = Some c ->
    r_src r = [Some (0%nat, j)] -> value net s' p x -> in_format o c x ->
    exists o' c', nth_error s' q = Some o' /\ nth_error (data (cfgs o')) (r_ch r) = Some c' /\ quant o' c' x = quant o c x /\ in_format o' c' x.
  Proof.
    intros Em o Eo Ec _ V IF. destruct (once m q [p] Em) as [E|(p0 & fu & t & o0 & r0 & o' & E0 & P0 & S0 & F0 & E2 & Q)].
    - exists o, c. split; [congruence|]. auto.
    - assert (p0 = p) by congruence. subst p0. assert (o0 = o) by congruence. subst o0.
      destruct (produced_sound fu net s' fine p t P0) as [SK FT].
      destruct (shrunk_quantizer t o r0 o' (r_ch r) c x) as (c' & C1 & C2 & C3); try assumption.
      + eapply Forall_nth; eauto.
      + eapply Forall_nth; eauto.
      + eapply Forall_nth; eauto.
      + eapply even; eauto.
      + apply FT, V.
      + exists o', c'. auto.
  Qed.

  Lemma run_extends st : forall rest env out, run st geo feed opaque tables rest env = Ok out -> exists more, out = (env ++ more)%list.
  Proof.
    induction rest as [|[kd ps] rest IH]; intros env out H; cbn in H; [exists []; rewrite app_nil_r; congruence|].
    destruct (inputs_of env ps) as [ins|]; [|discriminate]. cbn [rbind] in H. destruct (layer_out st geo feed opaque tables (List.length env) kd ins) as [y|]; [|discriminate]. cbn [rbind] in H.
    destruct (IH _ _ H) as [more ->]. exists (y :: more). rewrite <- app_assoc. reflexivity.
  Qed.

  Lemma quiet_layer env n kd ps ins y out more : out = (env ++ more)%list -> quiet net s geo out -> attainable s' net env -> nth_error net n = Some (kd, ps) ->
    inputs_of env ps = Ok ins -> layer_out s geo feed opaque tables n kd ins = Ok y -> layer_out s' geo feed opaque tables n kd ins = Ok y.
  Proof.
    intros EO Q A En EI EL. destruct kd as [|q|a fn|sm fn|pool| | | | |kernel div bias| | |kf|]; try exact EL.
    cbn [layer_out] in EL |- *. apply forall2_rseq. apply rseq_forall2 in EL.
    assert (G : forall r w, In r (geo n) -> element s (NFpq q) (List.length ins) ins r = Ok w -> element s' (NFpq q) (List.length ins) ins r = Ok w).
    { intros r w IR H. unfold element in *. destruct (fetches ins (r_src r)) as [xs|] eqn:X; [|discriminate]. cbn [rbind] in *.
      destruct xs as [|x [|? ?]]; try discriminate. destruct (nth_error s q) as [o|] eqn:Eo; [|discriminate].
      destruct (nth_error (data (cfgs o)) (r_ch r)) as [c|] eqn:Ec; [|discriminate]. apply demand_ok in H as [B H].
      pose proof B as B0. apply andb_true_iff in B0 as [B1 B2]. apply Nat.eqb_eq in B1.
      pose proof (rseq_forall2 _ _ _ X) as FX. inversion FX as [|so ? l0 ? E FX' E1]; subst. inversion FX'; subst.
      rewrite <- E1 in B2. cbn in B2. destruct so as [[b j]|]; [|discriminate]. rewrite andb_true_r in B2. apply Nat.eqb_eq in B2. subst b.
      pose proof (rseq_forall2 _ _ _ EI) as FI. pose proof (forall2_len _ _ _ FI) as LI. destruct ps as [|p [|? ?]]; cbn in LI; try lia.
      inversion FI as [|? v ? ins' Ep FI' X1 X2]; subst. inversion FI'; subst. destruct (nth_error env p) as [v'|] eqn:Ev; [|discriminate]. assert (v' = v) by congruence. subst v'.
      cbn in E. destruct (nth_error v j) as [x'|] eqn:Ex; [|discriminate]. assert (x' = x) by congruence. subst x'.
      assert (V : value net s' p x) by (apply (proj1 (Forall_forall _ _) (A p v Ev)); apply (nth_error_In _ _ Ex)).
      assert (Ev' : nth_error (env ++ more)%list p = Some v) by (rewrite nth_error_app1; [exact Ev|]; apply (proj1 (nth_error_Some env p)); rewrite Ev; discriminate).
      pose proof (Q n q p r j o c v x En IR (eq_sym E1) Eo Ec Ev' Ex) as IFm.
      destruct (quiet_element n q p r j c x En o Eo Ec (eq_sym E1) V IFm) as (o' & c' & O1 & C1 & QQ & _).
      rewrite O1, C1. unfold demand. cbn [List.length Nat.eqb forallb from andb]. unfold quant in QQ. rewrite QQ. exact H. }
    clear -EL G. induction EL as [|r w l y E EL IH]; constructor; [apply G; [left; reflexivity|exact E]|]. apply IH. intros r0 w0 I0. apply G. right. exact I0.
  Qed.

  Lemma quiet_run : forall rest pre env out, net = (pre ++ rest)%list -> List.length env = List.length pre -> attainable s' net env ->
    run s geo feed opaque tables rest env = Ok out -> quiet net s geo out -> run s' geo feed opaque tables rest env = Ok out.
  Proof.
    induction rest as [|[kd ps] rest IH]; intros pre env out EN L A H Q; [exact H|]. pose proof H as H0. cbn in H |- *.
    destruct (inputs_of env ps) as [ins|] eqn:EI; [|discriminate]. cbn [rbind] in *.
    destruct (layer_out s geo feed opaque tables (List.length env) kd ins) as [y|] eqn:EL; [|discriminate]. cbn [rbind] in H.
    assert (En : nth_error net (List.length env) = Some (kd, ps)) by (rewrite EN, L, nth_error_app2, Nat.sub_diag by lia; reflexivity).
    destruct (run_extends _ _ _ _ H0) as [more EO].
    pose proof (quiet_layer env _ kd ps ins y out more EO Q A En EI EL) as EL'. rewrite EL'. cbn [rbind].
    apply (IH (pre ++ [(kd, ps)])%list); [rewrite <- app_assoc; exact EN|rewrite !app_length; cbn; lia| |exact H|exact Q].
    intros n x E. rewrite nth_snoc in E. destruct (Nat.eqb_spec n (List.length env)) as [->|]; [|apply (A n x E)]. assert (x = y) by congruence. subst x.
    apply (layer_value_t s' geo feed opaque tables net hon entries' _ _ _ _ _ En (inputs_value _ _ _ _ _ A EI) EL').
  Qed.

  Lemma quiet_same out : run s geo feed opaque tables net [] = Ok out -> quiet net s geo out -> run s' geo feed opaque tables net [] = Ok out /\ quiet net s' geo out.
  Proof.
    intros H Q. assert (A0 : attainable s' net []) by (intros [|n] x E; discriminate).
    pose proof (quiet_run net [] [] out eq_refl eq_refl A0 H Q) as H'. split; [exact H'|].
    pose proof (run_value_t s' geo feed opaque tables net hon entries' net [] [] out eq_refl eq_refl A0 H') as A.
    intros m q p r j o' c' xs x Em IR SR Eo' Ec' Exs Ex.
    assert (V : value net s' p x) by (apply (proj1 (Forall_forall _ _) (A p xs Exs)); apply (nth_error_In _ _ Ex)).
    destruct (once m q [p] Em) as [E|(p0 & fu & t & o0 & r0 & o2 & E0 & P0 & S0 & F0 & E2 & _)].
    - apply (Q m q p r j o' c' xs x Em IR SR); congruence.
    - assert (o2 = o') by congruence. subst o2.
      assert (C : exists c, nth_error (data (cfgs o0)) (r_ch r) = Some c).
      { pose proof (fpq_produced_le t o0) as LE. rewrite F0 in LE. cbn [snd] in LE. destruct LE as (_ & _ & _ & _ & LE). pose proof (forall2_nth _ _ _ LE (r_ch r)) as N. rewrite Ec' in N.
        destruct (nth_error (data (cfgs o0)) (r_ch r)) as [c|]; [eauto|contradiction]. }
      destruct C as [c Ec]. pose proof (Q m q p r j o0 c xs x Em IR SR S0 Ec Exs Ex) as IFm.
      destruct (quiet_element m q p r j c x Em o0 S0 Ec SR V IFm) as (o1 & c1 & O1 & C1 & _ & IF1). assert (o1 = o') by congruence. subst o1. assert (c1 = c') by congruence. subst c1. exact IF1.
  Qed.
End Runs.

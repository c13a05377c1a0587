(** Lemmas about lookup tables. *)
From Coq Require Import ZArith Qcanon List Bool String Lia.
From Verif Require Import Base.Num Base.NumFacts Base.Tensor Model.FixedPoint Model.Precision Model.Lut Spec.Fixed Spec.Precision Proofs.FixedPointP Proofs.FixedPointLayerP Proofs.FitsP Proofs.PrecisionP Proofs.SoundP.
Import ListNotations.
Open Scope Z_scope.

(** The value of table index j. *)
Definition point (k i f j : Z) : Qc := (qz (if Z.ltb j (2 ^ (i + f)) then j else j - 2 ^ (k + i + f)) * pow2 (- f))%Qc.

Lemma linspace_nth a d n j : 0 < n -> (0 <= j < n) -> nth_error (linspace a (a + qz (n - 1) * d)%Qc n) (Z.to_nat j) = Some (a + qz j * d)%Qc.
Proof.
  intros Hn Hj. unfold linspace. rewrite nth_error_map. rewrite (nth_error_nth' _ 0%nat) by (rewrite seq_length; lia). rewrite seq_nth by lia. cbn [option_map]. f_equal.
  replace (Z.of_nat (0 + Z.to_nat j)) with j by lia. f_equal. destruct (Z.eq_dec n 1) as [->|N].
  - assert (j = 0) by lia. subst j. rewrite qz_0. ring.
  - assert (N0 : qz (n - 1) <> Q2Qc 0) by (change (Q2Qc 0) with (qz 0); intros C; apply qz_inj in C; lia). f_equal. unfold Qcdiv. field. exact N0.
Qed.
Lemma linspace_length a b n : List.length (linspace a b n) = Z.to_nat n.
Proof. unfold linspace. rewrite map_length, seq_length. reflexivity. Qed.

Lemma pow_half k i f : (k = 0 \/ k = 1) -> 1 <= k + i + f -> 2 ^ (k + i + f) = (1 + k) * 2 ^ (i + f).
Proof.
  intros [->| ->] H; [replace (0 + i + f) with (i + f) by lia; lia|]. replace (1 + i + f) with (Z.succ (i + f)) by lia. rewrite Z.pow_succ_r by lia. lia.
Qed.
Lemma half_end i f : 0 <= i + f -> (pow2 i - pow2 (- f))%Qc = (qz 0 + qz (2 ^ (i + f) - 1) * pow2 (- f))%Qc.
Proof.
  intros H. rewrite qz_sub, <- pow2_Z by lia. change (qz 1) with 1%Qc. rewrite qz_0. assert (E : (pow2 (i + f) * pow2 (- f))%Qc = pow2 i) by (rewrite <- pow2_add; f_equal; lia).
  replace (0 + (pow2 (i + f) - 1) * pow2 (- f))%Qc with (pow2 (i + f) * pow2 (- f) - pow2 (- f))%Qc by ring. rewrite E. reflexivity.
Qed.

Lemma lut_inputs_length k i f : (k = 0 \/ k = 1) -> 1 <= k + i + f -> Z.of_nat (List.length (lut_inputs (k, i, f))) = 2 ^ (k + i + f).
Proof.
  intros Hk H. unfold lut_inputs. pose proof (pow_half k i f Hk H) as E. assert (P : 0 < 2 ^ (i + f)) by (apply Z.pow_pos_nonneg; lia). destruct Hk as [->| ->]; cbn [Z.eqb].
  - rewrite linspace_length. lia.
  - rewrite app_length, map_length, linspace_length. rewrite E. replace ((1 + 1) * 2 ^ (i + f)) with (2 ^ (i + f) * 2) by lia. rewrite Z.div_mul by lia. lia.
Qed.
Lemma lut_inputs_nth k i f j : (k = 0 \/ k = 1) -> 1 <= k + i + f -> f <= 1074 -> 0 <= j < 2 ^ (k + i + f) -> nth_error (lut_inputs (k, i, f)) (Z.to_nat j) = Some (point k i f j).
Proof.
  intros Hk H Hf Hj. pose proof (pow_half k i f Hk H) as E. assert (P : 0 < 2 ^ (i + f)) by (apply Z.pow_pos_nonneg; lia).
  unfold lut_inputs, fpow2. destruct (Z.ltb_spec (- f) (-1074)); [lia|]. rewrite half_end by lia. unfold point. destruct Hk as [->| ->]; cbn [Z.eqb].
  - replace (- pow2 i * qz 0)%Qc with (qz 0) by (rewrite qz_0; ring). replace (2 ^ (0 + i + f)) with (2 ^ (i + f)) in * by lia. rewrite linspace_nth by lia.
    destruct (Z.ltb_spec j (2 ^ (i + f))); [|lia]. f_equal. rewrite qz_0. ring.
  - assert (E2 : 2 ^ (1 + i + f) / 2 = 2 ^ (i + f)) by (rewrite E; replace ((1 + 1) * 2 ^ (i + f)) with (2 ^ (i + f) * 2) by lia; apply Z.div_mul; lia).
    rewrite E2. set (half := linspace _ _ _). assert (LH : List.length half = Z.to_nat (2 ^ (i + f))) by apply linspace_length.
    destruct (Z.ltb_spec j (2 ^ (i + f))) as [L|L].
    + rewrite nth_error_app1 by lia. unfold half. rewrite linspace_nth by lia. f_equal. rewrite qz_0. ring.
    + rewrite nth_error_app2 by lia. rewrite nth_error_map. replace (Z.to_nat j - List.length half)%nat with (Z.to_nat (j - 2 ^ (i + f))) by lia. unfold half. rewrite linspace_nth by lia. cbn [option_map]. f_equal.
      assert (Ei : pow2 i = (qz (2 ^ (i + f)) * pow2 (- f))%Qc) by (rewrite <- pow2_Z by lia; rewrite <- pow2_add; f_equal; lia).
      rewrite Ei, E. rewrite !qz_sub, qz_mul. change (qz (1 + 1)) with (1 + 1)%Qc. rewrite qz_0. ring.
Qed.
Lemma point_fits k i f j : (k = 0 \/ k = 1) -> 1 <= k + i + f -> 0 <= j < 2 ^ (k + i + f) -> fits k i f (point k i f j).
Proof.
  intros Hk H Hj. pose proof (pow_half k i f Hk H) as E. assert (P : 0 < 2 ^ (i + f)) by (apply Z.pow_pos_nonneg; lia). unfold point.
  set (m := if Z.ltb j (2 ^ (i + f)) then j else j - 2 ^ (k + i + f)).
  assert (B : - (k * 2 ^ (i + f)) <= m < 2 ^ (i + f)) by (unfold m; destruct (Z.ltb_spec j (2 ^ (i + f))), Hk as [->| ->]; lia). clearbody m.
  apply fits_codes; [exact Hk|exact H|]. exists (m + k * 2 ^ (i + f)). split; [lia|].
  assert (Ei : pow2 i = (qz (2 ^ (i + f)) * pow2 (- f))%Qc) by (rewrite <- pow2_Z by lia; rewrite <- pow2_add; f_equal; lia). rewrite Ei, qz_add, qz_mul. ring.
Qed.

Lemma quantize_table_nth table k b i R S l : quantize_table table k b i R S = Ok l -> List.length l = List.length table /\
  forall j x, nth_error table j = Some x -> exists y, nth_error l j = Some y /\ gfixed_quantizer x k b i R S = Ok y.
Proof.
  revert l. induction table as [|a table IH]; intros l E; cbn [quantize_table] in E.
  - destruct (gfixed_quantizer _ _ _ _ _ _); [|discriminate]. assert (l = []) by congruence. subst l. split; [reflexivity|]. intros [|j] x C; discriminate.
  - destruct (gfixed_quantizer a k b i R S) as [y|] eqn:Ea; cbn [rbind] in E; [|discriminate]. destruct (quantize_table table k b i R S) as [l'|] eqn:El; cbn [rbind] in E; [|discriminate].
    assert (l = y :: l') by congruence. subst l. destruct (IH l' eq_refl) as [A B]. split; [cbn; congruence|]. intros [|j] x Hx; [|exact (B j x Hx)].
    cbn in Hx. assert (a = x) by congruence. subst x. exists y. split; [reflexivity|exact Ea].
Qed.

Lemma from_spec limit hls func k i f ko io fo R V l : from_activation limit hls func (k, i, f) ((ko, io, fo), R, V) = Ok l ->
  1 <= k + i + f /\ 1 <= ko + io + fo /\ 2 ^ (k + i + f) < hls /\ i < 1024 /\ (0 < limit -> 2 ^ (k + i + f) < limit) /\
  lut_f l = f /\ lut_out l = (ko, io, fo) /\ quantize_table (map func (lut_inputs (k, i, f))) ko (ko + io + fo) (ko + io) R V = Ok (lut_table l).
Proof.
  unfold from_activation, lut_init. intros H. destruct (Z.ltb_spec 0 (k + i + f)); [|discriminate]. cbn [negb] in H. destruct (Z.ltb_spec (2 ^ (k + i + f)) hls); [|discriminate]. cbn [negb] in H.
  destruct (Z.leb_spec 1024 i); [discriminate|]. destruct (Z.ltb_spec 0 (ko + io + fo)); [|discriminate]. cbn [negb] in H.
  destruct (Z.ltb 0 limit && negb (Z.ltb (2 ^ (k + i + f)) limit))%bool eqn:B; [discriminate|].
  destruct (quantize_table _ _ _ _ _ _) as [t|] eqn:Q; cbn [rbind] in H; [|discriminate]. assert (l = mkLut f (ko, io, fo) t) by congruence. subst l. cbn [lut_f lut_out lut_table].
  split; [lia|]. split; [lia|]. split; [lia|]. split; [lia|]. split; [|auto]. intros L. apply andb_false_iff in B as [B|B]; [apply Z.ltb_ge in B; lia|]. apply negb_false_iff, Z.ltb_lt in B. exact B.
Qed.

Lemma lut_wraps limit hls func k i f ko io fo R V l x : from_activation limit hls func (k, i, f) ((ko, io, fo), R, V) = Ok l -> (k = 0 \/ k = 1) -> f <= 1074 ->
  exists v m t, rounds_to "RND_CONV" (x * pow2 f)%Qc m /\ v = (qz m * pow2 (- f) + qz t * pow2 (k + i))%Qc /\ fits k i f v /\
    lut_call l x = gfixed_quantizer (func v) ko (ko + io + fo) (ko + io) R V.
Proof.
  intros H Hk Hf. apply from_spec in H as (H1 & H2 & H3 & H4 & H5 & H6 & H7 & HQ).
  set (N := 2 ^ (k + i + f)) in *. assert (PN : 0 < N) by (apply Z.pow_pos_nonneg; lia).
  destruct (quantize_table_nth _ _ _ _ _ _ _ HQ) as [LQ NQ]. rewrite map_length in LQ. pose proof (lut_inputs_length k i f Hk H1) as LI. fold N in LI.
  set (m := qround_even (x * pow2 f)%Qc). set (j := m mod N). assert (Hj : 0 <= j < N) by (apply Z.mod_pos_bound; exact PN).
  pose proof (lut_inputs_nth k i f j Hk H1 Hf Hj) as NI. 
  assert (NM : nth_error (map func (lut_inputs (k, i, f))) (Z.to_nat j) = Some (func (point k i f j))) by (rewrite nth_error_map, NI; reflexivity).
  destruct (NQ _ _ NM) as [y [Ny Gy]].
  assert (T : exists t, point k i f j = (qz m * pow2 (- f) + qz t * pow2 (k + i))%Qc).
  { pose proof (Z.div_mod m N ltac:(lia)) as D. fold j in D.
    assert (EN : (qz N * pow2 (- f))%Qc = pow2 (k + i)) by (unfold N; rewrite <- pow2_Z by lia; rewrite <- pow2_add; f_equal; lia).
    unfold point. fold N. destruct (Z.ltb_spec j (2 ^ (i + f))).
    - exists (- (m / N)). rewrite <- EN. replace (qz m) with (qz (N * (m / N) + j)) by (f_equal; lia). rewrite qz_add, qz_mul, qz_opp. ring.
    - exists (- (m / N) - 1). rewrite <- EN. replace (qz m) with (qz (N * (m / N) + j)) by (f_equal; lia). rewrite qz_add, qz_mul, !qz_sub, qz_opp. change (qz 1) with 1%Qc. ring. }
  destruct T as [t Et]. exists (point k i f j), m, t. split; [|split; [exact Et|split; [apply point_fits; assumption|]]].
  - destruct (RND_CONV_spec (x * pow2 f)%Qc) as [m' [E RM]]. unfold RND_CONV in E. apply qz_inj in E. fold m in E. rewrite E. exact RM.
  - unfold lut_call. rewrite LQ, LI, H6. destruct (Z.eqb_spec N 0); [lia|]. fold m j. rewrite Ny, Gy. reflexivity.
Qed.
Lemma lut_exact limit hls func k i f ko io fo R V l x : from_activation limit hls func (k, i, f) ((ko, io, fo), R, V) = Ok l -> (k = 0 \/ k = 1) -> f <= 1074 -> fits k i f x ->
  lut_call l x = gfixed_quantizer (func x) ko (ko + io + fo) (ko + io) R V.
Proof.
  intros H Hk Hf Fx. destruct (lut_wraps _ _ _ _ _ _ _ _ _ _ _ _ x H Hk Hf) as (v & m & t & RM & Ev & Fv & ->). apply from_spec in H as (H1 & _).
  f_equal. f_equal.
  assert (Gx : exists n, x = (qz n * pow2 (- f))%Qc) by (destruct Fx as [G _]; exact G). destruct Gx as [n En].
  assert (Em : m = n).
  { eapply rounds_to_fun; [exact RM|]. rewrite En, <- Qcmult_assoc, <- pow2_add. replace (- f + f) with 0 by lia. change (pow2 0) with 1%Qc. rewrite Qcmult_1_r. apply rounds_to_qz. cbn. auto 10. }
  subst m. rewrite <- En in Ev. 
  (* both in a window of length 2^(k+i) *)
  assert (W : (- (qz k * pow2 i) + pow2 (k + i))%Qc = pow2 i).
  { destruct Hk as [->| ->]; [replace (0 + i) with i by lia; rewrite qz_0; ring|]. rewrite (pow2_add 1 i). change (pow2 1) with (1 + 1)%Qc. change (qz 1) with 1%Qc. ring. }
  destruct Fx as [_ [A B]], Fv as [_ [C D]]. pose proof (pow2_pos (k + i)) as P.
  assert (T : t = 0).
  { destruct (Z_lt_dec 0 t) as [L|L]; [|destruct (Z_lt_dec t 0) as [L'|L']; [|lia]]; exfalso.
    - assert (Q : (pow2 (k + i) <= qz t * pow2 (k + i))%Qc).
      { assert (X : (qz 1 * pow2 (k + i) <= qz t * pow2 (k + i))%Qc) by (apply qmul_le_r; [qlra|]; apply qz_le; lia). change (qz 1) with 1%Qc in X. rewrite Qcmult_1_l in X. exact X. }
      rewrite Ev in D. generalize dependent (qz t * pow2 (k + i))%Qc. generalize dependent (qz k * pow2 i)%Qc. intros. qlra.
    - assert (Q : (qz t * pow2 (k + i) <= - pow2 (k + i))%Qc).
      { assert (X : (qz t * pow2 (k + i) <= qz (-1) * pow2 (k + i))%Qc) by (apply qmul_le_r; [qlra|]; apply qz_le; lia). change (qz (-1)) with (- (1))%Qc in X. replace (- (1) * pow2 (k + i))%Qc with (- pow2 (k + i))%Qc in X by ring. exact X. }
      rewrite Ev in C. generalize dependent (qz t * pow2 (k + i))%Qc. generalize dependent (qz k * pow2 i)%Qc. intros. qlra. }
  rewrite T in Ev. rewrite Ev, qz_0. ring.
Qed.

(** What replacing requires. *)
Lemma xfr_spec limit hls fuel net n s mx l s' : xfr_to_unary_lut limit hls fuel net n s mx = Ok (Replaced l, s') ->
  exists a func ps k i f s1 o, nth_error net n = Some (NAct a func, ps) /\ a <> ASoftmax /\ a <> ARelu /\ a <> ALinear /\
    input_kifs fuel net ps s = Ok ([(k, i, f)], s1) /\ (pow2 (k + i + f) <= qz mx)%Qc /\
    result_kifRS fuel net n s1 = Ok (o, s') /\ from_activation limit hls func (k, i, f) o = Ok l.
Proof.
  unfold xfr_to_unary_lut. destruct (nth_error net n) as [[kd ps]|]; [|discriminate]. destruct kd; try discriminate. intros H.
  assert (A : a <> ASoftmax /\ a <> ARelu /\ a <> ALinear) by (destruct a; try discriminate; repeat split; discriminate). destruct A as (A1 & A2 & A3).
  assert (H' : rbind (input_kifs fuel net ps s) (fun r => match fst r with [] => Raise | [(k, i, f)] => if qltb (qz mx) (pow2 (k + i + f)) then Ok (Kept, snd r)
      else rbind (result_kifRS fuel net n (snd r)) (fun o => rbind (from_activation limit hls func (k, i, f) (fst o)) (fun l => Ok (Replaced l, snd o))) | _ => Ok (Kept, snd r) end) = Ok (Replaced l, s'))
    by (destruct a; congruence || exact H).
  clear H. destruct (input_kifs fuel net ps s) as [[ts s1]|] eqn:EI; cbn [rbind fst snd] in H'; [|discriminate].
  destruct ts as [|[[k i] f] [|]]; try discriminate. destruct (qltb_spec (qz mx) (pow2 (k + i + f))); [discriminate|].
  destruct (result_kifRS fuel net n s1) as [[o s2]|] eqn:ER; cbn [rbind fst snd] in H'; [|discriminate]. destruct (from_activation limit hls func (k, i, f) o) as [l'|] eqn:EF; cbn [rbind] in H'; [|discriminate].
  exists a, func, ps, k, i, f, s1, o. apply okpair in H' as [E1 E2]. assert (l' = l) by congruence. subst l' s2. repeat (split; [first [assumption|reflexivity]|]). assumption.
Qed.

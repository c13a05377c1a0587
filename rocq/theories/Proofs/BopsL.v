(** The bitwidths that enter the bit operations of a layer. *)
From Coq Require Import ZArith Qcanon List Bool Lia Arith.
From Verif Require Import Base.Num Base.NumFacts Base.Tensor Model.FixedPoint Model.Quantizer Model.Layers Model.Bops
  Spec.Fixed Spec.Quant Spec.Layer Spec.Trace Spec.Bops Proofs.TensorP Proofs.QuantizerP Proofs.BitsP Proofs.SampleP Proofs.LayersP Proofs.BopsP.
Import ListNotations.
Local Open Scope nat_scope.

Definition width (t : Z * Z * Z) : Z := let '(k, i, f) := t in (i + f + k)%Z.

Lemma act_bw_exact_at l : quantizer_shape (l_paq l) (l_out l) -> calibrated (l_paq l) ->
  exists ib, act_bw_exact l = Ok ib /\ length (data ib) = prodn (l_out l) /\
  forall e, e < prodn (l_out l) -> nth e (data ib) 0%Z = width (bits_at (l_paq l) (l_relu l) (group_of (l_paq l) (l_out l) e)).
Proof.
  intros Hq HC. destruct (get_bits_at _ _ (l_relu l) Hq HC) as [bits [EB [LB NB]]]. unfold act_bw_exact. rewrite EB. cbn [rbind].
  unfold broadcast_to. cbn [shape]. pose proof Hq as [bw [Sb [B [L1 _]]]]. rewrite Sb.
  rewrite broadcast_out by assumption. destruct (list_eq_dec Nat.eq_dec (1 :: l_out l) (1 :: l_out l)) as [_|C]; [|contradiction].
  eexists. split; [reflexivity|]. cbn [data]. change (prodn (1 :: l_out l)) with (1 * prodn (l_out l)). rewrite Nat.mul_1_l.
  rewrite map_length, seq_length. split; [reflexivity|]. intros e He. rewrite nth_map_seq by assumption.
  destruct (bshape_length _ _ _ B) as [LL _]. rewrite pad_to_eq by (cbn [length]; lia).
  change (bidx (1 :: bw) (1 :: l_out l) e) with (0 * prodn bw + bidx bw (l_out l) (e mod prodn (l_out l))).
  rewrite Nat.mod_small by assumption. cbn [Nat.mul Nat.add].
  assert (G : group_of (l_paq l) (l_out l) e = bidx bw (l_out l) e) by (unfold group_of; rewrite Sb; reflexivity).
  rewrite G. assert (LT : bidx bw (l_out l) e < length bits) by (rewrite LB, L1; apply bidx_lt; assumption).
  rewrite (nth_indep _ 0%Z (width (0, 0, 0)%Z)) by (rewrite map_length; exact LT). rewrite (map_nth width). rewrite NB by (rewrite <- LB; exact LT). reflexivity.
Qed.

Lemma width_range q g : calibrated q -> g < length (data (q_fbw q)) -> exists r mn mx, frac_bits q g r /\ holds_range q g mn mx /\
  range_bits r mn mx (width (bits_at q false g)) /\ relu_bits r mx (width (bits_at q true g)).
Proof.
  intros HC Hg. destruct (HC g Hg) as [r [mn [mx [Hr [Hb [E1 [E2 [G1 [G2 [Hle [B1 B2]]]]]]]]]]].
  exists r, mn, mx. split; [assumption|]. split; [split; assumption|]. apply nearest_even_fun in Hr.
  unfold bits_at. rewrite E1, E2. cbn [fin]. set (f := nth g (data (q_fbw q)) (qz 0)) in *. split.
  - destruct (qeqb_spec mn (qz 0)) as [Emn|Nmn]; [destruct (qeqb_spec mx (qz 0)) as [Emx|Nmx]|].
    + left. split; [assumption|]. split; [assumption|]. subst mn mx. rewrite (bits_exact_zero f r Hr) by lia. reflexivity.
    + right. split; [auto|]. destruct (bits_exact_nonzero f r mn mx Hr ltac:(lia) G1 G2 Hle ltac:(auto) B1 B2) as [i [E [L [U [I1 [I2 [_ I3]]]]]]].
      exists (if qltb mn (qz 0) then 1 else 0)%Z, i. rewrite E. split; [unfold width; lia|]. split; [reflexivity|]. auto.
    + right. split; [auto|]. destruct (bits_exact_nonzero f r mn mx Hr ltac:(lia) G1 G2 Hle ltac:(auto) B1 B2) as [i [E [L [U [I1 [I2 [_ I3]]]]]]].
      exists (if qltb mn (qz 0) then 1 else 0)%Z, i. rewrite E. split; [unfold width; lia|]. split; [reflexivity|]. auto.
  - destruct (Qclt_le_dec (qz 0) mx) as [P|N].
    + right. split; [exact P|]. exists (flog2 mx + 1)%Z. destruct (bits_pos f r mn mx Hr ltac:(lia) G2 P B2) as [E _]. rewrite E.
      destruct (flog2_spec _ P) as [F1 F2]. split; [unfold width; lia|]. split; [exact F2|]. intros i' Hi'.
      assert (pow2 (flog2 mx) < pow2 i')%Qc as X by qlra. apply pow2_lt_inv in X. lia.
    + left. split; [exact N|]. rewrite (bits_pos_nonpos f r mn mx Hr) by (assumption || lia). reflexivity.
Qed.

Lemma kernel_bits_at arr n w : (forall v, In v arr -> on_grid 31 v /\ (qabs v < pow2 64)%Qc) -> nth_error arr n = Some w ->
  weight_bits w (nth n (kernel_bw_exact (fun a => a) arr) 0%Z).
Proof.
  intros H Hw.
  assert (A : arr_ok (fun a => a) arr).
  { intros v Hv. destruct (H v Hv) as [[a G] B]. split; [|split; [assumption|split; [|split]]].
    - exists (2 * a)%Z. rewrite G, qz_mul. change (qz 2) with (pow2 1). rewrite (Qcmult_comm (pow2 1)), <- Qcmult_assoc, <- pow2_add. reflexivity.
    - intros C. assert (G' : on_grid 31 (qabs v)) by (apply grid_abs; exists a; assumption).
      rewrite C in G'. pose proof (grid_pos_ge _ _ G' (pow2_pos _)) as X. apply pow2_le_inv in X. lia.
    - qlra.
    - assert (qz 0 <= qabs (v * pow2 32))%Qc by (destruct (qabs_spec (v * pow2 32)%Qc) as [[? ->]|[? ->]]; qlra). qlra. }
  unfold kernel_bw_exact, arr_bits_masked. rewrite map_map.
  assert (LN : length (get_arr_bits (fun a => a) arr) = length arr) by (rewrite get_arr_bits_elem; cbv zeta; apply map_length).
  assert (Hn : n < length arr) by (apply nth_error_Some; congruence).
  destruct (nth_error (get_arr_bits (fun a => a) arr) n) as [[[k i] f]|] eqn:E; [|apply nth_error_None in E; lia].
  rewrite (nth_error_nth _ n 0%Z (map_nth_error _ _ _ E)).
  destruct (arr_bits_spec (fun a => a) arr n w _ A Hw E) as [S0 S1]. destruct (qeqb_spec w (qz 0)) as [->|NZ].
  - left. split; [reflexivity|]. specialize (S0 eq_refl). injection S0 as -> -> ->. reflexivity.
  - right. split; [assumption|]. destruct (S1 NZ) as [i' [f' [T [G1 [U [I1 [_ [F1 [B1 B2]]]]]]]]]. injection T as -> -> ->.
    exists i', f'. split; [|split; [exact U|split; [exact I1|split; [exact G1|intros f'' G; apply F1; [reflexivity|exact G]]]]].
    set (k := if qltb w (qz 0) then 1%Z else 0%Z). assert (0 <= k <= 1)%Z by (unfold k; destruct (qltb _ _); lia).
    rewrite (i8_small (k + i' + f')) by lia. destruct (Z.eqb_spec (k + i' + f') 0); lia.
Qed.

(** ** Tracing with the exact bit operations *)
From Verif Require Import Model.Graph Model.Trace Proofs.CallP Proofs.TraceP Proofs.TraceMinmaxP.

Lemma nth_error_layers (s s' : store) i : map o_layer s = map o_layer s' ->
  match nth_error s i, nth_error s' i with
  | Some o, Some o' => o_layer o = o_layer o'
  | None, None => True
  | _, _ => False
  end.
Proof.
  intros H. pose proof (f_equal (fun l => nth_error l i) H) as E. cbv beta in E. rewrite !nth_error_map in E.
  destruct (nth_error s i), (nth_error s' i); cbn in E; try discriminate; [injection E as E; exact E|exact I].
Qed.
Lemma exact_bops_layers pw ln2 fl pred conv (s s' : store) i : map o_layer s = map o_layer s' ->
  exact_bops pw ln2 fl pred conv s i = exact_bops pw ln2 fl pred conv s' i.
Proof.
  intros H. unfold exact_bops, get. pose proof (nth_error_layers s s' i H) as Ni.
  destruct (nth_error s i) as [o|], (nth_error s' i) as [o'|]; try contradiction; [|reflexivity]. cbn [rbind]. rewrite Ni.
  destruct (l_op (o_layer o')); [|reflexivity]. destruct (pred i) as [p|]; [|reflexivity].
  pose proof (nth_error_layers s s' p H) as Np. destruct (nth_error s p) as [a|], (nth_error s' p) as [a'|]; try contradiction; [|reflexivity].
  cbn [rbind]. rewrite Np. reflexivity.
Qed.
Lemma set_nth_layers (st : store) : forall i o o', nth_error st i = Some o -> o_layer o' = o_layer o -> map o_layer (set_nth st i o') = map o_layer st.
Proof.
  induction st as [|a st IH]; intros [|i] o o' E H; cbn in *; try discriminate; [injection E as <-; rewrite H; reflexivity|]. f_equal. eapply IH; eassumption.
Qed.
Lemma nth_error_set (st : store) : forall i o, i < length st -> nth_error (set_nth st i o) i = Some o.
Proof. induction st as [|a st IH]; intros [|i] o H; cbn in *; try lia; [reflexivity|]. apply IH. lia. Qed.
Lemma count_layers eb : (forall s s' i, map o_layer s = map o_layer s' -> eb s i = eb s' i) ->
  forall ids, NoDup ids -> forall st b st', count_bops eb ids st = Ok (b, st') ->
  map o_layer st' = map o_layer st /\ forall i, In i ids -> exists o, nth_error st' i = Some o /\ eb st' i = Ok (o_bops o).
Proof.
  intros HE. induction 1 as [|i ids Hn Hd IH]; intros st b st' E; [cbn [count_bops] in E; injection E as _ <-; split; [reflexivity|intros i []]|].
  cbn [count_bops] in E.
  apply rbind_ok in E. destruct E as [o [Eo E]]. apply get_ok in Eo. cbv zeta in E.
  apply rbind_ok in E. destruct E as [d [Ed E]]. apply rbind_ok in E. destruct E as [[r st2] [Er E]]. cbn [fst snd] in E. injection E as _ <-.
  assert (Hi : i < length st) by (apply nth_error_Some; congruence).
  assert (M1 : map o_layer (set_nth st i (with_record o false)) = map o_layer st) by (eapply set_nth_layers; [exact Eo|reflexivity]).
  assert (M2 : map o_layer (set_nth (set_nth st i (with_record o false)) i
     (mkO (o_layer (with_record o false)) (o_record (with_record o false)) (o_act (with_record o false)) (o_ins (with_record o false)) d)) = map o_layer st).
  { etransitivity; [|exact M1]. eapply set_nth_layers; [apply nth_error_set; exact Hi|reflexivity]. }
  pose proof (count_spec eb ids Hd _ _ _ Er) as [_ [_ [K _]]].
  destruct (IH _ _ _ Er) as [L A]. split; [congruence|]. intros j [<-|Hj]; [|apply A, Hj].
  rewrite (K i Hn). rewrite nth_error_set by (pose proof (f_equal (@length _) M1) as X; rewrite !map_length in X; lia).
  eexists. split; [reflexivity|]. cbn [o_bops]. rewrite <- Ed. apply HE. congruence.
Qed.

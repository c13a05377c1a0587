(** Calibration with other or more samples (C67). *)
From Coq Require Import ZArith Qcanon List Bool String Lia.
From Verif Require Import Base.Num Base.NumFacts Base.Tensor Model.FixedPoint Model.Quantizer Model.Layers Model.Graph
  Model.Convert Model.Trace Model.Bops Spec.Fixed Spec.Quant Spec.History Spec.Layer Spec.Trace Spec.Bops Spec.Calib Proofs.TensorP Proofs.QuantizerP Proofs.RecordP
  Proofs.BitsP Proofs.HistoryP Proofs.CallP Proofs.SampleP Proofs.LayersP Proofs.ConvertP Proofs.TraceP Proofs.FeedP Proofs.TraceMinmaxP Proofs.CoverP
  Proofs.TraceMoreP Proofs.BopsP Proofs.BopsL.
Import ListNotations.
Local Open Scope nat_scope.

Lemma ext_le_refl a : ext_le a a.
Proof. destruct a; cbn; auto. apply Qcle_refl. Qed.
Lemma ext_le_trans a b c : ext_le a b -> ext_le b c -> ext_le a c.
Proof. destruct a, b, c; cbn; auto; try tauto. apply Qcle_trans. Qed.
Lemma ext_leb_le a b : ext_leb a b = true <-> ext_le a b.
Proof. destruct a, b; cbn; try (split; congruence || tauto); try tauto. destruct (qleb_spec x x0) as [H|H]; split; try tauto; try congruence. intros H'. exfalso. qlra. Qed.
Lemma ext_le_total a b : ext_leb a b = false -> ext_le b a.
Proof. destruct a, b; cbn; auto; try discriminate. destruct (qleb_spec x x0) as [H|H]; [discriminate|]. intros _. qlra. Qed.
Lemma ext_min_l a b : ext_le (ext_min a b) a.
Proof. unfold ext_min. destruct (ext_leb a b) eqn:E; [apply ext_le_refl|apply ext_le_total, E]. Qed.
Lemma ext_min_r a b : ext_le (ext_min a b) b.
Proof. unfold ext_min. destruct (ext_leb a b) eqn:E; [apply ext_leb_le, E|apply ext_le_refl]. Qed.
Lemma ext_min_glb c a b : ext_le c a -> ext_le c b -> ext_le c (ext_min a b).
Proof. unfold ext_min. destruct (ext_leb a b); auto. Qed.
Lemma ext_max_l a b : ext_le a (ext_max a b).
Proof. unfold ext_max. destruct (ext_leb a b) eqn:E; [apply ext_leb_le, E|apply ext_le_refl]. Qed.
Lemma ext_max_r a b : ext_le b (ext_max a b).
Proof. unfold ext_max. destruct (ext_leb a b) eqn:E; [apply ext_le_refl|apply ext_le_total, E]. Qed.
Lemma ext_max_lub c a b : ext_le a c -> ext_le b c -> ext_le (ext_max a b) c.
Proof. unfold ext_max. destruct (ext_leb a b); auto. Qed.
Lemma ext_min_mono a b a' b' : ext_le a a' -> ext_le b b' -> ext_le (ext_min a b) (ext_min a' b').
Proof. intros H K. apply ext_min_glb; eapply ext_le_trans; [apply ext_min_l|exact H|apply ext_min_r|exact K]. Qed.
Lemma ext_max_mono a b a' b' : ext_le a a' -> ext_le b b' -> ext_le (ext_max a b) (ext_max a' b').
Proof. intros H K. apply ext_max_lub; eapply ext_le_trans; [exact H|apply ext_max_l|exact K|apply ext_max_r]. Qed.

Lemma least_sub (P Q : Qc -> Prop) a b : (forall v, P v -> Q v) -> least P a -> least Q b -> ext_le b a.
Proof.
  intros H [[_ ->]|[v [Pv [-> _]]]] [[N ->]|[w [_ [-> L]]]]; cbn; try exact I; try (apply L, H, Pv). exact (N v (H v Pv)).
Qed.
Lemma greatest_sub (P Q : Qc -> Prop) a b : (forall v, P v -> Q v) -> greatest P a -> greatest Q b -> ext_le a b.
Proof.
  intros H [[_ ->]|[v [Pv [-> _]]]] [[N ->]|[w [_ [-> L]]]]; cbn; try exact I; try (apply L, H, Pv). exact (N v (H v Pv)).
Qed.

Lemma wider_refl q : wider q q.
Proof. split; [exists (q_min q), (q_max q); symmetry; apply with_minmax_id|]. intros g _. split; apply ext_le_refl. Qed.
Lemma wider_obj_refl o : wider_obj o o.
Proof. repeat (split; [reflexivity|]). apply wider_refl. Qed.
Lemma wider_regs q a b a' b' :
  (forall g, g < length (data (q_fbw q)) -> ext_le (nth g (data a') PosInf) (nth g (data a) PosInf) /\ ext_le (nth g (data b) NegInf) (nth g (data b') NegInf)) ->
  wider (with_minmax q a b) (with_minmax q a' b').
Proof. intros H. split; [exists a', b'; reflexivity|]. exact H. Qed.

(** Quantization is monotone. *)
Lemma quantized_mono q r x y x' y' : quantized q r x y -> quantized q r x' y' -> (x <= x')%Qc -> (y <= y')%Qc.
Proof.
  unfold quantized. pose proof (half_step r). destruct (Z.eqb _ _); intros [G [A B]] [G' [A' B']] Hx; apply (grid_le_of_lt r); auto; qlra.
Qed.
Lemma cover_lo_mono c a b a' b' : (qz 1 <= c)%Qc -> (a' <= a)%Qc -> (b <= b')%Qc -> (cover_lo c a' b' <= cover_lo c a b)%Qc.
Proof.
  intros Hc Ha Hb. unfold cover_lo. rewrite !half_div.
  assert (H1 : (qz 0 <= (a - a') * (qhalf * (c + qz 1)))%Qc) by (assert (qz 0 <= a - a')%Qc by qlra; assert (qz 0 <= qhalf * (c + qz 1))%Qc by (assert (qz 0 <= qhalf)%Qc by qlra; assert (qz 0 <= c + qz 1)%Qc by qlra; qnra); qnra).
  assert (H2 : (qz 0 <= (b' - b) * (qhalf * (c - qz 1)))%Qc) by (assert (qz 0 <= b' - b)%Qc by qlra; assert (qz 0 <= qhalf * (c - qz 1))%Qc by (assert (qz 0 <= qhalf)%Qc by qlra; assert (qz 0 <= c - qz 1)%Qc by qlra; qnra); qnra).
  assert (E : ((a + b) * qhalf - (b - a) * qhalf * c = ((a' + b') * qhalf - (b' - a') * qhalf * c) + (a - a') * (qhalf * (c + qz 1)) + (b' - b) * (qhalf * (c - qz 1)))%Qc) by (change (qz 1) with 1%Qc; ring).
  rewrite E. revert H1 H2. generalize ((a' + b') * qhalf - (b' - a') * qhalf * c)%Qc, ((a - a') * (qhalf * (c + qz 1)))%Qc, ((b' - b) * (qhalf * (c - qz 1)))%Qc. intros u v w Hv Hw. qlra.
Qed.
Lemma cover_hi_mono c a b a' b' : (qz 1 <= c)%Qc -> (a' <= a)%Qc -> (b <= b')%Qc -> (cover_hi c a b <= cover_hi c a' b')%Qc.
Proof.
  intros Hc Ha Hb. unfold cover_hi. rewrite !half_div.
  assert (H1 : (qz 0 <= (a - a') * (qhalf * (c - qz 1)))%Qc) by (assert (qz 0 <= a - a')%Qc by qlra; assert (qz 0 <= qhalf * (c - qz 1))%Qc by (assert (qz 0 <= qhalf)%Qc by qlra; assert (qz 0 <= c - qz 1)%Qc by qlra; qnra); qnra).
  assert (H2 : (qz 0 <= (b' - b) * (qhalf * (c + qz 1)))%Qc) by (assert (qz 0 <= b' - b)%Qc by qlra; assert (qz 0 <= qhalf * (c + qz 1))%Qc by (assert (qz 0 <= qhalf)%Qc by qlra; assert (qz 0 <= c + qz 1)%Qc by qlra; qnra); qnra).
  assert (E : ((a' + b') * qhalf + (b' - a') * qhalf * c = ((a + b) * qhalf + (b - a) * qhalf * c) + (a - a') * (qhalf * (c - qz 1)) + (b' - b) * (qhalf * (c + qz 1)))%Qc) by (change (qz 1) with 1%Qc; ring).
  rewrite E. revert H1 H2. generalize ((a + b) * qhalf + (b - a) * qhalf * c)%Qc, ((a - a') * (qhalf * (c - qz 1)))%Qc, ((b' - b) * (qhalf * (c + qz 1)))%Qc. intros u v w Hv Hw. qlra.
Qed.

Lemma wider_obj_regs o o' : wider_obj o o' -> exists mn mx, o_layer o' = set_mm (o_layer o) mn mx.
Proof.
  intros [_ [_ [_ [E1 [E2 [E3 [E4 [[mn [mx E]] _]]]]]]]]. exists mn, mx. destruct (o_layer o'), (o_layer o). cbn in *. unfold set_mm. cbn. congruence.
Qed.

Section M.
Variables (pw : Qc -> Qc) (ln2 : Qc).

Lemma rel_wider st0 (V W : nat -> nat -> Qc -> Prop) s s' : (forall i g v, V i g v -> W i g v) -> rel st0 V s -> rel st0 W s' -> wider_store s s'.
Proof.
  intros HVW [L R] [L' R']. split; [congruence|]. intros i o o' Eo Eo'.
  destruct (nth_error st0 i) as [o0|] eqn:E0; [|apply nth_error_None in E0; apply nth_error_lt in Eo; lia].
  destruct (R i o0 E0) as [p [Ep [mn [mx [Em S1]]]]]. destruct (R' i o0 E0) as [p' [Ep' [mn' [mx' [Em' S2]]]]].
  assert (o = obj_mm o0 mn mx) by congruence. assert (o' = obj_mm o0 mn' mx') by congruence. subst o o'. clear p Ep Em p' Ep' Em'.
  repeat (split; [reflexivity|]). cbn [obj_mm with_layer o_layer set_mm l_paq]. apply wider_regs. intros g Hg.
  destruct S1 as [_ [_ [_ [_ S1]]]]. destruct S2 as [_ [_ [_ [_ S2]]]].
  destruct (S1 g Hg) as [[e1 [A1 ->]] [e2 [A2 ->]]]. destruct (S2 g Hg) as [[e1' [A1' ->]] [e2' [A2' ->]]]. split.
  - apply ext_min_mono; [|apply ext_le_refl]. eapply least_sub; [|exact A1|exact A1']. cbn beta. intros v [? ?]. auto.
  - apply ext_max_mono; [|apply ext_le_refl]. eapply greatest_sub; [|exact A2|exact A2']. cbn beta. intros v [? ?]. auto.
Qed.

Lemma feed_wider st m n ds n' ds' b b' rs rs' s s' : Forall obj_ok st -> leaves hgq_layer m -> dataset n ds -> dataset n' ds' -> 0 < b -> 0 < b' ->
  part_of n ds n' ds' -> feed pw ln2 m (batches ds b) st = Ok (rs, s) -> feed pw ln2 m (batches ds' b') st = Ok (rs', s') -> wider_store s s'.
Proof.
  intros Hok Hl Hd Hd' Hb Hb' HP E E'. pose proof (rel_refl st (fun _ _ _ => False) ltac:(auto)) as R.
  pose proof (feed_spec pw ln2 st m n ds b st _ Hok Hl Hd Hb R) as F. rewrite E in F. destruct F as [_ [F _]].
  pose proof (feed_spec pw ln2 st m n' ds' b' st _ Hok Hl Hd' Hb' R) as F'. rewrite E' in F'. destruct F' as [_ [F' _]].
  eapply rel_wider; [|exact F|exact F']. intros i g v [[]|[x [y [H1 [H2 H3]]]]]. right. exists x, y. split; [apply HP, H1|auto].
Qed.

Lemma feed_same st m n ds n' ds' b b' rs s : Forall obj_ok st -> leaves hgq_layer m -> dataset n ds -> dataset n' ds' -> 0 < b -> 0 < b' ->
  same_samples n ds n' ds' -> feed pw ln2 m (batches ds b) st = Ok (rs, s) -> exists rs', feed pw ln2 m (batches ds' b') st = Ok (rs', s).
Proof.
  intros Hok Hl Hd Hd' Hb Hb' [HP HP'] E. pose proof (rel_refl st (fun _ _ _ => False) ltac:(auto)) as R.
  pose proof (feed_spec pw ln2 st m n ds b st _ Hok Hl Hd Hb R) as F. rewrite E in F. destruct F as [A [F _]].
  pose proof (feed_spec pw ln2 st m n' ds' b' st _ Hok Hl Hd' Hb' R) as F'. destruct (feed pw ln2 m (batches ds' b') st) as [[rs' s']|].
  - destruct F' as [_ [F' _]]. exists rs'. f_equal. f_equal. symmetry. eapply (rel_unique pw ln2); [exact Hok| |exact F|exact F'].
    intros i g v. unfold vall. split; (intros [[]|[x [y [H1 H2]]]]; right; exists x, y; split; [|assumption]); [apply HP|apply HP']; assumption.
  - destruct F' as [x [Hx Ex]]. apply HP' in Hx. rewrite Forall_forall in A. destruct (A x Hx) as [r Er]. congruence.
Qed.

Lemma trace_same eb m n ds n' ds' b b' rst c nb st bops rs st' : Forall obj_ok st -> leaves hgq_layer m -> dataset n ds -> dataset n' ds' -> 0 < b -> 0 < b' ->
  same_samples n ds n' ds' -> trace_minmax pw ln2 eb m ds b rst c nb st = Ok (bops, rs, st') ->
  exists rs', trace_minmax pw ln2 eb m ds' b' rst c nb st = Ok (bops, rs', st').
Proof.
  intros Hok Hl Hd Hd' H1 H2 HS E. unfold trace_minmax in *.
  apply rbind_ok in E. destruct E as [st1 [E1 E]]. rewrite E1. cbn [rbind].
  pose proof (start_step m rst st st1 Hok E1) as Hok1.
  rewrite (proj2 (Nat.eqb_neq b 0)) in E by lia. rewrite (proj2 (Nat.eqb_neq b' 0)) by lia.
  apply rbind_ok in E. destruct E as [[rs1 st2] [E2 E]]. cbn [fst snd] in E.
  destruct (feed_same st1 m n ds n' ds' b b' rs1 st2 Hok1 Hl Hd Hd' H1 H2 HS E2) as [rs' F]. rewrite F. cbn [rbind fst snd].
  exists rs'. destruct (cover_step pw ln2 m c st2) as [st3|]; [|discriminate]. cbn [rbind] in *.
  destruct (each fix_obj (top_layers m) st3) as [st4|]; [|discriminate]. cbn [rbind] in *.
  destruct nb.
  - injection E as <- <- <-. reflexivity.
  - destruct (count_bops eb (top_layers m) st4) as [[d st5]|]; [|discriminate]. cbn [rbind fst snd] in *.
    injection E as <- <- <-. reflexivity.
Qed.

(** ** The steps after feeding keep the order *)
Lemma cover_wider c o o' p p' : (qz 1 <= c)%Qc -> obj_ok o -> obj_ok o' -> wider_obj o o' -> cover_obj pw ln2 c o = Ok p -> cover_obj pw ln2 c o' = Ok p' -> wider_obj p p'.
Proof.
  intros Hc O O' HW E E'. destruct (cover_finite pw ln2 c o p E) as [mn [mx [E1 E2]]]. destruct (cover_finite pw ln2 c o' p' E') as [mn' [mx' [E1' E2']]].
  pose proof (cover_value pw ln2 c o mn mx O E1 E2) as V. pose proof (cover_value pw ln2 c o' mn' mx' O' E1' E2') as V'. cbv zeta in V, V'.
  rewrite E in V. rewrite E' in V'. apply (f_equal (fun r => match r with Ok a => a | Raise => p end)) in V. apply (f_equal (fun r => match r with Ok a => a | Raise => p' end)) in V'. cbv beta iota in V, V'. subst p p'.
  destruct HW as [W1 [W2 [W3 [W4 [W5 [W6 [W7 [[a [b Eq]] W8]]]]]]]].
  unfold wider_obj, with_paq, with_layer. cbv zeta. cbn [o_record o_act o_ins o_layer l_op l_relu l_loc l_out l_paq].
  repeat (split; [assumption|]).
  set (q := l_paq (o_layer o)) in *. set (q' := l_paq (o_layer o')) in *.
  assert (WM : forall x y, with_minmax q' x y = with_minmax q x y) by (intros x y; rewrite Eq; reflexivity). rewrite WM. apply wider_regs.
  intros g Hg. cbn [data]. assert (F' : q_fbw q' = q_fbw q) by (rewrite Eq; reflexivity). assert (Hg' : g < ngroups q') by (unfold ngroups; rewrite F'; exact Hg).
  assert (SS : q_strategy q' = q_strategy q) by (rewrite Eq; reflexivity).
  rewrite !reg_vals_nth by assumption. rewrite F', SS.
  destruct (finite_spec _ _ E1) as [_ [L1 V1]]. destruct (finite_spec _ _ E2) as [_ [L2 V2]]. destruct (finite_spec _ _ E1') as [_ [L1' V1']]. destruct (finite_spec _ _ E2') as [_ [L2' V2']].
  destruct (obj_ok_len o O) as [N1 N2]. destruct (obj_ok_len o' O') as [N1' N2']. fold q in N1, N2. fold q' in N1', N2'.
  destruct (W8 g Hg) as [X1 X2].
  rewrite (V1 g (qz 0)), (V1' g (qz 0)) in X1 by (unfold ngroups in *; rewrite ?F' in *; lia). rewrite (V2 g (qz 0)), (V2' g (qz 0)) in X2 by (unfold ngroups in *; rewrite ?F' in *; lia). cbn [ext_le] in *.
  pose proof (nearest_even_ex (nth g (data (q_fbw q)) (qz 0))) as NE. split.
  - eapply quantized_mono; [apply (qval_quantized q _ _ _ NE)|apply (qval_quantized q _ _ _ NE)|]. apply cover_lo_mono; assumption.
  - eapply quantized_mono; [apply (qval_quantized q _ _ _ NE)|apply (qval_quantized q _ _ _ NE)|]. apply cover_hi_mono; assumption.
Qed.

Lemma nth_tmap (f : ext -> ext) t g d : g < length (data t) -> nth g (data (tmap f t)) d = f (nth g (data t) d).
Proof. intros H. cbn [tmap data]. rewrite (nth_indep _ d (f d)) by (rewrite map_length; assumption). apply map_nth. Qed.

Lemma fix_wider o o' p p' : obj_ok o -> obj_ok o' -> wider_obj o o' -> fix_obj o = Ok p -> fix_obj o' = Ok p' -> wider_obj p p'.
Proof.
  intros O O' HW E E'. unfold fix_obj in E, E'. assert (EA : o_act o' = o_act o) by apply HW. rewrite EA in E'.
  destruct (obj_ok_len o O) as [N1 N2]. destruct (obj_ok_len o' O') as [N1' N2'].
  pose proof HW as [W1 [W2 [W3 [W4 [W5 [W6 [W7 [[a [b Eq]] W8]]]]]]]].
  assert (G : forall f h : ext -> ext, (forall x y, ext_le x y -> ext_le (f x) (f y)) -> (forall x y, ext_le x y -> ext_le (h x) (h y)) ->
    wider_obj (with_paq o (with_minmax (l_paq (o_layer o)) (tmap f (q_min (l_paq (o_layer o)))) (tmap h (q_max (l_paq (o_layer o))))))
              (with_paq o' (with_minmax (l_paq (o_layer o')) (tmap f (q_min (l_paq (o_layer o')))) (tmap h (q_max (l_paq (o_layer o'))))))).
  { intros f h Hf Hh. unfold wider_obj, with_paq, with_layer. cbv zeta. cbn [o_record o_act o_ins o_layer l_op l_relu l_loc l_out l_paq].
    repeat (split; [assumption|]).
    set (q := l_paq (o_layer o)) in *. set (q' := l_paq (o_layer o')) in *.
    assert (WM : forall x y, with_minmax q' x y = with_minmax q x y) by (intros x y; rewrite Eq; reflexivity). rewrite WM. apply wider_regs.
    intros g Hg. assert (F' : ngroups q' = ngroups q) by (unfold ngroups; rewrite Eq; reflexivity).
    destruct (W8 g Hg) as [X1 X2]. unfold ngroups in *. rewrite !nth_tmap by lia. split; [apply Hf, X1|apply Hh, X2]. }
  destruct (o_act o); injection E as <-; injection E' as <-; try exact HW; apply G; intros x y Hxy; try (apply ext_le_refl).
  - apply ext_max_mono; [assumption|apply ext_le_refl]. - apply ext_min_mono; [assumption|apply ext_le_refl].
  - apply ext_max_mono; [assumption|apply ext_le_refl]. - apply ext_min_mono; [assumption|apply ext_le_refl].
Qed.

Lemma each_wider f ids s s' t t' : NoDup ids -> (forall o o' p p', obj_ok o -> obj_ok o' -> wider_obj o o' -> f o = Ok p -> f o' = Ok p' -> wider_obj p p') ->
  Forall obj_ok s -> Forall obj_ok s' -> wider_store s s' -> each f ids s = Ok t -> each f ids s' = Ok t' -> wider_store t t'.
Proof.
  intros Hd HF O O' [L W] E E'. destruct (each_spec f ids Hd s t E) as [L1 [A1 B1]]. destruct (each_spec f ids Hd s' t' E') as [L2 [A2 B2]].
  rewrite Forall_nth_error in O, O'. split; [congruence|]. intros i o o' Eo Eo'. destruct (in_dec Nat.eq_dec i ids) as [Hi|Hi].
  - destruct (A1 i Hi) as [p [q [P1 [P2 P3]]]]. destruct (A2 i Hi) as [p' [q' [P1' [P2' P3']]]].
    replace o with q by congruence. replace o' with q' by congruence. apply (HF p p'); eauto.
  - rewrite (B1 i Hi) in Eo. rewrite (B2 i Hi) in Eo'. eauto.
Qed.

Lemma count_wider eb eb' ids s s' t t' d d' : NoDup ids -> wider_store s s' -> count_bops eb ids s = Ok (d, t) -> count_bops eb' ids s' = Ok (d', t') -> wider_store t t'.
Proof.
  intros Hd [L W] E E'. destruct (count_spec eb ids Hd s d t E) as [L1 [A1 [B1 _]]]. destruct (count_spec eb' ids Hd s' d' t' E') as [L2 [A2 [B2 _]]].
  split; [congruence|]. intros i o o' Eo Eo'. destruct (in_dec Nat.eq_dec i ids) as [Hi|Hi].
  - destruct (A1 i Hi) as [p [q [P1 P2]]]. destruct (A2 i Hi) as [p' [q' [P1' P2']]].
    replace o with (mkO (o_layer p) false (o_act p) (o_ins p) q) by congruence. replace o' with (mkO (o_layer p') false (o_act p') (o_ins p') q') by congruence.
    destruct (W i p p' P1 P1') as [W1 [W2 [W3 [W4 [W5 [W6 [W7 W8]]]]]]]. unfold wider_obj. cbn [o_record o_act o_ins o_layer]. auto 10.
  - rewrite (B1 i Hi) in Eo. rewrite (B2 i Hi) in Eo'. eauto.
Qed.

(** The stores just before the bit operations are counted. *)
Definition traced (m : klayer layer) (ds : list batch) (b : nat) (rst : bool) (c : Qc) (st st4 : store) (rs : list (list batch)) : Prop :=
  exists st1 st2 st3, (if rst then each start_obj (top_layers m) st else Ok st) = Ok st1 /\ feed pw ln2 m (batches ds b) st1 = Ok (rs, st2) /\
    cover_step pw ln2 m c st2 = Ok st3 /\ each fix_obj (top_layers m) st3 = Ok st4.

Lemma trace_split eb m ds b rst c nb st bops rs st' : 0 < b -> trace_minmax pw ln2 eb m ds b rst c nb st = Ok (bops, rs, st') ->
  exists st4, traced m ds b rst c st st4 rs /\ if nb then bops = (- qz 1)%Qc /\ st' = st4 else count_bops eb (top_layers m) st4 = Ok (bops, st').
Proof.
  intros Hb E. unfold trace_minmax in E. apply rbind_ok in E. destruct E as [st1 [E1 E]]. rewrite (proj2 (Nat.eqb_neq b 0)) in E by lia.
  apply rbind_ok in E. destruct E as [[rs1 st2] [E2 E]]. cbn [fst snd] in E. apply rbind_ok in E. destruct E as [st3 [E3 E]].
  apply rbind_ok in E. destruct E as [st4 [E4 E]]. exists st4. destruct nb.
  - injection E as <- <- <-. split; [exists st1, st2, st3; auto|auto].
  - apply rbind_ok in E. destruct E as [[d st5] [E5 E]]. cbn [fst snd] in E. injection E as <- <- <-. split; [exists st1, st2, st3; auto|assumption].
Qed.

Lemma traced_wider m n ds n' ds' b b' rst c st s s' rs rs' : Forall obj_ok st -> leaves hgq_layer m -> dataset n ds -> dataset n' ds' -> 0 < b -> 0 < b' ->
  (qz 1 <= c)%Qc -> part_of n ds n' ds' -> traced m ds b rst c st s rs -> traced m ds' b' rst c st s' rs' -> wider_store s s' /\ Forall obj_ok s /\ Forall obj_ok s'.
Proof.
  intros Hok Hl Hd Hd' Hb Hb' Hc HP [s1 [s2 [s3 [E1 [E2 [E3 E4]]]]]] [s1' [s2' [s3' [E1' [E2' [E3' E4']]]]]].
  assert (s1' = s1) by congruence. subst s1'. pose proof (start_step m rst st s1 Hok E1) as Hok1.
  pose proof (feed_wider s1 m n ds n' ds' b b' rs rs' s2 s2' Hok1 Hl Hd Hd' Hb Hb' HP E2 E2') as W2.
  pose proof (feed_ok pw ln2 m n ds b s1 rs s2 Hok1 Hl Hd Hb E2) as O2. pose proof (feed_ok pw ln2 m n' ds' b' s1 rs' s2' Hok1 Hl Hd' Hb' E2') as O2'.
  assert (W3 : wider_store s3 s3' /\ Forall obj_ok s3 /\ Forall obj_ok s3').
  { unfold cover_step in E3, E3'. destruct (qeqb c (qz 1)); [injection E3 as <-; injection E3' as <-; auto|]. destruct (qltb _ _); [|discriminate].
    split; [|split; (eapply each_forall; [apply top_NoDup| |intros o o' A B; apply (cover_ok pw ln2 c o o' A B)|eassumption]); assumption].
    eapply (each_wider (cover_obj pw ln2 c)); [apply top_NoDup| |exact O2|exact O2'|exact W2|exact E3|exact E3']. intros o o' p p'. apply cover_wider, Hc. }
  destruct W3 as [W3 [O3 O3']]. split; [|split; (eapply each_forall; [apply top_NoDup| |intros o o' A B; apply (fix_spec o o' A B)|eassumption]); assumption].
  eapply (each_wider fix_obj); [apply top_NoDup|exact fix_wider|exact O3|exact O3'|exact W3|exact E4|exact E4'].
Qed.

Lemma trace_wider eb m n ds n' ds' b b' rst c nb st bops rs s bops' rs' s' : Forall obj_ok st -> leaves hgq_layer m -> dataset n ds -> dataset n' ds' -> 0 < b -> 0 < b' ->
  (qz 1 <= c)%Qc -> part_of n ds n' ds' -> trace_minmax pw ln2 eb m ds b rst c nb st = Ok (bops, rs, s) -> trace_minmax pw ln2 eb m ds' b' rst c nb st = Ok (bops', rs', s') ->
  wider_store s s'.
Proof.
  intros Hok Hl Hd Hd' Hb Hb' Hc HP E E'. destruct (trace_split eb m ds b rst c nb st bops rs s Hb E) as [s4 [T C]]. destruct (trace_split eb m ds' b' rst c nb st bops' rs' s' Hb' E') as [s4' [T' C']].
  destruct (traced_wider m n ds n' ds' b b' rst c st s4 s4' rs rs' Hok Hl Hd Hd' Hb Hb' Hc HP T T') as [W _]. destruct nb.
  - destruct C as [_ ->], C' as [_ ->]. exact W.
  - eapply count_wider; [apply top_NoDup|exact W|exact C|exact C'].
Qed.
End M.

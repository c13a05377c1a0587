(** Range adjustments after tracing (C38, C39). *)
From Coq Require Import ZArith Qcanon List Bool String Lia.
From Verif Require Import Base.Num Base.NumFacts Base.Tensor Model.FixedPoint Model.Quantizer Model.Layers Model.Graph
  Model.Convert Model.Trace Spec.Fixed Spec.Quant Spec.History Spec.Layer Spec.Trace Proofs.TensorP Proofs.QuantizerP Proofs.RecordP
  Proofs.BitsP Proofs.HistoryP Proofs.CallP Proofs.FixedPointLayerP Proofs.SampleP Proofs.LayersP Proofs.ConvertP Proofs.TraceP Proofs.FeedP Proofs.TraceMinmaxP.
Import ListNotations.
Local Open Scope nat_scope.

(** ** Quantizing a register-shaped tensor *)
Lemma reg_call pw ln2 q m rest t noise : bits_clipped q -> reg_ok (S m) rest (q_fbw q) -> 
  length (data (q_min q)) = prodn rest -> length (data (q_max q)) = prodn rest ->
  reg_ok (S m) rest t ->
  call pw ln2 q t false false noise =
    Ok (mkT (shape t) (map (fun g => qval (q_strategy q) (nth g (data (q_fbw q)) (qz 0)) (nth g (data t) (qz 0))) (seq 0 (prodn rest))), q).
Proof.
  intros Hc [Fs Fl] Lmn Lmx [Ts Tl]. cbn [repeat app] in *.
  set (out := repeat 1 m ++ rest) in *.
  assert (Po : prodn out = prodn rest) by (unfold out; rewrite prodn_app, prodn_ones; lia).
  assert (Bo : bshape out out = Some out) by (clear; induction out as [|a o IH]; cbn; [reflexivity|]; rewrite IH, Nat.eqb_refl; reflexivity).
  assert (Hq : quantizer_shape q out) by (exists out; rewrite Po; auto).
  assert (Et : t = batch_tensor out [data t]).
  { apply tensor_eq; cbn [batch_tensor shape data length concat]; [exact Ts|rewrite app_nil_r; reflexivity]. }
  assert (Br : broadcast_shape (shape t) (shape (q_fbw (clip_fbw q))) = Some (1 :: out)).
  { rewrite clip_id_fbw by assumption. rewrite Ts, Fs. apply broadcast_out, Bo. }
  destruct (forward_ok pw ln2 (clip_fbw q) t false noise _ Br ltac:(discriminate)) as [y [Sy Fy]].
  unfold call. rewrite (Fy false). cbn [negb]. f_equal. rewrite clip_id_fbw by assumption. f_equal.
  specialize (Fy false). cbn [negb] in Fy. rewrite Et in Fy.
  assert (HF : Forall (fun z : sample => length z = prodn out) [data t]) by (repeat constructor; lia).
  pose proof (call_samples pw ln2 q out [data t] false noise _ _ Hq HF Fy) as H. rewrite H.
  apply tensor_eq; cbn [batch_tensor shape data map length concat]; [congruence|]. rewrite app_nil_r, clip_id_fbw by assumption.
  unfold qsample. rewrite Po. apply map_ext_in. intros g Hg. apply in_seq in Hg. f_equal. f_equal.
  unfold group_of. rewrite Fs. cbn [tl]. pose proof (bidx_prefix (repeat 1 m) rest g) as BP. rewrite repeat_length in BP. fold out in BP. rewrite BP by lia.
  apply Nat.mod_small. lia.
Qed.


Lemma grid_le_of_lt r x y : on_grid r x -> on_grid r y -> (x < y + pow2 (- r))%Qc -> (x <= y)%Qc.
Proof.
  intros Hx Hy H. destruct (Qclt_le_dec y x) as [L|L]; [|assumption].
  pose proof (grid_lt_le r y x Hy Hx L). qlra.
Qed.
Lemma half_step r : (pow2 (- r - 1) + pow2 (- r - 1) = pow2 (- r))%Qc.
Proof. replace (- r)%Z with (- r - 1 + 1)%Z at 3 by lia. rewrite pow2_add. change (pow2 1) with (qz 2). change (qz 2) with (qz 1 + qz 1)%Qc. change (qz 1) with 1%Qc. ring. Qed.

Lemma quantized_le q r x y u : quantized q r x y -> on_grid r u -> (x <= u)%Qc -> (y <= u)%Qc.
Proof.
  unfold quantized. pose proof (pow2_pos (- r)). pose proof (pow2_pos (- r - 1)). pose proof (half_step r).
  destruct (Z.eqb _ _); intros [G [A B]] Hu Hx; apply (grid_le_of_lt r); auto; qlra.
Qed.
Lemma quantized_ge q r x y u : quantized q r x y -> on_grid r u -> (u <= x)%Qc -> (u <= y)%Qc.
Proof.
  unfold quantized. pose proof (pow2_pos (- r)). pose proof (pow2_pos (- r - 1)). pose proof (half_step r).
  destruct (Z.eqb _ _); intros [G [A B]] Hu Hx; apply (grid_le_of_lt r); auto; qlra.
Qed.
Lemma quantized_grid q r x y : quantized q r x y -> on_grid r y.
Proof. unfold quantized. destruct (Z.eqb _ _); intros [G _]; exact G. Qed.
Lemma quantized_id q r x y : quantized q r x y -> on_grid r x -> y = x.
Proof. intros H Hx. apply Qcle_antisym; [eapply quantized_le|eapply quantized_ge]; eauto; apply Qcle_refl. Qed.
Lemma qval_quantized q f x r : nearest_even f r -> quantized q r x (qval (q_strategy q) f x).
Proof.
  intros H. apply nearest_even_fun in H. destruct (qval_spec (q_strategy q) f x r H) as [A B]. unfold quantized.
  destruct (Z.eqb_spec (q_strategy q) 3); auto.
Qed.

(** ** cover_factor *)
Lemma finite_spec t t' : finite t = Ok t' -> shape t' = shape t /\ length (data t') = length (data t) /\
  forall g d e, g < length (data t) -> nth g (data t) e = Fin (nth g (data t') d).
Proof.
  unfold finite. intros E. apply rbind_ok in E. destruct E as [l [El E]]. injection E as <-. cbn [shape data].
  apply rseq_ok in El. rewrite map_length in El. destruct El as [L H]. split; [reflexivity|]. split; [assumption|].
  intros g d e Hg. specialize (H g d Hg).
  rewrite (nth_indep _ Raise ((fun e : ext => match e with Fin v => Ok v | _ => Raise end) e)) in H by (rewrite map_length; assumption).
  rewrite (map_nth (fun e : ext => match e with Fin v => Ok v | _ => Raise end)) in H.
  destruct (nth g (data t) e); congruence.
Qed.
Lemma finite_total t e : (forall g, g < length (data t) -> exists v, nth g (data t) e = Fin v) -> exists t', finite t = Ok t'.
Proof.
  intros H. unfold finite. destruct (rseq_total (map (fun e : ext => match e with Fin v => Ok v | _ => Raise end) (data t))) as [l ->].
  - intros x Hx. apply in_map_iff in Hx. destruct Hx as [a [<- Ha]]. apply In_nth with (d := e) in Ha. destruct Ha as [g [Hg <-]].
    destruct (H g Hg) as [v ->]. eauto.
  - cbn [rbind]. eauto.
Qed.

Definition cover_lo (c a b : Qc) : Qc := ((a + b) / qz 2 - (b - a) / qz 2 * c)%Qc.
Definition cover_hi (c a b : Qc) : Qc := ((a + b) / qz 2 + (b - a) / qz 2 * c)%Qc.

Lemma half_div x : (x / qz 2 = x * qhalf)%Qc.
Proof. unfold Qcdiv. f_equal. Qed.
Lemma cover_lo_le c a b : (qz 1 <= c)%Qc -> (a <= b)%Qc -> (cover_lo c a b <= a)%Qc.
Proof.
  intros Hc Hab. unfold cover_lo. rewrite !half_div.
  assert (H : (qz 0 <= (b - a) * qhalf * (c - qz 1))%Qc) by (assert (qz 0 <= b - a)%Qc by qlra; assert (qz 0 <= c - qz 1)%Qc by qlra; assert (qz 0 <= qhalf)%Qc by qlra; qnra).
  assert (E : ((a + b) * qhalf - (b - a) * qhalf * c = a * (qhalf + qhalf) - (b - a) * qhalf * (c - qz 1))%Qc) by (change (qz 1) with 1%Qc; ring).
  rewrite E. replace (qhalf + qhalf)%Qc with (qz 1) by (apply Qc_is_canon; reflexivity). replace (a * qz 1)%Qc with a by (change (qz 1) with 1%Qc; ring).
  generalize dependent ((b - a) * qhalf * (c - qz 1))%Qc. intros w Hw _. qlra.
Qed.
Lemma cover_hi_ge c a b : (qz 1 <= c)%Qc -> (a <= b)%Qc -> (b <= cover_hi c a b)%Qc.
Proof.
  intros Hc Hab. unfold cover_hi. rewrite !half_div.
  assert (H : (qz 0 <= (b - a) * qhalf * (c - qz 1))%Qc) by (assert (qz 0 <= b - a)%Qc by qlra; assert (qz 0 <= c - qz 1)%Qc by qlra; assert (qz 0 <= qhalf)%Qc by qlra; qnra).
  assert (E : ((a + b) * qhalf + (b - a) * qhalf * c = b * (qhalf + qhalf) + (b - a) * qhalf * (c - qz 1))%Qc) by (change (qz 1) with 1%Qc; ring).
  rewrite E. replace (qhalf + qhalf)%Qc with (qz 1) by (apply Qc_is_canon; reflexivity). replace (b * qz 1)%Qc with b by (change (qz 1) with 1%Qc; ring).
  generalize dependent ((b - a) * qhalf * (c - qz 1))%Qc. intros w Hw _. qlra.
Qed.
Lemma cover_lo_1 a b : cover_lo (qz 1) a b = a.
Proof. unfold cover_lo. rewrite !half_div. transitivity (a * (qhalf + qhalf))%Qc; [change (qz 1) with 1%Qc; ring|]. replace (qhalf + qhalf)%Qc with 1%Qc by (apply Qc_is_canon; reflexivity). ring. Qed.
Lemma cover_hi_1 a b : cover_hi (qz 1) a b = b.
Proof. unfold cover_hi. rewrite !half_div. transitivity (b * (qhalf + qhalf))%Qc; [change (qz 1) with 1%Qc; ring|]. replace (qhalf + qhalf)%Qc with 1%Qc by (apply Qc_is_canon; reflexivity). ring. Qed.

Section C.
Variable pw : Qc -> Qc.
Variable ln2 : Qc.

Definition reg_vals (q : hgq) (f : Qc -> Qc -> Qc) (mn mx : tensor Qc) : list ext :=
  map (fun g => Fin (qval (q_strategy q) (nth g (data (q_fbw q)) (qz 0)) (f (nth g (data mn) (qz 0)) (nth g (data mx) (qz 0))))) (seq 0 (ngroups q)).

Lemma cover_value (c : Qc) (o : hobj) mn mx : obj_ok o -> finite (q_min (l_paq (o_layer o))) = Ok mn -> finite (q_max (l_paq (o_layer o))) = Ok mx ->
  let q := l_paq (o_layer o) in
  cover_obj pw ln2 c o = Ok (with_paq o (with_minmax q (mkT (shape (q_min q)) (reg_vals q (cover_lo c) mn mx)) (mkT (shape (q_max q)) (reg_vals q (cover_hi c) mn mx)))).
Proof.
  intros [[Q _] [R [Hc _]]] E1 E2. cbv zeta. unfold cover_obj. cbv zeta. rewrite E1, E2. cbn [rbind].
  set (q := l_paq (o_layer o)) in *. destruct R as [pre [rest [Eo [Sk [F [M X]]]]]].
  destruct (finite_spec _ _ E1) as [S1 [L1 V1]]. destruct (finite_spec _ _ E2) as [S2 [L2 V2]].
  destruct M as [Ms Ml], X as [Xs Xl].
  assert (EN : ngroups q = prodn rest) by apply F.
  set (full := repeat 1 (S (length pre)) ++ rest) in *.
  assert (Pf : prodn full = prodn rest) by (unfold full; rewrite prodn_app, prodn_ones; lia).
  assert (BM : forall f : Qc -> Qc -> Qc, exists y, bmap2 (qz 0) (qz 0) f mn mx = Ok y /\ reg_ok (S (length pre)) rest y /\
     forall g d, g < prodn rest -> nth g (data y) d = f (nth g (data mn) (qz 0)) (nth g (data mx) (qz 0))).
  { intros f. destruct (bmap2_lead (qz 0) (qz 0) f 0 full mn mx (eq_trans S1 Ms) (eq_trans S2 Xs)) as [y [B1 [B2 [B3 B4]]]].
    cbn [repeat app] in B2. exists y. split; [assumption|]. rewrite Pf in *. split; [split; assumption|]. assumption. }
  destruct (BM (fun a b => (a + b) / qz 2 - (b - a) / qz 2 * c)%Qc) as [lo [-> [Rlo Vlo]]]. cbn [rbind].
  destruct (BM (fun a b => (a + b) / qz 2 + (b - a) / qz 2 * c)%Qc) as [hi [-> [Rhi Vhi]]]. cbn [rbind].
  rewrite (reg_call pw ln2 q (length pre) rest lo _ Hc F Ml Xl Rlo). cbn [rbind fst snd].
  unfold assign. cbn [shape]. destruct (list_eq_dec _ _ _) as [_|N]; [|destruct N; destruct Rlo as [-> _]; exact Ms].
  cbn [rbind tmap shape data].
  rewrite (reg_call pw ln2 (with_minmax q _ _) (length pre) rest hi).
  2: exact Hc. 2: exact F. 2: { cbn [with_minmax q_min tmap data]. rewrite !map_length, seq_length. reflexivity. } 2: exact Xl. 2: exact Rhi.
  cbn [rbind fst snd with_minmax q_max shape tmap data q_strategy q_fbw].
  destruct (list_eq_dec _ _ _) as [_|N]; [|destruct N; destruct Rhi as [-> _]; exact Xs].
  cbn [rbind tmap shape data]. f_equal. f_equal. unfold with_minmax. cbn [q_fbw q_skip q_strategy q_exact q_clip].
  destruct Rlo as [Slo _], Rhi as [Shi _]. rewrite Slo, Shi, Ms, Xs. f_equal; unfold tmap; cbn [shape data]; f_equal; unfold reg_vals; rewrite EN, map_map; apply map_ext_in;
    intros g Hg; apply in_seq in Hg; f_equal; f_equal; [apply Vlo|apply Vhi]; lia.
Qed.

Lemma cover_finite c o o' : cover_obj pw ln2 c o = Ok o' -> exists mn mx,
  finite (q_min (l_paq (o_layer o))) = Ok mn /\ finite (q_max (l_paq (o_layer o))) = Ok mx.
Proof.
  unfold cover_obj. cbv zeta. destruct (finite (q_min _)) as [mn|]; [|discriminate]. cbn [rbind].
  destruct (finite (q_max _)) as [mx|]; [|discriminate]. eauto.
Qed.

Lemma reg_vals_nth q f mn mx g e : g < ngroups q -> nth g (reg_vals q f mn mx) e =
  Fin (qval (q_strategy q) (nth g (data (q_fbw q)) (qz 0)) (f (nth g (data mn) (qz 0)) (nth g (data mx) (qz 0)))).
Proof. intros H. unfold reg_vals. rewrite nth_map_seq by assumption. reflexivity. Qed.

Lemma cover_spec c o o' : obj_ok o -> (qz 1 <= c)%Qc -> cover_obj pw ln2 c o = Ok o' ->
  same_but_registers o o' /\ obj_ok o' /\
  forall g r mn mx, g < length (data (q_fbw (l_paq (o_layer o)))) -> frac_bits (l_paq (o_layer o)) g r ->
    holds_range (l_paq (o_layer o)) g mn mx -> on_grid r mn -> on_grid r mx -> (mn <= mx)%Qc ->
    exists mn' mx', holds_range (l_paq (o_layer o')) g mn' mx' /\ on_grid r mn' /\ on_grid r mx' /\ (mn' <= mn)%Qc /\ (mx <= mx')%Qc.
Proof.
  intros Hok Hc E. destruct (cover_finite c o o' E) as [mn [mx [E1 E2]]].
  pose proof (cover_value c o mn mx Hok E1 E2) as E'. cbv zeta in E'. rewrite E in E'. injection E' as ->.
  destruct (finite_spec _ _ E1) as [S1 [L1 V1]]. destruct (finite_spec _ _ E2) as [S2 [L2 V2]].
  destruct (obj_ok_len o Hok) as [N1 N2].
  split; [eexists _, _; reflexivity|]. split.
  { pose proof Hok as [_ [R _]]. destruct R as [pre [rest [_ [_ [[Fs Fl] [[Ms _] [Xs _]]]]]]].
    apply obj_ok_regs; try assumption; try reflexivity; cbn [with_minmax q_min q_max q_fbw shape data]; try congruence;
      unfold reg_vals; rewrite map_length, seq_length; reflexivity. }
  intros g r a b Hg Hr [Ha Hb] Ga Gb Hab.
  replace (l_paq (o_layer (with_paq o (with_minmax (l_paq (o_layer o)) _ _)))) with
    (with_minmax (l_paq (o_layer o)) (mkT (shape (q_min (l_paq (o_layer o)))) (reg_vals (l_paq (o_layer o)) (cover_lo c) mn mx))
      (mkT (shape (q_max (l_paq (o_layer o)))) (reg_vals (l_paq (o_layer o)) (cover_hi c) mn mx))) by reflexivity.
  assert (Ea : nth g (data mn) (qz 0) = a) by (rewrite (V1 g (qz 0)) in Ha by (unfold ngroups in *; lia); congruence).
  assert (Eb : nth g (data mx) (qz 0) = b) by (rewrite (V2 g (qz 0)) in Hb by (unfold ngroups in *; lia); congruence).
  unfold holds_range. cbn [with_minmax q_min q_max data]. rewrite !reg_vals_nth by assumption. rewrite Ea, Eb.
  pose proof (qval_quantized (l_paq (o_layer o)) _ (cover_lo c a b) r Hr) as Q1.
  pose proof (qval_quantized (l_paq (o_layer o)) _ (cover_hi c a b) r Hr) as Q2.
  eexists _, _. split; [split; reflexivity|]. split; [eapply quantized_grid, Q1|]. split; [eapply quantized_grid, Q2|]. split.
  - eapply quantized_le; [exact Q1|assumption|apply cover_lo_le; assumption].
  - eapply quantized_ge; [exact Q2|assumption|apply cover_hi_ge; assumption].
Qed.

Lemma cover_total c o : obj_ok o -> (forall g, g < length (data (q_fbw (l_paq (o_layer o)))) -> exists mn mx, holds_range (l_paq (o_layer o)) g mn mx) ->
  exists o', cover_obj pw ln2 c o = Ok o'.
Proof.
  intros Hok H. destruct (obj_ok_len o Hok) as [N1 N2].
  destruct (finite_total (q_min (l_paq (o_layer o))) PosInf) as [mn E1].
  { intros g Hg. rewrite N1 in Hg. destruct (H g Hg) as [a [b [A _]]]. eauto. }
  destruct (finite_total (q_max (l_paq (o_layer o))) NegInf) as [mx E2].
  { intros g Hg. rewrite N2 in Hg. destruct (H g Hg) as [a [b [_ B]]]. eauto. }
  eexists. apply (cover_value c o mn mx Hok E1 E2).
Qed.

Lemma cover_one o : obj_ok o ->
  (forall g, g < length (data (q_fbw (l_paq (o_layer o)))) -> exists r mn mx, frac_bits (l_paq (o_layer o)) g r /\
     holds_range (l_paq (o_layer o)) g mn mx /\ on_grid r mn /\ on_grid r mx) ->
  cover_obj pw ln2 (qz 1) o = Ok o.
Proof.
  intros Hok H. destruct (obj_ok_len o Hok) as [N1 N2].
  destruct (finite_total (q_min (l_paq (o_layer o))) PosInf) as [mn E1].
  { intros g Hg. rewrite N1 in Hg. destruct (H g Hg) as [r [a [b [_ [[A _] _]]]]]. eauto. }
  destruct (finite_total (q_max (l_paq (o_layer o))) NegInf) as [mx E2].
  { intros g Hg. rewrite N2 in Hg. destruct (H g Hg) as [r [a [b [_ [[_ B] _]]]]]. eauto. }
  rewrite (cover_value (qz 1) o mn mx Hok E1 E2). f_equal.
  transitivity (obj_mm o (q_min (l_paq (o_layer o))) (q_max (l_paq (o_layer o)))); [|apply obj_mm_id].
  unfold obj_mm, set_mm, with_paq. cbv zeta. f_equal. f_equal. f_equal.
  - apply tensor_eq; cbn [shape data]; [reflexivity|]. apply (list_nth_ext PosInf); [unfold reg_vals; rewrite map_length, seq_length; congruence|].
    intros g Hg. unfold reg_vals in Hg. rewrite map_length, seq_length in Hg. rewrite reg_vals_nth by assumption.
    destruct (finite_spec _ _ E1) as [S1 [L1 V1]]. rewrite (V1 g (qz 0)) by lia. f_equal. rewrite cover_lo_1.
    destruct (H g Hg) as [r [a [b [Hr [[Ha Hb] [Ga Gb]]]]]].
    replace (nth g (data mn) (qz 0)) with a by (rewrite (V1 g (qz 0)) in Ha by (unfold ngroups in *; lia); congruence).
    eapply quantized_id; [apply qval_quantized, Hr|assumption].
  - apply tensor_eq; cbn [shape data]; [reflexivity|]. apply (list_nth_ext NegInf); [unfold reg_vals; rewrite map_length, seq_length; congruence|].
    intros g Hg. unfold reg_vals in Hg. rewrite map_length, seq_length in Hg. rewrite reg_vals_nth by assumption.
    destruct (finite_spec _ _ E2) as [S2 [L2 V2]]. rewrite (V2 g (qz 0)) by lia. f_equal. rewrite cover_hi_1.
    destruct (H g Hg) as [r [a [b [Hr [[Ha Hb] [Ga Gb]]]]]].
    replace (nth g (data mx) (qz 0)) with b by (rewrite (V2 g (qz 0)) in Hb by (unfold ngroups in *; lia); congruence).
    eapply quantized_id; [apply qval_quantized, Hr|assumption].
Qed.
End C.

(** ** Bounded activations *)
Lemma grid_z r n : (0 <= r)%Z -> on_grid r (qz n).
Proof.
  intros H. exists (n * 2 ^ r)%Z. rewrite qz_mul, <- pow2_Z by assumption.
  rewrite <- Qcmult_assoc, <- pow2_add. replace (r + - r)%Z with 0%Z by lia. change (pow2 0) with 1%Qc. ring.
Qed.

Lemma ext_max_fin a b : ext_max (Fin a) (Fin b) = Fin (qmax a b).
Proof. unfold ext_max, qmax. cbn. repeat (match goal with |- context [qleb ?x ?y] => destruct (qleb_spec x y) end; cbn); try reflexivity; f_equal; apply Qcle_antisym; qlra. Qed.
Lemma ext_min_fin a b : ext_min (Fin a) (Fin b) = Fin (qmin a b).
Proof. unfold ext_min, qmin. cbn. repeat (match goal with |- context [qleb ?x ?y] => destruct (qleb_spec x y) end; cbn); try reflexivity; f_equal; apply Qcle_antisym; qlra. Qed.

Lemma tmap_nth {A B} (f : A -> B) (t : tensor A) g d d' : g < length (data t) -> nth g (data (tmap f t)) d = f (nth g (data t) d').
Proof. intros H. cbn [tmap data]. rewrite (nth_indep _ d (f d')) by (rewrite map_length; assumption). apply map_nth. Qed.

Lemma fix_spec (o o' : hobj) : obj_ok o -> fix_obj o = Ok o' -> same_but_registers o o' /\ obj_ok o' /\
  forall g mn mx, g < length (data (q_fbw (l_paq (o_layer o)))) -> holds_range (l_paq (o_layer o)) g mn mx ->
    match o_act o with
    | ASoftmax => holds_range (l_paq (o_layer o')) g (qz 0) (qz 1)
    | ASigmoid => holds_range (l_paq (o_layer o')) g (qmax mn (qz 0)) (qmin mx (qz 1))
    | ATanh => holds_range (l_paq (o_layer o')) g (qmax mn (- qz 1)%Qc) (qmin mx (qz 1))
    | ALinear | AOther => holds_range (l_paq (o_layer o')) g mn mx
    end.
Proof.
  intros Hok E. injection E as <-. destruct (obj_ok_len o Hok) as [N1 N2].
  assert (KO : forall f h, obj_ok (with_paq o (with_minmax (l_paq (o_layer o)) (tmap f (q_min (l_paq (o_layer o)))) (tmap h (q_max (l_paq (o_layer o))))))).
  { intros f h. pose proof Hok as [_ [R _]]. destruct R as [pre [rest [_ [_ [[Fs Fl] [[Ms _] [Xs _]]]]]]].
    apply obj_ok_regs; try assumption; try reflexivity; cbn [with_minmax q_min q_max q_fbw tmap shape data]; rewrite ?map_length; unfold ngroups in *; congruence. }
  assert (SB : same_but_registers o o).
  { exists (q_min (l_paq (o_layer o))), (q_max (l_paq (o_layer o))). symmetry. apply obj_mm_id. }
  destruct (o_act o); (split; [first [exact SB|eexists _, _; reflexivity]|]); (split; [first [exact Hok|apply KO]|]); intros g mn mx Hg [A B]; try (split; assumption);
    match goal with |- holds_range (l_paq (o_layer (with_paq o ?q))) _ _ _ => replace (l_paq (o_layer (with_paq o q))) with q by reflexivity end;
    unfold holds_range; cbn [with_minmax q_min q_max];
    rewrite (tmap_nth _ (q_min (l_paq (o_layer o))) g PosInf PosInf), (tmap_nth _ (q_max (l_paq (o_layer o))) g NegInf NegInf) by (unfold ngroups in *; lia);
    rewrite ?A, ?B, ?ext_max_fin, ?ext_min_fin; auto.
Qed.

Lemma attain q r x y lo hi : (0 <= r)%Z -> quantized q r x y -> (qz lo <= x)%Qc -> (x <= qz hi)%Qc -> (qz lo <= y)%Qc /\ (y <= qz hi)%Qc.
Proof. intros Hr Q A B. split; [eapply quantized_ge|eapply quantized_le]; eauto using grid_z. Qed.

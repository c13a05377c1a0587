(** More samples never lower the counted bit operations (C67). *)
From Coq Require Import ZArith Qcanon List Bool String Lia.
From Verif Require Import Base.Num Base.NumFacts Base.Tensor Model.FixedPoint Model.Quantizer Model.Layers Model.Graph
  Model.Convert Model.Trace Model.Bops Spec.Fixed Spec.Quant Spec.History Spec.Layer Spec.Trace Spec.Bops Spec.Calib Proofs.TensorP Proofs.QuantizerP Proofs.RecordP
  Proofs.BitsP Proofs.HistoryP Proofs.CallP Proofs.SampleP Proofs.LayersP Proofs.ConvertP Proofs.TraceP Proofs.FeedP Proofs.TraceMinmaxP Proofs.CoverP
  Proofs.TraceMoreP Proofs.BopsP Proofs.BopsL Proofs.CalibP.
Import ListNotations.
Local Open Scope nat_scope.

Lemma range_bits_nonneg r mn mx b : range_bits r mn mx b -> on_grid r mn -> on_grid r mx -> (mn <= mx)%Qc -> (0 <= b)%Z.
Proof.
  intros [[_ [_ ->]]|[NZ [k [i [-> [-> [A [B _]]]]]]]] G1 G2 L; [lia|].
  destruct (Qclt_le_dec mn (qz 0)) as [N|N].
  - rewrite (proj2 (qltb_true mn (qz 0)) N).
    assert (X : (pow2 (- r) <= - mn)%Qc). { apply (grid_pos_ge r); [|qlra]. destruct G1 as [z ->]. exists (- z)%Z. rewrite qz_opp. ring. }
    assert (Y : (pow2 (- r) <= pow2 i)%Qc) by qlra. apply pow2_le_inv in Y. lia.
  - assert (P : (qz 0 < mx)%Qc). { destruct (Qclt_le_dec (qz 0) mx) as [P|P]; [assumption|]. exfalso. destruct NZ as [Z|Z]; apply Z; apply Qcle_antisym; qlra. }
    pose proof (grid_pos_ge r mx G2 P) as X. assert (Y : (pow2 (- r) < pow2 i)%Qc) by qlra. apply pow2_lt_inv in Y. destruct (qltb mn (qz 0)); lia.
Qed.

Lemma range_bits_mono r mn mx b mn' mx' b' : range_bits r mn mx b -> range_bits r mn' mx' b' -> on_grid r mn -> on_grid r mx -> on_grid r mn' -> on_grid r mx' ->
  (mn <= mx)%Qc -> (mn' <= mn)%Qc -> (mx <= mx')%Qc -> (b <= b')%Z.
Proof.
  intros H H' G1 G2 G1' G2' L L1 L2. assert (L' : (mn' <= mx')%Qc) by qlra. pose proof (range_bits_nonneg r mn' mx' b' H' G1' G2' L') as N'.
  destruct H as [[_ [_ ->]]|[NZ [k [i [-> [-> [A [B M]]]]]]]]; [assumption|].
  destruct H' as [[Z1 [Z2 _]]|[NZ' [k' [i' [-> [-> [A' [B' M']]]]]]]].
  { exfalso. subst mn' mx'. destruct NZ as [Z|Z]; apply Z; apply Qcle_antisym; qlra. }
  assert (K : ((if qltb mn (qz 0) then 1 else 0) <= (if qltb mn' (qz 0) then 1 else 0))%Z).
  { destruct (qltb mn (qz 0)) eqn:E; [|destruct (qltb mn' (qz 0)); lia]. apply qltb_true in E. rewrite (proj2 (qltb_true mn' (qz 0))) by qlra. lia. }
  assert (I : (- r <= i')%Z).
  { destruct (Qclt_le_dec mn' (qz 0)) as [N|N].
    - assert (X : (pow2 (- r) <= - mn')%Qc). { apply (grid_pos_ge r); [|qlra]. destruct G1' as [z ->]. exists (- z)%Z. rewrite qz_opp. ring. }
      assert (Y : (pow2 (- r) <= pow2 i')%Qc) by qlra. apply pow2_le_inv in Y. lia.
    - assert (P : (qz 0 < mx')%Qc). { destruct (Qclt_le_dec (qz 0) mx') as [P|P]; [assumption|]. exfalso. destruct NZ' as [Z|Z]; apply Z; apply Qcle_antisym; qlra. }
      pose proof (grid_pos_ge r mx' G2' P) as X. assert (Y : (pow2 (- r) < pow2 i')%Qc) by qlra. apply pow2_lt_inv in Y. lia. }
  specialize (M i' ltac:(qlra) ltac:(qlra) I). lia.
Qed.
Lemma relu_bits_nonneg r mx b : relu_bits r mx b -> on_grid r mx -> (0 <= b)%Z.
Proof.
  intros [[_ ->]|[P [i [-> [U _]]]]] G; [lia|]. pose proof (grid_pos_ge r mx G P) as X. assert (Y : (pow2 (- r) < pow2 i)%Qc) by qlra. apply pow2_lt_inv in Y. lia.
Qed.
Lemma relu_bits_mono r mx b mx' b' : relu_bits r mx b -> relu_bits r mx' b' -> on_grid r mx' -> (mx <= mx')%Qc -> (b <= b')%Z.
Proof.
  intros H H' G L. pose proof (relu_bits_nonneg r mx' b' H' G) as N. destruct H as [[_ ->]|[P [i [-> [_ M]]]]]; [assumption|].
  destruct H' as [[Z _]|[P' [i' [-> [U' _]]]]]; [exfalso; qlra|]. specialize (M i' ltac:(qlra)). lia.
Qed.
Lemma weight_bits_nonneg w b : weight_bits w b -> (0 <= b)%Z.
Proof.
  intros [[_ ->]|[NZ [i [f [-> [U [_ [G _]]]]]]]]; [lia|].
  assert (P : (qz 0 < qabs w)%Qc). { destruct (qabs_spec w) as [[H ->]|[H ->]]; [|qlra]. destruct (Qclt_le_dec (qz 0) w) as [P|P]; [assumption|]. exfalso. apply NZ. apply Qcle_antisym; qlra. }
  pose proof (grid_pos_ge f (qabs w) (grid_abs f w G) P) as X. assert (Y : (pow2 (- f) < pow2 i)%Qc) by qlra. apply pow2_lt_inv in Y. lia.
Qed.

Lemma width_mono q q' g ra : wider q q' -> calibrated q -> calibrated q' -> g < length (data (q_fbw q)) ->
  (0 <= width (bits_at q ra g))%Z /\ (width (bits_at q ra g) <= width (bits_at q' ra g))%Z.
Proof.
  intros [[a [b Eq]] W] HC HC' Hg. assert (EF : q_fbw q' = q_fbw q) by (rewrite Eq; reflexivity).
  destruct (HC g Hg) as [r [mn [mx [Hr [_ [E1 [E2 [G1 [G2 [L _]]]]]]]]]]. assert (Hg' : g < length (data (q_fbw q'))) by (rewrite EF; exact Hg).
  destruct (HC' g Hg') as [r' [mn' [mx' [Hr' [_ [E1' [E2' [G1' [G2' [L' _]]]]]]]]]].
  destruct (width_range q g HC Hg) as [r0 [m0 [x0 [Hr0 [[F1 F2] [R1 R2]]]]]]. destruct (width_range q' g HC' Hg') as [r0' [m0' [x0' [Hr0' [[F1' F2'] [R1' R2']]]]]].
  unfold frac_bits in *. rewrite EF in Hr', Hr0'. apply nearest_even_fun in Hr, Hr0, Hr', Hr0'. 
  assert (r0 = r /\ r' = r /\ r0' = r) as [-> [-> ->]] by (repeat split; congruence).
  assert (m0 = mn /\ x0 = mx /\ m0' = mn' /\ x0' = mx') as [-> [-> [-> ->]]] by (repeat split; congruence).
  destruct (W g Hg) as [X1 X2]. rewrite E1, E1' in X1. rewrite E2, E2' in X2. cbn [ext_le] in X1, X2.
  destruct ra; split.
  - eapply relu_bits_nonneg; [exact R2|assumption].
  - eapply relu_bits_mono; [exact R2|exact R2'|assumption|assumption].
  - eapply range_bits_nonneg; [exact R1|assumption|assumption|assumption].
  - eapply range_bits_mono; [exact R1|exact R1'|assumption..].
Qed.

Lemma zsum_mono {A} (f g : A -> Z) l : (forall a, In a l -> (f a <= g a)%Z) -> (zsum (map f l) <= zsum (map g l))%Z.
Proof. induction l as [|a l IH]; intros H; cbn [map zsum fold_right]; [lia|]. specialize (H a (or_introl eq_refl)) as Ha. unfold zsum in IH. specialize (IH (fun x Hx => H x (or_intror Hx))). lia. Qed.

Section M.
Variables (pw : Qc -> Qc) (ln2 : Qc).

Lemma layer_bops_mono p p' o o' x x' : wider_obj p p' -> l_op (o_layer o') = l_op (o_layer o) -> quantizer_shape (l_paq (o_layer p)) (l_out (o_layer p)) ->
  quantizer_shape (l_paq (o_layer p')) (l_out (o_layer p')) ->
  calibrated (l_paq (o_layer p)) -> calibrated (l_paq (o_layer p')) -> kernel_in_bounds pw ln2 o ->
  layer_bops pw ln2 (fun a => a) (o_layer p) (o_layer o) = Ok x -> layer_bops pw ln2 (fun a => a) (o_layer p') (o_layer o') = Ok x' -> (x <= x')%Z.
Proof.
  intros HW EO Q Q' HC HC' HK E E'. unfold layer_bops in *. rewrite EO in E'. unfold kernel_in_bounds in HK.
  destruct (l_op (o_layer o)) as [ts kernel kq bias bl|f]; [|assert (x = 0%Z /\ x' = 0%Z) by (split; congruence); lia].
  destruct HK as [w [Fw Bw]]. unfold layer_kernel_bw in *. rewrite Fw in E, E'. cbn [rbind fst] in E, E'.
  destruct (act_bw_exact_at _ Q HC) as [ib [Ei [Li Ni]]]. destruct (act_bw_exact_at _ Q' HC') as [ib' [Ei' [Li' Ni']]].
  rewrite Ei in E. rewrite Ei' in E'. cbn [rbind] in E, E'. assert (Ex : x = zsum (mac_bits ts (data ib) (kernel_bw_exact (fun a => a) (data w)))) by congruence.
  assert (Ex' : x' = zsum (mac_bits ts (data ib') (kernel_bw_exact (fun a => a) (data w)))) by congruence. subst x x'. clear E E'.
  destruct HW as [_ [_ [_ [_ [W2 [_ [W4 W5]]]]]]].
  assert (KB : forall b, (0 <= nth b (kernel_bw_exact (fun a => a) (data w)) 0)%Z).
  { intros b. destruct (nth_error (data w) b) as [v|] eqn:Ev.
    - eapply weight_bits_nonneg, kernel_bits_at; [|exact Ev]. exact Bw.
    - rewrite nth_overflow; [lia|]. apply nth_error_None in Ev. unfold kernel_bw_exact, arr_bits_masked. rewrite map_map, map_length, get_arr_bits_elem. cbv zeta. rewrite map_length. exact Ev. }
  assert (IB : forall a, (nth a (data ib) 0 <= nth a (data ib') 0)%Z).
  { intros a. destruct (le_lt_dec (prodn (l_out (o_layer p))) a) as [Ha|Ha].
    - rewrite !nth_overflow by (rewrite ?Li, ?Li', ?W4; assumption). lia.
    - rewrite Ni, Ni' by (rewrite ?W4; assumption). rewrite W2, W4.
      destruct W5 as [[mn [mx Eq]] W5]. replace (group_of (l_paq (o_layer p')) (l_out (o_layer p)) a) with (group_of (l_paq (o_layer p)) (l_out (o_layer p)) a) by (unfold group_of; rewrite Eq; reflexivity).
      apply width_mono; [split; [exists mn, mx; exact Eq|exact W5]|assumption|assumption|apply group_lt; assumption]. }
  unfold mac_bits. apply zsum_mono. intros ps _. apply zsum_mono. intros ab _. specialize (IB (fst ab)). specialize (KB (snd ab)). nia.
Qed.

Lemma count_mono eb ids : forall s s' d d' t t', 
  (forall u u' i x x', In i ids -> map o_layer u = map o_layer s -> map o_layer u' = map o_layer s' -> eb u i = Ok x -> eb u' i = Ok x' -> (x <= x')%Qc) ->
  count_bops eb ids s = Ok (d, t) -> count_bops eb ids s' = Ok (d', t') -> (d <= d')%Qc.
Proof.
  assert (ML : forall s i o o', nth_error s i = Some o -> o_layer o' = o_layer o -> map o_layer (set_nth s i o') = map o_layer s).
  { induction s as [|a s IH]; intros [|i] o o' E L; cbn [nth_error set_nth map] in *; try discriminate; f_equal; [congruence|]. eapply IH; eassumption. }
  induction ids as [|i ids IH]; intros s s' d d' t t' H E E'; cbn [count_bops] in E, E'.
  - assert (d = qz 0 /\ d' = qz 0) as [-> ->] by (split; congruence). apply Qcle_refl.
  - apply rbind_ok in E. destruct E as [o [Eo E]]. apply get_ok in Eo. apply rbind_ok in E. destruct E as [x [Ex E]]. apply rbind_ok in E. destruct E as [[r u] [Er E]].
    apply rbind_ok in E'. destruct E' as [o' [Eo' E']]. apply get_ok in Eo'. apply rbind_ok in E'. destruct E' as [x' [Ex' E']]. apply rbind_ok in E'. destruct E' as [[r' u'] [Er' E']].
    cbn [fst snd] in E, E'. assert (d = x + r /\ d' = x' + r')%Qc as [-> ->] by (split; congruence).
    assert (S1 : map o_layer (set_nth s i (with_record o false)) = map o_layer s) by (eapply ML; [exact Eo|reflexivity]).
    assert (S1' : map o_layer (set_nth s' i (with_record o' false)) = map o_layer s') by (eapply ML; [exact Eo'|reflexivity]).
    assert (Hx : (x <= x')%Qc) by (eapply H; [left; reflexivity|exact S1|exact S1'|exact Ex|exact Ex']).
    assert (Hr : (r <= r')%Qc).
    { assert (N1 : nth_error (set_nth s i (with_record o false)) i = Some (with_record o false)) by (rewrite set_nth_error, Nat.eqb_refl, (proj2 (Nat.ltb_lt _ _) (nth_error_lt _ _ _ Eo)); reflexivity).
      assert (N1' : nth_error (set_nth s' i (with_record o' false)) i = Some (with_record o' false)) by (rewrite set_nth_error, Nat.eqb_refl, (proj2 (Nat.ltb_lt _ _) (nth_error_lt _ _ _ Eo')); reflexivity).
      eapply IH; [|exact Er|exact Er']. intros v v' j y y' Hj Hv Hv' Ey Ey'. eapply H; [right; exact Hj| | |exact Ey|exact Ey'].
      - rewrite Hv. transitivity (map o_layer (set_nth s i (with_record o false))); [|exact S1]. eapply ML; [exact N1|reflexivity].
      - rewrite Hv'. transitivity (map o_layer (set_nth s' i (with_record o' false))); [|exact S1']. eapply ML; [exact N1'|reflexivity]. }
    qlra.
Qed.

Lemma map_layer_nth u s i o : map o_layer u = map o_layer s -> nth_error u i = Some o -> exists o1, nth_error s i = Some o1 /\ o_layer o1 = o_layer o.
Proof.
  intros H E. pose proof (map_nth_error o_layer i u E) as X. rewrite H in X. rewrite nth_error_map in X. destruct (nth_error s i) as [o1|]; [|discriminate]. exists o1. cbn in X. split; congruence.
Qed.

Lemma wider_layers o o' p p' : o_layer p = o_layer o -> o_layer p' = o_layer o' -> wider_obj o o' ->
  wider_obj (mkO (o_layer p) false AOther [] (qz 0)) (mkO (o_layer p') false AOther [] (qz 0)).
Proof. intros E E' [_ [_ [_ H]]]. unfold wider_obj. cbn [o_record o_act o_ins o_layer]. rewrite E, E'. auto. Qed.

Lemma exact_count_mono pred conv m s s' d d' t t' : wider_store s s' -> Forall obj_ok s -> Forall obj_ok s' ->
  (forall i pf sh, conv i = Some (pf, sh) -> (0 <= pf)%Z) ->
  (forall i o, In i (top_layers m) -> nth_error s i = Some o -> kernel_in_bounds pw ln2 o) ->
  (forall p o, reads pred m p -> nth_error s p = Some o -> calibrated (l_paq (o_layer o))) ->
  (forall p o, reads pred m p -> nth_error s' p = Some o -> calibrated (l_paq (o_layer o))) ->
  count_bops (exact_bops pw ln2 (fun a => a) pred conv) (top_layers m) s = Ok (d, t) ->
  count_bops (exact_bops pw ln2 (fun a => a) pred conv) (top_layers m) s' = Ok (d', t') -> (d <= d')%Qc.
Proof.
  intros [L W] O O' HP HK HC HC'. apply count_mono. intros u u' i x x' Hi Hu Hu' Ex Ex'. rewrite Forall_nth_error in O, O'.
  unfold exact_bops in Ex, Ex'. apply rbind_ok in Ex. destruct Ex as [o [Eo Ex]]. apply get_ok in Eo. apply rbind_ok in Ex'. destruct Ex' as [o' [Eo' Ex']]. apply get_ok in Eo'.
  destruct (map_layer_nth u s i o Hu Eo) as [o1 [A1 A2]]. destruct (map_layer_nth u' s' i o' Hu' Eo') as [o1' [A1' A2']].
  pose proof (W i o1 o1' A1 A1') as Wi. assert (EO : l_op (o_layer o') = l_op (o_layer o)) by (rewrite <- A2, <- A2'; apply Wi).
  pose proof (HK i o1 Hi A1) as K1. assert (K : kernel_in_bounds pw ln2 o) by (unfold kernel_in_bounds in *; rewrite <- A2; exact K1).
  rewrite EO in Ex'. destruct (l_op (o_layer o)) as [ts kernel kq bias bl|f] eqn:EOp; [|assert (x = qz 0 /\ x' = qz 0) as [-> ->] by (split; congruence); apply Qcle_refl].
  destruct (pred i) as [p|] eqn:Ep; [|discriminate].
  apply rbind_ok in Ex. destruct Ex as [q [Eq Ex]]. apply get_ok in Eq. apply rbind_ok in Ex'. destruct Ex' as [q' [Eq' Ex']]. apply get_ok in Eq'.
  apply rbind_ok in Ex. destruct Ex as [b [Eb Ex]]. apply rbind_ok in Ex'. destruct Ex' as [b' [Eb' Ex']].
  destruct (map_layer_nth u s p q Hu Eq) as [q1 [B1 B2]]. destruct (map_layer_nth u' s' p q' Hu' Eq') as [q1' [B1' B2']].
  assert (RD : reads pred m p) by (exists i; auto).
  assert (Hb : (b <= b')%Z).
  { apply (layer_bops_mono (mkO (o_layer q) false AOther [] (qz 0)) (mkO (o_layer q') false AOther [] (qz 0)) o o').
    - apply (wider_layers q1 q1'); [congruence|congruence|]. apply (W p); assumption.
    - congruence.
    - cbn [o_layer]. rewrite <- B2. apply (O p q1 B1).
    - cbn [o_layer]. rewrite <- B2'. apply (O' p q1' B1').
    - cbn [o_layer]. rewrite <- B2. apply (HC p q1 RD B1).
    - cbn [o_layer]. rewrite <- B2'. apply (HC' p q1' RD B1').
    - exact K.
    - exact Eb.
    - exact Eb'. }
  destruct (conv i) as [[pf sh]|] eqn:Ec.
  - pose proof (HP i pf sh Ec) as Hpf. assert (x = qz (b * pf) / qz (Z.of_nat (total_channels sh)) /\ x' = qz (b' * pf) / qz (Z.of_nat (total_channels sh)))%Qc as [-> ->] by (split; congruence).
    assert (Y : (qz (b * pf) <= qz (b' * pf))%Qc) by (apply qz_le; nia). unfold Qcdiv. apply qmul_le_r; [|exact Y].
    destruct (total_channels sh) as [|c]; [vm_compute; discriminate|]. 
    assert (P : (qz 0 < qz (Z.of_nat (S c)))%Qc) by (apply qz_lt; lia). revert P. generalize (qz (Z.of_nat (S c))). intros w P.
    destruct (Qclt_le_dec (/ w) (qz 0)) as [N|N]; [|assumption]. exfalso. assert (I : (/ w * w)%Qc = qz 1) by (change (qz 1) with 1%Qc; apply Qcmult_inv_l; intros ->; discriminate P).
    assert (C : (/ w * w < qz 0 * w)%Qc) by (apply qmul_lt_r; assumption). rewrite I in C. replace (qz 0 * w)%Qc with (qz 0) in C by (change (qz 0) with 0%Qc; ring). discriminate C.
  - assert (x = qz b /\ x' = qz b') as [-> ->] by (split; congruence). apply qz_le. assumption.
Qed.

Lemma trace_bops_mono pred conv m n ds n' ds' b b' rst c st bops rs s bops' rs' s' : Forall obj_ok st -> leaves hgq_layer m -> dataset n ds -> dataset n' ds' -> 0 < b -> 0 < b' ->
  (qz 1 <= c)%Qc -> part_of n ds n' ds' ->
  (forall i pf sh, conv i = Some (pf, sh) -> (0 <= pf)%Z) ->
  (forall i o, In i (top_layers m) -> nth_error s i = Some o -> kernel_in_bounds pw ln2 o) ->
  (forall p o, reads pred m p -> nth_error s p = Some o -> calibrated (l_paq (o_layer o))) ->
  (forall p o, reads pred m p -> nth_error s' p = Some o -> calibrated (l_paq (o_layer o))) ->
  trace_minmax pw ln2 (exact_bops pw ln2 (fun a => a) pred conv) m ds b rst c false st = Ok (bops, rs, s) ->
  trace_minmax pw ln2 (exact_bops pw ln2 (fun a => a) pred conv) m ds' b' rst c false st = Ok (bops', rs', s') -> (bops <= bops')%Qc.
Proof.
  intros Hok Hl Hd Hd' Hb Hb' Hc HP Hpf HK HC HC' E E'.
  destruct (trace_split pw ln2 _ m ds b rst c false st bops rs s Hb E) as [s4 [T C]]. destruct (trace_split pw ln2 _ m ds' b' rst c false st bops' rs' s' Hb' E') as [s4' [T' C']].
  destruct (traced_wider pw ln2 m n ds n' ds' b b' rst c st s4 s4' rs rs' Hok Hl Hd Hd' Hb Hb' Hc HP T T') as [W [O O']].
  assert (SL : forall eb ids a d a', NoDup ids -> count_bops eb ids a = Ok (d, a') -> map o_layer a' = map o_layer a).
  { intros eb ids a d a' ND Ea. destruct (count_spec eb ids ND a d a' Ea) as [La [A [B _]]]. apply nth_error_ext; [rewrite !map_length; assumption|].
    intros i x y. rewrite !nth_error_map. destruct (in_dec Nat.eq_dec i ids) as [Hi|Hi].
    - destruct (A i Hi) as [o [e [-> ->]]]. cbn. congruence.
    - rewrite (B i Hi). congruence. }
  pose proof (SL _ _ _ _ _ (top_NoDup m) C) as S1. pose proof (SL _ _ _ _ _ (top_NoDup m) C') as S1'. symmetry in S1, S1'.
  eapply (exact_count_mono pred conv m s4 s4'); [exact W|exact O|exact O'|exact Hpf| | | |exact C|exact C'].
  - intros i o Hi Ho. destruct (map_layer_nth s4 s i o S1 Ho) as [o1 [A1 A2]]. pose proof (HK i o1 Hi A1) as K. unfold kernel_in_bounds in *. rewrite <- A2. exact K.
  - intros p o Hp Ho. destruct (map_layer_nth s4 s p o S1 Ho) as [o1 [A1 A2]]. rewrite <- A2. apply (HC p o1 Hp A1).
  - intros p o Hp Ho. destruct (map_layer_nth s4' s' p o S1' Ho) as [o1 [A1 A2]]. rewrite <- A2. apply (HC' p o1 Hp A1).
Qed.
End M.

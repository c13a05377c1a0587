(** Soundness of the derived precisions. *)
From Coq Require Import ZArith Qcanon List Bool String Lia.
From Verif Require Import Base.Num Base.NumFacts Base.Tensor Model.FixedPoint Model.Precision Spec.Fixed Spec.Precision Proofs.FixedPointP Proofs.FixedPointLayerP Proofs.ContainerP Proofs.FitsP.
Import ListNotations.
Open Scope Z_scope.

(** ** The derivation only ever shrinks quantizers *)

Definition cfg_le (c d : qcfg) : Prop := kn c <= kn d /\ bits c <= bits d /\ ints c <= ints d.
Definition q_le (p q : fpq unit) : Prop :=
  shape (cfgs p) = shape (cfgs q) /\ rnd_name p = rnd_name q /\ sat_name p = sat_name q /\ overrides p = overrides q /\
  Forall2 cfg_le (data (cfgs p)) (data (cfgs q)).
Definition store_le (s t : pst) : Prop := Forall2 q_le s t.

Lemma cfg_le_refl c : cfg_le c c.
Proof. unfold cfg_le. lia. Qed.
Lemma cfg_le_trans a b c : cfg_le a b -> cfg_le b c -> cfg_le a c.
Proof. unfold cfg_le. lia. Qed.
Lemma cfg_le_antisym a b : cfg_le a b -> cfg_le b a -> a = b.
Proof. unfold cfg_le. destruct a, b; cbn. intros. f_equal; lia. Qed.
Lemma F2_refl {A} (R : A -> A -> Prop) l : (forall a, R a a) -> Forall2 R l l.
Proof. intros H. induction l; constructor; auto. Qed.
Lemma F2_trans {A} (R : A -> A -> Prop) l m n : (forall a b c, R a b -> R b c -> R a c) -> Forall2 R l m -> Forall2 R m n -> Forall2 R l n.
Proof. intros H A1. revert n. induction A1; intros n A2; inversion A2; subst; constructor; eauto. Qed.
Lemma F2_antisym {A} (R : A -> A -> Prop) l m : (forall a b, R a b -> R b a -> a = b) -> Forall2 R l m -> Forall2 R m l -> l = m.
Proof. intros H A1. induction A1; intros A2; inversion A2; subst; f_equal; eauto. Qed.
Lemma q_le_refl q : q_le q q.
Proof. unfold q_le. do 4 (split; [reflexivity|]). apply F2_refl, cfg_le_refl. Qed.
Lemma q_le_trans a b c : q_le a b -> q_le b c -> q_le a c.
Proof. unfold q_le. intros (A1 & A2 & A3 & A4 & A5) (B1 & B2 & B3 & B4 & B5). do 4 (split; [congruence|]). eapply F2_trans; eauto using cfg_le_trans. Qed.
Lemma q_le_antisym a b : q_le a b -> q_le b a -> a = b.
Proof.
  unfold q_le. intros (A1 & A2 & A3 & A4 & A5) (_ & _ & _ & _ & B5). pose proof (F2_antisym _ _ _ cfg_le_antisym A5 B5) as E.
  destruct a as [[sa da] ra ta oa], b as [[sb db] rb tb ob]; cbn in *. congruence.
Qed.
Lemma store_le_refl s : store_le s s.
Proof. apply F2_refl, q_le_refl. Qed.
Lemma store_le_trans a b c : store_le a b -> store_le b c -> store_le a c.
Proof. apply F2_trans, q_le_trans. Qed.
Lemma store_le_antisym a b : store_le a b -> store_le b a -> a = b.
Proof. apply F2_antisym, q_le_antisym. Qed.

Lemma reduce_le t q : q_le (reduce_fpq t q) q.
Proof.
  unfold q_le, reduce_fpq. cbn. do 4 (split; [reflexivity|]). destruct t as [[k i] f].
  induction (data (cfgs q)) as [|c l IH]; cbn; constructor; [|exact IH]. unfold cfg_le, reduce_elem. cbn. lia.
Qed.
Lemma fpq_produced_le t q : q_le (snd (fpq_produced t q)) q.
Proof.
  unfold fpq_produced. destruct t as [[ik ii] jf]. destruct (result_t_kif q) as [[ok oi] of]. cbn [snd].
  cbv zeta. cbn [snd]. match goal with |- q_le (if ?b then _ else _) _ => destruct b end; auto using reduce_le, q_le_refl.
Qed.
Lemma upd_le s q o o' : nth_error s q = Some o -> q_le o' o -> store_le (upd s q o') s.
Proof.
  revert q. induction s as [|a s IH]; intros [|q] H L; cbn in *; try discriminate.
  - injection H as ->. constructor; [exact L|apply store_le_refl].
  - constructor; [apply q_le_refl|eapply IH; eauto].
Qed.
Lemma upd_same {A} (s : list A) q o o' : nth_error s q = Some o -> upd s q o' = s -> o' = o.
Proof.
  revert q. induction s as [|a s IH]; intros [|q] H E; cbn in *; try discriminate; injection E as E.
  - congruence.
  - eauto.
Qed.

(** ** Unfolding one step *)

Definition step (kd : pkind) (r : result (list kif * pst)) (s : pst) : result (kif * pst) :=
  let one (g : kif -> pst -> result (kif * pst)) := rbind r (fun r => match fst r with [t] => g t (snd r) | _ => Raise end) in
  match kd with
  | NInput => Ok ((1, 65535, 65535), s)
  | NFpq q =>
    one (fun t s => match nth_error s q with
                    | None => Raise
                    | Some o => let '(r, o') := fpq_produced t o in Ok (r, upd s q o')
                    end)
  | NAct ASoftmax _ | NActL true _ => one (fun _ s => Ok ((0, 1, 65535), s))
  | NAct _ func | NActL false func => one (fun t s => rbind (activation_kif_forward func t) (fun r => Ok (r, s)))
  | NAvg pool => one (fun t s => let '(k, i, f) := t in Ok ((k, i, f + clog2 (qz (fold_left Z.mul pool 1))), s))
  | NAdd | NSub =>
    rbind r (fun r => rbind (kifs_max (fst r)) (fun t =>
      let '(k, i, f) := t in Ok ((k, i + clog2 (qz (Z.of_nat (List.length (fst r)))), f), snd r)))
  | NDot =>
    rbind r (fun r =>
      match fst r with
      | [(k1, i1, f1); (k2, i2, f2)] => Ok ((Z.max k1 k2, i1 + i2, f1 + f2), snd r)
      | _ => Raise
      end)
  | NConcat => rbind r (fun r => rbind (kifs_max (fst r)) (fun t => Ok (t, snd r)))
  | NKernel kernel div bias => one (fun t s => Ok (kernel_produced t kernel div bias, s))
  | NReshape | NSelect => one (fun t s => Ok (t, s))
  | NLut t => Ok (t, s)
  | NUnknown => Ok ((1, 65535, 65535), s)
  end.

Lemma produced_S fuel net n s : produced (S fuel) net n s =
  match nth_error net n with None => Raise | Some (kd, ps) => step kd (input_kifs fuel net ps s) s end.
Proof.
  cbn [produced]. destruct (nth_error net n) as [[kd ps]|]; [|reflexivity].
  match goal with |- context [?F ps s] => is_fix F; set (g := F) end.
  assert (E : forall ps s, g ps s = input_kifs fuel net ps s).
  { clear. induction ps as [|p ps IH]; intros s; [reflexivity|].
    change (g (p :: ps) s) with (rbind (produced fuel net p s) (fun r => rbind (g ps (snd r)) (fun r' => Ok (fst r :: fst r', snd r')))).
    cbn [input_kifs]. destruct (produced fuel net p s) as [r|]; [|reflexivity]. cbn [rbind]. rewrite IH. reflexivity. }
  clearbody g. unfold step. rewrite <- E. reflexivity.
Qed.

Lemma okpair {A B} (a a' : A) (b b' : B) : Ok (a, b) = Ok (a', b') -> a = a' /\ b = b'.
Proof. intros H. split; congruence. Qed.

(** What a step's result says about its inputs' final state. *)
Lemma step_inv kd r s t s' : step kd r s = Ok (t, s') ->
  match kd with NInput | NUnknown | NLut _ => s' = s | _ => exists ts s1, r = Ok (ts, s1) /\ store_le s' s1 end.
Proof.
  unfold step. destruct kd as [|q|a fn|sm fn|pool| | | | |kernel div bias| | |o|]; intros H;
    try (apply okpair in H as [_ H]; congruence);
    try (destruct a); try (destruct sm); destruct r as [[ts s1]|]; cbn [rbind fst snd] in H; try discriminate;
    exists ts, s1; (split; [reflexivity|]);
    repeat match type of H with
    | context [match ?x with _ => _ end] => is_var x; destruct x; cbn [rbind fst snd] in H; try discriminate
    | context [rbind ?x _] => destruct x as [?|]; cbn [rbind fst snd] in H; try discriminate
    end;
    try (apply okpair in H as [_ <-]; apply store_le_refl).
  destruct (nth_error s1 q) as [o|] eqn:E; [|discriminate]. pose proof (fpq_produced_le k o) as L.
  destruct (fpq_produced k o) as [r o']. apply okpair in H as [_ <-]. eapply upd_le; eauto.
Qed.

Lemma input_kifs_le fuel net : (forall n s t s', produced fuel net n s = Ok (t, s') -> store_le s' s) ->
  forall ps s ts s', input_kifs fuel net ps s = Ok (ts, s') -> store_le s' s.
Proof.
  intros IH. induction ps as [|p ps IHp]; intros s ts s' H; cbn [input_kifs] in H.
  - apply okpair in H as [_ <-]. apply store_le_refl.
  - destruct (produced fuel net p s) as [[t1 s1]|] eqn:E1; cbn [rbind fst snd] in H; [|discriminate].
    destruct (input_kifs fuel net ps s1) as [[t2 s2]|] eqn:E2; cbn [rbind fst snd] in H; [|discriminate].
    apply okpair in H as [_ <-]. eapply store_le_trans; [eapply IHp|eapply IH]; eauto.
Qed.
Lemma produced_le fuel net : forall n s t s', produced fuel net n s = Ok (t, s') -> store_le s' s.
Proof.
  induction fuel as [|fuel IH]; intros n s t s' H; [discriminate|]. rewrite produced_S in H.
  destruct (nth_error net n) as [[kd ps]|]; [|discriminate]. pose proof (step_inv _ _ _ _ _ H) as I.
  destruct kd; try (subst; apply store_le_refl); destruct I as [ts [s1 [E L]]];
    (eapply store_le_trans; [exact L|]; eapply input_kifs_le; eauto).
Qed.

(** At a fixed point all inputs are at the fixed point. *)
Lemma input_kifs_fix fuel net ps s ts : input_kifs fuel net ps s = Ok (ts, s) ->
  Forall2 (fun p t => produced fuel net p s = Ok (t, s)) ps ts.
Proof.
  revert ts. induction ps as [|p ps IHp]; intros ts H; cbn [input_kifs] in H.
  - apply okpair in H as [<- _]. constructor.
  - destruct (produced fuel net p s) as [[t1 s1]|] eqn:E1; cbn [rbind fst snd] in H; [|discriminate].
    destruct (input_kifs fuel net ps s1) as [[t2 s2]|] eqn:E2; cbn [rbind fst snd] in H; [|discriminate].
    apply okpair in H as [<- H2]. subst s2.
    pose proof (produced_le _ _ _ _ _ _ E1) as L1. pose proof (input_kifs_le _ _ (produced_le fuel net) _ _ _ _ E2) as L2.
    pose proof (store_le_antisym _ _ L2 L1) as <-. constructor; auto.
Qed.
Lemma step_fix kd fuel net ps s t : step kd (input_kifs fuel net ps s) s = Ok (t, s) ->
  match kd with NInput | NUnknown | NLut _ => True | _ => exists ts, input_kifs fuel net ps s = Ok (ts, s) end.
Proof.
  intros H. pose proof (step_inv _ _ _ _ _ H) as I. destruct kd; try exact Logic.I; destruct I as [ts [s1 [E L]]];
  exists ts; rewrite E; do 2 f_equal; apply store_le_antisym; auto; eapply input_kifs_le; eauto using produced_le.
Qed.

(** ** Quantizers *)

Lemma WRAP_grid x k b i R y f : (k = 0 \/ k = 1) -> k <= b -> on_grid f x -> f < b - i -> gfixed_quantizer x k b i R "WRAP" = Ok y -> on_grid f y.
Proof.
  intros Hk Hb [m ->] Hf H. destruct (Z.eq_dec b 0) as [->|N].
  - apply gfixed_some in H as [? [? [_ [_ ->]]]]. rewrite gfixed_elem_z. apply grid_0.
  - apply gfixed_some in H as [rnd [sat [HR [HS ->]]]]. rewrite gfixed_elem_nz by assumption.
    assert (E : (qz m * pow2 (- f) * pow2 (b - i))%Qc = qz (m * 2 ^ (b - i - f))).
    { rewrite qz_mul, <- pow2_Z by lia. rewrite <- Qcmult_assoc, <- pow2_add. f_equal. f_equal. lia. }
    rewrite E, (rnd_qz _ _ _ HR). injection HS as <-. rewrite WRAP_qz by assumption.
    set (v := m * 2 ^ (b - i - f)). pose proof (hi_lo k b Hk Hb) as HL.
    assert (PB : 0 < 2 ^ b) by (apply Z.pow_pos_nonneg; lia).
    pose proof (Z.mod_pos_bound (v - lo k b) (2 ^ b) PB) as MB. pose proof (Z.div_mod (v - lo k b) (2 ^ b) ltac:(lia)) as DM.
    set (c := (v - lo k b) mod 2 ^ b + lo k b) in *. set (d := (v - lo k b) / 2 ^ b) in *.
    assert (Ec : c = v - d * 2 ^ b) by (subst c; lia).
    destruct (Z_le_dec (- f) i) as [L|L].
    + assert (Eb : 2 ^ b = 2 ^ (b - i - f) * 2 ^ (i + f)) by (rewrite <- Z.pow_add_r by lia; f_equal; lia).
      exists (m - d * 2 ^ (i + f)). rewrite Ec, Eb. unfold v.
      replace (m * 2 ^ (b - i - f) - d * (2 ^ (b - i - f) * 2 ^ (i + f))) with ((m - d * 2 ^ (i + f)) * 2 ^ (b - i - f)) by ring.
      rewrite qz_mul, <- pow2_Z by lia. rewrite <- Qcmult_assoc, <- pow2_add. f_equal. f_equal. lia.
    + assert (Ev : v = m * 2 ^ (- i - f) * 2 ^ b) by (unfold v; rewrite <- Z.mul_assoc, <- Z.pow_add_r by lia; f_equal; f_equal; lia).
      assert (C0 : c = 0).
      { set (a := m * 2 ^ (- i - f) - d). assert (Ea : c = a * 2 ^ b) by (subst a; rewrite Ec, Ev; ring).
        assert (LO : lo k b <= 0 <= hi k b) by (apply code_iff; auto; apply code_zero; auto).
        assert (R1 : lo k b <= c <= hi k b) by (subst c; lia). clearbody a. rewrite Ea in *. assert (a = 0); [|subst; lia].
        destruct (Z.eq_dec a 0); [assumption|]. exfalso. assert (a <= -1 \/ 1 <= a) as [A|A] by lia; nia. }
      rewrite C0, mul0. apply grid_0.
Qed.

Lemma legal_fmt_safe c : legal_fmt c -> i8_safe c.
Proof. unfold legal_fmt, i8_safe. intros (_ & _ & A & B). lia. Qed.

Lemma reduce_same t q : reduce_fpq t q = q -> forall c, In c (data (cfgs q)) -> reduce_elem t c = c.
Proof.
  intros H. assert (E : map (reduce_elem t) (data (cfgs q)) = data (cfgs q)) by (apply (f_equal (fun q => data (cfgs q))) in H; exact H).
  clear H. induction (data (cfgs q)) as [|a l IH]; [contradiction|]. cbn in E. injection E as E1 E2. intros c [<-|Hc]; auto.
Qed.

Lemma result_t_kif_one (q : fpq unit) c : data (cfgs q) <> [] -> Forall legal_fmt (data (cfgs q)) -> Forall (fun d => d = c) (data (cfgs q)) ->
  result_t_kif q = (kn c, ints c - kn c, bits c - ints c) /\ legal_fmt c.
Proof.
  intros NE L H. destruct (data (cfgs q)) as [|d l] eqn:E; [congruence|].
  assert (Hd : d = c) by (inversion H; assumption). subst d. assert (Lc : legal_fmt c) by (inversion L; assumption). split; [|exact Lc].
  assert (A : forall g : qcfg -> Z, zmax_list (map g (c :: l)) = g c).
  { intros g. cbn. inversion H as [|? ? _ H']; subst. clear -H'. induction H' as [|d l E H IH]; [reflexivity|]. subst d. cbn. rewrite Z.max_id. exact IH. }
  unfold result_t_kif. rewrite E, !A. destruct (legal_fmt_safe c Lc) as [S1 S2]. rewrite !i8_id by assumption. reflexivity.
Qed.
Lemma result_t_kif_sign (q : fpq unit) k : data (cfgs q) <> [] -> Forall (fun d => kn d = k) (data (cfgs q)) -> fst (fst (result_t_kif q)) = k.
Proof.
  intros NE H. unfold result_t_kif. cbn [fst]. destruct (data (cfgs q)) as [|d l]; [congruence|]. inversion H as [|? ? E H']; subst. cbn. clear -H'.
  induction H' as [|e l E H IH]; [reflexivity|]. cbn. rewrite E, Z.max_id. exact IH.
Qed.

Lemma fpq_sound input o r c x y : fpq_produced input o = (r, o) -> ((exists c, uniform o c) \/ (exists k, wrapping o k)) ->
  (fst (fst input) = 0 \/ fst (fst input) = 1) ->
  In c (data (cfgs o)) -> fits (fst (fst input)) (snd (fst input)) (snd input) x ->
  gfixed_quantizer x (kn c) (bits c) (ints c) (rnd_name o) (sat_name o) = Ok y ->
  (fst (fst r) = 0 \/ fst (fst r) = 1) /\ fits (fst (fst r)) (snd (fst r)) (snd r) y.
Proof.
  intros HP HU Hik Hc Hx HQ. destruct input as [[ik ii] jf]. cbn [fst snd] in Hx, Hik.
  assert (LF : legal_fpq o) by (destruct HU as [[d [L _]]|[k [L _]]]; exact L). destruct LF as [NE [LF _]].
  assert (Lc : legal_fmt c) by (rewrite Forall_forall in LF; apply LF, Hc).
  unfold fpq_produced in HP. destruct (result_t_kif o) as [[ok oi] of] eqn:ER.
  destruct (result_t_kif_ge o ok oi of c ER Hc (legal_fmt_safe c Lc)) as [GK [GI GF]].
  set (k := Z.min ik ok) in *. set (f := Z.min jf of) in *.
  set (i := if (Z.leb ii oi && Z.ltb f jf)%bool then Z.min ii oi + 1 else Z.min ii oi) in *.
  assert (Er : r = (k, i, f)) by congruence. subst r. cbn [fst snd].
  assert (HO : (if (negb (Z.eqb k ok) || negb (Z.eqb i oi) || negb (Z.eqb f of))%bool then reduce_fpq (k, i, f) o else o) = o) by congruence. clear HP.
  pose proof (gfixed_fits x (kn c) (bits c) (ints c) _ _ y ltac:(apply Lc) ltac:(apply Lc) HQ) as Fy.
  assert (Kc : kn c = 0 \/ kn c = 1) by apply Lc.
  assert (Ek : kn c = ok).
  { destruct HU as [[d [_ U]]|[k0 [_ [U _]]]].
    - destruct (result_t_kif_one o d NE LF U) as [E _]. rewrite Forall_forall in U. rewrite (U c Hc) in *. congruence.
    - pose proof (result_t_kif_sign o k0 NE U) as E. rewrite ER in E. cbn in E. rewrite Forall_forall in U. rewrite (U c Hc). congruence. }
  destruct (negb (Z.eqb k ok) || negb (Z.eqb i oi) || negb (Z.eqb f of))%bool eqn:B.
  - pose proof (reduce_same _ _ HO c Hc) as RS. unfold reduce_elem in RS.
    assert (R1 : Z.min (kn c) k = kn c) by (apply (f_equal kn) in RS; exact RS).
    assert (R2 : Z.min (bits c) (k + i + f) = bits c) by (apply (f_equal bits) in RS; exact RS).
    assert (R3 : Z.min (ints c) (k + i) = ints c) by (apply (f_equal ints) in RS; exact RS).
    assert (Kk : k = ok) by lia. split; [lia|].
    destruct (Z_le_dec (bits c - ints c) f) as [LEf|GTf].
    { eapply fits_mono; [| | | | |exact Fy]; lia. }
    assert (Ef : f = jf) by lia. assert (Wr : sat_name o = "WRAP"%string).
    { destruct HU as [[d [_ U]]|[k0 [_ [_ U]]]]; [|exact U]. exfalso.
      destruct (result_t_kif_one o d NE LF U) as [E _]. rewrite Forall_forall in U. rewrite (U c Hc) in *.
      assert (E2 : oi = ints d - kn d /\ of = bits d - ints d) by (split; congruence). destruct E2 as [E2 E3].
      assert (i = Z.min ii oi) by (subst i; rewrite Ef, Z.ltb_irrefl, andb_false_r; reflexivity). lia. }
    rewrite Wr in HQ. split; [eapply WRAP_grid; [| | | |exact HQ]; [exact Kc|apply Lc|rewrite Ef; apply Hx|lia]|].
    assert (F2 : fits k i (bits c - ints c) y) by (eapply fits_mono; [| | | | |exact Fy]; lia). apply F2.
  - apply orb_false_iff in B as [B B3]. apply orb_false_iff in B as [B1 B2]. apply negb_false_iff, Z.eqb_eq in B1, B2, B3.
    split; [lia|]. eapply fits_mono; [| | | | |exact Fy]; lia.
Qed.

(** The precision derivation is idempotent: what it returns for a layer stays
    valid after all the reductions it makes. *)
From Coq Require Import ZArith Qcanon List Bool String Lia.
From Verif Require Import Base.Num Base.NumFacts Base.Tensor Model.FixedPoint Model.Precision Spec.Fixed Spec.Precision Proofs.FixedPointP Proofs.FixedPointLayerP Proofs.PrecisionP.
Import ListNotations.
Open Scope Z_scope.

Definition nice (o : fpq unit) : Prop := one_sign o /\ Forall (fun c => kn c <= 1 /\ bits c <= 60 /\ ints c <= 60) (data (cfgs o)).
Definition low (o : fpq unit) : Prop := Forall (fun c => 0 <= kn c /\ -60 <= bits c /\ -60 <= ints c) (data (cfgs o)).

Lemma zmax_ge l a : forall z, In z (a :: l) -> z <= fold_left Z.max l a.
Proof.
  revert a. induction l as [|b l IH]; intros a z H; cbn.
  - destruct H as [<-|[]]. lia.
  - pose proof (IH (Z.max a b) (Z.max a b) (or_introl eq_refl)). destruct H as [<-|[<-|H]]; try lia. apply IH. right; exact H.
Qed.
Lemma zmax_in l a : In (fold_left Z.max l a) (a :: l).
Proof.
  revert a. induction l as [|b l IH]; intros a; cbn; [auto|]. destruct (IH (Z.max a b)) as [E|E].
  - rewrite <- E. destruct (Z.max_spec a b) as [[_ ->]|[_ ->]]; auto.
  - auto.
Qed.
Lemma zmax_map (g : qcfg -> Z) cs : cs <> [] -> (exists c, In c cs /\ g c = zmax_list (map g cs)) /\ forall c, In c cs -> g c <= zmax_list (map g cs).
Proof.
  destruct cs as [|c cs]; [congruence|]. intros _. cbn [map zmax_list]. split.
  - pose proof (zmax_in (map g cs) (g c)) as H. change (g c :: map g cs) with (map g (c :: cs)) in H. apply in_map_iff in H as [d [E Hd]]. exists d. auto.
  - intros d Hd. apply zmax_ge. change (g c :: map g cs) with (map g (c :: cs)). apply in_map. exact Hd.
Qed.

(** Result types of same-signed quantizers. *)
Lemma result_spec o ok oi of : nice o -> low o -> result_t_kif o = (ok, oi, of) ->
  (forall c, In c (data (cfgs o)) -> kn c = ok /\ ints c - ok <= oi /\ bits c - ints c <= of) /\ 0 <= ok <= 1 /\
  (exists c, In c (data (cfgs o)) /\ ints c - ok = oi) /\ (exists c, In c (data (cfgs o)) /\ bits c - ints c = of).
Proof.
  intros [[NE [k HK]] HN] HL E. unfold result_t_kif in E.
  destruct (zmax_map kn _ NE) as [[ck [Ck1 Ck2]] Gk].
  destruct (zmax_map (fun c => i8 (ints c - kn c)) _ NE) as [[ci [Ci1 Ci2]] Gi].
  destruct (zmax_map (fun c => i8 (bits c - ints c)) _ NE) as [[cf [Cf1 Cf2]] Gf].
  unfold low in HL. rewrite Forall_forall in HK, HN, HL.
  assert (I8 : forall c, In c (data (cfgs o)) -> i8 (ints c - kn c) = ints c - kn c /\ i8 (bits c - ints c) = bits c - ints c).
  { intros c Hc. specialize (HN c Hc). specialize (HL c Hc). rewrite !i8_id by lia. auto. }
  assert (E1 : zmax_list (map kn (data (cfgs o))) = ok) by congruence.
  assert (E2 : zmax_list (map (fun c => i8 (ints c - kn c)) (data (cfgs o))) = oi) by congruence.
  assert (E3 : zmax_list (map (fun c => i8 (bits c - ints c)) (data (cfgs o))) = of) by congruence.
  clear E. rewrite E1 in *. rewrite E2 in *. rewrite E3 in *.
  assert (Kok : k = ok) by (rewrite <- Ck2; symmetry; apply HK, Ck1). subst k.
  split; [|split; [|split]].
  - intros c Hc. specialize (Gi c Hc). specialize (Gf c Hc). destruct (I8 c Hc) as [I1 I2]. pose proof (HK c Hc). cbn beta in Gi, Gf. lia.
  - specialize (HN ck Ck1). specialize (HL ck Ck1). lia.
  - exists ci. split; [exact Ci1|]. destruct (I8 ci Ci1) as [I1 _]. pose proof (HK ci Ci1). cbn beta in Ci2. lia.
  - exists cf. split; [exact Cf1|]. destruct (I8 cf Cf1) as [_ I2]. cbn beta in Cf2. lia.
Qed.

Lemma reduce_nice t o : nice o -> nice (reduce_fpq t o).
Proof.
  intros [[NE [k HK]] HN]. destruct t as [[k' i'] f']. unfold reduce_fpq. split; [split|]; cbn [cfgs data tmap].
  - intros C. apply map_eq_nil in C. contradiction.
  - exists (Z.min k k'). rewrite Forall_map. eapply Forall_impl; [|exact HK]. intros c Hc. unfold reduce_elem. cbn [kn]. congruence.
  - rewrite Forall_map. eapply Forall_impl; [|exact HN]. intros c (? & ? & ?). unfold reduce_elem. cbn [kn bits ints]. repeat split; lia.
Qed.
Lemma fpq_produced_nice t o r o' : nice o -> fpq_produced t o = (r, o') -> nice o'.
Proof.
  intros N. unfold fpq_produced. destruct t as [[ik ii] jf]. destruct (result_t_kif o) as [[ok oi] of]. cbv zeta. intros E. injection E as _ <-.
  match goal with |- nice (if ?b then _ else _) => destruct b end; auto using reduce_nice.
Qed.

Lemma reduce_reduce t o : reduce_fpq t (reduce_fpq t o) = reduce_fpq t o.
Proof.
  destruct t as [[k i] f]. unfold reduce_fpq. cbn. f_equal. unfold tmap. cbn. f_equal. rewrite map_map. apply map_ext. intros c. unfold reduce_elem. cbn. f_equal; lia.
Qed.

Lemma fpq_idem t o r o' : nice o -> low o' -> fpq_produced t o = (r, o') -> fpq_produced t o' = (r, o').
Proof.
  intros N L' E. pose proof (fpq_produced_nice _ _ _ _ N E) as N'. pose proof (fpq_produced_le t o) as LE. rewrite E in LE. cbn [snd] in LE.
  assert (L : low o).
  { destruct LE as (_ & _ & _ & _ & LE). unfold low in *. clear -LE L'. induction LE as [|c d l m [? [? ?]] LE IH]; [constructor|].
    inversion L' as [|? ? ? L2]; subst. constructor; [lia|auto]. }
  destruct t as [[ik ii] jf]. unfold fpq_produced in *. destruct (result_t_kif o) as [[ok oi] of] eqn:ER. cbv zeta in E.
  set (k := Z.min ik ok) in *. set (f := Z.min jf of) in *. set (i := if (Z.leb ii oi && Z.ltb f jf)%bool then Z.min ii oi + 1 else Z.min ii oi) in *.
  destruct (negb (Z.eqb k ok) || negb (Z.eqb i oi) || negb (Z.eqb f of))%bool eqn:B.
  2: { assert (o' = o) by congruence. subst o'. rewrite ER. cbv zeta. fold k f i. rewrite B. exact E. }
  assert (Er : r = (k, i, f)) by congruence. assert (Eo : o' = reduce_fpq (k, i, f) o) by congruence. clear E.
  destruct (result_t_kif o') as [[ok' oi'] of'] eqn:ER'. cbv zeta.
  destruct (result_spec o ok oi of N L ER) as [S1 [S0 [[ci [Ci1 Ci2]] [cf [Cf1 Cf2]]]]].
  destruct (result_spec o' ok' oi' of' N' L' ER') as [S1' [S0' [[ci' [Ci1' Ci2']] [cf' [Cf1' Cf2']]]]].
  assert (D : data (cfgs o') = map (reduce_elem (k, i, f)) (data (cfgs o))) by (rewrite Eo; reflexivity).
  rewrite D in *.
  assert (Hok : ok' = k).
  { destruct (S1' _ (in_map (reduce_elem (k, i, f)) _ _ Ci1)) as [A _]. unfold reduce_elem in A. cbn [kn] in A. destruct (S1 _ Ci1) as [A' _]. lia. }
  assert (II : i = Z.min ii oi \/ (i = Z.min ii oi + 1 /\ ii <= oi /\ f < jf)).
  { subst i. destruct (Z.leb_spec ii oi), (Z.ltb_spec f jf); cbn; lia. }
  assert (Hoi : oi' = Z.min (ok + oi) (k + i) - k).
  { apply Z.le_antisymm.
    - apply in_map_iff in Ci1' as [d [<- Hd]]. unfold reduce_elem in Ci2'. cbn [ints] in Ci2'. destruct (S1 d Hd) as [A [A' _]]. lia.
    - destruct (S1' _ (in_map (reduce_elem (k, i, f)) _ _ Ci1)) as [_ [A _]]. unfold reduce_elem in A. cbn [ints] in A. lia. }
  assert (Hof : f <= of' /\ of' <= of).
  { split.
    - destruct (S1' _ (in_map (reduce_elem (k, i, f)) _ _ Cf1)) as [_ [_ A]]. unfold reduce_elem in A. cbn [ints bits] in A. lia.
    - apply in_map_iff in Cf1' as [d [<- Hd]]. unfold reduce_elem in Cf2'. cbn [ints bits] in Cf2'. destruct (S1 d Hd) as [_ [_ A']]. lia. }
  assert (F1 : Z.min jf of' = f) by lia. assert (K1 : Z.min ik ok' = k) by lia. rewrite F1, K1.
  assert (I1 : (if (Z.leb ii oi' && Z.ltb f jf)%bool then Z.min ii oi' + 1 else Z.min ii oi') = i).
  { subst i. destruct (Z.leb_spec ii oi), (Z.ltb_spec f jf), (Z.leb_spec ii oi'); cbn [andb] in *; lia. }
  rewrite I1. rewrite Er. apply (f_equal (pair (k, i, f))). rewrite Eo. match goal with |- (if ?b then _ else _) = _ => destruct b end; [apply reduce_reduce|reflexivity].
Qed.

(** ** Frames *)
Definition source (kd : pkind) : bool := match kd with NInput | NUnknown | NLut _ => true | _ => false end.
(** The layers whose precision the derivation for layer n looks at. *)
Fixpoint deps (fuel : nat) (net : pnet) (n m : nat) : bool :=
  (Nat.eqb n m ||
   match fuel with
   | O => false
   | S fuel' =>
     match nth_error net n with
     | Some (kd, ps) => negb (source kd) && existsb (fun p => deps fuel' net p m) ps
     | None => false
     end
   end)%bool.

Lemma nth_upd_other {A} (s : list A) q q' o : q <> q' -> nth_error (upd s q o) q' = nth_error s q'.
Proof. revert q q'. induction s as [|a s IH]; intros [|q] [|q'] H; cbn; try congruence; auto. Qed.
Lemma nth_upd_same {A} (s : list A) q o o0 : nth_error s q = Some o0 -> nth_error (upd s q o) q = Some o.
Proof. revert q. induction s as [|a s IH]; intros [|q] H; cbn in *; try discriminate; auto. Qed.
Lemma upd_comm {A} (s : list A) q q' o o' : q <> q' -> upd (upd s q o) q' o' = upd (upd s q' o') q o.
Proof. revert q q'. induction s as [|a s IH]; intros [|q] [|q'] H; cbn; try congruence; auto. f_equal. auto. Qed.
Lemma upd_upd {A} (s : list A) q o o' : upd (upd s q o) q o' = upd s q o'.
Proof. revert q. induction s as [|a s IH]; intros [|q]; cbn; try congruence. Qed.
Lemma upd_id {A} (s : list A) q o : nth_error s q = Some o -> upd s q o = s.
Proof. revert q. induction s as [|a s IH]; intros [|q] H; cbn in *; try discriminate; [congruence|]. f_equal. auto. Qed.

Definition untouched (fuel : nat) (net : pnet) (n q : nat) : Prop :=
  forall m ps, deps fuel net n m = true -> nth_error net m = Some (NFpq q, ps) -> False.

Lemma deps_self fuel net n : deps fuel net n n = true.
Proof. destruct fuel; cbn; rewrite Nat.eqb_refl; reflexivity. Qed.
Lemma deps_input fuel net n kd ps p m : nth_error net n = Some (kd, ps) -> source kd = false -> In p ps -> deps fuel net p m = true -> deps (S fuel) net n m = true.
Proof.
  intros E Hs Hp H. cbn. rewrite E, Hs. apply orb_true_iff. right. apply existsb_exists. eauto.
Qed.

(** The step function with inputs in an updated store. *)
Lemma step_frame kd r r' s t s' q o : (forall q', kd = NFpq q' -> q' <> q) ->
  (forall ts s1, r = Ok (ts, s1) -> r' = Ok (ts, upd s1 q o)) ->
  step kd r s = Ok (t, s') -> step kd r' (upd s q o) = Ok (t, upd s' q o).
Proof.
  intros Hq Hr H. unfold step in *. destruct kd as [|q'|a fn|sm fn|pool| | | | |kernel div bias| | |kf|];
    try (apply okpair in H as [<- <-]; reflexivity);
    try (destruct a); try (destruct sm); destruct r as [[ts s1]|]; cbn [rbind fst snd] in H; try discriminate;
    rewrite (Hr _ _ eq_refl); cbn [rbind fst snd];
    repeat match type of H with
    | context [match ?x with _ => _ end] => is_var x; destruct x; cbn [rbind fst snd] in H; try discriminate
    | context [rbind ?x _] => destruct x as [?|]; cbn [rbind fst snd] in H |- *; try discriminate
    end;
    try (apply okpair in H as [<- <-]; reflexivity).
  specialize (Hq q' eq_refl). rewrite nth_upd_other by congruence. destruct (nth_error s1 q') as [o1|]; [|discriminate].
  destruct (fpq_produced k o1) as [r1 o1']. apply okpair in H as [<- <-]. rewrite (upd_comm s1 q q') by congruence. reflexivity.
Qed.
Lemma inputs_frame fuel net ps q o : (forall n s t s', In n ps -> produced fuel net n s = Ok (t, s') -> produced fuel net n (upd s q o) = Ok (t, upd s' q o)) ->
  forall s ts s', input_kifs fuel net ps s = Ok (ts, s') -> input_kifs fuel net ps (upd s q o) = Ok (ts, upd s' q o).
Proof.
  intros IH. induction ps as [|p ps IHp]; intros s ts s' H; cbn [input_kifs] in H |- *.
  - apply okpair in H as [<- <-]. reflexivity.
  - destruct (produced fuel net p s) as [[t1 s1]|] eqn:E1; cbn [rbind fst snd] in H; [|discriminate].
    destruct (input_kifs fuel net ps s1) as [[t2 s2]|] eqn:E2; cbn [rbind fst snd] in H; [|discriminate].
    apply okpair in H as [<- <-]. rewrite (IH p s t1 s1 (or_introl eq_refl) E1). cbn [rbind fst snd].
    rewrite (IHp (fun n s t s' Hn => IH n s t s' (or_intror Hn)) s1 t2 s2 E2). reflexivity.
Qed.
Lemma produced_frame fuel net q o : forall n s t s', untouched fuel net n q -> produced fuel net n s = Ok (t, s') -> produced fuel net n (upd s q o) = Ok (t, upd s' q o).
Proof.
  induction fuel as [|fuel IH]; intros n s t s' U H; [discriminate|]. rewrite produced_S in H |- *.
  destruct (nth_error net n) as [[kd ps]|] eqn:EN; [|discriminate]. destruct (source kd) eqn:Hs.
  - destruct kd; try discriminate; apply okpair in H as [<- <-]; reflexivity.
  - eapply step_frame; [| |exact H].
    + intros q' -> ->. eapply (U n); [apply deps_self|exact EN].
    + intros ts s1 HI. eapply inputs_frame; [|exact HI]. intros p s2 t2 s2' Hp. apply IH. intros m ps' Hm. apply U. eapply deps_input; eauto.
Qed.

(** ** Fuel *)
Lemma step_fuel kd r r' s t s' : (forall x, r = Ok x -> r' = Ok x) -> step kd r s = Ok (t, s') -> step kd r' s = Ok (t, s').
Proof.
  intros Hr H. unfold step in *. destruct kd as [|q'|a fn|sm fn|pool| | | | |kernel div bias| | |kf|]; try exact H;
  try (destruct a); try (destruct sm); destruct r as [x|]; try discriminate; rewrite (Hr _ eq_refl); exact H.
Qed.
Lemma inputs_fuel fuel fuel' net : (forall n s x, produced fuel net n s = Ok x -> produced fuel' net n s = Ok x) ->
  forall ps s x, input_kifs fuel net ps s = Ok x -> input_kifs fuel' net ps s = Ok x.
Proof.
  intros IH. induction ps as [|p ps IHp]; intros s x H; cbn [input_kifs] in *; [exact H|].
  destruct (produced fuel net p s) as [r1|] eqn:E1; cbn [rbind] in H; [|discriminate]. rewrite (IH _ _ _ E1). cbn [rbind].
  destruct (input_kifs fuel net ps (snd r1)) as [r2|] eqn:E2; cbn [rbind] in H; [|discriminate]. rewrite (IHp _ _ E2). exact H.
Qed.
Lemma produced_fuel net : forall fuel fuel' n s x, (fuel <= fuel')%nat -> produced fuel net n s = Ok x -> produced fuel' net n s = Ok x.
Proof.
  induction fuel as [|fuel IH]; intros [|fuel'] n s [t s'] L H; try discriminate; [lia|]. rewrite produced_S in *.
  destruct (nth_error net n) as [[kd ps]|]; [|discriminate]. eapply step_fuel; [|exact H]. intros y Hy. eapply inputs_fuel; [|exact Hy].
  intros m s1 z. apply IH. lia.
Qed.
Lemma produced_agree net f1 f2 n s x y : produced f1 net n s = Ok x -> produced f2 net n s = Ok y -> x = y.
Proof.
  intros A B. apply (produced_fuel net f1 (max f1 f2)) in A; [|lia]. apply (produced_fuel net f2 (max f1 f2)) in B; [|lia]. congruence.
Qed.

(** At a fixed point everything looked at is at the fixed point. *)
Lemma F2_in_l {A B} (R : A -> B -> Prop) l m a : Forall2 R l m -> In a l -> exists b, R a b.
Proof. intros F. induction F as [|x y l m H F IH]; [contradiction|]. intros [<-|Hi]; eauto. Qed.
Lemma deps_fix net s m : forall fuel n t, produced fuel net n s = Ok (t, s) -> deps fuel net n m = true ->
  exists fuel' t', produced fuel' net m s = Ok (t', s).
Proof.
  induction fuel as [|fuel IH]; intros n t H D; [discriminate|]. pose proof H as H0. rewrite produced_S in H. cbn in D.
  apply orb_true_iff in D as [D|D]; [apply Nat.eqb_eq in D; subst; eauto|].
  destruct (nth_error net n) as [[kd ps]|]; [|discriminate]. apply andb_true_iff in D as [Hs D]. apply existsb_exists in D as [p [Hp D]].
  pose proof (step_fix _ _ _ _ _ _ H) as SF. destruct kd; try discriminate; destruct SF as [ts HI]; apply input_kifs_fix in HI;
  destruct (F2_in_l _ _ _ _ HI Hp) as [t' E]; eauto.
Qed.
Lemma topo_deps net : topological net -> forall fuel n m, deps fuel net n m = true -> (m <= n)%nat.
Proof.
  intros T. induction fuel as [|fuel IH]; intros n m D; cbn in D; apply orb_true_iff in D as [D|D]; try (apply Nat.eqb_eq in D; lia); try discriminate.
  destruct (nth_error net n) as [[kd ps]|] eqn:E; [|discriminate]. apply andb_true_iff in D as [_ D]. apply existsb_exists in D as [p [Hp D]].
  apply IH in D. specialize (T _ _ _ E). rewrite Forall_forall in T. specialize (T p Hp). lia.
Qed.

(** ** Idempotence *)
Lemma low_up a b : store_le a b -> Forall low a -> Forall low b.
Proof.
  intros L. induction L as [|p q l m (_ & _ & _ & _ & H) L IH]; intros F; [constructor|]. inversion F as [|? ? Fp F']; subst. constructor; [|auto].
  unfold low in *. clear -H Fp. induction H as [|c d x y (? & ? & ?) H IH]; [constructor|]. inversion Fp; subst. constructor; [lia|auto].
Qed.
Lemma Forall_nth {A} (P : A -> Prop) l n a : Forall P l -> nth_error l n = Some a -> P a.
Proof. intros F E. rewrite Forall_forall in F. apply F. eapply nth_error_In; eauto. Qed.
Lemma Forall_upd {A} (P : A -> Prop) l n a : Forall P l -> P a -> Forall P (upd l n a).
Proof. intros F Ha. revert n. induction F as [|b l Hb F IH]; intros [|n]; cbn; constructor; auto. Qed.

Lemma inputs_nice fuel net : (forall n s t s', Forall nice s -> produced fuel net n s = Ok (t, s') -> Forall nice s') ->
  forall ps s ts s', Forall nice s -> input_kifs fuel net ps s = Ok (ts, s') -> Forall nice s'.
Proof.
  intros IH. induction ps as [|p ps IHp]; intros s ts s' N H; cbn [input_kifs] in H.
  - apply okpair in H as [_ <-]. exact N.
  - destruct (produced fuel net p s) as [[t1 s1]|] eqn:E1; cbn [rbind fst snd] in H; [|discriminate].
    destruct (input_kifs fuel net ps s1) as [[t2 s2]|] eqn:E2; cbn [rbind fst snd] in H; [|discriminate].
    apply okpair in H as [_ <-]. eapply IHp; [|exact E2]. eapply IH; eauto.
Qed.
Lemma step_nice kd r s t s' : Forall nice s -> (forall ts s1, r = Ok (ts, s1) -> Forall nice s1) -> step kd r s = Ok (t, s') -> Forall nice s'.
Proof.
  intros N Hr H. unfold step in *. destruct kd as [|q'|a fn|sm fn|pool| | | | |kernel div bias| | |kf|];
    try (apply okpair in H as [_ <-]; exact N);
    try (destruct a); try (destruct sm); destruct r as [[ts s1]|]; cbn [rbind fst snd] in H; try discriminate;
    specialize (Hr _ _ eq_refl);
    repeat match type of H with
    | context [match ?x with _ => _ end] => is_var x; destruct x; cbn [rbind fst snd] in H; try discriminate
    | context [rbind ?x _] => destruct x as [?|]; cbn [rbind fst snd] in H |- *; try discriminate
    end;
    try (apply okpair in H as [_ <-]; exact Hr).
  destruct (nth_error s1 q') as [o|] eqn:E; [|discriminate]. destruct (fpq_produced k o) as [r1 o1'] eqn:EP. apply okpair in H as [_ <-].
  apply Forall_upd; [exact Hr|]. eapply fpq_produced_nice; [|exact EP]. eapply Forall_nth; eauto.
Qed.
Lemma produced_nice fuel net : forall n s t s', Forall nice s -> produced fuel net n s = Ok (t, s') -> Forall nice s'.
Proof.
  induction fuel as [|fuel IH]; intros n s t s' N H; [discriminate|]. rewrite produced_S in H. destruct (nth_error net n) as [[kd ps]|]; [|discriminate].
  eapply step_nice; [exact N| |exact H]. intros ts s1. apply (inputs_nice fuel net); auto.
Qed.

Definition keeps (net : pnet) (s s' : pst) : Prop := forall fu u tu, produced fu net u s = Ok (tu, s) -> produced fu net u s' = Ok (tu, s').
Lemma keeps_refl net s : keeps net s s.
Proof. unfold keeps. auto. Qed.
Lemma keeps_trans net a b c : keeps net a b -> keeps net b c -> keeps net a c.
Proof. unfold keeps. auto. Qed.

Lemma inputs_idem fuel net :
  (forall n s t s', Forall nice s -> Forall low s' -> produced fuel net n s = Ok (t, s') -> produced fuel net n s' = Ok (t, s') /\ keeps net s s') ->
  forall ps s ts s', Forall nice s -> Forall low s' -> input_kifs fuel net ps s = Ok (ts, s') -> input_kifs fuel net ps s' = Ok (ts, s') /\ keeps net s s'.
Proof.
  intros IH. induction ps as [|p ps IHp]; intros s ts s' N L H; cbn [input_kifs] in H |- *.
  - apply okpair in H as [<- <-]. split; [reflexivity|apply keeps_refl].
  - destruct (produced fuel net p s) as [[t1 s1]|] eqn:E1; cbn [rbind fst snd] in H; [|discriminate].
    destruct (input_kifs fuel net ps s1) as [[t2 s2]|] eqn:E2; cbn [rbind fst snd] in H; [|discriminate].
    apply okpair in H as [<- <-].
    assert (L1 : Forall low s1) by (eapply low_up; [|exact L]; eapply input_kifs_le; eauto using produced_le).
    assert (N1 : Forall nice s1) by (eapply produced_nice; eauto).
    destruct (IH _ _ _ _ N L1 E1) as [A1 K1]. destruct (IHp _ _ _ N1 L E2) as [A2 K2].
    split; [|eapply keeps_trans; eauto]. rewrite (K2 _ _ _ A1). cbn [rbind fst snd]. rewrite A2. reflexivity.
Qed.

Theorem produced_idem net : topological net -> own_quantizers net ->
  forall fuel n s t s', Forall nice s -> Forall low s' -> produced fuel net n s = Ok (t, s') -> produced fuel net n s' = Ok (t, s') /\ keeps net s s'.
Proof.
  intros T OQ. induction fuel as [|fuel IH]; intros n s t s' N L H; [discriminate|]. rewrite produced_S in H |- *.
  destruct (nth_error net n) as [[kd ps]|] eqn:EN; [|discriminate].
  destruct (source kd) eqn:Hs.
  { destruct kd; try discriminate; apply okpair in H as [<- <-]; (split; [reflexivity|apply keeps_refl]). }
  pose proof (step_inv _ _ _ _ _ H) as SI.
  assert (I : exists ts s1, input_kifs fuel net ps s = Ok (ts, s1) /\ store_le s' s1) by (destruct kd; try discriminate; exact SI). clear SI.
  destruct I as [ts [s1 [HI LE]]]. assert (L1 : Forall low s1) by (eapply low_up; eauto).
  destruct (inputs_idem fuel net IH ps s ts s1 N L1 HI) as [A1 K1]. rewrite HI in H.
  assert (N1 : Forall nice s1) by (eapply (inputs_nice fuel net); eauto using produced_nice).
  destruct kd as [|q|a fn|sm fn|pool| | | | |kernel div bias| | |kf|]; try discriminate Hs;
  try (assert (E1 : s' = s1) by (
    unfold step in H; try (destruct a); try (destruct sm); cbn [rbind fst snd] in H;
    repeat match type of H with
    | context [match ?x with _ => _ end] => is_var x; destruct x; cbn [rbind fst snd] in H; try discriminate
    | context [rbind ?x _] => destruct x as [?|]; cbn [rbind fst snd] in H; try discriminate
    end; apply okpair in H as [_ H]; congruence); subst s'; split; [|exact K1]; rewrite A1; clear -H; unfold step in *; exact H).
  (* quantizer *)
  unfold step in H |- *. cbn [rbind fst snd] in H. destruct ts as [|u [|? ?]]; try discriminate.
  destruct (nth_error s1 q) as [o|] eqn:EO; [|discriminate]. destruct (fpq_produced u o) as [r o'] eqn:EP. apply okpair in H as [<- <-].
  assert (Lo : low o') by (eapply Forall_nth; [exact L|eapply nth_upd_same; exact EO]). assert (No : nice o) by (eapply Forall_nth; eauto).
  split.
  - assert (A2 : input_kifs fuel net ps (upd s1 q o') = Ok ([u], upd s1 q o')).
    { eapply inputs_frame; [|exact A1]. intros p s2 t2 s2' Hp. apply produced_frame. intros m ps' D Em. assert (m = n) by (eapply OQ; eauto). subst m.
      apply (topo_deps net T) in D. specialize (T _ _ _ EN). rewrite Forall_forall in T. specialize (T p Hp). lia. }
    rewrite A2. cbn [rbind fst snd]. rewrite (nth_upd_same _ _ _ _ EO). rewrite (fpq_idem _ _ _ _ No Lo EP). rewrite upd_upd. reflexivity.
  - eapply keeps_trans; [exact K1|]. intros fu v tv Hv. destruct (deps fu net v n) eqn:D.
    + destruct (deps_fix net s1 n fu v tv Hv D) as [fu' [tn Hn]]. destruct fu' as [|fu']; [discriminate|]. pose proof Hn as Hn0. rewrite produced_S, EN in Hn.
      destruct (step_fix _ _ _ _ _ _ Hn) as [ts2 HI2].
      assert (E2 : ts2 = [u]).
      { apply input_kifs_fix in HI2. apply input_kifs_fix in A1. inversion A1 as [|p ? ps' ? R F X1]; subst. inversion F; subst. inversion HI2 as [|? t2 ? ? R2 F2]; subst. inversion F2; subst.
        pose proof (produced_agree _ _ _ _ _ _ _ R R2). congruence. }
      subst ts2. unfold step in Hn. rewrite HI2 in Hn. cbn [rbind fst snd] in Hn. rewrite EO, EP in Hn. apply okpair in Hn as [_ Hn]. rewrite Hn. exact Hv.
    + apply produced_frame; [|exact Hv]. intros m ps' D' Em. assert (m = n) by (eapply OQ; eauto). congruence.
Qed.

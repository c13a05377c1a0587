(** The derivation looks at a layer's inputs and at the quantizers reading it:
    repeating the derivation of a layer right after it changes nothing. *)
From Coq Require Import ZArith Qcanon List Bool String Lia Arith.
From Verif Require Import Base.Num Base.NumFacts Base.Tensor Model.FixedPoint Model.Apf Model.Precision Model.Lut Model.Register Spec.Fixed Spec.Precision Spec.NetEval Spec.Register Spec.Quiet Spec.Staged.
From Verif Require Import Proofs.FixedPointP Proofs.PrecisionP Proofs.IdemP Proofs.RegisterP Proofs.ConfigP Proofs.NetEvalP Proofs.QuietP.
Import ListNotations.
Open Scope Z_scope.

Section Local.
  Variable net : pnet.
  Hypothesis topo : topological net.
  Hypothesis own : own_quantizers net.

  (** Two stores with the same quantizers after layer n. *)
  Definition agree (n : nat) (s s' : pst) : Prop := forall m q ps, (n < m)%nat -> nth_error net m = Some (NFpq q, ps) -> nth_error s' q = nth_error s q.
  Lemma agree_refl n s : agree n s s.
  Proof. intros m q ps _ _. reflexivity. Qed.
  Lemma agree_trans n a b c : agree n a b -> agree n b c -> agree n a c.
  Proof. intros A B m q ps L E. rewrite (B m q ps L E). apply (A m q ps L E). Qed.
  Lemma agree_sym n a b : agree n a b -> agree n b a.
  Proof. intros A m q ps L E. symmetry. apply (A m q ps L E). Qed.
  Lemma agree_up n n' a b : (n <= n')%nat -> agree n a b -> agree n' a b.
  Proof. intros L A m q ps L' E. apply (A m q ps); [lia|exact E]. Qed.

  Lemma inputs_local fuel n : (forall p s t s', (p < n)%nat -> produced fuel net p s = Ok (t, s') -> agree p s s') ->
    forall ps s ts s', Forall (fun p => (p < n)%nat) ps -> input_kifs fuel net ps s = Ok (ts, s') -> forall m q ps', (n <= m)%nat -> nth_error net m = Some (NFpq q, ps') -> nth_error s' q = nth_error s q.
  Proof.
    intros IH. induction ps as [|p ps IHp]; intros s ts s' F H m q ps' L E; cbn [input_kifs] in H.
    - apply okpair in H as [_ <-]. reflexivity.
    - destruct (produced fuel net p s) as [[t1 s1]|] eqn:E1; cbn [rbind fst snd] in H; [|discriminate].
      destruct (input_kifs fuel net ps s1) as [[t2 s2]|] eqn:E2; cbn [rbind fst snd] in H; [|discriminate].
      apply okpair in H as [_ <-]. inversion F; subst. rewrite (IHp s1 t2 s2 ltac:(assumption) E2 m q ps' L E). apply (IH p s t1 s1 ltac:(assumption) E1 m q ps'); [lia|exact E].
  Qed.
  Lemma produced_local : forall fuel n s t s', produced fuel net n s = Ok (t, s') -> agree n s s'.
  Proof.
    induction fuel as [|fuel IH]; intros n s t s' H; [discriminate|]. rewrite produced_S in H. destruct (nth_error net n) as [[kd ps]|] eqn:EN; [|discriminate].
    destruct (source kd) eqn:Hs.
    { destruct kd; try discriminate; apply okpair in H as [_ <-]; apply agree_refl. }
    pose proof (step_inv _ _ _ _ _ H) as SI.
    assert (I : exists ts s1, input_kifs fuel net ps s = Ok (ts, s1)) by (destruct kd; try discriminate; destruct SI as (ts & s1 & X & _); eauto). clear SI.
    destruct I as (ts & s1 & HI). rewrite HI in H.
    assert (A1 : agree n s s1).
    { intros m q ps' L E. apply (inputs_local fuel n (fun p s t s' _ => IH p s t s') ps s ts s1 (topo n kd ps EN) HI m q ps'); [lia|exact E]. }
    destruct kd as [|q|a fn|sm fn|pool| | | | |kernel div bias| | |kf|]; try discriminate Hs;
    try (assert (E1 : s' = s1) by (
      unfold step in H; try (destruct a); try (destruct sm); cbn [rbind fst snd] in H;
      repeat match type of H with
      | context [match ?x with _ => _ end] => is_var x; destruct x; cbn [rbind fst snd] in H; try discriminate
      | context [rbind ?x _] => destruct x as [?|]; cbn [rbind fst snd] in H; try discriminate
      end; apply okpair in H as [_ H]; congruence); subst s'; exact A1).
    unfold step in H. cbn [rbind fst snd] in H. destruct ts as [|u [|? ?]]; try discriminate.
    destruct (nth_error s1 q) as [o1|] eqn:EO; [|discriminate]. destruct (fpq_produced u o1) as [r o'] eqn:EP. apply okpair in H as [_ <-].
    eapply agree_trans; [exact A1|]. intros m q2 ps2 L E. apply nth_upd_other. intros ->. pose proof (own _ _ _ _ _ E EN). lia.
  Qed.
  Lemma inputs_agree fuel n ps s ts s' : Forall (fun p => (p < n)%nat) ps -> input_kifs fuel net ps s = Ok (ts, s') -> agree n s s'.
  Proof.
    intros F H m q ps' L E. apply (inputs_local fuel n (fun p s t s' _ => produced_local fuel p s t s') ps s ts s' F H m q ps'); [lia|exact E].
  Qed.

  (** Requests only depend on the quantizers behind. *)
  Lemma collect_ext {A B} (g h : A -> result B) ls : (forall m, In m ls -> g m = h m) ->
    fold_right (fun m acc => rbind (g m) (fun t => rbind acc (fun l => Ok (t :: l)))) (Ok []) ls = fold_right (fun m acc => rbind (h m) (fun t => rbind acc (fun l => Ok (t :: l)))) (Ok []) ls.
  Proof. intros E. induction ls as [|m ls IH]; [reflexivity|]. cbn [fold_right]. rewrite (E m (or_introl eq_refl)), IH; [reflexivity|]. intros m' I. apply E. right. exact I. Qed.
  Lemma request_agree s s' n : agree n s s' -> forall fuel m, (n < m)%nat -> request fuel net m s' = request fuel net m s.
  Proof.
    intros A. induction fuel as [|fuel IH]; intros m L; [reflexivity|]. cbn [request]. destruct (nth_error net m) as [[kd ps]|] eqn:Em; [|reflexivity].
    assert (C : match out_layers net m with [] => Ok (1, 65535, 65535) | ls => rbind (fold_right (fun m acc => rbind (request fuel net m s') (fun t => rbind acc (fun l => Ok (t :: l)))) (Ok []) ls) kifs_max end =
      match out_layers net m with [] => Ok (1, 65535, 65535) | ls => rbind (fold_right (fun m acc => rbind (request fuel net m s) (fun t => rbind acc (fun l => Ok (t :: l)))) (Ok []) ls) kifs_max end).
    { destruct (out_layers net m) as [|a ls] eqn:EO; [reflexivity|]. f_equal. apply collect_ext. intros m' I. apply IH. rewrite <- EO in I. apply in_out, (feeds_lt _ _ _ topo) in I. lia. }
    destruct kd; try reflexivity; try exact C. rewrite (A m q ps L Em). reflexivity.
  Qed.
  Lemma requested_agree fuel n s s' : agree n s s' -> requested fuel net n s' = requested fuel net n s.
  Proof.
    intros A. unfold requested. destruct (out_layers net n) as [|a ls] eqn:EO; [reflexivity|]. f_equal. apply collect_ext. intros m I. apply (request_agree s s' n A).
    rewrite <- EO in I. apply in_out, (feeds_lt _ _ _ topo) in I. lia.
  Qed.
  Lemma fusible_agree n s s' : agree n s s' -> fusible_result net n s' = fusible_result net n s.
  Proof.
    intros A. unfold fusible_result. destruct (out_layers net n) as [|m [|? ?]] eqn:EO; try reflexivity. destruct (nth_error net m) as [[kd ps]|] eqn:Em; [|reflexivity]. destruct kd; try reflexivity.
    assert (I : In m (out_layers net n)) by (rewrite EO; left; reflexivity). apply in_out, (feeds_lt _ _ _ topo) in I. rewrite (A m q ps (proj1 I) Em). reflexivity.
  Qed.
  Lemma derived_agree n s s' : agree n s s' -> derived_result net n s' = derived_result net n s.
  Proof.
    intros A. unfold derived_result.
    assert (E : map (fun m => match nth_error net m with Some (NFpq q, _) => nth_error s' q | _ => None end) (out_layers net n) =
                map (fun m => match nth_error net m with Some (NFpq q, _) => nth_error s q | _ => None end) (out_layers net n)).
    { apply map_ext_in. intros m I. apply in_out, (feeds_lt _ _ _ topo) in I. destruct (nth_error net m) as [[kd ps]|] eqn:Em; [|reflexivity]. destruct kd; try reflexivity. apply (A m q ps (proj1 I) Em). }
    rewrite E. reflexivity.
  Qed.

  (** Deriving again. *)
  Lemma result_local fuel n s t s1 : result_kifRS fuel net n s = Ok (t, s1) -> agree n s s1.
  Proof.
    unfold result_kifRS. destruct (fusible_result net n s) as [[u|]|]; cbn [rbind]; [intros H; assert (s1 = s) by congruence; subst; apply agree_refl| |discriminate].
    assert (G : rbind (produced fuel net n s) (fun p => rbind (requested fuel net n (snd p)) (fun q => Ok ((merge_precision (fst p) q, "TRN"%string, "WRAP"%string), snd p))) = Ok (t, s1) -> agree n s s1).
    { destruct (produced fuel net n s) as [[p s2]|] eqn:E; cbn [rbind fst snd]; [|discriminate]. destruct (requested fuel net n s2); cbn [rbind]; [|discriminate].
      intros H. assert (s2 = s1) by congruence. subst. eapply produced_local; exact E. }
    destruct (nth_error net n) as [[kd ps]|]; [|discriminate]. destruct kd; try exact G.
    destruct (derived_result net n s); cbn [rbind]; [|discriminate]. intros H. assert (s1 = s) by congruence. subst. apply agree_refl.
  Qed.
  Lemma result_again fuel n s t s1 s2 : Forall nice s -> Forall low s2 -> result_kifRS fuel net n s = Ok (t, s1) -> agree n s s2 -> keeps net s1 s2 -> store_le s2 s1 -> result_kifRS fuel net n s2 = Ok (t, s2).
  Proof.
    intros N L H A K LE. pose proof (result_local _ _ _ _ _ H) as A1. unfold result_kifRS in *. rewrite (fusible_agree n s s2 A). destruct (fusible_result net n s) as [[u|]|]; cbn [rbind] in *; [apply okpair in H as [<- _]; reflexivity| |discriminate].
    assert (G : rbind (produced fuel net n s) (fun p => rbind (requested fuel net n (snd p)) (fun q => Ok ((merge_precision (fst p) q, "TRN"%string, "WRAP"%string), snd p))) = Ok (t, s1) ->
      rbind (produced fuel net n s2) (fun p => rbind (requested fuel net n (snd p)) (fun q => Ok ((merge_precision (fst p) q, "TRN"%string, "WRAP"%string), snd p))) = Ok (t, s2)).
    { intros H1. destruct (produced fuel net n s) as [[p s3]|] eqn:E; cbn [rbind fst snd] in H1; [|discriminate]. destruct (requested fuel net n s3) as [r|] eqn:RQ; cbn [rbind] in H1; [|discriminate].
      assert (s3 = s1) by congruence. subst s3. destruct (produced_idem net topo own fuel n s p s1 N (low_up _ _ LE L) E) as [PI _]. rewrite (K _ _ _ PI). cbn [rbind fst snd].
      rewrite (requested_agree fuel n s1 s2) by (eapply agree_trans; [apply agree_sym; exact A1|exact A]). rewrite RQ. cbn [rbind]. apply okpair in H1 as [<- _]. reflexivity. }
    destruct (nth_error net n) as [[kd ps]|]; [|discriminate]. destruct kd; try exact (G H).
    rewrite (derived_agree n s s2 A). destruct (derived_result net n s); cbn [rbind] in *; [apply okpair in H as [<- _]; reflexivity|discriminate].
  Qed.

  Lemma config_again fuel n s off c s' : Forall nice s -> Forall low s' -> layer_config fuel net n s off = Ok (c, s') -> layer_config fuel net n s' off = Ok (c, s') /\ agree n s s'.
  Proof.
    intros N L. rewrite !config_main. intros H. destruct (main_conf fuel net n s off) as [[c1 s1]|] eqn:E; [|discriminate]. cbn [rbind fst] in H.
    destruct (check_types (fst c1)) as [[]|] eqn:CK; [|discriminate]. cbn [rbind] in H. assert (c1 = c /\ s1 = s') as [-> ->] by (split; congruence). clear H.
    enough (G : main_conf fuel net n s' off = Ok (c, s') /\ agree n s s') by (destruct G as [-> G]; cbn [rbind fst]; rewrite CK; split; [reflexivity|exact G]).
    unfold main_conf in *. destruct (nth_error net n) as [[kd ps]|] eqn:En; [|discriminate].
    assert (G : forall X : result (conf * pst), X = Ok (c, s') -> X = rbind (result_kifRS fuel net n s) (fun r => Ok (([("result_t"%string, tuple_to_apf (fst (fst (fst r))) (snd (fst (fst r))) (snd (fst r)) true)], None), snd r)) ->
      rbind (result_kifRS fuel net n s') (fun r => Ok (([("result_t"%string, tuple_to_apf (fst (fst (fst r))) (snd (fst (fst r))) (snd (fst r)) true)], None), snd r)) = Ok (c, s') /\ agree n s s').
    { intros X HX ->. destruct (result_kifRS fuel net n s) as [[r s2]|] eqn:ER; cbn [rbind fst snd] in HX; [|discriminate]. assert (s2 = s') by congruence. subst s2.
      pose proof (result_local _ _ _ _ _ ER) as A. rewrite (result_again fuel n s r s' s' N L ER A (keeps_refl _ _) (store_le_refl _)). cbn [rbind fst snd]. split; [exact HX|exact A]. }
    destruct kd; try (exact (G _ E eq_refl)); clear G.
    - unfold config_table in *. destruct (result_kifRS fuel net n s) as [[[[t R] V] s2]|] eqn:ER; [|discriminate]. cbn [rbind fst snd] in E.
      destruct (input_kifs fuel net ps s2) as [[l s3]|] eqn:EI; [|discriminate]. cbn [rbind fst snd] in E. destruct (kifs_max l) as [[[i_k i_i] i_f]|] eqn:KM; [|discriminate]. cbn [rbind] in E.
      destruct (Z.ltb (i_k + i_i + i_f) 0) eqn:LT; [discriminate|]. assert (s3 = s') by congruence. subst s3.
      assert (LE : store_le s' s2) by (eapply input_kifs_le; [|exact EI]; eauto using produced_le).
      assert (L2 : Forall low s2) by (eapply low_up; eauto). pose proof (result_local _ _ _ _ _ ER) as A1.
      assert (N2 : Forall nice s2) by (destruct (requested_none net s topo own N fuel n s s2 _ ER N L2) as (N2 & _); exact N2).
      destruct (inputs_idem fuel net (produced_idem net topo own fuel) ps s2 l s' N2 L EI) as [II K].
      assert (A : agree n s s') by (eapply agree_trans; [exact A1|eapply inputs_agree; [exact (topo n _ ps En)|exact EI]]).
      rewrite (result_again fuel n s _ s2 s' N L ER A K LE). cbn [rbind fst snd]. rewrite II. cbn [rbind fst snd]. rewrite KM. cbn [rbind]. rewrite LT. split; [exact E|exact A].
    - unfold config_kernel in *. destruct (result_kifRS fuel net n s) as [[[[[[rk ri] rf] R] V] s2]|] eqn:ER; [|discriminate]. cbn [rbind fst snd] in E.
      destruct (produced fuel net n s2) as [[[[pk pi] pf] s3]|] eqn:EP; [|discriminate]. cbn [rbind] in E. assert (s3 = s') by congruence. subst s3.
      assert (LE : store_le s' s2) by (eapply produced_le; exact EP).
      assert (L2 : Forall low s2) by (eapply low_up; eauto). pose proof (result_local _ _ _ _ _ ER) as A1.
      assert (N2 : Forall nice s2) by (destruct (requested_none net s topo own N fuel n s s2 _ ER N L2) as (N2 & _); exact N2).
      destruct (produced_idem net topo own fuel n s2 _ s' N2 L EP) as [PI K].
      assert (A : agree n s s') by (eapply agree_trans; [exact A1|eapply produced_local; exact EP]).
      rewrite (result_again fuel n s _ s2 s' N L ER A K LE). cbn [rbind fst snd]. rewrite PI. cbn [rbind]. split; [exact E|exact A].
  Qed.

  (** Registering the layers before n leaves the quantizers from n on alone. *)
  Lemma register_local fuel names off n : forall l s ov s' ov', Forall nice s -> Forall low s' -> Forall (fun m => (m < n)%nat) l -> register_layers fuel net names off l (s, ov) = Ok (s', ov') ->
    forall m q ps, (n <= m)%nat -> nth_error net m = Some (NFpq q, ps) -> nth_error s' q = nth_error s q.
  Proof.
    induction l as [|j l IH]; intros s ov s' ov' N L F H m q ps Lm Em; cbn in H; [congruence|].
    destruct (register_qconf fuel net names off j (s, ov)) as [[s1 ov1]|] eqn:E; [|discriminate]. cbn in H. inversion F; subst.
    destruct (register_moves net s topo own N fuel names off l s1 ov1 s' ov' H) as [_ LE].
    apply register_step in E as [(t & ps' & _ & -> & _)|(NL & q1 & c & name1 & W & C & _)]; [eapply IH; eauto|].
    assert (L1 : Forall low s1) by (eapply low_up; eauto). destruct (config_again fuel j s off c s1 N L1 C) as [_ A]. destruct (config_moves net s topo own N fuel j s off c s1 C) as [M _].
    destruct (M N L1) as (N1 & _). rewrite (IH s1 ov1 s' ov' N1 L ltac:(assumption) H m q ps Lm Em). apply (A m q ps); [lia|exact Em].
  Qed.
End Local.

Section Stage.
  Variable (fuel : nat) (net : pnet) (names : list string) (s : pst) (ov : ovs) (s' : pst) (ov' : ovs).
  Hypothesis topo : topological net.
  Hypothesis own : own_quantizers net.
  Hypothesis nices : Forall nice s.
  Hypothesis lows' : Forall low s'.
  Hypothesis reg : register_all fuel net names None (s, ov) = Ok (s', ov').

  Lemma keeps_inputs fu st ps ts : keeps net st s' -> input_kifs fu net ps st = Ok (ts, st) -> input_kifs fu net ps s' = Ok (ts, s').
  Proof.
    intros K H. apply input_kifs_fix in H. induction H as [|p t ps ts E H IH]; [reflexivity|]. cbn [input_kifs]. rewrite (K _ _ _ E). cbn [rbind fst snd]. rewrite IH. reflexivity.
  Qed.

  Lemma stage_facts n kd ps types size st : nth_error net n = Some (kd, ps) -> registered_at fuel net names (s, ov) n types size st ->
    Forall nice st /\ Forall low st /\ reduced_once net s st /\ reduced_once net st s' /\ keeps net st s' /\ agree net n s st /\
    ((forall t, kd <> NLut t) -> layer_config fuel net n st None = Ok ((types, size), st)).
  Proof.
    intros En (s1 & ov1 & R1 & C). assert (Ln : (n < List.length net)%nat) by (apply (proj1 (nth_error_Some net n)); rewrite En; discriminate).
    unfold register_all in reg. rewrite (seq_split n _ Ln), register_app, R1 in reg. cbn [rbind register_layers] in reg.
    destruct (register_qconf fuel net names None n (s1, ov1)) as [[s2 ov2]|] eqn:E; [|discriminate]. cbn [rbind] in reg.
    assert (ES : s2 = st).
    { apply register_step in E as [(t & ps' & EL & -> & _)|(NL & q1 & c & name1 & W & C' & _)].
      - rewrite EL in C. congruence.
      - destruct (nth_error net n) as [[kd' ps']|] eqn:En'; [|discriminate]. destruct kd'; try (rewrite C in C'; congruence). destruct (NL _ _ eq_refl). }
    subst s2. destruct (register_moves net s topo own nices fuel names None _ _ _ _ _ reg) as [M2 LE2]. assert (L : Forall low st) by (eapply low_up; eauto).
    destruct (register_moves net s topo own nices fuel names None _ _ _ _ _ R1) as [M1 LE1].
    assert (X : store_le st s1 /\ moves net s s1 st).
    { apply register_step in E as [(t & ps' & EL & -> & _)|(NL & q1 & c & name1 & W & C' & _)]; [split; [apply store_le_refl|apply moves_refl]|].
      destruct (config_moves net s topo own nices fuel n s1 None c st C') as [A B]. auto. }
    destruct X as [LE X]. assert (L1 : Forall low s1) by (eapply low_up; eauto). destruct (M1 nices L1) as (N1 & _ & RO1 & _). destruct (X N1 L) as (N & _ & RO & _).
    assert (RS : reduced_once net s st) by (apply RO, RO1, reduced_refl).
    split; [exact N|]. split; [exact L|]. split; [exact RS|].
    destruct (register_moves net st topo own N fuel names None _ _ _ _ _ reg) as [M3 _]. destruct (M3 N lows') as (_ & _ & RO3 & K3).
    split; [apply RO3, reduced_refl|]. split; [exact K3|].
    assert (A1 : forall m q ps0, (n <= m)%nat -> nth_error net m = Some (NFpq q, ps0) -> nth_error s1 q = nth_error s q).
    { apply (register_local net topo own fuel names None n (seq 0 n) s ov s1 ov1 nices L1); [|exact R1]. apply Forall_forall. intros m I. apply in_seq in I. lia. }
    rewrite En in C. destruct kd as [|q|a fn|sm fn|pool| | | | |kernel div bias| | |kf|];
      try (destruct (config_again net topo own fuel n s1 None (types, size) st N1 L C) as [HC A]; split; [|intros _; exact HC]; intros m q0 ps0 Lm Em; rewrite (A m q0 ps0 Lm Em); apply (A1 m q0 ps0); [lia|exact Em]).
    subst s1. split; [|intros NL; destruct (NL kf eq_refl)]. intros m q0 ps0 Lm Em. apply (A1 m q0 ps0); [lia|exact Em].
  Qed.

  Lemma between n kd ps types size st m q ps' : nth_error net n = Some (kd, ps) -> registered_at fuel net names (s, ov) n types size st -> nth_error net m = Some (NFpq q, ps') ->
    nth_error st q = nth_error s q \/ nth_error st q = nth_error s' q.
  Proof.
    intros En RA Em. destruct (stage_facts n kd ps types size st En RA) as (N & L & R1 & R2 & K & _).
    destruct (R1 m q ps' Em) as [E|(p & fu & t & o & r & o' & E0 & P0 & S0 & F0 & E2 & Q)]; [left; exact E|right].
    destruct (R2 m q ps' Em) as [E|(p2 & fu2 & t2 & o2 & r2 & o3 & E0' & P2 & S2 & F2 & E3 & _)]; [congruence|].
    assert (p2 = p) by congruence. subst p2. assert (o2 = o') by congruence. subst o2.
    pose proof (produced_agree _ _ _ _ _ _ _ (K _ _ _ P0) P2) as ET. assert (t2 = t) by congruence. subst t2.
    assert (FI : fpq_produced t o' = (r, o')) by (eapply fpq_idem; [eapply Forall_nth; [exact nices|exact S0]|eapply Forall_nth; [exact L|exact E2]|exact F0]).
    congruence.
  Qed.

  Lemma stage_fine n kd ps types size st : all_fine net s' -> nth_error net n = Some (kd, ps) -> registered_at fuel net names (s, ov) n types size st -> all_fine net st.
  Proof.
    intros [AF AL] En RA. destruct (stage_facts n kd ps types size st En RA) as (N & L & _ & R2 & K & _). split; [|exact AL].
    intros m kd' ps' fu ts t Em HI HP. pose proof (AF m kd' ps' fu ts t Em (keeps_inputs _ _ _ _ K HI) (K _ _ _ HP)) as NF.
    destruct kd'; try exact NF. cbn [node_fine] in *. destruct NF as (o & Eo & NF). exists o. split; [|exact NF].
    destruct (R2 m q ps' Em) as [E|(p2 & fu2 & t2 & o2 & r2 & o3 & E0' & P2 & S2 & F2 & E3 & _)]; [congruence|].
    rewrite produced_S, Em in HP. cbn [step] in HP. rewrite HI in HP. cbn [rbind fst snd] in HP. subst ps'. pose proof (input_kifs_fix _ _ _ _ _ HI) as FI.
    inversion FI as [|? u ? ts' Pu FI']; subst. inversion FI'; subst. rewrite S2 in HP. destruct (fpq_produced u o2) as [r o4] eqn:F4. apply okpair in HP as [_ HP].
    pose proof (produced_agree _ _ _ _ _ _ _ (K _ _ _ Pu) P2) as ET. assert (t2 = u) by congruence. subst t2.
    assert (o4 = o3) by congruence. subst o4. assert (X : nth_error st q = Some o3) by (rewrite <- HP; eapply nth_upd_same; exact S2). congruence.
  Qed.
End Stage.

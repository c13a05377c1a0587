(** Registration leaves the outputs of a proxy alone where nothing overflows: C79. *)
From Coq Require Import ZArith QArith Qcanon List Bool String Lia.
From Verif Require Import Base.Num Base.NumFacts Base.Tensor Base.Compute Model.FixedPoint Model.Precision Model.Lut Model.Register
  Spec.Fixed Spec.Precision Spec.NetEval Spec.Quiet Proofs.FixedPointP Proofs.FitsP Proofs.PrecisionP Proofs.IdemP Proofs.QuietP Props.P_Firmware.
Import ListNotations.
Local Open Scope Z_scope.

(** C79: registering the precisions of a proxy shrinks its quantizers.  On every
    input on which no quantizer overflows before, all layers deliver the same
    outputs after, and still no quantizer overflows. *)
Theorem C79_same : forall fuel net names off s ov s' ov' geo feed opaque tables out,
  topological net -> own_quantizers net -> Forall one_sign s -> Forall moderate s -> Forall moderate s' -> Forall plain_fpq s ->
  register_all fuel net names off (s, ov) = Ok (s', ov') ->
  all_fine net s' -> honest net feed opaque -> proper_tables net tables ->
  (forall m q ps fu t o, nth_error net m = Some (NFpq q, ps) -> nth_error s q = Some o -> produced fu net m s' = Ok (t, s') -> shrinks_evenly o t) ->
  run s geo feed opaque tables net [] = Ok out -> quiet net s geo out ->
  run s' geo feed opaque tables net [] = Ok out /\ quiet net s' geo out.
Proof.
  intros fuel net names off s ov s' ov' geo feed opaque tables out T OQ O M M' PL H AF HH TB EV R Q.
  assert (N : Forall nice s).
  { rewrite Forall_forall in *. intros o Ho. split; [apply O, Ho|]. eapply Forall_impl; [|exact (M o Ho)]. cbn beta. intros c Hc. lia. }
  assert (L : forall st, Forall moderate st -> Forall low st).
  { intros st Mt. rewrite Forall_forall in *. intros o Ho. eapply Forall_impl; [|exact (Mt o Ho)]. cbn beta. intros c Hc. lia. }
  destruct (register_reduced net s T OQ N fuel names off ov s' ov' (L s' M') H) as (RO & _ & _).
  apply (quiet_same net s s' geo feed opaque tables HH AF TB N (L s M) PL RO EV out R Q).
Qed.
Print Assumptions C79_same.

(** C79: quantizers that treat all elements alike always shrink evenly, unless
    no bits are left. *)
Theorem C79_uniform : forall u o c t o', uniform o c -> fpq_produced u o = (t, o') -> 0 <= snd (fst t) + snd t -> shrinks_evenly o t.
Proof.
  intros u o c t o' [[NE [LF _]] U] E W. destruct (result_t_kif_one o c NE LF U) as [ER _]. destruct u as [[ik ii] jf].
  unfold fpq_produced in E. rewrite ER in E. cbv zeta in E. destruct t as [[k i] f]. cbn [fst snd] in W. unfold shrinks_evenly. split; [exact W|]. intros d Hd.
  rewrite Forall_forall in U. rewrite (U d Hd). assert (Ef : f = Z.min jf (bits c - ints c)) by congruence. right. lia.
Qed.
Print Assumptions C79_uniform.

(** *** Examples: two quantizers one after the other, tensors of two elements *)
Definition qnet : pnet := [(NInput, []); (NFpq 0, [0%nat]); (NFpq 1, [1%nat])].
Definition qgeo (n : nat) : list recipe := match n with O => [] | _ => [mkR [Some (0%nat, 0%nat)] 0 []; mkR [Some (0%nat, 1%nat)] 1 []] end.
Definition qfeed (x : list Qc) (n : nat) : list Qc := match n with O => x | _ => [] end.
Definition qnames : list string := ["in"; "q0"; "q1"]%string.
Definition q2 (c d : qcfg) (R V : string) : fpq unit := fq [c; d] R V.
Definition qrun (s : pst) (x : list Qc) : result (list (list Qc)) := run s qgeo (qfeed x) (fun _ _ => []) (fun _ => None) qnet [].
Lemma qnet_topo : topological qnet.
Proof. intros [|[|[|n]]] kd ps E; cbn in E; try (destruct n; discriminate); injection E as <- <-; repeat constructor. Qed.
Lemma qnet_own : own_quantizers qnet.
Proof. intros [|[|[|n]]] [|[|[|m]]] q ps1 ps2 E1 E2; cbn in E1, E2; try discriminate; try congruence; try (destruct n; discriminate); try (destruct m; discriminate). Qed.
Lemma qrun_ok s x out : map (map this) out = values (qrun s x) -> out <> [] -> qrun s x = Ok out.
Proof.
  unfold values. destruct (qrun s x) as [y|]; [|destruct out; [congruence|discriminate]]. intros H _. f_equal. symmetry. apply map_map_this_inj. exact H.
Qed.
Ltac qrun_is := apply qrun_ok; [vm_compute; reflexivity|discriminate].
(** Quietness from the codes of the elements. *)
Lemma qquiet a b s x0 x1 y0 y1 z : nth_error s 0 = Some a -> nth_error s 1 = Some b ->
  (forall j c x, nth_error (data (cfgs a)) j = Some c -> nth_error [x0; x1] j = Some x -> in_format a c x) ->
  (forall j c x, nth_error (data (cfgs b)) j = Some c -> nth_error [y0; y1] j = Some x -> in_format b c x) ->
  quiet qnet s qgeo [[x0; x1]; [y0; y1]; z].
Proof.
  intros Ea Eb A B m q p r j o c xs x Em IR SR Eo Ec Exs Ex. destruct m as [|[|[|m]]]; [discriminate| | |destruct m; discriminate];
    cbn in Em; injection Em as <- <-; cbn in Exs; injection Exs as <-;
    [assert (o = a) by congruence|assert (o = b) by congruence]; subst o;
    (destruct IR as [<-|[<-|[]]]; cbn in SR; injection SR as <-; cbn [r_ch] in Ec);
    [apply (A 0%nat c x)|apply (A 1%nat c x)|apply (B 0%nat c x)|apply (B 1%nat c x)]; assumption.
Qed.
Ltac trn n := right; exists n; split; [left; split; [reflexivity|]; split; [apply qleb_true; vm_compute; reflexivity|apply qltb_true; vm_compute; reflexivity]|right; split; [reflexivity|cbn; lia]].
Ltac allfq t := repeat (apply Forall_cons; [t|]); apply Forall_nil.
Ltac plainq := split; [legal|discriminate].
Ltac signq := split; [discriminate|eexists; repeat (apply Forall_cons; [reflexivity|]); apply Forall_nil].
Ltac modq := repeat (apply Forall_cons; [cbn; lia|]); apply Forall_nil.
Ltac two := let j := fresh in let c := fresh in let x := fresh in let H1 := fresh in let H2 := fresh in intros j c x H1 H2; destruct j as [|[|j]]; [| |destruct j; discriminate H1]; cbn in H1, H2; injection H1 as <-; injection H2 as <-.

(** The second quantizer is shrunk from 6 to 4 bits; 5/2 and -3 pass it as before. *)
Definition qs1 : pst := [q2 (mkCfg 1 5 4) (mkCfg 1 5 4) "TRN" "SAT"; q2 (mkCfg 1 6 3) (mkCfg 1 6 3) "TRN" "SAT"].
Definition qs1' : pst := [q2 (mkCfg 1 5 4) (mkCfg 1 5 4) "TRN" "SAT"; q2 (mkCfg 1 4 3) (mkCfg 1 4 3) "TRN" "SAT"].
Lemma qs1_registered : exists ov', register_all 4 qnet qnames None (qs1, [Some []; Some []]) = Ok (qs1', ov').
Proof. eexists. vm_compute. reflexivity. Qed.
Lemma qs1_fine : all_fine qnet qs1'.
Proof.
  split; [|intros [|[|[|n]]] k i f ps E; cbn in E; try discriminate; destruct n; discriminate].
  intros [|[|[|n]]] kd ps fuel ts t E HI HP; cbn in E; try (destruct n; discriminate); injection E as <- <-; cbn [node_fine]; try exact I;
    eexists; (split; [reflexivity|]); left; eexists; (split; [legal|repeat constructor]).
Qed.
Lemma qs1_plain : Forall plain_fpq qs1.
Proof. allfq plainq. Qed.
Lemma qs1_quiet : quiet qnet qs1 qgeo [[Q2Qc (21 # 8); qz (-3)]; [Q2Qc (5 # 2); qz (-3)]; [Q2Qc (5 # 2); qz (-3)]].
Proof. eapply qquiet; [reflexivity|reflexivity|two; [trn 5|trn (-6)]|two; [trn 20|trn (-24)]]. Qed.
Lemma qs1_even m q ps fu t o : nth_error qnet m = Some (NFpq q, ps) -> nth_error qs1 q = Some o -> produced fu qnet m qs1' = Ok (t, qs1') -> shrinks_evenly o t.
Proof.
  intros Em Eo HP. destruct m as [|[|[|m]]]; [discriminate| | |destruct m; discriminate]; cbn in Em; injection Em as <- <-; cbn in Eo; injection Eo as <-.
  - assert (HI' : produced 6 qnet 1 qs1' = Ok ((1, 3, 1), qs1')) by (vm_compute; reflexivity). pose proof (produced_agree _ _ _ _ _ _ _ HP HI') as E. assert (t = (1, 3, 1)) by congruence. subst t.
    split; [lia|]. intros c [<-|[<-|[]]]; cbn; lia.
  - assert (HI' : produced 6 qnet 2 qs1' = Ok ((1, 2, 1), qs1')) by (vm_compute; reflexivity). pose proof (produced_agree _ _ _ _ _ _ _ HP HI') as E. assert (t = (1, 2, 1)) by congruence. subst t.
    split; [lia|]. intros c [<-|[<-|[]]]; cbn; lia.
Qed.
Lemma qfeed_honest x : Forall float_value x -> honest qnet (qfeed x) (fun _ _ => []).
Proof. intros F. split; [|split; intros; constructor]. intros [|n]; cbn; [exact F|constructor]. Qed.
Example C79_same_ex : Forall one_sign qs1 /\ Forall moderate qs1 /\ Forall moderate qs1' /\
  qrun qs1 [Q2Qc (21 # 8); qz (-3)] = Ok [[Q2Qc (21 # 8); qz (-3)]; [Q2Qc (5 # 2); qz (-3)]; [Q2Qc (5 # 2); qz (-3)]] /\
  qrun qs1' [Q2Qc (21 # 8); qz (-3)] = Ok [[Q2Qc (21 # 8); qz (-3)]; [Q2Qc (5 # 2); qz (-3)]; [Q2Qc (5 # 2); qz (-3)]].
Proof.
  assert (O : Forall one_sign qs1) by allfq signq.
  assert (M : Forall moderate qs1) by allfq modq. assert (M' : Forall moderate qs1') by allfq modq.
  assert (R : qrun qs1 [Q2Qc (21 # 8); qz (-3)] = Ok [[Q2Qc (21 # 8); qz (-3)]; [Q2Qc (5 # 2); qz (-3)]; [Q2Qc (5 # 2); qz (-3)]]) by qrun_is.
  do 4 (split; [assumption|]). destruct qs1_registered as [ov' RG].
  refine (proj1 (C79_same 4 qnet qnames None qs1 _ qs1' ov' qgeo (qfeed _) (fun _ _ => []) (fun _ => None) _ qnet_topo qnet_own O M M' qs1_plain RG qs1_fine _ _ qs1_even R qs1_quiet)).
  - apply qfeed_honest. assert (F : forall x, fits 1 4 4 x -> float_value x) by (intros x; apply fits_mono; lia).
    constructor; [|constructor; [|constructor]]; apply F; [plain 42|plain (-48)].
  - intros n k i f ps l _ X. discriminate X.
Qed.

(** Registration changes an output of the network. *)
Definition disturbed (s : pst) (x : list Qc) (out : list (list Qc)) : Prop :=
  exists s' ov' out', register_all 4 qnet qnames None (s, [Some []; Some []]) = Ok (s', ov') /\ qrun s x = Ok out /\ qrun s' x = Ok out' /\ nth_error out' 2 <> nth_error out 2.
Lemma disturbs s x out s' ov' out' : register_all 4 qnet qnames None (s, [Some []; Some []]) = Ok (s', ov') -> qrun s x = Ok out -> qrun s' x = Ok out' ->
  map this (nth 2 out []) <> map this (nth 2 out' []) -> (2 < List.length out)%nat -> (2 < List.length out')%nat -> disturbed s x out.
Proof.
  intros A B C D L L'. exists s', ov', out'. do 3 (split; [assumption|]). intros E. apply D. rewrite (nth_error_nth' out [] L), (nth_error_nth' out' [] L') in E. congruence.
Qed.
Ltac disturb s' o' := eapply (disturbs _ _ _ s' _ o'); [vm_compute; reflexivity|qrun_is|qrun_is|vm_compute; discriminate|cbn; lia|cbn; lia].
(** C79: quietness is needed: with the quantizers above, 5 is first saturated to
    31/8, then to 7/2. *)
Theorem C79_overflow_refuted : exists s x out, Forall plain_fpq s /\ (forall q o, nth_error s q = Some o -> exists c, uniform o c) /\ disturbed s x out.
Proof.
  exists qs1, [qz 5; qz 0], [[qz 5; qz 0]; [qz 5; qz 0]; [Q2Qc (31 # 8); qz 0]]. split; [exact qs1_plain|]. split.
  - intros [|[|q]] o E; [| |destruct q; discriminate E]; cbn in E; injection E as <-; eexists; (split; [legal|repeat constructor]).
  - disturb qs1' [[qz 5; qz 0]; [qz 5; qz 0]; [Q2Qc (7 # 2); qz 0]].
Qed.
Print Assumptions C79_overflow_refuted.
(** C79: even shrinking is needed: an element with 5 integer bits and no
    fractional ones ends up with 4 and 1, and 15/2 is no longer rounded to 7. *)
Theorem C79_uneven_refuted : exists s x out, Forall plain_fpq s /\ Forall one_sign s /\ disturbed s x out /\ quiet qnet s qgeo out.
Proof.
  exists [q2 (mkCfg 1 7 4) (mkCfg 1 7 4) "TRN" "WRAP"; q2 (mkCfg 1 5 5) (mkCfg 1 6 1) "TRN" "WRAP"], [Q2Qc (15 # 2); qz 0], [[Q2Qc (15 # 2); qz 0]; [Q2Qc (15 # 2); qz 0]; [qz 7; qz 0]].
  split; [|split; [|split]].
  - allfq plainq.
  - allfq signq.
  - disturb [q2 (mkCfg 1 7 4) (mkCfg 1 7 4) "TRN" "WRAP"; q2 (mkCfg 1 5 4) (mkCfg 1 6 1) "TRN" "WRAP"] [[Q2Qc (15 # 2); qz 0]; [Q2Qc (15 # 2); qz 0]; [Q2Qc (15 # 2); qz 0]].
  - eapply qquiet; [reflexivity|reflexivity|two; [trn 60|trn 0]|two; [trn 7|trn 0]].
Qed.
Print Assumptions C79_uneven_refuted.
(** C79: SAT_SYM has to be excluded: -8 passes 5 bits but not the 4 left. *)
Theorem C79_symmetric_refuted : exists s x out, Forall legal_fpq s /\ (forall q o, nth_error s q = Some o -> exists c, uniform o c) /\ disturbed s x out /\ quiet qnet s qgeo out.
Proof.
  exists [q2 (mkCfg 1 4 4) (mkCfg 1 4 4) "TRN" "WRAP"; q2 (mkCfg 1 5 5) (mkCfg 1 5 5) "TRN" "SAT_SYM"], [qz (-8); qz 0], [[qz (-8); qz 0]; [qz (-8); qz 0]; [qz (-8); qz 0]].
  split; [|split; [|split]].
  - allfq legal.
  - intros [|[|q]] o E; [| |destruct q; discriminate E]; cbn in E; injection E as <-; eexists; (split; [legal|repeat constructor]).
  - disturb [q2 (mkCfg 1 4 4) (mkCfg 1 4 4) "TRN" "WRAP"; q2 (mkCfg 1 4 4) (mkCfg 1 4 4) "TRN" "SAT_SYM"] [[qz (-8); qz 0]; [qz (-8); qz 0]; [qz (-7); qz 0]].
  - eapply qquiet; [reflexivity|reflexivity|two; [trn (-8)|trn 0]|two; [trn (-8)|trn 0]].
Qed.
Print Assumptions C79_symmetric_refuted.

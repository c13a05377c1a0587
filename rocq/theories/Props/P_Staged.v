(** C80: firmware in the types as they are registered, layer by layer, while the
    quantizers are shrunk. *)
From Coq Require Import ZArith Qcanon List Bool String Permutation Lia.
From Verif Require Import Base.Num Base.NumFacts Base.Tensor Base.Compute Model.FixedPoint Model.Precision Model.Register Model.Lut Spec.Fixed Spec.Precision Spec.NetEval Spec.Firmware Spec.Quiet Spec.Staged.
From Verif Require Import Proofs.FixedPointP Proofs.FitsP Proofs.PrecisionP Proofs.SoundP Proofs.IdemP Proofs.NetEvalP Proofs.MergeP Proofs.RegisterP Proofs.QuietP Proofs.StageRunP Props.P_Firmware Props.P_Quiet.
Import ListNotations.
Open Scope Z_scope.

(** C80: the layers of a proxy are registered one after the other, each with the
    types derived from the quantizers as they are at that moment; quantizers are
    shrunk on the way.  On every input on which no quantizer of the proxy as
    converted overflows, the firmware in these types, with the quantizers as they
    are in the end, delivers the outputs of the proxy as converted. *)
Theorem C80_registered : forall fuel net names s ov s' ov' geo feed opaque confs sizes stage tables adder out,
  topological net -> own_quantizers net -> Forall one_sign s -> Forall moderate s -> Forall moderate s' -> Forall plain_fpq s ->
  register_all (S fuel) net names None (s, ov) = Ok (s', ov') ->
  all_fine net s' -> honest net feed opaque -> proper_tables net tables ->
  (forall m q ps fu t o, nth_error net m = Some (NFpq q, ps) -> nth_error s q = Some o -> produced fu net m s' = Ok (t, s') -> shrinks_evenly o t) ->
  same_fusion net s s' ->
  (forall n kd ps, nth_error net n = Some (kd, ps) -> registered_at (S fuel) net names (s, ov) n (confs n) (sizes n) (stage n)) ->
  (forall n kd ps, nth_error net n = Some (kd, ps) -> synthesized (S fuel) net (stage n) tables n) -> adding adder ->
  run s geo feed opaque tables net [] = Ok out -> quiet net s geo out ->
  exists out', fw_run net s' geo feed opaque (fun n => type_named (confs n)) sizes tables adder net [] = Ok out' /\ List.length out' = List.length out /\
    forall n, removed net s' n = true \/ (exists t ps, nth_error net n = Some (NLut t, ps)) \/
      ((forall ps, nth_error net n <> Some (NInput, ps)) /\ demanding_readers (S fuel) net (stage n) n) -> nth_error out' n = nth_error out n.
Proof.
  intros fuel net names s ov s' ov' geo feed opaque confs sizes stage tables adder out T OQ O M M' PL.
  assert (N : Forall nice s).
  { rewrite Forall_forall in *. intros o Ho. split; [apply O, Ho|]. eapply Forall_impl; [|exact (M o Ho)]. cbn beta. intros c Hc. lia. }
  assert (L : forall st, Forall moderate st -> Forall low st).
  { intros st Mt. rewrite Forall_forall in *. intros o Ho. eapply Forall_impl; [|exact (Mt o Ho)]. cbn beta. intros c Hc. lia. }
  exact (staged_firmware fuel net names s ov s' ov' geo feed opaque confs sizes stage tables adder out T OQ N (L s M) (L s' M') PL).
Qed.
Print Assumptions C80_registered.

(** C80: every layer of a registered network has its moment. *)
Theorem C80_stages : forall fuel net names s ov s' ov', register_all fuel net names None (s, ov) = Ok (s', ov') ->
  exists confs sizes stage, forall n kd ps, nth_error net n = Some (kd, ps) -> registered_at fuel net names (s, ov) n (confs n) (sizes n) (stage n).
Proof.
  intros fuel net names s ov s' ov' H.
  pose (before n := match register_layers fuel net names None (seq 0 n) (s, ov) with Ok (b, _) => b | Raise => s end).
  pose (conf n := layer_config fuel net n (before n) None).
  exists (fun n => match conf n with Ok ((t, _), _) => t | Raise => [] end), (fun n => match conf n with Ok ((_, z), _) => z | Raise => None end),
    (fun n => match nth_error net n with Some (NLut _, _) => before n | _ => match conf n with Ok (_, st) => st | Raise => s end end).
  intros n kd ps En. assert (Ln : (n < List.length net)%nat) by (apply (proj1 (nth_error_Some net n)); rewrite En; discriminate).
  unfold register_all in H. rewrite (seq_split n _ Ln), register_app in H. unfold registered_at, conf, before.
  destruct (register_layers fuel net names None (seq 0 n) (s, ov)) as [[b o]|] eqn:E; [|discriminate]. cbn [rbind register_layers] in H. exists b, o. split; [reflexivity|].
  destruct (register_qconf fuel net names None n (b, o)) as [[s2 o2]|] eqn:E2; [|discriminate].
  apply register_step in E2 as [(t & ps' & EL & _)|(NL & q1 & [t z] & name1 & W & C & _)].
  - rewrite EL. reflexivity.
  - rewrite En. rewrite C. destruct kd; reflexivity.
Qed.
Print Assumptions C80_stages.

(** *** Example: the network of C71; the second quantizer loses an integer bit of
    one element, the third one a fractional bit; what the first dense layer
    stores is already truncated to quarters. *)
Definition sst : pst := [fq [mkCfg 1 4 2] "RND" "SAT"; fq [mkCfg 1 8 6; mkCfg 1 5 4] "TRN" "WRAP"; fq [mkCfg 1 9 6] "RND" "SAT"].
Definition sst1 : pst := [fq [mkCfg 1 4 2] "RND" "SAT"; fq [mkCfg 1 7 5; mkCfg 1 5 4] "TRN" "WRAP"; fq [mkCfg 1 9 6] "RND" "SAT"].
Definition sst2 : pst := [fq [mkCfg 1 4 2] "RND" "SAT"; fq [mkCfg 1 7 5; mkCfg 1 5 4] "TRN" "WRAP"; fq [mkCfg 1 8 6] "RND" "SAT"].
Definition snames : list string := ["in"; "q0"; "d0"; "q1"; "d1"; "q2"]%string.
Definition sov : ovs := [Some []; Some []; Some []].
Definition sstage (n : nat) : pst := match n with 0 | 1 | 2 => sst | 3 | 4 => sst1 | _ => sst2 end%nat.
Definition sbefore (n : nat) : pst := match n with 0 | 1 | 2 | 3 => sst | 4 | 5 => sst1 | _ => sst2 end%nat.
Definition sconf (n : nat) : list (string * string) := match layer_config 6 fnet n (sbefore n) None with Ok ((t, _), _) => t | Raise => [] end.
Lemma fnet_topo : topological fnet.
Proof. intros [|[|[|[|[|[|n]]]]]] kd ps E; cbn in E; try (destruct n; discriminate); injection E as <- <-; repeat constructor. Qed.
Lemma fnet_own : own_quantizers fnet.
Proof. intros [|[|[|[|[|[|n]]]]]] [|[|[|[|[|[|m]]]]]] q ps1 ps2 E1 E2; cbn in E1, E2; try discriminate; try congruence; try (destruct n; discriminate); try (destruct m; discriminate). Qed.
Lemma sst_registered : exists ov', register_all 6 fnet snames None (sst, sov) = Ok (sst2, ov').
Proof. eexists. vm_compute. reflexivity. Qed.
Lemma sst_stages n kd ps : nth_error fnet n = Some (kd, ps) -> registered_at 6 fnet snames (sst, sov) n (sconf n) None (sstage n).
Proof.
  intros E. destruct n as [|[|[|[|[|[|n]]]]]]; [..|destruct n; discriminate E];
    match goal with |- registered_at _ _ _ _ ?n _ _ _ => exists (sbefore n) end; eexists; (split; [vm_compute; reflexivity|vm_compute; reflexivity]).
Qed.
Lemma sst2_fine : all_fine fnet sst2.
Proof.
  split; [|intros [|[|[|[|[|[|n]]]]]] k i f ps E; cbn in E; try discriminate; destruct n; discriminate].
  intros [|[|[|[|[|[|n]]]]]] kd ps fuel ts t E HI HP; cbn in E; try discriminate; try (destruct n; discriminate); injection E as <- <-; cbn [node_fine]; try exact I.
  - eexists. split; [reflexivity|]. left. eexists. split; [legal|repeat constructor].
  - apply one_input in HI as [v [-> HI]].
    assert (Ev : v = (1, 1, 2)) by (assert (HI' : produced 6 fnet 1 sst2 = Ok ((1, 1, 2), sst2)) by (vm_compute; reflexivity); pose proof (produced_agree _ _ _ _ _ _ _ HI HI'); congruence).
    assert (Et : t = (1, 3, 3)) by (assert (HI' : produced 6 fnet 2 sst2 = Ok ((1, 3, 3), sst2)) by (vm_compute; reflexivity); pose proof (produced_agree _ _ _ _ _ _ _ HP HI'); congruence).
    subst v t. split; [lia|]. split; [discriminate|]. split; [reflexivity|]. split; [|split].
    + apply Forall_cons; [plain (2 ^ 32)|]. apply Forall_cons; [plain (-2 * 2 ^ 32)|]. apply Forall_cons; [plain (2 ^ 31)|]. apply Forall_cons; [plain (2 ^ 32)|]. apply Forall_nil.
    + intros k i f _ _ v e Hv C. assert (EV : v = 0 \/ v = 1) by lia. pose proof (pow2_pos e) as P. assert (Q' : (qz 0 < qz 1)%Qc) by (apply qz_lt; lia).
      assert (Q : (qz 1 = - pow2 e)%Qc).
      { destruct EV as [->| ->]; unfold column in C; cbn in C; inversion C as [|? ? E1 C']; subst; [exact E1|]. inversion C' as [|? ? E2 ?]; subst. exact E2. }
      rewrite Q in Q'. qlra.
    + intros k i f v b [E|[]] Hv Eb. injection E as <- <- <-. assert (EV : v = 0 \/ v = 1) by lia. cbn [fst snd].
      destruct EV as [->| ->]; cbn in Eb; injection Eb as <-; (split; [|apply qltb_true; vm_compute; reflexivity]); [exists 12; qvm|exists 4; qvm].
  - eexists. split; [reflexivity|]. right. exists 1. split; [legal|]. split; [repeat constructor|reflexivity].
  - apply one_input in HI as [v [-> HI]].
    assert (Ev : v = (1, 4, 2)) by (assert (HI' : produced 6 fnet 3 sst2 = Ok ((1, 4, 2), sst2)) by (vm_compute; reflexivity); pose proof (produced_agree _ _ _ _ _ _ _ HI HI'); congruence).
    subst v. split; [lia|]. split; [discriminate|]. split; [reflexivity|]. split; [|split].
    + apply Forall_cons; [plain (2 ^ 32)|]. apply Forall_cons; [plain (2 ^ 32)|]. apply Forall_nil.
    + intros k i f _ _ v e Hv C. assert (v = 0) by lia. subst v. unfold column in C. cbn in C. inversion C as [|? ? E _]; subst. pose proof (pow2_pos e) as P. assert (Q' : (qz 0 < qz 1)%Qc) by (apply qz_lt; lia). assert (Q : (qz 1 = - pow2 e)%Qc) by exact E. rewrite Q in Q'. qlra.
    + exact I.
  - eexists. split; [reflexivity|]. left. eexists. split; [legal|repeat constructor].
Qed.
Lemma sst_types n kd ps : nth_error fnet n = Some (kd, ps) -> synthesized 6 fnet (sstage n) (fun _ => None) n.
Proof.
  destruct n as [|[|[|[|[|[|n]]]]]]; intros E; [..|destruct n; discriminate E].
  - right. right. split; [discriminate|]. split; [exact I|]. split; [reflexivity|]. exists 1, 1, 2, "RND"%string, "SAT"%string. split; [vm_compute; reflexivity|]. split; [auto|]. split; [lia|]. split; [lia|]. split; [cbn; auto 10|]. split; [cbn; auto 10|]. split; [exact I|].
    left. exists 1%nat, 0%nat, (fq [mkCfg 1 4 2] "RND" "SAT"). split; [reflexivity|]. split; [reflexivity|]. split; [reflexivity|]. split; [legal|reflexivity].
  - left. split; vm_compute; reflexivity.
  - right. right. split; [discriminate|]. split; [exact I|]. split; [reflexivity|]. exists 1, 4, 2, "TRN"%string, "WRAP"%string. split; [vm_compute; reflexivity|]. split; [auto|]. split; [lia|]. split; [lia|]. split; [cbn; auto 10|]. split; [cbn; auto 10|]. split.
    + exists 1, 3, 3. split; [vm_compute; reflexivity|]. left. split; [reflexivity|]. split; [lia|]. split; [lia|auto].
    + right. right. split; [discriminate|]. right. split; [vm_compute; reflexivity|]. exists 1, 3, 3, 1, 5, 2, 1, 4, 2. split; [vm_compute; reflexivity|]. split; [vm_compute; reflexivity|]. split; [reflexivity|]. split; [lia|].
      intros [|[|[|[|[|[|m]]]]]] kd' ps' Em IP; cbn in Em; try (destruct m; discriminate Em); injection Em as <- <-; cbn in IP; try (destruct IP as [IP|[]]; discriminate IP); try contradiction.
      split; [reflexivity|]. exists 1%nat. split; [reflexivity|]. intros o Eo. change (Some (fq [mkCfg 1 8 6; mkCfg 1 5 4] "TRN" "WRAP") = Some o) in Eo. injection Eo as <-.
      split; [legal|]. split; [left; reflexivity|]. intros c _. left. lia.
  - right. right. split; [discriminate|]. split; [exact I|]. split; [vm_compute; reflexivity|]. exists 1, 4, 2, "TRN"%string, "WRAP"%string. split; [vm_compute; reflexivity|]. split; [auto|]. split; [lia|]. split; [lia|]. split; [cbn; auto 10|]. split; [cbn; auto 10|]. split; [exact I|].
    right. right. split; [discriminate|]. left. split; [vm_compute; reflexivity|]. exists 1, 4, 2, 1, 65535, 65535. split; [vm_compute; reflexivity|]. split; [vm_compute; reflexivity|]. lia.
  - right. right. split; [discriminate|]. split; [exact I|]. split; [reflexivity|]. exists 1, 5, 3, "RND"%string, "SAT"%string. split; [vm_compute; reflexivity|]. split; [auto|]. split; [lia|]. split; [lia|]. split; [cbn; auto 10|]. split; [cbn; auto 10|]. split.
    + exists 1, 6, 2. split; [vm_compute; reflexivity|]. right. split; [discriminate|]. lia.
    + left. exists 5%nat, 2%nat, (fq [mkCfg 1 9 6] "RND" "SAT"). split; [reflexivity|]. split; [reflexivity|]. split; [reflexivity|]. split; [legal|reflexivity].
  - left. split; vm_compute; reflexivity.
Qed.
Lemma sst_even m q ps fu t o : nth_error fnet m = Some (NFpq q, ps) -> nth_error sst q = Some o -> produced fu fnet m sst2 = Ok (t, sst2) -> shrinks_evenly o t.
Proof.
  intros Em Eo HP. destruct m as [|[|[|[|[|[|m]]]]]]; cbn in Em; try discriminate Em; [| | |destruct m; discriminate]; injection Em as <- <-; cbn in Eo; injection Eo as <-.
  - assert (HI' : produced 6 fnet 1 sst2 = Ok ((1, 1, 2), sst2)) by (vm_compute; reflexivity). pose proof (produced_agree _ _ _ _ _ _ _ HP HI') as E. assert (t = (1, 1, 2)) by congruence. subst t.
    split; [lia|]. intros c [<-|[]]; cbn; lia.
  - assert (HI' : produced 6 fnet 3 sst2 = Ok ((1, 4, 2), sst2)) by (vm_compute; reflexivity). pose proof (produced_agree _ _ _ _ _ _ _ HP HI') as E. assert (t = (1, 4, 2)) by congruence. subst t.
    split; [lia|]. intros c [<-|[<-|[]]]; cbn; lia.
  - assert (HI' : produced 6 fnet 5 sst2 = Ok ((1, 5, 2), sst2)) by (vm_compute; reflexivity). pose proof (produced_agree _ _ _ _ _ _ _ HP HI') as E. assert (t = (1, 5, 2)) by congruence. subst t.
    split; [lia|]. intros c [<-|[]]; cbn; lia.
Qed.
Definition sout : list (list Qc) := [[qz (-2); Q2Qc (27 # 16)]; [qz (-2); Q2Qc (7 # 4)]; [Q2Qc (3 # 8); Q2Qc (25 # 4)]; [Q2Qc (1 # 4); qz 6]; [Q2Qc (25 # 4)]; [Q2Qc (25 # 4)]].
Ltac rnd n := right; exists n; split; [apply rnd_iff; split; [apply qleb_true; vm_compute; reflexivity|apply qltb_true; vm_compute; reflexivity]|right; split; [reflexivity|cbn; lia]].
Lemma sst_quiet : quiet fnet sst fgeo sout.
Proof.
  intros m q p r j o c xs x Em IR SR Eo Ec Exs Ex. destruct m as [|[|[|[|[|[|m]]]]]]; cbn in Em; try discriminate Em; [| | |destruct m; discriminate]; injection Em as <- <-; cbn in Eo; injection Eo as <-; cbn in Exs; injection Exs as <-.
  - destruct IR as [<-|[<-|[]]]; cbn in SR, Ec; injection SR as <-; injection Ec as <-; cbn in Ex; injection Ex as <-; [rnd (-8)|rnd 7].
  - destruct IR as [<-|[<-|[]]]; cbn in SR, Ec; injection SR as <-; injection Ec as <-; cbn in Ex; injection Ex as <-; [trn 1|trn 12].
  - destruct IR as [<-|[]]; cbn in SR, Ec; injection SR as <-; injection Ec as <-; cbn in Ex; injection Ex as <-. rnd 50.
Qed.
Example C80_registered_ex : Forall plain_fpq sst /\ same_fusion fnet sst sst2 /\ sst <> sst2 /\ run sst fgeo ffeed (fun _ _ => []) (fun _ => None) fnet [] = Ok sout /\
  values (fw_run fnet sst2 fgeo ffeed (fun _ _ => []) (fun n => type_named (sconf n)) (fun _ => None) (fun _ => None) one_by_one fnet []) =
    map (map this) [[qz (-2); Q2Qc (7 # 4)]; [qz (-2); Q2Qc (7 # 4)]; [Q2Qc (1 # 4); Q2Qc (25 # 4)]; [Q2Qc (1 # 4); qz 6]; [Q2Qc (25 # 4)]; [Q2Qc (25 # 4)]] /\
  exists out', fw_run fnet sst2 fgeo ffeed (fun _ _ => []) (fun n => type_named (sconf n)) (fun _ => None) (fun _ => None) one_by_one fnet [] = Ok out' /\
    nth_error out' 5 = nth_error sout 5 /\ nth_error out' 3 = nth_error sout 3.
Proof.
  assert (PL : Forall plain_fpq sst) by allfq plainq.
  assert (SF : same_fusion fnet sst sst2).
  { intros m q ps o o' _ E E'. destruct q as [|[|[|q]]]; [| | |destruct q; discriminate E]; cbn in E, E'; injection E as <-; injection E' as <-; vm_compute; reflexivity. }
  assert (R : run sst fgeo ffeed (fun _ _ => []) (fun _ => None) fnet [] = Ok sout).
  { assert (V : values (run sst fgeo ffeed (fun _ _ => []) (fun _ => None) fnet []) = map (map this) sout) by (vm_compute; reflexivity).
    destruct (run sst fgeo ffeed (fun _ _ => []) (fun _ => None) fnet []) as [out|]; [|discriminate V]. f_equal. apply map_map_this_inj. exact V. }
  split; [exact PL|]. split; [exact SF|]. split; [discriminate|]. split; [exact R|]. split; [vm_compute; reflexivity|].
  destruct sst_registered as [ov' RG]. destruct C71_network_ex as (HH & _).
  destruct (C80_registered 5 fnet snames sst sov sst2 ov' fgeo ffeed (fun _ _ => []) sconf (fun _ => None) sstage (fun _ => None) one_by_one sout fnet_topo fnet_own) as (out' & F & _ & S); try assumption.
  - allfq signq.
  - allfq modq.
  - allfq modq.
  - exact sst2_fine.
  - intros n k i f ps l _ X. discriminate X.
  - exact sst_even.
  - exact sst_stages.
  - exact sst_types.
  - exact one_by_one_adds.
  - exact sst_quiet.
  - exists out'. split; [exact F|]. split; apply S; [left; vm_compute; reflexivity|right; right]. split; [discriminate|]. split; [vm_compute; reflexivity|].
    exists 1, 4, 2, 1, 65535, 65535. split; [vm_compute; reflexivity|]. split; [vm_compute; reflexivity|]. lia.
Qed.

(** C80: registration must not make a quantizer uniform.  Two formats with
    rounding become one when they are shrunk; the quantizer is then removed, but
    the dense layer before it was given a type for a quantizer that stays, and
    5/4 is no longer rounded to 3/2. *)
Definition tnet : pnet := [(NInput, []); (NFpq 0, [0%nat]); (NKernel [qz 1] 1 None, [1%nat]); (NFpq 1, [2%nat])].
Definition tst : pst := [fq [mkCfg 1 6 3] "TRN" "WRAP"; fq [mkCfg 1 6 5; mkCfg 1 7 6] "RND" "WRAP"].
Definition tst' : pst := [fq [mkCfg 1 6 3] "TRN" "WRAP"; fq [mkCfg 1 6 5; mkCfg 1 6 5] "RND" "WRAP"].
Definition tnames : list string := ["in"; "q0"; "d0"; "q1"]%string.
Definition tov : ovs := [Some []; Some []].
Definition tgeo (n : nat) : list recipe :=
  match n with O => [] | 3%nat => [mkR [Some (0%nat, 0%nat)] 0 []; mkR [Some (0%nat, 1%nat)] 1 []] | _ => [mkR [Some (0%nat, 0%nat)] 0 []; mkR [Some (0%nat, 1%nat)] 0 []] end.
Definition tstage (n : nat) : pst := match n with 0 | 1 | 2 => tst | _ => tst' end%nat.
Definition tconf (n : nat) : list (string * string) := match layer_config 4 tnet n tst None with Ok ((t, _), _) => t | Raise => [] end.
Definition tout (y : Qc) : list (list Qc) := let x := [Q2Qc (5 # 4); Q2Qc (1 # 2)] in [x; x; x; [y; Q2Qc (1 # 2)]].
Theorem C80_fusion_refuted : exists ov' geo feed, register_all 4 tnet tnames None (tst, tov) = Ok (tst', ov') /\ Forall plain_fpq tst /\
  (forall m q ps fu t o, nth_error tnet m = Some (NFpq q, ps) -> nth_error tst q = Some o -> produced fu tnet m tst' = Ok (t, tst') -> shrinks_evenly o t) /\
  (forall n kd ps, nth_error tnet n = Some (kd, ps) -> registered_at 4 tnet tnames (tst, tov) n (tconf n) None (tstage n)) /\
  run tst geo feed (fun _ _ => []) (fun _ => None) tnet [] = Ok (tout (Q2Qc (3 # 2))) /\ quiet tnet tst geo (tout (Q2Qc (3 # 2))) /\
  removed tnet tst 3 = false /\ removed tnet tst' 3 = true /\
  fw_run tnet tst' geo feed (fun _ _ => []) (fun n => type_named (tconf n)) (fun _ => None) (fun _ => None) one_by_one tnet [] = Ok (tout (Q2Qc (5 # 4))).
Proof.
  eexists. exists tgeo, (qfeed [Q2Qc (5 # 4); Q2Qc (1 # 2)]).
  assert (OK : forall r out, values r = map (map this) out -> out <> [] -> r = Ok out).
  { intros [o|] out V NE; [f_equal; apply map_map_this_inj; exact V|]. destruct out; [congruence|discriminate V]. }
  split; [vm_compute; reflexivity|]. split; [allfq plainq|]. split; [|split; [|split; [|split; [|split; [|split]]]]].
  - intros m q ps fu t o Em Eo HP. destruct m as [|[|[|[|m]]]]; cbn in Em; try discriminate Em; [| |destruct m; discriminate]; injection Em as <- <-; cbn in Eo; injection Eo as <-.
    + assert (HI' : produced 4 tnet 1 tst' = Ok ((1, 2, 3), tst')) by (vm_compute; reflexivity). pose proof (produced_agree _ _ _ _ _ _ _ HP HI') as E. assert (t = (1, 2, 3)) by congruence. subst t.
      split; [lia|]. intros c [<-|[]]; cbn; lia.
    + assert (HI' : produced 4 tnet 3 tst' = Ok ((1, 4, 1), tst')) by (vm_compute; reflexivity). pose proof (produced_agree _ _ _ _ _ _ _ HP HI') as E. assert (t = (1, 4, 1)) by congruence. subst t.
      split; [lia|]. intros c [<-|[<-|[]]]; cbn; lia.
  - intros n kd ps E. destruct n as [|[|[|[|n]]]]; [..|destruct n; discriminate E]; exists tst; eexists; (split; [vm_compute; reflexivity|vm_compute; reflexivity]).
  - apply OK; [vm_compute; reflexivity|discriminate].
  - intros m q p r j o c xs x Em IR SR Eo Ec Exs Ex. destruct m as [|[|[|[|m]]]]; cbn in Em; try discriminate Em; [| |destruct m; discriminate]; injection Em as <- <-; cbn in Eo; injection Eo as <-; cbn in Exs; injection Exs as <-.
    + destruct IR as [<-|[<-|[]]]; cbn in SR, Ec; injection SR as <-; injection Ec as <-; cbn in Ex; injection Ex as <-; [trn 10|trn 4].
    + destruct IR as [<-|[<-|[]]]; cbn in SR, Ec; injection SR as <-; injection Ec as <-; cbn in Ex; injection Ex as <-; [rnd 3|rnd 1].
  - reflexivity.
  - reflexivity.
  - apply OK; [vm_compute; reflexivity|discriminate].
Qed.
Print Assumptions C80_fusion_refuted.

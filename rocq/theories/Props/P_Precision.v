(** Precision derivation: C44, C45. *)
From Coq Require Import ZArith Qcanon List Bool String Lia.
From Verif Require Import Base.Num Base.NumFacts Base.Tensor Base.Compute Model.FixedPoint Model.Apf Model.Precision Spec.Fixed Spec.Precision.
From Verif Require Import Proofs.FixedPointP Proofs.ContainerP Proofs.FitsP Proofs.PrecisionP Proofs.SoundP Proofs.IdemP.
Import ListNotations.
Open Scope Z_scope.

(** ** C44 *)

(** Arrays of multiples of 2^-32 between -2^32 and 2^32 that are not all zero
    get the sign flag 1 exactly if there is a negative element, the least
    number of fractional bits above -32, and the least number of integer bits. *)
Theorem C44_container : forall arr k i f, Forall plain_value arr -> ~ Forall (fun x => x = qz 0) arr ->
  get_arr_container arr = (k, i, f) ->
  (k = 0 \/ k = 1) /\ (k = 0 <-> Forall (fun x => qz 0 <= x)%Qc arr) /\ -32 < f <= 32 /\
  Forall (fits k i f) arr /\
  (forall f', -32 < f' -> Forall (on_grid f') arr -> f <= f') /\
  (forall i', Forall (fits k i' f) arr -> i <= i').
Proof.
  intros arr k i f H NZ E. destruct (container_spec arr k i f) as (A & B & C & D & F & G); auto;
    try (eapply Forall_impl; [|exact H]; intros x [G [L U]]; [exact G || (split; assumption)]).
  do 4 (split; [assumption|]). split; [|exact G]. intros f' Hf' Hg. destruct (Z_le_dec f f'); [assumption|]. exfalso. apply (F f'); [lia|exact Hg].
Qed.
Print Assumptions C44_container.
Example C44_container_ex : get_arr_container [Q2Qc (3 # 4); qz (-5); qz 0]%Qc = (1, 3, 2) /\ Forall plain_value [Q2Qc (3 # 4); qz (-5); qz 0]%Qc.
Proof.
  split; [vm_compute; reflexivity|]. repeat constructor; try (apply qleb_true; vm_compute; reflexivity); try (apply qltb_true; vm_compute; reflexivity).
  - exists (3 * 2 ^ 30). qvm.
  - exists (-5 * 2 ^ 32). qvm.
  - exists 0. qvm.
Qed.

(** All-zero arrays get one unsigned bit. *)
Theorem C44_all_zero : forall arr, Forall (fun x => x = qz 0) arr -> get_arr_container arr = (0, 1, 0).
Proof. intros arr H. apply not_all_zero in H. unfold get_arr_container. rewrite H. reflexivity. Qed.
Print Assumptions C44_all_zero.
Example C44_all_zero_ex : get_arr_container [qz 0; qz 0] = (0, 1, 0).
Proof. apply C44_all_zero. repeat constructor. Qed.

(** Beyond 2^63 the conversion to int64 fails for every candidate and the
    widest fraction is returned although none is needed. *)
Theorem C44_huge_refuted : exists arr, Forall (on_grid 0) arr /\ snd (get_arr_container arr) = 32.
Proof.
  exists [qz (2 ^ 100); qz 1]. split; [|vm_compute; reflexivity]. constructor; [exists (2 ^ 100); qvm|]. constructor; [exists 1; qvm|constructor].
Qed.
Print Assumptions C44_huge_refuted.
(** Elements with more than 32 fractional bits are not representable in the
    returned format (the code warns). *)
Theorem C44_fine_refuted : exists arr k i f, get_arr_container arr = (k, i, f) /\ ~ Forall (fits k i f) arr.
Proof.
  exists [pow2 (-40)], 0, (-39), 32. split; [vm_compute; reflexivity|]. intros H. inversion H as [|? ? [G _] _]; subst. apply grid_iff in G as [m G].
  assert (E : pow2 (-40 + 32) = qz m) by (rewrite pow2_add; exact G). change (-40 + 32) with (-8) in E.
  assert (A : (qz 0 < qz m)%Qc) by (rewrite <- E; apply pow2_pos). assert (B : (qz m < qz 1)%Qc) by (rewrite <- E; apply qltb_true; vm_compute; reflexivity).
  apply (proj1 (qz_lt _ _)) in A, B. lia.
Qed.
Print Assumptions C44_fine_refuted.

(** ** C45 *)

(** Deriving the precision of a layer may shrink quantizers upstream.  Running
    the derivation again returns the same precision and changes nothing. *)
Theorem C45_idempotent : forall net fuel n s t s', topological net -> own_quantizers net ->
  Forall one_sign s -> Forall moderate s -> Forall moderate s' ->
  produced fuel net n s = Ok (t, s') -> produced fuel net n s' = Ok (t, s').
Proof.
  intros net fuel n s t s' T OQ O M M' H. refine (proj1 (produced_idem net T OQ fuel n s t s' _ _ H)).
  - rewrite Forall_forall in *. intros o Ho. split; [apply O, Ho|]. eapply Forall_impl; [|exact (M o Ho)]. cbn beta. intros c Hc. lia.
  - rewrite Forall_forall in *. intros o Ho. eapply Forall_impl; [|exact (M' o Ho)]. cbn beta. intros c Hc. lia.
Qed.
Print Assumptions C45_idempotent.

(** Every value the layer can output, with the quantizers as the derivation
    leaves them, belongs to the derived format. *)
Theorem C45_produced_contains : forall net fuel n s k i f s', topological net -> own_quantizers net ->
  Forall one_sign s -> Forall moderate s -> Forall moderate s' -> all_fine net s' ->
  produced fuel net n s = Ok ((k, i, f), s') ->
  (k = 0 \/ k = 1) /\ forall y, value net s' n y -> fits k i f y.
Proof.
  intros net fuel n s k i f s' T OQ O M M' AF H. apply (C45_idempotent _ _ _ _ _ _ T OQ O M M') in H.
  apply (produced_sound fuel net s' AF n (k, i, f) H).
Qed.
Print Assumptions C45_produced_contains.

(** An example: a 4-bit input quantizer (declared too wide for its input by
    the second quantizer), a dense layer with bias, ReLU, average pooling. *)
Definition one_fpq (k b i : Z) (R S : string) : fpq unit := mkFPQ (mkT [1%nat] [mkCfg k b i]) R S tt.
Definition ex_net : pnet :=
  [ (NInput, []); (NFpq 0, [0%nat]); (NFpq 1, [1%nat]);
    (NKernel [qz 1; qz (-2); Q2Qc (1 # 2)] 1 (Some [Q2Qc (3 # 2)]), [2%nat]); (NAvg [2; 2], [3%nat]); (NAdd, [4%nat; 2%nat]) ].
Definition ex_st : pst := [one_fpq 1 4 3 "RND" "SAT"; one_fpq 1 12 6 "TRN" "WRAP"].
Definition ex_st' : pst := [one_fpq 1 4 3 "RND" "SAT"; one_fpq 1 4 3 "TRN" "WRAP"].
Example C45_idempotent_ex : produced 6 ex_net 5 ex_st = Ok ((1, 6, 4), ex_st') /\ Forall one_sign ex_st /\ Forall moderate ex_st /\ Forall moderate ex_st'
  /\ topological ex_net /\ own_quantizers ex_net.
Proof.
  split; [vm_compute; reflexivity|]. split; [|split; [|split; [|split]]].
  - repeat constructor; cbn; try discriminate; eexists; repeat constructor.
  - repeat constructor; cbn; lia.
  - repeat constructor; cbn; lia.
  - intros [|[|[|[|[|[|n]]]]]] kd ps E; cbn in E; try discriminate; [injection E as <- <-; repeat constructor..|]. destruct n; discriminate.
  - intros [|[|[|[|[|[|n]]]]]] [|[|[|[|[|[|m]]]]]] q ps1 ps2 E1 E2; cbn in E1, E2; try discriminate; try congruence; try (destruct n; discriminate); try (destruct m; discriminate).
Qed.
Lemma inputs_one fuel net p s ts s' : input_kifs fuel net [p] s = Ok (ts, s') -> exists t, ts = [t] /\ produced fuel net p s = Ok (t, s').
Proof.
  cbn [input_kifs]. destruct (produced fuel net p s) as [[t s1]|]; cbn; [|discriminate]. intros H. apply okpair in H as [<- <-]. eauto.
Qed.
Example C45_produced_contains_ex : all_fine ex_net ex_st' /\ exists y, value ex_net ex_st' 5 y /\ y = Q2Qc (-15 # 2).
Proof.
  split.
  - split; [|intros [|[|[|[|[|[|n]]]]]] k i f ps E; cbn in E; try discriminate; destruct n; discriminate].
    intros [|[|[|[|[|[|n]]]]]] kd ps fuel ts t E HI HP; cbn in E; try discriminate; try (destruct n; discriminate); injection E as <- <-; cbn [node_fine]; try exact I.
    + eexists. split; [reflexivity|]. left. eexists. split; [|repeat constructor]. unfold legal_fpq, legal_fmt. cbn. repeat split; try discriminate; auto 10. repeat constructor; cbn; lia.
    + eexists. split; [reflexivity|]. left. eexists. split; [|repeat constructor]. unfold legal_fpq, legal_fmt. cbn. repeat split; try discriminate; auto 10. repeat constructor; cbn; lia.
    + apply inputs_one in HI as [u [-> HI]].
      assert (Eu : u = (1, 2, 1)).
      { assert (HI' : produced 6 ex_net 2 ex_st' = Ok ((1, 2, 1), ex_st')) by (vm_compute; reflexivity). pose proof (produced_agree _ _ _ _ _ _ _ HI HI'). congruence. }
      assert (Et : t = (1, 5, 2)).
      { assert (HI' : produced 6 ex_net 3 ex_st' = Ok ((1, 5, 2), ex_st')) by (vm_compute; reflexivity). pose proof (produced_agree _ _ _ _ _ _ _ HP HI'). congruence. }
      subst u t. split; [lia|]. split; [discriminate|]. split; [reflexivity|]. split; [|split].
      * repeat constructor; try (apply qleb_true; vm_compute; reflexivity); try (apply qltb_true; vm_compute; reflexivity).
        -- exists (2 ^ 32). qvm.
        -- exists (-2 * 2 ^ 32). qvm.
        -- exists (2 ^ 31). qvm.
      * intros k i f _ _ v e Hv C. assert (v = 0) by lia. subst v. unfold column in C. cbn in C. inversion C as [|? ? E _]; subst.
        pose proof (pow2_pos e) as P. assert (Q : (qz 1 = - pow2 e)%Qc) by exact E. assert (Q' : (qz 0 < qz 1)%Qc) by (apply qz_lt; lia). rewrite Q in Q'. qlra.
      * intros k i f v b [E|[]] Hv Eb. injection E as <- <- <-. assert (v = 0) by lia. subst v. cbn in Eb. injection Eb as <-. cbn [fst snd]. split; [exists 6; qvm|apply qltb_true; vm_compute; reflexivity].
    + exists 2. split; [lia|reflexivity].
  - exists (Q2Qc (-15 # 2)). split; [|reflexivity].
    assert (V2 : forall x, In x [qz (-4); qz 3; Q2Qc (1#2)] -> value ex_net ex_st' 2 x).
    { intros x Hx. eapply v_fpq with (p := 1%nat) (x := x); [reflexivity|reflexivity|left; reflexivity| |].
      - eapply v_fpq with (p := 0%nat) (x := x); [reflexivity|reflexivity|left; reflexivity| |].
        + eapply v_input; [reflexivity|]. destruct Hx as [<-|[<-|[<-|[]]]]; (eapply fits_mono with (k := 1) (i := 3) (f := 1); [lia|lia|lia|lia|lia|]).
          * split; [exists (-8); qvm|]. split; [apply qleb_true; vm_compute; reflexivity|apply qltb_true; vm_compute; reflexivity].
          * split; [exists 6; qvm|]. split; [apply qleb_true; vm_compute; reflexivity|apply qltb_true; vm_compute; reflexivity].
          * split; [exists 1; qvm|]. split; [apply qleb_true; vm_compute; reflexivity|apply qltb_true; vm_compute; reflexivity].
        + destruct Hx as [<-|[<-|[<-|[]]]]; qvm.
      - destruct Hx as [<-|[<-|[<-|[]]]]; qvm. }
    (* dense: 1*(-4) - 2*3 + 1/2*(-4) + 3/2 = -21/2, and -4 + 8 - 2 + 3/2 = 7/2 *)
    assert (D1 : value ex_net ex_st' 3 (dotq [qz 1; qz (-2); Q2Qc (1 # 2)] [qz (-4); qz 3; qz (-4)] + Q2Qc (3 # 2))%Qc).
    { apply (v_kernel ex_net ex_st' 3 2 [qz 1; qz (-2); Q2Qc (1 # 2)] 1 (Some [Q2Qc (3 # 2)]) 0 (Q2Qc (3 # 2)) [qz (-4); qz 3; qz (-4)]); [reflexivity|lia| |reflexivity|reflexivity].
      apply Forall_forall. intros x Hx. left. apply V2. cbn in Hx |- *. tauto. }
    assert (D2 : value ex_net ex_st' 3 (dotq [qz 1; qz (-2); Q2Qc (1 # 2)] [qz (-4); qz (-4); qz (-4)] + Q2Qc (3 # 2))%Qc).
    { apply (v_kernel ex_net ex_st' 3 2 [qz 1; qz (-2); Q2Qc (1 # 2)] 1 (Some [Q2Qc (3 # 2)]) 0 (Q2Qc (3 # 2)) [qz (-4); qz (-4); qz (-4)]); [reflexivity|lia| |reflexivity|reflexivity].
      apply Forall_forall. intros x Hx. left. apply V2. cbn in Hx |- *. tauto. }
    set (d1 := (dotq [qz 1; qz (-2); Q2Qc (1 # 2)] [qz (-4); qz 3; qz (-4)] + Q2Qc (3 # 2))%Qc) in *.
    set (d2 := (dotq [qz 1; qz (-2); Q2Qc (1 # 2)] [qz (-4); qz (-4); qz (-4)] + Q2Qc (3 # 2))%Qc) in *.
    assert (A : value ex_net ex_st' 4 (qsum [d1; d1; d2; d2] / qz (Z.of_nat (List.length [d1; d1; d2; d2])))%Qc).
    { eapply (v_avg ex_net ex_st' 4 3 [2; 2]); [reflexivity|apply Forall_forall; intros x [<-|[<-|[<-|[<-|[]]]]]; assumption|reflexivity]. }
    set (a := (qsum [d1; d1; d2; d2] / qz (Z.of_nat (List.length [d1; d1; d2; d2])))%Qc) in *.
    assert (B : value ex_net ex_st' 5 (qsum [a; qz (-4)])).
    { eapply (v_add ex_net ex_st' 5 [4%nat; 2%nat]); [reflexivity|]. constructor; [exact A|]. constructor; [apply V2; cbn; auto|constructor]. }
    match goal with |- value _ _ _ ?y => replace y with (qsum [a; qz (-4)]); [exact B|] end. qvm.
Qed.

(** The following layers are not covered, as the derived precision is wrong
    for them.  In each case the quantizers are at the fixed point. *)
Definition wrong (net : pnet) (s : pst) (n : nat) : Prop :=
  exists fuel k i f y, topological net /\ own_quantizers net /\ Forall one_sign s /\ Forall moderate s /\
    produced fuel net n s = Ok ((k, i, f), s) /\ value net s n y /\ ~ fits k i f y.
Ltac each_cfg := repeat (apply Forall_cons; [cbn; lia|]); apply Forall_nil.
Ltac small_net :=
  split; [intros [|[|[|[|[|n]]]]] kd ps E; cbn in E; try discriminate; try (destruct n; discriminate); injection E as <- <-; repeat (apply Forall_cons; [lia|]); apply Forall_nil|];
  split; [intros [|[|[|[|[|n]]]]] [|[|[|[|[|m]]]]] q ps1 ps2 E1 E2; cbn in E1, E2; try discriminate; try congruence; try (destruct n; discriminate); try (destruct m; discriminate)|];
  split; [repeat (apply Forall_cons; [split; [discriminate|eexists; repeat (apply Forall_cons; [reflexivity|]); apply Forall_nil]|]); apply Forall_nil|];
  split; [repeat (apply Forall_cons; [each_cfg|]); apply Forall_nil|];
  split; [vm_compute; reflexivity|].
Lemma float_code m : - 2 ^ 30 <= m < 2 ^ 30 -> float_value (qz m).
Proof.
  intros H. apply fits_mono with (k := 1) (i := 30) (f := 0); try lia. split; [exists m; change (- 0) with 0; change (pow2 0) with 1%Qc; ring|].
  rewrite pow2_Z by lia. change (qz 1) with 1%Qc. replace (1 * qz (2 ^ 30))%Qc with (qz (2 ^ 30)) by ring. rewrite <- qz_opp. split; [apply qz_le|apply qz_lt]; lia.
Qed.
Lemma quantized net s n q p ps o c R m : nth_error net n = Some (NFpq q, [p]) -> nth_error net p = Some (NInput, ps) -> nth_error s q = Some o -> In c (data (cfgs o)) ->
  rnd_name o = R -> - 2 ^ 30 <= m < 2 ^ 30 -> gfixed_quantizer (qz m) (kn c) (bits c) (ints c) R (sat_name o) = Ok (qz m) -> value net s n (qz m).
Proof. intros A B C D <- E F. eapply v_fpq; eauto. eapply v_input; [exact B|]. apply float_code, E. Qed.

(** A bias that does not fit. *)
Theorem C45_bias_refuted : exists kernel div bias s, wrong [(NInput, []); (NFpq 0, [0%nat]); (NKernel kernel div (Some bias), [1%nat])] s 2.
Proof.
  exists [qz 1], 1, [qz 100], [one_fpq 1 2 2 "RND" "SAT"]. exists 3%nat, 1, 2, 0, (dotq [qz 1] [qz 1] + qz 100)%Qc. small_net. split.
  - apply (v_kernel _ _ 2 1 [qz 1] 1 (Some [qz 100]) 0 (qz 100) [qz 1]); [reflexivity|lia| |reflexivity|reflexivity]. apply Forall_forall. intros x [<-|[]]. left.
    eapply quantized; [reflexivity|reflexivity|reflexivity|left; reflexivity|reflexivity|lia|qvm].
  - intros [_ [_ B]]. apply qltb_true in B. vm_compute in B. discriminate.
Qed.
Print Assumptions C45_bias_refuted.
(** The most negative input times the most negative weight. *)
Theorem C45_extreme_refuted : exists kernel div s, wrong [(NInput, []); (NFpq 0, [0%nat]); (NKernel kernel div None, [1%nat])] s 2.
Proof.
  exists [qz (-1)], 1, [one_fpq 1 3 3 "RND" "SAT"]. exists 3%nat, 1, 2, 0, (dotq [qz (-1)] [qz (-4)] + qz 0)%Qc. small_net. split.
  - apply (v_kernel _ _ 2 1 [qz (-1)] 1 None 0 (qz 0) [qz (-4)]); [reflexivity|lia| |reflexivity|reflexivity]. apply Forall_forall. intros x [<-|[]]. left.
    eapply quantized; [reflexivity|reflexivity|reflexivity|left; reflexivity|reflexivity|lia|qvm].
  - intros [_ [_ B]]. apply qltb_true in B. vm_compute in B. discriminate.
Qed.
Print Assumptions C45_extreme_refuted.
(** The difference of unsigned values. *)
Theorem C45_subtract_refuted : exists s, wrong [(NInput, []); (NFpq 0, [0%nat]); (NFpq 1, [0%nat]); (NSub, [1%nat; 2%nat])] s 3.
Proof.
  exists [one_fpq 0 3 3 "RND" "SAT"; one_fpq 0 3 3 "RND" "SAT"]. exists 4%nat, 0, 4, 0, (qz 0 - qz 7)%Qc. small_net. split.
  - eapply (v_sub _ _ 3 1 2); [reflexivity| |]; (eapply quantized; [reflexivity|reflexivity|reflexivity|left; reflexivity|reflexivity|lia|qvm]).
  - intros [_ [B _]]. apply qleb_true in B. vm_compute in B. discriminate.
Qed.
Print Assumptions C45_subtract_refuted.
(** Scalar products of more than one element. *)
Theorem C45_dot_refuted : exists s, wrong [(NInput, []); (NFpq 0, [0%nat]); (NFpq 1, [0%nat]); (NDot, [1%nat; 2%nat])] s 3.
Proof.
  exists [one_fpq 0 3 3 "RND" "SAT"; one_fpq 0 3 3 "RND" "SAT"]. exists 4%nat, 0, 6, 0, (dotq [qz 7; qz 7] [qz 7; qz 7])%Qc. small_net. split.
  - assert (A : value [(NInput, []); (NFpq 0, [0%nat]); (NFpq 1, [0%nat]); (NDot, [1%nat; 2%nat])] [one_fpq 0 3 3 "RND" "SAT"; one_fpq 0 3 3 "RND" "SAT"] 1 (qz 7))
      by (eapply quantized; [reflexivity|reflexivity|reflexivity|left; reflexivity|reflexivity|lia|qvm]).
    assert (B : value [(NInput, []); (NFpq 0, [0%nat]); (NFpq 1, [0%nat]); (NDot, [1%nat; 2%nat])] [one_fpq 0 3 3 "RND" "SAT"; one_fpq 0 3 3 "RND" "SAT"] 2 (qz 7))
      by (eapply quantized; [reflexivity|reflexivity|reflexivity|left; reflexivity|reflexivity|lia|qvm]).
    eapply (v_dot _ _ 3 1 2); [reflexivity| | |reflexivity]; apply Forall_forall; intros x [<-|[<-|[]]]; assumption.
  - intros [_ [_ B]]. apply qltb_true in B. vm_compute in B. discriminate.
Qed.
Print Assumptions C45_dot_refuted.
(** Means over three elements. *)
Theorem C45_average_refuted : exists s, wrong [(NInput, []); (NFpq 0, [0%nat]); (NAvg [3], [1%nat])] s 2.
Proof.
  exists [one_fpq 0 2 2 "RND" "SAT"]. exists 3%nat, 0, 2, 2, (qsum [qz 1; qz 0; qz 0] / qz (Z.of_nat (List.length [qz 1; qz 0; qz 0])))%Qc. small_net. split.
  - apply (v_avg _ _ 2 1 [3]); [reflexivity| |reflexivity]. apply Forall_forall. intros x [<-|[<-|[<-|[]]]];
      (eapply quantized; [reflexivity|reflexivity|reflexivity|left; reflexivity|reflexivity|lia|qvm]).
  - intros [G _]. apply grid_iff in G as [m G]. assert (E : (qz 3 * ((qsum [qz 1; qz 0; qz 0] / qz (Z.of_nat (List.length [qz 1; qz 0; qz 0]))) * pow2 2))%Qc = qz 4) by qvm.
    rewrite G, <- qz_mul in E. apply qz_inj in E. lia.
Qed.
Print Assumptions C45_average_refuted.
(** A saturating quantizer with different formats: after the reduction its
    results are finer than the derived precision. *)
Theorem C45_heterogeneous_refuted : exists s, wrong [(NInput, []); (NFpq 0, [0%nat]); (NFpq 1, [1%nat])] s 2.
Proof.
  exists [one_fpq 0 4 4 "RND" "SAT"; mkFPQ (mkT [2%nat] [mkCfg 0 4 4; mkCfg 0 3 1]) "RND" "SAT" tt]. exists 3%nat, 0, 4, 0, (Q2Qc (7 # 4)). small_net. split.
  - eapply (v_fpq _ _ 2 1 1 _ (mkCfg 0 3 1) (qz 8)); [reflexivity|reflexivity|right; left; reflexivity| |qvm].
    eapply quantized; [reflexivity|reflexivity|reflexivity|left; reflexivity|reflexivity|lia|qvm].
  - intros [G _]. apply grid_iff in G as [m G]. assert (E : (qz 4 * (Q2Qc (7 # 4) * pow2 0))%Qc = qz 7) by qvm.
    rewrite G, <- qz_mul in E. apply qz_inj in E. lia.
Qed.
Print Assumptions C45_heterogeneous_refuted.

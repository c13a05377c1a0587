(** C71: firmware in the registered types computes what the proxy computes. *)
From Coq Require Import ZArith Qcanon List Bool String Permutation Lia.
From Verif Require Import Base.Num Base.NumFacts Base.Tensor Base.Compute Model.FixedPoint Model.Precision Model.Lut Spec.Fixed Spec.Precision Spec.NetEval Spec.Firmware.
From Verif Require Import Proofs.FixedPointP Proofs.FitsP Proofs.PrecisionP Proofs.SoundP Proofs.IdemP Proofs.ConfigP Proofs.NetEvalP Proofs.LutP Proofs.TablesP Proofs.TableSizeP Proofs.FirmwareP Proofs.FirmwareTablesP Props.P_Lut Props.P_Tables.
Import ListNotations.
Open Scope Z_scope.

(** One output of a dense or convolution layer: whatever the order of the
    additions and however many partial sums there are, the circuit with the
    registered types delivers the exact sum, quantized as the result type says,
    if the products and the bias are multiples of the derived resolution. *)
Theorem C71_kernel : forall fuel net n s kernel div bias ps types size s' k i f R V s1 pk pi pf s2 u xs b z,
  nth_error net n = Some (NKernel kernel div bias, ps) -> layer_config fuel net n s None = Ok ((types, size), s') ->
  result_kifRS fuel net n s = Ok (((k, i, f), R, V), s1) -> produced fuel net n s1 = Ok ((pk, pi, pf), s2) ->
  (k = 0 \/ k = 1) -> 1 <= k + i + f -> In R rounding_names -> In V overflow_names -> Forall plain_value kernel ->
  V = "WRAP"%string /\ 0 <= i + f /\ 0 <= i + pf /\ 1 <= k + i + pf /\ (R = "TRN"%string \/ R = "RND"%string \/ pf <= f) \/
  V <> "WRAP"%string /\ (pk = 0 \/ pk = 1) /\ 0 <= pi + pf /\ 1 <= pk + pi + pf /\ fits pk pi pf (dotq (column kernel div u) xs + match b with None => qz 0 | Some v => v end)%Qc ->
  Forall (on_grid pf) (map (fun p => (fst p * snd p)%Qc) (combine (column kernel div u) xs)) -> match b with None => True | Some v => on_grid pf v end ->
  circuit types (column kernel div u) xs b z ->
  gfixed_quantizer (dotq (column kernel div u) xs + match b with None => qz 0 | Some v => v end)%Qc k (k + i + f) (k + i) R V = Ok z.
Proof.
  intros fuel net n s kernel div bias ps types size s' k i f R V s1 pk pi pf s2 u xs b z En HC HR HP Hk W HRn HVn PV HV GP GB C.
  exact (kernel_exact fuel net n s None kernel div bias ps types size s' k i f R V s1 pk pi pf s2 En HC HR HP Hk W HRn HVn PV u xs b z eq_refl HV GP GB C).
Qed.
Print Assumptions C71_kernel.

(** With fewer accumulator bits (accum_fp_max_offset), or with a bias finer than
    the accumulator: every term loses less than one unit of the accumulator. *)
Theorem C71_offset : forall fuel net n s offset kernel div bias ps types size s' k i f R V s1 pk pi pf s2 u xs b z,
  nth_error net n = Some (NKernel kernel div bias, ps) -> layer_config fuel net n s offset = Ok ((types, size), s') ->
  result_kifRS fuel net n s = Ok (((k, i, f), R, V), s1) -> produced fuel net n s1 = Ok ((pk, pi, pf), s2) ->
  (k = 0 \/ k = 1) -> 1 <= k + i + f -> In R rounding_names -> V = "WRAP"%string -> Forall plain_value kernel ->
  let af := match offset with None => pf | Some d => Z.min (f + d) pf end in
  0 <= i + f -> 0 <= i + af -> 1 <= k + i + af -> R = "TRN"%string \/ R = "RND"%string \/ af <= f ->
  List.length xs = List.length (column kernel div u) -> circuit types (column kernel div u) xs b z ->
  exists e, (qz 0 <= e)%Qc /\ (e < qz (Z.of_nat (List.length xs) + 1) * pow2 (- af))%Qc /\
    gfixed_quantizer (dotq (column kernel div u) xs + match b with None => qz 0 | Some v => v end - e)%Qc k (k + i + f) (k + i) R V = Ok z.
Proof.
  intros fuel net n s offset kernel div bias ps types size s' k i f R V s1 pk pi pf s2 u xs b z En HC HR HP Hk W HRn EV PV af W0 W1 W2 HRR LX C.
  assert (HVn : In V overflow_names) by (rewrite EV; cbn; auto 10).
  pose proof (kernel_wraps fuel net n s offset kernel div bias ps types size s' k i f R V s1 pk pi pf s2 En HC HR HP Hk W HRn HVn PV u xs b z EV W0 W1 W2 HRR C) as E. fold af in E.
  set (v := match b with None => qz 0 | Some v => v end) in *. set (P := products (column kernel div u) xs) in *.
  destruct (trunc_sum af (P ++ [v])) as (A1 & _ & A3). specialize (A3 ltac:(destruct P; discriminate)).
  assert (SX : forall l, qsum (map (trunc af) (l ++ [v])) = (qsum (map (trunc af) l) + trunc af v)%Qc) by (intros l; rewrite map_app, qsum_app; cbn [map qsum fold_right]; f_equal; change (qz 0) with 0%Qc; ring).
  assert (SY : qsum (P ++ [v]) = (dotq (column kernel div u) xs + v)%Qc) by (rewrite qsum_app; cbn [qsum fold_right]; unfold dotq; fold (products (column kernel div u) xs); fold P; f_equal; change (qz 0) with 0%Qc; ring).
  rewrite SX, SY in A1, A3.
  assert (LP : Z.of_nat (List.length (P ++ [v])) = Z.of_nat (List.length xs) + 1) by (rewrite app_length; subst P; unfold products; rewrite map_length, combine_length, LX, Nat.min_id; cbn [List.length]; lia). rewrite LP in A3.
  change (acc_f offset f pf) with af in E. set (Y := (dotq (column kernel div u) xs + v)%Qc) in *. set (T := (qsum (map (trunc af) P) + trunc af v)%Qc) in *.
  exists (Y - T)%Qc. clearbody Y T. split; [qlra|]. split.
  - set (g := (qz (Z.of_nat (List.length xs) + 1) * pow2 (- af))%Qc) in *. clearbody g. qlra.
  - replace (Y - (Y - T))%Qc with T by ring. exact E.
Qed.
Print Assumptions C71_offset.

(** Whole networks: if the derivation leaves the quantizers as they are, all
    layers have their registered types and table sizes, kernel layers add up in
    any way and tanh and sigmoid read their tables, then on every input the
    removed quantizers, the lookup layers and the layers whose readers ask for
    everything, in particular the network's outputs, have bit by bit the values
    the proxy computes. *)
Theorem C71_network : forall fuel net s geo feed opaque confs sizes tables adder out,
  all_fine net s -> honest net feed opaque ->
  (forall n kd ps, nth_error net n = Some (kd, ps) -> (forall t, kd <> NLut t) -> layer_config (S fuel) net n s None = Ok ((confs n, sizes n), s)) ->
  (forall n kd ps, nth_error net n = Some (kd, ps) -> synthesized (S fuel) net s tables n) -> adding adder ->
  run s geo feed opaque tables net [] = Ok out ->
  exists out', fw_run net s geo feed opaque (fun n => type_named (confs n)) sizes tables adder net [] = Ok out' /\ List.length out' = List.length out /\
    forall n, removed net s n = true \/ (exists t ps, nth_error net n = Some (NLut t, ps)) \/
      ((forall ps, nth_error net n <> Some (NInput, ps)) /\ demanding_readers (S fuel) net s n) -> nth_error out' n = nth_error out n.
Proof. intros fuel net s geo feed opaque confs sizes tables adder out AF H HC SY AD R. exact (fw_run_same fuel net s geo feed opaque confs sizes tables adder AF H HC SY AD out R). Qed.
Print Assumptions C71_network.

(** With lookup tables: the circuit of the network in which activations are
    tables computes what the network without tables computes. *)
Theorem C71_tables : forall limit hls fuel net mx order s tabs geo feed opaque confs sizes adder out,
  let net' := with_tables net (table_of tabs) in
  all_fine net s -> (forall n t ps, nth_error net n <> Some (NLut t, ps)) -> honest net feed opaque -> Forall legal_fpq s ->
  lut_pass limit hls (S fuel) net mx order s = Ok (tabs, s) -> (forall n l, In (n, l) tabs -> good_readers (S fuel) net s n) ->
  all_fine net' s ->
  (forall n l kd p, table_of tabs n = Some l -> nth_error net n = Some (kd, [p]) -> exists k i f, produced (S fuel) net' p s = Ok ((k, i, f), s) /\ f <= lut_f l) ->
  (forall n kd ps, nth_error net' n = Some (kd, ps) -> (forall t, kd <> NLut t) -> layer_config (S fuel) net' n s None = Ok ((confs n, sizes n), s)) ->
  (forall n kd ps, nth_error net' n = Some (kd, ps) -> table_of tabs n = None -> synthesized (S fuel) net' s (table_of tabs) n) -> adding adder ->
  run s geo feed opaque (fun _ => None) net [] = Ok out ->
  exists out', fw_run net' s geo feed opaque (fun n => type_named (confs n)) sizes (table_of tabs) adder net' [] = Ok out' /\ List.length out' = List.length out /\
    forall n, table_of tabs n = None -> removed net' s n = true \/ ((forall ps, nth_error net' n <> Some (NInput, ps)) /\ demanding_readers (S fuel) net' s n) -> nth_error out' n = nth_error out n.
Proof.
  intros limit hls fuel net mx order s tabs geo feed opaque confs sizes adder out net' AF NL H LG HP GR AF' PR HC SY AD R.
  destruct (C70_same_outputs limit hls fuel net mx order s tabs geo feed opaque out AF NL H HP GR R) as (out1 & R1 & L1 & S1). fold net' in R1.
  destruct (C71_network fuel net' s geo feed opaque confs sizes (table_of tabs) adder out1 AF' (honest_with_tables _ _ _ _ H) HC) as (out2 & R2 & L2 & S2).
  - intros n kd ps En. destruct (table_of tabs n) as [l|] eqn:T; [|apply (SY n kd ps En T)]. right. left. apply (table_looked_up limit hls fuel net s mx order tabs n l HP AF' LG T). intros kd0 p. apply (PR n l kd0 p T).
  - exact AD.
  - exact R1.
  - exists out2. split; [exact R2|]. split; [congruence|]. intros n T D. rewrite <- (S1 n T). apply S2. destruct D as [D|D]; auto.
Qed.
Print Assumptions C71_tables.

(** *** Examples *)

(** An adding circuit: one term after the other. *)
Fixpoint serial (t : hwt) (a : Qc) (l : list Qc) : result Qc :=
  match l with
  | [] => Ok a
  | x :: l' => rbind (cast t x) (fun y => rbind (cast t (a + y)%Qc) (fun a' => serial t a' l'))
  end.
Definition one_by_one (n : nat) (r : recipe) (t : hwt) (l : list Qc) : result Qc := match l with [] => Raise | x :: l' => rbind (cast t x) (fun a => serial t a l') end.
Lemma serial_sums t : In (h_rnd t) rounding_names -> In (h_sat t) overflow_names -> forall l done a, sums t done a -> exists y, serial t a l = Ok y /\ sums t (done ++ l) y.
Proof.
  intros HR HV. induction l as [|x l IH]; intros done a S; [exists a; split; [reflexivity|rewrite app_nil_r; exact S]|].
  destruct (gfixed_ok x (h_k t) (h_b t) (h_i t) _ _ HR HV) as [y Ey]. fold (cast t x) in Ey. cbn [serial]. rewrite Ey. cbn [rbind].
  destruct (gfixed_ok (a + y)%Qc (h_k t) (h_b t) (h_i t) _ _ HR HV) as [a' Ea]. fold (cast t (a + y)%Qc) in Ea. rewrite Ea. cbn [rbind].
  destruct (IH (done ++ [x]) a') as (z & Ez & Sz).
  - apply (sum_two t _ done [x] a y a'); [apply Permutation_refl|exact S|apply sum_one; exact Ey|exact Ea].
  - exists z. split; [exact Ez|]. rewrite <- app_assoc in Sz. exact Sz.
Qed.
Lemma one_by_one_adds : adding one_by_one.
Proof.
  intros n r t l NE HR HV. destruct l as [|x l]; [congruence|]. cbn [one_by_one]. destruct (gfixed_ok x (h_k t) (h_b t) (h_i t) _ _ HR HV) as [a Ea]. fold (cast t x) in Ea. rewrite Ea. cbn [rbind].
  apply (serial_sums t HR HV l [x] a). apply sum_one. exact Ea.
Qed.

(** Input, quantizer (removed), dense layer with bias, quantizer with two
    formats, dense layer, quantizer (removed). *)
Definition fq (cs : list qcfg) (R V : string) : fpq unit := mkFPQ (mkT [List.length cs] cs) R V tt.
Definition fnet : pnet :=
  [ (NInput, []); (NFpq 0, [0%nat]); (NKernel [qz 1; qz (-2); Q2Qc (1 # 2); qz 1] 2 (Some [Q2Qc (3 # 2); Q2Qc (1 # 2)]), [1%nat]);
    (NFpq 1, [2%nat]); (NKernel [qz 1; qz 1] 1 None, [3%nat]); (NFpq 2, [4%nat]) ].
Definition fst0 : pst := [fq [mkCfg 1 4 2] "RND" "SAT"; fq [mkCfg 1 6 3; mkCfg 1 5 3] "TRN" "WRAP"; fq [mkCfg 1 4 3] "RND" "WRAP"].
Definition fgeo (n : nat) : list recipe :=
  match n with
  | 1%nat => [mkR [Some (0%nat, 0%nat)] 0 []; mkR [Some (0%nat, 1%nat)] 0 []]
  | 2%nat => [mkR [Some (0%nat, 0%nat); Some (0%nat, 1%nat)] 0 []; mkR [Some (0%nat, 0%nat); Some (0%nat, 1%nat)] 1 []]
  | 3%nat => [mkR [Some (0%nat, 0%nat)] 0 []; mkR [Some (0%nat, 1%nat)] 1 []]
  | 4%nat => [mkR [Some (0%nat, 0%nat); Some (0%nat, 1%nat)] 0 []]
  | 5%nat => [mkR [Some (0%nat, 0%nat)] 0 []]
  | _ => []
  end.
Definition ffeed (n : nat) : list Qc := match n with O => [qz (-2); Q2Qc (27 # 16)] | _ => [] end.
Definition fconf (n : nat) : list (string * string) := match layer_config 6 fnet n fst0 None with Ok ((t, _), _) => t | Raise => [] end.

Lemma fq_legal cs R V : cs <> [] -> Forall legal_fmt cs -> In R rounding_names -> In V overflow_names -> legal_fpq (fq cs R V).
Proof. intros A B C D. unfold legal_fpq, fq. cbn. auto. Qed.
Ltac legal := apply fq_legal; [discriminate|repeat (apply Forall_cons; [unfold legal_fmt; cbn; lia|]); apply Forall_nil|cbn; auto 10|cbn; auto 10].
Ltac plain m := split; [exists m; qvm|split; [apply qleb_true; vm_compute; reflexivity|apply qltb_true; vm_compute; reflexivity]].
Lemma one_input fuel net p s ts s' : input_kifs fuel net [p] s = Ok (ts, s') -> exists t, ts = [t] /\ produced fuel net p s = Ok (t, s').
Proof. cbn [input_kifs]. destruct (produced fuel net p s) as [[t s1]|]; cbn; [|discriminate]. intros H. apply okpair in H as [<- <-]. eauto. Qed.
Lemma fnet_fine : all_fine fnet fst0.
Proof.
  split; [|intros [|[|[|[|[|[|n]]]]]] k i f ps E; cbn in E; try discriminate; destruct n; discriminate].
  intros [|[|[|[|[|[|n]]]]]] kd ps fuel ts t E HI HP; cbn in E; try discriminate; try (destruct n; discriminate); injection E as <- <-; cbn [node_fine]; try exact I.
  - eexists. split; [reflexivity|]. left. eexists. split; [legal|repeat constructor].
  - apply one_input in HI as [v [-> HI]].
    assert (Ev : v = (1, 1, 2)) by (assert (HI' : produced 6 fnet 1 fst0 = Ok ((1, 1, 2), fst0)) by (vm_compute; reflexivity); pose proof (produced_agree _ _ _ _ _ _ _ HI HI'); congruence).
    assert (Et : t = (1, 3, 3)) by (assert (HI' : produced 6 fnet 2 fst0 = Ok ((1, 3, 3), fst0)) by (vm_compute; reflexivity); pose proof (produced_agree _ _ _ _ _ _ _ HP HI'); congruence).
    subst v t. split; [lia|]. split; [discriminate|]. split; [reflexivity|]. split; [|split].
    + apply Forall_cons; [plain (2 ^ 32)|]. apply Forall_cons; [plain (-2 * 2 ^ 32)|]. apply Forall_cons; [plain (2 ^ 31)|]. apply Forall_cons; [plain (2 ^ 32)|]. apply Forall_nil.
    + intros k i f _ _ v e Hv C. assert (EV : v = 0 \/ v = 1) by lia. pose proof (pow2_pos e) as P. assert (Q' : (qz 0 < qz 1)%Qc) by (apply qz_lt; lia).
      assert (Q : (qz 1 = - pow2 e)%Qc).
      { destruct EV as [->| ->]; unfold column in C; cbn in C; inversion C as [|? ? E1 C']; subst; [exact E1|]. inversion C' as [|? ? E2 ?]; subst. exact E2. }
      rewrite Q in Q'. qlra.
    + intros k i f v b [E|[]] Hv Eb. injection E as <- <- <-. assert (EV : v = 0 \/ v = 1) by lia. cbn [fst snd].
      destruct EV as [->| ->]; cbn in Eb; injection Eb as <-; (split; [|apply qltb_true; vm_compute; reflexivity]); [exists 12; qvm|exists 4; qvm].
  - eexists. split; [reflexivity|]. right. exists 1. split; [legal|]. split; [repeat constructor|reflexivity].
  - apply one_input in HI as [v [-> HI]].
    assert (Ev : v = (1, 2, 3)) by (assert (HI' : produced 6 fnet 3 fst0 = Ok ((1, 2, 3), fst0)) by (vm_compute; reflexivity); pose proof (produced_agree _ _ _ _ _ _ _ HI HI'); congruence).
    subst v. split; [lia|]. split; [discriminate|]. split; [reflexivity|]. split; [|split].
    + apply Forall_cons; [plain (2 ^ 32)|]. apply Forall_cons; [plain (2 ^ 32)|]. apply Forall_nil.
    + intros k i f _ _ v e Hv C. assert (v = 0) by lia. subst v. unfold column in C. cbn in C. inversion C as [|? ? E _]; subst. pose proof (pow2_pos e) as P. assert (Q' : (qz 0 < qz 1)%Qc) by (apply qz_lt; lia). assert (Q : (qz 1 = - pow2 e)%Qc) by exact E. rewrite Q in Q'. qlra.
    + exact I.
  - eexists. split; [reflexivity|]. left. eexists. split; [legal|repeat constructor].
Qed.
Lemma fnet_types n kd ps : nth_error fnet n = Some (kd, ps) -> synthesized 6 fnet fst0 (fun _ => None) n.
Proof.
  destruct n as [|[|[|[|[|[|n]]]]]]; intros E; [..|destruct n; discriminate E].
  - right. right. split; [discriminate|]. split; [exact I|]. split; [reflexivity|]. exists 1, 1, 2, "RND"%string, "SAT"%string. split; [vm_compute; reflexivity|]. split; [auto|]. split; [lia|]. split; [lia|]. split; [cbn; auto 10|]. split; [cbn; auto 10|]. split; [exact I|].
    left. exists 1%nat, 0%nat, (fq [mkCfg 1 4 2] "RND" "SAT"). split; [reflexivity|]. split; [reflexivity|]. split; [reflexivity|]. split; [legal|reflexivity].
  - left. split; vm_compute; reflexivity.
  - right. right. split; [discriminate|]. split; [exact I|]. split; [reflexivity|]. exists 1, 2, 3, "TRN"%string, "WRAP"%string. split; [vm_compute; reflexivity|]. split; [auto|]. split; [lia|]. split; [lia|]. split; [cbn; auto 10|]. split; [cbn; auto 10|]. split.
    + exists 1, 3, 3. split; [vm_compute; reflexivity|]. left. split; [reflexivity|]. split; [lia|]. split; [lia|auto].
    + right. right. split; [discriminate|]. right. split; [vm_compute; reflexivity|]. exists 1, 3, 3, 1, 2, 3, 1, 2, 3. split; [vm_compute; reflexivity|]. split; [vm_compute; reflexivity|]. split; [reflexivity|]. split; [lia|].
      intros [|[|[|[|[|[|m]]]]]] kd' ps' Em IP; cbn in Em; try (destruct m; discriminate Em); injection Em as <- <-; cbn in IP; try (destruct IP as [IP|[]]; discriminate IP); try contradiction.
      split; [reflexivity|]. exists 1%nat. split; [reflexivity|]. intros o Eo. change (Some (fq [mkCfg 1 6 3; mkCfg 1 5 3] "TRN" "WRAP") = Some o) in Eo. injection Eo as <-.
      split; [legal|]. split; [left; reflexivity|]. intros c _. right. auto.
  - right. right. split; [discriminate|]. split; [exact I|]. split; [vm_compute; reflexivity|]. exists 1, 2, 3, "TRN"%string, "WRAP"%string. split; [vm_compute; reflexivity|]. split; [auto|]. split; [lia|]. split; [lia|]. split; [cbn; auto 10|]. split; [cbn; auto 10|]. split; [exact I|].
    right. right. split; [discriminate|]. left. split; [vm_compute; reflexivity|]. exists 1, 2, 3, 1, 65535, 65535. split; [vm_compute; reflexivity|]. split; [vm_compute; reflexivity|]. lia.
  - right. right. split; [discriminate|]. split; [exact I|]. split; [reflexivity|]. exists 1, 2, 1, "RND"%string, "WRAP"%string. split; [vm_compute; reflexivity|]. split; [auto|]. split; [lia|]. split; [lia|]. split; [cbn; auto 10|]. split; [cbn; auto 10|]. split.
    + exists 1, 4, 3. split; [vm_compute; reflexivity|]. left. split; [reflexivity|]. split; [lia|]. split; [lia|auto].
    + left. exists 5%nat, 2%nat, (fq [mkCfg 1 4 3] "RND" "WRAP"). split; [reflexivity|]. split; [reflexivity|]. split; [reflexivity|]. split; [legal|reflexivity].
  - left. split; vm_compute; reflexivity.
Qed.
(** The accumulator of the first dense layer overflows (6.1875 is stored as
    -1.8125), the outputs are the same. *)
Definition values (r : result (list (list Qc))) : list (list QArith_base.Q) := match r with Ok y => map (map this) y | Raise => [] end.
Example C71_network_ex : honest fnet ffeed (fun _ _ => []) /\
  (forall n kd ps, nth_error fnet n = Some (kd, ps) -> (forall t, kd <> NLut t) -> layer_config 6 fnet n fst0 None = Ok ((fconf n, None), fst0)) /\
  values (run fst0 fgeo ffeed (fun _ _ => []) (fun _ => None) fnet []) =
    map (map this) [[qz (-2); Q2Qc (27 # 16)]; [qz (-2); Q2Qc (7 # 4)]; [Q2Qc (3 # 8); Q2Qc (25 # 4)]; [Q2Qc (3 # 8); Q2Qc (-7 # 4)]; [Q2Qc (-11 # 8)]; [Q2Qc (-3 # 2)]] /\
  values (fw_run fnet fst0 fgeo ffeed (fun _ _ => []) (fun n => type_named (fconf n)) (fun _ => None) (fun _ => None) one_by_one fnet []) =
    map (map this) [[qz (-2); Q2Qc (7 # 4)]; [qz (-2); Q2Qc (7 # 4)]; [Q2Qc (3 # 8); Q2Qc (-7 # 4)]; [Q2Qc (3 # 8); Q2Qc (-7 # 4)]; [Q2Qc (-3 # 2)]; [Q2Qc (-3 # 2)]].
Proof.
  split; [|split; [|split; vm_compute; reflexivity]].
  - split; [|split; intros; constructor]. intros [|n]; cbn; [|constructor].
    assert (F : forall x, fits 1 4 4 x -> float_value x) by (intros x; apply fits_mono; lia).
    constructor; [|constructor; [|constructor]]; apply F; [plain (-32)|plain 27].
  - intros n kd ps E _. destruct n as [|[|[|[|[|[|n]]]]]]; [..|destruct n; discriminate E]; vm_compute; reflexivity.
Qed.
Example C71_network_applies : exists out out', run fst0 fgeo ffeed (fun _ _ => []) (fun _ => None) fnet [] = Ok out /\
  fw_run fnet fst0 fgeo ffeed (fun _ _ => []) (fun n => type_named (fconf n)) (fun _ => None) (fun _ => None) one_by_one fnet [] = Ok out' /\ nth_error out' 5 = nth_error out 5 /\ nth_error out' 3 = nth_error out 3.
Proof.
  destruct C71_network_ex as (H & HC & R & _). destruct (run fst0 fgeo ffeed (fun _ _ => []) (fun _ => None) fnet []) as [out|] eqn:E; [|discriminate R]. exists out.
  destruct (C71_network 5 fnet fst0 fgeo ffeed (fun _ _ => []) fconf (fun _ => None) (fun _ => None) one_by_one out fnet_fine H HC fnet_types one_by_one_adds E) as (out' & F & _ & S). exists out'.
  split; [reflexivity|]. split; [exact F|]. split; apply S; [left; vm_compute; reflexivity|right; right]. split; [discriminate|]. split; [vm_compute; reflexivity|].
  exists 1, 2, 3, 1, 65535, 65535. split; [vm_compute; reflexivity|]. split; [vm_compute; reflexivity|]. lia.
Qed.

(** One element of the first dense layer: -2 times -2 plus 1 times 7/4 plus 1/2
    is stored as -7/4 in fixed<6,3>. *)
Definition types_of (r : result (conf * pst)) : list (string * string) := match r with Ok ((t, _), _) => t | Raise => [] end.
Ltac conv := match goal with |- cast ?t ?x = Ok ?y => change (gfixed_quantizer x (h_k t) (h_b t) (h_i t) (h_rnd t) (h_sat t) = Ok y); qvm end.
Example C71_kernel_ex : circuit (types_of (layer_config 6 fnet 2 fst0 None)) (column [qz 1; qz (-2); Q2Qc (1 # 2); qz 1] 2 1) [qz (-2); Q2Qc (7 # 4)] (Some (Q2Qc (1 # 2))) (Q2Qc (-7 # 4)) /\
  result_kifRS 6 fnet 2 fst0 = Ok (((1, 2, 3), "TRN"%string, "WRAP"%string), fst0) /\ produced 6 fnet 2 fst0 = Ok ((1, 3, 3), fst0) /\
  gfixed_quantizer (Q2Qc (25 # 4)) 1 6 3 "TRN" "WRAP" = Ok (Q2Qc (-7 # 4)).
Proof.
  split; [|split; [vm_compute; reflexivity|split; [vm_compute; reflexivity|qvm]]].
  exists (mkHw 1 3 2 "TRN" "WRAP"), (mkHw 1 6 3 "TRN" "WRAP"), (mkHw 1 6 3 "TRN" "WRAP"), (mkHw 1 6 3 "TRN" "WRAP"), [qz (-2); qz 1], (Q2Qc (1 # 2)), (Q2Qc (-7 # 4)).
  do 4 (split; [vm_compute; reflexivity|]). split; [cbn [column]; qvm|]. split; [conv|]. split; [|conv].
  apply (sum_two _ _ [qz 4; Q2Qc (7 # 4)] [Q2Qc (1 # 2)] (Q2Qc (-9 # 4)) (Q2Qc (1 # 2)) _).
  - replace (map (fun p => (fst p * snd p)%Qc) (combine [qz (-2); qz 1] [qz (-2); Q2Qc (7 # 4)])) with [qz 4; Q2Qc (7 # 4)] by qvm. apply Permutation_refl.
  - apply (sum_two _ _ [qz 4] [Q2Qc (7 # 4)] (qz (-4)) (Q2Qc (7 # 4)) _); [apply Permutation_refl|apply sum_one; conv|apply sum_one; conv|conv].
  - apply sum_one; conv.
  - conv.
Qed.

Definition onet (ks : list Qc) : pnet := [(NInput, []); (NFpq 0, [0%nat]); (NKernel ks 1 None, [1%nat]); (NFpq 1, [2%nat])].
Definition ost (c0 c1 : qcfg) (R : string) : pst := [fq [c0] "TRN" "WRAP"; fq [c1] R "WRAP"].
(** The types are printed for quantizers that stay as they are. *)
Definition settled_kernel (ks : list Qc) (s : pst) (offset : option Z) (k i f : Z) (R : string) (pk pi pf : Z) : Prop :=
  layer_config 4 (onet ks) 2 s offset = Ok ((types_of (layer_config 4 (onet ks) 2 s offset), None), s) /\
  result_kifRS 4 (onet ks) 2 s = Ok (((k, i, f), R, "WRAP"%string), s) /\ produced 4 (onet ks) 2 s = Ok ((pk, pi, pf), s) /\ Forall legal_fpq s.

(** With accum_fp_max_offset = 0 the circuit drops the halves: 1/2 + 1/2 is 0. *)
Theorem C71_offset_refuted : exists ks s xs z, settled_kernel ks s (Some 0) 1 2 0 "TRN" 1 3 1 /\ Forall plain_value ks /\
  Forall (fun x => gfixed_quantizer x 1 3 3 "TRN" "WRAP" = Ok x) xs /\ circuit (types_of (layer_config 4 (onet ks) 2 s (Some 0))) (column ks 1 0) xs None z /\
  z = qz 0 /\ gfixed_quantizer (dotq (column ks 1 0) xs) 1 3 3 "TRN" "WRAP" = Ok (qz 1).
Proof.
  exists [Q2Qc (1 # 2); Q2Qc (1 # 2)], (ost (mkCfg 1 3 3) (mkCfg 1 3 3) "TRN"), [qz 1; qz 1], (qz 0). split; [|split; [|split; [|split; [|split; [reflexivity|qvm]]]]].
  - split; [vm_compute; reflexivity|]. split; [vm_compute; reflexivity|]. split; [vm_compute; reflexivity|]. repeat (apply Forall_cons; [legal|]). apply Forall_nil.
  - repeat (apply Forall_cons; [plain (2 ^ 31)|]). apply Forall_nil.
  - repeat (apply Forall_cons; [qvm|]). apply Forall_nil.
  - exists (mkHw 0 1 0 "TRN" "WRAP"), (mkHw 1 3 3 "TRN" "WRAP"), (mkHw 1 3 3 "TRN" "WRAP"), (mkHw 1 3 3 "TRN" "WRAP"), [Q2Qc (1 # 2); Q2Qc (1 # 2)], (qz 0), (qz 0).
    do 4 (split; [vm_compute; reflexivity|]). split; [cbn [column]; qvm|]. split; [reflexivity|]. split; [|conv].
    replace (map (fun p => (fst p * snd p)%Qc) (combine [Q2Qc (1 # 2); Q2Qc (1 # 2)] [qz 1; qz 1])) with [Q2Qc (1 # 2); Q2Qc (1 # 2)] by qvm.
    apply (sum_two _ _ [Q2Qc (1 # 2); Q2Qc (1 # 2)] [qz 0] (qz 0) (qz 0) _); [apply Permutation_refl| |apply sum_one; conv|conv].
    apply (sum_two _ _ [Q2Qc (1 # 2)] [Q2Qc (1 # 2)] (qz 0) (qz 0) _); [apply Permutation_refl|apply sum_one; conv|apply sum_one; conv|conv].
Qed.
Print Assumptions C71_offset_refuted.

(** A wrapping quantizer that rounds ties to zero: 5 times 1/2 wraps to -3/2 in
    the accumulator, which rounds to -1, whereas 5/2 rounds to 2 and wraps to -2. *)
Theorem C71_rounding_refuted : exists ks s xs z, settled_kernel ks s None 1 1 0 "RND_ZERO" 1 3 1 /\ Forall plain_value ks /\
  Forall (fun x => gfixed_quantizer x 1 4 4 "TRN" "WRAP" = Ok x) xs /\ circuit (types_of (layer_config 4 (onet ks) 2 s None)) (column ks 1 0) xs None z /\
  z = qz (-1) /\ gfixed_quantizer (dotq (column ks 1 0) xs) 1 2 2 "RND_ZERO" "WRAP" = Ok (qz (-2)).
Proof.
  exists [Q2Qc (1 # 2)], (ost (mkCfg 1 4 4) (mkCfg 1 2 2) "RND_ZERO"), [qz 5], (qz (-1)). split; [|split; [|split; [|split; [|split; [reflexivity|qvm]]]]].
  - split; [vm_compute; reflexivity|]. split; [vm_compute; reflexivity|]. split; [vm_compute; reflexivity|]. repeat (apply Forall_cons; [legal|]). apply Forall_nil.
  - repeat (apply Forall_cons; [plain (2 ^ 31)|]). apply Forall_nil.
  - repeat (apply Forall_cons; [qvm|]). apply Forall_nil.
  - exists (mkHw 0 1 0 "TRN" "WRAP"), (mkHw 1 3 2 "TRN" "WRAP"), (mkHw 1 3 2 "TRN" "WRAP"), (mkHw 1 2 2 "RND_ZERO" "WRAP"), [Q2Qc (1 # 2)], (qz 0), (Q2Qc (-3 # 2)).
    do 4 (split; [vm_compute; reflexivity|]). split; [cbn [column]; qvm|]. split; [reflexivity|]. split; [|conv].
    replace (map (fun p => (fst p * snd p)%Qc) (combine [Q2Qc (1 # 2)] [qz 5])) with [Q2Qc (5 # 2)] by qvm.
    apply (sum_two _ _ [Q2Qc (5 # 2)] [qz 0] (Q2Qc (-3 # 2)) (qz 0) _); [apply Permutation_refl|apply sum_one; conv|apply sum_one; conv|conv].
Qed.
Print Assumptions C71_rounding_refuted.

(** A quantizer of zero bits: the result type is printed with one bit, the
    circuit delivers 1/2 instead of 0. *)
Theorem C71_zero_bits_refuted : exists ks s xs z, settled_kernel ks s None 0 0 0 "TRN" 1 3 1 /\ Forall plain_value ks /\
  Forall (fun x => gfixed_quantizer x 1 4 4 "TRN" "WRAP" = Ok x) xs /\ circuit (types_of (layer_config 4 (onet ks) 2 s None)) (column ks 1 0) xs None z /\
  z = Q2Qc (1 # 2) /\ gfixed_quantizer (dotq (column ks 1 0) xs) 0 0 0 "TRN" "WRAP" = Ok (qz 0).
Proof.
  exists [Q2Qc (1 # 2)], (ost (mkCfg 1 4 4) (mkCfg 0 0 0) "TRN"), [qz 1], (Q2Qc (1 # 2)). split; [|split; [|split; [|split; [|split; [reflexivity|qvm]]]]].
  - split; [vm_compute; reflexivity|]. split; [vm_compute; reflexivity|]. split; [vm_compute; reflexivity|]. repeat (apply Forall_cons; [legal|]). apply Forall_nil.
  - repeat (apply Forall_cons; [plain (2 ^ 31)|]). apply Forall_nil.
  - repeat (apply Forall_cons; [qvm|]). apply Forall_nil.
  - exists (mkHw 0 1 0 "TRN" "WRAP"), (mkHw 0 1 0 "TRN" "WRAP"), (mkHw 0 1 0 "TRN" "WRAP"), (mkHw 0 1 0 "TRN" "WRAP"), [Q2Qc (1 # 2)], (qz 0), (Q2Qc (1 # 2)).
    do 4 (split; [vm_compute; reflexivity|]). split; [cbn [column]; qvm|]. split; [reflexivity|]. split; [|conv].
    replace (map (fun p => (fst p * snd p)%Qc) (combine [Q2Qc (1 # 2)] [qz 1])) with [Q2Qc (1 # 2)] by qvm.
    apply (sum_two _ _ [Q2Qc (1 # 2)] [qz 0] (Q2Qc (1 # 2)) (qz 0) _); [apply Permutation_refl|apply sum_one; conv|apply sum_one; conv|conv].
Qed.
Print Assumptions C71_zero_bits_refuted.

(** The bound of [C71_offset]: with two terms less than 3 is lost. *)
Example C71_offset_ex : forall z, circuit (types_of (layer_config 4 (onet [Q2Qc (1 # 2); Q2Qc (1 # 2)]) 2 (ost (mkCfg 1 3 3) (mkCfg 1 3 3) "TRN") (Some 0))) [Q2Qc (1 # 2); Q2Qc (1 # 2)] [qz 1; qz 1] None z ->
  exists e, (qz 0 <= e)%Qc /\ (e < qz 3)%Qc /\ gfixed_quantizer (qz 1 - e)%Qc 1 3 3 "TRN" "WRAP" = Ok z.
Proof.
  intros z C. set (ks := [Q2Qc (1 # 2); Q2Qc (1 # 2)]) in *. set (s := ost (mkCfg 1 3 3) (mkCfg 1 3 3) "TRN") in *.
  assert (HC : exists size, layer_config 4 (onet ks) 2 s (Some 0) = Ok ((types_of (layer_config 4 (onet ks) 2 s (Some 0)), size), s)) by (eexists; vm_compute; reflexivity). destruct HC as [size HC].
  assert (HR : result_kifRS 4 (onet ks) 2 s = Ok (((1, 2, 0), "TRN"%string, "WRAP"%string), s)) by (vm_compute; reflexivity).
  assert (HP : produced 4 (onet ks) 2 s = Ok ((1, 3, 1), s)) by (vm_compute; reflexivity).
  assert (PV : Forall plain_value ks) by (repeat (apply Forall_cons; [plain (2 ^ 31)|]); apply Forall_nil).
  destruct (C71_offset 4 (onet ks) 2 s (Some 0) ks 1 None [1%nat] _ size s 1 2 0 "TRN" "WRAP" s 1 3 1 s 0 [qz 1; qz 1] None z eq_refl HC HR HP (or_intror eq_refl) ltac:(lia) ltac:(left; reflexivity) eq_refl PV
    ltac:(lia) ltac:(lia) ltac:(lia) (or_introl eq_refl) eq_refl C) as (e & E0 & E1 & E2).
  exists e. split; [exact E0|]. split.
  - replace (qz 3) with (qz (Z.of_nat (List.length [qz 1; qz 1]) + 1) * pow2 (- Z.min (0 + 0) 1))%Qc by qvm. exact E1.
  - replace (qz 1) with (dotq (column ks 1 0) [qz 1; qz 1] + qz 0)%Qc by qvm. exact E2.
Qed.

(** The network of C49 and C70 with the square as a table, whose quantizer is
    removed. *)
Definition lconf (net : pnet) (s : pst) (n : nat) : list (string * string) := types_of (layer_config 4 net n s None).
Definition lsize (net : pnet) (s : pst) (n : nat) : option Z := match layer_config 4 net n s None with Ok ((_, z), _) => z | Raise => None end.
Definition ltabs : list (nat * ulut) := match lut_pass 4096 65536 4 lnet 64 [1; 2; 3]%nat lst_ with Ok (t, _) => t | Raise => [] end.
Definition lnet' : pnet := with_tables lnet (table_of ltabs).
Lemma lfpq_legal k b i R V : legal_fmt (mkCfg k b i) -> In R rounding_names -> In V overflow_names -> legal_fpq (lfpq k b i R V).
Proof. intros F A B. unfold legal_fpq, lfpq. cbn. split; [discriminate|]. split; [constructor; [exact F|constructor]|]. auto. Qed.
Ltac llegal := apply lfpq_legal; [unfold legal_fmt; cbn; lia|cbn; auto 10|cbn; auto 10].
Lemma lnet'_nodes : exists l, table_of ltabs 2 = Some l /\ lut_out l = (0, 2, 2) /\ lut_f l = 2 /\ lnet' = [(NInput, []); (NFpq 0, [0%nat]); (NLut (0, 2, 2), [1%nat]); (NFpq 1, [2%nat])].
Proof. eexists. split; [vm_compute; reflexivity|]. split; [reflexivity|]. split; [reflexivity|]. vm_compute. reflexivity. Qed.
Lemma lnet_no_table n t ps : nth_error lnet n <> Some (NLut t, ps).
Proof. destruct n as [|[|[|[|[|n]]]]]; cbn; discriminate. Qed.
Lemma lnet'_fine : all_fine lnet' lst_.
Proof.
  destruct lnet'_nodes as (l & _ & _ & _ & ->). split; [|intros [|[|[|[|n]]]] k i f ps E; cbn in E; try discriminate; [injection E as <- <- <- <-; lia|destruct n; discriminate]].
  intros [|[|[|[|n]]]] kd ps fuel ts t E HI HP; cbn in E; try discriminate; try (destruct n; discriminate); injection E as <- <-; cbn [node_fine]; try exact I;
    (eexists; split; [reflexivity|]; left; eexists; split; [llegal|repeat constructor]).
Qed.
Example C71_tables_ex : values (fw_run lnet' lst_ tgeo tfeed (fun _ _ => []) (fun n => type_named (lconf lnet' lst_ n)) (lsize lnet' lst_) (table_of ltabs) one_by_one lnet' []) =
    map (map this) [[Q2Qc (-5 # 4); qz 1]; [Q2Qc (-5 # 4); qz 1]; [Q2Qc (3 # 2); qz 1]; [Q2Qc (3 # 2); qz 1]] /\
  exists out out', run lst_ tgeo tfeed (fun _ _ => []) (fun _ => None) lnet [] = Ok out /\
    fw_run lnet' lst_ tgeo tfeed (fun _ _ => []) (fun n => type_named (lconf lnet' lst_ n)) (lsize lnet' lst_) (table_of ltabs) one_by_one lnet' [] = Ok out' /\ nth_error out' 3 = nth_error out 3.
Proof.
  split; [vm_compute; reflexivity|].
  destruct C49_in_network_ex as (_ & _ & _ & _ & AF). destruct C70_same_outputs_ex as (tabs & out & HP & _ & GR & H & R & _).
  assert (ET : tabs = ltabs) by (unfold ltabs; rewrite HP; reflexivity). subst tabs. exists out.
  pose proof lnet'_nodes as (l & T & LO & LF & EN).
  destruct (C71_tables 4096 65536 3 lnet 64 [1; 2; 3]%nat lst_ ltabs tgeo tfeed (fun _ _ => []) (lconf lnet' lst_) (lsize lnet' lst_) one_by_one out AF) as (out' & F & _ & S); fold lnet' in *.
  - exact lnet_no_table.
  - exact H.
  - repeat (apply Forall_cons; [llegal|]). apply Forall_nil.
  - exact HP.
  - exact GR.
  - exact lnet'_fine.
  - intros n l0 kd p T0 E. assert (n = 2%nat).
    { apply table_of_in in T0. assert (X : In n (map fst ltabs)) by (apply (in_map fst _ _ T0)). vm_compute in X. destruct X as [X|[]]. congruence. }
    subst n. assert (l0 = l) by congruence. subst l0. cbn in E. assert (p = 1%nat) by congruence. subst p. exists 1, 1, 2. rewrite LF. split; [vm_compute; reflexivity|lia].
  - intros n kd ps E NT. rewrite EN in E. destruct n as [|[|[|[|n]]]]; [| | | |destruct n; discriminate E]; vm_compute; reflexivity.
  - intros n kd ps E TN. pose proof E as E0. rewrite EN in E. destruct n as [|[|[|[|n]]]]; [| | | |destruct n; discriminate E].
    + right. right. split; [rewrite EN; discriminate|]. split; [rewrite EN; exact I|]. split; [rewrite EN; reflexivity|]. exists 1, 1, 2, "RND"%string, "SAT"%string. split; [vm_compute; reflexivity|]. split; [auto|]. split; [lia|]. split; [lia|]. split; [cbn; auto 10|]. split; [cbn; auto 10|]. split; [rewrite EN; exact I|].
      left. exists 1%nat, 0%nat, (lfpq 1 4 2 "RND" "SAT"). rewrite EN. split; [reflexivity|]. split; [reflexivity|]. split; [reflexivity|]. split; [llegal|vm_compute; reflexivity].
    + left. split; vm_compute; reflexivity.
    + congruence.
    + left. split; vm_compute; reflexivity.
  - exact one_by_one_adds.
  - exact R.
  - exists out'. split; [exact R|]. split; [exact F|]. apply S; [vm_compute; reflexivity|]. left. vm_compute. reflexivity.
Qed.

(** A piecewise linear function in the place of tanh; the table has 32 entries. *)
Definition hard (x : Qc) : Qc := if qleb x (qz (-1)) then qz (-1) else if qleb (qz 1) x then qz 1 else x.
Definition hnet : pnet := [(NInput, []); (NFpq 0, [0%nat]); (NAct ATanh hard, [1%nat]); (NFpq 1, [2%nat])].
Definition hst : pst := [lfpq 1 4 2 "RND" "SAT"; lfpq 1 3 2 "RND" "SAT"].
Lemma hnet_fine : all_fine hnet hst.
Proof.
  split; [|intros [|[|[|[|n]]]] k i f ps E; cbn in E; try discriminate; destruct n; discriminate].
  intros [|[|[|[|n]]]] kd ps fuel ts t E HI HP; cbn in E; try discriminate; try (destruct n; discriminate); injection E as <- <-; cbn [node_fine]; try exact I;
    try (eexists; split; [reflexivity|]; left; eexists; split; [llegal|repeat constructor]).
  apply linputs_one in HI as [u [-> HI]].
  assert (Eu : u = (1, 1, 2)) by (assert (HI' : produced 6 hnet 1 hst = Ok ((1, 1, 2), hst)) by (vm_compute; reflexivity); pose proof (produced_agree _ _ _ _ _ _ _ HI HI'); congruence). subst u.
  intros k i f [E|[]]. assert (k = 1 /\ i = 1 /\ f = 2) as (-> & -> & ->) by (repeat split; congruence). split; [lia|]. split; [lia|]. split; [lia|]. split; [|lia].
  intros x [G [A B]]. unfold hard. destruct (qleb_spec x (qz (-1))); [plain (- 2 ^ 32)|]. destruct (qleb_spec (qz 1) x); [plain (2 ^ 32)|].
  split; [apply (FixedPointLayerP.grid_weaken 2); [lia|exact G]|]. assert (P1 : (qz 1 < pow2 32)%Qc) by (apply qltb_true; vm_compute; reflexivity). assert (P2 : (- pow2 32 < qz (-1))%Qc) by (apply qltb_true; vm_compute; reflexivity).
  generalize dependent (pow2 32). intros g Q1 Q2. split; qlra.
Qed.
Example C71_tanh_ex : lsize hnet hst 2 = Some 32 /\
  values (fw_run hnet hst tgeo tfeed (fun _ _ => []) (fun n => type_named (lconf hnet hst n)) (lsize hnet hst) (fun _ => None) one_by_one hnet []) =
    map (map this) [[Q2Qc (-5 # 4); qz 1]; [Q2Qc (-5 # 4); qz 1]; [qz (-1); qz 1]; [qz (-1); qz 1]] /\
  forall out, run hst tgeo tfeed (fun _ _ => []) (fun _ => None) hnet [] = Ok out -> exists out',
    fw_run hnet hst tgeo tfeed (fun _ _ => []) (fun n => type_named (lconf hnet hst n)) (lsize hnet hst) (fun _ => None) one_by_one hnet [] = Ok out' /\ nth_error out' 3 = nth_error out 3.
Proof.
  split; [vm_compute; reflexivity|]. split; [vm_compute; reflexivity|]. intros out R.
  assert (H : honest hnet tfeed (fun _ _ => [])) by (destruct lnet_honest as (H1 & H2 & _); split; [exact H1|]; split; [exact H2|]; intros; constructor).
  destruct (C71_network 3 hnet hst tgeo tfeed (fun _ _ => []) (lconf hnet hst) (lsize hnet hst) (fun _ => None) one_by_one out hnet_fine H) as (out' & F & _ & S).
  - intros n kd ps E _. destruct n as [|[|[|[|n]]]]; [..|destruct n; discriminate E]; vm_compute; reflexivity.
  - intros n kd ps E. destruct n as [|[|[|[|n]]]]; [..|destruct n; discriminate E].
    + right. right. split; [discriminate|]. split; [exact I|]. split; [reflexivity|]. exists 1, 1, 2, "RND"%string, "SAT"%string. split; [vm_compute; reflexivity|]. split; [auto|]. split; [lia|]. split; [lia|]. split; [cbn; auto 10|]. split; [cbn; auto 10|]. split; [exact I|].
      left. exists 1%nat, 0%nat, (lfpq 1 4 2 "RND" "SAT"). split; [reflexivity|]. split; [reflexivity|]. split; [reflexivity|]. split; [llegal|vm_compute; reflexivity].
    + left. split; vm_compute; reflexivity.
    + right. right. split; [discriminate|]. split.
      * exists 1%nat, 1, 1, 2. split; [reflexivity|]. split; [vm_compute; reflexivity|]. lia.
      * split; [reflexivity|]. exists 1, 1, 1, "RND"%string, "SAT"%string. split; [vm_compute; reflexivity|]. split; [auto|]. split; [lia|]. split; [lia|]. split; [cbn; auto 10|]. split; [cbn; auto 10|]. split; [exact I|].
        left. exists 3%nat, 1%nat, (lfpq 1 3 2 "RND" "SAT"). split; [reflexivity|]. split; [reflexivity|]. split; [reflexivity|]. split; [llegal|vm_compute; reflexivity].
    + left. split; vm_compute; reflexivity.
  - exact one_by_one_adds.
  - exact R.
  - exists out'. split; [exact F|]. apply S. left. vm_compute. reflexivity.
Qed.

(** C75, C76: saving and loading lookup tables and input signatures. *)
From Coq Require Import ZArith QArith Qcanon List Bool String Lia.
From Verif Require Import Base.Num Base.NumFacts Base.Tensor Base.Compute Model.FixedPoint Model.Layers Model.Precision Model.Lut Model.SaveProxy
  Spec.SaveProxy Proofs.LutP Proofs.SaveProxyP.
Import ListNotations.
Local Open Scope Z_scope.

(** ** C75 *)

(** A saved table loads exactly when the loading process allows its size and there is an entry for every input. *)
Theorem C75_loads : forall limit limit' kin kout R S t l, ulut_new limit kin kout R S (Some t) = Ok l ->
  (exists l', ulut_load limit' (ulut_save l) = Ok l') <->
  (limit' <= 0 \/ 2 ^ width kin < limit') /\ Z.of_nat (List.length t) = 2 ^ width kin.
Proof.
  intros limit limit' kin kout R S t l H. rewrite (ulut_load_spec _ limit' _ _ _ _ _ _ H).
  destruct (Z.leb_spec limit' 0); destruct (Z.ltb_spec (2 ^ width kin) limit'); destruct (Z.eqb_spec (Z.of_nat (List.length t)) (2 ^ width kin)); cbn [orb andb];
  split; try (intros [l' E]; discriminate E); try (intros _; lia); try (intros [? ?]; lia); eauto.
Qed.
Print Assumptions C75_loads.

(** What it loads to has the same precisions and gives every input the same output, and saving it again stores the same. *)
Theorem C75_same : forall limit limit' kin kout R S t l l', ulut_new limit kin kout R S (Some t) = Ok l ->
  ulut_load limit' (ulut_save l) = Ok l' ->
  u_in l' = kin /\ u_out l' = kout /\ (forall x, ulut_call l' x = ulut_call l x) /\ ulut_save l' = ulut_save l.
Proof.
  intros limit limit' kin kout R S t l l' H E. rewrite (ulut_load_spec _ limit' _ _ _ _ _ _ H) in E.
  destruct (_ && _)%bool; [|discriminate]. injection E as <-. destruct (ulut_new_inv _ _ _ _ _ _ _ H) as (_ & _ & _ & t' & Ei & Eo & _). auto.
Qed.
Print Assumptions C75_same.

(** Tables made for an activation load under the limit they were made under, and answer as before. *)
Theorem C75_activation : forall limit hls func k i f ko io fo R V a,
  from_activation limit hls func (k, i, f) ((ko, io, fo), R, V) = Ok a -> k = 0 \/ k = 1 ->
  exists l l', ulut_new limit (k, i, f) (ko, io, fo) R V (Some (map func (lut_inputs (k, i, f)))) = Ok l /\
    ulut_load limit (ulut_save l) = Ok l' /\ u_out l' = lut_out a /\ forall x, ulut_call l' x = lut_call a x.
Proof.
  intros limit hls func k i f ko io fo R V a H Hk. destruct (from_spec _ _ _ _ _ _ _ _ _ _ _ _ H) as (H1 & H2 & _ & _ & H3 & Ef & Eo & Q).
  assert (N : ulut_new limit (k, i, f) (ko, io, fo) R V (Some (map func (lut_inputs (k, i, f)))) = Ok (mkUL (k, i, f) (ko, io, fo) (Some (lut_table a)))).
  { unfold ulut_new. cbn [width]. destruct (Z.ltb_spec 0 (k + i + f)); [|lia]. destruct (Z.ltb_spec 0 (ko + io + fo)); [|lia]. cbn [negb].
    destruct (Z.ltb_spec 0 limit) as [L|L]; [specialize (H3 L); apply Z.ltb_lt in H3; rewrite H3|]; cbn [andb negb]; rewrite Q; reflexivity. }
  eexists _, _. split; [exact N|]. rewrite (ulut_load_spec _ limit _ _ _ _ _ _ N). rewrite map_length, lut_inputs_length by assumption. cbn [width]. rewrite Z.eqb_refl, andb_true_r.
  assert (C : ((limit <=? 0) || (2 ^ (k + i + f) <? limit))%bool = true).
  { destruct (Z.leb_spec limit 0); [reflexivity|]. cbn [orb]. apply Z.ltb_lt, H3. lia. }
  rewrite C. split; [reflexivity|]. split; [symmetry; exact Eo|]. intros x. unfold ulut_call, ulut_build. cbn [u_table u_in u_out snd]. destruct a as [af ao at']. cbn [lut_f lut_out lut_table] in *. subst. reflexivity.
Qed.
Print Assumptions C75_activation.

(** The configuration alone does not say what the table is: a layer made from it gives 0 for every input. *)
Theorem C75_config_only : forall limit kin kout R S l, ulut_new limit kin kout R S None = Ok l -> forall x, ulut_call l x = Ok (qz 0).
Proof.
  intros limit kin kout R S l H x. unfold ulut_new in H. destruct (Z.ltb_spec 0 (width kin)) as [Hw|]; [|discriminate]. destruct (Z.ltb 0 (width kout)); [|discriminate]. cbn [negb] in H.
  destruct (_ && _)%bool; [discriminate|]. injection H as <-. unfold ulut_call, ulut_build, lut_call. cbn [u_table u_in u_out lut_table lut_f]. rewrite repeat_length.
  assert (P : 0 < 2 ^ width kin) by (apply Z.pow_pos_nonneg; lia). rewrite Z2Nat.id by lia. destruct (Z.eqb_spec (2 ^ width kin) 0); [lia|].
  pose proof (Z.mod_pos_bound (qround_even (x * pow2 (snd kin))) (2 ^ width kin) P) as B.
  rewrite (nth_error_nth' _ (qz 0)) by (rewrite repeat_length; apply Z2Nat.inj_lt; lia). rewrite nth_repeat. reflexivity.
Qed.
Print Assumptions C75_config_only.

Definition twice (x : Qc) : Qc := (x + x)%Qc.
(** A table of eight entries for 2x, its values, and the same after loading; in a process that allows tables below eight entries
    it does not load, nor does a table of three entries anywhere. *)
Definition lut8 : result ulayer := ulut_new 4096 (1, 1, 1) (1, 2, 0) "TRN" "WRAP" (Some (map twice (lut_inputs (1, 1, 1)))).
Definition value (r : result Qc) : option QArith_base.Q := match r with Ok y => Some (this y) | Raise => None end.
Example C75_ex : match lut8 with
  | Ok l => (exists l', ulut_load 0 (ulut_save l) = Ok l') /\ ~ (exists l', ulut_load 8 (ulut_save l) = Ok l') /\ value (ulut_call l (Q2Qc (-3 # 2))) = Some (-3 # 1)%Q
  | Raise => False end.
Proof.
  assert (V : match lut8 with Ok l => value (ulut_call l (Q2Qc (-3 # 2))) | Raise => None end = Some (-3 # 1)%Q) by (vm_compute; reflexivity).
  destruct lut8 as [l|] eqn:E; [|discriminate V]. split; [|split; [|exact V]]; rewrite (C75_loads _ _ _ _ _ _ _ _ E); rewrite map_length, lut_inputs_length; cbn; lia.
Qed.
Definition lut3 : result ulayer := ulut_new 4096 (1, 1, 1) (1, 2, 0) "TRN" "WRAP" (Some [qz 0; qz 1; qz 2]).
Example C75_short_ex : match lut3 with Ok l => ulut_load 4096 (ulut_save l) = Raise | Raise => False end.
Proof. vm_compute. reflexivity. Qed.
Example C75_activation_ex : exists a, from_activation 4096 65536 twice (1, 1, 1) ((1, 2, 0), "RND"%string, "SAT"%string) = Ok a.
Proof. eexists. vm_compute. reflexivity. Qed.
Example C75_config_only_ex : exists l, ulut_new 4096 (1, 1, 1) (1, 2, 0) "TRN" "WRAP" None = Ok l.
Proof. eexists. vm_compute. reflexivity. Qed.

(** ** C76 *)

(** A built signature is restored from its configuration with the same widths everywhere. *)
Theorem C76_built : forall s inp s', sig_build s inp = Ok s' -> ~ In 0%nat inp ->
  Forall int8 (data (s_neg s)) -> Forall int8 (data (s_bits s)) -> Forall int8 (data (s_int s)) ->
  sig_load (sig_config s') inp = Ok s'.
Proof.
  intros s inp s' E N F1 F2 F3. destruct (sig_build_plain _ _ _ E N F1 F2 F3) as (P1 & P2 & P3).
  rewrite sig_load_spec by assumption. exact (sig_build_twice _ _ _ E).
Qed.
Print Assumptions C76_built.

(** A signature saved before it is built gives, once loaded and built, what building the original gives (an exception included). *)
Theorem C76_unbuilt : forall s inp, plain (s_neg s) -> plain (s_bits s) -> plain (s_int s) -> sig_load (sig_config s) inp = sig_build s inp.
Proof. exact sig_load_spec. Qed.
Print Assumptions C76_unbuilt.

(** Widths per channel for inputs of shape (2, 3). *)
Definition sig23 : signature := mkSig (mkT [] [1]) (mkT [3%nat] [8; 6; 4]) (mkT [2%nat; 1%nat] [2; 3]).
Example C76_ex : exists s', sig_build sig23 [2; 3]%nat = Ok s' /\ data (s_bits s') = [8; 6; 4; 8; 6; 4] /\ data (s_int s') = [2; 2; 2; 3; 3; 3] /\
  snd (fst (sig_config s')) = Lst [Lst [Lst [Num 8; Num 6; Num 4]; Lst [Num 8; Num 6; Num 4]]] /\ sig_load (sig_config s') [2; 3]%nat = Ok s'.
Proof. eexists. split; [vm_compute; reflexivity|]. repeat split; vm_compute; reflexivity. Qed.
Example C76_unbuilt_ex : plain (s_neg sig23) /\ plain (s_bits sig23) /\ plain (s_int sig23).
Proof. unfold plain, wf_tensor, int8. cbn. repeat split; try (repeat constructor; lia); intuition lia. Qed.

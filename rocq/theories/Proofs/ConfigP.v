(** Lemmas about the derived configurations. *)
From Coq Require Import ZArith Qcanon List Bool String Lia.
From Verif Require Import Base.Num Base.NumFacts Base.Tensor Model.FixedPoint Model.Apf Model.Precision Spec.Fixed Spec.Apf Spec.Precision Proofs.FixedPointP Proofs.FixedPointLayerP Proofs.FitsP Proofs.PrecisionP Proofs.SoundP Proofs.ReduceP Proofs.ApfP Proofs.MergeP.
Import ListNotations.
Open Scope Z_scope.

Lemma result_merged fuel net n s k i f R S s' t t1 : result_kifRS fuel net n s = Ok (((k, i, f), R, S), s') ->
  fusible_result net n s = Ok None -> (forall ps, nth_error net n <> Some (NInput, ps)) ->
  produced fuel net n s = Ok (t, s') -> requested fuel net n s' = Ok t1 ->
  merge_precision t t1 = (k, i, f) /\ R = "TRN"%string /\ S = "WRAP"%string.
Proof.
  intros HR HF HN HP HQ. unfold result_kifRS in HR. rewrite HF in HR. cbn [rbind] in HR.
  assert (E : rbind (produced fuel net n s) (fun p => rbind (requested fuel net n (snd p)) (fun q => Ok ((merge_precision (fst p) q, "TRN"%string, "WRAP"%string), snd p))) = Ok (((k, i, f), R, S), s')).
  { destruct (nth_error net n) as [[kd ps]|]; [|discriminate]. destruct kd; try exact HR. exfalso. eapply HN. reflexivity. }
  rewrite HP in E. cbn [rbind fst snd] in E. rewrite HQ in E. cbn [rbind] in E. apply okpair in E as [E _].
  pose proof (f_equal fst E) as E1. pose proof (f_equal snd E) as E2. cbn [fst snd] in E1, E2. split; [exact (f_equal fst E1)|]. split; [symmetry; exact (f_equal snd E1)|symmetry; exact E2].
Qed.

Lemma merge_exact k0 i0 f0 k1 i1 f1 k i f y : (k0 = 0 \/ k0 = 1) -> 0 <= i0 + f0 -> fits k0 i0 f0 y -> i0 <= i1 -> f0 <= f1 ->
  merge_precision (k0, i0, f0) (k1, i1, f1) = (k, i, f) -> gfixed_quantizer y k (k + i + f) (k + i) "TRN" "WRAP" = Ok y.
Proof.
  intros Hk Hw Fy Li Lf E. unfold merge_precision in E. destruct (Z.ltb_spec f1 f0); [lia|]. cbn [andb] in E. rewrite Z.min_l, Z.min_l in E by lia.
  assert (Q : k0 = k /\ i0 = i /\ f0 = f) by (repeat split; congruence). destruct Q as [<- [<- <-]]. clear E.
  destruct (stored_code y k0 i0 f0 "WRAP") as [m [Hm ->]]; [cbn; auto 10|exact Hk|exact Hw|]. f_equal.
  destruct (round_exact k0 i0 f0 f0 "TRN" y m Hk Fy (Z.le_refl _) Hw Hm) as [m0 [E0 [B0 E1]]]. replace (f0 - f0) with 0 in E1 by lia. rewrite Z.mul_1_r in E1. subst m0.
  rewrite ovf_id; [symmetry; exact E0|cbn; auto 10|exact Hk|lia| |discriminate]. rewrite lo_eq, hi_eq. replace (k0 + i0 + f0 - k0) with (i0 + f0) by lia. lia.
Qed.

Lemma check_ok types : check_types types = Ok tt -> forall name t, In (name, t) types -> exists k i f, apf_to_tuple t = Ok (k, i, f) /\ i + f <= 64.
Proof.
  induction types as [|[nm v] types IH]; intros E name t H; [destruct H|]. cbn [check_types fold_right snd] in E. destruct (apf_to_tuple v) as [[[k i] f]|] eqn:Ev; cbn [rbind] in E; [|discriminate].
  destruct (Z.ltb_spec 64 (i + f)) as [|L]; [discriminate|]. destruct H as [H|H].
  - assert (t = v) by congruence. subst t. eauto.
  - eapply IH; eauto.
Qed.
Lemma check_raise types name t k i f : In (name, t) types -> apf_to_tuple t = Ok (k, i, f) -> 64 < i + f -> check_types types = Raise.
Proof.
  intros H E L. destruct (check_types types) as [[]|] eqn:C; [|reflexivity]. destruct (check_ok types C name t H) as (k' & i' & f' & E' & L').
  rewrite E in E'. assert (i' = i /\ f' = f) by (split; congruence). lia.
Qed.
Lemma config_checked fuel net n s offset types size s' : layer_config fuel net n s offset = Ok ((types, size), s') -> check_types types = Ok tt.
Proof.
  unfold layer_config. destruct (match nth_error net n with None => Raise | _ => _ end) as [[[ty sz] s1]|]; cbn [rbind fst]; [|discriminate].
  destruct (check_types ty) as [[]|] eqn:C; cbn [rbind]; [|discriminate]. intros E. apply okpair in E as [E _]. assert (ty = types) by congruence. subst. exact C.
Qed.
Lemma config_width fuel net n s offset types size s' : layer_config fuel net n s offset = Ok ((types, size), s') ->
  forall name t, In (name, t) types -> exists u b i, type_string t u b i /\ b <= 64 + (if u then 0 else 1).
Proof.
  intros H name t Ht. apply config_checked in H. destruct (check_ok types H name t Ht) as (k & i & f & E & L).
  unfold apf_to_tuple in E. destruct (apf_match t) as [[[u b] j]|] eqn:M; [|discriminate]. exists u, b, j. split; [apply match_sound, M|].
  assert (i = j - (if u then 0 else 1) /\ f = b - j) by (split; congruence). destruct u; lia.
Qed.

Local Ltac okz := match goal with |- Ok (?a, ?b, ?c) = Ok (?d, ?e, ?g) => assert (a = d) by lia; assert (b = e) by lia; assert (c = g) by lia; congruence end.
Lemma print_read k i f R S : (k = 0 \/ k = 1) -> 1 <= k + i + f -> all_chars word_char R -> all_chars word_char S -> apf_to_tuple (tuple_to_apf (k, i, f) R S true) = Ok (k, i, f).
Proof.
  intros Hk Hp Hr Hs. assert (HQ : 0 < i + f + k) by lia. unfold apf_to_tuple.
  rewrite (match_complete _ _ _ _ (print_string k i f R S true Hk (word_suffix _ Hr) (word_suffix _ Hs) (or_intror HQ))).
  rewrite Z.max_l by lia. destruct Hk as [->| ->]; cbn [Z.eqb Pos.eqb]; okz.
Qed.

(** Every configuration contains the type of the result (as table entries for
    activations). *)
Definition main_conf (fuel : nat) (net : pnet) (n : nat) (s : pst) (offset : option Z) : result (conf * pst) :=
  match nth_error net n with
  | None => Raise
  | Some (NKernel kernel _ _, _) => config_kernel fuel net n s kernel offset
  | Some (NAct a _, ps) => config_table fuel net n s a ps
  | Some _ =>
    rbind (result_kifRS fuel net n s) (fun r =>
      Ok (([("result_t"%string, tuple_to_apf (fst (fst (fst r))) (snd (fst (fst r))) (snd (fst r)) true)], None), snd r))
  end.
Lemma config_result fuel net n s offset t R S s1 c s' : result_kifRS fuel net n s = Ok ((t, R, S), s1) -> main_conf fuel net n s offset = Ok (c, s') ->
  exists name, In (name, tuple_to_apf t R S true) (fst c).
Proof.
  intros HR HC. unfold main_conf in HC. destruct (nth_error net n) as [[kd ps]|]; [|discriminate]. destruct t as [[k i] f].
  destruct kd; try (rewrite HR in HC; cbn [rbind fst snd] in HC; apply okpair in HC as [<- _]; eexists; left; reflexivity).
  - unfold config_table in HC. rewrite HR in HC. cbn [rbind fst snd] in HC. destruct (input_kifs _ _ _ _) as [[l s2]|]; cbn [rbind fst snd] in HC; [|discriminate].
    destruct (kifs_max l) as [[[ik ii] jf]|]; cbn [rbind] in HC; [|discriminate]. destruct (Z.ltb (ik + ii + jf) 0); [discriminate|]. apply okpair in HC as [<- _]. eexists. left. reflexivity.
  - unfold config_kernel in HC. rewrite HR in HC. cbn [rbind fst snd] in HC. destruct (produced _ _ _ _) as [[[[pk pi] pf] s2]|]; cbn [rbind] in HC; [|discriminate].
    apply okpair in HC as [<- _]. eexists. right. right. left. reflexivity.
Qed.
Lemma config_main fuel net n s offset : layer_config fuel net n s offset = rbind (main_conf fuel net n s offset) (fun c => rbind (check_types (fst (fst c))) (fun _ => Ok c)).
Proof. reflexivity. Qed.
Lemma config_rejects fuel net n s offset k i f R S s' : result_kifRS fuel net n s = Ok (((k, i, f), R, S), s') ->
  (k = 0 \/ k = 1) -> all_chars word_char R -> all_chars word_char S -> 64 < i + f -> layer_config fuel net n s offset = Raise.
Proof.
  intros HR Hk WR WS L. rewrite config_main. destruct (main_conf fuel net n s offset) as [[c s2]|] eqn:HC; cbn [rbind fst]; [|reflexivity].
  destruct (config_result _ _ _ _ _ _ _ _ _ _ _ HR HC) as [name Hn].
  rewrite (check_raise _ _ _ k i f Hn); [reflexivity| |exact L]. apply print_read; auto; lia.
Qed.

Lemma kernel_conf fuel net n s offset kernel div bias ps types size s' k i f R S s1 pk pi pf s2 :
  nth_error net n = Some (NKernel kernel div bias, ps) -> layer_config fuel net n s offset = Ok ((types, size), s') ->
  result_kifRS fuel net n s = Ok (((k, i, f), R, S), s1) -> produced fuel net n s1 = Ok ((pk, pi, pf), s2) ->
  offset = None ->
  let a := if String.eqb S "WRAP" then tuple_to_apf (k, i, pf) "TRN" "WARP" true else tuple_to_apf (pk, pi, pf) "TRN" "WARP" true in
  In ("accum_t"%string, a) types /\ In ("bias_t"%string, a) types.
Proof.
  intros En HC HR HP -> a. rewrite config_main in HC. unfold main_conf in HC. rewrite En in HC. unfold config_kernel in HC. rewrite HR in HC. cbn [rbind fst snd] in HC. rewrite HP in HC. cbn [rbind] in HC.
  destruct (check_types _) as [[]|]; cbn [rbind] in HC; [|discriminate]. apply okpair in HC as [HC _].
  pose proof (f_equal fst HC) as HT. cbn [fst] in HT. rewrite <- HT. subst a. split; [right; left; reflexivity|right; right; right; left; reflexivity].
Qed.
Lemma accumulator_wraps fuel net n s kernel div bias ps types size s' k i f R s1 pk pi pf s2 :
  nth_error net n = Some (NKernel kernel div bias, ps) -> layer_config fuel net n s None = Ok ((types, size), s') ->
  result_kifRS fuel net n s = Ok (((k, i, f), R, "WRAP"%string), s1) -> produced fuel net n s1 = Ok ((pk, pi, pf), s2) ->
  (k = 0 \/ k = 1) -> 0 <= i + f -> 0 <= i + pf -> 1 <= k + i + pf ->
  exists a, In ("accum_t"%string, a) types /\ In ("bias_t"%string, a) types /\ apf_to_tuple a = Ok (k, i, pf) /\
    forall y z, on_grid pf y -> R = "TRN"%string \/ R = "RND"%string \/ (pf <= f /\ In R rounding_names) ->
      gfixed_quantizer y k (k + i + pf) (k + i) "TRN" "WRAP" = Ok z -> gfixed_quantizer z k (k + i + f) (k + i) R "WRAP" = gfixed_quantizer y k (k + i + f) (k + i) R "WRAP".
Proof.
  intros En HC HR HP Hk W1 W2 W3. destruct (kernel_conf _ _ _ _ _ _ _ _ _ _ _ _ _ _ _ _ _ _ _ _ _ _ En HC HR HP eq_refl) as [A B]. cbn [String.eqb Ascii.eqb Bool.eqb] in A, B.
  exists (tuple_to_apf (k, i, pf) "TRN" "WARP" true). split; [exact A|]. split; [exact B|]. split.
  { apply print_read; auto; cbn; repeat split; unfold word_char; cbn; lia. }
  intros y z Gy HRR Ez. assert (IR : In R rounding_names) by (destruct HRR as [->|[->|[_ ?]]]; [cbn; auto..|assumption]).
  destruct (Z_le_dec pf f) as [L|L].
  - eapply via_wrap_grid with (k := k) (i := i) (f := pf); eauto; lia.
  - eapply via_wrap with (k := k) (i := i) (f := pf); eauto; [lia| |lia]. destruct HRR as [->|[->|[? _]]]; [left|right|]; [split; auto; lia..|lia].
Qed.
Lemma accumulator_full fuel net n s kernel div bias ps types size s' k i f R S s1 pk pi pf s2 :
  nth_error net n = Some (NKernel kernel div bias, ps) -> layer_config fuel net n s None = Ok ((types, size), s') ->
  result_kifRS fuel net n s = Ok (((k, i, f), R, S), s1) -> S <> "WRAP"%string -> produced fuel net n s1 = Ok ((pk, pi, pf), s2) ->
  (pk = 0 \/ pk = 1) -> 1 <= pk + pi + pf ->
  exists a, In ("accum_t"%string, a) types /\ apf_to_tuple a = Ok (pk, pi, pf).
Proof.
  intros En HC HR NW HP Hk W. destruct (kernel_conf _ _ _ _ _ _ _ _ _ _ _ _ _ _ _ _ _ _ _ _ _ _ En HC HR HP eq_refl) as [A _]. apply String.eqb_neq in NW. rewrite NW in A.
  exists (tuple_to_apf (pk, pi, pf) "TRN" "WARP" true). split; [exact A|]. apply print_read; auto; cbn; repeat split; unfold word_char; cbn; lia.
Qed.

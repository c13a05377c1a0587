(** C89: the attention layer. *)
From Coq Require Import ZArith QArith Qcanon List Bool Lia Arith.
From Verif Require Import Base.Num Base.NumFacts Base.Tensor Base.Compute Model.Attn Spec.Bops Spec.Attn Proofs.BopsP Proofs.AttnP.
Import ListNotations.
Local Open Scope nat_scope.

(** C89: every head weighs the values by a softmax of scaled products of queries and keys, the heads are taken side by side, whatever training and dropout. *)
Theorem C89_formula : forall ex sq fresh a q k v m training n nq nk dq dk dv w,
  (forall x, qz 0 < ex x)%Qc -> 0 < nk -> uses fresh a dq dk dv w -> attn_fits a w dq dk dv ->
  tensor3 q n nq dq -> tensor3 k n nk dk -> tensor3 v n nk dv -> mask_fits m n nq nk ->
  exists out p a', attn_call ex sq fresh a (map Some (shape q)) (map Some (shape k)) (map Some (shape v)) q k v m training = Ok (out, p, a') /\
    at_w a' = Some w /\ tensor3 out n nq dv /\ shape p = [n; at_heads a; nq; nk] /\
    (forall b h i, b < n -> h < at_heads a -> i < nq ->
       softmax_of ex nk (fun j => score sq a w h (elem3 (qz 0) q nq dq b i) (elem3 (qz 0) k nk dk b j) + mask_at m nq nk b i j)%Qc (at4 (qz 0) p b h i)) /\
    (forall b i o, b < n -> i < nq -> o < dv ->
       elem3 (qz 0) out nq dv b i o =
       dense_out (to_out w) (fun c => qsum_to nk (fun j => at4 (qz 0) p b (c / at_vd a) i j * dense_out (to_v w) (elem3 (qz 0) v nk dv b j) c)%Qc) o).
Proof. exact attn_value. Qed.
Print Assumptions C89_formula.

(** C89: the layers made by the first call fit. *)
Theorem C89_first_call : forall fresh a dq dk dv, (forall n u, length (fresh n u) = n * u) -> attn_fits a (attn_build fresh a dq dk dv) dq dk dv.
Proof.
  intros fresh a dq dk dv HF. unfold attn_fits, dense_of, attn_build. cbn [to_q to_k to_v to_out kd_in kd_units kd_kernel kd_bias].
  repeat split; try apply HF; (destruct (at_bias a); [split; [reflexivity|apply repeat_length]|reflexivity]).
Qed.
Print Assumptions C89_first_call.

(** C89: no value_dim, or 0, means key_dim. *)
Theorem C89_value_dim : forall h kd vd d b, at_vd (attn_init h kd vd d b) = match vd with Some 0 | None => kd | Some v => v end /\
  (vd = None \/ vd = Some 0 -> attn_init h kd vd d b = attn_init h kd (Some kd) d b) /\ at_w (attn_init h kd vd d b) = None.
Proof. intros h kd [[|v]|] d b; (split; [reflexivity|split; [intros [H|H]; try discriminate H; destruct kd; reflexivity|reflexivity]]). Qed.
Print Assumptions C89_value_dim.

(** C89: the weights are positive and add up to one for every query, even one that may see nothing; so what a head delivers lies between the smallest and
    the largest value. *)
Theorem C89_average : forall ex sq fresh a q k v m training n nq nk dq dk dv w out p a',
  (forall x, qz 0 < ex x)%Qc -> 0 < nk -> uses fresh a dq dk dv w -> attn_fits a w dq dk dv ->
  tensor3 q n nq dq -> tensor3 k n nk dk -> tensor3 v n nk dv -> mask_fits m n nq nk ->
  attn_call ex sq fresh a (map Some (shape q)) (map Some (shape k)) (map Some (shape v)) q k v m training = Ok (out, p, a') ->
  forall b h i, b < n -> h < at_heads a -> i < nq ->
    (forall j, j < nk -> (qz 0 < at4 (qz 0) p b h i j)%Qc) /\ qsum_to nk (at4 (qz 0) p b h i) = qz 1 /\
    forall c lo hi, (forall j, j < nk -> (lo <= dense_out (to_v w) (elem3 (qz 0) v nk dv b j) c <= hi)%Qc) ->
      (lo <= qsum_to nk (fun j => at4 (qz 0) p b h i j * dense_out (to_v w) (elem3 (qz 0) v nk dv b j) c) <= hi)%Qc.
Proof.
  intros ex sq fresh a q k v m training n nq nk dq dk dv w out p a' Hex Hnk HW HF Tq Tk Tv Hm E b h i Hb Hh Hi.
  destruct (attn_value ex sq fresh a q k v m training n nq nk dq dk dv w Hex Hnk HW HF Tq Tk Tv Hm) as [out0 [p0 [a0 [E0 [_ [_ [_ [S _]]]]]]]].
  assert (p0 = p) by congruence. subst p0. destruct (softmax_total _ _ _ _ Hex (S b h i Hb Hh Hi)) as [P T]. split; [exact P|]. split; [exact T|].
  intros c lo hi HV. split.
  - replace lo with (qsum_to nk (fun j => at4 (qz 0) p b h i j * lo)%Qc) by (rewrite qsum_to_scale, T; change (qz 1) with (Q2Qc 1); ring).
    apply qsum_to_mono. intros j Hj. specialize (P j Hj). destruct (HV j Hj) as [L _]. qnra.
  - replace hi with (qsum_to nk (fun j => at4 (qz 0) p b h i j * hi)%Qc) by (rewrite qsum_to_scale, T; change (qz 1) with (Q2Qc 1); ring).
    apply qsum_to_mono. intros j Hj. specialize (P j Hj). destruct (HV j Hj) as [_ L]. qnra.
Qed.
Print Assumptions C89_average.

(** C89: the result for a query depends on that query, its row of the mask and the keys and values of its sample only, not on their order: if in two calls a query
    and its row of the mask are the same, and the pairs of keys and values are the same up to a permutation, the results for it are the same. *)
Theorem C89_set : forall ex sq fresh a q k v m training q' k' v' m' training' n n' nq nq' nk dq dk dv w out p a1 out' p' a1' b b' i i' f,
  (forall x, qz 0 < ex x)%Qc -> 0 < nk -> uses fresh a dq dk dv w -> attn_fits a w dq dk dv ->
  tensor3 q n nq dq -> tensor3 k n nk dk -> tensor3 v n nk dv -> mask_fits m n nq nk ->
  tensor3 q' n' nq' dq -> tensor3 k' n' nk dk -> tensor3 v' n' nk dv -> mask_fits m' n' nq' nk ->
  b < n -> b' < n' -> i < nq -> i' < nq' -> permutes nk f ->
  (forall t, t < dq -> elem3 (qz 0) q' nq' dq b' i' t = elem3 (qz 0) q nq dq b i t) ->
  (forall j t, j < nk -> t < dk -> elem3 (qz 0) k' nk dk b' j t = elem3 (qz 0) k nk dk b (f j) t) ->
  (forall j t, j < nk -> t < dv -> elem3 (qz 0) v' nk dv b' j t = elem3 (qz 0) v nk dv b (f j) t) ->
  (forall j, j < nk -> mask_at m' nq' nk b' i' j = mask_at m nq nk b i (f j)) ->
  attn_call ex sq fresh a (map Some (shape q)) (map Some (shape k)) (map Some (shape v)) q k v m training = Ok (out, p, a1) ->
  attn_call ex sq fresh a (map Some (shape q')) (map Some (shape k')) (map Some (shape v')) q' k' v' m' training' = Ok (out', p', a1') ->
  forall o, o < dv -> elem3 (qz 0) out' nq' dv b' i' o = elem3 (qz 0) out nq dv b i o.
Proof.
  intros ex sq fresh a q k v m training q' k' v' m' training' n n' nq nq' nk dq dk dv w out p a1 out' p' a1' b b' i i' f Hex Hnk HW HF Tq Tk Tv Hm Tq' Tk' Tv' Hm' Hb Hb' Hi Hi' Hf Eq Ek Ev Em E E' o Ho.
  destruct (attn_value ex sq fresh a q k v m training n nq nk dq dk dv w Hex Hnk HW HF Tq Tk Tv Hm) as [out0 [p0 [a0 [E0 [_ [_ [_ [S N]]]]]]]].
  destruct (attn_value ex sq fresh a q' k' v' m' training' n' nq' nk dq dk dv w Hex Hnk HW HF Tq' Tk' Tv' Hm') as [out0' [p0' [a0' [E0' [_ [_ [_ [S' N']]]]]]]].
  assert (p0 = p /\ out0 = out) as [-> ->] by (split; congruence). assert (p0' = p' /\ out0' = out') as [-> ->] by (split; congruence).
  destruct HF as [FQ [FK [FV FO]]]. rewrite N, N' by assumption. apply dense_out_ext. intros c Hc. rewrite (proj1 FO) in Hc.
  assert (Hh : c / at_vd a < at_heads a) by (apply Nat.div_lt_upper_bound; lia).
  rewrite <- (qsum_to_perm nk f (fun j => at4 (qz 0) p b (c / at_vd a) i j * dense_out (to_v w) (elem3 (qz 0) v nk dv b j) c)%Qc Hf). apply qsum_to_ext. intros j Hj. f_equal.
  - refine (softmax_permuted ex nk f _ _ _ _ Hex Hf _ (S b _ i Hb Hh Hi) (S' b' _ i' Hb' Hh Hi') j Hj). intros l Hl. rewrite Em by exact Hl. f_equal.
    apply score_ext; [rewrite (proj1 FQ); exact Eq|rewrite (proj1 FK); intros t Ht; apply Ek; assumption].
  - apply dense_out_ext. rewrite (proj1 FV). intros t Ht. apply Ev; assumption.
Qed.
Print Assumptions C89_set.

(** Two heads, one query, two keys; the largest score is subtracted, so ex is asked at 0 and below. *)
Definition ex_tab (x : Qc) : Qc := if qeqb x (qz 0) then qz 1 else if qeqb x (qz (-1)) then Q2Qc (1 # 3) else if qeqb x (qz (-1000000001)) then Q2Qc (1 # 1000) else qz 2.
Definition at_ex : attn := mkAT 2 1 1 (Q2Qc (1 # 2)) false
  (Some (mkAW (mkKD 1 2 [qz 1; qz 2] None) (mkKD 1 2 [qz 1; qz 0] None) (mkKD 2 2 [qz 1; qz 0; qz 0; qz 1] None) (mkKD 2 2 [qz 1; qz 1; qz 0; qz 1] None))).
Definition at_run (ks vs : list Qc) (m : option mask) : result (list nat * list Q * list Q) :=
  rmap (fun r => (shape (fst (fst r)), map this (data (fst (fst r))), map this (data (snd (fst r)))))
    (attn_call ex_tab (fun x => x) (fun n u => repeat (qz 0) (n * u)) at_ex [Some 1; Some 1; Some 1] [Some 1; Some 2; Some 1] [Some 1; Some 2; Some 2]
       (mkT [1; 1; 1] [qz 1]) (mkT [1; 2; 1] ks) (mkT [1; 2; 2] vs) m true).
Example C89_ex :
  (forall x, (qz 0 < ex_tab x)%Qc) /\ (exists w, at_w at_ex = Some w /\ attn_fits at_ex w 1 1 2) /\ permutes 2 (fun j => 1 - j) /\
  at_run [qz 0; qz 1] [qz 4; qz 2; qz 0; qz 6] None = Ok ([1; 1; 2]%nat, [1; 5]%Q, [1 # 4; 3 # 4; 1 # 2; 1 # 2]%Q) /\
  at_run [qz 1; qz 0] [qz 0; qz 6; qz 4; qz 2] None = Ok ([1; 1; 2]%nat, [1; 5]%Q, [3 # 4; 1 # 4; 1 # 2; 1 # 2]%Q).
Proof.
  split; [|split; [|split; [|split; vm_compute; reflexivity]]].
  - intros x. unfold ex_tab. repeat match goal with |- context [if ?c then _ else _] => destruct c end; reflexivity.
  - eexists. split; [reflexivity|]. repeat split.
  - split; intros; lia.
Qed.

(** compute_output_shape fails: the last axis of the outputs is that of the values given, not value_dim * num_heads. *)
Theorem C89_output_shape_refuted : exists a w dq dk dv, at_w a = Some w /\ attn_fits a w dq dk dv /\ last (attn_output_shape a) None <> Some dv.
Proof.
  exists (mkAT 2 1 1 (qz 0) false (Some (mkAW (mkKD 1 2 [qz 1; qz 2] None) (mkKD 1 2 [qz 1; qz 0] None) (mkKD 1 2 [qz 1; qz 0] None) (mkKD 2 1 [qz 1; qz 1] None)))).
  eexists. exists 1, 1, 1. split; [reflexivity|]. split; [repeat split|discriminate].
Qed.
Print Assumptions C89_output_shape_refuted.

(** Functional models fail: an unknown batch size or length of any input raises, whatever the inputs. *)
Theorem C89_symbolic_refuted : forall ex sq fresh a kq kk kv q k v m training,
  In None (firstn 2 kq) \/ In None (firstn 2 kk) \/ In None (firstn 2 kv) -> attn_call ex sq fresh a kq kk kv q k v m training = Raise.
Proof.
  intros ex sq fresh a kq kk kv q k v m training H.
  assert (R : forall l tail x, In None (firstn 2 l) -> reshape_static x l tail = Raise).
  { intros l tail x I. unfold reshape_static, target. destruct (rseq _) as [y|] eqn:Y; [|reflexivity]. exfalso.
    destruct l as [|[a1|] [|[a2|] l]]; cbn in I, Y; try discriminate; intuition discriminate. }
  unfold attn_call. destruct (match at_w a with Some w => Ok w | None => _ end) as [w|]; [|reflexivity]. cbn [rbind].
  destruct (kdense_call (to_q w) q) as [Q|]; [|reflexivity]. cbn [rbind]. destruct (kdense_call (to_k w) k) as [K|]; [|reflexivity]. cbn [rbind].
  destruct (kdense_call (to_v w) v) as [V|]; [|reflexivity]. cbn [rbind].
  destruct (reshape_static Q kq _) as [Q1|] eqn:E1; [|reflexivity]. cbn [rbind]. destruct (reshape_static K kk _) as [K1|] eqn:E2; [|reflexivity]. cbn [rbind].
  destruct (reshape_static V kv _) as [V1|] eqn:E3; [|reflexivity]. exfalso.
  destruct H as [H|[H|H]]; [rewrite (R _ _ _ H) in E1|rewrite (R _ _ _ H) in E2|rewrite (R _ _ _ H) in E3]; discriminate.
Qed.
Print Assumptions C89_symbolic_refuted.

(** Facts about tensors and broadcasting. *)
From Coq Require Import ZArith List Bool Lia Arith.
From Verif Require Import Base.Num Base.Tensor.
Import ListNotations.
Open Scope nat_scope.

Lemma pad_to_self s : pad_to (length s) s = s.
Proof. unfold pad_to. rewrite Nat.sub_diag. reflexivity. Qed.
Lemma pad_to_eq n s : n = length s -> pad_to n s = s.
Proof. intros ->. apply pad_to_self. Qed.
Lemma bshape_self s : bshape s s = Some s.
Proof. induction s as [|a s IH]; cbn; [reflexivity|]. rewrite IH, Nat.eqb_refl. reflexivity. Qed.
Lemma prodn_cons a s : prodn (a :: s) = a * prodn s.
Proof. reflexivity. Qed.
Lemma bidx_self s p : p < prodn s -> bidx s s p = p.
Proof.
  revert p. induction s as [|a s IH]; intros p H; [cbn in *; lia|]. rewrite prodn_cons in H. cbn [bidx].
  assert (prodn s <> 0) by (intros E; rewrite E in H; lia).
  rewrite IH by (apply Nat.mod_upper_bound; assumption).
  pose proof (Nat.div_mod p (prodn s) H0).
  destruct (Nat.eqb_spec a 1) as [->|_]; [|lia].
  rewrite Nat.mod_small by lia. lia.
Qed.
Lemma bidx_batch s n j p : p < prodn s -> bidx (1 :: s) (n :: s) (j * prodn s + p) = p.
Proof.
  intros H. assert (prodn s <> 0) by lia. cbn [bidx]. rewrite Nat.eqb_refl.
  assert (E : (j * prodn s + p) mod prodn s = p).
  { rewrite Nat.add_comm, Nat.mod_add by assumption. apply Nat.mod_small; assumption. }
  rewrite E. rewrite bidx_self by assumption. lia.
Qed.
Lemma broadcast_batch n s : broadcast_shape (n :: s) (1 :: s) = Some (n :: s).
Proof.
  unfold broadcast_shape. cbn [length]. rewrite Nat.max_id.
  rewrite !pad_to_eq by reflexivity. cbn [bshape]. rewrite bshape_self.
  destruct (Nat.eqb_spec n 1); [reflexivity|]. reflexivity.
Qed.
Lemma broadcast_self s : broadcast_shape s s = Some s.
Proof. unfold broadcast_shape. rewrite Nat.max_id, pad_to_self. apply bshape_self. Qed.

Lemma nth_map_seq {A} (f : nat -> A) n p d : p < n -> nth p (map f (seq 0 n)) d = f p.
Proof.
  intros H. rewrite nth_indep with (d' := f 0) by (rewrite map_length, seq_length; assumption).
  rewrite (map_nth f). rewrite seq_nth by assumption. reflexivity.
Qed.

(** Broadcasting a per-sample tensor (shape 1::s) over a batch (shape n::s). *)
Lemma bmap2_batch {A B C} (da : A) (db : B) (f : A -> B -> C) n s t1 t2 :
  shape t1 = n :: s -> shape t2 = 1 :: s ->
  exists y, bmap2 da db f t1 t2 = Ok y /\ shape y = n :: s /\ wf_tensor y /\
    forall j p d, j < n -> p < prodn s ->
      nth (j * prodn s + p) (data y) d = f (nth (j * prodn s + p) (data t1) da) (nth p (data t2) db).
Proof.
  intros H1 H2. unfold bmap2. rewrite H1, H2, broadcast_batch. eexists. split; [reflexivity|].
  split; [reflexivity|]. split; [unfold wf_tensor; cbn [data shape]; rewrite map_length, seq_length; reflexivity|].
  intros j p d Hj Hp. cbn [data].
  assert (B1 : j * prodn s + p < prodn (n :: s)) by (rewrite prodn_cons; nia).
  rewrite nth_map_seq by assumption. cbn [length].
  rewrite !pad_to_eq by reflexivity.
  rewrite bidx_self by assumption. rewrite bidx_batch by assumption. reflexivity.
Qed.

(** Broadcasting a single element. *)
Lemma pad_to_one n : 1 <= n -> pad_to n [1] = repeat 1 n.
Proof.
  intros H. unfold pad_to. cbn [length]. change [1] with (repeat 1 1). rewrite <- repeat_app. f_equal. lia.
Qed.
Lemma bshape_ones s : bshape s (repeat 1 (length s)) = Some s.
Proof.
  induction s as [|a s IH]; cbn [length repeat bshape]; [reflexivity|]. rewrite IH.
  destruct (Nat.eqb_spec a 1); reflexivity.
Qed.
Lemma prodn_ones n : prodn (repeat 1 n) = 1.
Proof. induction n as [|n IH]; [reflexivity|]. cbn [repeat]. rewrite prodn_cons, IH. reflexivity. Qed.
Lemma bidx_ones s p : bidx (repeat 1 (length s)) s p = 0.
Proof.
  revert p. induction s as [|a s IH]; intros p; cbn [length repeat bidx]; [reflexivity|].
  cbn [Nat.eqb]. rewrite IH. reflexivity.
Qed.
Lemma bmap2_scalar {A B C} (da : A) (db : B) (f : A -> B -> C) t1 t2 :
  shape t1 <> [] -> shape t2 = [1] ->
  exists y, bmap2 da db f t1 t2 = Ok y /\ shape y = shape t1 /\ wf_tensor y /\
    forall p d, p < prodn (shape t1) -> nth p (data y) d = f (nth p (data t1) da) (nth 0 (data t2) db).
Proof.
  intros H1 H2. unfold bmap2, broadcast_shape. rewrite H2.
  assert (L : 1 <= length (shape t1)) by (destruct (shape t1); cbn; [contradiction|lia]).
  replace (Nat.max (length (shape t1)) (length [1])) with (length (shape t1)) by (cbn [length]; lia).
  rewrite pad_to_self, pad_to_one by assumption. rewrite bshape_ones.
  eexists. split; [reflexivity|]. split; [reflexivity|].
  split; [unfold wf_tensor; cbn [data shape]; rewrite map_length, seq_length; reflexivity|].
  intros p d Hp. cbn [data]. rewrite nth_map_seq by assumption.
  rewrite pad_to_self, pad_to_one by assumption. rewrite bidx_self, bidx_ones by assumption. reflexivity.
Qed.

(** ** General broadcasting *)
Lemma bmap2_ok {A B C} (da : A) (db : B) (f : A -> B -> C) t1 t2 y : bmap2 da db f t1 t2 = Ok y ->
  broadcast_shape (shape t1) (shape t2) = Some (shape y) /\ length (data y) = prodn (shape y) /\
  forall p d, p < prodn (shape y) ->
    nth p (data y) d = f (nth (bidx (pad_to (length (shape y)) (shape t1)) (shape y) p) (data t1) da)
                         (nth (bidx (pad_to (length (shape y)) (shape t2)) (shape y) p) (data t2) db).
Proof.
  unfold bmap2. destruct (broadcast_shape (shape t1) (shape t2)) as [s|]; [|discriminate].
  intros H; injection H as <-. cbn [shape data]. split; [reflexivity|].
  split; [rewrite map_length, seq_length; reflexivity|].
  intros p d Hp. rewrite nth_map_seq by assumption. reflexivity.
Qed.

(** A tensor of shape 1..1 ++ rest against one of shape pre ++ rest. *)
Lemma prodn_app a b : prodn (a ++ b) = prodn a * prodn b.
Proof. induction a as [|x a IH]; cbn [app]; [cbn; lia|]. rewrite !prodn_cons, IH. lia. Qed.
Lemma bshape_prefix pre rest : bshape (pre ++ rest) (repeat 1 (length pre) ++ rest) = Some (pre ++ rest).
Proof.
  induction pre as [|a pre IH]; cbn [app length repeat]; [apply bshape_self|]. cbn [bshape]. rewrite IH.
  destruct (Nat.eqb_spec a 1); [reflexivity|]. reflexivity.
Qed.
Lemma broadcast_prefix pre rest :
  broadcast_shape (pre ++ rest) (repeat 1 (length pre) ++ rest) = Some (pre ++ rest).
Proof.
  unfold broadcast_shape. rewrite !app_length, repeat_length, Nat.max_id.
  rewrite !pad_to_eq; [apply bshape_prefix| |]; rewrite app_length, ?repeat_length; reflexivity.
Qed.
Lemma bidx_prefix pre rest p : p < prodn (pre ++ rest) ->
  bidx (repeat 1 (length pre) ++ rest) (pre ++ rest) p = p mod prodn rest.
Proof.
  revert p. induction pre as [|a pre IH]; intros p H; cbn [app length repeat] in *.
  - rewrite bidx_self by assumption. rewrite Nat.mod_small by assumption. reflexivity.
  - rewrite prodn_cons in H. cbn [bidx Nat.eqb].
    assert (N : prodn (pre ++ rest) <> 0) by (intros E; rewrite E in H; lia).
    rewrite IH by (apply Nat.mod_upper_bound; assumption). rewrite Nat.mul_0_l, Nat.add_0_l.
    rewrite prodn_app in *. assert (prodn rest <> 0) by lia. assert (prodn pre <> 0) by lia.
    rewrite (Nat.mul_comm (prodn pre)). rewrite Nat.mod_mul_r by assumption.
    rewrite (Nat.mul_comm (prodn rest) ((_ / _) mod _)), Nat.mod_add by assumption. apply Nat.mod_mod; assumption.
Qed.

(** ** Reductions *)
Lemma kept_false r s : kept (repeat false r) s = s.
Proof. revert s. induction r as [|r IH]; intros [|a s]; cbn [repeat kept]; [reflexivity..|]. rewrite IH. reflexivity. Qed.
Lemma kept_prefix pre rest r : kept (repeat true (length pre) ++ repeat false r) (pre ++ rest) = rest.
Proof. induction pre as [|a pre IH]; cbn [app length repeat kept]; [apply kept_false|exact IH]. Qed.
Lemma ridx_false r s p : p < prodn s -> ridx (repeat false r) s p = p.
Proof.
  revert s p. induction r as [|r IH]; intros [|a s] p H; cbn [repeat ridx]; try reflexivity.
  rewrite prodn_cons in H. assert (prodn s <> 0) by lia.
  rewrite kept_false, IH by (apply Nat.mod_upper_bound; assumption).
  pose proof (Nat.div_mod p (prodn s)). lia.
Qed.
Lemma ridx_prefix pre rest r p : p < prodn (pre ++ rest) ->
  ridx (repeat true (length pre) ++ repeat false r) (pre ++ rest) p = p mod prodn rest.
Proof.
  revert p. induction pre as [|a pre IH]; intros p H; cbn [app length repeat] in *.
  - rewrite ridx_false by assumption. rewrite Nat.mod_small by assumption. reflexivity.
  - rewrite prodn_cons in H. cbn [ridx].
    assert (N : prodn (pre ++ rest) <> 0) by (intros E; rewrite E in H; lia).
    rewrite IH by (apply Nat.mod_upper_bound; assumption).
    rewrite prodn_app in *. assert (prodn rest <> 0) by lia. assert (prodn pre <> 0) by lia.
    rewrite (Nat.mul_comm (prodn pre)). rewrite Nat.mod_mul_r by assumption.
    rewrite (Nat.mul_comm (prodn rest) ((_ / _) mod _)), Nat.mod_add by assumption. apply Nat.mod_mod; assumption.
Qed.
Lemma axis_flags_prefix m r :
  axis_flags (m + r) (map Z.of_nat (seq 0 m)) = repeat true m ++ repeat false r.
Proof.
  unfold axis_flags. rewrite seq_app, map_app. cbn [Nat.add]. f_equal.
  - apply nth_ext with (d := true) (d' := true); [rewrite map_length, seq_length, repeat_length; reflexivity|].
    intros n Hn. rewrite map_length, seq_length in Hn.
    rewrite nth_repeat. rewrite nth_indep with (d' := (fun d => existsb
      (fun a : Z => (a =? Z.of_nat d)%Z || (a =? Z.of_nat d - Z.of_nat (m + r))%Z) (map Z.of_nat (seq 0 m))) 0)
      by (rewrite map_length, seq_length; assumption).
    rewrite (map_nth (fun d => existsb
      (fun a : Z => (a =? Z.of_nat d)%Z || (a =? Z.of_nat d - Z.of_nat (m + r))%Z) (map Z.of_nat (seq 0 m)))).
    rewrite seq_nth by assumption. cbn [Nat.add]. apply existsb_exists. exists (Z.of_nat n).
    split; [apply in_map, in_seq; lia|]. rewrite Z.eqb_refl. reflexivity.
  - apply nth_ext with (d := false) (d' := false); [rewrite map_length, seq_length, repeat_length; reflexivity|].
    intros n Hn. rewrite map_length, seq_length in Hn.
    rewrite nth_repeat. rewrite nth_indep with (d' := (fun d => existsb
      (fun a : Z => (a =? Z.of_nat d)%Z || (a =? Z.of_nat d - Z.of_nat (m + r))%Z) (map Z.of_nat (seq 0 m))) 0)
      by (rewrite map_length, seq_length; assumption).
    rewrite (map_nth (fun d => existsb
      (fun a : Z => (a =? Z.of_nat d)%Z || (a =? Z.of_nat d - Z.of_nat (m + r))%Z) (map Z.of_nat (seq 0 m)))).
    rewrite seq_nth by assumption. apply not_true_is_false. intros H. apply existsb_exists in H.
    destruct H as [z [Hz E]]. apply in_map_iff in Hz. destruct Hz as [k [<- Hk]]. apply in_seq in Hk.
    apply orb_true_iff in E. rewrite !Z.eqb_eq in E. lia.
Qed.

(** ** Sequencing *)
Lemma rseq_ok {A} (l : list (result A)) ys : rseq l = Ok ys ->
  length ys = length l /\ forall p d, p < length l -> nth p l Raise = Ok (nth p ys d).
Proof.
  revert ys. induction l as [|x l IH]; cbn [rseq]; intros ys H.
  - injection H as <-. split; [reflexivity|]. intros p d Hp. cbn in Hp. lia.
  - destruct x as [a|]; cbn [rbind] in H; [|discriminate].
    destruct (rseq l) as [b|] eqn:E; cbn [rbind] in H; [|discriminate]. injection H as <-.
    destruct (IH b eq_refl) as [L N]. split; [cbn [length]; lia|].
    intros [|p] d Hp; cbn [nth]; [reflexivity|]. apply N. cbn [length] in Hp. lia.
Qed.
Lemma rseq_total {A} (l : list (result A)) : (forall x, In x l -> exists a, x = Ok a) -> exists ys, rseq l = Ok ys.
Proof.
  induction l as [|x l IH]; intros H; cbn [rseq]; [eexists; reflexivity|].
  destruct (H x (or_introl eq_refl)) as [a ->]. cbn [rbind].
  destruct IH as [ys ->]; [intros; apply H; right; assumption|]. eexists; reflexivity.
Qed.
Lemma nth_combine_seq {A} (l : list A) p d : p < length l ->
  nth p (combine (seq 0 (length l)) l) (0, d) = (p, nth p l d).
Proof.
  intros H. rewrite combine_nth by (rewrite seq_length; reflexivity). rewrite seq_nth by assumption. reflexivity.
Qed.

(** Facts about Model/Register.v. *)
From Coq Require Import ZArith Qcanon List Bool String Lia Arith.
From Verif Require Import Base.Num Base.Tensor Model.FixedPoint Model.Apf Model.Precision Model.Register Spec.Precision Spec.Register.
Import ListNotations.
Open Scope Z_scope.

(** ** Dictionaries *)

Lemma dget_dput {A} (d : list (string * A)) k v k' : dget (dput d k v) k' = if String.eqb k k' then Some v else dget d k'.
Proof.
  unfold dget. induction d as [|[a b] d IH]; cbn.
  - destruct (String.eqb_spec k k'); reflexivity.
  - destruct (String.eqb_spec a k) as [->|N]; cbn.
    + destruct (String.eqb_spec k k'); reflexivity.
    + destruct (String.eqb_spec a k') as [->|N']; [|exact IH].
      destruct (String.eqb_spec k k') as [->|]; [contradiction|reflexivity].
Qed.
Lemma dget_cons {A} k (v : A) d k' : dget ((k, v) :: d) k' = if String.eqb k k' then Some v else dget d k'.
Proof. unfold dget. cbn. destruct (String.eqb_spec k k'); reflexivity. Qed.
Lemma dupdate_other {A} (e : list (string * A)) : forall d k, ~ In k (map fst e) -> dget (dupdate d e) k = dget d k.
Proof.
  induction e as [|[a b] e IH]; intros d k H; [reflexivity|]. cbn in H. unfold dupdate. cbn [fold_left fst snd]. fold (dupdate (dput d a b) e).
  rewrite IH by tauto. rewrite dget_dput. destruct (String.eqb_spec a k); [subst; tauto|reflexivity].
Qed.
Lemma dupdate_in {A} (e : list (string * A)) : forall d k v, NoDup (map fst e) -> In (k, v) e -> dget (dupdate d e) k = Some v.
Proof.
  induction e as [|[a b] e IH]; intros d k v ND H; [contradiction|]. cbn in ND. inversion ND as [|? ? N1 N2]; subst.
  unfold dupdate. cbn [fold_left fst snd]. fold (dupdate (dput d a b) e). destruct H as [H|H].
  - assert (a = k /\ b = v) as [-> ->] by (split; congruence). rewrite dupdate_other by exact N1. rewrite dget_dput, String.eqb_refl. reflexivity.
  - apply IH; assumption.
Qed.
Lemma set_update_get d k e k' : dget (set_update d k e) k' =
  if String.eqb k k' then Some (dupdate (match dget d k with Some x => x | None => [] end) e) else dget d k'.
Proof. apply dget_dput. Qed.

Lemma upd_len {A} (l : list A) n a : List.length (upd l n a) = List.length l.
Proof. revert n. induction l as [|b l IH]; intros [|n]; cbn; auto. Qed.
Lemma nth_upd {A} (l : list A) n a m : nth_error (upd l n a) m = if Nat.eqb n m then match nth_error l m with Some _ => Some a | None => None end else nth_error l m.
Proof.
  revert n m. induction l as [|b l IH]; intros [|n] [|m]; cbn; try reflexivity.
  - destruct (Nat.eqb n m); reflexivity.
  - apply IH.
Qed.

(** ** The search *)

Lemma is_fpq_spec net m q : is_fpq net m = Some q <-> quantizer_at net m q.
Proof.
  unfold is_fpq, quantizer_at. destruct (nth_error net m) as [[kd ps]|].
  - destruct kd; split; try discriminate; try (intros [ps' H]; congruence).
    intros H. exists ps. congruence.
  - split; [discriminate|]. intros [ps H]. discriminate.
Qed.
Lemma is_fpq_none net m : is_fpq net m = None <-> plain_at net m.
Proof.
  unfold plain_at. split.
  - intros H q Q. apply is_fpq_spec in Q. congruence.
  - intros H. destruct (is_fpq net m) as [q|] eqn:E; [|reflexivity]. apply is_fpq_spec in E. destruct (H q E).
Qed.
Lemma first_some_ok f l q : first_some f l = Some q -> exists m, In m l /\ f m = Some q.
Proof.
  induction l as [|m l IH]; cbn; [discriminate|]. destruct (f m) eqn:E; intros H.
  - exists m. split; [auto|congruence].
  - destruct (IH H) as (m' & I & F). eauto.
Qed.
Lemma first_some_none f l : first_some f l = None -> forall m, In m l -> f m = None.
Proof.
  induction l as [|m l IH]; cbn; [contradiction|]. destruct (f m) eqn:E; [discriminate|]. intros H m' [->|I]; auto.
Qed.
Lemma in_out net n m : In m (out_layers net n) <-> feeds net n m.
Proof.
  unfold out_layers, feeds. rewrite filter_In, in_seq. split.
  - intros [[_ L] H]. destruct (nth_error net m) as [[kd ps]|]; [|discriminate]. apply existsb_exists in H as (x & I & E). apply Nat.eqb_eq in E. subst x. eauto.
  - intros (kd & ps & E & I). split.
    + split; [lia|]. apply (proj1 (nth_error_Some net m)). rewrite E. discriminate.
    + rewrite E. apply existsb_exists. exists n. split; [exact I|apply Nat.eqb_refl].
Qed.
Lemma feeds_lt net n m : topological net -> feeds net n m -> (n < m < List.length net)%nat.
Proof.
  intros T (kd & ps & E & I). split; [apply (proj1 (Forall_forall _ _) (T m kd ps E) n I)|].
  apply (proj1 (nth_error_Some net m)). rewrite E. discriminate.
Qed.
Lemma next_sound net fuel : forall n q, next_quantizer fuel net n = Some q -> ahead net n q.
Proof.
  induction fuel as [|fu IH]; intros n q H; [discriminate|]. cbn in H. apply first_some_ok in H as (m & I & H). apply in_out in I.
  destruct (is_fpq net m) as [q'|] eqn:E.
  - apply is_fpq_spec in E. assert (q' = q) by congruence. subst q'. apply (ahead_next net n m q I E).
  - apply is_fpq_none in E. apply (ahead_via net n m q I E). apply IH. exact H.
Qed.
Lemma next_complete net : topological net -> forall fuel n, (List.length net - n <= fuel)%nat -> next_quantizer fuel net n = None -> forall q, ~ ahead net n q.
Proof.
  intros T. induction fuel as [|fu IH]; intros n L H q A.
  - destruct A as [n m q F|n m q F]; pose proof (feeds_lt _ _ _ T F); lia.
  - cbn in H. pose proof (first_some_none _ _ H) as N. clear H. destruct A as [n m q F Q|n m q F P A].
    + specialize (N m (proj2 (in_out _ _ _) F)). cbn in N. apply is_fpq_spec in Q. rewrite Q in N. discriminate.
    + specialize (N m (proj2 (in_out _ _ _) F)). cbn in N. rewrite (proj2 (is_fpq_none _ _) P) in N.
      refine (IH m _ N q A). pose proof (feeds_lt _ _ _ T F). lia.
Qed.
Lemma last_sound net fuel : forall n q, last_quantizer fuel net n = Some q -> behind net n q.
Proof.
  induction fuel as [|fu IH]; intros n q H; [discriminate|]. cbn in H. destruct (nth_error net n) as [[kd ps]|] eqn:En; [|discriminate].
  apply first_some_ok in H as (m & I & H). assert (F : feeds net m n) by (exists kd, ps; auto).
  destruct (is_fpq net m) as [q'|] eqn:E.
  - apply is_fpq_spec in E. assert (q' = q) by congruence. subst q'. apply (behind_last net n m q F E).
  - apply is_fpq_none in E. apply (behind_via net n m q F E). apply IH. exact H.
Qed.
Lemma last_complete net : topological net -> forall fuel n, (n < fuel)%nat -> last_quantizer fuel net n = None -> forall q, ~ behind net n q.
Proof.
  intros T. induction fuel as [|fu IH]; intros n L H q B; [lia|]. cbn in H.
  destruct B as [n m q F Q|n m q F P B]; pose proof (feeds_lt _ _ _ T F); destruct F as (kd & ps & E & I); rewrite E in H; pose proof (first_some_none _ _ H m I) as N; cbn in N.
  - apply is_fpq_spec in Q. rewrite Q in N. discriminate.
  - rewrite (proj2 (is_fpq_none _ _) P) in N. refine (IH m _ N q B). lia.
Qed.
Lemma whatever_ok net fuel n q : topological net -> (List.length net <= fuel)%nat -> whatever_quantizer fuel net n = Ok q -> stored_on net n q.
Proof.
  intros T L. unfold whatever_quantizer, stored_on. destruct (is_fpq net n) as [q'|] eqn:E.
  - intros H. left. apply is_fpq_spec in E. congruence.
  - apply is_fpq_none in E. intros H. right. split; [exact E|].
    destruct (next_quantizer fuel net n) as [q'|] eqn:N.
    + left. apply next_sound in N. congruence.
    + right. split; [apply (next_complete net T fuel n); [lia|exact N]|].
      destruct (last_quantizer fuel net n) as [q'|] eqn:B; [|discriminate]. apply last_sound in B. congruence.
Qed.
Lemma whatever_raise net fuel n : topological net -> (List.length net <= fuel)%nat -> (n < List.length net)%nat ->
  whatever_quantizer fuel net n = Raise -> forall q, ~ stored_on net n q.
Proof.
  intros T L Ln. unfold whatever_quantizer, stored_on. destruct (is_fpq net n) as [q'|] eqn:E; [discriminate|].
  destruct (next_quantizer fuel net n) as [q'|] eqn:N; [discriminate|].
  destruct (last_quantizer fuel net n) as [q'|] eqn:B; [discriminate|]. intros _ q [Q|[_ [A|[_ A]]]].
  - apply is_fpq_spec in Q. congruence.
  - apply (next_complete net T fuel n ltac:(lia) N q A).
  - apply (last_complete net T fuel n ltac:(lia) B q A).
Qed.

(** ** The loop *)

Lemma register_app fuel net names off l1 : forall l2 st, register_layers fuel net names off (l1 ++ l2)%list st =
  rbind (register_layers fuel net names off l1 st) (register_layers fuel net names off l2).
Proof.
  induction l1 as [|n l1 IH]; intros l2 st; cbn; [reflexivity|]. destruct (register_qconf fuel net names off n st); cbn; [apply IH|reflexivity].
Qed.
(** One step: what it needs and what it does. *)
Lemma register_step fuel net names off n s o s' o' : register_qconf fuel net names off n (s, o) = Ok (s', o') ->
  (exists t ps, nth_error net n = Some (NLut t, ps) /\ s' = s /\ o' = o) \/
  ((forall t ps, nth_error net n <> Some (NLut t, ps)) /\
   exists q c name, whatever_quantizer fuel net n = Ok q /\ layer_config fuel net n s off = Ok (c, s') /\ nth_error names n = Some name /\
     forall q2 name2, look o' q2 name2 =
       if (Nat.eqb q q2 && String.eqb name name2)%bool then Some (dupdate (match look o q name with Some x => x | None => [] end) (conf_entry c)) else look o q2 name2).
Proof.
  unfold register_qconf. destruct (nth_error net n) as [[kd ps]|] eqn:En; [|discriminate].
  assert (D : (exists t, kd = NLut t) \/ (forall t, kd <> NLut t)) by (destruct kd; try (right; discriminate); left; eauto).
  destruct D as [[t ->]|D].
  - intros H. left. exists t, ps. split; [reflexivity|]. split; congruence.
  - intros H. right. split; [intros t ps' E; apply (D t); congruence|].
    assert (H' : rbind (whatever_quantizer fuel net n) (fun q => rbind (layer_config fuel net n s off) (fun c =>
      match nth_error o q, nth_error names n with
      | Some (Some d), Some name => Ok (snd c, upd o q (Some (set_update d name (conf_entry (fst c)))))
      | _, _ => Raise end)) = Ok (s', o')) by (destruct kd; try exact H; destruct (D kif_out eq_refl)).
    clear H. destruct (whatever_quantizer fuel net n) as [q|] eqn:W; [|discriminate]. cbn [rbind] in H'.
    destruct (layer_config fuel net n s off) as [[c s1]|] eqn:C; [|discriminate]. cbn [rbind fst snd] in H'.
    destruct (nth_error o q) as [[d|]|] eqn:Eo; try discriminate. destruct (nth_error names n) as [name|]; [|discriminate].
    assert (s1 = s' /\ o' = upd o q (Some (set_update d name (conf_entry c)))) as [-> ->] by (split; congruence).
    exists q, c, name. do 3 (split; [reflexivity|]). intros q2 name2. unfold look. rewrite nth_upd.
    destruct (Nat.eqb_spec q q2) as [->|]; cbn [andb]; [|reflexivity]. rewrite Eo, set_update_get. reflexivity.
Qed.
(** Steps of layers with other names leave the entries under a name alone. *)
Lemma register_others fuel net names off l : forall s o s' o' q name, register_layers fuel net names off l (s, o) = Ok (s', o') ->
  (forall n, In n l -> (forall t ps, nth_error net n <> Some (NLut t, ps)) -> nth_error names n = Some name -> whatever_quantizer fuel net n <> Ok q) ->
  look o' q name = look o q name.
Proof.
  induction l as [|n l IH]; intros s o s' o' q name H N; cbn in H; [congruence|].
  destruct (register_qconf fuel net names off n (s, o)) as [[s1 o1]|] eqn:E; [|discriminate]. cbn in H.
  rewrite (IH s1 o1 s' o' q name H) by (intros m I; apply N; right; exact I).
  apply register_step in E as [(t & ps & _ & _ & ->)|(NL & q1 & c & name1 & W & _ & En & K)]; [reflexivity|].
  rewrite K. destruct (Nat.eqb_spec q1 q) as [->|]; cbn [andb]; [|reflexivity]. destruct (String.eqb_spec name1 name) as [->|]; [|reflexivity].
  destruct (N n (or_introl eq_refl) NL En W).
Qed.
Lemma seq_split n m : (n < m)%nat -> seq 0 m = (seq 0 n ++ n :: seq (S n) (m - S n))%list.
Proof. intros H. replace m with (n + S (m - S n))%nat at 1 by lia. rewrite seq_app. reflexivity. Qed.
Lemma conf_keys fuel net n s off c s' : layer_config fuel net n s off = Ok (c, s') -> NoDup (map fst (conf_entry c)).
Proof.
  unfold layer_config. intros H.
  match type of H with rbind ?x _ = _ => destruct x as [[c1 s1]|] eqn:E; [|discriminate] end. cbn [rbind fst] in H.
  destruct (check_types (fst c1)); [|discriminate]. cbn in H. assert (c1 = c) by congruence. subst c1. clear H.
  assert (T4 : forall a b c d : string, NoDup (map fst (conf_entry ([("weight_t", a); ("accum_t", b); ("result_t", c); ("bias_t", d)]%string, None)))).
  { intros. cbn. repeat (constructor; [cbn; intuition discriminate|]). constructor. }
  assert (T2 : forall a b z, NoDup (map fst (conf_entry ([("table_t", a); ("result_t", b)]%string, Some z)))).
  { intros. cbn. repeat (constructor; [cbn; intuition discriminate|]). constructor. }
  assert (T1 : forall a, NoDup (map fst (conf_entry ([("result_t"%string, a)], None)))).
  { intros. cbn. repeat (constructor; [cbn; intuition discriminate|]). constructor. }
  destruct (nth_error net n) as [[kd ps]|]; [|discriminate].
  assert (G : forall X : result (kifRS * pst), rbind X (fun r => Ok (([("result_t"%string, tuple_to_apf (fst (fst (fst r))) (snd (fst (fst r))) (snd (fst r)) true)], None), snd r)) = Ok (c, s1) ->
    NoDup (map fst (conf_entry c))).
  { intros [r|] G; cbn [rbind] in G; [|discriminate]. assert (X := f_equal (fun x => match x with Ok y => fst y | Raise => c end) G). cbn [fst] in X. rewrite <- X. apply T1. }
  destruct kd; try (exact (G _ E)); clear G.
  - unfold config_table in E. destruct (result_kifRS fuel net n s) as [[[[t R] S] s2]|]; [|discriminate]. cbn [rbind fst snd] in E.
    destruct (input_kifs fuel net ps s2) as [[l s3]|]; [|discriminate]. cbn [rbind fst snd] in E. destruct (kifs_max l) as [[[i_k i_i] i_f]|]; [|discriminate]. cbn [rbind] in E.
    destruct (Z.ltb (i_k + i_i + i_f) 0); [discriminate|]. assert (X := f_equal (fun x => match x with Ok y => fst y | Raise => c end) E). cbn [fst] in X. rewrite <- X. apply T2.
  - unfold config_kernel in E. destruct (result_kifRS fuel net n s) as [[[[[[rk ri] rf] R] S] s2]|]; [|discriminate]. cbn [rbind fst snd] in E.
    destruct (produced fuel net n s2) as [[[[pk pi] pf] s3]|]; [|discriminate]. cbn [rbind] in E.
    assert (X := f_equal (fun x => match x with Ok y => fst y | Raise => c end) E). cbn [fst] in X. rewrite <- X. apply T4.
Qed.

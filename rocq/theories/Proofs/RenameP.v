(** What a conversion does to the names of the layers it goes through. *)
From Coq Require Import List Arith String Bool Lia.
From Verif Require Import Base.Num Base.Tensor Model.Graph Model.Convert Spec.Graph Spec.Names Proofs.ConvertP Proofs.NamesP Proofs.NodesP.
Import ListNotations.
Local Open Scope nat_scope.

Section RenameP.
  Context {L : Type}.
  Variable uid : L -> nat.
  Variable xf : option L -> result (xout (L := L)).

  (** Conversions from related states. *)
  Section Rel.
    Variable R : cst (L := L) -> cst (L := L) -> Prop.
    Hypothesis Remit : forall y inp s s', R s s' -> rel (fun a b => fst a = fst b /\ R (snd a) (snd b)) (emit uid y inp s) (emit uid y inp s').
    Hypothesis Rlog : forall p s s', R s s' -> R (add_log p s) (add_log p s').
    Lemma conv_rel fuel : forall p k inp s s', R s s' ->
      rel (fun a b => fst a = fst b /\ R (snd a) (snd b)) (conv uid xf fuel p k inp s) (conv uid xf fuel p k inp s').
    Proof.
      induction fuel as [|fu IH]; intros p k inp s s' E; [exact I|]. destruct k as [x|nin nodes outs].
      - rewrite !conv_leaf. destruct (xf_chain uid xf x) as [[|y|m]|]; cbn [rbind]; [|apply Remit; assumption|apply IH; assumption|exact I].
        cbn. split; [reflexivity|assumption].
      - rewrite !conv_sub. set (RS := fun a b : list (nat * tv) * cst (L := L) => fst a = fst b /\ R (snd a) (snd b)).
        assert (G : forall d id ss ss', RS ss ss' ->
          rel (fun r r' => fst r = fst r' /\ RS (snd r) (snd r')) (getf (conv uid xf fu) p nin nodes d id ss) (getf (conv uid xf fu) p nin nodes d id ss')).
        { induction d as [|d IHd]; intros id ss ss' [E1 E2]; [exact I|]. rewrite !getf_S, <- E1.
          destruct (lookup (fst ss) id); [cbn; unfold RS; auto|]. destruct (Nat.ltb id nin); [exact I|].
          destruct (nth_error nodes (id - nin)) as [[k' ins]|]; [|exact I].
          eapply rel_bind.
          - pose proof (mapS_rel RS (fun r => getf (conv uid xf fu) p nin nodes d (fst r))
              (fun r => getf (conv uid xf fu) p nin nodes d (fst r)) (fun r => r) ins ss ss') as M. rewrite map_id in M.
            apply M; [split; assumption|]. intros a t t' _ Et. apply IHd. exact Et.
          - intros r r' [F1 [F2 F3]]. rewrite <- F1. eapply rel_bind; [apply (IH (p ++ [id])); exact F3|].
            intros t t' [T1 T2]. cbn. unfold RS. cbn. rewrite <- T1, <- F2. split; [reflexivity|]. split; [reflexivity|]. apply Rlog, T2. }
        eapply rel_bind.
        + pose proof (mapS_rel RS (fun r => getf (conv uid xf fu) p nin nodes (S (nin + length nodes)) (fst r))
            (fun r => getf (conv uid xf fu) p nin nodes (S (nin + length nodes)) (fst r)) (fun r => r) outs
            (combine (seq 0 nin) (inp_list inp), s) (combine (seq 0 nin) (inp_list inp), s')) as M. rewrite map_id in M.
          apply M; [split; [reflexivity|assumption]|]. intros a t t' _ Et. apply G. exact Et.
        + intros r r' [F1 [F2 F3]]. cbn. rewrite F1. auto.
    Qed.
  End Rel.

  (** The graph does not depend on the names. *)
  Definition bare (s : cst (L := L)) := (c_nin s, map (fun o => (fst (fst o), snd o)) (c_out s)).
  Lemma emit_bare y inp (s s' : cst (L := L)) : bare s = bare s' ->
    rel (fun a b => fst a = fst b /\ bare (snd a) = bare (snd b)) (emit uid y inp s) (emit uid y inp s').
  Proof.
    unfold bare. intros E. injection E as E1 E2. unfold emit.
    destruct (next_name (c_used s) _) as [n u], (next_name (c_used s') _) as [n' u']. destruct (flat_tv inp); cbn; [|exact I].
    split; [rewrite E1; f_equal; f_equal; rewrite <- (map_length (fun o => (fst (fst o), snd o)) (c_out s)), E2, map_length; reflexivity|].
    rewrite !map_app, E1, E2. reflexivity.
  Qed.
  Lemma convert_bare fuel m names names' :
    rel (fun a b => fst (fst a) = fst (fst b)) (convert_model uid xf fuel m names) (convert_model uid xf fuel m names').
  Proof.
    unfold convert_model. destruct m as [x|nin nodes outs]; [exact I|].
    eapply rel_bind; [apply (conv_rel (fun s s' => bare s = bare s') emit_bare)|].
    - intros p s s' E. exact E.
    - reflexivity.
    - intros [t s] [t' s'] [E1 E2]. cbn [fst snd] in *. subst t'. destruct (flat_tv t); cbn; [|exact I].
      unfold bare in E2. injection E2 as E1 E2. f_equal.
      transitivity (map (fun o => (Leaf (fst o), map (fun i => (i, 0)) (snd o))) (map (fun o => (fst (fst o), snd o)) (c_out s)));
        [rewrite map_map; reflexivity|]. rewrite E2, map_map. reflexivity.
  Qed.

  (** Names that agree on all layers give the same conversion. *)
  Definition ext (s s' : cst (L := L)) : Prop :=
    c_nin s = c_nin s' /\ c_out s = c_out s' /\ c_used s = c_used s' /\ (forall y, c_name s (uid y) = c_name s' (uid y)).
  Lemma emit_ext y inp s s' : ext s s' -> rel (fun a b => fst a = fst b /\ ext (snd a) (snd b)) (emit uid y inp s) (emit uid y inp s').
  Proof.
    intros (E1 & E2 & E3 & E4). unfold emit. rewrite <- E1, <- E2, <- E3, <- E4. destruct (next_name (c_used s) _) as [n u].
    destruct (flat_tv inp); cbn; [|exact I]. split; [reflexivity|]. unfold ext. cbn. repeat split. intros z. rewrite <- E4. reflexivity.
  Qed.
  Lemma convert_ext fuel m names names' : (forall y, names (uid y) = names' (uid y)) ->
    rel (fun a b => fst a = fst b /\ ext (snd a) (snd b)) (convert_model uid xf fuel m names) (convert_model uid xf fuel m names').
  Proof.
    intros H. unfold convert_model. destruct m as [x|nin nodes outs]; [exact I|].
    eapply rel_bind; [apply (conv_rel ext emit_ext)|].
    - intros p s s' E. exact E.
    - repeat split. exact H.
    - intros [t s] [t' s'] [E1 E2]. cbn [fst snd] in *. subst t'. destruct (flat_tv t); cbn; [|exact I].
      split; [|exact E2]. destruct E2 as (_ & -> & _). reflexivity.
  Qed.

  (** The invariant of NamesP at the end of a conversion. *)
  Lemma convert_xinv fuel m names m' ns s : convert_model uid xf fuel m names = Ok (m', ns, s) -> xinv uid names s /\ ns = map snd (pairs s) /\
    exists nin nodes outs, m' = Sub nin nodes outs /\ map fst nodes = map Leaf (map fst (pairs s)).
  Proof.
    unfold convert_model. destruct m as [|nin nodes outs]; [discriminate|].
    destruct (conv _ _ _ _ _ _ _) as [[t s1]|] eqn:E; cbn [rbind fst snd]; [|discriminate].
    destruct (flat_tv t); cbn [rbind]; [|discriminate]. intros H. injection H as <- <- <-.
    apply (conv_xinv uid xf names) in E.
    2:{ split; [reflexivity|]. split; [reflexivity|]. split; [|intros pre y n post Hp; destruct pre; discriminate Hp]. intros y. right. split; [right; intros ? ? []|reflexivity]. }
    split; [exact E|]. split; [unfold pairs; rewrite map_map; reflexivity|]. eexists _, _, _. split; [reflexivity|].
    unfold pairs. rewrite !map_map. reflexivity.
  Qed.

  Lemma kept names s : xinv uid names s -> forall y, (snd (names (uid y)) = true \/ (forall z n, In (z, n) (pairs s) -> uid z <> uid y)) ->
    c_name s (uid y) = names (uid y).
  Proof.
    intros (_ & H0 & H2 & _) y Hy. pose proof (H0 (uid y)) as E2. assert (E1 : fst (c_name s (uid y)) = fst (names (uid y))).
    { destruct (H2 y) as [[F (pre & z & post & Ep & Ez & _)]|[_ E]]; [|exact E]. destruct Hy as [Hy|Hy]; [congruence|].
      exfalso. apply (Hy z (fst (c_name s (uid y)))); [rewrite Ep; apply in_app_iff; right; left; reflexivity|exact Ez]. }
    destruct (c_name s (uid y)), (names (uid y)). cbn in *. congruence.
  Qed.

  Lemma distinct_names names (l : list (L * string)) :
    (forall pre y n post, l = (pre ++ (y, n) :: post)%list -> exists r, asks uid names pre y r /\ taken pre r n) ->
    NoDup (map (fun p => fst (names (uid (fst p)))) l) -> map snd l = map (fun p => fst (names (uid (fst p)))) l.
  Proof.
    induction l as [|[y n] l IH] using rev_ind; intros H N; [reflexivity|]. rewrite !map_app in *. cbn [map fst snd] in *.
    assert (E : map snd l = map (fun p => fst (names (uid (fst p)))) l).
    { apply IH; [|apply NoDup_remove_1 in N; rewrite app_nil_r in N; exact N]. intros pre z m post E. apply (H pre z m (post ++ [(y, n)])%list).
      rewrite E, <- app_assoc. reflexivity. }
    apply NoDup_remove_2 in N. rewrite app_nil_r in N.
    destruct (H l y n [] eq_refl) as [r [[[_ (pre & z & post & Ep & Ez & _)]|[_ Er]] [T _]]].
    - exfalso. apply N. apply in_map_iff. exists (z, r). cbn. split; [rewrite Ez; reflexivity|]. rewrite Ep. apply in_app_iff. right. left. reflexivity.
    - subst r. rewrite <- E in N. rewrite (T N), E. reflexivity.
  Qed.

  Lemma kept_distinct names s : xinv uid names s -> NoDup (map (fun p => fst (names (uid (fst p)))) (pairs s)) ->
    forall y, c_name s (uid y) = names (uid y).
  Proof.
    intros (H1 & H0 & H2 & H3) N y. pose proof (distinct_names names _ H3 N) as E. pose proof (H0 (uid y)) as E2.
    assert (E1 : fst (c_name s (uid y)) = fst (names (uid y))).
    { destruct (H2 y) as [[F (pre & z & post & Ep & Ez & _)]|[_ Er]]; [|exact Er].
      rewrite Ep, !map_app in E. cbn [map fst snd] in E. apply (f_equal (fun l => nth_error l (length pre))) in E.
      rewrite !nth_error_app2 in E by (rewrite map_length; lia). rewrite !map_length, Nat.sub_diag in E. cbn in E. injection E as ->. rewrite Ez. reflexivity. }
    destruct (c_name s (uid y)), (names (uid y)). cbn in *. congruence.
  Qed.
End RenameP.

(** Which names the converted layers get. *)
From Coq Require Import List Arith String Bool Lia.
From Verif Require Import Base.Num Base.Tensor Model.Graph Model.Convert Spec.Graph Spec.Names Proofs.TensorP Proofs.ConvertP.
Import ListNotations.
Local Open Scope nat_scope.

Section Names.
  Context {L : Type}.
  Variable uid : L -> nat.
  Variable xf : option L -> result (xout (L := L)).

  (** The current name of every object. *)
  Definition pairs (s : cst (L := L)) : list (L * string) := map fst (c_out s).
  Definition xinv (names : nat -> string * bool) (s : cst (L := L)) : Prop :=
    c_used s = rev (map snd (pairs s)) /\
    (forall u, snd (c_name s u) = snd (names u)) /\
    (forall y, asks uid names (pairs s) y (fst (c_name s (uid y)))) /\
    forall pre y n post, pairs s = (pre ++ (y, n) :: post)%list -> exists r, asks uid names pre y r /\ taken pre r n.
  Lemma emit_xinv names y inp s t s' : xinv names s -> emit uid y inp s = Ok (t, s') -> xinv names s'.
  Proof.
    intros [H1 [H0 [H2 H3]]] E. unfold emit in E. destruct (next_name_spec (c_used s) (fst (c_name s (uid y)))) as [n [En [Hn [F1 F2]]]]. rewrite En in E.
    destruct (flat_tv inp) as [ins|]; cbn [rbind] in E; [|discriminate]. injection E as <- <-.
    assert (IU : forall x, In x (c_used s) <-> In x (map snd (pairs s))) by (intros x; rewrite H1, <- in_rev; tauto).
    unfold xinv, pairs. cbn [c_used c_out c_name]. rewrite map_app. cbn [map fst]. fold (pairs s). split; [|split; [|split]].
    - rewrite map_app, rev_app_distr, H1. reflexivity.
    - intros u. destruct (Nat.eqb u (uid y)); cbn [andb]; [|apply H0]. destruct (snd (c_name s u)) eqn:Eu; cbn [negb]; [apply H0|].
      cbn. rewrite <- H0. symmetry. exact Eu.
    - intros z. destruct (Nat.eqb_spec (uid z) (uid y)) as [Ez|Nz]; cbn [andb].
      + pose proof (H0 (uid z)) as Ez0. destruct (snd (c_name s (uid z))) eqn:En0; cbn [negb fst].
        * destruct (H2 z) as [[F _]|[_ Er]]; [congruence|]. right. split; [left; congruence|exact Er].
        * left. split; [congruence|]. exists (pairs s), y, []. split; [reflexivity|]. split; [congruence|intros ? ? []].
      + destruct (H2 z) as [[Ef [pre [w [post [Ep [Ew Hw]]]]]]|[Hz Er]].
        * left. split; [exact Ef|]. exists pre, w, (post ++ [(y, n)])%list. split; [rewrite Ep, <- app_assoc; reflexivity|]. split; [exact Ew|].
          intros v m Hv. apply in_app_iff in Hv. destruct Hv as [Hv|[Hv|[]]]; [apply (Hw v m Hv)|injection Hv as <- <-; congruence].
        * right. split; [|exact Er]. destruct Hz as [Hz|Hz]; [left; exact Hz|right]. intros w m Hw. apply in_app_iff in Hw. destruct Hw as [Hw|[Hw|[]]]; [apply (Hz w m Hw)|injection Hw as <- <-; congruence].
    - intros pre z m post Ep. destruct (exists_last (l := (z, m) :: post) ltac:(discriminate)) as [q [w Eq]]. rewrite Eq, app_assoc in Ep.
      apply app_inj_tail in Ep. destruct Ep as [Ep Ew]. subst w. destruct q as [|z' q].
      + cbn in Eq. injection Eq as -> -> ->. rewrite app_nil_r in Ep. rewrite <- Ep. exists (fst (c_name s (uid y))). split; [apply H2|]. unfold taken. split; [intros N; apply F1; rewrite IU; exact N|].
        intros I. rewrite <- IU in I. destruct (F2 I) as [i [En' Hi]]. exists i. split; [exact En'|]. split; [rewrite <- IU; exact Hn|]. intros j Hj. rewrite <- IU. apply Hi, Hj.
      + cbn in Eq. injection Eq as <- ->. apply (H3 pre z m q). exact Ep.
  Qed.
  Lemma conv_xinv names : forall fuel path k inp s t s', xinv names s -> conv uid xf fuel path k inp s = Ok (t, s') -> xinv names s'.
  Proof.
    induction fuel as [|fu IH]; intros path k inp s t s' H E; [discriminate|]. destruct k as [x|nin nodes outs].
    - rewrite conv_leaf in E. destruct (xf_chain uid xf x) as [[|y|m]|]; cbn [rbind] in E; [| | |discriminate].
      + injection E as <- <-. assumption.
      + eapply emit_xinv; eassumption.
      + eapply IH; eassumption.
    - rewrite conv_sub in E. destruct (mapS _ outs _) as [[ts ss']|] eqn:Em; cbn [rbind fst snd] in E; [|discriminate]. injection E as <- <-.
      assert (G : forall d id ss t ss', xinv names (snd ss) -> getf (conv uid xf fu) path nin nodes d id ss = Ok (t, ss') -> xinv names (snd ss')).
      { induction d as [|d IHd]; intros id ss t0 ss0 P Eg; [discriminate|]. rewrite getf_S in Eg.
        destruct (lookup _ _); [injection Eg as <- <-; assumption|]. destruct (Nat.ltb _ _); [discriminate|].
        destruct (nth_error _ _) as [[k ins]|]; [|discriminate].
        destruct (mapS _ ins ss) as [[ts1 ss1]|] eqn:Em1; cbn [rbind fst snd] in Eg; [|discriminate].
        destruct (conv _ _ _ _ _ _ _) as [[t1 s1]|] eqn:Ec; cbn [rbind fst snd] in Eg; [|discriminate]. injection Eg as <- <-.
        apply (mapS_inv (fun ss => xinv names (snd ss))) in Em1; [|intros; eapply IHd; eassumption|assumption].
        apply (IH _ _ _ _ _ _ Em1) in Ec. exact Ec. }
      apply (mapS_inv (fun ss => xinv names (snd ss))) in Em; [assumption|intros; eapply G; eassumption|assumption].
  Qed.
  Lemma convert_exact fuel m names m' ns s : convert_model uid xf fuel m names = Ok (m', ns, s) ->
    exists nin nodes outs ys, m' = Sub nin nodes outs /\ map fst nodes = map Leaf ys /\ length ys = length ns /\
    forall pre y n post, combine ys ns = (pre ++ (y, n) :: post)%list -> exists r, asks uid names pre y r /\ taken pre r n.
  Proof.
    unfold convert_model. destruct m as [|nin nodes outs]; [discriminate|].
    destruct (conv _ _ _ _ _ _ _) as [[t s1]|] eqn:E; cbn [rbind fst snd]; [|discriminate].
    destruct (flat_tv t); cbn [rbind]; [|discriminate]. intros H. injection H as <- <- <-.
    apply (conv_xinv names) in E.
    2:{ split; [reflexivity|]. split; [reflexivity|]. split; [|intros pre y n post Hp; destruct pre; discriminate Hp]. intros y. right. split; [right; intros ? ? []|reflexivity]. }
    destruct E as [_ [_ [_ E]]]. eexists _, _, _, (map (fun o => fst (fst o)) (c_out s1)). split; [reflexivity|]. split; [rewrite !map_map; reflexivity|]. split; [rewrite !map_length; reflexivity|].
    intros pre y n post Hp. apply (E pre y n post). rewrite <- Hp. unfold pairs. clear. induction (c_out s1) as [|[[a b] c] l IH]; cbn; [reflexivity|]. rewrite IH. reflexivity.
  Qed.

End Names.

(** The conversion on the nodes of a session is the conversion on the graph of the model. *)
From Coq Require Import List Arith String Bool Lia Permutation.
From Verif Require Import Base.Num Base.Tensor Model.Graph Model.Convert Model.Nodes Spec.Graph Spec.Nodes Proofs.ConvertP.
Import ListNotations.
Local Open Scope nat_scope.

(** Results that agree except for the log. *)
Definition nolog {L} (s : cst (L := L)) : cst (L := L) := mkC (c_nin s) (c_out s) (c_used s) (c_name s) [].
Definition rel {A B} (P : A -> B -> Prop) (r : result A) (r' : result B) : Prop :=
  match r, r' with Ok a, Ok b => P a b | Raise, Raise => True | _, _ => False end.
Definition eqs {L A} (r r' : A * cst (L := L)) : Prop := fst r = fst r' /\ nolog (snd r) = nolog (snd r').

Lemma rel_bind {A B A' B'} (P : A -> B -> Prop) (Q : A' -> B' -> Prop) r r' f f' :
  rel P r r' -> (forall a b, P a b -> rel Q (f a) (f' b)) -> rel Q (rbind r f) (rbind r' f').
Proof. destruct r, r'; cbn; auto; intros []. Qed.

Lemma mapS_rel {A A' B S S'} (PS : S -> S' -> Prop) (f : A -> S -> result (B * S)) (f' : A' -> S' -> result (B * S')) (g : A' -> A) l s s' :
  PS s s' -> (forall a s s', In a l -> PS s s' -> rel (fun r r' => fst r = fst r' /\ PS (snd r) (snd r')) (f (g a) s) (f' a s')) ->
  rel (fun r r' => fst r = fst r' /\ PS (snd r) (snd r')) (mapS f (map g l) s) (mapS f' l s').
Proof.
  revert s s'. induction l as [|a l IH]; intros s s' H Hf; cbn [map mapS]; [cbn; auto|].
  apply (rel_bind _ _ _ _ _ _ (Hf a s s' (or_introl eq_refl) H)). intros r r' [E1 E2].
  apply (rel_bind (fun r r' => fst r = fst r' /\ PS (snd r) (snd r')) _ _ _ _ _ (IH _ _ E2 (fun a s s' Ha => Hf a s s' (or_intror Ha)))).
  intros q q' [E3 E4]. cbn. rewrite E1, E3. auto.
Qed.

Section NodesP.
  Context {L : Type}.
  Variable uid : L -> nat.
  Variable xf : option L -> result (xout (L := L)).

  Lemma emit_nolog y inp (s s' : cst (L := L)) : nolog s = nolog s' -> rel eqs (emit uid y inp s) (emit uid y inp s').
  Proof.
    destruct s as [a b c d e], s' as [a' b' c' d' e']. unfold nolog. cbn. intros E. injection E as <- <- <- <-. unfold emit. cbn [c_nin c_out c_used c_name c_log].
    destruct (next_name c (fst (d (uid y)))) as [n u]. destruct (flat_tv inp); cbn; [|exact I]. split; reflexivity.
  Qed.

  (** conv does not look at the log or at the path. *)
  Lemma conv_nolog fuel : forall p p' k inp s s', nolog s = nolog s' ->
    rel eqs (conv uid xf fuel p k inp s) (conv uid xf fuel p' k inp s').
  Proof.
    induction fuel as [|fu IH]; intros p p' k inp s s' E; [exact I|]. destruct k as [x|nin nodes outs].
    - rewrite !conv_leaf. destruct (xf_chain uid xf x) as [[|y|m]|]; cbn [rbind]; [|apply emit_nolog; assumption|apply IH; assumption|exact I].
      cbn. split; [reflexivity|assumption].
    - rewrite !conv_sub.
      assert (G : forall d id ss ss', eqs ss ss' ->
        rel (fun r r' => fst r = fst r' /\ eqs (snd r) (snd r')) (getf (conv uid xf fu) p nin nodes d id ss) (getf (conv uid xf fu) p' nin nodes d id ss')).
      { induction d as [|d IHd]; intros id ss ss' [E1 E2]; [exact I|]. rewrite !getf_S, <- E1.
        destruct (lookup (fst ss) id); [cbn; unfold eqs; auto|]. destruct (Nat.ltb id nin); [exact I|].
        destruct (nth_error nodes (id - nin)) as [[k' ins]|]; [|exact I].
        eapply rel_bind.
        - pose proof (mapS_rel eqs (fun r => getf (conv uid xf fu) p nin nodes d (fst r))
            (fun r => getf (conv uid xf fu) p' nin nodes d (fst r)) (fun r => r) ins ss ss') as M. rewrite map_id in M.
          apply M; [split; assumption|]. intros a t t' _ Et. apply IHd. exact Et.
        - intros r r' [F1 [F2 F3]]. rewrite <- F1. eapply rel_bind; [apply (IH _ (p' ++ [id])); exact F3|].
          intros t t' [T1 T2]. cbn. unfold eqs. cbn. rewrite <- T1, <- F2. unfold nolog in *. cbn.
          split; [reflexivity|]. split; [reflexivity|]. injection T2 as -> -> -> ->. reflexivity. }
      eapply rel_bind.
      + pose proof (mapS_rel eqs (fun r => getf (conv uid xf fu) p nin nodes (S (nin + length nodes)) (fst r))
          (fun r => getf (conv uid xf fu) p' nin nodes (S (nin + length nodes)) (fst r)) (fun r => r) outs
          (combine (seq 0 nin) (inp_list inp), s) (combine (seq 0 nin) (inp_list inp), s')) as M. rewrite map_id in M.
        apply M; [split; [reflexivity|assumption]|]. intros a t t' _ Et. apply G. exact Et.
      + intros r r' [F1 [F2 F3]]. cbn. unfold eqs. cbn. rewrite F1. auto.
  Qed.

  Section Session.
    Variable w : session L.
    Variable order : list nat -> list nat.
    Hypothesis Ho : forall l, Permutation (order l) l.

    Lemma elem_In a l : elem a l = true <-> In a l.
    Proof.
      unfold elem. rewrite existsb_exists. split; [intros [b [H E]]; apply Nat.eqb_eq in E; subst; assumption|].
      intros H. exists a. split; [assumption|apply Nat.eqb_refl].
    Qed.

    (** What add_node does. *)
    Lemma add_node_In layers id s x : In x (add_node w layers id s) <->
      In x s \/ (x = id /\ exists n, w_node w id = Some n /\ In (n_layer n) layers).
    Proof.
      unfold add_node. destruct (w_node w id) as [n|]; [|split; [auto|intros [H|[_ [n [H _]]]]; [assumption|discriminate]]].
      destruct (elem (n_layer n) layers) eqn:E.
      - apply elem_In in E. destruct (elem id s) eqn:F.
        + apply elem_In in F. split; [auto|]. intros [H|[-> _]]; assumption.
        + rewrite in_app_iff. cbn. split; [intros [H|[<-|[]]]; [auto|right; eauto]|intros [H|[-> _]]; auto].
      - split; [auto|]. intros [H|[_ [n' [H1 H2]]]]; [assumption|]. injection H1 as <-. apply elem_In in H2. congruence.
    Qed.
    Lemma add_node_NoDup layers id s : NoDup s -> NoDup (add_node w layers id s).
    Proof.
      intros H. unfold add_node. destruct (w_node w id) as [n|]; [|assumption]. destruct (elem (n_layer n) layers); [|assumption].
      destruct (elem id s) eqn:F; [assumption|]. apply NoDup_join; [assumption|constructor; [intros []|constructor]|].
      intros x Hx [<-|[]]. apply elem_In in Hx. congruence.
    Qed.
    Lemma add_all_In layers ids : forall s x, In x (fold_left (fun s id => add_node w layers id s) ids s) <->
      In x s \/ (In x ids /\ exists n, w_node w x = Some n /\ In (n_layer n) layers).
    Proof.
      induction ids as [|id ids IH]; intros s x; cbn [fold_left].
      - split; [auto|intros [H|[[] _]]; assumption].
      - rewrite IH, add_node_In. cbn [In]. split.
        + intros [[H|[-> H]]|[H1 H2]]; auto.
        + intros [H|[[<-|H1] H2]]; auto.
    Qed.
    Lemma add_all_NoDup layers ids : forall s, NoDup s -> NoDup (fold_left (fun s id => add_node w layers id s) ids s).
    Proof. induction ids as [|id ids IH]; intros s H; cbn; [assumption|]. apply IH, add_node_NoDup, H. Qed.

    (** get_all_nodes: the nodes of the layers that belong to one of the layers. *)
    Lemma all_nodes_In layers x : In x (get_all_nodes w layers) <->
      exists l, In l layers /\ (In x (w_in w l) \/ In x (w_out w l)) /\ exists n, w_node w x = Some n /\ In (n_layer n) layers.
    Proof.
      unfold get_all_nodes.
      assert (G : forall ls s, In x (fold_left (fun s l => fold_left (fun s id => add_node w layers id s) (w_out w l)
                            (fold_left (fun s id => add_node w layers id s) (w_in w l) s)) ls s) <-> In x s \/
        exists l, In l ls /\ (In x (w_in w l) \/ In x (w_out w l)) /\ exists n, w_node w x = Some n /\ In (n_layer n) layers).
      { induction ls as [|l ls IH]; intros s; cbn [fold_left].
        - split; [auto|intros [H|[l [[] _]]]; assumption].
        - rewrite IH, !add_all_In. cbn [In]. split.
          + intros [[[H|[H1 H2]]|[H1 H2]]|[l' [H1 H2]]]; [auto|right; exists l; auto..|right; exists l'; tauto].
          + intros [H|[l' [[<-|H1] [[H2|H2] H3]]]]; [auto|left; left; right; auto|left; right; auto|right; eauto..]. }
      rewrite G. cbn. split; [intros [[]|H]; assumption|auto].
    Qed.
    Lemma all_nodes_NoDup layers : NoDup (get_all_nodes w layers).
    Proof.
      unfold get_all_nodes. assert (G : forall ls s, NoDup s -> NoDup (fold_left (fun s l => fold_left (fun s id => add_node w layers id s) (w_out w l)
                            (fold_left (fun s id => add_node w layers id s) (w_in w l) s)) ls s)).
      { induction ls as [|l ls IH]; intros s H; cbn [fold_left]; [assumption|]. apply IH, add_all_NoDup, add_all_NoDup, H. }
      apply G. constructor.
    Qed.

    (** The dictionary of dependencies has an entry for each node that is not an input. *)
    Lemma look_dep nodes id : look (dependencies w nodes) id =
      if elem id nodes then match w_node w id with Some n => if n_input n then None else Some (n_layer n, n_parents n) | None => None end else None.
    Proof.
      unfold dependencies.
      assert (G : forall ns d, look (fold_left (fun d id => match w_node w id with
                           | Some n => if n_input n then d else d ++ [(id, (n_layer n, n_parents n))] | None => d end) ns d) id =
        match look d id with Some v => Some v | None =>
          if elem id ns then match w_node w id with Some n => if n_input n then None else Some (n_layer n, n_parents n) | None => None end else None end).
      { assert (LA : forall d e, look (d ++ [e]) id = match look d id with Some v => Some v | None => if Nat.eqb (fst e) id then Some (snd e) else None end).
        { intros d e. unfold look. induction d as [|a d IH]; cbn; [destruct (Nat.eqb (fst e) id); reflexivity|].
          destruct (Nat.eqb (fst a) id); [reflexivity|apply IH]. }
        induction ns as [|a ns IH]; intros d; cbn [fold_left].
        - cbn. destruct (look d id); reflexivity.
        - rewrite IH. cbn [elem existsb]. fold (elem id ns). destruct (Nat.eqb_spec id a) as [<-|N]; cbn [orb].
          + destruct (w_node w id) as [n|]; [|destruct (look d id); [reflexivity|]; destruct (elem id ns); reflexivity].
            destruct (n_input n); [destruct (look d id); [reflexivity|]; destruct (elem id ns); reflexivity|].
            rewrite LA. cbn [fst snd]. rewrite Nat.eqb_refl. destruct (look d id); reflexivity.
          + assert (E : look (match w_node w a with Some n => if n_input n then d else d ++ [(a, (n_layer n, n_parents n))] | None => d end) id = look d id).
            { destruct (w_node w a) as [n|]; [|reflexivity]. destruct (n_input n); [reflexivity|]. rewrite LA. cbn [fst snd].
              destruct (Nat.eqb_spec a id) as [->|_]; [congruence|]. destruct (look d id); reflexivity. }
            rewrite E. reflexivity. }
      rewrite G. reflexivity.
    Qed.
    Lemma elem_order id l : elem id (order l) = elem id l.
    Proof.
      destruct (elem id l) eqn:E.
      - apply elem_In. apply elem_In in E. apply (Permutation_in _ (Permutation_sym (Ho l)) E).
      - destruct (elem id (order l)) eqn:F; [|reflexivity]. apply elem_In in F. apply (Permutation_in _ (Ho l)) in F. apply elem_In in F. congruence.
    Qed.

    (** _get_out_tensor on nodes, with apply_layer as a parameter. *)
    Definition ngetf (nc : nat -> tv -> cst (L := L) -> result (tv * cst (L := L))) (d : list (nat * (nat * list nat))) :
      nat -> nat -> list (nat * tv) * cst (L := L) -> result (tv * (list (nat * tv) * cst (L := L))) :=
      fix get dp id ss {struct dp} :=
      match dp with
      | O => Raise
      | S dp' =>
          match lookup (fst ss) id with
          | Some t => Ok (t, ss)
          | None =>
              match look d id with
              | None => Raise
              | Some (layer, requires) =>
                  rbind (mapS (get dp') requires ss) (fun r =>
                  rbind (nc layer (unwrap (fst r)) (snd (snd r))) (fun ts =>
                  Ok (fst ts, ((id, fst ts) :: fst (snd r), snd ts))))
              end
          end
      end.
    Lemma ngetf_S nc d dp id ss : ngetf nc d (S dp) id ss =
          match lookup (fst ss) id with
          | Some t => Ok (t, ss)
          | None =>
              match look d id with
              | None => Raise
              | Some (layer, requires) =>
                  rbind (mapS (ngetf nc d dp) requires ss) (fun r =>
                  rbind (nc layer (unwrap (fst r)) (snd (snd r))) (fun ts =>
                  Ok (fst ts, ((id, fst ts) :: fst (snd r), snd ts))))
              end
          end.
    Proof. reflexivity. Qed.
    Lemma nconv_model depth fu obj inputs outputs layers inp s : w_obj w obj = Some (OModel inputs outputs layers) ->
      nconv uid xf w order depth (S fu) obj inp s =
      rbind (mapS (ngetf (nconv uid xf w order depth fu) (dependencies w (order (get_all_nodes w layers))) depth) outputs
               (combine inputs (inp_list inp), s)) (fun r => Ok (unwrap (fst r), snd (snd r))).
    Proof. intros E. cbn [nconv]. rewrite E. reflexivity. Qed.
    Lemma nconv_layer depth fu obj x inp s : w_obj w obj = Some (OLayer x) ->
      nconv uid xf w order depth (S fu) obj inp s =
      rbind (xf_chain uid xf x) (fun lx => match lx with XModel m => conv uid xf fu [] m inp s
                                          | XNone => Ok (inp, s) | XLayer y => emit uid y inp s end).
    Proof. intros E. cbn [nconv]. rewrite E. reflexivity. Qed.

    (** The values already computed: the same, on the nodes of the model. *)
    Definition seen (N : nat) (phi : nat -> nat) (a b : list (nat * tv)) : Prop :=
      forall id, id < N -> lookup a (phi id) = lookup b id.
    Definition srel (N : nat) (phi : nat -> nat) (r r' : list (nat * tv) * cst (L := L)) : Prop :=
      seen N phi (fst r) (fst r') /\ nolog (snd r) = nolog (snd r').

    Lemma seen_combine N phi nin inps : nin <= N ->
      (forall a b, a < N -> b < N -> phi a = phi b -> a = b) -> seen N phi (combine (map phi (seq 0 nin)) inps) (combine (seq 0 nin) inps).
    Proof.
      intros Hn inj id Hid. assert (G : forall l inps, (forall a, In a l -> a < N) ->
        lookup (combine (map phi l) inps) (phi id) = lookup (combine l inps) id).
      { induction l as [|a l IH]; intros [|t ts] Hl; [reflexivity..|]. cbn [map combine]. unfold lookup in *. cbn [find fst].
        destruct (Nat.eqb_spec a id) as [->|N1]; [rewrite Nat.eqb_refl; reflexivity|].
        destruct (Nat.eqb_spec (phi a) (phi id)) as [E|_]; [exfalso; apply N1, inj; auto; apply Hl; left; reflexivity|].
        apply IH. intros b Hb. apply Hl. right. assumption. }
      apply G. intros a Ha. apply in_seq in Ha. lia.
    Qed.

    Lemma widest_node nin nodes outs k ins : In (k, ins) nodes -> widest (L := L) k <= widest (Sub nin nodes outs).
    Proof.
      intros H. cbn [widest]. assert (widest k <= fold_right (fun n a => Nat.max (widest (fst n)) a) 0 nodes); [|lia].
      induction nodes as [|n nodes IH]; [destruct H|]. cbn. destruct H as [->|H]; [cbn; lia|]. specialize (IH H). lia.
    Qed.

    Lemma nconv_conv depth fuel : forall i k p inp s s', shows w i k -> widest k <= depth -> nolog s = nolog s' ->
      rel eqs (nconv uid xf w order depth fuel i inp s) (conv uid xf fuel p k inp s').
    Proof.
      induction fuel as [|fu IH]; intros i k p inp s s' Hs Hd E; [exact I|].
      inversion Hs as [i' x Ho' E1 E2|i' layers nin nodes outs phi Hobj inj Hin Hnode Hout E1 E2]; subst.
      - rewrite (nconv_layer _ _ _ _ _ _ Ho'), conv_leaf.
        destruct (xf_chain uid xf x) as [[|y|m]|]; cbn [rbind]; [|apply emit_nolog; assumption|apply conv_nolog; assumption|exact I].
        cbn. split; [reflexivity|assumption].
      - rewrite (nconv_model _ _ _ _ _ _ _ _ Hobj), conv_sub. set (N := nin + length nodes) in *.
        set (dep := dependencies w (order (get_all_nodes w layers))).
        assert (Hdep1 : forall j, j < nin -> look dep (phi j) = None).
        { intros j Hj. unfold dep. rewrite look_dep. destruct (elem _ _); [|reflexivity]. destruct (Hin j Hj) as [n [-> ->]]. reflexivity. }
        assert (Hdep2 : forall j k ins, nth_error nodes j = Some (k, ins) -> exists l, look dep (phi (nin + j)) = Some (l, map (fun r => phi (fst r)) ins) /\
                  shows w l k /\ Forall (fun r => fst r < nin + j) ins).
        { intros j k ins Hj. destruct (Hnode j k ins Hj) as [l [Hn [Hk [Hl [Hi Hf]]]]]. exists l. split; [|auto].
          unfold dep. rewrite look_dep, elem_order. assert (elem (phi (nin + j)) (get_all_nodes w layers) = true) as ->.
          { apply elem_In, all_nodes_In. exists l. split; [assumption|]. split; [left; assumption|]. eexists. split; [exact Hn|]. exact Hl. }
          rewrite Hn. reflexivity. }
        assert (G : forall m id d dp ss ss', id < m -> id < N -> id < d -> id < dp -> srel N phi ss ss' ->
          rel (fun r r' => fst r = fst r' /\ srel N phi (snd r) (snd r')) (ngetf (nconv uid xf w order depth fu) dep dp (phi id) ss)
            (getf (conv uid xf fu) p nin nodes d id ss')).
        { induction m as [|m IHm]; intros id d dp ss ss' Hm HN Hd1 Hd2 [S1 S2]; [lia|].
          destruct d as [|d]; [lia|]. destruct dp as [|dp]; [lia|]. rewrite ngetf_S, getf_S, (S1 id HN).
          destruct (lookup (fst ss') id) as [t|] eqn:Elk; [cbn; unfold srel; auto|].
          destruct (Nat.ltb_spec id nin) as [Hlt|Hge]; [rewrite (Hdep1 id Hlt); exact I|].
          destruct (nth_error nodes (id - nin)) as [[k ins]|] eqn:En; [|apply nth_error_None in En; unfold N in HN; lia].
          destruct (Hdep2 _ _ _ En) as [l [Hl [Hk Hf]]]. replace (nin + (id - nin)) with id in * by lia. rewrite Hl.
          eapply rel_bind.
          - apply (mapS_rel (srel N phi) (ngetf (nconv uid xf w order depth fu) dep dp) (fun r => getf (conv uid xf fu) p nin nodes d (fst r))
              (fun r => phi (fst r)) ins ss ss'); [split; assumption|].
            intros a t t' Ha Et. rewrite Forall_forall in Hf. specialize (Hf a Ha). cbn in Hf. apply IHm; try lia. exact Et.
          - intros r r' [F1 [F2 F3]]. rewrite <- F1. eapply rel_bind.
            + apply (IH l k (p ++ [id]) _ _ (snd (snd r')) Hk); [|exact F3].
              etransitivity; [|exact Hd]. apply (widest_node nin nodes outs k ins). eapply nth_error_In. exact En.
            + intros t t' [T1 T2]. cbn. unfold srel. cbn. rewrite <- T1. split; [reflexivity|]. split.
              * intros b Hb. unfold lookup. cbn [find fst]. destruct (Nat.eqb_spec id b) as [->|Nb]; [rewrite Nat.eqb_refl; reflexivity|].
                destruct (Nat.eqb_spec (phi id) (phi b)) as [Eb|_]; [exfalso; apply Nb, inj; auto|]. apply F2. exact Hb.
              * unfold nolog in *. cbn. injection T2 as -> -> -> ->. reflexivity. }
        eapply rel_bind.
        + apply (mapS_rel (srel N phi) (ngetf (nconv uid xf w order depth fu) dep depth) (fun r => getf (conv uid xf fu) p nin nodes (S N) (fst r))
              (fun r => phi (fst r)) outs); [split; [apply seen_combine; [unfold N; lia|exact inj]|exact E]|].
          intros a t t' Ha Et. rewrite Forall_forall in Hout. specialize (Hout a Ha). cbn in Hout. cbn [widest] in Hd. fold N in Hd.
          apply (G (S (fst a))); try lia. exact Et.
        + intros r r' [F1 [_ F3]]. cbn. unfold eqs. cbn. rewrite F1. auto.
    Qed.

    (** The whole conversion. *)
    Lemma nconvert_convert depth fuel i k names : shows w i k -> widest k <= depth ->
      nconvert_model uid xf w order depth fuel i names = rbind (convert_model uid xf fuel k names) (fun r => Ok (fst r)).
    Proof.
      intros Hs Hd. pose proof (nconv_conv depth fuel i k [] ) as C.
      inversion Hs as [i' x Ho' E1 E2|i' layers nin nodes outs phi Hobj inj Hin Hnode Hout E1 E2]; subst; [unfold nconvert_model; rewrite Ho'; reflexivity|].
      unfold nconvert_model, convert_model. rewrite Hobj, map_length, seq_length.
      specialize (C (unwrap (map T (seq 0 nin))) (mkC nin [] [] names []) (mkC nin [] [] names []) Hs Hd eq_refl).
      destruct (nconv _ _ _ _ _ _ _ _ _) as [[t s]|], (conv _ _ _ _ _ _ _) as [[t' s']|]; cbn in C; try contradiction; [|reflexivity].
      destruct C as [C1 C2]. cbn in C1, C2. subst t'. cbn [rbind fst snd]. unfold nolog in C2. injection C2 as C2 C3 _ _. rewrite C3.
      destruct (flat_tv t); reflexivity.
    Qed.
  End Session.
End NodesP.

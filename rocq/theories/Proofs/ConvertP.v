(** Proofs about the graph conversion. *)
From Coq Require Import List Arith String Bool Lia DecimalString Decimal DecimalNat FinFun.
From Verif Require Import Base.Num Base.Tensor Model.Graph Model.Convert Spec.Graph Proofs.TensorP Proofs.RecordP.
Import ListNotations.
Local Open Scope nat_scope.

Lemma NoDup_join {A} (a b : list A) : NoDup a -> NoDup b -> (forall x, In x a -> ~ In x b) -> NoDup (a ++ b).
Proof.
  intros Ha Hb D. induction Ha as [|x a Hx Ha IH]; [assumption|]. cbn. constructor.
  - rewrite in_app_iff. intros [H|H]; [auto|]. apply (D x); [left; reflexivity|assumption].
  - apply IH. intros y Hy. apply D. right. assumption.
Qed.

Section Sem.
  Context {L V : Type}.
  Variable uid : L -> nat.
  Variable xf : option L -> result (xout (L := L)).
  Variable sem : L -> list V -> result V.
  Notation ps := (pure sem).

  Lemma run_pure k vs : forall u, run ps k vs u = rbind (eval sem k vs) (fun r => Ok (r, tt)).
  Proof. intros []. unfold eval. destruct (run ps k vs tt) as [[r []]|]; reflexivity. Qed.

  Lemma run_sub St (f : L -> list V -> St -> result (V * St)) nin nodes outs inps st : run f (Sub nin nodes outs) inps st =
    if Nat.eqb (length inps) nin then
      rbind (run_nodes f nodes (map (fun v => [v]) inps) st) (fun r =>
      rbind (rseq (map (pick (fst r)) outs)) (fun ys => Ok (ys, snd r))) else Raise.
  Proof. reflexivity. Qed.

  Lemma pick_app (w w' : list (list V)) r v : pick w r = Ok v -> pick (w ++ w') r = Ok v.
  Proof.
    unfold pick. destruct (nth_error w (fst r)) as [vs|] eqn:E; [|discriminate].
    rewrite nth_error_app1 by (apply nth_error_Some; congruence). rewrite E. auto.
  Qed.
  Lemma rseq_pick_app (w w' : list (list V)) l xs : rseq (map (pick w) l) = Ok xs -> rseq (map (pick (w ++ w')) l) = Ok xs.
  Proof.
    revert xs. induction l as [|r l IH]; intros xs H; cbn in *; [assumption|].
    destruct (pick w r) as [v|] eqn:E; [|discriminate]. rewrite (pick_app _ _ _ _ E). cbn [rbind] in *.
    destruct (rseq (map (pick w) l)) as [b|]; [|discriminate]. rewrite (IH b eq_refl). exact H.
  Qed.

  (** What a successful run of the nodes means. *)
  Lemma run_nodes_spec ns : forall vals W, run_nodes ps ns vals tt = Ok (W, tt) ->
    exists more, W = vals ++ more /\ length more = length ns /\
    forall j k ins, nth_error ns j = Some (k, ins) -> exists xs ys,
      rseq (map (pick (firstn (length vals + j) W)) ins) = Ok xs /\ rseq (map (pick W) ins) = Ok xs /\
      eval sem k xs = Ok ys /\ nth_error W (length vals + j) = Some ys.
  Proof.
    induction ns as [|[k ins] ns IH]; intros vals W H; cbn [run_nodes] in H.
    - injection H as <-. exists []. rewrite app_nil_r. split; [reflexivity|]. split; [reflexivity|]. intros [|j] ? ?; discriminate.
    - destruct (rseq (map (pick vals) ins)) as [xs|] eqn:Ex; cbn [rbind] in H; [|discriminate].
      rewrite run_pure in H. destruct (eval sem k xs) as [ys|] eqn:Ey; cbn [rbind fst snd] in H; [|discriminate].
      destruct (IH _ _ H) as [more [-> [Lm Hm]]]. exists (ys :: more). rewrite <- app_assoc. split; [reflexivity|].
      split; [cbn; lia|]. intros [|j] k' ins' E.
      + cbn in E. injection E as <- <-. exists xs, ys. rewrite Nat.add_0_r, firstn_app, firstn_all, Nat.sub_diag. cbn [firstn].
        rewrite app_nil_r. split; [assumption|]. split; [apply rseq_pick_app; assumption|]. split; [assumption|].
        rewrite nth_error_app2 by lia. rewrite Nat.sub_diag. reflexivity.
      + cbn in E. specialize (Hm j k' ins' E). rewrite app_length in Hm. cbn [length] in Hm. rewrite <- app_assoc in Hm. cbn [app] in Hm.
        replace (length vals + S j) with (length vals + 1 + j) by lia. exact Hm.
  Qed.

  Lemma pick_first (W : list (list V)) n r v : pick (firstn n W) r = Ok v -> fst r < n.
  Proof.
    unfold pick. destruct (nth_error (firstn n W) (fst r)) as [vs|] eqn:E; [|discriminate]. intros _.
    assert (fst r < length (firstn n W)) by (apply nth_error_Some; congruence). rewrite firstn_length in *. lia.
  Qed.
  Lemma rseq_first (W : list (list V)) n l xs : rseq (map (pick (firstn n W)) l) = Ok xs -> forall r, In r l -> fst r < n.
  Proof.
    revert xs. induction l as [|r0 l IH]; intros xs H r [].
    - subst r0. cbn in H. destruct (pick _ r) eqn:E; [|discriminate]. eapply pick_first; eassumption.
    - cbn in H. destruct (pick _ r0); [|discriminate]. cbn [rbind] in H. destruct (rseq _) as [b|]; [|discriminate]. eapply IH; eauto.
  Qed.
  Lemma eval_one k xs ys : one_output k -> eval sem k xs = Ok ys -> exists y, ys = [y].
  Proof.
    unfold eval. destruct k as [x|nin nodes outs]; intros O H.
    - cbn in H. unfold pure in H. destruct (sem x xs) as [v|]; cbn in H; [|discriminate]. injection H as <-. eauto.
    - rewrite run_sub in H. destruct (Nat.eqb _ _); [|discriminate].
      destruct (run_nodes _ _ _ _) as [[W u]|]; cbn [rbind fst snd] in H; [|discriminate].
      destruct (rseq _) as [l|] eqn:E; cbn [rbind fst] in H; [|discriminate]. injection H as <-.
      cbn in O. apply rseq_ok in E. destruct E as [E _]. destruct outs as [|o [|? ?]]; cbn in O; try discriminate.
      destruct l as [|y [|? ?]]; cbn in E; try discriminate; eauto.
  Qed.

  (** _get_out_tensor with the recursive call to apply_layer as a parameter. *)
  Definition getf (cv : list nat -> klayer L -> tv -> cst -> result (tv * cst (L := L))) (path : list nat) (nin : nat)
    (nodes : list (klayer L * list (nat * nat))) : nat -> nat -> list (nat * tv) * cst ->
    result (tv * (list (nat * tv) * cst)) :=
    fix get d id ss {struct d} :=
    match d with
    | O => Raise
    | S d' =>
        match lookup (fst ss) id with
        | Some t => Ok (t, ss)
        | None =>
            if Nat.ltb id nin then Raise else
            match nth_error nodes (id - nin) with
            | None => Raise
            | Some (k', ins) =>
                rbind (mapS (fun r => get d' (fst r)) ins ss) (fun r =>
                rbind (cv (path ++ [id]) k' (unwrap (fst r)) (snd (snd r))) (fun ts =>
                Ok (fst ts, ((id, fst ts) :: fst (snd r), add_log (path ++ [id]) (snd ts)))))
            end
        end
    end.
  Lemma getf_S cv path nin nodes d id ss : getf cv path nin nodes (S d) id ss =
        match lookup (fst ss) id with
        | Some t => Ok (t, ss)
        | None =>
            if Nat.ltb id nin then Raise else
            match nth_error nodes (id - nin) with
            | None => Raise
            | Some (k', ins) =>
                rbind (mapS (fun r => getf cv path nin nodes d (fst r)) ins ss) (fun r =>
                rbind (cv (path ++ [id]) k' (unwrap (fst r)) (snd (snd r))) (fun ts =>
                Ok (fst ts, ((id, fst ts) :: fst (snd r), add_log (path ++ [id]) (snd ts)))))
            end
        end.
  Proof. reflexivity. Qed.
  Definition inp_list (inp : tv) : list tv := match inp with T i => [T i] | Ts l => l end.
  Lemma conv_sub fu path nin nodes outs inp s : conv uid xf (S fu) path (Sub nin nodes outs) inp s =
    rbind (mapS (fun r => getf (conv uid xf fu) path nin nodes (S (nin + length nodes)) (fst r)) outs
             (combine (seq 0 nin) (inp_list inp), s)) (fun r => Ok (unwrap (fst r), snd (snd r))).
  Proof. reflexivity. Qed.
  Lemma conv_leaf fu path x inp s : conv uid xf (S fu) path (Leaf x) inp s =
    rbind (xf_chain uid xf x) (fun lx => match lx with XModel m => conv uid xf fu path m inp s
                                        | XNone => Ok (inp, s) | XLayer y => emit uid y inp s end).
  Proof. reflexivity. Qed.

  (** Values of all tensors of the model under construction. *)
  Fixpoint evalnew (out : list (L * string * list nat)) (vals : list V) : result (list V) :=
    match out with
    | [] => Ok vals
    | (y, _, ins) :: out' =>
        rbind (rseq (map (fun i => match nth_error vals i with Some v => Ok v | None => Raise end) ins)) (fun xs =>
        rbind (sem y xs) (fun v => evalnew out' (vals ++ [v])))
    end.
  Lemma evalnew_app o1 : forall o2 vals, evalnew (o1 ++ o2) vals = rbind (evalnew o1 vals) (evalnew o2).
  Proof.
    induction o1 as [|[[y n] ins] o1 IH]; intros o2 vals; [reflexivity|]. cbn [evalnew app].
    destruct (rseq _) as [xs|]; [|reflexivity]. cbn [rbind]. destruct (sem y xs) as [v|]; [|reflexivity]. cbn [rbind]. apply IH.
  Qed.
  Lemma evalnew_length o : forall vals nv, evalnew o vals = Ok nv -> length nv = length vals + length o.
  Proof.
    induction o as [|[[y n] ins] o IH]; intros vals nv H; cbn [evalnew] in H; [injection H as <-; cbn; lia|].
    destruct (rseq _) as [xs|]; [|discriminate]. cbn [rbind] in H. destruct (sem y xs) as [v|]; [|discriminate]. cbn [rbind] in H.
    apply IH in H. rewrite app_length in H. cbn in *. lia.
  Qed.

  (** Tensors t of the new model hold the values vs. *)
  Definition holds (nv : list V) (t : tv) (vs : list V) : Prop :=
    exists is, t = unwrap (map T is) /\ map (nth_error nv) is = map Some vs.
  Definition holds1 (nv : list V) (t : tv) (v : V) : Prop := exists i, t = T i /\ nth_error nv i = Some v.

  Lemma holds_app nv nv' t vs : holds nv t vs -> holds (nv ++ nv') t vs.
  Proof.
    intros [is [E H]]. exists is. split; [assumption|]. clear E. revert vs H. induction is as [|i is IH]; intros [|v vs] H; try discriminate; [reflexivity|].
    cbn in *. injection H as H1 H2. rewrite nth_error_app1 by (apply nth_error_Some; congruence). rewrite H1, (IH _ H2). reflexivity.
  Qed.
  Lemma holds1_app nv nv' t v : holds1 nv t v -> holds1 (nv ++ nv') t v.
  Proof. intros [i [-> H]]. exists i. split; [reflexivity|]. rewrite nth_error_app1; [assumption|apply nth_error_Some; congruence]. Qed.

  Lemma flat_map_T is : flat_tv (Ts (map T is)) = Ok is.
  Proof. cbn [flat_tv]. induction is as [|i is IH]; [reflexivity|]. cbn. rewrite IH. reflexivity. Qed.
  Lemma inp_list_T is : inp_list (unwrap (map T is)) = map T is.
  Proof. destruct is as [|i [|j is]]; reflexivity. Qed.
  Lemma unwrap_flat is : flat_tv (unwrap (map T is)) = Ok is.
  Proof. destruct is as [|i [|j is]]; try reflexivity. apply (flat_map_T (i :: j :: is)). Qed.

  (** The state s evaluates to nv. *)
  Definition good (inputs : list V) (s : cst (L := L)) (nv : list V) : Prop :=
    c_nin s = length inputs /\ evalnew (c_out s) inputs = Ok nv.
  Lemma good_length inputs s nv : good inputs s nv -> length nv = c_nin s + length (c_out s).
  Proof. intros [H1 H2]. apply evalnew_length in H2. lia. Qed.

  Lemma emit_spec inputs y inp s nv vs v : good inputs s nv -> holds nv inp vs -> sem y vs = Ok v ->
    exists t s', emit uid y inp s = Ok (t, s') /\ good inputs s' (nv ++ [v]) /\ holds (nv ++ [v]) t [v].
  Proof.
    intros G [is [EI HI]] HS. unfold emit. destruct (next_name _ _) as [name used]. rewrite EI, unwrap_flat. cbn [rbind].
    pose proof (good_length _ _ _ G) as GL. destruct G as [G1 G2].
    eexists _, _. split; [reflexivity|]. split.
    - split; [assumption|]. cbn [c_out]. rewrite evalnew_app, G2. cbn [rbind evalnew].
      assert (E : rseq (map (fun i => match nth_error nv i with Some v0 => Ok v0 | None => Raise end) is) = Ok vs).
      { clear -HI. revert vs HI. induction is as [|i is IH]; intros [|v vs] H; try discriminate; [reflexivity|].
        cbn in *. injection H as H1 H2. rewrite H1. cbn [rbind]. rewrite (IH _ H2). reflexivity. }
      rewrite E. cbn [rbind]. rewrite HS. reflexivity.
    - exists [c_nin s + length (c_out s)]. split; [reflexivity|]. cbn. rewrite <- GL. rewrite nth_error_app2, Nat.sub_diag by lia. reflexivity.
  Qed.

  (** ** Which nodes are applied *)
  Section Log.
    Hypothesis XT : forall x m, xf_chain uid xf x = Ok (XModel m) -> topo m.

    Definition lclaim (fuel : nat) : Prop := forall path k inp s t s', topo k ->
      conv uid xf fuel path k inp s = Ok (t, s') -> exists new, c_log s' = c_log s ++ new /\ NoDup new /\
      forall p, In p new <-> exists p', p = path ++ p' /\ reached uid xf k p'.

    Lemma emit_log y inp s t s' : emit uid y inp s = Ok (t, s') -> c_log s' = c_log s.
    Proof.
      unfold emit. destruct (next_name _ _) as [n u]. destruct (flat_tv inp); cbn [rbind]; [|discriminate].
      intros H. injection H as <- <-. reflexivity.
    Qed.

    Section GetLog.
      Variables (fu : nat) (path : list nat) (nin : nat) (nodes : list (klayer L * list (nat * nat))) (outs : list (nat * nat)).
      Hypothesis IHf : lclaim fu.
      Hypothesis HT : forall j k ins, nth_error nodes j = Some (k, ins) -> topo k /\ forall r, In r ins -> fst r < nin + j.

      Definition key (sat : list (nat * tv)) (id : nat) : Prop := lookup sat id <> None.
      Lemma key_cons sat id t id' : key ((id, t) :: sat) id' <-> id' = id \/ key sat id'.
      Proof.
        unfold key, lookup. cbn [find fst]. destruct (Nat.eqb_spec id id') as [<-|N].
        - split; [auto|discriminate].
        - split; [auto|]. intros [->|H]; [congruence|assumption].
      Qed.

      (** The log since the model was entered, and the satisfied nodes. *)
      Definition linv (base : list (list nat)) (ss : list (nat * tv) * cst (L := L)) : Prop :=
        exists new, c_log (snd ss) = base ++ new /\ NoDup new /\
        (forall p, In p new <-> exists id k ins p', nin <= id /\ key (fst ss) id /\ nth_error nodes (id - nin) = Some (k, ins) /\
           p = path ++ id :: p' /\ (p' = [] \/ reached uid xf k p')) /\
        (forall id, key (fst ss) id -> nin <= id -> needed nin nodes outs id /\ id < nin + length nodes) /\
        (forall id k ins r, key (fst ss) id -> nin <= id -> nth_error nodes (id - nin) = Some (k, ins) -> In r ins -> key (fst ss) (fst r)).

      Definition glog (d : nat) : Prop := forall base id ss t ss', needed nin nodes outs id -> linv base ss ->
        getf (conv uid xf fu) path nin nodes d id ss = Ok (t, ss') ->
        linv base ss' /\ key (fst ss') id /\ (forall id', key (fst ss) id' -> key (fst ss') id') /\
        (forall id', key (fst ss') id' -> key (fst ss) id' \/ id' <= id).

      Lemma map_log d : glog d -> forall base bound (rs : list (nat * nat)) ss ts ss', (forall r, In r rs -> needed nin nodes outs (fst r) /\ fst r < bound) ->
        linv base ss -> mapS (fun r => getf (conv uid xf fu) path nin nodes d (fst r)) rs ss = Ok (ts, ss') ->
        linv base ss' /\ (forall r, In r rs -> key (fst ss') (fst r)) /\ (forall id', key (fst ss) id' -> key (fst ss') id') /\
        (forall id', key (fst ss') id' -> key (fst ss) id' \/ id' < bound).
      Proof.
        intros G base bound. induction rs as [|r rs IH]; intros ss ts ss' R I E; cbn [mapS] in E.
        - injection E as <- <-. repeat split; auto. intros r [].
        - destruct (R r (or_introl eq_refl)) as [R1 R2]. destruct (getf _ _ _ _ _ _ _) as [[t ss1]|] eqn:Eg; cbn [rbind fst snd] in E; [|discriminate].
          destruct (G _ _ _ _ _ R1 I Eg) as [I1 [K1 [K2 K3]]].
          destruct (mapS _ rs ss1) as [[ts' ss2]|] eqn:Em; cbn [rbind fst snd] in E; [|discriminate]. injection E as <- <-.
          destruct (IH _ _ _ (fun r' H => R r' (or_intror H)) I1 Em) as [I2 [M1 [M2 M3]]].
          split; [assumption|]. split; [intros r' [<-|H]; auto|]. split; [auto|].
          intros id' H. destruct (M3 id' H) as [H'|H']; [|auto]. destruct (K3 id' H'); [auto|]. right. lia.
      Qed.

      Lemma get_log : forall d, glog d.
      Proof.
        induction d as [|d IH]; intros base id ss t ss' Hn I E; [discriminate|]. rewrite getf_S in E.
        destruct (lookup (fst ss) id) as [t0|] eqn:El.
        { injection E as <- <-. split; [assumption|]. split; [unfold key; congruence|]. auto. }
        destruct (Nat.ltb_spec id nin) as [Hl|Hl]; [discriminate|].
        destruct (nth_error nodes (id - nin)) as [[k ins]|] eqn:En; [|discriminate].
        destruct (HT _ _ _ En) as [Tk Ti]. replace (nin + (id - nin)) with id in Ti by lia.
        destruct (mapS _ ins ss) as [[ts [sat1 s1]]|] eqn:Em; cbn [rbind fst snd] in E; [|discriminate].
        destruct (conv uid xf fu _ _ _ _) as [[t1 s2]|] eqn:Ec; cbn [rbind fst snd] in E; [|discriminate]. injection E as <- <-.
        assert (R : forall r, In r ins -> needed nin nodes outs (fst r) /\ fst r < id).
        { intros r Hr. split; [|auto]. eapply needed_in; eassumption. }
        destruct (map_log d IH base id ins ss _ _ R I Em) as [[new [N1 [N2 [N3 [N4 N5]]]]] [M1 [M2 M3]]]. cbn [fst snd] in *.
        destruct (IHf _ _ _ _ _ _ Tk Ec) as [new' [C1 [C2 C3]]].
        assert (Kid : ~ key sat1 id). { intros K. destruct (M3 _ K) as [K'|K']; [apply K', El|lia]. }
        split; [|split; [apply key_cons; auto|split]].
        - exists (new ++ new' ++ [path ++ [id]]). cbn [add_log c_log snd fst]. rewrite C1, N1, <- !app_assoc. split; [reflexivity|].
          assert (D : forall p, In p new -> ~ In p (new' ++ [path ++ [id]])).
          { intros p Hp Hq. apply N3 in Hp. destruct Hp as [id' [k' [ins' [p' [A [B [C [-> _]]]]]]]]. apply Kid.
            assert (Q : exists q, path ++ id' :: p' = path ++ id :: q).
            { apply in_app_iff in Hq. destruct Hq as [Hq|[Hq|[]]]; [|eauto]. apply C3 in Hq. destruct Hq as [q [Hq _]].
              rewrite Hq, <- app_assoc. exists q. reflexivity. }
            destruct Q as [q Q]. apply app_inv_head in Q. congruence. }
          split; [|split; [|split]].
          + apply NoDup_join; [assumption| |intros p A B; exact (D p A B)].
            apply NoDup_join; [assumption|repeat constructor; auto|].
            intros p Hp [<-|[]]. apply C3 in Hp. destruct Hp as [q [Hq Hr]]. rewrite <- app_nil_r in Hq at 1. apply app_inv_head in Hq. subst q.
            clear -Hr. remember [] as p. revert Heqp. induction Hr; intros; try discriminate. auto.
          + intros p. rewrite !in_app_iff. split.
            * intros [Hp|[Hp|[<-|[]]]].
              -- apply N3 in Hp. destruct Hp as [id' [k' [ins' [p' [A [B [C D']]]]]]]. exists id', k', ins', p'. rewrite key_cons. auto 8.
              -- apply C3 in Hp. destruct Hp as [q [-> Hr]]. exists id, k, ins, q. rewrite key_cons, <- app_assoc. auto 9.
              -- exists id, k, ins, []. rewrite key_cons. auto 9.
            * intros [id' [k' [ins' [p' [A [B [C [-> D']]]]]]]]. rewrite key_cons in B. destruct B as [->|B].
              -- rewrite En in C. injection C as <- <-. destruct D' as [->|D']; [right; right; left; reflexivity|].
                 right. left. apply C3. exists p'. rewrite <- app_assoc. auto.
              -- left. apply N3. exists id', k', ins', p'. auto 9.
          + intros id' K Hi. rewrite key_cons in K. destruct K as [->|K]; [|auto]. split; [assumption|].
            assert (id - nin < length nodes) by (apply nth_error_Some; congruence). lia.
          + intros id' k' ins' r K Hi En' Hr. rewrite key_cons in *. destruct K as [->|K].
            * rewrite En in En'. injection En' as <- <-. auto.
            * right. eapply N5; eassumption.
        - intros id' K. apply key_cons. right. apply M2, K.
        - intros id' K. apply key_cons in K. destruct K as [->|K]; [auto|]. destruct (M3 _ K); [auto|]. right. lia.
      Qed.
    End GetLog.

    Lemma conv_log : forall fuel, lclaim fuel.
    Proof.
      induction fuel as [|fu IH]; intros path k inp s t s' Ht E; [discriminate|]. destruct k as [x|nin nodes outs].
      - rewrite conv_leaf in E. destruct (xf_chain uid xf x) as [lx|] eqn:Ex; cbn [rbind] in E; [|discriminate].
        assert (N : (forall m, lx <> XModel m) -> c_log s' = c_log s -> exists new, c_log s' = c_log s ++ new /\ NoDup new /\
          forall p, In p new <-> exists p', p = path ++ p' /\ reached uid xf (Leaf x) p').
        { intros Hm El. exists []. rewrite app_nil_r. split; [assumption|]. split; [constructor|]. intros p. split; [intros []|].
          intros [p' [_ Hr]]. inversion Hr; subst. rewrite Ex in H0. injection H0 as ->. eapply Hm; reflexivity. }
        destruct lx as [|y|m].
        + injection E as <- <-. apply N; [discriminate|reflexivity].
        + apply N; [discriminate|]. eapply emit_log; eassumption.
        + clear N. destruct (IH _ _ _ _ _ _ (XT _ _ Ex) E) as [new [A [B C]]]. exists new. split; [assumption|]. split; [assumption|].
          intros p. rewrite C. split; intros [p' [-> Hr]]; exists p'; (split; [reflexivity|]).
          * eapply reached_new; eassumption.
          * inversion Hr; subst. rewrite Ex in H0. injection H0 as <-. assumption.
      - rewrite conv_sub in E. inversion Ht as [|? ? ? HT]; subst.
        destruct (mapS _ outs _) as [[ts ss']|] eqn:Em; cbn [rbind fst snd] in E; [|discriminate]. injection E as <- <-.
        assert (K0 : forall id, key (combine (seq 0 nin) (inp_list inp)) id -> id < nin).
        { intros id K. unfold key, lookup in K. destruct (find _ _) as [q|] eqn:Ef; [|congruence].
          apply find_some in Ef. destruct Ef as [Ef Eq]. apply Nat.eqb_eq in Eq. destruct q as [a b]. apply in_combine_l in Ef.
          apply in_seq in Ef. cbn in Eq. lia. }
        assert (I0 : linv path nin nodes outs (c_log s) (combine (seq 0 nin) (inp_list inp), s)).
        { exists []. rewrite app_nil_r. cbn [fst snd]. split; [reflexivity|]. split; [constructor|]. split; [|split].
          - intros p. split; [intros []|]. intros [id [k [ins [p' [A [B _]]]]]]. specialize (K0 _ B). lia.
          - intros id K Hi. specialize (K0 _ K). lia.
          - intros id k ins r K Hi. specialize (K0 _ K). lia. }
        assert (Ro : forall r, In r outs -> needed nin nodes outs (fst r) /\ fst r < S (list_max (map fst outs))).
        { intros r Hr. split; [apply needed_out; assumption|]. assert (F : Forall (fun n => n <= list_max (map fst outs)) (map fst outs)).
          { apply list_max_le. lia. } rewrite Forall_forall in F. specialize (F _ (in_map fst _ _ Hr)). lia. }
        destruct (map_log fu path nin nodes outs _ (get_log fu path nin nodes outs IH HT _) _ _ _ _ _ _ Ro I0 Em) as [[new [N1 [N2 [N3 [N4 N5]]]]] [M1 _]].
        exists new. split; [assumption|]. split; [assumption|].
        assert (NK : forall id, needed nin nodes outs id -> key (fst ss') id).
        { intros id H. induction H as [r Hr|id k ins r H IHn Hi En Hr]; [auto|]. eapply N5; eassumption. }
        intros p. rewrite N3. split.
        + intros [id [k [ins [p' [A [B [C [-> D]]]]]]]]. exists (id :: p'). split; [reflexivity|]. destruct (N4 _ B A) as [Hn _].
          destruct D as [->|D]; [apply reached_here; assumption|eapply reached_inside; eassumption].
        + intros [q [-> Hr]]. inversion Hr as [? ? ? id Hn Hi|? ? ? id k ins p' Hn Hi En Hk|]; subst.
          * destruct (N4 _ (NK _ Hn) Hi) as [_ Hlt]. destruct (nth_error nodes (id - nin)) as [[k ins]|] eqn:En.
            -- exists id, k, ins, []. auto 8.
            -- apply nth_error_None in En. lia.
          * exists id, k, ins, p'. auto 8.
    Qed.
  End Log.

  Definition ok_xf (lx : xout (L := L)) (vs : list V) (v : V) : Prop :=
    match lx with
    | XNone => vs = [v]
    | XLayer y => sem y vs = Ok v
    | XModel m => single m /\ one_output m /\ eval sem m vs = Ok [v]
    end.
  Lemma loop_preserves rem : preserves sem xf -> forall cur l0 lx vs v,
    xf_loop uid xf rem cur l0 = Ok lx -> ok_xf l0 vs v -> ok_xf lx vs v.
  Proof.
    intros [PN P].
    induction rem as [|rem IH]; intros cur l0 lx vs v E P0; cbn [xf_loop] in E; destruct (same uid cur l0); try (injection E as <-; exact P0).
    - destruct l0; try discriminate. injection E as <-. exact P0.
    - destruct l0 as [|y|m].
      + rewrite PN in E. apply (IH _ _ _ _ _ E P0).
      + specialize (P y vs v P0). destruct (xf (Some y)) as [l1|]; [|discriminate]. cbn [rbind] in E. apply (IH _ _ _ _ _ E). destruct l1; exact P.
      + injection E as <-. exact P0.
  Qed.
  Lemma xf_chain_eq x : xf_chain uid xf x = rbind (xf (Some x)) (xf_loop uid xf 1024 (Some x)).
  Proof. reflexivity. Qed.
  Lemma chain_preserves x lx vs v : preserves sem xf -> xf_chain uid xf x = Ok lx -> sem x vs = Ok v -> ok_xf lx vs v.
  Proof.
    intros PR. rewrite xf_chain_eq. generalize 1024. intros rem E HS. destruct PR as [PN P]. pose proof (P x vs v HS) as Px.
    destruct (xf (Some x)) as [l0|]; [|discriminate]. cbn [rbind] in E.
    apply (loop_preserves _ (conj PN P) _ _ _ _ _ E). destruct l0; exact Px.
  Qed.

  Section Claim.
    Variable inputs : list V.
    Hypothesis PR : preserves sem xf.

    Definition claim (fuel : nat) : Prop := forall path k inp s nv vs ys,
      single k -> good inputs s nv -> holds nv inp vs -> eval sem k vs = Ok ys ->
      match conv uid xf fuel path k inp s with
      | Ok (t, s') => exists nv', good inputs s' (nv ++ nv') /\ holds (nv ++ nv') t ys
      | Raise => ~ within uid xf fuel k
      end.

    Definition satok (W : list (list V)) (nv : list V) (sat : list (nat * tv)) : Prop :=
      forall id t, lookup sat id = Some t -> exists v, nth_error W id = Some [v] /\ holds1 nv t v.

    Lemma satok_app W nv nv' sat : satok W nv sat -> satok W (nv ++ nv') sat.
    Proof. intros H id t E. destruct (H id t E) as [v [A B]]. exists v. split; [assumption|apply holds1_app; assumption]. Qed.

    Lemma lookup_combine n (l : list tv) id t : forall a, lookup (combine (seq a n) l) id = Some t ->
      exists j, id = a + j /\ nth_error l j = Some t /\ j < n.
    Proof.
      revert l. induction n as [|n IH]; intros l a H; [discriminate|]. destruct l as [|u l]; [discriminate|].
      cbn [seq combine] in H. unfold lookup in *. cbn [find fst] in H. destruct (Nat.eqb_spec a id) as [E|N].
      - subst id. cbn in H. injection H as <-. exists 0. split; [lia|]. split; [reflexivity|lia].
      - destruct (IH l (S a) H) as [j [E [E2 E3]]]. exists (S j). split; [lia|]. split; [assumption|lia].
    Qed.
    Lemma lookup_combine_some n (l : list tv) j : forall a, j < n -> length l = n -> exists t, lookup (combine (seq a n) l) (a + j) = Some t.
    Proof.
      revert l j. induction n as [|n IH]; intros l j a H Hl; [lia|]. destruct l as [|u l]; [discriminate|].
      cbn [seq combine]. unfold lookup in *. cbn [find fst]. destruct (Nat.eqb_spec a (a + j)) as [E|N]; [eauto|].
      destruct j as [|j]; [lia|]. replace (a + S j) with (S a + j) by lia. apply IH; [lia|cbn in Hl; lia].
    Qed.

    Lemma pick_single (W : list (list V)) r v v' : nth_error W (fst r) = Some [v] -> pick W r = Ok v' -> v' = v.
    Proof. unfold pick. intros ->. destruct (snd r) as [|[|n]]; cbn; congruence. Qed.

    Section Get.
      Variables (fu : nat) (path : list nat) (nin : nat) (nodes : list (klayer L * list (nat * nat))).
      Hypothesis IHf : claim fu.
      Variable W : list (list V).
      Hypothesis WL : length W = nin + length nodes.
      Hypothesis HN : forall j k ins, nth_error nodes j = Some (k, ins) -> exists xs y,
        rseq (map (pick W) ins) = Ok xs /\ (forall r, In r ins -> fst r < nin + j) /\
        eval sem k xs = Ok [y] /\ nth_error W (nin + j) = Some [y] /\ single k.

      Definition covered (sat : list (nat * tv)) : Prop := forall id, id < nin -> exists t, lookup sat id = Some t.

      Definition stok (nv : list V) (ss : list (nat * tv) * cst (L := L)) : Prop :=
        satok W nv (fst ss) /\ covered (fst ss) /\ good inputs (snd ss) nv.

      Definition allw : Prop := forall k' ins, In (k', ins) nodes -> within uid xf fu k'.

      Definition getok (d : nat) : Prop := forall id ss nv, id < nin + length nodes -> id < d -> stok nv ss ->
        match getf (conv uid xf fu) path nin nodes d id ss with
        | Ok (t, ss') => exists nv' v, nth_error W id = Some [v] /\ holds1 (nv ++ nv') t v /\ stok (nv ++ nv') ss'
        | Raise => ~ allw
        end.

      Lemma map_ok d : getok d -> forall rs ss nv xs, rseq (map (pick W) rs) = Ok xs ->
        (forall r, In r rs -> fst r < d /\ fst r < nin + length nodes) -> stok nv ss ->
        match mapS (fun r => getf (conv uid xf fu) path nin nodes d (fst r)) rs ss with
        | Ok (ts, ss') => exists nv', Forall2 (holds1 (nv ++ nv')) ts xs /\ stok (nv ++ nv') ss'
        | Raise => ~ allw
        end.
      Proof.
        intros G. induction rs as [|r rs IH]; intros ss nv xs E R S; cbn [mapS].
        - cbn in E. injection E as <-. exists []. rewrite app_nil_r. split; [constructor|assumption].
        - cbn in E. destruct (pick W r) as [x|] eqn:Ep; [|discriminate]. cbn [rbind] in E.
          destruct (rseq (map (pick W) rs)) as [xs'|] eqn:Er; [|discriminate]. cbn [rbind] in E. injection E as <-.
          destruct (R r (or_introl eq_refl)) as [R1 R2]. specialize (G (fst r) ss nv R2 R1 S).
          destruct (getf _ _ _ _ _ _ _) as [[t ss']|]; cbn [rbind fst snd]; [|assumption].
          destruct G as [nv' [v [Wv [Hv S']]]]. pose proof (pick_single _ _ _ _ Wv Ep) as ->.
          specialize (IH ss' (nv ++ nv') xs' eq_refl (fun r' H => R r' (or_intror H)) S').
          destruct (mapS _ rs ss') as [[ts ss'']|]; cbn [rbind fst snd]; [|assumption].
          destruct IH as [nv'' [F S'']]. exists (nv' ++ nv''). rewrite app_assoc. split; [|assumption].
          constructor; [apply holds1_app; assumption|assumption].
      Qed.

      Lemma unwrap_holds nv ts xs : Forall2 (holds1 nv) ts xs -> holds nv (unwrap ts) xs.
      Proof.
        intros F. assert (E : exists is, ts = map T is /\ map (nth_error nv) is = map Some xs).
        { induction F as [|t x ts xs [i [-> H]] F [is [-> E]]]; [exists []; split; reflexivity|].
          exists (i :: is). cbn. rewrite H, E. split; reflexivity. }
        destruct E as [is [-> E]]. exists is. split; [reflexivity|assumption].
      Qed.
      Lemma holds_holds1 nv t v : holds nv t [v] -> holds1 nv t v.
      Proof.
        intros [is [-> H]]. destruct is as [|i [|j is]]; try discriminate. cbn in *. injection H as H. exists i. split; [reflexivity|assumption].
      Qed.
      Lemma add_log_good s p nv : good inputs s nv -> good inputs (add_log p s) nv.
      Proof. exact (fun H => H). Qed.

      Lemma get_ok : forall d, getok d.
      Proof.
        induction d as [|d IH]; intros id ss nv H1 H2 S; [lia|]. rewrite getf_S.
        destruct (lookup (fst ss) id) as [t|] eqn:El.
        { destruct S as [S1 [S2 S3]]. destruct (S1 id t El) as [v [A B]]. exists [], v. rewrite app_nil_r.
          split; [assumption|]. split; [assumption|]. split; [assumption|split; assumption]. }
        destruct (Nat.ltb_spec id nin) as [Hn|Hn].
        { exfalso. destruct S as [_ [S2 _]]. destruct (S2 id Hn) as [t E]. congruence. }
        destruct (nth_error nodes (id - nin)) as [[k' ins]|] eqn:En; [|apply nth_error_None in En; lia].
        destruct (HN _ _ _ En) as [xs [y [Ex [Ei [Ey [EW Es]]]]]]. replace (nin + (id - nin)) with id in * by lia.
        assert (Ri : forall r, In r ins -> fst r < d /\ fst r < nin + length nodes) by (intros r Hr; specialize (Ei r Hr); lia).
        pose proof (map_ok d IH ins ss nv xs Ex Ri S) as M.
        destruct (mapS _ ins ss) as [[ts [sat' s']]|]; cbn [rbind fst snd]; [|assumption].
        destruct M as [nv' [F [S1 [S2 S3]]]]. cbn [fst snd] in *. apply unwrap_holds in F.
        pose proof (IHf (path ++ [id]) k' (unwrap ts) s' (nv ++ nv') xs [y] Es S3 F Ey) as C.
        destruct (conv _ _ _ _ _ _ _) as [[t s'']|]; cbn [rbind fst snd].
        - destruct C as [nv'' [G H]]. exists (nv' ++ nv''), y. rewrite app_assoc. split; [assumption|].
          apply holds_holds1 in H. split; [assumption|]. split; [|split]; cbn [fst snd].
          + intros id' t' E'. unfold lookup in E'. cbn [find fst] in E'. destruct (Nat.eqb_spec id id') as [<-|N].
            * cbn in E'. injection E' as <-. eauto.
            * apply (satok_app _ _ nv'' _ S1). exact E'.
          + intros id' Hid'. destruct (S2 id' Hid') as [t' E']. unfold lookup in *. cbn [find fst].
            destruct (Nat.eqb id id'); [eauto|]. eauto.
          + apply add_log_good. assumption.
        - intros A. apply C. apply (A k' ins). eapply nth_error_In; eassumption.
      Qed.
    End Get.

    Lemma conv_ok : forall fuel, claim fuel.
    Proof.
      induction fuel as [|fu IH]; intros path k inp s nv vs ys Hs G H E.
      - cbn. auto.
      - destruct k as [x|nin nodes outs].
        + rewrite conv_leaf. unfold eval in E. cbn [run] in E. unfold pure in E. destruct (sem x vs) as [v|] eqn:Ev; [|discriminate].
          cbn in E. injection E as <-. destruct (xf_chain uid xf x) as [lx|] eqn:Ex; cbn [rbind].
          * pose proof (chain_preserves _ _ _ _ PR Ex Ev) as C. destruct lx as [|y|m]; cbn [ok_xf] in C.
            -- subst vs. exists []. rewrite app_nil_r. auto.
            -- destruct (emit_spec _ _ _ _ _ _ _ G H C) as [t [s' [Ee [G' H']]]]. rewrite Ee. eauto.
            -- destruct C as [C1 [C2 C3]]. specialize (IH path m inp s nv vs [v] C1 G H C3).
               destruct (conv _ _ _ _ m _ _) as [[t s']|]; [assumption|]. cbn [within]. intros [lx [A B]].
               rewrite Ex in A. injection A as <-. apply IH, B.
          * cbn [within]. intros [lx [A B]]. congruence.
        + rewrite conv_sub. destruct H as [is [-> H]]. rewrite inp_list_T.
          unfold eval in E. rewrite run_sub in E. destruct (Nat.eqb_spec (length vs) nin) as [Lv|]; [|discriminate].
          destruct (run_nodes ps nodes _ tt) as [[W []]|] eqn:Er; cbn [rbind fst snd] in E; [|discriminate].
          destruct (rseq (map (pick W) outs)) as [ys'|] eqn:Eo; cbn [rbind fst snd] in E; [|discriminate]. injection E as <-.
          destruct (run_nodes_spec _ _ _ Er) as [more [EW [Lm HNs]]]. rewrite map_length in HNs.
          assert (WL : length W = nin + length nodes) by (rewrite EW, app_length, map_length; lia).
          assert (HN : forall j k ins, nth_error nodes j = Some (k, ins) -> exists xs y,
            rseq (map (pick W) ins) = Ok xs /\ (forall r, In r ins -> fst r < nin + j) /\
            eval sem k xs = Ok [y] /\ nth_error W (nin + j) = Some [y] /\ single k).
          { intros j k ins Ej. destruct (HNs j k ins Ej) as [xs [yy [A [B [C D]]]]]. rewrite Lv in *.
            inversion Hs as [|? ? ? HF]; subst. rewrite Forall_forall in HF. specialize (HF _ (nth_error_In _ _ Ej)). cbn [fst] in HF.
            destruct HF as [HF1 HF2]. destruct (eval_one _ _ _ HF1 C) as [y ->].
            exists xs, y. split; [assumption|]. split; [intros r Hr; eapply rseq_first; eassumption|]. auto. }
          assert (Li : length is = nin).
          { rewrite <- Lv, <- (map_length (nth_error nv) is), H, map_length. reflexivity. }
          assert (Sk : stok nin W nv (combine (seq 0 nin) (map T is), s)).
          { split; [|split]; cbn [fst snd]; [| |assumption].
            - intros id t El. destruct (lookup_combine _ _ _ _ _ El) as [j [-> [Ej Hj]]]. cbn [plus].
              rewrite nth_error_map in Ej. destruct (nth_error is j) as [i|] eqn:Ei; [|discriminate]. cbn in Ej. injection Ej as <-.
              assert (Hv : exists v, nth_error vs j = Some v).
              { destruct (nth_error vs j) eqn:Q; [eauto|]. apply nth_error_None in Q. lia. }
              destruct Hv as [v Hv]. exists v. split.
              + rewrite EW, nth_error_app1 by (rewrite map_length; lia). rewrite nth_error_map, Hv. reflexivity.
              + exists i. split; [reflexivity|]. assert (Q : nth_error (map (nth_error nv) is) j = nth_error (map Some vs) j) by (rewrite H; reflexivity).
                rewrite !nth_error_map, Ei, Hv in Q. cbn in Q. congruence.
            - intros id Hid. apply (lookup_combine_some nin (map T is) id 0 Hid). rewrite map_length. assumption. }
          assert (Ro : forall r, In r outs -> fst r < S (nin + length nodes) /\ fst r < nin + length nodes).
          { intros r Hr. assert (Q : rseq (map (pick (firstn (length W) W)) outs) = Ok ys') by (rewrite firstn_all; assumption).
            pose proof (rseq_first _ _ _ _ Q r Hr). lia. }
          pose proof (map_ok fu path nin nodes W _ (get_ok fu path nin nodes IH W WL HN _) outs _ nv ys' Eo Ro Sk) as M.
          destruct (mapS _ outs _) as [[ts ss']|]; cbn [rbind fst snd].
          * destruct M as [nv' [F [S1 [S2 S3]]]]. exists nv'. split; [assumption|]. apply unwrap_holds. assumption.
          * cbn [within]. exact M.
    Qed.
  End Claim.

  (** The flat model built by convert_model computes evalnew. *)
  Definition flat_nodes (out : list (L * string * list nat)) : list (klayer L * list (nat * nat)) :=
    map (fun o => (Leaf (fst (fst o)), map (fun i => (i, 0)) (snd o))) out.
  Lemma pick_flat (vals : list V) i : pick (map (fun v => [v]) vals) (i, 0) = match nth_error vals i with Some v => Ok v | None => Raise end.
  Proof. unfold pick. cbn [fst snd]. rewrite nth_error_map. destruct (nth_error vals i); reflexivity. Qed.
  Lemma rseq_flat (vals : list V) l : rseq (map (pick (map (fun v => [v]) vals)) (map (fun i => (i, 0)) l)) =
    rseq (map (fun i => match nth_error vals i with Some v => Ok v | None => Raise end) l).
  Proof. rewrite map_map. f_equal. apply map_ext. intros i. apply pick_flat. Qed.
  Lemma run_flat out : forall vals nv, evalnew out vals = Ok nv ->
    run_nodes ps (flat_nodes out) (map (fun v => [v]) vals) tt = Ok (map (fun v => [v]) nv, tt).
  Proof.
    induction out as [|[[y n] ins] out IH]; intros vals nv H; cbn [evalnew] in H.
    - injection H as <-. reflexivity.
    - cbn [flat_nodes map run_nodes fst snd]. rewrite rseq_flat. destruct (rseq _) as [xs|]; [|discriminate]. cbn [rbind] in *.
      cbn [run]. unfold pure at 1. destruct (sem y xs) as [v|]; [|discriminate]. cbn [rbind fst snd] in *.
      specialize (IH _ _ H). rewrite map_app in IH. exact IH.
  Qed.
  Lemma rseq_holds (nv : list V) is vs : map (nth_error nv) is = map Some vs ->
    rseq (map (fun i => match nth_error nv i with Some v0 => Ok v0 | None => Raise end) is) = Ok vs.
  Proof.
    revert vs. induction is as [|i is IH]; intros [|v vs] H; try discriminate; [reflexivity|].
    cbn in *. injection H as H1 H2. rewrite H1. cbn [rbind]. rewrite (IH _ H2). reflexivity.
  Qed.

  Lemma nth_error_seq (l : list V) : forall pre, map (nth_error (pre ++ l)) (seq (length pre) (length l)) = map Some l.
  Proof.
    induction l as [|v l IH]; intros pre; [reflexivity|]. cbn [length seq map].
    rewrite nth_error_app2, Nat.sub_diag by lia. cbn [nth_error]. f_equal.
    specialize (IH (pre ++ [v])). rewrite <- app_assoc, app_length in IH. cbn in IH. rewrite Nat.add_1_r in IH. exact IH.
  Qed.

  Lemma convert_ok fuel m names inputs ys : preserves sem xf -> single m -> eval sem m inputs = Ok ys ->
    match convert_model uid xf fuel m names with
    | Ok (m', _, _) => eval sem m' inputs = Ok ys
    | Raise => within uid xf fuel m -> exists x, m = Leaf x
    end.
  Proof.
    intros PR Hs E. destruct m as [x|nin nodes outs]; [cbn; eauto|]. unfold convert_model.
    assert (Li : length inputs = nin).
    { unfold eval in E. rewrite run_sub in E. destruct (Nat.eqb_spec (length inputs) nin); [assumption|discriminate]. }
    pose proof (conv_ok inputs PR fuel [] (Sub nin nodes outs) (unwrap (map T (seq 0 nin))) (mkC nin [] [] names []) inputs inputs ys Hs) as C.
    destruct (conv _ _ _ _ _ _ _) as [[t s']|]; cbn [rbind fst snd].
    - destruct C as [nv' [[G1 G2] [is [-> H]]]].
      + split; [symmetry; assumption|reflexivity].
      + exists (seq 0 nin). split; [reflexivity|]. rewrite <- Li. apply (nth_error_seq inputs []).
      + assumption.
      + rewrite unwrap_flat. cbn [rbind]. unfold eval. rewrite run_sub, Li, Nat.eqb_refl.
        change (map (fun o => (Leaf (fst (fst o)), map (fun i => (i, 0)) (snd o))) (c_out s')) with (flat_nodes (c_out s')).
        rewrite (run_flat _ _ _ G2). cbn [rbind fst snd]. rewrite rseq_flat, (rseq_holds _ _ _ H). reflexivity.
    - intros Wn. exfalso. revert Wn. apply C.
      + split; [symmetry; assumption|reflexivity].
      + exists (seq 0 nin). split; [reflexivity|]. rewrite <- Li. apply (nth_error_seq inputs []).
      + assumption.
  Qed.
End Sem.

(** ** Names *)
Lemma mem_spec s l : mem s l = true <-> In s l.
Proof.
  unfold mem. rewrite existsb_exists. split.
  - intros [x [H E]]. apply String.eqb_eq in E. subst x. assumption.
  - intros H. exists s. split; [assumption|apply String.eqb_refl].
Qed.
Lemma append_inj a : forall b c, (a ++ b)%string = (a ++ c)%string -> b = c.
Proof. induction a as [|x a IH]; intros b c H; [assumption|]. cbn in H. injection H as H. auto. Qed.
Lemma suffixed_inj name i j : suffixed name i = suffixed name j -> i = j.
Proof.
  unfold suffixed. intros H. apply append_inj in H. cbn in H. injection H as H.
  assert (E : Some (Nat.to_uint i) = Some (Nat.to_uint j)) by (rewrite <- !NilEmpty.usu, H; reflexivity).
  injection E as E. apply DecimalNat.Unsigned.to_uint_inj in E. assumption.
Qed.

(** The search stops at the first suffix not in use. *)
Lemma first_unused_spec name : forall fuel used i, let n := first_unused fuel used name i in
  i <= n /\ (forall j, i <= j < n -> In (suffixed name j) used) /\
  (~ In (suffixed name n) used \/ n = i + fuel).
Proof.
  induction fuel as [|fu IH]; intros used i; cbn [first_unused].
  - split; [lia|]. split; [intros; lia|]. right. lia.
  - destruct (mem (suffixed name i) used) eqn:E.
    + destruct (IH used (S i)) as [A [B C]]. cbn zeta in *. apply mem_spec in E. split; [lia|]. split.
      * intros j Hj. destruct (Nat.eq_dec j i) as [->|N]; [assumption|]. apply B. lia.
      * destruct C as [C|C]; [auto|right; lia].
    + split; [lia|]. split; [intros; lia|]. left. intros H. apply mem_spec in H. congruence.
Qed.
Lemma suffixes_bound name used n : (forall j, j < n -> In (suffixed name j) used) -> n <= length used.
Proof.
  intros H. assert (N : NoDup (map (suffixed name) (seq 0 n))).
  { apply FinFun.Injective_map_NoDup; [intros i j; apply suffixed_inj|apply seq_NoDup]. }
  apply NoDup_incl_length with (l' := used) in N.
  - rewrite map_length, seq_length in N. assumption.
  - intros s Hs. apply in_map_iff in Hs. destruct Hs as [j [<- Hj]]. apply in_seq in Hj. apply H. lia.
Qed.
Lemma next_name_spec used name : exists n, next_name used name = (n, n :: used) /\ ~ In n used /\
  (~ In name used -> n = name) /\
  (In name used -> exists i, n = suffixed name i /\ forall j, j < i -> In (suffixed name j) used).
Proof.
  unfold next_name. destruct (mem name used) eqn:E.
  - apply mem_spec in E. destruct (first_unused_spec name (S (length used)) used 0) as [A [B C]].
    set (i := first_unused _ _ _ _) in *. eexists. split; [reflexivity|].
    assert (D : ~ In (suffixed name i) used).
    { destruct C as [C|C]; [assumption|]. exfalso. assert (i <= length used); [|lia]. apply suffixes_bound with (name := name).
      intros j Hj. apply B. lia. }
    split; [assumption|]. split; [contradiction|]. intros _. exists i. split; [reflexivity|]. intros j Hj. apply B. lia.
  - exists name. split; [reflexivity|]. assert (~ In name used) by (intros H; apply mem_spec in H; congruence).
    split; [assumption|]. split; [reflexivity|]. contradiction.
Qed.
Lemma hand_out_spec reqs : forall used, NoDup (hand_out used reqs) /\ (forall s, In s (hand_out used reqs) -> ~ In s used).
Proof.
  induction reqs as [|r reqs IH]; intros used; cbn [hand_out]; [split; [constructor|intros s []]|].
  destruct (next_name_spec used r) as [n [-> [H _]]]. destruct (IH (n :: used)) as [A B]. split.
  - constructor; [|assumption]. intros C. apply (B n C). left. reflexivity.
  - intros s [<-|C]; [assumption|]. intros D. apply (B s C). right. assumption.
Qed.

Section Names.
  Context {L : Type}.
  Variable uid : L -> nat.
  Variable xf : option L -> result (xout (L := L)).

  (** Every emitted layer carries a name handed out by next_name. *)
  Definition ninv (s : cst (L := L)) : Prop :=
    c_used s = rev (map (fun o => snd (fst o)) (c_out s)) /\ NoDup (c_used s).
  Lemma emit_ninv y inp s t s' : ninv s -> emit uid y inp s = Ok (t, s') -> ninv s'.
  Proof.
    intros [H1 H2] E. unfold emit in E. destruct (next_name_spec (c_used s) (fst (c_name s (uid y)))) as [n [En [H _]]]. rewrite En in E.
    destruct (flat_tv inp) as [ins|]; cbn [rbind] in E; [|discriminate]. injection E as <- <-. split; cbn [c_used c_out].
    - rewrite map_app, rev_app_distr. cbn. rewrite H1. reflexivity.
    - constructor; assumption.
  Qed.
  Lemma mapS_inv {A B S} (P : S -> Prop) (f : A -> S -> result (B * S)) : (forall a s b s', P s -> f a s = Ok (b, s') -> P s') ->
    forall l s bs s', P s -> mapS f l s = Ok (bs, s') -> P s'.
  Proof.
    intros H. induction l as [|a l IH]; intros s bs s' HP E; cbn [mapS] in E; [injection E as <- <-; assumption|].
    destruct (f a s) as [[b s1]|] eqn:Ef; cbn [rbind fst snd] in E; [|discriminate].
    destruct (mapS f l s1) as [[bs' s2]|] eqn:Em; cbn [rbind fst snd] in E; [|discriminate]. injection E as <- <-. eauto.
  Qed.
  Lemma conv_ninv : forall fuel path k inp s t s', ninv s -> conv uid xf fuel path k inp s = Ok (t, s') -> ninv s'.
  Proof.
    induction fuel as [|fu IH]; intros path k inp s t s' H E; [discriminate|]. destruct k as [x|nin nodes outs].
    - rewrite conv_leaf in E. destruct (xf_chain uid xf x) as [[|y|m]|]; cbn [rbind] in E; [| | |discriminate].
      + injection E as <- <-. assumption.
      + eapply emit_ninv; eassumption.
      + eapply IH; eassumption.
    - rewrite conv_sub in E. destruct (mapS _ outs _) as [[ts ss']|] eqn:Em; cbn [rbind fst snd] in E; [|discriminate]. injection E as <- <-.
      assert (G : forall d id ss t ss', ninv (snd ss) -> getf (conv uid xf fu) path nin nodes d id ss = Ok (t, ss') -> ninv (snd ss')).
      { induction d as [|d IHd]; intros id ss t0 ss0 P Eg; [discriminate|]. rewrite getf_S in Eg.
        destruct (lookup _ _); [injection Eg as <- <-; assumption|]. destruct (Nat.ltb _ _); [discriminate|].
        destruct (nth_error _ _) as [[k ins]|]; [|discriminate].
        destruct (mapS _ ins ss) as [[ts1 ss1]|] eqn:Em1; cbn [rbind fst snd] in Eg; [|discriminate].
        destruct (conv _ _ _ _ _ _ _) as [[t1 s1]|] eqn:Ec; cbn [rbind fst snd] in Eg; [|discriminate]. injection Eg as <- <-.
        apply (mapS_inv (fun ss => ninv (snd ss))) in Em1; [|intros; eapply IHd; eassumption|assumption].
        apply (IH _ _ _ _ _ _ Em1) in Ec. exact Ec. }
      apply (mapS_inv (fun ss => ninv (snd ss))) in Em; [assumption|intros; eapply G; eassumption|assumption].
  Qed.
  Lemma convert_names fuel m names m' ns s : convert_model uid xf fuel m names = Ok (m', ns, s) -> NoDup ns /\
    ns = map (fun o => snd (fst o)) (c_out s).
  Proof.
    unfold convert_model. destruct m as [|nin nodes outs]; [discriminate|].
    destruct (conv _ _ _ _ _ _ _) as [[t s1]|] eqn:E; cbn [rbind fst snd]; [|discriminate].
    destruct (flat_tv t); cbn [rbind]; [|discriminate]. intros H. injection H as <- <- <-. split; [|reflexivity].
    apply conv_ninv in E; [|split; [reflexivity|constructor]]. destruct E as [E1 E2]. rewrite E1 in E2. apply NoDup_rev in E2.
    rewrite rev_involutive in E2. assumption.
  Qed.

  (** ** Convergence of the transformer *)
  Lemma iterate_S n x : iterate xf (S n) x = rbind (iterate xf n x) (fun o =>
    match o with XLayer y => xf (Some y) | XNone => xf None | XModel m => Ok (XModel m) end).
  Proof. reflexivity. Qed.
  Lemma iterate_raise x n : iterate xf n x = Raise -> forall k, iterate xf (n + k) x = Raise.
  Proof. intros H. induction k as [|k IH]; [rewrite Nat.add_0_r; assumption|]. rewrite <- plus_n_Sm, iterate_S, IH. reflexivity. Qed.
  Definition as_layer (o : xout (L := L)) : option L := match o with XLayer y => Some y | _ => None end.
  Lemma loop_iterate x : forall rem n o l1,
    iterate xf n x = Ok o -> (forall m, o <> XModel m) -> iterate xf (S n) x = Ok l1 ->
    match xf_loop uid xf rem (as_layer o) l1 with
    | Ok lx => exists k, k <= rem /\ settled uid xf (n + k) x /\ Ok lx = iterate xf (S (n + k)) x /\ forall j, j < k -> ~ settled uid xf (n + j) x
    | Raise => forall k, k <= rem -> ~ settled uid xf (n + k) x
    end.
  Proof.
    assert (SS : forall n o l1, iterate xf n x = Ok o -> (forall m, o <> XModel m) -> iterate xf (S n) x = Ok l1 ->
      (settled uid xf n x <-> same uid (as_layer o) l1 = true \/ exists m, l1 = XModel m)).
    { intros n o l1 E1 H E2. unfold settled. rewrite E1, E2. destruct o as [|a|m]; destruct l1 as [|b|m']; cbn;
        rewrite ?Nat.eqb_eq; split; intros; eauto; try tauto; try (destruct H0 as [|[? ?]]; congruence); try (exfalso; eapply H; reflexivity). }
    induction rem as [|rem IH]; intros n o l1 E1 H E2; cbn [xf_loop]; pose proof (SS n o l1 E1 H E2) as Sn;
      destruct (same uid _ _) eqn:Es.
    - exists 0. rewrite Nat.add_0_r, E2. split; [lia|]. split; [tauto|]. split; [reflexivity|intros; lia].
    - destruct l1 as [|y|m] eqn:Ei.
      + intros k Hk. replace k with 0 by lia. rewrite Nat.add_0_r, Sn. intros [|[? ?]]; congruence.
      + intros k Hk. replace k with 0 by lia. rewrite Nat.add_0_r, Sn. intros [|[? ?]]; congruence.
      + exists 0. rewrite Nat.add_0_r, E2. split; [lia|]. split; [apply Sn; eauto|]. split; [reflexivity|intros; lia].
    - exists 0. rewrite Nat.add_0_r, E2. split; [lia|]. split; [tauto|]. split; [reflexivity|intros; lia].
    - assert (Ns : (forall m, l1 <> XModel m) -> ~ settled uid xf n x).
      { intros Hm. rewrite Sn. intros [|[m ->]]; [congruence|]. eapply Hm. reflexivity. }
      assert (G : (forall m, l1 <> XModel m) ->
        match rbind (iterate xf (S (S n)) x) (xf_loop uid xf rem (as_layer l1)) with
        | Ok lx => exists k, k <= S rem /\ settled uid xf (n + k) x /\ Ok lx = iterate xf (S (n + k)) x /\ forall j, j < k -> ~ settled uid xf (n + j) x
        | Raise => forall k, k <= S rem -> ~ settled uid xf (n + k) x
        end).
      { intros Hm. specialize (Ns Hm). destruct (iterate xf (S (S n)) x) as [l2|] eqn:E3; cbn [rbind].
        - specialize (IH (S n) l1 l2 E2 Hm E3). destruct (xf_loop _ _ _ _ _) as [lx|].
          + destruct IH as [k [A [B [C D]]]]. exists (S k). rewrite <- !plus_n_Sm. split; [lia|]. split; [assumption|]. split; [assumption|].
            intros [|j] Hj; [rewrite Nat.add_0_r; assumption|]. rewrite <- plus_n_Sm. apply D. lia.
          + intros [|k] Hk; [rewrite Nat.add_0_r; assumption|]. rewrite <- plus_n_Sm. apply IH. lia.
        - intros [|k] Hk; [rewrite Nat.add_0_r; assumption|]. unfold settled.
          replace (S (n + S k)) with (S (S n) + k) by lia. rewrite (iterate_raise _ _ E3).
          destruct (iterate xf (n + S k) x) as [[| |]|]; auto. }
      destruct l1 as [|y|m] eqn:Ei.
      + specialize (G ltac:(discriminate)). rewrite iterate_S, E2 in G. exact G.
      + specialize (G ltac:(discriminate)). rewrite iterate_S, E2 in G. exact G.
      + exists 0. rewrite Nat.add_0_r, E2. split; [lia|]. split; [apply Sn; eauto|]. split; [reflexivity|intros; lia].
  Qed.
End Names.

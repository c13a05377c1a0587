(** Proofs about Model/QkerasLayer.v. *)
From Coq Require Import ZArith Qcanon List Bool String Lia.
From Verif Require Import Base.Num Base.Tensor Model.Layers Model.Qkeras Model.Weights Model.QkerasLayer
  Spec.Weights Spec.QkerasLayer Proofs.WeightsP.
Import ListNotations.
Local Open Scope string_scope.

(** ** Dictionaries *)
Section Dict.
  Context {A : Type}.
  Implicit Type d : list (string * A).

  Lemma dlookup_in d k v : NoDup (map fst d) -> (dlookup d k = Some v <-> In (k, v) d).
  Proof.
    unfold dlookup. induction d as [|[k' v'] d IH]; cbn [map fst find In]; intros ND.
    - split; [discriminate|contradiction].
    - inversion_clear ND as [|? ? NI ND']. destruct (String.eqb_spec k' k) as [->|N].
      + cbn [snd]. split.
        * intros E. injection E as ->. left. reflexivity.
        * intros [E|H]; [congruence|]. exfalso. apply NI. apply in_map_iff. exists (k, v). split; [reflexivity|exact H].
      + rewrite (IH ND'). split; [tauto|]. intros [E|H]; [congruence|exact H].
  Qed.
  Lemma dlookup_none d k : dlookup d k = None <-> ~ In k (map fst d).
  Proof.
    unfold dlookup. induction d as [|[k' v'] d IH]; cbn [map fst find In]; [tauto|].
    destruct (String.eqb_spec k' k) as [->|N]; [split; [discriminate|tauto]|]. rewrite IH. tauto.
  Qed.
  Lemma dlookup_key d k : (exists v, dlookup d k = Some v) <-> In k (map fst d).
  Proof.
    destruct (dlookup d k) eqn:E.
    - split; [|eauto]. intros _. destruct (in_dec string_dec k (map fst d)) as [H|H]; [exact H|].
      apply dlookup_none in H. congruence.
    - apply dlookup_none in E. split; [intros [v H]; discriminate|contradiction].
  Qed.
End Dict.

(** ** Dropping the settings *)
Section Strip.
  Variable V : Type.
  Implicit Type conf : list (string * V).

  Definition step k (acc : result (list (string * V))) (w : string) :=
    rbind acc (fun conf => if contains w k then ddel conf k else Ok conf).
  Lemma fold_raise k ws : fold_left (step k) ws Raise = Raise.
  Proof. induction ws; [reflexivity|exact IHws]. Qed.
  Lemma fold_gone k ws conf : dlookup conf k = None ->
    fold_left (step k) ws (Ok conf) = match filter (fun w => contains w k) ws with [] => Ok conf | _ => Raise end.
  Proof.
    intros E. induction ws as [|w ws IH]; [reflexivity|]. cbn [fold_left filter]. unfold step at 2. cbn [rbind].
    destruct (contains w k); [|exact IH]. unfold ddel. rewrite E. apply fold_raise.
  Qed.
  Lemma fold_there k ws conf : dlookup conf k <> None ->
    fold_left (step k) ws (Ok conf) =
    match filter (fun w => contains w k) ws with
    | [] => Ok conf | [_] => Ok (filter (fun e => negb (String.eqb (fst e) k)) conf) | _ => Raise end.
  Proof.
    intros E. induction ws as [|w ws IH]; [reflexivity|]. cbn [fold_left filter]. unfold step at 2. cbn [rbind].
    destruct (contains w k); [|exact IH]. unfold ddel. destruct (dlookup conf k); [|congruence].
    rewrite fold_gone; [|].
    - destruct (filter _ ws); reflexivity.
    - apply dlookup_none. intros H. apply in_map_iff in H. destruct H as (e & E1 & H). apply filter_In in H.
      destruct H as [_ H]. rewrite E1, String.eqb_refl in H. discriminate.
  Qed.

  Definition hits (k : string) : list string := filter (fun w => contains w k) blacklist.
  Lemma hits_in k w : In w (hits k) <-> In w setting_words /\ substring w k.
  Proof. unfold hits. rewrite filter_In, contains_iff. reflexivity. Qed.
  Lemma hits_nodup k : NoDup (hits k).
  Proof.
    apply NoDup_filter. unfold blacklist.
    repeat (constructor; [cbn [In]; intros H; decompose [or] H; try discriminate; try contradiction|]). constructor.
  Qed.
  Lemma hits_nil k : hits k = [] <-> ~ separate k.
  Proof.
    split.
    - intros E (w & H). apply hits_in in H. rewrite E in H. exact H.
    - intros N. destruct (hits k) as [|w r] eqn:E; [reflexivity|]. exfalso. apply N. exists w. apply hits_in. rewrite E. left. reflexivity.
  Qed.
  Lemma hits_two k w1 w2 r : hits k = w1 :: w2 :: r -> ambiguous k.
  Proof.
    intros E. assert (ND := hits_nodup k). rewrite E in ND.
    assert (H1 : In w1 (hits k)) by (rewrite E; cbn; tauto). assert (H2 : In w2 (hits k)) by (rewrite E; cbn; tauto).
    apply hits_in in H1. apply hits_in in H2. exists w1, w2. inversion_clear ND as [|? ? NI _].
    repeat split; try tauto. intros ->. apply NI. left. reflexivity.
  Qed.
  Lemma hits_one k w : hits k = [w] -> separate k /\ ~ ambiguous k.
  Proof.
    intros E. assert (A : forall w', In w' setting_words -> substring w' k -> w' = w).
    { intros w' H S. assert (H' : In w' (hits k)) by (apply hits_in; tauto). rewrite E in H'. cbn in H'. destruct H'; [congruence|contradiction]. }
    split.
    - exists w. apply hits_in. rewrite E. left. reflexivity.
    - intros (w1 & w2 & I1 & I2 & N & S1 & S2). apply N. rewrite (A w1 I1 S1), (A w2 I2 S2). reflexivity.
  Qed.

  Lemma filter_id (A : Type) (f : A -> bool) l : (forall x, In x l -> f x = true) -> filter f l = l.
  Proof. induction l as [|a l IH]; intros H; [reflexivity|]. cbn. rewrite (H a (or_introl eq_refl)), IH; [reflexivity|]. intros x I. apply H. right. exact I. Qed.
  Lemma drop_key k (v : V) a b : NoDup (map fst (a ++ (k, v) :: b)) -> filter (fun e => negb (String.eqb (fst e) k)) (a ++ (k, v) :: b) = (a ++ b)%list.
  Proof.
    intros ND. rewrite filter_app. cbn [filter fst]. rewrite String.eqb_refl. cbn [negb].
    rewrite map_app in ND. cbn [map fst] in ND. assert (NI := NoDup_remove_2 _ _ _ ND). f_equal; apply filter_id; intros e I.
    - destruct (String.eqb_spec (fst e) k) as [<-|]; [|reflexivity]. exfalso. apply NI. apply in_or_app. left. apply in_map. exact I.
    - destruct (String.eqb_spec (fst e) k) as [<-|]; [|reflexivity]. exfalso. apply NI. apply in_or_app. right. apply in_map. exact I.
  Qed.

  Lemma strip_key_eq k (v : V) a b : NoDup (map fst (a ++ (k, v) :: b)) ->
    strip_key k (a ++ (k, v) :: b) =
    match hits k with [] => Ok (a ++ (k, v) :: b)%list | [_] => Ok (a ++ b)%list | _ => Raise end.
  Proof.
    intros ND. unfold strip_key. change (fold_left _ blacklist _) with (fold_left (step k) blacklist (Ok (a ++ (k, v) :: b)%list)).
    rewrite fold_there.
    - rewrite drop_key by exact ND. reflexivity.
    - intros E. apply dlookup_none in E. apply E. rewrite map_app. apply in_or_app. right. left. reflexivity.
  Qed.

  Lemma strip_fold_raise ks : fold_left (fun acc k => rbind acc (strip_key (V:=V) k)) ks Raise = Raise.
  Proof. induction ks; [reflexivity|exact IHks]. Qed.
  Lemma strip_fold (rest : list (string * V)) : forall fin out, NoDup (map fst (fin ++ rest)) ->
    (fold_left (fun acc k => rbind acc (strip_key k)) (map fst rest) (Ok (fin ++ rest)%list) = Ok out <->
     (forall k, In k (map fst rest) -> ~ ambiguous k) /\ exists c, shared_part rest c /\ out = (fin ++ c)%list).
  Proof.
    induction rest as [|[k v] rest IH]; intros fin out ND.
    - cbn [map fold_left]. split.
      + intros E. injection E as <-. split; [intros k []|]. exists []. split; [constructor|reflexivity].
      + intros [_ (c & H & ->)]. inversion H. reflexivity.
    - cbn [map fst fold_left rbind]. rewrite strip_key_eq by exact ND.
      destruct (hits k) as [|w1 [|w2 r]] eqn:EH.
      + apply hits_nil in EH. replace (fin ++ (k, v) :: rest)%list with ((fin ++ [(k, v)]) ++ rest)%list in * by (rewrite <- app_assoc; reflexivity).
        rewrite IH by exact ND. split.
        * intros [HA (c & S & ->)]. split; [|exists ((k, v) :: c); split; [constructor; assumption|rewrite <- app_assoc; reflexivity]].
          intros k' [<-|H]; [|exact (HA k' H)]. intros (w1 & w2 & I1 & _ & _ & S1 & _). apply EH. exists w1. tauto.
        * intros [HA (c & S & ->)]. split; [intros k' H; apply HA; right; exact H|]. inversion S; subst; [|contradiction].
          exists c'. split; [assumption|]. rewrite <- app_assoc. reflexivity.
      + apply hits_one in EH. destruct EH as [HS HNA]. assert (ND' : NoDup (map fst (fin ++ rest))).
        { rewrite map_app in *. cbn [map fst] in ND. apply NoDup_remove_1 in ND. exact ND. }
        rewrite IH by exact ND'. split.
        * intros [HA (c & S & ->)]. split; [|exists c; split; [apply sp_drop; assumption|reflexivity]].
          intros k' [<-|H]; [exact HNA|exact (HA k' H)].
        * intros [HA (c & S & ->)]. split; [intros k' H; apply HA; right; exact H|]. inversion S; subst; [contradiction|].
          exists c. split; [assumption|reflexivity].
      + apply hits_two in EH. rewrite strip_fold_raise. split; [discriminate|]. intros [HA _]. exfalso. apply (HA k); [left; reflexivity|exact EH].
  Qed.
  Lemma strip_ok conf out : NoDup (map fst conf) ->
    (strip conf = Ok out <-> (forall k, In k (map fst conf) -> ~ ambiguous k) /\ shared_part conf out).
  Proof.
    intros ND. unfold strip. rewrite (strip_fold conf [] out ND). split.
    - intros [HA (c & S & ->)]. split; assumption.
    - intros [HA S]. split; [exact HA|]. exists out. split; [exact S|reflexivity].
  Qed.
  Lemma separate_dec k : separate k \/ ~ separate k.
  Proof.
    destruct (hits k) as [|w r] eqn:E; [right; apply hits_nil; exact E|]. left. exists w. apply hits_in. rewrite E. left. reflexivity.
  Qed.
  Lemma shared_exists conf : exists out, shared_part conf out.
  Proof.
    induction conf as [|[k v] conf [out IH]]; [exists []; constructor|].
    destruct (separate_dec k); [exists out; apply sp_drop|exists ((k, v) :: out); apply sp_keep]; assumption.
  Qed.
  Lemma shared_in conf (out : list (string * V)) : shared_part conf out -> forall k v, In (k, v) out <-> In (k, v) conf /\ ~ separate k.
  Proof.
    induction 1 as [|k v c c' N S IH|k v c c' N S IH]; intros k' v'; cbn [In].
    - tauto.
    - rewrite IH. split; [|intros [[E|H] N']; tauto]. intros [E|H]; [|tauto]. injection E as <- <-. tauto.
    - rewrite IH. split; [tauto|]. intros [[E|H] N']; [|tauto]. injection E as <- <-. contradiction.
  Qed.
  Lemma shared_keys conf out : shared_part conf out -> forall k, In k (map fst out) <-> In k (map fst conf) /\ ~ separate k.
  Proof.
    intros S k. rewrite !in_map_iff. split.
    - intros ([k' v] & <- & H). apply (shared_in _ _ S) in H. split; [exists (k', v)|]; tauto.
    - intros [([k' v] & <- & H) N]. exists (k', v). split; [reflexivity|]. apply (shared_in _ _ S). tauto.
  Qed.
  Lemma shared_nodup conf out : shared_part conf out -> NoDup (map fst conf) -> NoDup (map fst out).
  Proof.
    induction 1 as [|k v c c' N S IH|k v c c' N S IH]; cbn [map fst]; intros ND; [constructor|..]; inversion_clear ND.
    - constructor; [|apply IH; assumption]. intros H'. apply (shared_keys _ _ S) in H'. tauto.
    - apply IH. assumption.
  Qed.
  Lemma strip_raise conf : NoDup (map fst conf) -> (strip conf = Raise <-> exists k, In k (map fst conf) /\ ambiguous k).
  Proof.
    intros ND. destruct (strip conf) eqn:E.
    - split; [discriminate|]. intros (k & I & A). apply (strip_ok _ _ ND) in E. exfalso. apply (proj1 E k I A).
    - split; [|reflexivity]. intros _. destruct (shared_exists conf) as [out S].
      assert (D : (exists k, In k (map fst conf) /\ ambiguous k) \/ (forall k, In k (map fst conf) -> ~ ambiguous k)).
      { clear. induction (map fst conf) as [|k ks [(k' & I & A)|IH]].
        - right. intros k [].
        - left. exists k'. split; [right; exact I|exact A].
        - destruct (hits k) as [|w1 [|w2 r]] eqn:EH.
          + right. intros k' [<-|I]; [|exact (IH k' I)]. apply hits_nil in EH. intros (w1 & w2 & I1 & _ & _ & S1 & _). apply EH. exists w1. tauto.
          + right. intros k' [<-|I]; [|exact (IH k' I)]. apply (hits_one _ _ EH).
          + left. exists k. split; [left; reflexivity|]. apply (hits_two _ _ _ _ EH). }
      destruct D as [D|D]; [exact D|]. exfalso. assert (X : strip conf = Ok out) by (apply (strip_ok _ _ ND); split; assumption). congruence.
  Qed.
End Strip.

(** ** Assigning a variable *)
Lemma set_weight_ok ws n v out : set_weight ws n v = Ok out ->
  map fst out = map fst ws /\ In n (map fst ws) /\
  forall n', dlookup out n' = if String.eqb n' n then Some v else dlookup ws n'.
Proof.
  unfold set_weight. destruct (dlookup ws n) as [old|] eqn:EL; [|discriminate].
  destruct (list_eq_dec Nat.eq_dec (shape old) (shape v)); [|discriminate]. intros E. injection E as <-. repeat split.
  - rewrite map_map. apply map_ext. intros [k w]. cbn [fst]. destruct (String.eqb k n); reflexivity.
  - apply (dlookup_key ws n). exists old. exact EL.
  - intros n'. unfold dlookup in *. clear e. revert EL. induction ws as [|[k w] ws IH]; cbn [find map]; [discriminate|]. cbn [fst].
    destruct (String.eqb_spec k n) as [->|N]; cbn [fst].
    + intros _. rewrite (String.eqb_sym n' n). destruct (String.eqb_spec n n') as [E'|N']; [reflexivity|].
      clear IH. induction ws as [|[k' w'] ws IH]; [reflexivity|]. cbn [map find fst].
      destruct (String.eqb_spec k' n) as [E2|N2]; cbn [fst].
      * subst k'. destruct (String.eqb_spec n n') as [E3|_]; [congruence|]. exact IH.
      * destruct (String.eqb_spec k' n') as [E3|_]; [reflexivity|]. exact IH.
    + intros EL. destruct (String.eqb_spec k n') as [E2|N'].
      * destruct (String.eqb_spec n' n) as [E3|_]; [congruence|]. reflexivity.
      * exact (IH EL).
Qed.
Lemma set_weight_total ws n v old : dlookup ws n = Some old -> shape old = shape v -> exists out, set_weight ws n v = Ok out.
Proof. intros E S. unfold set_weight. rewrite E. destruct (list_eq_dec _ _ _); [eauto|contradiction]. Qed.

(** ** The converted layer *)
Section Conv.
  Context {V : Type}.
  Variable lib : string -> option (kclass V).

  Lemma opt_set ws n (o : option (tensor Qc)) (b : bool) f out :
    match o with Some w => if b then set_weight ws n (f w) else Ok ws | None => Ok ws end = Ok out ->
    map fst out = map fst ws /\
    forall n', dlookup out n' = match (if (String.eqb n' n && b)%bool then o else None) with Some w => Some (f w) | None => dlookup ws n' end.
  Proof.
    destruct o as [w|]; [destruct b|].
    - intros E. apply set_weight_ok in E. destruct E as (E1 & _ & E2). split; [exact E1|]. intros n'. rewrite E2.
      destruct (String.eqb n' n); reflexivity.
    - intros E. injection E as <-. split; [reflexivity|]. intros n'. rewrite andb_false_r. reflexivity.
    - intros E. injection E as <-. split; [reflexivity|]. intros n'. destruct (_ && _)%bool; reflexivity.
  Qed.

  Lemma keras_layer_inv (l : qlayer V) kl : NoDup (map fst (q_conf l)) -> qlayer_to_keras_layer lib l = Ok kl ->
    exists cls, lib (base_cls_name (q_cls l)) = Some cls /\
    match kl with
    | None => q_is_activation l = true /\ q_quantizer_cls l = true
    | Some k => (q_is_activation l && q_quantizer_cls l)%bool = false /\ kl_class k = cls /\ shared_part (q_conf l) (kl_conf k) /\
        (forall key, In key (map fst (q_conf l)) -> ~ ambiguous key) /\
        (forall key, In key (map fst (kl_conf k)) -> In key (kc_accepted cls)) /\
        (forall key, In key (kc_required cls) -> In key (map fst (kl_conf k))) /\
        map fst (kl_weights k) = map fst (kc_init cls (kl_conf k) (q_input_shape l)) /\
        (forall n, dlookup (kl_weights k) n =
           match (if (String.eqb n "bias" && q_use_bias l)%bool then dlookup (q_weights l) "bias" else None) with
           | Some w => Some (copy_q (q_bias_q l) w)
           | None => match (if String.eqb n "kernel" then dlookup (q_weights l) "kernel" else None) with
                     | Some w => Some (copy_q (q_kernel_q l) w)
                     | None => dlookup (kc_init cls (kl_conf k) (q_input_shape l)) n
                     end
           end)
    end.
  Proof.
    intros ND. unfold qlayer_to_keras_layer. destruct (lib _) as [cls|]; [|discriminate].
    destruct (q_is_activation l && q_quantizer_cls l)%bool eqn:EA.
    { intros E. injection E as <-. exists cls. split; [reflexivity|]. apply andb_true_iff in EA. exact EA. }
    destruct (strip (q_conf l)) as [conf|] eqn:ES; cbn [rbind]; [|discriminate].
    apply (strip_ok _ _ _ ND) in ES. destruct ES as [HA SP].
    destruct (forallb _ conf) eqn:E1; cbn [negb]; [|discriminate].
    destruct (forallb _ (kc_required cls)) eqn:E2; cbn [negb]; [|discriminate]. cbv zeta.
    destruct (match dlookup (q_weights l) "kernel" with Some w => _ | None => _ end) as [ws1|] eqn:EK; cbn [rbind]; [|discriminate].
    destruct (match dlookup (q_weights l) "bias" with Some w => _ | None => _ end) as [ws2|] eqn:EB; cbn [rbind]; [|discriminate].
    intros E. injection E as <-. exists cls. split; [reflexivity|]. cbn [kl_class kl_conf kl_weights].
    apply (opt_set _ "kernel" _ true (copy_q (q_kernel_q l))) in EK. destruct EK as [K1 K2].
    apply (opt_set _ "bias" _ (q_use_bias l) (copy_q (q_bias_q l))) in EB. destruct EB as [B1 B2].
    repeat split; try assumption.
    - intros key H. apply in_map_iff in H. destruct H as (e & <- & H). rewrite forallb_forall in E1. specialize (E1 e H).
      apply existsb_exists in E1. destruct E1 as (a & I & EQ). apply String.eqb_eq in EQ. rewrite EQ. exact I.
    - intros key H. rewrite forallb_forall in E2. specialize (E2 key H). apply (dlookup_key conf key). destruct (dlookup conf key); [eauto|discriminate].
    - rewrite B1. exact K1.
    - intros n. rewrite B2. destruct (if (String.eqb n "bias" && q_use_bias l)%bool then _ else _); [reflexivity|].
      rewrite K2, andb_true_r. reflexivity.
  Qed.

  Lemma keras_layer_total (l : qlayer V) cls conf : NoDup (map fst (q_conf l)) ->
    lib (base_cls_name (q_cls l)) = Some cls -> (q_is_activation l && q_quantizer_cls l)%bool = false ->
    (forall key, In key (map fst (q_conf l)) -> ~ ambiguous key) -> shared_part (q_conf l) conf ->
    (forall key, In key (map fst conf) -> In key (kc_accepted cls)) ->
    (forall key, In key (kc_required cls) -> In key (map fst conf)) ->
    (forall w, dlookup (q_weights l) "kernel" = Some w -> exists w0, dlookup (kc_init cls conf (q_input_shape l)) "kernel" = Some w0 /\ shape w0 = shape (copy_q (q_kernel_q l) w)) ->
    (forall w, dlookup (q_weights l) "bias" = Some w -> q_use_bias l = true -> exists w0, dlookup (kc_init cls conf (q_input_shape l)) "bias" = Some w0 /\ shape w0 = shape (copy_q (q_bias_q l) w)) ->
    exists k, qlayer_to_keras_layer lib l = Ok (Some k).
  Proof.
    intros ND EL EA HA SP E1 E2 HK HB. unfold qlayer_to_keras_layer. rewrite EL, EA.
    assert (ES : strip (q_conf l) = Ok conf) by (apply (strip_ok _ _ _ ND); split; assumption). rewrite ES. cbn [rbind].
    assert (F1 : forallb (fun e => existsb (String.eqb (fst e)) (kc_accepted cls)) conf = true).
    { apply forallb_forall. intros e I. apply existsb_exists. exists (fst e). split; [apply E1; apply in_map; exact I|apply String.eqb_refl]. }
    rewrite F1. cbn [negb].
    assert (F2 : forallb (fun k => match dlookup conf k with Some _ => true | None => false end) (kc_required cls) = true).
    { apply forallb_forall. intros k I. apply E2 in I. apply (dlookup_key conf k) in I. destruct I as [v ->]. reflexivity. }
    rewrite F2. cbn [negb]. cbv zeta.
    set (ws := kc_init cls conf (q_input_shape l)) in *.
    assert (K : exists ws1, match dlookup (q_weights l) "kernel" with Some w => set_weight ws "kernel" (copy_q (q_kernel_q l) w) | None => Ok ws end = Ok ws1).
    { destruct (dlookup (q_weights l) "kernel") as [w|]; [|eauto]. destruct (HK w eq_refl) as (w0 & L0 & S0). exact (set_weight_total _ _ _ _ L0 S0). }
    destruct K as [ws1 K]. rewrite K. cbn [rbind]. apply (opt_set _ "kernel" _ true (copy_q (q_kernel_q l))) in K. destruct K as [_ K2].
    assert (B : exists ws2, match dlookup (q_weights l) "bias" with Some w => if q_use_bias l then set_weight ws1 "bias" (copy_q (q_bias_q l) w) else Ok ws1 | None => Ok ws1 end = Ok ws2).
    { destruct (dlookup (q_weights l) "bias") as [w|]; [|eauto]. destruct (q_use_bias l); [|eauto]. destruct (HB w eq_refl eq_refl) as (w0 & L0 & S0).
      apply (set_weight_total ws1 "bias" _ w0); [|exact S0]. rewrite K2. exact L0. }
    destruct B as [ws2 B]. rewrite B. cbn [rbind]. eauto.
  Qed.
End Conv.

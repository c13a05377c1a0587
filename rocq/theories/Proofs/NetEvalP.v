(** Facts about Spec/NetEval.v. *)
From Coq Require Import ZArith Qcanon List Bool String Lia Arith.
From Verif Require Import Base.Num Base.Tensor Model.FixedPoint Model.Precision Model.Lut Spec.Fixed Spec.Precision Spec.NetEval.
Import ListNotations.
Open Scope Z_scope.

Lemma rseq_forall2 {A B} (f : A -> result B) l ys : rseq (map f l) = Ok ys -> Forall2 (fun a b => f a = Ok b) l ys.
Proof.
  revert ys. induction l as [|a l IH]; intros ys H; cbn in H; [assert (ys = []) by congruence; subst; constructor|].
  destruct (f a) as [b|] eqn:E; [|discriminate]. cbn in H. destruct (rseq (map f l)) as [t|]; [|discriminate]. cbn in H.
  assert (ys = b :: t) by congruence. subst ys. constructor; [exact E|apply IH; reflexivity].
Qed.
Lemma forall2_rseq {A B} (f : A -> result B) l ys : Forall2 (fun a b => f a = Ok b) l ys -> rseq (map f l) = Ok ys.
Proof. induction 1 as [|a b l ys E F IH]; cbn; [reflexivity|]. rewrite E. cbn. rewrite IH. reflexivity. Qed.
Lemma forall2_nth {A B} (R : A -> B -> Prop) l ys : Forall2 R l ys -> forall j,
  match nth_error l j, nth_error ys j with Some a, Some b => R a b | None, None => True | _, _ => False end.
Proof. induction 1 as [|a b l ys E F IH]; intros [|j]; cbn; auto. exact (IH j). Qed.
Lemma forall2_len {A B} (R : A -> B -> Prop) l ys : Forall2 R l ys -> List.length l = List.length ys.
Proof. induction 1; cbn; congruence. Qed.
Lemma nth_snoc {A} (l : list A) a n : nth_error (l ++ [a])%list n = if Nat.eqb n (List.length l) then Some a else nth_error l n.
Proof.
  destruct (Nat.eqb_spec n (List.length l)) as [->|N]; [rewrite nth_error_app2, Nat.sub_diag by lia; reflexivity|].
  destruct (Nat.lt_ge_cases n (List.length l)); [rewrite nth_error_app1 by lia; reflexivity|].
  rewrite (proj2 (nth_error_None l n)) by lia. apply nth_error_None. rewrite app_length. cbn. lia.
Qed.

Section Values.
  Variable (s : pst) (geo : nat -> list recipe) (feed : nat -> list Qc) (opaque : nat -> list (list Qc) -> list Qc) (tables : nat -> option ulut).
  Variable net : pnet.
  Hypothesis hon : honest net feed opaque.
  Hypothesis entries : forall n t ps l, nth_error net n = Some (NLut t, ps) -> tables n = Some l -> Forall (value net s n) (lut_table l).

  Definition attainable (env : list (list Qc)) : Prop := forall n x, nth_error env n = Some x -> Forall (value net s n) x.

  Lemma fetch_value ins ps a j v : Forall2 (fun p x => Forall (value net s p) x) ps ins -> fetch ins (Some (a, j)) = Ok v ->
    exists p, nth_error ps a = Some p /\ value net s p v.
  Proof.
    intros F H. cbn in H. pose proof (forall2_nth _ _ _ F a) as N. destruct (nth_error ins a) as [x|]; [|discriminate].
    destruct (nth_error ps a) as [p|]; [|contradiction]. destruct (nth_error x j) as [w|] eqn:E; [|discriminate]. exists p. split; [reflexivity|].
    assert (w = v) by congruence. subst w. apply nth_error_In in E. apply (proj1 (Forall_forall _ _) N v E).
  Qed.
  Lemma fetches_from a p ins ps l xs : Forall2 (fun p x => Forall (value net s p) x) ps ins -> nth_error ps a = Some p ->
    forallb (from a) l = true -> fetches ins l = Ok xs -> Forall (value net s p) xs.
  Proof.
    intros F Ep B H. apply rseq_forall2 in H. induction H as [|o v l xs E H IH]; [constructor|]. cbn in B. apply andb_true_iff in B as [B1 B2].
    constructor; [|apply IH; exact B2]. destruct o as [[b j]|]; [|discriminate]. cbn in B1. apply Nat.eqb_eq in B1. subst b.
    destruct (fetch_value _ _ _ _ _ F E) as (p' & Ep' & V). assert (p' = p) by congruence. subst p'. exact V.
  Qed.
  Lemma fetches_pad p ins l xs : Forall2 (fun p x => Forall (value net s p) x) [p] ins ->
    forallb (from_pad 0) l = true -> fetches ins l = Ok xs -> Forall (fun x => value net s p x \/ x = qz 0) xs.
  Proof.
    intros F B H. apply rseq_forall2 in H. induction H as [|o v l xs E H IH]; [constructor|]. cbn in B. apply andb_true_iff in B as [B1 B2].
    constructor; [|apply IH; exact B2]. destruct o as [[b j]|].
    - left. cbn in B1. apply Nat.eqb_eq in B1. subst b. destruct (fetch_value _ _ _ _ _ F E) as (p' & Ep' & V). cbn in Ep'. assert (p' = p) by congruence. subst p'. exact V.
    - right. cbn in E. congruence.
  Qed.
  Lemma fetches_each ins ps l xs k : Forall2 (fun p x => Forall (value net s p) x) ps ins -> List.length l = (List.length ps - k)%nat -> (k <= List.length ps)%nat ->
    forallb (fun q => from (fst q) (snd q)) (combine (seq k (List.length ps - k)) l) = true -> fetches ins l = Ok xs -> Forall2 (value net s) (skipn k ps) xs.
  Proof.
    intros F L K B H. apply rseq_forall2 in H. revert k L K B. induction H as [|o v l xs E H IH]; intros k L K B.
    - cbn in L. rewrite skipn_all2 by lia. constructor.
    - cbn in L. replace (List.length ps - k)%nat with (S (List.length ps - S k)) in B by lia. cbn [seq combine forallb fst snd] in B. apply andb_true_iff in B as [B1 B2].
      destruct o as [[b j]|]; [|discriminate]. cbn in B1. apply Nat.eqb_eq in B1. subst b.
      destruct (fetch_value _ _ _ _ _ F E) as (p & Ep & V).
      assert (SK : skipn k ps = p :: skipn (S k) ps).
      { clear -Ep. revert k Ep. induction ps as [|a ps IH]; intros [|k] E; cbn in *; try discriminate; [congruence|]. apply IH. exact E. }
      rewrite SK. constructor; [exact V|]. apply IH; [lia|lia|exact B2].
  Qed.
  Lemma demand_ok b r y : demand b r = Ok y -> b = true /\ r = Ok y.
  Proof. unfold demand. destruct b; [auto|discriminate]. Qed.

  Lemma element_value n kd ps ins r y : nth_error net n = Some (kd, ps) -> Forall2 (fun p x => Forall (value net s p) x) ps ins ->
    element s kd (List.length ins) ins r = Ok y -> value net s n y.
  Proof.
    intros En F H. pose proof (forall2_len _ _ _ F) as LE. unfold element in H. destruct (fetches ins (r_src r)) as [xs|] eqn:X; [|discriminate]. cbn [rbind] in H.
    destruct kd; try discriminate.
    - destruct xs as [|x [|? ?]]; try discriminate. destruct (nth_error s q) as [o|] eqn:Eo; [|discriminate].
      destruct (nth_error (data (cfgs o)) (r_ch r)) as [c|] eqn:Ec; [|discriminate]. apply demand_ok in H as [B H].
      apply andb_true_iff in B as [B1 B2]. apply Nat.eqb_eq in B1. rewrite <- LE in B1. destruct ps as [|p [|? ?]]; try discriminate.
      pose proof (fetches_from 0 p _ _ _ _ F eq_refl B2 X) as V. inversion V; subst.
      apply (v_fpq net s n q p o c x y En Eo (nth_error_In _ _ Ec)); assumption.
    - apply demand_ok in H as [B H]. apply andb_true_iff in B as [B B3]. apply andb_true_iff in B as [B1 B2]. apply Nat.eqb_eq in B1. rewrite <- LE in B1. destruct ps as [|p [|? ?]]; try discriminate.
      apply Z.eqb_eq in B3. pose proof (fetches_from 0 p _ _ _ _ F eq_refl B2 X) as V.
      assert (Y := f_equal (fun t => match t with Ok v => v | Raise => y end) H). cbn in Y. rewrite <- Y. apply (v_avg net s n p pool_size xs En V B3).
    - apply demand_ok in H as [B H]. apply andb_true_iff in B as [B1 B2]. apply Nat.eqb_eq in B1. rewrite <- LE in B1, B2.
      assert (Y := f_equal (fun t => match t with Ok v => v | Raise => y end) H). cbn in Y. rewrite <- Y. apply (v_add net s n ps xs En).
      apply (fetches_each ins ps (r_src r) xs 0 F); [lia|lia| |exact X]. rewrite Nat.sub_0_r. exact B2.
    - destruct xs as [|x [|x2 [|? ?]]]; try discriminate. apply demand_ok in H as [B H]. apply andb_true_iff in B as [B1 B2]. apply Nat.eqb_eq in B1. rewrite <- LE in B1.
      destruct ps as [|p [|p2 [|? ?]]]; try discriminate.
      assert (Y := f_equal (fun t => match t with Ok v => v | Raise => y end) H). cbn in Y. rewrite <- Y.
      assert (V : Forall2 (value net s) [p; p2] [x; x2]).
      { apply (fetches_each ins [p; p2] (r_src r) [x; x2] 0 F); [|lia|exact B2|exact X]. pose proof (forall2_len _ _ _ (rseq_forall2 _ _ _ X)). exact H0. }
      inversion V as [|? ? ? ? V1 V']; subst. inversion V' as [|? ? ? ? V2 V'']; subst. apply (v_sub net s n p p2 x x2 En V1 V2).
    - destruct (fetches ins (r_src2 r)) as [ys|] eqn:X2; [|discriminate]. cbn [rbind] in H. apply demand_ok in H as [B H].
      apply andb_true_iff in B as [B B4]. apply andb_true_iff in B as [B B3]. apply andb_true_iff in B as [B1 B2]. apply Nat.eqb_eq in B1, B4. rewrite <- LE in B1. destruct ps as [|p [|p2 [|? ?]]]; try discriminate.
      assert (Y := f_equal (fun t => match t with Ok v => v | Raise => y end) H). cbn in Y. rewrite <- Y.
      apply (v_dot net s n p p2 xs ys En); [apply (fetches_from 0 p _ _ _ _ F eq_refl B2 X)|apply (fetches_from 1 p2 _ _ _ _ F eq_refl B3 X2)|exact B4].
    - destruct xs as [|x [|? ?]]; try discriminate. apply demand_ok in H as [B H]. assert (x = y) by congruence. subst x.
      pose proof (rseq_forall2 _ _ _ X) as FX. inversion FX as [|o ? l ? E FX']; subst. inversion FX'; subst. rewrite <- H0 in B. cbn in B. destruct o as [[a j]|]; [|discriminate].
      destruct (fetch_value _ _ _ _ _ F E) as (p & Ep & V). apply (v_concat net s n ps p y En (nth_error_In _ _ Ep) V).
    - apply demand_ok in H as [B H]. apply andb_true_iff in B as [B B4]. apply andb_true_iff in B as [B B3]. apply andb_true_iff in B as [B1 B2]. apply Nat.eqb_eq in B1, B4. apply Z.ltb_lt in B3. rewrite <- LE in B1. destruct ps as [|p [|? ?]]; try discriminate.
      assert (V : Forall (fun x => value net s p x \/ x = qz 0) xs) by (apply (fetches_pad p ins (r_src r)); assumption).
      assert (HB : exists b, match bias with None => b = qz 0 | Some l => nth_error l (Z.to_nat (Z.of_nat (r_ch r))) = Some b end /\ y = (dotq (column kernel div (Z.of_nat (r_ch r))) xs + b)%Qc).
      { rewrite Nat2Z.id. destruct bias as [l|]; [destruct (nth_error l (r_ch r)) as [b|]; [|discriminate]; exists b|exists (qz 0)]; (split; [reflexivity|]);
        assert (Y := f_equal (fun t => match t with Ok v => v | Raise => y end) H); cbn in Y; congruence. }
      destruct HB as (b & HB & ->). apply (v_kernel net s n p kernel div bias (Z.of_nat (r_ch r)) b xs En); [lia|exact V|exact B4|exact HB].
    - destruct xs as [|x [|? ?]]; try discriminate. apply demand_ok in H as [B H]. assert (x = y) by congruence. subst x.
      apply andb_true_iff in B as [B1 B2]. apply Nat.eqb_eq in B1. rewrite <- LE in B1. destruct ps as [|p [|? ?]]; try discriminate.
      pose proof (fetches_from 0 p _ _ _ _ F eq_refl B2 X) as V. inversion V; subst. apply (v_reshape net s n p y En); assumption.
    - destruct xs as [|x [|? ?]]; try discriminate. apply demand_ok in H as [B H]. assert (x = y) by congruence. subst x.
      apply andb_true_iff in B as [B1 B2]. apply Nat.eqb_eq in B1. rewrite <- LE in B1. destruct ps as [|p [|? ?]]; try discriminate.
      pose proof (fetches_from 0 p _ _ _ _ F eq_refl B2 X) as V. inversion V; subst. apply (v_select net s n p y En); assumption.
  Qed.

  Lemma inputs_value env ps ins : attainable env -> inputs_of env ps = Ok ins -> Forall2 (fun p x => Forall (value net s p) x) ps ins.
  Proof.
    intros A H. apply rseq_forall2 in H. induction H as [|p x ps ins E H IH]; constructor; [|exact IH].
    destruct (nth_error env p) as [x'|] eqn:En; [|discriminate]. assert (x' = x) by congruence. subst x'. apply (A p x En).
  Qed.
  Lemma layer_value_t n kd ps ins y : nth_error net n = Some (kd, ps) -> Forall2 (fun p x => Forall (value net s p) x) ps ins ->
    layer_out s geo feed opaque tables n kd ins = Ok y -> Forall (value net s n) y.
  Proof.
    intros En F H. destruct hon as (H1 & H2 & H3).
    assert (G : rseq (map (element s kd (List.length ins) ins) (geo n)) = Ok y -> Forall (value net s n) y).
    { intros X. clear H. apply rseq_forall2 in X. induction X as [|r v l ys E X IH]; [constructor|]. constructor; [|exact IH]. apply (element_value n kd ps ins r v En F E). }
    assert (SM : forall f, kd = NAct ASoftmax f \/ kd = NActL true f -> Ok (opaque n ins) = Ok y -> Forall (value net s n) y).
    { intros f K E. assert (y = opaque n ins) by congruence. subst y. pose proof (H3 n kd ps f ins En K) as B. pose proof (H2 n ins) as FV.
      apply Forall_forall. intros v I. destruct (proj1 (Forall_forall _ _) B v I). apply (v_softmax net s n ps kd f v En K); [assumption|assumption|apply (proj1 (Forall_forall _ _) FV v I)]. }
    assert (AC : forall func (C : forall p x, ps = [p] -> value net s p x -> value net s n (func x)), match ins with [x] => Ok (map func x) | _ => Raise end = Ok y -> Forall (value net s n) y).
    { intros func C E. destruct ins as [|x [|? ?]]; try discriminate. inversion F as [|p ? ps' ? V F' P]; subst. inversion F'; subst. assert (y = map func x) by congruence. subst y.
      apply Forall_map. apply Forall_forall. intros v I. apply (C p v eq_refl). apply (proj1 (Forall_forall _ _) V v I). }
    destruct kd; try (exact (G H)).
    - cbn in H. assert (y = feed n) by congruence. subst y. apply Forall_forall. intros v I. apply (v_input net s n ps v En). apply (proj1 (Forall_forall _ _) (H1 n) v I).
    - destruct a; try (apply (SM func (or_introl eq_refl) H));
        apply (AC func); try exact H; intros p x -> V; eapply v_act; try exact En; try exact V; discriminate.
    - destruct softmax; [apply (SM func (or_intror eq_refl) H)|]. apply (AC func); [|exact H]. intros p x -> V. eapply v_actl; [exact En|exact V].
    - cbn [layer_out] in H. destruct ins as [|x [|? ?]]; try discriminate. destruct (tables n) as [l|] eqn:T; [|discriminate].
      pose proof (entries n kif_out ps l En T) as FE. apply rseq_forall2 in H. clear F G SM AC. induction H as [|a b x y E H IH]; [constructor|]. constructor; [|exact IH].
      unfold lut_call in E. destruct (Z.eqb _ 0); [discriminate|]. destruct (nth_error (lut_table l) _) as [w|] eqn:EW; [|discriminate]. assert (w = b) by congruence. subst w.
      apply (proj1 (Forall_forall _ _) FE b (nth_error_In _ _ EW)).
    - cbn in H. assert (y = opaque n ins) by congruence. subst y. apply Forall_forall. intros v I. apply (v_unknown net s n ps v En). apply (proj1 (Forall_forall _ _) (H2 n ins) v I).
  Qed.
  Lemma run_value_t : forall rest pre env out, net = (pre ++ rest)%list -> List.length env = List.length pre -> attainable env ->
    run s geo feed opaque tables rest env = Ok out -> attainable out.
  Proof.
    induction rest as [|[kd ps] rest IH]; intros pre env out EN L A H; cbn in H; [assert (out = env) by congruence; subst out; exact A|].
    destruct (inputs_of env ps) as [ins|] eqn:EI; [|discriminate]. cbn [rbind] in H.
    destruct (layer_out s geo feed opaque tables (List.length env) kd ins) as [y|] eqn:EL; [|discriminate]. cbn [rbind] in H.
    assert (En : nth_error net (List.length env) = Some (kd, ps)) by (rewrite EN, L, nth_error_app2, Nat.sub_diag by lia; reflexivity).
    apply (IH (pre ++ [(kd, ps)])%list (env ++ [y])%list out); [rewrite <- app_assoc; exact EN|rewrite !app_length; cbn; lia| |exact H].
    intros n x E. rewrite nth_snoc in E. destruct (Nat.eqb_spec n (List.length env)) as [->|]; [|apply (A n x E)].
    assert (x = y) by congruence. subst x. apply (layer_value_t _ _ _ _ _ En (inputs_value _ _ _ A EI) EL).
  Qed.
End Values.
Definition layer_value s geo feed opaque tables net (hon : honest net feed opaque) (nolut : forall n t ps, nth_error net n <> Some (NLut t, ps)) :=
  layer_value_t s geo feed opaque tables net hon (fun n t ps l E _ => match nolut n t ps E with end).
Definition run_value s geo feed opaque tables net (hon : honest net feed opaque) (nolut : forall n t ps, nth_error net n <> Some (NLut t, ps)) :=
  run_value_t s geo feed opaque tables net hon (fun n t ps l E _ => match nolut n t ps E with end).

(** ** Tables *)

Lemma with_tables_nth net tables n kd ps : nth_error net n = Some (kd, ps) ->
  nth_error (with_tables net tables) n = Some (match tables n with Some l => (NLut (lut_out l), ps) | None => (kd, ps) end).
Proof.
  intros E. unfold with_tables. rewrite nth_error_map.
  assert (G : forall (l : pnet) k m, nth_error l m = Some (kd, ps) -> nth_error (combine (seq k (List.length l)) l) m = Some ((k + m)%nat, (kd, ps))).
  { induction l as [|a l IH]; intros k [|m] H; cbn in *; try discriminate; [rewrite Nat.add_0_r; congruence|]. rewrite (IH (S k) m H). do 2 f_equal. lia. }
  rewrite (G net 0%nat n E). cbn. destruct (tables n); reflexivity.
Qed.
Lemma with_tables_len net tables : List.length (with_tables net tables) = List.length net.
Proof. unfold with_tables. rewrite map_length, combine_length, seq_length. lia. Qed.

Section Tables.
  Variable (s : pst) (geo : nat -> list recipe) (feed : nat -> list Qc) (opaque : nat -> list (list Qc) -> list Qc) (tables : nat -> option ulut).
  Variable net : pnet.
  Hypothesis hon : honest net feed opaque.
  Hypothesis nolut : forall n t ps, nth_error net n <> Some (NLut t, ps).
  Hypothesis good : forall n l, tables n = Some l -> table_ok net s n l.

  (** The outputs with tables [env'] against those without [env]. *)
  Definition matches (env env' : list (list Qc)) : Prop :=
    List.length env' = List.length env /\
    forall n x, nth_error env n = Some x -> exists x', nth_error env' n = Some x' /\
      match tables n with
      | None => x' = x
      | Some l => exists a func p v, nth_error net n = Some (NAct a func, [p]) /\ nth_error env p = Some v /\ x = map func v /\ Forall2 (fun a b => lut_call l a = Ok b) v x'
      end.

  Definition same_at (env env' : list (list Qc)) (p : nat) : Prop := forall x, nth_error env p = Some x -> nth_error env' p = Some x.
  Lemma matches_plain env env' ps ins : (forall p, In p ps -> same_at env env' p) -> inputs_of env ps = Ok ins -> inputs_of env' ps = Ok ins.
  Proof.
    intros N H. apply forall2_rseq. apply rseq_forall2 in H. induction H as [|p x ps ins E H IH]; [constructor|].
    constructor; [|apply IH; intros q I; apply N; right; exact I]. destruct (nth_error env p) as [y|] eqn:Ep; [|discriminate].
    rewrite (N p (or_introl eq_refl) y Ep). exact E.
  Qed.
  (** Layer n has a table and quantizers read it. *)
  Definition by_quantizers (n : nat) : Prop :=
    exists l a func p, tables n = Some l /\ nth_error net n = Some (NAct a func, [p]) /\
      forall m kd ps, nth_error net m = Some (kd, ps) -> In n ps -> ps = [n] /\ exists q, kd = NFpq q /\
        forall o c x, nth_error s q = Some o -> In c (data (cfgs o)) -> value net s p x -> rbind (lut_call l x) (quant o c) = quant o c (func x).
  Lemma same_or_read env env' p : matches env env' -> attainable s net env -> same_at env env' p \/ by_quantizers p.
  Proof.
    intros [_ M] A. destruct (tables p) as [l|] eqn:T.
    - destruct (good p l T) as (a & func & p0 & Ep & _ & _ & [EX|Q]).
      + left. intros x Ex. destruct (M p x Ex) as (x' & Ex' & K). rewrite T in K. destruct K as (a1 & func1 & p1 & v & Ep1 & Ev & -> & FL).
        assert (func1 = func /\ p1 = p0) as [-> ->] by (split; congruence). rewrite Ex'. f_equal. pose proof (A p0 v Ev) as FV.
        clear -FL FV EX. induction FL as [|w y v x' E FL IH]; [reflexivity|]. inversion FV; subst. cbn. rewrite IH by assumption. f_equal. rewrite (EX w) in E by assumption. congruence.
      + right. exists l, a, func, p0. split; [exact T|]. split; [exact Ep|exact Q].
    - left. intros x Ex. destruct (M p x Ex) as (x' & Ex' & K). rewrite T in K. subst x'. exact Ex'.
  Qed.
  Lemma table_free env env' ps : matches env env' -> attainable s net env -> (exists p, In p ps /\ by_quantizers p) \/ (forall p, In p ps -> same_at env env' p).
  Proof.
    intros M A. induction ps as [|p ps [[q [I Q]]|N]]; [right; intros p []|left; exists q; split; [right; exact I|exact Q]|].
    destruct (same_or_read env env' p M A) as [S|Q]; [right; intros q [->|I]; auto|left; exists p; split; [left; reflexivity|exact Q]].
  Qed.

  Lemma quantizer_element q v x x' l r y m : Forall2 (fun a b => lut_call l a = Ok b) v x' ->
    (forall func p, x = map func v -> Forall (value net s p) v ->
      (forall o c w, nth_error s q = Some o -> In c (data (cfgs o)) -> value net s p w -> rbind (lut_call l w) (quant o c) = quant o c (func w)) ->
      element s (NFpq q) m [x] r = Ok y -> element s (NFpq q) m [x'] r = Ok y).
  Proof.
    intros FL func p -> FV TR H. unfold element in *. destruct (fetches [map func v] (r_src r)) as [xs|] eqn:X; [|discriminate]. cbn [rbind] in H.
    destruct xs as [|w [|? ?]]; try discriminate. destruct (nth_error s q) as [o|] eqn:Eo; [|discriminate].
    destruct (nth_error (data (cfgs o)) (r_ch r)) as [c|] eqn:Ec; [|discriminate]. apply demand_ok in H as [B H].
    pose proof (rseq_forall2 _ _ _ X) as FX. inversion FX as [|so ? l0 ? E FX' E1]; subst. inversion FX'; subst.
    apply andb_true_iff in B as [B1 B2]. rewrite <- E1 in B2. cbn in B2. destruct so as [[b j]|]; [|discriminate]. rewrite andb_true_r in B2. apply Nat.eqb_eq in B2. subst b.
    cbn in E. rewrite nth_error_map in E. pose proof (forall2_nth _ _ _ FL j) as NJ. destruct (nth_error v j) as [vj|] eqn:Ev; cbn in E; [|discriminate].
    destruct (nth_error x' j) as [x'j|] eqn:Ex; [|contradiction].
    unfold fetches. cbn [map rseq fetch nth_error]. rewrite Ex. cbn [rbind rseq].
    unfold demand. rewrite B1. cbn [forallb from Nat.eqb andb]. 
    assert (V : value net s p vj) by (apply (proj1 (Forall_forall _ _) FV); apply (nth_error_In _ _ Ev)).
    pose proof (TR o c vj eq_refl (nth_error_In _ _ Ec) V) as Q. rewrite NJ in Q. cbn [rbind] in Q. unfold quant in Q. rewrite Q. rewrite <- H. congruence.
  Qed.

  Lemma run_tables_gen : forall rest pre env env' out, net = (pre ++ rest)%list -> List.length env = List.length pre -> matches env env' ->
    attainable s net env -> run s geo feed opaque (fun _ => None) rest env = Ok out ->
    exists out', run s geo feed opaque tables (skipn (List.length pre) (with_tables net tables)) env' = Ok out' /\ matches out out'.
  Proof.
    induction rest as [|[kd ps] rest IH]; intros pre env env' out EN L M A H; cbn in H.
    - rewrite app_nil_r in EN. subst pre. rewrite skipn_all2 by (rewrite with_tables_len; lia). exists env'. split; [reflexivity|].
      assert (out = env) by congruence. subst out. exact M.
    - destruct (inputs_of env ps) as [ins|] eqn:EI; [|discriminate]. cbn [rbind] in H.
      destruct (layer_out s geo feed opaque (fun _ => None) (List.length env) kd ins) as [y|] eqn:EL; [|discriminate]. cbn [rbind] in H.
      assert (En : nth_error net (List.length pre) = Some (kd, ps)) by (rewrite EN, nth_error_app2, Nat.sub_diag by lia; reflexivity).
      pose proof (with_tables_nth net tables _ _ _ En) as En'. pose proof (proj1 M) as L'.
      assert (SK : forall (l : pnet) k a, nth_error l k = Some a -> skipn k l = a :: skipn (S k) l).
      { clear. induction l as [|b l IH]; intros [|k] a E; cbn in *; try discriminate; [congruence|]. apply IH. exact E. }
      rewrite (SK _ _ _ En'). clear SK.
      assert (A2 : attainable s net (env ++ [y])%list).
      { intros n x E. rewrite nth_snoc in E. destruct (Nat.eqb_spec n (List.length env)) as [->|]; [|apply (A n x E)]. assert (x = y) by congruence. subst x. rewrite <- L in En.
        apply (layer_value s geo feed opaque (fun _ => None) net hon nolut _ _ _ _ _ En (inputs_value _ _ _ _ _ A EI) EL). }
      (* it is enough to say what the layer outputs *)
      assert (Enough : forall y', (exists kd', nth_error (with_tables net tables) (List.length pre) = Some (kd', ps) /\
          exists ins', inputs_of env' ps = Ok ins' /\ layer_out s geo feed opaque tables (List.length env') kd' ins' = Ok y') ->
        match tables (List.length pre) with
        | None => y' = y
        | Some l => exists a func p v, nth_error net (List.length pre) = Some (NAct a func, [p]) /\ nth_error env p = Some v /\ y = map func v /\ Forall2 (fun a b => lut_call l a = Ok b) v y'
        end ->
        exists out', run s geo feed opaque tables (match tables (List.length pre) with Some l => (NLut (lut_out l), ps) | None => (kd, ps) end :: skipn (S (List.length pre)) (with_tables net tables)) env' = Ok out' /\ matches out out').
      { intros y' (kd' & K & ins' & I' & O') Y'. rewrite En' in K.
        destruct (IH (pre ++ [(kd, ps)])%list (env ++ [y])%list (env' ++ [y'])%list out) as (out' & R & MO); [rewrite <- app_assoc; exact EN|rewrite !app_length; cbn; lia| |exact A2|exact H|].
        - split; [rewrite !app_length; cbn; lia|]. intros n x E. rewrite nth_snoc in E. rewrite nth_snoc, L'. destruct (Nat.eqb_spec n (List.length env)) as [->|N].
          + assert (x = y) by congruence. subst x. exists y'. split; [reflexivity|]. rewrite L. destruct (tables (List.length pre)); [|exact Y'].
            destruct Y' as (a & func & p & v & Y1 & Y2 & Y3). exists a, func, p, v. split; [exact Y1|]. split; [|exact Y3].
            rewrite nth_error_app1; [exact Y2|]. apply (proj1 (nth_error_Some env p)). rewrite Y2. discriminate.
          + destruct (proj2 M n x E) as (x' & X1 & X2). exists x'. split; [exact X1|]. destruct (tables n); [|exact X2].
            destruct X2 as (a & func & p & v & Y1 & Y2 & Y3). exists a, func, p, v. split; [exact Y1|]. split; [|exact Y3].
            rewrite nth_error_app1; [exact Y2|]. apply (proj1 (nth_error_Some env p)). rewrite Y2. discriminate.
        - exists out'. split; [|exact MO]. rewrite app_length in R. cbn [List.length] in R. rewrite Nat.add_1_r in R.
          assert (KK : match tables (List.length pre) with Some l => (NLut (lut_out l), ps) | None => (kd, ps) end = (kd', ps)) by congruence.
          rewrite KK. cbn [run]. rewrite I'. cbn [rbind]. rewrite O'. cbn [rbind]. exact R. }
      destruct (table_free env env' ps M A) as [[p [Ip (l & a & func & p0 & T & Ep & R)]]|N].
      + (* a quantizer reading a table *)
        destruct (R _ _ _ En Ip) as (-> & q & -> & TR).
        assert (T0 : tables (List.length pre) = None).
        { destruct (tables (List.length pre)) as [l'|] eqn:T'; [|reflexivity]. destruct (good _ l' T') as (a' & func' & p' & E & _). congruence. }
        unfold inputs_of in EI. cbn [map rseq] in EI. destruct (nth_error env p) as [x|] eqn:Ex; [|discriminate]. cbn [rbind] in EI. assert (ins = [x]) by congruence. subst ins.
        destruct (proj2 M p x Ex) as (x' & Ex' & MX). rewrite T in MX. destruct MX as (a1 & func1 & p1 & v & Ep1 & Ev & -> & FL).
        assert (a1 = a /\ func1 = func /\ p1 = p0) as (-> & -> & ->) by (repeat split; congruence).
        apply (Enough y).
        * exists (NFpq q). split; [rewrite En', T0; reflexivity|]. exists [x']. split; [unfold inputs_of; cbn; rewrite Ex'; reflexivity|].
          cbn [layer_out] in EL |- *. apply forall2_rseq. rewrite L'. apply rseq_forall2 in EL. cbn [List.length] in EL |- *. clear Enough A2 H.
          induction EL as [|r w rs ws E EL IHE]; constructor; [|apply IHE].
          refine (quantizer_element q v (map func v) x' l r w 1 FL func p0 eq_refl (A p0 v Ev) _ E).
          intros o c z Eo Ec V. apply (TR o c z Eo Ec V).
        * rewrite T0. reflexivity.
      + pose proof (matches_plain env env' ps ins N EI) as EI'. destruct (tables (List.length pre)) as [l|] eqn:T.
        * (* the layer gets a table *)
          destruct (good _ l T) as (a & func & p & Ep & NS & TO & _). assert (kd = NAct a func /\ ps = [p]) as [-> ->] by (split; congruence).
          unfold inputs_of in EI. cbn [map rseq] in EI. destruct (nth_error env p) as [v|] eqn:Ev; [|discriminate]. cbn [rbind] in EI. assert (ins = [v]) by congruence. subst ins.
          assert (FV : exists y', Forall2 (fun a b => lut_call l a = Ok b) v y').
          { pose proof (A p v Ev) as FV. clear -FV TO. induction FV as [|w v V FV [ys IH]]; [exists []; constructor|]. destruct (TO w V) as [z Z]. exists (z :: ys). constructor; assumption. }
          destruct FV as [y' FV]. apply (Enough y').
          -- exists (NLut (lut_out l)). split; [exact En'|]. exists [v]. split; [exact EI'|]. cbn [layer_out]. rewrite L', L, T. apply forall2_rseq. exact FV.
          -- exists a, func, p, v. split; [exact Ep|]. split; [exact Ev|]. split; [|exact FV].
             assert (Ok (map func v) = Ok y) by (destruct a; try contradiction; exact EL). congruence.
        * apply (Enough y); [|reflexivity]. exists kd. split; [exact En'|]. exists ins. split; [exact EI'|]. rewrite L'.
          destruct kd; try exact EL. destruct (nolut _ _ _ En).
  Qed.

  Theorem run_tables out : run s geo feed opaque (fun _ => None) net [] = Ok out ->
    exists out', run s geo feed opaque tables (with_tables net tables) [] = Ok out' /\ List.length out' = List.length out /\
      forall n, tables n = None -> nth_error out' n = nth_error out n.
  Proof.
    intros H. destruct (run_tables_gen net [] [] [] out eq_refl eq_refl) as (out' & R & M1 & M2); [|intros [|n] x E; discriminate|exact H|].
    - split; [reflexivity|]. intros [|n] x E; discriminate.
    - exists out'. split; [exact R|]. split; [exact M1|]. intros n T. destruct (nth_error out n) as [x|] eqn:E.
      + destruct (M2 n x E) as (x' & X & Y). rewrite T in Y. congruence.
      + apply nth_error_None in E. apply nth_error_None. lia.
  Qed.
End Tables.

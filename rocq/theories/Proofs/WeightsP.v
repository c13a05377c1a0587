(** Facts about weight lookup and copying. *)
From Coq Require Import ZArith Qcanon List Bool String Ascii Lia.
From Verif Require Import Base.Num Base.Tensor Model.Quantizer Model.Weights Spec.Weights.
Import ListNotations.
Local Open Scope string_scope.

Lemma prefix_iff sub : forall s, prefix sub s = true <-> exists b, s = sub ++ b.
Proof.
  induction sub as [|c sub IH]; intros s.
  - split; [intros _; exists s; reflexivity|]. intros _. destruct s; reflexivity.
  - destruct s as [|d s]; cbn.
    + split; [discriminate|]. intros [b E]. discriminate.
    + destruct (ascii_dec c d) as [->|N].
      * rewrite IH. split; intros [b E]; exists b; [rewrite E; reflexivity|injection E as E; exact E].
      * split; [discriminate|]. intros [b E]. injection E as E1 _. congruence.
Qed.
Lemma contains_iff sub s : contains sub s = true <-> substring sub s.
Proof.
  induction s as [|c s IH]; cbn [contains]; rewrite orb_true_iff, prefix_iff.
  - split.
    + intros [[b E]|E]; [exists "", b; exact E|discriminate].
    + intros [a [b E]]. left. destruct a; [exists b; exact E|discriminate].
  - rewrite IH. split.
    + intros [[b E]|[a [b E]]]; [exists "", b; exact E|exists (String c a), b; rewrite E; reflexivity].
    + intros [a [b E]]. destruct a as [|d a]; [left; exists b; exact E|right]. injection E as _ E. exists a, b. exact E.
Qed.
Lemma contains_false sub s : contains sub s = false <-> ~ substring sub s.
Proof. rewrite <- contains_iff. destruct (contains sub s); split; congruence. Qed.

Lemma append_assoc a : forall b c : string, a ++ (b ++ c) = (a ++ b) ++ c.
Proof. induction a as [|x a IH]; intros b c; cbn; [reflexivity|]. rewrite IH. reflexivity. Qed.

Lemma has_char_cons c d s : has_char c (String d s) <-> c = d \/ has_char c s.
Proof.
  unfold has_char. split.
  - intros [a [b E]]. destruct a as [|x a]; cbn in E; injection E as E1 E2; [left; congruence|right]. exists a, b. exact E2.
  - intros [->|[a [b E]]]; [exists "", s; reflexivity|]. exists (String d a), b. rewrite E. reflexivity.
Qed.
Lemma has_char_nil c : ~ has_char c "".
Proof. intros [a [b E]]. destruct a; discriminate. Qed.

Lemma after_slash_none s : after_slash s = None <-> ~ has_char "/" s.
Proof.
  induction s as [|c s IH]; cbn.
  - split; [intros _; apply has_char_nil|reflexivity].
  - rewrite has_char_cons. destruct (after_slash s) as [r|].
    + split; [discriminate|]. intros H. exfalso. destruct IH as [_ IH]. assert (X : Some r = None) by (apply IH; tauto). discriminate.
    + destruct (Ascii.eqb_spec c "/") as [->|N]; [split; [discriminate|tauto]|]. split; [|reflexivity].
      intros _ [E|H]; [congruence|]. apply IH in H; [exact H|reflexivity].
Qed.
Lemma after_slash_some s : forall r, after_slash s = Some r -> ~ has_char "/" r /\ exists p, s = p ++ "/" ++ r.
Proof.
  induction s as [|c s IH]; cbn; intros r E; [discriminate|].
  destruct (after_slash s) as [r'|] eqn:ES.
  - assert (r' = r) by congruence. subst r'. destruct (IH r eq_refl) as [H [p ->]]. split; [exact H|]. exists (String c p). reflexivity.
  - destruct (Ascii.eqb_spec c "/") as [->|N]; [|discriminate]. assert (s = r) by congruence. subst s. split; [apply after_slash_none; exact ES|]. exists "". reflexivity.
Qed.
Lemma after_slash_app p r : ~ has_char "/" r -> after_slash (p ++ "/" ++ r) = Some r.
Proof.
  intros H. induction p as [|c p IH]; cbn.
  - apply after_slash_none in H. rewrite H. reflexivity.
  - cbn in IH. rewrite IH. reflexivity.
Qed.

Lemma search_name_spec name r : lookup_name name r <-> search_name name = r.
Proof.
  assert (B : forall base, basename name base <-> match after_slash name with Some b => b | None => name end = base).
  { intros base. unfold basename. split.
    - intros [H [->|[p ->]]]; [apply after_slash_none in H; rewrite H; reflexivity|]. rewrite (after_slash_app p base H). reflexivity.
    - intros E. destruct (after_slash name) as [b|] eqn:ES.
      + subst b. destruct (after_slash_some _ _ ES) as [H P]. split; [exact H|right; exact P].
      + subst base. split; [apply after_slash_none; exact ES|left; reflexivity]. }
  unfold lookup_name, search_name. split.
  - intros [base [Hb H]]. apply B in Hb. cbv zeta. rewrite Hb. destruct (contains ":" base) eqn:EC.
    + apply contains_iff in EC. destruct H as [[_ ->]|[H _]]; [reflexivity|contradiction].
    + apply contains_false in EC. destruct H as [[H _]|[_ ->]]; [contradiction|reflexivity].
  - intros <-. cbv zeta. eexists. split; [apply B; reflexivity|]. destruct (contains ":" _) eqn:EC.
    + left. split; [apply contains_iff; exact EC|reflexivity].
    + right. split; [apply contains_false; exact EC|reflexivity].
Qed.

Lemma find_first {A} (f : A -> bool) l w : find f l = Some w <->
  exists l1 l2, l = (l1 ++ w :: l2)%list /\ f w = true /\ forall x, In x l1 -> f x = false.
Proof.
  induction l as [|a l IH]; cbn.
  - split; [discriminate|]. intros [l1 [l2 [E _]]]. destruct l1; discriminate.
  - destruct (f a) eqn:EA.
    + split.
      * intros E. injection E as ->. exists [], l. split; [reflexivity|]. split; [exact EA|]. intros x [].
      * intros [l1 [l2 [E [Hw H]]]]. destruct l1 as [|b l1]; [injection E as -> _; reflexivity|]. injection E as -> _.
        rewrite (H b) in EA by (left; reflexivity). discriminate.
    + rewrite IH. split.
      * intros [l1 [l2 [-> [Hw H]]]]. exists (a :: l1), l2. split; [reflexivity|]. split; [exact Hw|]. intros x [<-|Hx]; auto.
      * intros [l1 [l2 [E [Hw H]]]]. destruct l1 as [|b l1]; [injection E as -> _; congruence|]. injection E as -> ->.
        exists l1, l2. split; [reflexivity|]. split; [exact Hw|]. intros x Hx. apply H. right. exact Hx.
Qed.

Lemma get_weight_some {A} (ws : list (string * A)) name r v : lookup_name name r ->
  (get_weight ws name = Some v <-> first_match ws r v).
Proof.
  intros HN. apply search_name_spec in HN. unfold get_weight, first_match. rewrite HN.
  destruct (find (fun w => contains r (fst w)) ws) as [w|] eqn:E.
  - apply find_first in E. destruct E as [l1 [l2 [E [Hw H]]]]. split.
    + intros EV. injection EV as <-. exists l1, (fst w), l2. split; [rewrite E; destruct w; reflexivity|].
      split; [apply contains_iff; exact Hw|]. intros x Hx. apply contains_false. apply H, Hx.
    + intros [m1 [n [m2 [E' [Hn H']]]]].
      assert (F : find (fun w => contains r (fst w)) ws = Some (n, v)).
      { apply find_first. exists m1, m2. split; [exact E'|]. split; [apply contains_iff; exact Hn|]. intros x Hx. apply contains_false, H', Hx. }
      assert (F' : find (fun w => contains r (fst w)) ws = Some w) by (apply find_first; eauto). rewrite F in F'. injection F' as <-. reflexivity.
  - split; [discriminate|]. intros [m1 [n [m2 [E' [Hn H']]]]]. exfalso.
    apply contains_iff in Hn. assert (F := find_none _ _ E (n, v)). cbn [fst] in F. rewrite F in Hn; [discriminate|].
    rewrite E'. apply in_or_app. right. left. reflexivity.
Qed.
Lemma get_weight_none {A} (ws : list (string * A)) name r : lookup_name name r ->
  (get_weight ws name = None <-> no_match ws r).
Proof.
  intros HN. apply search_name_spec in HN. unfold get_weight, no_match. rewrite HN.
  destruct (find (fun w => contains r (fst w)) ws) as [w|] eqn:E.
  - split; [discriminate|]. intros H. apply find_some in E. destruct E as [E1 E2]. apply contains_iff in E2. exfalso. exact (H w E1 E2).
  - split; [|reflexivity]. intros _ w Hw. apply contains_false. exact (find_none _ _ E w Hw).
Qed.

(** ** assign *)
Lemma assign_ok ws j v ws' : assign ws j v = Ok ws' ->
  exists n old, nth_error ws j = Some (n, old) /\ shape old = shape v /\
    List.length ws' = List.length ws /\ forall i, nth_error ws' i = if Nat.eqb i j then Some (n, v) else nth_error ws i.
Proof.
  unfold assign. destruct (nth_error ws j) as [[n old]|] eqn:E; [|discriminate].
  destruct (list_eq_dec Nat.eq_dec (shape old) (shape v)) as [Es|]; [|discriminate]. intros H.
  assert (H' : ws' = (firstn j ws ++ (n, v) :: skipn (S j) ws)%list) by congruence. subst ws'.
  assert (Hj : (j < List.length ws)%nat) by (apply nth_error_Some; congruence).
  exists n, old. split; [reflexivity|]. split; [exact Es|]. split.
  - rewrite app_length. change (List.length ((n, v) :: skipn (S j) ws)) with (S (List.length (skipn (S j) ws))).
    rewrite firstn_length, skipn_length. lia.
  - intros i. destruct (Nat.eqb_spec i j) as [->|N].
    + rewrite nth_error_app2 by (rewrite firstn_length; lia). rewrite firstn_length, Nat.min_l, Nat.sub_diag by lia. reflexivity.
    + destruct (Nat.lt_ge_cases i j) as [L|L].
      * rewrite nth_error_app1 by (rewrite firstn_length; lia).
        rewrite <- (firstn_skipn j ws) at 2. rewrite nth_error_app1 by (rewrite firstn_length; lia). reflexivity.
      * rewrite nth_error_app2 by (rewrite firstn_length; lia). rewrite firstn_length, Nat.min_l by lia.
        destruct (i - j)%nat as [|d] eqn:ED; [lia|]. cbn [nth_error].
        rewrite <- (firstn_skipn (S j) ws) at 2. rewrite nth_error_app2 by (rewrite firstn_length; lia).
        rewrite firstn_length, Nat.min_l by lia. f_equal. lia.
Qed.
Lemma assign_total ws j v n old : nth_error ws j = Some (n, old) -> shape old = shape v -> exists ws', assign ws j v = Ok ws'.
Proof. intros E Es. unfold assign. rewrite E. destruct (list_eq_dec Nat.eq_dec (shape old) (shape v)); [eauto|contradiction]. Qed.

(** The loop over the remaining weights. *)
Definition cstep (sw : list (string * tensor Qc)) (acc : result (list (string * tensor Qc) * list string)) (j : nat) :=
  rbind acc (fun st =>
    let '(ws, missing) := st in
    match nth_error ws j with
    | None => Raise
    | Some (n, _) =>
        if skipped n then Ok (ws, missing)
        else match get_weight sw n with
             | Some v => rbind (assign ws j v) (fun ws => Ok (ws, missing))
             | None => Ok (ws, (missing ++ [n])%list)
             end
    end).
Lemma cloop_raise sw js : fold_left (cstep sw) js Raise = Raise.
Proof. induction js; [reflexivity|]. exact IHjs. Qed.

Definition pull (sw : list (string * tensor Qc)) (w : string * tensor Qc) : string * tensor Qc :=
  if skipped (fst w) then w else match get_weight sw (fst w) with Some v => (fst w, v) | None => w end.
Definition lost (sw : list (string * tensor Qc)) (w : string * tensor Qc) : bool :=
  (negb (skipped (fst w)) && match get_weight sw (fst w) with Some _ => false | None => true end)%bool.

Lemma cloop sw : forall rest pre ws miss ws' miss',
  (forall i w, nth_error rest i = Some w -> nth_error ws (pre + i) = Some w) ->
  fold_left (cstep sw) (seq pre (List.length rest)) (Ok (ws, miss)) = Ok (ws', miss') ->
  List.length ws' = List.length ws /\
  (forall i, nth_error ws' i = match nth_error ws i with
     | Some w => if (Nat.leb pre i && Nat.ltb i (pre + List.length rest))%bool then Some (pull sw w) else Some w
     | None => None end) /\
  miss' = (miss ++ map fst (filter (lost sw) rest))%list /\
  (forall i n old v, nth_error rest i = Some (n, old) -> skipped n = false -> get_weight sw n = Some v -> shape old = shape v).
Proof.
  induction rest as [|w0 rest IH]; intros pre ws miss ws' miss' HR H.
  - cbn in H. injection H as <- <-. split; [reflexivity|]. split.
    + intros i. destruct (nth_error ws i); [|reflexivity]. cbn [List.length].
      replace (Nat.leb pre i && Nat.ltb i (pre + 0))%bool with false; [reflexivity|].
      symmetry. apply andb_false_iff. destruct (Nat.leb_spec pre i); [right; apply Nat.ltb_ge; lia|left; reflexivity].
    + split; [rewrite app_nil_r; reflexivity|]. intros i n old v E. destruct i; discriminate.
  - cbn [List.length seq fold_left] in H.
    assert (E0 : nth_error ws pre = Some w0) by (specialize (HR 0%nat w0 eq_refl); rewrite Nat.add_0_r in HR; exact HR).
    unfold cstep at 2 in H. cbn [rbind] in H. rewrite E0 in H. destruct w0 as [n0 v0].
    assert (HR' : forall ws1, (forall i, i <> pre -> nth_error ws1 i = nth_error ws i) ->
              forall i w, nth_error rest i = Some w -> nth_error ws1 (S pre + i) = Some w).
    { intros ws1 H1 i w E. rewrite H1 by lia. specialize (HR (S i) w E). rewrite <- HR. f_equal. lia. }
    assert (Fin : forall ws1 miss1, (forall i, nth_error ws1 i = if Nat.eqb i pre then Some (pull sw (n0, v0)) else nth_error ws i) ->
              List.length ws1 = List.length ws ->
              miss1 = (miss ++ if lost sw (n0, v0) then [n0] else [])%list ->
              (forall v, skipped n0 = false -> get_weight sw n0 = Some v -> shape v0 = shape v) ->
              fold_left (cstep sw) (seq (S pre) (List.length rest)) (Ok (ws1, miss1)) = Ok (ws', miss') ->
              List.length ws' = List.length ws /\
              (forall i, nth_error ws' i = match nth_error ws i with
                 | Some w => if (Nat.leb pre i && Nat.ltb i (pre + S (List.length rest)))%bool then Some (pull sw w) else Some w
                 | None => None end) /\
              miss' = (miss ++ map fst (filter (lost sw) ((n0, v0) :: rest)))%list /\
              (forall i n old v, nth_error ((n0, v0) :: rest) i = Some (n, old) -> skipped n = false -> get_weight sw n = Some v -> shape old = shape v)).
    { intros ws1 miss1 H1 L1 M1 S1 F.
      destruct (IH (S pre) ws1 miss1 ws' miss') as (L & N & M & SH).
      { apply HR'. intros i Hi. rewrite H1. destruct (Nat.eqb_spec i pre); [contradiction|reflexivity]. }
      { exact F. }
      split; [congruence|]. split; [|split].
      - intros i. rewrite N, H1. destruct (Nat.eqb_spec i pre) as [->|Ni].
        + rewrite E0. replace (Nat.leb (S pre) pre) with false by (symmetry; apply Nat.leb_gt; lia). cbn [andb].
          rewrite Nat.leb_refl. replace (Nat.ltb pre (pre + S (List.length rest))) with true by (symmetry; apply Nat.ltb_lt; lia). reflexivity.
        + destruct (nth_error ws i); [|reflexivity].
          replace (Nat.leb (S pre) i && Nat.ltb i (S pre + List.length rest))%bool
            with (Nat.leb pre i && Nat.ltb i (pre + S (List.length rest)))%bool; [reflexivity|].
          f_equal; [|f_equal; lia]. destruct (Nat.leb_spec pre i), (Nat.leb_spec (S pre) i); (reflexivity || lia).
      - rewrite M, M1. cbn [filter]. rewrite <- app_assoc. f_equal. destruct (lost sw (n0, v0)); reflexivity.
      - intros [|i] n old v E; cbn in E; [injection E as <- <-; apply S1|exact (SH i n old v E)]. }
    destruct (skipped n0) eqn:ESk.
    + apply (Fin ws miss).
      * intros i. destruct (Nat.eqb_spec i pre) as [->|]; [|reflexivity]. rewrite E0. unfold pull. cbn [fst]. rewrite ESk. reflexivity.
      * reflexivity.
      * unfold lost. cbn [fst]. rewrite ESk. cbn. rewrite app_nil_r. reflexivity.
      * intros; discriminate.
      * exact H.
    + destruct (get_weight sw n0) as [v|] eqn:EG.
      * destruct (assign ws pre v) as [ws1|] eqn:EA; cbn [rbind] in H.
        2:{ rewrite cloop_raise in H. discriminate. }
        destruct (assign_ok _ _ _ _ EA) as (n & old & En & Es & L1 & N1). assert (En' : (n, old) = (n0, v0)) by congruence. injection En' as -> ->.
        apply (Fin ws1 miss).
        -- intros i. rewrite N1. unfold pull. cbn [fst]. rewrite ESk, EG. reflexivity.
        -- exact L1.
        -- unfold lost. cbn [fst]. rewrite ESk, EG. cbn. rewrite app_nil_r. reflexivity.
        -- intros v' _ E. congruence.
        -- exact H.
      * apply (Fin ws (miss ++ [n0])%list).
        -- intros i. destruct (Nat.eqb_spec i pre) as [->|]; [|reflexivity]. rewrite E0. unfold pull. cbn [fst]. rewrite ESk, EG. reflexivity.
        -- reflexivity.
        -- unfold lost. cbn [fst]. rewrite ESk, EG. reflexivity.
        -- intros; discriminate.
        -- exact H.
Qed.

(** ** Putting it together *)
Lemma copy_one_ok at_ fused plain ws ws' : copy_one at_ fused plain ws = Ok ws' ->
  List.length ws' = List.length ws /\
  (forall i, at_ <> Some i -> nth_error ws' i = nth_error ws i) /\
  (forall j n old, at_ = Some j -> nth_error ws j = Some (n, old) ->
     exists v, (fused = Some v \/ fused = None /\ plain = Some v) /\ nth_error ws' j = Some (n, v) /\ shape v = shape old).
Proof.
  unfold copy_one. destruct at_ as [j|].
  2:{ intros H. injection H as <-. split; [reflexivity|]. split; [reflexivity|]. intros j n old E. discriminate. }
  assert (G : forall v, assign ws j v = Ok ws' -> (fused = Some v \/ fused = None /\ plain = Some v) ->
    List.length ws' = List.length ws /\ (forall i, Some j <> Some i -> nth_error ws' i = nth_error ws i) /\
    (forall j0 n old, Some j = Some j0 -> nth_error ws j0 = Some (n, old) ->
     exists v, (fused = Some v \/ fused = None /\ plain = Some v) /\ nth_error ws' j0 = Some (n, v) /\ shape v = shape old)).
  { intros v EA Hv. destruct (assign_ok _ _ _ _ EA) as (n & old & En & Es & L & N). split; [exact L|]. split.
    - intros i Hi. rewrite N. destruct (Nat.eqb_spec i j); [congruence|reflexivity].
    - intros j0 n' old' E0 E1. assert (j0 = j) by congruence. subst j0. assert (n' = n /\ old' = old) as [-> ->] by (split; congruence).
      exists v. split; [exact Hv|]. split; [rewrite N, Nat.eqb_refl; reflexivity|congruence]. }
  destruct fused as [v|]; [intros H; apply (G v H); left; reflexivity|].
  destruct plain as [v|]; [intros H; apply (G v H); right; split; reflexivity|discriminate].
Qed.

Lemma copy_ok src dst ws' missing : copy_fused_weights src dst = Ok (ws', missing) ->
  exists ws1 ws2, copy_one (d_kernel dst) (s_qkernel src) (s_kernel src) (d_weights dst) = Ok ws1 /\
    copy_one (d_bias dst) (s_qbias src) (s_bias src) ws1 = Ok ws2 /\
    List.length ws' = List.length ws2 /\
    (forall i, nth_error ws' i = match nth_error ws2 i with Some w => Some (pull (s_weights src) w) | None => None end) /\
    missing = map fst (filter (lost (s_weights src)) ws2).
Proof.
  unfold copy_fused_weights. destruct (copy_one (d_kernel dst) _ _ _) as [ws1|]; [|discriminate]. cbn [rbind].
  destruct (copy_one (d_bias dst) _ _ ws1) as [ws2|] eqn:E2; [|discriminate]. cbn [rbind]. intros H.
  change (fold_left (cstep (s_weights src)) (seq 0 (List.length ws2)) (Ok (ws2, [])) = Ok (ws', missing)) in H.
  destruct (cloop (s_weights src) ws2 0 ws2 [] ws' missing (fun i w E => E) H) as (L & N & M & _).
  exists ws1, ws2. split; [reflexivity|]. split; [exact E2|]. split; [exact L|]. split; [|exact M].
  intros i. rewrite N. destruct (nth_error ws2 i) eqn:E; [|reflexivity].
  assert (i < List.length ws2)%nat by (apply nth_error_Some; congruence).
  replace (Nat.leb 0 i && Nat.ltb i (0 + List.length ws2))%bool with true; [reflexivity|].
  symmetry. apply andb_true_iff. split; [reflexivity|]. apply Nat.ltb_lt. lia.
Qed.

(** The name of a weight is not changed. *)
Lemma copy_one_name at_ fused plain ws ws' i : copy_one at_ fused plain ws = Ok ws' ->
  option_map fst (nth_error ws' i) = option_map fst (nth_error ws i).
Proof.
  intros H. destruct (copy_one_ok _ _ _ _ _ H) as (L & N & V).
  destruct at_ as [j|]; [|rewrite N by discriminate; reflexivity].
  destruct (Nat.eq_dec i j) as [->|Ne]; [|rewrite N by congruence; reflexivity].
  destruct (nth_error ws j) as [[n old]|] eqn:E.
  - destruct (V j n old eq_refl E) as (v & _ & E' & _). rewrite E'. reflexivity.
  - assert (E' : nth_error ws' j = None) by (apply nth_error_None; rewrite L; apply nth_error_None; exact E). rewrite E'. reflexivity.
Qed.

Lemma skipped_iff n : skipped n = true <-> substring "kernel:0" n \/ substring "bias:0" n.
Proof. unfold skipped. rewrite orb_true_iff, !contains_iff. reflexivity. Qed.

(** Facts about the passive layers. *)
From Coq Require Import ZArith Qcanon List Bool Arith Permutation Lia.
From Verif Require Import Base.Num Base.NumFacts Base.Tensor Model.Layers Model.Passive Spec.Passive Proofs.TensorP Proofs.FeedP.
Import ListNotations.
Local Open Scope nat_scope.

Lemma nth_flat_map_seq {A} (f : nat -> list A) (L d0 : nat) (d : A) n o r :
  (forall k, k < d0 + n -> length (f k) = L) -> o < n -> r < L ->
  nth (o * L + r) (flat_map f (seq d0 n)) d = nth r (f (d0 + o)) d.
Proof.
  revert d0 o. induction n as [|n IH]; intros d0 o HL Ho Hr; [lia|]. cbn [seq flat_map].
  destruct o as [|o].
  - rewrite app_nth1 by (rewrite HL; lia). cbn. f_equal. f_equal. lia.
  - rewrite app_nth2 by (rewrite HL by lia; nia). rewrite HL by lia.
    replace (S o * L + r - L) with (o * L + r) by nia.
    rewrite (IH (S d0) o); [f_equal; f_equal; lia| |lia|lia]. intros k Hk. apply HL. lia.
Qed.

Definition sum (l : list nat) : nat := fold_right Nat.add 0 l.

(** Where position r of a list of blocks of the given sizes comes from. *)
Lemma split_blocks (inner : nat) (ws : list nat) (r : nat) : r < sum ws * inner ->
  exists i, i < length ws /\ sum (firstn i ws) * inner <= r < (sum (firstn i ws) + nth i ws 0) * inner.
Proof.
  revert r. induction ws as [|w ws IH]; intros r H; [cbn in H; lia|].
  change (sum (w :: ws)) with (w + sum ws) in H.
  destruct (Nat.lt_ge_cases r (w * inner)) as [C|C].
  - exists 0. cbn. split; [lia|]. lia.
  - destruct (IH (r - w * inner)) as [i [Hi B]]; [nia|]. exists (S i). cbn [length firstn nth].
    change (sum (w :: firstn i ws)) with (w + sum (firstn i ws)). split; [lia|]. nia.
Qed.

Lemma nth_blocks {A T} (d : A) (dt : T) (g : T -> list A) (ts : list T) (i p : nat) :
  i < length ts -> p < length (g (nth i ts dt)) ->
  nth (sum (map (fun t => length (g t)) (firstn i ts)) + p) (flat_map g ts) d = nth p (g (nth i ts dt)) d.
Proof.
  revert i. induction ts as [|t ts IH]; intros i Hi Hp; [cbn in Hi; lia|]. destruct i as [|i]; cbn [flat_map firstn map nth] in *.
  - cbn. rewrite app_nth1 by exact Hp. reflexivity.
  - change (sum (length (g t) :: map (fun t0 => length (g t0)) (firstn i ts)))
      with (length (g t) + sum (map (fun t0 => length (g t0)) (firstn i ts))).
    rewrite app_nth2 by lia. rewrite <- (IH i) by (try exact Hp; cbn in Hi; lia). f_equal. lia.
Qed.

Lemma nth_block {A} (d : A) size o l p : p < size -> nth p (block size o l) d = nth (o * size + p) l d.
Proof.
  intros H. unfold block. apply nth_firstn_skipn. exact H.
Qed.

Lemma length_block {A} size o (l : list A) : (S o) * size <= length l -> length (block size o l) = size.
Proof. intros H. unfold block. rewrite firstn_length, skipn_length. nia. Qed.

Lemma length_flat_map_const {A} (f : nat -> list A) (L a n : nat) :
  (forall k, a <= k < a + n -> length (f k) = L) -> length (flat_map f (seq a n)) = n * L.
Proof.
  revert a. induction n as [|n IH]; intros a H; [reflexivity|]. cbn [seq flat_map]. rewrite app_length, H by lia.
  rewrite (IH (S a)); [lia|]. intros k Hk. apply H. lia.
Qed.

Lemma length_flat_map {A B} (f : A -> list B) l : length (flat_map f l) = sum (map (fun x => length (f x)) l).
Proof. induction l as [|a l IH]; [reflexivity|]. cbn [flat_map map]. rewrite app_length, IH. reflexivity. Qed.

Lemma nth_ext_shape (s s' : list nat) : length s = length s' -> (forall k, nth k s 0 = nth k s' 0) -> s = s'.
Proof. intros L H. apply (nth_ext s s' 0 0); [exact L|]. intros; apply H. Qed.

Lemma agree_firstn a s s' : agree_off a s s' -> firstn a s = firstn a s'.
Proof.
  intros [L H]. revert s s' L H. induction a as [|a IH]; intros [|x s] [|x' s'] L H; try reflexivity; try discriminate L.
  cbn. f_equal; [apply (H 0); lia|]. apply IH; [cbn in L; lia|]. intros k Hk. apply (H (S k)). lia.
Qed.
Lemma agree_skipn a s s' : agree_off a s s' -> skipn (S a) s = skipn (S a) s'.
Proof.
  intros [L H]. revert s s' L H. induction a as [|a IH]; intros [|x s] [|x' s'] L H; try reflexivity; try discriminate L.
  - cbn. apply nth_ext_shape; [cbn in L; lia|]. intros k. apply (H (S k)). lia.
  - cbn [skipn]. apply IH; [cbn in L; lia|]. intros k Hk. apply (H (S k)). lia.
Qed.
Lemma skipn_nth a (s : list nat) : a < length s -> skipn a s = nth a s 0 :: skipn (S a) s.
Proof. revert s. induction a as [|a IH]; intros [|x s] H; cbn in H; try lia; [reflexivity|]. cbn [nth]. rewrite <- IH by lia. reflexivity. Qed.
Lemma prodn_split a s : prodn s = prodn (firstn a s) * prodn (skipn a s).
Proof. rewrite <- prodn_app, firstn_skipn. reflexivity. Qed.

Lemma sum_scaled {T} (f : T -> nat) c l : sum (map (fun x => f x * c) l) = sum (map f l) * c.
Proof. induction l as [|a l IH]; [reflexivity|]. cbn [map]. change (f a * c + sum (map (fun x => f x * c) l) = (f a + sum (map f l)) * c). rewrite IH. lia. Qed.

Section Concat.
  Context {A : Type}.
  Variables (d : A) (a n : nat) (s0 : list nat) (xs : list (tensor A)).
  Hypothesis Ha : a < length s0.
  Hypothesis Hne : xs <> [].
  Hypothesis Hwf : Forall wf_tensor xs.
  Hypothesis Hsh : Forall (fun x => exists s, shape x = n :: s /\ agree_off a s s0) xs.

  Let w (x : tensor A) : nat := nth (S a) (shape x) 0.
  Let inner : nat := prodn (skipn (S a) s0).
  Let pre : nat := prodn (firstn a s0).

  Lemma concat_sizes x : In x xs ->
    prodn (skipn (S a) (shape x)) = w x * inner /\ prodn (tl (shape x)) = pre * (w x * inner) /\
    length (data x) = n * (pre * (w x * inner)) /\ firstn (S a) (shape x) = n :: firstn a s0.
  Proof.
    intros Hx. destruct (proj1 (Forall_forall _ _) Hsh x Hx) as [s [Es Ag]]. pose proof (proj1 (Forall_forall _ _) Hwf x Hx) as W.
    unfold wf_tensor in W. rewrite Es in W. rewrite prodn_cons in W. rewrite Es. cbn [skipn tl firstn].
    assert (Es2 : skipn a s = nth a s 0 :: skipn (S a) s) by (apply skipn_nth; rewrite (proj1 Ag); exact Ha).
    assert (P1 : prodn (skipn a s) = w x * inner).
    { rewrite Es2, prodn_cons. unfold w, inner. rewrite Es. cbn [nth]. rewrite (agree_skipn a s s0 Ag). reflexivity. }
    assert (P2 : prodn s = pre * (w x * inner)).
    { rewrite (prodn_split a s), P1. unfold pre. rewrite (agree_firstn a s s0 Ag). reflexivity. }
    split; [exact P1|]. split; [exact P2|]. split; [rewrite W, P2; reflexivity|]. rewrite (agree_firstn a s s0 Ag). reflexivity.
  Qed.

  Definition concat_row (o : nat) : list A := flat_map (fun t => block (prodn (skipn (S a) (shape t))) o (data t)) xs.

  Lemma concat_row_length o : o < n * pre -> length (concat_row o) = sum (map w xs) * inner.
  Proof.
    intros Ho. unfold concat_row. rewrite length_flat_map. rewrite <- sum_scaled. f_equal. apply map_ext_in. intros x Hx.
    destruct (concat_sizes x Hx) as [E1 [_ [E3 _]]]. rewrite E1. apply length_block. rewrite E3. nia.
  Qed.

  Lemma concat_ok : exists y, concat_axis (S a) xs = Ok y /\
    shape y = n :: set_axis a (sum (map w xs)) s0 /\
    data y = flat_map concat_row (seq 0 (n * pre)).
  Proof.
    unfold concat_axis. destruct xs as [|x0 xs'] eqn:E; [congruence|]. rewrite <- E in *.
    assert (H0 : In x0 xs) by (rewrite E; left; reflexivity).
    destruct (proj1 (Forall_forall _ _) Hsh x0 H0) as [s [Es Ag]].
    destruct (concat_sizes x0 H0) as [_ [_ [_ Ef]]].
    assert (C1 : Nat.ltb (S a) (length (shape x0)) = true).
    { apply Nat.ltb_lt. rewrite Es. cbn [length]. rewrite (proj1 Ag). lia. }
    assert (C2 : forallb (fun t => Nat.eqb (length (shape t)) (length (shape x0))) xs = true).
    { apply forallb_forall. intros t Ht. destruct (proj1 (Forall_forall _ _) Hsh t Ht) as [s' [Es' Ag']]. rewrite Es, Es'. cbn [length].
      apply Nat.eqb_eq. rewrite (proj1 Ag), (proj1 Ag'). reflexivity. }
    assert (C3 : forallb (fun t => if list_eq_dec Nat.eq_dec (set_axis (S a) 0 (shape t)) (set_axis (S a) 0 (shape x0)) then true else false) xs = true).
    { apply forallb_forall. intros t Ht. destruct (proj1 (Forall_forall _ _) Hsh t Ht) as [s' [Es' Ag']].
      destruct (list_eq_dec _ _ _) as [|N]; [reflexivity|]. exfalso. apply N. rewrite Es, Es'. unfold set_axis. cbn [firstn skipn].
      rewrite (agree_firstn a s s0 Ag), (agree_firstn a s' s0 Ag').
      pose proof (agree_skipn a s s0 Ag) as K. pose proof (agree_skipn a s' s0 Ag') as K'. cbn [skipn] in K, K'. rewrite K, K'. reflexivity. }
    rewrite C1, C2, C3. cbn [andb]. eexists. split; [reflexivity|]. cbn [shape data]. split.
    - rewrite Es. unfold set_axis. cbn [firstn skipn app]. rewrite (agree_firstn a s s0 Ag).
      pose proof (agree_skipn a s s0 Ag) as K. cbn [skipn] in K. rewrite K. reflexivity.
    - rewrite Ef, prodn_cons. reflexivity.
  Qed.

  Lemma prodn_out W : prodn (set_axis a W s0) = pre * (W * inner).
  Proof. unfold set_axis. rewrite prodn_app, prodn_cons. reflexivity. Qed.

  Lemma concat_at y j e i p dx : concat_axis (S a) xs = Ok y -> j < n -> e < prodn (tl (shape y)) ->
    concat_source (map w xs) inner e i p -> at_ d y j e = at_ d (nth i xs dx) j p.
  Proof.
    intros Hy Hj He [o [c [q [Hi [Hq [Hc [-> ->]]]]]]].
    destruct concat_ok as [y' [Ey [Sy Dy]]]. assert (y' = y) by congruence. subst y'.
    rewrite map_length in Hi.
    assert (Hn : nth i (map w xs) 0 = w (nth i xs dx)) by (rewrite (nth_indep _ 0 (w dx)) by (rewrite map_length; exact Hi); apply map_nth).
    change (fold_right Nat.add 0) with sum in *. rewrite Hn in *.
    assert (Hx : In (nth i xs dx) xs) by (apply nth_In; exact Hi).
    destruct (concat_sizes _ Hx) as [E1 [E2 [E3 _]]].
    unfold at_. rewrite Sy in *. cbn [tl] in *. rewrite prodn_out in *. rewrite Dy, E2.
    set (W := sum (map w xs)) in *. set (wi := w (nth i xs dx)) in *. set (bf := sum (firstn i (map w xs))) in *.
    assert (HW : bf + wi <= W).
    { unfold bf, W. rewrite <- Hn. clear -Hi. rewrite <- (map_length w xs) in Hi. revert i Hi. generalize (map w xs) as l.
      induction l as [|x l IH]; intros i Hi; cbn in Hi; [lia|]. destruct i as [|i]; [cbn; lia|]. cbn [firstn nth].
      change (x + sum (firstn i l) + nth i l 0 <= x + sum l). specialize (IH i ltac:(lia)). rewrite <- Nat.add_assoc. apply Nat.add_le_mono_l. exact IH. }
    assert (Ho : o < pre). { destruct (Nat.lt_ge_cases o pre) as [|G]; [assumption|]. exfalso.
      pose proof (Nat.mul_le_mono_r _ _ (W * inner) G). clear -He H. nia. }
    replace (j * (pre * (W * inner)) + ((o * W + c) * inner + q)) with ((j * pre + o) * (W * inner) + (c * inner + q)) by ring.
    assert (Hjo : j * pre + o < n * pre) by nia.
    rewrite (nth_flat_map_seq concat_row (W * inner)); [|intros k Hk; apply concat_row_length; lia|exact Hjo|nia].
    cbn [Nat.add]. unfold concat_row.
    replace (c * inner + q) with (sum (map (fun t => length (block (prodn (skipn (S a) (shape t))) (j * pre + o) (data t))) (firstn i xs)) + ((c - bf) * inner + q)).
    2:{ assert (Eb : sum (map (fun t => length (block (prodn (skipn (S a) (shape t))) (j * pre + o) (data t))) (firstn i xs)) = bf * inner).
        { unfold bf. rewrite firstn_map, <- sum_scaled. f_equal. apply map_ext_in. intros t Ht.
          assert (Ht' : In t xs) by (rewrite <- (firstn_skipn i xs); apply in_or_app; left; exact Ht).
          destruct (concat_sizes t Ht') as [F1 [_ [F3 _]]]. rewrite F1. apply length_block. rewrite F3. nia. }
        rewrite Eb. nia. }
    assert (Hp : (c - bf) * inner + q < wi * inner) by nia.
    rewrite (nth_blocks d dx (fun t => block (prodn (skipn (S a) (shape t))) (j * pre + o) (data t)) xs i);
      [|exact Hi|rewrite E1, length_block; [exact Hp|rewrite E3; nia]].
    rewrite E1, nth_block by exact Hp. f_equal. ring.
  Qed.

  Lemma concat_wf y : concat_axis (S a) xs = Ok y -> wf_tensor y.
  Proof.
    intros Hy. destruct concat_ok as [y' [Ey [Sy Dy]]]. assert (y' = y) by congruence. subst y'.
    unfold wf_tensor. rewrite Sy, Dy, prodn_cons, prodn_out. rewrite (length_flat_map_const _ (sum (map w xs) * inner)); [ring|].
    intros k Hk. apply concat_row_length. lia.
  Qed.
End Concat.

Lemma concat_source_exists (ws : list nat) (pre inner e : nat) : e < pre * (sum ws * inner) ->
  exists i p, concat_source ws inner e i p.
Proof.
  intros H. assert (Hi : inner <> 0) by nia. assert (Hw : sum ws * inner <> 0) by nia.
  set (L := sum ws * inner) in *. pose proof (Nat.mod_upper_bound e L Hw) as Hr. pose proof (Nat.div_mod e L Hw) as De.
  destruct (split_blocks inner ws (e mod L)) as [i [Hil B]]; [exact Hr|].
  set (r := e mod L) in *. pose proof (Nat.div_mod r inner Hi) as Dr. pose proof (Nat.mod_upper_bound r inner Hi) as Hq.
  set (c := r / inner) in *. set (q := r mod inner) in *.
  exists i, ((e / L * nth i ws 0 + (c - sum (firstn i ws))) * inner + q).
  exists (e / L), c, q. cbn zeta. change (fold_right Nat.add 0) with sum. split; [exact Hil|]. split; [exact Hq|].
  split; [|split; [|reflexivity]].
  - assert (sum (firstn i ws) * inner <= c * inner + q) by lia. assert (c * inner + q < (sum (firstn i ws) + nth i ws 0) * inner) by lia. nia.
  - rewrite De at 1. fold r. unfold L. rewrite Dr at 1. ring.
Qed.

(** ** Pooling *)

Definition pool_valid (p : pool) : Prop :=
  0 < p_h p /\ 0 < p_w p /\ 0 < p_c p /\ 0 < p_kh p /\ 0 < p_kw p /\ 0 < p_sh p /\ 0 < p_sw p /\
  (p_same p = false -> p_kh p <= p_h p /\ p_kw p <= p_w p).

Lemma window1_in same n k s o q : In q (window1 same n k s o) <->
  q < n /\ o * s <= q + pool_pad same n k s < o * s + k.
Proof.
  unfold window1. rewrite in_flat_map. split.
  - intros [x [Hx Hq]]. apply in_seq in Hx. cbn zeta in Hq.
    destruct (Nat.leb_spec (pool_pad same n k s) (o * s + x)); [|contradiction].
    destruct (Nat.ltb_spec (o * s + x - pool_pad same n k s) n); [|contradiction].
    cbn in Hq. destruct Hq as [<-|[]]. lia.
  - intros [Hq B]. exists (q + pool_pad same n k s - o * s). split; [apply in_seq; lia|]. cbn zeta.
    destruct (Nat.leb_spec (pool_pad same n k s) (o * s + (q + pool_pad same n k s - o * s))); [|lia].
    destruct (Nat.ltb_spec (o * s + (q + pool_pad same n k s - o * s) - pool_pad same n k s) n); [|lia].
    cbn. left. lia.
Qed.

Lemma window1_nonempty same n k s o : 0 < n -> 0 < k -> 0 < s -> (same = false -> k <= n) ->
  o < pool_out same n k s -> exists q, In q (window1 same n k s o).
Proof.
  intros Hn Hk Hs Hv Ho. assert (Hs0 : s <> 0) by lia. destruct same.
  - unfold pool_out in Ho. set (out := (n + s - 1) / s) in *.
    assert (B1 : s * out <= n + s - 1) by (apply Nat.mul_div_le; exact Hs0).
    assert (Hos : o * s < n) by nia.
    set (pad := pool_pad true n k s).
    assert (Hpad : 2 * pad <= k - 1).
    { unfold pad, pool_pad, pool_out. fold out.
      pose proof (Nat.mul_div_le ((out - 1) * s + k - n) 2 ltac:(lia)). nia. }
    destruct (Nat.le_gt_cases pad (o * s)).
    + exists (o * s - pad). apply window1_in. fold pad. lia.
    + exists 0. apply window1_in. fold pad. lia.
  - unfold pool_out in Ho. specialize (Hv eq_refl).
    pose proof (Nat.mul_div_le (n - k) s Hs0). exists (o * s). apply window1_in. unfold pool_pad. nia.
Qed.

Lemma unflat_range first h w c e i j ch : unflat first h w c e = (i, j, ch) -> e < h * w * c -> i < h /\ j < w /\ ch < c.
Proof.
  unfold unflat. intros E He. assert (h <> 0 /\ w <> 0 /\ c <> 0) as [Hh [Hw Hc]] by nia. destruct first; injection E as <- <- <-.
  - split; [apply Nat.mod_upper_bound; exact Hh|]. split; [apply Nat.mod_upper_bound; exact Hw|].
    apply Nat.div_lt_upper_bound; [exact Hh|]. apply Nat.div_lt_upper_bound; [exact Hw|]. nia.
  - split; [|split; [apply Nat.mod_upper_bound; exact Hw|apply Nat.mod_upper_bound; exact Hc]].
    apply Nat.div_lt_upper_bound; [exact Hw|]. apply Nat.div_lt_upper_bound; [exact Hc|]. nia.
Qed.

Lemma flat_range first h w c i j ch : i < h -> j < w -> ch < c -> flat first h w c i j ch < h * w * c.
Proof.
  intros Hi Hj Hc. unfold flat. destruct first.
  - assert (ch * h + i < c * h) by nia. nia.
  - assert (i * w + j < h * w) by nia. nia.
Qed.

Lemma window_range p e q : In q (window p e) -> e < pool_size p -> q < p_h p * p_w p * p_c p.
Proof.
  unfold window, pool_size. destruct (unflat _ _ _ _ _) as [[i j] ch] eqn:E. intros H He.
  destruct (unflat_range _ _ _ _ _ _ _ _ E He) as [_ [_ Hc]].
  apply in_flat_map in H. destruct H as [a [Ha H]]. apply in_map_iff in H. destruct H as [b [<- Hb]].
  apply window1_in in Ha, Hb. apply flat_range; [apply Ha|apply Hb|exact Hc].
Qed.

Lemma window_nonempty p e : pool_valid p -> e < pool_size p -> window p e <> [].
Proof.
  intros [H1 [H2 [H3 [H4 [H5 [H6 [H7 H8]]]]]]]. unfold window, pool_size. intros He.
  destruct (unflat _ _ _ _ _) as [[i j] ch] eqn:E. destruct (unflat_range _ _ _ _ _ _ _ _ E He) as [Hi [Hj _]].
  destruct (window1_nonempty (p_same p) (p_h p) (p_kh p) (p_sh p) i) as [a Ha]; try assumption; [intros Q; apply (H8 Q)|].
  destruct (window1_nonempty (p_same p) (p_w p) (p_kw p) (p_sw p) j) as [b Hb]; try assumption; [intros Q; apply (H8 Q)|].
  intros N. assert (I : In (flat (p_first p) (p_h p) (p_w p) (p_c p) a b ch) []); [|exact I].
  rewrite <- N. apply in_flat_map. exists a. split; [exact Ha|].
  apply (in_map (fun b => flat (p_first p) (p_h p) (p_w p) (p_c p) a b ch)). exact Hb.
Qed.

Section Reduce.
  Context {A : Type} (le : A -> A -> Prop) (op : A -> A -> A).
  Hypothesis le_refl : forall a, le a a.
  Hypothesis le_trans : forall a b c, le a b -> le b c -> le a c.
  Hypothesis op_l : forall a b, le a (op a b).
  Hypothesis op_r : forall a b, le b (op a b).
  Hypothesis op_sel : forall a b, op a b = a \/ op a b = b.

  Lemma reduce1_sel d l : l <> [] -> In (reduce1 op d l) l.
  Proof.
    destruct l as [|a l]; [congruence|]. intros _. cbn [reduce1]. revert a. induction l as [|b l IH]; intros a; [left; reflexivity|].
    cbn [fold_left]. destruct (IH (op a b)) as [H|H].
    - rewrite <- H. destruct (op_sel a b) as [-> | ->]; [left; reflexivity|right; left; reflexivity].
    - right; right; exact H.
  Qed.
  Lemma reduce1_ub d l x : In x l -> le x (reduce1 op d l).
  Proof.
    destruct l as [|a l]; [intros []|]. cbn [reduce1]. revert a x.
    assert (G : forall l a, le a (fold_left op l a)).
    { clear l d. induction l as [|b l IH]; intros a; [apply le_refl|]. cbn [fold_left]. eapply le_trans; [apply (op_l a b)|apply IH]. }
    induction l as [|b l IH]; intros a x H.
    - destruct H as [<-|[]]. apply le_refl.
    - cbn [fold_left]. destruct H as [<-|[<-|H]].
      + eapply le_trans; [apply (op_l a b)|apply G].
      + eapply le_trans; [apply (op_r a b)|apply G].
      + apply IH. right. exact H.
  Qed.

  Lemma max_pool_spec d p e x : pool_valid p -> e < pool_size p ->
    (exists q, In q (window p e) /\ nth e (max_pool op d p x) d = nth q x d) /\
    (forall q, In q (window p e) -> le (nth q x d) (nth e (max_pool op d p x) d)).
  Proof.
    intros Hv He. unfold max_pool. rewrite nth_map_seq by exact He. split.
    - assert (N : map (fun q => nth q x d) (window p e) <> []).
      { intros C. apply map_eq_nil in C. exact (window_nonempty p e Hv He C). }
      pose proof (reduce1_sel d _ N) as I. apply in_map_iff in I. destruct I as [q [E I]]. exists q. split; [exact I|]. symmetry; exact E.
    - intros q Hq. apply reduce1_ub. apply (in_map (fun q => nth q x d)). exact Hq.
  Qed.
End Reduce.

Lemma divmod_pack q n r : r < n -> (q * n + r) / n = q /\ (q * n + r) mod n = r.
Proof.
  intros H. split; symmetry; [apply (Nat.div_unique _ _ _ r)|apply (Nat.mod_unique _ _ q)]; lia.
Qed.

Lemma unflat_flat first h w c i j ch : i < h -> j < w -> ch < c -> unflat first h w c (flat first h w c i j ch) = (i, j, ch).
Proof.
  intros Hi Hj Hc. unfold unflat, flat. destruct first.
  - destruct (divmod_pack (ch * h + i) w j Hj) as [-> ->]. destruct (divmod_pack ch h i Hi) as [-> ->]. reflexivity.
  - destruct (divmod_pack (i * w + j) c ch Hc) as [-> ->]. destruct (divmod_pack i w j Hj) as [-> ->]. reflexivity.
Qed.

Lemma window_at p i j ch q : i < out_h p -> j < out_w p -> ch < p_c p ->
  In q (window p (flat (p_first p) (out_h p) (out_w p) (p_c p) i j ch)) <->
  exists a b, q = flat (p_first p) (p_h p) (p_w p) (p_c p) a b ch /\ a < p_h p /\ b < p_w p /\
    i * p_sh p <= a + pool_pad (p_same p) (p_h p) (p_kh p) (p_sh p) < i * p_sh p + p_kh p /\
    j * p_sw p <= b + pool_pad (p_same p) (p_w p) (p_kw p) (p_sw p) < j * p_sw p + p_kw p.
Proof.
  intros Hi Hj Hc. unfold window. rewrite unflat_flat by assumption. rewrite in_flat_map. split.
  - intros [a [Ha H]]. apply in_map_iff in H. destruct H as [b [<- Hb]]. apply window1_in in Ha, Hb. exists a, b.
    split; [reflexivity|]. split; [apply Ha|]. split; [apply Hb|]. split; [apply Ha|apply Hb].
  - intros [a [b [-> [Ha [Hb [Ba Bb]]]]]]. exists a. split; [apply window1_in; auto|].
    apply (in_map (fun b => flat (p_first p) (p_h p) (p_w p) (p_c p) a b ch)). apply window1_in; auto.
Qed.

(** ** Transposition *)
Lemma unravel_position s : forall idx, Forall2 lt idx s -> unravel s (position s idx) = idx.
Proof.
  induction s as [|n s IH]; intros idx H; inversion H as [|i ? idx' ? Hi Hr]; subst; [reflexivity|]. cbn [position unravel].
  assert (B : position s idx' < prodn s).
  { clear - Hr. revert idx' Hr. induction s as [|n s IH]; intros idx H; inversion H as [|i ? idx' ? Hi Hr]; subst; [cbn; lia|]. cbn [position]. rewrite prodn_cons. specialize (IH _ Hr). nia. }
  destruct (divmod_pack i (prodn s) (position s idx') B) as [-> ->]. f_equal. apply IH, Hr.
Qed.
Lemma position_lt s : forall idx, Forall2 lt idx s -> position s idx < prodn s.
Proof. induction s as [|n s IH]; intros idx H; inversion H as [|i ? idx' ? Hi Hr]; subst; [cbn; lia|]. cbn [position]. rewrite prodn_cons. specialize (IH _ Hr). nia. Qed.
Lemma ravel_position s : forall idx, ravel s idx = position s idx.
Proof. reflexivity. Qed.
Lemma index_of_spec d dims : In d dims -> nth (index_of d dims) dims 0 = d /\ index_of d dims < length dims.
Proof.
  unfold index_of. set (go := fix go (l : list nat) (k : nat) : nat := match l with [] => k | x :: l' => if Nat.eqb x d then k else go l' (S k) end).
  assert (G : forall l k, In d l -> exists m, go l k = k + m /\ nth m l 0 = d /\ m < length l).
  { induction l as [|x l IH]; intros k H; [destruct H|]. cbn [go]. destruct (Nat.eqb_spec x d) as [->|N]; [exists 0; repeat split; cbn; lia|].
    destruct H as [H|H]; [congruence|]. destruct (IH (S k) H) as (m & E & Em & L). exists (S m). rewrite E. cbn. repeat split; [lia|exact Em|lia]. }
  intros H. destruct (G dims 0 H) as (m & -> & E & L). cbn. auto.
Qed.
Lemma picked_valid dims s idx : orders_axes dims s -> Forall2 lt idx s -> Forall2 lt (picked dims idx) (picked dims s).
Proof.
  intros P H. assert (D : forall d, In d dims -> 1 <= d <= length s) by (intros d Hd; apply (Permutation_in _ P) in Hd; apply in_seq in Hd; lia).
  assert (L : forall k, k < length s -> nth k idx 0 < nth k s 0).
  { clear - H. induction H as [|a b l l' Hab H IH]; intros k Hk; [cbn in Hk; lia|]. destruct k; cbn in *; [exact Hab|apply IH; lia]. }
  unfold picked. clear P. induction dims as [|d dims IH]; [constructor|]. cbn [map]. constructor; [|apply IH; intros d' Hd'; apply D; right; exact Hd'].
  apply L. specialize (D d (or_introl eq_refl)). lia.
Qed.
Lemma permute_at {A} (d : A) dims s x idx : orders_axes dims s -> Forall2 lt idx s ->
  nth (position (perm_shape dims s) (picked dims idx)) (permute d dims s x) d = nth (position s idx) x d.
Proof.
  intros P H. pose proof (picked_valid dims s idx P H) as V. change (picked dims s) with (perm_shape dims s) in V.
  assert (LI : length idx = length s) by (clear - H; induction H; cbn; congruence).
  unfold permute. rewrite nth_map_seq by (apply position_lt, V). cbn zeta. rewrite (unravel_position _ _ V), ravel_position.
  f_equal. f_equal. apply (nth_ext _ _ 0 0); [rewrite map_length, seq_length; congruence|].
  intros k Hk. rewrite map_length, seq_length in Hk. rewrite (nth_map_seq (fun a => nth (index_of (S a) dims) (picked dims idx) 0)) by exact Hk.
  assert (IN : In (S k) dims) by (apply (Permutation_in _ (Permutation_sym P)), in_seq; lia).
  destruct (index_of_spec _ _ IN) as [E L]. unfold picked. pose proof (map_nth (fun d0 => nth (d0 - 1) idx 0) dims 0 (index_of (S k) dims)) as M.
  rewrite (nth_indep _ _ 0) in M by (rewrite map_length; exact L). rewrite M, E. f_equal. lia.
Qed.

(** ** Windows as sets of coordinates *)
Lemma front_pad same n k s : pool_pad same n k s = front same n k s.
Proof. destruct same; reflexivity. Qed.
Lemma window1_nodup same n k s o : NoDup (window1 same n k s o).
Proof.
  unfold window1. set (pad := pool_pad same n k s).
  assert (G : forall d0 m, NoDup (flat_map (fun d => let p := o * s + d in let pad := pad in if (Nat.leb pad p && Nat.ltb (p - pad) n)%bool then [p - pad] else []) (seq d0 m)) /\
     (forall q, In q (flat_map (fun d => let p := o * s + d in let pad := pad in if (Nat.leb pad p && Nat.ltb (p - pad) n)%bool then [p - pad] else []) (seq d0 m)) -> o * s + d0 <= q + pad)).
  { intros d0 m. revert d0. induction m as [|m IH]; intros d0; [split; [constructor|intros q []]|]. cbn [seq flat_map]. destruct (IH (S d0)) as [N B]. cbv zeta in *.
    destruct (Nat.leb_spec pad (o * s + d0)); destruct (Nat.ltb_spec (o * s + d0 - pad) n); cbn [andb app]; try (split; [exact N|intros q Hq; specialize (B q Hq); lia]).
    split; [constructor; [intros Hq; specialize (B _ Hq); lia|exact N]|]. intros q [<-|Hq]; [lia|specialize (B q Hq); lia]. }
  apply G.
Qed.
Lemma window1_covered same n k s o : Permutation (window1 same n k s o) (filter (covers same n k s o) (seq 0 n)).
Proof.
  apply NoDup_Permutation; [apply window1_nodup|apply NoDup_filter, seq_NoDup|]. intros q. rewrite window1_in, filter_In, in_seq. unfold covers.
  rewrite front_pad, Bool.andb_true_iff, Nat.leb_le, Nat.ltb_lt. lia.
Qed.
Lemma flat_map_perm {A B} (f g : A -> list B) l l' : Permutation l l' -> (forall a, Permutation (f a) (g a)) -> Permutation (flat_map f l) (flat_map g l').
Proof.
  intros P H. induction P; cbn [flat_map]; [constructor|apply Permutation_app; auto| |].
  - rewrite !app_assoc. apply Permutation_app; [|].
    + eapply Permutation_trans; [apply Permutation_app_comm|]. apply Permutation_app; apply H.
    + clear -H. induction l as [|a l IH]; [constructor|]. cbn [flat_map]. apply Permutation_app; auto.
  - eapply Permutation_trans; [exact IHP1|]. assert (G : forall l, Permutation (flat_map g l) (flat_map f l)) by (clear -H; induction l as [|a l IH]; [constructor|]; cbn [flat_map]; apply Permutation_app; [apply Permutation_sym, H|exact IH]).
    eapply Permutation_trans; [apply G|exact IHP2].
Qed.
Definition window2 (p : pool) (i j : nat) : list (nat * nat) :=
  list_prod (filter (covers (p_same p) (p_h p) (p_kh p) (p_sh p) i) (seq 0 (p_h p))) (filter (covers (p_same p) (p_w p) (p_kw p) (p_sw p) j) (seq 0 (p_w p))).
Lemma window_coordinates p i j ch : i < out_h p -> j < out_w p -> ch < p_c p ->
  Permutation (window p (flat (p_first p) (out_h p) (out_w p) (p_c p) i j ch))
    (map (fun ab => flat (p_first p) (p_h p) (p_w p) (p_c p) (fst ab) (snd ab) ch) (window2 p i j)).
Proof.
  intros Hi Hj Hc. unfold window. rewrite unflat_flat by assumption. unfold window2.
  assert (E : forall l l', map (fun ab => flat (p_first p) (p_h p) (p_w p) (p_c p) (fst ab) (snd ab) ch) (list_prod l l') = flat_map (fun a => map (fun b => flat (p_first p) (p_h p) (p_w p) (p_c p) a b ch) l') l).
  { intros l l'. induction l as [|a l IH]; [reflexivity|]. cbn [list_prod flat_map]. rewrite map_app, map_map, IH. reflexivity. }
  rewrite E. apply flat_map_perm; [apply window1_covered|]. intros a. apply Permutation_map, window1_covered.
Qed.
Lemma fold_plus_perm (l l' : list Qc) : Permutation l l' -> fold_right Qcplus (qz 0) l = fold_right Qcplus (qz 0) l'.
Proof. intros P. induction P; cbn; [reflexivity|congruence|ring|congruence]. Qed.
Lemma avg_at p i j ch x : pool_valid p -> i < out_h p -> j < out_w p -> ch < p_c p ->
  is_mean (map (fun ab => nth (flat (p_first p) (p_h p) (p_w p) (p_c p) (fst ab) (snd ab) ch) x (qz 0)) (window2 p i j))
    (nth (flat (p_first p) (out_h p) (out_w p) (p_c p) i j ch) (avg_pool p x) (qz 0)).
Proof.
  intros Hv Hi Hj Hc. set (e := flat (p_first p) (out_h p) (out_w p) (p_c p) i j ch).
  assert (He : e < pool_size p) by (apply flat_range; assumption). pose proof (window_nonempty p e Hv He) as NE. pose proof (window_coordinates p i j ch Hi Hj Hc) as P. fold e in P.
  apply (Permutation_map (fun q => nth q x (qz 0))) in P. rewrite map_map in P.
  split.
  - intros C. apply map_eq_nil in C. rewrite C in P. cbn in P. apply Permutation_sym, Permutation_nil, map_eq_nil in P. contradiction.
  - rewrite <- (fold_plus_perm _ _ P), <- (Permutation_length P). unfold avg_pool. rewrite nth_map_seq by exact He. cbv zeta.
    set (vs := map (fun q => nth q x (qz 0)) (window p e)). assert (N : qz (Z.of_nat (length vs)) <> 0%Qc).
    { intros C. assert (H : (qz 0 < qz (Z.of_nat (length vs)))%Qc) by (apply qz_lt; subst vs; rewrite map_length; destruct (window p e); [congruence|cbn; lia]). rewrite C in H. apply (Qclt_not_le _ _ H). change (qz 0) with 0%Qc. apply Qcle_refl. }
    field. exact N.
Qed.
Lemma Permutation_prodn l l' : Permutation l l' -> prodn l = prodn l'.
Proof. intros P. induction P; rewrite ?prodn_cons in *; [reflexivity|congruence|nia|congruence]. Qed.
Lemma nth_all (l : list nat) : map (fun k => nth k l 0) (seq 0 (length l)) = l.
Proof. apply (nth_ext _ _ 0 0); [rewrite map_length, seq_length; reflexivity|]. intros k Hk. rewrite map_length, seq_length in Hk. apply (nth_map_seq (fun k => nth k l 0)). exact Hk. Qed.
Lemma picked_size dims s : orders_axes dims s -> prodn (picked dims s) = prodn s.
Proof.
  intros P. apply Permutation_prodn. unfold picked. eapply Permutation_trans; [apply Permutation_map, P|]. rewrite <- seq_shift, map_map.
  rewrite (map_ext _ (fun k => nth k s 0)) by (intros k; f_equal; lia). rewrite nth_all. apply Permutation_refl.
Qed.

Lemma window1_length n k s o : o * s + k <= n -> length (window1 false n k s o) = k.
Proof.
  intros H. unfold window1, pool_pad. rewrite (length_flat_map_const _ 1); [lia|]. intros d Hd. cbv zeta. rewrite Nat.sub_0_r.
  destruct (Nat.leb_spec 0 (o * s + d)); [|lia]. destruct (Nat.ltb_spec (o * s + d) n); [reflexivity|lia].
Qed.
Lemma valid_end n k s o : 0 < s -> k <= n -> o < pool_out false n k s -> o * s + k <= n.
Proof. intros Hs Hk Ho. unfold pool_out in Ho. pose proof (Nat.mul_div_le (n - k) s ltac:(lia)). nia. Qed.
Lemma window2_length p i j : pool_valid p -> p_same p = false -> i < out_h p -> j < out_w p -> length (window2 p i j) = p_kh p * p_kw p.
Proof.
  intros (_ & _ & _ & _ & _ & Hs & Hs' & HK) E Hi Hj. destruct (HK E) as [K1 K2]. unfold window2, out_h, out_w in *. rewrite E in *. rewrite prod_length.
  rewrite <- (Permutation_length (window1_covered _ _ _ _ i)), <- (Permutation_length (window1_covered _ _ _ _ j)). rewrite !window1_length by (apply valid_end; assumption). reflexivity.
Qed.
(** A sum of n signed numbers of b bits on a grid. *)
Lemma sum_on_grid f M (l : list Qc) : (forall y, In y l -> exists z, y = (qz z * pow2 (- f))%Qc /\ (- M <= z < M)%Z) -> l <> [] ->
  exists z, fold_right Qcplus (qz 0) l = (qz z * pow2 (- f))%Qc /\ (- M * Z.of_nat (length l) <= z < M * Z.of_nat (length l))%Z.
Proof.
  intros H NE.
  assert (G : forall l, (forall y, In y l -> exists z, y = (qz z * pow2 (- f))%Qc /\ (- M <= z <= M - 1)%Z) ->
    exists z, fold_right Qcplus (qz 0) l = (qz z * pow2 (- f))%Qc /\ (- M * Z.of_nat (length l) <= z <= (M - 1) * Z.of_nat (length l))%Z).
  { clear. induction l as [|a l IH]; intros H; [exists 0%Z; split; [cbn [fold_right]; change (qz 0) with 0%Qc; ring|cbn; lia]|].
    destruct IH as (z & E & B); [intros y Hy; apply H; right; exact Hy|]. destruct (H a (or_introl eq_refl)) as (z' & -> & B'). exists (z' + z)%Z. cbn [fold_right]. rewrite E, qz_add. split; [ring|]. cbn [length]. lia. }
  destruct (G l) as (z & E & B); [intros y Hy; destruct (H y Hy) as (z & E & B); exists z; split; [exact E|lia]|]. exists z. split; [exact E|]. destruct l; [congruence|]. cbn [length] in *. lia.
Qed.

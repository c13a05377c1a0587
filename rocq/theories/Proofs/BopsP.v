(** Facts about matmul_taps, conv_taps and the sums of bit operations. *)
From Coq Require Import ZArith Qcanon List Bool Lia Arith.
From Verif Require Import Base.Num Base.NumFacts Base.Tensor Model.FixedPoint Model.Quantizer Model.Layers Model.Bops Spec.Bops.
Import ListNotations.
Local Open Scope nat_scope.

(** ** Sums *)
Lemma zsum_app l l' : zsum (l ++ l') = (zsum l + zsum l')%Z.
Proof. unfold zsum. induction l as [|a l IH]; cbn [app fold_right]; [reflexivity|]. rewrite IH. lia. Qed.
Lemma zsum_flat_map {A B} (f : B -> Z) (g : A -> list B) l : zsum (map f (flat_map g l)) = zsum (map (fun a => zsum (map f (g a))) l).
Proof. induction l as [|a l IH]; [reflexivity|]. cbn [flat_map map]. rewrite map_app, zsum_app, IH. reflexivity. Qed.
Lemma zsum_cons a l : zsum (a :: l) = (a + zsum l)%Z.
Proof. reflexivity. Qed.
Lemma zsum_seq f n : zsum (map f (seq 0 n)) = sum_to n f.
Proof.
  induction n as [|n IH]; [reflexivity|]. rewrite seq_S, map_app, zsum_app, IH. cbn. lia.
Qed.
Lemma zsum_scale {A} (f : A -> Z) c l : zsum (map (fun a => c * f a)%Z l) = (c * zsum (map f l))%Z.
Proof. induction l as [|a l IH]; [cbn; lia|]. cbn [map]. rewrite !zsum_cons, IH. lia. Qed.
Lemma zsum_ext {A} (f g : A -> Z) l : (forall a, In a l -> f a = g a) -> zsum (map f l) = zsum (map g l).
Proof. intros H. rewrite (map_ext_in _ _ _ H). reflexivity. Qed.
Lemma zsum_const {A} c (l : list A) : zsum (map (fun _ => c) l) = (Z.of_nat (length l) * c)%Z.
Proof. induction l as [|a l IH]; [cbn; lia|]. cbn [map length]. rewrite zsum_cons, IH. lia. Qed.
Lemma zsum_le {A} (f g : A -> Z) l : (forall a, In a l -> f a <= g a)%Z -> (zsum (map f l) <= zsum (map g l))%Z.
Proof.
  induction l as [|a l IH]; intros H; [cbn; lia|]. cbn [map]. rewrite !zsum_cons.
  pose proof (H a (or_introl eq_refl)). assert (zsum (map f l) <= zsum (map g l))%Z by (apply IH; intros; apply H; right; assumption). lia.
Qed.
Lemma zsum_plus {A} (f g : A -> Z) l : zsum (map (fun a => f a + g a)%Z l) = (zsum (map f l) + zsum (map g l))%Z.
Proof. induction l as [|a l IH]; [reflexivity|]. cbn [map]. rewrite !zsum_cons, IH. lia. Qed.
Lemma zsum_swap {A B} (f : A -> B -> Z) l l' :
  zsum (map (fun a => zsum (map (f a) l')) l) = zsum (map (fun b => zsum (map (fun a => f a b) l)) l').
Proof.
  induction l as [|a l IH].
  - cbn [map]. change (zsum []) with 0%Z. rewrite zsum_const. lia.
  - cbn [map]. rewrite zsum_cons, IH, <- zsum_plus. reflexivity.
Qed.
Lemma sum_to_ext n f g : (forall i, i < n -> f i = g i) -> sum_to n f = sum_to n g.
Proof. induction n as [|n IH]; intros H; cbn; [reflexivity|]. rewrite IH by (intros; apply H; lia). rewrite H by lia. reflexivity. Qed.

Lemma qsum_app l l' : qsum (l ++ l') = (qsum l + qsum l')%Qc.
Proof. unfold qsum. induction l as [|a l IH]; cbn [app fold_right]; [rewrite qz_0; ring|]. rewrite IH. ring. Qed.
Lemma qsum_flat_map {A B} (f : B -> Qc) (g : A -> list B) l : qsum (map f (flat_map g l)) = qsum (map (fun a => qsum (map f (g a))) l).
Proof. induction l as [|a l IH]; [reflexivity|]. cbn [flat_map map]. rewrite map_app, qsum_app, IH. reflexivity. Qed.
Lemma qsum_seq f n : qsum (map f (seq 0 n)) = qsum_to n f.
Proof.
  induction n as [|n IH]; [reflexivity|]. rewrite seq_S, map_app, qsum_app, IH. cbn. rewrite qz_0. ring.
Qed.
Lemma qsum_to_ext n f g : (forall i, i < n -> f i = g i) -> qsum_to n f = qsum_to n g.
Proof. induction n as [|n IH]; intros H; cbn; [reflexivity|]. rewrite IH by (intros; apply H; lia). rewrite H by lia. reflexivity. Qed.

(** ** Positions *)
Lemma nth_grid {A} (g : nat -> nat -> A) rows u : forall r c, r < rows -> c < u ->
  nth_error (flat_map (fun r => map (g r) (seq 0 u)) (seq 0 rows)) (r * u + c) = Some (g r c).
Proof.
  assert (H : forall s r c, r < rows -> c < u ->
    nth_error (flat_map (fun r => map (g r) (seq 0 u)) (seq s rows)) (r * u + c) = Some (g (s + r) c)).
  { induction rows as [|n IH]; intros s r c Hr Hc; [lia|]. cbn [seq flat_map]. destruct r as [|r].
    - rewrite nth_error_app1 by (rewrite map_length, seq_length; lia). rewrite nth_error_map.
      replace (nth_error (seq 0 u) (0 * u + c)) with (Some c); [cbn; rewrite Nat.add_0_r; reflexivity|].
      symmetry. rewrite (nth_error_nth' _ 0) by (rewrite seq_length; lia). rewrite seq_nth by lia. reflexivity.
    - rewrite nth_error_app2 by (rewrite map_length, seq_length; nia). rewrite map_length, seq_length.
      replace (S r * u + c - u) with (r * u + c) by nia. rewrite IH by lia. rewrite Nat.add_succ_comm. reflexivity. }
  intros r c. apply (H 0).
Qed.

Lemma flat_map_length_const {A B} (g : A -> list B) l n : (forall a, In a l -> length (g a) = n) -> length (flat_map g l) = length l * n.
Proof.
  induction l as [|a l IH]; intros H; [reflexivity|]. cbn [flat_map length Nat.mul]. rewrite app_length, IH by (intros; apply H; right; assumption).
  rewrite H by (left; reflexivity). reflexivity.
Qed.
Lemma indices_length dims : length (indices dims) = prodn dims.
Proof.
  induction dims as [|d ds IH]; [reflexivity|]. cbn [indices]. change (prodn (d :: ds)) with (d * prodn ds).
  rewrite <- (seq_length d 0) at 2. induction (seq 0 d) as [|i l IHl]; [reflexivity|]. cbn [flat_map]. rewrite app_length, map_length, IHl, IH. cbn [length Nat.mul]. reflexivity.
Qed.
Lemma indices_in dims : forall i, In i (indices dims) <-> Forall2 lt i dims.
Proof.
  induction dims as [|d ds IH]; intros i; cbn [indices].
  - split; [intros [<-|[]]; constructor|]. intros H. inversion H. left. reflexivity.
  - rewrite in_flat_map. split.
    + intros [a [Ha Hi]]. apply in_map_iff in Hi. destruct Hi as [j [<- Hj]]. apply in_seq in Ha. constructor; [lia|]. apply IH, Hj.
    + intros H. inversion H as [|a ? j ? Ha Hj]; subst. exists a. split; [apply in_seq; lia|]. apply in_map. apply IH, Hj.
Qed.
Lemma flat_lt dims : forall i, Forall2 lt i dims -> flat dims i < prodn dims.
Proof.
  induction dims as [|d ds IH]; intros i H; inversion H as [|a ? j ? Ha Hj]; subst; [cbn; lia|].
  cbn [flat]. change (prodn (d :: ds)) with (d * prodn ds). specialize (IH _ Hj). nia.
Qed.
Lemma seq_blocks n m s : flat_map (fun i => seq (i * m) m) (seq s n) = seq (s * m) (n * m).
Proof.
  revert s. induction n as [|n IH]; intros s; [reflexivity|]. cbn [seq flat_map]. rewrite IH. change (S n * m) with (m + n * m).
  rewrite seq_app. f_equal. f_equal. lia.
Qed.
Lemma map_seq_shift n s : map (fun p => s + p) (seq 0 n) = seq s n.
Proof.
  enough (H : forall t, map (fun p => s + p) (seq t n) = seq (s + t) n) by (rewrite H, Nat.add_0_r; reflexivity).
  induction n as [|n IH]; intros t; [reflexivity|]. cbn. f_equal. rewrite IH. f_equal. lia.
Qed.
Lemma flat_indices dims : map (flat dims) (indices dims) = seq 0 (prodn dims).
Proof.
  induction dims as [|d ds IH]; [reflexivity|]. cbn [indices]. rewrite flat_map_concat_map, concat_map, map_map.
  change (seq 0 (prodn (d :: ds))) with (seq (0 * prodn ds) (d * prodn ds)). rewrite <- (seq_blocks d (prodn ds) 0), flat_map_concat_map. f_equal. apply map_ext. intros i.
  rewrite map_map. cbn [flat]. rewrite <- map_seq_shift, <- IH, map_map. reflexivity.
Qed.
Lemma seq_grid n m : flat_map (fun a => map (fun b => a * m + b) (seq 0 m)) (seq 0 n) = seq 0 (n * m).
Proof. change (seq 0 (n * m)) with (seq (0 * m) (n * m)). rewrite <- (seq_blocks n m 0). apply flat_map_ext. intros a. apply map_seq_shift. Qed.
Lemma zsum_nth l : zsum l = sum_to (length l) (fun p => nth p l 0%Z).
Proof.
  rewrite <- zsum_seq. apply (f_equal zsum). apply (nth_ext _ _ 0%Z 0%Z); [rewrite map_length, seq_length; reflexivity|].
  intros n Hn. erewrite (nth_indep (map _ _)); [rewrite (map_nth (fun p => nth p l 0%Z)) with (d := 0)|rewrite map_length, seq_length; exact Hn].
  rewrite seq_nth by assumption. reflexivity.
Qed.

(** ** Matrix product *)
Lemma matmul_at rows n u w x r c : r < rows -> c < u ->
  nth (r * u + c) (linop (matmul_taps rows n u) w x) (qz 0) =
  qsum_to n (fun j => nth (r * n + j) x (qz 0) * nth (j * u + c) w (qz 0))%Qc.
Proof.
  intros Hr Hc. unfold linop. apply nth_error_nth. rewrite nth_error_map.
  unfold matmul_taps. rewrite (nth_grid (fun r c => map (fun j => (r * n + j, j * u + c)) (seq 0 n))) by assumption.
  cbn [option_map]. rewrite map_map. cbn [fst snd]. rewrite qsum_seq. reflexivity.
Qed.
Lemma matmul_length rows n u : length (matmul_taps rows n u) = rows * u.
Proof.
  unfold matmul_taps. rewrite <- (seq_length rows 0) at 2. induction (seq 0 rows) as [|i l IH]; [reflexivity|].
  cbn [flat_map length]. rewrite app_length, IH, map_length, seq_length. lia.
Qed.
Lemma matmul_bits rows n u ibw kbw : zsum (mac_bits (matmul_taps rows n u) ibw kbw) =
  sum_to rows (fun r => sum_to u (fun c => sum_to n (fun j => nth (r * n + j) ibw 0 * nth (j * u + c) kbw 0)%Z)).
Proof.
  unfold mac_bits, matmul_taps. rewrite zsum_flat_map, zsum_seq. apply sum_to_ext. intros r _. rewrite map_map, zsum_seq.
  apply sum_to_ext. intros c _. rewrite map_map, zsum_seq. reflexivity.
Qed.

(** ** Convolution *)
Lemma conv_at first ds cin_g cout groups w x e o c : nth_error (out_index first (map d_out ds) cout) e = Some (o, c) ->
  nth e (linop (conv_taps first ds cin_g cout groups) w x) (qz 0) =
  qsum (map (fun k => match window ds o k with None => qz 0 | Some i => qsum_to cin_g (fun ic =>
    nth (chan_pos first (map d_in ds) (cin_g * groups) i (c / (cout / groups) * cin_g + ic)) x (qz 0) *
    nth ((flat (map d_k ds) k * cin_g + ic) * cout + c) w (qz 0))%Qc end) (indices (map d_k ds))).
Proof.
  intros H. unfold linop. apply nth_error_nth. rewrite nth_error_map. unfold conv_taps. rewrite nth_error_map, H. cbn [option_map].
  f_equal. rewrite qsum_flat_map. f_equal. apply map_ext. intros k. destruct (window ds o k) as [i|]; [|reflexivity].
  rewrite map_map, qsum_seq. reflexivity.
Qed.

Lemma flat_map_single {A B} (f : A -> B) l : flat_map (fun a => [f a]) l = map f l.
Proof. induction l as [|a l IH]; [reflexivity|]. cbn. rewrite IH. reflexivity. Qed.
Lemma indices1 n : indices [n] = map (fun a => [a]) (seq 0 n).
Proof. cbn [indices map]. apply flat_map_single. Qed.
Lemma indices2 n m : indices [n; m] = flat_map (fun a => map (fun b => [a; b]) (seq 0 m)) (seq 0 n).
Proof. cbn [indices map]. apply flat_map_ext. intros a. rewrite flat_map_single, map_map. reflexivity. Qed.
Lemma nth_out1 n cout a c : a < n -> c < cout -> nth_error (out_index false [n] cout) (a * cout + c) = Some ([a], c).
Proof.
  intros Ha Hc. unfold out_index. rewrite indices1, flat_map_concat_map, map_map, <- flat_map_concat_map.
  apply (nth_grid (fun a c => ([a], c))); assumption.
Qed.
Lemma nth_out2 n m cout a b c : a < n -> b < m -> c < cout -> nth_error (out_index false [n; m] cout) ((a * m + b) * cout + c) = Some ([a; b], c).
Proof.
  intros Ha Hb Hc. unfold out_index.
  assert (G : forall s, nth_error (flat_map (fun o => map (fun c => (o, c)) (seq 0 cout)) (flat_map (fun a => map (fun b => [a; b]) (seq 0 m)) (seq s n)))
    ((a * m + b) * cout + c) = Some ([s + a; b], c)).
  { revert a Ha. induction n as [|n IH]; intros a Ha s; [lia|]. cbn [seq flat_map]. rewrite flat_map_app.
    assert (L : length (flat_map (fun o => map (fun c => (o, c)) (seq 0 cout)) (map (fun b => [s; b]) (seq 0 m))) = m * cout).
    { rewrite (flat_map_length_const _ _ cout), map_length, seq_length; [reflexivity|]. intros. rewrite map_length. apply seq_length. }
    destruct a as [|a].
    - rewrite nth_error_app1 by (rewrite L; nia). rewrite flat_map_concat_map, map_map, <- flat_map_concat_map.
      rewrite Nat.add_0_r. cbn [Nat.mul Nat.add]. apply (nth_grid (fun b c => ([s; b], c))); assumption.
    - rewrite nth_error_app2 by (rewrite L; nia). rewrite L. replace ((S a * m + b) * cout + c - m * cout) with ((a * m + b) * cout + c) by nia.
      rewrite IH by lia. rewrite Nat.add_succ_comm. reflexivity. }
  rewrite indices2. apply (G 0).
Qed.

Lemma dim_in d a b : (Nat.leb (d_pad d) (a * d_stride d + b * d_dil d) && Nat.ltb (a * d_stride d + b * d_dil d - d_pad d) (d_in d))%bool =
  let p := (Z.of_nat (a * d_stride d + b * d_dil d) - Z.of_nat (d_pad d))%Z in ((0 <=? p) && (p <? Z.of_nat (d_in d)))%Z.
Proof.
  cbv zeta. destruct (Nat.leb_spec (d_pad d) (a * d_stride d + b * d_dil d)), (Z.leb_spec 0 (Z.of_nat (a * d_stride d + b * d_dil d) - Z.of_nat (d_pad d))); try lia; cbn [andb]; try reflexivity.
  destruct (Nat.ltb_spec (a * d_stride d + b * d_dil d - d_pad d) (d_in d)), (Z.ltb_spec (Z.of_nat (a * d_stride d + b * d_dil d) - Z.of_nat (d_pad d)) (Z.of_nat (d_in d))); try lia; reflexivity.
Qed.
Lemma qsum_to_zero n f : (forall i, i < n -> f i = qz 0) -> qsum_to n f = qz 0.
Proof. induction n as [|n IH]; intros H; cbn; [reflexivity|]. rewrite IH by (intros; apply H; lia). rewrite H by lia. rewrite qz_0. ring. Qed.
Lemma mul0l v : (qz 0 * v)%Qc = qz 0.
Proof. rewrite qz_0. ring. Qed.

Lemma conv1_at d cin_g cout groups w x a c : a < d_out d -> c < cout ->
  nth (a * cout + c) (linop (conv_taps false [d] cin_g cout groups) w x) (qz 0) =
  qsum_to (d_k d) (fun p => qsum_to cin_g (fun ic =>
    padded1 x (d_in d) (cin_g * groups) (Z.of_nat (a * d_stride d + p * d_dil d) - Z.of_nat (d_pad d)) (c / (cout / groups) * cin_g + ic) *
    nth ((p * cin_g + ic) * cout + c) w (qz 0)))%Qc.
Proof.
  intros Ha Hc. cbn [map]. rewrite (conv_at false [d] cin_g cout groups w x _ [a] c) by (apply nth_out1; assumption).
  cbn [map]. rewrite indices1, map_map, qsum_seq. apply qsum_to_ext. intros p _. cbn [window]. rewrite dim_in. cbv zeta.
  unfold padded1. destruct ((0 <=? _) && _)%Z eqn:E.
  - apply qsum_to_ext. intros ic _. unfold chan_pos. cbn [flat prodn fold_right]. rewrite !Nat.mul_1_r, !Nat.add_0_r.
    apply andb_true_iff in E. destruct E as [E _]. apply Z.leb_le in E. f_equal. f_equal. do 2 f_equal. lia.
  - symmetry. apply qsum_to_zero. intros ic _. apply mul0l.
Qed.

Lemma conv2_at d1 d2 cin_g cout groups w x a b c : a < d_out d1 -> b < d_out d2 -> c < cout ->
  nth ((a * d_out d2 + b) * cout + c) (linop (conv_taps false [d1; d2] cin_g cout groups) w x) (qz 0) =
  qsum_to (d_k d1) (fun p => qsum_to (d_k d2) (fun q => qsum_to cin_g (fun ic =>
    padded2 x (d_in d1) (d_in d2) (cin_g * groups) (Z.of_nat (a * d_stride d1 + p * d_dil d1) - Z.of_nat (d_pad d1))
      (Z.of_nat (b * d_stride d2 + q * d_dil d2) - Z.of_nat (d_pad d2)) (c / (cout / groups) * cin_g + ic) *
    nth (((p * d_k d2 + q) * cin_g + ic) * cout + c) w (qz 0))))%Qc.
Proof.
  intros Ha Hb Hc. cbn [map]. rewrite (conv_at false [d1; d2] cin_g cout groups w x _ [a; b] c) by (apply nth_out2; assumption).
  cbn [map]. rewrite indices2, qsum_flat_map, qsum_seq. apply qsum_to_ext. intros p _. rewrite map_map, qsum_seq. apply qsum_to_ext. intros q _.
  cbn [window]. rewrite !dim_in. cbv zeta. unfold padded2. rewrite <- andb_assoc.
  destruct ((0 <=? Z.of_nat (a * _ + _) - _) && _)%Z eqn:E1; cbn [andb].
  - destruct ((0 <=? Z.of_nat (b * _ + _) - _) && _)%Z eqn:E2; cbn [andb].
    + apply qsum_to_ext. intros ic _. unfold chan_pos. cbn [flat prodn fold_right]. rewrite !Nat.mul_1_r, !Nat.add_0_r.
      apply andb_true_iff in E1, E2. destruct E1 as [E1 _], E2 as [E2 _]. apply Z.leb_le in E1, E2. f_equal. f_equal. do 2 f_equal. f_equal; [f_equal|]; lia.
    + symmetry. apply qsum_to_zero. intros ic _. apply mul0l.
  - symmetry. apply qsum_to_zero. intros ic _. apply mul0l.
Qed.

(** data_format channels_first: channels outermost in input and output. *)
Lemma nth_first ds n o c : c < n -> nth_error (indices ds) o <> None ->
  nth_error (out_index true ds n) (c * length (indices ds) + o) = option_map (fun i => (i, c)) (nth_error (indices ds) o).
Proof.
  intros Hc Ho. unfold out_index.
  assert (G : forall s, nth_error (flat_map (fun c => map (fun o => (o, c)) (indices ds)) (seq s n)) (c * length (indices ds) + o) = option_map (fun i => (i, s + c)) (nth_error (indices ds) o)).
  { revert c Hc. induction n as [|n IH]; intros c Hc s; [lia|]. cbn [seq flat_map]. destruct c as [|c].
    - rewrite nth_error_app1 by (rewrite map_length; cbn; apply nth_error_Some; exact Ho). cbn [Nat.mul Nat.add]. rewrite nth_error_map, Nat.add_0_r. reflexivity.
    - rewrite nth_error_app2 by (rewrite map_length; nia). rewrite map_length.
      replace (S c * length (indices ds) + o - length (indices ds)) with (c * length (indices ds) + o) by nia.
      rewrite IH by lia. rewrite Nat.add_succ_comm. reflexivity. }
  apply (G 0).
Qed.
Lemma conv1_first_at d cin_g cout groups w x a c : a < d_out d -> c < cout ->
  nth (c * d_out d + a) (linop (conv_taps true [d] cin_g cout groups) w x) (qz 0) =
  qsum_to (d_k d) (fun p => qsum_to cin_g (fun ic =>
    padded1_first x (d_in d) (Z.of_nat (a * d_stride d + p * d_dil d) - Z.of_nat (d_pad d)) (c / (cout / groups) * cin_g + ic) *
    nth ((p * cin_g + ic) * cout + c) w (qz 0)))%Qc.
Proof.
  intros Ha Hc. cbn [map].
  assert (NI : nth_error (indices [d_out d]) a = Some [a]) by (rewrite indices1, nth_error_map, (nth_error_nth' (seq 0 (d_out d)) 0) by (rewrite seq_length; exact Ha); rewrite seq_nth by exact Ha; reflexivity).
  rewrite (conv_at true [d] cin_g cout groups w x _ [a] c).
  2:{ cbn [map]. pose proof (nth_first [d_out d] cout a c Hc ltac:(congruence)) as N. rewrite NI, indices1, map_length, seq_length in N. exact N. }
  cbn [map]. rewrite indices1, map_map, qsum_seq. apply qsum_to_ext. intros p _. cbn [window]. rewrite dim_in. cbv zeta.
  unfold padded1_first. destruct ((0 <=? _) && _)%Z eqn:E.
  - apply qsum_to_ext. intros ic _. unfold chan_pos. cbn [flat prodn fold_right]. rewrite !Nat.mul_1_r, !Nat.add_0_r.
    apply andb_true_iff in E. destruct E as [E _]. apply Z.leb_le in E. f_equal. f_equal. f_equal. lia.
  - symmetry. apply qsum_to_zero. intros ic _. apply mul0l.
Qed.
Lemma conv2_first_at d1 d2 cin_g cout groups w x a b c : a < d_out d1 -> b < d_out d2 -> c < cout ->
  nth (c * (d_out d1 * d_out d2) + (a * d_out d2 + b)) (linop (conv_taps true [d1; d2] cin_g cout groups) w x) (qz 0) =
  qsum_to (d_k d1) (fun p => qsum_to (d_k d2) (fun q => qsum_to cin_g (fun ic =>
    padded2_first x (d_in d1) (d_in d2) (Z.of_nat (a * d_stride d1 + p * d_dil d1) - Z.of_nat (d_pad d1))
      (Z.of_nat (b * d_stride d2 + q * d_dil d2) - Z.of_nat (d_pad d2)) (c / (cout / groups) * cin_g + ic) *
    nth (((p * d_k d2 + q) * cin_g + ic) * cout + c) w (qz 0))))%Qc.
Proof.
  intros Ha Hb Hc. cbn [map].
  assert (NI : nth_error (indices [d_out d1; d_out d2]) (a * d_out d2 + b) = Some [a; b]) by (rewrite indices2; apply (nth_grid (fun a b => [a; b])); assumption).
  rewrite (conv_at true [d1; d2] cin_g cout groups w x _ [a; b] c).
  2:{ cbn [map]. pose proof (nth_first [d_out d1; d_out d2] cout (a * d_out d2 + b) c Hc ltac:(congruence)) as N. rewrite NI, indices_length in N. cbn [prodn fold_right] in N. rewrite Nat.mul_1_r in N. exact N. }
  cbn [map]. rewrite indices2, qsum_flat_map, qsum_seq. apply qsum_to_ext. intros p _. rewrite map_map, qsum_seq. apply qsum_to_ext. intros q _.
  cbn [window]. rewrite !dim_in. cbv zeta. unfold padded2_first. rewrite <- andb_assoc.
  destruct ((0 <=? Z.of_nat (a * _ + _) - _) && _)%Z eqn:E1; cbn [andb].
  - destruct ((0 <=? Z.of_nat (b * _ + _) - _) && _)%Z eqn:E2; cbn [andb].
    + apply qsum_to_ext. intros ic _. unfold chan_pos. cbn [flat prodn fold_right]. rewrite !Nat.mul_1_r, !Nat.add_0_r.
      apply andb_true_iff in E1, E2. destruct E1 as [E1 _], E2 as [E2 _]. apply Z.leb_le in E1, E2. f_equal. f_equal. do 2 f_equal; [f_equal|]; lia.
    + symmetry. apply qsum_to_zero. intros ic _. apply mul0l.
  - symmetry. apply qsum_to_zero. intros ic _. apply mul0l.
Qed.

(** ** Geometry *)
Lemma valid_spec n k s dil a : 0 < s -> (a < d_out (valid_dim n k s dil) <-> a * s + (k - 1) * dil < n).
Proof.
  intros Hs. unfold valid_dim. cbn [d_out]. set (m := (k - 1) * dil).
  pose proof (Nat.div_mod (n - m + s - 1) s ltac:(lia)) as D. pose proof (Nat.mod_upper_bound (n - m + s - 1) s ltac:(lia)).
  set (q := (n - m + s - 1) / s) in *. set (r := (n - m + s - 1) mod s) in *. clearbody q r. split; intros; nia.
Qed.
Lemma same_spec n k s dil a : 0 < s -> (a < d_out (same_dim n k s dil) <-> a * s < n).
Proof.
  intros Hs. unfold same_dim. cbn [d_out].
  pose proof (Nat.div_mod (n + s - 1) s ltac:(lia)) as D. pose proof (Nat.mod_upper_bound (n + s - 1) s ltac:(lia)).
  set (q := (n + s - 1) / s) in *. set (r := (n + s - 1) mod s) in *. clearbody q r. split; intros; nia.
Qed.

(** ** Bit operations of a convolution *)
Lemma window_in ds : forall o k i, Forall2 lt o (map d_out ds) -> Forall2 lt k (map d_k ds) -> window ds o k = Some i -> Forall2 lt i (map d_in ds).
Proof.
  induction ds as [|d ds IH]; intros o k i Ho Hk E; inversion Ho as [|a ? o' ? Ha Ho']; inversion Hk as [|b ? k' ? Hb Hk']; subst; cbn [window map] in *.
  - injection E as <-. constructor.
  - destruct (Nat.leb _ _ && Nat.ltb _ _)%bool eqn:C; [|discriminate]. destruct (window ds o' k') as [r|] eqn:W; [|discriminate]. injection E as <-.
    apply andb_true_iff in C. destruct C as [_ C]. apply Nat.ltb_lt in C. constructor; [exact C|]. eapply IH; eassumption.
Qed.
(** A dimension that never reads padding. *)
Definition no_padding (d : sdim) : Prop := forall a b, a < d_out d -> b < d_k d ->
  d_pad d <= a * d_stride d + b * d_dil d /\ a * d_stride d + b * d_dil d - d_pad d < d_in d.
Lemma window_some ds : Forall no_padding ds -> forall o k, Forall2 lt o (map d_out ds) -> Forall2 lt k (map d_k ds) -> exists i, window ds o k = Some i.
Proof.
  induction 1 as [|d ds Hd _ IH]; intros o k Ho Hk; inversion Ho as [|a ? o' ? Ha Ho']; inversion Hk as [|b ? k' ? Hb Hk']; subst; cbn [window map] in *; [eauto|].
  destruct (Hd a b Ha Hb) as [H1 H2]. apply Nat.leb_le in H1. apply Nat.ltb_lt in H2. rewrite H1, H2. cbn [andb].
  destruct (IH _ _ Ho' Hk') as [i ->]. eauto.
Qed.
Lemma valid_no_padding n k s dil : 0 < s -> no_padding (valid_dim n k s dil).
Proof.
  intros Hs a b Ha Hb. apply (valid_spec n k s dil a Hs) in Ha. unfold valid_dim in *. cbn [d_k d_pad d_stride d_dil d_in] in *. split; [lia|].
  assert (b * dil <= (k - 1) * dil) by (apply Nat.mul_le_mono_r; lia). lia.
Qed.

Lemma out_index_sum first dims n f : zsum (map f (out_index first dims n)) = zsum (map (fun o => sum_to n (fun c => f (o, c))) (indices dims)).
Proof.
  unfold out_index. destruct first; rewrite zsum_flat_map.
  - erewrite zsum_ext; [|intros c _; rewrite map_map; reflexivity]. rewrite zsum_swap. apply zsum_ext. intros o _. apply zsum_seq.
  - apply zsum_ext. intros o _. rewrite map_map. apply zsum_seq.
Qed.
Lemma out_index_in first dims n o c : In (o, c) (out_index first dims n) -> Forall2 lt o dims /\ c < n.
Proof.
  unfold out_index. intros H. destruct first; apply in_flat_map in H; destruct H as [a [Ha H]]; apply in_map_iff in H; destruct H as [b [E H]]; injection E as -> ->.
  - apply in_seq in Ha. apply indices_in in H. split; [assumption|lia].
  - apply in_seq in H. apply indices_in in Ha. split; [assumption|lia].
Qed.

(** The kernel entries, enumerated by channel, position and input channel. *)
Lemma kernel_sum ks cin_g cout kbw : length kbw = prodn ks * cin_g * cout ->
  sum_to cout (fun c => zsum (map (fun k => sum_to cin_g (fun ic => nth ((flat ks k * cin_g + ic) * cout + c) kbw 0%Z)) (indices ks))) = zsum kbw.
Proof.
  intros L. rewrite (zsum_nth kbw), L, <- (zsum_seq _ (prodn ks * cin_g * cout)), <- (seq_grid (prodn ks * cin_g) cout).
  rewrite zsum_flat_map, <- (seq_grid (prodn ks) cin_g), zsum_flat_map, <- (flat_indices ks), map_map, <- zsum_seq, zsum_swap.
  apply zsum_ext. intros k _. rewrite map_map.
  transitivity (zsum (map (fun c => zsum (map (fun ic => nth ((flat ks k * cin_g + ic) * cout + c) kbw 0%Z) (seq 0 cin_g))) (seq 0 cout))).
  - apply zsum_ext. intros c _. symmetry. apply zsum_seq.
  - rewrite zsum_swap. apply zsum_ext. intros ic _. rewrite map_map. reflexivity.
Qed.

Lemma chan_pos_lt first dims n i c : Forall2 lt i dims -> c < n -> chan_pos first dims n i c < prodn dims * n.
Proof. intros H Hc. apply flat_lt in H. unfold chan_pos. destruct first; nia. Qed.

Lemma repeat_nth {A} (v d : A) n p : p < n -> nth p (repeat v n) d = v.
Proof. revert p. induction n as [|n IH]; intros p H; [lia|]. destruct p; cbn; [reflexivity|]. apply IH. lia. Qed.
Lemma sum_to_scale n c f : sum_to n (fun i => c * f i)%Z = (c * sum_to n f)%Z.
Proof. induction n as [|n IH]; cbn; [lia|]. rewrite IH. lia. Qed.

Section Conv.
  Context (first : bool) (ds : list sdim) (cin_g m groups : nat) (bi : Z) (kbw : list Z).
  Let cout := m * groups.
  Let ibw := repeat bi (prodn (map d_in ds) * (cin_g * groups)).
  Hypothesis Hm : 0 < m.
  Hypothesis Hg : 0 < groups.
  Hypothesis Hk : length kbw = prodn (map d_k ds) * cin_g * cout.

  (** Contribution of one output element. *)
  Let term (o : list nat) (c : nat) (k : list nat) : Z :=
    match window ds o k with None => 0%Z | Some _ => (bi * sum_to cin_g (fun ic => nth ((flat (map d_k ds) k * cin_g + ic) * cout + c) kbw 0%Z))%Z end.

  Lemma conv_bits_sum : zsum (mac_bits (conv_taps first ds cin_g cout groups) ibw kbw) =
    zsum (map (fun o => sum_to cout (fun c => zsum (map (term o c) (indices (map d_k ds))))) (indices (map d_out ds))).
  Proof.
    unfold mac_bits, conv_taps. rewrite map_map.
    etransitivity; [|exact (out_index_sum first (map d_out ds) cout (fun oc => zsum (map (term (fst oc) (snd oc)) (indices (map d_k ds)))))].
    apply zsum_ext. intros [o c] Hoc. apply out_index_in in Hoc. destruct Hoc as [Ho Hc]. cbn [fst snd]. rewrite zsum_flat_map.
    apply zsum_ext. intros k Hk'. apply indices_in in Hk'. unfold term. destruct (window ds o k) as [i|] eqn:W; [|reflexivity].
    rewrite map_map, zsum_seq, <- sum_to_scale. apply sum_to_ext. intros ic Hic. cbn [fst snd]. unfold ibw. rewrite repeat_nth; [reflexivity|].
    apply chan_pos_lt; [eapply window_in; eassumption|]. unfold cout. rewrite Nat.div_mul by lia.
    assert (c / m < groups) by (apply Nat.div_lt_upper_bound; unfold cout in Hc; lia). nia.
  Qed.

  Lemma conv_bits_valid : Forall no_padding ds ->
    zsum (mac_bits (conv_taps first ds cin_g cout groups) ibw kbw) = (Z.of_nat (prodn (map d_out ds)) * (bi * zsum kbw))%Z.
  Proof.
    intros HN. rewrite conv_bits_sum. rewrite <- (indices_length (map d_out ds)), <- zsum_const. apply zsum_ext. intros o Ho.
    apply indices_in in Ho. rewrite <- (kernel_sum (map d_k ds) cin_g cout kbw Hk), <- sum_to_scale. apply sum_to_ext. intros c _.
    rewrite <- zsum_scale. apply zsum_ext. intros k Hk'. apply indices_in in Hk'. unfold term. destruct (window_some ds HN o k Ho Hk') as [i ->]. reflexivity.
  Qed.

  Lemma conv_bits_le : (0 <= bi)%Z -> Forall (fun b => 0 <= b)%Z kbw ->
    (0 <= zsum (mac_bits (conv_taps first ds cin_g cout groups) ibw kbw) <= Z.of_nat (prodn (map d_out ds)) * (bi * zsum kbw))%Z.
  Proof.
    intros Hb HP. rewrite conv_bits_sum.
    assert (N : forall p, (0 <= nth p kbw 0)%Z).
    { intros p. destruct (Nat.ltb_spec p (length kbw)) as [L|L]; [|rewrite nth_overflow by assumption; lia]. rewrite Forall_forall in HP. apply HP, nth_In, L. }
    assert (NS : forall n f, (forall i, 0 <= f i)%Z -> (0 <= sum_to n f)%Z).
    { intros n f H. induction n as [|n IH]; cbn; [lia|]. specialize (H n). lia. }
    assert (T : forall o c k, (0 <= term o c k <= bi * sum_to cin_g (fun ic => nth ((flat (map d_k ds) k * cin_g + ic) * cout + c) kbw 0%Z))%Z).
    { intros o c k. unfold term. pose proof (NS cin_g (fun ic => nth ((flat (map d_k ds) k * cin_g + ic) * cout + c) kbw 0%Z) ltac:(intros; apply N)).
      destruct (window ds o k); nia. }
    assert (ZP : forall A (f : A -> Z) l, (forall a, 0 <= f a)%Z -> (0 <= zsum (map f l))%Z).
    { intros A f l H. induction l as [|a l IH]; [cbn; lia|]. cbn [map]. rewrite zsum_cons. specialize (H a). lia. }
    split.
    - apply ZP. intros o. apply NS. intros c. apply ZP. intros k. apply T.
    - rewrite <- (indices_length (map d_out ds)), <- zsum_const. apply zsum_le. intros o _.
      rewrite <- (kernel_sum (map d_k ds) cin_g cout kbw Hk), <- sum_to_scale, <- !zsum_seq. apply zsum_le. intros c _.
      rewrite <- zsum_scale. apply zsum_le. intros k _. apply T.
  Qed.
End Conv.

(** Convolutions with any number of spatial dimensions (C60). *)
From Coq Require Import ZArith Qcanon List Bool Lia Arith.
From Verif Require Import Base.Num Base.NumFacts Base.Tensor Model.FixedPoint Model.Quantizer Model.Layers Model.Bops Spec.Bops Spec.ConvN Proofs.TensorP Proofs.BopsP.
Import ListNotations.
Local Open Scope nat_scope.

(** The coordinate read at output position [a] and kernel position [p]. *)
Definition reads_at (ds : list sdim) (a p : list nat) : list Z :=
  map (fun dap => let '(d, (i, k)) := dap in (Z.of_nat (i * d_stride d + k * d_dil d) - Z.of_nat (d_pad d))%Z) (combine ds (combine a p)).

Lemma row_major_acc ns : forall is acc, length ns = length is -> fold_left (fun acc ni => acc * fst ni + snd ni) (combine ns is) acc = acc * prodn ns + flat ns is.
Proof.
  induction ns as [|n ns IH]; intros [|i is] acc L; try discriminate; [cbn; lia|]. cbn [combine fold_left fst snd flat]. rewrite IH by (cbn in L; lia). rewrite prodn_cons. nia.
Qed.
Lemma row_major_flat ns is : length ns = length is -> row_major ns is = flat ns is.
Proof. intros L. unfold row_major. rewrite row_major_acc by exact L. lia. Qed.

Lemma nth_blocks {A B} (f : A -> list B) n j : forall l i a, (forall b, length (f b) = n) -> nth_error l i = Some a -> j < n ->
  nth_error (flat_map f l) (i * n + j) = nth_error (f a) j.
Proof.
  intros l. induction l as [|b l IH]; intros [|i] a L H J; try discriminate; cbn [flat_map].
  - injection H as ->. rewrite nth_error_app1 by (rewrite L; lia). reflexivity.
  - rewrite nth_error_app2 by (rewrite L; lia). rewrite L. replace (S i * n + j - n) with (i * n + j) by lia. apply IH; assumption.
Qed.
Lemma nth_error_seq d i : i < d -> nth_error (seq 0 d) i = Some i.
Proof. intros H. rewrite (nth_error_nth' (seq 0 d) 0) by (rewrite seq_length; exact H). rewrite seq_nth by exact H. reflexivity. Qed.
Lemma flat_lt ns is : Forall2 lt is ns -> flat ns is < prodn ns.
Proof.
  intros H. induction H as [|i n is ns Hi H IH]; [cbn; lia|]. cbn [flat]. rewrite prodn_cons. nia.
Qed.
Lemma nth_indices ns is : Forall2 lt is ns -> nth_error (indices ns) (flat ns is) = Some is.
Proof.
  intros H. induction H as [|i n is ns Hi H IH]; [reflexivity|]. cbn [indices flat].
  rewrite (nth_blocks (fun i => map (cons i) (indices ns)) (prodn ns) (flat ns is) (seq 0 n) i i).
  - rewrite nth_error_map, IH. reflexivity.
  - intros b. rewrite map_length. apply indices_length.
  - apply nth_error_seq, Hi.
  - apply flat_lt, H.
Qed.
Lemma nth_out ns is cout c : Forall2 lt is ns -> c < cout -> nth_error (out_index false ns cout) (flat ns is * cout + c) = Some (is, c).
Proof.
  intros H Hc. unfold out_index. rewrite (nth_blocks (fun o => map (fun c => (o, c)) (seq 0 cout)) cout c (indices ns) (flat ns is) is).
  - rewrite nth_error_map, nth_error_seq by exact Hc. reflexivity.
  - intros b. rewrite map_length. apply seq_length.
  - apply nth_indices, H.
  - exact Hc.
Qed.

Lemma sum_over_ext ns : forall f g, (forall p, length p = length ns -> f p = g p) -> sum_over ns f = sum_over ns g.
Proof.
  induction ns as [|n ns IH]; intros f g H; cbn [sum_over]; [apply H; reflexivity|]. apply qsum_to_ext. intros i _. apply IH. intros p L. apply H. cbn. congruence.
Qed.
Lemma sum_indices ns : forall g, qsum (map g (indices ns)) = sum_over ns g.
Proof.
  induction ns as [|n ns IH]; intros g; cbn [sum_over indices].
  - cbn [map]. unfold qsum. cbn [fold_right]. rewrite qz_0. ring.
  - rewrite qsum_flat_map, qsum_seq. apply qsum_to_ext. intros i _. rewrite map_map. apply IH.
Qed.

Lemma window_reads ds : forall a p, length a = length ds -> length p = length ds ->
  window ds a p = if inside (map d_in ds) (reads_at ds a p) then Some (map Z.to_nat (reads_at ds a p)) else None.
Proof.
  unfold inside, reads_at. induction ds as [|d ds IH]; intros [|i a] [|k p] L1 L2; try discriminate; [reflexivity|]. cbn [window combine map forallb fst snd].
  rewrite dim_in. cbv zeta. destruct ((0 <=? _) && _)%Z eqn:E; cbn [andb]; [|reflexivity]. rewrite IH by (cbn in *; lia).
  destruct (forallb _ _); [|reflexivity]. apply andb_true_iff in E. destruct E as [E _]. apply Z.leb_le in E. do 2 f_equal. lia.
Qed.
Lemma reads_length ds a p : length a = length ds -> length p = length ds -> length (reads_at ds a p) = length ds.
Proof. intros L1 L2. unfold reads_at. rewrite map_length, !combine_length. lia. Qed.

Lemma forall2_length {A B} (R : A -> B -> Prop) l l' : Forall2 R l l' -> length l = length l'.
Proof. intros H. induction H; [reflexivity|]. cbn. congruence. Qed.
Lemma convn_at ds cin_g cout groups w x a c : Forall2 lt a (map d_out ds) -> c < cout ->
  nth (row_major (map d_out ds) a * cout + c) (linop (conv_taps false ds cin_g cout groups) w x) (qz 0) =
  sum_over (map d_k ds) (fun p => qsum_to cin_g (fun ic =>
    padded_last x (map d_in ds) (cin_g * groups) (reads_at ds a p) (c / (cout / groups) * cin_g + ic) *
    nth ((row_major (map d_k ds) p * cin_g + ic) * cout + c) w (qz 0)))%Qc.
Proof.
  intros Ha Hc. pose proof (forall2_length _ _ _ Ha) as L. rewrite map_length in L.
  rewrite row_major_flat by (rewrite map_length; lia). rewrite (conv_at false ds cin_g cout groups w x _ a c) by (apply nth_out; assumption).
  rewrite sum_indices. apply sum_over_ext. intros p Lp. rewrite map_length in Lp. rewrite window_reads by assumption. unfold padded_last.
  rewrite (row_major_flat (map d_k ds)) by (rewrite map_length; lia).
  destruct (inside _ _).
  - apply qsum_to_ext. intros ic _. unfold chan_pos. rewrite row_major_flat by (rewrite !map_length, reads_length by assumption; reflexivity). reflexivity.
  - symmetry. apply qsum_to_zero. intros ic _. apply mul0l.
Qed.
Lemma convn_first_at ds cin_g cout groups w x a c : Forall2 lt a (map d_out ds) -> c < cout ->
  nth (c * fold_right Nat.mul 1 (map d_out ds) + row_major (map d_out ds) a) (linop (conv_taps true ds cin_g cout groups) w x) (qz 0) =
  sum_over (map d_k ds) (fun p => qsum_to cin_g (fun ic =>
    padded_first x (map d_in ds) (reads_at ds a p) (c / (cout / groups) * cin_g + ic) *
    nth ((row_major (map d_k ds) p * cin_g + ic) * cout + c) w (qz 0)))%Qc.
Proof.
  intros Ha Hc. pose proof (forall2_length _ _ _ Ha) as L. rewrite map_length in L. change (fold_right Nat.mul 1 (map d_out ds)) with (prodn (map d_out ds)).
  rewrite row_major_flat by (rewrite map_length; lia). rewrite (conv_at true ds cin_g cout groups w x _ a c).
  2:{ pose proof (nth_indices _ _ Ha) as N. pose proof (nth_first (map d_out ds) cout _ c Hc ltac:(rewrite N; discriminate)) as F. rewrite N, indices_length in F. exact F. }
  rewrite sum_indices. apply sum_over_ext. intros p Lp. rewrite map_length in Lp. rewrite window_reads by assumption. unfold padded_first.
  rewrite (row_major_flat (map d_k ds)) by (rewrite map_length; lia).
  destruct (inside _ _).
  - apply qsum_to_ext. intros ic _. unfold chan_pos. rewrite row_major_flat by (rewrite !map_length, reads_length by assumption; reflexivity). reflexivity.
  - symmetry. apply qsum_to_zero. intros ic _. apply mul0l.
Qed.
Lemma convn_length ds cin_g cout groups : length (conv_taps false ds cin_g cout groups) = prodn (map d_out ds) * cout.
Proof.
  unfold conv_taps, out_index. rewrite map_length, (flat_map_length_const _ _ cout) by (intros; rewrite map_length; apply seq_length). rewrite indices_length. reflexivity.
Qed.

(** C43: bitwidths reported by passive layers. *)
From Coq Require Import ZArith QArith Qcanon List Bool Arith Permutation Lia.
From Verif Require Import Base.Num Base.NumFacts Base.Compute Base.Tensor Model.Layers Model.Passive Spec.Passive
  Proofs.TensorP Proofs.PassiveP.
Import ListNotations.
Local Open Scope nat_scope.

(** C43: reshape, flatten and dropout: element p of every sample is passed on as element p, and
    the reported bitwidth of element p is that of input element p. *)
Theorem C43_reshape : forall n inp out (x : tensor Qc) (bw : tensor Z),
  shape x = n :: inp -> wf_tensor x -> shape bw = 1 :: inp -> wf_tensor bw -> prodn inp = prodn out ->
  exists y b, reshape_values x out = Ok y /\ p_act_bw bw out = Ok b /\ shape y = n :: out /\ shape b = 1 :: out /\
    forall j p, at_ (qz 0) y j p = at_ (qz 0) x j p /\ at_ 0%Z b 0 p = at_ 0%Z bw 0 p.
Proof.
  intros n inp out x bw Sx Wx Sb Wb E. unfold reshape_values, p_act_bw, reshape. unfold wf_tensor in *. rewrite Sx in *. rewrite Wx, Wb, Sb, !prodn_cons, E, !Nat.eqb_refl.
  exists (mkT (n :: out) (data x)), (mkT (1 :: out) (data bw)). repeat (split; [reflexivity|]).
  intros j p. unfold at_. rewrite Sx, Sb. cbn [shape tl data]. rewrite E. split; reflexivity.
Qed.
Print Assumptions C43_reshape.

(** C43: a reshape between sizes that differ is an error. *)
Theorem C43_reshape_mismatch : forall inp out (bw : tensor Z), shape bw = 1 :: inp -> wf_tensor bw -> prodn inp <> prodn out ->
  p_act_bw bw out = Raise.
Proof.
  intros inp out bw Sb Wb N. unfold p_act_bw, reshape. unfold wf_tensor in Wb. rewrite Wb, Sb, !prodn_cons.
  destruct (Nat.eqb_spec (1 * prodn inp) (1 * prodn out)); [lia|reflexivity].
Qed.
Print Assumptions C43_reshape_mismatch.

(** C43: concatenate: position e of every output sample comes from one position p of one input i,
    and the bitwidth reported for e is that of position p of input i. *)
Theorem C43_concatenate : forall a n s0 (xs : list (tensor Qc)) (bws : list (tensor Z)),
  a < length s0 -> xs <> [] -> Forall wf_tensor xs -> Forall wf_tensor bws ->
  Forall (fun x => exists s, shape x = n :: s /\ agree_off a s s0) xs ->
  map shape bws = map (fun x => 1 :: tl (shape x)) xs ->
  exists y b, concat_axis (S a) xs = Ok y /\ concat_act_bw (S a) bws = Ok b /\ wf_tensor y /\ wf_tensor b /\
    shape b = 1 :: tl (shape y) /\
    let ws := map (fun x => nth (S a) (shape x) 0) xs in let inner := prodn (skipn (S a) s0) in
    (forall e, e < prodn (tl (shape y)) -> exists i p, concat_source ws inner e i p) /\
    forall e i p, e < prodn (tl (shape y)) -> concat_source ws inner e i p ->
      (forall j, j < n -> at_ (qz 0) y j e = at_ (qz 0) (nth i xs (mkT [] [])) j p) /\
      at_ 0%Z b 0 e = at_ 0%Z (nth i bws (mkT [] [])) 0 p.
Proof.
  intros a n s0 xs bws Ha Hne Wx Wb Sx Sb.
  assert (Hne' : bws <> []).
  { intros ->. apply Hne. destruct xs; [reflexivity|discriminate Sb]. }
  assert (Sb' : Forall (fun b => exists s, shape b = 1 :: s /\ agree_off a s s0) bws).
  { apply Forall_forall. intros b Hb. apply (in_map shape) in Hb. rewrite Sb in Hb. apply in_map_iff in Hb. destruct Hb as [x [Ex Hx]].
    destruct (proj1 (Forall_forall _ _) Sx x Hx) as [s [Es Ag]]. exists s. rewrite <- Ex, Es. split; [reflexivity|exact Ag]. }
  assert (Ews : map (fun b => nth (S a) (shape b) 0) bws = map (fun x => nth (S a) (shape x) 0) xs).
  { rewrite <- (map_map shape (fun s => nth (S a) s 0) bws), Sb, map_map. apply map_ext_in. intros x Hx.
    destruct (proj1 (Forall_forall _ _) Sx x Hx) as [s [Es _]]. rewrite Es. reflexivity. }
  destruct (concat_ok a n s0 xs Ha Hne Wx Sx) as [y [Ey [Sy _]]].
  destruct (concat_ok a 1 s0 bws Ha Hne' Wb Sb') as [b [Eb [Sb2 _]]].
  exists y, b. split; [exact Ey|]. split; [exact Eb|]. split; [exact (concat_wf a n s0 xs Ha Hne Wx Sx y Ey)|].
  split; [exact (concat_wf a 1 s0 bws Ha Hne' Wb Sb' b Eb)|]. rewrite Sy, Sb2. cbn [tl]. split; [rewrite Ews; reflexivity|].
  cbn zeta. split.
  - intros e He. apply (concat_source_exists _ (prodn (firstn a s0))). rewrite prodn_out in He. exact He.
  - intros e i p He Hs. split.
    + intros j Hj. apply (concat_at (qz 0) a n s0 xs Ha Hne Wx Sx y j e i p); [exact Ey|exact Hj|rewrite Sy; exact He|exact Hs].
    + apply (concat_at 0%Z a 1 s0 bws Ha Hne' Wb Sb' b 0 e i p); [exact Eb|lia|rewrite Sb2, Ews; exact He|rewrite Ews; exact Hs].
Qed.
Print Assumptions C43_concatenate.

(** C43: max pooling: the output at e is the largest of the inputs it looks at, hence one of them,
    and the bitwidth reported for e is the largest of theirs. *)
Theorem C43_max_pool : forall p e, pool_valid p -> e < pool_size p ->
  exists win, win <> [] /\ (forall q, In q win -> q < p_h p * p_w p * p_c p) /\
    forall (x : list Qc) (bw : list Z),
      let y := nth e (max_pool qmax (qz 0) p x) (qz 0) in let b := nth e (pool_act_bw p bw) 0%Z in
      (exists q, In q win /\ y = nth q x (qz 0)) /\ (forall q, In q win -> (nth q x (qz 0) <= y)%Qc) /\
      (exists q, In q win /\ b = nth q bw 0%Z) /\ (forall q, In q win -> (nth q bw 0 <= b)%Z).
Proof.
  intros p e Hv He. exists (window p e). split; [apply window_nonempty; assumption|].
  split; [intros q Hq; apply (window_range p e q Hq He)|]. intros x bw y b.
  destruct (max_pool_spec Qcle qmax Qcle_refl Qcle_trans) with (d := qz 0) (p := p) (e := e) (x := x) as [V1 V2]; try assumption.
  { intros u v. destruct (qmax_spec u v) as [[? ->]|[? ->]]; [assumption|apply Qcle_refl]. }
  { intros u v. destruct (qmax_spec u v) as [[? ->]|[? ->]]; [apply Qcle_refl|apply Qclt_le_weak; assumption]. }
  { intros u v. destruct (qmax_spec u v) as [[? ->]|[? ->]]; auto. }
  destruct (max_pool_spec Z.le Z.max Z.le_refl Z.le_trans) with (d := 0%Z) (p := p) (e := e) (x := bw) as [B1 B2]; try assumption.
  { intros; lia. } { intros; lia. } { intros; lia. }
  split; [exact V1|]. split; [exact V2|]. split; [exact B1|exact B2].
Qed.
Print Assumptions C43_max_pool.

(** C43: without padding, the bitwidth reported for output row i, column j of channel ch is the
    largest of those of rows [i*sh, i*sh + kh) and columns [j*sw, j*sw + kw) of that channel. *)
Theorem C43_pool_position : forall p i j ch (bw : list Z), pool_valid p -> p_same p = false ->
  i < out_h p -> j < out_w p -> ch < p_c p ->
  let at3 a b := nth (flat (p_first p) (p_h p) (p_w p) (p_c p) a b ch) bw 0%Z in
  let r := nth (flat (p_first p) (out_h p) (out_w p) (p_c p) i j ch) (pool_act_bw p bw) 0%Z in
  (forall a b, i * p_sh p <= a < i * p_sh p + p_kh p -> j * p_sw p <= b < j * p_sw p + p_kw p -> (at3 a b <= r)%Z) /\
  (exists a b, i * p_sh p <= a < i * p_sh p + p_kh p /\ j * p_sw p <= b < j * p_sw p + p_kw p /\ r = at3 a b).
Proof.
  intros p i j ch bw Hv Hs Hi Hj Hc at3 r.
  assert (He : flat (p_first p) (out_h p) (out_w p) (p_c p) i j ch < pool_size p) by (apply flat_range; assumption).
  destruct (max_pool_spec Z.le Z.max Z.le_refl Z.le_trans) with (d := 0%Z) (p := p) (x := bw) (5 := He) as [B1 B2]; try assumption.
  { intros; lia. } { intros; lia. } { intros; lia. }
  destruct Hv as [_ [_ [_ [_ [_ [Psh [Psw Hk]]]]]]]. specialize (Hk Hs).
  assert (Ri : i * p_sh p + p_kh p <= p_h p).
  { unfold out_h, pool_out in Hi. rewrite Hs in Hi. pose proof (Nat.mul_div_le (p_h p - p_kh p) (p_sh p) ltac:(lia)). nia. }
  assert (Rj : j * p_sw p + p_kw p <= p_w p).
  { unfold out_w, pool_out in Hj. rewrite Hs in Hj. pose proof (Nat.mul_div_le (p_w p - p_kw p) (p_sw p) ltac:(lia)). nia. }
  split.
  - intros a b Ha Hb. apply B2. apply window_at; try assumption. exists a, b. unfold pool_pad. rewrite Hs. split; [reflexivity|]. lia.
  - destruct B1 as [q [Hq E]]. apply window_at in Hq; try assumption. destruct Hq as [a [b [-> [_ [_ [Ba Bb]]]]]].
    unfold pool_pad in Ba, Bb. rewrite Hs in Ba, Bb. exists a, b. split; [lia|]. split; [lia|exact E].
Qed.
Print Assumptions C43_pool_position.

(** C43: so for signed inputs on one grid the reported bits suffice for every output value. *)
Theorem C43_max_pool_suffices : forall p e f (bw : list Z), pool_valid p -> e < pool_size p ->
  (forall q, q < p_h p * p_w p * p_c p -> (1 <= nth q bw 0)%Z) ->
  bits_suffice (nth e (pool_act_bw p bw) 0%Z)
    (fun y => exists x, (forall q, q < p_h p * p_w p * p_c p ->
                  exists z, nth q x (qz 0) = (qz z * pow2 (- f))%Qc /\ (- 2 ^ (nth q bw 0 - 1) <= z < 2 ^ (nth q bw 0 - 1))%Z) /\
                y = nth e (max_pool qmax (qz 0) p x) (qz 0)).
Proof.
  intros p e f bw Hv He H1. destruct (C43_max_pool p e Hv He) as [win [_ [Hr H]]].
  set (b := nth e (pool_act_bw p bw) 0%Z) in *. exists f, (- 2 ^ (b - 1))%Z. intros y [x [Hx ->]].
  destruct (H x bw) as [[q [Hq ->]] [_ [_ Hb]]]. destruct (Hx q (Hr q Hq)) as [z [Ez Bz]]. exists z. split; [exact Ez|].
  specialize (Hb q Hq). fold b in Hb. specialize (H1 q (Hr q Hq)).
  assert (2 ^ (nth q bw 0 - 1) <= 2 ^ (b - 1))%Z by (apply Z.pow_le_mono_r; lia).
  replace (2 ^ b)%Z with (2 * 2 ^ (b - 1))%Z; [lia|]. rewrite <- Z.pow_succ_r by lia. f_equal. lia.
Qed.
Print Assumptions C43_max_pool_suffices.

(** Concatenating channels (axis 2 of samples of shape (2, c)): 2 x 1 and 2 x 2. *)
Example C43_concatenate_nonvacuous :
  concat_axis 2 [mkT [1; 2; 1] [10; 20]; mkT [1; 2; 2] [1; 2; 3; 4]] = Ok (mkT [1; 2; 3] [10; 1; 2; 20; 3; 4]) /\
  concat_source [1; 2] 1 4 1 2.
Proof. split; [vm_compute; reflexivity|]. exists 1, 1, 0. vm_compute. lia. Qed.

(** "SAME" pooling of a row of 5 with windows of 2 in steps of 2, and 2 x 2 "VALID" pooling of two channels. *)
Example C43_max_pool_nonvacuous :
  pool_valid (mkPool 5 1 1 2 1 2 1 true false) /\
  pool_act_bw (mkPool 5 1 1 2 1 2 1 true false) [1; 4; 2; 3; 5]%Z = [4; 3; 5]%Z /\
  pool_act_bw (mkPool 2 2 2 2 2 2 2 false false) [1; 8; 2; 7; 3; 6; 4; 5]%Z = [4; 8]%Z /\
  pool_act_bw (mkPool 2 2 2 2 2 2 2 false true) [1; 8; 2; 7; 3; 6; 4; 5]%Z = [8; 6]%Z.
Proof. split; [unfold pool_valid; cbn; lia|]. repeat (split; [vm_compute; reflexivity|]). vm_compute; reflexivity. Qed.

(** C43 fails for permute: the output at position (0, 1) of a transposed 2 x 2 sample is always the
    input at (1, 0), of 3 bits, but 2 bits are reported. *)
Theorem C43_permute_refuted : exists dims s (bw : list Z) e q,
  (forall x : list Qc, length x = prodn s -> nth e (permute (qz 0) dims s x) (qz 0) = nth q x (qz 0)) /\
  p_act_bw (mkT (1 :: s) bw) (perm_shape dims s) = Ok (mkT (1 :: perm_shape dims s) bw) /\
  nth e bw 0%Z <> nth q bw 0%Z.
Proof.
  exists [2; 1], [2; 2], [1; 2; 3; 4]%Z, 1, 2. split; [|split; [vm_compute; reflexivity|cbn; lia]].
  intros [|x0 [|x1 [|x2 [|x3 [|x4 x]]]]] H; try discriminate H. reflexivity.
Qed.
Print Assumptions C43_permute_refuted.

(** C43: permute reports the right bitwidths when they are all equal. *)
Theorem C43_permute_uniform : forall dims s (bw : list Z) c out, length bw = prodn s -> (forall q, q < prodn s -> nth q bw 0%Z = c) ->
  prodn s = prodn out -> exists b, p_act_bw (mkT (1 :: s) bw) out = Ok b /\
  forall e q, e < prodn out -> q < prodn s ->
    (forall x : list Qc, length x = prodn s -> nth e (permute (qz 0) dims s x) (qz 0) = nth q x (qz 0)) -> at_ 0%Z b 0 e = nth q bw 0%Z.
Proof.
  intros dims s bw c out L H E. unfold p_act_bw, reshape. cbn [data]. rewrite L, prodn_cons, E, Nat.mul_1_l, Nat.eqb_refl.
  eexists. split; [reflexivity|]. intros e q He Hq _. unfold at_. cbn [data shape tl Nat.mul Nat.add]. rewrite !H by lia. reflexivity.
Qed.
Print Assumptions C43_permute_uniform.

(** C43 does not extend to average pooling: it reports 1 bit for the mean of two 1-bit inputs, which
    takes the values 0, 1/2 and 1. *)
Theorem C43_average_refuted : exists p e bw, pool_valid p /\ e < pool_size p /\
  (forall q, q < p_h p * p_w p * p_c p -> bits_suffice (nth q bw 0%Z) (fun x => x = qz 0 \/ x = qz 1)) /\
  ~ bits_suffice (nth e (pool_act_bw p bw) 0%Z)
      (fun y => exists x, (forall q, nth q x (qz 0) = qz 0 \/ nth q x (qz 0) = qz 1) /\ y = nth e (avg_pool p x) (qz 0)).
Proof.
  exists (mkPool 2 1 1 2 1 2 1 false false), 0, [1; 1]%Z. split; [unfold pool_valid; cbn; lia|]. split; [vm_compute; lia|]. split.
  - intros q Hq. assert (E : nth q [1; 1]%Z 0%Z = 1%Z) by (cbn in Hq; destruct q as [|[|q]]; [reflexivity|reflexivity|lia]).
    rewrite E. exists 0%Z, 0%Z. intros x [->| ->]; [exists 0%Z|exists 1%Z]; (split; [apply Qc_is_canon; reflexivity|lia]).
  - change (nth 0 (pool_act_bw (mkPool 2 1 1 2 1 2 1 false false) [1; 1]%Z) 0%Z) with 1%Z. intros [f [lo H]].
    assert (T : forall a b, (a = qz 0 \/ a = qz 1) -> (b = qz 0 \/ b = qz 1) ->
      exists z, nth 0 (avg_pool (mkPool 2 1 1 2 1 2 1 false false) [a; b]) (qz 0) = (qz z * pow2 (- f))%Qc /\ (lo <= z < lo + 2 ^ 1)%Z).
    { intros a b Ha Hb. apply H. exists [a; b]. split; [|reflexivity]. intros [|[|[|q]]]; cbn; auto. }
    destruct (T (qz 0) (qz 0)) as [z0 [E0 B0]]; auto. destruct (T (qz 0) (qz 1)) as [z1 [E1 B1]]; auto. destruct (T (qz 1) (qz 1)) as [z2 [E2 B2]]; auto.
    replace (nth 0 (avg_pool (mkPool 2 1 1 2 1 2 1 false false) [qz 0; qz 0]) (qz 0)) with (qz 0) in E0 by (apply Qc_is_canon; vm_compute; reflexivity).
    replace (nth 0 (avg_pool (mkPool 2 1 1 2 1 2 1 false false) [qz 0; qz 1]) (qz 0)) with qhalf in E1 by (apply Qc_is_canon; vm_compute; reflexivity).
    replace (nth 0 (avg_pool (mkPool 2 1 1 2 1 2 1 false false) [qz 1; qz 1]) (qz 0)) with (qz 1) in E2 by (apply Qc_is_canon; vm_compute; reflexivity).
    change (2 ^ 1)%Z with 2%Z in *.
    assert (z0 <> z1) by (intros ->; rewrite <- E0 in E1; apply (f_equal this) in E1; vm_compute in E1; discriminate).
    assert (z0 <> z2) by (intros ->; rewrite <- E0 in E2; apply (f_equal this) in E2; vm_compute in E2; discriminate).
    assert (z1 <> z2) by (intros ->; rewrite <- E1 in E2; apply (f_equal this) in E2; vm_compute in E2; discriminate).
    lia.
Qed.
Print Assumptions C43_average_refuted.

(** Nor do the reported bits of max pooling suffice for inputs on different grids: the larger of a
    1-bit value in {0, 1} and a 1-bit value in {0, 1/2} takes three values. *)
Theorem C43_mixed_grids_refuted : exists p e bw (vals : nat -> Qc -> Prop), pool_valid p /\ e < pool_size p /\
  (forall q, q < p_h p * p_w p * p_c p -> bits_suffice (nth q bw 0%Z) (vals q)) /\
  ~ bits_suffice (nth e (pool_act_bw p bw) 0%Z)
      (fun y => exists x, (forall q, q < p_h p * p_w p * p_c p -> vals q (nth q x (qz 0))) /\ y = nth e (max_pool qmax (qz 0) p x) (qz 0)).
Proof.
  exists (mkPool 2 1 1 2 1 2 1 false false), 0, [1; 1]%Z, (fun q x => x = qz 0 \/ x = match q with 0 => qz 1 | _ => qhalf end).
  split; [unfold pool_valid; cbn; lia|]. split; [vm_compute; lia|]. split.
  - intros q Hq. assert (E : nth q [1; 1]%Z 0%Z = 1%Z) by (cbn in Hq; destruct q as [|[|q]]; [reflexivity|reflexivity|lia]).
    rewrite E. destruct q as [|q].
    + exists 0%Z, 0%Z. intros x [->| ->]; [exists 0%Z|exists 1%Z]; (split; [apply Qc_is_canon; reflexivity|lia]).
    + exists 1%Z, 0%Z. intros x [->| ->]; [exists 0%Z|exists 1%Z]; (split; [apply Qc_is_canon; reflexivity|lia]).
  - change (nth 0 (pool_act_bw (mkPool 2 1 1 2 1 2 1 false false) [1; 1]%Z) 0%Z) with 1%Z. intros [f [lo H]].
    assert (T : forall a b, (a = qz 0 \/ a = qz 1) -> (b = qz 0 \/ b = qhalf) ->
      exists z, nth 0 (max_pool qmax (qz 0) (mkPool 2 1 1 2 1 2 1 false false) [a; b]) (qz 0) = (qz z * pow2 (- f))%Qc /\ (lo <= z < lo + 2 ^ 1)%Z).
    { intros a b Ha Hb. apply H. exists [a; b]. split; [|reflexivity]. intros [|[|q]] Hq; cbn in *; auto. lia. }
    destruct (T (qz 0) (qz 0)) as [z0 [E0 B0]]; auto. destruct (T (qz 0) qhalf) as [z1 [E1 B1]]; auto. destruct (T (qz 1) (qz 0)) as [z2 [E2 B2]]; auto.
    replace (nth 0 (max_pool qmax (qz 0) (mkPool 2 1 1 2 1 2 1 false false) [qz 0; qz 0]) (qz 0)) with (qz 0) in E0 by (apply Qc_is_canon; vm_compute; reflexivity).
    replace (nth 0 (max_pool qmax (qz 0) (mkPool 2 1 1 2 1 2 1 false false) [qz 0; qhalf]) (qz 0)) with qhalf in E1 by (apply Qc_is_canon; vm_compute; reflexivity).
    replace (nth 0 (max_pool qmax (qz 0) (mkPool 2 1 1 2 1 2 1 false false) [qz 1; qz 0]) (qz 0)) with (qz 1) in E2 by (apply Qc_is_canon; vm_compute; reflexivity).
    change (2 ^ 1)%Z with 2%Z in *.
    assert (z0 <> z1) by (intros ->; rewrite <- E0 in E1; apply (f_equal this) in E1; vm_compute in E1; discriminate).
    assert (z0 <> z2) by (intros ->; rewrite <- E0 in E2; apply (f_equal this) in E2; vm_compute in E2; discriminate).
    assert (z1 <> z2) by (intros ->; rewrite <- E1 in E2; apply (f_equal this) in E2; vm_compute in E2; discriminate).
    lia.
Qed.
Print Assumptions C43_mixed_grids_refuted.

(** C43: what permute does: the output at the picked coordinates is the input at the coordinates; the
    bitwidth reported there is the one at the same place in memory. *)
Theorem C43_permute_values : forall dims s (x : list Qc) (bw : list Z) idx, orders_axes dims s -> length bw = prodn s -> Forall2 lt idx s ->
  let e := position (picked dims s) (picked dims idx) in
  nth e (permute (qz 0) dims s x) (qz 0) = nth (position s idx) x (qz 0) /\
  exists b, p_act_bw (mkT (1 :: s) bw) (picked dims s) = Ok b /\ at_ 0%Z b 0 e = nth e bw 0%Z.
Proof.
  intros dims s x bw idx P L H e. split; [exact (permute_at (qz 0) dims s x idx P H)|].
  assert (E : prodn s = prodn (picked dims s)).
  { symmetry. exact (picked_size dims s P). }
  unfold p_act_bw, reshape. cbn [data]. rewrite L, prodn_cons, E, Nat.mul_1_l, Nat.eqb_refl. eexists. split; [reflexivity|]. unfold at_. cbn [data shape tl Nat.mul Nat.add]. reflexivity.
Qed.
Print Assumptions C43_permute_values.

(** Axes (1, 2, 3) of shape (2, 3, 4) in the order (3, 1, 2): element (1, 2, 3) goes to (3, 1, 2). *)
Example C43_permute_values_ex : orders_axes [3; 1; 2] [2; 3; 4] /\ Forall2 lt [1; 2; 3] [2; 3; 4] /\
  picked [3; 1; 2] [2; 3; 4] = [4; 2; 3] /\ picked [3; 1; 2] [1; 2; 3] = [3; 1; 2] /\ position [4; 2; 3] [3; 1; 2] = 23 /\ position [2; 3; 4] [1; 2; 3] = 23 /\
  picked [3; 1; 2] [1; 0; 0] = [0; 1; 0] /\ position [4; 2; 3] [0; 1; 0] = 3 /\ position [2; 3; 4] [1; 0; 0] = 12.
Proof.
  split.
  - unfold orders_axes. cbn. apply Permutation_sym. eapply perm_trans; [apply perm_skip, perm_swap|]. apply perm_swap.
  - split; [repeat constructor|]. vm_compute. auto 10.
Qed.

(** C43: pooling with any padding: row i, column j of the output looks at the rows and columns the
    window covers; average pooling divides by their number, so padding does not count. *)
Theorem C43_pool_window : forall p i j ch (x : list Qc) (bw : list Z), pool_valid p -> i < out_h p -> j < out_w p -> ch < p_c p ->
  let at3 {A} (d : A) l a b := nth (flat (p_first p) (p_h p) (p_w p) (p_c p) a b ch) l d in
  let e := flat (p_first p) (out_h p) (out_w p) (p_c p) i j ch in
  let win := list_prod (filter (covers (p_same p) (p_h p) (p_kh p) (p_sh p) i) (seq 0 (p_h p))) (filter (covers (p_same p) (p_w p) (p_kw p) (p_sw p) j) (seq 0 (p_w p))) in
  is_mean (map (fun ab => at3 (qz 0) x (fst ab) (snd ab)) win) (nth e (avg_pool p x) (qz 0)) /\
  (let y := nth e (max_pool qmax (qz 0) p x) (qz 0) in (exists a b, In (a, b) win /\ y = at3 (qz 0) x a b) /\ forall a b, In (a, b) win -> (at3 (qz 0) x a b <= y)%Qc) /\
  (let r := nth e (pool_act_bw p bw) 0%Z in (exists a b, In (a, b) win /\ r = at3 0%Z bw a b) /\ forall a b, In (a, b) win -> (at3 0%Z bw a b <= r)%Z).
Proof.
  intros p i j ch x bw Hv Hi Hj Hc at3 e win. split; [exact (avg_at p i j ch x Hv Hi Hj Hc)|].
  pose proof (window_coordinates p i j ch Hi Hj Hc) as P. fold e win in P. change (window2 p i j) with win in P.
  assert (He : e < pool_size p) by (apply flat_range; assumption).
  assert (W : forall q, In q (window p e) <-> exists a b, In (a, b) win /\ q = flat (p_first p) (p_h p) (p_w p) (p_c p) a b ch).
  { intros q. split.
    - intros H. apply (Permutation_in _ P) in H. apply in_map_iff in H. destruct H as [[a b] [<- H]]. exists a, b. split; [exact H|reflexivity].
    - intros (a & b & H & ->). apply (Permutation_in _ (Permutation_sym P)). apply in_map_iff. exists (a, b). split; [reflexivity|exact H]. }
  split; cbv zeta.
  - destruct (max_pool_spec Qcle qmax Qcle_refl Qcle_trans) with (d := qz 0) (p := p) (e := e) (x := x) as [V1 V2]; try assumption.
    { intros u v. destruct (qmax_spec u v) as [[? ->]|[? ->]]; [assumption|apply Qcle_refl]. }
    { intros u v. destruct (qmax_spec u v) as [[? ->]|[? ->]]; [apply Qcle_refl|apply Qclt_le_weak; assumption]. }
    { intros u v. destruct (qmax_spec u v) as [[? ->]|[? ->]]; auto. }
    split; [destruct V1 as (q & Hq & E); apply W in Hq; destruct Hq as (a & b & H & ->); exists a, b; split; [exact H|exact E]|].
    intros a b H. apply V2. apply W. exists a, b. split; [exact H|reflexivity].
  - destruct (max_pool_spec Z.le Z.max Z.le_refl Z.le_trans) with (d := 0%Z) (p := p) (e := e) (x := bw) as [B1 B2]; try assumption; [intros; lia..|].
    split; [destruct B1 as (q & Hq & E); apply W in Hq; destruct Hq as (a & b & H & ->); exists a, b; split; [exact H|exact E]|].
    intros a b H. apply B2. apply W. exists a, b. split; [exact H|reflexivity].
Qed.
Print Assumptions C43_pool_window.

(** "SAME" pooling of 3 columns with windows of 3 in steps of 1: the first and the last window have two
    elements. *)
Example C43_pool_window_ex : let p := mkPool 1 3 1 1 3 1 1 true false in pool_valid p /\ out_w p = 3 /\
  map (fun j => filter (covers true 3 3 1 j) (seq 0 3)) [0; 1; 2] = [[0; 1]; [0; 1; 2]; [1; 2]] /\
  map this (avg_pool p [qz 2; qz 4; qz 9]) = [3; 5; 13 # 2]%Q.
Proof. cbv zeta. split; [unfold pool_valid; cbn; lia|]. split; [reflexivity|]. split; [reflexivity|vm_compute; reflexivity]. Qed.

(** C43: average pooling (without padding, over 2^L signed inputs on one grid) needs at most L bits more
    than it reports. *)
Theorem C43_average_needs : forall p i j ch f (bw : list Z) L, pool_valid p -> p_same p = false -> i < out_h p -> j < out_w p -> ch < p_c p ->
  p_kh p * p_kw p = 2 ^ L -> (forall q, q < p_h p * p_w p * p_c p -> (1 <= nth q bw 0)%Z) ->
  let e := flat (p_first p) (out_h p) (out_w p) (p_c p) i j ch in
  bits_suffice (nth e (pool_act_bw p bw) 0 + Z.of_nat L)%Z
    (fun y => exists x, (forall q, q < p_h p * p_w p * p_c p ->
                  exists z, nth q x (qz 0) = (qz z * pow2 (- f))%Qc /\ (- 2 ^ (nth q bw 0 - 1) <= z < 2 ^ (nth q bw 0 - 1))%Z) /\
                y = nth e (avg_pool p x) (qz 0)).
Proof.
  intros p i j ch f bw L Hv Hs Hi Hj Hc HL H1 e. set (b := nth e (pool_act_bw p bw) 0%Z).
  exists (f + Z.of_nat L)%Z, (- 2 ^ (b - 1) * 2 ^ Z.of_nat L)%Z. intros y [x [Hx ->]].
  destruct (C43_pool_window p i j ch x bw Hv Hi Hj Hc) as (M & _ & B). cbv zeta in M, B. fold e in M, B. fold b in B.
  set (win := list_prod _ _) in M, B. assert (LW : length win = 2 ^ L) by (rewrite <- HL; exact (window2_length p i j Hv Hs Hi Hj)).
  set (y := nth e (avg_pool p x) (qz 0)) in *. destruct M as [NE M]. destruct B as [(a0 & b0 & H0 & E0) B].
  assert (R : forall a b', In (a, b') win -> flat (p_first p) (p_h p) (p_w p) (p_c p) a b' ch < p_h p * p_w p * p_c p).
  { intros a b' H. apply in_prod_iff in H. destruct H as [Ha Hb]. apply filter_In in Ha, Hb. destruct Ha as [Ha _], Hb as [Hb _]. apply in_seq in Ha, Hb. apply flat_range; [lia|lia|exact Hc]. }
  destruct (sum_on_grid f (2 ^ (b - 1)) (map (fun ab => nth (flat (p_first p) (p_h p) (p_w p) (p_c p) (fst ab) (snd ab) ch) x (qz 0)) win)) as (z & E & Bz); [|exact NE|].
  { intros v Hin. apply in_map_iff in Hin. destruct Hin as [[a b'] [<- Hin]]. cbn [fst snd]. destruct (Hx _ (R a b' Hin)) as (z & E & Bz). exists z. split; [exact E|].
    specialize (B a b' Hin). specialize (H1 _ (R a b' Hin)).
    assert (2 ^ (nth (flat (p_first p) (p_h p) (p_w p) (p_c p) a b' ch) bw 0 - 1) <= 2 ^ (b - 1))%Z by (apply Z.pow_le_mono_r; lia). lia. }
  rewrite map_length, LW in M, Bz. rewrite Nat2Z.inj_pow in M, Bz. change (Z.of_nat 2) with 2%Z in *. rewrite E in M. exists z.
  assert (B1 : (1 <= b)%Z) by (rewrite E0; apply H1, R, H0).
  split.
  - rewrite <- pow2_Z in M by lia. replace (- (f + Z.of_nat L))%Z with (- f + - Z.of_nat L)%Z by lia. rewrite pow2_add.
    assert (I : (pow2 (Z.of_nat L) * pow2 (- Z.of_nat L) = 1)%Qc) by (rewrite <- pow2_add; replace (Z.of_nat L + - Z.of_nat L)%Z with 0%Z by lia; reflexivity).
    replace (qz z * (pow2 (- f) * pow2 (- Z.of_nat L)))%Qc with ((qz z * pow2 (- f)) * pow2 (- Z.of_nat L))%Qc by ring. rewrite <- M.
    replace (y * pow2 (Z.of_nat L) * pow2 (- Z.of_nat L))%Qc with (y * (pow2 (Z.of_nat L) * pow2 (- Z.of_nat L)))%Qc by ring. rewrite I. ring.
  - rewrite Z.pow_add_r by lia. replace (2 ^ b)%Z with (2 * 2 ^ (b - 1))%Z by (rewrite <- Z.pow_succ_r by lia; f_equal; lia). nia.
Qed.
Print Assumptions C43_average_needs.
Example C43_average_needs_ex : let p := mkPool 4 2 1 2 2 2 2 false false in pool_valid p /\ p_kh p * p_kw p = 2 ^ 2 /\ out_h p = 2 /\
  nth 1 (pool_act_bw p [1; 2; 3; 4; 5; 6; 7; 8]%Z) 0%Z = 8%Z /\
  map this (avg_pool p (map qz [0; -1; 2; 3; -5; 17; -30; 127]%Z)) = [1; 109 # 4]%Q.
Proof. cbv zeta. split; [unfold pool_valid; cbn; lia|]. repeat (split; [reflexivity|]). vm_compute. reflexivity. Qed.

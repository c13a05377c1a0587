(** Tensors seen as batches of samples. *)
From Coq Require Import ZArith Qcanon List Bool Lia.
From Verif Require Import Base.Num Base.NumFacts Base.Tensor Model.FixedPoint Model.Quantizer Model.Layers
  Spec.Fixed Spec.Quant Spec.Layer Proofs.TensorP Proofs.RecordP Proofs.HistoryP Proofs.CallP Proofs.QuantizerP.
Import ListNotations.
Local Open Scope nat_scope.

Lemma concat_length_const {A} (xs : list (list A)) n : Forall (fun x => length x = n) xs ->
  length (concat xs) = length xs * n.
Proof. induction 1 as [|x xs H _ IH]; cbn; [reflexivity|]. rewrite app_length, H, IH. lia. Qed.

Lemma concat_nth {A} (xs : list (list A)) n j e d : Forall (fun x => length x = n) xs -> j < length xs -> e < n ->
  nth (j * n + e) (concat xs) d = nth e (nth j xs []) d.
Proof.
  intros H. revert j. induction H as [|x xs H _ IH]; intros j Hj He; cbn in *; [lia|].
  destruct j as [|j]; cbn.
  - rewrite app_nth1 by lia. reflexivity.
  - rewrite app_nth2 by lia. replace (n + j * n + e - length x) with (j * n + e) by lia. apply IH; lia.
Qed.

Lemma firstn_skipn_nth {A} (l : list A) a n e d : e < n -> nth e (firstn n (skipn a l)) d = nth (a + e) l d.
Proof.
  revert l. induction a as [|a IH]; intros l He; cbn.
  - revert l e He. induction n as [|n IHn]; intros l e He; [lia|].
    destruct l as [|x l]; cbn; [destruct e; reflexivity|]. destruct e; cbn; [reflexivity|]. apply IHn. lia.
  - destruct l as [|x l]; cbn; [|apply IH; assumption]. rewrite firstn_nil. destruct e; reflexivity.
Qed.

Lemma skipn_concat {A} (xs : list (list A)) n j : Forall (fun x => length x = n) xs ->
  skipn (j * n) (concat xs) = concat (skipn j xs).
Proof.
  intros H. revert j. induction H as [|x xs H _ IH]; intros j; cbn.
  - rewrite !skipn_nil. reflexivity.
  - destruct j as [|j]; cbn; [reflexivity|]. rewrite <- IH. rewrite skipn_app.
    rewrite skipn_all2 by lia. cbn. f_equal. lia.
Qed.

Lemma samples_concat out xs : Forall (fun x => length x = prodn out) xs ->
  samples out (batch_tensor out xs) = xs.
Proof.
  intros H. unfold samples, batch_tensor. cbn [shape data hd].
  apply (nth_ext _ _ [] []).
  - rewrite map_length, seq_length. reflexivity.
  - intros j Hj. rewrite map_length, seq_length in Hj. rewrite nth_map_seq by assumption.
    rewrite skipn_concat by assumption.
    assert (E : exists t, skipn j xs = nth j xs [] :: t).
    { clear -Hj. revert j Hj. induction xs as [|x xs IH]; intros j Hj; cbn in *; [lia|]. destruct j; cbn; [eauto|]. apply IH. lia. }
    destruct E as [t E]. rewrite E. cbn. rewrite firstn_app.
    rewrite Forall_forall in H. rewrite (H (nth j xs [])) by (apply nth_In; assumption).
    rewrite firstn_all2 by (rewrite H by (apply nth_In; assumption); lia).
    rewrite Nat.sub_diag. cbn. apply app_nil_r.
Qed.

Lemma batch_samples out t n : shape t = n :: out -> wf_tensor t -> batch_tensor out (samples out t) = t.
Proof.
  intros Hs Hw. unfold wf_tensor in Hw. rewrite Hs, prodn_cons in Hw.
  destruct t as [s d]. cbn [shape data] in *. subst s. unfold batch_tensor, samples. cbn [shape data hd].
  rewrite map_length, seq_length. f_equal.
  assert (G : forall m k, m + k = n -> concat (map (fun j => firstn (prodn out) (skipn (j * prodn out) d)) (seq m k)) = skipn (m * prodn out) d).
  { intros m k. revert m. induction k as [|k IH]; intros m E; cbn.
    - rewrite skipn_all2; [reflexivity|]. rewrite Hw. replace m with n by lia. lia.
    - rewrite IH by lia. cbn. rewrite Nat.add_comm.
      rewrite <- (firstn_skipn (prodn out) (skipn (m * prodn out) d)) at 2. f_equal.
      clear. rewrite <- (Nat.add_comm (prodn out)). revert d. generalize (m * prodn out) as a. intros a d.
      replace (prodn out + a) with (a + prodn out) by lia. revert d. induction a as [|a IH]; intros d; cbn; [reflexivity|].
      destruct d; cbn; [rewrite skipn_nil; reflexivity|]. apply IH. }
  apply (G 0 n). lia.
Qed.

Lemma samples_length out t n : shape t = n :: out -> wf_tensor t ->
  length (samples out t) = n /\ Forall (fun y => length y = prodn out) (samples out t).
Proof.
  intros Hs Hw. unfold samples. rewrite map_length, seq_length, Hs. split; [reflexivity|].
  rewrite Forall_forall. intros y Hy. apply in_map_iff in Hy. destruct Hy as [j [<- Hj]]. apply in_seq in Hj. cbn in Hj.
  rewrite firstn_length, skipn_length. unfold wf_tensor in Hw. rewrite Hw, Hs, prodn_cons. nia.
Qed.

Lemma bshape_length a : forall b s, bshape a b = Some s -> length a = length b /\ length s = length a.
Proof.
  induction a as [|x a IH]; intros [|y b] s E; cbn in E; try discriminate; [injection E as <-; auto|].
  destruct (bshape a b) as [t|] eqn:F; [|discriminate]. destruct (IH _ _ F) as [L1 L2].
  destruct (Nat.eqb x y); [injection E as <-|destruct (Nat.eqb x 1); [injection E as <-|destruct (Nat.eqb y 1); [injection E as <-|discriminate]]];
    cbn; lia.
Qed.

Lemma bshape_cons_inv x a y b s : bshape (x :: a) (y :: b) = Some (x :: s) -> bshape a b = Some s /\ (y = x \/ y = 1).
Proof.
  cbn. destruct (bshape a b) as [t|]; [|discriminate].
  destruct (Nat.eqb_spec x y); [intros E; injection E as <-; auto|].
  destruct (Nat.eqb_spec x 1); [intros E; injection E as E1 E2; congruence|].
  destruct (Nat.eqb_spec y 1); [intros E; injection E as <-; auto|discriminate].
Qed.

Lemma bidx_lt out : forall bw e, bshape out bw = Some out -> e < prodn out -> bidx bw out e < prodn bw.
Proof.
  induction out as [|a out IH]; intros [|b bw] e E He; cbn [bshape] in E; try discriminate; [cbn; lia|].
  apply (bshape_cons_inv a out b bw out) in E. destruct E as [E Hb]. cbn [bidx]. rewrite prodn_cons in *.
  assert (NZ : prodn out <> 0) by nia.
  pose proof (Nat.mod_upper_bound e (prodn out) NZ) as Hm. specialize (IH _ _ E Hm).
  destruct (Nat.eqb_spec b 1) as [->|Hb1]; [lia|]. destruct Hb as [->|]; [|lia].
  assert (e / prodn out < a) by (apply Nat.div_lt_upper_bound; lia). nia.
Qed.

Lemma broadcast_out n out bw : bshape out bw = Some out ->
  broadcast_shape (n :: out) (1 :: bw) = Some (n :: out).
Proof.
  intros E. destruct (bshape_length _ _ _ E) as [L _]. unfold broadcast_shape. cbn [length].
  rewrite !pad_to_eq by (cbn [length]; lia). cbn [bshape]. rewrite E.
  destruct (Nat.eqb_spec n 1); [subst; reflexivity|]. destruct (Nat.eqb n 1); reflexivity.
Qed.

(** ** Sample functions *)
Definition qval (strategy : Z) (f x : Qc) : Qc :=
  (qz (qfloor (if Z.eqb strategy 3 then x * pow2 (qround_even f) else x * pow2 (qround_even f) + qhalf))
      / pow2 (qround_even f))%Qc.

Definition qsample (q : hgq) (out : list nat) (z : sample) : sample :=
  map (fun e => qval (q_strategy q) (nth (group_of q out e) (data (q_fbw q)) (qz 0)) (nth e z (qz 0))) (seq 0 (prodn out)).

Lemma qsample_length q out z : length (qsample q out z) = prodn out.
Proof. unfold qsample. rewrite map_length, seq_length. reflexivity. Qed.

Lemma qsample_nth q out z e : e < prodn out -> nth e (qsample q out z) (qz 0) =
  qval (q_strategy q) (nth (group_of q out e) (data (q_fbw q)) (qz 0)) (nth e z (qz 0)).
Proof. intros H. unfold qsample. rewrite nth_map_seq by assumption. reflexivity. Qed.

Lemma batch_nth out zs p d : Forall (fun z => length z = prodn out) zs -> p < length zs * prodn out ->
  nth p (data (batch_tensor out zs)) d = nth (p mod prodn out) (nth (p / prodn out) zs []) d.
Proof.
  intros H Hp. cbn [batch_tensor data]. assert (NZ : prodn out <> 0) by nia.
  rewrite (Nat.div_mod p (prodn out) NZ) at 1. rewrite Nat.mul_comm.
  rewrite (concat_nth zs (prodn out)); [reflexivity|assumption| |].
  - apply Nat.div_lt_upper_bound; lia.
  - apply Nat.mod_upper_bound; assumption.
Qed.

Lemma batch_wf out zs : Forall (fun z => length z = prodn out) zs -> wf_tensor (batch_tensor out zs).
Proof.
  intros H. unfold wf_tensor, batch_tensor. cbn [shape data]. rewrite prodn_cons. apply concat_length_const, H.
Qed.

Lemma map_concat_ext {A} (f g : A -> list Qc) xs : (forall x, In x xs -> f x = g x) -> map f xs = map g xs.
Proof. apply map_ext_in. Qed.

(** Two batches that agree position by position. *)
Lemma batch_eq out t (zs : list sample) (f : sample -> sample) : (forall z, length (f z) = prodn out) ->
  shape t = length zs :: out -> wf_tensor t ->
  (forall j e, j < length zs -> e < prodn out -> nth (j * prodn out + e) (data t) (qz 0) = nth e (f (nth j zs [])) (qz 0)) ->
  t = batch_tensor out (map f zs).
Proof.
  intros Hf Hs Hw H. destruct t as [s d]. cbn [shape data] in *. subst s. unfold batch_tensor. rewrite map_length. f_equal.
  unfold wf_tensor in Hw. cbn [shape data] in Hw. rewrite prodn_cons in Hw.
  assert (Ff : Forall (fun x => length x = prodn out) (map f zs)).
  { rewrite Forall_forall. intros x Hx. apply in_map_iff in Hx. destruct Hx as [z [<- _]]. apply Hf. }
  apply (list_nth_ext (qz 0)).
  - rewrite (concat_length_const _ (prodn out)) by assumption. rewrite map_length. exact Hw.
  - intros p Hp. rewrite Hw in Hp. assert (NZ : prodn out <> 0) by nia.
    rewrite (Nat.div_mod p (prodn out) NZ). rewrite Nat.mul_comm.
    assert (Hj : p / prodn out < length zs) by (apply Nat.div_lt_upper_bound; lia).
    pose proof (Nat.mod_upper_bound p (prodn out) NZ) as He.
    rewrite H by assumption. rewrite (concat_nth _ (prodn out)); [|assumption|rewrite map_length; assumption|assumption].
    rewrite (nth_indep (map f zs) [] (f [])) by (rewrite map_length; assumption). rewrite map_nth. reflexivity.
Qed.

(** Registers do not matter for the forward pass, nor does recording; it succeeds without recording. *)
Lemma forward_samples pw ln2 q out zs record noise y q' :
  quantizer_shape q out -> Forall (fun z => length z = prodn out) zs ->
  forward pw ln2 q (batch_tensor out zs) false record noise = Ok (y, q') ->
  y = batch_tensor out (map (qsample q out) zs).
Proof.
  intros [bw [Hs [Hb [Hl _]]]] Hz E. apply forward_elems in E. destruct E as [E1 [E2 [E3 _]]].
  change (shape (batch_tensor out zs)) with (length zs :: out) in E1.
  rewrite Hs, (broadcast_out _ out bw Hb) in E1. injection E1 as E1.
  apply batch_eq; [apply qsample_length|symmetry; exact E1|exact E2|].
  intros j e Hj He. set (p := j * prodn out + e) in *.
  assert (Hp : p < prodn (shape y)) by (rewrite <- E1, prodn_cons; nia).
  specialize (E3 p (qz 0) Hp). rewrite forward_inference in E3. injection E3 as E3. rewrite <- E3.
  rewrite qsample_nth by assumption. unfold qval.
  destruct (bshape_length _ _ _ Hb) as [L _].
  rewrite <- E1, Hs. rewrite !pad_to_eq by (cbn [length batch_tensor shape]; lia).
  assert (M : p mod prodn out = e) by (unfold p; rewrite Nat.add_comm, Nat.mod_add by lia; apply Nat.mod_small; assumption).
  assert (D : p / prodn out = j) by (unfold p; rewrite Nat.add_comm, Nat.div_add by lia; rewrite Nat.div_small by assumption; reflexivity).
  assert (G : bidx (1 :: bw) (length zs :: out) p = group_of q out e).
  { cbn [bidx]. rewrite M. unfold group_of. rewrite Hs. reflexivity. }
  rewrite G. change (shape (batch_tensor out zs)) with (length zs :: out).
  rewrite bidx_self by (rewrite prodn_cons; nia).
  rewrite (batch_nth out zs p) by (try assumption; nia). rewrite M, D. reflexivity.
Qed.

Lemma clip_id_fbw q : bits_clipped q -> clip_fbw q = q.
Proof.
  unfold bits_clipped, clip_fbw. destruct (q_clip q) as [[lo hi]|] eqn:C; [|reflexivity]. intros H.
  destruct q as [[s d] a2 a3 a4 a5 a6 a7]. cbn in *. subst a7. unfold with_fbw, tmap. cbn. f_equal. f_equal.
  rewrite <- (map_id d) at 2. apply map_ext_in. intros f Hf. rewrite Forall_forall in H.
  destruct (H f Hf). apply clip_id; assumption.
Qed.

Lemma quantizer_shape_clip q out : quantizer_shape q out -> quantizer_shape (clip_fbw q) out.
Proof.
  intros [bw [H1 [H2 [H3 [H4 H5]]]]]. exists bw. unfold clip_fbw. destruct (q_clip q) as [[lo hi]|]; [|tauto].
  cbn. rewrite map_length. tauto.
Qed.

Lemma call_samples pw ln2 q out zs record noise y q' :
  quantizer_shape q out -> Forall (fun z => length z = prodn out) zs ->
  call pw ln2 q (batch_tensor out zs) false record noise = Ok (y, q') ->
  y = batch_tensor out (map (qsample (clip_fbw q) out) zs).
Proof. intros H. apply forward_samples, quantizer_shape_clip, H. Qed.

(** ** The proxy's quantizer on samples *)
Definition fval (rnd : Qc -> Qc) (sat : Qc -> Z -> Z -> Qc) (c : qcfg) (x : Qc) : Qc :=
  gfixed_elem rnd sat (kn c) (bits c) (ints c) x.
Definition fsample (rnd : Qc -> Qc) (sat : Qc -> Z -> Z -> Qc) (bw out : list nat) (cs : list qcfg) (z : sample) : sample :=
  map (fun e => fval rnd sat (nth (bidx bw out e) cs (mkCfg 0 0 0)) (nth e z (qz 0))) (seq 0 (prodn out)).

Lemma fsample_length rnd sat bw out cs z : length (fsample rnd sat bw out cs z) = prodn out.
Proof. unfold fsample. rewrite map_length, seq_length. reflexivity. Qed.

Lemma fsample_nth rnd sat bw out cs z e : e < prodn out -> nth e (fsample rnd sat bw out cs z) (qz 0) =
  fval rnd sat (nth (bidx bw out e) cs (mkCfg 0 0 0)) (nth e z (qz 0)).
Proof. intros H. unfold fsample. rewrite nth_map_seq by assumption. reflexivity. Qed.

Lemma fpq_samples (fq : fpq unit) rnd sat bw out zs :
  RND_MAP (rnd_name fq) = Some rnd -> SAT_MAP (sat_name fq) = Some sat ->
  shape (cfgs fq) = 1 :: bw -> bshape out bw = Some out -> Forall (fun z => length z = prodn out) zs ->
  fpq_call fq false (batch_tensor out zs) = Ok (batch_tensor out (map (fsample rnd sat bw out (data (cfgs fq))) zs)).
Proof.
  intros HR HS Hs Hb Hz. unfold fpq_call. rewrite HR, HS.
  destruct (bmap2 _ _ _ _ _) as [y|] eqn:E.
  2:{ exfalso. unfold bmap2 in E. rewrite Hs in E. cbn [batch_tensor shape] in E. rewrite (broadcast_out _ out bw Hb) in E. discriminate. }
  f_equal. apply bmap2_ok in E. destruct E as [E1 [E2 E3]].
  rewrite Hs in E1. change (shape (batch_tensor out zs)) with (length zs :: out) in E1.
  rewrite (broadcast_out _ out bw Hb) in E1. injection E1 as E1.
  destruct (bshape_length _ _ _ Hb) as [L _].
  apply batch_eq; [apply fsample_length|symmetry; exact E1|exact E2|].
  intros j e Hj He. set (p := j * prodn out + e) in *.
  assert (Hp : p < prodn (shape y)) by (rewrite <- E1, prodn_cons; nia).
  rewrite (E3 p (qz 0) Hp). rewrite fsample_nth by assumption. unfold fval.
  rewrite <- E1, Hs. rewrite !pad_to_eq by (cbn [length batch_tensor shape]; lia).
  assert (M : p mod prodn out = e) by (unfold p; rewrite Nat.add_comm, Nat.mod_add by lia; apply Nat.mod_small; assumption).
  assert (D : p / prodn out = j) by (unfold p; rewrite Nat.add_comm, Nat.div_add by lia; rewrite Nat.div_small by assumption; reflexivity).
  assert (G : bidx (1 :: bw) (length zs :: out) p = bidx bw out e) by (cbn [bidx]; rewrite M; reflexivity).
  rewrite G. change (shape (batch_tensor out zs)) with (length zs :: out).
  rewrite bidx_self by (rewrite prodn_cons; nia).
  rewrite (batch_nth out zs p) by (try assumption; nia). rewrite M, D. reflexivity.
Qed.

Lemma repeat_S1 n : repeat 1 (S n) = 1 :: repeat 1 n.
Proof. reflexivity. Qed.

Lemma fpq_samples_scalar (fq : fpq unit) rnd sat c out zs :
  RND_MAP (rnd_name fq) = Some rnd -> SAT_MAP (sat_name fq) = Some sat ->
  cfgs fq = mkT [] [c] -> Forall (fun z => length z = prodn out) zs ->
  fpq_call fq false (batch_tensor out zs) = Ok (batch_tensor out (map (map (fval rnd sat c)) zs)).
Proof.
  intros HR HS Hs Hz. unfold fpq_call. rewrite HR, HS.
  assert (B : broadcast_shape (length zs :: out) [] = Some (length zs :: out)).
  { unfold broadcast_shape. cbn [length]. rewrite Nat.max_0_r. rewrite (pad_to_eq (S (length out)) (_ :: out)) by reflexivity.
    unfold pad_to. cbn [length]. rewrite Nat.sub_0_r, app_nil_r.
    change (S (length out)) with (length (length zs :: out)). apply bshape_ones. }
  destruct (bmap2 _ _ _ _ _) as [y|] eqn:E.
  2:{ exfalso. unfold bmap2 in E. rewrite Hs in E. cbn [batch_tensor shape] in E. rewrite B in E. discriminate. }
  f_equal. apply bmap2_ok in E. destruct E as [E1 [E2 E3]].
  rewrite Hs in E1, E3. change (shape (batch_tensor out zs)) with (length zs :: out) in E1. cbn [shape] in E1.
  rewrite B in E1. injection E1 as E1.
  transitivity (batch_tensor out (map (fun z => map (fun e => fval rnd sat c (nth e z (qz 0))) (seq 0 (prodn out))) zs)).
  - apply batch_eq; [intros; rewrite map_length, seq_length; reflexivity|symmetry; exact E1|exact E2|].
    intros j e Hj He. set (p := j * prodn out + e) in *.
    assert (Hp : p < prodn (shape y)) by (rewrite <- E1, prodn_cons; nia).
    rewrite (E3 p (qz 0) Hp). rewrite nth_map_seq by assumption. unfold fval.
    rewrite <- E1. change (shape (batch_tensor out zs)) with (length zs :: out).
    rewrite (pad_to_eq (length (length zs :: out)) (length zs :: out)) by reflexivity.
    assert (M : p mod prodn out = e) by (unfold p; rewrite Nat.add_comm, Nat.mod_add by lia; apply Nat.mod_small; assumption).
    assert (D : p / prodn out = j) by (unfold p; rewrite Nat.add_comm, Nat.div_add by lia; rewrite Nat.div_small by assumption; reflexivity).
    rewrite bidx_self by (rewrite prodn_cons; nia).
    rewrite (batch_nth out zs p) by (try assumption; nia). rewrite M, D.
    unfold pad_to. cbn [shape data length]. rewrite Nat.sub_0_r, app_nil_r.
    change (S (length out)) with (length (length zs :: out)). rewrite bidx_ones. reflexivity.
  - f_equal. apply map_ext_in. intros z Hin. rewrite Forall_forall in Hz. rewrite <- (Hz z Hin).
    apply (list_nth_ext (fval rnd sat c (qz 0))).
    + rewrite !map_length, seq_length. reflexivity.
    + intros p Hp. rewrite map_length, seq_length in Hp. rewrite nth_map_seq by assumption. rewrite map_nth. reflexivity.
Qed.

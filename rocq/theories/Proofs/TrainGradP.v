(** The training step on dual numbers follows the smooth function of Spec/TrainGrad.v. *)
From Coq Require Import ZArith QArith Qcanon List Bool Lia.
From Verif Require Import Base.Num Base.NumFacts Base.Tensor Model.Quantizer Model.Layers Model.BatchNorm Model.BopsGrad Model.Graph Model.Trace Model.TrainGrad
  Spec.Quant Spec.TrainGrad Proofs.QuantizerP Proofs.TensorP Proofs.RecordP Proofs.ShapeP Proofs.SlopeP Spec.Trace.
From Verif Require Proofs.CallP Proofs.TraceP Proofs.ConvertP Proofs.ProxyModelP Proofs.ProxyLayerP Proofs.SampleP Proofs.BnLayerP Proofs.FloatLayerP.
Import ListNotations.
Local Open Scope nat_scope.

Notation d0 := (qz 0, qz 0).

(** ** Lists *)
Definition follows_l (ds : list dual) (G : Qc -> list Qc) : Prop :=
  (forall t, length (G t) = length ds) /\ forall e, follows (nth e ds d0) (fun t => nth e (G t) (qz 0)).

Lemma fl_ext ds G H : (forall t, G t = H t) -> follows_l ds G -> follows_l ds H.
Proof.
  intros E [L F]. split; [intros t; rewrite <- E; apply L|]. intros e. apply (fo_ext _ (fun t => nth e (G t) (qz 0))); [intros t; rewrite E; reflexivity|apply F].
Qed.
Lemma fl_at0 ds G : follows_l ds G -> G (qz 0) = map fst ds.
Proof.
  intros [L F]. apply nth_ext with (qz 0) (fst d0); [rewrite map_length; apply L|]. intros e _. rewrite map_nth. exact (proj1 (F e)).
Qed.
Lemma fl_map {A} (l : list A) (d : A -> dual) (g : A -> Qc -> Qc) : (forall x, In x l -> follows (d x) (g x)) ->
  follows_l (map d l) (fun t => map (fun x => g x t) l).
Proof.
  induction l as [|x l IH]; intros H.
  - split; [reflexivity|]. intros [|e]; apply fo_const.
  - destruct IH as [L F]; [intros y Hy; apply H; right; exact Hy|]. split; [intros t; cbn; rewrite !map_length; reflexivity|].
    intros [|e]; cbn [map nth]; [apply H; left; reflexivity|apply F].
Qed.
Lemma fl_app a b A B : follows_l a A -> follows_l b B -> follows_l (a ++ b) (fun t => A t ++ B t).
Proof.
  intros [L F] [L' F']. split; [intros t; rewrite !app_length, L, L'; reflexivity|]. intros e. destruct (Nat.lt_ge_cases e (length a)) as [H|H].
  - rewrite app_nth1 by exact H. apply (fo_ext _ (fun t => nth e (A t) (qz 0))); [|apply F]. intros t. rewrite app_nth1 by (rewrite L; exact H). reflexivity.
  - rewrite app_nth2 by exact H. apply (fo_ext _ (fun t => nth (e - length a) (B t) (qz 0))); [|apply F']. intros t. rewrite app_nth2, L by (rewrite L; exact H). reflexivity.
Qed.
Lemma nth_skip {A} (l : list A) : forall k e d, nth e (skipn k l) d = nth (k + e) l d.
Proof. induction l as [|x l IH]; intros [|k] e d; cbn; try reflexivity; [destruct e; reflexivity|apply IH]. Qed.
Lemma nth_first {A} (l : list A) : forall n e d, nth e (firstn n l) d = if e <? n then nth e l d else d.
Proof.
  induction l as [|x l IH]; intros [|n] [|e] d; cbn [nth firstn]; try reflexivity; [destruct (Nat.ltb (S e) (S n)); reflexivity|]. rewrite IH. reflexivity.
Qed.
Lemma fl_slice n k ds G : follows_l ds G -> follows_l (firstn n (skipn k ds)) (fun t => firstn n (skipn k (G t))).
Proof.
  intros [L F]. split; [intros t; rewrite !firstn_length, !skipn_length, L; reflexivity|]. intros e. rewrite nth_first, nth_skip.
  destruct (e <? n) eqn:E.
  - apply (fo_ext _ (fun t => nth (k + e) (G t) (qz 0))); [|apply F]. intros t. rewrite nth_first, nth_skip, E. reflexivity.
  - apply (fo_ext _ (fun _ => qz 0)); [|apply fo_const]. intros t. rewrite nth_first, E. reflexivity.
Qed.
Lemma fl_nil_const ds : ds = [] -> follows_l ds (fun _ => []).
Proof. intros ->. split; [reflexivity|]. intros [|e]; apply fo_const. Qed.

Lemma map_combine_seq {A B} (f : nat * A -> B) (l : list A) d : map f (combine (seq 0 (length l)) l) = map (fun e => f (e, nth e l d)) (seq 0 (length l)).
Proof.
  destruct (map f (combine (seq 0 (length l)) l)) as [|b r] eqn:E.
  - destruct l as [|x l]; [reflexivity|discriminate].
  - rewrite <- E. clear E. apply nth_ext with (f (0, d)) (f (0, d)); [rewrite !map_length, combine_length, seq_length, Nat.min_id; reflexivity|].
    intros e He. rewrite map_length, combine_length, seq_length, Nat.min_id in He. rewrite map_nth, nth_combine_seq by exact He.
    rewrite (nth_indep _ _ (f (0, nth 0 l d))) by (rewrite map_length, seq_length; exact He).
    rewrite (map_nth (fun e => f (e, nth e l d))), seq_nth by exact He. reflexivity.
Qed.
Lemma self_map {A} (l : list A) d : l = map (fun e => nth e l d) (seq 0 (length l)).
Proof. apply nth_ext with d d; [rewrite map_length, seq_length; reflexivity|]. intros e He. rewrite nth_map_seq by exact He. reflexivity. Qed.
Lemma map_self {A B} (f : A -> B) (l : list A) d : map f l = map (fun e => f (nth e l d)) (seq 0 (length l)).
Proof. rewrite <- (map_map (fun e => nth e l d) f), <- self_map. reflexivity. Qed.
Lemma fo_qsum ds G : follows_l ds G -> follows (dsum ds) (fun t => qsum (G t)).
Proof.
  intros [L F]. rewrite (self_map ds d0). apply (fo_ext _ (fun t => qsum (map (fun e => nth e (G t) (qz 0)) (seq 0 (length ds))))).
  - intros t. rewrite <- (L t). rewrite <- self_map. reflexivity.
  - apply (fo_sum (seq 0 (length ds)) (fun e => nth e ds d0) (fun e t => nth e (G t) (qz 0))). intros e _. apply F.
Qed.

(** ** Batches *)
Definition follows_b (D : list (list dual)) (P : Qc -> list (list Qc)) : Prop :=
  (forall t, length (P t) = length D) /\ forall j, follows_l (nth j D []) (fun t => nth j (P t) []).

Lemma fb_ext D P Q : (forall t, P t = Q t) -> follows_b D P -> follows_b D Q.
Proof.
  intros E [L F]. split; [intros t; rewrite <- E; apply L|]. intros j. apply (fl_ext _ (fun t => nth j (P t) [])); [intros t; rewrite E; reflexivity|apply F].
Qed.
Lemma fb_tangents D P : follows_b D P <-> tangents D P.
Proof.
  split.
  - intros [L F]. split; [|split].
    + apply nth_ext with [] []; [rewrite map_length; apply L|]. intros j _. change (@nil Qc) with (map (@fst Qc Qc) []) at 2. rewrite map_nth. exact (fl_at0 _ _ (F j)).
    + intros t. apply nth_ext with 0 0; [rewrite !map_length; apply L|]. intros j _. change 0 with (length (@nil Qc)) at 1. change 0 with (length (@nil dual)). rewrite !map_nth. apply (proj1 (F j)).
    + intros j e. exact (proj2 (proj2 (F j) e)).
  - intros [E [L S]]. split; [intros t; rewrite <- (map_length (@length Qc)), L, map_length; reflexivity|].
    intros j. split.
    + intros t. pose proof (map_nth (@length Qc) (P t) [] j) as A. pose proof (map_nth (@length dual) D [] j) as B. cbn [length] in A, B. rewrite <- A, <- B, L. reflexivity.
    + intros e. split; [|apply S]. rewrite E. change (@nil Qc) with (map (@fst Qc Qc) []). rewrite map_nth. change (qz 0) with (fst d0). rewrite map_nth. reflexivity.
Qed.
Lemma fb_at0 D P : follows_b D P -> P (qz 0) = map (map fst) D.
Proof. intros H. apply fb_tangents in H. apply H. Qed.
Lemma fb_map {A} (l : list A) (d : A -> list dual) (g : A -> Qc -> list Qc) : (forall x, In x l -> follows_l (d x) (g x)) ->
  follows_b (map d l) (fun t => map (fun x => g x t) l).
Proof.
  induction l as [|x l IH]; intros H.
  - split; [reflexivity|]. intros [|j]; apply fl_nil_const; reflexivity.
  - destruct IH as [L F]; [intros y Hy; apply H; right; exact Hy|]. split; [intros t; cbn; rewrite !map_length; reflexivity|].
    intros [|j]; cbn [map nth]; [apply H; left; reflexivity|apply F].
Qed.
(** Sample by sample. *)
Lemma fb_each (h : list dual -> list dual) (k : Qc -> list Qc -> list Qc) D P : follows_b D P ->
  (forall j, j < length D -> follows_l (h (nth j D [])) (fun t => k t (nth j (P t) []))) -> follows_b (map h D) (fun t => map (k t) (P t)).
Proof.
  intros [L F] H. apply (fb_ext _ (fun t => map (fun j => k t (nth j (P t) [])) (seq 0 (length D)))).
  - intros t. rewrite (self_map (P t) []) at 1. rewrite map_map, L. reflexivity.
  - rewrite (self_map D []) at 1. rewrite map_map. apply (fb_map (seq 0 (length D)) (fun j => h (nth j D [])) (fun j t => k t (nth j (P t) []))).
    intros j Hj. apply in_seq in Hj. apply H. lia.
Qed.
Lemma fl_concat D : forall P, follows_b D P -> follows_l (concat D) (fun t => concat (P t)).
Proof.
  induction D as [|d D IH]; intros P [L F].
  - apply (fl_ext _ (fun _ => [])); [|apply fl_nil_const; reflexivity]. intros t. specialize (L t). destruct (P t); [reflexivity|discriminate].
  - cbn [concat]. apply (fl_ext _ (fun t => nth 0 (P t) [] ++ concat (tl (P t)))).
    + intros t. specialize (L t). destruct (P t); [discriminate|reflexivity].
    + apply fl_app; [exact (F 0)|]. apply IH. split; [intros t; specialize (L t); destruct (P t); [discriminate|injection L as L; exact L]|].
      intros j. apply (fl_ext _ (fun t => nth (S j) (P t) [])); [|apply (F (S j))]. intros t. destruct (P t); [destruct j; reflexivity|reflexivity].
Qed.

(** ** Tensors *)
Definition follows_t (T : tensor dual) (X : Qc -> tensor Qc) : Prop := (forall t, shape (X t) = shape T) /\ follows_l (data T) (fun t => data (X t)).
Lemma ft_at0 T X : follows_t T X -> X (qz 0) = tmap fst T.
Proof. intros [S F]. specialize (S (qz 0)). pose proof (fl_at0 _ _ F) as E. cbv beta in E. destruct (X (qz 0)) as [s v]. cbn in *. subst. reflexivity. Qed.
Lemma ft_batch out D P : follows_b D P -> follows_t (batch_tensor_d out D) (fun t => batch_tensor out (P t)).
Proof. intros F. split; [intros t; cbn; rewrite (proj1 F); reflexivity|]. apply fl_concat, F. Qed.
Lemma ft_samples out T X : follows_t T X -> follows_b (samples_d out T) (fun t => samples out (X t)).
Proof.
  intros [S F]. unfold samples_d, samples. apply (fb_ext _ (fun t => map (fun j => firstn (prodn out) (skipn (j * prodn out) (data (X t)))) (seq 0 (hd 0 (shape T))))); [intros t; rewrite S; reflexivity|].
  apply (fb_map (seq 0 (hd 0 (shape T))) _ (fun j t => firstn (prodn out) (skipn (j * prodn out) (data (X t))))). intros j _. apply fl_slice, F.
Qed.
Lemma nth_dual (f df : list Qc) e : length df = length f -> nth e (combine f df) d0 = (nth e f (qz 0), nth e df (qz 0)).
Proof. intros L. apply combine_nth. symmetry. exact L. Qed.
Lemma fl_along v dv : length dv = length v -> follows_l (combine v dv) (along v dv).
Proof.
  intros L. rewrite (self_map (combine v dv) d0). rewrite combine_length, L, Nat.min_id.
  apply (fl_map (seq 0 (length v)) (fun e => nth e (combine v dv) d0) (fun p t => (nth p v (qz 0) + t * nth p dv (qz 0))%Qc)). intros e _. rewrite nth_dual by exact L. apply fo_line.
Qed.
Lemma ft_moved v dv : same_shape v dv -> follows_t (dual_tensor v dv) (moved v dv).
Proof. intros [S L]. split; [reflexivity|]. apply fl_along, L. Qed.

(** ** Quantizers *)
Section T.
  Variable pw : Qc -> Qc.
  Variable ln2 : Qc.
  Variable rsqrt : Qc -> Qc.

  Definition quantize_v (q : hgq) (f x : tensor Qc) (noise : nat -> Qc) : result (tensor Qc) :=
    rbind (bmap2 (qz 0) (qz 0) (fun v f => (v, f)) x f) (fun vf =>
    rbind (rseq (map (fun pvf => forward_elem pw ln2 (q_strategy q) (q_exact q) true
                                   (noise (fst pvf)) (snd (snd pvf)) (fst (snd pvf)))
                     (combine (seq 0 (List.length (data vf))) (data vf)))) (fun ys => Ok (mkT (shape vf) ys))).
  Lemma call_v q x record noise y q' : call pw ln2 q x true record noise = Ok (y, q') -> quantize_v q (q_fbw (clip_fbw q)) x noise = Ok y.
  Proof.
    unfold call, forward, quantize_v. assert (A : q_strategy (clip_fbw q) = q_strategy q /\ q_exact (clip_fbw q) = q_exact q) by (unfold clip_fbw; destruct (q_clip q) as [[lo hi]|]; split; reflexivity).
    destruct A as [-> ->]. destruct (bmap2 _ _ _ _ _) as [vf|]; [|intros H; discriminate H]. cbn [rbind]. destruct (rseq _) as [ys|]; [|intros H; discriminate H]. cbn [rbind].
    destruct record; cbn [negb].
    - destruct (record_min _ _ _); [|intros H; discriminate H]. cbn [rbind]. destruct (record_max _ _ _); [|intros H; discriminate H]. cbn [rbind]. intros H. injection H as <- _. reflexivity.
    - intros H. injection H as <- _. reflexivity.
  Qed.
  Lemma bias_v q x loc noise dims : bias_dims loc (length (shape (q_fbw q))) = Ok dims -> bias_forward pw ln2 q x true loc noise = quantize_v q (reduce_max_q dims (q_fbw q)) x noise.
  Proof. intros E. unfold bias_forward. rewrite E. reflexivity. Qed.

  (** Bitwidths with tangents: [F] has the values of [f] and the tangents of [df]. *)
  Definition widths (F : tensor dual) (f df : tensor Qc) : Prop :=
    shape F = shape f /\ shape df = shape f /\ forall e, nth e (data F) d0 = (nth e (data f) (qz 0), nth e (data df) (qz 0)).

  Lemma rseq_seq {A} (f : nat -> result A) g n : (forall p, p < n -> f p = Ok (g p)) -> rseq (map f (seq 0 n)) = Ok (map g (seq 0 n)).
  Proof.
    intros H. assert (G : forall l, (forall p, In p l -> f p = Ok (g p)) -> rseq (map f l) = Ok (map g l)).
    { induction l as [|p l IH]; intros Hl; [reflexivity|]. cbn [map rseq]. rewrite (Hl p (or_introl eq_refl)), IH; [reflexivity|]. intros r Hr. apply Hl. right. exact Hr. }
    apply G. intros p Hp. apply in_seq in Hp. apply H. lia.
  Qed.

  Lemma quantize_follows q F f df T X noise y0 : widths F f df -> follows_t T X -> quantize_v q f (X (qz 0)) noise = Ok y0 ->
    exists Y, quantize_d pw ln2 q F T noise = Ok Y /\ follows_t Y (fun t => smooth ln2 (X (qz 0)) y0 df (X t) t) /\ tmap fst Y = y0.
  Proof.
    intros [SF [Sd NF]] HT E. pose proof HT as [ST FT]. unfold quantize_v, quantize_d, bmap2 in *. rewrite SF, <- (ST (qz 0)).
    destruct (broadcast_shape (shape (X (qz 0))) (shape f)) as [sh|]; [|discriminate E]. cbn [rbind shape data] in *.
    set (ix := fun p => bidx (pad_to (length sh) (shape (X (qz 0)))) sh p) in *. set (jx := fun p => bidx (pad_to (length sh) (shape f)) sh p) in *.
    rewrite (map_combine_seq _ _ (qz 0, qz 0)) in E. rewrite (map_combine_seq _ _ (d0, d0)). rewrite !map_length, !seq_length in *.
    destruct (rseq _) as [ys|] eqn:R in E; [|discriminate E]. cbn [rbind] in E. injection E as <-.
    destruct (rseq_ok _ _ R) as [L N]. rewrite map_length, seq_length in L, N.
    set (out := fun p => (nth p ys (qz 0), snd (nth (ix p) (data T) d0) - (nth p ys (qz 0) - fst (nth (ix p) (data T) d0)) * ln2 * nth (jx p) (data df) (qz 0))%Qc).
    rewrite (rseq_seq _ out).
    2: { intros p Hp. cbn [fst snd]. rewrite (nth_map_seq _ _ _ (d0, d0)) by exact Hp. cbn [fst snd].
         specialize (N p (qz 0) Hp). rewrite (nth_map_seq _ _ _ Raise) in N by exact Hp. cbn [fst snd] in N. rewrite (nth_map_seq _ _ _ (qz 0, qz 0)) in N by exact Hp. cbn [fst snd] in N.
         fold (ix p) (jx p) in *. rewrite NF. rewrite forward_elem_xq in N.
         assert (V : nth (ix p) (data (X (qz 0))) (qz 0) = fst (nth (ix p) (data T) d0)) by exact (proj1 (proj2 FT (ix p))). rewrite V in N.
         pose proof (forward_d pw ln2 (q_strategy q) (q_exact q) true (noise p) (nth (jx p) (data f) (qz 0), nth (jx p) (data df) (qz 0)) (nth (ix p) (data T) d0) _ N) as W. exact W. }
    cbn [rbind]. exists (mkT sh (map out (seq 0 (prodn sh)))). split; [reflexivity|]. split.
    2: { unfold tmap. cbn [shape data]. f_equal. rewrite map_map. unfold out. cbn [fst]. rewrite <- L at 1. symmetry. apply self_map. }
    split; [reflexivity|]. cbn [data smooth shape]. apply (fl_map (seq 0 (prodn sh)) out (fun p t => (seen (X t) sh p + (nth p ys (qz 0) - seen (X (qz 0)) sh p) * (qz 1 - ln2 * (t * seen df sh p)))%Qc)).
    intros p Hp. unfold seen. rewrite Sd. fold (jx p).
    assert (EX : forall t, bidx (pad_to (length sh) (shape (X t))) sh p = ix p) by (intros t; unfold ix; rewrite !ST; reflexivity).
    pose proof (proj2 FT (ix p)) as [V S]. cbv beta in V, S.
    apply (fo_ext _ (fun t => (nth (ix p) (data (X t)) (qz 0) + (nth p ys (qz 0) - nth (ix p) (data (X (qz 0))) (qz 0)) * (qz 1 - ln2 * (t * nth (jx p) (data df) (qz 0))))%Qc)); [intros t; rewrite !EX; reflexivity|].
    rewrite V. set (x := nth (ix p) (data T) d0) in *. set (y := nth p ys (qz 0)). set (w := nth (jx p) (data df) (qz 0)). split.
    - cbn [out fst]. fold y. rewrite V. change (qz 0) with 0%Qc. change (qz 1) with 1%Qc. ring.
    - unfold out. cbn [snd]. fold x y w. replace (snd x - (y - fst x) * ln2 * w)%Qc with (snd x + (y - fst x) * (qz 0 - ln2 * w))%Qc by (change (qz 0) with 0%Qc; ring).
      apply slope_add; [exact S|]. apply slope_scale. apply slope_sub; [apply slope_const|]. apply slope_scale. apply slope_line.
  Qed.

  (** ** The widest bitwidths of a channel *)
  Lemma filter_filter {A} (f g : A -> bool) l : filter g (filter f l) = filter (fun x => (f x && g x)%bool) l.
  Proof. induction l as [|x l IH]; [reflexivity|]. cbn [filter]. destruct (f x); cbn [filter andb]; [destruct (g x); rewrite IH; reflexivity|exact IH]. Qed.
  Lemma map_filter {A B} (h : A -> B) (f : B -> bool) l : filter f (map h l) = map h (filter (fun x => f (h x)) l).
  Proof. induction l as [|x l IH]; [reflexivity|]. cbn [map filter]. destruct (f (h x)); cbn [map]; rewrite IH; reflexivity. Qed.
  Lemma combine_self {A} (l : list A) d : combine (seq 0 (length l)) l = map (fun e => (e, nth e l d)) (seq 0 (length l)).
  Proof. rewrite <- (map_combine_seq (fun x => x)). rewrite map_id. reflexivity. Qed.

  Lemma widest_ok dims f df : same_shape f df -> widths (reduce_max_d dims f df) (reduce_max_q dims f) (widest dims f df).
  Proof.
    intros [SS LL]. split; [reflexivity|]. split; [reflexivity|]. intros e. unfold reduce_max_d, widest. cbn [data shape].
    set (fl := axis_flags (length (shape f)) dims). set (m := data (reduce_max_q dims f)).
    assert (LM : length m = prodn (kept fl (shape f))) by (unfold m, reduce_max_q, treduce; cbn [tmap data shape]; rewrite !map_length, seq_length; reflexivity).
    rewrite (map_combine_seq _ m (qz 0)), LM. destruct (Nat.lt_ge_cases e (prodn (kept fl (shape f)))) as [He|He].
    2: { rewrite !nth_overflow; [reflexivity|rewrite map_length, seq_length; exact He|rewrite LM; exact He|rewrite map_length, seq_length; exact He]. }
    rewrite !nth_map_seq by exact He. cbn [fst snd]. f_equal.
    assert (G := treduce_max_greatest fl false f e NegInf He).
    assert (M : nth e m (qz 0) = fin (qz 0) (nth e (data (treduce ext_max NegInf fl false (tmap Fin f))) NegInf)).
    { unfold m, reduce_max_q. fold fl. cbn [tmap data]. exact (map_nth (fin (qz 0)) _ NegInf e). }
    set (g := nth e (data (treduce ext_max NegInf fl false (tmap Fin f))) NegInf) in *. clearbody g.
    set (grp := filter (fun p => Nat.eqb (ridx fl (shape f) p) e) (seq 0 (length (data f)))).
    assert (IN : forall p, In p grp <-> p < length (data f) /\ ridx fl (shape f) p = e) by (intros p; unfold grp; rewrite filter_In, in_seq, Nat.eqb_eq; lia).
    assert (TOP : filter (fun p => forallb (fun p' => qleb (nth p' (data f) (qz 0)) (nth p (data f) (qz 0))) grp) grp
                  = filter (fun p => qeqb (nth p (data f) (qz 0)) (nth e m (qz 0))) grp).
    { apply filter_ext_in. intros p Hp. apply IN in Hp. destruct Hp as [Hp Hr]. destruct G as [[G _]|[v [[p1 [Hp1 Hr1]] [-> Hmax]]]].
      - exfalso. apply (G (nth p (data f) (qz 0))). exists p. split; [apply nth_error_nth'; exact Hp|exact Hr].
      - cbn [fin] in M. rewrite M. destruct (qeqb_spec (nth p (data f) (qz 0)) v) as [E|E].
        + apply forallb_forall. intros p' Hp'. apply IN in Hp'. destruct Hp' as [H1 H2]. destruct (qleb_spec (nth p' (data f) (qz 0)) (nth p (data f) (qz 0))) as [|C]; [reflexivity|exfalso].
          assert (B : (nth p' (data f) (qz 0) <= v)%Qc) by (apply Hmax; exists p'; split; [apply nth_error_nth'; exact H1|exact H2]). rewrite E in C. qlra.
        + apply not_true_is_false. intros A. rewrite forallb_forall in A. assert (I1 : In p1 grp) by (apply IN; split; [apply nth_error_Some; congruence|exact Hr1]).
          specialize (A p1 I1). rewrite (nth_error_nth _ _ _ Hp1) in A. destruct (qleb_spec v (nth p (data f) (qz 0))) as [C|C]; [|discriminate A].
          apply E. apply Qcle_antisym; [|exact C]. apply Hmax. exists p. split; [apply nth_error_nth'; exact Hp|exact Hr]. }
    unfold mean. rewrite TOP. unfold grp. rewrite filter_filter.
    assert (LC : length (combine (data f) (data df)) = length (data f)) by (rewrite combine_length, LL, Nat.min_id; reflexivity).
    rewrite <- LC at 1 2. rewrite (combine_self (combine (data f) (data df)) d0), map_filter, !map_map, LC. cbn [fst snd].
    rewrite map_length. 
    assert (FE : filter (fun x => (ridx fl (shape f) x =? e) && qeqb (fst (nth x (combine (data f) (data df)) d0)) (nth e m (qz 0))) (seq 0 (length (data f)))
      = filter (fun x => (ridx fl (shape f) x =? e) && qeqb (nth x (data f) (qz 0)) (nth e m (qz 0))) (seq 0 (length (data f)))).
    { apply filter_ext. intros p. rewrite nth_dual by exact LL. reflexivity. }
    rewrite FE, map_length. f_equal. f_equal. apply map_ext. intros p. rewrite nth_dual by exact LL. reflexivity.
  Qed.

  Lemma clip_widths q df : same_shape (q_fbw q) df -> widths (dual_tensor (q_fbw (clip_fbw q)) df) (q_fbw (clip_fbw q)) df.
  Proof.
    intros [S L]. assert (A : shape (q_fbw (clip_fbw q)) = shape (q_fbw q) /\ length (data (q_fbw (clip_fbw q))) = length (data (q_fbw q))).
    { unfold clip_fbw. destruct (q_clip q) as [[lo hi]|]; cbn; [rewrite map_length|]; split; reflexivity. }
    destruct A as [A B]. split; [reflexivity|]. split; [congruence|]. intros e. apply nth_dual. congruence.
  Qed.
  Lemma call_follows q df T X record noise y0 q' : same_shape (q_fbw q) df -> follows_t T X -> call pw ln2 q (X (qz 0)) true record noise = Ok (y0, q') ->
    exists Y, call_d pw ln2 q df T noise = Ok Y /\ follows_t Y (fun t => smooth ln2 (X (qz 0)) y0 df (X t) t) /\ tmap fst Y = y0.
  Proof. intros S F E. exact (quantize_follows q _ _ df T X noise y0 (clip_widths q df S) F (call_v _ _ _ _ _ _ E)). Qed.
  Lemma bias_follows q df T X loc noise y0 : same_shape (q_fbw q) df -> follows_t T X -> bias_forward pw ln2 q (X (qz 0)) true loc noise = Ok y0 ->
    exists Y B, bias_forward_d pw ln2 q df T loc noise = Ok Y /\ smooth_bias pw ln2 q df loc noise X = Ok B /\ follows_t Y B /\ tmap fst Y = y0.
  Proof.
    intros S F E. unfold bias_forward_d, smooth_bias. pose proof E as E1. unfold bias_forward in E1. destruct (bias_dims loc (length (shape (q_fbw q)))) as [dims|] eqn:D; [|discriminate E1]. clear E1.
    rewrite E. cbn [rbind]. rewrite (bias_v _ _ _ _ _ D) in E. destruct (quantize_follows q _ _ _ T X noise y0 (widest_ok dims (q_fbw q) df S) F E) as [Y [H1 [H2 H3]]].
    exists Y. eexists. split; [exact H1|]. split; [reflexivity|]. split; [exact H2|exact H3].
  Qed.
  Lemma kernel_follows q df T X noise y0 q' : same_shape (q_fbw q) df -> follows_t T X -> call pw ln2 q (X (qz 0)) true false noise = Ok (y0, q') ->
    exists Y W, call_d pw ln2 q df T noise = Ok Y /\ smooth_kernel pw ln2 q df noise X = Ok W /\ follows_t Y W /\ tmap fst Y = y0.
  Proof.
    intros S F E. destruct (call_follows q df T X false noise y0 q' S F E) as [Y [H1 [H2 H3]]]. exists Y. unfold smooth_kernel. rewrite E. cbn [rbind fst]. eexists.
    split; [exact H1|]. split; [reflexivity|]. split; [exact H2|exact H3].
  Qed.

  (** ** Sums and activations *)
  Lemma fl_linop ts w W x X : follows_l w W -> follows_l x X -> follows_l (linop_d ts w x) (fun t => linop ts (W t) (X t)).
  Proof.
    intros [_ Fw] [_ Fx]. unfold linop_d, linop. apply (fl_map ts _ (fun ps t => qsum (map (fun ab => (nth (fst ab) (X t) (qz 0) * nth (snd ab) (W t) (qz 0))%Qc) ps))).
    intros ps _. apply (fo_sum ps _ (fun ab t => (nth (fst ab) (X t) (qz 0) * nth (snd ab) (W t) (qz 0))%Qc)). intros ab _. apply (fo_mul _ _ (fun t => nth (fst ab) (X t) (qz 0)) (fun t => nth (snd ab) (W t) (qz 0))); [apply Fx|apply Fw].
  Qed.
  Lemma fl_bias loc out b B z Z : follows_l b B -> follows_l z Z -> follows_l (bias_add_d loc out b z) (fun t => bias_add loc out (B t) (Z t)).
  Proof.
    intros [_ Fb] [L Fz]. unfold bias_add_d, bias_add. rewrite (map_combine_seq _ z d0).
    apply (fl_ext _ (fun t => map (fun e => (nth e (Z t) (qz 0) + nth (chan loc out e) (B t) (qz 0))%Qc) (seq 0 (length z)))).
    - intros t. rewrite (map_combine_seq _ (Z t) (qz 0)), L. reflexivity.
    - apply (fl_map (seq 0 (length z)) _ (fun e t => (nth e (Z t) (qz 0) + nth (chan loc out e) (B t) (qz 0))%Qc)). intros e _. cbn [fst snd].
      apply (fo_add _ _ (fun t => nth e (Z t) (qz 0)) (fun t => nth (chan loc out e) (B t) (qz 0))); [apply Fz|apply Fb].
  Qed.
  Lemma map_combine {A B C} (f : A * B -> C) da db (a : list A) (b : list B) : length a = length b ->
    map f (combine a b) = map (fun e => f (nth e a da, nth e b db)) (seq 0 (length b)).
  Proof.
    intros L. rewrite (self_map (combine a b) (da, db)), combine_length, L, Nat.min_id, map_map. apply map_ext. intros e. rewrite combine_nth by exact L. reflexivity.
  Qed.
  Lemma fl_gates y Y : follows_l y Y -> follows_l (map act_relu_d y) (fun t => gates (map fst y) (Y t)).
  Proof.
    intros [L F]. apply (fl_ext _ (fun t => map (fun e => gate (fst (nth e y d0)) (nth e (Y t) (qz 0))) (seq 0 (length y)))).
    - intros t. unfold gates. rewrite (map_combine _ (fst d0) (qz 0)) by (rewrite map_length, L; reflexivity). rewrite L. apply map_ext. intros e. rewrite map_nth. reflexivity.
    - rewrite (self_map y d0) at 1. rewrite map_map. apply (fl_map (seq 0 (length y)) _ (fun e t => gate (fst (nth e y d0)) (nth e (Y t) (qz 0)))). intros e _. specialize (F e).
      unfold act_relu_d, gate. destruct (qltb (qz 0) (fst (nth e y d0))); [exact F|apply fo_const].
  Qed.
  Lemma relu_fst y : map relu (map fst y) = map fst (map act_relu_d y).
  Proof.
    rewrite !map_map. apply map_ext. intros [v d]. unfold relu, act_relu_d, qmax. cbn [fst]. destruct (qltb_spec (qz 0) v); qcases; cbn; try reflexivity; try (exfalso; qlra); apply Qcle_antisym; qlra.
  Qed.
  Lemma samples_fst out Y : samples out (tmap fst Y) = map (map fst) (samples_d out Y).
  Proof. unfold samples, samples_d. cbn [tmap shape data]. rewrite map_map. apply map_ext. intros j. rewrite <- firstn_map, <- skipn_map. reflexivity. Qed.
  Lemma out_follows q df relu_act out na Z z y0 q' : same_shape (q_fbw q) df -> follows_b Z z -> call pw ln2 q (batch_tensor out (z (qz 0))) true true na = Ok (y0, q') ->
    exists Y p, call_d pw ln2 q df (batch_tensor_d out Z) na = Ok Y /\ smooth_out pw ln2 q df relu_act out na z = Ok p /\
      let D := if relu_act then map (map act_relu_d) (samples_d out Y) else samples_d out Y in
      follows_b D p /\ map (map fst) D = if relu_act then map (map relu) (samples out y0) else samples out y0.
  Proof.
    intros S F E. destruct (call_follows q df _ (fun t => batch_tensor out (z t)) true na y0 q' S (ft_batch out Z z F) E) as [Y [H1 [H2 H3]]].
    exists Y. unfold smooth_out. rewrite E. cbn [rbind fst]. eexists. split; [exact H1|]. split; [reflexivity|].
    pose proof (ft_samples out _ _ H2) as FS. assert (Q : samples out y0 = map (map fst) (samples_d out Y)) by (rewrite <- H3; apply samples_fst). rewrite Q. destruct relu_act.
    - split; [|rewrite !map_map; apply map_ext; intros y; symmetry; apply relu_fst].
      pose proof FS as [LS _]. cbv beta in LS.
      apply (fb_ext _ (fun t => map (fun j => gates (map fst (nth j (samples_d out Y) [])) (nth j (samples out (smooth ln2 (batch_tensor out (z (qz 0))) y0 df (batch_tensor out (z t)) t)) [])) (seq 0 (length (samples_d out Y))))).
      + intros t. rewrite (map_combine _ (@nil Qc) (@nil Qc)) by (rewrite map_length, LS; reflexivity). rewrite LS. apply map_ext. intros j. cbn [fst snd]. f_equal.
        change (@nil Qc) with (map (@fst Qc Qc) []). rewrite map_nth. reflexivity.
      + rewrite (self_map (samples_d out Y) []) at 1. rewrite map_map.
        apply (fb_map (seq 0 (length (samples_d out Y))) _ (fun j t => gates (map fst (nth j (samples_d out Y) [])) (nth j (samples out (smooth ln2 (batch_tensor out (z (qz 0))) y0 df (batch_tensor out (z t)) t)) []))).
        intros j _. exact (fl_gates _ _ (proj2 FS j)).
    - split; [exact FS|reflexivity].
  Qed.

  (** ** Functions *)
  Lemma snd_dsum l : snd (dsum l) = qsum (map snd l).
  Proof. induction l as [|d l IH]; [reflexivity|]. cbn [dsum fold_right map qsum d_add snd]. fold (dsum l) (qsum (map snd l)). rewrite IH. reflexivity. Qed.
  Lemma qsum_zeros {A} (l : list A) (f : A -> Qc) : (forall x, In x l -> f x = qz 0) -> qsum (map f l) = qz 0.
  Proof.
    induction l as [|x l IH]; intros H; [reflexivity|]. cbn [map qsum fold_right]. fold (qsum (map f l)). rewrite (H x (or_introl eq_refl)), IH; [reflexivity|]. intros y Hy. apply H. right. exact Hy.
  Qed.
  Lemma fl_fn g jac X x : follows_b X x -> follows_l (fn_d g jac X) (fun t => linearised g jac (x (qz 0)) (x t)).
  Proof.
    intros F. unfold fn_d, linearised. rewrite <- (fb_at0 _ _ F). cbv zeta. set (n := length (g (x (qz 0)))).
    apply (fl_map (seq 0 n) _ (fun e t => (nth e (g (x (qz 0))) (qz 0) + qsum (map (fun c =>
      snd c * (nth (snd (fst c)) (nth (fst (fst c)) (x t) []) (qz 0) - nth (snd (fst c)) (nth (fst (fst c)) (x (qz 0)) []) (qz 0))) (jac (x (qz 0)) e)))%Qc)).
    intros e _. split; cbn [fst snd].
    - rewrite qsum_zeros; [change (qz 0) with 0%Qc; ring|]. intros c _. change (qz 0) with 0%Qc. ring.
    - replace (qsum _) with (qz 0 + qsum (map (fun c : nat * nat * Qc => (snd c * snd (nth (snd (fst c)) (nth (fst (fst c)) X []) d0))%Qc) (jac (x (qz 0)) e)))%Qc by (change (qz 0) with 0%Qc; ring).
      apply slope_add; [apply slope_const|]. set (l := jac (x (qz 0)) e).
      pose proof (fo_sum l (fun c => (qz 0, (snd c * snd (nth (snd (fst c)) (nth (fst (fst c)) X []) d0))%Qc)) (fun c t => (snd c * (nth (snd (fst c)) (nth (fst (fst c)) (x t) []) (qz 0) - nth (snd (fst c)) (nth (fst (fst c)) (x (qz 0)) []) (qz 0)))%Qc)) as K.
      destruct K as [_ K]; [|rewrite snd_dsum, map_map in K; exact K].
      intros c _. split; cbn [fst snd]; [change (qz 0) with 0%Qc; ring|]. apply slope_scale.
      replace (snd (nth (snd (fst c)) (nth (fst (fst c)) X []) d0)) with (snd (nth (snd (fst c)) (nth (fst (fst c)) X []) d0) - qz 0)%Qc by (change (qz 0) with 0%Qc; ring).
      apply slope_sub; [|apply slope_const]. exact (proj2 (proj2 (proj2 F (fst (fst c))) (snd (fst c)))).
  Qed.
  Lemma fst_fn g jac X : map fst (fn_d g jac X) = g (map (map fst) X).
  Proof. unfold fn_d. rewrite map_map. cbn [fst]. symmetry. apply self_map. Qed.

  (** ** Inputs of a layer *)
  Definition follows_x (XS : list (list (list dual))) (xs : Qc -> list (list (list Qc))) : Prop :=
    (forall t, length (xs t) = length XS) /\ forall j, follows_b (nth j XS []) (fun t => nth j (xs t) []).
  Lemma fx_at0 XS xs : follows_x XS xs -> xs (qz 0) = map (map (map fst)) XS.
  Proof.
    intros [L F]. apply nth_ext with [] []; [rewrite map_length; apply L|]. intros j _. change (@nil (list Qc)) with (map (map (@fst Qc Qc)) []) at 2. rewrite map_nth. exact (fb_at0 _ _ (F j)).
  Qed.
  Lemma fx_each (h : list (list dual) -> list dual) (k : Qc -> list (list Qc) -> list Qc) XS xs : follows_x XS xs ->
    (forall j, follows_b (nth j XS []) (fun t => nth j (xs t) []) -> follows_l (h (nth j XS [])) (fun t => k t (nth j (xs t) []))) -> follows_b (map h XS) (fun t => map (k t) (xs t)).
  Proof.
    intros [L F] H. apply (fb_ext _ (fun t => map (fun j => k t (nth j (xs t) [])) (seq 0 (length XS)))).
    - intros t. rewrite (self_map (xs t) []) at 1. rewrite map_map, L. reflexivity.
    - rewrite (self_map XS []) at 1. rewrite map_map. apply (fb_map (seq 0 (length XS)) (fun j => h (nth j XS [])) (fun j t => k t (nth j (xs t) []))).
      intros j _. apply H, F.
  Qed.
  Lemma fb_fn g jac XS xs : follows_x XS xs -> follows_b (map (fn_d g jac) XS) (fun t => linearised_all g jac (xs (qz 0)) (xs t)).
  Proof.
    intros F. pose proof F as [L _]. apply (fb_ext _ (fun t => map (fun j => linearised g jac (nth j (xs (qz 0)) []) (nth j (xs t) [])) (seq 0 (length XS)))).
    - intros t. unfold linearised_all. rewrite (map_combine _ [] []) by (rewrite !L; reflexivity). rewrite L. reflexivity.
    - rewrite (self_map XS []) at 1. rewrite map_map. apply (fb_map (seq 0 (length XS)) _ (fun j t => linearised g jac (nth j (xs (qz 0)) []) (nth j (xs t) []))).
      intros j _. exact (fl_fn g jac _ _ (proj2 F j)).
  Qed.
  Lemma fl_hd D P : follows_b D P -> follows_l (hd [] D) (fun t => hd [] (P t)).
  Proof.
    intros [L F]. replace (hd [] D) with (nth 0 D []) by (destruct D; reflexivity). apply (fl_ext _ (fun t => nth 0 (P t) [])); [|apply F]. intros t. destruct (P t); reflexivity.
  Qed.
  Lemma fb_conv ts w W XS xs : follows_l w W -> follows_x XS xs -> follows_b (map (fun x => linop_d ts w (hd [] x)) XS) (fun t => map (fun x => linop ts (W t) (hd [] x)) (xs t)).
  Proof. intros Fw F. apply (fx_each (fun x => linop_d ts w (hd [] x)) (fun t x => linop ts (W t) (hd [] x)) XS xs F). intros j Fj. apply fl_linop; [exact Fw|apply fl_hd, Fj]. Qed.
  Lemma fb_bias loc out b B Z z : follows_l b B -> follows_b Z z -> follows_b (map (bias_add_d loc out b) Z) (fun t => map (bias_add loc out (B t)) (z t)).
  Proof. intros Fb F. apply (fb_each (bias_add_d loc out b) (fun t => bias_add loc out (B t)) Z z F). intros j _. apply fl_bias; [exact Fb|apply F]. Qed.

  (** ** Layers *)
  Lemma layer_follows l XS xs ys h' : directions_fit (TH l) -> follows_x XS xs ->
    hforward pw ln2 (t_layer l) (xs (qz 0)) true true (t_nk l) (t_nb l) (t_na l) = Ok (ys, h') ->
    exists D p, hforward_d pw ln2 l XS = Ok D /\ smooth_layer pw ln2 l xs = Ok p /\ follows_b D p /\ map (map fst) D = ys.
  Proof.
    intros [Sa SL] F E. unfold hforward, pre_activation in E. unfold hforward_d, pre_activation_d, smooth_layer.
    destruct (l_op (t_layer l)) as [ts k kq b bl|g].
    - destruct SL as [Sk [Sf Sb]]. destruct (call pw ln2 kq k true false (t_nk l)) as [[qk kq']|] eqn:EK; [|discriminate E]. cbn [rbind fst snd] in E.
      assert (K0 : moved k (t_dk l) (qz 0) = k).
      { pose proof (ft_at0 _ _ (ft_moved k (t_dk l) Sk)) as A. rewrite A. unfold tmap, dual_tensor. cbn [shape data]. destruct k as [s v]. destruct Sk as [_ Lk]. cbn in *. f_equal.
        apply nth_ext with (fst d0) (qz 0); [rewrite map_length, combine_length, Lk, Nat.min_id; reflexivity|]. intros e _. rewrite map_nth, nth_dual by exact Lk. reflexivity. }
      destruct (kernel_follows kq (t_dfk l) _ _ (t_nk l) qk kq' Sf (ft_moved k (t_dk l) Sk)) as [Y [W [H1 [H2 [H3 H4]]]]]; [rewrite K0; exact EK|].
      rewrite H1, H2. cbn [rbind].
      pose proof (fb_conv ts _ _ XS xs (proj2 H3) F) as FZ. cbv beta in FZ.
      assert (W0 : data (W (qz 0)) = data qk) by (pose proof (ft_at0 _ _ H3) as A; rewrite A, H4; reflexivity).
      destruct b as [b|].
      + destruct (bias_forward pw ln2 (l_paq (t_layer l)) b true bl (t_nb l)) as [qb|] eqn:EB; [|discriminate E]. cbn [rbind fst] in E.
        assert (B0 : moved b (t_db l) (qz 0) = b).
        { pose proof (ft_at0 _ _ (ft_moved b (t_db l) Sb)) as A. rewrite A. unfold tmap, dual_tensor. cbn [shape data]. destruct b as [s v]. destruct Sb as [_ Lk]. cbn in *. f_equal.
          apply nth_ext with (fst d0) (qz 0); [rewrite map_length, combine_length, Lk, Nat.min_id; reflexivity|]. intros e _. rewrite map_nth, nth_dual by exact Lk. reflexivity. }
        destruct (bias_follows (l_paq (t_layer l)) (t_dfa l) _ _ bl (t_nb l) qb Sa (ft_moved b (t_db l) Sb)) as [YB [WB [G1 [G2 [G3 G4]]]]]; [rewrite B0; exact EB|].
        rewrite G1, G2. cbn [rbind].
        assert (WB0 : data (WB (qz 0)) = data qb) by (pose proof (ft_at0 _ _ G3) as A; rewrite A, G4; reflexivity).
        pose proof (fb_bias (l_loc (t_layer l)) (l_out (t_layer l)) _ _ _ _ (proj2 G3) FZ) as FZ2. cbv beta in FZ2.
        destruct (call pw ln2 (l_paq (t_layer l)) _ true true (t_na l)) as [[y0 q']|] eqn:EY in E; [|discriminate E]. cbn [rbind fst snd] in E.
        destruct (out_follows (l_paq (t_layer l)) (t_dfa l) (l_relu (t_layer l)) (l_out (t_layer l)) (t_na l) _ _ y0 q' Sa FZ2) as [Y2 [p [J1 [J2 [J3 J4]]]]]; [rewrite W0, WB0; exact EY|].
        rewrite J1, J2. cbn [rbind]. eexists. exists p. split; [reflexivity|]. split; [reflexivity|]. split; [exact J3|]. rewrite J4. injection E as <- _. reflexivity.
      + cbn [rbind fst] in *. destruct (call pw ln2 (l_paq (t_layer l)) _ true true (t_na l)) as [[y0 q']|] eqn:EY in E; [|discriminate E]. cbn [rbind fst snd] in E.
        destruct (out_follows (l_paq (t_layer l)) (t_dfa l) (l_relu (t_layer l)) (l_out (t_layer l)) (t_na l) _ _ y0 q' Sa FZ) as [Y2 [p [J1 [J2 [J3 J4]]]]]; [rewrite W0; exact EY|].
        rewrite J1, J2. cbn [rbind]. eexists. exists p. split; [reflexivity|]. split; [reflexivity|]. split; [exact J3|]. rewrite J4. injection E as <- _. reflexivity.
    - cbn [rbind fst] in *. pose proof (fb_fn g (t_jac l) XS xs F) as FZ. cbv beta in FZ.
      assert (Z0 : linearised_all g (t_jac l) (xs (qz 0)) (xs (qz 0)) = map g (xs (qz 0))).
      { pose proof (fb_at0 _ _ FZ) as A. cbv beta in A. rewrite A, (fx_at0 _ _ F), !map_map. apply map_ext. intros x. apply fst_fn. }
      destruct (call pw ln2 (l_paq (t_layer l)) _ true true (t_na l)) as [[y0 q']|] eqn:EY in E; [|discriminate E]. cbn [rbind fst snd] in E.
      destruct (out_follows (l_paq (t_layer l)) (t_dfa l) (l_relu (t_layer l)) (l_out (t_layer l)) (t_na l) _ _ y0 q' Sa FZ) as [Y2 [p [J1 [J2 [J3 J4]]]]]; [rewrite Z0; exact EY|].
      rewrite J1, J2. cbn [rbind]. eexists. exists p. split; [reflexivity|]. split; [reflexivity|]. split; [exact J3|]. rewrite J4. injection E as <- _. reflexivity.
  Qed.

  (** ** Batch norm *)
  Lemma sel_map {A} (P : nat -> bool) (z : list A) d : map snd (filter (fun ez => P (fst ez)) (combine (seq 0 (length z)) z)) = map (fun e => nth e z d) (filter P (seq 0 (length z))).
  Proof. rewrite (combine_self z d), (map_filter (fun e => (e, nth e z d)) (fun ez => P (fst ez))), map_map. reflexivity. Qed.
  Lemma fl_chan loc out Z z c : follows_b Z z -> follows_l (chan_vals_d loc out Z c) (fun t => chan_vals loc out (z t) c).
  Proof.
    intros F. unfold chan_vals_d, chan_vals. apply (fl_concat _ (fun t => map (fun z0 => map snd (filter (fun ez => Nat.eqb (chan loc out (fst ez)) c) (combine (seq 0 (length z0)) z0))) (z t))).
    apply (fb_each (fun z0 => map snd (filter (fun ez => Nat.eqb (chan loc out (fst ez)) c) (combine (seq 0 (length z0)) z0)))
                   (fun _ z0 => map snd (filter (fun ez => Nat.eqb (chan loc out (fst ez)) c) (combine (seq 0 (length z0)) z0))) Z z F).
    intros j _. pose proof (proj2 F j) as [L G]. rewrite (sel_map (fun e => Nat.eqb (chan loc out e) c) _ d0).
    apply (fl_ext _ (fun t => map (fun e => nth e (nth j (z t) []) (qz 0)) (filter (fun e => Nat.eqb (chan loc out e) c) (seq 0 (length (nth j Z [])))))).
    - intros t. rewrite (sel_map (fun e => Nat.eqb (chan loc out e) c) _ (qz 0)), L. reflexivity.
    - apply (fl_map _ (fun e => nth e (nth j Z []) d0) (fun e t => nth e (nth j (z t) []) (qz 0))). intros e _. apply G.
  Qed.
  Lemma fo_mean l L : follows_l l L -> follows (mean_list_d l) (fun t => mean_list (L t)).
  Proof.
    intros F. unfold mean_list_d, mean_list. apply (fo_ext _ (fun t => (qsum (L t) / qz (Z.of_nat (length l)))%Qc)); [intros t; rewrite (proj1 F); reflexivity|].
    apply (fo_div _ _ (fun t => qsum (L t))), fo_qsum, F.
  Qed.
  Lemma fo_var l L : follows_l l L -> follows (var_list_d l) (fun t => var_list (L t)).
  Proof.
    intros F. unfold var_list_d, var_list. apply (fo_mean _ (fun t => map (fun x => ((x - mean_list (L t)) * (x - mean_list (L t)))%Qc) (L t))).
    pose proof F as [Ln G]. apply (fl_ext _ (fun t => map (fun e => ((nth e (L t) (qz 0) - mean_list (L t)) * (nth e (L t) (qz 0) - mean_list (L t)))%Qc) (seq 0 (length l)))).
    - intros t. rewrite (map_self _ (L t) (qz 0)), Ln. reflexivity.
    - rewrite (map_self _ l d0). apply (fl_map (seq 0 (length l)) _ (fun e t => ((nth e (L t) (qz 0) - mean_list (L t)) * (nth e (L t) (qz 0) - mean_list (L t)))%Qc)).
      intros e _. pose proof (fo_sub _ _ _ _ (G e) (fo_mean _ _ F)) as S. exact (fo_mul _ _ _ _ S S).
  Qed.
  Lemma fo_rsqrt a g : follows a g -> follows (rsqrt_d rsqrt a) (fun t => smooth_rsqrt rsqrt (g (qz 0)) (g t)).
  Proof.
    intros [V S]. unfold rsqrt_d, smooth_rsqrt. split; cbn [fst snd]; rewrite <- V; [change (qz 0) with 0%Qc; ring|].
    set (y := rsqrt (g (qz 0))). apply slope_ext with (fun t => (y + (- (qhalf * y * y * y)) * (g t - g (qz 0)))%Qc); [intros t; ring|].
    replace (- (qhalf * y * y * y) * snd a)%Qc with (qz 0 + - (qhalf * y * y * y) * (snd a - qz 0))%Qc by (change (qz 0) with 0%Qc; ring).
    apply slope_add; [apply slope_const|]. apply slope_scale, slope_sub; [exact S|apply slope_const].
  Qed.
  Lemma ft_scale k K s S : follows_t k K -> (forall c, follows (s c) (S c)) -> follows_t (scale_kernel_d k s) (fun t => scale_kernel (K t) (fun c => S c t)).
  Proof.
    intros [Sh [L F]] Fs. split; [intros t; cbn; apply Sh|]. unfold scale_kernel_d, scale_kernel. cbn [data shape]. rewrite (map_combine_seq _ (data k) d0).
    apply (fl_ext _ (fun t => map (fun e => (nth e (data (K t)) (qz 0) * S (Nat.modulo e (last (shape k) 1%nat)) t)%Qc) (seq 0 (length (data k))))).
    - intros t. rewrite (map_combine_seq _ (data (K t)) (qz 0)), L, Sh. reflexivity.
    - apply (fl_map (seq 0 (length (data k))) _ (fun e t => (nth e (data (K t)) (qz 0) * S (Nat.modulo e (last (shape k) 1%nat)) t)%Qc)). intros e _. cbn [fst snd].
      exact (fo_mul _ _ _ _ (F e) (Fs _)).
  Qed.
  Lemma moved0 v dv : same_shape v dv -> moved v dv (qz 0) = v.
  Proof.
    intros S. rewrite (ft_at0 _ _ (ft_moved v dv S)). unfold tmap, dual_tensor. cbn [shape data]. destruct v as [s w]. destruct S as [_ Lk]. cbn in *. f_equal.
    apply nth_ext with (fst d0) (qz 0); [rewrite map_length, combine_length, Lk, Nat.min_id; reflexivity|]. intros e _. rewrite map_nth, nth_dual by exact Lk. reflexivity.
  Qed.
  Lemma smooth_rsqrt0 v : smooth_rsqrt rsqrt v v = rsqrt v.
  Proof. unfold smooth_rsqrt. ring. Qed.
  Lemma along0 v dv e : length dv = length v -> nth e (along v dv (qz 0)) (qz 0) = nth e v (qz 0).
  Proof. intros L. rewrite (fl_at0 _ _ (fl_along v dv L)). change (qz 0) with (fst d0) at 1. rewrite map_nth, nth_dual by exact L. reflexivity. Qed.
  Lemma scale_kernel_ext k f g : (forall c, f c = g c) -> scale_kernel k f = scale_kernel k g.
  Proof. intros H. unfold scale_kernel. f_equal. apply map_ext. intros jw. rewrite H. reflexivity. Qed.

  Lemma bn_follows b XS xs ys h' : directions_fit (TB b) -> follows_x XS xs ->
    bn_train rsqrt pw ln2 (tb_layer b) (xs (qz 0)) true (tb_nk b) (tb_nb b) (tb_na b) = Ok (ys, h') ->
    exists D p, bn_train_d pw ln2 rsqrt b XS = Ok D /\ smooth_bn pw ln2 rsqrt b xs = Ok p /\ follows_b D p /\ map (map fst) D = ys.
  Proof.
    destruct b as [l ins dk dfk db dg dfa nk nb na]. cbn [directions_fit tb_layer tb_dk tb_dfk tb_db tb_dgamma tb_dfa tb_nk tb_nb tb_na].
    intros [Sa [Sk [Sf [Sb Lg]]]] F E. unfold bn_train in E. unfold bn_train_d, smooth_bn. cbn [tb_layer tb_dk tb_dfk tb_db tb_dgamma tb_dfa tb_nk tb_nb tb_na].
    pose proof (ft_moved _ _ Sk) as FK. pose proof (moved0 _ _ Sk) as K0. set (K := moved (b_kernel l) dk) in *.
    (* the kernel that the statistics are taken with *)
    assert (A : exists Y W, (if b_scale l then Ok (dual_tensor (b_kernel l) dk) else call_d pw ln2 (b_kq l) dfk (dual_tensor (b_kernel l) dk) nk) = Ok Y /\
      (if b_scale l then Ok K else smooth_kernel pw ln2 (b_kq l) dfk nk K) = Ok W /\ follows_t Y W /\
      exists q', (if b_scale l then Ok (b_kernel l, b_kq l) else call pw ln2 (b_kq l) (b_kernel l) true false nk) = Ok (W (qz 0), q')).
    { destruct (b_scale l).
      - exists (dual_tensor (b_kernel l) dk), K. split; [reflexivity|]. split; [reflexivity|]. split; [exact FK|]. exists (b_kq l). rewrite K0. reflexivity.
      - destruct (call pw ln2 (b_kq l) (b_kernel l) true false nk) as [[qk q']|] eqn:EK; [|discriminate E].
        destruct (kernel_follows (b_kq l) dfk _ K nk qk q' Sf FK) as [Y [W [H1 [H2 [H3 H4]]]]]; [rewrite K0; exact EK|].
        exists Y, W. split; [exact H1|]. split; [exact H2|]. split; [exact H3|]. exists q'. rewrite (ft_at0 _ _ H3), H4. reflexivity. }
    destruct A as [Y [W [A1 [A2 [A3 [q1 A4]]]]]]. rewrite A1, A2. rewrite A4 in E. cbn [rbind fst] in *.
    pose proof (fb_conv (b_ts l) _ _ XS xs (proj2 A3) F) as FZ. cbv beta in FZ.
    set (Z := map (fun x => linop_d (b_ts l) (data Y) (hd [] x)) XS) in *.
    set (bias := fun c : nat => match b_bias l with Some v => nth c (data (dual_tensor v db)) (d_const (qz 0)) | None => d_const (qz 0) end).
    set (biasp := fun c t => match b_bias l with Some v => nth c (along (data v) (data db) t) (qz 0) | None => qz 0 end).
    assert (FB : forall c, follows (bias c) (biasp c)).
    { intros c. unfold bias, biasp. destruct (b_bias l) as [v|]; [|apply fo_const]. exact (proj2 (fl_along (data v) (data db) (proj2 Sb)) c). }
    assert (FM := fun c => fo_mean _ _ (fl_chan (b_loc l) (b_out l) _ _ c FZ)). cbv beta in FM.
    assert (FV := fun c => fo_var _ _ (fl_chan (b_loc l) (b_out l) _ _ c FZ)). cbv beta in FV.
    set (vals := fun c t => chan_vals (b_loc l) (b_out l) (map (fun x => linop (b_ts l) (data (W t)) (hd [] x)) (xs t)) c) in *.
    set (scale := fun c : nat => if b_scale l then d_mul (nth c (combine (b_gamma l) dg) (d_const (qz 0))) (rsqrt_d rsqrt (d_add (var_list_d (chan_vals_d (b_loc l) (b_out l) Z c)) (d_const (b_eps l)))) else d_const (qz 1)).
    set (scalep := fun c t => if b_scale l then (nth c (along (b_gamma l) dg t) (qz 0) * smooth_rsqrt rsqrt (var_list (vals c (qz 0)) + b_eps l) (var_list (vals c t) + b_eps l))%Qc else qz 1).
    assert (FS : forall c, follows (scale c) (scalep c)).
    { intros c. unfold scale, scalep. destruct (b_scale l); [|apply fo_const].
      exact (fo_mul _ _ _ _ (proj2 (fl_along (b_gamma l) dg Lg) c) (fo_rsqrt _ _ (fo_add _ _ _ _ (FV c) (fo_const (b_eps l))))). }
    set (scale0 := fun c : nat => if b_scale l then (nth c (b_gamma l) (qz 0) * rsqrt (var_list (vals c (qz 0)) + b_eps l))%Qc else qz 1).
    assert (S0 : forall c, scalep c (qz 0) = scale0 c).
    { intros c. unfold scalep, scale0. destruct (b_scale l); [|reflexivity]. rewrite smooth_rsqrt0, along0 by exact Lg. reflexivity. }
    set (bias0 := fun c : nat => match b_bias l with Some v => nth c (data v) (qz 0) | None => qz 0 end).
    assert (B0 : forall c, biasp c (qz 0) = bias0 c).
    { intros c. unfold biasp, bias0. destruct (b_bias l) as [v|]; [|reflexivity]. apply along0, (proj2 Sb). }
    (* the quantized kernel *)
    assert (B : exists Y' W', (if b_scale l then call_d pw ln2 (b_kq l) dfk (scale_kernel_d (dual_tensor (b_kernel l) dk) scale) nk else Ok Y) = Ok Y' /\
      (if b_scale l then smooth_kernel pw ln2 (b_kq l) dfk nk (fun t => scale_kernel (K t) (fun c => scalep c t)) else Ok W) = Ok W' /\ follows_t Y' W' /\
      exists q', (if b_scale l then call pw ln2 (b_kq l) (scale_kernel (b_kernel l) scale0) true false nk else Ok (W (qz 0), q1)) = Ok (W' (qz 0), q')).
    { change (fun c => if b_scale l then (nth c (b_gamma l) (qz 0) * rsqrt (var_list (chan_vals (b_loc l) (b_out l) (map (fun x => linop (b_ts l) (data (W (qz 0))) (hd [] x)) (xs (qz 0))) c) + b_eps l))%Qc else qz 1) with scale0 in E.
      destruct (b_scale l) eqn:EB.
      - destruct (call pw ln2 (b_kq l) (scale_kernel (b_kernel l) scale0) true false nk) as [[qk q']|] eqn:EK; [|discriminate E].
        destruct (kernel_follows (b_kq l) dfk _ (fun t => scale_kernel (K t) (fun c => scalep c t)) nk qk q' Sf (ft_scale _ _ _ _ FK FS)) as [Y' [W' [H1 [H2 [H3 H4]]]]].
        { rewrite K0, (scale_kernel_ext _ _ scale0 S0). exact EK. }
        exists Y', W'. split; [exact H1|]. split; [exact H2|]. split; [exact H3|]. exists q'. rewrite (ft_at0 _ _ H3), H4. reflexivity.
      - exists Y, W. split; [reflexivity|]. split; [reflexivity|]. split; [exact A3|]. exists q1. reflexivity. }
    destruct B as [Y' [W' [B1 [B2 [B3 [q2 B4]]]]]].
    lazymatch goal with |- exists D p, rbind ?e _ = Ok D /\ _ => assert (X1 : e = Ok Y') by exact B1; rewrite X1; clear X1 end. cbn [rbind].
    lazymatch goal with |- exists D p, _ /\ rbind ?e _ = Ok p /\ _ => assert (X1 : e = Ok W') by exact B2; rewrite X1; clear X1 end. cbn [rbind].
    lazymatch type of E with rbind ?e _ = _ => assert (X1 : e = Ok (W' (qz 0), q2)) by exact B4; rewrite X1 in E; clear X1 end. cbn [rbind fst snd] in E.
    pose proof (fb_conv (b_ts l) _ _ XS xs (proj2 B3) F) as FZ'. cbv beta in FZ'.
    (* the bias *)
    destruct (b_center l).
    - assert (FBN : follows_t (mkT [n_chan l] (map (fun c => d_sub (bias c) (d_mul (d_add (mean_list_d (chan_vals_d (b_loc l) (b_out l) Z c)) (bias c)) (scale c))) (chans l)))
                       (fun t => mkT [n_chan l] (map (fun c => (biasp c t - (mean_list (vals c t) + biasp c t) * scalep c t)%Qc) (chans l)))).
      { split; [reflexivity|]. apply (fl_map (chans l) _ (fun c t => (biasp c t - (mean_list (vals c t) + biasp c t) * scalep c t)%Qc)). intros c _.
        exact (fo_sub _ _ _ _ (FB c) (fo_mul _ _ _ _ (fo_add _ _ _ _ (FM c) (FB c)) (FS c))). }
      destruct (bias_forward pw ln2 (b_paq l) _ true (b_loc l) nb) as [qb|] eqn:EB in E; [|discriminate E]. cbn [rbind fst] in E.
      destruct (bias_follows (b_paq l) dfa _ _ (b_loc l) nb qb Sa FBN) as [YB [WB [G1 [G2 [G3 G4]]]]].
      { cbv beta. rewrite <- EB. f_equal. f_equal. apply map_ext. intros c. rewrite B0, S0. reflexivity. }
      lazymatch goal with |- exists D p, rbind (rbind ?e _) _ = Ok D /\ _ => assert (X1 : e = Ok YB) by exact G1; rewrite X1; clear X1 end.
      lazymatch goal with |- exists D p, _ /\ rbind (rbind ?e _) _ = Ok p /\ _ => assert (X1 : e = Ok WB) by exact G2; rewrite X1; clear X1 end. cbn [rbind].
      assert (WB0 : data (WB (qz 0)) = data qb) by (pose proof (ft_at0 _ _ G3) as Q; rewrite Q, G4; reflexivity).
      pose proof (fb_bias (b_loc l) (b_out l) _ _ _ _ (proj2 G3) FZ') as FZ2. cbv beta in FZ2.
      destruct (call pw ln2 (b_paq l) _ true true na) as [[y0 q']|] eqn:EY in E; [|discriminate E]. cbn [rbind fst snd] in E.
      destruct (out_follows (b_paq l) dfa (b_relu l) (b_out l) na _ _ y0 q' Sa FZ2) as [Y2 [p [J1 [J2 [J3 J4]]]]]; [rewrite WB0; exact EY|].
      rewrite J1, J2. cbn [rbind]. eexists. exists p. split; [reflexivity|]. split; [reflexivity|]. split; [exact J3|]. rewrite J4.
      assert (Q : forall (a a' : list sample) (x x' : bnlayer), Ok (a, x) = Ok (a', x') -> a = a') by (intros; congruence). exact (Q _ _ _ _ E).
    - cbn [rbind fst] in *. destruct (call pw ln2 (b_paq l) _ true true na) as [[y0 q']|] eqn:EY in E; [|discriminate E]. cbn [rbind fst snd] in E.
      destruct (out_follows (b_paq l) dfa (b_relu l) (b_out l) na _ _ y0 q' Sa FZ') as [Y2 [p [J1 [J2 [J3 J4]]]]]; [exact EY|].
      rewrite J1, J2. cbn [rbind]. eexists. exists p. split; [reflexivity|]. split; [reflexivity|]. split; [exact J3|]. rewrite J4.
      assert (Q : forall (a a' : list sample) (x x' : bnlayer), Ok (a, x) = Ok (a', x') -> a = a') by (intros; congruence). exact (Q _ _ _ _ E).
  Qed.

  (** ** HBatchNormalization *)
  Lemma rb {A B} (e : result A) v (f : A -> result B) r : e = Ok v -> f v = r -> rbind e f = r.
  Proof. intros -> H. exact H. Qed.
  Lemma bshape_len s1 : forall s2 s, bshape s1 s2 = Some s -> length s1 = length s /\ length s2 = length s /\ bshape s2 s = Some s.
  Proof.
    induction s1 as [|a s1 IH]; intros [|b s2] s H; try discriminate H; cbn [bshape] in H.
    - injection H as <-. repeat split.
    - destruct (bshape s1 s2) as [r|] eqn:E; [|discriminate H]. destruct (IH s2 r E) as [L1 [L2 A]].
      assert (C : exists c, s = c :: r /\ (if Nat.eqb b c then true else Nat.eqb b 1) = true).
      { destruct (Nat.eqb_spec a b) as [Q|Q]; [exists a; split; [congruence|]; rewrite Q, Nat.eqb_refl; reflexivity|]. destruct (Nat.eqb_spec a 1) as [Q1|Q1].
        - exists b. split; [congruence|]. rewrite Nat.eqb_refl. reflexivity.
        - destruct (Nat.eqb_spec b 1) as [Q2|Q2]; [|discriminate H]. exists a. split; [congruence|]. subst b. destruct (Nat.eqb 1 a); reflexivity. }
      destruct C as [c [-> K]]. cbn [length bshape]. rewrite A. split; [congruence|]. split; [congruence|].
      destruct (Nat.eqb_spec b c) as [->|Q]; [reflexivity|]. rewrite K. reflexivity.
  Qed.
  Lemma broadcast_idx s1 s2 s p : broadcast_shape s1 s2 = Some s -> p < prodn s -> bidx (pad_to (length s) s2) s p < prodn s2.
  Proof.
    intros E Hp. unfold broadcast_shape in E. destruct (bshape_len _ _ _ E) as [_ [L A]].
    assert (N : Nat.max (length s1) (length s2) = length s) by (rewrite <- L; unfold pad_to; rewrite app_length, repeat_length; lia).
    rewrite N in A. pose proof (BnLayerP.bidx_lt _ _ _ A Hp) as R. rewrite FloatLayerP.prodn_pad in R. exact R.
  Qed.

  (** Element-wise operations. *)
  Lemma ft_op (f : Qc -> Qc -> Qc) (fd : dual -> dual -> dual) (f' : Qc -> Qc -> Qc -> Qc -> Qc) A B a b v :
    follows_t A a -> follows_t B b -> bmap2 (qz 0) (qz 0) f (a (qz 0)) (b (qz 0)) = Ok v -> (forall x y, f' x y x y = f x y) ->
    (forall p x y g h, p < prodn (shape v) -> x = nth (bidx (pad_to (length (shape v)) (shape A)) (shape v) p) (data A) d0 ->
       y = nth (bidx (pad_to (length (shape v)) (shape B)) (shape v) p) (data B) d0 -> follows x g -> follows y h ->
       follows (fd x y) (fun t => f' (g (qz 0)) (h (qz 0)) (g t) (h t))) ->
    exists V, bmap2 d0 d0 fd A B = Ok V /\
      follows_t V (fun t => mkT (shape v) (map (fun p => f' (seen (a (qz 0)) (shape v) p) (seen (b (qz 0)) (shape v) p) (seen (a t) (shape v) p) (seen (b t) (shape v) p)) (seq 0 (prodn (shape v))))) /\
      tmap fst V = v /\ shape V = shape v.
  Proof.
    intros [SA FA] [SB FB] E I H. unfold bmap2 in *. rewrite (SA (qz 0)), (SB (qz 0)) in E. destruct (broadcast_shape (shape A) (shape B)) as [s|] eqn:BS; [|discriminate E].
    injection E as <-. cbn [shape] in *. match goal with |- context [broadcast_shape ?u ?w] => replace (broadcast_shape u w) with (Some s) by (symmetry; exact BS) end. eexists. split; [reflexivity|].
    assert (F : follows_t (mkT s (map (fun p => fd (nth (bidx (pad_to (length s) (shape A)) s p) (data A) d0) (nth (bidx (pad_to (length s) (shape B)) s p) (data B) d0)) (seq 0 (prodn s))))
      (fun t => mkT s (map (fun p => f' (seen (a (qz 0)) s p) (seen (b (qz 0)) s p) (seen (a t) s p) (seen (b t) s p)) (seq 0 (prodn s))))).
    { split; [reflexivity|]. cbn [data].
      apply (fl_map (seq 0 (prodn s)) _ (fun p t => f' (seen (a (qz 0)) s p) (seen (b (qz 0)) s p) (seen (a t) s p) (seen (b t) s p))). intros p Hp. apply in_seq in Hp.
      assert (PA : follows (nth (bidx (pad_to (length s) (shape A)) s p) (data A) d0) (fun t => seen (a t) s p)).
      { apply (fo_ext _ (fun t => nth (bidx (pad_to (length s) (shape A)) s p) (data (a t)) (qz 0))); [intros t; unfold seen; rewrite SA; reflexivity|]. apply FA. }
      assert (PB : follows (nth (bidx (pad_to (length s) (shape B)) s p) (data B) d0) (fun t => seen (b t) s p)).
      { apply (fo_ext _ (fun t => nth (bidx (pad_to (length s) (shape B)) s p) (data (b t)) (qz 0))); [intros t; unfold seen; rewrite SB; reflexivity|]. apply FB. }
      apply (H p _ _ _ _ ltac:(lia) eq_refl eq_refl PA PB). }
    split; [exact F|]. split; [|reflexivity]. eapply eq_trans; [symmetry; exact (ft_at0 _ _ F)|]. cbv beta. f_equal. apply map_ext. intros p. unfold seen. rewrite I, SA, SB. reflexivity.
  Qed.
  Lemma ft_both f fd A B a b v : follows_t A a -> follows_t B b -> bmap2 (qz 0) (qz 0) f (a (qz 0)) (b (qz 0)) = Ok v ->
    (forall p x y g h, p < prodn (shape v) -> x = nth (bidx (pad_to (length (shape v)) (shape A)) (shape v) p) (data A) d0 ->
       y = nth (bidx (pad_to (length (shape v)) (shape B)) (shape v) p) (data B) d0 -> follows x g -> follows y h -> follows (fd x y) (fun t => f (g t) (h t))) ->
    exists V P, bmap2 d0 d0 fd A B = Ok V /\ both f a b = Ok P /\ follows_t V P /\ tmap fst V = v /\ shape V = shape v /\ P (qz 0) = v.
  Proof.
    intros FA FB E H. destruct (ft_op f fd (fun _ _ x y => f x y) A B a b v FA FB E (fun _ _ => eq_refl) H) as [V [E1 [F [T S]]]].
    exists V. eexists. split; [exact E1|]. unfold both. rewrite E. cbn [rbind]. split; [reflexivity|]. split; [exact F|]. split; [exact T|]. split; [exact S|].
    eapply eq_trans; [exact (ft_at0 _ _ F)|exact T].
  Qed.

  (** Sums over axes. *)
  Lemma fo_fold (c : nat -> bool) ds G : follows_l ds G -> forall l a A, follows a A ->
    follows (fold_left (fun acc e => if c e then d_add acc (nth e ds d0) else acc) l a) (fun t => fold_left (fun acc e => if c e then (acc + nth e (G t) (qz 0))%Qc else acc) l (A t)).
  Proof.
    intros [_ F]. induction l as [|e l IH]; intros a A H; cbn [fold_left]; [exact H|].
    apply (IH _ (fun t => if c e then (A t + nth e (G t) (qz 0))%Qc else A t)). destruct (c e); [apply fo_add; [exact H|apply F]|exact H].
  Qed.
  Lemma fold_map {A B C} (f : A -> C -> A) (g : B -> C) l : forall a, fold_left f (map g l) a = fold_left (fun acc e => f acc (g e)) l a.
  Proof. induction l as [|x l IH]; intros a; [reflexivity|]. cbn [map fold_left]. apply IH. Qed.
  Lemma ft_reduce fl T X : follows_t T X -> follows_t (treduce d_add (d_const (qz 0)) fl true T) (fun t => treduce Qcplus (qz 0) fl true (X t)).
  Proof.
    intros [S F]. split; [intros t; cbn [treduce shape]; rewrite S; reflexivity|]. cbn [treduce data].
    apply (fl_ext _ (fun t => map (fun o => fold_left (fun acc e => if Nat.eqb (ridx fl (shape T) e) o then (acc + nth e (data (X t)) (qz 0))%Qc else acc) (seq 0 (length (data T))) (qz 0)) (seq 0 (prodn (kept fl (shape T)))))).
    - intros t. rewrite S. apply map_ext. intros o. rewrite (combine_self (data (X t)) (qz 0)), fold_map. rewrite (proj1 F t). reflexivity.
    - apply (fl_map (seq 0 (prodn (kept fl (shape T)))) _ (fun o t => fold_left (fun acc e => if Nat.eqb (ridx fl (shape T) e) o then (acc + nth e (data (X t)) (qz 0))%Qc else acc) (seq 0 (length (data T))) (qz 0))).
      intros o _. rewrite (combine_self (data T) d0), fold_map. cbn [fst snd]. apply (fo_fold (fun e => Nat.eqb (ridx fl (shape T) e) o) (data T) (fun t => data (X t)) F _ _ (fun _ => qz 0)). apply fo_const.
  Qed.
  Lemma ft_mean axes T X : follows_t T X -> follows_t (tmean_d axes T) (fun t => tmean axes (X t)).
  Proof.
    intros F. pose proof F as [S [L _]]. pose proof (ft_reduce (axis_flags (length (shape T)) axes) T X F) as [SR FR]. unfold tmean_d, tmean.
    assert (N : forall t, treduce Qcplus (qz 0) (axis_flags (length (shape T)) axes) true (tmap (fun _ => qz 1) (X t)) = treduce Qcplus (qz 0) (axis_flags (length (shape T)) axes) true (tmap (fun _ => qz 1) T)).
    { intros t. f_equal. unfold tmap. rewrite S. f_equal. rewrite (map_self _ (data (X t)) (qz 0)), (map_self _ (data T) d0). rewrite L. reflexivity. }
    set (n := treduce Qcplus (qz 0) _ true (tmap (fun _ => qz 1) T)) in *.
    split; [intros t; cbn [shape]; rewrite S; apply SR|]. cbn [data].
    assert (LN : length (data (treduce d_add (d_const (qz 0)) (axis_flags (length (shape T)) axes) true T)) = length (data n)) by (unfold n, treduce, tmap; cbn [data shape]; rewrite !map_length; reflexivity).
    apply (fl_ext _ (fun t => map (fun e => (nth e (data (treduce Qcplus (qz 0) (axis_flags (length (shape T)) axes) true (X t))) (qz 0) / nth e (data n) (qz 0))%Qc) (seq 0 (length (data n))))).
    - intros t. rewrite S. rewrite N. rewrite (map_combine _ (qz 0) (qz 0)) by (rewrite (proj1 FR t); exact LN). reflexivity.
    - rewrite (map_combine _ d0 (qz 0)) by exact LN.
      apply (fl_map (seq 0 (length (data n))) _ (fun e t => (nth e (data (treduce Qcplus (qz 0) (axis_flags (length (shape T)) axes) true (X t))) (qz 0) / nth e (data n) (qz 0))%Qc)).
      intros e _. apply fo_div. apply FR.
  Qed.

  Lemma clip_again q : clip_fbw (clip_fbw q) = clip_fbw q.
  Proof.
    unfold clip_fbw. destruct (q_clip q) as [[lo hi]|] eqn:E; [|rewrite E; reflexivity].
    destruct q as [a1 a2 a3 a4 a5 a6 a7]. unfold with_fbw. cbn in *. subst a7. f_equal. unfold tmap; cbn [data shape]. f_equal.
    rewrite map_map. apply map_ext. intros a. unfold clip_by_value, qmax, qmin. qcases; try reflexivity; try (apply Qcle_antisym; qlra); qlra.
  Qed.
  Lemma call_silent q x record noise y q' : call pw ln2 q x true record noise = Ok (y, q') -> exists q'', call pw ln2 q x true false noise = Ok (y, q'').
  Proof.
    unfold call, forward. destruct (bmap2 _ _ _ _ _) as [vf|]; [|intros H; discriminate H]. cbn [rbind]. destruct (rseq _) as [ys|]; [|intros H; discriminate H]. cbn [rbind negb].
    destruct record; cbn [negb].
    - destruct (record_min _ _ _); [|intros H; discriminate H]. cbn [rbind]. destruct (record_max _ _ _); [|intros H; discriminate H]. cbn [rbind]. intros H. injection H as <- _. eexists. reflexivity.
    - intros H. injection H as <- _. eexists. reflexivity.
  Qed.
  Lemma call_clip q x tr record noise : call pw ln2 (clip_fbw q) x tr record noise = call pw ln2 q x tr record noise.
  Proof. unfold call. rewrite clip_again. reflexivity. Qed.
  Lemma same_shape_clip q df : same_shape (q_fbw q) df -> same_shape (q_fbw (clip_fbw q)) df.
  Proof. intros [S L]. unfold clip_fbw. destruct (q_clip q) as [[lo hi]|]; [|split; assumption]. unfold same_shape, with_fbw, tmap; cbn [q_fbw shape data]. rewrite map_length. split; [exact S|exact L]. Qed.

  Lemma norm_follows b X xs y l' : directions_fit (TN b) -> follows_t X xs -> bnorm_train pw ln2 rsqrt (tn_layer b) (xs (qz 0)) (tn_n1 b) (tn_n2 b) (tn_n3 b) = Ok (y, l') ->
    exists Y P, bnorm_train_d pw ln2 rsqrt b X = Ok Y /\ smooth_norm pw ln2 rsqrt b xs = Ok P /\ follows_t Y P /\ tmap fst Y = y.
  Proof.
    intros [Sg [Sb [Sk Sa]]] FX E. unfold bnorm_train in E. set (l := tn_layer b) in *.
    apply CallP.rbind_ok in E. destruct E as [var [EV E]]. apply CallP.rbind_ok in E. destruct E as [ker [EK E]]. destruct (existsb _ (data ker)) eqn:NZ; [discriminate E|].
    unfold bnorm_forward in E. rewrite EV in E. cbn [rbind] in E.
    apply CallP.rbind_ok in E. destruct E as [st [Est E]]. apply CallP.rbind_ok in Est. destruct Est as [mm [_ Est]]. apply CallP.rbind_ok in Est. destruct Est as [mv [_ Est]].
    assert (st = (tmean (m_axes l) (xs (qz 0)), var, mm, mv)) by congruence. subst st. clear Est. cbv iota beta in E.
    apply CallP.rbind_ok in E. destruct E as [z [EZ E]]. apply CallP.rbind_ok in E. destruct E as [[y1 q1] [EY E]]. assert (y1 = y) by (cbn [fst] in E; congruence). subst y1. clear E.
    unfold bnorm_z in EZ. rewrite EK in EZ. cbn [rbind] in EZ.
    apply CallP.rbind_ok in EZ. destruct EZ as [mk [EM EZ]]. apply CallP.rbind_ok in EZ. destruct EZ as [bias [EB EZ]].
    apply CallP.rbind_ok in EZ. destruct EZ as [qker [EQ EZ]]. apply CallP.rbind_ok in EQ. destruct EQ as [[qk1 kq'] [EQ EQ']]. assert (qk1 = qker) by (cbn [fst] in EQ'; congruence). subst qk1. clear EQ'.
    apply CallP.rbind_ok in EZ. destruct EZ as [qbias [EQB EZ]]. apply CallP.rbind_ok in EQB. destruct EQB as [[qb1 bq'] [EQB EQ']]. assert (qb1 = qbias) by (cbn [fst] in EQ'; congruence). subst qb1. clear EQ'.
    apply CallP.rbind_ok in EZ. destruct EZ as [kx [EKX EZ]].
    unfold tvar in EV. apply CallP.rbind_ok in EV. destruct EV as [dev [ED EV]]. assert (EV' : tmean (m_axes l) dev = var) by congruence. clear EV.
    pose proof (ft_mean (m_axes l) X xs FX) as FM. set (M := tmean_d (m_axes l) X) in *. set (mean := fun t => tmean (m_axes l) (xs t)) in *.
    destruct (ft_both (fun a m => ((a - m) * (a - m))%Qc) (fun a m => d_mul (d_sub a m) (d_sub a m)) X M xs mean dev FX FM ED) as (DEV & dv & D1 & D2 & FD & TD & _ & D0).
    { intros p x m g h _ _ _ Gx Gm. apply fo_mul; apply fo_sub; assumption. }
    pose proof (ft_mean (m_axes l) DEV dv FD) as FV. set (VAR := tmean_d (m_axes l) DEV) in *.
    pose proof (ft_moved _ _ Sg) as FG. pose proof (ft_moved _ _ Sb) as FBt.
    assert (M0 : moved (m_gamma l) (tn_dgamma b) (qz 0) = m_gamma l) by (apply moved0; exact Sg). assert (B0 : moved (m_beta l) (tn_dbeta b) (qz 0) = m_beta l) by (apply moved0; exact Sb).
    assert (EK' : bmap2 (qz 0) (qz 0) (fun g v => (g * rsqrt (v + m_eps l))%Qc) (moved (m_gamma l) (tn_dgamma b) (qz 0)) (tmean (m_axes l) (dv (qz 0))) = Ok ker) by (rewrite M0, D0, EV'; exact EK).
    destruct (ft_op (fun g v => (g * rsqrt (v + m_eps l))%Qc) (fun g v => d_mul g (rsqrt_d rsqrt (d_add v (d_const (m_eps l))))) (fun _ v0 g v => (g * smooth_rsqrt rsqrt (v0 + m_eps l) (v + m_eps l))%Qc)
      _ VAR _ (fun t => tmean (m_axes l) (dv t)) ker FG FV EK') as (KER & K1 & FK & TK & SK).
    { intros g v. rewrite smooth_rsqrt0. reflexivity. }
    { intros p x v g h _ _ _ Gx Gv. apply (fo_mul x _ g (fun t => smooth_rsqrt rsqrt (h (qz 0) + m_eps l) (h t + m_eps l))); [exact Gx|].
      apply (fo_rsqrt (d_add v (d_const (m_eps l))) (fun t => (h t + m_eps l)%Qc)). apply fo_add; [exact Gv|apply fo_const]. }
    set (kp := fun t => mkT (shape ker) _) in FK. assert (K0 : kp (qz 0) = ker) by (eapply eq_trans; [exact (ft_at0 _ _ FK)|exact TK]).
    assert (EM' : bmap2 (qz 0) (qz 0) Qcdiv (mean (qz 0)) (kp (qz 0)) = Ok mk) by (rewrite K0; exact EM).
    destruct (ft_both Qcdiv d_div M KER mean kp mk FM FK EM') as (MK & mkp & MK1 & MK2 & FMK & TMK & _ & MK0).
    { intros p x k g h Hp _ Ek Gx Gk. apply fo_quot; [exact Gx|exact Gk|]. rewrite Ek. intros Z.
      assert (IX : bidx (pad_to (length (shape mk)) (shape KER)) (shape mk) p < length (data ker)).
      { change (tmean (m_axes l) (xs (qz 0))) with (mean (qz 0)) in EM. unfold bmap2 in EM. destruct (broadcast_shape (shape (mean (qz 0))) (shape ker)) as [s|] eqn:BS; [|discriminate EM]. injection EM as <-. cbn [shape] in *. rewrite SK.
        assert (LK : length (data ker) = prodn (shape ker)) by (unfold bmap2 in EK; destruct (broadcast_shape (shape (m_gamma l)) _) as [s'|]; [|discriminate EK]; injection EK as <-; cbn [data shape]; rewrite map_length, seq_length; reflexivity).
        rewrite LK. exact (broadcast_idx _ _ _ _ BS Hp). }
      assert (Z' : nth (bidx (pad_to (length (shape mk)) (shape KER)) (shape mk) p) (data ker) (qz 0) = 0%Qc).
      { rewrite <- TK. cbn [tmap data]. change (qz 0) with (fst (d_const (qz 0))). rewrite map_nth. exact Z. }
      assert (T : existsb (qeqb (qz 0)) (data ker) = true).
      { apply existsb_exists. exists 0%Qc. split; [rewrite <- Z'; apply nth_In; exact IX|reflexivity]. }
      congruence. }
    assert (EB' : bmap2 (qz 0) (qz 0) Qcminus (moved (m_beta l) (tn_dbeta b) (qz 0)) (mkp (qz 0)) = Ok bias) by (rewrite MK0, B0; exact EB).
    destruct (ft_both Qcminus d_sub _ MK _ mkp bias FBt FMK EB') as (BI & bip & BI1 & BI2 & FBI & TBI & _ & BI0).
    { intros p x k g h _ _ _ Gx Gk. apply fo_sub; assumption. }
    assert (EQ' : call pw ln2 (m_kq l) (kp (qz 0)) true false (tn_n1 b) = Ok (qker, kq')) by (rewrite K0; exact EQ).
    destruct (kernel_follows (m_kq l) (tn_dfk b) KER kp (tn_n1 b) qker kq' Sk FK EQ') as (QK & qkp & QK1 & QK2 & FQK & TQK).
    assert (EQB' : call pw ln2 (m_paq l) (bip (qz 0)) true false (tn_n2 b) = Ok (qbias, bq')) by (rewrite BI0; exact EQB).
    destruct (kernel_follows (m_paq l) (tn_dfa b) BI bip (tn_n2 b) qbias bq' Sa FBI EQB') as (QB & qbp & QB1 & QB2 & FQB & TQB).
    assert (EKX' : bmap2 (qz 0) (qz 0) Qcmult (qkp (qz 0)) (xs (qz 0)) = Ok kx) by (rewrite (ft_at0 _ _ FQK), TQK; exact EKX).
    destruct (ft_both Qcmult d_mul QK X qkp xs kx FQK FX EKX') as (KX & kxp & KX1 & KX2 & FKX & TKX & _ & KX0).
    { intros p x k g h _ _ _ Gx Gk. apply fo_mul; assumption. }
    assert (EZ' : bmap2 (qz 0) (qz 0) Qcplus (kxp (qz 0)) (qbp (qz 0)) = Ok z) by (rewrite (ft_at0 _ _ FQB), TQB, KX0; exact EZ).
    destruct (ft_both Qcplus d_add KX QB kxp qbp z FKX FQB EZ') as (ZZ & zp & Z1 & Z2 & FZ & TZ & _ & Z0).
    { intros p x k g h _ _ _ Gx Gk. apply fo_add; assumption. }
    rewrite call_clip in EY. destruct (call_silent _ _ _ _ _ _ EY) as [q2 EY2]. rewrite <- Z0 in EY2.
    destruct (kernel_follows (m_paq l) (tn_dfa b) ZZ zp (tn_n3 b) y q2 Sa FZ EY2) as (Y & yp & Y1 & Y2 & FY & TY).
    exists Y, yp. split; [|split; [|split; [exact FY|exact TY]]].
    - unfold bnorm_train_d. fold l. unfold tvar_d. fold M. 
      refine (rb _ _ _ _ (rb _ _ _ _ D1 eq_refl) _). cbv beta. fold VAR. refine (rb _ _ _ _ K1 _). refine (rb _ _ _ _ MK1 _). refine (rb _ _ _ _ BI1 _).
      refine (rb _ _ _ _ QK1 _). refine (rb _ _ _ _ QB1 _). refine (rb _ _ _ _ KX1 _). refine (rb _ _ _ _ Z1 _). rewrite <- Y1. unfold call_d. rewrite clip_again. unfold quantize_d.
      assert (A : q_strategy (clip_fbw (m_paq l)) = q_strategy (m_paq l) /\ q_exact (clip_fbw (m_paq l)) = q_exact (m_paq l)) by (unfold clip_fbw; destruct (q_clip (m_paq l)) as [[lo hi]|]; split; reflexivity).
      destruct A as [-> ->]. reflexivity.
    - unfold smooth_norm. fold l. fold mean. rewrite D2. cbn [rbind]. unfold scales. rewrite EK'. cbn [rbind]. fold kp. rewrite MK2. cbn [rbind]. rewrite BI2. cbn [rbind].
      rewrite QK2. cbn [rbind]. rewrite QB2. cbn [rbind]. rewrite KX2. cbn [rbind]. rewrite Z2. cbn [rbind]. exact Y2.
  Qed.

  (** ** Nodes *)
  Definition related (v : batch) (D : list (list dual)) (P : Qc -> list (list Qc)) : Prop := v = map (map fst) D /\ follows_b D P.
  Definition triple : Type := (batch * list (list dual) * (Qc -> list (list Qc)))%type.
  Definition t_v (x : triple) : batch := fst (fst x).
  Definition t_d (x : triple) : list (list dual) := snd (fst x).
  Definition t_p (x : triple) : Qc -> list (list Qc) := snd x.
  Definition linked (x : triple) : Prop := related (t_v x) (t_d x) (t_p x).

  Lemma zip_follows ins xs : Forall linked ins -> zip_samples (map t_v ins) = Ok xs ->
    exists XS xp, zip_samples_d (map t_d ins) = Ok XS /\ zip_paths (map t_p ins) = Ok xp /\ follows_x XS xp /\ xp (qz 0) = xs.
  Proof.
    intros H E. rewrite Forall_forall in H. destruct ins as [|x ins]; [discriminate E|].
    unfold zip_samples, zip_samples_d, zip_paths in *. cbn [map] in *.
    assert (LD : forall y, In y (x :: ins) -> length (t_v y) = length (t_d y) /\ forall t, length (t_p y t) = length (t_d y)).
    { intros y Hy. destruct (H y Hy) as [Ev [L _]]. split; [rewrite Ev, map_length; reflexivity|exact L]. }
    change (t_v x :: map t_v ins) with (map t_v (x :: ins)) in *. change (t_d x :: map t_d ins) with (map t_d (x :: ins)). change (t_p x :: map t_p ins) with (map t_p (x :: ins)).
    destruct (forallb _ (map t_v (x :: ins))) eqn:FB; [|discriminate E].
    rewrite forallb_forall in FB. destruct (LD x (or_introl eq_refl)) as [Lx Px].
    assert (F1 : forallb (fun b' => Nat.eqb (length b') (length (t_d x))) (map t_d (x :: ins)) = true).
    { apply forallb_forall. intros d Hd. apply in_map_iff in Hd. destruct Hd as [y [<- Hy]]. destruct (LD y Hy) as [Ly _]. specialize (FB (t_v y) (in_map t_v _ _ Hy)). rewrite Ly, Lx in FB. exact FB. }
    assert (F2 : forallb (fun b' : Qc -> list (list Qc) => Nat.eqb (length (b' (qz 0))) (length (t_p x (qz 0)))) (map t_p (x :: ins)) = true).
    { apply forallb_forall. intros d Hd. apply in_map_iff in Hd. destruct Hd as [y [<- Hy]]. destruct (LD y Hy) as [Ly Py]. specialize (FB (t_v y) (in_map t_v _ _ Hy)). rewrite Ly, Lx in FB. rewrite Py, Px. exact FB. }
    rewrite F1, F2. eexists. eexists. split; [reflexivity|]. split; [reflexivity|]. rewrite Px. split.
    - split; [intros t; rewrite !map_length; reflexivity|]. intros j.
      destruct (Nat.lt_ge_cases j (length (t_d x))) as [Hj|Hj].
      + rewrite nth_map_seq by exact Hj. apply (fb_ext _ (fun t => map (fun y => nth j (t_p y t) []) (x :: ins))).
        * intros t. rewrite nth_map_seq by exact Hj. rewrite map_map. reflexivity.
        * rewrite map_map. apply (fb_map (x :: ins) (fun y => nth j (t_d y) []) (fun y t => nth j (t_p y t) [])). intros y Hy. apply (proj2 (H y Hy)).
      + rewrite nth_overflow by (rewrite map_length, seq_length; exact Hj). apply (fb_ext _ (fun _ => [])).
        * intros t. rewrite nth_overflow by (rewrite map_length, seq_length; exact Hj). reflexivity.
        * split; [reflexivity|]. intros [|k]; apply fl_nil_const; reflexivity.
    - injection E as <-. rewrite Lx. apply map_ext. intros j. rewrite !map_map. apply (map_ext_in (fun y => nth j (t_p y (qz 0)) []) (fun y => nth j (t_v y) []) (x :: ins)). intros y Hy. destruct (H y Hy) as [Ev Fy]. rewrite Ev, (fb_at0 _ _ Fy). reflexivity.
  Qed.

  Lemma node_follows n ins v : directions_fit n -> Forall linked ins -> train_node pw ln2 rsqrt n (map t_v ins) = Ok v ->
    exists o, v = t_v o /\ train_node_d pw ln2 rsqrt n (map t_d ins) = Ok (t_d o) /\ smooth_node pw ln2 rsqrt n (map t_p ins) = Ok (t_p o) /\ linked o.
  Proof.
    intros Fit H E. unfold train_node in E. destruct (zip_samples (map t_v ins)) as [xs|] eqn:EZ; [|discriminate E]. cbn [rbind] in E.
    destruct (zip_follows ins xs H EZ) as [XS [xp [Z1 [Z2 [FX X0]]]]]. unfold train_node_d, smooth_node. rewrite Z1, Z2. cbn [rbind].
    assert (SZ : map (map (map fst)) (map t_d ins) = map t_v ins).
    { rewrite map_map. apply map_ext_in. intros y Hy. rewrite Forall_forall in H. symmetry. exact (proj1 (H y Hy)). }
    destruct n as [l|b|b|g jac].
    - rewrite SZ. destruct (negb _); [discriminate E|]. apply CallP.rbind_ok in E. destruct E as [[ys h'] [E1 E2]]. cbn [fst] in E2. injection E2 as <-.
      rewrite <- X0 in E1. destruct (layer_follows l XS xp ys h' Fit FX E1) as [D [p [A [B [C V]]]]]. exists (ys, D, p). split; [reflexivity|]. split; [exact A|]. split; [exact B|]. split; [symmetry; exact V|exact C].
    - rewrite SZ. destruct (negb _); [discriminate E|]. apply CallP.rbind_ok in E. destruct E as [[ys h'] [E1 E2]]. cbn [fst] in E2. injection E2 as <-.
      rewrite <- X0 in E1. destruct (bn_follows b XS xp ys h' Fit FX E1) as [D [p [A [B [C V]]]]]. exists (ys, D, p). split; [reflexivity|]. split; [exact A|]. split; [exact B|]. split; [symmetry; exact V|exact C].
    - rewrite SZ. destruct (negb _); [discriminate E|]. apply CallP.rbind_ok in E. destruct E as [[y l'] [E1 E2]]. cbn [fst] in E2. injection E2 as <-.
      assert (FH : follows_b (map (hd []) XS) (fun t => map (hd []) (xp t))) by (apply (fx_each (hd []) (fun _ => hd []) XS xp FX); intros j Fj; apply fl_hd, Fj).
      rewrite <- X0 in E1. destruct (norm_follows b _ _ y l' Fit (ft_batch (tn_in b) _ _ FH) E1) as [Y [P [A [B [C V]]]]]. rewrite A, B. cbn [rbind].
      exists (samples (tn_in b) y, samples_d (tn_in b) Y, fun t => samples (tn_in b) (P t)). split; [reflexivity|]. split; [reflexivity|]. split; [reflexivity|].
      split; [|apply ft_samples; exact C]. cbn [t_v t_d fst snd]. rewrite <- V. apply samples_fst.
    - injection E as <-. exists (map g xs, map (fn_d g jac) XS, fun t => linearised_all g jac (xp (qz 0)) (xp t)).
      split; [reflexivity|]. split; [reflexivity|]. split; [reflexivity|]. split; [|apply (fb_fn g jac XS xp FX)].
      cbn [t_v t_d fst snd]. rewrite <- X0, (fx_at0 _ _ FX), !map_map. apply map_ext. intros x. symmetry. apply fst_fn.
  Qed.

  (** ** Networks *)
  Lemma pick_map {A B} (f : A -> B) W r : pick (map (map f) W) r = match pick W r with Ok v => Ok (f v) | Raise => Raise end.
  Proof.
    unfold pick. rewrite nth_error_map. destruct (nth_error W (fst r)) as [vs|]; [|reflexivity]. cbn [option_map]. rewrite nth_error_map. destruct (nth_error vs (snd r)); reflexivity.
  Qed.
  Lemma picks_map {A B} (f : A -> B) W refs : rseq (map (pick (map (map f) W)) refs) = match rseq (map (pick W) refs) with Ok vs => Ok (map f vs) | Raise => Raise end.
  Proof.
    induction refs as [|r refs IH]; [reflexivity|]. cbn [map rseq]. rewrite pick_map. destruct (pick W r) as [v|]; [|reflexivity]. cbn [rbind]. rewrite IH. destruct (rseq (map (pick W) refs)) as [vs|]; reflexivity.
  Qed.
  Lemma pick_linked W r v : Forall (Forall linked) W -> pick W r = Ok v -> linked v.
  Proof.
    intros H E. unfold pick in E. destruct (nth_error W (fst r)) as [vs|] eqn:E1; [|discriminate E]. destruct (nth_error vs (snd r)) as [v'|] eqn:E2; [|discriminate E].
    injection E as <-. rewrite Forall_forall in H. pose proof (H vs (nth_error_In _ _ E1)) as K. rewrite Forall_forall in K. exact (K _ (nth_error_In _ _ E2)).
  Qed.
  Lemma picks_linked W refs : forall vs, Forall (Forall linked) W -> rseq (map (pick W) refs) = Ok vs -> Forall linked vs.
  Proof.
    induction refs as [|r refs IH]; intros vs H E; cbn [map rseq] in E; [injection E as <-; constructor|].
    destruct (pick W r) as [v|] eqn:Er; [|discriminate E]. cbn [rbind] in E. destruct (rseq _) as [ws|] eqn:Es; [|discriminate E]. cbn [rbind] in E. injection E as <-.
    constructor; [exact (pick_linked W r v H Er)|apply IH; [exact H|reflexivity]].
  Qed.

  Let sv (n : tnode) bs (u : unit) := rbind (train_node pw ln2 rsqrt n bs) (fun b => Ok (b, u)).
  Let sd (n : tnode) bs (u : unit) := rbind (train_node_d pw ln2 rsqrt n bs) (fun b => Ok (b, u)).
  Let sp (n : tnode) bs (u : unit) := rbind (smooth_node pw ln2 rsqrt n bs) (fun b => Ok (b, u)).
  Lemma net_follows k : leaves directions_fit k -> forall ins vs u, Forall linked ins -> run sv k (map t_v ins) tt = Ok (vs, u) ->
    exists outs, vs = map t_v outs /\ run sd k (map t_d ins) tt = Ok (map t_d outs, tt) /\ run sp k (map t_p ins) tt = Ok (map t_p outs, tt) /\ Forall linked outs.
  Proof.
    induction k as [n|nin nodes outs IH] using TraceP.klayer_ind'; intros Hl ins vs u H E.
    - inversion Hl as [y Hn|]; subst. cbn [run] in *. unfold sv, sd, sp in *. destruct (train_node pw ln2 rsqrt n (map t_v ins)) as [v|] eqn:En; [|discriminate E]. cbn [rbind fst snd] in E.
      injection E as <- <-. destruct (node_follows n ins v Hn H En) as [o [-> [A [B C]]]]. rewrite A, B. exists [o]. cbn [rbind map fst snd]. repeat split; [constructor; [exact C|constructor]].
    - inversion Hl as [|? ? ? HL]; subst. rewrite ConvertP.run_sub in E. rewrite !ConvertP.run_sub. rewrite !map_length in *. destruct (Nat.eqb (length ins) nin); [|discriminate E].
      assert (N : forall ns W V u', (forall k i, In (k, i) ns -> In (k, i) nodes) -> Forall (Forall linked) W -> run_nodes sv ns (map (map t_v) W) tt = Ok (V, u') ->
        exists W', V = map (map t_v) W' /\ run_nodes sd ns (map (map t_d) W) tt = Ok (map (map t_d) W', tt) /\ run_nodes sp ns (map (map t_p) W) tt = Ok (map (map t_p) W', tt) /\ Forall (Forall linked) W').
      { induction ns as [|[k i] ns IHn]; intros W V u' Hin HW EV.
        - cbn [run_nodes] in *. injection EV as <- <-. exists W. repeat split; assumption.
        - rewrite ProxyModelP.run_nodes_cons in EV. rewrite !ProxyModelP.run_nodes_cons. rewrite !picks_map in *. destruct (rseq (map (pick W) i)) as [xs|] eqn:Ex; [|discriminate EV]. cbn [rbind] in *.
          destruct (run sv k (map t_v xs) tt) as [[o s]|] eqn:Eo; [|discriminate EV]. cbn [rbind fst snd] in EV. destruct s.
          destruct (IH k i (Hin _ _ (or_introl eq_refl)) (HL k i (Hin _ _ (or_introl eq_refl))) xs o tt (picks_linked W i xs HW Ex) Eo) as [os [-> [A [B C]]]].
          rewrite A, B. cbn [rbind fst snd].
          destruct (IHn (W ++ [os]) V u' (fun k' i' Hi => Hin k' i' (or_intror Hi))) as [W' R].
          + apply Forall_app. split; [exact HW|constructor; [exact C|constructor]].
          + rewrite map_app. exact EV.
          + exists W'. rewrite !map_app in R. exact R. }
      assert (M : forall (A B : Type) (f : A -> B) l, map (fun v => [v]) (map f l) = map (map f) (map (fun v => [v]) l)) by (intros; rewrite !map_map; reflexivity).
      rewrite !M in *. destruct (run_nodes sv nodes _ tt) as [[V u1]|] eqn:EV; [|discriminate E]. cbn [rbind fst snd] in E.
      destruct (N nodes (map (fun v => [v]) ins) V u1 (fun _ _ Hi => Hi)) as [W' [-> [A [B C]]]]; [apply Forall_map; eapply Forall_impl; [|exact H]; intros x Hx; constructor; [exact Hx|constructor]|exact EV|].
      rewrite A, B. cbn [rbind fst snd]. rewrite !picks_map in *. destruct (rseq (map (pick W') outs)) as [os|] eqn:Eo; [|discriminate E]. cbn [rbind] in *. injection E as <- <-.
      exists os. repeat split. exact (picks_linked W' outs os C Eo).
  Qed.
  Lemma model_follows m ins vs : leaves directions_fit m -> Forall linked ins -> train_model pw ln2 rsqrt m (map t_v ins) = Ok vs ->
    exists outs, vs = map t_v outs /\ train_model_d pw ln2 rsqrt m (map t_d ins) = Ok (map t_d outs) /\ smooth_model pw ln2 rsqrt m (map t_p ins) = Ok (map t_p outs) /\ Forall linked outs.
  Proof.
    intros Hl H E. unfold train_model in E. destruct (run _ m (map t_v ins) tt) as [[o u]|] eqn:Er; [|discriminate E]. cbn [rbind fst] in E. injection E as <-.
    destruct (net_follows m Hl ins o u H Er) as [outs [A [B [C D]]]]. exists outs. split; [exact A|]. unfold train_model_d, smooth_model. fold sd sp. rewrite B, C. repeat split. exact D.
  Qed.

  (** ** One layer in closed form *)
  Lemma smooth_slope T X Y y0 df p : follows_t T X -> follows_t Y (fun t => smooth ln2 (X (qz 0)) y0 df (X t) t) -> p < prodn (shape y0) -> shape T = shape y0 ->
    snd (nth p (data Y) d0) = (snd (nth p (data T) d0) - ln2 * (nth p (data y0) (qz 0) - fst (nth p (data T) d0)) * seen df (shape y0) p)%Qc.
  Proof.
    intros [ST [LT FT]] [_ [_ FY]] Hp SS. specialize (FY p). destruct FY as [_ SY]. eapply slope_unique; [exact SY|]. clear SY.
    assert (SE : forall t, seen (X t) (shape y0) p = nth p (data (X t)) (qz 0)).
    { intros t. unfold seen. rewrite ST, SS, TensorP.pad_to_eq by reflexivity. rewrite ProxyLayerP.bidx_self by exact Hp. reflexivity. }
    destruct (FT p) as [V S]. set (err := (nth p (data y0) (qz 0) - fst (nth p (data T) d0))%Qc). set (d := seen df (shape y0) p).
    apply slope_ext with (fun t => (nth p (data (X t)) (qz 0) + (err + t * (- (ln2 * err * d))))%Qc).
    - intros t. cbn [smooth data]. rewrite nth_map_seq by exact Hp. rewrite !SE, V. fold err. fold d. change (qz 1) with 1%Qc. ring.
    - replace (snd (nth p (data T) d0) - ln2 * err * d)%Qc with (snd (nth p (data T) d0) + (qz 0 + - (ln2 * err * d)))%Qc by (change (qz 0) with 0%Qc; ring).
      apply slope_add; [exact S|]. apply slope_add; [apply slope_const|]. apply slope_line.
  Qed.

  Definition line (D : list (list dual)) (t : Qc) : list (list Qc) := map (map (fun d => (fst d + t * snd d)%Qc)) D.
  Lemma fb_line D : follows_b D (line D).
  Proof.
    unfold line. rewrite <- (map_id D) at 1. apply (fb_map D (fun x => x) (fun x t => map (fun d => (fst d + t * snd d)%Qc) x)). intros x _.
    rewrite <- (map_id x) at 1. apply (fl_map x (fun d => d) (fun d t => (fst d + t * snd d)%Qc)). intros d _. apply fo_line.
  Qed.
  Lemma fx_line XS : follows_x XS (fun t => map (fun D => line D t) XS).
  Proof.
    split; [intros t; rewrite map_length; reflexivity|]. intros j. apply (fb_ext _ (line (nth j XS []))); [|apply fb_line].
    intros t. change (@nil (list Qc)) with (line [] t). rewrite (map_nth (fun D => line D t)). reflexivity.
  Qed.
  Lemma fst_nth (l : list dual) e : fst (nth e l d0) = nth e (map fst l) (qz 0).
  Proof. symmetry. exact (map_nth fst l d0 e). Qed.
  Lemma act_relu_nth l e : nth e (map act_relu_d l) d0 = act_relu_d (nth e l d0).
  Proof. change d0 with (act_relu_d d0) at 1. apply map_nth. Qed.
  Lemma linop_tangent ts w x e : snd (nth e (linop_d ts w x) d0) = qsum (map (fun ab =>
      (snd (nth (fst ab) x d0) * fst (nth (snd ab) w d0) + fst (nth (fst ab) x d0) * snd (nth (snd ab) w d0))%Qc) (nth e ts [])).
  Proof.
    unfold linop_d. change d0 with (dsum (map (fun ab => d_mul (nth (fst ab) x (d_const (qz 0))) (nth (snd ab) w (d_const (qz 0)))) [])) at 1.
    rewrite (map_nth (fun ps => dsum (map (fun ab => d_mul (nth (fst ab) x (d_const (qz 0))) (nth (snd ab) w (d_const (qz 0)))) ps))), snd_dsum, map_map. reflexivity.
  Qed.
  Lemma bias_tangent loc out b z e : e < length z -> snd (nth e (bias_add_d loc out b z) d0) = (snd (nth e z d0) + snd (nth (chan loc out e) b d0))%Qc.
  Proof. intros H. unfold bias_add_d. rewrite (map_combine_seq _ z d0), nth_map_seq by exact H. reflexivity. Qed.

  Lemma layer_tangent l ts k kq b bl XS qk kq' qb y0 q' :
    l_op (t_layer l) = Linear ts k kq (Some b) bl -> directions_fit (TH l) -> let out := l_out (t_layer l) in length ts = prodn out ->
    let xs := map (map (map fst)) XS in
    call pw ln2 kq k true false (t_nk l) = Ok (qk, kq') -> shape qk = shape k -> (forall ps ab, In ps ts -> In ab ps -> snd ab < prodn (shape k)) ->
    bias_forward pw ln2 (l_paq (t_layer l)) b true bl (t_nb l) = Ok qb -> shape qb = shape b -> (forall e, e < prodn out -> chan (l_loc (t_layer l)) out e < prodn (shape b)) ->
    let z := map (fun x => bias_add (l_loc (t_layer l)) out (data qb) (linop ts (data qk) (hd [] x))) xs in
    call pw ln2 (l_paq (t_layer l)) (batch_tensor out z) true true (t_na l) = Ok (y0, q') -> shape y0 = length XS :: out ->
    exists D dims, hforward_d pw ln2 l XS = Ok D /\ bias_dims bl (length (shape (q_fbw (l_paq (t_layer l))))) = Ok dims /\
      forall j e, j < length XS -> e < prodn out ->
      let p := j * prodn out + e in
      let c := chan (l_loc (t_layer l)) out e in
      let y := nth p (data y0) (qz 0) in
      let dk := fun p => (nth p (data (t_dk l)) (qz 0) - ln2 * (nth p (data qk) (qz 0) - nth p (data k) (qz 0)) * seen (t_dfk l) (shape k) p)%Qc in
      let db := (nth c (data (t_db l)) (qz 0) - ln2 * (nth c (data qb) (qz 0) - nth c (data b) (qz 0)) * seen (widest dims (q_fbw (l_paq (t_layer l))) (t_dfa l)) (shape b) c)%Qc in
      let dz := (qsum (map (fun ab => snd (nth (fst ab) (hd [] (nth j XS [])) d0) * nth (snd ab) (data qk) (qz 0)
                                      + fst (nth (fst ab) (hd [] (nth j XS [])) d0) * dk (snd ab)) (nth e ts [])) + db)%Qc in
      snd (nth e (nth j D []) d0) = if (l_relu (t_layer l) && negb (qltb (qz 0) y))%bool then qz 0 else
        (dz - ln2 * (y - nth e (nth j z []) (qz 0)) * seen (t_dfa l) (length XS :: out) p)%Qc.
  Proof.
    intros Op Fit out Lts xs EK SK Hts EB SB Hc z EY SY. pose proof Fit as [Sa SL]. rewrite Op in SL. destruct SL as [Sk [Sf Sb]].
    pose proof (fx_line XS) as FX. pose proof (fx_at0 _ _ FX) as X0. fold xs in X0.
    pose proof (ft_moved k (t_dk l) Sk) as FK. pose proof (moved0 _ _ Sk) as K0. pose proof (ft_moved b (t_db l) Sb) as FB. pose proof (moved0 _ _ Sb) as B0.
    destruct (call_follows kq (t_dfk l) _ _ false (t_nk l) qk kq' Sf FK) as [Y1 [A1 [A2 A3]]]; [rewrite K0; exact EK|].
    pose proof EB as EB1. unfold bias_forward in EB1. destruct (bias_dims bl (length (shape (q_fbw (l_paq (t_layer l)))))) as [dims|] eqn:ED; [|discriminate EB1]. clear EB1.
    rewrite (bias_v _ _ _ _ _ ED) in EB.
    destruct (quantize_follows (l_paq (t_layer l)) _ _ _ _ (moved b (t_db l)) (t_nb l) qb (widest_ok dims _ _ Sa) FB) as [Y2 [G1 [G2 G3]]]; [rewrite B0; exact EB|].
    pose proof (fb_conv ts _ _ XS _ (proj2 A2) FX) as FZ. pose proof (fb_bias (l_loc (t_layer l)) out _ _ _ _ (proj2 G2) FZ) as FZ2. cbv beta in FZ2.
    set (zs := map (bias_add_d (l_loc (t_layer l)) out (data Y2)) (map (fun x => linop_d ts (data Y1) (hd [] x)) XS)) in *.
    assert (W0 : smooth ln2 (moved k (t_dk l) (qz 0)) qk (t_dfk l) (moved k (t_dk l) (qz 0)) (qz 0) = qk) by (pose proof (ft_at0 _ _ A2) as Q; cbv beta in Q; rewrite Q; exact A3).
    assert (WB0 : smooth ln2 (moved b (t_db l) (qz 0)) qb (widest dims (q_fbw (l_paq (t_layer l))) (t_dfa l)) (moved b (t_db l) (qz 0)) (qz 0) = qb) by (pose proof (ft_at0 _ _ G2) as Q; cbv beta in Q; rewrite Q; exact G3).
    pose proof (fb_at0 _ _ FZ2) as Z0. cbv beta in Z0. rewrite W0, WB0, X0, map_map in Z0. change (z = map (map fst) zs) in Z0.
    destruct (call_follows (l_paq (t_layer l)) (t_dfa l) _ _ true (t_na l) y0 q' Sa (ft_batch out _ _ FZ2)) as [Y3 [J1 [J2 J3]]].
    { cbv beta. rewrite W0, WB0, X0, map_map. exact EY. }
    eexists. exists dims. split; [|split; [reflexivity|]].
    { unfold hforward_d, pre_activation_d. rewrite Op, A1. cbn [rbind]. unfold bias_forward_d. rewrite ED. cbn [rbind]. rewrite G1. cbn [rbind]. fold out. fold zs. rewrite J1. cbn [rbind]. reflexivity. }
    intros j e Hj He. cbv zeta. set (p := j * prodn out + e). set (c := chan (l_loc (t_layer l)) out e).
    assert (Lz : Forall (fun x => length x = prodn out) zs).
    { unfold zs. rewrite map_map. apply Forall_forall. intros x Hx. apply in_map_iff in Hx. destruct Hx as [w [<- _]]. unfold bias_add_d, linop_d. rewrite map_length, combine_length, seq_length, Nat.min_id, map_length. exact Lts. }
    assert (Nz : length zs = length XS) by (unfold zs; rewrite !map_length; reflexivity).
    assert (Hp : p < prodn (shape y0)) by (rewrite SY, prodn_cons; unfold p; nia).
    assert (SH : shape (batch_tensor_d out zs) = shape y0) by (cbn; rewrite Nz; symmetry; exact SY).
    pose proof (smooth_slope _ _ _ _ _ p (ft_batch out _ _ FZ2) J2 Hp SH) as SL3. cbn [batch_tensor_d data] in SL3.
    assert (CN : nth p (concat zs) d0 = nth e (nth j zs []) d0) by (apply (SampleP.concat_nth zs (prodn out) j e d0 Lz); [rewrite Nz|]; assumption).
    rewrite !CN in SL3.
    assert (NZ : nth j zs [] = bias_add_d (l_loc (t_layer l)) out (data Y2) (linop_d ts (data Y1) (hd [] (nth j XS [])))).
    { unfold zs. rewrite map_map. rewrite nth_indep with (d' := bias_add_d (l_loc (t_layer l)) out (data Y2) (linop_d ts (data Y1) (hd [] []))) by (rewrite map_length; exact Hj).
      rewrite (map_nth (fun x => bias_add_d (l_loc (t_layer l)) out (data Y2) (linop_d ts (data Y1) (hd [] x)))). reflexivity. }
    assert (VZ : nth e (nth j z []) (qz 0) = fst (nth e (nth j zs []) d0)).
    { rewrite Z0. change (@nil Qc) with (map (@fst Qc Qc) []). rewrite (map_nth (map fst)). symmetry. apply fst_nth. }
    assert (DZ : snd (nth e (nth j zs []) d0) = (qsum (map (fun ab => snd (nth (fst ab) (hd [] (nth j XS [])) d0) * nth (snd ab) (data qk) (qz 0)
                                      + fst (nth (fst ab) (hd [] (nth j XS [])) d0) * (nth (snd ab) (data (t_dk l)) (qz 0) - ln2 * (nth (snd ab) (data qk) (qz 0) - nth (snd ab) (data k) (qz 0)) * seen (t_dfk l) (shape k) (snd ab))) (nth e ts []))
              + (nth c (data (t_db l)) (qz 0) - ln2 * (nth c (data qb) (qz 0) - nth c (data b) (qz 0)) * seen (widest dims (q_fbw (l_paq (t_layer l))) (t_dfa l)) (shape b) c))%Qc).
    { rewrite NZ, bias_tangent by (unfold linop_d; rewrite map_length, Lts; exact He). rewrite linop_tangent. f_equal.
      - apply f_equal. apply map_ext_in. intros ab Hab.
        assert (Hb : snd ab < prodn (shape k)) by (apply (Hts (nth e ts []) ab); [apply nth_In; rewrite Lts; exact He|exact Hab]).
        rewrite (smooth_slope _ _ _ _ _ (snd ab) FK A2) by (cbn [dual_tensor shape]; congruence). rewrite SK. cbn [dual_tensor data]. rewrite nth_dual by (exact (proj2 Sk)). cbn [fst snd].
        assert (Q : fst (nth (snd ab) (data Y1) d0) = nth (snd ab) (data qk) (qz 0)) by (rewrite <- A3; apply fst_nth).
        rewrite Q. reflexivity.
      - fold c. rewrite (smooth_slope _ _ _ _ _ c FB G2) by (first [cbn [dual_tensor shape]; congruence | rewrite SB; apply Hc, He]). rewrite SB. cbn [dual_tensor data]. rewrite nth_dual by (exact (proj2 Sb)). reflexivity. }
    assert (SM : nth e (nth j (samples_d out Y3) []) d0 = nth p (data Y3) d0).
    { unfold samples_d. rewrite <- (proj1 J2 (qz 0)). cbn [smooth shape]. rewrite SY. cbn [hd]. rewrite nth_map_seq by exact Hj. rewrite nth_first, nth_skip. destruct (Nat.ltb_spec e (prodn out)); [reflexivity|lia]. }
    assert (VY : fst (nth p (data Y3) d0) = nth p (data y0) (qz 0)) by (rewrite <- J3; apply fst_nth).
    rewrite <- VZ, DZ, SY in SL3.
    destruct (l_relu (t_layer l)); cbn [andb].
    - change (@nil dual) with (map act_relu_d []) at 1. rewrite (map_nth (map act_relu_d)), act_relu_nth, SM. unfold act_relu_d. rewrite VY. destruct (qltb (qz 0) (nth p (data y0) (qz 0))); cbn [negb]; [exact SL3|reflexivity].
    - rewrite SM. exact SL3.
  Qed.
End T.

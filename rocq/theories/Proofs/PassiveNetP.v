(** Bitwidths and values through networks of passive layers. *)
From Coq Require Import ZArith Qcanon List Bool Lia Arith.
From Verif Require Import Base.Num Base.NumFacts Base.Tensor Model.FixedPoint Model.Quantizer Model.Layers Model.Bops Model.TrainBops Model.Passive Model.PassiveNet
  Spec.Fixed Spec.Quant Spec.Layer Spec.Bops Spec.PassiveNet Proofs.TensorP Proofs.QuantizerP Proofs.LayersP Proofs.BopsL Proofs.TrainBopsP Proofs.PassiveP.
Import ListNotations.
Local Open Scope nat_scope.

(** Same shape, elements related. *)
Definition trel {A B} (R : A -> B -> Prop) (t : tensor A) (u : tensor B) : Prop := shape t = shape u /\ Forall2 R (data t) (data u).

Lemma Forall2_firstn {A B} (R : A -> B -> Prop) n : forall l l', Forall2 R l l' -> Forall2 R (firstn n l) (firstn n l').
Proof. induction n as [|n IH]; intros l l' H; [constructor|]. destruct H; cbn; [constructor|constructor; auto]. Qed.
Lemma Forall2_skipn {A B} (R : A -> B -> Prop) n : forall l l', Forall2 R l l' -> Forall2 R (skipn n l) (skipn n l').
Proof. induction n as [|n IH]; intros l l' H; [exact H|]. destruct H; cbn; [constructor|auto]. Qed.
Lemma Forall2_nth {A B} (R : A -> B -> Prop) d d' l l' : Forall2 R l l' -> R d d' -> forall p, R (nth p l d) (nth p l' d').
Proof. intros H Hd. induction H as [|x y l l' Hxy H IH]; intros [|p]; cbn; auto. Qed.
Lemma Forall2_nth_in {A B} (R : A -> B -> Prop) d d' l l' : Forall2 R l l' -> forall p, p < length l -> R (nth p l d) (nth p l' d').
Proof. intros H. induction H as [|x y l l' Hxy H IH]; intros [|p] Hp; cbn in *; try lia; [assumption|]. apply IH. lia. Qed.
Lemma nth_Forall2 {A B} (R : A -> B -> Prop) d d' l l' : length l = length l' -> (forall p, p < length l -> R (nth p l d) (nth p l' d')) -> Forall2 R l l'.
Proof.
  revert l'. induction l as [|x l IH]; intros [|y l'] L H; try discriminate L; constructor.
  - apply (H 0). cbn; lia.
  - apply IH; [cbn in L; lia|]. intros p Hp. apply (H (S p)). cbn; lia.
Qed.
Lemma Forall2_len {A B} (R : A -> B -> Prop) l l' : Forall2 R l l' -> length l = length l'.
Proof. intros H; induction H; cbn; congruence. Qed.
Lemma Forall2_flat_map {A B C D} (R : A -> B -> Prop) (S : C -> D -> Prop) f g l l' :
  Forall2 R l l' -> (forall x y, R x y -> Forall2 S (f x) (g y)) -> Forall2 S (flat_map f l) (flat_map g l').
Proof. intros H HF. induction H as [|x y l l' Hxy H IH]; cbn; [constructor|]. apply Forall2_app; auto. Qed.
Lemma Forall2_same {A} (l : list A) : Forall2 eq l l.
Proof. induction l; constructor; auto. Qed.
Lemma Forall2_map2 {A B C D} (R : C -> D -> Prop) (f : A -> C) (g : B -> D) l l' : Forall2 (fun x y => R (f x) (g y)) l l' -> Forall2 R (map f l) (map g l').
Proof. intros H; induction H; cbn; constructor; auto. Qed.

(** Concatenation depends on shapes only. *)
Lemma concat_rel {A B} (R : A -> B -> Prop) a (ts : list (tensor A)) (us : list (tensor B)) y :
  Forall2 (trel R) ts us -> concat_axis a ts = Ok y -> exists z, concat_axis a us = Ok z /\ trel R y z.
Proof.
  intros H E.
  assert (SH : map shape ts = map shape us) by (clear E; induction H as [|t u ts us [S _] H IH]; cbn; congruence).
  assert (FB : forall (P : list nat -> bool) , forallb (fun t : tensor A => P (shape t)) ts = forallb (fun u : tensor B => P (shape u)) us).
  { intros P. clear E SH. induction H as [|t u ts us [S _] H IH]; cbn; [reflexivity|]. rewrite S, IH. reflexivity. }
  destruct H as [|t u ts us [S D] H]; [discriminate E|]. unfold concat_axis in *. rewrite <- S.
  set (cnd := (Nat.ltb a (length (shape t)) && _ && _)%bool) in E.
  match goal with |- context [if ?c then _ else _] => assert (Ec : c = cnd) end.
  { unfold cnd. f_equal; [f_equal|].
    - symmetry. apply (FB (fun s => Nat.eqb (length s) (length (shape t)))).
    - symmetry. apply (FB (fun s => if list_eq_dec Nat.eq_dec (set_axis a 0 s) (set_axis a 0 (shape t)) then true else false)). }
  rewrite Ec. destruct cnd; [|discriminate E]. injection E as <-. eexists. split; [reflexivity|]. split; cbn [shape data].
  - assert (EM : map (fun t : tensor A => nth a (shape t) 0) (t :: ts) = map (fun u : tensor B => nth a (shape u) 0) (u :: us)).
    { rewrite <- (map_map shape (fun s => nth a s 0) (t :: ts)), SH, map_map. reflexivity. }
    exact (f_equal (fun l => set_axis a (fold_right Nat.add 0 l) (shape t)) EM).
  - eapply Forall2_flat_map; [apply Forall2_same|]. intros o ? <-.
    refine (Forall2_flat_map (trel R) R (fun x : tensor A => block (prodn (skipn a (shape x))) o (data x)) (fun x : tensor B => block (prodn (skipn a (shape x))) o (data x))
      (t :: ts) (u :: us) (Forall2_cons t u (conj S D) H) _). intros x w [Sx Dx]. unfold block. rewrite Sx.
    apply Forall2_firstn, Forall2_skipn, Dx.
Qed.

(** Training widths against exact ones. *)
Definition near (e t : Z) : Prop := (0 <= e <= t)%Z /\ (t <= e + 1)%Z.

Lemma reduce1_near d d' l l' : near d d' -> Forall2 near l l' -> near (reduce1 Z.max d l) (reduce1 Z.max d' l').
Proof.
  intros Hd H. destruct H as [|a b l l' Hab H]; [exact Hd|]. cbn [reduce1]. revert a b Hab.
  induction H as [|x y l l' Hxy H IH]; intros a b Hab; [exact Hab|]. cbn [fold_left]. apply IH. unfold near in *. lia.
Qed.
Lemma pool_near p x y : Forall2 near x y -> Forall2 near (pool_act_bw p x) (pool_act_bw p y).
Proof.
  intros H. unfold pool_act_bw, max_pool. apply Forall2_map2. apply nth_Forall2 with (d := 0) (d' := 0); [reflexivity|]. intros e _.
  apply reduce1_near; [unfold near; lia|]. apply Forall2_map2. apply nth_Forall2 with (d := 0) (d' := 0); [reflexivity|]. intros q _.
  apply Forall2_nth; [exact H|unfold near; lia].
Qed.

Lemma layer_near l : quantizer_shape (l_paq l) (l_out l) -> calibrated (l_paq l) ->
  exists te tt, act_bw_exact l = Ok te /\ act_bw l = Ok tt /\ trel near te tt /\ shape te = 1 :: l_out l /\ length (data te) = prodn (l_out l).
Proof.
  intros Hq HC. destruct (act_bw_exact_at l Hq HC) as [te [Ee [Le Ne]]]. destruct (act_bw_spec l Hq) as [tt [Et [St [Lt Nt]]]].
  exists te, tt. split; [exact Ee|]. split; [exact Et|].
  assert (Se : shape te = 1 :: l_out l).
  { unfold act_bw_exact in Ee. destruct (get_bits_exact (l_paq l) (l_relu l)) as [bits|]; [|discriminate Ee]. cbn [rbind] in Ee. unfold broadcast_to in Ee.
    destruct (broadcast_shape _ _); [|discriminate Ee]. destruct (list_eq_dec _ _ _); [|discriminate Ee]. injection Ee as <-. cbn [shape]. reflexivity. }
  split; [|auto]. split; [congruence|]. apply nth_Forall2 with (d := 0%Z) (d' := 0%Z); [congruence|]. intros p Hp. rewrite Le in Hp.
  rewrite Ne, Nt by assumption. unfold abw_at. cbv zeta. set (g := group_of (l_paq l) (l_out l) p).
  assert (GL : g < length (data (q_fbw (l_paq l)))) by (apply group_lt; assumption).
  pose proof (act_widths (l_paq l) (l_relu l) g HC GL) as [A1 A2]. cbv zeta in A1, A2. unfold near. destruct (l_relu l); lia.
Qed.

Lemma near_refl w : (0 <= w)%Z -> near w w.
Proof. unfold near; lia. Qed.
Lemma signature_near bits inp t : Forall (fun w => (0 <= w)%Z) (data bits) -> signature_act_bw bits inp = Ok t -> trel near t t.
Proof.
  intros H E. split; [reflexivity|]. unfold signature_act_bw, broadcast_to in E. destruct (broadcast_shape _ _); [|discriminate E]. destruct (list_eq_dec _ _ _); [|discriminate E].
  injection E as <-. cbn [data]. apply Forall2_map2. apply nth_Forall2 with (d := 0) (d' := 0); [reflexivity|]. intros p _. apply near_refl.
  match goal with |- (0 <= nth ?k _ _)%Z => destruct (nth_in_or_default k (data bits) 0%Z) as [I|D] end; [apply (proj1 (Forall_forall _ _) H _ I)|rewrite D; lia].
Qed.

Lemma omap_rel {A B C} (R : B -> C -> Prop) (f : A -> outcome B) (g : A -> outcome C) l : 
  (forall x y, In x l -> f x = Val y -> exists z, g x = Val z /\ R y z) ->
  forall ys, omap f l = Val ys -> exists zs, omap g l = Val zs /\ Forall2 R ys zs.
Proof.
  induction l as [|x l IH]; intros H ys E; cbn [omap] in *; [injection E as <-; exists []; split; [reflexivity|constructor]|].
  destruct (f x) as [y| |] eqn:Ef; [|discriminate E|discriminate E]. cbn [obind] in E. destruct (H x y (or_introl eq_refl) Ef) as [z [Eg Hyz]].
  destruct (omap f l) as [ys'| |]; [|discriminate E|discriminate E]. cbn [obind] in E. injection E as <-.
  destruct (IH (fun x' y' I => H x' y' (or_intror I)) ys' eq_refl) as [zs [Ez Hz]]. rewrite Eg, Ez. cbn [obind]. exists (z :: zs). split; [reflexivity|constructor; assumption].
Qed.

Lemma input_exact_inv bw calls t : input_bw_exact bw calls = Val t -> exists m, calls = [One m] /\ bw m = Val t.
Proof.
  unfold input_bw_exact. destruct calls as [|c [|c' r]]; cbn; [discriminate|destruct c; cbn; [intros H; eauto|discriminate]|discriminate].
Qed.

Lemma reshape_rel {A B} (R : A -> B -> Prop) t u s y : trel R t u -> reshape t s = Ok y -> exists z, reshape u s = Ok z /\ trel R y z.
Proof.
  intros [_ D] E. unfold reshape in *. rewrite <- (Forall2_len _ _ _ D). destruct (_ =? _); [|discriminate E]. injection E as <-.
  eexists. split; [reflexivity|]. split; [reflexivity|exact D].
Qed.
Lemma pool_bw_rel p out t u y : trel near t u -> pool_bw p out t = Ok y -> exists z, pool_bw p out u = Ok z /\ trel near y z.
Proof.
  intros [_ D] E. unfold pool_bw in *. rewrite <- (Forall2_len _ _ _ D). destruct (_ && _)%bool; [|discriminate E]. injection E as <-.
  eexists. split; [reflexivity|]. split; [reflexivity|]. cbn [data]. apply pool_near, D.
Qed.

Lemma of_result_inv {A} (r : result A) a : of_result r = Val a -> r = Ok a.
Proof. destruct r; cbn; [intros H; injection H as <-; reflexivity|discriminate]. Qed.

Lemma widths_near net : measured net -> concats_once net -> forall fuel n te, act_bw_exact_of fuel net n = Val te ->
  exists tt, act_bw_at fuel net n = Val tt /\ trel near te tt.
Proof.
  intros HM HC. induction fuel as [|fu IH]; intros n te E; [discriminate E|]. cbn [act_bw_exact_of act_bw_at] in *.
  destruct (nth_error net n) as [b|] eqn:En; [|discriminate E]. pose proof (HM b (nth_error_In _ _ En)) as M. pose proof (HC b (nth_error_In _ _ En)) as C.
  destruct (b_kind b) as [l|bits inp|out|axis|p out|].
  - destruct M as [Hq Hc]. destruct (layer_near l Hq Hc) as [te' [tt [Ee [Et [R _]]]]]. rewrite Ee in E. injection E as <-. rewrite Et. exists tt. split; [reflexivity|exact R].
  - pose proof (of_result_inv _ _ E) as Es. exists te. split; [exact E|]. exact (signature_near _ _ _ M Es).
  - destruct (input_bw_exact _ _) as [t| |] eqn:Ei; [|discriminate E|discriminate E]. cbn [obind] in E. destruct (input_exact_inv _ _ _ Ei) as [m [-> Em]].
    destruct (IH _ _ Em) as [tt [Et R]]. unfold input_bw. cbn. rewrite Et. cbn. apply of_result_inv in E. destruct (reshape_rel _ _ _ _ _ R E) as [z [Ez Rz]].
    unfold p_act_bw. rewrite Ez. exists z. split; [reflexivity|exact Rz].
  - destruct C as [ns [Ec L]]. rewrite Ec in *. cbn [length]. change (1 <? 1) with false. cbn match. destruct (Nat.leb_spec (length ns) 1); [lia|].
    destruct (omap _ ns) as [ts| |] eqn:Eo; [|discriminate E|discriminate E]. cbn [obind] in E. apply of_result_inv in E.
    destruct (omap_rel (trel near) (act_bw_exact_of fu net) (act_bw_at fu net) ns (fun x y _ H => IH x y H) ts Eo) as [zs [Ez Rz]]. rewrite Ez. cbn [obind].
    destruct (concat_rel near axis ts zs te Rz E) as [z [Ez' R]]. unfold concat_act_bw. rewrite Ez'. exists z. split; [reflexivity|exact R].
  - destruct (input_bw_exact _ _) as [t| |] eqn:Ei; [|discriminate E|discriminate E]. cbn [obind] in E. destruct (input_exact_inv _ _ _ Ei) as [m [-> Em]].
    destruct (IH _ _ Em) as [tt [Et R]]. unfold input_bw. cbn. rewrite Et. cbn. apply of_result_inv in E. destruct (pool_bw_rel _ _ _ _ _ R E) as [z [Ez Rz]].
    rewrite Ez. exists z. split; [reflexivity|exact Rz].
  - discriminate E.
Qed.

(** ** Where values come from *)

(** Value v is one that enters at a quantized layer or signature whose exact width there is at most w. *)
Definition origin (net : bnet) (src : nat -> tensor Qc) (v : Qc) (w : Z) : Prop :=
  exists m q f ts, is_source net m /\ act_bw_exact_of (S f) net m = Val ts /\ q < length (data (src m)) /\
    nth_error (data (src m)) q = Some v /\ (nth q (data ts) 0 <= w)%Z.

Lemma origin_up net src v w w' : (w <= w')%Z -> origin net src v w -> origin net src v w'.
Proof. intros L [m [q [f [ts [A [B [C [D E]]]]]]]]. exists m, q, f, ts. repeat (split; [assumption|]). lia. Qed.

Lemma concat_rel_both {A B} (R : A -> B -> Prop) a (ts : list (tensor A)) (us : list (tensor B)) y z :
  Forall2 (trel R) ts us -> concat_axis a ts = Ok y -> concat_axis a us = Ok z -> trel R y z.
Proof. intros H E1 E2. destruct (concat_rel R a ts us y H E1) as [z' [E R']]. rewrite E2 in E. injection E as <-. exact R'. Qed.

Lemma rlist_omap {A B C} (R : B -> C -> Prop) (f : A -> result B) (g : A -> outcome C) l :
  (forall x y z, In x l -> f x = Ok y -> g x = Val z -> R y z) ->
  forall ys zs, rlist f l = Ok ys -> omap g l = Val zs -> Forall2 R ys zs.
Proof.
  induction l as [|x l IH]; intros H ys zs E1 E2; cbn [rlist omap] in *; [injection E1 as <-; injection E2 as <-; constructor|].
  destruct (f x) as [y|] eqn:Ef; [|discriminate E1]. cbn [rbind] in E1. destruct (rlist f l) as [ys'|]; [|discriminate E1]. cbn [rbind] in E1. injection E1 as <-.
  destruct (g x) as [z| |] eqn:Eg; [|discriminate E2|discriminate E2]. cbn [obind] in E2. destruct (omap g l) as [zs'| |]; [|discriminate E2|discriminate E2]. cbn [obind] in E2. injection E2 as <-.
  constructor; [apply (H x y z (or_introl eq_refl) Ef Eg)|]. apply IH; [intros; eapply H; [right; eassumption|eassumption|eassumption]|reflexivity|reflexivity].
Qed.

Lemma pool_origin (R : Qc -> Z -> Prop) p x bw : (forall v w w', (w <= w')%Z -> R v w -> R v w') -> pool_valid p ->
  length x = p_h p * p_w p * p_c p -> Forall2 R x bw -> Forall2 R (max_pool qmax (qz 0) p x) (pool_act_bw p bw).
Proof.
  intros Up Hv L H. apply nth_Forall2 with (d := qz 0) (d' := 0%Z).
  { unfold pool_act_bw, max_pool. rewrite !map_length. reflexivity. }
  intros e He. unfold max_pool in He. rewrite map_length, seq_length in He.
  destruct (max_pool_spec Qcle qmax Qcle_refl Qcle_trans) with (d := qz 0) (p := p) (e := e) (x := x) as [[q [Hq ->]] _]; try assumption.
  { intros u v. destruct (qmax_spec u v) as [[? ->]|[? ->]]; [assumption|apply Qcle_refl]. }
  { intros u v. destruct (qmax_spec u v) as [[? ->]|[? ->]]; [apply Qcle_refl|apply Qclt_le_weak; assumption]. }
  { intros u v. destruct (qmax_spec u v) as [[? ->]|[? ->]]; auto. }
  destruct (max_pool_spec Z.le Z.max Z.le_refl Z.le_trans) with (d := 0%Z) (p := p) (e := e) (x := bw) as [_ B]; try assumption.
  { intros; lia. } { intros; lia. } { intros; lia. }
  apply (Up _ _ _ (B q Hq)). apply Forall2_nth_in; [exact H|]. rewrite L. apply (window_range p e q Hq He).
Qed.

Lemma source_origin net src m f ts : is_source net m -> act_bw_exact_of (S f) net m = Val ts -> length (data (src m)) = length (data ts) ->
  Forall2 (origin net src) (data (src m)) (data ts).
Proof.
  intros S E L. apply nth_Forall2 with (d := qz 0) (d' := 0%Z); [exact L|]. intros p Hp. exists m, p, f, ts.
  split; [exact S|]. split; [exact E|]. split; [exact Hp|]. split; [apply nth_error_nth'; exact Hp|lia].
Qed.

Lemma exact_batch net : measured net -> forall fuel n t, act_bw_exact_of fuel net n = Val t -> exists s, shape t = 1 :: s.
Proof.
  intros HM. induction fuel as [|fu IH]; intros n t E; [discriminate E|]. cbn [act_bw_exact_of] in E.
  destruct (nth_error net n) as [b|] eqn:En; [|discriminate E]. pose proof (HM b (nth_error_In _ _ En)) as M.
  destruct (b_kind b) as [l|bits inp|out|axis|p out|].
  - destruct M as [Hq Hc]. destruct (layer_near l Hq Hc) as [te [tt [Ee [_ [_ [S _]]]]]]. rewrite Ee in E. injection E as <-. eauto.
  - apply of_result_inv in E. unfold signature_act_bw, broadcast_to in E. destruct (broadcast_shape _ _); [|discriminate E]. destruct (list_eq_dec _ _ _); [|discriminate E]. injection E as <-.
    exists inp. reflexivity.
  - destruct (input_bw_exact _ _) as [t0| |]; [|discriminate E|discriminate E]. cbn [obind] in E. apply of_result_inv in E. unfold p_act_bw, reshape in E. destruct (_ =? _); [|discriminate E].
    injection E as <-. exists out. reflexivity.
  - destruct (b_calls b) as [|[m|ns] r]; try discriminate E. destruct (omap _ ns) as [ts| |] eqn:Eo; [|discriminate E|discriminate E]. cbn [obind] in E. apply of_result_inv in E.
    unfold concat_act_bw, concat_axis in E. destruct ts as [|t0 ts]; [discriminate E|]. destruct (_ && _)%bool; [|discriminate E]. injection E as <-. cbn [shape].
    destruct ns as [|m ns]; [discriminate Eo|]. cbn [omap] in Eo. destruct (act_bw_exact_of fu net m) as [u| |] eqn:Em; [|discriminate Eo|discriminate Eo]. cbn [obind] in Eo.
    destruct (omap _ ns); [|discriminate Eo|discriminate Eo]. cbn [obind] in Eo. injection Eo as <- _. destruct (IH _ _ Em) as [s Hs]. rewrite Hs.
    destruct axis as [|ax]; [contradiction|]. unfold set_axis. cbn [firstn app]. eauto.
  - destruct (input_bw_exact _ _) as [t0| |]; [|discriminate E|discriminate E]. cbn [obind] in E. apply of_result_inv in E. unfold pool_bw in E. destruct (_ && _)%bool; [|discriminate E].
    injection E as <-. exists out. reflexivity.
  - discriminate E.
Qed.

Lemma values_origin net src : measured net -> shaped net src -> forall fuel n x te,
  value_at fuel net src n = Ok x -> act_bw_exact_of fuel net n = Val te -> trel (origin net src) x te.
Proof.
  intros HM HS. induction fuel as [|fu IH]; intros n x te Ex E; [discriminate E|]. pose proof E as E0. cbn [act_bw_exact_of value_at] in Ex, E.
  destruct (nth_error net n) as [b|] eqn:En; [|discriminate E]. pose proof (HM b (nth_error_In _ _ En)) as M. pose proof (HS n b En) as Sh.
  destruct (b_kind b) as [l|bits inp|out|axis|p out|] eqn:Ek.
  - injection Ex as <-. destruct Sh as [S1 S2]. destruct M as [Hq Hc]. destruct (layer_near l Hq Hc) as [te' [tt [Ee [_ [_ [S3 L3]]]]]]. rewrite Ee in E. injection E as <-.
    split; [congruence|]. apply (source_origin net src n fu te'); [exists b; rewrite Ek; auto|exact E0|]. unfold wf_tensor in S2. rewrite S2, S1, prodn_cons, L3. lia.
  - injection Ex as <-. destruct Sh as [S1 S2]. apply of_result_inv in E.
    assert (T : shape te = 1 :: inp /\ length (data te) = prodn (1 :: inp)).
    { unfold signature_act_bw, broadcast_to in E. destruct (broadcast_shape _ _); [|discriminate E]. destruct (list_eq_dec _ _ _); [|discriminate E]. injection E as <-.
      cbn [shape data]. rewrite map_length, seq_length. split; reflexivity. }
    split; [destruct T; congruence|]. apply (source_origin net src n fu te); [exists b; rewrite Ek; auto|exact E0|]. unfold wf_tensor in S2. rewrite S2, S1. symmetry. apply T.
  - destruct (input_bw_exact _ _) as [t| |] eqn:Ei; [|discriminate E|discriminate E]. cbn [obind] in E. destruct (input_exact_inv _ _ _ Ei) as [m [Ec Em]]. rewrite Ec in Ex.
    destruct (value_at fu net src m) as [y|] eqn:Ey; [|discriminate Ex]. cbn [rbind] in Ex. pose proof (IH _ _ _ Ey Em) as R. apply of_result_inv in E.
    unfold reshape_values in Ex. destruct (shape y) as [|k s] eqn:Sy; [discriminate Ex|]. unfold reshape in Ex. destruct (Nat.eqb_spec (length (data y)) (prodn (k :: out))) as [L1|]; [|discriminate Ex]. injection Ex as <-.
    unfold p_act_bw, reshape in E. destruct (Nat.eqb_spec (length (data t)) (prodn (1 :: out))) as [L2|]; [|discriminate E]. injection E as <-.
    destruct R as [S R]. split; [|exact R]. cbn [shape].
    destruct (Nat.eq_dec k 1) as [->|N]; [reflexivity|]. exfalso. apply N.
    assert (B : exists s', shape t = 1 :: s') by (apply (exact_batch net HM fu m t Em)). destruct B as [s' B]. congruence.
  - destruct (b_calls b) as [|[m|ns] [|c r]]; try discriminate Ex.
    destruct (rlist _ ns) as [ys|] eqn:Er; [|discriminate Ex]. cbn [rbind] in Ex. destruct (omap _ ns) as [ts| |] eqn:Eo; [|discriminate E|discriminate E]. cbn [obind] in E. apply of_result_inv in E.
    exact (concat_rel_both _ axis ys ts x te (rlist_omap (trel (origin net src)) (value_at fu net src) (act_bw_exact_of fu net) ns (fun a y z _ H1 H2 => IH a y z H1 H2) ys ts Er Eo) Ex E).
  - destruct (input_bw_exact _ _) as [t| |] eqn:Ei; [|discriminate E|discriminate E]. cbn [obind] in E. destruct (input_exact_inv _ _ _ Ei) as [m [Ec Em]]. rewrite Ec in Ex.
    destruct (value_at fu net src m) as [y|] eqn:Ey; [|discriminate Ex]. cbn [rbind] in Ex. injection Ex as <-. pose proof (IH _ _ _ Ey Em) as [S R]. apply of_result_inv in E.
    unfold pool_bw in E. destruct (Nat.eqb_spec (length (data t)) (p_h p * p_w p * p_c p)) as [L1|]; [|discriminate E]. cbn [andb] in E.
    destruct (prodn out =? pool_size p); [|discriminate E]. injection E as <-. split; [reflexivity|]. cbn [data].
    apply pool_origin; [intros v w w' Hw; apply origin_up; exact Hw|exact M|rewrite (Forall2_len _ _ _ R); exact L1|exact R].
  - discriminate E.
Qed.

(** Data the model was not calibrated on, and what cover_factor does for it: C93. *)
From Coq Require Import ZArith QArith Qcanon List Bool String Lia.
From Verif Require Import Base.Num Base.NumFacts Base.Tensor Base.Compute Model.FixedPoint Model.Quantizer Model.Layers Model.Graph Model.Convert Model.Trace
  Spec.Fixed Spec.Quant Spec.History Spec.Layer Spec.Graph Spec.Trace Spec.Calib Spec.Unseen Proofs.CallP Proofs.LayersP Proofs.QuantizerP
  Proofs.TraceP Proofs.TraceMoreP Proofs.ProxyModelP Proofs.ProxyGuardP Proofs.UnseenP Props.P_Trace Props.P_ProxyModel.
Import ListNotations.
Local Open Scope nat_scope.

Lemma supported_hgq st m : leaves (supported st m) m -> leaves hgq_layer m.
Proof. intros HL. eapply leaves_impl; [|exact HL]. intros [u k] H. destruct k; exact I || exact H. Qed.

(** Agreement of the proxy model does not depend on the data itself, only on the
    calibrated ranges: every batch that stays inside them, traced or not, gives
    the very output of the HGQ model. *)
Theorem C93_unseen : forall pw ln2 exact_bops nin nodes outs n ds bsz c st bops rs st' aggressive fuel names,
  let m := Sub nin nodes outs in
  Forall obj_ok st -> single m -> leaves (supported st m) m -> dataset n ds -> 0 < n -> 0 < bsz -> (qz 1 <= c)%Qc ->
  trace_minmax pw ln2 exact_bops m ds bsz true c false st = Ok (bops, rs, st') ->
  (forall i o, In i (top_layers m) -> nth_error st' i = Some o -> in_bounds (l_paq (o_layer o))) ->
  depth m + 2 <= fuel ->
  match to_proxy_model pw ln2 fuel aggressive m names st' with
  | Ok (pm, _, _) =>
      (forall B, inside pw ln2 m B st' -> promises_kept pw ln2 m B st' ->
        leaves proxy_layer pm /\
        exists ys, call_model pw ln2 m B st' = Ok (ys, st') /\ forall any, call_model pw ln2 pm B any = Ok (ys, any))
  | Raise => forall B, inside pw ln2 m B st' -> ~ promises_kept pw ln2 m B st'
  end.
Proof.
  intros pw ln2 eb nin nodes outs n ds bsz c st bops rs st' ag fuel names m HO Hs HL HD Hn Hb Hc ET HB Hf.
  assert (HS : (if ag then "WRAP" else "SAT")%string = "WRAP"%string \/ (if ag then "WRAP" else "SAT")%string = "SAT"%string) by (destruct ag; auto).
  assert (G : forall B, inside pw ln2 m B st' -> promises_kept pw ln2 m B st' -> exists pm ns s ys, to_proxy_model pw ln2 fuel ag m names st' = Ok (pm, ns, s) /\ leaves proxy_layer pm /\
    call_model pw ln2 m B st' = Ok (ys, st') /\ forall any, call_model pw ln2 pm B any = Ok (ys, any)).
  { intros B HI HP. destruct (unseen_model pw ln2 eb m n ds bsz c st st' bops rs HO HL HD Hn Hb Hc ET HB false _ (fun H => ltac:(discriminate H)) HS Hs (fun x H => ltac:(discriminate H)) fuel names B Hf HI HP)
      as (pm & ns & s & ys & E & A & C & _ & D). exists pm, ns, s, ys. auto. }
  destruct (to_proxy_model pw ln2 fuel ag m names st') as [[[pm ns] s]|].
  - intros B HI HP. destruct (G B HI HP) as [pm' [ns' [s' [ys [E [A [C D]]]]]]]. injection E as <- <- <-. eauto.
  - intros B HI HP. destruct (G B HI HP) as [pm' [ns' [s' [ys [E _]]]]]. discriminate.
Qed.
Print Assumptions C93_unseen.

(** The samples of the dataset are inside the ranges, in every batch made of them. *)
Theorem C93_calibration : forall pw ln2 exact_bops m n ds bsz c st bops rs st' B,
  Forall obj_ok st -> leaves (supported st m) m -> dataset n ds -> 0 < n -> 0 < bsz -> (qz 1 <= c)%Qc ->
  trace_minmax pw ln2 exact_bops m ds bsz true c false st = Ok (bops, rs, st') ->
  (forall i o, In i (top_layers m) -> nth_error st' i = Some o -> in_bounds (l_paq (o_layer o))) ->
  batch_of n ds B -> inside pw ln2 m B st'.
Proof. intros pw ln2 eb m n ds bsz c st bops rs st' B HO HL HD Hn Hb Hc ET HB. exact (trace_inside pw ln2 eb m n ds bsz c st st' bops rs HO HL HD Hn Hb Hc ET HB B). Qed.
Print Assumptions C93_calibration.

(** Wider ranges lose no data: what was inside stays inside. *)
Theorem C93_wider : forall pw ln2 m st st' B nb,
  Forall obj_ok st -> Forall obj_ok st' -> leaves hgq_layer m -> Forall (fun b => length b = nb) B -> 0 < nb -> wider_store st st' ->
  inside pw ln2 m B st -> inside pw ln2 m B st'.
Proof. intros pw ln2 m st st' B nb HO HO' HL LB NB. exact (inside_wider pw ln2 st st' m B nb HO HO' HL LB NB). Qed.
Print Assumptions C93_wider.

(** Increasing cover_factor makes every range wider, so the data covered only grows. *)
Theorem C93_cover_factor : forall pw ln2 exact_bops m n ds bsz st c bops rs st' c' bops' rs' st'',
  Forall obj_ok st -> leaves (supported st m) m -> dataset n ds -> 0 < n -> 0 < bsz -> (c <= c')%Qc ->
  trace_minmax pw ln2 exact_bops m ds bsz true c false st = Ok (bops, rs, st') ->
  trace_minmax pw ln2 exact_bops m ds bsz true c' false st = Ok (bops', rs', st'') ->
  wider_store st' st'' /\
  forall B nb, Forall (fun b => length b = nb) B -> 0 < nb -> inside pw ln2 m B st' -> inside pw ln2 m B st''.
Proof.
  intros pw ln2 eb m n ds bsz st c bops rs st' c' bops' rs' st'' HO HL HD Hn Hb Hc E E'.
  pose proof (trace_larger pw ln2 eb m n ds bsz st HO HL HD Hn Hb c st' bops rs c' bops' rs' st'' Hc E E') as W. split; [exact W|]. intros B nb LB NB.
  pose proof (supported_hgq _ _ HL) as HL'.
  apply (inside_wider pw ln2 st' st'' m B nb); try assumption; [exact (trace_ok pw ln2 eb m n ds bsz true c false st bops rs st' HO HL' HD Hb E)|exact (trace_ok pw ln2 eb m n ds bsz true c' false st bops' rs' st'' HO HL' HD Hb E')].
Qed.
Print Assumptions C93_cover_factor.

(** If every range has two different ends, any data the model accepts is covered from some cover_factor on. *)
Theorem C93_enough : forall pw ln2 exact_bops m n ds bsz st bops rs st' B nb ys s,
  Forall obj_ok st -> leaves (supported st m) m -> dataset n ds -> 0 < n -> 0 < bsz ->
  trace_minmax pw ln2 exact_bops m ds bsz true (qz 1) false st = Ok (bops, rs, st') ->
  (forall i o g, In i (top_layers m) -> nth_error st' i = Some o -> g < ngroups (l_paq (o_layer o)) -> exists a b, holds_range (l_paq (o_layer o)) g a b /\ (a < b)%Qc) ->
  Forall (fun b => length b = nb) B -> 0 < nb -> call_model pw ln2 m B st' = Ok (ys, s) ->
  exists c0, forall c bops' rs' st'', (c0 <= c)%Qc ->
    trace_minmax pw ln2 exact_bops m ds bsz true c false st = Ok (bops', rs', st'') -> inside pw ln2 m B st''.
Proof. intros pw ln2 eb m n ds bsz st bops rs st' B nb ys s HO HL HD Hn Hb. exact (cover_covers pw ln2 eb m n ds bsz st HO HL HD Hn Hb bops rs st' B nb ys s). Qed.
Print Assumptions C93_enough.

(** A group that put out the same value all the time gets no margin at all, whatever the cover_factor. *)
Theorem C93_one_value : forall pw ln2 exact_bops m n ds bsz st c bops rs st' bops' rs' st'' i o o' g a,
  Forall obj_ok st -> leaves (supported st m) m -> dataset n ds -> 0 < n -> 0 < bsz ->
  trace_minmax pw ln2 exact_bops m ds bsz true (qz 1) false st = Ok (bops, rs, st') ->
  trace_minmax pw ln2 exact_bops m ds bsz true c false st = Ok (bops', rs', st'') ->
  In i (top_layers m) -> nth_error st' i = Some o -> nth_error st'' i = Some o' -> o_act o = ALinear \/ o_act o = AOther ->
  g < ngroups (l_paq (o_layer o)) -> holds_range (l_paq (o_layer o)) g a a -> holds_range (l_paq (o_layer o')) g a a.
Proof.
  intros pw ln2 eb m n ds bsz st c bops rs st' bops' rs' st'' i o o' g a HO HL HD Hn Hb.
  exact (trace_point pw ln2 eb m n ds bsz st HO HL HD Hn Hb bops rs st' c bops' rs' st'' i o o' g a).
Qed.
Print Assumptions C93_one_value.

(** ** Examples *)
Definition ext_eqb (a b : ext) : bool := match a, b with NegInf, NegInf | PosInf, PosInf => true | Fin x, Fin y => qeqb x y | _, _ => false end.
Lemma ext_eqb_ok a b : ext_eqb a b = true -> a = b.
Proof. destruct a as [|x|], b as [|y|]; cbn; try discriminate; try reflexivity. destruct (qeqb_spec x y); [intros _; subst; reflexivity|discriminate]. Qed.
Fixpoint exts_eqb (l k : list ext) : bool := match l, k with [], [] => true | a :: l, b :: k => ext_eqb a b && exts_eqb l k | _, _ => false end.
Lemma exts_eqb_ok l : forall k, exts_eqb l k = true -> l = k.
Proof.
  induction l as [|a l IH]; intros [|b k] H; cbn in H; try discriminate; [reflexivity|]. apply andb_prop in H. destruct H as [H1 H2]. apply ext_eqb_ok in H1. apply IH in H2. congruence.
Qed.
Definition kept_b (o o' : hobj) : bool :=
  exts_eqb (data (q_min (l_paq (o_layer o)))) (data (q_min (l_paq (o_layer o')))) && exts_eqb (data (q_max (l_paq (o_layer o)))) (data (q_max (l_paq (o_layer o')))).
Fixpoint regs_kept (s s' : store) : bool := match s, s' with [], [] => true | o :: s, o' :: s' => kept_b o o' && regs_kept s s' | _, _ => false end.
Definition inside_b (pw : Qc -> Qc) (ln2 : Qc) (m : klayer layer) (B : list (list (list Qc))) (st : store) : bool :=
  match call_model pw ln2 m B (listening st) with Ok (_, s) => regs_kept (listening st) s | Raise => false end.
Lemma regs_kept_nth s : forall s' i o o', regs_kept s s' = true -> nth_error s i = Some o -> nth_error s' i = Some o' -> kept_b o o' = true.
Proof.
  induction s as [|a s IH]; intros [|a' s'] i o o' H E E'; cbn in H; try discriminate; [destruct i; discriminate|]. apply andb_prop in H. destruct H as [H1 H2].
  destruct i as [|i]; cbn in E, E'; [congruence|eapply IH; eassumption].
Qed.
Lemma regs_kept_refl s : regs_kept s s = true.
Proof.
  assert (R : forall l, exts_eqb l l = true). { induction l as [|a l IHl]; [reflexivity|]. cbn. rewrite IHl, andb_true_r. destruct a as [|x|]; try reflexivity. cbn. destruct (qeqb_spec x x); [reflexivity|contradiction]. }
  induction s as [|o s IH]; [reflexivity|]. cbn [regs_kept]. unfold kept_b. rewrite IH, !R. reflexivity.
Qed.
Lemma inside_b_spec pw ln2 m B st nb : Forall obj_ok st -> leaves hgq_layer m -> Forall (fun b => length b = nb) B -> 0 < nb ->
  inside pw ln2 m B st <-> inside_b pw ln2 m B st = true.
Proof.
  intros HO HL LB NB. pose proof (listening_ok st HO) as HO1. unfold inside_b, inside.
  pose proof (sim_run pw ln2 (listening st) m HO1 HL nb B (listening st) noV NB LB (rel_refl _ noV (fun _ _ _ H => H))) as SR. unfold call_model.
  destruct (run (call_layer pw ln2) m B (listening st)) as [[ys s]|]; [|split; [intros [ys E]; discriminate|discriminate]]. destruct SR as [_ [vis [_ [RL RR]]]]. split.
  - intros [ys' E]. injection E as _ ->. apply regs_kept_refl.
  - intros H. exists ys. f_equal. f_equal. apply nth_error_ext; [assumption|]. intros i o o' E E'.
    destruct (RR i o' E') as [o_ [E_ [mn [mx [Eo [A [_ [C _]]]]]]]]. assert (EO : o_ = o) by congruence. rewrite EO in Eo.
    pose proof (regs_kept_nth _ _ i o' o H E' E) as K. unfold kept_b in K. apply andb_prop in K. destruct K as [K1 K2]. apply exts_eqb_ok in K1, K2. rewrite Eo in K1, K2.
    cbn in K1, K2. assert (mn = q_min (l_paq (o_layer o'))) by (apply tensor_eq; congruence). assert (mx = q_max (l_paq (o_layer o'))) by (apply tensor_eq; congruence).
    subst mn mx. rewrite Eo. apply obj_mm_id.
Qed.
Definition exu_ds : list (list (list Qc)) := [[[qz 1; Q2Qc (1 # 2)]; [Q2Qc (1 # 2); qz (-2)]]].
Definition exu_in : list (list (list Qc)) := [[[Q2Qc (3 # 4); qz (-1)]; [qz 1; qz 0]]].
Lemma exw_supported : leaves (supported exp_store exw_m) exw_m.
Proof. unfold exw_m at 2. constructor. intros k ins [H|[]]. injection H as <- <-. constructor. split; [vm_compute; tauto|]. eexists. split; [reflexivity|]. exact I. Qed.
Lemma exw_single : single exw_m.
Proof. unfold exw_m. constructor. repeat (apply Forall_cons; [split; [first [exact I|reflexivity]|repeat constructor]|]). apply Forall_nil. Qed.
Definition ends (o : option hobj) : list (option Q) :=
  match o with Some o => map (fun e => match e with Fin v => Some (this v) | _ => None end) (data (q_min (l_paq (o_layer o))) ++ data (q_max (l_paq (o_layer o)))) | None => [] end.
Lemma exu_all pw ln2 c b1 b2 (B : list (list (list Qc))) e bops rs st' : trace_minmax pw ln2 ex_eb exw_m exu_ds 1 true c false exp_store = Ok (bops, rs, st') ->
  rbind (trace_minmax pw ln2 ex_eb exw_m exu_ds 1 true c false exp_store) (fun r => Ok (ends (nth_error (snd r) 1), inside_b pw ln2 exw_m exw_x (snd r), inside_b pw ln2 exw_m B (snd r),
    forallb (fun i => match nth_error (snd r) i with Some o => in_bounds_b (l_paq (o_layer o)) | None => true end) (top_layers exw_m))) = Ok (e, b1, b2, true) ->
  Forall (fun b => length b = 2) B ->
  (b1 = true <-> inside pw ln2 exw_m exw_x st') /\ (b2 = true <-> inside pw ln2 exw_m B st') /\ ends (nth_error st' 1) = e /\
  forall i o, In i (top_layers exw_m) -> nth_error st' i = Some o -> in_bounds (l_paq (o_layer o)).
Proof.
  intros T. rewrite T. cbn [rbind snd]. intros H LB. apply ok4 in H. destruct H as [H1 [H2 [H3 H4]]].
  assert (HD : dataset 2 exu_ds) by (split; [repeat constructor|discriminate]).
  pose proof (supported_hgq _ _ exw_supported) as HL. pose proof (trace_ok pw ln2 ex_eb exw_m 2 exu_ds 1 true c false exp_store bops rs st' exp_ok HL HD ltac:(lia) T) as O'.
  split; [rewrite <- H2; symmetry; apply (inside_b_spec pw ln2 exw_m exw_x st' 1 O' HL); [repeat constructor|lia]|].
  split; [rewrite <- H3; symmetry; apply (inside_b_spec pw ln2 exw_m B st' 2 O' HL LB); lia|]. split; [assumption|].
  intros i o Hi Ho. apply in_bounds_b_ok. rewrite forallb_forall in H4. specialize (H4 i Hi). rewrite Ho in H4. exact H4.
Qed.
(** Two samples are traced.  With cover_factor 1 the untraced samples (3/4, -1) and (1, 0) are
    inside the ranges but (-3, 0), on which the proxy of C32_untraced_sample_differs is wrong, is
    not; with cover_factor 4 it is inside, and the proxy agrees on it. *)
Example C93_ex : forall pw ln2, Forall obj_ok exp_store /\ single exw_m /\ leaves (supported exp_store exw_m) exw_m /\ dataset 2 exu_ds /\
  (exists bops rs st', trace_minmax pw ln2 ex_eb exw_m exu_ds 1 true (qz 1) false exp_store = Ok (bops, rs, st') /\
     (forall i o, In i (top_layers exw_m) -> nth_error st' i = Some o -> in_bounds (l_paq (o_layer o))) /\
     ends (nth_error st' 1) = [Some (-7 # 4)%Q; Some (-21 # 8)%Q; Some (5 # 4)%Q; Some (-1 # 2)%Q] /\
     inside pw ln2 exw_m exu_in st' /\ ~ inside pw ln2 exw_m exw_x st') /\
  (exists bops rs st', trace_minmax pw ln2 ex_eb exw_m exu_ds 1 true (qz 4) false exp_store = Ok (bops, rs, st') /\
     (forall i o, In i (top_layers exw_m) -> nth_error st' i = Some o -> in_bounds (l_paq (o_layer o))) /\
     ends (nth_error st' 1) = [Some (-25 # 4)%Q; Some (-23 # 4)%Q; Some (23 # 4)%Q; Some (11 # 4)%Q] /\
     inside pw ln2 exw_m exw_x st' /\
     rmap (fun r => exp_flat (fst r)) (call_model pw ln2 exw_m exw_x st') = Ok [qz 0; qz 2] /\
     rbind (to_proxy_model pw ln2 6 true exw_m exp_names st') (fun p => rmap (fun r => exp_flat (fst r)) (call_model pw ln2 (fst (fst p)) exw_x [])) = Ok [qz 0; qz 2]).
Proof.
  intros pw ln2. split; [exact exp_ok|]. split; [exact exw_single|]. split; [exact exw_supported|]. split; [split; [repeat constructor|discriminate]|]. split.
  - assert (H : rbind (trace_minmax pw ln2 ex_eb exw_m exu_ds 1 true (qz 1) false exp_store) (fun r => Ok (ends (nth_error (snd r) 1), inside_b pw ln2 exw_m exw_x (snd r), inside_b pw ln2 exw_m exu_in (snd r),
      forallb (fun i => match nth_error (snd r) i with Some o => in_bounds_b (l_paq (o_layer o)) | None => true end) (top_layers exw_m))) =
      Ok ([Some (-7 # 4)%Q; Some (-21 # 8)%Q; Some (5 # 4)%Q; Some (-1 # 2)%Q], false, true, true)) by (vm_compute; reflexivity).
    destruct (trace_minmax pw ln2 ex_eb exw_m exu_ds 1 true (qz 1) false exp_store) as [[[bops rs] st']|] eqn:T; [|discriminate]. exists bops, rs, st'. rewrite <- T in H at 1.
    destruct (exu_all pw ln2 (qz 1) _ _ _ _ _ _ _ T H) as [A [B [C D]]]; [repeat constructor|]. split; [reflexivity|]. split; [exact D|]. split; [exact C|]. split; [apply B; reflexivity|].
    intros X. apply A in X. discriminate.
  - assert (H : rbind (trace_minmax pw ln2 ex_eb exw_m exu_ds 1 true (qz 4) false exp_store) (fun r => Ok (ends (nth_error (snd r) 1), inside_b pw ln2 exw_m exw_x (snd r), inside_b pw ln2 exw_m exu_in (snd r),
      forallb (fun i => match nth_error (snd r) i with Some o => in_bounds_b (l_paq (o_layer o)) | None => true end) (top_layers exw_m))) =
      Ok ([Some (-25 # 4)%Q; Some (-23 # 4)%Q; Some (23 # 4)%Q; Some (11 # 4)%Q], true, true, true)) by (vm_compute; reflexivity).
    assert (H' : rbind (trace_minmax pw ln2 ex_eb exw_m exu_ds 1 true (qz 4) false exp_store) (fun r => Ok (rmap (fun r => map this (exp_flat (fst r))) (call_model pw ln2 exw_m exw_x (snd r)),
       rbind (to_proxy_model pw ln2 6 true exw_m exp_names (snd r)) (fun p => rmap (fun r => map this (exp_flat (fst r))) (call_model pw ln2 (fst (fst p)) exw_x [])))) =
       Ok (Ok [0; 2]%Q, Ok [0; 2]%Q)) by (vm_compute; reflexivity).
    destruct (trace_minmax pw ln2 ex_eb exw_m exu_ds 1 true (qz 4) false exp_store) as [[[bops rs] st']|] eqn:T; [|discriminate]. exists bops, rs, st'. rewrite <- T in H at 1.
    destruct (exu_all pw ln2 (qz 4) _ _ _ _ _ _ _ T H) as [A [B [C D]]]; [repeat constructor|]. split; [reflexivity|]. split; [exact D|]. split; [exact C|]. split; [apply A; reflexivity|].
    cbn [rbind snd] in H'. assert (H3 := f_equal (fun r => match r with Ok p => fst p | Raise => Raise end) H'). assert (H4 := f_equal (fun r => match r with Ok p => snd p | Raise => Raise end) H'). cbn beta iota in H3, H4. cbn [fst snd] in H3, H4. clear H'. split.
    + destruct (call_model pw ln2 exw_m exw_x st') as [r|]; [|discriminate H3]. cbn [rmap] in *. injection H3 as H3. f_equal. apply map_this_inj. rewrite H3. reflexivity.
    + destruct (to_proxy_model pw ln2 6 true exw_m exp_names st') as [p|]; [|discriminate H4]. cbn [rbind] in *.
      destruct (call_model pw ln2 (fst (fst p)) exw_x []) as [r|]; [|discriminate H4]. cbn [rmap] in *. injection H4 as H4. f_equal. apply map_this_inj. rewrite H4. reflexivity.
Qed.
(** The hypothesis of C93_enough holds for these samples; after tracing the single sample of C32_untraced_sample_differs
    that of C93_one_value does, and cover_factor 100 leaves the ranges as they are. *)
Example C93_enough_ex : forall pw ln2, exists bops rs st', trace_minmax pw ln2 ex_eb exw_m exu_ds 1 true (qz 1) false exp_store = Ok (bops, rs, st') /\
  (forall i o g, In i (top_layers exw_m) -> nth_error st' i = Some o -> g < ngroups (l_paq (o_layer o)) -> exists a b, holds_range (l_paq (o_layer o)) g a b /\ (a < b)%Qc) /\
  exists ys s, call_model pw ln2 exw_m exw_x st' = Ok (ys, s).
Proof.
  intros pw ln2.
  assert (H : rbind (trace_minmax pw ln2 ex_eb exw_m exu_ds 1 true (qz 1) false exp_store) (fun r => Ok (
    forallb (fun i => match nth_error (snd r) i with Some o => forallb (fun g => match nth g (data (q_min (l_paq (o_layer o)))) PosInf, nth g (data (q_max (l_paq (o_layer o)))) NegInf with
      | Fin a, Fin b => qltb a b | _, _ => false end) (seq 0 (ngroups (l_paq (o_layer o)))) | None => true end) (top_layers exw_m),
    match call_model pw ln2 exw_m exw_x (snd r) with Ok _ => true | Raise => false end)) = Ok (true, true)) by (vm_compute; reflexivity).
  destruct (trace_minmax pw ln2 ex_eb exw_m exu_ds 1 true (qz 1) false exp_store) as [[[bops rs] st']|]; [|discriminate]. exists bops, rs, st'. split; [reflexivity|].
  cbn [rbind snd] in H. assert (H1 := f_equal (fun r => match r with Ok p => fst p | Raise => false end) H). assert (H2 := f_equal (fun r => match r with Ok p => snd p | Raise => false end) H). cbv beta iota in H1, H2. cbn [fst snd] in H1, H2. clear H.
  split; [|destruct (call_model pw ln2 exw_m exw_x st') as [[ys s]|]; [eauto|discriminate H2]].
  intros i o g Hi Eo Hg. rewrite forallb_forall in H1. specialize (H1 i Hi). rewrite Eo in H1. rewrite forallb_forall in H1. specialize (H1 g (proj2 (in_seq _ _ _) (conj (Nat.le_0_l _) Hg))).
  unfold holds_range. destruct (nth g (data (q_min (l_paq (o_layer o)))) PosInf) as [|a|]; [discriminate H1| |discriminate H1]. destruct (nth g (data (q_max (l_paq (o_layer o)))) NegInf) as [|b|]; [discriminate H1| |discriminate H1].
  destruct (qltb_spec a b); [|discriminate]. exists a, b. auto.
Qed.
Example C93_one_value_ex : forall pw ln2, o_act (nth 1 exp_store (ex_obj (Fn ex_id) [] ASoftmax)) = AOther /\
  rbind (trace_minmax pw ln2 ex_eb exw_m exw_ds 1 true (qz 1) false exp_store) (fun r => Ok (ends (nth_error (snd r) 1))) = Ok [Some (5 # 4)%Q; Some (-1 # 2)%Q; Some (5 # 4)%Q; Some (-1 # 2)%Q] /\
  rbind (trace_minmax pw ln2 ex_eb exw_m exw_ds 1 true (qz 100) false exp_store) (fun r => Ok (ends (nth_error (snd r) 1))) = Ok [Some (5 # 4)%Q; Some (-1 # 2)%Q; Some (5 # 4)%Q; Some (-1 # 2)%Q].
Proof. intros. split; [reflexivity|]. split; vm_compute; reflexivity. Qed.

(** Whole-model equality of the proxy model and the HGQ model (to_proxy_model after trace_minmax): C32. *)
From Coq Require Import ZArith QArith Qcanon List Bool String Lia.
From Verif Require Import Base.Num Base.NumFacts Base.Tensor Base.Compute Model.FixedPoint Model.Quantizer Model.Layers Model.Graph Model.Convert Model.Trace
  Spec.Fixed Spec.Quant Spec.History Spec.Layer Spec.Graph Spec.Trace Proofs.CallP Proofs.LayersP Proofs.QuantizerP
  Proofs.TraceP Proofs.FeedP Proofs.TraceMinmaxP Proofs.CoverP Proofs.TraceMoreP Proofs.ProxyModelP Proofs.ProxyGuardP Props.P_Trace.
Import ListNotations.
Local Open Scope nat_scope.

(** After tracing the dataset with cover factor at least 1, the proxy model
    consists of keras layers and fixed-point quantizers only, and on every
    batch of samples of the dataset it gives the very output of the HGQ model.
    Signature layers are promises about their input: the equality is claimed
    on batches that keep them. *)
Theorem C32_proxy_model_exact : forall pw ln2 exact_bops nin nodes outs n ds bsz c st bops rs st' aggressive fuel names,
  let m := Sub nin nodes outs in
  Forall obj_ok st -> single m -> leaves (supported st m) m -> dataset n ds -> 0 < n -> 0 < bsz -> (qz 1 <= c)%Qc ->
  trace_minmax pw ln2 exact_bops m ds bsz true c false st = Ok (bops, rs, st') ->
  (forall i o, In i (top_layers m) -> nth_error st' i = Some o -> in_bounds (l_paq (o_layer o))) ->
  depth m + 2 <= fuel ->
  match to_proxy_model pw ln2 fuel aggressive m names st' with
  | Ok (pm, _, _) =>
      (forall B, batch_of n ds B -> promises_kept pw ln2 m B st' ->
        leaves proxy_layer pm /\
        exists ys, call_model pw ln2 m B st' = Ok (ys, st') /\ forall any, call_model pw ln2 pm B any = Ok (ys, any))
  | Raise => forall B, batch_of n ds B -> ~ promises_kept pw ln2 m B st'
  end.
Proof.
  intros pw ln2 eb nin nodes outs n ds bsz c st bops rs st' ag fuel names m HO Hs HL HD Hn Hb Hc ET HB Hf.
  assert (HS : (if ag then "WRAP" else "SAT")%string = "WRAP"%string \/ (if ag then "WRAP" else "SAT")%string = "SAT"%string) by (destruct ag; auto).
  assert (G : forall B, batch_of n ds B -> promises_kept pw ln2 m B st' -> exists pm ns s ys, to_proxy_model pw ln2 fuel ag m names st' = Ok (pm, ns, s) /\ leaves proxy_layer pm /\
    call_model pw ln2 m B st' = Ok (ys, st') /\ forall any, call_model pw ln2 pm B any = Ok (ys, any)).
  { intros B HBt HP. destruct (proxy_model_gen pw ln2 eb m n ds bsz c st st' bops rs HO HL HD Hn Hb Hc ET HB false _ (fun H => ltac:(discriminate H)) HS Hs (fun x H => ltac:(discriminate H)) fuel names B Hf HBt HP)
      as (pm & ns & s & ys & E & A & C & _ & D). exists pm, ns, s, ys. auto. }
  destruct (to_proxy_model pw ln2 fuel ag m names st') as [[[pm ns] s]|].
  - intros B HBt HP. destruct (G B HBt HP) as [pm' [ns' [s' [ys [E [A [C D]]]]]]]. injection E as <- <- <-. eauto.
  - intros B HBt HP. destruct (G B HBt HP) as [pm' [ns' [s' [ys [E _]]]]]. discriminate.
Qed.
Print Assumptions C32_proxy_model_exact.

(** Without Signature layers there is nothing to promise: conversion succeeds
    and the models agree on every batch of samples of the dataset. *)
Theorem C32_proxy_model_exact_quantized_inputs : forall pw ln2 exact_bops nin nodes outs n ds bsz c st bops rs st' aggressive fuel names,
  let m := Sub nin nodes outs in
  Forall obj_ok st -> single m -> leaves (supported st m) m -> leaves (fun x => match snd x with KSig _ _ => False | _ => True end) m ->
  dataset n ds -> 0 < n -> 0 < bsz -> (qz 1 <= c)%Qc ->
  trace_minmax pw ln2 exact_bops m ds bsz true c false st = Ok (bops, rs, st') ->
  (forall i o, In i (top_layers m) -> nth_error st' i = Some o -> in_bounds (l_paq (o_layer o))) ->
  depth m + 2 <= fuel ->
  exists pm ns s, to_proxy_model pw ln2 fuel aggressive m names st' = Ok (pm, ns, s) /\ leaves proxy_layer pm /\
  forall B, batch_of n ds B ->
    exists ys, call_model pw ln2 m B st' = Ok (ys, st') /\ forall any, call_model pw ln2 pm B any = Ok (ys, any).
Proof.
  intros pw ln2 eb nin nodes outs n ds bsz c st bops rs st' ag fuel names m HO Hs HL HG HD Hn Hb Hc ET HB Hf.
  pose proof (C32_proxy_model_exact pw ln2 eb nin nodes outs n ds bsz c st bops rs st' ag fuel names HO Hs HL HD Hn Hb Hc ET HB Hf) as T. cbv zeta in T. fold m in T.
  assert (PK : forall B, batch_of n ds B -> promises_kept pw ln2 m B st').
  { intros B HBt. destruct (batch_runs pw ln2 eb m n ds bsz c st st' bops rs HO HL HD Hn Hb Hc ET HB B HBt) as [r Er].
    exists r. rewrite <- Er. apply run_ext. eapply leaves_impl; [|exact HG]. intros [u k] H vs s. unfold checked, promise. cbn [snd] in *. destruct k; try reflexivity. destruct H. }
  assert (B0 : batch_of n ds (map (fun d => map (fun j => nth j d []) [0]) ds)) by (exists [0]; split; [discriminate|]; split; [constructor; [assumption|constructor]|reflexivity]).
  destruct (to_proxy_model pw ln2 fuel ag m names st') as [[[pm ns] s]|].
  - exists pm, ns, s. split; [reflexivity|]. split; [apply (T _ B0 (PK _ B0))|]. intros B HBt. apply (T B HBt (PK B HBt)).
  - destruct (T _ B0 (PK _ B0)).
Qed.
Print Assumptions C32_proxy_model_exact_quantized_inputs.

(** ** Example: two inputs, a Signature, an HQuantize, a dense layer with ReLU,
    dropout, a sigmoid-like activation and a nested model around a passive layer. *)
Definition in_bounds_b (q : hgq) : bool :=
  forallb (fun g => match nth g (data (q_min q)) PosInf, nth g (data (q_max q)) NegInf with
                    | Fin mn, Fin mx => Z.leb (-32) (qround_even (nth g (data (q_fbw q)) (qz 0))) && Z.leb (qround_even (nth g (data (q_fbw q)) (qz 0))) 93 &&
                                        qleb (- pow2 32)%Qc mn && qltb mx (pow2 32)
                    | _, _ => false
                    end) (seq 0 (List.length (data (q_fbw q)))).
Lemma in_bounds_b_ok q : in_bounds_b q = true -> in_bounds q.
Proof.
  intros H g Hg r mn mx Hr [H1 H2]. unfold in_bounds_b in H. rewrite forallb_forall in H. specialize (H g (proj2 (in_seq _ _ _) (conj (Nat.le_0_l _) Hg))).
  rewrite H1, H2 in H. apply nearest_even_fun in Hr. rewrite <- Hr in H. apply andb_prop in H. destruct H as [H H4]. apply andb_prop in H. destruct H as [H H3].
  apply andb_prop in H. destruct H as [H5 H6]. apply Z.leb_le in H5, H6. destruct (qleb_spec (- pow2 32)%Qc mn); [|discriminate]. destruct (qltb_spec mx (pow2 32)); [|discriminate]. auto.
Qed.

Definition exp_store : store :=
  [ex_obj (Fn ex_id) [qz 2; qz 1] AOther;
   mkO (mkL ex_dense (ex_q [qz 2; qz 3]) true (-1) [2]) false AOther [[2]] (qz 7);
   ex_obj (Fn ex_sig) [qz 3; qz 3] ASigmoid].
Definition exp_cfg : tensor qcfg := mkT [1; 2] [mkCfg 1 4 2; mkCfg 0 3 3].
Definition exp_add (xs : list (list Qc)) : list Qc := ex_pad (map (fun p => fst p + snd p)%Qc (combine (nth 0 xs []) (nth 1 xs []))).
Definition exp_m : klayer layer :=
  Sub 2 [(Leaf (10, KQuant 0), [(0, 0)]); (Leaf (20, KSig exp_cfg [2]), [(1, 0)]); (Leaf (11, KH 1), [(2, 0)]);
         (Leaf (12, KDrop true), [(4, 0)]); (Sub 2 [(Leaf (14, KP exp_add), [(0, 0); (1, 0)])] [(2, 0)], [(5, 0); (3, 0)]); (Leaf (13, KH 2), [(6, 0)])] [(7, 0); (4, 0)].
Definition exp_ds : list (list (list Qc)) :=
  [[[qz 1; Q2Qc (1 # 2)]; [Q2Qc (-3 # 2); Q2Qc (1 # 8)]; [qz 0; qz 2]]; [[Q2Qc (-5 # 4); qz 7]; [Q2Qc (7 # 4); qz 0]; [qz (-2); qz 1]]].
Definition exp_names (u : nat) : string * bool := ("l"%string, true).
Lemma exp_ok : Forall obj_ok exp_store.
Proof.
  repeat (apply Forall_cons; [|]); try apply Forall_nil; try (apply ex_obj_ok; [reflexivity|repeat constructor; vm_compute; discriminate|reflexivity]).
  exact (ex_obj_ok ex_dense [qz 2; qz 3] AOther eq_refl ltac:(repeat constructor; vm_compute; discriminate) eq_refl).
Qed.
Lemma exp_id : forall s, List.length s = 2 -> ex_id [s] = s.
Proof. intros [|a [|b [|c s]]] H; try discriminate. reflexivity. Qed.
Lemma exp_supported : leaves (supported exp_store exp_m) exp_m.
Proof.
  unfold exp_m at 2. constructor. intros k ins H.
  repeat (destruct H as [H|H]; [injection H as <- <-|]); [| | | | | |destruct H].
  - constructor. split; [vm_compute; tauto|]. eexists. split; [reflexivity|]. split; [exact I|]. split; [|reflexivity]. exists ex_id. split; [reflexivity|]. split; [reflexivity|]. exact exp_id.
  - constructor. repeat split; cbn; repeat constructor; cbn; lia.
  - constructor. split; [vm_compute; tauto|]. eexists. split; [reflexivity|]. exact I.
  - constructor. exact I.
  - constructor. intros k ins H. destruct H as [H|[]]. injection H as <- <-. constructor. exact I.
  - constructor. split; [vm_compute; tauto|]. eexists. split; [reflexivity|]. exists ex_sig. split; [reflexivity|]. split.
    + intros x e He. change (e < 2) in He. unfold ex_sig. set (f := fun x0 : Qc => clip_by_value ((x0 + qz 1) / qz 2) (qz 0) (qz 1)).
      assert (F : forall v, (qz 0 <= f v)%Qc /\ (f v <= qz 1)%Qc).
      { intros v. unfold f, clip_by_value, qmin, qmax. split; repeat match goal with |- context [qleb ?a ?b] => destruct (qleb_spec a b) end; qlra. }
      clearbody f. unfold ex_pad. cbn [map]. destruct e as [|[|e]]; [exact (F _)|exact (F _)|lia].
    + intros f r [<-|[<-|[]]] Hr; apply nearest_even_fun in Hr; subst r; vm_compute; discriminate.
Qed.
Lemma exp_single : single exp_m.
Proof. unfold exp_m. constructor. repeat (apply Forall_cons; [split; [first [exact I|reflexivity]|repeat constructor]|]). apply Forall_nil. Qed.
Lemma exp_dataset : dataset 3 exp_ds.
Proof. split; [repeat constructor|discriminate]. Qed.

Lemma ok4 {A B C D} (a a' : A) (b b' : B) (c c' : C) (d d' : D) : Ok (a, b, c, d) = Ok (a', b', c', d') -> a = a' /\ b = b' /\ c = c' /\ d = d'.
Proof. intros H. injection H. auto. Qed.
Definition exp_flat (ys : list (list (list Qc))) : list Qc := concat (map (fun b => concat b) ys).
Example C32_ex : forall pw ln2, Forall obj_ok exp_store /\ single exp_m /\ leaves (supported exp_store exp_m) exp_m /\ dataset 3 exp_ds /\ depth exp_m = 3 /\
  exists bops rs st', trace_minmax pw ln2 ex_eb exp_m exp_ds 2 true (qz 1) false exp_store = Ok (bops, rs, st') /\
  (forall i o, In i (top_layers exp_m) -> nth_error st' i = Some o -> in_bounds (l_paq (o_layer o))) /\
  batch_of 3 exp_ds exp_ds /\ promises_kept pw ln2 exp_m exp_ds st' /\
  forall out, out = [Q2Qc (1 # 2); qz 1; qz 1; qz 1; Q2Qc (3 # 4); qz 1; Q2Qc (5 # 4); qz 0; qz 0; Q2Qc (7 # 8); Q2Qc (5 # 2); Q2Qc (7 # 4)] ->
  rmap (fun r => exp_flat (fst r)) (call_model pw ln2 exp_m exp_ds st') = Ok out /\
  rbind (to_proxy_model pw ln2 6 true exp_m exp_names st') (fun p => rmap (fun r => exp_flat (fst r)) (call_model pw ln2 (fst (fst p)) exp_ds [])) = Ok out.
Proof.
  intros pw ln2. split; [exact exp_ok|]. split; [exact exp_single|]. split; [exact exp_supported|]. split; [exact exp_dataset|]. split; [reflexivity|].
  assert (H : rbind (trace_minmax pw ln2 ex_eb exp_m exp_ds 2 true (qz 1) false exp_store) (fun r =>
     Ok (forallb (fun o => in_bounds_b (l_paq (o_layer o))) (snd r),
         match run (checked pw ln2) exp_m exp_ds (snd r) with Ok _ => true | Raise => false end,
         rmap (fun r => map this (exp_flat (fst r))) (call_model pw ln2 exp_m exp_ds (snd r)),
         rbind (to_proxy_model pw ln2 6 true exp_m exp_names (snd r)) (fun p => rmap (fun r => map this (exp_flat (fst r))) (call_model pw ln2 (fst (fst p)) exp_ds [])))) =
     let out := [1 # 2; 1; 1; 1; 3 # 4; 1; 5 # 4; 0; 0; 7 # 8; 5 # 2; 7 # 4]%Q in Ok (true, true, Ok out, Ok out)) by (vm_compute; reflexivity).
  destruct (trace_minmax pw ln2 ex_eb exp_m exp_ds 2 true (qz 1) false exp_store) as [[[bops rs] st']|]; [|discriminate]. cbn [rbind snd] in H. cbv zeta in H.
  apply ok4 in H. destruct H as [H1 [H2 [H3 H4]]]. exists bops, rs, st'. split; [reflexivity|]. split; [|split; [|split]].
  - intros i o _ Ho. apply in_bounds_b_ok. rewrite forallb_forall in H1. apply H1. eapply nth_error_In, Ho.
  - exists [0; 1; 2]. split; [discriminate|]. split; [repeat constructor|reflexivity].
  - unfold promises_kept. destruct (run (checked pw ln2) exp_m exp_ds st'); [eauto|discriminate H2].
  - intros out ->. split.
    + destruct (call_model pw ln2 exp_m exp_ds st') as [r|]; [|discriminate H3]. cbn [rmap] in *. injection H3 as H3. f_equal. apply map_this_inj. rewrite H3. reflexivity.
    + destruct (to_proxy_model pw ln2 6 true exp_m exp_names st') as [p|]; [|discriminate H4]. cbn [rbind] in *.
      destruct (call_model pw ln2 (fst (fst p)) exp_ds []) as [r|]; [|discriminate H4]. cbn [rmap] in *. injection H4 as H4. f_equal. apply map_this_inj. rewrite H4. reflexivity.
Qed.

(** The calibration hypothesis is needed: for a sample that was not traced the
    proxy model can wrap.  After tracing only (1, 1/2) the sample (-3, 0) gives
    (0, 2) in the HGQ model and (0, 0) in its proxy. *)
Definition exw_m : klayer layer := Sub 1 [(Leaf (11, KH 1), [(0, 0)])] [(1, 0)].
Definition exw_ds : list (list (list Qc)) := [[[qz 1; Q2Qc (1 # 2)]]].
Definition exw_x : list (list (list Qc)) := [[[qz (-3); qz 0]]].
Theorem C32_untraced_sample_differs : forall pw ln2, exists bops rs st',
  trace_minmax pw ln2 ex_eb exw_m exw_ds 1 true (qz 1) false exp_store = Ok (bops, rs, st') /\
  exists pm ns s y sy z sz, to_proxy_model pw ln2 6 true exw_m exp_names st' = Ok (pm, ns, s) /\
    call_model pw ln2 exw_m exw_x st' = Ok (y, sy) /\ call_model pw ln2 pm exw_x [] = Ok (z, sz) /\ y <> z.
Proof.
  intros pw ln2.
  assert (H : rbind (trace_minmax pw ln2 ex_eb exw_m exw_ds 1 true (qz 1) false exp_store) (fun r =>
    rbind (to_proxy_model pw ln2 6 true exw_m exp_names (snd r)) (fun p =>
    rbind (call_model pw ln2 exw_m exw_x (snd r)) (fun y =>
    rbind (call_model pw ln2 (fst (fst p)) exw_x []) (fun z =>
    Ok (map this (exp_flat (fst y)), map this (exp_flat (fst z))))))) = Ok ([0; 2]%Q, [0; 0]%Q)) by (vm_compute; reflexivity).
  destruct (trace_minmax pw ln2 ex_eb exw_m exw_ds 1 true (qz 1) false exp_store) as [[[bops rs] st']|]; [|discriminate]. cbn [rbind snd] in H.
  exists bops, rs, st'. split; [reflexivity|].
  destruct (to_proxy_model pw ln2 6 true exw_m exp_names st') as [[[pm ns] s]|]; [|discriminate]. cbn [rbind fst snd] in H.
  destruct (call_model pw ln2 exw_m exw_x st') as [[y sy]|] eqn:Ey; [|discriminate]. cbn [rbind fst snd] in H.
  destruct (call_model pw ln2 pm exw_x []) as [[z sz]|] eqn:Ez; [|discriminate]. cbn [rbind fst snd] in H.
  exists pm, ns, s, y, sy, z, sz. split; [reflexivity|]. split; [reflexivity|]. split; [exact Ez|]. intros E; subst z. injection H as H1 H2. rewrite H1 in H2. discriminate.
Qed.
Print Assumptions C32_untraced_sample_differs.

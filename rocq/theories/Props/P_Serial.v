(** C64: saving and loading layers. *)
From Coq Require Import ZArith QArith Qcanon List Bool String Lia.
From Verif Require Import Base.Num Base.NumFacts Base.Compute Base.Tensor Model.Quantizer Model.Layers Model.Conf Model.BatchNorm Model.Serial
  Spec.Serial Proofs.CallP Proofs.SerialP Props.P_Range.
Import ListNotations.
Local Open Scope Z_scope.

(** C64: loading a saved layer succeeds and gives back its configuration and weights; the layer is the one
    that was saved, after minmax_reg_reset. *)
Theorem C64_save_load : forall geo_of exact_of clip_of rsqrt defaults init o, in_use geo_of o -> bn_default geo_of o ->
  exists o', load geo_of defaults init (save o) = Ok o' /\
    layer_of geo_of exact_of clip_of rsqrt o' = uncalibrated (layer_of geo_of exact_of clip_of rsqrt o) /\
    o_w o' = o_w o /\ o_in o' = o_in o /\ a_cls (o_args o') = a_cls (o_args o) /\ a_keras (o_args o') = a_keras (o_args o) /\
    a_kq (o_args o') = a_kq (o_args o) /\ a_paq (o_args o') = a_paq (o_args o) /\
    a_beta (o_args o') = a_beta (o_args o) /\ a_pf (o_args o') = a_pf (o_args o) /\ save o' = save o.
Proof.
  intros geo_of exact_of clip_of rsqrt defaults init o U B. exists (loaded geo_of o). split; [apply load_save; assumption|].
  split; [apply layer_loaded; assumption|]. repeat split.
Qed.
Print Assumptions C64_save_load.

(** C64: the default configurations in force when loading, and the initial values of the weights, do not matter. *)
Theorem C64_load_environment : forall geo_of defaults defaults' init init' o, in_use geo_of o -> bn_default geo_of o ->
  load geo_of defaults init (save o) = load geo_of defaults' init' (save o).
Proof. intros. rewrite !load_save by assumption. reflexivity. Qed.
Print Assumptions C64_load_environment.

(** C64: the loaded layer computes what the saved one computes, on every batch (batch-norm layers: at inference,
    [C64_batchnorm_training] is about training). *)
Theorem C64_same_outputs : forall geo_of exact_of clip_of rsqrt defaults init o o' pw ln2 xs training nk nb na,
  in_use geo_of o -> bn_default geo_of o -> load geo_of defaults init (save o) = Ok o' ->
  rbind (hforward pw ln2 (layer_of geo_of exact_of clip_of rsqrt o') xs training false nk nb na) (fun r => Ok (fst r)) =
  rbind (hforward pw ln2 (layer_of geo_of exact_of clip_of rsqrt o) xs training false nk nb na) (fun r => Ok (fst r)).
Proof.
  intros geo_of exact_of clip_of rsqrt defaults init o o' pw ln2 xs training nk nb na U B E.
  rewrite load_save in E by assumption. assert (o' = loaded geo_of o) by congruence. subst o'.
  rewrite layer_loaded by assumption. apply uncalibrated_outputs.
Qed.
Print Assumptions C64_same_outputs.

(** C64: the recorded ranges are not saved: a loaded layer cannot be converted before it is calibrated again. *)
Theorem C64_needs_calibration : forall geo_of exact_of clip_of rsqrt defaults init o o' pw ln2 S,
  in_use geo_of o -> bn_default geo_of o -> load geo_of defaults init (save o) = Ok o' -> data (weight o "activation_bw") <> [] ->
  to_proxy pw ln2 (layer_of geo_of exact_of clip_of rsqrt o') S = Raise.
Proof.
  intros geo_of exact_of clip_of rsqrt defaults init o o' pw ln2 S U B E N.
  rewrite load_save in E by assumption. assert (o' = loaded geo_of o) by congruence. subst o'.
  rewrite layer_loaded by assumption.
  assert (G : forall pos, get_bits_exact (l_paq (uncalibrated (layer_of geo_of exact_of clip_of rsqrt o))) pos = Raise).
  { intros pos. cbn [uncalibrated l_paq]. apply C21_reset_raises. unfold layer_of.
    destruct (o_ki o); [destruct (is_bn _)|]; exact N. }
  unfold to_proxy. destruct (keras_op _ _ _); [|reflexivity]. cbn [rbind].
  unfold first_quantizer, layer_quantizer. rewrite !G. destruct (l_relu _); reflexivity.
Qed.
Print Assumptions C64_needs_calibration.

(** C64: training a loaded batch-norm layer that needs no adaptation any more computes the same, if its momentum is the default. *)
Theorem C64_batchnorm_training : forall geo_of exact_of clip_of rsqrt defaults init o o' i pw ln2 xs nk nb na,
  in_use geo_of o -> bn_default geo_of o -> load geo_of defaults init (save o) = Ok o' ->
  is_bn (a_cls (o_args o)) = true -> a_mom (o_args o) = Q2Qc (99 # 100) ->
  let step b := rbind (bn_train rsqrt pw ln2 b xs false nk nb na) (fun r => Ok (fst r, b_kq (snd r), b_mean (snd r), b_var (snd r))) in
  step (bn_of geo_of exact_of clip_of o' i) = step (bn_of geo_of exact_of clip_of o i).
Proof.
  intros geo_of exact_of clip_of rsqrt defaults init o o' i pw ln2 xs nk nb na U B E Hb Hm. cbv zeta.
  rewrite load_save in E by assumption. assert (o' = loaded geo_of o) by congruence. subst o'.
  rewrite bn_loaded by assumption. apply bn_train_registers.
Qed.
Print Assumptions C64_batchnorm_training.

(** C64: a file is only accepted if every stored tensor has the shape of the weight it is assigned to. *)
Theorem C64_stored_shapes : forall geo_of defaults init c cfg ishape vs o, load geo_of defaults init (c, cfg, ishape, vs) = Ok o ->
  map snd (o_w o) = vs /\
  exists a o0, construct defaults c cfg = Ok a /\ build geo_of init a ishape = Ok o0 /\
    map (fun w => shape (snd w)) (o_w o0) = map shape vs /\ map fst (o_w o0) = map fst (o_w o).
Proof.
  intros geo_of defaults init c cfg ishape vs o E. unfold load in E. apply rbind_ok in E. destruct E as [a [A E]].
  apply rbind_ok in E. destruct E as [o0 [B E]]. apply rbind_ok in E. destruct E as [ws [W E]].
  assert (o = with_weights o0 ws) by congruence. subst o. cbn [with_weights o_w].
  assert (X : map snd ws = vs /\ map (fun w => shape (snd w)) (o_w o0) = map shape vs /\ map fst (o_w o0) = map fst ws).
  { clear A B E. revert vs ws W. induction (o_w o0) as [|[n w] l IH]; intros [|v vs] ws W; cbn [set_weights] in W; try discriminate.
    - assert (ws = []) by congruence. subst ws. repeat split.
    - destruct (list_eq_dec Nat.eq_dec (shape w) (shape v)) as [Q|]; [|discriminate]. apply rbind_ok in W. destruct W as [r [R W]].
      assert (ws = (n, v) :: r) by congruence. subst ws. destruct (IH vs r R) as [I1 [I2 I3]]. cbn [map fst snd]. rewrite I1, I2, I3, Q. repeat split. }
  destruct X as [X1 [X2 X3]]. split; [exact X1|]. exists a, o0. repeat split; assumption.
Qed.
Print Assumptions C64_stored_shapes.

(** ** Examples *)

(** A one-neuron layer (kernel of shape (1, 1), bias of shape (1,)). *)
Definition ex_geo (c : cls) (k : config) (s : list nat) : geometry :=
  mkG [1; 1]%nat (if has_kernel c then Some [1%nat] else None) [1%nat] [[(0, 0)]]%nat (fun x => hd [] x) false (-1) (-1) 1.
Definition ex_init (n : string) (s : list nat) : list Qc :=
  map (fun _ => if String.eqb n "moving_variance" then Q2Qc (1427025 # 1000000) else if String.eqb n "kernel_bw" then qz 5 else qz 1) (seq 0 (prodn s)).
Definition ex_exact (d : dict) : bool := true.
Definition ex_clip (d : dict) : option (Qc * Qc) := Some (qz (-23), qz 23).
Definition ex_make (c : cls) (cfg : config) : result obj :=
  rbind (construct (default_kq, default_paq) c cfg) (fun a => build ex_geo ex_init a [1%nat]).
Definition ex_get (r : result obj) : obj := match r with Ok o => o | Raise => mkO (mkA HAdd [] [] [] (qz 0) None (qz 0) (qz 0) true true true) [] None (mkI None 0 []) [] (mkT [] []) (mkT [] []) end.

Lemma ex_in_use c cfg : match ex_make c cfg with Ok o => True | Raise => False end -> in_use ex_geo (ex_get (ex_make c cfg)).
Proof.
  destruct (ex_make c cfg) as [o|] eqn:M; [intros _|tauto]. cbn [ex_get]. unfold ex_make in M. apply rbind_ok in M. destruct M as [a [A B]].
  assert (W : a_cls (o_args o) = a_cls a /\ o_in o = [1%nat] /\ exists l, o_w o = map (fun e => (fst e, mkT (snd e) (ex_init (fst e) (snd e)))) l).
  { clear A. unfold build in B. cbv zeta in B. apply rbind_ok in B. destruct B as [p [_ B]]. apply rbind_ok in B. destruct B as [k [_ B]].
    apply rbind_ok in B. destruct B as [q [_ B]]. destruct (dget p "rnd_strategy"); [|discriminate].
    match type of B with Ok ?t = _ => assert (H : o = t) by congruence end. subst o. split; [reflexivity|]. split; [reflexivity|]. eexists. reflexivity. }
  destruct W as [C [I [l W]]].
  assert (D1 : fst (default_kq, default_paq) <> []) by discriminate. assert (D2 : snd (default_kq, default_paq) <> []) by discriminate.
  destruct (construct_facts _ _ _ _ D1 D2 A) as [F _].
  exists (default_kq, default_paq), cfg, ex_init, a, o. split; [exact D1|]. split; [exact D2|].
  rewrite C, F, I. split; [exact A|]. split; [exact B|].
  split; [cbv zeta; destruct (o_args o); reflexivity|]. do 4 (split; [reflexivity|]).
  rewrite W. apply Forall_forall. intros w Hw. apply in_map_iff in Hw. destruct Hw as [e [<- _]].
  cbn [snd shape data]. unfold ex_init. rewrite map_length, seq_length. reflexivity.
Qed.

Definition ex_out (rsqrt : Qc -> Qc) (o : obj) (x : Qc) : result (list (list Qc)) :=
  rbind (hforward (fun x => x) (qz 0) (layer_of ex_geo ex_exact ex_clip rsqrt o) [[[x]]] false false (fun _ => qz 0) (fun _ => qz 0) (fun _ => qz 0))
    (fun r => Ok (fst r)).

(** The hypotheses hold for a dense layer and for a batch-norm layer; the dense layer computes something. *)
Example C64_ex :
  (let o := ex_get (ex_make HDense [("units"%string, CInt 1); ("beta"%string, CNum (Q2Qc (1 # 10)))]) in
   in_use ex_geo o /\ bn_default ex_geo o /\ data (weight o "activation_bw") <> [] /\
   rmap (map (map this)) (ex_out (fun x => x) o (qz 3)) = Ok [[this (qz 4)]] /\
   rmap (fun o' => this (a_beta (o_args o'))) (load ex_geo ([], []) (fun _ _ => []) (save o)) = Ok (1 # 10)) /\
  (let o := ex_get (ex_make HDenseBN [("units"%string, CInt 1); ("momentum"%string, CNum (Q2Qc (99 # 100)))]) in
   in_use ex_geo o /\ bn_default ex_geo o /\ a_mom (o_args o) = Q2Qc (99 # 100) /\ is_bn (a_cls (o_args o)) = true).
Proof.
  split; cbv zeta.
  - split; [apply ex_in_use; exact I|]. split; [intros H; vm_compute in H; discriminate|].
    split; [vm_compute; discriminate|]. split; vm_compute; reflexivity.
  - split; [apply ex_in_use; exact I|]. split; [intros _; repeat split|]. split; reflexivity.
Qed.

Example C64_stored_shapes_ex : let o := ex_get (ex_make HDense []) in
  match load ex_geo (default_kq, default_paq) ex_init (save o) with Ok _ => True | Raise => False end /\
  (let '(c, cfg, s, vs) := save o in load ex_geo (default_kq, default_paq) ex_init (c, cfg, s, map (fun _ => mkT [2%nat] [qz 1; qz 1]) vs)) = Raise.
Proof. split; vm_compute; [exact I|reflexivity]. Qed.

(** C64: for batch-norm layers [bn_default] is needed.  epsilon is not saved: this layer loads without
    complaint and computes something else (rsqrt is exact where it is used). *)
Theorem C64_epsilon_refuted : exists rsqrt o o' x, in_use ex_geo o /\ a_scale (o_args o) = true /\ a_center (o_args o) = true /\
  (forall v, In v [Q2Qc (1677025 # 1000000); Q2Qc (1428025 # 1000000)] -> (0 < rsqrt v)%Qc /\ (rsqrt v * rsqrt v * v)%Qc = qz 1) /\
  load ex_geo (default_kq, default_paq) ex_init (save o) = Ok o' /\ ex_out rsqrt o' x <> ex_out rsqrt o x.
Proof.
  exists (fun v => if qeqb v (Q2Qc (1677025 # 1000000)) then Q2Qc (1000 # 1295) else Q2Qc (1000 # 1195)).
  pose (o := ex_get (ex_make HDenseBN [("epsilon"%string, CNum (Q2Qc (1 # 4)))])).
  pose (o' := ex_get (load ex_geo (default_kq, default_paq) ex_init (save o))).
  exists o, o', (qz 32). split; [apply ex_in_use; exact I|]. split; [reflexivity|]. split; [reflexivity|].
  split; [intros v [<-|[<-|[]]]; split; [reflexivity|qvm|reflexivity|qvm]|].
  split; [reflexivity|]. intros H. apply (f_equal (rmap (map (map this)))) in H. vm_compute in H. discriminate.
Qed.
Print Assumptions C64_epsilon_refuted.

(** C64: neither are center and scale: layers without one of them cannot be loaded. *)
Theorem C64_center_scale_refuted : exists o1 o2, in_use ex_geo o1 /\ in_use ex_geo o2 /\
  a_center (o_args o1) = false /\ a_scale (o_args o1) = true /\ a_center (o_args o2) = true /\ a_scale (o_args o2) = false /\
  forall defaults init, load ex_geo defaults init (save o1) = Raise /\ load ex_geo defaults init (save o2) = Raise.
Proof.
  exists (ex_get (ex_make HDenseBN [("center"%string, CBool false)])), (ex_get (ex_make HDenseBN [("scale"%string, CBool false)])).
  split; [apply ex_in_use; exact I|]. split; [apply ex_in_use; exact I|]. do 4 (split; [reflexivity|]).
  intros defaults init. split; vm_compute; reflexivity.
Qed.
Print Assumptions C64_center_scale_refuted.

Lemma ex_get_ok r : match r with Ok _ => True | Raise => False end -> r = Ok (ex_get r).
Proof. destruct r; [reflexivity|tauto]. Qed.
Definition o_args_of (c : cls) (cfg : config) : args :=
  match construct (default_kq, default_paq) c cfg with Ok a => a | Raise => o_args (ex_get Raise) end.
Lemma ex_args c cfg : match construct (default_kq, default_paq) c cfg with Ok _ => True | Raise => False end ->
  construct (default_kq, default_paq) c cfg = Ok (o_args_of c cfg).
Proof. unfold o_args_of. destruct (construct _ c cfg); [reflexivity|tauto]. Qed.

(** C64: training goes on differently.  [o1] is the layer after its first training call, which adapted the
    bitwidths of the kernel; further calls leave them alone.  The first training call of the loaded layer adapts
    them again.  (rsqrt is accurate to 10^-8 and lg brackets log2 where they are used.) *)
Theorem C64_bits_readapted_refuted : exists rsqrt lg xs o o1 o' o2 i, in_use ex_geo o /\ o_ki o = Some i /\
  (let v := Q2Qc (1 # 1000) in (qabs (rsqrt v * rsqrt v * v - qz 1) <= Q2Qc (1 # 100000000))%Qc /\
     (pow2 4 < rsqrt v)%Qc /\ (rsqrt v < pow2 5)%Qc /\ (qz 4 < lg (rsqrt v))%Qc /\ (lg (rsqrt v) < qz 5)%Qc) /\
  let train o := first_training_call ex_geo ex_exact ex_clip rsqrt (fun x => x) (qz 0) lg o i xs in
  train o = Ok o1 /\ train o1 = Ok o1 /\ in_use ex_geo o1 /\ bn_default ex_geo o1 /\ a_mom (o_args o1) = Q2Qc (99 # 100) /\
  load ex_geo (default_kq, default_paq) ex_init (save o1) = Ok o' /\ weight o' "kernel_bw" = weight o1 "kernel_bw" /\
  train o' = Ok o2 /\ weight o2 "kernel_bw" <> weight o1 "kernel_bw".
Proof.
  pose (rsqrt := fun v : Qc => if qeqb v (Q2Qc (1 # 1000)) then Q2Qc (316227766 # 10000000) else Q2Qc (1000 # 1195)).
  pose (lg := fun v : Qc => Q2Qc (319 # 64)). pose (xs := [[[qz 1]]; [[qz 1]]]).
  pose (o := ex_get (ex_make HDenseBN [])).
  pose (tr := fun o i => first_training_call ex_geo ex_exact ex_clip rsqrt (fun x => x) (qz 0) lg o i xs).
  pose (i := match o_ki o with Some i => i | None => mkI None 0 [] end).
  pose (o1 := ex_get (tr o i)). pose (o' := ex_get (load ex_geo (default_kq, default_paq) ex_init (save o1))).
  exists rsqrt, lg, xs, o, o1, o', (ex_get (tr o' i)), i.
  split; [apply ex_in_use; exact I|]. split; [reflexivity|].
  split; [cbv zeta; repeat split; vm_compute; congruence|]. cbv zeta.
  change (tr o i = Ok o1 /\ tr o1 i = Ok o1 /\ in_use ex_geo o1 /\ bn_default ex_geo o1 /\ a_mom (o_args o1) = Q2Qc (99 # 100) /\
    load ex_geo (default_kq, default_paq) ex_init (save o1) = Ok o' /\ weight o' "kernel_bw" = weight o1 "kernel_bw" /\
    tr o' i = Ok (ex_get (tr o' i)) /\ weight (ex_get (tr o' i)) "kernel_bw" <> weight o1 "kernel_bw").
  assert (T : tr o i = Ok o1) by (apply ex_get_ok; vm_compute; exact I).
  assert (U : in_use ex_geo o1).
  { assert (A : a_cls (o_args o1) = HDenseBN) by (vm_compute; reflexivity). assert (A' : o_in o1 = [1%nat]) by (vm_compute; reflexivity).
    exists (default_kq, default_paq), [], ex_init, (o_args_of HDenseBN []), o. split; [discriminate|]. split; [discriminate|].
    rewrite A, A'. split; [apply ex_args; vm_compute; exact I|]. split; [apply ex_get_ok; vm_compute; exact I|].
    destruct (train_keeps _ _ _ _ _ _ _ _ _ _ _ T) as [K1 [K2 [K3 [K4 [K5 K6]]]]].
    split; [exact K1|]. split; [exact K2|]. split; [exact K3|]. split; [exact K4|].
    split; vm_compute; [reflexivity|repeat constructor]. }
  assert (D : bn_default ex_geo o1).
  { intros _. destruct (train_keeps _ _ _ _ _ _ _ _ _ _ _ T) as [K1 _]. rewrite K1. repeat split. }
  split; [exact T|]. split; [|split; [exact U|split; [exact D|]]].
  - unfold tr, first_training_call. assert (A : a_adapt (o_args o1) = false) by (vm_compute; reflexivity). rewrite A. reflexivity.
  - split; [destruct (train_keeps _ _ _ _ _ _ _ _ _ _ _ T) as [K1 _]; rewrite K1; reflexivity|].
    assert (L : load ex_geo (default_kq, default_paq) ex_init (save o1) = Ok o') by (apply ex_get_ok; vm_compute; exact I).
    split; [exact L|]. rewrite load_save in L by assumption. assert (E : o' = loaded ex_geo o1) by congruence.
    split; [rewrite E; apply weight_loaded|]. split; [apply ex_get_ok; vm_compute; exact I|].
    intros H. apply (f_equal tthis) in H. vm_compute in H. discriminate.
Qed.
Print Assumptions C64_bits_readapted_refuted.

(** C64: a configuration dictionary is saved as it is now, not as it was when the layer was built.  [o] and the
    activation [act] were given the same dictionary; building [act] rewrites it (misc.py:36-37), which leaves the
    quantizer of [o] alone (floor), but [o] is saved and loaded with the rewritten one (round). *)
Definition shared (o act : obj) : obj :=
  let a := o_args o in
  mkO (mkA (a_cls a) (a_keras a) (a_kq a) (a_paq (o_args act)) (a_beta a) (a_pf a) (a_mom a) (a_eps a) (a_center a) (a_scale a) (a_adapt a))
      (o_in o) (o_ki o) (o_pi o) (o_w o) (o_min o) (o_max o).
Theorem C64_shared_configuration_refuted : exists conf o act o' x, in_use ex_geo o /\ in_use ex_geo act /\
  ex_make HAdd [("paq_conf"%string, CConf conf)] = Ok o /\ ex_make HActivation [("paq_conf"%string, CConf conf)] = Ok act /\
  ex_out (fun x => x) (shared o act) x = ex_out (fun x => x) o x /\
  load ex_geo (default_kq, default_paq) ex_init (save (shared o act)) = Ok o' /\
  ex_out (fun x => x) o' x <> ex_out (fun x => x) (shared o act) x.
Proof.
  pose (conf := dset default_paq "rnd_strategy" (VStr "auto")).
  pose (o := ex_get (ex_make HAdd [("paq_conf"%string, CConf conf)])).
  pose (act := ex_get (ex_make HActivation [("paq_conf"%string, CConf conf)])).
  exists conf, o, act, (ex_get (load ex_geo (default_kq, default_paq) ex_init (save (shared o act)))), (Q2Qc (3 # 4)).
  split; [apply ex_in_use; exact I|]. split; [apply ex_in_use; exact I|]. do 4 (split; [reflexivity|]).
  intros H. apply (f_equal (rmap (map (map this)))) in H. vm_compute in H. discriminate.
Qed.
Print Assumptions C64_shared_configuration_refuted.

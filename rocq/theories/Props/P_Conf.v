(** Default configurations and 'auto' rounding: C52, C53. *)
From Coq Require Import ZArith Qcanon List Bool String Lia.
From Verif Require Import Base.Num Base.Tensor Base.Compute Model.Conf Model.Quantizer Model.Layers Spec.Conf Spec.Rounding Proofs.ConfP Proofs.RoundingP.
Import ListNotations.
Open Scope Z_scope.

(** ** C52 *)

(** Whatever a program does, both defaults keep their original keys, provided
    it never writes to a dictionary it has passed to a setter (nor to the
    module's own initial dictionaries). *)
Theorem C52_keys : forall h, tidy [0%nat; 1%nat] h -> forall k,
  (has_key (obj (run h cinit) (def_kq (run h cinit))) k <-> has_key default_kq k) /\
  (has_key (obj (run h cinit) (def_paq (run h cinit))) k <-> has_key default_paq k).
Proof.
  intros h T k. split.
  - apply (tidy_keys KQ h cinit [0%nat; 1%nat] init_wfc T); left; reflexivity.
  - apply (tidy_keys PAQ h cinit [0%nat; 1%nat] init_wfc T); right; left; reflexivity.
Qed.
Print Assumptions C52_keys.
Definition dense : spec := mkSpec false (Some [3; 2]%nat) None [None; Some 2%nat] (-1).
Definition act : spec := mkSpec true None None [None; Some 2%nat] (-1).
(** Get the default, change it, install it, create and build an activation. *)
Definition h1 : list op :=
  [OGet PAQ; OWrite 2 "rnd_strategy" (VStr "auto"); OWrite 2 "init_bw" (VInt 5); OSet PAQ (ADict 2); ONew [("init_bw"%string, VInt 7)]; OSet PAQ (ADict 3); OSet KQ NotDict;
   OLayer act None (Some 2%nat); OBuild 0].
Example C52_keys_ex : tidy [0%nat; 1%nat] h1 /\ def_paq (run h1 cinit) = 2%nat /\ def_kq (run h1 cinit) = 0%nat /\
  dget (obj (run h1 cinit) 2) "init_bw" = Some (VInt 5) /\ dget (obj (run h1 cinit) 2) "rnd_strategy" = Some (VStr "standard_round").
Proof. split; [cbn; repeat split; intros a []; try subst a; intuition discriminate|]. vm_compute. repeat split. Qed.

(** The setters reject exactly what is not a dictionary with the same keys as
    the present default, and then change nothing. *)
Theorem C52_rejected : forall w v st st' r, set_default w v st = (st', r) -> (default_of w st < List.length (dicts st))%nat ->
  (r = true -> st' = st) /\
  (r = false <-> exists a, v = ADict a /\ (a < List.length (dicts st))%nat /\ forall k, has_key (obj st a) k <-> has_key (obj st (default_of w st)) k) /\
  (r = false -> forall a, v = ADict a -> default_of w st' = a /\ dicts st' = dicts st).
Proof.
  intros w v st st' r H L. unfold set_default in H. destruct v as [|a].
  { assert (st' = st /\ r = true) as [-> ->] by (split; congruence). split; [auto|]. split; [|discriminate]. split; [discriminate|]. intros (a & E & _). discriminate. }
  destruct (nth_error (dicts st) a) as [d|] eqn:E.
  2:{ assert (st' = st /\ r = true) as [-> ->] by (split; congruence). split; [auto|]. split; [|discriminate]. split; [discriminate|]. intros (b & Eb & Lb & _). assert (b = a) by congruence. subst b. apply nth_error_None in E. lia. }
  assert (O : obj st a = d) by (apply nth_error_nth; exact E). assert (LA : (a < List.length (dicts st))%nat) by (apply nth_error_Some; congruence). fold (obj st (default_of w st)) in H.
  destruct (same_keys d (obj st (default_of w st))) eqn:K.
  - assert (st' = with_default w a st /\ r = false) as [-> ->] by (split; congruence). split; [discriminate|]. rewrite same_keys_spec in K. split.
    + split; [|auto]. intros _. exists a. split; [reflexivity|]. split; [exact LA|]. rewrite O. exact K.
    + intros _ b Eb. assert (b = a) by congruence. subst b. destruct w; split; reflexivity.
  - assert (st' = st /\ r = true) as [-> ->] by (split; congruence). split; [auto|]. split; [|discriminate]. split; [discriminate|]. intros (b & Eb & Lb & C). assert (b = a) by congruence. subst b. rewrite O in C. apply same_keys_spec in C. congruence.
Qed.
Print Assumptions C52_rejected.
Example C52_rejected_ex : snd (set_default PAQ (ADict 0) cinit) = true /\ snd (set_default KQ (ADict 0) cinit) = false.
Proof. split; vm_compute; reflexivity. Qed.

(** The getters return a new object with the contents of the default. *)
Theorem C52_copy : forall w st, let '(st', a) := get_default w st in
  (forall b, (b < List.length (dicts st))%nat -> b <> a /\ obj st' b = obj st b) /\ obj st' a = obj st (default_of w st) /\ default_of w st' = default_of w st.
Proof.
  intros w st. unfold get_default. split; [|split].
  - intros b L. split; [lia|]. apply obj_app, L.
  - unfold obj at 1. cbn. rewrite app_nth2 by lia. rewrite Nat.sub_diag. reflexivity.
  - destruct w; reflexivity.
Qed.
Print Assumptions C52_copy.
Example C52_copy_ex : snd (get_default KQ cinit) = 2%nat /\ obj (fst (get_default KQ cinit)) 2 = default_kq.
Proof. split; reflexivity. Qed.

(** Without calls of the setter, no program that leaves the module's own
    dictionaries alone changes a default: in particular not by changing what
    the getters returned, nor by creating and building layers. *)
Theorem C52_isolated : forall w h, no_set w h -> leaves_alone (default_of w cinit) h ->
  obj (run h cinit) (default_of w (run h cinit)) = obj cinit (default_of w cinit).
Proof.
  intros w h N L. rewrite run_default by exact N. apply run_keeps; [exact init_wfc|destruct w; cbn; lia|intros l []|exact L].
Qed.
Print Assumptions C52_isolated.
Definition h2 : list op := [OGet PAQ; OGet KQ; OWrite 2 "rnd_strategy" (VStr "auto"); ODel 2 "dtype"; OSet KQ (ADict 3); OLayer act None (Some 2%nat); OBuild 0; OLayer dense None None; OBuild 1].
Example C52_isolated_ex : no_set PAQ h2 /\ leaves_alone 1 h2 /\ obj (run h2 cinit) 2 <> default_paq /\ nth_error (clayers (run h2 cinit)) 1 <> None.
Proof.
  split; [repeat (apply Forall_cons; [intros v; discriminate|]); apply Forall_nil|]. split; [repeat (apply Forall_cons; [cbn; intuition discriminate|]); apply Forall_nil|]. split; vm_compute; discriminate.
Qed.
(** The same after a setter has been called: a default changes only if its
    dictionary is written to, or belongs to an activation layer. *)
Theorem C52_stays : forall w h0 h, let st := run h0 cinit in no_set w h -> leaves_alone (default_of w st) h -> not_rewritten (default_of w st) st ->
  obj (run h st) (default_of w (run h st)) = obj st (default_of w st).
Proof.
  intros w h0 h st N L R. rewrite run_default by exact N. pose proof (run_wfc h0 cinit init_wfc) as W. apply run_keeps; [exact W| |exact R|exact L].
  destruct W as (A & B & _). destruct w; [exact A|exact B].
Qed.
Print Assumptions C52_stays.
Example C52_stays_ex : let st := run [OGet PAQ; OWrite 2 "init_bw" (VInt 3); OSet PAQ (ADict 2)] cinit in
  default_of PAQ st = 2%nat /\ not_rewritten 2 st /\ leaves_alone 2 [OGet PAQ; OWrite 3 "init_bw" (VInt 9); OLayer act None None; OBuild 0].
Proof. split; [reflexivity|]. split; [intros l []|]. repeat (apply Forall_cons; [cbn; intuition discriminate|]). apply Forall_nil. Qed.

(** Writing to a dictionary after passing it to a setter changes the default,
    even its keys. *)
Theorem C52_by_reference_refuted : exists h o, sets o = [] /\ def_kq (run (h ++ [o]) cinit) = def_kq (run h cinit) /\
  has_key (obj (run h cinit) (def_kq (run h cinit))) "bw_clip" /\ ~ has_key (obj (run (h ++ [o]) cinit) (def_kq (run h cinit))) "bw_clip".
Proof.
  exists [OGet KQ; OSet KQ (ADict 2)], (ODel 2 "bw_clip"). split; [reflexivity|]. split; [reflexivity|]. split; [eexists; vm_compute; do 5 right; left; reflexivity|].
  intros [v H]. vm_compute in H. repeat (destruct H as [H|H]; [discriminate|]). exact H.
Qed.
Print Assumptions C52_by_reference_refuted.
(** After that, a dictionary with the original keys is rejected. *)
Example C52_by_reference_ex : let st := run [OGet KQ; OSet KQ (ADict 2); ODel 2 "bw_clip"] cinit in snd (set_default KQ (ADict 0) st) = true.
Proof. vm_compute. reflexivity. Qed.
(** The copy is shallow: changing the regularizer of a returned dictionary
    changes that of the default. *)
Theorem C52_regularizer_refuted : exists h r l1, dget (obj (run h cinit) 2) "regularizer" = Some (VReg r) /\ h = [OGet KQ] /\
  dget (obj (run h cinit) (def_kq (run h cinit))) "regularizer" = Some (VReg r) /\
  nth r (regs (run (h ++ [OReg r l1]) cinit)) (qz 0) <> nth r (regs (run h cinit)) (qz 0).
Proof.
  exists [OGet KQ], 0%nat, (qz 1). split; [reflexivity|]. split; [reflexivity|]. split; [reflexivity|]. intros C. apply (f_equal this) in C. vm_compute in C. discriminate.
Qed.
Print Assumptions C52_regularizer_refuted.

(** ** C53 *)

(** After any program that leaves the configuration of a layer alone, building
    the layer resolves 'auto' from the layer's own bias and shapes: rounding
    (0) for activations and where the bias covers it, truncation (3) elsewhere.
    [qs] is the shape of the bitwidths. *)
Theorem C53_auto : forall h st n l st',
  wfc st -> nth_error (clayers st) n = Some l -> dget (obj st (c_paq l)) "rnd_strategy" = Some (VStr "auto") ->
  leaves_alone (c_paq l) h -> (forall m l', nth_error (clayers st) m = Some l' -> c_paq l' = c_paq l -> c_act l' = true -> False) ->
  nth_error (clayers (run h st)) n = Some l -> build_layer n (run h st) = (st', false) ->
  exists l' qs sd deg, nth_error (clayers st') n = Some l' /\ dget (obj st (c_paq l)) "skip_dims" = Some sd /\
    bw_shape sd (c_outshape l) = Ok (map Some qs, deg) /\
    c_pstrat l' = Some (VInt (if c_act l then 0 else if covers (c_bias l) qs (c_loc l) then 0 else 3)).
Proof.
  intros h st n l st' W EL Ea LA NS EL' EB. pose proof W as (_ & _ & WL). pose proof (WL l (nth_error_In _ _ EL)) as LT.
  assert (NR : not_rewritten (c_paq l) st).
  { intros l' H A E. apply In_nth_error in H as [m H]. exact (NS m l' H E A). }
  destruct (run_keeps h st (c_paq l) W LT NR LA) as (O & L' & _).
  destruct (build_strategy n (run h st) l st' EL' L' EB) as (l' & v & qs & sd & deg & A & B & C & D & E). rewrite O in B, C. rewrite Ea in B. assert (v = VStr "auto") by congruence. subst v.
  exists l', qs, sd, deg. repeat (split; [assumption|]). exact E.
Qed.
Print Assumptions C53_auto.

(** An activation layer may share its dictionary: it always ends up rounding. *)
Theorem C53_activation : forall st n l st', wfc st -> nth_error (clayers st) n = Some l -> c_act l = true ->
  dget (obj st (c_paq l)) "rnd_strategy" = Some (VStr "auto") -> build_layer n st = (st', false) ->
  exists l', nth_error (clayers st') n = Some l' /\ c_pstrat l' = Some (VInt 0) /\ dget (obj st' (c_paq l)) "rnd_strategy" = Some (VStr "standard_round").
Proof.
  intros st n l st' W EL A Ea EB. pose proof W as (_ & _ & WL). pose proof (WL l (nth_error_In _ _ EL)) as LT.
  destruct (build_strategy n st l st' EL LT EB) as (l' & v & qs & sd & deg & H1 & H2 & H3 & H4 & H5). rewrite Ea in H2. assert (v = VStr "auto") by congruence. subst v. rewrite A in H5. cbn in H5.
  exists l'. split; [exact H1|]. split; [exact H5|]. unfold build_layer in EB. rewrite EL in EB. unfold activation_rewrite in EB. rewrite A in EB. fold (obj st (c_paq l)) in EB. rewrite Ea in EB. cbn [is_auto String.eqb Ascii.eqb Bool.eqb] in EB.
  destruct (build_quantizers _ _ l) as [[ks ps]|]; [|discriminate]. assert (E : dicts st' = set_nth (dicts st) (c_paq l) (dset (obj st (c_paq l)) "rnd_strategy" (VStr "standard_round"))).
  { assert (X : forall s1 s2 : cstate, (s1, false) = (s2, false) -> dicts s2 = dicts s1) by (intros; congruence). rewrite (X _ _ EB). reflexivity. }
  unfold obj at 1. rewrite E, set_dim_same by exact LT. rewrite dset_get. reflexivity.
Qed.
Print Assumptions C53_activation.

(** A layer created without a configuration has a dictionary of its own, with
    the default's contents: no other layer can interfere. *)
Theorem C53_default : forall h0 sp kq h n l st', let st0 := run h0 cinit in let st := step (OLayer sp kq None) st0 in
  dget (obj st0 (def_paq st0)) "rnd_strategy" = Some (VStr "auto") ->
  n = List.length (clayers st0) -> nth_error (clayers st) n = Some l ->
  leaves_alone (c_paq l) h -> s_act sp = false ->
  nth_error (clayers (run h st)) n = Some l -> build_layer n (run h st) = (st', false) ->
  exists l' qs sd deg, nth_error (clayers st') n = Some l' /\ dget (obj st0 (def_paq st0)) "skip_dims" = Some sd /\
    bw_shape sd (s_out sp) = Ok (map Some qs, deg) /\
    c_pstrat l' = Some (VInt (if covers (s_bias sp) qs (s_loc sp) then 0 else 3)).
Proof.
  intros h0 sp kq h n l st' st0 st Ea En EL LA NA EL' EB. pose proof (run_wfc h0 cinit init_wfc) as W0. fold st0 in W0. pose proof (step_wfc (OLayer sp kq None) st0 W0) as W. fold st in W.
  destruct (new_layer_spec sp kq None st0) as (more & l1 & D & _ & _ & _ & LL & P1 & P2 & P3 & P4 & P5 & Q).
  assert (l1 = l). { change (clayers st) with (clayers (new_layer sp kq None st0)) in EL. rewrite LL, En, nth_error_app2, Nat.sub_diag in EL by lia. cbn in EL. congruence. }
  subst l1. destruct Q as [[Q _]|[Q1 Q2]]; [discriminate|]. pose proof W0 as (_ & WP & WL). specialize (Q2 eq_refl WP).
  assert (O : obj st (c_paq l) = obj st0 (def_paq st0)) by (unfold obj at 1; change (dicts st) with (dicts (new_layer sp kq None st0)); rewrite D; exact Q2).
  rewrite <- O in Ea |- *. rewrite <- P2, <- P4, <- P5.
  destruct (C53_auto h st n l st' W EL Ea LA) as (l' & qs & sd & deg & H1 & H2 & H3 & H4); [|exact EL'|exact EB|].
  - intros m l2 H E A. change (clayers st) with (clayers (new_layer sp kq None st0)) in H. rewrite LL in H. apply nth_error_In, in_app_or in H as [H|[<-|[]]]; [specialize (WL l2 H); lia|congruence].
  - exists l', qs, sd, deg. rewrite P1, NA in H4. auto.
Qed.
Print Assumptions C53_default.
(** Defaults set to 'auto'; an activation and a dense layer with bias (one
    bitwidth per channel) are created and built in either order. *)
Definition dense_b : spec := mkSpec false (Some [3; 2]%nat) (Some [2%nat]) [None; Some 2%nat] (-1).
Definition h3 : list op := [OGet PAQ; OWrite 2 "rnd_strategy" (VStr "auto"); OSet PAQ (ADict 2)].
Example C53_default_ex :
  let st0 := run h3 cinit in let st := step (OLayer dense None None) st0 in let h := [OLayer act None None; OBuild 1; OLayer dense_b None None; OBuild 2] in
  dget (obj st0 (def_paq st0)) "rnd_strategy" = Some (VStr "auto") /\
  (exists l, nth_error (clayers (run h st)) 0 = Some l /\ leaves_alone (c_paq l) h /\ nth_error (clayers st) 0 = Some l) /\
  map c_pstrat (clayers (run (h ++ [OBuild 0]) st)) = [Some (VInt 3); Some (VInt 0); Some (VInt 0)].
Proof.
  split; [reflexivity|]. split; [|vm_compute; reflexivity]. eexists. split; [vm_compute; reflexivity|]. split; [|vm_compute; reflexivity].
  repeat (apply Forall_cons; [cbn; intuition discriminate|]). apply Forall_nil.
Qed.
Example C53_auto_ex : let st := run (h3 ++ [OLayer dense None None; OLayer dense_b None (Some 2%nat)]) cinit in
  wfc st /\ (forall m l, nth_error (clayers st) m = Some l -> c_act l = false) /\ map c_pstrat (clayers (run [OBuild 1; OGet PAQ; OBuild 0] st)) = [Some (VInt 3); Some (VInt 0)].
Proof.
  split; [apply run_wfc, init_wfc|]. split; [|vm_compute; reflexivity]. intros [|[|m]] l E; vm_compute in E; [| |destruct m; discriminate]; assert (X := f_equal (option_map c_act) E); cbn in X; congruence.
Qed.
Example C53_activation_ex : let st := run (h3 ++ [OLayer act None (Some 2%nat)]) cinit in map c_pstrat (clayers (step (OBuild 0) st)) = [Some (VInt 0)] /\
  dget (obj (step (OBuild 0) st) (def_paq st)) "rnd_strategy" = Some (VStr "standard_round").
Proof. split; vm_compute; reflexivity. Qed.

(** Anything but 'auto' is taken as it stands: both quantizers of a built layer round
    as their configurations ask at that time (truncating if a kernel configuration says
    nothing); a pre-activation configuration has to say something. *)
Theorem C53_named : forall st n l st', wfc st -> nth_error (clayers st) n = Some l -> build_layer n st = (st', false) ->
  exists l' v, nth_error (clayers st') n = Some l' /\ dget (obj st (c_paq l)) "rnd_strategy" = Some v /\
  (v <> VStr "auto" -> exists z, c_pstrat l' = Some z /\ asks_rounding (Some v) z) /\
  ((c_act l = true -> c_kq l <> c_paq l) ->
   match c_kernel l with None => c_kstrat l' = None | Some _ => exists z, c_kstrat l' = Some z /\ asks_rounding (dget (obj st (c_kq l)) "rnd_strategy") z end).
Proof.
  intros st n l st' W EL EB. pose proof W as (_ & _ & WL). pose proof (WL l (nth_error_In _ _ EL)) as LT.
  destruct (build_strategy n st l st' EL LT EB) as (l' & v & qs & sd & deg & H1 & H2 & _ & _ & H5). exists l', v. split; [exact H1|]. split; [exact H2|]. split.
  - intros NA. exists (strategy_of v). split; [|apply strategy_asks]. rewrite H5. destruct v as [| |s| | |]; try reflexivity. cbn. destruct (String.eqb_spec s "auto") as [->|N]; [congruence|reflexivity].
  - intros ND. unfold build_layer in EB. rewrite EL in EB. destruct (activation_rewrite l st) as [st1 r] eqn:ER. destruct r; [discriminate|].
    destruct (build_quantizers _ _ l) as [[ks ps]|] eqn:EQ; [|discriminate]. apply kernel_rounding in EQ. apply rewrite_spec in ER as [RS _].
    assert (LY : clayers st1 = clayers st) by (destruct RS as [->|(_ & _ & ->)]; reflexivity).
    assert (LN : (n < List.length (clayers st))%nat) by (apply nth_error_Some; congruence).
    assert (E : c_kstrat l' = ks).
    { assert (X : forall s1 s2 : cstate, (s1, false) = (s2, false) -> clayers s2 = clayers s1) by (intros; congruence). rewrite (X _ _ EB) in H1. cbn in H1. rewrite LY in H1.
      rewrite (nth_error_nth' _ l) in H1 by (rewrite set_dim_length; exact LN). rewrite set_dim_same in H1 by exact LN. assert (Y : forall a b : clayer, Some a = Some b -> b = a) by (intros; congruence). rewrite (Y _ _ H1). reflexivity. }
    rewrite E. destruct (c_kernel l); [|exact EQ]. destruct EQ as (z & -> & A). exists z. split; [reflexivity|]. fold (obj st1 (c_kq l)) in A.
    destruct RS as [->|(A1 & _ & ->)]; [exact A|]. replace (obj st (c_kq l)) with (obj (with_dicts st (set_nth (dicts st) (c_paq l) (dset (obj st (c_paq l)) "rnd_strategy" (VStr "standard_round")))) (c_kq l)); [exact A|].
    unfold obj at 1. cbn. apply set_dim_other. intros X. apply (ND A1). congruence.
Qed.
Print Assumptions C53_named.
(** A kernel configuration without rounding mode; a stochastic pre-activation; without a mode for the pre-activation the layer is not built. *)
Example C53_named_ex :
  map (fun l => (c_kstrat l, c_pstrat l)) (clayers (run [OGet KQ; ODel 2 "rnd_strategy"; OGet PAQ; OWrite 3 "rnd_strategy" (VStr "stochastic_round"); OLayer dense (Some 2%nat) (Some 3%nat); OBuild 0] cinit))
    = [(Some (VInt 3), Some (VInt 1))] /\
  map (fun l => (c_kstrat l, c_pstrat l)) (clayers (run [OGet PAQ; ODel 2 "rnd_strategy"; OLayer dense None (Some 2%nat); OBuild 0] cinit)) = [(None, None)].
Proof. split; vm_compute; reflexivity. Qed.

(** One dictionary given to an activation and to a dense layer without bias:
    if the activation is built first, the dense layer rounds (0) instead of
    truncating (3). *)
Theorem C53_shared_refuted : exists h d, let st := run h cinit in
  map c_pstrat (clayers (run [OBuild 0; OBuild 1] st)) = [Some (VInt d); Some (VInt 0)] /\
  map c_pstrat (clayers (run [OBuild 1; OBuild 0] st)) = [Some (VInt 0); Some (VInt 0)] /\ d = 3.
Proof. exists [OGet PAQ; OWrite 2 "rnd_strategy" (VStr "auto"); OLayer dense None (Some 2%nat); OLayer act None (Some 2%nat)], 3. vm_compute. repeat split. Qed.
Print Assumptions C53_shared_refuted.
(** 'auto' in a kernel configuration is not resolved: it becomes the invalid
    strategy -1. *)
Theorem C53_kernel_refuted : exists h, map c_kstrat (clayers (run h cinit)) = [Some (VInt (-1))].
Proof. exists [OGet KQ; OWrite 2 "rnd_strategy" (VStr "auto"); OLayer dense (Some 2%nat) None; OBuild 0]. vm_compute. reflexivity. Qed.
Print Assumptions C53_kernel_refuted.

(** The shape-level test used here is the layer-level one of the layer model. *)
Theorem C53_covers_agree : forall (l : hlayer) w f pre b loc, l_op l = Linear w f pre (Some b) loc ->
  can_bias_cover_rnd l = covers (Some (shape b)) (shape (q_fbw (l_paq l))) (l_loc l).
Proof. intros l w f pre b loc E. unfold can_bias_cover_rnd. rewrite E. reflexivity. Qed.
Print Assumptions C53_covers_agree.

(** When a bias covers the rounding: a layer without bias never; one with a
    bias iff there is one bitwidth in all, or one for every bias entry in the
    dimension of the channels ... *)
Theorem C53_bias_covers : forall bs qs loc, covers None qs loc = false /\ (covers (Some bs) qs loc = true <-> bias_covers bs qs loc).
Proof. intros. split; [reflexivity|apply covers_bias]. Qed.
Print Assumptions C53_bias_covers.
Example C53_bias_covers_ex : bias_covers [3]%nat [1; 1; 1; 3]%nat (-1) /\ ~ bias_covers [3]%nat [1; 4; 4; 3]%nat (-1).
Proof. rewrite <- !covers_bias. split; [reflexivity|discriminate]. Qed.
(** ... except that for channels first the dimension looked at is the batch
    dimension, which has one bitwidth: several bitwidths are never covered. *)
Theorem C53_channels_first_refuted : exists n qs,
  covers (Some [n]) (1%nat :: n :: qs) 1 = false /\ prodn (1%nat :: n :: qs) = n /\
  forall m rs, covers (Some [m]) (1%nat :: rs) 1 = true -> prodn rs = 1%nat.
Proof.
  exists 2%nat, [1%nat]. split; [reflexivity|]. split; [reflexivity|]. intros m rs H. apply covers_bias in H as (k & _ & [H|[(C & _)|(_ & ones & H & E)]]); [|discriminate|].
  - inversion H. apply prodn_forall. assumption.
  - injection E as _ ->. apply prodn_forall, H.
Qed.
Print Assumptions C53_channels_first_refuted.

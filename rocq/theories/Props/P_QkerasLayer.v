(** C72: QKeras layers in the proxy. *)
From Coq Require Import ZArith QArith Qcanon List Bool String Lia.
From Verif Require Import Base.Num Base.NumFacts Base.Compute Base.Tensor Model.FixedPoint Model.Layers Model.Qkeras Model.Weights
  Model.QkerasLayer Spec.Fixed Spec.Qkeras Spec.Weights Spec.QkerasLayer Proofs.WeightsP Proofs.QkerasLayerP Props.P_Qkeras.
Import ListNotations.
Local Open Scope string_scope.

Lemma act_chain SATm a acts : supported_act SATm a -> to_layers a SATm = Ok acts ->
  forall x y, chain acts x = Ok y <-> activation_means a x y.
Proof.
  destruct a as [|bits i s k al|bits i n u|u al| | |f]; cbn [supported_act activation_means]; intros HS ET x y; try contradiction.
  - injection ET as <-. cbn. split; congruence.
  - destruct HS as (HB & -> & HS). destruct (C57_quantized_bits bits i s k SATm HB HS) as (l & E & H).
    rewrite E in ET. injection ET as <-. apply H.
  - destruct HS as (HB & -> & ->). destruct (C57_quantized_relu bits i SATm HB) as (l1 & l2 & E & H).
    rewrite E in ET. injection ET as <-. apply H.
  - destruct HS as (-> & ->). destruct (C57_binary SATm x y) as (ls & E & H). rewrite E in ET. injection ET as <-. exact H.
  - injection ET as <-. cbn. split; congruence.
Qed.

Lemma rseq_iff (f : Qc -> result Qc) (R : Qc -> Qc -> Prop) : (forall x y, f x = Ok y <-> R x y) ->
  forall xs ys, rseq (map f xs) = Ok ys <-> Forall2 R xs ys.
Proof.
  intros H xs. induction xs as [|x xs IH]; intros ys; cbn [map rseq].
  - split; [intros E; injection E as <-; constructor|]. intros E. inversion E. reflexivity.
  - split.
    + destruct (f x) as [y|] eqn:E1; cbn [rbind]; [|discriminate]. destruct (rseq (map f xs)) as [ys'|] eqn:E2; cbn [rbind]; [|discriminate].
      intros E. injection E as <-. constructor; [apply H; exact E1|]. apply IH. reflexivity.
    + intros F. inversion F as [|? y ? ys' HR HF]; subst. apply H in HR. rewrite HR. cbn [rbind]. apply IH in HF. rewrite HF. reflexivity.
Qed.
Lemma tchain_iff SATm a acts : supported_act SATm a -> to_layers a SATm = Ok acts ->
  forall x y, tchain acts x = Ok y <-> shape y = shape x /\ Forall2 (activation_means a) (data x) (data y).
Proof.
  intros HS ET x y. unfold tchain. assert (R := rseq_iff (chain acts) _ (act_chain SATm a acts HS ET) (data x)). split.
  - destruct (rseq _) as [ys|]; cbn [rbind]; [|discriminate]. intros E. injection E as <-. cbn. split; [reflexivity|]. apply R. reflexivity.
  - intros [E F]. apply R in F. rewrite F. cbn [rbind]. destruct y as [s d]. cbn in *. subst s. reflexivity.
Qed.
Lemma forall2_eq (l l' : list Qc) : Forall2 (activation_means QLinear) l l' <-> l' = l.
Proof.
  split.
  - induction 1 as [|a b l l' E F IH]; [reflexivity|]. cbn in E. subst. reflexivity.
  - intros ->. induction l; constructor; [reflexivity|assumption].
Qed.
Lemma tensor_eq (x y : tensor Qc) : shape y = shape x /\ data y = data x -> x = y.
Proof. destruct x, y. cbn. intros [-> ->]. reflexivity. Qed.

(** C72: a converted layer whose variables are a kernel and possibly a bias computes the
    function of the QKeras layer: its Keras base class with the quantized variables, then
    its activation. *)
Theorem C72_same_function : forall V (lib : string -> option (kclass V)) SATm (l : qlayer V) cls a p,
  NoDup (map fst (q_conf l)) -> NoDup (map fst (q_weights l)) ->
  lib (base_cls_name (q_cls l)) = Some cls -> by_name cls ->
  (forall conf, shared_part (q_conf l) conf ->
     NoDup (map fst (kc_init cls conf (q_input_shape l))) /\
     forall n, In n (map fst (kc_init cls conf (q_input_shape l))) <-> In n (map fst (q_weights l))) ->
  (forall n, In n (map fst (q_weights l)) -> n = "kernel" \/ n = "bias" /\ q_use_bias l = true) ->
  (q_is_activation l && q_quantizer_cls l)%bool = false ->
  match q_activation l with
  | None => a = QLinear
  | Some a' => a = match q_quantizer l with Some q => q | None => a' end
  end -> supported_act SATm a ->
  qlayer_to_proxy_layer lib SATm l = Ok p ->
  forall x y, qproxy_call p x = Ok y <-> qkeras_computes cls l a x y.
Proof.
  intros V lib SATm l cls a p ND NW EL BN HI HW HQ EA HS. unfold qlayer_to_proxy_layer.
  destruct (qlayer_to_keras_layer lib l) as [kl|] eqn:EK; cbn [rbind]; [|discriminate].
  apply (keras_layer_inv lib l kl ND) in EK. destruct EK as (cls' & EL' & EK). rewrite EL in EL'. injection EL' as <-.
  destruct kl as [k|]; [|exfalso; destruct EK as [A B]; rewrite A, B in HQ; discriminate].
  destruct EK as (_ & EC & SP & _ & _ & _ & EN & EW).
  destruct (HI _ SP) as [NI HN].
  assert (CALL : forall x, klayer_call k x = kc_call cls (q_conf l) (effective l) x).
  { intros x. unfold klayer_call. rewrite EC. apply BN.
    - exact (shared_nodup _ _ _ SP ND).
    - exact ND.
    - rewrite EN. exact NI.
    - unfold effective. rewrite map_map. cbn [fst]. exact NW.
    - intros key v NS. rewrite (shared_in _ _ _ SP key v). tauto.
    - intros [n w]. assert (NK : NoDup (map fst (kl_weights k))) by (rewrite EN; exact NI).
      rewrite <- (dlookup_in _ n w NK). rewrite EW. unfold effective. rewrite in_map_iff.
      assert (LW : forall n w, dlookup (q_weights l) n = Some w <-> In (n, w) (q_weights l)) by (intros; apply dlookup_in; exact NW).
      split.
      + destruct (String.eqb_spec n "bias") as [EB|NB].
        * subst n. cbn [andb String.eqb Ascii.eqb Bool.eqb]. destruct (q_use_bias l) eqn:EU.
          -- destruct (dlookup (q_weights l) "bias") as [w0|] eqn:ED.
             ++ intros E. injection E as <-. exists ("bias", w0). split; [reflexivity|]. apply LW. exact ED.
             ++ intros E. exfalso. apply dlookup_none in ED. apply ED. apply HN. apply (dlookup_key _ "bias"). eauto.
          -- intros E. exfalso. assert (H : In "bias" (map fst (q_weights l))) by (apply HN; apply (dlookup_key _ "bias"); eauto).
             apply HW in H. destruct H as [H|[_ H]]; discriminate.
        * cbn [andb]. destruct (String.eqb_spec n "kernel") as [EK2|NK2].
          -- subst n. destruct (dlookup (q_weights l) "kernel") as [w0|] eqn:ED.
             ++ intros E. injection E as <-. exists ("kernel", w0). split; [reflexivity|]. apply LW. exact ED.
             ++ intros E. exfalso. apply dlookup_none in ED. apply ED. apply HN. apply (dlookup_key _ "kernel"). eauto.
          -- intros E. exfalso. assert (H : In n (map fst (q_weights l))) by (apply HN; apply (dlookup_key _ n); eauto).
             apply HW in H. destruct H as [H|[H _]]; contradiction.
      + intros ([n0 w0] & E & I). cbn [fst snd] in E. injection E as <- <-.
        assert (H : In n0 (map fst (q_weights l))) by (apply in_map_iff; exists (n0, w0); split; [reflexivity|exact I]).
        apply LW in I. apply HW in H. destruct H as [->|[-> EU]].
        * cbn [String.eqb Ascii.eqb Bool.eqb andb]. rewrite I. reflexivity.
        * cbn [String.eqb Ascii.eqb Bool.eqb andb]. rewrite EU, I. reflexivity. }
  destruct (q_activation l) as [a'|].
  - rewrite <- EA. destruct (to_layers a SATm) as [acts|] eqn:ET; cbn [rbind]; [|discriminate]. intros EP. injection EP as <-. intros x y. cbn [qproxy_call].
    rewrite CALL. unfold qkeras_computes. destruct (kc_call cls (q_conf l) (effective l) x) as [z|]; cbn [rbind].
    + rewrite (tchain_iff SATm a acts HS ET z y). split; [intros H; exists z; tauto|]. intros (z' & E & H). injection E as <-. exact H.
    + split; [discriminate|]. intros (z & E & _). discriminate.
  - subst a. intros EP. injection EP as <-. intros x y. cbn [qproxy_call]. rewrite CALL. unfold qkeras_computes. split.
    + intros E. exists y. split; [exact E|]. split; [reflexivity|]. apply forall2_eq. reflexivity.
    + intros (z & E & ES & F). apply forall2_eq in F. rewrite E. f_equal. apply tensor_eq. tauto.
Qed.
Print Assumptions C72_same_function.

(** C72: a QActivation with a QKeras quantizer applies that quantizer to every element. *)
Theorem C72_activation_layer : forall V (lib : string -> option (kclass V)) SATm (l : qlayer V) a q p,
  NoDup (map fst (q_conf l)) -> q_is_activation l = true -> q_quantizer_cls l = true ->
  q_activation l = Some a -> q_quantizer l = Some q -> supported_act SATm q ->
  qlayer_to_proxy_layer lib SATm l = Ok p ->
  forall x y, qproxy_call p x = Ok y <-> shape y = shape x /\ Forall2 (activation_means q) (data x) (data y).
Proof.
  intros V lib SATm l a q p ND E1 E2 E3 E4 HS. unfold qlayer_to_proxy_layer.
  destruct (qlayer_to_keras_layer lib l) as [kl|] eqn:EK; cbn [rbind]; [|discriminate].
  apply (keras_layer_inv lib l kl ND) in EK. destruct EK as (cls & EL & EK).
  destruct kl as [k|]; [exfalso; destruct EK as [A _]; rewrite E1, E2 in A; discriminate|].
  rewrite E3, E4. destruct (to_layers q SATm) as [acts|] eqn:ET; cbn [rbind]; [|discriminate]. intros EP. injection EP as <-.
  intros x y. cbn [qproxy_call rbind]. apply (tchain_iff SATm q acts HS ET).
Qed.
Print Assumptions C72_activation_layer.

(** C72: which settings the converted layer gets: all but those that are applied separately;
    a key matching two of the words is an error. *)
Theorem C72_settings : forall V (conf : list (string * V)), NoDup (map fst conf) ->
  (forall conf', strip conf = Ok conf' <-> (forall k, In k (map fst conf) -> ~ ambiguous k) /\ shared_part conf conf') /\
  (strip conf = Raise <-> exists k, In k (map fst conf) /\ ambiguous k).
Proof. intros V conf ND. split; [intros conf'; apply strip_ok; exact ND|apply strip_raise; exact ND]. Qed.
Print Assumptions C72_settings.

(** C72: when a layer is converted. *)
Theorem C72_converts : forall V (lib : string -> option (kclass V)) SATm (l : qlayer V) cls a conf,
  NoDup (map fst (q_conf l)) -> lib (base_cls_name (q_cls l)) = Some cls ->
  (q_is_activation l && q_quantizer_cls l)%bool = false ->
  (forall key, In key (map fst (q_conf l)) -> ~ ambiguous key) -> shared_part (q_conf l) conf ->
  (forall key, In key (map fst conf) -> In key (kc_accepted cls)) ->
  (forall key, In key (kc_required cls) -> In key (map fst conf)) ->
  NoDup (map fst (q_weights l)) -> NoDup (map fst (kc_init cls conf (q_input_shape l))) ->
  (forall n w, In (n, w) (effective l) -> n = "kernel" \/ n = "bias" /\ q_use_bias l = true ->
     exists w0, In (n, w0) (kc_init cls conf (q_input_shape l)) /\ shape w0 = shape w) ->
  q_quantizer l = None -> q_activation l = Some a -> supported_act SATm a ->
  exists p, qlayer_to_proxy_layer lib SATm l = Ok p.
Proof.
  intros V lib SATm l cls a conf ND EL EA HA SP H1 H2 NW NI HW EQ EACT HS.
  assert (W : forall n w b (f : tensor Qc -> tensor Qc), dlookup (q_weights l) n = Some w -> n = "kernel" \/ n = "bias" /\ q_use_bias l = true ->
    (n, f w) = (fun e : string * tensor Qc => (fst e, if String.eqb (fst e) "kernel" then match q_kernel_q l with Some q => q (snd e) | None => snd e end
      else if String.eqb (fst e) "bias" then match q_bias_q l with Some q => q (snd e) | None => snd e end else snd e)) (n, w) -> b = true ->
    exists w0, dlookup (kc_init cls conf (q_input_shape l)) n = Some w0 /\ shape w0 = shape (f w)).
  { intros n w b f E HN EF _. destruct (HW n (f w)) as (w0 & I & S); [|exact HN|].
    - unfold effective. apply in_map_iff. exists (n, w). split; [symmetry; exact EF|]. apply dlookup_in; assumption.
    - exists w0. split; [apply dlookup_in; assumption|exact S]. }
  destruct (keras_layer_total lib l cls conf ND EL EA HA SP H1 H2) as [k EK].
  - intros w E. apply (W "kernel" w true (copy_q (q_kernel_q l)) E); [left; reflexivity|reflexivity|reflexivity].
  - intros w E EU. apply (W "bias" w true (copy_q (q_bias_q l)) E); [right; split; [reflexivity|exact EU]|reflexivity|reflexivity].
  - unfold qlayer_to_proxy_layer. rewrite EK. cbn [rbind]. rewrite EACT, EQ. destruct (to_layers a SATm) eqn:ET; cbn [rbind]; [eauto|].
    exfalso. apply C57_rejected in ET. destruct a as [|bits i s kn al|bits i n u|u al| | |f]; cbn in HS, ET; try contradiction.
    + destruct HS as (_ & -> & HS). destruct ET as [ET|[A B]]; [contradiction|]. destruct HS as [[HS _]|HS]; contradiction.
    + destruct HS as (-> & _). discriminate.
Qed.
Print Assumptions C72_converts.

(** C72: what a conversion needs. *)
Theorem C72_needs : forall V (lib : string -> option (kclass V)) SATm (l : qlayer V) p,
  NoDup (map fst (q_conf l)) -> qlayer_to_proxy_layer lib SATm l = Ok p ->
  (q_is_activation l && q_quantizer_cls l)%bool = false ->
  exists cls, lib (base_cls_name (q_cls l)) = Some cls /\
    (forall key, In key (map fst (q_conf l)) -> ~ ambiguous key /\ (separate key \/ In key (kc_accepted cls))) /\
    (forall key, In key (kc_required cls) -> In key (map fst (q_conf l)) /\ ~ separate key).
Proof.
  intros V lib SATm l p ND EP HQ. unfold qlayer_to_proxy_layer in EP.
  destruct (qlayer_to_keras_layer lib l) as [kl|] eqn:EK; cbn [rbind] in EP; [|discriminate].
  apply (keras_layer_inv lib l kl ND) in EK. destruct EK as (cls & EL & EK). exists cls. split; [exact EL|].
  destruct kl as [k|]; [|exfalso; destruct EK as [A B]; rewrite A, B in HQ; discriminate].
  destruct EK as (_ & _ & SP & HA & H1 & H2 & _). split.
  - intros key I. split; [exact (HA key I)|]. destruct (separate_dec key) as [S|N]; [left; exact S|]. right. apply H1. apply (shared_keys _ _ _ SP). tauto.
  - intros key I. apply H2 in I. apply (shared_keys _ _ _ SP) in I. exact I.
Qed.
Print Assumptions C72_needs.

(** C72: variables with other names are not copied: the converted layer has the values its
    class initialises them with. *)
Theorem C72_other_variables : forall V (lib : string -> option (kclass V)) (l : qlayer V) k n,
  NoDup (map fst (q_conf l)) -> qlayer_to_keras_layer lib l = Ok (Some k) -> n <> "kernel" -> n <> "bias" ->
  dlookup (kl_weights k) n = dlookup (kc_init (kl_class k) (kl_conf k) (q_input_shape l)) n.
Proof.
  intros V lib l k n ND EK N1 N2. apply (keras_layer_inv lib l (Some k) ND) in EK.
  destruct EK as (cls & _ & _ & EC & _ & _ & _ & _ & _ & EW). rewrite EW, EC.
  destruct (String.eqb_spec n "bias"); [contradiction|]. destruct (String.eqb_spec n "kernel"); [contradiction|]. reflexivity.
Qed.
Print Assumptions C72_other_variables.

(** A class with one input and one output, computing variable * x (+ bias). *)
Definition scale_call (var : string) (ws : list (string * tensor Qc)) (x : tensor Qc) : result (tensor Qc) :=
  match dlookup ws var with
  | Some k => let b := match dlookup ws "bias" with Some b => nth 0 (data b) (qz 0) | None => qz 0 end in
              Ok (mkT (shape x) (map (fun v => nth 0 (data k) (qz 0) * v + b)%Qc (data x)))
  | None => Raise
  end.
Definition scale_class (var : string) : kclass string := mkKC ["name"; "units"; "use_bias"] ["units"]
  (fun _ _ => [(var, mkT [1%nat] [qz 1]); ("bias", mkT [1%nat] [qz 0])]) (fun _ ws x => scale_call var ws x).
Definition lib1 (s : string) : option (kclass string) :=
  if String.eqb s "Dense" then Some (scale_class "kernel")
  else if String.eqb s "DepthwiseConv2D" then Some (scale_class "depthwise_kernel") else None.
Lemma scale_by_name var : by_name (scale_class var).
Proof.
  intros c c' ws ws' x _ _ N N' _ H.
  assert (E : forall n, dlookup ws n = dlookup ws' n).
  { intros n. destruct (dlookup ws n) as [w|] eqn:E1.
    - symmetry. apply dlookup_in; [exact N'|]. apply H. apply dlookup_in; assumption.
    - destruct (dlookup ws' n) as [w|] eqn:E2; [|reflexivity]. exfalso. apply dlookup_in in E2; [|exact N']. apply H in E2. apply dlookup_in in E2; [congruence|exact N]. }
  cbn [kc_call scale_class]. unfold scale_call. rewrite !E. reflexivity.
Qed.
Definition conf1 : list (string * string) :=
  [("name", "d"); ("units", "1"); ("activation", "a"); ("kernel_quantizer", "q"); ("use_bias", "True"); ("kernel_initializer", "i"); ("bias_constraint", "c")].
Definition qlayer1 (cls var : string) (kernel : Qc) : qlayer string :=
  mkQL cls conf1 [1%nat] [(var, mkT [1%nat] [kernel]); ("bias", mkT [1%nat] [qz 1])] true
    (Some (tmap (fun w => qz (qfloor w)))) None false (Some (QRelu 4 2 (qz 0) false)) None false.

(** C72: the hypotheses of C72_same_function are met by a dense layer, and its proxy computes with
    the quantized kernel: relu4(2 * 3/8 + 1) for the kernel 5/2. *)
Example C72_same_function_ex : exists p, qlayer_to_proxy_layer lib1 "WRAP" (qlayer1 "QDense" "kernel" (Q2Qc (5 # 2))) = Ok p /\
  match qproxy_call p (mkT [1%nat] [Q2Qc (3 # 8)]) with Ok y => map this (data y) = [(7 # 4)%Q] | Raise => False end /\
  forall x y, qproxy_call p x = Ok y <-> qkeras_computes (scale_class "kernel") (qlayer1 "QDense" "kernel" (Q2Qc (5 # 2))) (QRelu 4 2 (qz 0) false) x y.
Proof.
  set (l := qlayer1 "QDense" "kernel" (Q2Qc (5 # 2))).
  destruct (qlayer_to_proxy_layer lib1 "WRAP" l) as [p|] eqn:E; [|vm_compute in E; discriminate].
  exists p. split; [reflexivity|]. split.
  - vm_compute in E. injection E as <-. vm_compute. reflexivity.
  - apply (C72_same_function string lib1 "WRAP" l (scale_class "kernel") (QRelu 4 2 (qz 0) false) p).
    + cbn. repeat (constructor; [cbn [In]; intros H; decompose [or] H; try discriminate; try contradiction|]). constructor.
    + cbn. repeat (constructor; [cbn [In]; intros H; decompose [or] H; try discriminate; try contradiction|]). constructor.
    + reflexivity.
    + apply scale_by_name.
    + intros conf _. split; [|intros n; reflexivity].
      cbn. repeat (constructor; [cbn [In]; intros H; decompose [or] H; try discriminate; try contradiction|]). constructor.
    + cbn. intros n [<-|[<-|[]]]; [left; reflexivity|right; split; reflexivity].
    + reflexivity.
    + reflexivity.
    + cbn. split; [lia|split; reflexivity].
    + exact E.
Qed.

(** C72: a layer whose kernel has another name (QDepthwiseConv2D, QBatchNormalization, ...) is
    converted without complaint into one with the initial values. *)
Theorem C72_other_variables_refuted : exists (l : qlayer string) cls a p x y,
  lib1 (base_cls_name (q_cls l)) = Some cls /\ by_name cls /\ q_activation l = Some a /\ supported_act "SAT" a /\
  qlayer_to_proxy_layer lib1 "SAT" l = Ok p /\ qproxy_call p x = Ok y /\ ~ qkeras_computes cls l a x y.
Proof.
  exists (mkQL "QDepthwiseConv2D" conf1 [1%nat] [("depthwise_kernel", mkT [1%nat] [qz 3]); ("bias", mkT [1%nat] [qz 1])] true
            None None false (Some QLinear) None false), (scale_class "depthwise_kernel"), QLinear.
  do 3 eexists. split; [reflexivity|]. split; [apply scale_by_name|]. split; [reflexivity|]. split; [exact I|]. split; [reflexivity|].
  instantiate (2 := mkT [1%nat] [qz 2]). split; [reflexivity|].
  intros (z & E & _ & F). apply forall2_eq in F. injection E as <-. apply (f_equal (map this)) in F. vm_compute in F. discriminate.
Qed.
Print Assumptions C72_other_variables_refuted.

(** C72: the function the user gets does not depend on such a kernel at all. *)
Example C72_other_variables_ex : forall k1 k2 : Qc,
  qlayer_to_proxy_layer lib1 "SAT" (qlayer1 "QDepthwiseConv2D" "depthwise_kernel" k1) =
  qlayer_to_proxy_layer lib1 "SAT" (qlayer1 "QDepthwiseConv2D" "depthwise_kernel" k2).
Proof. reflexivity. Qed.

Example C72_settings_ex : strip conf1 = Ok [("name", "d"); ("units", "1"); ("use_bias", "True")] /\
  strip (("activation_quantizer", "q") :: conf1) = Raise.
Proof. split; reflexivity. Qed.

Example C72_activation_layer_ex : exists p,
  qlayer_to_proxy_layer (fun s => if String.eqb s "Activation" then Some (scale_class "kernel") else None) "SAT"
    (mkQL "QActivation" [("name", "a"); ("activation", "q")] [2%nat] [] false None None true
       (Some (QBits 4 1 0 true (ANum (qz 1)))) (Some (QBits 4 1 0 true (ANum (qz 1)))) true) = Ok p /\
  match qproxy_call p (mkT [2%nat] [Q2Qc (11 # 8); qz (-5)]) with Ok y => map this (data y) = [(3 # 2)%Q; (-2)%Q] | Raise => False end.
Proof. eexists. split; [reflexivity|]. vm_compute. reflexivity. Qed.

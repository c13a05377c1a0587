(** Property C77: the activation argument of dense and convolution layers, and their proxies
    (src/HGQ/layers/base.py:57-64, 89-91, src/HGQ/proxy/convert.py:240-243, 317-327). *)
From Coq Require Import ZArith QArith Qcanon List Bool String Ascii Lia.
From Verif Require Import Base.Num Base.NumFacts Base.Tensor Base.Compute Model.FixedPoint Model.Quantizer Model.Layers Model.Activation
  Spec.Fixed Spec.Quant Spec.Layer Spec.Activation Proofs.FixedPointP Proofs.TensorP Proofs.QuantizerP Proofs.RecordP Proofs.BitsP
  Proofs.SampleP Proofs.ProxyElemP Proofs.LayersP Proofs.ActivationP Props.P_Layers.
Import ListNotations.
Local Open Scope string_scope.
Local Open Scope Z_scope.

(** C77: the constructor accepts exactly no activation, and a name or a function's __name__ that is relu or linear up to the case of its letters. *)
Theorem C77_accepts : forall a, check_activation false a = Ok tt <->
  a = NoActivation \/
  exists s, (a = AName s \/ exists f, a = ACallable f /\ f_name f = Some s) /\ (same_letters s "relu" \/ same_letters s "linear").
Proof.
  intros a. destruct a as [| s | f |]; cbn [check_activation].
  - split; [left; reflexivity | reflexivity].
  - rewrite known. split; [intros H; right; exists s; auto|].
    intros [H | [s' [[H | [f [H _]]] K]]]; try discriminate. injection H as <-. exact K.
  - destruct (f_name f) as [s|] eqn:E.
    + rewrite known. split; [intros H; right; exists s; split; [right; exists f|]; auto|].
      intros [H | [s' [[H | [f' [H E']]] K]]]; try discriminate. injection H as <-. rewrite E in E'. injection E' as <-. exact K.
    + split; [discriminate|]. intros [H | [s' [[H | [f' [H E']]] K]]]; try discriminate. injection H as <-. congruence.
  - split; [discriminate|]. intros [H | [s' [[H | [f' [H E']]] K]]]; discriminate.
Qed.
Print Assumptions C77_accepts.

(** HActivation layers take anything. *)
Theorem C77_hactivation : forall a, check_activation true a = Ok tt.
Proof. intros [| s | f |]; reflexivity. Qed.
Print Assumptions C77_hactivation.

Definition named (s : string) (f : Qc -> Qc) : actf := mkAct (Some s) OtherFunction f.
Example C77_accepts_ex :
  check_activation false (AName "ReLU") = Ok tt /\ check_activation false (AName "tanh") = Raise /\
  check_activation false (ACallable (named "Linear" (fun x => x))) = Ok tt /\
  check_activation false (ACallable (named "relu6" relu)) = Raise /\
  check_activation false (ACallable (mkAct None OtherFunction relu)) = Raise /\
  check_activation false AObject = Raise /\ check_activation true (AName "tanh") = Ok tt /\
  same_letters "ReLU" "relu" /\ ~ same_letters "relu6" "relu".
Proof.
  repeat split; try reflexivity; [apply (lower_same "ReLU" "relu" small_relu); reflexivity|].
  intros H. apply (lower_same "relu6" "relu" small_relu) in H. discriminate.
Qed.

(** C77: for a calibrated layer whose values before the activation stay inside the recorded range, the proxy gives what the layer
    gives exactly when the activation is the object tf.keras.activations.relu or changes none of these values. *)
Theorem C77_proxy : forall pw ln2 f l S, genuine f -> layer_ok l -> l_relu l = relu_act f ->
  bits_clipped (l_paq l) -> calibrated (l_paq l) -> S = "WRAP" \/ S = "SAT" ->
  exists p, to_proxy pw ln2 l S = Ok p /\ forall xs record nk nb na zs l1,
    hforward pw ln2 (no_relu l) xs false record nk nb na = Ok (zs, l1) ->
    Forall (in_range (l_paq l) (l_out l)) zs ->
    exists ys l2 ps, act_forward pw ln2 f l xs false record nk nb na = Ok (ys, l2) /\ pcall p xs = Ok ps /\
      ys = map (map (f_val f)) zs /\ (f_obj f <> KerasRelu -> ps = zs) /\
      (ys = ps <-> f_obj f = KerasRelu \/ forall z x, In z zs -> In x z -> f_val f x = x).
Proof.
  intros pw ln2 f l S G HL HR HB HC HS. destruct (layer_proxy pw ln2 l S HL HB HC HS) as [p [EP H]]. exists p. split; [exact EP|].
  intros xs record nk nb na zs l1 E R. destruct (H xs) as [_ H']. specialize (H' record nk nb na zs l1 E R). rewrite HR in H'.
  destruct (act_forward_ok pw ln2 f l xs false record nk nb na zs l1 E) as [l2 E2].
  exists (map (map (f_val f)) zs), l2, (if relu_act f then map (map relu) zs else zs).
  split; [exact E2|]. split; [exact H'|]. split; [reflexivity|].
  destruct (f_obj f) eqn:O; unfold relu_act; rewrite O.
  - split; [congruence|]. split; [auto|]. intros _. apply genuine_map; [exact G|]. unfold relu_act. rewrite O. reflexivity.
  - split; [reflexivity|]. rewrite map_fix. split.
    + intros K. right. intros z x Hz Hx. exact (proj1 (map_fix _ _ z) (K z Hz) x Hx).
    + intros [K | K]; [discriminate|]. intros z Hz. apply map_fix. intros x Hx. exact (K z x Hz Hx).
Qed.
Print Assumptions C77_proxy.

(** C77: None, "relu" and "linear" are safe. *)
Theorem C77_documented : forall pw ln2 env linear a f l S,
  (forall x, f_val linear x = x) -> f_obj linear = OtherFunction -> env "linear" = Some linear ->
  (forall r, env "relu" = Some r -> f_obj r = KerasRelu) -> genuine f ->
  a = NoActivation \/ a = AName "relu" \/ a = AName "linear" -> keras_get env linear a = Ok f ->
  layer_ok l -> l_relu l = relu_act f -> bits_clipped (l_paq l) -> calibrated (l_paq l) -> S = "WRAP" \/ S = "SAT" ->
  check_activation false a = Ok tt /\
  exists p, to_proxy pw ln2 l S = Ok p /\ forall xs record nk nb na zs l1,
    hforward pw ln2 (no_relu l) xs false record nk nb na = Ok (zs, l1) -> Forall (in_range (l_paq l) (l_out l)) zs ->
    exists ys l2, act_forward pw ln2 f l xs false record nk nb na = Ok (ys, l2) /\ pcall p xs = Ok ys.
Proof.
  intros pw ln2 env linear a f l S I O EL ER G HA EG HL HR HB HC HS.
  split; [destruct HA as [-> | [-> | ->]]; reflexivity|].
  destruct (C77_proxy pw ln2 f l S G HL HR HB HC HS) as [p [EP H]]. exists p. split; [exact EP|].
  intros xs record nk nb na zs l1 E R. destruct (H xs record nk nb na zs l1 E R) as [ys [l2 [ps [E1 [E2 [_ [_ E3]]]]]]].
  exists ys, l2. split; [exact E1|]. rewrite E2. f_equal. symmetry. apply E3. destruct HA as [-> | [-> | ->]]; cbn in EG.
  - injection EG as <-. right. intros. apply I.
  - left. destruct (env "relu") as [r|] eqn:K; [|discriminate]. injection EG as <-. apply ER. reflexivity.
  - rewrite EL in EG. injection EG as <-. right. intros. apply I.
Qed.
Print Assumptions C77_documented.

(** The layer of C31 with the object tf.keras.activations.relu: layer and proxy agree. *)
Definition keras_relu : actf := mkAct (Some "relu") KerasRelu relu.
Example C77_proxy_ex : forall pw ln2, genuine keras_relu /\
  layer_ok (ex_cal true 2) /\ bits_clipped (l_paq (ex_cal true 2)) /\ calibrated (l_paq (ex_cal true 2)) /\
  flat (rbind (act_forward pw ln2 keras_relu (ex_cal true 2) ex_data false false zn zn zn) (fun yl => Ok (fst yl)))
    = Ok [Q2Qc (5 # 4); qz 0; qz 0; Q2Qc (3 # 2); Q2Qc (5 # 2); qz 2] /\
  flat (rbind (to_proxy pw ln2 (ex_cal true 2) "WRAP") (fun p => pcall p ex_data))
    = Ok [Q2Qc (5 # 4); qz 0; qz 0; Q2Qc (3 # 2); Q2Qc (5 # 2); qz 2].
Proof.
  intros pw ln2. split; [intros _ x; reflexivity|]. destruct (ex_cal_ok true 2) as [A [B C]].
  split; [exact A|]. split; [exact B|]. split; [exact C|]. split; qvm.
Qed.

(** C77 (finding): another function called relu that computes relu, such as tf.nn.relu, is accepted, and the layer applies it; but
    _relu_act compares with the one object tf.keras.activations.relu (base.py:91), and the proxy, which knows no other activation
    (convert.py:240-243, 321-327), silently leaves it out. *)
Definition tf_nn_relu : actf := mkAct (Some "relu") OtherFunction relu.
Theorem C77_proxy_refuted : forall pw ln2,
  check_activation false (ACallable tf_nn_relu) = Ok tt /\ (forall x, f_val tf_nn_relu x = qmax x (qz 0)) /\
  l_relu (ex_cal false 2) = relu_act tf_nn_relu /\
  layer_ok (ex_cal false 2) /\ bits_clipped (l_paq (ex_cal false 2)) /\ calibrated (l_paq (ex_cal false 2)) /\
  flat (rbind (act_forward pw ln2 tf_nn_relu (ex_cal false 2) ex_data false false zn zn zn) (fun yl => Ok (fst yl)))
    = Ok [Q2Qc (5 # 4); qz 0; qz 0; Q2Qc (3 # 2); Q2Qc (5 # 2); qz 2] /\
  flat (rbind (to_proxy pw ln2 (ex_cal false 2) "WRAP") (fun p => pcall p ex_data))
    = Ok [Q2Qc (5 # 4); qz 0; Q2Qc (-1 # 4); Q2Qc (3 # 2); Q2Qc (5 # 2); qz 2].
Proof.
  intros pw ln2. split; [reflexivity|]. split; [intros x; reflexivity|]. split; [reflexivity|].
  destruct (ex_cal_ok false 2) as [A [B C]]. split; [exact A|]. split; [exact B|]. split; [exact C|]. split; qvm.
Qed.
Print Assumptions C77_proxy_refuted.

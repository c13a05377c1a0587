(** Proofs about Model/Activation.v. *)
From Coq Require Import ZArith QArith Qcanon List Bool String Ascii Lia.
From Verif Require Import Base.Num Base.NumFacts Base.Tensor Model.FixedPoint Model.Quantizer Model.Layers Model.Activation
  Spec.Fixed Spec.Quant Spec.Layer Spec.Activation Proofs.FixedPointP Proofs.TensorP Proofs.QuantizerP Proofs.RecordP Proofs.BitsP
  Proofs.SampleP Proofs.ProxyElemP Proofs.LayersP.
Import ListNotations.
Local Open Scope Z_scope.

Definition small (t : string) : Prop := forall c, In c (list_ascii_of_string t) -> ~ (65 <= nat_of_ascii c <= 90)%nat.

Lemma lower_char_up c : (65 <= nat_of_ascii c <= 90)%nat -> nat_of_ascii (lower_char c) = (nat_of_ascii c + 32)%nat.
Proof.
  intros H. unfold lower_char. replace (Nat.leb 65 _ && Nat.leb _ 90) with true
    by (symmetry; apply andb_true_intro; split; apply Nat.leb_le; lia).
  apply nat_ascii_embedding. lia.
Qed.
Lemma lower_char_id c : ~ (65 <= nat_of_ascii c <= 90)%nat -> lower_char c = c.
Proof.
  intros H. unfold lower_char. destruct (Nat.leb 65 _ && Nat.leb _ 90) eqn:E; [|reflexivity].
  apply andb_prop in E. destruct E as [E1 E2]. apply Nat.leb_le in E1. apply Nat.leb_le in E2. lia.
Qed.
Lemma ascii_eq a b : nat_of_ascii a = nat_of_ascii b -> a = b.
Proof. intros H. rewrite <- (ascii_nat_embedding a), <- (ascii_nat_embedding b), H. reflexivity. Qed.

Lemma lower_same s t : small t -> lower s = t <-> same_letters s t.
Proof.
  revert t. induction s as [|c s IH]; intros t Ht; split.
  - cbn. intros <-. constructor.
  - intros H. inversion H. reflexivity.
  - cbn. intros <-. destruct (le_lt_dec 65 (nat_of_ascii c)), (le_lt_dec (nat_of_ascii c) 90).
    + apply same_upper; [split; [lia | apply lower_char_up; lia]|]. apply IH; [|reflexivity]. intros x Hx. apply Ht. right. exact Hx.
    + rewrite lower_char_id by lia. apply same_char. apply IH; [|reflexivity]. intros x Hx. apply Ht. right. exact Hx.
    + rewrite lower_char_id by lia. apply same_char. apply IH; [|reflexivity]. intros x Hx. apply Ht. right. exact Hx.
    + rewrite lower_char_id by lia. apply same_char. apply IH; [|reflexivity]. intros x Hx. apply Ht. right. exact Hx.
  - intros H. inversion H as [| c' s' t' H' | u c' s' t' [U1 U2] H']; subst; cbn.
    + rewrite lower_char_id by (apply Ht; left; reflexivity). f_equal. apply IH; [|exact H']. intros x Hx. apply Ht. right. exact Hx.
    + f_equal; [apply ascii_eq; rewrite U2; apply lower_char_up; lia|].
      apply IH; [|exact H']. intros x Hx. apply Ht. right. exact Hx.
Qed.
Lemma small_relu : small "relu". Proof. intros c Hc. cbn in Hc. intuition (subst; cbn in *; lia). Qed.
Lemma small_linear : small "linear". Proof. intros c Hc. cbn in Hc. intuition (subst; cbn in *; lia). Qed.

Lemma known s : (if existsb (String.eqb (lower s)) ["relu"; "linear"]%string then Ok tt else Raise) = Ok tt
  <-> same_letters s "relu" \/ same_letters s "linear".
Proof.
  rewrite <- (lower_same s "relu" small_relu), <- (lower_same s "linear" small_linear). cbn [existsb].
  destruct (String.eqb_spec (lower s) "relu"), (String.eqb_spec (lower s) "linear"); cbn; split; intros H; try discriminate; try tauto; try reflexivity.
Qed.

Lemma map_fix (A : Type) (g : A -> A) (l : list A) : map g l = l <-> forall x, In x l -> g x = x.
Proof.
  induction l as [|a l IH]; cbn; [intuition|]. split.
  - intros H. injection H as H1 H2. intros x [<- | Hx]; [exact H1|]. apply IH; assumption.
  - intros H. rewrite (H a (or_introl eq_refl)). f_equal. apply IH. intros x Hx. apply H. right. exact Hx.
Qed.

Lemma act_forward_ok pw ln2 f l xs training record nk nb na zs l1 :
  hforward pw ln2 (no_relu l) xs training record nk nb na = Ok (zs, l1) ->
  exists l2, act_forward pw ln2 f l xs training record nk nb na = Ok (map (map (f_val f)) zs, l2).
Proof.
  unfold hforward, act_forward. rewrite preact_no_relu. cbn [no_relu l_paq l_out l_relu].
  destruct (pre_activation _ _ _ _ _ _ _) as [zo|]; [|discriminate]. cbn [rbind].
  destruct (call _ _ _ _ _ _ _) as [yq|]; [|discriminate]. cbn [rbind]. intros E. injection E as <- _. eexists. reflexivity.
Qed.

Lemma relu_max x : relu x = qmax x (qz 0).
Proof. unfold relu. qcases; reflexivity. Qed.

Lemma genuine_map f zs : genuine f -> relu_act f = true -> map (map (f_val f)) zs = map (map relu) zs.
Proof.
  intros G R. unfold relu_act in R. destruct (f_obj f) eqn:E; [|discriminate].
  apply map_ext. intros z. apply map_ext. intros x. rewrite relu_max. apply G, E.
Qed.

(** Deciding closed equalities on numbers, lists and tensors of numbers by
    computation (canonical rationals carry a proof, so one compares the
    underlying fractions). *)
From Coq Require Import ZArith QArith Qcanon List Bool.
From Verif Require Import Base.Num Base.NumFacts Base.Tensor.
Import ListNotations.

Lemma this_inj (a b : Qc) : this a = this b -> a = b.
Proof. intros H. apply qc_eq. rewrite H. reflexivity. Qed.
Lemma map_this_inj (a b : list Qc) : map this a = map this b -> a = b.
Proof.
  revert b. induction a as [|x a IH]; intros [|y b]; cbn; intros H; try discriminate; [reflexivity|].
  injection H as H1 H2. f_equal; [apply this_inj; assumption|apply IH; assumption].
Qed.
Lemma map_map_this_inj (a b : list (list Qc)) : map (map this) a = map (map this) b -> a = b.
Proof.
  revert b. induction a as [|x a IH]; intros [|y b]; cbn; intros H; try discriminate; [reflexivity|].
  injection H as H1 H2. f_equal; [apply map_this_inj; assumption|apply IH; assumption].
Qed.
Definition rmap {A B} (f : A -> B) (x : result A) : result B :=
  match x with Ok a => Ok (f a) | Raise => Raise end.
Lemma rmap_inj {A B} (f : A -> B) : (forall a b, f a = f b -> a = b) ->
  forall x y, rmap f x = rmap f y -> x = y.
Proof. intros I [a|] [b|]; cbn; intros H; try discriminate; [|reflexivity]. injection H as H. f_equal; auto. Qed.
Definition tthis (t : tensor Qc) : list nat * list Q := (shape t, map this (data t)).
Lemma tthis_inj a b : tthis a = tthis b -> a = b.
Proof. destruct a, b; unfold tthis; cbn. intros H. injection H as -> H. f_equal. apply map_this_inj, H. Qed.
Definition othis (x : option Qc) : option Q := match x with Some a => Some (this a) | None => None end.
Lemma othis_inj a b : othis a = othis b -> a = b.
Proof. destruct a, b; cbn; intros H; try discriminate; [|reflexivity]. injection H as H. f_equal. apply this_inj, H. Qed.
Definition ethis (x : ext) : option (option Q) := match x with Fin a => Some (Some (this a)) | NegInf => None | PosInf => Some None end.
Lemma ethis_inj a b : ethis a = ethis b -> a = b.
Proof. destruct a, b; cbn; intros H; try discriminate; try reflexivity. injection H as H. f_equal. apply this_inj, H. Qed.

Ltac qvm :=
  intros; cbv zeta;
  repeat match goal with |- _ /\ _ => split end;
  match goal with
  | |- @eq Qc _ _ => apply this_inj
  | |- @eq (list Qc) _ _ => apply map_this_inj
  | |- @eq (list (list Qc)) _ _ => apply map_map_this_inj
  | |- @eq (tensor Qc) _ _ => apply tthis_inj
  | |- @eq (option Qc) _ _ => apply othis_inj
  | |- @eq ext _ _ => apply ethis_inj
  | |- @eq (result Qc) _ _ => apply (rmap_inj this this_inj)
  | |- @eq (result (list Qc)) _ _ => apply (rmap_inj (map this) map_this_inj)
  | |- @eq (result (tensor Qc)) _ _ => apply (rmap_inj tthis tthis_inj)
  | |- _ => idtac
  end; vm_compute; reflexivity.

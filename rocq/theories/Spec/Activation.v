(** Vocabulary for activation arguments. *)
From Coq Require Import ZArith Qcanon List String Ascii.
From Verif Require Import Base.Num Model.Layers Model.Activation.

(** Two strings that differ at most in the case of their (ASCII) letters. *)
Definition upper_of (u c : ascii) : Prop := (65 <= nat_of_ascii u <= 90 /\ nat_of_ascii c = nat_of_ascii u + 32)%nat.
Inductive same_letters : string -> string -> Prop :=
| same_empty : same_letters EmptyString EmptyString
| same_char c s t : same_letters s t -> same_letters (String c s) (String c t)
| same_upper u c s t : upper_of u c -> same_letters s t -> same_letters (String u s) (String c t).

(** The object tf.keras.activations.relu computes the maximum with 0. *)
Definition genuine (f : actf) : Prop := f_obj f = KerasRelu -> forall x, f_val f x = qmax x (qz 0).

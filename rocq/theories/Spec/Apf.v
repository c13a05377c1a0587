(** Vocabulary for type strings: decimal numerals, blanks and suffixes,
    described on character codes. *)
From Coq Require Import ZArith List String Ascii.
Import ListNotations.
Open Scope Z_scope.

Definition code_of (c : ascii) : Z := Z.of_N (N_of_ascii c).
Definition blank (c : ascii) : Prop := 9 <= code_of c <= 13 \/ 28 <= code_of c <= 32.
Definition digit (c : ascii) : Prop := 48 <= code_of c <= 57.
(** Characters allowed after the two numbers: letters, digits, underscore,
    comma, blanks. *)
Definition suffix_char (c : ascii) : Prop :=
  blank c \/ digit c \/ 65 <= code_of c <= 90 \/ 97 <= code_of c <= 122 \/ code_of c = 95 \/ code_of c = 44.
(** Letters, digits and underscores only. *)
Definition word_char (c : ascii) : Prop :=
  digit c \/ 65 <= code_of c <= 90 \/ 97 <= code_of c <= 122 \/ code_of c = 95.

Fixpoint all_chars (P : ascii -> Prop) (s : string) : Prop :=
  match s with EmptyString => True | String c s' => P c /\ all_chars P s' end.

(** The number written by a string of digits. *)
Inductive numeral : string -> Z -> Prop :=
| num_one : forall c, digit c -> numeral (String c EmptyString) (code_of c - 48)
| num_snoc : forall s z c, numeral s z -> digit c -> numeral (s ++ String c EmptyString) (10 * z + (code_of c - 48)).

(** s is a type string "[u]fixed<b,i...>..." with these numbers. *)
Definition type_string (s : string) (unsigned : bool) (b i : Z) : Prop :=
  exists (w1 w2 w3 w4 db di : string) (n : Z) (suf rest : string) (neg : bool),
    s = (w1 ++ (if unsigned then "u" else "") ++ "fixed<" ++ w2 ++ db ++ w3 ++ "," ++ w4 ++ (if neg then "-" else "") ++ di ++ suf ++ ">" ++ rest)%string /\
    all_chars blank w1 /\ all_chars blank w2 /\ all_chars blank w3 /\ all_chars blank w4 /\ all_chars suffix_char suf /\
    (forall c r, suf = String c r -> ~ digit c) /\
    numeral db b /\ numeral di n /\ i = (if neg then - n else n).

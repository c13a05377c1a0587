(** Specification vocabulary for weight names. *)
From Coq Require Import List String Ascii.
Local Open Scope string_scope.

Definition substring (sub s : string) : Prop := exists a b, s = a ++ sub ++ b.
Definition has_char (c : ascii) (s : string) : Prop := substring (String c "") s.

(** base is the part of name behind its last slash. *)
Definition basename (name base : string) : Prop :=
  ~ has_char "/" base /\ (name = base \/ exists p, name = p ++ "/" ++ base).

(** The name a weight is looked up by: without the layer part, with an index. *)
Definition lookup_name (name r : string) : Prop :=
  exists base, basename name base /\ (has_char ":" base /\ r = base \/ ~ has_char ":" base /\ r = base ++ ":0").

(** The first weight whose name contains r. *)
Definition first_match {A} (ws : list (string * A)) (r : string) (v : A) : Prop :=
  exists ws1 n ws2, ws = (ws1 ++ (n, v) :: ws2)%list /\ substring r n /\ forall w, In w ws1 -> ~ substring r (fst w).
Definition no_match {A} (ws : list (string * A)) (r : string) : Prop := forall w, In w ws -> ~ substring r (fst w).

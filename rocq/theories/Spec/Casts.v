(** Composition of casts and accumulation in a type, independent of the model. *)
From Coq Require Import ZArith Qcanon List.
From Verif Require Import Base.Num.
Import ListNotations.
Local Open Scope Z_scope.

(** First f, then g. *)
Definition after (g f : Qc -> result Qc) (x : Qc) : result Qc := rbind (f x) g.
(** Adding up [vs] in a register which is cast after every addition. *)
Fixpoint accumulate (cast : Qc -> result Qc) (r : Qc) (vs : list Qc) : result Qc :=
  match vs with
  | [] => Ok r
  | v :: vs => rbind (cast (r + v)%Qc) (fun r => accumulate cast r vs)
  end.
(** The sum without a register. *)
Definition total (vs : list Qc) : Qc := fold_right Qcplus (qz 0) vs.

(** Vocabulary for C81: which arguments belong to which class, and which axes a
    skip_dims setting merges. *)
From Coq Require Import ZArith List Bool String.
From Verif Require Import Model.Conf Model.Serial.
Import ListNotations.
Open Scope Z_scope.

(** The HGQ arguments of a class (base.py:44, 55; dense.py:26; conv.py:38;
    batchnorm_base.py:11-27). *)
Definition argument_of (c : cls) (key : string) : Prop :=
  In key ["kq_conf"; "paq_conf"; "beta"; "do_adapt_kernel_bits"]%string \/
  (key = "parallel_factor"%string /\ In c [HDense; HConv; HDenseBN; HConvBN]) \/
  (In key ["momentum"; "epsilon"; "center"; "scale"]%string /\ In c [HDenseBN; HConvBN]).

(** Axis number z of n axes, counted from the end if negative, is axis m. *)
Definition axis (n : nat) (z : Z) (m : nat) : Prop := z = Z.of_nat m \/ z = Z.of_nat m - Z.of_nat n.
(** Axis m of n is merged (quantizer.py:83-95). *)
Definition merged (sd : pval) (n m : nat) : Prop :=
  match sd with
  | VStr s =>
    s = "all"%string \/ (s = "batch"%string /\ m = 0%nat) \/ (s = "except_last"%string /\ (S m < n)%nat) \/ (s = "except_1st"%string /\ m <> 1%nat)
  | VInts l => exists z, In z l /\ axis n z m
  | _ => False
  end.
(** The widths of a quantizer for tensors of the given shape (None: the batch
    axis): one per element, shared along the merged axes; the quantizer
    remembers these axes. *)
Definition widths_for (sd : pval) (shape : list (option nat)) (i : qinfo) : Prop :=
  List.length (i_shape i) = List.length shape /\
  forall m, (m < List.length shape)%nat ->
    (merged sd (List.length shape) m -> nth m (i_shape i) 0%nat = 1%nat) /\
    (~ merged sd (List.length shape) m -> nth m shape None = Some (nth m (i_shape i) 0%nat)) /\
    ((exists dims z, i_skip i = Some dims /\ In z dims /\ axis (List.length shape) z m) <-> merged sd (List.length shape) m).

(** Tensors: a shape and the row-major list of elements, with numpy/TensorFlow
    broadcasting of binary element-wise operations.  (Vocabulary of the model;
    /repo takes these operations from TensorFlow and numpy.) *)
From Coq Require Import ZArith List Bool.
From Verif Require Import Base.Num.
Import ListNotations.

(** tf.Tensor / np.ndarray (e.g. x at quantizer.py:146). *)
Record tensor (A : Type) : Type := mkT { shape : list nat; data : list A }.
Arguments mkT {A} shape data.
Arguments shape {A} t.
Arguments data {A} t.

(** np.prod of a shape (e.g. base.py:81-86). *)
Definition prodn (s : list nat) : nat := fold_right Nat.mul 1%nat s.

(** A tensor is well formed when it has as many elements as its shape says.
    (e.g. quantizer.py:142-177) *)
Definition wf_tensor {A} (t : tensor A) : Prop := length (data t) = prodn (shape t).

(** An element-wise operation (e.g. tf.floor, quantizer.py:25). *)
Definition tmap {A B} (f : A -> B) (t : tensor A) : tensor B :=
  mkT (shape t) (map f (data t)).

(** Left-pad the shorter shape with ones. (e.g. x * scale, quantizer.py:160) *)
Definition pad_to (n : nat) (s : list nat) : list nat := repeat 1%nat (n - length s) ++ s.

(** Broadcast of two shapes of equal rank; None on a mismatch. (e.g. x * scale, quantizer.py:160) *)
Fixpoint bshape (s1 s2 : list nat) : option (list nat) :=
  match s1, s2 with
  | [], [] => Some []
  | a :: s1', b :: s2' =>
      match bshape s1' s2' with
      | None => None
      | Some s => if Nat.eqb a b then Some (a :: s)
                  else if Nat.eqb a 1 then Some (b :: s)
                  else if Nat.eqb b 1 then Some (a :: s) else None
      end
  | _, _ => None
  end.

Definition broadcast_shape (s1 s2 : list nat) : option (list nat) :=
  let n := Nat.max (length s1) (length s2) in bshape (pad_to n s1) (pad_to n s2).

(** Flat index into a tensor of shape [small] of the element seen at flat
    position [p] of its broadcast to shape [big] (equal ranks).
    (e.g. x * scale, quantizer.py:160) *)
Fixpoint bidx (small big : list nat) (p : nat) : nat :=
  match small, big with
  | s :: ss, _ :: bs =>
      let q := (p / prodn bs)%nat in
      let r := (p mod prodn bs)%nat in
      ((if Nat.eqb s 1 then 0 else q) * prodn ss + bidx ss bs r)%nat
  | _, _ => 0%nat
  end.

(** Element-wise binary operation with broadcasting. [da], [db] only fill
    positions that a well-formed tensor never asks for. (e.g. x * scale, quantizer.py:160) *)
Definition bmap2 {A B C} (da : A) (db : B) (f : A -> B -> C) (t1 : tensor A) (t2 : tensor B)
  : result (tensor C) :=
  match broadcast_shape (shape t1) (shape t2) with
  | None => Raise
  | Some s =>
      let n := length s in
      let s1 := pad_to n (shape t1) in
      let s2 := pad_to n (shape t2) in
      Ok (mkT s (map (fun p => f (nth (bidx s1 s p) (data t1) da) (nth (bidx s2 s p) (data t2) db))
                     (seq 0 (prodn s))))
  end.

(** ** Reductions over axes *)

(** The dimensions that survive a reduction; a flag is true on reduced axes.
    (quantizer.py:171-172, 191) *)
Fixpoint kept (flags : list bool) (s : list nat) : list nat :=
  match flags, s with
  | f :: fs, a :: s' => if f then kept fs s' else a :: kept fs s'
  | _, _ => s
  end.
(** The same with keepdims=True. (quantizer.py:280) *)
Fixpoint kept1 (flags : list bool) (s : list nat) : list nat :=
  match flags, s with
  | f :: fs, a :: s' => (if f then 1%nat else a) :: kept1 fs s'
  | _, _ => s
  end.
(** Flat position in the reduced tensor of flat position [p] of a tensor of shape [s].
    (quantizer.py:171-172, 191, 280) *)
Fixpoint ridx (flags : list bool) (s : list nat) (p : nat) : nat :=
  match flags, s with
  | f :: fs, _ :: s' =>
      let q := (p / prodn s')%nat in
      let r := (p mod prodn s')%nat in
      if f then ridx fs s' r else (q * prodn (kept fs s') + ridx fs s' r)%nat
  | _, _ => p
  end.
(** tf.reduce_xxx(t, axis): fold [op] from [init] over each group.
    (quantizer.py:171-172, 191, 230-231, 280) *)
Definition treduce {A} (op : A -> A -> A) (init : A) (flags : list bool) (keepdims : bool) (t : tensor A)
  : tensor A :=
  let ps := combine (seq 0 (length (data t))) (data t) in
  mkT (if keepdims then kept1 flags (shape t) else kept flags (shape t))
      (map (fun o => fold_left (fun acc pv =>
                        if Nat.eqb (ridx flags (shape t) (fst pv)) o then op acc (snd pv) else acc) ps init)
           (seq 0 (prodn (kept flags (shape t))))).

(** Reduced-axis flags for a list of axes of a tensor of rank [r] (negative axes count from the end).
    (quantizer.py:171, 185-191) *)
Definition axis_flags (r : nat) (dims : list Z) : list bool :=
  map (fun d => existsb (fun a => (Z.eqb a (Z.of_nat d) || Z.eqb a (Z.of_nat d - Z.of_nat r))%bool) dims) (seq 0 r).

(** All elements computed, or the exception of the first failing one.
    (python loops that raise, e.g. convert.py:193) *)
Fixpoint rseq {A} (l : list (result A)) : result (list A) :=
  match l with
  | [] => Ok []
  | x :: l' => rbind x (fun a => rbind (rseq l') (fun b => Ok (a :: b)))
  end.

(** Model of the passive layers (src/HGQ/layers/passive_layers.py): what they do to
    values (the keras layers they inherit from) and to the bitwidths they report.

    Tensors have a leading batch axis; the reported bitwidths have batch length 1. *)
From Coq Require Import ZArith Qcanon List Bool.
From Verif Require Import Base.Num Base.Tensor Model.Layers.
Import ListNotations.
Local Open Scope nat_scope.

(** np.reshape, passive_layers.py:23, 30 *)
Definition reshape {A} (t : tensor A) (s : list nat) : result (tensor A) :=
  if Nat.eqb (List.length (data t)) (prodn s) then Ok (mkT s (data t)) else Raise.

(** ** Concatenation *)

(** tf.concat / np.concatenate along axis a, passive_layers.py:99, 106, 110 (and keras Concatenate):
    block o of every input, for every o. *)
Definition block {A} (size o : nat) (l : list A) : list A := firstn size (skipn (o * size) l).
Definition set_axis (a n : nat) (s : list nat) : list nat := firstn a s ++ n :: skipn (S a) s.
Definition concat_axis {A} (a : nat) (ts : list (tensor A)) : result (tensor A) :=
  match ts with
  | [] => Raise
  | t0 :: _ =>
      let s := shape t0 in
      if (Nat.ltb a (List.length s) &&
          forallb (fun t => Nat.eqb (List.length (shape t)) (List.length s)) ts &&
          forallb (fun t => if list_eq_dec Nat.eq_dec (set_axis a 0 (shape t)) (set_axis a 0 s) then true else false) ts)%bool
      then let outer := prodn (firstn a s) in
           let size (t : tensor A) := prodn (skipn a (shape t)) in
           Ok (mkT (set_axis a (fold_right Nat.add 0 (map (fun t => nth a (shape t) 0) ts)) s)
                   (flat_map (fun o => flat_map (fun t => block (size t) o (data t)) ts) (seq 0 outer)))
      else Raise
  end.

(** ** Pooling (keras pool2d; one-dimensional pooling has W = 1) *)

(** passive_layers.py:123, 128, 141, 146.  Length of the output axis and padding in front (tf.nn "VALID" and "SAME"). *)
Definition pool_out (same : bool) (n k s : nat) : nat :=
  if same then (n + s - 1) / s else (n - k) / s + 1.
Definition pool_pad (same : bool) (n k s : nat) : nat :=
  if same then ((pool_out same n k s - 1) * s + k - n) / 2 else 0.
(** Input positions of window o along one axis. (passive_layers.py:123, 128, 141, 146) *)
Definition window1 (same : bool) (n k s o : nat) : list nat :=
  flat_map (fun d => let p := (o * s + d)%nat in
                     let pad := pool_pad same n k s in
                     if (Nat.leb pad p && Nat.ltb (p - pad) n)%bool then [p - pad] else []) (seq 0 k).

Record pool : Type := mkPool {
  p_h : nat; p_w : nat; p_c : nat; p_kh : nat; p_kw : nat; p_sh : nat; p_sw : nat; p_same : bool; p_first : bool }.
(** Flat position of (row, column, channel) in a sample. (passive_layers.py:123) *)
Definition flat (first : bool) (h w c : nat) (i j ch : nat) : nat :=
  if first then (ch * h + i) * w + j else (i * w + j) * c + ch.
(** (row, column, channel) of flat position e. (passive_layers.py:123) *)
Definition unflat (first : bool) (h w c : nat) (e : nat) : nat * nat * nat :=
  if first then (e / w mod h, e mod w, e / w / h) else (e / c / w, e / c mod w, e mod c).
Definition out_h (p : pool) : nat := pool_out (p_same p) (p_h p) (p_kh p) (p_sh p).
Definition out_w (p : pool) : nat := pool_out (p_same p) (p_w p) (p_kw p) (p_sw p).
(** Positions that output position e looks at. (passive_layers.py:123) *)
Definition window (p : pool) (e : nat) : list nat :=
  let '(i, j, ch) := unflat (p_first p) (out_h p) (out_w p) (p_c p) e in
  flat_map (fun a => map (fun b => flat (p_first p) (p_h p) (p_w p) (p_c p) a b ch)
                         (window1 (p_same p) (p_w p) (p_kw p) (p_sw p) j))
           (window1 (p_same p) (p_h p) (p_kh p) (p_sh p) i).
Definition pool_size (p : pool) : nat := out_h p * out_w p * p_c p.

(** max over a non-empty list (passive_layers.py:123, 128) *)
Definition reduce1 {A} (op : A -> A -> A) (d : A) (l : list A) : A :=
  match l with [] => d | a :: r => fold_left op r a end.
(** tf.nn.max_pool2d on one sample, with the maximum [op] of the element type.
    (passive_layers.py:123, 150) *)
Definition max_pool {A} (op : A -> A -> A) (d : A) (p : pool) (x : list A) : list A :=
  map (fun e => reduce1 op d (map (fun q => nth q x d) (window p e))) (seq 0 (pool_size p)).
(** tf.nn.avg_pool2d on one sample: padding is not counted.
    (PAveragePooling2D, passive_layers.py:155) *)
Definition avg_pool (p : pool) (x : list Qc) : list Qc :=
  map (fun e => let vs := map (fun q => nth q x (qz 0)) (window p e) in
                (fold_right Qcplus (qz 0) vs / qz (Z.of_nat (List.length vs)))%Qc) (seq 0 (pool_size p)).

(** ** Permute *)

(** Multi-index of flat position p and back (row major). (PPermute, passive_layers.py:181) *)
Fixpoint unravel (s : list nat) (p : nat) : list nat :=
  match s with [] => [] | _ :: s' => p / prodn s' :: unravel s' (p mod prodn s') end.
Fixpoint ravel (s idx : list nat) : nat :=
  match s, idx with _ :: s', i :: idx' => i * prodn s' + ravel s' idx' | _, _ => 0 end.
(** keras Permute(dims) on one sample of shape s: output axis k is input axis dims[k]
    (dims count from 1; tf.transpose(x, (0,) + dims)). (PPermute, passive_layers.py:181) *)
Definition perm_shape (dims s : list nat) : list nat := map (fun d => nth (d - 1) s 0) dims.
Definition index_of (d : nat) (dims : list nat) : nat :=
  (fix go (l : list nat) (k : nat) : nat := match l with [] => k | x :: l' => if Nat.eqb x d then k else go l' (S k) end) dims 0.
Definition permute {A} (d : A) (dims s : list nat) (x : list A) : list A :=
  map (fun e => let oi := unravel (perm_shape dims s) e in
                nth (ravel s (map (fun a => nth (index_of (S a) dims) oi 0) (seq 0 (List.length s)))) x d)
      (seq 0 (prodn (perm_shape dims s))).

(** ** The layers *)

(** Reshape, flatten, dropout at inference (keras layers): the values in the same order.
    (passive_layers.py:82, 87, 176) *)
Definition reshape_values {A} (x : tensor A) (out : list nat) : result (tensor A) :=
  match shape x with n :: _ => reshape x (n :: out) | [] => Raise end.

(** act_bw_exact (and act_bw) of PLayerBase, passive_layers.py:20-30, inherited by PReshape,
    PFlatten, PDropout and PPermute: the bits of the input, reshaped. *)
Definition p_act_bw (input_bw : tensor Z) (out : list nat) : result (tensor Z) := reshape input_bw (1 :: out).
(** act_bw_exact of PConcatenate, passive_layers.py:109-110. *)
Definition concat_act_bw (axis : nat) (input_bws : list (tensor Z)) : result (tensor Z) := concat_axis axis input_bws.
(** act_bw_exact of PPool2D and PPool1D, passive_layers.py:125-128, 143-146 (max pooling of the
    bits, for max and average pooling layers alike). *)
Definition pool_act_bw (p : pool) (input_bw : list Z) : list Z := max_pool Z.max 0%Z p input_bw.
(** act_bw_exact of Signature, passive_layers.py:49-53, 64-66: the bits, broadcast to (1,) + input_shape[1:]. *)
Definition signature_act_bw (bits : tensor Z) (inp : list nat) : result (tensor Z) := broadcast_to 0%Z bits (1 :: inp).

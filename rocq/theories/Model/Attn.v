(** Model of HMultiHeadAttention (src/HGQ/layers/experimental/attn.py:12-114).

    Exact numbers; [ex] is the exponential function and [sq] the square root.  The regularizers, constraints and initializers given to
    the constructor are not used by the code, neither are output_shape and attention_axes; the initial values of kernels (keras Dense:
    glorot_uniform) are a parameter.  The shapes known while a call is traced are those of the tensors, except that some
    dimensions may be unknown (None). *)
From Coq Require Import ZArith Qcanon List Bool.
From Verif Require Import Base.Num Base.Tensor Model.Quantizer Model.Passive.
Import ListNotations.
Local Open Scope nat_scope.

(** ** TensorFlow operations on tensors of rank 4 *)

(** Element (i, j, k, l); used by the operations at attn.py:76-110. *)
Definition at4 {A} (d : A) (t : tensor A) (i j k l : nat) : A :=
  match shape t with [_; n2; n3; n4] => nth (((i * n2 + j) * n3 + k) * n4 + l) (data t) d | _ => d end.
(** The tensor with given elements; used by the operations at attn.py:76-110. *)
Definition mk4 {A} (n1 n2 n3 n4 : nat) (f : nat -> nat -> nat -> nat -> A) : tensor A :=
  mkT [n1; n2; n3; n4] (map (fun p => f (p / (n2 * n3 * n4)) ((p / (n3 * n4)) mod n2) ((p / n4) mod n3) (p mod n4)) (seq 0 (n1 * n2 * n3 * n4))).

(** tf.transpose(x, [0, 2, 1, 3]), attn.py:81-83 and 107; other ranks are refused. *)
Definition transpose0213 (t : tensor Qc) : result (tensor Qc) :=
  match shape t with
  | [n1; n2; n3; n4] => Ok (mk4 n1 n3 n2 n4 (fun i j k l => at4 (qz 0) t i k j l))
  | _ => Raise
  end.
(** Dimensions in front of the matrices are broadcast by tf.matmul (attn.py:87 and 103). *)
Definition bdim (a b : nat) : option nat := if Nat.eqb a b then Some a else if Nat.eqb a 1 then Some b else if Nat.eqb b 1 then Some a else None.
Definition bpos (n i : nat) : nat := if Nat.eqb n 1 then 0 else i.
(** tf.matmul(a, b, transpose_b=...), attn.py:87 (true) and 103 (false) *)
Definition matmul4 (tb : bool) (a b : tensor Qc) : result (tensor Qc) :=
  match shape a, shape b with
  | [a1; a2; n; m], [b1; b2; r; c] =>
      let '(m', p) := if tb then (c, r) else (r, c) in
      match bdim a1 b1, bdim a2 b2 with
      | Some c1, Some c2 =>
          if Nat.eqb m m' then
            Ok (mk4 c1 c2 n p (fun i j k l => qsum (map (fun t =>
              (at4 (qz 0) a (bpos a1 i) (bpos a2 j) k t * (if tb then at4 (qz 0) b (bpos b1 i) (bpos b2 j) l t else at4 (qz 0) b (bpos b1 i) (bpos b2 j) t l))%Qc) (seq 0 m))))
          else Raise
      | _, _ => Raise
      end
  | _, _ => Raise
  end.

(** ** The layer *)

(** keras Dense (attn.py:54-57): kernel of shape [n; u], bias of length u if use_bias. *)
Record kdense : Type := mkKD { kd_in : nat; kd_units : nat; kd_kernel : list Qc; kd_bias : option (list Qc) }.

(** Call of a keras Dense, attn.py:71-73, 109: the last axis is contracted; it must have the length the layer was built for
    (input_spec), and inputs have rank 2 or more. *)
Definition kdense_call (d : kdense) (x : tensor Qc) : result (tensor Qc) :=
  match rev (shape x) with
  | n :: ((_ :: _) as pre) =>
      let rows := prodn pre in
      if Nat.eqb n (kd_in d) then
        Ok (mkT (rev pre ++ [kd_units d]) (map (fun p =>
          (qsum (map (fun t => nth (p / kd_units d * n + t) (data x) (qz 0) * nth (t * kd_units d + p mod kd_units d) (kd_kernel d) (qz 0)) (seq 0 n))
           + match kd_bias d with Some b => nth (p mod kd_units d) b (qz 0) | None => qz 0 end)%Qc) (seq 0 (rows * kd_units d))))
      else Raise
  | _ => Raise
  end.

(** The layers made by attn_build, attn.py:52-64 (Dropout and Softmax have no variables). *)
Record attn_w : Type := mkAW { to_q : kdense; to_k : kdense; to_v : kdense; to_out : kdense }.

(** __init__, attn.py:13-50: num_heads, key_dim, value_dim (None or 0: key_dim), dropout, use_bias; [at_w] is None until the first call
    (_built_from_signature). *)
Record attn : Type := mkAT { at_heads : nat; at_kd : nat; at_vd : nat; at_dropout : Qc; at_bias : bool; at_w : option attn_w }.
Definition attn_init (num_heads key_dim : nat) (value_dim : option nat) (dropout : Qc) (use_bias : bool) : attn :=
  mkAT num_heads key_dim (match value_dim with Some (S v) => S v | _ => key_dim end) dropout use_bias None.

(** attn_build, attn.py:52-64: [fresh] are the initial values of a kernel, biases are 0. *)
Definition attn_build (fresh : nat -> nat -> list Qc) (a : attn) (q_dim k_dim v_dim : nat) : attn_w :=
  let dense n u := mkKD n u (fresh n u) (if at_bias a then Some (repeat (qz 0) u) else None) in
  mkAW (dense q_dim (at_kd a * at_heads a)) (dense k_dim (at_kd a * at_heads a)) (dense v_dim (at_vd a * at_heads a)) (dense (at_vd a * at_heads a) v_dim).

(** compute_output_shape, attn.py:66-67 *)
Definition attn_output_shape (a : attn) : list (option nat) := [None; None; Some (at_vd a * at_heads a)].

(** [*x.shape[:2], n, d] as the target of tf.reshape, attn.py:76-78, 108: None cannot be converted. [known] is the static shape. *)
Definition target (known : list (option nat)) (tail : list nat) : result (list nat) :=
  rbind (rseq (map (fun d => match d with Some n => Ok n | None => Raise end) (firstn 2 known))) (fun l => Ok (l ++ tail)).
(** tf.reshape to a known shape, attn.py:76-78, 108 *)
Definition reshape_static (x : tensor Qc) (known : list (option nat)) (tail : list nat) : result (tensor Qc) :=
  rbind (target known tail) (fun s => reshape x s).

(** attention_mask, attn.py:92-96: booleans say which positions may be seen; numbers are added. *)
Inductive mask : Type := MBool (m : tensor bool) | MNum (m : tensor Qc).
(** attn.py:93-96: mask[:, None], False becomes -1e9. *)
Definition mask_term (m : mask) : tensor Qc :=
  match m with
  | MBool t => mkT (firstn 1 (shape t) ++ 1 :: skipn 1 (shape t)) (map (fun b : bool => if b then qz 0 else qz (-1000000000)) (data t))
  | MNum t => mkT (firstn 1 (shape t) ++ 1 :: skipn 1 (shape t)) (data t)
  end.

Section E.
  Variable ex sq : Qc -> Qc.

  (** Softmax of one row: tf.nn.softmax subtracts the largest score (attn.py:59 and 100). *)
  Definition softmax_row (r : list Qc) : list Qc :=
    match r with
    | [] => []
    | v :: r' => let m := fold_left qmax r' v in let es := map (fun x => ex (x - m)%Qc) r in map (fun e => (e / qsum es)%Qc) es
    end.
  (** Softmax(axis=-1), attn.py:59 and 100 *)
  Definition softmax4 (t : tensor Qc) : result (tensor Qc) :=
    match shape t with
    | [n1; n2; n3; n4] => Ok (mk4 n1 n2 n3 n4 (fun i j k l => nth l (softmax_row (map (at4 (qz 0) t i j k) (seq 0 n4))) (qz 0)))
    | _ => Raise
    end.

  (** call, attn.py:69-114: the outputs, the attention scores (returned with return_attention_scores=True) and the layer after the call.
      [kq], [kk], [kv] are the static shapes of the inputs; training and dropout are not used. *)
  Definition attn_call (fresh : nat -> nat -> list Qc) (a : attn) (kq kk kv : list (option nat)) (q k v : tensor Qc) (m : option mask) (training : bool)
    : result (tensor Qc * tensor Qc * attn) :=
    rbind (match at_w a with
           | Some w => Ok w
           | None => match last kq None, last kk None, last kv None with
                     | Some q_dim, Some k_dim, Some v_dim => Ok (attn_build fresh a q_dim k_dim v_dim)
                     | _, _, _ => Raise
                     end
           end) (fun w =>
    rbind (kdense_call (to_q w) q) (fun Q => rbind (kdense_call (to_k w) k) (fun K => rbind (kdense_call (to_v w) v) (fun V =>
    rbind (reshape_static Q kq [at_heads a; at_kd a]) (fun Q => rbind (reshape_static K kk [at_heads a; at_kd a]) (fun K => rbind (reshape_static V kv [at_heads a; at_vd a]) (fun V =>
    rbind (transpose0213 Q) (fun Q => rbind (transpose0213 K) (fun K => rbind (transpose0213 V) (fun V =>
    rbind (matmul4 true Q K) (fun QK =>
    let QK := tmap (fun x => (x / sq (qz (Z.of_nat (at_kd a))))%Qc) QK in
    rbind (match m with None => Ok QK | Some m => bmap2 (qz 0) (qz 0) Qcplus QK (mask_term m) end) (fun QK =>
    rbind (softmax4 QK) (fun QK =>
    rbind (matmul4 false QK V) (fun out =>
    rbind (transpose0213 out) (fun out =>
    rbind (reshape out (firstn 2 (shape out) ++ [at_vd a * at_heads a])) (fun out =>
    rbind (kdense_call (to_out w) out) (fun out =>
    Ok (out, QK, mkAT (at_heads a) (at_kd a) (at_vd a) (at_dropout a) (at_bias a) (Some w))))))))))))))))))).
End E.

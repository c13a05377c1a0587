(** Model of get_weight and copy_fused_weights (src/HGQ/proxy/convert.py:57-88). *)
From Coq Require Import ZArith Qcanon List Bool String Ascii.
From Verif Require Import Base.Num Base.Tensor Model.Quantizer.
Import ListNotations.
Local Open Scope string_scope.

(** [sub in s] on strings. (convert.py:64, 82) *)
Fixpoint contains (sub s : string) : bool :=
  (prefix sub s || match s with String _ s' => contains sub s' | EmptyString => false end)%bool.

(** What follows the last '/' (None without one): name.split('/')[-1], convert.py:59-60. *)
Fixpoint after_slash (s : string) : option string :=
  match s with
  | EmptyString => None
  | String c s' => match after_slash s' with
                   | Some r => Some r
                   | None => if Ascii.eqb c "/" then Some s' else None
                   end
  end.

(** The name searched for, convert.py:59-62. *)
Definition search_name (name : string) : string :=
  let name := match after_slash name with Some r => r | None => name end in
  if contains ":" name then name else name ++ ":0".

(** get_weight, convert.py:57-66 *)
Definition get_weight {A} (ws : list (string * A)) (name : string) : option A :=
  match find (fun w => contains (search_name name) (fst w)) ws with Some w => Some (snd w) | None => None end.

(** The source layer: fused_qkernel and fused_qbias (None: no such attribute),
    kernel and bias (None: no such attribute), and its weights. (convert.py:69-89) *)
Record src_layer : Type := mkSrc {
  s_qkernel : option (tensor Qc); s_qbias : option (tensor Qc);
  s_kernel : option (tensor Qc); s_bias : option (tensor Qc);
  s_weights : list (string * tensor Qc) }.

(** The keras layer: its weights, and which of them are its kernel and bias
    (None: no such attribute, or the attribute is None). (convert.py:71, 76, 81) *)
Record dst_layer : Type := mkDst {
  d_kernel : option nat; d_bias : option nat; d_weights : list (string * tensor Qc) }.

(** Variable.assign: the shapes must be the same. (convert.py:73-86) *)
Definition assign (ws : list (string * tensor Qc)) (j : nat) (v : tensor Qc) : result (list (string * tensor Qc)) :=
  match nth_error ws j with
  | None => Raise
  | Some (n, old) => if list_eq_dec Nat.eq_dec (shape old) (shape v) then Ok (firstn j ws ++ (n, v) :: skipn (S j) ws)%list else Raise
  end.

(** convert.py:71-75 and 76-80 *)
Definition copy_one (at_ : option nat) (fused plain : option (tensor Qc)) (ws : list (string * tensor Qc))
  : result (list (string * tensor Qc)) :=
  match at_ with
  | None => Ok ws
  | Some j => match fused with
              | Some v => assign ws j v
              | None => match plain with Some v => assign ws j v | None => Raise end
              end
  end.

(** convert.py:82 *)
Definition skipped (name : string) : bool := (contains "kernel:0" name || contains "bias:0" name)%bool.

(** copy_fused_weights, convert.py:69-88: the weights of the target afterwards
    and the names reported as missing. *)
Definition copy_fused_weights (src : src_layer) (dst : dst_layer) : result (list (string * tensor Qc) * list string) :=
  rbind (copy_one (d_kernel dst) (s_qkernel src) (s_kernel src) (d_weights dst)) (fun ws =>
  rbind (copy_one (d_bias dst) (s_qbias src) (s_bias src) ws) (fun ws =>
  fold_left (fun acc j =>
    rbind acc (fun st =>
    let '(ws, missing) := st in
    match nth_error ws j with
    | None => Raise
    | Some (n, _) =>
        if skipped n then Ok (ws, missing)
        else match get_weight (s_weights src) n with
             | Some v => rbind (assign ws j v) (fun ws => Ok (ws, missing))
             | None => Ok (ws, (missing ++ [n])%list)
             end
    end)) (seq 0 (List.length ws)) (Ok (ws, [])))).

(** Vocabulary for C86: the smooth function whose derivative a training step uses.

    A rounding error observed in the training step is kept, except that it shrinks like 2^-f when the number of
    fractional bits f grows, to first order: 1 - ln2 * (change of f).  The same ReLU units are on.  Functions that
    are not made of sums, products and quotients (activation functions, 1/sqrt) are replaced by their linearisation.  The
    resulting function of the variables and inputs has no rounding; [t] is how far they have moved along a line. *)
From Coq Require Import ZArith Qcanon List Bool.
From Verif Require Import Base.Num Base.Tensor Model.Quantizer Model.Layers Model.BatchNorm Model.Graph Model.Trace Model.TrainGrad.
Import ListNotations.
Local Open Scope nat_scope.

(** [d] is the derivative of [g] at 0. *)
Definition slope (g : Qc -> Qc) (d : Qc) : Prop :=
  forall eps, (qz 0 < eps)%Qc -> exists del, (qz 0 < del)%Qc /\
    forall t, (qabs t <= del)%Qc -> (qabs (g t - g (qz 0) - d * t) <= eps * qabs t)%Qc.

(** A variable that has moved by t times its direction. *)
Definition along (v dv : list Qc) (t : Qc) : list Qc :=
  map (fun p => (nth p v (qz 0) + t * nth p dv (qz 0))%Qc) (seq 0 (length v)).

(** The element of a tensor that is broadcast to position p of a tensor of shape [sh]. *)
Definition seen (x : tensor Qc) (sh : list nat) (p : nat) : Qc :=
  nth (bidx (pad_to (length sh) (shape x)) sh p) (data x) (qz 0).

(** A quantizer that gave [y0] for [x0], for the input x when the bitwidths have moved by t times df. *)
Definition smooth (ln2 : Qc) (x0 y0 df : tensor Qc) (x : tensor Qc) (t : Qc) : tensor Qc :=
  let sh := shape y0 in
  mkT sh (map (fun p => (seen x sh p + (nth p (data y0) (qz 0) - seen x0 sh p) * (qz 1 - ln2 * (t * seen df sh p)))%Qc)
              (seq 0 (prodn sh))).

(** The direction in which the largest bitwidth of each channel moves: the mean over the bitwidths that are largest. *)
Definition mean (l : list Qc) : Qc := (qsum l / qz (Z.of_nat (length l)))%Qc.
Definition widest (dims : list Z) (f df : tensor Qc) : tensor Qc :=
  let fl := axis_flags (length (shape f)) dims in
  let sh := kept fl (shape f) in
  mkT sh (map (fun o =>
    let group := filter (fun p => Nat.eqb (ridx fl (shape f) p) o) (seq 0 (length (data f))) in
    let top := filter (fun p => forallb (fun p' => qleb (nth p' (data f) (qz 0)) (nth p (data f) (qz 0))) group) group in
    mean (map (fun p => nth p (data df) (qz 0)) top)) (seq 0 (prodn sh))).

(** Units that are on follow, the others stay at 0. *)
Definition gate (y0 y : Qc) : Qc := if qltb (qz 0) y0 then y else qz 0.
Definition gates (y0 y : list Qc) : list Qc := map (fun ab => gate (fst ab) (snd ab)) (combine y0 y).

(** A function with Jacobian [jac], linearised at x0. *)
Definition linearised (g : list (list Qc) -> list Qc) (jac : jacobian) (x0 x : list (list Qc)) : list Qc :=
  map (fun e => (nth e (g x0) (qz 0) + qsum (map (fun c =>
      snd c * (nth (snd (fst c)) (nth (fst (fst c)) x []) (qz 0) - nth (snd (fst c)) (nth (fst (fst c)) x0 []) (qz 0))) (jac x0 e)))%Qc)
      (seq 0 (length (g x0))).
Definition linearised_all (g : list (list Qc) -> list Qc) (jac : jacobian) (x0 x : list (list (list Qc))) : list (list Qc) :=
  map (fun ab => linearised g jac (fst ab) (snd ab)) (combine x0 x).
(** 1/sqrt at v0, linearised: its derivative is -1/2 (1/sqrt v0)^3. *)
Definition smooth_rsqrt (rsqrt : Qc -> Qc) (v0 v : Qc) : Qc :=
  (rsqrt v0 - qhalf * (rsqrt v0 * rsqrt v0 * rsqrt v0) * (v - v0))%Qc.

Notation path := (Qc -> list (list Qc)) (only parsing).

Section S.
  Variable pw : Qc -> Qc.
  Variable ln2 : Qc.
  Variable rsqrt : Qc -> Qc.

  (** The pre-activation quantizer and the activation along the path [z]. *)
  Definition smooth_out (q : hgq) (df : tensor Qc) (relu_act : bool) (out : list nat) (na : nat -> Qc) (z : path) : result path :=
    rbind (call pw ln2 q (batch_tensor out (z (qz 0))) true true na) (fun y0 =>
    let y t := samples out (smooth ln2 (batch_tensor out (z (qz 0))) (fst y0) df (batch_tensor out (z t)) t) in
    Ok (fun t => if relu_act then map (fun ab => gates (fst ab) (snd ab)) (combine (samples out (fst y0)) (y t)) else y t)).

  (** The quantized kernel and bias when they are [k t] and [b t]. *)
  Definition smooth_kernel (kq : hgq) (df : tensor Qc) (nk : nat -> Qc) (k : Qc -> tensor Qc) : result (Qc -> tensor Qc) :=
    rbind (call pw ln2 kq (k (qz 0)) true false nk) (fun q0 => Ok (fun t => smooth ln2 (k (qz 0)) (fst q0) df (k t) t)).
  Definition smooth_bias (q : hgq) (df : tensor Qc) (loc : Z) (nb : nat -> Qc) (b : Qc -> tensor Qc) : result (Qc -> tensor Qc) :=
    rbind (bias_dims loc (length (shape (q_fbw q)))) (fun dims =>
    rbind (bias_forward pw ln2 q (b (qz 0)) true loc nb) (fun q0 =>
    Ok (fun t => smooth ln2 (b (qz 0)) q0 (widest dims (q_fbw q) df) (b t) t))).

  Definition moved (v dv : tensor Qc) (t : Qc) : tensor Qc := mkT (shape v) (along (data v) (data dv) t).

  Definition smooth_layer (l : tlayer) (xs : Qc -> list (list sample)) : result path :=
    let h := t_layer l in
    rbind (match l_op h with
           | Fn g => Ok (fun t => linearised_all g (t_jac l) (xs (qz 0)) (xs t))
           | Linear ts kernel kq bias bias_loc =>
               rbind (smooth_kernel kq (t_dfk l) (t_nk l) (moved kernel (t_dk l))) (fun w =>
               let z t := map (fun x => linop ts (data (w t)) (hd [] x)) (xs t) in
               match bias with
               | None => Ok z
               | Some b =>
                   rbind (smooth_bias (l_paq h) (t_dfa l) bias_loc (t_nb l) (moved b (t_db l))) (fun qb =>
                   Ok (fun t => map (bias_add (l_loc h) (l_out h) (data (qb t))) (z t)))
               end)
           end) (fun z =>
    smooth_out (l_paq h) (t_dfa l) (l_relu h) (l_out h) (t_na l) z).

  (** Batch norm: mean and variance of the batch, and with them the scale, move with the weights and inputs. *)
  Definition smooth_bn (b : tbn) (xs : Qc -> list (list sample)) : result path :=
    let l := tb_layer b in
    let kernel := moved (b_kernel l) (tb_dk b) in
    let conv (w : Qc -> tensor Qc) t := map (fun x => linop (b_ts l) (data (w t)) (hd [] x)) (xs t) in
    rbind (if b_scale l then Ok kernel else smooth_kernel (b_kq l) (tb_dfk b) (tb_nk b) kernel) (fun wk =>
    let vals c t := chan_vals (b_loc l) (b_out l) (conv wk t) c in
    let bias c t := match b_bias l with Some v => nth c (along (data v) (data (tb_db b)) t) (qz 0) | None => qz 0 end in
    let scale c t := if b_scale l
      then (nth c (along (b_gamma l) (tb_dgamma b) t) (qz 0) * smooth_rsqrt rsqrt (var_list (vals c (qz 0)) + b_eps l) (var_list (vals c t) + b_eps l))%Qc else qz 1 in
    rbind (if b_scale l then smooth_kernel (b_kq l) (tb_dfk b) (tb_nk b) (fun t => scale_kernel (kernel t) (fun c => scale c t)) else Ok wk) (fun wk' =>
    rbind (if b_center l
           then rbind (smooth_bias (b_paq l) (tb_dfa b) (b_loc l) (tb_nb b) (fun t => mkT [n_chan l]
                         (map (fun c => (bias c t - (mean_list (vals c t) + bias c t) * scale c t)%Qc) (chans l)))) (fun qb =>
                Ok (fun t => map (bias_add (b_loc l) (b_out l) (data (qb t))) (conv wk' t)))
           else Ok (conv wk')) (fun z =>
    smooth_out (b_paq l) (tb_dfa b) (b_relu l) (b_out l) (tb_na b) z))).

  (** HBatchNormalization.  [both f a b] is f, element by element, of two tensors that move (broadcast to a common shape). *)
  Definition both (f : Qc -> Qc -> Qc) (a b : Qc -> tensor Qc) : result (Qc -> tensor Qc) :=
    rbind (bmap2 (qz 0) (qz 0) f (a (qz 0)) (b (qz 0))) (fun v =>
    Ok (fun t => mkT (shape v) (map (fun p => f (seen (a t) (shape v) p) (seen (b t) (shape v) p)) (seq 0 (prodn (shape v)))))).
  (** gamma / sqrt(variance + epsilon) *)
  Definition scales (eps : Qc) (gamma var : Qc -> tensor Qc) : result (Qc -> tensor Qc) :=
    rbind (bmap2 (qz 0) (qz 0) (fun g v => (g * rsqrt (v + eps))%Qc) (gamma (qz 0)) (var (qz 0))) (fun k =>
    Ok (fun t => mkT (shape k) (map (fun p => (seen (gamma t) (shape k) p * smooth_rsqrt rsqrt (seen (var (qz 0)) (shape k) p + eps) (seen (var t) (shape k) p + eps))%Qc)
                                    (seq 0 (prodn (shape k)))))).
  (** As it is in the code: the scale gamma / sqrt(variance + epsilon), quantized; beta - mean / scale, quantized;
      the quantized product and sum.  Mean and variance of the batch move with the inputs. *)
  Definition smooth_norm (b : tnorm) (xs : Qc -> tensor Qc) : result (Qc -> tensor Qc) :=
    let l := tn_layer b in
    let mean t := tmean (m_axes l) (xs t) in
    rbind (both (fun x m => ((x - m) * (x - m))%Qc) xs mean) (fun dev =>
    let var t := tmean (m_axes l) (dev t) in
    rbind (scales (m_eps l) (moved (m_gamma l) (tn_dgamma b)) var) (fun ker =>
    rbind (both Qcdiv mean ker) (fun mk =>
    rbind (both Qcminus (moved (m_beta l) (tn_dbeta b)) mk) (fun bias =>
    rbind (smooth_kernel (m_kq l) (tn_dfk b) (tn_n1 b) ker) (fun qker =>
    rbind (smooth_kernel (m_paq l) (tn_dfa b) (tn_n2 b) bias) (fun qbias =>
    rbind (both Qcmult qker xs) (fun kx =>
    rbind (both Qcplus kx qbias) (fun z =>
    smooth_kernel (m_paq l) (tn_dfa b) (tn_n3 b) z)))))))).

  (** The samples of the inputs along their paths. *)
  Definition zip_paths (ins : list path) : result (Qc -> list (list sample)) :=
    match ins with
    | [] => Raise
    | b :: _ => if forallb (fun b' => Nat.eqb (length (b' (qz 0))) (length (b (qz 0)))) ins
                then Ok (fun t => map (fun j => map (fun b' => nth j (b' t) []) ins) (seq 0 (length (b (qz 0)))))
                else Raise
    end.
  Definition smooth_node (n : tnode) (ins : list path) : result path :=
    rbind (zip_paths ins) (fun xs =>
    match n with
    | TH l => smooth_layer l xs
    | TB b => smooth_bn b xs
    | TN b => rbind (smooth_norm b (fun t => batch_tensor (tn_in b) (map (hd []) (xs t)))) (fun y => Ok (fun t => samples (tn_in b) (y t)))
    | TF g jac => Ok (fun t => linearised_all g jac (xs (qz 0)) (xs t))
    end).
  Definition smooth_model (m : klayer tnode) (ins : list path) : result (list path) :=
    rbind (run (fun n bs u => rbind (smooth_node n bs) (fun b => Ok (b, u))) m ins tt) (fun r => Ok (fst r)).
End S.

(** A batch of dual numbers says where a path is at 0, and with which slopes it leaves. *)
Definition tangents (d : list (list dual)) (p : path) : Prop :=
  p (qz 0) = map (map fst) d /\ (forall t, map (@length Qc) (p t) = map (@length dual) d) /\
  forall j e, slope (fun t => nth e (nth j (p t) []) (qz 0)) (snd (nth e (nth j d []) (qz 0, qz 0))).

(** The tangents have the shapes of the variables. *)
Definition same_shape (v dv : tensor Qc) : Prop := shape dv = shape v /\ length (data dv) = length (data v).
Definition directions_fit (n : tnode) : Prop :=
  match n with
  | TH l => same_shape (q_fbw (l_paq (t_layer l))) (t_dfa l) /\
      match l_op (t_layer l) with
      | Fn _ => True
      | Linear _ k kq b _ => same_shape k (t_dk l) /\ same_shape (q_fbw kq) (t_dfk l) /\
          match b with Some v => same_shape v (t_db l) | None => True end
      end
  | TB b => let l := tb_layer b in same_shape (q_fbw (b_paq l)) (tb_dfa b) /\
      same_shape (b_kernel l) (tb_dk b) /\ same_shape (q_fbw (b_kq l)) (tb_dfk b) /\
      match b_bias l with Some v => same_shape v (tb_db b) | None => True end /\ length (tb_dgamma b) = length (b_gamma l)
  | TN b => let l := tn_layer b in same_shape (m_gamma l) (tn_dgamma b) /\ same_shape (m_beta l) (tn_dbeta b) /\
      same_shape (q_fbw (m_kq l)) (tn_dfk b) /\ same_shape (q_fbw (m_paq l)) (tn_dfa b)
  | TF _ _ => True
  end.

(** What a quantizer that rounds x to y passes on of the movements of x and of its bitwidth. *)
Definition through (ln2 x y dx df : Qc) : Qc := (dx - ln2 * (y - x) * df)%Qc.

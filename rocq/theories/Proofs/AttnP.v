(** Proofs about the attention layer. *)
From Coq Require Import ZArith QArith Qcanon List Bool Lia Arith Permutation.
From Verif Require Import Base.Num Base.NumFacts Base.Tensor Model.Quantizer Model.Passive Model.Attn Spec.Bops Spec.Attn Proofs.TensorP Proofs.BopsP Proofs.CallP.
Import ListNotations.
Local Open Scope nat_scope.

Lemma index4 n1 n2 n3 n4 i j k l : i < n1 -> j < n2 -> k < n3 -> l < n4 ->
  let p := ((i * n2 + j) * n3 + k) * n4 + l in
  p < n1 * n2 * n3 * n4 /\ p / (n2 * n3 * n4) = i /\ (p / (n3 * n4)) mod n2 = j /\ (p / n4) mod n3 = k /\ p mod n4 = l.
Proof.
  intros Hi Hj Hk Hl p.
  assert (P4 : p mod n4 = l) by (unfold p; rewrite Nat.add_comm, Nat.mod_add, Nat.mod_small; lia).
  assert (D4 : p / n4 = (i * n2 + j) * n3 + k) by (unfold p; rewrite Nat.div_add_l, Nat.div_small; lia).
  assert (P3 : (p / n4) mod n3 = k) by (rewrite D4, Nat.add_comm, Nat.mod_add, Nat.mod_small; lia).
  assert (D3 : p / (n3 * n4) = i * n2 + j) by (replace (n3 * n4) with (n4 * n3) by apply Nat.mul_comm; rewrite <- Nat.div_div by lia; rewrite D4, Nat.div_add_l by lia; rewrite (Nat.div_small k n3) by lia; lia).
  assert (P2 : (p / (n3 * n4)) mod n2 = j) by (rewrite D3, Nat.add_comm, Nat.mod_add, Nat.mod_small; lia).
  assert (D2 : p / (n2 * n3 * n4) = i).
  { replace (n2 * n3 * n4) with ((n3 * n4) * n2) by lia. rewrite <- Nat.div_div by nia. rewrite D3, Nat.div_add_l by lia. rewrite (Nat.div_small j n2) by lia. lia. }
  split; [|tauto]. unfold p. assert (i * n2 + j < n1 * n2) by nia. assert ((i * n2 + j) * n3 + k < n1 * n2 * n3) by nia. nia.
Qed.
Lemma at4_mk4 {A} (d : A) n1 n2 n3 n4 f i j k l : i < n1 -> j < n2 -> k < n3 -> l < n4 -> at4 d (mk4 n1 n2 n3 n4 f) i j k l = f i j k l.
Proof.
  intros Hi Hj Hk Hl. unfold at4, mk4. cbn [shape data]. destruct (index4 n1 n2 n3 n4 i j k l Hi Hj Hk Hl) as [P [E1 [E2 [E3 E4]]]].
  rewrite nth_map_seq by exact P. rewrite E1, E2, E3, E4. reflexivity.
Qed.
Lemma mk4_length {A} n1 n2 n3 n4 (f : nat -> nat -> nat -> nat -> A) : length (data (mk4 n1 n2 n3 n4 f)) = n1 * n2 * n3 * n4.
Proof. unfold mk4. cbn [data]. rewrite map_length. apply seq_length. Qed.

Lemma index3 n1 n2 n3 i j k : i < n1 -> j < n2 -> k < n3 ->
  let p := (i * n2 + j) * n3 + k in p < n1 * n2 * n3 /\ p / n3 = i * n2 + j /\ p mod n3 = k.
Proof.
  intros Hi Hj Hk p. split; [|split].
  - unfold p. assert (i * n2 + j < n1 * n2) by nia. nia.
  - unfold p. rewrite Nat.div_add_l, Nat.div_small; lia.
  - unfold p. rewrite Nat.add_comm, Nat.mod_add, Nat.mod_small; lia.
Qed.

Lemma dense_value d ub n u x n1 n2 : dense_of d ub n u -> tensor3 x n1 n2 n -> exists y, kdense_call d x = Ok y /\ tensor3 y n1 n2 u /\
  forall i j c, i < n1 -> j < n2 -> c < u -> elem3 (qz 0) y n2 u i j c = dense_out d (elem3 (qz 0) x n2 n i j) c.
Proof.
  intros [Hn [Hu [Lk _]]] [Sx Lx]. unfold kdense_call. rewrite Sx. cbn [rev app tl]. rewrite Hn, Hu, Nat.eqb_refl. eexists. split; [reflexivity|].
  assert (R : prodn [n2; n1] = n1 * n2) by (cbn; lia). rewrite R. split; [split; cbn [shape data]; [reflexivity|rewrite map_length; apply seq_length]|].
  intros i j c Hi Hj Hc. destruct (index3 n1 n2 u i j c Hi Hj Hc) as [P [E1 E2]]. unfold elem3. cbn [data]. rewrite nth_map_seq by exact P. rewrite E1, E2.
  unfold dense_out. rewrite Hn, Hu, qsum_seq. reflexivity.
Qed.

Lemma target_known a b c tail : target (map Some [a; b; c]) tail = Ok (a :: b :: tail).
Proof. reflexivity. Qed.

(** After splitting the heads and transposing. *)
Lemma heads_value y n1 n2 h d : tensor3 y n1 n2 (d * h) -> exists z y', reshape_static y (map Some (shape y)) [h; d] = Ok z /\ transpose0213 z = Ok y' /\ shape y' = [n1; h; n2; d] /\
  forall i t j e, i < n1 -> t < h -> j < n2 -> e < d -> at4 (qz 0) y' i t j e = elem3 (qz 0) y n2 (d * h) i j (t * d + e).
Proof.
  intros [Sy Ly]. unfold reshape_static. rewrite Sy, target_known. cbn [rbind]. unfold reshape.
  assert (P : prodn [n1; n2; h; d] = n1 * n2 * (d * h)) by (cbn; lia). rewrite P, Ly, Nat.eqb_refl. eexists. eexists. split; [reflexivity|]. split; [reflexivity|]. split; [reflexivity|].
  intros i t j e Hi Ht Hj He. rewrite at4_mk4 by assumption. unfold at4, elem3. cbn [shape data]. f_equal. lia.
Qed.

Lemma bpos_lt n i : i < n -> bpos n i = i.
Proof. intros H. unfold bpos. destruct (Nat.eqb_spec n 1); lia. Qed.
Lemma matmul_t a b n1 h n m p : shape a = [n1; h; n; m] -> shape b = [n1; h; p; m] -> exists c, matmul4 true a b = Ok c /\ shape c = [n1; h; n; p] /\ length (data c) = n1 * h * n * p /\
  forall i t k l, i < n1 -> t < h -> k < n -> l < p -> at4 (qz 0) c i t k l = qsum_to m (fun e => at4 (qz 0) a i t k e * at4 (qz 0) b i t l e)%Qc.
Proof.
  intros Sa Sb. unfold matmul4. rewrite Sa, Sb. unfold bdim. rewrite !Nat.eqb_refl. eexists. split; [reflexivity|]. split; [reflexivity|]. split; [apply mk4_length|].
  intros i t k l Hi Ht Hk Hl. rewrite at4_mk4 by assumption. rewrite qsum_seq, !bpos_lt by assumption. reflexivity.
Qed.
Lemma matmul_n a b n1 h n m p : shape a = [n1; h; n; m] -> shape b = [n1; h; m; p] -> exists c, matmul4 false a b = Ok c /\ shape c = [n1; h; n; p] /\
  forall i t k l, i < n1 -> t < h -> k < n -> l < p -> at4 (qz 0) c i t k l = qsum_to m (fun e => at4 (qz 0) a i t k e * at4 (qz 0) b i t e l)%Qc.
Proof.
  intros Sa Sb. unfold matmul4. rewrite Sa, Sb. unfold bdim. rewrite !Nat.eqb_refl. eexists. split; [reflexivity|]. split; [reflexivity|].
  intros i t k l Hi Ht Hk Hl. rewrite at4_mk4 by assumption. rewrite qsum_seq, !bpos_lt by assumption. reflexivity.
Qed.

(** Adding a mask. *)
Lemma mask_shape n1 h nq nk : broadcast_shape [n1; h; nq; nk] [n1; 1; nq; nk] = Some [n1; h; nq; nk].
Proof.
  unfold broadcast_shape, pad_to. cbn [length Nat.max Nat.sub repeat app bshape]. rewrite !Nat.eqb_refl. destruct (Nat.eqb_spec h 1) as [->|]; [reflexivity|]. reflexivity.
Qed.
Lemma mask_value t m n1 h nq nk : shape t = [n1; h; nq; nk] -> length (data t) = n1 * h * nq * nk -> mask_fits (Some m) n1 nq nk -> exists y, bmap2 (qz 0) (qz 0) Qcplus t (mask_term m) = Ok y /\ shape y = [n1; h; nq; nk] /\
  forall i e k l, i < n1 -> e < h -> k < nq -> l < nk -> at4 (qz 0) y i e k l = (at4 (qz 0) t i e k l + mask_at (Some m) nq nk i k l)%Qc.
Proof.
  intros St Lt Hm. assert (Sm : shape (mask_term m) = [n1; 1; nq; nk]) by (destruct m as [u|u]; destruct Hm as [S _]; unfold mask_term; cbn [shape]; rewrite S; reflexivity).
  unfold bmap2. rewrite St, Sm, mask_shape. eexists. split; [reflexivity|]. split; [reflexivity|]. intros i e k l Hi He Hk Hl.
  destruct (index4 n1 h nq nk i e k l Hi He Hk Hl) as [P [E1 [E2 [E3 E4]]]]. unfold at4 at 1. cbn [shape data].
  replace (prodn [n1; h; nq; nk]) with (n1 * h * nq * nk) by (cbn; lia). rewrite nth_map_seq by exact P. f_equal.
  - cbn [length]. rewrite !pad_to_eq by reflexivity. rewrite bidx_self by (cbn; lia). unfold at4. rewrite St. reflexivity.
  - cbn [length]. rewrite !pad_to_eq by reflexivity.
    assert (Q : forall p, p = ((i * h + e) * nq + k) * nk + l -> bidx [n1; 1; nq; nk] [n1; h; nq; nk] p = (i * nq + k) * nk + l).
    { intros p Ep. cbn [bidx]. replace (prodn [h; nq; nk]) with (h * (nq * nk)) by (cbn; lia). replace (prodn [nq; nk]) with (nq * nk) by (cbn; lia). replace (prodn [nk]) with nk by (cbn; lia).
      replace (prodn [1; nq; nk]) with (nq * nk) by (cbn; lia). replace (prodn []) with 1 by reflexivity. rewrite Nat.eqb_refl.
      assert (F1 : p / (h * (nq * nk)) = i) by (rewrite Ep, Nat.mul_assoc; exact E1).
      assert (M1 : p mod (h * (nq * nk)) = (e * nq + k) * nk + l) by (pose proof (Nat.div_mod p (h * (nq * nk))); rewrite F1 in H; nia). rewrite F1, M1.
      assert (M2 : ((e * nq + k) * nk + l) mod (nq * nk) = k * nk + l).
      { replace ((e * nq + k) * nk + l) with ((k * nk + l) + e * (nq * nk)) by lia. rewrite Nat.mod_add by nia. apply Nat.mod_small. nia. } rewrite M2.
      assert (F3 : (k * nk + l) / nk = k) by (rewrite Nat.div_add_l, Nat.div_small; lia). assert (M3 : (k * nk + l) mod nk = l) by (rewrite Nat.add_comm, Nat.mod_add, Nat.mod_small; lia). rewrite F3, M3.
      rewrite Nat.div_1_r.
      destruct (Nat.eqb_spec n1 1), (Nat.eqb_spec nq 1), (Nat.eqb_spec nk 1); nia. }
    rewrite (Q _ eq_refl). unfold mask_at, mask_term. destruct m as [u|u]; cbn [data]; [|reflexivity].
    exact (map_nth (fun b : bool => if b then qz 0 else qz (-1000000000)) (data u) true ((i * nq + k) * nk + l)).
Qed.

(** Softmax. *)
Lemma fold_qmax l : forall v, let m := fold_left qmax l v in (v = m \/ In m l) /\ (v <= m)%Qc /\ (forall x, In x l -> (x <= m)%Qc).
Proof.
  induction l as [|a l IH]; intros v; cbn [fold_left]; cbv zeta.
  - split; [left; reflexivity|]. split; [apply Qcle_refl|intros x []].
  - destruct (IH (qmax v a)) as [A [B C]]. cbv zeta in *. assert (D : (v <= qmax v a)%Qc /\ (a <= qmax v a)%Qc /\ (qmax v a = v \/ qmax v a = a)).
    { unfold qmax. destruct (qleb_spec v a); (split; [qlra|split; [qlra|tauto]]). }
    destruct D as [D1 [D2 D3]]. split; [|split; [qlra|]].
    + destruct A as [A|A]; [|right; right; exact A]. destruct D3 as [E|E]; [left; congruence|right; left; congruence].
    + intros x [<-|H]; [qlra|apply C, H].
Qed.
Lemma qsum_to_pos n f : 0 < n -> (forall j, j < n -> (qz 0 < f j)%Qc) -> (qz 0 < qsum_to n f)%Qc.
Proof.
  intros Hn Hf. induction n as [|n IH]; [lia|]. cbn [qsum_to]. destruct n as [|n].
  - cbn [qsum_to]. specialize (Hf 0 ltac:(lia)). qlra.
  - assert (qz 0 < qsum_to (S n) f)%Qc by (apply IH; [lia|intros; apply Hf; lia]). specialize (Hf (S n) ltac:(lia)). qlra.
Qed.
Lemma softmax_row_value ex n s : (forall x, qz 0 < ex x)%Qc -> 0 < n -> softmax_of ex n s (fun l => nth l (softmax_row ex (map s (seq 0 n))) (qz 0)).
Proof.
  intros Hp Hn. destruct n as [|n]; [lia|]. set (r := map s (seq 0 (S n))). assert (Er : r = s 0 :: map s (seq 1 n)) by reflexivity.
  unfold softmax_row. rewrite Er. destruct (fold_qmax (map s (seq 1 n)) (s 0)) as [A [B C]]. cbv zeta in *. set (m := fold_left qmax (map s (seq 1 n)) (s 0)) in *.
  exists m. split; [|split].
  - destruct A as [A|A]; [exists 0; split; [lia|congruence]|]. apply in_map_iff in A. destruct A as [j [E J]]. apply in_seq in J. exists j. split; [lia|congruence].
  - intros [|j] Hj; [exact B|]. apply C, in_map_iff. exists (S j). split; [reflexivity|apply in_seq; lia].
  - intros j Hj. rewrite <- Er. unfold r. rewrite !map_map. rewrite nth_map_seq by exact Hj. rewrite qsum_seq.
    assert (P : (qz 0 < qsum_to (S n) (fun j' => ex (s j' - m)))%Qc) by (apply qsum_to_pos; [lia|intros; apply Hp]).
    field. intros Z. rewrite Z in P. exact (Qclt_not_eq _ _ P eq_refl).
Qed.

(** The whole call. *)
Lemma attn_value ex sq fresh a q k v m training n nq nk dq dk dv w :
  (forall x, qz 0 < ex x)%Qc -> 0 < nk -> uses fresh a dq dk dv w -> attn_fits a w dq dk dv ->
  tensor3 q n nq dq -> tensor3 k n nk dk -> tensor3 v n nk dv -> mask_fits m n nq nk ->
  exists out p a', attn_call ex sq fresh a (map Some (shape q)) (map Some (shape k)) (map Some (shape v)) q k v m training = Ok (out, p, a') /\
    at_w a' = Some w /\ tensor3 out n nq dv /\ shape p = [n; at_heads a; nq; nk] /\
    (forall b h i, b < n -> h < at_heads a -> i < nq ->
       softmax_of ex nk (fun j => score sq a w h (elem3 (qz 0) q nq dq b i) (elem3 (qz 0) k nk dk b j) + mask_at m nq nk b i j)%Qc (at4 (qz 0) p b h i)) /\
    (forall b i o, b < n -> i < nq -> o < dv ->
       elem3 (qz 0) out nq dv b i o =
       dense_out (to_out w) (fun c => qsum_to nk (fun j => at4 (qz 0) p b (c / at_vd a) i j * dense_out (to_v w) (elem3 (qz 0) v nk dv b j) c)%Qc) o).
Proof.
  intros Hex Hnk HW [FQ [FK [FV FO]]] Tq Tk Tv Hm. unfold attn_call.
  assert (EW : match at_w a with Some w0 => Ok w0 | None => match last (map Some (shape q)) None, last (map Some (shape k)) None, last (map Some (shape v)) None with
      | Some q_dim, Some k_dim, Some v_dim => Ok (attn_build fresh a q_dim k_dim v_dim) | _, _, _ => Raise end end = Ok w).
  { destruct HW as [-> | [-> ->]]; [reflexivity|]. rewrite (proj1 Tq), (proj1 Tk), (proj1 Tv). reflexivity. }
  rewrite EW. cbn [rbind].
  destruct (dense_value _ _ _ _ _ _ _ FQ Tq) as [Q [EQ [TQ NQ]]]. destruct (dense_value _ _ _ _ _ _ _ FK Tk) as [K [EK [TK NK]]]. destruct (dense_value _ _ _ _ _ _ _ FV Tv) as [V [EV [TV NV]]].
  rewrite EQ. cbn [rbind]. rewrite EK. cbn [rbind]. rewrite EV. cbn [rbind].
  assert (SQ : forall (x y : tensor Qc) a1 a2 a3 a4 tail, tensor3 x a1 a2 a3 -> tensor3 y a1 a2 a4 -> reshape_static y (map Some (shape x)) tail = reshape_static y (map Some (shape y)) tail).
  { intros x y a1 a2 a3 a4 tail [S1 _] [S2 _]. unfold reshape_static. rewrite S1, S2, !target_known. reflexivity. }
  rewrite (SQ _ _ _ _ _ _ _ Tq TQ), (SQ _ _ _ _ _ _ _ Tk TK), (SQ _ _ _ _ _ _ _ Tv TV).
  destruct (heads_value _ _ _ _ _ TQ) as [Q1 [Q2 [E1 [E2 [S2 N2]]]]]. destruct (heads_value _ _ _ _ _ TK) as [K1 [K2 [E3 [E4 [S4 N4]]]]]. destruct (heads_value _ _ _ _ _ TV) as [V1 [V2 [E5 [E6 [S6 N6]]]]].
  rewrite E1. cbn [rbind]. rewrite E3. cbn [rbind]. rewrite E5. cbn [rbind]. rewrite E2. cbn [rbind]. rewrite E4. cbn [rbind]. rewrite E6. cbn [rbind].
  destruct (matmul_t Q2 K2 _ _ _ _ _ S2 S4) as [QK [E7 [S7 [L7 N7]]]]. rewrite E7. cbn [rbind]. cbv zeta.
  set (D := tmap (fun x => (x / sq (qz (Z.of_nat (at_kd a))))%Qc) QK).
  assert (SD : shape D = [n; at_heads a; nq; nk]) by exact S7. assert (LD : length (data D) = n * at_heads a * nq * nk) by (unfold D, tmap; cbn [data]; rewrite map_length; exact L7).
  assert (ND : forall b h i j, b < n -> h < at_heads a -> i < nq -> j < nk -> at4 (qz 0) D b h i j = score sq a w h (elem3 (qz 0) q nq dq b i) (elem3 (qz 0) k nk dk b j)).
  { intros b h i j Hb Hh Hi Hj. unfold score. assert (QKv : at4 (qz 0) QK b h i j = qsum_to (at_kd a) (fun t => dense_out (to_q w) (elem3 (qz 0) q nq dq b i) (h * at_kd a + t) * dense_out (to_k w) (elem3 (qz 0) k nk dk b j) (h * at_kd a + t))%Qc).
    { rewrite N7 by assumption. apply qsum_to_ext. intros t Ht. rewrite N2, N4 by assumption. rewrite NQ, NK by (try assumption; nia). reflexivity. }
    rewrite <- QKv. unfold at4. rewrite SD, S7. unfold D, tmap. cbn [data]. destruct (index4 n (at_heads a) nq nk b h i j Hb Hh Hi Hj) as [P _].
    pose proof (map_nth (fun x => (x / sq (qz (Z.of_nat (at_kd a))))%Qc) (data QK) (qz 0) (((b * at_heads a + h) * nq + i) * nk + j)) as MN. cbv beta in MN. rewrite <- MN.
    apply nth_indep. rewrite map_length, L7. exact P. }
  assert (M : exists D2, match m with None => Ok D | Some m0 => bmap2 (qz 0) (qz 0) Qcplus D (mask_term m0) end = Ok D2 /\ shape D2 = [n; at_heads a; nq; nk] /\
    forall b h i j, b < n -> h < at_heads a -> i < nq -> j < nk -> at4 (qz 0) D2 b h i j = (score sq a w h (elem3 (qz 0) q nq dq b i) (elem3 (qz 0) k nk dk b j) + mask_at m nq nk b i j)%Qc).
  { destruct m as [m|].
    - destruct (mask_value D m _ _ _ _ SD LD Hm) as [y [Ey [Sy Ny]]]. exists y. split; [exact Ey|]. split; [exact Sy|]. intros. rewrite Ny, ND by assumption. reflexivity.
    - exists D. split; [reflexivity|]. split; [exact SD|]. intros. rewrite ND by assumption. unfold mask_at. symmetry. rewrite Qcplus_comm. apply Qcplus_0_l. }
  destruct M as [D2 [ED2 [SD2 ND2]]]. rewrite ED2. cbn [rbind]. unfold softmax4. rewrite SD2. cbn [rbind].
  set (p := mk4 n (at_heads a) nq nk (fun i j k0 l => nth l (softmax_row ex (map (at4 (qz 0) D2 i j k0) (seq 0 nk))) (qz 0))).
  destruct (matmul_n p V2 n (at_heads a) nq nk (at_vd a) eq_refl S6) as [O [E8 [S8 N8]]]. rewrite E8. cbn [rbind]. unfold transpose0213. rewrite S8. cbn [rbind].
  set (O2 := mk4 n nq (at_heads a) (at_vd a) (fun i j k0 l => at4 (qz 0) O i k0 j l)).
  assert (LO : length (data O2) = prodn [n; nq; at_vd a * at_heads a]) by (unfold O2; rewrite mk4_length; cbn; lia).
  change (firstn 2 (shape O2) ++ [at_vd a * at_heads a]) with [n; nq; at_vd a * at_heads a]. unfold reshape. rewrite LO, Nat.eqb_refl. cbn [rbind].
  assert (T3 : tensor3 (mkT [n; nq; at_vd a * at_heads a] (data O2)) n nq (at_vd a * at_heads a)) by (split; [reflexivity|cbn [data]; rewrite LO; cbn; lia]).
  destruct (dense_value _ _ _ _ _ _ _ FO T3) as [out [EO [TO NO]]]. rewrite EO. cbn [rbind].
  exists out, p. eexists. split; [reflexivity|]. split; [reflexivity|]. split; [exact TO|]. split; [reflexivity|]. split.
  - intros b h i Hb Hh Hi.
    destruct (softmax_row_value ex nk (fun j => score sq a w h (elem3 (qz 0) q nq dq b i) (elem3 (qz 0) k nk dk b j) + mask_at m nq nk b i j)%Qc Hex Hnk) as [mx [X1 [X2 X3]]].
    exists mx. split; [exact X1|]. split; [exact X2|]. intros j Hj. rewrite <- X3 by exact Hj. f_equal. unfold p. rewrite at4_mk4 by assumption. do 2 f_equal.
    apply map_ext_in. intros l Hl. apply in_seq in Hl. apply ND2; try assumption; lia.
  - intros b i o Hb Hi Ho. rewrite NO by assumption. unfold dense_out at 1. unfold dense_out at 1. f_equal. rewrite (proj1 FO). apply qsum_to_ext. intros c Hc. f_equal.
    assert (V0 : at_vd a <> 0) by lia. set (h := c / at_vd a). set (e := c mod at_vd a). assert (Hh : h < at_heads a) by (apply Nat.div_lt_upper_bound; [exact V0|exact Hc]).
    assert (He : e < at_vd a) by (apply Nat.mod_upper_bound, V0). assert (Ec : c = h * at_vd a + e) by (unfold h, e; rewrite Nat.mul_comm; apply Nat.div_mod, V0).
    transitivity (at4 (qz 0) O2 b i h e). { unfold elem3, at4. cbn [shape data]. unfold O2 at 2, mk4. cbn [shape]. f_equal. rewrite Ec at 1. lia. }
    unfold O2. rewrite at4_mk4 by assumption. rewrite N8 by assumption. apply qsum_to_ext. intros j Hj. f_equal. rewrite N6 by assumption. rewrite <- Ec. apply NV; try assumption.
Qed.

(** Consequences. *)
Lemma qsum_to_scale n f c : (qsum_to n (fun j => f j * c) = qsum_to n f * c)%Qc.
Proof. induction n as [|n IH]; cbn [qsum_to]; [change (qz 0) with (Q2Qc 0); ring|rewrite IH; ring]. Qed.
Lemma qsum_to_mono n f g : (forall j, j < n -> (f j <= g j)%Qc) -> (qsum_to n f <= qsum_to n g)%Qc.
Proof. intros H. induction n as [|n IH]; cbn [qsum_to]; [apply Qcle_refl|]. assert (qsum_to n f <= qsum_to n g)%Qc by (apply IH; intros; apply H; lia). specialize (H n ltac:(lia)). qlra. Qed.
Lemma softmax_total ex n s p : (forall x, qz 0 < ex x)%Qc -> softmax_of ex n s p -> (forall j, j < n -> (qz 0 < p j)%Qc) /\ qsum_to n p = qz 1.
Proof.
  intros Hex [m [[j0 [J0 _]] [_ H]]]. set (T := qsum_to n (fun j' => ex (s j' - m)%Qc)) in *.
  assert (P : (qz 0 < T)%Qc) by (apply qsum_to_pos; [lia|intros; apply Hex]). split.
  - intros j Hj. specialize (H j Hj). pose proof (Hex (s j - m)%Qc) as E. rewrite <- H in E. apply Qcnot_le_lt. intros C. revert E. apply Qcle_not_lt. clear H. qnra.
  - assert (E : (qsum_to n p * T = T)%Qc) by (rewrite <- qsum_to_scale; apply qsum_to_ext; exact H).
    assert (T <> qz 0) by (intros Z; rewrite Z in P; exact (Qclt_not_eq _ _ P eq_refl)).
    transitivity ((qsum_to n p * T) / T)%Qc; [field; assumption|rewrite E; change (qz 1) with (Q2Qc 1); field; assumption].
Qed.
Lemma qsum_perm a b : Permutation a b -> qsum a = qsum b.
Proof. induction 1; unfold qsum in *; cbn; [reflexivity|congruence|ring|congruence]. Qed.
Lemma permutes_seq n f : permutes n f -> Permutation (map f (seq 0 n)) (seq 0 n).
Proof.
  intros [H1 H2]. apply NoDup_Permutation_bis.
  - assert (G : forall l, (forall x, In x l -> x < n) -> NoDup l -> NoDup (map f l)).
    { induction l as [|x l IH]; intros Hl ND; cbn [map]; [constructor|]. inversion ND; subst. constructor; [|apply IH; [intros; apply Hl; right; assumption|assumption]].
      intros C. apply in_map_iff in C. destruct C as [y [E Y]]. apply H2 in E; [subst; contradiction|apply Hl; right; assumption|apply Hl; left; reflexivity]. }
    apply G; [intros x Hx; apply in_seq in Hx; lia|apply seq_NoDup].
  - rewrite map_length. apply Nat.le_refl.
  - intros x Hx. apply in_map_iff in Hx. destruct Hx as [y [<- Y]]. apply in_seq in Y. apply in_seq. split; [lia|]. apply H1. lia.
Qed.
Lemma qsum_to_perm n f g : permutes n f -> qsum_to n (fun j => g (f j)) = qsum_to n g.
Proof. intros H. rewrite <- !qsum_seq. rewrite <- (map_map f g). apply qsum_perm, Permutation_map, permutes_seq, H. Qed.
Lemma permutes_onto n f j : permutes n f -> j < n -> exists i, i < n /\ f i = j.
Proof.
  intros H Hj. assert (I : In j (map f (seq 0 n))) by (apply (Permutation_in _ (Permutation_sym (permutes_seq n f H))), in_seq; lia).
  apply in_map_iff in I. destruct I as [i [E I]]. apply in_seq in I. exists i. split; [lia|exact E].
Qed.
Lemma softmax_permuted ex n f s s' p p' : (forall x, qz 0 < ex x)%Qc -> permutes n f -> (forall j, j < n -> s' j = s (f j)) ->
  softmax_of ex n s p -> softmax_of ex n s' p' -> forall j, j < n -> p' j = p (f j).
Proof.
  intros Hex Hf Hs [m [[a [A1 A2]] [A3 A4]]] [m' [[b [B1 B2]] [B3 B4]]] j Hj.
  assert (m = m').
  { apply Qcle_antisym.
    - destruct (permutes_onto n f a Hf A1) as [a' [I E]]. specialize (B3 a' I). rewrite Hs, E in B3 by exact I. congruence.
    - rewrite B2, Hs by exact B1. apply A3, (proj1 Hf), B1. }
  clear A2 B2. subst m'. specialize (A4 (f j) (proj1 Hf j Hj)). specialize (B4 j Hj). rewrite Hs in B4 by exact Hj.
  assert (E : qsum_to n (fun j' => ex (s' j' - m)%Qc) = qsum_to n (fun j' => ex (s j' - m)%Qc)).
  { rewrite <- (qsum_to_perm n f (fun j' => ex (s j' - m)%Qc) Hf). apply qsum_to_ext. intros i Hi. rewrite Hs by exact Hi. reflexivity. }
  rewrite E in B4. set (T := qsum_to n (fun j' => ex (s j' - m)%Qc)) in *. assert (P : (qz 0 < T)%Qc) by (apply qsum_to_pos; [lia|intros; apply Hex]).
  assert (T <> qz 0) by (intros Z; rewrite Z in P; exact (Qclt_not_eq _ _ P eq_refl)).
  transitivity ((p' j * T) / T)%Qc; [field; assumption|]. rewrite B4, <- A4. field; assumption.
Qed.

Lemma dense_out_ext d x y c : (forall t, t < kd_in d -> x t = y t) -> dense_out d x c = dense_out d y c.
Proof. intros H. unfold dense_out. f_equal. apply qsum_to_ext. intros t Ht. rewrite H by exact Ht. reflexivity. Qed.
Lemma score_ext sq a w h x x' y y' : (forall t, t < kd_in (to_q w) -> x t = x' t) -> (forall t, t < kd_in (to_k w) -> y t = y' t) -> score sq a w h x y = score sq a w h x' y'.
Proof. intros H1 H2. unfold score. f_equal. apply qsum_to_ext. intros t Ht. rewrite (dense_out_ext _ _ _ _ H1), (dense_out_ext _ _ _ _ H2). reflexivity. Qed.

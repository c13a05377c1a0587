(** C63: the gradient of the bit operations that a layer adds to its loss. *)
From Coq Require Import ZArith QArith Qcanon List Bool Lia Arith.
From Verif Require Import Base.Num Base.NumFacts Base.Tensor Base.Compute Model.FixedPoint Model.Quantizer Model.Layers Model.Bops Model.TrainBops Model.BopsGrad
  Spec.Fixed Spec.Quant Spec.History Spec.Layer Spec.Bops Spec.Reg Proofs.TensorP Proofs.QuantizerP Proofs.RecordP Proofs.LayersP Proofs.TrainBopsP Proofs.BopsGradP.
Import ListNotations.
Local Open Scope nat_scope.

(** One layer reading another one: the shapes the theorems need.  [m] leading axes of the kernel share bitwidths
    ([rest] are the others), [ts] are the multiplications, [da] and [dk] directions in the bitwidth variables. *)
Definition setting (ts : taps) (prev : hlayer) (da : tensor Qc) (kq : hgq) (dk : tensor Qc) (qk : tensor dual) (rest : list nat) : Prop :=
  quantizer_shape (l_paq prev) (l_out prev) /\ length (data da) = length (data (q_fbw (l_paq prev))) /\
  (exists m pre, prefix_skip (q_skip kq) m /\ length pre = m /\ shape qk = pre ++ rest /\ reg_ok m rest (q_fbw kq)) /\
  length (data qk) = prodn (shape qk) /\ length (data dk) = prodn rest /\
  (forall ps ab, In ps ts -> In ab ps -> fst ab < prodn (l_out prev) /\ snd ab < prodn (shape qk)).

(** C63: the term is beta times the reported bit operations; its derivative in direction (da, dk) is the sum over the
    multiplications of (change of the input width) * (kernel bits) + (input bits) * (change of the kernel width), where a
    width changes by its bitwidth's change times 1/sqrt(number of values sharing it) ([sa], [sk]) if it is positive and not
    at all if it is 0.  The kernel's own tangent plays no role. *)
Theorem C63_gradient : forall ts prev da sa kq dk qk sk factor beta rest, setting ts prev da kq dk qk rest ->
  exists ib kb loss, act_bw prev = Ok ib /\ trained_kernel_bw kq (tmap fst qk) = Ok kb /\
  bops_loss_d ts prev da sa kq dk qk sk factor beta = Ok loss /\
  fst loss = (qz (zsum (mac_bits ts (data ib) (data kb))) * factor * beta)%Qc /\
  forall wi wk ci ck, (forall a, wi a = nth a (data ib) 0%Z) -> (forall b, wk b = nth b (data kb) 0%Z) ->
    (forall a, (0 < wi a)%Z -> ci a = (sa * nth (group_of (l_paq prev) (l_out prev) a) (data da) (qz 0))%Qc) ->
    (forall a, ~ (0 < wi a)%Z -> ci a = qz 0) ->
    (forall b, (0 < wk b)%Z -> ck b = (sk * nth (b mod prodn rest) (data dk) (qz 0))%Qc) ->
    (forall b, ~ (0 < wk b)%Z -> ck b = qz 0) ->
    snd loss = (beta * factor * total (fun a b => ci a * qz (wk b) + qz (wi a) * ck b) (concat ts))%Qc.
Proof.
  intros ts prev da sa kq dk qk sk factor beta rest [Hq [La [[m [pre [Hp [Hm [Hs R]]]]] [W [Ld HT]]]]].
  destruct (bops_loss_eq ts prev da sa kq dk qk sk factor beta m pre rest Hq La Hp Hm Hs W R Ld HT) as [ib [kb [E1 [E2 E3]]]].
  exists ib, kb. eexists. split; [exact E1|]. split; [exact E2|]. split; [exact E3|]. split; [reflexivity|].
  intros wi wk ci ck Hwi Hwk C1 C2 K1 K2. cbn [snd].
  rewrite (total_ext _ (fun a b => ci a * qz (wk b) + qz (wi a) * ck b)%Qc); [ring|].
  intros [a b] _. cbn [fst snd]. unfold term, gated. rewrite <- Hwi, <- Hwk.
  destruct (Z.ltb_spec 0 (wi a)); [rewrite C1 by assumption|rewrite C2 by lia];
    (destruct (Z.ltb_spec 0 (wk b)); [rewrite K1 by assumption|rewrite K2 by lia]); change (qz 0) with (Q2Qc 0); ring.
Qed.
Print Assumptions C63_gradient.

Definition zeros (n : nat) : list Qc := repeat (qz 0) n.
Definition unit (n g : nat) : list Qc := map (fun j => if Nat.eqb j g then qz 1 else qz 0) (seq 0 n).

(** C63: the partial derivative in one kernel bitwidth: the input bits of every multiplication with a weight that uses
    the bitwidth and has a positive width. *)
Theorem C63_kernel_bitwidth : forall ts prev da sa kq dk qk sk factor beta rest g, setting ts prev da kq dk qk rest ->
  data da = zeros (length (data (q_fbw (l_paq prev)))) -> data dk = unit (prodn rest) g -> g < prodn rest ->
  exists ib kb loss, act_bw prev = Ok ib /\ trained_kernel_bw kq (tmap fst qk) = Ok kb /\
  bops_loss_d ts prev da sa kq dk qk sk factor beta = Ok loss /\
  snd loss = (beta * factor * sk * total (fun a _ => qz (nth a (data ib) 0%Z))
               (with_weight (fun b => Nat.eqb (b mod prodn rest) g && Z.ltb 0 (nth b (data kb) 0%Z)) (concat ts)))%Qc.
Proof.
  intros ts prev da sa kq dk qk sk factor beta rest g [Hq [La [[m [pre [Hp [Hm [Hs R]]]]] [W [Ld HT]]]]] Za Uk Hg.
  destruct (bops_loss_eq ts prev da sa kq dk qk sk factor beta m pre rest Hq La Hp Hm Hs W R Ld HT) as [ib [kb [E1 [E2 E3]]]].
  exists ib, kb. eexists. split; [exact E1|]. split; [exact E2|]. split; [exact E3|]. cbn [snd].
  unfold with_weight. rewrite total_filter. rewrite (total_ext _ (fun a b => sk * (if Nat.eqb (b mod prodn rest) g && Z.ltb 0 (nth b (data kb) 0%Z) then qz (nth a (data ib) 0%Z) else qz 0))%Qc).
  { rewrite total_scale. cbn [fst snd]. ring. }
  intros [a b] _. cbn [fst snd]. unfold term, gated. rewrite Za, Uk. unfold zeros, unit. rewrite nth_repeat.
  assert (G : b mod prodn rest < prodn rest) by (apply Nat.mod_upper_bound; lia). rewrite nth_map_seq by exact G.
  change (qz 0) with (Q2Qc 0). change (qz 1) with (Q2Qc 1).
  destruct (Nat.eqb (b mod prodn rest) g), (Z.ltb 0 (nth a (data ib) 0%Z)), (Z.ltb 0 (nth b (data kb) 0%Z)); cbn [andb]; ring.
Qed.
Print Assumptions C63_kernel_bitwidth.

(** C63: the partial derivative in one activation bitwidth of the layer read: the kernel bits of every multiplication that
    reads an element using the bitwidth, if the element's width is positive. *)
Theorem C63_activation_bitwidth : forall ts prev da sa kq dk qk sk factor beta rest g, setting ts prev da kq dk qk rest ->
  data da = unit (length (data (q_fbw (l_paq prev)))) g -> data dk = zeros (prodn rest) -> g < length (data (q_fbw (l_paq prev))) ->
  exists ib kb loss, act_bw prev = Ok ib /\ trained_kernel_bw kq (tmap fst qk) = Ok kb /\
  bops_loss_d ts prev da sa kq dk qk sk factor beta = Ok loss /\
  snd loss = (beta * factor * sa * total (fun _ b => qz (nth b (data kb) 0%Z))
               (with_input (fun a => Nat.eqb (group_of (l_paq prev) (l_out prev) a) g && Z.ltb 0 (nth a (data ib) 0%Z)) (concat ts)))%Qc.
Proof.
  intros ts prev da sa kq dk qk sk factor beta rest g [Hq [La [[m [pre [Hp [Hm [Hs R]]]]] [W [Ld HT]]]]] Ua Zk Hg.
  destruct (bops_loss_eq ts prev da sa kq dk qk sk factor beta m pre rest Hq La Hp Hm Hs W R Ld HT) as [ib [kb [E1 [E2 E3]]]].
  exists ib, kb. eexists. split; [exact E1|]. split; [exact E2|]. split; [exact E3|]. cbn [snd].
  unfold with_input. rewrite total_filter. rewrite (total_ext _ (fun a b => sa * (if Nat.eqb (group_of (l_paq prev) (l_out prev) a) g && Z.ltb 0 (nth a (data ib) 0%Z) then qz (nth b (data kb) 0%Z) else qz 0))%Qc).
  { rewrite total_scale. cbn [fst snd]. ring. }
  intros [a b] Hab. cbn [fst snd]. unfold term, gated. rewrite Zk, Ua. unfold zeros, unit. rewrite nth_repeat.
  apply in_concat in Hab. destruct Hab as [ps [H1 H2]]. destruct (HT ps _ H1 H2) as [A _]. cbn [fst] in A.
  rewrite nth_map_seq by (apply group_lt; assumption).
  change (qz 0) with (Q2Qc 0). change (qz 1) with (Q2Qc 1).
  destruct (Nat.eqb (group_of (l_paq prev) (l_out prev) a) g), (Z.ltb 0 (nth a (data ib) 0%Z)), (Z.ltb 0 (nth b (data kb) 0%Z)); cbn [andb]; ring.
Qed.
Print Assumptions C63_activation_bitwidth.

(** C63: widening never looks cheaper: along non-negative changes of the bitwidths the term does not decrease. *)
Theorem C63_never_negative : forall ts prev da sa kq dk qk sk factor beta rest loss, setting ts prev da kq dk qk rest ->
  (qz 0 <= sa)%Qc -> (qz 0 <= sk)%Qc -> (qz 0 <= factor)%Qc -> (qz 0 <= beta)%Qc ->
  Forall (fun t => (qz 0 <= t)%Qc) (data da) -> Forall (fun t => (qz 0 <= t)%Qc) (data dk) ->
  bops_loss_d ts prev da sa kq dk qk sk factor beta = Ok loss -> (qz 0 <= snd loss)%Qc /\ (qz 0 <= fst loss)%Qc.
Proof.
  intros ts prev da sa kq dk qk sk factor beta rest loss [Hq [La [[m [pre [Hp [Hm [Hs R]]]]] [W [Ld HT]]]]] Ps Pk Pf Pb Fa Fk E.
  destruct (bops_loss_eq ts prev da sa kq dk qk sk factor beta m pre rest Hq La Hp Hm Hs W R Ld HT) as [ib [kb [E1 [E2 E3]]]].
  rewrite E3 in E. injection E as <-. cbn [fst snd].
  assert (MUL : forall a b, (qz 0 <= a)%Qc -> (qz 0 <= b)%Qc -> (qz 0 <= a * b)%Qc).
  { intros a b A B. change (qz 0) with (Q2Qc 0) in *. replace (Q2Qc 0) with (Q2Qc 0 * b)%Qc by ring. apply Qcmult_le_compat_r; assumption. }
  assert (NTH : forall l n, Forall (fun t => (qz 0 <= t)%Qc) l -> (qz 0 <= nth n l (qz 0))%Qc).
  { intros l n F. destruct (nth_in_or_default n l (qz 0)) as [I| ->]; [|apply Qcle_refl]. rewrite Forall_forall in F. apply F, I. }
  assert (GT : forall b t, (qz 0 <= t)%Qc -> (qz 0 <= gated b t)%Qc) by (intros b t T; unfold gated; destruct (Z.ltb 0 b); [exact T|apply Qcle_refl]).
  assert (IB : forall a, (0 <= nth a (data ib) 0)%Z).
  { intros a. destruct (act_bw_spec prev Hq) as [t [Et [_ [Lt Nt]]]]. rewrite E1 in Et. injection Et as <-.
    destruct (Nat.lt_ge_cases a (prodn (l_out prev))) as [H|H]; [|rewrite nth_overflow by lia; lia]. rewrite Nt by exact H.
    unfold abw_at, act_bw_elem. destruct (bits_approx_elem _ _ _ _) as [[i f] k]. apply relu_nonneg. }
  assert (KB : forall b, (0 <= nth b (data kb) 0)%Z).
  { intros b. destruct (trained_bits kq (tmap fst qk) m pre rest Hp Hm Hs) as [t [Et [_ [Lt Nt]]]]; [cbn [tmap data shape]; rewrite map_length; exact W|exact R|].
    rewrite E2 in Et. injection Et as <-.
    destruct (Nat.lt_ge_cases b (prodn (shape (tmap fst qk)))) as [H|H]; [|rewrite nth_overflow by lia; lia].
    destruct (Nt b _ H (nearest_even_ex _)) as [B _]. exact B. }
  assert (QZ : forall z, (0 <= z)%Z -> (qz 0 <= qz z)%Qc) by (intros z Hz; apply (proj2 (qz_le _ _)); exact Hz).
  split.
  - apply MUL; [apply MUL; [|exact Pf]|exact Pb]. apply total_nonneg. intros [a b] _. cbn [fst snd]. unfold term.
    pose proof (MUL _ _ (MUL _ _ (GT (nth a (data ib) 0%Z) _ (NTH _ (group_of (l_paq prev) (l_out prev) a) Fa)) Ps) (QZ _ (KB b))) as X.
    pose proof (MUL _ _ (QZ _ (IB a)) (MUL _ _ (GT (nth b (data kb) 0%Z) _ (NTH _ (b mod prodn rest) Fk)) Pk)) as Y. qlra.
  - apply MUL; [apply MUL; [|exact Pf]|exact Pb]. apply QZ. unfold mac_bits. apply zsum_map_nonneg. intros ps _. apply zsum_map_nonneg. intros ab _.
    apply Z.mul_nonneg_nonneg; [apply IB|apply KB].
Qed.
Print Assumptions C63_never_negative.

(** Two inputs of 3 and 1 bits, a 2x2 kernel with one bitwidth per column (4 sharing 2 values each). *)
Definition g_prev : hlayer := mkL (Fn (fun x => hd [] x))
  (with_minmax (hgq_build (mkT [1; 2] [qz 0; qz 0]) (Some [0%Z]) 0 true None)
     (mkT [1; 2] [Fin (qz 0); Fin (qz 0)]) (mkT [1; 2] [Fin (qz 7); Fin (qz 1)])) true (-1) [2].
Definition g_kq : hgq := hgq_build (mkT [1; 2] [qz 2; qz 0]) (Some [0%Z]) 0 true None.
Definition g_qk : tensor dual := mkT [2; 2] [(Q2Qc (7 # 4), qz 1); (qz 0, qz 5); (Q2Qc (1 # 4), qz 2); (qz 0, qz 9)].
Example C63_ex : forall sa sk,
  setting (matmul_taps 1 2 2) g_prev (mkT [1; 2] [qz 0; qz 0]) g_kq (mkT [1; 2] [qz 1; qz 0]) g_qk [2] /\
  rbind (act_bw g_prev) (fun t => Ok (data t)) = Ok [3; 1]%Z /\ trained_kernel_bw g_kq (tmap fst g_qk) = Ok (mkT [2; 2] [3; 0; 3; 0]%Z) /\
  exists loss, bops_loss_d (matmul_taps 1 2 2) g_prev (mkT [1; 2] [qz 0; qz 0]) sa g_kq (mkT [1; 2] [qz 1; qz 0]) g_qk sk (qz 1) (qz 10) = Ok loss /\
    fst loss = qz 120 /\ snd loss = (qz 40 * sk)%Qc.
Proof.
  intros.
  assert (ST : setting (matmul_taps 1 2 2) g_prev (mkT [1; 2] [qz 0; qz 0]) g_kq (mkT [1; 2] [qz 1; qz 0]) g_qk [2]).
  { split; [exists [2]; repeat split|]. split; [reflexivity|]. split; [exists 1, [2]; repeat split; left; reflexivity|]. do 2 (split; [reflexivity|]).
    cbn. intros ps ab [<-|[<-|[]]] [<-|[<-|[]]]; cbn; lia. }
  split; [exact ST|]. do 2 (split; [vm_compute; reflexivity|]).
  destruct (C63_kernel_bitwidth _ _ _ sa _ _ _ sk (qz 1) (qz 10) _ 0 ST eq_refl eq_refl ltac:(cbn; lia)) as [ib [kb [loss [E1 [E2 [E3 E4]]]]]].
  destruct (C63_gradient _ _ _ sa _ _ _ sk (qz 1) (qz 10) _ ST) as [ib' [kb' [loss' [E1' [E2' [E3' [E4' _]]]]]]].
  exists loss. split; [exact E3|]. rewrite E3 in E3'. injection E3' as <-. rewrite E1 in E1'. injection E1' as <-. rewrite E2 in E2'. injection E2' as <-.
  assert (D1 : data ib = [3; 1]%Z) by (assert (X : rbind (act_bw g_prev) (fun t => Ok (data t)) = Ok [3; 1]%Z) by (vm_compute; reflexivity); rewrite E1 in X; cbn in X; congruence).
  assert (D2 : data kb = [3; 0; 3; 0]%Z) by (assert (X : rbind (trained_kernel_bw g_kq (tmap fst g_qk)) (fun t => Ok (data t)) = Ok [3; 0; 3; 0]%Z) by (vm_compute; reflexivity); rewrite E2 in X; cbn in X; congruence).
  rewrite D1, D2 in *. split.
  - rewrite E4'. qvm.
  - rewrite E4. match goal with |- context [total ?f ?l] => assert (X : total f l = qz 4) by qvm end. rewrite X.
    replace (qz 40) with (qz 10 * qz 1 * qz 4)%Qc by qvm. ring.
Qed.

(** The batch statistics of HBatchNormalization (C56). *)
From Coq Require Import ZArith Qcanon List Bool Lia.
From Verif Require Import Base.Num Base.NumFacts Base.Tensor Model.Quantizer Model.Layers Model.BatchNorm
  Spec.Norm Spec.BnStats Proofs.TensorP Proofs.ShapeP Proofs.SampleP Proofs.CallP Proofs.BatchNormP Proofs.MovingP.
Import ListNotations.
Local Open Scope nat_scope.

Lemma prodn_kept1 fl : forall s, prodn (kept1 fl s) = prodn (kept fl s).
Proof. induction fl as [|f fl IH]; intros [|a s]; try reflexivity. cbn [kept kept1]. destruct f; cbn [prodn fold_right]; fold prodn; fold (prodn (kept1 fl s)); rewrite IH; [lia|reflexivity]. Qed.
Lemma kept1_length fl : forall s, length (kept1 fl s) = length s.
Proof. induction fl as [|f fl IH]; intros [|a s]; try reflexivity. cbn. rewrite IH. reflexivity. Qed.
Lemma ridx_bidx fl : forall s p, length fl = length s -> p < prodn s -> ridx fl s p = bidx (kept1 fl s) s p.
Proof.
  induction fl as [|f fl IH]; intros [|a s] p L Hp; try discriminate.
  - cbn in *. lia.
  - cbn [ridx kept1 bidx]. cbn [prodn fold_right] in Hp. fold (prodn s) in Hp. assert (NZ : prodn s <> 0) by (intros E; rewrite E in Hp; lia).
    rewrite <- IH by (cbn in L; try lia; apply Nat.mod_upper_bound; exact NZ). destruct f; [reflexivity|].
    rewrite prodn_kept1. destruct (Nat.eqb_spec a 1) as [->|]; [|reflexivity]. rewrite Nat.div_small by lia. reflexivity.
Qed.
Lemma kept1_bshape fl : forall s, length fl = length s -> bshape (kept1 fl s) s = Some s.
Proof.
  induction fl as [|f fl IH]; intros [|a s] L; try discriminate; [reflexivity|]. cbn [kept1 bshape]. rewrite IH by (cbn in L; lia).
  destruct f; [|rewrite Nat.eqb_refl; reflexivity]. destruct (Nat.eqb_spec 1 a); [subst; reflexivity|reflexivity].
Qed.

Lemma fold_group (P : nat -> bool) (l : list (nat * Qc)) : forall acc,
  fold_left (fun a pv => if P (fst pv) then (a + snd pv)%Qc else a) l acc = (acc + qsum (map snd (filter (fun pv => P (fst pv)) l)))%Qc.
Proof.
  induction l as [|[i v] l IH]; intros acc; cbn [fold_left filter fst snd]; [cbn; change (qz 0) with 0%Qc; ring|]. rewrite IH.
  destruct (P i); [|reflexivity]. cbn [map snd qsum fold_right]. unfold qsum. cbn [fold_right]. ring.
Qed.
Lemma qsum_ones {A} (l : list A) : qsum (map (fun _ => qz 1) l) = qz (Z.of_nat (length l)).
Proof.
  induction l as [|a l IH]; [reflexivity|]. change (qsum (map (fun _ => qz 1) (a :: l))) with (qz 1 + qsum (map (fun _ : A => qz 1) l))%Qc. rewrite IH. cbn [length].
  rewrite Nat2Z.inj_succ, <- Z.add_1_l, qz_add. reflexivity.
Qed.

Lemma group_ext (P Q : nat -> bool) (l : list Qc) : (forall p, p < length l -> P p = Q p) -> forall a, 
  (forall p, p < length l -> P (a + p) = Q (a + p)) ->
  filter (fun pv : nat * Qc => P (fst pv)) (combine (seq a (length l)) l) = filter (fun pv => Q (fst pv)) (combine (seq a (length l)) l).
Proof.
  intros _. induction l as [|x l IH]; intros a H; [reflexivity|]. cbn [length seq combine filter fst].
  pose proof (H 0 ltac:(cbn; lia)) as H0. rewrite Nat.add_0_r in H0. rewrite H0. rewrite (IH (S a)); [reflexivity|]. intros p Hp.
  specialize (H (S p) ltac:(cbn; lia)). rewrite Nat.add_succ_r in H. exact H.
Qed.

Section S.
Variable axes : list Z.

Lemma tmean_spec (x : tensor Qc) : wf_tensor x -> let s := kept1 (axis_flags (length (shape x)) axes) (shape x) in
  shape (tmean axes x) = s /\ length (data (tmean axes x)) = prodn s /\
  forall o, o < prodn s -> nth o (data (tmean axes x)) (qz 0) = mean_list (group_of s x o).
Proof.
  intros W s. unfold tmean. set (fl := axis_flags (length (shape x)) axes) in *.
  assert (Lf : length fl = length (shape x)) by (unfold fl, axis_flags; rewrite map_length, seq_length; reflexivity).
  cbn [shape data treduce]. split; [reflexivity|]. cbn [tmap shape]. split.
  - unfold treduce. cbn [data tmap shape]. rewrite map_length, combine_length, !map_length, !seq_length, Nat.min_id. unfold s. rewrite prodn_kept1. reflexivity.
  - intros o Ho. unfold treduce. cbn [data tmap shape]. unfold s in Ho. rewrite prodn_kept1 in Ho.
    set (f := fun o => fold_left _ (combine (seq 0 (length (data x))) (data x)) (qz 0)). set (g := fun o => fold_left _ _ (qz 0)).
    rewrite (nth_indep _ (qz 0) ((fun ab : Qc * Qc => (fst ab / snd ab)%Qc) (qz 0, qz 0))) by (rewrite map_length, combine_length, !map_length, seq_length; lia).
    rewrite (map_nth (fun ab : Qc * Qc => (fst ab / snd ab)%Qc)), combine_nth by (rewrite !map_length; reflexivity). cbn [fst snd].
    rewrite !nth_map_seq by assumption. unfold f, g. rewrite map_length.
    rewrite (fold_group (fun p => Nat.eqb (ridx fl (shape x) p) o)), (fold_group (fun p => Nat.eqb (ridx fl (shape x) p) o)).
    assert (C : forall (l : list Qc) a, map snd (filter (fun pv : nat * Qc => Nat.eqb (ridx fl (shape x) (fst pv)) o) (combine (seq a (length l)) (map (fun _ => qz 1) l))) =
      map (fun _ => qz 1) (map snd (filter (fun pv : nat * Qc => Nat.eqb (ridx fl (shape x) (fst pv)) o) (combine (seq a (length l)) l)))).
    { induction l as [|y l IH]; intros a; [reflexivity|]. cbn [length seq combine map filter fst]. destruct (Nat.eqb _ o); [cbn [map snd]; f_equal; apply IH|apply IH]. }
    rewrite C, qsum_ones.
    assert (G : map snd (filter (fun pv : nat * Qc => Nat.eqb (ridx fl (shape x) (fst pv)) o) (combine (seq 0 (length (data x))) (data x))) = group_of s x o).
    { unfold group_of. f_equal. apply (group_ext (fun p => Nat.eqb (ridx fl (shape x) p) o) (fun p => Nat.eqb (bidx s (shape x) p) o) (data x)); intros p Hp; cbn;
        rewrite ridx_bidx by (try assumption; rewrite <- W; assumption); reflexivity. }
    rewrite G. unfold mean_list. change (qz 0) with 0%Qc. rewrite !Qcplus_0_l. reflexivity.
Qed.

Lemma tvar_spec (x : tensor Qc) : wf_tensor x -> let s := kept1 (axis_flags (length (shape x)) axes) (shape x) in
  exists v, tvar axes x = Ok v /\ shape v = s /\ length (data v) = prodn s /\
  forall o, o < prodn s -> nth o (data v) (qz 0) = var_list (group_of s x o).
Proof.
  intros W s. destruct (tmean_spec x W) as [S1 [L1 N1]]. fold s in S1, L1, N1. unfold tvar.
  assert (Lf : length (axis_flags (length (shape x)) axes) = length (shape x)) by (unfold axis_flags; rewrite map_length, seq_length; reflexivity).
  pose proof (kept1_bshape _ (shape x) Lf) as HB. fold s in HB. destruct (bshape_length _ _ _ HB) as [LL _].
  destruct (bmap2 (qz 0) (qz 0) (fun a m => ((a - m) * (a - m))%Qc) x (tmean axes x)) as [d|] eqn:E.
  2: { unfold bmap2 in E. rewrite S1, broadcast_eq_rank, bshape_comm, HB in E by congruence. discriminate. }
  destruct (bmap2_ok _ _ _ _ _ _ E) as (B & L & N). rewrite S1, broadcast_eq_rank, bshape_comm, HB in B by congruence. injection B as B.
  cbn [rbind]. exists (tmean axes d). split; [reflexivity|]. assert (Wd : wf_tensor d) by (unfold wf_tensor; congruence).
  destruct (tmean_spec d Wd) as [S2 [L2 N2]]. rewrite <- B in S2, L2, N2. fold s in S2, L2, N2. split; [assumption|]. split; [assumption|].
  intros o Ho. rewrite (N2 o Ho). unfold var_list. f_equal. unfold group_of. rewrite <- B.
  assert (ED : data d = map (fun p => let a := nth p (data x) (qz 0) in let m := mean_list (group_of s x (bidx s (shape x) p)) in ((a - m) * (a - m))%Qc) (seq 0 (length (data x)))).
  { apply (list_nth_ext (qz 0)); [rewrite map_length, seq_length; unfold wf_tensor in *; congruence|]. intros p Hp.
    assert (Hp' : p < prodn (shape x)) by congruence. rewrite nth_map_seq by (rewrite W; assumption). cbv zeta.
    rewrite N by congruence. rewrite <- B, S1. rewrite pad_to_eq by reflexivity. rewrite (pad_to_eq _ s) by congruence. rewrite bidx_self by exact Hp'.
    rewrite N1 by (apply bidx_lt; [rewrite bshape_comm; exact HB|exact Hp']). reflexivity. }
  rewrite ED, map_length, seq_length. set (n := length (data x)). fold (group_of s x o).
  assert (K : forall (l : list Qc) a (h : nat -> Qc), (forall p, p < length l -> nth p l (qz 0) = h (a + p)) ->
    map snd (filter (fun pv : nat * Qc => Nat.eqb (bidx s (shape x) (fst pv)) o)
      (combine (seq a (length l)) (map (fun p => let u := h p in let m := mean_list (group_of s x (bidx s (shape x) p)) in ((u - m) * (u - m))%Qc) (seq a (length l))))) =
    map (fun u => ((u - mean_list (group_of s x o)) * (u - mean_list (group_of s x o)))%Qc)
      (map snd (filter (fun pv : nat * Qc => Nat.eqb (bidx s (shape x) (fst pv)) o) (combine (seq a (length l)) l)))).
  { induction l as [|y l IH]; intros a h H; [reflexivity|]. cbn [length seq combine map filter fst snd].
    assert (H0 : y = h a) by (specialize (H 0 ltac:(cbn; lia)); rewrite Nat.add_0_r in H; exact H).
    specialize (IH (S a) h). assert (H1 : forall p, p < length l -> nth p l (qz 0) = h (S a + p)) by (intros p Hp; specialize (H (S p) ltac:(cbn; lia)); rewrite Nat.add_succ_r in H; exact H).
    specialize (IH H1). destruct (Nat.eqb_spec (bidx s (shape x) a) o) as [Eo|Eo]; [|exact IH]. cbn [map snd]. f_equal; [rewrite Eo, <- H0; reflexivity|exact IH]. }
  apply (K (data x) 0 (fun p => nth p (data x) (qz 0))). reflexivity.
Qed.
End S.

Lemma mean_list_is l : l <> [] -> is_mean l (mean_list l).
Proof. intros NE. destruct (mean_exists l NE) as [m H]. rewrite (mean_list_spec l m NE H). exact H. Qed.
Lemma var_list_is l : l <> [] -> is_var l (var_list l).
Proof. intros NE. destruct (var_exists l NE) as [m H]. rewrite (var_list_spec l m NE H). exact H. Qed.

Lemma bnorm_statistics rsqrt pw ln2 l x rec n1 n2 n3 y l' :
  let s := kept1 (axis_flags (length (shape x)) (m_axes l)) (shape x) in
  wf_tensor x -> shape (m_mean l) = s -> shape (m_var l) = s ->
  bnorm_forward rsqrt pw ln2 l x true rec n1 n2 n3 = Ok (y, l') ->
  exists mean var z, let q quant n t := rbind (call pw ln2 quant t true false n) (fun r => Ok (fst r)) in
    let at_ t c := nth c (data t) (qz 0) in
    shape mean = s /\ shape var = s /\
    (forall c, c < prodn s -> group_of s x c <> [] ->
      is_mean (group_of s x c) (at_ mean c) /\ is_var (group_of s x c) (at_ var c) /\
      at_ (m_mean l') c = (m_momentum l * at_ (m_mean l) c + (qz 1 - m_momentum l) * at_ mean c)%Qc /\
      at_ (m_var l') c = (m_momentum l * at_ (m_var l) c + (qz 1 - m_momentum l) * at_ var c)%Qc) /\
    bnorm_z rsqrt l (q (m_kq l) n1) (q (m_paq l) n2) mean var x = Ok z /\
    exists q', call pw ln2 (clip_fbw (m_paq l)) z true rec n3 = Ok (y, q').
Proof.
  intros s W SM SV E. unfold bnorm_forward in E. destruct (tmean_spec (m_axes l) x W) as [S1 [L1 N1]]. destruct (tvar_spec (m_axes l) x W) as [var [EV [S2 [L2 N2]]]].
  fold s in S1, L1, N1, S2, L2, N2. rewrite EV in E. cbn [rbind] in E. cbv zeta in E.
  set (upd := fun a b => (a - (a - b) * (qz 1 - m_momentum l))%Qc) in E.
  destruct (bmap2_same (qz 0) (qz 0) upd (m_mean l) (tmean (m_axes l) x)) as (mm & E1 & SM1 & LM1 & NM1); [congruence|].
  destruct (bmap2_same (qz 0) (qz 0) upd (m_var l) var) as (mv & E2 & SM2 & LM2 & NM2); [congruence|].
  rewrite E1, E2 in E. cbn [rbind] in E. apply rbind_ok in E. destruct E as [z [EZ E]]. apply rbind_ok in E. destruct E as [[y' q'] [EQ E]]. cbn [fst snd] in E.
  injection E as -> <-. exists (tmean (m_axes l) x), var, z. cbv zeta. split; [assumption|]. split; [assumption|]. split.
  - intros c Hc NE. split; [rewrite (N1 c Hc); apply mean_list_is, NE|]. split; [rewrite (N2 c Hc); apply var_list_is, NE|]. cbn [m_mean m_var].
    rewrite NM1 by congruence. rewrite NM2 by congruence. unfold upd. change (qz 1) with 1%Qc. split; ring.
  - split; [exact EZ|]. eauto.
Qed.

(** The gradient of the bit operations. *)
From Coq Require Import ZArith QArith Qcanon List Bool Lia Arith.
From Verif Require Import Base.Num Base.NumFacts Base.Tensor Model.Quantizer Model.Layers Model.Bops Model.TrainBops Model.BopsGrad
  Spec.Quant Spec.History Spec.Layer Spec.Bops Spec.Reg Proofs.TensorP Proofs.QuantizerP Proofs.RecordP Proofs.SampleP Proofs.LayersP Proofs.TrainBopsP.
Import ListNotations.
Local Open Scope nat_scope.

Definition gated (b : Z) (t : Qc) : Qc := if Z.ltb 0 b then t else qz 0.

Lemma scale_grad_d d s : scale_grad d (d_const s) = (fst d, (snd d * s)%Qc).
Proof. destruct d as [v t]. unfold scale_grad, d_add, d_mul, stop_gradient, d_sub, d_const. cbn [fst snd]. f_equal; change (qz 0) with (Q2Qc 0); ring. Qed.
Lemma fp_bits_d_eq f : fp_bits_d f = (qz (qround_even (fst f)), snd f).
Proof. destruct f as [v t]. unfold fp_bits_d, d_add, stop_gradient, d_sub, d_const. cbn [fst snd]. f_equal; change (qz 0) with (Q2Qc 0); ring. Qed.
Lemma qz_pos_ltb a : qltb (qz 0) (qz a) = Z.ltb 0 a.
Proof.
  destruct (qltb_spec (qz 0) (qz a)) as [H|H]; symmetry.
  - apply Z.ltb_lt. apply (proj1 (qz_lt _ _)) in H. exact H.
  - apply Z.ltb_ge. apply Z.nlt_ge. intros C. apply (proj2 (qz_lt _ _)) in C. qlra.
Qed.
Lemma relu_d_eq e b t : relu_d (match e with ZNegInf => None | ZFin a => Some (qz (a + b), t) end) = (qz (relu_z (zext_add e b)), gated (relu_z (zext_add e b)) t).
Proof.
  unfold gated. destruct e as [|a]; cbn [relu_d zext_add relu_z]; [reflexivity|]. cbn [fst]. rewrite qz_pos_ltb.
  destruct (Z.ltb_spec 0 (a + b)) as [H|H].
  - rewrite Z.max_l by lia. destruct (Z.ltb_spec 0 (a + b)); [reflexivity|lia].
  - rewrite Z.max_r by lia. reflexivity.
Qed.
Lemma add_bits_d_eq e f : add_bits_d e (fp_bits_d f) = match e with ZNegInf => None | ZFin a => Some (qz (a + qround_even (fst f)), snd f) end.
Proof.
  rewrite fp_bits_d_eq. destruct e; cbn; [reflexivity|]. do 2 f_equal. unfold d_add, d_const. cbn [fst snd]. rewrite qz_add.
  f_equal. change (qz 0) with (Q2Qc 0). ring.
Qed.

Lemma kernel_bits_d kq dk (qk : tensor dual) s m pre rest : prefix_skip (q_skip kq) m -> length pre = m -> shape qk = pre ++ rest ->
  length (data qk) = prodn (shape qk) -> reg_ok m rest (q_fbw kq) -> length (data dk) = prodn rest ->
  exists kb kbd, trained_kernel_bw kq (tmap fst qk) = Ok kb /\ trained_kernel_bw_d kq dk qk s = Ok kbd /\
  forall p, p < prodn (shape qk) -> nth p (data kbd) (d_const (qz 0)) =
    (qz (nth p (data kb) 0%Z), (gated (nth p (data kb) 0%Z) (nth (p mod prodn rest) (data dk) (qz 0)) * s)%Qc).
Proof.
  intros Hp Hm Hs W [R1 R2] Ld.
  destruct (ref_bits_prefix (q_skip kq) m pre rest (tmap fst qk) Hp Hm Hs) as [S1 [L1 _]]; [cbn [data shape tmap]; rewrite map_length; exact W|].
  unfold trained_kernel_bw, trained_kernel_bw_d. set (ib := ref_int_bits (q_skip kq) (tmap fst qk)) in *.
  destruct (bmap2_lead ZNegInf (qz 0) (fun i f => relu_z (zext_add i (qround_even f))) m rest _ _ S1 R1) as [b [Eb [Sb [Lb Nb]]]]. rewrite Eb. cbn [rbind].
  assert (R1' : shape (dual_tensor (q_fbw kq) dk) = repeat 1 m ++ rest) by exact R1.
  destruct (bmap2_lead ZNegInf (d_const (qz 0)) (fun i f => scale_grad (relu_d (add_bits_d i (fp_bits_d f))) (d_const s)) m rest _ _ S1 R1') as [c [Ec [Sc [Lc Nc]]]]. rewrite Ec. cbn [rbind].
  rewrite <- Hm in Sb, Sc.
  destruct (broadcast_to_prefix 0%Z pre rest b Sb) as [kb [Ek [Sk [Lk Nk]]]].
  destruct (@broadcast_to_prefix dual (d_const (qz 0)) pre rest c Sc) as [kc [Ekc [Skc [Lkc Nkc]]]].
  cbn [tmap shape]. change (@shape (Qc * Qc) qk) with (@shape dual qk). rewrite Hs, Ek, Ekc. exists kb, kc. split; [reflexivity|]. split; [reflexivity|].
  intros p Hp'. rewrite Nk, Nkc by assumption.
  assert (PR : prodn rest <> 0) by (rewrite prodn_app in Hp'; nia).
  assert (G : p mod prodn rest < prodn rest) by (apply Nat.mod_upper_bound; assumption).
  rewrite Nb, Nc by assumption. assert (X : nth (p mod prodn rest) (data (dual_tensor (q_fbw kq) dk)) (d_const (qz 0)) = (nth (p mod prodn rest) (data (q_fbw kq)) (qz 0), nth (p mod prodn rest) (data dk) (qz 0))) by (apply combine_nth; congruence).
  rewrite X.
  rewrite add_bits_d_eq, relu_d_eq, scale_grad_d. reflexivity.
Qed.

Lemma act_bits_d l da s : quantizer_shape (l_paq l) (l_out l) -> length (data da) = length (data (q_fbw (l_paq l))) ->
  exists ib ibd, act_bw l = Ok ib /\ act_bw_d l da s = Ok ibd /\
  forall e, e < prodn (l_out l) -> nth e (data ibd) (d_const (qz 0)) =
    (qz (nth e (data ib) 0%Z), (gated (nth e (data ib) 0%Z) (nth (group_of (l_paq l) (l_out l) e) (data da) (qz 0)) * s)%Qc).
Proof.
  intros Hq Ld. destruct (act_bw_spec l Hq) as [ib [Eb [Sb [Lb Nb]]]]. exists ib.
  destruct Hq as [bw [Hs [Hb [Hl [Hm HM]]]]]. unfold act_bw_d, broadcast_to. cbv zeta. cbn [shape data dual_tensor]. rewrite Hs.
  rewrite (broadcast_out 1 _ _ Hb).
  destruct (list_eq_dec Nat.eq_dec (1 :: l_out l) (1 :: l_out l)) as [_|N]; [|congruence].
  eexists. split; [exact Eb|]. split; [reflexivity|]. cbn [shape data]. intros e He. rewrite nth_map_seq by (rewrite prodn_cons; lia).
  destruct (bshape_length _ _ _ Hb) as [L _]. rewrite pad_to_eq by (cbn [length]; lia).
  assert (G : bidx (1 :: bw) (1 :: l_out l) e = group_of (l_paq l) (l_out l) e).
  { cbn [bidx]. rewrite Nat.mod_small by assumption. unfold group_of. rewrite Hs. reflexivity. }
  rewrite G. assert (GL : group_of (l_paq l) (l_out l) e < prodn bw) by (unfold group_of; rewrite Hs; apply bidx_lt; assumption).
  rewrite Nb by assumption. unfold abw_at. set (g := group_of (l_paq l) (l_out l) e) in *.
  match goal with |- nth g (map ?f ?li) _ = _ => rewrite (nth_indep (map f li) _ (f ((PosInf, NegInf), (qz 0, qz 0)))); [rewrite (map_nth f)|] end.
  - rewrite combine_nth by (rewrite !combine_length; lia). rewrite !combine_nth by lia. cbn [fst snd].
    unfold act_bw_elem_d, act_bw_elem. cbn [fst snd].
    destruct (bits_approx_elem (l_relu l) _ _ _) as [[i f] kn] eqn:E.
    assert (Ef : f = qround_even (nth g (data (q_fbw (l_paq l))) (qz 0))) by (unfold bits_approx_elem in E; destruct (l_relu l); congruence). subst f.
    rewrite add_bits_d_eq. cbn [fst snd]. destruct (l_relu l).
    + rewrite Z.add_0_r, relu_d_eq, scale_grad_d. reflexivity.
    + assert (X : forall t, option_map (fun b : dual => d_add b (d_const (qz kn))) (match i with ZNegInf => None | ZFin a => Some (qz (a + qround_even (nth g (data (q_fbw (l_paq l))) (qz 0))), t) end)
         = match i with ZNegInf => None | ZFin a => Some (qz (a + (qround_even (nth g (data (q_fbw (l_paq l))) (qz 0)) + kn)), t) end).
      { intros t. destruct i as [|a]; cbn; [reflexivity|]. unfold d_add, d_const. cbn [fst snd]. rewrite Z.add_assoc, (qz_add _ kn). do 2 f_equal. change (qz 0) with (Q2Qc 0). ring. }
      rewrite X, relu_d_eq, scale_grad_d. reflexivity.
  - rewrite map_length, combine_length. pose proof (combine_length (data (q_fbw (l_paq l))) (data da)) as X. pose proof (combine_length (data (q_min (l_paq l))) (data (q_max (l_paq l)))). unfold dual in *. rewrite X. lia.
Qed.

Lemma dsum_pair l : dsum l = (qsum (map fst l), qsum (map snd l)).
Proof. induction l as [|a l IH]; [reflexivity|]. cbn [dsum fold_right map]. fold (dsum l). rewrite IH. reflexivity. Qed.
Lemma total_qsum f l : total f l = qsum (map (fun ab => f (fst ab) (snd ab)) l).
Proof. induction l as [|a l IH]; [reflexivity|]. cbn [total map qsum fold_right]. fold (qsum (map (fun ab => f (fst ab) (snd ab)) l)). rewrite IH. reflexivity. Qed.
Lemma total_app f a b : total f (a ++ b) = (total f a + total f b)%Qc.
Proof. induction a as [|x a IH]; cbn [app total]; [change (qz 0) with (Q2Qc 0); ring|]. rewrite IH. ring. Qed.
Lemma total_ext f g l : (forall ab, In ab l -> f (fst ab) (snd ab) = g (fst ab) (snd ab)) -> total f l = total g l.
Proof. induction l as [|x l IH]; intros H; [reflexivity|]. cbn [total]. rewrite (H x (or_introl eq_refl)), IH by (intros; apply H; right; assumption). reflexivity. Qed.
Lemma total_scale c f l : total (fun a b => c * f a b)%Qc l = (c * total f l)%Qc.
Proof. induction l as [|x l IH]; cbn [total]; [change (qz 0) with (Q2Qc 0); ring|]. rewrite IH. ring. Qed.
Lemma total_filter f (P : nat * nat -> bool) l : total f (filter P l) = total (fun a b => if P (a, b) then f a b else qz 0) l.
Proof.
  induction l as [|[a b] l IH]; [reflexivity|]. cbn [filter total fst snd]. destruct (P (a, b)); cbn [total fst snd]; rewrite IH; [reflexivity|].
  change (qz 0) with (Q2Qc 0). ring.
Qed.
Lemma total_nonneg f l : (forall ab, In ab l -> (qz 0 <= f (fst ab) (snd ab))%Qc) -> (qz 0 <= total f l)%Qc.
Proof.
  induction l as [|x l IH]; intros H; cbn [total]; [apply Qcle_refl|]. pose proof (H x (or_introl eq_refl)).
  assert (qz 0 <= total f l)%Qc by (apply IH; intros; apply H; right; assumption). qlra.
Qed.

Lemma mac_bits_d_eq ts ib kb (ibd kbd : list dual) (tot : nat -> nat -> Qc) :
  (forall ps ab, In ps ts -> In ab ps ->
    d_mul (nth (fst ab) ibd (d_const (qz 0))) (nth (snd ab) kbd (d_const (qz 0))) = (qz (nth (fst ab) ib 0%Z * nth (snd ab) kb 0%Z), tot (fst ab) (snd ab))) ->
  mac_bits_d ts ibd kbd = (qz (zsum (mac_bits ts ib kb)), total tot (concat ts)).
Proof.
  unfold mac_bits_d, mac_bits. induction ts as [|ps ts IH]; intros H; [reflexivity|].
  cbn [map dsum fold_right concat zsum]. fold (dsum (map (fun ps => dsum (map (fun ab => d_mul (nth (fst ab) ibd (d_const (qz 0))) (nth (snd ab) kbd (d_const (qz 0)))) ps)) ts)).
  rewrite IH by (intros; eapply H; [right; eassumption|assumption]). fold (zsum (map (fun ps => zsum (map (fun ab => nth (fst ab) ib 0 * nth (snd ab) kb 0)%Z ps)) ts)).
  rewrite total_app, qz_add.
  assert (X : dsum (map (fun ab => d_mul (nth (fst ab) ibd (d_const (qz 0))) (nth (snd ab) kbd (d_const (qz 0)))) ps)
    = (qz (zsum (map (fun ab => (nth (fst ab) ib 0 * nth (snd ab) kb 0)%Z) ps)), total tot ps)).
  { assert (H' : forall ab, In ab ps -> d_mul (nth (fst ab) ibd (d_const (qz 0))) (nth (snd ab) kbd (d_const (qz 0))) = (qz (nth (fst ab) ib 0%Z * nth (snd ab) kb 0%Z), tot (fst ab) (snd ab)))
      by (intros; apply (H ps); [left; reflexivity|assumption]). clear H IH.
    induction ps as [|ab ps IHp]; [reflexivity|]. cbn [map dsum fold_right zsum total].
    fold (dsum (map (fun ab => d_mul (nth (fst ab) ibd (d_const (qz 0))) (nth (snd ab) kbd (d_const (qz 0)))) ps)).
    rewrite IHp by (intros; apply H'; right; assumption). rewrite (H' ab (or_introl eq_refl)).
    fold (zsum (map (fun ab => (nth (fst ab) ib 0 * nth (snd ab) kb 0)%Z) ps)). rewrite qz_add. reflexivity. }
  rewrite X. reflexivity.
Qed.

(** The term of one multiplication in the gradient. *)
Definition term (sa sk : Qc) (ib kb : list Z) (ta tk : nat -> Qc) (a b : nat) : Qc :=
  (gated (nth a ib 0%Z) (ta a) * sa * qz (nth b kb 0%Z) + qz (nth a ib 0%Z) * (gated (nth b kb 0%Z) (tk b) * sk))%Qc.

Lemma bops_loss_eq ts prev da sa kq dk (qk : tensor dual) sk factor beta m pre rest :
  quantizer_shape (l_paq prev) (l_out prev) -> length (data da) = length (data (q_fbw (l_paq prev))) ->
  prefix_skip (q_skip kq) m -> length pre = m -> shape qk = pre ++ rest ->
  length (data qk) = prodn (shape qk) -> reg_ok m rest (q_fbw kq) -> length (data dk) = prodn rest ->
  (forall ps ab, In ps ts -> In ab ps -> fst ab < prodn (l_out prev) /\ snd ab < prodn (shape qk)) ->
  exists ib kb, act_bw prev = Ok ib /\ trained_kernel_bw kq (tmap fst qk) = Ok kb /\
  bops_loss_d ts prev da sa kq dk qk sk factor beta = Ok
    ((qz (zsum (mac_bits ts (data ib) (data kb))) * factor * beta)%Qc,
     (total (term sa sk (data ib) (data kb) (fun a => nth (group_of (l_paq prev) (l_out prev) a) (data da) (qz 0)) (fun b => nth (b mod prodn rest) (data dk) (qz 0))) (concat ts) * factor * beta)%Qc).
Proof.
  intros Hq La Hp Hm Hs W R Ld HT.
  destruct (act_bits_d prev da sa Hq La) as [ib [ibd [E1 [E2 N1]]]].
  destruct (kernel_bits_d kq dk qk sk m pre rest Hp Hm Hs W R Ld) as [kb [kbd [E3 [E4 N2]]]].
  exists ib, kb. split; [exact E1|]. split; [exact E3|]. unfold bops_loss_d. rewrite E2. cbn [rbind]. rewrite E4. cbn [rbind].
  rewrite (mac_bits_d_eq ts (data ib) (data kb) (data ibd) (data kbd) (term sa sk (data ib) (data kb) (fun a => nth (group_of (l_paq prev) (l_out prev) a) (data da) (qz 0)) (fun b => nth (b mod prodn rest) (data dk) (qz 0)))).
  - unfold d_mul, d_const. cbn [fst snd]. do 2 f_equal. change (qz 0) with (Q2Qc 0). ring.
  - intros ps ab H1 H2. destruct (HT ps ab H1 H2) as [A B]. rewrite N1, N2 by assumption. unfold d_mul, term. cbn [fst snd]. rewrite qz_mul. reflexivity.
Qed.

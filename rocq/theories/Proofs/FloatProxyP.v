(** The proxy model in single precision (C90). *)
From Coq Require Import ZArith QArith Qcanon List Bool String Lia.
From Verif Require Import Base.Num Base.NumFacts Base.Tensor Model.FixedPoint Model.Quantizer Model.Layers Model.Graph
  Model.Convert Model.Trace Model.Float32 Model.FloatLayer Model.FloatNet Spec.Fixed Spec.Quant Spec.History Spec.Layer Spec.Graph Spec.Trace
  Spec.Float Spec.FloatLayer Spec.FloatNet Proofs.TensorP Proofs.QuantizerP Proofs.FixedPointP
  Proofs.CallP Proofs.SampleP Proofs.LayersP Proofs.ConvertP Proofs.TraceP Proofs.FeedP Proofs.TraceMinmaxP Proofs.CoverP Proofs.TraceMoreP
  Proofs.CalibStepP Proofs.ProxyModelP Proofs.ProxyLayerP Proofs.ProxyConvP Proofs.ProxyTraceP Proofs.ProxyGuardP Proofs.FloatSumP Proofs.FloatLayerP Proofs.FloatModelP Proofs.FloatNetP.
Import ListNotations.
Local Open Scope nat_scope.

Lemma agrees32_spec r v : agrees r v = true <-> r = Ok v.
Proof.
  unfold agrees. destruct r as [w|]; [|split; discriminate]. destruct (batch_eq w v) as [->|N]; [tauto|]. split; [discriminate|]. intros H. injection H. tauto.
Qed.
Lemma one32_spec {A} (vs : list A) v : one vs = Ok v <-> vs = [v].
Proof. destruct vs as [|a [|b vs]]; cbn; split; intros H; try discriminate; injection H as ->; reflexivity. Qed.

Section X.
Variables (acc acc' : list (Qc * Qc) -> Qc) (S0 : string) (st : store).
Hypothesis HS : S0 = "WRAP"%string \/ S0 = "SAT"%string.
Notation PX := (proxy_xf32 acc' S0 st).
Notation uid := (fun x : layer => fst x).

Definition ps32 (x : layer) (vs : list (list sample)) : result (list sample) := rbind (call_layer32 acc x vs st) (fun r => Ok (fst r)).
(** The value of a layer where its proxy has the same value. *)
Definition isem32 (x : layer) (vs : list (list sample)) : result (list sample) :=
  rbind (ps32 x vs) (fun v =>
  match PX (Some x) with
  | Ok XNone => if agrees (one vs) v then Ok v else Raise
  | Ok (XLayer y) => if agrees (ps32 y vs) v then Ok v else Raise
  | Ok (XModel m) => if agrees (rbind (eval ps32 m vs) one) v then Ok v else Raise
  | Raise => Raise
  end).
Lemma isem32_ps x vs v : isem32 x vs = Ok v -> ps32 x vs = Ok v.
Proof.
  unfold isem32. intros E. apply rbind_ok in E. destruct E as [w [-> E]]. destruct (PX (Some x)) as [[|y|m]|]; [| | |discriminate];
    (destruct (agrees _ _); [|discriminate]; exact E).
Qed.
Lemma isem32_plain x vs : plain x -> isem32 x vs = ps32 x vs.
Proof.
  intros H. unfold isem32. destruct (ps32 x vs) as [v|] eqn:E; [|reflexivity]. cbn [rbind]. destruct x as [u k]. unfold plain in H. cbn [snd] in H.
  destruct k as [i|i|c out|g|[|]| |g|q out|]; try contradiction; cbn [proxy_xf32].
  - assert (EE : one vs = Ok v). { unfold ps32, call_layer32 in E. cbn [snd] in E. destruct (one vs); [|discriminate]. exact E. } rewrite EE, (proj2 (agrees32_spec _ _) eq_refl). reflexivity.
  - assert (EE : one vs = Ok v). { unfold ps32, call_layer32 in E. cbn [snd] in E. destruct (one vs); [|discriminate]. exact E. } rewrite EE, (proj2 (agrees32_spec _ _) eq_refl). reflexivity.
  - rewrite (proj2 (agrees32_spec _ _) E). reflexivity.
  - rewrite (proj2 (agrees32_spec _ _) E). reflexivity.
  - rewrite (proj2 (agrees32_spec _ _) E). reflexivity.
Qed.

(** What one application of the transformer gives. *)
Lemma px32_result x : match PX (Some x) with
  | Ok (XLayer y) => plain y /\ (fst y <> fst x \/ y = x)
  | Ok (XModel m) => leaves plain m /\ single m /\ one_output m /\ depth m = 2
  | _ => True end.
Proof.
  destruct x as [u k]. assert (F : forall k, fresh u k <> u) by (intros; unfold fresh; lia).
  destruct k as [i|i|c out|g|[|]| |g|q out|]; cbn [proxy_xf32]; try exact I; try (split; [exact I|cbn [fst]; auto]).
  - destruct (get st i) as [o|]; [|exact I]. cbn [rbind]. destruct (to_proxy32 acc' (o_layer o) S0) as [p|]; [|exact I]. cbn [rbind].
    assert (PK : plain (fresh u 0, match o_act o with ALinear => KLin | _ => KKeras (p_op p) end)) by (destruct (o_act o); exact I).
    assert (SG : forall n nodes o1, Forall (fun n => match fst n with Leaf x => plain x | Sub _ _ _ => False end) nodes -> nodes <> [] -> let m := Sub n nodes [o1] in leaves plain m /\ single m /\ one_output m /\ depth m = 2).
    { intros n nodes o1 HF HN. cbv zeta. split; [|split; [|split]].
      - constructor. intros k ins Hin. rewrite Forall_forall in HF. specialize (HF _ Hin). cbn [fst] in HF. destruct k; [constructor; assumption|contradiction].
      - constructor. rewrite Forall_forall in *. intros n0 Hn. specialize (HF n0 Hn). destruct (fst n0); [split; constructor|contradiction].
      - reflexivity.
      - cbn [depth]. f_equal. clear -HF HN. induction nodes as [|n0 nodes IH]; [congruence|]. inversion HF as [|? ? H1 H2]; subst. cbn [fold_right].
        destruct n0 as [[x|] i]; cbn [fst] in H1; [|contradiction]. cbn [fst depth]. destruct nodes as [|n1 nodes]; [reflexivity|]. rewrite IH; [reflexivity|assumption|discriminate]. }
    destruct (p_chain p); (apply SG; [repeat (apply Forall_cons; [cbn [fst]; first [exact PK|exact I]|]); apply Forall_nil|discriminate]).
  - destruct (get st i) as [o|]; [|exact I]. cbn [rbind]. destruct (layer_quantizer _ _ _) as [q|]; [|exact I]. cbn [rbind]. split; [exact I|cbn [fst]; auto].
Qed.

Lemma isem32_preserves : preserves isem32 PX.
Proof.
  split; [reflexivity|]. intros x vs v E. pose proof (px32_result x) as PR. unfold isem32 in E. apply rbind_ok in E. destruct E as [w [Ew E]].
  destruct (PX (Some x)) as [[|y|m]|]; [| | |exact I]; destruct (agrees _ w) eqn:A; try discriminate; injection E as <-; apply agrees32_spec in A.
  - apply one32_spec, A.
  - rewrite isem32_plain by apply PR. exact A.
  - split; [apply PR|]. split; [apply PR|]. apply rbind_ok in A. destruct A as [ys [Ey A]]. apply one32_spec in A. subst ys.
    apply (eval_mono ps32 isem32); [|exact Ey]. destruct PR as [PL _]. eapply leaves_impl; [|exact PL]. intros z Hz vs' v' Hv. cbv beta in *. rewrite isem32_plain by assumption. exact Hv.
Qed.

Lemma isem32_ok_none x vs v : PX (Some x) = Ok XNone -> ps32 x vs = Ok v -> vs = [v] -> isem32 x vs = Ok v.
Proof. intros E E1 ->. unfold isem32. rewrite E1. cbn [rbind]. rewrite E. rewrite (proj2 (agrees32_spec _ _)) by reflexivity. reflexivity. Qed.
Lemma isem32_ok_layer x y vs v : PX (Some x) = Ok (XLayer y) -> ps32 x vs = Ok v -> ps32 y vs = Ok v -> isem32 x vs = Ok v.
Proof. intros E E1 E2. unfold isem32. rewrite E1. cbn [rbind]. rewrite E. rewrite (proj2 (agrees32_spec _ _) E2). reflexivity. Qed.
Lemma isem32_ok_model x m vs v : PX (Some x) = Ok (XModel m) -> ps32 x vs = Ok v -> eval ps32 m vs = Ok [v] -> isem32 x vs = Ok v.
Proof. intros E E1 E2. unfold isem32. rewrite E1. cbn [rbind]. rewrite E, E2. cbn [rbind one]. rewrite (proj2 (agrees32_spec _ _) eq_refl). reflexivity. Qed.

(** The chain of apply_layer settles. *)
Lemma px32_plain y : plain y -> PX (Some y) = Ok (XLayer y) \/ PX (Some y) = Ok XNone.
Proof. destruct y as [u k]. unfold plain. cbn [snd]. destruct k as [i|i|c out|g|[|]| |g|q out|]; try contradiction; cbn [proxy_xf32]; auto. Qed.
Lemma loop32_plain rem y x : plain y -> xf_loop uid PX (S (S rem)) (Some x) (XLayer y) = Ok (XLayer y) \/ xf_loop uid PX (S (S rem)) (Some x) (XLayer y) = Ok XNone.
Proof.
  intros H. cbn [xf_loop same]. destruct (Nat.eqb _ _); [auto|]. destruct (px32_plain y H) as [E|E]; rewrite E; cbn [rbind].
  - cbn [xf_loop same]. rewrite Nat.eqb_refl. auto.
  - right. destruct rem; reflexivity.
Qed.
Lemma px32_chain x : match PX (Some x) with
  | Raise => xf_chain uid PX x = Raise
  | Ok XNone => xf_chain uid PX x = Ok XNone
  | Ok (XLayer y) => xf_chain uid PX x = Ok (XLayer y) \/ xf_chain uid PX x = Ok XNone
  | Ok (XModel m) => xf_chain uid PX x = Ok (XModel m)
  end.
Proof.
  pose proof (px32_result x) as PR. pose proof (xf_chain_eq uid PX x) as E. change 1024 with (S (S 1022)) in E. generalize dependent 1022. intros rem E. rewrite E. clear E.
  destruct (PX (Some x)) as [[|y|m]|]; cbn [rbind].
  - destruct rem; reflexivity.
  - apply loop32_plain, PR.
  - reflexivity.
  - reflexivity.
Qed.
Lemma chain32_leaf_plain x : plain x -> xf_chain uid PX x = Ok (XLayer x) \/ xf_chain uid PX x = Ok XNone.
Proof. intros H. pose proof (px32_chain x) as C. destruct (px32_plain x H) as [E|E]; rewrite E in C; tauto. Qed.
Lemma chain32_proxy x y : xf_chain uid PX x = Ok (XLayer y) -> proxy_layer y.
Proof.
  intros E. pose proof (px32_chain x) as C. pose proof (px32_result x) as PR. destruct (PX (Some x)) as [[|y'|m]|] eqn:EP; try congruence.
  destruct PR as [Py _].
  assert (y' = y) by (destruct C; congruence). subst y'.
  (* the settled layer is its own image *)
  assert (EY : PX (Some y) = Ok (XLayer y)).
  { destruct (px32_plain y Py) as [H|H]; [assumption|]. exfalso. revert E. rewrite xf_chain_eq, EP. cbn [rbind]. change 1024 with (S (S 1022)). generalize 1022. intros rem.
    destruct x as [u k]. destruct y as [w k']. destruct k' as [i|i|c out|g|[|]| |g|q out|]; try contradiction; try (cbn in H; discriminate);
      (assert (W : w <> u); [destruct k as [i|i|c out|g|[|]| |g|q out|]; cbn [proxy_xf32] in EP; try discriminate;
         try (injection EP as <-; unfold fresh; lia);
         (destruct (get st i) as [o|]; [|discriminate]; cbn [rbind] in EP; first [destruct (layer_quantizer _ _ _)|destruct (to_proxy32 _ _ _) as [p|]; [cbn [rbind] in EP; destruct (p_chain p)|]]; cbn [rbind] in EP; discriminate EP)|];
       cbn [xf_loop same fst]; apply not_eq_sym, Nat.eqb_neq in W; rewrite W; cbn [proxy_xf32 rbind xf_loop same]; destruct rem; discriminate). }
  destruct y as [w k']. unfold proxy_layer. cbn [snd]. destruct k' as [i|i|c out|g|[|]| |g|q out|]; try contradiction; try exact I; cbn in EY; discriminate.
Qed.

Lemma px32_within : forall n k, leaves (fun x => exists lx, PX (Some x) = Ok lx) k -> depth k + 2 <= n -> within uid PX n k.
Proof.
  induction n as [|n IH]; intros k HL HD; [lia|]. destruct HL as [x [lx Hx]|nin nodes outs HL].
  - cbn [within]. pose proof (px32_chain x) as C. pose proof (px32_result x) as PR. rewrite Hx in C, PR. destruct lx as [|y|m].
    + eexists. split; [exact C|exact I].
    + destruct C as [C|C]; (eexists; split; [exact C|exact I]).
    + exists (XModel m). split; [exact C|]. destruct PR as [PL [_ [_ PD]]]. cbn [depth] in HD. destruct n as [|[|n]]; [lia|lia|].
      clear -PL PD HS. destruct m as [|nin nodes outs]; [discriminate|]. inversion PL as [|? ? ? HL]; subst. intros k ins Hin. specialize (HL k ins Hin).
      cbn [depth] in PD. injection PD as PD. assert (DK : depth k <= 1).
      { rewrite <- PD. clear -Hin. induction nodes as [|a nodes IHn]; [destruct Hin|]. cbn [fold_right]. destruct Hin as [->|Hin]; cbn [fst]; [|specialize (IHn Hin)]; lia. }
      destruct k as [z|? ? ?].
      * inversion HL; subst. cbn [within]. destruct (chain32_leaf_plain z H0) as [C|C]; (eexists; split; [exact C|exact I]).
      * cbn [within]. intros k' ins' Hin'. exfalso. cbn [depth] in DK. apply le_S_n in DK.
        assert (1 <= depth k') by (destruct k'; cbn; lia). revert DK. clear PD Hin HL PL. induction nodes0 as [|a nodes0 IHn]; [destruct Hin'|]. cbn [fold_right].
        destruct Hin' as [->|Hin']; cbn [fst]; [lia|]. intros H1. apply IHn; [assumption|lia].
  - cbn [within]. intros k ins Hin. apply IH; [eapply HL, Hin|]. cbn [depth] in HD.
    assert (depth k <= fold_right (fun n a => Nat.max (depth (fst n)) a) 0 nodes).
    { clear -Hin. induction nodes as [|a nodes IHn]; [destruct Hin|]. cbn [fold_right]. destruct Hin as [->|Hin]; cbn [fst]; [|specialize (IHn Hin)]; lia. }
    lia.
Qed.


(** Conversion of a model whose layers all agree with their proxies on the inputs. *)
Lemma conversion32 fuel m names B ys : single m -> (forall x, m <> Leaf x) -> leaves (fun x => exists lx, PX (Some x) = Ok lx) m -> depth m + 2 <= fuel ->
  eval isem32 m B = Ok ys ->
  exists pm ns s, convert_model uid PX fuel m names = Ok (pm, ns, s) /\ leaves proxy_layer pm /\
    forall any, call_model32 acc pm B any = Ok (ys, any).
Proof.
  intros Hs HN HL HD E. pose proof (convert_ok uid PX isem32 fuel m names B ys isem32_preserves Hs E) as C.
  destruct (convert_model uid PX fuel m names) as [[[pm ns] s]|] eqn:EC.
  2: { destruct (C (px32_within fuel m HL HD)) as [x ->]. destruct (HN x eq_refl). }
  exists pm, ns, s. split; [reflexivity|]. pose proof (convert_leaves uid PX proxy_layer chain32_proxy fuel m names pm ns s EC) as PL. split; [exact PL|].
  assert (EG : eval ps32 pm B = Ok ys) by (apply (eval_mono isem32 ps32 pm); [|exact C]; eapply leaves_impl; [|exact PL]; intros x _ vs v; apply isem32_ps).
  intros any. unfold call_model32. rewrite (run_const (call_layer32 acc) ps32 any).
  - rewrite EG. reflexivity.
  - eapply leaves_impl; [|exact PL]. intros [u k] H vs. unfold proxy_layer in H. cbn [snd] in H. unfold ps32, call_layer32. cbn [snd].
    destruct k; try contradiction.
    + destruct (zip_samples vs); reflexivity.
    + destruct (one vs) as [b|]; [|reflexivity]. cbn [rbind]. destruct (negb _); [reflexivity|]. destruct (fpq_call32 _ _); reflexivity.
    + destruct (one vs); reflexivity.
Qed.
End X.

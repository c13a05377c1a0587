(** C62: a layer and its proxy on inputs outside the calibrated range. *)
From Coq Require Import ZArith QArith Qcanon List Bool String Lia.
From Verif Require Import Base.Num Base.NumFacts Base.Tensor Base.Compute Model.FixedPoint Model.Quantizer Model.Layers
  Spec.Fixed Spec.Quant Spec.Layer Spec.Overflow Proofs.FixedPointP Proofs.TensorP Proofs.QuantizerP Proofs.RecordP Proofs.BitsP
  Proofs.SampleP Proofs.ProxyElemP Proofs.FixedPointLayerP Proofs.LayersP Proofs.OverflowP.
Import ListNotations.
Local Open Scope string_scope.
Local Open Scope Z_scope.

(** The value the proxy must have at one element, from the derived bits and the quantized value y of the HGQ layer. *)
Definition outside (S : string) (t : Z * Z * Z) (y v : Qc) : Prop :=
  let '(k, i, f) := t in (k + i + f = 0 -> v = qz 0) /\ (k + i + f <> 0 -> overflow_value S k i f y v).

Lemma outside_if S t y v : (let '(k, i, f) := t in if k + i + f =? 0 then v = qz 0 else overflow_value S k i f y v) -> outside S t y v.
Proof. destruct t as [[k i] f]. cbn. destruct (Z.eqb_spec (k + i + f) 0); intros H; split; intros; try assumption; contradiction. Qed.

(** C62: for every input, the proxy output is the HGQ output passed through the derived format: it agrees modulo
    2^(k+i) under WRAP and is the closest value of the format under SAT; elements of width 0 are 0.  Layers without
    ReLU under both policies, layers with ReLU under SAT. *)
Theorem C62_layer_any_input : forall pw ln2 l S, layer_ok l -> bits_clipped (l_paq l) -> calibrated (l_paq l) ->
  (S = "WRAP" /\ l_relu l = false) \/ S = "SAT" ->
  exists p bits, to_proxy pw ln2 l S = Ok p /\ get_bits_exact (l_paq l) (l_relu l) = Ok bits /\
  forall xs record nk nb na ys l', hforward pw ln2 l xs false record nk nb na = Ok (ys, l') ->
    exists vs, pcall p xs = Ok vs /\ List.length vs = List.length ys /\
    forall j y v e, nth_error ys j = Some y -> nth_error vs j = Some v -> (e < prodn (l_out l))%nat ->
      outside S (nth (group_of (l_paq l) (l_out l) e) bits (0, 0, 0)) (nth e y (qz 0)) (nth e v (qz 0)).
Proof.
  intros pw ln2 l S HL HB HC HS'. assert (HS : S = "WRAP" \/ S = "SAT") by tauto.
  destruct (op_spec pw ln2 l HL) as [zf [g [op' [EP [EK Hzg]]]]]. pose proof HL as [Hq [NZ _]].
  assert (LG : forall x, List.length (g x) = prodn (l_out l)) by (intros x; apply Hzg).
  assert (LZ : forall x, List.length (zf x) = prodn (l_out l)) by (intros x; apply Hzg).
  destruct (proxy_samples pw ln2 l S g HL HC HS EK LG) as [sat [bf [p [Hsat [LBf [HBf [EPx PC]]]]]]].
  destruct (get_bits_at _ _ (l_relu l) Hq HC) as [bits [EB [LB NB]]].
  exists p, bits. split; [exact EPx|]. split; [exact EB|]. intros xs record nk nb na ys l' E. rewrite PC.
  apply (hforward_samples pw ln2 l xs record nk nb na ys l' zf op' Hq) in E; [|apply EP|exact LZ].
  destruct E as [E _]. rewrite (clip_id_fbw _ HB) in E. subst ys. eexists. split; [reflexivity|]. rewrite !map_length. split; [reflexivity|].
  intros j y v e Hy Hv He. rewrite nth_error_map in Hy, Hv. destruct (nth_error xs j) as [x|]; cbn in Hy, Hv; [|discriminate].
  injection Hy as <-. injection Hv as <-. rewrite psample_nth by exact He. pose proof (group_lt _ _ e Hq He) as GL. rewrite NB by exact GL.
  apply outside_if. unfold pval. destruct (l_relu l) eqn:ER.
  - rewrite (nth_indep (map relu _) _ (relu (qz 0))) by (rewrite map_length, qsample_length; exact He).
    rewrite (map_nth relu), qsample_nth by exact He.
    apply (elem_two_any l sat S e (nth e (zf x) (qz 0)) (nth e (g x) (qz 0)) bf); auto; [intros A; apply Hzg; assumption|].
    intros ->. destruct HS' as [[_ C]|C]; discriminate.
  - rewrite qsample_nth by exact He.
    apply (elem_one_any l sat S e (nth e (zf x) (qz 0)) (nth e (g x) (qz 0))); auto. intros A. apply Hzg; assumption.
Qed.
Print Assumptions C62_layer_any_input.

(** C62: with ReLU and WRAP the same holds as long as the pre-activation value stays inside the widest format of the
    layer, [-K*2^I, 2^I) with K and I the largest sign flag and integer width of its elements. *)
Theorem C62_relu_wrap : forall pw ln2 l, layer_ok l -> bits_clipped (l_paq l) -> calibrated (l_paq l) -> l_relu l = true ->
  exists p all bits, to_proxy pw ln2 l "WRAP" = Ok p /\ get_bits_exact (l_paq l) false = Ok all /\ get_bits_exact (l_paq l) true = Ok bits /\
  forall K I, (forall k i f, In (k, i, f) all -> k <= K /\ i <= I) -> (exists i f, In (K, i, f) all) -> (exists k f, In (k, I, f) all) ->
  forall xs record nk nb na ys l', hforward pw ln2 (no_relu l) xs false record nk nb na = Ok (ys, l') ->
    exists vs, pcall p xs = Ok vs /\ List.length vs = List.length ys /\
    forall j y v e, nth_error ys j = Some y -> nth_error vs j = Some v -> (e < prodn (l_out l))%nat ->
      (- (qz K * pow2 I) <= nth e y (qz 0))%Qc -> (nth e y (qz 0) < pow2 I)%Qc ->
      outside "WRAP" (nth (group_of (l_paq l) (l_out l) e) bits (0, 0, 0)) (relu (nth e y (qz 0))) (nth e v (qz 0)).
Proof.
  intros pw ln2 l HL HB HC ER.
  destruct (op_spec pw ln2 l HL) as [zf [g [op' [EP [EK Hzg]]]]]. pose proof HL as [Hq [NZ _]].
  assert (LG : forall x, List.length (g x) = prodn (l_out l)) by (intros x; apply Hzg).
  assert (LZ : forall x, List.length (zf x) = prodn (l_out l)) by (intros x; apply Hzg).
  destruct (proxy_samples pw ln2 l "WRAP" g HL HC (or_introl eq_refl) EK LG) as [sat [bf [p [Hsat [LBf [HBf [EPx PC]]]]]]].
  destruct (get_bits_at _ _ true Hq HC) as [bits [EB [LB NB]]].
  destruct (get_bits_at _ _ false Hq HC) as [all [EA [LA NA]]].
  exists p, all, bits. split; [exact EPx|]. split; [exact EA|]. split; [exact EB|].
  intros K I Hub [i0 [f0 HK]] [k0 [f1 HI]] xs record nk nb na ys l' E. rewrite PC.
  assert (EQ : all = bf) by (apply (nth_ext _ _ (0, 0, 0) (0, 0, 0)); [congruence|]; intros n Hn; rewrite NA by congruence; rewrite HBf by congruence; reflexivity).
  subst bf.
  assert (MK : zmax_list (map (fun t => fst (fst t)) all) = K).
  { apply Z.le_antisymm; [|apply zmax_list_ge; apply (in_map (fun t : Z * Z * Z => fst (fst t)) all (K, i0, f0)); exact HK].
    apply zmax_le; [intros C; apply map_eq_nil in C; rewrite C in HK; destruct HK|]. intros x Hx. apply in_map_iff in Hx. destruct Hx as [[[k i] f] [<- Ht]]. apply (Hub _ _ _ Ht). }
  assert (MI : zmax_list (map (fun t => snd (fst t)) all) = I).
  { apply Z.le_antisymm; [|apply zmax_list_ge; apply (in_map (fun t : Z * Z * Z => snd (fst t)) all (k0, I, f1)); exact HI].
    apply zmax_le; [intros C; apply map_eq_nil in C; rewrite C in HK; destruct HK|]. intros x Hx. apply in_map_iff in Hx. destruct Hx as [[[k i] f] [<- Ht]]. apply (Hub _ _ _ Ht). }
  apply (hforward_samples pw ln2 (no_relu l) xs record nk nb na ys l' zf op' Hq) in E; [|apply EP|exact LZ].
  destruct E as [E _]. cbn [no_relu l_paq l_out l_relu] in E. rewrite (clip_id_fbw _ HB) in E. subst ys. eexists. split; [reflexivity|]. rewrite !map_length. split; [reflexivity|].
  intros j y v e Hy Hv He L U. rewrite nth_error_map in Hy, Hv. destruct (nth_error xs j) as [x|]; cbn in Hy, Hv; [|discriminate].
  injection Hy as <-. injection Hv as <-. rewrite psample_nth by exact He. pose proof (group_lt _ _ e Hq He) as GL. rewrite NB by exact GL.
  apply outside_if. unfold pval. rewrite ER. rewrite qsample_nth in * by exact He.
  apply (elem_two_any l sat "WRAP" e (nth e (zf x) (qz 0)) (nth e (g x) (qz 0)) all); auto; [intros A; apply Hzg; assumption|].
  intros _. rewrite MK, MI. split; assumption.
Qed.
Print Assumptions C62_relu_wrap.

(** An activation layer on one value, calibrated on [-1, 3] with no fractional bits: 1 + 2 bits before and 2 bits behind ReLU. *)
Definition ex_act (relu_act : bool) : hlayer := mkL (Fn (fun x => [nth 0 (hd [] x) (qz 0)]))
  (with_minmax (hgq_build (mkT [1; 1]%nat [qz 0]) (Some [0]) 0 true None) (mkT [1; 1]%nat [Fin (qz (-1))]) (mkT [1; 1]%nat [Fin (qz 3)]))
  relu_act (-1) [1]%nat.
Lemma nearest_even_qz z : nearest_even (qz z) z.
Proof. rewrite <- (qround_even_qz z) at 2. apply nearest_even_ex. Qed.
Definition run pw ln2 (relu_act : bool) (S : string) (vs : list Z) : result (list Qc) :=
  rbind (to_proxy pw ln2 (ex_act relu_act) S) (fun p => rbind (pcall p (map (fun v => [[qz v]]) vs)) (fun ys => Ok (concat ys))).

(** C62: beyond that range a ReLU layer under WRAP loses the value: 5 = 1 mod 4 comes out as 0, because the first
    quantizer wraps it to -3. *)
Theorem C62_relu_wrap_refuted : forall pw ln2,
  run pw ln2 true "WRAP" [5] = Ok [qz 0] /\ get_bits_exact (l_paq (ex_act true)) true = Ok [(0, 2, 0)] /\
  ~ overflow_value "WRAP" 0 2 0 (relu (qz 5)) (qz 0).
Proof.
  intros. split; [qvm|]. split; [vm_compute; reflexivity|]. intros [_ [[_ [n E]]|[C _]]]; [|discriminate].
  assert (R : relu (qz 5) = qz 5) by qvm. rewrite R in E. change (pow2 (0 + 2)) with (qz 4) in E.
  rewrite <- qz_mul, <- qz_add in E. apply qz_inj in E. lia.
Qed.
Print Assumptions C62_relu_wrap_refuted.

Example C62_ex : forall pw ln2,
  layer_ok (ex_act true) /\ bits_clipped (l_paq (ex_act true)) /\ calibrated (l_paq (ex_act true)) /\
  run pw ln2 false "WRAP" [3; 5; -6; 13] = Ok [qz 3; qz (-3); qz 2; qz (-3)] /\
  run pw ln2 false "SAT" [3; 5; -6; 13] = Ok [qz 3; qz 3; qz (-4); qz 3] /\
  run pw ln2 true "SAT" [3; 5; -6; 13] = Ok [qz 3; qz 3; qz 0; qz 3] /\
  run pw ln2 true "WRAP" [3; -4] = Ok [qz 3; qz 0].
Proof.
  intros. split; [|split; [|split]].
  - split; [exists [1%nat]; repeat split|]. split; [cbn; lia|]. intros x. reflexivity.
  - cbn. repeat constructor; vm_compute; discriminate.
  - intros g Hg. cbn in Hg. destruct g as [|g]; [|lia].
    exists 0, (qz (-1)), (qz 3). split; [apply nearest_even_qz|]. split; [lia|]. do 2 (split; [reflexivity|]).
    split; [exists (-1); qvm|]. split; [exists 3; qvm|]. repeat split; vm_compute; congruence.
  - repeat split; qvm.
Qed.

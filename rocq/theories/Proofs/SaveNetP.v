(** Saving and loading whole proxy models. *)
From Coq Require Import ZArith Qcanon List Bool String Lia.
From Verif Require Import Base.Num Base.Tensor Model.FixedPoint Model.Precision Model.Register Model.Lut Model.SaveProxy Model.SaveNet
  Spec.SaveNet Proofs.FixedPointLayerP Proofs.NetEvalP Proofs.SaveProxyP.
Import ListNotations.
Local Open Scope Z_scope.

(** ** One quantizer *)
Definition clamp {O} (q : fpq O) : fpq O :=
  mkFPQ (tmap (fun c => mkCfg (kn c) (Z.max (bits c) 0) (ints c)) (cfgs q)) (rnd_name q) (sat_name q) (overrides q).
Lemma clamp_id {O} (q : fpq O) : (forall c, In c (data (cfgs q)) -> 0 <= bits c) -> clamp q = q.
Proof.
  intros H. destruct q as [[sh d] R S o]. unfold clamp, tmap. cbn [cfgs shape data rnd_name sat_name overrides] in *. f_equal. f_equal.
  rewrite <- (map_id d) at 2. apply map_ext_in. intros c Hc. specialize (H c Hc). destruct c as [k b i]. cbn [kn bits ints] in *. f_equal. lia.
Qed.
Lemma get_config_inv {O} (q : fpq O) ni ll no c q' : get_config q ni ll no = Ok (c, q') ->
  (forall c, In c (data (cfgs q)) -> kn c = 0 \/ kn c = 1) /\ ni = 1%nat /\ ll = false /\ q' = clamp q /\
  set_weights (from_config c) (cfgs q') = Ok q'.
Proof.
  unfold get_config. cbv zeta. destruct (forallb (fun c => (kn c =? 0) || (kn c =? 1)) (data (cfgs q))) eqn:F; [|discriminate]. cbn [negb].
  set (r := if negb (forallb (fun c => 0 <=? bits c) (data (cfgs q))) then _ else q).
  assert (Er : r = clamp q).
  { unfold r. destruct (forallb (fun c => 0 <=? bits c) (data (cfgs q))) eqn:B; cbn [negb]; [|reflexivity]. symmetry. apply clamp_id. intros c0 Hc.
    rewrite forallb_forall in B. apply Z.leb_le, B, Hc. }
  intros H. unfold fusible in H. destruct (Nat.eqb_spec ni 1) as [->|]; [|discriminate]. cbn [negb] in H. destruct ll; [discriminate|].
  split. { intros c0 Hc. rewrite forallb_forall in F. specialize (F c0 Hc). apply orb_prop in F as [F|F]; apply Z.eqb_eq in F; auto. }
  split; [reflexivity|]. split; [reflexivity|].
  assert (exists fu, c = mkConf (rnd_name r) (sat_name r) (shape (cfgs r)) (overrides r) fu /\ q' = r) as (fu & -> & ->).
  { destruct (negb (Nat.eqb no 1)); cbn [rbind] in H; injection H as <- <-; eexists; split; reflexivity. }
  split; [exact Er|]. unfold set_weights, from_config, fpq_init. cbn [cf_shape cf_RND cf_SAT cf_overrides cfgs shape tmap rnd_name sat_name overrides].
  destruct (list_eq_dec Nat.eq_dec (shape (cfgs r)) (shape (cfgs r))) as [_|N]; [|contradiction]. destruct r; reflexivity.
Qed.
Lemma get_config_total {O} (q : fpq O) no : (forall c, In c (data (cfgs q)) -> kn c = 0 \/ kn c = 1) ->
  exists c, get_config q 1 false no = Ok (c, clamp q).
Proof.
  intros H. assert (exists r, get_config q 1 false no = Ok r) as [[c q'] E].
  { unfold get_config. cbv zeta. assert (F : forallb (fun c => (kn c =? 0) || (kn c =? 1)) (data (cfgs q)) = true).
    { apply forallb_forall. intros c Hc. destruct (H c Hc) as [-> | ->]; reflexivity. }
    rewrite F. cbn [negb]. unfold fusible. cbn [Nat.eqb negb]. destruct (negb (Nat.eqb no 1)); cbn [rbind]; eexists; reflexivity. }
  destruct (get_config_inv _ _ _ _ _ _ E) as (_ & _ & _ & -> & _). exists c. exact E.
Qed.

(** ** The place of a quantizer *)
Lemma calls_in net q ps : In ps (calls net q) <-> exists n, nth_error net n = Some (NFpq q, ps).
Proof.
  unfold calls. rewrite in_flat_map. split.
  - intros ([kd ps'] & Hl & Hp). apply In_nth_error in Hl as [n E]. exists n. rewrite E. cbn [fst snd] in Hp. destruct kd; try destruct Hp.
    destruct (Nat.eqb_spec q0 q) as [->|]; [|destruct Hp]. destruct Hp as [->|[]]. reflexivity.
  - intros [n E]. exists (NFpq q, ps). split; [eapply nth_error_In; exact E|]. cbn [fst snd]. rewrite Nat.eqb_refl. left. reflexivity.
Qed.
Lemma calls_one net : forall q n ps, nth_error net n = Some (NFpq q, ps) -> (forall n' ps', nth_error net n' = Some (NFpq q, ps') -> n' = n) -> calls net q = [ps].
Proof.
  induction net as [|[kd ps0] net IH]; intros q n ps E U; [destruct n; discriminate E|]. destruct n as [|n].
  - cbn in E. injection E as -> ->. unfold calls. cbn [flat_map fst snd]. rewrite Nat.eqb_refl. fold (calls net q).
    assert (N : calls net q = []). { destruct (calls net q) as [|p l] eqn:C; [reflexivity|]. assert (I : In p (calls net q)) by (rewrite C; left; reflexivity).
      apply calls_in in I as [m Em]. specialize (U (S m) p Em). discriminate U. }
    rewrite N. reflexivity.
  - cbn in E. assert (C : calls net q = [ps]) by (apply (IH q n ps E); intros n' ps' E'; specialize (U (S n') ps' E'); congruence).
    unfold calls. cbn [flat_map fst snd]. fold (calls net q). rewrite C. destruct kd; try reflexivity. destruct (Nat.eqb_spec q0 q) as [->|]; [|reflexivity].
    specialize (U O ps0 eq_refl). discriminate U.
Qed.
Lemma calls_two net : forall q n n' ps ps', nth_error net n = Some (NFpq q, ps) -> nth_error net n' = Some (NFpq q, ps') -> n <> n' -> (2 <= List.length (calls net q))%nat.
Proof.
  assert (A : forall net q n ps, nth_error net n = Some (NFpq q, ps) -> (1 <= List.length (calls net q))%nat).
  { intros net0 q n ps E. assert (I : In ps (calls net0 q)) by (apply calls_in; exists n; exact E). destruct (calls net0 q); [destruct I|cbn; lia]. }
  induction net as [|[kd ps0] net IH]; intros q n n' ps ps' E E' N; [destruct n; discriminate E|].
  unfold calls. cbn [flat_map fst snd]. fold (calls net q). rewrite app_length. destruct n as [|n], n' as [|n']; [contradiction| | |]; cbn in E, E'.
  - injection E as -> ->. rewrite Nat.eqb_refl. cbn [List.length]. pose proof (A _ _ _ _ E'). lia.
  - injection E' as -> ->. rewrite Nat.eqb_refl. cbn [List.length]. pose proof (A _ _ _ _ E). lia.
  - assert (N' : n <> n') by congruence. pose proof (IH q n n' ps ps' E E' N'). lia.
Qed.
Lemma placed_at net q : (exists n p, nth_error net n = Some (NFpq q, [p]) /\ forall n' ps', nth_error net n' = Some (NFpq q, ps') -> n' = n) <->
  List.length (calls net q) = 1%nat /\ List.length (hd [] (calls net q)) = 1%nat.
Proof.
  split.
  - intros (n & p & E & U). rewrite (calls_one net q n [p] E U). split; reflexivity.
  - intros [L1 L2]. destruct (calls net q) as [|ps [|ps' l]] eqn:C; try discriminate L1. cbn in L2. destruct ps as [|p [|p' ps]]; try discriminate L2.
    assert (I : In [p] (calls net q)) by (rewrite C; left; reflexivity). apply calls_in in I as [n E]. exists n, p. split; [exact E|].
    intros n' ps' E'. destruct (Nat.eq_dec n' n) as [|N]; [assumption|]. pose proof (calls_two net q n' n ps' [p] E' E N) as B. rewrite C in B. cbn in B. lia.
Qed.

(** ** All quantizers *)
Lemma rseq_of {A B} (f : A -> result B) (g : A -> B) l : (forall x, In x l -> f x = Ok (g x)) -> rseq (map f l) = Ok (map g l).
Proof.
  induction l as [|a l IH]; intros H; [reflexivity|]. cbn [map rseq]. rewrite (H a (or_introl eq_refl)). cbn [rbind]. rewrite IH by (intros; apply H; right; assumption). reflexivity.
Qed.
Definition saving (net : pnet) (e : nat * (fpq unit * odict)) : result (fpq_config odict * fpq odict) :=
  save_quantizer net (fst e) (with_ov (snd (snd e)) (fst (snd e))).
Lemma with_clamp (d : odict) (o : fpq unit) : with_ov tt (clamp (with_ov d o)) = clamp o.
Proof. destruct o as [c R S []]. reflexivity. Qed.
Lemma saving_inv net q (o : fpq unit) (d : odict) c o' : saving net (q, (o, d)) = Ok (c, o') ->
  flags o /\ (exists n p, nth_error net n = Some (NFpq q, [p]) /\ forall n' ps', nth_error net n' = Some (NFpq q, ps') -> n' = n) /\
  with_ov tt o' = clamp o /\ overrides o' = d /\ set_weights (from_config c) (cfgs o') = Ok o'.
Proof.
  unfold saving, save_quantizer. cbn [fst snd]. intros H. destruct (get_config_inv _ _ _ _ _ _ H) as (F & N & L & -> & W). split; [exact F|]. split.
  - apply placed_at. split; [exact N|]. apply negb_false_iff, Nat.eqb_eq in L. exact L.
  - split; [apply with_clamp|]. split; [reflexivity|]. exact W.
Qed.
Lemma saving_total net q o d : flags o -> (exists n p, nth_error net n = Some (NFpq q, [p]) /\ forall n' ps', nth_error net n' = Some (NFpq q, ps') -> n' = n) ->
  exists r, saving net (q, (o, d)) = Ok r.
Proof.
  intros F P. apply placed_at in P as [L1 L2]. unfold saving, save_quantizer. cbn [fst snd]. rewrite L1, L2. cbn [Nat.eqb negb].
  destruct (get_config_total (with_ov d o) (reads net (hd O (hd [] (calls net q)))) F) as [c E]. exists (c, clamp (with_ov d o)). exact E.
Qed.
Lemma savings_inv net : forall s ov k rs, List.length s = List.length ov -> rseq (map (saving net) (combine (seq k (List.length s)) (combine s ov))) = Ok rs ->
  (forall q o, nth_error s q = Some o -> flags o /\ exists n p, nth_error net n = Some (NFpq (k + q), [p]) /\ forall n' ps', nth_error net n' = Some (NFpq (k + q), ps') -> n' = n) /\
  map (fun r => with_ov tt (snd r)) rs = map clamp s /\ map (fun r => overrides (snd r)) rs = ov /\
  (forall r, In r rs -> set_weights (from_config (fst r)) (cfgs (snd r)) = Ok (snd r)).
Proof.
  induction s as [|o s IH]; intros [|d ov] k rs L E; try discriminate L.
  - injection E as <-. split; [intros q o E; destruct q; discriminate E|]. repeat split; intros r [].
  - cbn [List.length seq combine map rseq] in E. destruct (saving net (k, (o, d))) as [[c o']|] eqn:E1; [|discriminate E]. cbn [rbind] in E.
    destruct (rseq _) as [rs'|] eqn:E2 in E; [|discriminate E]. cbn [rbind] in E. injection E as <-. injection L as L.
    destruct (saving_inv _ _ _ _ _ _ E1) as (F & P & W1 & W2 & W3). destruct (IH ov (S k) rs' L E2) as (A1 & A2 & A3 & A4). split; [|split; [|split]].
    + intros [|q] o0 Eq; cbn in Eq. { injection Eq as <-. rewrite Nat.add_0_r. auto. } rewrite <- plus_n_Sm. apply A1. exact Eq.
    + cbn [map snd]. rewrite W1, A2. reflexivity.
    + cbn [map snd]. rewrite W2, A3. reflexivity.
    + intros r [<-|Hr]; [exact W3|auto].
Qed.
Lemma savings_total net : forall s ov k, List.length s = List.length ov ->
  (forall q o, nth_error s q = Some o -> flags o /\ exists n p, nth_error net n = Some (NFpq (k + q), [p]) /\ forall n' ps', nth_error net n' = Some (NFpq (k + q), ps') -> n' = n) ->
  exists rs, rseq (map (saving net) (combine (seq k (List.length s)) (combine s ov))) = Ok rs.
Proof.
  induction s as [|o s IH]; intros [|d ov] k L H; try discriminate L; [eexists; reflexivity|]. injection L as L. cbn [List.length seq combine map rseq].
  destruct (H O o eq_refl) as [F P]. rewrite Nat.add_0_r in P. destruct (saving_total net k o d F P) as [r ->]. cbn [rbind].
  destruct (IH ov (S k) L) as [rs ->]. { intros q o0 E. rewrite plus_Sn_m, plus_n_Sm. apply H. exact E. } eexists. reflexivity.
Qed.

(** ** Models *)
Definition clamped (m : pmodel) : pmodel := mkPM (map clamp (pm_quant m)) (pm_ov m) (pm_luts m).
Lemma save_inv net m sv m' : save_model net m = Ok (sv, m') ->
  List.length (pm_quant m) = List.length (pm_ov m) /\ Forall flags (pm_quant m) /\ placed net (pm_quant m) /\ m' = clamped m /\
  (forall limit, load_model limit sv = rbind (rseq (map (fun e => rbind (ulut_load limit (ulut_save (snd e))) (fun l => Ok (fst e, l))) (pm_luts m))) (fun ls =>
     Ok (mkPM (pm_quant m') (pm_ov m') ls))).
Proof.
  unfold save_model. destruct (Nat.eqb_spec (List.length (pm_quant m)) (List.length (pm_ov m))) as [L|]; [|discriminate]. cbn [negb].
  change (fun e => save_quantizer net (fst e) (with_ov (snd (snd e)) (fst (snd e)))) with (saving net).
  destruct (rseq _) as [rs|] eqn:E; [|discriminate]. cbn [rbind]. intros H. injection H as <- <-.
  destruct (savings_inv net _ _ _ _ L E) as (A1 & A2 & A3 & A4). split; [exact L|]. split; [|split; [|split]].
  - apply Forall_forall. intros o Ho. apply In_nth_error in Ho as [q Eq]. apply (A1 q o Eq).
  - intros q o Eq. apply (A1 q o Eq).
  - unfold clamped. rewrite A2, A3. reflexivity.
  - intros limit. unfold load_model. cbn [sv_quant sv_luts pm_quant pm_ov]. rewrite !map_map. cbn [fst snd].
    rewrite (rseq_of (fun x => set_weights (from_config (fst x)) (cfgs (snd x))) snd rs A4). cbn [rbind]. rewrite !map_map. reflexivity.
Qed.
Lemma save_total net m : List.length (pm_quant m) = List.length (pm_ov m) -> Forall flags (pm_quant m) -> placed net (pm_quant m) ->
  exists sv, save_model net m = Ok (sv, clamped m).
Proof.
  intros L F P. assert (exists r, save_model net m = Ok r) as [[sv m'] E].
  { unfold save_model. rewrite (proj2 (Nat.eqb_eq _ _) L). cbn [negb]. change (fun e => save_quantizer net (fst e) (with_ov (snd (snd e)) (fst (snd e)))) with (saving net).
    destruct (savings_total net (pm_quant m) (pm_ov m) 0 L) as [rs Hrs];
      [|match goal with |- context [rseq ?x] => assert (Ers : rseq x = Ok rs) by exact Hrs end; rewrite Ers; cbn [rbind]; eexists; reflexivity].
    intros q o Eq. split; [rewrite Forall_forall in F; apply F; eapply nth_error_In; exact Eq|]. apply (P q o Eq). }
  destruct (save_inv _ _ _ _ E) as (_ & _ & _ & -> & _). exists sv. exact E.
Qed.
Lemma clamped_id m : Forall widths (pm_quant m) -> clamped m = m.
Proof.
  intros H. destruct m as [s ov ls]. unfold clamped. cbn [pm_quant pm_ov pm_luts] in *. f_equal. rewrite <- (map_id s) at 2. apply map_ext_in.
  intros o Ho. rewrite Forall_forall in H. apply clamp_id, H, Ho.
Qed.
Lemma luts_load limit ls : loadable limit ls ->
  rseq (map (fun e => rbind (ulut_load limit (ulut_save (snd e))) (fun l => Ok (fst e, l))) ls) = Ok ls.
Proof.
  intros H. rewrite (rseq_of _ (fun e => e)); [rewrite map_id; reflexivity|]. intros [n l] Hl. destruct (H n l Hl) as (lim & R & S & t & N & W & C). cbn [fst snd].
  rewrite (ulut_load_spec _ limit _ _ _ _ _ _ N). apply Z.eqb_eq in W. rewrite W, andb_true_r.
  assert (B : (limit <=? 0) || (2 ^ width (u_in l) <? limit) = true). { destruct C as [C|C]; apply orb_true_iff; [left; apply Z.leb_le; exact C|right; apply Z.ltb_lt; exact C]. }
  rewrite B. reflexivity.
Qed.

(** ** The stored flag 'fusible' *)
Lemma filter_none n ps : List.length (filter (Nat.eqb n) ps) = O <-> ~ In n ps.
Proof.
  induction ps as [|p ps IH]; cbn; [tauto|]. destruct (Nat.eqb_spec n p) as [->|N]; cbn; [split; [discriminate|intros H; exfalso; apply H; auto]|].
  rewrite IH. split; intros H; [intros [E|E]; [congruence|auto]|auto].
Qed.
Lemma reads_none net n : reads net n = O <-> forall m l, nth_error net m = Some l -> ~ In n (snd l).
Proof.
  unfold reads. rewrite filter_none, in_flat_map. split.
  - intros H m l E I. apply H. exists l. split; [eapply nth_error_In, E|exact I].
  - intros H (l & Hl & I). apply In_nth_error in Hl as [m E]. exact (H m l E I).
Qed.
Lemma reads_cons kd ps net n : reads ((kd, ps) :: net) n = (List.length (filter (Nat.eqb n) ps) + reads net n)%nat.
Proof. unfold reads. cbn [flat_map snd]. rewrite filter_app, app_length. reflexivity. Qed.
Lemma reads_one net : forall j kd n, nth_error net j = Some (kd, [n]) ->
  (reads net n = 1%nat <-> forall m l, nth_error net m = Some l -> In n (snd l) -> m = j).
Proof.
  induction net as [|[kd0 ps0] net IH]; intros j kd n E; [destruct j; discriminate E|]. rewrite reads_cons. destruct j as [|j]; cbn in E.
  - injection E as -> ->. cbn [filter]. rewrite Nat.eqb_refl. cbn [List.length]. split.
    + intros H. assert (Z : reads net n = O) by lia. rewrite reads_none in Z. intros [|m] l Em I; [reflexivity|]. destruct (Z m l Em I).
    + intros H. assert (Z : reads net n = O) by (apply reads_none; intros m l Em I; specialize (H (S m) l Em I); discriminate H). lia.
  - assert (P : (1 <= reads net n)%nat). { destruct (reads net n) eqn:R; [|lia]. rewrite reads_none in R. destruct (R j _ E). left. reflexivity. }
    split.
    + intros H. assert (Z : List.length (filter (Nat.eqb n) ps0) = O) by lia. assert (O1 : reads net n = 1%nat) by lia. rewrite filter_none in Z.
      rewrite (IH j kd n E) in O1. intros [|m] l Em I; [injection Em as <-; contradiction|]. f_equal. exact (O1 m l Em I).
    + intros H. assert (O1 : reads net n = 1%nat) by (apply (IH j kd n E); intros m l Em I; specialize (H (S m) l Em I); congruence).
      assert (Z : List.length (filter (Nat.eqb n) ps0) = O) by (apply filter_none; intros I; specialize (H O (kd0, ps0) eq_refl I); discriminate H). lia.
Qed.
Lemma rseq_nth {A B} (f : A -> result B) : forall l rs q r, rseq (map f l) = Ok rs -> nth_error rs q = Some r -> exists x, nth_error l q = Some x /\ f x = Ok r.
Proof.
  induction l as [|a l IH]; intros rs q r E N; cbn [map rseq] in E; [injection E as <-; destruct q; discriminate N|].
  destruct (f a) as [b|] eqn:Fa; [|discriminate E]. cbn [rbind] in E. destruct (rseq (map f l)) as [bs|] eqn:El; [|discriminate E]. cbn [rbind] in E. injection E as <-.
  destruct q as [|q]; cbn in N; [injection N as <-; exists a; split; [reflexivity|exact Fa]|]. exact (IH bs q r eq_refl N).
Qed.
Lemma combine_seq {A} : forall (l : list A) n k q x, nth_error (combine (seq k n) l) q = Some x -> fst x = (k + q)%nat.
Proof.
  induction l as [|a l IH]; intros n k q x E; destruct n as [|n]; cbn [seq combine] in E; try (destruct q; discriminate E).
  destruct q as [|q]; cbn in E; [injection E as <-; cbn; lia|]. rewrite (IH n (S k) q x E). lia.
Qed.
Lemma save_fusible net m sv m' q c v j n : save_model net m = Ok (sv, m') -> nth_error (sv_quant sv) q = Some (c, v) -> nth_error net j = Some (NFpq q, [n]) ->
  (cf_fusible c = true <-> (forall j' l, nth_error net j' = Some l -> In n (snd l) -> j' = j) /\ (forall a b, In a (data v) -> In b (data v) -> a = b)).
Proof.
  unfold save_model. destruct (Nat.eqb_spec (List.length (pm_quant m)) (List.length (pm_ov m))) as [L|]; [|discriminate]. cbn [negb].
  change (fun e => save_quantizer net (fst e) (with_ov (snd (snd e)) (fst (snd e)))) with (saving net).
  destruct (rseq _) as [rs|] eqn:E; [|discriminate]. cbn [rbind]. intros H. injection H as <- _. cbn [sv_quant]. intros Q J.
  rewrite nth_error_map in Q. destruct (nth_error rs q) as [[c' o']|] eqn:Er; [|discriminate Q]. cbn in Q. injection Q as -> <-.
  destruct (rseq_nth _ _ _ _ _ E Er) as ((q' & o & d) & Ex & S). pose proof (combine_seq _ _ _ _ _ Ex) as Eq. cbn in Eq. subst q'.
  destruct (saving_inv _ _ _ _ _ _ S) as (_ & (n0 & p & P & U) & _). assert (n0 = j) by (symmetry; apply (U j [n]), J). subst n0.
  unfold saving, save_quantizer in S. cbn [fst snd] in S. rewrite (calls_one net q j [n] J U) in S. cbn [List.length hd Nat.eqb negb] in S.
  destruct (get_config_inv _ _ _ _ _ _ S) as (_ & _ & _ & Eo & _).
  rewrite <- (reads_one net j (NFpq q) n J). unfold get_config in S. cbv zeta in S.
  destruct (negb (forallb (fun c => (kn c =? 0) || (kn c =? 1)) _)); [discriminate S|].
  match type of S with rbind (fusible ?r _ _ _) _ = _ => set (r0 := r) in S end. unfold fusible in S. cbn [Nat.eqb negb] in S.
  rewrite <- (not_heterogeneous_iff o').
  destruct (Nat.eqb_spec (reads net n) 1) as [R|R]; cbn [negb rbind] in S; injection S as <- Er0; cbn [cf_fusible]; rewrite <- ?Er0.
  - destruct (heterogeneous r0); cbn; (split; [|intros [? ?]]); solve [auto|discriminate|congruence|intros; auto].
  - split; [discriminate|]. intros [X _]. contradiction.
Qed.

(** Facts about what layers request. *)
From Coq Require Import ZArith List Bool String Lia.
From Verif Require Import Base.Num Base.Tensor Model.FixedPoint Model.Precision Spec.Precision Spec.Register Spec.Request.
From Verif Require Import Proofs.FixedPointLayerP Proofs.PrecisionP Proofs.SoundP Proofs.IdemP Proofs.MergeP Proofs.RegisterP.
Import ListNotations.
Open Scope Z_scope.

Lemma kifs_max_in l m : kifs_max l = Ok m -> (exists t, In t l /\ snd (fst t) = snd (fst m)) /\ (exists t, In t l /\ snd t = snd m).
Proof.
  destruct l as [|a l]; [discriminate|]. cbn [kifs_max]. intros E. assert (E' : m = fold_left kif_max l a) by congruence. subst m. clear E.
  revert a. induction l as [|b l IH]; intros a; cbn [fold_left]; [split; exists a; split; try (left; reflexivity); reflexivity|].
  destruct (IH (kif_max a b)) as [(t & I & E) (u & J & F)].
  assert (C : forall t, In t (kif_max a b :: l) -> exists v, In v (a :: b :: l) /\ snd (fst v) = snd (fst t)).
  { intros w [<-|W]; [|exists w; split; [right; right; exact W|reflexivity]]. destruct a as [[ka ia] fa], b as [[kb ib] fb]. cbn. destruct (Z.max_dec ia ib) as [-> | ->]; eexists; (split; [|]); [left; reflexivity|reflexivity|right; left; reflexivity|reflexivity]. }
  assert (D : forall t, In t (kif_max a b :: l) -> exists v, In v (a :: b :: l) /\ snd v = snd t).
  { intros w [<-|W]; [|exists w; split; [right; right; exact W|reflexivity]]. destruct a as [[ka ia] fa], b as [[kb ib] fb]. cbn. destruct (Z.max_dec fa fb) as [-> | ->]; eexists; (split; [|]); [left; reflexivity|reflexivity|right; left; reflexivity|reflexivity]. }
  destruct (C t I) as (v & V1 & V2). destruct (D u J) as (w & W1 & W2). split; [exists v; split; [exact V1|congruence]|exists w; split; [exact W1|congruence]].
Qed.

Lemma collected {A} (g : nat -> result A) ls l : fold_right (fun m acc => rbind (g m) (fun t => rbind acc (fun l => Ok (t :: l)))) (Ok []) ls = Ok l -> forall t, In t l -> exists m, In m ls /\ g m = Ok t.
Proof.
  revert l. induction ls as [|m ls IH]; cbn [fold_right]; intros l H t Ht; [injection H as <-; destruct Ht|].
  destruct (g m) as [u|] eqn:G; cbn [rbind] in H; [|discriminate]. destruct (fold_right _ _ ls) as [l'|]; cbn [rbind] in H; [|discriminate]. injection H as <-.
  destruct Ht as [<-|Ht]; [exists m; split; [left; reflexivity|exact G]|]. destruct (IH l' eq_refl t Ht) as (m' & I & E). exists m'. split; [right; exact I|exact E].
Qed.

Section Req.
  Variables (net : pnet) (s : pst).
  (** An element of quantizer variable q. *)
  Definition element (q : nat) (o : fpq unit) (c : qcfg) : Prop := nth_error s q = Some o /\ In c (data (cfgs o)).
  Hypothesis legal : Forall legal_fpq s.

  Lemma own_request q o : nth_error s q = Some o ->
    (exists c, element q o c /\ snd (fpq_request o) = bits c - ints c + looks_at (rnd_name o)) /\
    (wraps o -> exists c, element q o c /\ snd (fst (fpq_request o)) = ints c - kn c).
  Proof.
    intros Eo. assert (L : legal_fpq o) by (rewrite Forall_forall in legal; apply legal; eapply nth_error_In; exact Eo). destruct L as (NE & LF & _ & _). rewrite Forall_forall in LF.
    unfold fpq_request, result_t_kif. destruct (zmax_map (fun c => i8 (bits c - ints c)) (data (cfgs o)) NE) as [(c & I & E) _]. destruct (zmax_map (fun c => i8 (ints c - kn c)) (data (cfgs o)) NE) as [(d & J & F) _].
    cbn [fst snd]. split.
    - exists c. split; [split; assumption|]. rewrite <- E. destruct (LF c I) as (_ & _ & _ & B). rewrite i8_id by lia. unfold looks_at.
      destruct (String.eqb (rnd_name o) "TRN"); [lia|]. destruct (String.eqb (rnd_name o) "RND"); reflexivity.
    - intros W. exists d. split; [split; assumption|]. destruct (LF d J) as (_ & _ & B & _). replace (String.eqb (sat_name o) "WRAP" || String.eqb (sat_name o) "WRAP_SM")%bool with true by (destruct W as [-> | ->]; reflexivity).
      rewrite <- F. apply i8_id. lia.
  Qed.

  (** The quantizers behind reader m. *)
  Definition behind (m q : nat) : Prop := quantizer_at net m q \/ exists kd ps, nth_error net m = Some (kd, ps) /\ moves kd /\ leads net m q.
  Definition ends (m : nat) : Prop := (exists q, quantizer_at net m q) \/ exists kd ps, nth_error net m = Some (kd, ps) /\ moves kd /\ quantized net m.
  Definition least (to : nat -> Prop) (t : kif) : Prop :=
    (exists q o c, to q /\ element q o c /\ snd t = bits c - ints c + looks_at (rnd_name o)) /\
    ((forall q o, to q -> nth_error s q = Some o -> wraps o) -> exists q o c, to q /\ element q o c /\ snd (fst t) = ints c - kn c).

  Lemma behind_leads n m q : feeds net n m -> behind m q -> leads net n q.
  Proof. intros F [[ps E]|(kd & ps & E & M & L)]; [eapply leads_direct; eassumption|eapply leads_through; eassumption]. Qed.
  Lemma readers_end n m : quantized net n -> feeds net n m -> ends m.
  Proof.
    intros Q F. destruct Q as [n r _ H]. destruct F as (kd & ps & E & I). destruct (H m kd ps) as [[q ->]|[M Q]]; [exists kd, ps; split; assumption|exact E| |].
    - left. exists q, ps. exact E.
    - right. exists kd, ps. auto.
  Qed.

  Lemma least_max n (g : nat -> result kif) l t :
    quantized net n -> fold_right (fun m acc => rbind (g m) (fun t => rbind acc (fun l => Ok (t :: l)))) (Ok []) (out_layers net n) = Ok l -> kifs_max l = Ok t ->
    (forall m u, g m = Ok u -> ends m -> least (behind m) u) -> least (leads net n) t.
  Proof.
    intros Q E K H. destruct (kifs_max_in l t K) as [(u & U1 & U2) (v & V1 & V2)].
    destruct (collected _ _ _ E u U1) as (m & M1 & M2). destruct (collected _ _ _ E v V1) as (m' & M1' & M2'). apply in_out in M1, M1'.
    split.
    - destruct (H m' v M2' (readers_end n m' Q M1')) as [(q & o & c & B & EL & X) _]. exists q, o, c. split; [exact (behind_leads n m' q M1' B)|]. split; [exact EL|congruence].
    - intros W. destruct (H m u M2 (readers_end n m Q M1)) as [_ X]. destruct X as (q & o & c & B & EL & X); [intros q o B; apply W; exact (behind_leads n m q M1 B)|].
      exists q, o, c. split; [exact (behind_leads n m q M1 B)|]. split; [exact EL|congruence].
  Qed.

  Lemma request_least fuel : forall m t, request fuel net m s = Ok t -> ends m -> least (behind m) t.
  Proof.
    induction fuel as [|fuel IH]; intros m t H En; [discriminate|]. cbn [request] in H. destruct En as [[q [ps E]]|(kd & ps & E & M & Q)]; rewrite E in H.
    - destruct (nth_error s q) as [o|] eqn:Eo; [|discriminate]. assert (T : t = fpq_request o) by congruence. subst t. destruct (own_request q o Eo) as [(c & EL & X) Y]. split.
      + exists q, o, c. split; [left; exists ps; exact E|]. split; assumption.
      + intros W. destruct (Y (W q o (or_introl (ex_intro _ ps E)) Eo)) as (d & EL' & X'). exists q, o, d. split; [left; exists ps; exact E|]. split; assumption.
    - assert (R : rbind (fold_right (fun m acc => rbind (request fuel net m s) (fun t => rbind acc (fun l => Ok (t :: l)))) (Ok []) (out_layers net m)) kifs_max = Ok t).
      { assert (NE : out_layers net m <> []) by (destruct Q as [n r F _]; apply in_out in F; intros C; rewrite C in F; destruct F). destruct M as [-> | ->]; (destruct (out_layers net m); [contradiction NE; reflexivity|exact H]). }
      clear H. destruct (fold_right _ _ (out_layers net m)) as [l|] eqn:F; cbn [rbind] in R; [|discriminate].
      destruct (least_max m (fun m => request fuel net m s) l t Q F R IH) as [(q & o & c & L & X) Y]. split.
      + exists q, o, c. split; [right; exists kd, ps; auto|exact X].
      + intros W. destruct Y as (q' & o' & c' & L' & X'); [intros q' o' L'; apply W; right; exists kd, ps; auto|]. exists q', o', c'. split; [right; exists kd, ps; auto|exact X'].
  Qed.
  Lemma requested_least fuel n t : requested fuel net n s = Ok t -> quantized net n -> least (leads net n) t.
  Proof.
    intros R Q. unfold requested in R. assert (NE : out_layers net n <> []) by (destruct Q as [n r F _]; apply in_out in F; intros C; rewrite C in F; destruct F).
    assert (R' : rbind (fold_right (fun m acc => rbind (request fuel net m s) (fun t => rbind acc (fun l => Ok (t :: l)))) (Ok []) (out_layers net n)) kifs_max = Ok t) by (destruct (out_layers net n); [contradiction NE; reflexivity|exact R]).
    clear R. destruct (fold_right _ _ (out_layers net n)) as [l|] eqn:F; cbn [rbind] in R'; [|discriminate].
    exact (least_max n (fun m => request fuel net m s) l t Q F R' (request_least fuel)).
  Qed.
End Req.

Lemma fused_least net n s t R V : Forall legal_fpq s -> fusible_result net n s = Ok (Some (t, R, V)) ->
  exists q o, leads net n q /\ nth_error s q = Some o /\ (exists c, In c (data (cfgs o)) /\ snd t = bits c - ints c) /\ (exists c, In c (data (cfgs o)) /\ snd (fst t) = ints c - kn c).
Proof.
  intros L H. unfold fusible_result in H. destruct (out_layers net n) as [|m [|m2 ls]] eqn:EO; try discriminate.
  assert (F : feeds net n m) by (apply in_out; rewrite EO; left; reflexivity).
  destruct (nth_error net m) as [[kd ps]|] eqn:Em; [|discriminate]. destruct kd; try discriminate. destruct (nth_error s _) as [o|] eqn:Eo; [|discriminate].
  destruct (fusible _ _ _ _) as [[|]|]; cbn [rbind] in H; try discriminate. assert (T : t = result_t_kif o) by congruence. subst t.
  eexists. exists o. split; [eapply leads_direct; eassumption|]. split; [exact Eo|].
  assert (LO : legal_fpq o) by (rewrite Forall_forall in L; apply L; eapply nth_error_In; exact Eo). destruct LO as (NE & LF & _ & _). rewrite Forall_forall in LF.
  unfold result_t_kif. cbn [fst snd]. destruct (zmax_map (fun c => i8 (bits c - ints c)) (data (cfgs o)) NE) as [(c & I & E) _]. destruct (zmax_map (fun c => i8 (ints c - kn c)) (data (cfgs o)) NE) as [(d & J & G) _].
  split; [exists c; split; [exact I|]; rewrite <- E; destruct (LF c I) as (_ & _ & _ & B); apply i8_id; lia|exists d; split; [exact J|]; rewrite <- G; destruct (LF d J) as (_ & _ & B & _); apply i8_id; lia].
Qed.

Lemma derived_least net n s t R V : Forall legal_fpq s -> derived_result net n s = Ok (t, R, V) ->
  (exists q o c, leads net n q /\ nth_error s q = Some o /\ In c (data (cfgs o)) /\ snd t = bits c - ints c + looks_at (rnd_name o)) /\
  (exists q o c, leads net n q /\ nth_error s q = Some o /\ In c (data (cfgs o)) /\ snd (fst t) = ints c - kn c).
Proof.
  intros L H. unfold derived_result in H. set (q_of := fun m => match nth_error net m with Some (NFpq q, _) => nth_error s q | _ => None end) in H.
  destruct (negb _); [discriminate|]. set (qs := concat _) in H. assert (IN : forall o, In o qs -> exists q, leads net n q /\ nth_error s q = Some o).
  { intros o Ho. unfold qs in Ho. apply in_concat in Ho. destruct Ho as (l & Hl & Ho). rewrite map_map in Hl. apply in_map_iff in Hl. destruct Hl as (m & El & Hm). apply in_out in Hm.
    unfold q_of in El. destruct (nth_error net m) as [[kd ps]|] eqn:Em; [|subst l; destruct Ho]. destruct kd as [|q| | | | | | | | | | | |]; try (subst l; destruct Ho; fail).
    all: try (destruct (nth_error s q) as [o'|] eqn:Eo; subst l; [|destruct Ho]; destruct Ho as [<-|[]]; exists q; split; [eapply leads_direct; eassumption|exact Eo]). 
    all: try (subst l; contradiction Ho). }
  destruct qs as [|q0 qs'] eqn:EQ; [discriminate|]. rewrite <- EQ in *. clear EQ. destruct (negb _); [discriminate|].
  destruct (kifs_max _) as [t'|] eqn:K; cbn [rbind] in H; [|discriminate]. assert (T : t = t') by congruence. subst t'. destruct (kifs_max_in _ _ K) as [(u & U1 & U2) (v & V1 & V2)].
  apply in_map_iff in U1, V1. destruct U1 as (o & <- & Ho). destruct V1 as (o' & <- & Ho'). destruct (IN o Ho) as (q & Lq & Eo). destruct (IN o' Ho') as (q' & Lq' & Eo').
  assert (PART : forall w, In w s -> (exists c, In c (data (cfgs w)) /\ snd (result_t_kif w) = bits c - ints c) /\ (exists c, In c (data (cfgs w)) /\ snd (fst (result_t_kif w)) = ints c - kn c)).
  { intros w Hw. assert (LO : legal_fpq w) by (rewrite Forall_forall in L; apply L; exact Hw). destruct LO as (NE & LF & _ & _). rewrite Forall_forall in LF.
    unfold result_t_kif. cbn [fst snd]. destruct (zmax_map (fun c => i8 (bits c - ints c)) (data (cfgs w)) NE) as [(c & I & E) _]. destruct (zmax_map (fun c => i8 (ints c - kn c)) (data (cfgs w)) NE) as [(d & J & G) _].
    split; [exists c; split; [exact I|]; rewrite <- E; destruct (LF c I) as (_ & _ & _ & B); apply i8_id; lia|exists d; split; [exact J|]; rewrite <- G; destruct (LF d J) as (_ & _ & B & _); apply i8_id; lia]. }
  split.
  - destruct (PART o') as [(c & I & E) _]; [eapply nth_error_In; exact Eo'|]. exists q', o', c. split; [exact Lq'|]. split; [exact Eo'|]. split; [exact I|]. rewrite <- V2. destruct (result_t_kif o') as [[a b] d]. cbn [snd] in *. unfold looks_at.
    destruct (String.eqb_spec (rnd_name o') "TRN") as [E1|N1], (String.eqb_spec (rnd_name o') "RND") as [E2|N2]; try lia. rewrite E1 in E2. discriminate.
  - destruct (PART o) as [_ (c & I & E)]; [eapply nth_error_In; exact Eo|]. exists q, o, c. split; [exact Lq|]. split; [exact Eo|]. split; [exact I|]. rewrite <- U2. destruct (result_t_kif o) as [[a b] d]. cbn [fst snd] in *. exact E.
Qed.

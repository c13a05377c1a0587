(** Saving and loading whole proxy models: C96. *)
From Coq Require Import ZArith QArith Qcanon List Bool String Lia.
From Verif Require Import Base.Num Base.NumFacts Base.Tensor Base.Compute Model.FixedPoint Model.Precision Model.Register Model.Lut Model.SaveProxy Model.SaveNet
  Spec.Fixed Spec.Precision Spec.NetEval Spec.Quiet Spec.SaveNet Proofs.FixedPointP Proofs.FitsP Proofs.PrecisionP Proofs.IdemP Proofs.QuietP Proofs.SaveProxyP Proofs.SaveNetP Props.P_Firmware Props.P_Quiet.
Import ListNotations.
Local Open Scope Z_scope.

(** C96: a proxy model can be saved exactly when all sign flags are 0 or 1 and every quantizer is called once, on one layer. *)
Theorem C96_saves : forall net m,
  (exists sv m', save_model net m = Ok (sv, m')) <->
  List.length (pm_quant m) = List.length (pm_ov m) /\ Forall flags (pm_quant m) /\ placed net (pm_quant m).
Proof.
  intros net m. split.
  - intros (sv & m' & E). destruct (save_inv _ _ _ _ E) as (A & B & C & _). auto.
  - intros (A & B & C). destruct (save_total net m A B C) as [sv E]. eauto.
Qed.
Print Assumptions C96_saves.

(** C96: what is loaded is the model as it is after saving: the overrides and the tables are those of before, the negative
    widths have become 0, in memory as well. *)
Theorem C96_loads : forall limit net m sv m', save_model net m = Ok (sv, m') -> loadable limit (pm_luts m) ->
  load_model limit sv = Ok m' /\ pm_ov m' = pm_ov m /\ pm_luts m' = pm_luts m /\ Forall2 no_negative (pm_quant m) (pm_quant m').
Proof.
  intros limit net m sv m' E L. destruct (save_inv _ _ _ _ E) as (_ & _ & _ & -> & LD). rewrite LD, (luts_load limit _ L). cbn [rbind].
  split; [reflexivity|]. split; [reflexivity|]. split; [reflexivity|]. cbn [clamped pm_quant]. clear. induction (pm_quant m) as [|o s IH]; cbn [map]; constructor; [|exact IH].
  repeat split.
Qed.
Print Assumptions C96_loads.

(** C96: without negative widths saving changes nothing: the loaded model has the same outputs on all inputs and the same
    precisions and factors registered, and it is stored as the original is. *)
Theorem C96_same : forall limit net m, List.length (pm_quant m) = List.length (pm_ov m) -> Forall flags (pm_quant m) -> placed net (pm_quant m) ->
  Forall widths (pm_quant m) -> loadable limit (pm_luts m) ->
  exists sv m', save_model net m = Ok (sv, m) /\ load_model limit sv = Ok m' /\ save_model net m' = Ok (sv, m') /\ pm_ov m' = pm_ov m /\
    forall geo feed opaque, run (pm_quant m') geo feed opaque (tables_of (pm_luts m')) net [] = run (pm_quant m) geo feed opaque (tables_of (pm_luts m)) net [].
Proof.
  intros limit net m A B C W L. destruct (save_total net m A B C) as [sv E]. rewrite (clamped_id m W) in E.
  destruct (C96_loads limit net m sv m E L) as (LD & _). exists sv, m. auto.
Qed.
Print Assumptions C96_same.

(** Registering keeps the number of quantizers and of dictionaries. *)
Lemma upd_size {A} (l : list A) : forall n a, List.length (upd l n a) = List.length l.
Proof. induction l as [|b l IH]; intros [|n] a; cbn; auto. Qed.
Lemma register_sizes fuel net names off : forall ls s ov s' ov', register_layers fuel net names off ls (s, ov) = Ok (s', ov') -> List.length ov' = List.length ov.
Proof.
  induction ls as [|n ls IH]; intros s ov s' ov' H; cbn [register_layers] in H; [injection H as _ <-; reflexivity|].
  destruct (register_qconf fuel net names off n (s, ov)) as [[s1 ov1]|] eqn:E; [|discriminate H]. cbn [rbind] in H. rewrite (IH _ _ _ _ H). clear IH H.
  unfold register_qconf in E. destruct (nth_error net n) as [[kd ps]|]; [|discriminate E]. cbn [fst snd] in E.
  assert (F : forall r : result (pst * ovs), r = Ok (s1, ov1) ->
    r = rbind (whatever_quantizer fuel net n) (fun q => rbind (layer_config fuel net n s off) (fun c =>
      match nth_error ov q, nth_error names n with Some (Some d), Some name => Ok (snd c, upd ov q (Some (set_update d name (conf_entry (fst c))))) | _, _ => Raise end)) -> List.length ov1 = List.length ov).
  { intros r Hr Er. rewrite Er in Hr. destruct (whatever_quantizer fuel net n) as [q|]; [|discriminate Hr]. cbn [rbind] in Hr.
    destruct (layer_config fuel net n s off) as [c|]; [|discriminate Hr]. cbn [rbind] in Hr. destruct (nth_error ov q) as [[d|]|]; [|discriminate Hr|discriminate Hr].
    destruct (nth_error names n) as [nm|]; [|discriminate Hr]. injection Hr as _ <-. apply upd_size. }
  destruct kd; try (exact (F _ E eq_refl)). injection E as _ <-. reflexivity.
Qed.

(** C96: a proxy whose precisions have been registered, the quantizers shrinking evenly, is saved and loaded unchanged; the
    loaded proxy delivers what the proxy delivered before the registration, on every input on which nothing overflowed. *)
Theorem C96_registered : forall limit fuel net names off s ov s' ov' luts,
  topological net -> own_quantizers net -> Forall one_sign s -> Forall moderate s -> Forall moderate s' -> Forall plain_fpq s ->
  register_all fuel net names off (s, ov) = Ok (s', ov') ->
  (forall m q ps fu t o, nth_error net m = Some (NFpq q, ps) -> nth_error s q = Some o -> produced fu net m s' = Ok (t, s') -> shrinks_evenly o t) ->
  List.length s = List.length ov -> placed net s -> loadable limit luts ->
  exists sv m', save_model net (mkPM s' ov' luts) = Ok (sv, mkPM s' ov' luts) /\ load_model limit sv = Ok m' /\ pm_ov m' = ov' /\
    forall geo feed opaque out, all_fine net s' -> honest net feed opaque -> proper_tables net (tables_of luts) ->
      run s geo feed opaque (tables_of luts) net [] = Ok out -> quiet net s geo out ->
      run (pm_quant m') geo feed opaque (tables_of (pm_luts m')) net [] = Ok out.
Proof.
  intros limit fuel net names off s ov s' ov' luts T OQ O M M' PL H EV LN P LL.
  assert (N : Forall nice s).
  { rewrite Forall_forall in *. intros o Ho. split; [apply O, Ho|]. eapply Forall_impl; [|exact (M o Ho)]. cbn beta. intros c Hc. lia. }
  assert (LO : Forall low s').
  { rewrite Forall_forall in *. intros o Ho. eapply Forall_impl; [|exact (M' o Ho)]. cbn beta. intros c Hc. lia. }
  destruct (register_reduced net s T OQ N fuel names off ov s' ov' LO H) as (RO & _ & LE).
  assert (LS : List.length s' = List.length s) by (clear - LE; unfold store_le in LE; induction LE; cbn; congruence).
  assert (LV : List.length ov' = List.length ov) by exact (register_sizes _ _ _ _ _ _ _ _ _ H).
  assert (AT : forall q o', nth_error s' q = Some o' -> exists o, nth_error s q = Some o).
  { intros q o' E. destruct (nth_error s q) as [o|] eqn:Eo; [eauto|]. apply nth_error_None in Eo. assert (q < List.length s')%nat by (apply nth_error_Some; congruence). lia. }
  assert (P' : placed net s') by (intros q o' E; destruct (AT q o' E) as [o Eo]; exact (P q o Eo)).
  assert (FL : Forall flags s') by (rewrite Forall_forall in *; intros o Ho c Hc; pose proof (M' o Ho) as X; unfold moderate in X; rewrite Forall_forall in X; apply (X c Hc)).
  assert (W : Forall widths s').
  { apply Forall_forall. intros o' Ho'. apply In_nth_error in Ho' as [q Eq]. destruct (AT q o' Eq) as [o Eo]. destruct (P q o Eo) as (n & p & En & _).
    assert (WO : widths o). { rewrite Forall_forall in PL. destruct (PL o (nth_error_In _ _ Eo)) as [(_ & LF & _) _]. rewrite Forall_forall in LF. intros c Hc. destruct (LF c Hc) as (K & B & _). destruct K; lia. }
    destruct (RO n q [p] En) as [Same|(p' & fu & t & o0 & r & o1 & _ & _ & E0 & FP & E1 & PR)].
    - assert (o' = o) by congruence. subst. exact WO.
    - assert (o0 = o) by congruence. assert (o1 = o') by congruence. subst o0 o1. pose proof (EV n q [p] (S fu) r o En Eo PR) as SH.
      rewrite Forall_forall in M'. pose proof (M' o' (nth_error_In _ _ Eq)) as MO. destruct t as [[ik ii] jf]. unfold fpq_produced in FP. destruct (result_t_kif o) as [[ok oi] of']. cbv zeta in FP.
      set (i := if (_ && _)%bool then _ else _) in FP. destruct (_ || _)%bool in FP; injection FP as <- <-; [|exact WO].
      intros c Hc. unfold moderate in MO. rewrite Forall_forall in MO. specialize (MO c Hc). unfold reduce_fpq, tmap in Hc. cbn [cfgs data] in Hc. apply in_map_iff in Hc as (d & <- & Hd).
      unfold reduce_elem in *. cbn [kn bits ints] in *. destruct SH as [SH _]. specialize (WO d Hd). lia. }
  destruct (C96_same limit net (mkPM s' ov' luts)) as (sv & m' & S1 & S2 & _ & S3 & S4); cbn [pm_quant pm_ov pm_luts]; try assumption; [congruence|].
  cbn [pm_quant pm_ov pm_luts] in S3, S4. exists sv, m'. split; [exact S1|]. split; [exact S2|]. split; [exact S3|].
  intros geo feed opaque out AF HH TB R Q. rewrite S4. destruct (C79_same fuel net names off s ov s' ov' geo feed opaque (tables_of luts) out T OQ O M M' PL H AF HH TB EV R Q) as [X _]. exact X.
Qed.
Print Assumptions C96_registered.

(** *** Examples *)
(** Input, quantizer, table of eight entries for 2x, quantizer with two widths. *)
Definition snet : pnet := [(NInput, []); (NFpq 0, [0%nat]); (NLut (1, 2, 0), [1%nat]); (NFpq 1, [2%nat])].
Definition sst : pst := [fq [mkCfg 1 3 2; mkCfg 1 3 2] "TRN" "SAT"; fq [mkCfg 1 2 2; mkCfg 0 0 0] "RND" "WRAP"].
Definition sov : ovs := [Some []; Some [("dense"%string, [("result_t"%string, CStr "fixed<3,2,TRN,SAT>"); ("parallelization_factor"%string, CInt 4)])]].
Definition double (x : Qc) : Qc := (x + x)%Qc.
Definition slut : result ulayer := ulut_new 4096 (1, 1, 1) (1, 2, 0) "TRN" "WRAP" (Some (map double (lut_inputs (1, 1, 1)))).
Definition sgeo (n : nat) : list recipe := match n with O | S (S O) => [] | _ => [mkR [Some (0%nat, 0%nat)] 0 []; mkR [Some (0%nat, 1%nat)] 1 []] end.
Definition srun (m : pmodel) : result (list (list Qc)) :=
  run (pm_quant m) sgeo (fun n => match n with O => [Q2Qc (-7 # 5); qz 1] | _ => [] end) (fun _ _ => []) (tables_of (pm_luts m)) snet [].
Definition shown (r : result (list (list Qc))) : list (list QArith_base.Q) := match r with Ok y => map (map this) y | Raise => [] end.
Ltac place n p := exists n, p; split; [reflexivity|]; let k := fresh in let ps := fresh in let E := fresh in intros k ps E;
  do 4 (destruct k as [|k]; [first [reflexivity|discriminate E]|]); destruct k; discriminate E.
Lemma snet_placed : placed snet sst.
Proof. intros [|[|q]] o E; [place 1%nat 0%nat|place 3%nat 2%nat|destruct q; discriminate E]. Qed.
(** It is stored, loads in a process that allows tables below nine entries, and delivers 1 (-3 wrapped around) and 0 after that. *)
Example C96_same_ex : match slut with
  | Ok l => exists sv m', save_model snet (mkPM sst sov [(2%nat, l)]) = Ok (sv, mkPM sst sov [(2%nat, l)]) /\ load_model 9 sv = Ok m' /\
      pm_ov m' = sov /\ nth 3 (shown (srun m')) [] = [(1 # 1)%Q; 0%Q]
  | Raise => False end.
Proof.
  assert (V : (match slut with Ok l => nth 3 (shown (srun (mkPM sst sov [(2%nat, l)]))) [] | Raise => [] end) = [(1 # 1)%Q; 0%Q]) by (vm_compute; reflexivity).
  assert (K : (match slut with Ok l => (u_in l, u_out l) | Raise => ((0, 0, 0), (0, 0, 0)) end) = ((1, 1, 1), (1, 2, 0))) by (vm_compute; reflexivity).
  destruct slut as [l|] eqn:E; [|discriminate V].
  destruct (C96_same 9 snet (mkPM sst sov [(2%nat, l)])) as (sv & m' & S1 & S2 & _ & S3 & S4).
  - reflexivity.
  - cbn [pm_quant]. unfold sst. allfq ltac:(intros c Hc; cbn in Hc; intuition subst; cbn; auto).
  - exact snet_placed.
  - cbn [pm_quant]. unfold sst. allfq ltac:(intros c Hc; cbn in Hc; intuition subst; cbn; lia).
  - intros n l' [H|[]]. injection H as <- <-. assert (K1 : u_in l = (1, 1, 1)) by congruence. assert (K2 : u_out l = (1, 2, 0)) by congruence. rewrite K1, K2.
    exists 4096, "TRN"%string, "WRAP"%string, (map double (lut_inputs (1, 1, 1))). split; [exact E|]. rewrite map_length. vm_compute. auto.
  - exists sv, m'. split; [exact S1|]. split; [exact S2|]. split; [exact S3|]. unfold srun. rewrite S4. exact V.
Qed.
Lemma qnet_placed : placed qnet qs1.
Proof. intros [|[|q]] o E; [place 1%nat 0%nat|place 2%nat 1%nat|destruct q; discriminate E]. Qed.
(** The two quantizers of C79, the second one shrunk by the registration: 5/2 and -3 for 21/8 and -3, also after saving and loading. *)
Example C96_registered_ex : exists ov' sv m', register_all 4 qnet qnames None (qs1, [Some []; Some []]) = Ok (qs1', ov') /\
  save_model qnet (mkPM qs1' ov' []) = Ok (sv, mkPM qs1' ov' []) /\ load_model 0 sv = Ok m' /\ pm_ov m' = ov' /\
  qrun (pm_quant m') [Q2Qc (21 # 8); qz (-3)] = Ok [[Q2Qc (21 # 8); qz (-3)]; [Q2Qc (5 # 2); qz (-3)]; [Q2Qc (5 # 2); qz (-3)]].
Proof.
  destruct qs1_registered as [ov' RG]. destruct C79_same_ex as (O & M & M' & R & _).
  destruct (C96_registered 0 4 qnet qnames None qs1 [Some []; Some []] qs1' ov' [] qnet_topo qnet_own O M M' qs1_plain RG qs1_even eq_refl qnet_placed) as (sv & m' & S1 & S2 & S3 & S4).
  { intros n l []. }
  assert (LU : pm_luts m' = []). { destruct (C96_loads 0 qnet _ _ _ S1) as (LD & _); [intros n l []|]. assert (X : Ok m' = Ok (mkPM qs1' ov' [])) by congruence. injection X as ->. reflexivity. }
  exists ov', sv, m'. split; [exact RG|]. split; [exact S1|]. split; [exact S2|]. split; [exact S3|].
  rewrite LU in S4. refine (S4 qgeo (qfeed _) (fun _ _ => []) _ qs1_fine _ _ R qs1_quiet).
  - apply qfeed_honest. assert (F : forall x, fits 1 4 4 x -> float_value x) by (intros x; apply fits_mono; lia).
    constructor; [|constructor; [|constructor]]; apply F; [plain 42|plain (-48)].
  - intros n k i f ps l _ X. discriminate X.
Qed.

(** C96: shrinking evenly is needed.  Two legal quantizers, eighths in steps of 1/32 into steps of 4: the registration leaves the
    second one with -3 bits, and the registered model delivers -1/4; after saving it delivers 0, in memory and loaded. *)
Definition ns : pst := [fq [mkCfg 1 3 (-2)] "TRN" "SAT"; fq [mkCfg 1 2 4] "TRN" "SAT"].
Definition ngeo (n : nat) : list recipe := match n with O => [] | _ => [mkR [Some (0%nat, 0%nat)] 0 []] end.
Definition nrun (s : pst) : result (list (list Qc)) := run s ngeo (qfeed [qz 1]) (fun _ _ => []) (fun _ => None) qnet [].
Lemma nrun_shows s v : (match nrun s with Ok o => (map this (nth 2 o []), List.length o) | Raise => ([], O) end) = (v, 3%nat) ->
  exists out, nrun s = Ok out /\ map this (nth 2 out []) = v /\ List.length out = 3%nat.
Proof. destruct (nrun s) as [o|]; [|discriminate]. intros V. injection V as V1 V2. eauto. Qed.
Theorem C96_any_width_refuted : exists s ov s' ov' sv m' out out', Forall legal_fpq s /\ placed qnet s /\
  register_all 4 qnet qnames None (s, ov) = Ok (s', ov') /\ save_model qnet (mkPM s' ov' []) = Ok (sv, m') /\ load_model 0 sv = Ok m' /\
  nrun s' = Ok out /\ nrun (pm_quant m') = Ok out' /\ nth_error out' 2 <> nth_error out 2.
Proof.
  exists ns, [Some []; Some []]. eexists _, _, _, _.
  assert (A : exists out, nrun [fq [mkCfg 1 3 (-2)] "TRN" "SAT"; fq [mkCfg 1 (-3) (-1)] "TRN" "SAT"] = Ok out /\ map this (nth 2 out []) = [(-1 # 4)%Q] /\ List.length out = 3%nat)
    by (apply nrun_shows; vm_compute; reflexivity).
  assert (B : exists out, nrun [fq [mkCfg 1 3 (-2)] "TRN" "SAT"; fq [mkCfg 1 0 (-1)] "TRN" "SAT"] = Ok out /\ map this (nth 2 out []) = [0%Q] /\ List.length out = 3%nat)
    by (apply nrun_shows; vm_compute; reflexivity).
  destruct A as (out & A1 & A2 & A3), B as (out' & B1 & B2 & B3). exists out, out'.
  split; [allfq legal|]. split. { intros [|[|q]] o E; [place 1%nat 0%nat|place 2%nat 1%nat|destruct q; discriminate E]. }
  split; [vm_compute; reflexivity|]. split; [vm_compute; reflexivity|]. split; [vm_compute; reflexivity|].
  split; [exact A1|]. split; [exact B1|]. intros X. rewrite (nth_error_nth' out' []) in X by lia. rewrite (nth_error_nth' out []) in X by lia.
  injection X as X. rewrite X in B2. congruence.
Qed.
Print Assumptions C96_any_width_refuted.
(** A quantizer that is called twice cannot be saved. *)
Example C96_saves_ex : save_model [(NInput, []); (NFpq 0, [0%nat]); (NFpq 0, [1%nat])] (mkPM [fq [mkCfg 1 3 2] "TRN" "SAT"] [Some []] []) = Raise /\
  save_model qnet (mkPM (qs1 ++ [fq [mkCfg 1 3 2] "TRN" "SAT"]) [Some []; Some []; Some []] []) = Raise.
Proof. split; vm_compute; reflexivity. Qed.

(** C96: what is stored under 'fusible': true exactly when the quantizer is the only reader of its input layer and all its
    elements have the same format (of which the one with negative widths set to 0 is meant). *)
Theorem C96_fusible : forall net m sv m' q c v j n, save_model net m = Ok (sv, m') -> nth_error (sv_quant sv) q = Some (c, v) ->
  nth_error net j = Some (NFpq q, [n]) ->
  (cf_fusible c = true <-> (forall j' l, nth_error net j' = Some l -> In n (snd l) -> j' = j) /\ (forall a b, In a (data v) -> In b (data v) -> a = b)).
Proof. exact save_fusible. Qed.
Print Assumptions C96_fusible.
(** Two quantizers in a row, the second with two formats; a third one reads the input as well; a fourth is alone on its layer. *)
Example C96_fusible_ex : let o := fq [mkCfg 1 3 2] "TRN" "SAT" in let o2 := fq [mkCfg 1 3 2; mkCfg 1 4 2] "TRN" "SAT" in
  match save_model [(NInput, []); (NFpq 0, [0%nat]); (NFpq 1, [1%nat]); (NFpq 2, [0%nat]); (NFpq 3, [3%nat])] (mkPM [o; o2; o; o] [None; None; None; None] []) with
  | Ok (sv, _) => map (fun e => cf_fusible (fst e)) (sv_quant sv) = [false; false; false; true]
  | Raise => False end.
Proof. vm_compute. reflexivity. Qed.

(** C96: the lookup that the network makes in a layer that has a table is the call of that layer (C75). *)
Theorem C96_lookup : forall ls n u, NoDup (map fst ls) -> In (n, u) ls -> u_table u <> None ->
  exists t, tables_of ls n = Some t /\ forall x, lut_call t x = ulut_call u x.
Proof.
  intros ls n u ND I HT. unfold tables_of. assert (F : find (fun e => Nat.eqb (fst e) n) ls = Some (n, u)).
  { induction ls as [|[a v] ls IH]; [destruct I|]. cbn [map fst] in ND. inversion ND as [|? ? Na ND']; subst. cbn [find fst]. destruct I as [E|I].
    - injection E as -> ->. rewrite Nat.eqb_refl. reflexivity.
    - destruct (Nat.eqb_spec a n) as [->|]; [|auto]. exfalso. apply Na. apply in_map_iff. exists (n, u). auto. }
  rewrite F. cbn [snd]. unfold ulut_call, ulut_build. destruct (u_table u) as [t|] eqn:E; [|contradiction]. eexists. split; [reflexivity|]. rewrite E. reflexivity.
Qed.
Print Assumptions C96_lookup.
Example C96_lookup_ex : match slut with
  | Ok l => u_table l <> None /\ match tables_of [(2%nat, l)] 2 with Some t => rmap this (lut_call t (qz (-1))) = Ok (-2 # 1)%Q | None => False end
  | Raise => False end.
Proof. vm_compute. split; [discriminate|reflexivity]. Qed.

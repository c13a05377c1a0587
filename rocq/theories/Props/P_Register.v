(** Registration of the precision configurations on a proxy model: C69. *)
From Coq Require Import ZArith Qcanon List Bool String Lia.
From Verif Require Import Base.Num Base.Tensor Model.FixedPoint Model.Precision Model.Register Model.Graph Model.Convert
  Spec.Precision Spec.Register Proofs.RegisterP.
Import ListNotations.
Open Scope Z_scope.

(** The configuration of a layer goes to the layer itself if it is a quantizer,
    else to a quantizer reached along the data flow, else to one reached
    against it; no quantizer is found only if there is none. *)
Theorem C69_where : forall net fuel n, topological net -> (List.length net <= fuel)%nat -> (n < List.length net)%nat ->
  (forall q, whatever_quantizer fuel net n = Ok q -> stored_on net n q) /\
  (whatever_quantizer fuel net n = Raise <-> forall q, ~ stored_on net n q).
Proof.
  intros net fuel n T L Ln. split; [intros q; apply whatever_ok; assumption|]. split; [apply whatever_raise; assumption|].
  intros N. destruct (whatever_quantizer fuel net n) as [q|] eqn:E; [|reflexivity]. destruct (N q (whatever_ok net fuel n q T L E)).
Qed.
Print Assumptions C69_where.

(** input -> q0 -> dense -> relu -> q1, and an average pooling after q0 that
    ends the model. *)
Definition rnet : pnet :=
  [(NInput, []); (NFpq 0, [0%nat]); (NKernel [qz 1; qz (-3)] 1 None, [1%nat]); (NActL false (fun x => qmax x (qz 0)), [2%nat]);
   (NFpq 1, [3%nat]); (NAvg [2], [1%nat])].
Definition rq (k b i : Z) (R S : string) : fpq unit := mkFPQ (mkT [1%nat] [mkCfg k b i]) R S tt.
Definition rst : pst := [rq 1 4 2 "RND" "SAT"; rq 0 6 4 "RND" "SAT"].
Definition rnames : list string := ["in"; "q"; "d"; "re_lu"; "d_quantizer"; "pool"]%string.
Definition rovs : ovs := [Some []; Some (xformer_overrides "d" (Some 4))].
Example rnet_topological : topological rnet.
Proof. intros [|[|[|[|[|[|[|n]]]]]]] kd ps E; cbn in E; try discriminate; injection E as <- <-; repeat constructor. Qed.
Example C69_where_ex : map (whatever_quantizer 6 rnet) (seq 0 6) = map Ok [0; 0; 1; 1; 1; 0]%nat /\
  ahead rnet 2 1 /\ behind rnet 5 0 /\ (forall q, ~ ahead rnet 5 q).
Proof.
  split; [reflexivity|]. split.
  - apply (ahead_via rnet 2 3 1); [exists (NActL false (fun x => qmax x (qz 0))), [2%nat]; cbn; auto| |].
    + intros q [ps H]. discriminate.
    + apply (ahead_next rnet 3 4 1); [exists (NFpq 1), [3%nat]; cbn; auto|]. exists [3%nat]. reflexivity.
  - split.
    + apply (behind_last rnet 5 1 0); [exists (NAvg [2]), [1%nat]; cbn; auto|]. exists [0%nat]. reflexivity.
    + apply (next_complete rnet rnet_topological 6); [cbn; lia|reflexivity].
Qed.

(** In a converted model every layer with weights is followed by its own
    quantizer, which gets its configuration. *)
Theorem C69_own_quantizer : forall net fuel n m q, (1 <= fuel)%nat -> plain_at net n -> out_layers net n = [m] -> quantizer_at net m q ->
  whatever_quantizer fuel net n = Ok q.
Proof.
  intros net [|fu] n m q L P O Q; [lia|]. unfold whatever_quantizer. rewrite (proj2 (is_fpq_none net n) P). cbn [next_quantizer]. rewrite O. cbn [first_some].
  rewrite (proj2 (is_fpq_spec net m q) Q). reflexivity.
Qed.
Print Assumptions C69_own_quantizer.
Example C69_own_quantizer_ex : plain_at rnet 3 /\ out_layers rnet 3 = [4%nat] /\ quantizer_at rnet 4 1.
Proof. split; [intros q [ps H]; discriminate|]. split; [reflexivity|]. exists [3%nat]. reflexivity. Qed.

(** After registration the configuration derived for a layer (in the state
    reached when its turn came) is found under its name on its quantizer, and
    the keys it does not define, such as the parallelization factor, are as
    before. *)
Theorem C69_registered : forall fuel net names off s o s' o' n name,
  topological net -> (List.length net <= fuel)%nat -> NoDup names ->
  register_all fuel net names off (s, o) = Ok (s', o') ->
  (n < List.length net)%nat -> (forall t ps, nth_error net n <> Some (NLut t, ps)) -> nth_error names n = Some name ->
  exists q c sn on e, stored_on net n q /\
    register_layers fuel net names off (seq 0 n) (s, o) = Ok (sn, on) /\ (exists s2, layer_config fuel net n sn off = Ok (c, s2)) /\
    look o' q name = Some e /\
    (forall k v, In (k, v) (fst c) -> dget e k = Some (CStr v)) /\
    (forall z, snd c = Some z -> dget e "table_size" = Some (CInt z)) /\
    (forall k, ~ In k (map fst (fst c)) -> (k = "table_size"%string -> snd c = None) -> dget e k = match look o q name with Some e0 => dget e0 k | None => None end).
Proof.
  intros fuel net names off s o s' o' n name T L ND H Ln NL En. unfold register_all in H. rewrite (seq_split n) in H by exact Ln.
  rewrite register_app in H. destruct (register_layers fuel net names off (seq 0 n) (s, o)) as [[sn on]|] eqn:E1; [|discriminate]. cbn [rbind] in H. cbn [register_layers] in H.
  destruct (register_qconf fuel net names off n (sn, on)) as [[s2 o2]|] eqn:E2; [|discriminate]. cbn [rbind] in H.
  assert (Same : forall m, nth_error names m = Some name -> m = n).
  { intros m Em. apply (proj1 (NoDup_nth_error names) ND m n); [|congruence]. apply (proj1 (nth_error_Some names m)). rewrite Em. discriminate. }
  apply register_step in E2 as [(t & ps & X & _)|(_ & q & c & name' & W & C & En' & K)]; [destruct (NL t ps X)|].
  assert (name' = name) by congruence. subst name'.
  pose proof (register_others _ _ _ _ _ _ _ _ _ q name H) as A3. pose proof (register_others _ _ _ _ _ _ _ _ _ q name E1) as A1.
  rewrite (K q name), Nat.eqb_refl, String.eqb_refl in A3. cbn [andb] in A3.
  rewrite A1 in A3.
  - exists q, c, sn, on, (dupdate (match look o q name with Some x => x | None => [] end) (conf_entry c)).
    split; [apply (whatever_ok net fuel); assumption|]. split; [reflexivity|]. split; [eauto|]. split.
    + apply A3. intros m I _ Em. apply in_seq in I. rewrite (Same m Em) in I. lia.
    + pose proof (conf_keys _ _ _ _ _ _ _ C) as CK. split; [|split].
      * intros k v I. apply dupdate_in; [exact CK|]. unfold conf_entry. apply in_app_iff. left. apply (in_map (fun p => (fst p, CStr (snd p))) _ _ I).
      * intros z Z. apply dupdate_in; [exact CK|]. unfold conf_entry. apply in_app_iff. right. rewrite Z. left. reflexivity.
      * intros k Nk Nz. rewrite dupdate_other; [destruct (look o q name); reflexivity|]. unfold conf_entry. rewrite map_app, map_map. cbn [fst]. intros I. apply in_app_iff in I as [I|I]; [exact (Nk I)|].
        destruct (snd c) as [z|]; [|exact I]. destruct I as [I|[]]. specialize (Nz (eq_sym I)). discriminate.
  - intros m I _ Em. apply in_seq in I. rewrite (Same m Em) in I. lia.
Qed.
Print Assumptions C69_registered.
Example C69_registered_ex : exists s' o', register_all 6 rnet rnames None (rst, rovs) = Ok (s', o') /\ NoDup rnames /\
  o' = [Some [("in", [("result_t", CStr "fixed<4,2,RND,SAT>")]); ("q", [("result_t", CStr "fixed<4,2,TRN,WRAP>")]);
              ("pool", [("result_t", CStr "fixed<5,2,TRN,WRAP>")])];
        Some [("d", [("parallelization_factor", CInt 4); ("weight_t", CStr "fixed<3,3>"); ("accum_t", CStr "fixed<7,5>");
                     ("result_t", CStr "fixed<7,5,TRN,WRAP>"); ("bias_t", CStr "fixed<7,5>")]);
              ("re_lu", [("result_t", CStr "ufixed<6,4,RND,SAT>")]); ("d_quantizer", [("result_t", CStr "ufixed<6,4,TRN,WRAP>")])]]%string.
Proof.
  destruct (register_all 6 rnet rnames None (rst, rovs)) as [[s' o']|] eqn:E; vm_compute in E.
  - exists s', o'. split; [reflexivity|]. split; [repeat (constructor; [cbn; intuition discriminate|]); constructor|].
    assert (X := f_equal (fun x => match x with Ok y => snd y | Raise => [] end) E). cbn [snd] in X. rewrite <- X. reflexivity.
  - discriminate.
Qed.

(** Nothing else is written: what a quantizer has stored under a name that is
    not the name of a layer of its own is as before. *)
Theorem C69_nothing_else : forall fuel net names off s o s' o' q name,
  topological net -> (List.length net <= fuel)%nat -> register_all fuel net names off (s, o) = Ok (s', o') ->
  (forall n, nth_error names n = Some name -> ~ stored_on net n q) ->
  look o' q name = look o q name.
Proof.
  intros fuel net names off s o s' o' q name T L H N. apply (register_others _ _ _ _ _ _ _ _ _ q name H).
  intros n _ _ En W. apply (N n En). apply (whatever_ok net fuel); assumption.
Qed.
Print Assumptions C69_nothing_else.
Example C69_nothing_else_ex : (forall n, nth_error rnames n = Some "d"%string -> ~ stored_on rnet n 0).
Proof.
  intros n E. assert (n = 2%nat) as -> by (do 6 (destruct n as [|n]; [cbn in E; try discriminate; reflexivity|]); destruct n; discriminate).
  intros [[ps Q]|[_ [A|[A _]]]]; [discriminate| |].
  - inversion A as [? m ? F [ps Q]|? m ? F P A2]; subst.
    + destruct F as (kd & ps' & F & I). do 6 (destruct m as [|m]; [cbn in F, Q; first [discriminate|injection F as <- <-; cbn in I; intuition discriminate]|]). destruct m; discriminate.
    + destruct F as (kd & ps' & F & I). assert (m = 3%nat) as ->.
      { do 6 (destruct m as [|m]; [cbn in F; injection F as <- <-; cbn in I; first [reflexivity|intuition discriminate]|]). destruct m; discriminate. }
      inversion A2 as [? m ? F2 [ps Q]|? m ? F2 P2 A3]; subst.
      * destruct F2 as (kd2 & ps2 & F2 & I2). do 6 (destruct m as [|m]; [cbn in F2, Q; first [discriminate|injection F2 as <- <-; cbn in I2; intuition discriminate]|]). destruct m; discriminate.
      * destruct F2 as (kd2 & ps2 & F2 & I2). assert (m = 4%nat) as ->.
        { do 6 (destruct m as [|m]; [cbn in F2; injection F2 as <- <-; cbn in I2; first [reflexivity|intuition discriminate]|]). destruct m; discriminate. }
        apply (P2 1%nat). exists [3%nat]. reflexivity.
  - apply (A 1%nat). apply C69_where_ex.
Qed.

(** Registration fails exactly when, at the turn of some layer, no quantizer is
    connected to it, no configuration can be derived (C48), or the overrides of
    its quantizer have no key 'layers'. *)
Theorem C69_raises : forall fuel net names off s o, topological net -> (List.length net <= fuel)%nat -> List.length names = List.length net ->
  (register_all fuel net names off (s, o) = Raise <->
   exists n sn on, (n < List.length net)%nat /\ register_layers fuel net names off (seq 0 n) (s, o) = Ok (sn, on) /\
     (forall t ps, nth_error net n <> Some (NLut t, ps)) /\
     ((forall q, ~ stored_on net n q) \/ layer_config fuel net n sn off = Raise \/
      exists q, whatever_quantizer fuel net n = Ok q /\ forall d, nth_error on q <> Some (Some d))).
Proof.
  intros fuel net names off s o T L LN. split.
  - intros H. unfold register_all in H.
    assert (G : forall m, (m <= List.length net)%nat -> register_layers fuel net names off (seq 0 m) (s, o) = Raise ->
      exists n sn on, (n < m)%nat /\ register_layers fuel net names off (seq 0 n) (s, o) = Ok (sn, on) /\ register_qconf fuel net names off n (sn, on) = Raise).
    { induction m as [|m IH]; intros Lm E; [discriminate|]. rewrite (seq_split m) in E by lia. rewrite Nat.sub_diag in E. cbn [seq] in E.
      rewrite register_app in E. destruct (register_layers fuel net names off (seq 0 m) (s, o)) as [[sn on]|] eqn:E1.
      - exists m, sn, on. split; [lia|]. split; [exact E1|]. cbn [rbind register_layers] in E. destruct (register_qconf fuel net names off m (sn, on)); [discriminate|reflexivity].
      - destruct (IH ltac:(lia) eq_refl) as (n & sn & on & A & B). exists n, sn, on. split; [lia|exact B]. }
    destruct (G _ (le_n _) H) as (n & sn & on & Ln & E & R). exists n, sn, on. split; [exact Ln|]. split; [exact E|].
    unfold register_qconf in R. destruct (nth_error net n) as [[kd ps]|] eqn:En; [|apply nth_error_None in En; lia].
    assert (D : forall t ps', nth_error net n <> Some (NLut t, ps')) by (intros t ps' X; rewrite En in X; assert (kd = NLut t) by congruence; subst kd; discriminate).
    split; [intros t ps' X; apply (D t ps'); congruence|].
    assert (R' : rbind (whatever_quantizer fuel net n) (fun q => rbind (layer_config fuel net n sn off) (fun c =>
      match nth_error on q, nth_error names n with
      | Some (Some d), Some name => Ok (snd c, upd on q (Some (set_update d name (conf_entry (fst c)))))
      | _, _ => Raise end)) = Raise) by (destruct kd; exact R || discriminate).
    destruct (whatever_quantizer fuel net n) as [q|] eqn:W.
    + right. cbn [rbind] in R'. destruct (layer_config fuel net n sn off) as [[c s2]|]; [right|left; reflexivity]. exists q. split; [reflexivity|].
      intros d X. cbn [rbind] in R'. rewrite X in R'. destruct (nth_error names n) eqn:Em; [discriminate|]. apply nth_error_None in Em. lia.
    + left. apply (whatever_raise net fuel n T L Ln W).
  - intros (n & sn & on & Ln & E & NL & C). unfold register_all. rewrite (seq_split n) by exact Ln. rewrite register_app, E. cbn [rbind register_layers].
    assert (R : register_qconf fuel net names off n (sn, on) = Raise); [|rewrite R; reflexivity].
    unfold register_qconf. destruct (nth_error net n) as [[kd ps]|] eqn:En; [|reflexivity].
    assert (R : rbind (whatever_quantizer fuel net n) (fun q => rbind (layer_config fuel net n sn off) (fun c =>
      match nth_error on q, nth_error names n with
      | Some (Some d), Some name => Ok (snd c, upd on q (Some (set_update d name (conf_entry (fst c)))))
      | _, _ => Raise end)) = Raise).
    { destruct (whatever_quantizer fuel net n) as [q|] eqn:W; [|reflexivity]. destruct C as [C|[C|(q' & C & D)]].
      - destruct (C q (whatever_ok net fuel n q T L W)).
      - rewrite C. reflexivity.
      - assert (q' = q) by congruence. subst q'. cbn [rbind]. destruct (layer_config fuel net n sn off); [|reflexivity]. cbn [rbind].
        destruct (nth_error on q) as [[d|]|]; [destruct (D d eq_refl)|reflexivity|reflexivity]. }
    destruct kd; try exact R. destruct (NL kif_out ps eq_refl).
Qed.
Print Assumptions C69_raises.
(** A model without any quantizer. *)
Example C69_raises_ex : register_all 2 [(NInput, []); (NReshape, [0%nat])] ["a"; "b"]%string None ([], []) = Raise /\
  (forall q, ~ stored_on [(NInput, []); (NReshape, [0%nat])] 0 q).
Proof.
  split; [reflexivity|]. apply (whatever_raise [(NInput, []); (NReshape, [0%nat])] 2 0); [|cbn; lia|cbn; lia|reflexivity].
  intros [|[|[|n]]] kd ps E; cbn in E; try discriminate; injection E as <- <-; repeat constructor.
Qed.

(** The parallelization factor is filed under the name of the HGQ layer.  A
    layer that is applied twice becomes two layers of the proxy, the second of
    which is renamed: no quantizer has a factor for it. *)
Inductive pl : Type := HG (u : nat) (name : string) (factor : Z) | KL (u : nat) (factor : Z) | FQ (u : nat) (d : layers_dict).
Definition pl_uid (x : pl) : nat := match x with HG u _ _ => 3 * u | KL u _ => 3 * u + 1 | FQ u _ => 3 * u + 2 end.
Definition pl_xf (x : option pl) : result (xout (L := pl)) :=
  match x with
  | None => Ok XNone
  | Some (HG u name f) =>
    Ok (XModel (Sub 1 [(Leaf (KL u f), [(0, 0)%nat]); (Leaf (FQ u (xformer_overrides name (Some f))), [(1, 0)%nat])] [(2, 0)%nat]))
  | Some y => Ok (XLayer y)
  end.
Definition factor_kept (m : klayer pl) (names : list string) : Prop :=
  match m with
  | Leaf _ => True
  | Sub _ nodes _ => forall n u f ins name, nth_error nodes n = Some (Leaf (KL u f), ins) -> nth_error names n = Some name ->
      exists m' u' d ins', nth_error nodes m' = Some (Leaf (FQ u' d), ins') /\ dget d name = Some [("parallelization_factor"%string, CInt f)]
  end.
Theorem C69_reused_layer_refuted :
  ~ forall fuel (m : klayer pl) names m' ns s,
      (forall u, names (pl_uid (KL u 0)) = (fst (names (pl_uid (HG u ""%string 0))), true)) ->
      convert_model pl_uid pl_xf fuel m names = Ok (m', ns, s) -> factor_kept m' ns.
Proof.
  intros C. set (names := fun u => (match u with 6 | 7 => "h" | 8 => "h_quantizer" | _ => "x" end%nat%string, true)).
  specialize (C 4%nat (Sub 1 [(Leaf (HG 2 "h" 8), [(0, 0)%nat]); (Leaf (HG 2 "h" 8), [(1, 0)%nat])] [(2, 0)%nat]) names).
  destruct (convert_model _ _ _ _ _) as [[[m' ns] s]|] eqn:E; vm_compute in E; [|discriminate].
  injection E as <- <- <-. specialize (C _ _ _ ltac:(intros [|[|[|u]]]; [reflexivity|reflexivity|reflexivity|]; unfold names, pl_uid; do 9 (destruct u as [|u]; [reflexivity|]); cbn; repeat (rewrite Nat.add_succ_r; cbn); reflexivity) eq_refl).
  cbn [factor_kept] in C. destruct (C 2%nat 2%nat 8 _ "h_0"%string eq_refl eq_refl) as (m & u & d & ins & X & Y).
  do 4 (destruct m as [|m]; [cbn in X; try discriminate; injection X as <- <- <-; discriminate|]). destruct m; discriminate.
Qed.
Print Assumptions C69_reused_layer_refuted.

(** C81: layers follow the arguments they are constructed with. *)
From Coq Require Import ZArith QArith Qcanon List Bool String Lia.
From Verif Require Import Base.Num Base.NumFacts Base.Tensor Model.Quantizer Model.Layers Model.Conf Model.BatchNorm Model.Serial Spec.Serial Spec.Build Spec.Rounding Proofs.CallP Proofs.ShapeP Proofs.ConfP Proofs.RoundingP Proofs.SerialP Props.P_Quantizer Props.P_Serial.
Import ListNotations.
Open Scope Z_scope.

Lemma own_keys_spec c k : In k (own_keys c) <-> argument_of c k.
Proof.
  unfold own_keys, argument_of. destruct c; cbn; split; intros H;
    repeat match goal with X : _ \/ _ |- _ => destruct X | X : _ /\ _ |- _ => destruct X | X : False |- _ => destruct X end; subst; try discriminate; auto 14.
Qed.

(** C81: a class accepts no argument of another HGQ class: they reach keras,
    which rejects them. *)
Theorem C81_arguments : forall defaults c cfg a key v, construct defaults c cfg = Ok a -> In (key, v) cfg -> In key all_own_keys -> argument_of c key.
Proof.
  intros defaults c cfg a key v H I K. unfold construct in H. cbv zeta in H.
  destruct (existsb (fun e => existsb (String.eqb (fst e)) all_own_keys) (filter (fun e => negb (existsb (String.eqb (fst e)) (own_keys c))) cfg)) eqn:E; [discriminate|]. clear H.
  apply own_keys_spec. destruct (in_dec string_dec key (own_keys c)) as [|N]; [assumption|]. exfalso.
  rewrite <- not_true_iff_false in E. apply E. apply existsb_exists. exists (key, v). split.
  - apply filter_In. split; [exact I|]. cbn [fst]. apply negb_true_iff, not_true_iff_false. intros X. apply existsb_exists in X as [k' [I' Q]]. apply String.eqb_eq in Q. subst k'. contradiction.
  - cbn [fst]. apply existsb_exists. exists key. split; [exact K|apply String.eqb_refl].
Qed.
Print Assumptions C81_arguments.
(** A parallelization factor for an HAdd is rejected, for an HDense it is kept. *)
Example C81_arguments_ex : construct (default_kq, default_paq) HAdd [("parallel_factor"%string, CInt 3)] = Raise /\
  rbind (construct (default_kq, default_paq) HDense [("parallel_factor"%string, CInt 3)]) (fun a => Ok (a_pf a)) = Ok (Some 3).
Proof. split; reflexivity. Qed.

(** C81: configurations that are left out, None or empty mean the defaults at
    that time; any other one is used as it is. *)
Theorem C81_configurations : forall defaults c cfg a, construct defaults c cfg = Ok a ->
  (forall d, cfind cfg "kq_conf" = Some (CConf d) -> d <> [] -> a_kq a = d) /\ (forall d, cfind cfg "paq_conf" = Some (CConf d) -> d <> [] -> a_paq a = d) /\
  (In (cfind cfg "kq_conf") [None; Some CNone; Some (CConf [])] -> a_kq a = fst defaults) /\ (In (cfind cfg "paq_conf") [None; Some CNone; Some (CConf [])] -> a_paq a = snd defaults).
Proof.
  intros defaults c cfg a H. unfold construct in H. cbv zeta in H. destruct (existsb _ _) in H; [discriminate|].
  do 9 (apply rbind_ok in H; let x := fresh "x" in let E := fresh "E" in destruct H as [x [E H]]). injection H as <-. cbn [a_kq a_paq].
  assert (G : forall v d x, conf_arg v d = Ok x -> (forall e, v = Some (CConf e) -> e <> [] -> x = e) /\ (In v [None; Some CNone; Some (CConf [])] -> x = d)).
  { intros v d y Y. split.
    - intros e -> NE. destruct e; [congruence|]. cbn in Y. congruence.
    - intros [<-|[<-|[<-|[]]]]; cbn in Y; congruence. }
  destruct (G _ _ _ E) as [A1 A2]. destruct (G _ _ _ E0) as [B1 B2]. auto.
Qed.
Print Assumptions C81_configurations.

Lemma known_spec l : forall r, known l = Ok r -> l = map Some r.
Proof.
  induction l as [|[n|] l IH]; intros r H; cbn in H; [injection H as <-; reflexivity| |discriminate].
  apply rbind_ok in H as [r' [E H]]. injection H as <-. cbn. f_equal. apply IH, E.
Qed.
Lemma py_index_axis n z m : py_index n z = Some m <-> (m < n)%nat /\ axis n z m.
Proof.
  unfold py_index, axis. destruct (Z.leb_spec 0 z), (Z.ltb_spec z (Z.of_nat n)), (Z.leb_spec (- Z.of_nat n) z), (Z.ltb_spec z 0); cbn [andb]; split; intros X;
    try discriminate X; try (injection X as <-; lia); try (f_equal; lia); lia.
Qed.
Lemma dget_dset_other d k k' v : k' <> k -> dget (dset d k v) k' = dget d k'.
Proof.
  intros N. induction d as [|[x w] d IH]; cbn [dset dget]; [destruct (String.eqb_spec k k'); [congruence|reflexivity]|].
  destruct (String.eqb_spec x k) as [->|D]; cbn [dget]; [destruct (String.eqb_spec k k'); [congruence|reflexivity]|]. destruct (String.eqb x k'); [reflexivity|exact IH].
Qed.
Lemma build_info_widths conf shape i : build_info conf shape = Ok i -> exists sd, dget conf "skip_dims" = Some sd /\ widths_for sd shape i.
Proof.
  unfold build_info. intros H. apply rbind_ok in H as [[st sd] [F H]]. apply rbind_ok in H as [z9 [_ H]]. apply rbind_ok in H as [sp [S H]]. apply rbind_ok in H as [[[skip bw] deg] [C H]].
  cbn [fst snd] in *. apply rbind_ok in H as [s [K H]]. injection H as <-. apply known_spec in K. subst bw.
  unfold from_config in F. destruct (negb _); [discriminate|]. destruct (dget conf "init_bw"); [|discriminate]. destruct (dget conf "skip_dims") as [sd'|]; [|discriminate].
  assert (sd' = sd) by congruence. subst sd'. exists sd. split; [reflexivity|]. clear F. unfold widths_for. cbn [i_shape i_skip].
  set (n := List.length shape) in *.
  (* the resolved axes *)
  assert (R : exists sk, resolve_skip sp n = Ok sk /\ skip = sk /\ forall m, (m < n)%nat -> ((exists dims z, sk = Some dims /\ In z dims /\ axis n z m) <-> merged sd n m)).
  { unfold compute_bw_shape_and_degeneracy in C. fold n in C. apply rbind_ok in C as [sk [E1 E2]]. exists sk. split; [exact E1|]. split.
    - destruct sk as [dims|]; [apply rbind_ok in E2 as [[s' d'] [_ E2]]; cbn [fst snd] in E2; congruence|congruence].
    - intros m Hm. destruct sd as [|z0|s0|zs|r0|k0]; cbn in S; try discriminate S; injection S as <-; cbn [resolve_skip] in E1; cbn [merged].
      + injection E1 as <-. split; [intros (dims & z & Q & _); discriminate|contradiction].
      + assert (SEQ : forall a k, (exists dims z, Some (map Z.of_nat (seq a k)) = Some dims /\ In z dims /\ axis n z m) <-> exists j, (a <= j < a + k)%nat /\ axis n (Z.of_nat j) m).
        { intros a k. split.
          - intros (dims & z & Q & I & X). injection Q as <-. apply in_map_iff in I as (j & <- & I). apply in_seq in I. eauto.
          - intros (j & I & X). exists (map Z.of_nat (seq a k)), (Z.of_nat j). split; [reflexivity|]. split; [apply in_map, in_seq; lia|exact X]. }
        destruct (String.eqb_spec s0 "all") as [->|N1]; [injection E1 as <-; rewrite SEQ; split; [auto|intros _; exists m; split; [lia|left; reflexivity]]|].
        destruct (String.eqb_spec s0 "batch") as [->|N2].
        { injection E1 as <-. split.
          - intros (dims & z & Q & I & X). injection Q as <-. destruct I as [<-|[]]. right. left. split; [reflexivity|]. destruct X as [X|X]; lia.
          - intros [?|[(_ & ->)|[[? _]|[? _]]]]; try discriminate. exists [0], 0. split; [reflexivity|]. split; [left; reflexivity|left; reflexivity]. }
        destruct (String.eqb_spec s0 "none") as [->|N3]; [injection E1 as <-; split; [intros (dims & z & Q & _); discriminate|intros [?|[[? _]|[[? _]|[? _]]]]; discriminate]|].
        destruct (String.eqb_spec s0 "except_last") as [->|N4].
        { injection E1 as <-. rewrite SEQ. split.
          - intros (j & I & X). right. right. left. split; [reflexivity|]. destruct X as [X|X]; lia.
          - intros [?|[[? _]|[[_ X]|[? _]]]]; try discriminate. exists m. split; [lia|left; reflexivity]. }
        destruct (String.eqb_spec s0 "except_1st") as [->|N5]; [|discriminate]. injection E1 as <-. split.
        * intros (dims & z & Q & I & X). injection Q as <-. right. right. right. split; [reflexivity|]. destruct I as [<-|I]; [destruct X as [X|X]; lia|].
          apply in_map_iff in I as (j & <- & I). apply in_seq in I. destruct X as [X|X]; lia.
        * intros [?|[[? _]|[[? _]|[_ X]]]]; try discriminate. exists (0 :: map Z.of_nat (seq 2 (n - 2))), (Z.of_nat m). split; [reflexivity|]. split; [|left; reflexivity].
          destruct m as [|[|m]]; [left; reflexivity|congruence|]. right. apply in_map, in_seq. lia.
      + injection E1 as <-. split; [intros (dims & z & Q & I & X); injection Q as <-; eauto|intros (z & I & X); exists zs, z; auto]. }
  destruct R as (sk & ER & -> & RM). unfold compute_bw_shape_and_degeneracy in C. fold n in C. rewrite ER in C. cbn [rbind] in C.
  destruct sk as [dims|].
  - apply rbind_ok in C as [[s' d'] [B C]]. cbn [fst snd] in C. assert (s' = map Some s) by congruence. subst s'. apply bw_loop_spec in B as (_ & L & B). fold n in B.
    split; [rewrite <- (map_length Some s); exact L|]. intros m Hm. specialize (B m Hm). specialize (RM m Hm).
    assert (Lm : (m < List.length s)%nat) by (rewrite <- (map_length Some s), L; exact Hm).
    rewrite (nth_indep _ None (Some 0%nat)) in B by (rewrite map_length; exact Lm). rewrite map_nth in B.
    assert (EQ : existsb (fun d => match py_index n d with Some j => Nat.eqb m j | None => false end) dims = true <-> merged sd n m).
    { rewrite <- RM. rewrite existsb_exists. split.
      - intros (d & I & X). destruct (py_index n d) as [j|] eqn:P; [|discriminate]. apply Nat.eqb_eq in X. subst j. apply py_index_axis in P as [_ P]. eauto.
      - intros (dims' & d & Q & I & X). injection Q as <-. exists d. split; [exact I|]. rewrite (proj2 (py_index_axis n d m) (conj Hm X)). apply Nat.eqb_refl. }
    split; [intros M; rewrite (proj2 EQ M) in B; congruence|]. split; [intros M|exact RM].
    destruct (existsb _ dims) in B, EQ; [destruct (M (proj1 EQ eq_refl))|]. symmetry. exact B.
  - assert (shape = map Some s) by congruence. subst shape. subst n. split; [rewrite map_length; reflexivity|]. intros m Hm. specialize (RM m Hm).
    assert (NM : ~ merged sd (List.length (map Some s)) m) by (intros M; apply RM in M as (? & ? & ? & _); discriminate).
    split; [intros M; contradiction|]. split; [intros _|exact RM]. rewrite map_length in Hm. rewrite (nth_indep _ None (Some 0%nat)) by (rewrite map_length; exact Hm). apply map_nth.
Qed.

(** C81: kernel and pre-activation widths of a built layer: one per element, shared
    along the axes the configurations name, for tensors of any rank. *)
Theorem C81_widths : forall geo_of init a ishape o, build geo_of init a ishape = Ok o ->
  let g := geo_of (a_cls a) (a_keras a) ishape in
  (exists sd, dget (a_paq a) "skip_dims" = Some sd /\ widths_for sd (None :: map Some (g_out g)) (o_pi o)) /\
  shape (weight o "activation_bw") = i_shape (o_pi o) /\ shape (o_min o) = i_shape (o_pi o) /\ shape (o_max o) = i_shape (o_pi o) /\
  (has_kernel (a_cls a) = true -> exists i sd, o_ki o = Some i /\ dget (a_kq a) "skip_dims" = Some sd /\ widths_for sd (map Some (g_kernel g)) i /\ shape (weight o "kernel_bw") = i_shape i).
Proof.
  intros geo_of init a ishape o H g. unfold build in H. cbv zeta in H. fold g in H. apply rbind_ok in H as [paq [RW H]]. apply rbind_ok in H as [ki [KI H]]. apply rbind_ok in H as [pi [PI H]].
  destruct (dget paq "rnd_strategy") as [v|] eqn:RS; [|discriminate]. injection H as <-. cbn [o_pi o_ki o_min o_max shape].
  assert (EP : exists p, (if is_auto v then mkI (i_skip pi) (if covers (g_bias g) (i_shape pi) (g_loc g) then 0 else 3) (i_shape pi) else pi) = p /\ i_shape p = i_shape pi /\ i_skip p = i_skip pi) by (destruct (is_auto v); eexists; (split; [reflexivity|]); split; reflexivity).
  destruct EP as (p & EP & P1 & P2). rewrite EP.
  assert (SD : dget paq "skip_dims" = dget (a_paq a) "skip_dims").
  { unfold rewrite_conf in RW. destruct (a_cls a); try congruence. destruct (dget (a_paq a) "rnd_strategy") as [w|]; [|discriminate]. destruct (is_auto w); [|congruence]. injection RW as <-. apply dget_dset_other. discriminate. }
  split.
  { destruct (build_info_widths _ _ _ PI) as (sd & D & W). exists sd. split; [congruence|]. unfold widths_for in *. rewrite P1, P2. exact W. }
  assert (WS : forall aa, shape (weight (mkO aa ishape ki p (map (fun e => (fst e, mkT (snd e) (init (fst e) (snd e)))) (weight_shapes aa g ki p)) (mkT [] []) (mkT [] [])) "activation_bw") = i_shape p).
  { intros aa. unfold weight, weight_shapes. cbn [o_w]. destruct ki as [i|]; destruct (g_bias g); reflexivity. }
  split; [exact (WS _)|]. split; [reflexivity|]. split; [reflexivity|].
  intros HK. rewrite HK in KI. apply rbind_ok in KI as [i [BI KI]]. injection KI as <-. destruct (build_info_widths _ _ _ BI) as (sd & D & W).
  exists i, sd. split; [reflexivity|]. split; [exact D|]. split; [exact W|]. reflexivity.
Qed.
Print Assumptions C81_widths.

(** C81: dense layers without a parallelization factor get the number of vectors
    of a sample they are applied to, if there is more than one axis; convolutions
    default to 1.  A batch-norm layer centers if it is asked to and has a bias. *)
Theorem C81_derived : forall geo_of init a ishape o, build geo_of init a ishape = Ok o ->
  (forall n, a_pf a = Some n -> a_pf (o_args o) = Some n) /\
  (In (a_cls a) [HDense; HDenseBN] -> a_pf a = None -> forall dims d, ishape = dims ++ [d] -> dims <> [] -> a_pf (o_args o) = Some (Z.of_nat (fold_right Nat.mul 1%nat dims))) /\
  (~ (In (a_cls a) [HDense; HDenseBN] /\ (1 < List.length ishape)%nat) -> a_pf (o_args o) = a_pf a) /\
  (a_center (o_args o) = true <-> a_center a = true /\ g_bias (geo_of (a_cls a) (a_keras a) ishape) <> None) /\
  a_scale (o_args o) = a_scale a /\ a_eps (o_args o) = a_eps a /\ a_mom (o_args o) = a_mom a /\ a_beta (o_args o) = a_beta a.
Proof.
  intros geo_of init a ishape o H. unfold build in H. cbv zeta in H. apply rbind_ok in H as [paq [RW H]]. apply rbind_ok in H as [ki [KI H]]. apply rbind_ok in H as [pi [PI H]].
  destruct (dget paq "rnd_strategy") as [v|]; [|discriminate]. injection H as <-. cbn [o_args a_pf a_center a_scale a_eps a_mom a_beta].
  split; [intros n E; rewrite E; destruct (a_cls a); reflexivity|].
  split; [intros C E dims d -> N; rewrite E, removelast_last; rewrite app_length; cbn [List.length]; destruct dims as [|x dims]; [congruence|];
          replace (Nat.ltb 1 _) with true by (symmetry; apply Nat.ltb_lt; cbn [List.length]; lia); destruct C as [<-|[<-|[]]]; reflexivity|].
  split; [intros N; destruct (a_pf a); [destruct (a_cls a); reflexivity|]; destruct (Nat.ltb_spec 1 (List.length ishape)); [|destruct (a_cls a); reflexivity];
          destruct (a_cls a); try reflexivity; destruct N; cbn; auto|].
  split; [|auto].
  rewrite andb_true_iff. destruct (g_bias _); intuition congruence.
Qed.
Print Assumptions C81_derived.

(** A dense layer with kernel widths per output channel and pre-activation widths
    shared by the vectors of a sample. *)
Definition b_geo (c : cls) (k : config) (s : list nat) : geometry :=
  mkG [4; 2]%nat (Some [2%nat]) [3; 2]%nat [] (fun x => hd [] x) false (-1) (-1) 2.
Definition b_kq : dict := dset default_kq "skip_dims" (VStr "except_last").
Definition b_paq : dict := dset default_paq "skip_dims" (VInts [0; -2]).
Definition b_make (c : cls) (cfg : config) : result obj :=
  rbind (construct (default_kq, default_paq) c (("kq_conf"%string, CConf b_kq) :: ("paq_conf"%string, CConf b_paq) :: cfg)) (fun a => build b_geo ex_init a [3; 4]%nat).
Example C81_widths_ex : let o := ex_get (b_make HDense []) in
  b_make HDense [] = Ok o /\ option_map i_shape (o_ki o) = Some [1; 2]%nat /\ i_shape (o_pi o) = [1; 1; 2]%nat /\ shape (weight o "kernel_bw") = [1; 2]%nat.
Proof. cbv zeta. split; [vm_compute; reflexivity|]. repeat split; vm_compute; reflexivity. Qed.
(** It is applied to three vectors, so three copies of it work in parallel, unless
    it is told otherwise; the batch-norm layer without center does not center. *)
Example C81_derived_ex : a_pf (o_args (ex_get (b_make HDense []))) = Some 3 /\
  a_pf (o_args (ex_get (b_make HDense [("parallel_factor"%string, CInt 2)]))) = Some 2 /\
  a_center (o_args (ex_get (b_make HDenseBN []))) = true /\ a_center (o_args (ex_get (b_make HDenseBN [("center"%string, CBool false)]))) = false.
Proof. repeat split; vm_compute; reflexivity. Qed.

(** C81: both quantizers of a built layer round as their configurations ask; where the
    pre-activation configuration says 'auto', an activation rounds and other layers
    round if their bias covers it. *)
Theorem C81_rounding : forall geo_of init a ishape o, build geo_of init a ishape = Ok o ->
  let g := geo_of (a_cls a) (a_keras a) ishape in
  exists v, dget (a_paq a) "rnd_strategy" = Some v /\
  (v <> VStr "auto" -> asks_rounding (Some v) (VInt (i_strategy (o_pi o)))) /\
  (v = VStr "auto" -> a_cls a = HActivation -> i_strategy (o_pi o) = 0) /\
  (v = VStr "auto" -> a_cls a <> HActivation -> i_strategy (o_pi o) = if covers (g_bias g) (i_shape (o_pi o)) (g_loc g) then 0 else 3) /\
  (has_kernel (a_cls a) = true -> exists i, o_ki o = Some i /\ asks_rounding (dget (a_kq a) "rnd_strategy") (VInt (i_strategy i))).
Proof.
  intros geo_of init a ishape o H g. unfold build in H. cbv zeta in H. fold g in H. apply rbind_ok in H as [paq [RW H]]. apply rbind_ok in H as [ki [KI H]]. apply rbind_ok in H as [pi [PI H]].
  destruct (dget paq "rnd_strategy") as [w|] eqn:RS; [|discriminate]. injection H as <-. cbn [o_pi o_ki].
  assert (AS : forall conf shape i, build_info conf shape = Ok i -> asks_rounding (dget conf "rnd_strategy") (VInt (i_strategy i))).
  { intros conf shape i B. unfold build_info in B. apply rbind_ok in B as [[st sd] [F B]]. cbn [fst snd] in B. apply rbind_ok in B as [z [ES B]].
    apply rbind_ok in B as [sp [_ B]]. apply rbind_ok in B as [r [_ B]]. apply rbind_ok in B as [s [_ B]]. injection B as <-. cbn [i_strategy].
    unfold strategy_num in ES. destruct st as [|z'| | | |]; try discriminate ES. injection ES as ->. eapply from_config_rounding, F. }
  assert (AU : forall x, is_auto x = true <-> x = VStr "auto").
  { intros [| |s| | |]; cbn; try (split; intros X; discriminate X). rewrite String.eqb_eq. split; congruence. }
  assert (SP : exists v, dget (a_paq a) "rnd_strategy" = Some v /\ ((w = v /\ (v = VStr "auto" -> a_cls a <> HActivation)) \/ (v = VStr "auto" /\ a_cls a = HActivation /\ w = VStr "standard_round"))).
  { unfold rewrite_conf in RW. destruct (a_cls a) eqn:EC; try (injection RW as <-; exists w; split; [assumption|left; split; [reflexivity|discriminate]]).
    destruct (dget (a_paq a) "rnd_strategy") as [v|] eqn:EV; [|discriminate]. exists v. split; [reflexivity|]. destruct (is_auto v) eqn:EA.
    - injection RW as <-. right. rewrite dset_get in RS. cbn in RS. split; [apply AU, EA|]. split; [reflexivity|congruence].
    - injection RW as <-. left. split; [congruence|]. intros ->. discriminate. }
  destruct SP as (v & EV & SP). exists v. split; [exact EV|]. pose proof (AS _ _ _ PI) as AP. rewrite RS in AP.
  split; [|split; [|split]].
  - intros NV. destruct SP as [[-> _]|[? _]]; [|contradiction]. destruct (is_auto v) eqn:EA; [apply AU in EA; contradiction|exact AP].
  - intros Ev Ha. destruct SP as [[_ X]|[_ [_ ->]]]; [destruct (X Ev Ha)|]. cbn [is_auto String.eqb Ascii.eqb Bool.eqb]. cbn [asks_rounding] in AP.
    destruct AP as [(k & I & E)|[N _]]; [|destruct N; cbn; auto]. cbn in I. destruct I as [I|[I|[I|[I|[]]]]]; try discriminate I. injection I as <-. congruence.
  - intros Ev Ha. destruct SP as [[-> _]|[_ [? _]]]; [|contradiction]. rewrite (proj2 (AU v) Ev). cbn [i_strategy i_shape]. reflexivity.
  - intros HK. rewrite HK in KI. apply rbind_ok in KI as [i [BI KI]]. injection KI as <-. exists i. split; [reflexivity|]. eapply AS, BI.
Qed.
Print Assumptions C81_rounding.

(** C81: each quantizer of the layer has the rounding mode, exactness and range of bitwidths of its own configuration. *)
Theorem C81_quantizers : forall geo_of exact_of clip_of rsqrt init a ishape o, build geo_of init a ishape = Ok o ->
  (forall d d', dget d "exact_q_value" = dget d' "exact_q_value" -> exact_of d = exact_of d') ->
  (forall d d', dget d "bw_clip" = dget d' "bw_clip" -> clip_of d = clip_of d') ->
  let l := layer_of geo_of exact_of clip_of rsqrt o in
  q_strategy (l_paq l) = i_strategy (o_pi o) /\ q_exact (l_paq l) = exact_of (a_paq a) /\ q_clip (l_paq l) = clip_of (a_paq a) /\
  (has_kernel (a_cls a) = true -> exists i ts k kq b bl, o_ki o = Some i /\ l_op l = Linear ts k kq b bl /\
     q_strategy kq = i_strategy i /\ q_exact kq = exact_of (a_kq a) /\ q_clip kq = clip_of (a_kq a)).
Proof.
  intros geo_of exact_of clip_of rsqrt init a ishape o H HE HC l. unfold build in H. cbv zeta in H. apply rbind_ok in H as [paq [RW H]]. apply rbind_ok in H as [ki [KI H]]. apply rbind_ok in H as [pi [PI H]].
  destruct (dget paq "rnd_strategy") as [w|] eqn:RS; [|discriminate].
  assert (OT : forall key, key <> "rnd_strategy"%string -> dget paq key = dget (a_paq a) key).
  { intros key N. unfold rewrite_conf in RW. destruct (a_cls a); try congruence. destruct (dget (a_paq a) "rnd_strategy") as [v|]; [|discriminate]. destruct (is_auto v); [|congruence].
    injection RW as <-. rewrite dset_get. destruct (String.eqb_spec "rnd_strategy" key); [congruence|reflexivity]. }
  assert (E1 : exact_of paq = exact_of (a_paq a)) by (apply HE, OT; discriminate). assert (E2 : clip_of paq = clip_of (a_paq a)) by (apply HC, OT; discriminate).
  injection H as <-. subst l. unfold layer_of. cbn [o_ki o_args a_cls o_pi].
  split; [|split; [|split]]; try (destruct ki; [destruct (is_bn (a_cls a))|]; first [reflexivity | exact E1 | exact E2]).
  intros HK. rewrite HK in KI. apply rbind_ok in KI as [i [BI KI]]. injection KI as <-. exists i. destruct (is_bn (a_cls a)); do 5 eexists; (split; [reflexivity|]); (split; [reflexivity|]); repeat split.
Qed.
Print Assumptions C81_quantizers.

(** Kernel configuration without a rounding mode and with truncation of activations; an activation told 'auto'. *)
Definition b_exact (d : dict) : bool := match dget d "exact_q_value" with Some (VOther 0) | None => true | _ => false end.
Definition b_clip (d : dict) : option (Qc * Qc) := match dget d "bw_clip" with Some (VOther 1) | None => Some (qz (-23), qz 23) | Some (VOther 2) => Some (qz 0, qz 8) | _ => None end.
Definition b_round : result obj :=
  rbind (construct (default_kq, default_paq) HDense [("kq_conf"%string, CConf (ddel (dset b_kq "bw_clip" (VOther 2)) "rnd_strategy")); ("paq_conf"%string, CConf (dset (dset b_paq "rnd_strategy" (VStr "stochastic_round")) "exact_q_value" (VOther 5)))])
    (fun a => build b_geo ex_init a [3; 4]%nat).
Example C81_rounding_ex : option_map i_strategy (o_ki (ex_get b_round)) = Some 3 /\ i_strategy (o_pi (ex_get b_round)) = 1 /\
  let l := layer_of b_geo b_exact b_clip (fun x => x) (ex_get b_round) in
  (q_strategy (l_paq l), q_exact (l_paq l)) = (1, false) /\ option_map (fun c => (this (fst c), this (snd c))) (q_clip (l_paq l)) = Some (-23 # 1, 23 # 1)%Q /\
  match l_op l with Linear _ _ kq _ _ => (q_strategy kq, q_exact kq, option_map (fun c => (this (fst c), this (snd c))) (q_clip kq)) | Fn _ => (0, false, None) end = (3, true, Some (0 # 1, 8 # 1)%Q).
Proof. repeat split; vm_compute; reflexivity. Qed.

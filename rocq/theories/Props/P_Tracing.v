(** C84: the one-off adaptation of HDenseBatchNorm in graphs (dense.py:161-163). *)
From Coq Require Import ZArith QArith Qcanon List Bool String Lia.
From Verif Require Import Base.Num Base.NumFacts Base.Compute Base.Tensor Model.Quantizer Model.Layers Model.Conf Model.BatchNorm Model.Serial Model.Tracing
  Spec.Quant Spec.History Spec.Norm Spec.Adapt Spec.Tracing Proofs.CallP Proofs.TracingP Props.P_Serial Props.P_Adapt.
Import ListNotations.
Local Open Scope nat_scope.

(** Whatever was traced, run, called and updated before: exactly the first call, or the runs of the
    graph traced first, adapt the bitwidths, each to its own batch and to the weights at that time as
    the first training call without graphs would (C68); the other runs, calls and tracings change nothing. *)
Theorem C84_adapts : forall geo_of exact_of clip_of rsqrt pw ln2 lg i o h s e s',
  a_adapt (o_args o) = true -> a_cls (o_args o) = HDenseBN ->
  events geo_of exact_of clip_of rsqrt pw ln2 lg i h (o, []) = Ok s -> event_step geo_of exact_of clip_of rsqrt pw ln2 lg i s e = Ok s' ->
  (adapts h e -> exists xs o1, inputs e = Some xs /\
     first_training_call geo_of exact_of clip_of rsqrt pw ln2 lg (untrained (fst s)) i xs = Ok o1 /\ o_w (fst s') = o_w o1) /\
  (~ adapts h e -> ~ updates e -> o_w (fst s') = o_w (fst s)).
Proof. exact adapts_spec. Qed.
Print Assumptions C84_adapts.

(** The graph traced first, run k+1 times on one batch with the weights unchanged: every bitwidth b moves by
    the same amount l each time, until it reaches a limit of the configuration. *)
Theorem C84_drift : forall geo_of exact_of clip_of rsqrt pw ln2 lg i m pre rest lo hi o xs sc,
  a_adapt (o_args o) = true -> a_cls (o_args o) = HDenseBN -> (exists w, In ("kernel_bw"%string, w) (o_w o)) ->
  prefix_skip (i_skip i) m -> List.length pre = m -> reg_ok m rest (weight o "kernel_bw") ->
  shape (weight o "kernel") = (pre ++ rest)%list -> List.length (data (weight o "kernel")) = prodn (shape (weight o "kernel")) ->
  0 < last (shape (weight o "kernel")) 1 -> clip_of (a_kq (o_args o)) = Some (lo, hi) -> (lo <= hi)%Qc ->
  (forall g, g < prodn rest -> (lo <= nth g (data (weight o "kernel_bw")) (qz 0))%Qc /\ (nth g (data (weight o "kernel_bw")) (qz 0) <= hi)%Qc) ->
  factors geo_of exact_of clip_of rsqrt pw ln2 o i xs sc ->
  forall k s, events geo_of exact_of clip_of rsqrt pw ln2 lg i (Trace :: repeat (Run 0 xs) (S k)) (o, []) = Ok s ->
  forall g, g < prodn rest -> forall l, adapted lg (weight o "kernel") (prodn rest) g sc (qz 0) l ->
    cut lo hi (moved (nth g (data (weight o "kernel_bw")) (qz 0)) (S k) l) (nth g (data (weight (fst s) "kernel_bw")) (qz 0)).
Proof. exact drift. Qed.
Print Assumptions C84_drift.

(** One neuron with kernel 1/4 and without scale. *)
Definition tr_init (n : string) (s : list nat) : list Qc := if String.eqb n "kernel" then map (fun _ => Q2Qc (1 # 4)) (seq 0 (prodn s)) else ad_init n s.
Definition tr_o : obj := ex_get (rbind (construct (default_kq, default_paq) HDenseBN [("scale"%string, CBool false)]) (fun a => build ad_geo tr_init a [1])).
Definition tr_i : qinfo := match o_ki tr_o with Some i => i | None => mkI None 0 [] end.
Definition tr_run (h : list event) : result tstate := events ad_geo ex_exact ex_clip ad_rsqrt (fun x => x) (qz 0) (fun v => qz (flog2 v)) tr_i h (tr_o, []).
Definition tr_widths (h : list event) : list Q := match tr_run h with Ok s => map this (data (weight (fst s) "kernel_bw")) | Raise => [] end.
Definition tr_x : list (list (list Qc)) := [[[qz 1]]; [[qz 3]]].

(** Steps of a training: the widths of 2 bits grow by 2 with every run of the first graph and stay at the limit; runs of a
    graph traced later and calls without graph leave them alone. *)
Example C84_adapts_ex : a_adapt (o_args tr_o) = true /\ a_cls (o_args tr_o) = HDenseBN /\
  tr_widths [Trace; Run 0 tr_x] = [4 # 1]%Q /\ tr_widths [Trace; Run 0 tr_x; Trace; Run 1 tr_x; Eager tr_x] = [4 # 1]%Q /\
  tr_widths [Trace; Run 0 tr_x; Trace; Run 1 tr_x; Run 0 tr_x] = [6 # 1]%Q /\ tr_widths [Eager tr_x; Trace; Run 0 tr_x] = [4 # 1]%Q /\
  tr_widths [Trace; Run 0 tr_x; Update (fun n t => if String.eqb n "kernel" then mkT (shape t) [qz 4] else t); Run 0 tr_x] = [2 # 1]%Q.
Proof. split; [reflexivity|]. split; [reflexivity|]. repeat split; vm_compute; reflexivity. Qed.
Example C84_drift_ex : (exists w, In ("kernel_bw"%string, w) (o_w tr_o)) /\ prefix_skip (i_skip tr_i) 0 /\ reg_ok 0 [1; 1] (weight tr_o "kernel_bw") /\
  shape (weight tr_o "kernel") = [1; 1] /\ ex_clip (a_kq (o_args tr_o)) = Some (qz (-23), qz 23) /\
  factors ad_geo ex_exact ex_clip ad_rsqrt (fun x => x) (qz 0) tr_o tr_i tr_x (fun _ => qz 1) /\
  adapted (fun v => qz (flog2 v)) (weight tr_o "kernel") 1 0 (fun _ => qz 1) (qz 0) (Fin (qz 2)) /\
  tr_widths (Trace :: repeat (Run 0 tr_x) 9) = [20 # 1]%Q /\ tr_widths (Trace :: repeat (Run 0 tr_x) 20) = [23 # 1]%Q.
Proof.
  split; [eexists; vm_compute; right; left; reflexivity|]. split; [right; split; reflexivity|]. split; [split; reflexivity|]. split; [reflexivity|]. split; [reflexivity|]. split; [reflexivity|].
  split; [|split; vm_compute; reflexivity]. right. exists (qz 2). split; [|split; [reflexivity|]].
  - exists 0, (Q2Qc (1 # 4)). split; [exists 0; split; reflexivity|]. split; [discriminate|qvm].
  - intros u (c & w & (j & J & _) & _ & ->). destruct j as [|j]; [|destruct j; discriminate]. cbn in J. assert (w = Q2Qc (1 # 4)) by congruence. subst w. vm_compute. discriminate.
Qed.

(** The bitwidths are not adapted once: two steps of a training adapt twice; and if the graph traced first is not
    the one that is run, they are never adapted. *)
Theorem C84_once_refuted : exists geo_of exact_of clip_of rsqrt pw ln2 lg i o xs, a_adapt (o_args o) = true /\ a_cls (o_args o) = HDenseBN /\
  let widths h := rbind (events geo_of exact_of clip_of rsqrt pw ln2 lg i h (o, [])) (fun s => Ok (map this (data (weight (fst s) "kernel_bw")))) in
  widths [] = Ok [2 # 1]%Q /\ widths [Eager xs; Eager xs] = Ok [4 # 1]%Q /\
  widths [Trace; Run 0 xs] = Ok [4 # 1]%Q /\ widths [Trace; Run 0 xs; Run 0 xs] = Ok [6 # 1]%Q /\
  forall k, widths (Trace :: Trace :: repeat (Run 1 xs) k) = Ok [2 # 1]%Q.
Proof.
  exists ad_geo, ex_exact, ex_clip, ad_rsqrt, (fun x => x), (qz 0), (fun v => qz (flog2 v)), tr_i, tr_o, tr_x. split; [reflexivity|]. split; [reflexivity|]. cbv zeta.
  do 4 (split; [vm_compute; reflexivity|]). intros k. cbn [events event_step rbind app]. replace (a_adapt (o_args tr_o)) with true by reflexivity. replace (a_cls (o_args tr_o)) with HDenseBN by reflexivity.
  cbn [delayed andb with_flag o_args a_adapt a_cls app].
  match goal with |- context [events _ _ _ _ _ _ _ _ _ (?o', ?g)] => assert (X : forall gs o0, nth_error gs 1 = Some false -> events ad_geo ex_exact ex_clip ad_rsqrt (fun x => x) (qz 0) (fun v => qz (flog2 v)) tr_i (repeat (Run 1 tr_x) k) (o0, gs) = Ok (o0, gs)) end.
  { intros gs o0 N. induction k as [|k IH]; [reflexivity|]. cbn [repeat events event_step]. rewrite N. cbn [rbind]. exact IH. }
  rewrite X by reflexivity. vm_compute. reflexivity.
Qed.
Print Assumptions C84_once_refuted.

(** Proofs for C68. *)
From Coq Require Import ZArith QArith Qcanon List Bool String Lia.
From Verif Require Import Base.Num Base.NumFacts Base.Tensor Model.Quantizer Model.Layers Model.Conf Model.BatchNorm Model.Serial
  Spec.Quant Spec.History Spec.Norm Spec.Adapt Proofs.CallP Proofs.RecordP Proofs.ShapeP Proofs.BatchNormP.
Import ListNotations.
Local Open Scope nat_scope.

Lemma cut_clip lo hi e : (lo <= hi)%Qc -> cut lo hi e (clip_ext e lo hi).
Proof.
  intros H. destruct e as [|f|]; cbn [cut clip_ext].
  - reflexivity.
  - unfold clip_by_value. repeat split; intros; unfold qmin, qmax; qcases; qlra.
  - unfold qmax; qcases; qlra.
Qed.

Lemma scale_kernel_length k s : List.length (data (scale_kernel k s)) = List.length (data k).
Proof. unfold scale_kernel. cbn [data]. rewrite map_length, combine_length, seq_length. lia. Qed.
Lemma nth_error_scale k s j w : nth_error (data (scale_kernel k s)) j = Some w <->
  exists u, nth_error (data k) j = Some u /\ w = (u * s (Nat.modulo j (last (shape k) 1%nat)))%Qc.
Proof.
  split.
  - intros H. assert (L : j < List.length (data k)) by (rewrite <- (scale_kernel_length k s); apply nth_error_Some; congruence).
    exists (nth j (data k) (qz 0)). split; [apply nth_error_nth'; exact L|]. apply nth_error_nth with (d := qz 0) in H. rewrite <- H. apply nth_scale_kernel, L.
  - intros [u [H ->]]. assert (L : j < List.length (data k)) by (apply nth_error_Some; congruence).
    rewrite (nth_error_nth' _ (qz 0)) by (rewrite scale_kernel_length; exact L). rewrite nth_scale_kernel by exact L.
    apply nth_error_nth with (d := qz 0) in H. rewrite H. reflexivity.
Qed.

Lemma adapt_scaled lg k s sk m pre rest fbw : prefix_skip sk m -> List.length pre = m -> reg_ok m rest fbw ->
  shape k = (pre ++ rest)%list -> List.length (data k) = prodn (shape k) ->
  exists nf, adapt_bw_bits lg sk fbw (scale_kernel k s) = Ok nf /\ reg_ok m rest nf /\
    forall g d, g < prodn rest -> adapted lg k (prodn rest) g s (nth g (data fbw) (qz 0)) (nth g (data nf) d).
Proof.
  intros H1 H2 H3 H4 H5.
  destruct (adapt_spec lg sk m pre rest fbw (scale_kernel k s) H1 H2 H3 H4) as [nf [A [B C]]].
  { rewrite scale_kernel_length. exact H5. }
  exists nf. split; [exact A|]. split; [exact B|]. intros g d Hg. unfold adapted. eapply least_ext; [|exact (C g d Hg)].
  intros v. cbn beta. split.
  - intros [w [[j J] [N ->]]]. apply nth_error_scale in J. destruct J as [u [J ->]].
    exists (Nat.modulo (j * prodn rest + g) (last (shape k) 1%nat)), u. split; [exists j; split; [exact J|reflexivity]|]. split; [exact N|reflexivity].
  - intros [c [w [[j [J ->]] [N ->]]]]. exists (w * s (Nat.modulo (j * prodn rest + g) (last (shape k) 1%nat)))%Qc. split; [|split; [exact N|reflexivity]].
    exists j. apply nth_error_scale. exists w. split; [exact J|reflexivity].
Qed.

Lemma find_put ws name v n : (exists w, In (name, w) ws) ->
  match find (fun e => String.eqb (fst e) n) (put ws name v) with Some e => snd e | None => mkT [] [] end =
  if String.eqb n name then v else match find (fun e => String.eqb (fst e) n) ws with Some e => snd e | None => mkT [] [] end.
Proof.
  unfold put. induction ws as [|[a t] ws IH]; intros [w Hw]; [contradiction|]. cbn [map find fst].
  destruct (String.eqb_spec a name) as [->|N]; cbn [fst snd].
  - destruct (String.eqb_spec name n) as [->|N2]; [rewrite String.eqb_refl; reflexivity|].
    destruct (String.eqb_spec n name); [congruence|].
    clear IH Hw. induction ws as [|[a t'] ws IH]; [reflexivity|]. cbn [map find fst].
    destruct (String.eqb_spec a name) as [->|N3]; cbn [fst snd].
    + destruct (String.eqb_spec name n); [congruence|]. exact IH.
    + destruct (String.eqb a n); [reflexivity|]. exact IH.
  - destruct (String.eqb_spec a n) as [->|N2]; [destruct (String.eqb_spec n name); [congruence|reflexivity]|].
    apply IH. destruct Hw as [Hw|Hw]; [congruence|]. exists w. exact Hw.
Qed.

(** The first training call, once it has succeeded. *)
Section F.
  Variable geo_of : cls -> config -> list nat -> geometry.
  Variable exact_of : dict -> bool.
  Variable clip_of : dict -> option (Qc * Qc).
  Variable rsqrt pw lg : Qc -> Qc.
  Variable ln2 : Qc.
  Notation call1 := (first_training_call geo_of exact_of clip_of rsqrt pw ln2 lg).

  Lemma first_call_form o i xs o' : a_adapt (o_args o) = true -> a_cls (o_args o) = HDenseBN -> call1 o i xs = Ok o' ->
    exists t f, adapt_fused_bn rsqrt pw ln2 lg (bn_of geo_of exact_of clip_of o i) xs = Ok t /\ clipped (clip_of (a_kq (o_args o))) t = Ok f /\
      o_w o' = put (o_w o) "kernel_bw" f /\ a_adapt (o_args o') = false.
  Proof.
    intros HA HC E. unfold first_training_call in E. rewrite HA, HC in E. cbn [delayed andb] in E.
    apply rbind_ok in E. destruct E as [t [T E]]. apply rbind_ok in E. destruct E as [f [F E]].
    exists t, f. split; [exact T|]. split; [exact F|].
    match type of E with Ok ?u = _ => assert (o' = u) by congruence end. subst o'. split; reflexivity.
  Qed.

  Lemma adapted_ref o i xs o' m pre rest lo hi k s :
    a_adapt (o_args o) = true -> a_cls (o_args o) = HDenseBN -> (exists w, In ("kernel_bw"%string, w) (o_w o)) ->
    prefix_skip (i_skip i) m -> List.length pre = m -> reg_ok m rest (weight o "kernel_bw") ->
    shape k = (pre ++ rest)%list -> List.length (data k) = prodn (shape k) ->
    clip_of (a_kq (o_args o)) = Some (lo, hi) -> (lo <= hi)%Qc ->
    (forall t, adapt_fused_bn rsqrt pw ln2 lg (bn_of geo_of exact_of clip_of o i) xs = Ok t ->
               adapt_bw_bits lg (i_skip i) (weight o "kernel_bw") (scale_kernel k s) = Ok t) ->
    call1 o i xs = Ok o' ->
    forall g, g < prodn rest -> exists e, adapted lg k (prodn rest) g s (nth g (data (weight o "kernel_bw")) (qz 0)) e /\
      cut lo hi e (nth g (data (weight o' "kernel_bw")) (qz 0)).
  Proof.
    intros HA HC HI H1 H2 H3 H4 H5 HCl Hlh HT E g Hg.
    destruct (first_call_form o i xs o' HA HC E) as [t [f [T [F [W _]]]]]. apply HT in T.
    destruct (adapt_scaled lg k s (i_skip i) m pre rest (weight o "kernel_bw") H1 H2 H3 H4 H5) as [nf [A [[_ B] C]]].
    assert (t = nf) by congruence. subst nf. exists (nth g (data t) PosInf). split; [apply C, Hg|].
    unfold weight at 1. rewrite W, (find_put _ _ _ _ HI). cbn [String.eqb Ascii.eqb Bool.eqb].
    rewrite HCl in F. cbn [clipped] in F. assert (Ff : f = tmap (fun e => clip_ext e lo hi) t) by congruence. subst f. unfold tmap. cbn [data].
    rewrite (nth_indep _ (qz 0) (clip_ext PosInf lo hi)) by (rewrite map_length, B; exact Hg). rewrite (map_nth (fun e => clip_ext e lo hi)). apply cut_clip, Hlh.
  Qed.

  Lemma adapt_fused_form b xs t : b_scale b = true -> adapt_fused_bn rsqrt pw ln2 lg b xs = Ok t ->
    exists z, hforward pw ln2 (bn_hlayer rsqrt (full_width b)) xs false false (fun _ => qz 0) (fun _ => qz 0) (fun _ => qz 0) = Ok z /\
      adapt_bw_bits lg (q_skip (b_kq b)) (q_fbw (b_kq b))
        (scale_kernel (b_kernel b) (fun c => gamma_of b c * rsqrt (var_list (chan_vals (b_loc b) (b_out b) (fst z) c) + b_eps b))%Qc) = Ok t.
  Proof.
    intros S E. unfold adapt_fused_bn in E. destruct (negb (b_scale b)) eqn:N; [rewrite S in N; discriminate|]. cbv zeta in E.
    apply rbind_ok in E. destruct E as [z [Z E]]. exists z. split; [exact Z|exact E].
  Qed.

  Lemma scale_one k : scale_kernel k (fun _ => qz 1) = k.
  Proof.
    destruct k as [sh d]. unfold scale_kernel. cbn [shape data]. f_equal. generalize 0 at 1 as a. induction d as [|x d IH]; intros a; [reflexivity|].
    cbn [List.length seq combine map fst snd]. rewrite IH. f_equal. change (qz 1) with 1%Qc. ring.
  Qed.
End F.

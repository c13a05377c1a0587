(** Lemmas about the rounding modes of quantizers. *)
From Coq Require Import ZArith Qcanon List Bool String Lia.
From Verif Require Import Base.Num Base.Tensor Model.Quantizer Model.Conf Spec.Conf Spec.Rounding Proofs.CallP Proofs.ConfP.
Import ListNotations.
Open Scope Z_scope.

Lemma strategy_asks v : asks_rounding (Some v) (strategy_of v).
Proof.
  destruct v as [|z|s|l|r|o]; cbn; try reflexivity.
  repeat (match goal with |- context [String.eqb s ?n] => destruct (String.eqb_spec s n) as [->|?] end; [left; eexists; split; [|reflexivity]; cbn; tauto|]).
  right. split; [|reflexivity]. intros [E|[E|[E|[E|[]]]]]; congruence.
Qed.
Lemma from_config_rounding d st sd : from_config d = Ok (st, sd) -> asks_rounding (dget d "rnd_strategy") st.
Proof.
  unfold from_config. destruct (negb _); [discriminate|]. destruct (dget d "init_bw"); [|discriminate]. destruct (dget d "skip_dims"); [|discriminate].
  intros E. assert (st = strategy_of (match dget d "rnd_strategy" with Some v => v | None => VStr "floor" end)) by congruence. subst st.
  destruct (dget d "rnd_strategy") as [v|]; [apply strategy_asks|reflexivity].
Qed.
Lemma kernel_rounding kq paq l ks ps : build_quantizers kq paq l = Ok (ks, ps) ->
  match c_kernel l with None => ks = None | Some _ => exists z, ks = Some z /\ asks_rounding (dget kq "rnd_strategy") z end.
Proof.
  unfold build_quantizers. destruct (c_kernel l) as [sh|]; cbn [rbind].
  - destruct (from_config kq) as [[st sd]|] eqn:EF; cbn [rbind fst snd]; [|discriminate]. intros H. apply rbind_ok in H as [k [HK H]].
    apply rbind_ok in HK as [s [_ HK]]. apply rbind_ok in HK as [s' [_ HK]]. assert (k = Some st) by congruence. subst k.
    apply rbind_ok in H as [q [_ H]]. apply rbind_ok in H as [s2 [_ H]]. apply rbind_ok in H as [s3 [_ H]]. destruct (dget paq "rnd_strategy"); [|discriminate].
    exists st. split; [congruence|]. exact (from_config_rounding _ _ _ EF).
  - intros H. apply rbind_ok in H as [q [_ H]]. apply rbind_ok in H as [s2 [_ H]]. apply rbind_ok in H as [s3 [_ H]]. destruct (dget paq "rnd_strategy"); [|discriminate]. congruence.
Qed.

Lemma destruct_list_last {A} (l : list A) : l = [] \/ exists a q, l = q ++ [a].
Proof. induction l as [|b l _] using rev_ind; [left; reflexivity|right; exists b, l; reflexivity]. Qed.
Lemma prodn_forall l : prodn l = 1%nat <-> Forall (eq 1%nat) l.
Proof.
  induction l as [|a l IH]; cbn; [split; auto|]. rewrite Nat.eq_mul_1, IH. split; [intros [-> H]; auto|]. intros H; inversion H; subst; auto.
Qed.
Lemma covers_bias bs qs loc : covers (Some bs) qs loc = true <-> bias_covers bs qs loc.
Proof.
  unfold covers, bias_covers. destruct bs as [|n [|? ?]]; cbn [List.length Nat.eqb negb]; try (split; [discriminate|intros (? & ? & _); discriminate]).
  destruct (Nat.eqb_spec (prodn qs) 1) as [E|E].
  { split; [|reflexivity]. intros _. exists n. split; [reflexivity|]. left. apply prodn_forall, E. }
  destruct (Z.eqb_spec loc (-1)) as [->|L1]; [|destruct (Z.eqb_spec loc 1) as [->|L2]].
  - rewrite andb_true_iff, Nat.eqb_eq. split.
    + intros [H1 H2]. exists n. split; [reflexivity|]. right; left. split; [reflexivity|]. exists (removelast qs). split; [apply prodn_forall, H1|].
      destruct (list_eq_dec _ _ _) as [H|]; [|discriminate]. destruct (destruct_list_last qs) as [->|(a & q & ->)]; [discriminate|].
      rewrite removelast_last. f_equal. rewrite app_length, Nat.add_sub in H. rewrite skipn_app, skipn_all, Nat.sub_diag in H. cbn in H. congruence.
    + intros (m & Em & [H|[(_ & ones & H & ->)|(C & _)]]); [apply prodn_forall in H; congruence| |discriminate]. injection Em as ->.
      rewrite removelast_last. split; [apply prodn_forall, H|]. rewrite app_length, Nat.add_sub, skipn_app, skipn_all, Nat.sub_diag. cbn [app skipn].
      destruct (list_eq_dec _ _ _); [reflexivity|congruence].
  - rewrite andb_true_iff, Nat.eqb_eq. split.
    + intros [H1 H2]. exists n. split; [reflexivity|]. right; right. split; [reflexivity|]. destruct qs as [|a q]; [destruct (list_eq_dec _ _ _); discriminate|].
      exists q. split; [apply prodn_forall, H1|]. destruct (list_eq_dec _ _ _) as [H|]; [|discriminate]. cbn in H. congruence.
    + intros (m & Em & [H|[(C & _)|(_ & ones & H & ->)]]); [apply prodn_forall in H; congruence|discriminate|]. injection Em as ->.
      cbn [tl firstn]. split; [apply prodn_forall, H|]. destruct (list_eq_dec _ _ _); [reflexivity|congruence].
  - split; [discriminate|]. intros (m & _ & [H|[(C & _)|(C & _)]]); [apply prodn_forall in H; congruence|congruence|congruence].
Qed.

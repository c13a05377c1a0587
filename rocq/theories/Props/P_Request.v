(** Result types are no wider than what is read from them: C47. *)
From Coq Require Import ZArith Qcanon List Bool String Lia.
From Verif Require Import Base.Num Base.Tensor Model.FixedPoint Model.Precision Spec.Precision Spec.Register Spec.Request.
From Verif Require Import Proofs.RegisterP Proofs.RequestP Props.P_Merge.
Import ListNotations.
Open Scope Z_scope.

(** If everything that reads a layer, directly or through concatenations and
    reshapes, is a quantizer, the layer's result type has no more fractional bits
    than one of these quantizers keeps (plus what its rounding mode looks at).
    If all of them wrap around, it has at most one integer bit more than one of
    them. *)
Theorem C47_economy : forall fuel net n s k i f R V s',
  result_kifRS fuel net n s = Ok (((k, i, f), R, V), s') -> Forall legal_fpq s' -> quantized net n ->
  (exists q o c, leads net n q /\ nth_error s' q = Some o /\ In c (data (cfgs o)) /\ f <= bits c - ints c + looks_at (rnd_name o)) /\
  ((forall q o, leads net n q -> nth_error s' q = Some o -> wraps o) ->
   exists q o c, leads net n q /\ nth_error s' q = Some o /\ In c (data (cfgs o)) /\ i <= ints c - kn c + 1).
Proof.
  intros fuel net n s k i f R V s' H L Q. unfold result_kifRS in H. destruct (fusible_result net n s) as [[[[t R'] V']|]|] eqn:EF; cbn [rbind] in H; [| |discriminate].
  - assert (T : t = (k, i, f)) by congruence. assert (S' : s = s') by congruence. subst t s'. destruct (fused_least net n s _ _ _ L EF) as (q & o & LD & Eo & (c & I & E) & (d & J & G)). cbn [fst snd] in *.
    split; [exists q, o, c; repeat split; try assumption; unfold looks_at; destruct (String.eqb (rnd_name o) "TRN"), (String.eqb (rnd_name o) "RND"); lia|].
    intros _. exists q, o, d. repeat split; try assumption. lia.
  - assert (D : (exists r, nth_error net n = Some (NInput, r)) /\ rbind (derived_result net n s) (fun t => Ok (t, s)) = Ok (((k, i, f), R, V), s') \/
      rbind (produced fuel net n s) (fun p => rbind (requested fuel net n (snd p)) (fun q => Ok ((merge_precision (fst p) q, "TRN"%string, "WRAP"%string), snd p))) = Ok (((k, i, f), R, V), s')).
    { destruct (nth_error net n) as [[kd ps]|] eqn:En; [|discriminate]. destruct kd; try (right; exact H). left. split; [eexists; reflexivity|exact H]. }
    destruct D as [[_ D]|D].
    + destruct (derived_result net n s) as [[[t R'] V']|] eqn:ED; cbn [rbind] in D; [|discriminate]. assert (T : t = (k, i, f)) by congruence. assert (S' : s = s') by congruence. subst t s'.
      destruct (derived_least net n s _ _ _ L ED) as [(q & o & c & A1 & A2 & A3 & A4) (q' & o' & d & B1 & B2 & B3 & B4)]. cbn [fst snd] in *.
      split; [exists q, o, c; repeat split; try assumption; lia|]. intros _. exists q', o', d. repeat split; try assumption. lia.
    + destruct (produced fuel net n s) as [[[[k0 i0] f0] s1]|]; cbn [rbind fst snd] in D; [|discriminate]. destruct (requested fuel net n s1) as [[[k1 i1] f1]|] eqn:ER; cbn [rbind] in D; [|discriminate].
      assert (S' : s1 = s') by congruence. subst s1. assert (M : merge_precision (k0, i0, f0) (k1, i1, f1) = (k, i, f)) by congruence. unfold merge_precision in M.
      assert (MI : i = (if (Z.ltb f1 f0 && Z.leb i0 i1)%bool then Z.min i0 i1 + 1 else Z.min i0 i1)) by congruence. assert (MF : f = Z.min f0 f1) by congruence. clear M.
      destruct (requested_least net s' L fuel n _ ER Q) as [(q & o & c & LD & [Eo I] & E) X]. cbn [fst snd] in *.
      split; [exists q, o, c; repeat split; try assumption; lia|].
      intros W. destruct (X W) as (q' & o' & d & LD' & [Eo' I'] & E'). exists q', o', d. repeat split; try assumption. destruct (_ && _)%bool in MI; lia.
Qed.
Print Assumptions C47_economy.
(** A sum with 8 integer and 6 fractional bits, read through a concatenation and a
    reshape by two quantizers. *)
Definition enet : pnet := [(NInput, []); (NFpq 0, [0%nat]); (NAdd, [1%nat; 1%nat]); (NConcat, [2%nat; 2%nat]); (NFpq 1, [3%nat]); (NReshape, [3%nat]); (NFpq 2, [5%nat])].
Example C47_economy_ex : result_kifRS 6 enet 2 mst = Ok (((1, 4, 2), "TRN"%string, "WRAP"%string), mst) /\ Forall legal_fpq mst /\ quantized enet 2 /\ (forall q o, leads enet 2 q -> nth_error mst q = Some o -> wraps o).
Proof.
  assert (RD : forall n m, feeds enet n m -> In (n, m) [(0, 1); (1, 2); (2, 3); (3, 4); (3, 5); (5, 6)]%nat).
  { intros n m (kd & ps & E & I). do 7 (destruct m as [|m]; [injection E as <- <-; cbn in I; repeat (destruct I as [<-|I]; [cbn; auto 10|]); destruct I|]). destruct m; discriminate. }
  assert (FD : forall n m, In (n, m) [(0, 1); (1, 2); (2, 3); (3, 4); (3, 5); (5, 6)]%nat -> feeds enet n m).
  { intros n m I. cbn in I. repeat (destruct I as [I|I]; [injection I as <- <-; eexists; eexists; split; [reflexivity|cbn; auto]|]). destruct I. }
  split; [vm_compute; reflexivity|]. split; [|split].
  - repeat (apply Forall_cons; [unfold legal_fpq, legal_fmt; cbn; repeat split; try discriminate; auto 10; apply Forall_cons; [cbn; lia|apply Forall_nil]|]); apply Forall_nil.
  - assert (Q5 : quantized enet 5).
    { apply (quantized_node enet 5 6); [apply FD; cbn; auto 10|]. intros r kd ps F E. apply RD in F. cbn in F. assert (r = 6%nat) by (intuition congruence). subst r. injection E as <- <-. left. eexists. reflexivity. }
    assert (Q3 : quantized enet 3).
    { apply (quantized_node enet 3 4); [apply FD; cbn; auto 10|]. intros r kd ps F E. apply RD in F. cbn in F. assert (r = 4%nat \/ r = 5%nat) as [-> | ->] by (intuition congruence); injection E as <- <-; [left; eexists; reflexivity|right; split; [right; reflexivity|exact Q5]]. }
    apply (quantized_node enet 2 3); [apply FD; cbn; auto 10|]. intros r kd ps F E. apply RD in F. cbn in F. assert (r = 3%nat) by (intuition congruence). subst r. injection E as <- <-. right. split; [left; reflexivity|exact Q3].
  - assert (G : forall n q, leads enet n q -> (2 <= n)%nat -> q = 1%nat \/ q = 2%nat).
    { assert (NX : forall n m, feeds enet n m -> (2 <= n)%nat -> In m [3; 4; 5; 6]%nat).
      { intros n m F Hn. apply RD in F. cbn in F. repeat (destruct F as [F|F]; [injection F as <- <-; cbn; try lia; auto|]). destruct F. }
      intros n q LD. induction LD as [n m q ps F E|n m kd ps q F E M LD IH]; intros Hn; apply NX in F; auto; cbn in F.
      - destruct F as [<-|[<-|[<-|[<-|[]]]]]; cbn in E; try discriminate; injection E as <- _; auto.
      - apply IH. destruct F as [<-|[<-|[<-|[<-|[]]]]]; lia. }
    intros q o LD E. destruct (G 2%nat q LD) as [-> | ->]; [lia| |]; cbn in E; injection E as <-; left; reflexivity.
Qed.

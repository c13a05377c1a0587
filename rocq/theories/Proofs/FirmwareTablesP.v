(** Facts about Spec/Firmware.v: networks with lookup tables. *)
From Coq Require Import ZArith Qcanon List Bool String Lia Arith.
From Verif Require Import Base.Num Base.NumFacts Base.Tensor Model.FixedPoint Model.Precision Model.Lut Spec.Fixed Spec.Precision Spec.NetEval Spec.Firmware.
From Verif Require Import Proofs.FixedPointP Proofs.FixedPointLayerP Proofs.FitsP Proofs.PrecisionP Proofs.IdemP Proofs.LutP Proofs.NetEvalP Proofs.TablesP Proofs.FirmwareP.
Import ListNotations.
Open Scope Z_scope.

Lemma with_tables_inv net tables n kd ps : nth_error (with_tables net tables) n = Some (kd, ps) -> exists kd0, nth_error net n = Some (kd0, ps) /\ match tables n with Some l => kd = NLut (lut_out l) | None => kd = kd0 end.
Proof.
  intros E. assert (L : (n < List.length net)%nat) by (rewrite <- (with_tables_len net tables); apply (proj1 (nth_error_Some _ n)); rewrite E; discriminate).
  destruct (nth_error net n) as [[kd0 ps0]|] eqn:E0; [|apply nth_error_None in E0; lia].
  rewrite (with_tables_nth net tables n kd0 ps0 E0) in E. exists kd0. destruct (tables n); (split; [f_equal; f_equal|]; congruence).
Qed.
Lemma out_with_tables net tables n : out_layers (with_tables net tables) n = out_layers net n.
Proof.
  unfold out_layers. rewrite with_tables_len. apply filter_ext_in. intros m I. destruct (nth_error net m) as [[kd ps]|] eqn:E.
  - rewrite (with_tables_nth net tables m kd ps E). destruct (tables m); reflexivity.
  - apply in_seq in I. apply nth_error_None in E. lia.
Qed.
Lemma removed_with_tables net tables s m q p : nth_error (with_tables net tables) m = Some (NFpq q, [p]) -> nth_error net m = Some (NFpq q, [p]) /\ removed net s m = removed (with_tables net tables) s m.
Proof.
  intros E. destruct (with_tables_inv net tables m _ _ E) as (kd0 & E0 & K). destruct (tables m); [discriminate|]. subst kd0.
  split; [exact E0|]. unfold removed. rewrite E, E0, out_with_tables. reflexivity.
Qed.
Lemma honest_with_tables net tables feed opaque : honest net feed opaque -> honest (with_tables net tables) feed opaque.
Proof.
  intros (H1 & H2 & H3). split; [exact H1|]. split; [exact H2|]. intros n kd ps f ins E K.
  destruct (with_tables_inv net tables n kd ps E) as (kd0 & E0 & X). destruct (tables n) as [l|]; [subst kd; destruct K; discriminate|]. subst kd0. apply (H3 n kd ps f ins E0 K).
Qed.

Lemma table_looked_up limit hls fuel net s mx order tabs n l : lut_pass limit hls (S fuel) net mx order s = Ok (tabs, s) -> all_fine (with_tables net (table_of tabs)) s -> Forall legal_fpq s ->
  table_of tabs n = Some l ->
  (forall kd p, nth_error net n = Some (kd, [p]) -> exists k i f, produced (S fuel) (with_tables net (table_of tabs)) p s = Ok ((k, i, f), s) /\ f <= lut_f l) ->
  looked_up (S fuel) (with_tables net (table_of tabs)) s (table_of tabs) n.
Proof.
  intros HP AF LG T PR. destruct (pass_tables _ _ _ _ _ _ _ _ HP n l (table_of_in _ _ _ T)) as [_ HX].
  destruct (xfr_spec _ _ _ _ _ _ _ _ _ HX) as (a & func & ps & k & i & f & s1 & r & En & _ & _ & _ & HI & _ & HR & HF).
  assert (s1 = s) by (apply store_le_antisym; [apply (input_kifs_le _ _ (produced_le (S fuel) net) _ _ _ _ HI)|apply (result_le _ _ _ _ _ _ HR)]). subst s1.
  pose proof (input_kifs_fix _ _ _ _ _ HI) as IF. destruct ps as [|p [|? ?]]; [inversion IF| |inversion IF as [|? ? ? ? _ X]; inversion X]. clear IF.
  destruct r as [[[[ko io] fo] R] V]. destruct (from_spec _ _ _ _ _ _ _ _ _ _ _ _ HF) as (_ & W & _ & _ & _ & _ & LO & QT).
  pose proof (with_tables_nth net (table_of tabs) n _ _ En) as En'. rewrite T, LO in En'.
  assert (ENT : forall y, In y (lut_table l) -> exists x, gfixed_quantizer x ko (ko + io + fo) (ko + io) R V = Ok y).
  { intros y I. destruct (quantize_table_nth _ _ _ _ _ _ _ QT) as [LT NT]. apply In_nth_error in I as [j Ej].
    destruct (nth_error (map func (lut_inputs (k, i, f))) j) as [x|] eqn:Ex.
    - destruct (NT j x Ex) as (y' & Ey & G). exists x. congruence.
    - apply nth_error_None in Ex. assert (j < List.length (lut_table l))%nat by (apply (proj1 (nth_error_Some _ j)); rewrite Ej; discriminate). lia. }
  destruct AF as [_ AF2]. destruct (AF2 n ko io fo [p] En') as [Hk W1].
  destruct (PR _ p En) as (k' & i' & f' & P' & F').
  exists l, p, k', i', f', ko, io, fo. split; [exact En'|]. split; [exact T|]. split; [exact P'|]. split; [exact F'|]. split.
  - apply Forall_forall. intros y I. destruct (ENT y I) as [x G]. apply gfixed_fits in G; [|exact Hk|lia]. replace (ko + io - ko) with io in G by lia. replace (ko + io + fo - (ko + io)) with fo in G by lia. exact G.
  - intros m q o c y RM Em Eo Hc I. destruct (removed_with_tables net _ s m q n Em) as [Em0 R0]. rewrite RM in R0.
    destruct (removed_spec net s m R0) as (q' & p' & o' & Em' & Eo' & He & EO & FR). assert (q' = q /\ p' = n) as [-> ->] by (split; congruence). assert (o' = o) by congruence. subst o'.
    unfold result_kifRS in HR. rewrite FR in HR. cbn [rbind] in HR. apply okpair in HR as [HR _].
    destruct (proj1 (Forall_forall _ _) LG o (nth_error_In _ _ Eo)) as (_ & LF & HRn & HVn). pose proof (proj1 (Forall_forall _ _) LF c Hc) as (Lk & Lb & L1 & L2). assert (S8 : i8_safe c) by (split; lia).
    rewrite (result_t_kif_homog o c He Hc S8) in HR. assert (ko = kn c /\ io = ints c - kn c /\ fo = bits c - ints c /\ R = rnd_name o /\ V = sat_name o) as (-> & -> & -> & -> & ->) by (repeat split; congruence).
    destruct (ENT y I) as [x G]. unfold quant. replace (kn c + (ints c - kn c) + (bits c - ints c)) with (bits c) in G by lia. replace (kn c + (ints c - kn c)) with (ints c) in G by lia.
    destruct (gfixed_ok y (kn c) (bits c) (ints c) _ _ HRn HVn) as [z Z]. rewrite Z. f_equal. exact (gfixed_idem _ _ _ _ _ _ _ _ Lk Lb G Z).
Qed.

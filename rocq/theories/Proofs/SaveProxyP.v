(** Saving and loading lookup tables and signatures: facts about Model/SaveProxy.v. *)
From Coq Require Import ZArith Qcanon List Bool String Lia Arith.
From Verif Require Import Base.Num Base.NumFacts Base.Tensor Model.FixedPoint Model.Layers Model.Precision Model.Lut Model.SaveProxy Spec.SaveProxy.
From Verif Require Import Proofs.TensorP Proofs.CallP Proofs.NetEvalP Proofs.LutP.
Import ListNotations.
Local Open Scope Z_scope.

Lemma ulut_new_inv limit kin kout R S t l : ulut_new limit kin kout R S (Some t) = Ok l ->
  0 < width kin /\ 0 < width kout /\ (limit <= 0 \/ 2 ^ width kin < limit) /\
  exists t', u_in l = kin /\ u_out l = kout /\ u_table l = Some t' /\
    quantize_table t (fst (fst kout)) (width kout) (fst (fst kout) + snd (fst kout)) R S = Ok t'.
Proof.
  unfold ulut_new. destruct (Z.ltb_spec 0 (width kin)) as [H1|]; [|discriminate]. destruct (Z.ltb_spec 0 (width kout)) as [H2|]; [|discriminate]. cbn [negb].
  destruct (Z.ltb_spec 0 limit) as [H3|H3]; destruct (Z.ltb_spec (2 ^ width kin) limit) as [H4|H4]; cbn [andb negb]; try discriminate;
  destruct kout as [[k i] f]; cbn [fst snd width] in *; destruct (quantize_table t k (k + i + f) (k + i) R S) as [t'|]; try discriminate; cbn [rbind];
  intros [= <-]; (split; [exact H1|split; [exact H2|split; [lia|]]]); exists t'; repeat split.
Qed.

Lemma ulut_new_none limit kin kout R S : 0 < width kin -> 0 < width kout ->
  ulut_new limit kin kout R S None = if (limit <=? 0) || (2 ^ width kin <? limit) then Ok (mkUL kin kout None) else Raise.
Proof.
  intros H1 H2. unfold ulut_new. apply Z.ltb_lt in H1, H2. rewrite H1, H2. cbn [negb].
  destruct (Z.ltb_spec 0 limit); destruct (Z.leb_spec limit 0); try lia; destruct (Z.ltb_spec (2 ^ width kin) limit); reflexivity.
Qed.

Lemma quantize_length t : forall k b i R S t', quantize_table t k b i R S = Ok t' -> List.length t' = List.length t.
Proof.
  induction t as [|x t IH]; intros k b i R S t'; cbn [quantize_table].
  - destruct (gfixed_quantizer _ _ _ _ _ _); [intros [= <-]; reflexivity|discriminate].
  - destruct (gfixed_quantizer x k b i R S); [|discriminate]. cbn [rbind]. destruct (quantize_table t k b i R S) eqn:E; [|discriminate]. cbn [rbind].
    intros [= <-]. cbn [List.length]. f_equal. exact (IH _ _ _ _ _ _ E).
Qed.

Lemma ulut_load_spec limit limit' kin kout R S t l : ulut_new limit kin kout R S (Some t) = Ok l ->
  ulut_load limit' (ulut_save l) =
  if ((limit' <=? 0) || (2 ^ width kin <? limit')) && (Z.of_nat (List.length t) =? 2 ^ width kin) then Ok l else Raise.
Proof.
  intros H. destruct (ulut_new_inv _ _ _ _ _ _ _ H) as (H1 & H2 & H3 & t' & Ei & Eo & Et & Q). unfold ulut_save, ulut_load. rewrite Ei, Eo, Et.
  rewrite ulut_new_none by assumption. destruct ((limit' <=? 0) || (2 ^ width kin <? limit')); [|reflexivity]. cbn [rbind andb].
  unfold ulut_build. cbn [u_table u_in u_out]. rewrite repeat_length, (quantize_length _ _ _ _ _ _ _ Q).
  assert (P : 0 < 2 ^ width kin) by (apply Z.pow_pos_nonneg; lia).
  destruct (Nat.eqb_spec (Z.to_nat (2 ^ width kin)) (List.length t)); destruct (Z.eqb_spec (Z.of_nat (List.length t)) (2 ^ width kin)); try lia; [|reflexivity].
  destruct l as [a b c]. cbn [u_in u_out u_table] in Ei, Eo, Et. congruence.
Qed.

(** ** Nested lists *)
Lemma skipn_plus {A} a : forall b (l : list A), skipn a (skipn b l) = skipn (b + a) l.
Proof. induction b as [|b IH]; intros l; [reflexivity|]. destruct l as [|x l]; [destruct a; reflexivity|]. cbn [skipn Nat.add]. apply IH. Qed.
Lemma blocks_all {A} (m : nat) (d : list A) n : List.length d = (n * m)%nat ->
  flat_map (fun o => firstn m (skipn (o * m) d)) (seq 0 n) = d.
Proof.
  revert d. induction n as [|n IH]; intros d L.
  - destruct d; [reflexivity|cbn in L; lia].
  - cbn [seq flat_map]. rewrite Nat.mul_0_l. cbn [skipn]. rewrite <- seq_shift, flat_map_concat_map, map_map, <- flat_map_concat_map.
    transitivity (firstn m d ++ skipn m d)%list; [|apply firstn_skipn]. f_equal.
    transitivity (flat_map (fun o => firstn m (skipn (o * m) (skipn m d))) (seq 0 n)).
    + rewrite !flat_map_concat_map. f_equal. apply map_ext. intros o. rewrite skipn_plus. do 2 f_equal. 
    + apply IH. rewrite skipn_length, L. cbn [Nat.mul]. lia.
Qed.

Lemma firstn_in {A} n (l : list A) x : In x (firstn n l) -> In x l.
Proof. intros H. rewrite <- (firstn_skipn n l). apply in_or_app. left. exact H. Qed.
Lemma skipn_in {A} n (l : list A) x : In x (skipn n l) -> In x l.
Proof. intros H. rewrite <- (firstn_skipn n l). apply in_or_app. right. exact H. Qed.

Lemma constant_tolist s : forall d, List.length d = prodn s -> Forall int8 d -> ~ In 0%nat s -> constant (tolist s d) = Ok (mkT s d).
Proof.
  induction s as [|n s IH]; intros d L F N.
  - cbn in L. destruct d as [|z [|? ?]]; cbn in L; try lia. inversion F as [|? ? [A B]]; subst. cbn [tolist constant hd].
    apply Z.leb_le in A, B. rewrite A, B. reflexivity.
  - cbn [tolist constant]. rewrite map_map.
    assert (Q : rseq (map (fun o => constant (tolist s (firstn (prodn s) (skipn (o * prodn s) d)))) (seq 0 n)) =
                Ok (map (fun o => mkT s (firstn (prodn s) (skipn (o * prodn s) d))) (seq 0 n))).
    { apply forall2_rseq. assert (G : forall o, In o (seq 0 n) -> constant (tolist s (firstn (prodn s) (skipn (o * prodn s) d))) = Ok (mkT s (firstn (prodn s) (skipn (o * prodn s) d)))).
      { intros o Ho. apply in_seq in Ho. apply IH.
        - rewrite firstn_length, skipn_length, L. change (prodn (n :: s)) with (n * prodn s)%nat. apply Nat.min_l. nia.
        - apply Forall_forall. intros z Hz. rewrite Forall_forall in F. apply F, (skipn_in (o * prodn s)), (firstn_in (prodn s)), Hz.
        - intros C. apply N. right. exact C. }
      revert G. generalize (seq 0 n). intros l G. induction l as [|o l IHl]; constructor; [apply G; left; reflexivity|apply IHl; intros o' Ho'; apply G; right; exact Ho']. }
    rewrite Q. cbn [rbind]. destruct n as [|n]; [exfalso; apply N; left; reflexivity|]. cbn [seq map]. rewrite <- !map_cons with (f := fun o => mkT s (firstn (prodn s) (skipn (o * prodn s) d))).
    change (0%nat :: seq 1 n) with (seq 0 (S n)). cbn [shape].
    replace (forallb _ _) with true.
    + rewrite map_length, seq_length. do 2 f_equal. rewrite flat_map_concat_map, map_map. cbn [data]. rewrite <- flat_map_concat_map. apply blocks_all. exact L.
    + symmetry. apply forallb_forall. intros t Ht. apply in_map_iff in Ht as (o & <- & _). cbn [shape]. destruct (list_eq_dec Nat.eq_dec s s); [reflexivity|contradiction].
Qed.

Lemma sig_load_spec s inp : plain (s_neg s) -> plain (s_bits s) -> plain (s_int s) -> sig_load (sig_config s) inp = sig_build s inp.
Proof.
  intros (W1 & F1 & N1) (W2 & F2 & N2) (W3 & F3 & N3). unfold sig_load, sig_config, sig_new, to_array. cbv zeta.
  rewrite !constant_tolist by assumption. cbn [rbind]. unfold sig_build. destruct s as [[? ?] [? ?] [? ?]]. reflexivity.
Qed.

Lemma broadcast_to_self {A} (d : A) t s : wf_tensor t -> shape t = s -> broadcast_to d t s = Ok t.
Proof.
  intros W E. unfold broadcast_to. rewrite E, broadcast_self. destruct (list_eq_dec Nat.eq_dec s s) as [_|C]; [|contradiction].
  destruct t as [s' l]. cbn [shape data] in *. subst s'. do 2 f_equal. unfold pad_to. rewrite Nat.sub_diag. cbn [repeat app].
  unfold wf_tensor in W. cbn [shape data] in W. rewrite <- W. transitivity (map (fun p => nth p l d) (seq 0 (List.length l))).
  - apply map_ext_in. intros p Hp. apply in_seq in Hp. rewrite bidx_self; [reflexivity|]. rewrite <- W. lia.
  - clear. induction l as [|a l IH]; [reflexivity|]. cbn [List.length seq map nth]. f_equal. rewrite <- seq_shift, map_map. exact IH.
Qed.

Lemma broadcast_to_inv {A} (d : A) t s y : broadcast_to d t s = Ok y ->
  shape y = s /\ wf_tensor y /\ (forall P : A -> Prop, P d -> Forall P (data t) -> Forall P (data y)).
Proof.
  unfold broadcast_to. destruct (broadcast_shape s (shape t)); [|discriminate]. destruct (list_eq_dec _ _ _); [|discriminate]. intros [= <-]. cbn [shape data].
  split; [reflexivity|]. split; [unfold wf_tensor; cbn [data shape]; rewrite map_length, seq_length; reflexivity|].
  intros P Pd F. apply Forall_forall. intros z Hz. apply in_map_iff in Hz as (p & <- & _).
  destruct (Nat.lt_ge_cases (bidx (pad_to (List.length s) (shape t)) s p) (List.length (data t))) as [H|H].
  - rewrite Forall_forall in F. apply F. apply nth_In. exact H.
  - rewrite nth_overflow by exact H. exact Pd.
Qed.

Lemma sig_build_twice s inp s' : sig_build s inp = Ok s' -> sig_build s' inp = Ok s'.
Proof.
  unfold sig_build. intros E. destruct (broadcast_to 0 (s_bits s) _) as [b|] eqn:Eb; [|discriminate]. cbn [rbind] in E.
  destruct (broadcast_to 0 (s_int s) _) as [i|] eqn:Ei; [|discriminate]. cbn [rbind] in E.
  destruct (broadcast_to 0 (s_neg s) _) as [k|] eqn:Ek; [|discriminate]. cbn [rbind] in E. injection E as <-. cbn [s_bits s_int s_neg].
  apply broadcast_to_inv in Eb as (Sb & Wb & _), Ei as (Si & Wi & _), Ek as (Sk & Wk & _).
  rewrite !broadcast_to_self by assumption. reflexivity.
Qed.

Lemma sig_build_plain s inp s' : sig_build s inp = Ok s' -> ~ In 0%nat inp ->
  Forall int8 (data (s_neg s)) -> Forall int8 (data (s_bits s)) -> Forall int8 (data (s_int s)) ->
  plain (s_neg s') /\ plain (s_bits s') /\ plain (s_int s').
Proof.
  unfold sig_build. intros E N Fk Fb Fi. destruct (broadcast_to 0 (s_bits s) _) as [b|] eqn:Eb; [|discriminate]. cbn [rbind] in E.
  destruct (broadcast_to 0 (s_int s) _) as [i|] eqn:Ei; [|discriminate]. cbn [rbind] in E.
  destruct (broadcast_to 0 (s_neg s) _) as [k|] eqn:Ek; [|discriminate]. cbn [rbind] in E. injection E as <-. cbn [s_bits s_int s_neg].
  apply broadcast_to_inv in Eb as (Sb & Wb & Pb), Ei as (Si & Wi & Pi), Ek as (Sk & Wk & Pk).
  assert (N1 : ~ In 0%nat (1%nat :: inp)) by (intros [C|C]; [discriminate|exact (N C)]).
  assert (Z0 : int8 0) by (unfold int8; lia).
  repeat split; try assumption; try (rewrite ?Sk, ?Sb, ?Si; exact N1); auto.
Qed.

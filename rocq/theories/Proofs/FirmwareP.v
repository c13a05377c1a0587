(** Facts about Spec/Firmware.v. *)
From Coq Require Import ZArith Qcanon List Bool String Ascii Decimal DecimalString DecimalZ DecimalPos DecimalFacts Permutation Lia Arith.
From Verif Require Import Base.Num Base.NumFacts Base.Tensor Model.FixedPoint Model.Apf Model.Precision Model.Lut Spec.Fixed Spec.Apf Spec.Precision Spec.NetEval Spec.Firmware.
From Verif Require Import Proofs.FixedPointP Proofs.FixedPointLayerP Proofs.FitsP Proofs.PrecisionP Proofs.SoundP Proofs.ReduceP Proofs.ApfP Proofs.MergeP Proofs.ConfigP Proofs.NetEvalP Proofs.TableSizeP Proofs.RegisterP Proofs.TablesP.
Import ListNotations.
Open Scope Z_scope.

(** ** Reading printed types *)

Definition plain_char (c : ascii) : Prop := separator c = false.
Lemma fields_plain s : all_chars plain_char s -> fields s = [s].
Proof. induction s as [|c s IH]; intros H; [reflexivity|]. cbn in H. destruct H as [H1 H2]. cbn. unfold plain_char in H1. rewrite H1, (IH H2). reflexivity. Qed.
Lemma fields_app s c r : all_chars plain_char s -> separator c = true -> fields (s ++ String c r) = s :: fields r.
Proof.
  intros H C. induction s as [|a s IH]; cbn; [rewrite C; reflexivity|]. cbn in H. destruct H as [H1 H2]. unfold plain_char in H1. rewrite H1, (IH H2). reflexivity.
Qed.
Lemma separator_code c : separator c = true <-> code_of c = 60 \/ code_of c = 44 \/ code_of c = 62.
Proof. unfold separator. rewrite !orb_true_iff, !eqb_code. change (code_of "<") with 60. change (code_of ",") with 44. change (code_of ">") with 62. tauto. Qed.
Lemma word_plain s : all_chars word_char s -> all_chars plain_char s.
Proof.
  apply all_weaken. intros c H. unfold plain_char. destruct (separator c) eqn:E; [|reflexivity]. apply separator_code in E. unfold word_char, digit in H. lia.
Qed.
Lemma int_plain z : all_chars plain_char (str_int z).
Proof.
  destruct (str_int_spec z) as (d & n & -> & N & _). apply all_app. split; [destruct (Z.ltb z 0); cbn; auto; split; auto; reflexivity|].
  apply numeral_digits in N as [N _]. revert N. apply all_weaken. intros c H. unfold plain_char. destruct (separator c) eqn:E; [|reflexivity]. apply separator_code in E. unfold digit in H. lia.
Qed.
Lemma int_read z : NilZero.int_of_string (str_int z) = Some (Z.to_int z).
Proof. unfold str_int. apply NilZero.isi; destruct z; cbn; try discriminate; intros E; injection E as E; apply (DecimalPos.Unsigned.to_uint_nonnil p); exact E. Qed.

Definition printed_modes (R V : string) : string * string := (R, if String.eqb V "WARP" then "WRAP"%string else V).
Lemma read_printed k i f R V : k = 0 \/ k = 1 -> all_chars word_char R -> all_chars word_char V ->
  read_type (tuple_to_apf (k, i, f) R V true) = Some (mkHw k (Z.max (i + f + k) 1) (i + k) R (snd (printed_modes R V))).
Proof.
  intros Hk HR HV. unfold tuple_to_apf. cbn [negb andb].
  set (b := str_int (Z.max (i + f + k) 1)). set (j := str_int (i + k)).
  assert (Pb : all_chars plain_char b) by apply int_plain. assert (Pj : all_chars plain_char j) by apply int_plain.
  assert (Rb : NilZero.int_of_string b = Some (Z.to_int (Z.max (i + f + k) 1))) by apply int_read. assert (Rj : NilZero.int_of_string j = Some (Z.to_int (i + k))) by apply int_read.
  apply word_plain in HR, HV.
  assert (F : forall rest, fields (((if Z.eqb k 0 then "u" else "") ++ "fixed<" ++ b ++ "," ++ j) ++ rest) = (if Z.eqb k 0 then "ufixed" else "fixed")%string :: b :: fields (j ++ rest)).
  { intros rest. assert (E : (((if Z.eqb k 0 then "u" else "") ++ "fixed<" ++ b ++ "," ++ j) ++ rest)%string = ((if Z.eqb k 0 then "ufixed" else "fixed") ++ String "<" (b ++ String "," (j ++ rest)))%string).
    { destruct Hk as [->| ->]; cbn [Z.eqb append]; rewrite !app_assoc_s; reflexivity. }
    rewrite E, fields_app by (destruct Hk as [->| ->]; cbn; repeat split; reflexivity). rewrite fields_app by (exact Pb || reflexivity). reflexivity. }
  assert (K : forall (A : Type) (a c : A), (if String.eqb (if Z.eqb k 0 then "ufixed" else "fixed") "fixed" then Some 1 else if String.eqb (if Z.eqb k 0 then "ufixed" else "fixed") "ufixed" then Some 0 else None)%string = Some k).
  { destruct Hk as [->| ->]; reflexivity. }
  assert (Z1 : Z.of_int (Z.to_int (Z.max (i + f + k) 1)) = Z.max (i + f + k) 1) by apply DecimalZ.of_to.
  assert (Z2 : Z.of_int (Z.to_int (i + k)) = i + k) by apply DecimalZ.of_to.
  destruct (String.eqb V "WARP") eqn:W.
  - rewrite andb_true_r. cbn [negb]. destruct (String.eqb_spec R "TRN") as [->|NR]; cbn [negb].
    + unfold read_type. rewrite F, fields_app by (exact Pj || reflexivity). cbn [fields]. rewrite (K nat O O), Rb, Rj, Z1, Z2. unfold printed_modes. rewrite W. reflexivity.
    + unfold read_type. replace ((((if Z.eqb k 0 then "u" else "") ++ "fixed<" ++ b ++ "," ++ j) ++ "," ++ R ++ ">"))%string with ((((if Z.eqb k 0 then "u" else "") ++ "fixed<" ++ b ++ "," ++ j) ++ String "," (R ++ String ">" "")))%string by reflexivity.
      rewrite F, fields_app by (exact Pj || reflexivity). rewrite fields_app by (exact HR || reflexivity). cbn [fields]. rewrite (K nat O O). rewrite Rb, Rj, Z1, Z2. unfold printed_modes. rewrite W. destruct R; reflexivity.
  - rewrite andb_false_r. cbn [negb]. unfold read_type.
    replace ((((if Z.eqb k 0 then "u" else "") ++ "fixed<" ++ b ++ "," ++ j) ++ "," ++ R ++ "," ++ V ++ ">"))%string with ((((if Z.eqb k 0 then "u" else "") ++ "fixed<" ++ b ++ "," ++ j) ++ String "," (R ++ String "," (V ++ String ">" ""))))%string by reflexivity.
    rewrite F, fields_app by (exact Pj || reflexivity). rewrite fields_app by (exact HR || reflexivity). rewrite fields_app by (exact HV || reflexivity). cbn [fields]. rewrite (K nat O O). rewrite Rb, Rj, Z1, Z2. unfold printed_modes. rewrite W.
    destruct V, R; reflexivity.
Qed.

(** ** Adding up in an accumulator that truncates and wraps around *)

Definition acc_type (k i f : Z) : hwt := mkHw k (k + i + f) (k + i) "TRN" "WRAP".
Definition trunc (f : Z) (x : Qc) : Qc := (qz (qfloor (x * pow2 f)%Qc) * pow2 (- f))%Qc.
Definition zsum (l : list Z) : Z := fold_right Z.add 0 l.

Lemma trunc_grid f x : on_grid f (trunc f x).
Proof. eexists. reflexivity. Qed.
Lemma trunc_id f x : on_grid f x -> trunc f x = x.
Proof. intros [m ->]. unfold trunc. rewrite code_scaled, qfloor_qz. reflexivity. Qed.
Lemma trunc_range f x : (trunc f x <= x)%Qc /\ (x < trunc f x + pow2 (- f))%Qc.
Proof.
  unfold trunc. pose proof (qfloor_le (x * pow2 f)%Qc) as A. pose proof (qfloor_lt (x * pow2 f)%Qc) as B. pose proof (pow2_pos (- f)) as P.
  assert (E : (x * pow2 f * pow2 (- f))%Qc = x) by (rewrite <- Qcmult_assoc, <- pow2_add; replace (f + - f) with 0 by lia; change (pow2 0) with 1%Qc; ring).
  apply (qmul_le_r _ _ _ (Qclt_le_weak _ _ P)) in A. rewrite E in A. apply (qmul_lt_r _ _ _ P) in B. rewrite E in B. split; [exact A|].
  replace ((qz (qfloor (x * pow2 f)) + qz 1) * pow2 (- f))%Qc with (qz (qfloor (x * pow2 f)) * pow2 (- f) + pow2 (- f))%Qc in B by (change (qz 1) with 1%Qc; ring). exact B.
Qed.

Lemma wrap_add k b x y : k = 0 \/ k = 1 -> k <= b -> ovf "WRAP" k b (x + ovf "WRAP" k b y) = ovf "WRAP" k b (x + y).
Proof.
  intros Hk Hb. assert (P : 0 < 2 ^ b) by (apply Z.pow_pos_nonneg; lia). unfold ovf. set (l := lo k b). f_equal.
  pose proof (Z.div_mod (y - l) (2 ^ b) ltac:(lia)) as D.
  replace (x + ((y - l) mod 2 ^ b + l) - l) with (x + y - l + - ((y - l) / 2 ^ b) * 2 ^ b) by lia. apply Z_mod_plus_full.
Qed.
Section Acc.
  Variable (k i f : Z).
  Hypothesis (Hk : k = 0 \/ k = 1) (Hw : 0 <= i + f).
  Notation ty := (acc_type k i f).
  Lemma cast_acc x : cast ty x = Ok (qz (ovf "WRAP" k (k + i + f) (qfloor (x * pow2 f)%Qc)) * pow2 (- f))%Qc.
  Proof.
    unfold cast. cbn [h_k h_b h_i h_rnd h_sat acc_type]. destruct (stored_code x k i f "WRAP") as (m & Hm & ->); [cbn; auto 10|exact Hk|exact Hw|].
    apply trn_iff in Hm as [A B]. rewrite (qfloor_unique _ m A B). reflexivity.
  Qed.
  Lemma cast_acc_grid x y : cast ty x = Ok y -> on_grid f y.
  Proof. rewrite cast_acc. intros E. assert (y = (qz (ovf "WRAP" k (k + i + f) (qfloor (x * pow2 f)%Qc)) * pow2 (- f))%Qc) as -> by congruence. eexists. reflexivity. Qed.
  (** Two values with congruent codes are stored alike. *)
  Lemma cast_add x y y' : on_grid f y -> cast ty y = Ok y' -> cast ty (x + y')%Qc = cast ty (x + y)%Qc.
  Proof.
    intros [m ->] E. rewrite cast_acc in E. rewrite code_scaled, qfloor_qz in E. assert (y' = (qz (ovf "WRAP" k (k + i + f) m) * pow2 (- f))%Qc) as -> by congruence.
    rewrite !cast_acc. do 3 f_equal. rewrite !Qcmult_plus_distr_l, !code_scaled, !qfloor_add_z. apply wrap_add; [exact Hk|lia].
  Qed.
  Lemma qsum_app a b : qsum (a ++ b) = (qsum a + qsum b)%Qc.
  Proof. induction a as [|x a IH]; cbn [app qsum fold_right]; [fold (qsum b); change (qz 0) with 0%Qc; ring|]. fold (qsum (a ++ b)). fold (qsum a). rewrite IH. ring. Qed.
  Lemma qsum_perm a b : Permutation a b -> qsum a = qsum b.
  Proof. unfold qsum. induction 1; cbn [fold_right]; [reflexivity|congruence|ring|congruence]. Qed.
  Lemma sums_cast l y : sums ty l y -> cast ty (qsum (map (trunc f) l)) = Ok y.
  Proof.
    induction 1 as [x y E|l l1 l2 a b y P S1 IH1 S2 IH2 E].
    - cbn [map qsum fold_right]. replace (trunc f x + qz 0)%Qc with (trunc f x) by (change (qz 0) with 0%Qc; ring). rewrite <- E, !cast_acc. unfold trunc. rewrite code_scaled, qfloor_qz. reflexivity.
    - rewrite (qsum_perm _ _ (Permutation_map (trunc f) P)), map_app, qsum_app. rewrite <- E.
      assert (G : forall l, on_grid f (qsum (map (trunc f) l))) by (intros l0; apply grid_sum, Forall_map, Forall_forall; intros x _; apply trunc_grid).
      rewrite (cast_add a (qsum (map (trunc f) l2)) b (G l2) IH2). rewrite (Qcplus_comm a), (Qcplus_comm (qsum (map (trunc f) l1))). symmetry. apply (cast_add _ _ _ (G l1) IH1).
  Qed.
  Lemma sums_exact l y : Forall (on_grid f) l -> sums ty l y -> cast ty (qsum l) = Ok y.
  Proof.
    intros F S. rewrite <- (sums_cast l y S). f_equal. clear S. induction F as [|x l G F IH]; [reflexivity|]. cbn [map qsum fold_right]. rewrite trunc_id by exact G. fold (qsum (map (trunc f) l)). fold (qsum l). rewrite IH. reflexivity.
  Qed.
End Acc.
Lemma trunc_sum f l : (qsum (map (trunc f) l) <= qsum l)%Qc /\ (qsum l <= qsum (map (trunc f) l) + qz (Z.of_nat (List.length l)) * pow2 (- f))%Qc /\ (l <> [] -> (qsum l < qsum (map (trunc f) l) + qz (Z.of_nat (List.length l)) * pow2 (- f))%Qc).
Proof.
  assert (S : forall n : nat, (qz (Z.of_nat (S n)) * pow2 (- f) = qz (Z.of_nat n) * pow2 (- f) + pow2 (- f))%Qc) by (intros n; rewrite Nat2Z.inj_succ, <- Z.add_1_r, qz_add; change (qz 1) with 1%Qc; ring).
  induction l as [|x l IH]; cbn [map qsum fold_right List.length].
  - split; [apply Qcle_refl|]. split; [replace (qz 0 + qz (Z.of_nat 0) * pow2 (- f))%Qc with (qz 0) by (change (qz (Z.of_nat 0)) with 0%Qc; change (qz 0) with 0%Qc; ring); apply Qcle_refl|congruence].
  - fold (qsum l). fold (qsum (map (trunc f) l)). rewrite S. destruct IH as (I1 & I2 & _). destruct (trunc_range f x) as [A B].
    set (g := (qz (Z.of_nat (List.length l)) * pow2 (- f))%Qc) in *. clearbody g. repeat split; intros; qlra.
Qed.

(** ** Kernel layers *)

Lemma cast_fits k i f x : k = 0 \/ k = 1 -> 0 <= i + f -> fits k i f x -> cast (acc_type k i f) x = Ok x.
Proof.
  intros Hk Hw F. unfold cast. cbn [h_k h_b h_i h_rnd h_sat acc_type]. apply (merge_exact k i f k i f); auto; try lia. unfold merge_precision.
  rewrite !Z.min_id. destruct (Z.ltb_spec f f); [lia|]. reflexivity.
Qed.
Lemma container_width arr k i f : Forall plain_value arr -> get_arr_container arr = (k, i, f) -> 1 <= k + i + f /\ 0 <= i + f.
Proof.
  intros H E. destruct (forallb (fun x => qeqb x (qz 0)) arr) eqn:Z.
  - unfold get_arr_container in E. rewrite Z in E. assert (k = 0 /\ i = 1 /\ f = 0) as (-> & -> & ->) by (repeat split; congruence). lia.
  - assert (NZ : ~ Forall (fun x => x = qz 0) arr) by (intros C; apply ContainerP.not_all_zero in C; congruence).
    destruct (ContainerP.container_spec arr k i f) as (Hk & K0 & _ & F & _); auto; try (eapply Forall_impl; [|exact H]; intros x [G [L U]]; [exact G|split; assumption] || (split; assumption)).
    { eapply Forall_impl; [|exact H]. intros x [G _]. exact G. } { eapply Forall_impl; [|exact H]. intros x [G [L U]]. split; assumption. }
    assert (X : exists x, In x arr /\ x <> qz 0 /\ (k = 1 -> (x < qz 0)%Qc)).
    { destruct Hk as [->| ->].
      - clear -Z. induction arr as [|x arr IH]; [discriminate|]. cbn in Z. destruct (qeqb x (qz 0)) eqn:Q; [destruct (IH Z) as (y & I & N & _); exists y; split; [right; exact I|split; [exact N|discriminate]]|].
        exists x. split; [left; reflexivity|]. split; [|discriminate]. intros ->. assert (qeqb (qz 0) (qz 0) = true) by reflexivity. congruence.
      - assert (NN : ~ Forall (fun x => (qz 0 <= x)%Qc) arr) by (intros C; apply K0 in C; discriminate). clear -NN.
        induction arr as [|x arr IH]; [destruct NN; constructor|]. destruct (qltb x (qz 0)) eqn:Q.
        + apply qltb_true in Q. exists x. split; [left; reflexivity|]. split; [intros ->; qlra|auto].
        + destruct IH as (y & I & Y); [|exists y; split; [right; exact I|exact Y]]. intros C. apply NN. constructor; [|exact C].
          destruct (Qclt_le_dec x (qz 0)) as [L|L]; [apply qltb_true in L; congruence|exact L]. }
    destruct X as (x & I & N & Neg). destruct (proj1 (Forall_forall _ _) F x I) as ([m Em] & A & B).
    assert (M : m <> 0) by (intros ->; apply N; rewrite Em; change (qz 0) with 0%Qc; ring). pose proof (pow2_pos (- f)) as P.
    assert (G : (pow2 (- f) <= pow2 i)%Qc /\ (k = 0 -> (pow2 (- f) < pow2 i)%Qc)).
    { destruct Hk as [->| ->].
      - assert (M1 : 1 <= m). { assert (T : (qz 0 <= x)%Qc) by (revert A; generalize (pow2 i); intros; qlra). destruct (Z_lt_dec m 0) as [L|L]; [|lia]. exfalso. assert (Q : (qz m * pow2 (- f) < qz 0 * pow2 (- f))%Qc) by (apply qmul_lt_r; [exact P|apply qz_lt; exact L]). rewrite <- Em in Q. change (qz 0) with 0%Qc in *. replace (0 * pow2 (- f))%Qc with 0%Qc in Q by ring. apply (Qclt_not_le _ _ Q T). }
        assert (Q : (qz 1 * pow2 (- f) <= qz m * pow2 (- f))%Qc) by (apply qmul_le_r; [apply Qclt_le_weak, P|apply qz_le; exact M1]). rewrite <- Em in Q. change (qz 1) with 1%Qc in Q. rewrite Qcmult_1_l in Q. split; [|intros _]; revert Q B; generalize (pow2 i) (pow2 (- f)); intros; qlra.
      - split; [|discriminate]. specialize (Neg eq_refl). assert (M1 : m <= -1). { destruct (Z_lt_dec m 0) as [L|L]; [lia|]. exfalso. assert (Q : (qz 0 * pow2 (- f) <= qz m * pow2 (- f))%Qc) by (apply qmul_le_r; [apply Qclt_le_weak, P|apply qz_le; lia]). rewrite <- Em in Q. change (qz 0) with 0%Qc in *. replace (0 * pow2 (- f))%Qc with 0%Qc in Q by ring. apply (Qclt_not_le _ _ Neg Q). }
        assert (Q : (qz m * pow2 (- f) <= qz (-1) * pow2 (- f))%Qc) by (apply qmul_le_r; [apply Qclt_le_weak, P|apply qz_le; exact M1]). rewrite <- Em in Q. revert Q A. generalize (pow2 i) (pow2 (- f)). intros. qlra. }
    destruct G as [G1 G2]. assert (L1 : - f <= i) by (destruct (Z_le_dec (- f) i) as [L|L]; [exact L|]; exfalso; assert (T : (pow2 i < pow2 (- f))%Qc) by (apply pow2_lt; lia); apply (Qclt_not_le _ _ T G1)).
    assert (L2 : k = 0 -> - f < i) by (intros K; specialize (G2 K); destruct (Z_lt_dec (- f) i) as [L|L]; [exact L|]; exfalso; assert (T : (pow2 i <= pow2 (- f))%Qc) by (apply pow2_le; lia); apply (Qclt_not_le _ _ G2 T)).
    destruct Hk; lia.
Qed.
Lemma mode_words R V : In R rounding_names -> In V overflow_names -> all_chars word_char R /\ all_chars word_char V /\ V <> "WARP"%string.
Proof.
  intros HR HV. cbn in HR, HV. split; [|split].
  - repeat (destruct HR as [<-|HR]; [cbn; unfold word_char; cbn; repeat split; lia|]). destruct HR.
  - repeat (destruct HV as [<-|HV]; [cbn; unfold word_char; cbn; repeat split; lia|]). destruct HV.
  - repeat (destruct HV as [<-|HV]; [discriminate|]). destruct HV.
Qed.
Lemma read_result k i f R V : k = 0 \/ k = 1 -> 1 <= k + i + f -> In R rounding_names -> In V overflow_names ->
  read_type (tuple_to_apf (k, i, f) R V true) = Some (mkHw k (k + i + f) (k + i) R V).
Proof.
  intros Hk W HR HV. destruct (mode_words R V HR HV) as (A & B & C). rewrite (read_printed k i f R V Hk A B). unfold printed_modes. apply String.eqb_neq in C. rewrite C. cbn [snd].
  rewrite Z.max_l by lia. do 2 f_equal; lia.
Qed.
Lemma read_acc k i f : k = 0 \/ k = 1 -> 1 <= k + i + f -> read_type (tuple_to_apf (k, i, f) "TRN" "WARP" true) = Some (acc_type k i f).
Proof.
  intros Hk W. rewrite (read_printed k i f "TRN" "WARP" Hk); [|cbn; unfold word_char; cbn; repeat split; lia..]. unfold printed_modes, acc_type. cbn [snd String.eqb Ascii.eqb Bool.eqb].
  rewrite Z.max_l by lia. do 2 f_equal; lia.
Qed.

Definition acc_f (offset : option Z) (f pf : Z) : Z := match offset with None => pf | Some d => Z.min (f + d) pf end.
Lemma kernel_types fuel net n s offset kernel div bias ps types size s' k i f R V s1 pk pi pf s2 :
  nth_error net n = Some (NKernel kernel div bias, ps) -> layer_config fuel net n s offset = Ok ((types, size), s') ->
  result_kifRS fuel net n s = Ok (((k, i, f), R, V), s1) -> produced fuel net n s1 = Ok ((pk, pi, pf), s2) ->
  let a := if String.eqb V "WRAP" then tuple_to_apf (k, i, acc_f offset f pf) "TRN" "WARP" true else tuple_to_apf (pk, pi, acc_f offset f pf) "TRN" "WARP" true in
  type_named types "weight_t" = read_type (tuple_to_apf (get_arr_container kernel) "TRN" "WARP" true) /\ type_named types "accum_t" = read_type a /\
  type_named types "bias_t" = read_type a /\ type_named types "result_t" = read_type (tuple_to_apf (k, i, f) R V true).
Proof.
  intros En HC HR HP a. rewrite config_main in HC. unfold main_conf in HC. rewrite En in HC. unfold config_kernel in HC. rewrite HR in HC. cbn [rbind fst snd] in HC. rewrite HP in HC. cbn [rbind] in HC.
  destruct (check_types _) as [[]|]; cbn [rbind] in HC; [|discriminate]. apply okpair in HC as [HC _].
  pose proof (f_equal fst HC) as HT. cbn [fst] in HT. rewrite <- HT. subst a.
  assert (E : match offset with None => acc_f offset f pf | Some d => Z.min (d + f) (acc_f offset f pf) end = acc_f offset f pf) by (destruct offset as [d|]; cbn; lia).
  unfold acc_f in *. unfold type_named. cbn [find fst snd String.eqb Ascii.eqb Bool.eqb]. rewrite E. repeat split; reflexivity.
Qed.

Definition products (ws xs : list Qc) : list Qc := map (fun p => (fst p * snd p)%Qc) (combine ws xs).
Lemma circuit_acc types ws xs b z wk wi wf ak ai af rt : type_named types "weight_t" = Some (acc_type wk wi wf) -> wk = 0 \/ wk = 1 -> 0 <= wi + wf -> Forall (fits wk wi wf) ws ->
  type_named types "accum_t" = Some (acc_type ak ai af) -> type_named types "bias_t" = Some (acc_type ak ai af) -> ak = 0 \/ ak = 1 -> 0 <= ai + af ->
  type_named types "result_t" = Some rt -> circuit types ws xs b z ->
  exists acc, cast (acc_type ak ai af) (qsum (map (trunc af) (products ws xs)) + trunc af (match b with None => qz 0 | Some v => v end))%Qc = Ok acc /\ cast rt acc = Ok z.
Proof.
  intros TW Hwk Ww FW TA TB Hak Wa TR (wt & at_ & bt & rt' & ws' & b' & acc & E1 & E2 & E3 & E4 & EW & EB & ES & EZ).
  assert (wt = acc_type wk wi wf) by congruence. assert (at_ = acc_type ak ai af) by congruence. assert (bt = acc_type ak ai af) by congruence. assert (rt' = rt) by congruence. subst wt at_ bt rt'.
  assert (ws' = ws) as ->.
  { apply rseq_forall2 in EW. clear -EW FW Hwk Ww. induction EW as [|w w' ws ws' E EW IH]; [reflexivity|]. inversion FW; subst. rewrite (cast_fits wk wi wf w) in E by assumption. f_equal; [congruence|]. apply IH. assumption. }
  exists acc. split; [|exact EZ]. fold (products ws xs) in ES. apply (sums_cast ak ai af Hak Wa) in ES. rewrite <- ES. rewrite map_app, qsum_app. cbn [map qsum fold_right].
  replace (trunc af b' + qz 0)%Qc with (trunc af b') by (change (qz 0) with 0%Qc; ring). destruct b as [v|].
  - pose proof (cast_acc_grid ak ai af Hak Wa v b' EB) as GB. rewrite (trunc_id af b' GB). symmetry.
    apply (cast_add ak ai af Hak Wa _ (trunc af v) b' (trunc_grid af v)). rewrite <- EB, !(cast_acc ak ai af Hak Wa). unfold trunc. rewrite code_scaled, qfloor_qz. reflexivity.
  - subst b'. reflexivity.
Qed.

(** Storing a multiple of the accumulator's resolution in the accumulator first
    does not change the wrapped result. *)
Lemma wrap_result k i f R af y acc : k = 0 \/ k = 1 -> 0 <= i + f -> 0 <= i + af -> R = "TRN"%string \/ R = "RND"%string \/ (af <= f /\ In R rounding_names) -> on_grid af y ->
  cast (acc_type k i af) y = Ok acc -> cast (mkHw k (k + i + f) (k + i) R "WRAP") acc = cast (mkHw k (k + i + f) (k + i) R "WRAP") y.
Proof.
  intros Hk W1 W2 HR G E. unfold cast in *. cbn [h_k h_b h_i h_rnd h_sat acc_type] in *. assert (IR : In R rounding_names) by (destruct HR as [->|[->|[_ ?]]]; [cbn; auto..|assumption]).
  destruct (Z_le_dec af f) as [L|L].
  - eapply via_wrap_grid with (k := k) (i := i) (f := af); eauto; lia.
  - eapply via_wrap with (k := k) (i := i) (f := af); eauto; [lia| |lia]. destruct HR as [->|[->|[? _]]]; [left|right|]; [split; auto; lia..|lia].
Qed.

Section KernelLayer.
  Variable (fuel : nat) (net : pnet) (n : nat) (s : pst) (offset : option Z) (kernel : list Qc) (div : Z) (bias : option (list Qc)) (ps : list nat).
  Variable (types : list (string * string)) (size : option Z) (s' : pst) (k i f : Z) (R V : string) (s1 : pst) (pk pi pf : Z) (s2 : pst).
  Hypothesis En : nth_error net n = Some (NKernel kernel div bias, ps).
  Hypothesis HC : layer_config fuel net n s offset = Ok ((types, size), s').
  Hypothesis HR : result_kifRS fuel net n s = Ok (((k, i, f), R, V), s1).
  Hypothesis HP : produced fuel net n s1 = Ok ((pk, pi, pf), s2).
  Hypothesis Hk : k = 0 \/ k = 1.
  Hypothesis W : 1 <= k + i + f.
  Hypothesis HRn : In R rounding_names.
  Hypothesis HVn : In V overflow_names.
  Hypothesis PV : Forall plain_value kernel.
  Let af := acc_f offset f pf.

  Lemma column_fits u wk wi wf : get_arr_container kernel = (wk, wi, wf) -> (wk = 0 \/ wk = 1) /\ 1 <= wk + wi + wf /\ 0 <= wi + wf /\ Forall (fits wk wi wf) (column kernel div u).
  Proof.
    intros EC. destruct (container_fits kernel wk wi wf PV EC) as [A F]. destruct (container_width kernel wk wi wf PV EC). repeat split; auto. unfold column. apply Forall_map, Forall_forall. intros j _.
    destruct (nth_in_or_default (Z.to_nat (Z.of_nat j * div + u)) kernel (qz 0)) as [I|E]; [apply (proj1 (Forall_forall _ _) F _ I)|rewrite E; apply fits_0; exact A].
  Qed.
  (** Any accumulator: truncating the terms is all it does to a wrapped result. *)
  Lemma kernel_wraps u xs b z : V = "WRAP"%string -> 0 <= i + f -> 0 <= i + af -> 1 <= k + i + af -> R = "TRN"%string \/ R = "RND"%string \/ af <= f ->
    circuit types (column kernel div u) xs b z ->
    cast (mkHw k (k + i + f) (k + i) R V) (qsum (map (trunc af) (products (column kernel div u) xs)) + trunc af (match b with None => qz 0 | Some v => v end))%Qc = Ok z.
  Proof.
    intros -> W0 W1 W2 HRR C. destruct (kernel_types _ _ _ _ _ _ _ _ _ _ _ _ _ _ _ _ _ _ _ _ _ _ En HC HR HP) as (T1 & T2 & T3 & T4). fold af in T2, T3. cbn [String.eqb Ascii.eqb Bool.eqb] in T2, T3.
    destruct (get_arr_container kernel) as [[wk wi] wf] eqn:EC. destruct (column_fits u wk wi wf EC) as (Hwk & Ww1 & Ww2 & FW).
    rewrite (read_acc wk wi wf Hwk Ww1) in T1. rewrite (read_acc k i af Hk W2) in T2, T3. rewrite (read_result k i f R "WRAP" Hk W HRn HVn) in T4.
    destruct (circuit_acc types _ xs b z wk wi wf k i af _ T1 Hwk Ww2 FW T2 T3 Hk W1 T4 C) as (acc & EA & EZ). rewrite <- EZ. symmetry. apply (wrap_result k i f R af _ acc); auto.
    - destruct HRR as [?|[?|?]]; auto.
    - apply grid_add; [|apply trunc_grid]. apply grid_sum, Forall_map, Forall_forall. intros x _. apply trunc_grid.
  Qed.
  Lemma kernel_full u xs b z : V <> "WRAP"%string -> pk = 0 \/ pk = 1 -> 0 <= pi + af -> 1 <= pk + pi + af ->
    fits pk pi af (qsum (map (trunc af) (products (column kernel div u) xs)) + trunc af (match b with None => qz 0 | Some v => v end))%Qc ->
    circuit types (column kernel div u) xs b z ->
    cast (mkHw k (k + i + f) (k + i) R V) (qsum (map (trunc af) (products (column kernel div u) xs)) + trunc af (match b with None => qz 0 | Some v => v end))%Qc = Ok z.
  Proof.
    intros NV Hpk W1 W2 FY C. destruct (kernel_types _ _ _ _ _ _ _ _ _ _ _ _ _ _ _ _ _ _ _ _ _ _ En HC HR HP) as (T1 & T2 & T3 & T4). fold af in T2, T3. apply String.eqb_neq in NV. rewrite NV in T2, T3.
    destruct (get_arr_container kernel) as [[wk wi] wf] eqn:EC. destruct (column_fits u wk wi wf EC) as (Hwk & Ww1 & Ww2 & FW).
    rewrite (read_acc wk wi wf Hwk Ww1) in T1. rewrite (read_acc pk pi af Hpk W2) in T2, T3. rewrite (read_result k i f R V Hk W HRn HVn) in T4.
    destruct (circuit_acc types _ xs b z wk wi wf pk pi af _ T1 Hwk Ww2 FW T2 T3 Hpk W1 T4 C) as (acc & EA & EZ). rewrite (cast_fits pk pi af _ Hpk W1 FY) in EA. assert (acc = (qsum (map (trunc af) (products (column kernel div u) xs)) + trunc af (match b with None => qz 0 | Some v => v end))%Qc) by congruence. subst acc. exact EZ.
  Qed.
  (** Without an offset: nothing at all, if the terms are multiples of the
      derived resolution. *)
  Lemma trunc_terms g l : Forall (on_grid g) l -> qsum (map (trunc g) l) = qsum l.
  Proof. induction 1 as [|x l G F IH]; [reflexivity|]. cbn [map qsum fold_right]. rewrite trunc_id by exact G. fold (qsum (map (trunc g) l)). fold (qsum l). rewrite IH. reflexivity. Qed.
  Lemma kernel_exact u xs b z : offset = None ->
    V = "WRAP"%string /\ 0 <= i + f /\ 0 <= i + pf /\ 1 <= k + i + pf /\ (R = "TRN"%string \/ R = "RND"%string \/ pf <= f) \/
    V <> "WRAP"%string /\ (pk = 0 \/ pk = 1) /\ 0 <= pi + pf /\ 1 <= pk + pi + pf /\ fits pk pi pf (dotq (column kernel div u) xs + match b with None => qz 0 | Some v => v end)%Qc ->
    Forall (on_grid pf) (products (column kernel div u) xs) -> match b with None => True | Some v => on_grid pf v end ->
    circuit types (column kernel div u) xs b z ->
    cast (mkHw k (k + i + f) (k + i) R V) (dotq (column kernel div u) xs + match b with None => qz 0 | Some v => v end)%Qc = Ok z.
  Proof.
    intros EO HV GP GB C. assert (Ea : af = pf) by (subst af; rewrite EO; reflexivity).
    assert (EY : (qsum (map (trunc af) (products (column kernel div u) xs)) + trunc af (match b with None => qz 0 | Some v => v end))%Qc = (dotq (column kernel div u) xs + match b with None => qz 0 | Some v => v end)%Qc).
    { rewrite Ea. rewrite (trunc_terms pf _ GP). f_equal. apply trunc_id. destruct b; [exact GB|apply grid_0]. }
    rewrite <- EY. destruct HV as [(EV & W0 & W1 & W2 & HRR)|(NV & Hpk & W1 & W2 & FY)]; rewrite <- Ea in W1, W2.
    - rewrite <- Ea in HRR. apply (kernel_wraps u xs b z EV W0 W1 W2 HRR C).
    - rewrite <- Ea in FY at 1. rewrite <- EY in FY. apply (kernel_full u xs b z NV Hpk W1 W2 FY C).
  Qed.
End KernelLayer.

(** ** Networks *)

Lemma total_map {A B} (g : A -> result B) l : (forall a, exists b, g a = Ok b) -> exists l', rseq (map g l) = Ok l' /\ Forall2 (fun a b => g a = Ok b) l l'.
Proof.
  intros T. induction l as [|a l (l' & E & F)]; [exists []; split; [reflexivity|constructor]|]. destruct (T a) as [b Eb]. exists (b :: l'). split; [|constructor; assumption].
  cbn. rewrite Eb. cbn. rewrite E. reflexivity.
Qed.
Lemma removed_spec net s m : removed net s m = true -> exists q p o, nth_error net m = Some (NFpq q, [p]) /\ nth_error s q = Some o /\ heterogeneous o = false /\ out_layers net p = [m] /\
  fusible_result net p s = Ok (Some (result_t_kif o, rnd_name o, sat_name o)).
Proof.
  unfold removed. intros H. destruct (nth_error net m) as [[kd ps]|] eqn:Em; [|discriminate]. destruct kd; try discriminate. destruct ps as [|p [|? ?]]; try discriminate.
  destruct (nth_error s q) as [o|] eqn:Eo; [|discriminate]. apply andb_true_iff in H as [L H]. apply negb_true_iff in H. apply Nat.eqb_eq in L.
  assert (IO : In m (out_layers net p)) by (apply in_out; exists (NFpq q), [p]; cbn; auto).
  destruct (out_layers net p) as [|m' [|? ?]] eqn:EO; try discriminate. destruct IO as [->|[]]. exists q, p, o. repeat split; auto.
  unfold fusible_result. rewrite EO, Em, Eo. unfold fusible. cbn [List.length Nat.eqb negb hd]. rewrite EO. cbn [List.length Nat.eqb negb rbind]. rewrite H. reflexivity.
Qed.
Lemma one_removed net s p m q o : out_layers net p = [m] -> nth_error net m = Some (NFpq q, [p]) -> nth_error s q = Some o -> heterogeneous o = false -> removed net s m = true.
Proof. intros E Em Eo He. unfold removed. rewrite Em, Eo, E, He. reflexivity. Qed.

Section Net.
  Variable (fuel : nat) (net : pnet) (s : pst) (geo : nat -> list recipe) (feed : nat -> list Qc) (opaque : nat -> list (list Qc) -> list Qc).
  Variable (confs : nat -> list (string * string)) (sizes : nat -> option Z) (tables : nat -> option ulut) (adder : nat -> recipe -> hwt -> list Qc -> result Qc).
  Hypothesis AF : all_fine net s.
  Hypothesis hon : honest net feed opaque.
  Hypothesis HC : forall n kd ps, nth_error net n = Some (kd, ps) -> (forall t, kd <> NLut t) -> layer_config (S fuel) net n s None = Ok ((confs n, sizes n), s).
  Hypothesis SY : forall n kd ps, nth_error net n = Some (kd, ps) -> synthesized (S fuel) net s tables n.
  Hypothesis AD : adding adder.
  Let types (n : nat) : string -> option hwt := type_named (confs n).

  Definition stored (n : nat) (a b : Qc) : Prop :=
    (removed net s n = true /\ b = a) \/
    ((exists t ps l, nth_error net n = Some (NLut t, ps) /\ tables n = Some l /\ In a (lut_table l)) /\ b = a) \/
    ((forall t ps, nth_error net n <> Some (NLut t, ps)) /\ removed net s n = false /\ exists k i f R V, result_kifRS (S fuel) net n s = Ok (((k, i, f), R, V), s) /\ gfixed_quantizer a k (k + i + f) (k + i) R V = Ok b).

  (** What a removed quantizer would have done is done by the layer before. *)
  Lemma removed_reader m q p o c a b : removed net s m = true -> nth_error net m = Some (NFpq q, [p]) -> nth_error s q = Some o -> In c (data (cfgs o)) ->
    (exists kd ps, nth_error net p = Some (kd, ps)) -> stored p a b -> quant o c a = Ok b.
  Proof.
    intros RM Em Eo Hc (kd & ps & Ep) ST. destruct (removed_spec net s m RM) as (q' & p' & o' & Em' & Eo' & He & EO & FR).
    assert (q' = q /\ p' = p) as [-> ->] by (split; congruence). assert (o' = o) by congruence. subst o'.
    destruct (SY p kd ps Ep) as [(RP & FN)|[LU|(NL & _ & RP & k & i & f & R & V & HR & Hk & W1 & W0 & HRn & HVn & _ & RD)]]; [congruence|..].
    { destruct LU as (l & p0 & k & i & f & ko & io & fo & EL & TL & _ & _ & _ & FQ). destruct ST as [[RP _]|[[(t & ps' & l' & _ & TL' & IA) ->]|(NL & _)]].
      - apply removed_spec in RP as (? & ? & ? & X & _). congruence.
      - assert (l' = l) by congruence. subst l'. exact (FQ m q o c a RM Em Eo Hc IA).
      - destruct (NL _ _ EL). }
    destruct ST as [[? _]|[[(t & ps' & l' & X & _) _]|(_ & _ & k' & i' & f' & R' & V' & HR' & EB)]]; [congruence|destruct (NL _ _ X)|]. rewrite HR in HR'.
    assert (k' = k /\ i' = i /\ f' = f /\ R' = R /\ V' = V) as (-> & -> & -> & -> & ->) by (repeat split; congruence). clear HR'.
    assert (LG : legal_fpq o).
    { destruct RD as [(m' & q' & o' & EO' & Em'' & Eo'' & LG & _)|[(_ & FN & _)|(_ & [(FN & _)|(FN & _)])]]; congruence. }
    unfold result_kifRS in HR. rewrite FR in HR. cbn [rbind] in HR. apply okpair in HR as [HR _].
    destruct LG as (_ & LF & _). pose proof (proj1 (Forall_forall _ _) LF c Hc) as (Lk & Lb & L1 & L2). assert (S8 : i8_safe c) by (split; lia).
    rewrite (result_t_kif_homog o c He Hc S8) in HR. assert (k = kn c /\ i = ints c - kn c /\ f = bits c - ints c /\ R = rnd_name o /\ V = sat_name o) as (-> & -> & -> & -> & ->) by (repeat split; congruence).
    unfold quant. rewrite <- EB. f_equal; lia.
  Qed.

  Definition exact_at (p : nat) : Prop := forall a b, value net s p a -> stored p a b -> b = a.
  Definition read_by_quantizers (p : nat) : Prop :=
    forall m kd ps, nth_error net m = Some (kd, ps) -> In p ps -> ps = [p] /\ exists q, kd = NFpq q /\
      (removed net s m = false -> forall o c a b, nth_error s q = Some o -> In c (data (cfgs o)) -> value net s p a -> stored p a b -> quant o c b = quant o c a).
  Lemma carried p kd ps : nth_error net p = Some (kd, ps) -> exact_at p \/ read_by_quantizers p.
  Proof.
    intros Ep. destruct (SY p kd ps Ep) as [(RP & FN)|[LU|(NL & _ & RP & k & i & f & R & V & HR & Hk & W1 & W0 & HRn & HVn & _ & RD)]].
    - left. intros a b _ [[_ ->]|[[_ ->]|(_ & ? & _)]]; [reflexivity|reflexivity|congruence].
    - left. destruct LU as (l & p0 & k & i & f & ko & io & fo & EL & _). intros a b _ [[_ ->]|[[_ ->]|(NL & _)]]; [reflexivity|reflexivity|destruct (NL _ _ EL)].
    - assert (ST : forall a b, stored p a b -> gfixed_quantizer a k (k + i + f) (k + i) R V = Ok b).
      { intros a b [[? _]|[[(t & ps' & l' & X & _) _]|(_ & _ & k' & i' & f' & R' & V' & HR' & EB)]]; [congruence|destruct (NL _ _ X)|]. rewrite HR in HR'.
        assert (k' = k /\ i' = i /\ f' = f /\ R' = R /\ V' = V) as (-> & -> & -> & -> & ->) by (repeat split; congruence). exact EB. }
      destruct RD as [(m & q & o & EO & Em & Eo & LG & He)|[((ps0 & EI) & FN & VN & RD)|(NI & [(FN & k0 & i0 & f0 & k1 & i1 & f1 & HP & HQ & B1 & B2 & B3)|(FN & k0 & i0 & f0 & k1 & i1 & f1 & k2 & i2 & f2 & HP & HQ & EM & HW & RD)])]].
      + right. intros m' kd' ps' Em' I. assert (m' = m) as ->.
        { assert (IO : In m' (out_layers net p)) by (apply in_out; exists kd', ps'; auto). rewrite EO in IO. destruct IO as [IO|[]]. congruence. }
        rewrite Em in Em'. assert (kd' = NFpq q /\ ps' = [p]) as [-> ->] by (split; congruence). split; [reflexivity|]. exists q. split; [reflexivity|].
        intros RM. pose proof (one_removed net s p m q o EO Em Eo He). congruence.
      + right. intros m kd' ps' Em I. destruct (RD m kd' ps' Em I) as (-> & q & -> & RQ). split; [reflexivity|]. exists q. split; [reflexivity|].
        intros _ o c a b Eo Hc VA SA. apply ST in SA. destruct (RQ o Eo) as (Lo & TR).
        assert (IO : In m (out_layers net p)) by (apply in_out; exists (NFpq q), [p]; cbn; auto).
        unfold result_kifRS in HR. rewrite FN, EI in HR. cbn [rbind] in HR. destruct (derived_result net p s) as [r|] eqn:ED; [|discriminate]. cbn [rbind] in HR. apply okpair in HR as [-> _].
        exact (input_transparent net p s k i f R V m q [p] o c a b ED Hk IO Em Eo Lo Hc TR VN SA).
      + left. intros a b VA SA. apply ST in SA. destruct (result_merged _ _ _ _ _ _ _ _ _ _ _ _ HR FN NI HP HQ) as (EM & -> & ->).
          destruct (produced_sound (S fuel) net s AF p (k0, i0, f0) HP) as [Hk0 Fits0]. cbn [fst snd] in Hk0, Fits0.
          rewrite (merge_exact k0 i0 f0 k1 i1 f1 k i f a Hk0 B1 (Fits0 a VA) B2 B3 EM) in SA. congruence.
      + destruct (result_merged _ _ _ _ _ _ _ _ _ _ _ _ HR FN NI HP HQ) as (EM' & -> & ->). rewrite EM in EM'. assert (k2 = k /\ i2 = i /\ f2 = f) as (-> & -> & ->) by (repeat split; congruence).
        destruct (produced_sound (S fuel) net s AF p (k0, i0, f0) HP) as [Hk0 Fits0]. cbn [fst snd] in Hk0, Fits0.
        right. intros m kd' ps' Em I. destruct (RD m kd' ps' Em I) as (-> & q & -> & RQ). split; [reflexivity|]. exists q. split; [reflexivity|].
        intros _ o c a b Eo Hc VA SA. apply ST in SA. destruct (RQ o Eo) as (Lo & TR & RC). specialize (RC c Hc).
        assert (IO : In m (out_layers net p)) by (apply in_out; exists (NFpq q), [p]; cbn; auto).
        destruct (requested_ge fuel net p s k1 i1 f1 m q [p] o HQ IO Em Eo) as [Ri Rf].
        exact (merge_transparent k0 i0 f0 k1 i1 f1 k i f o c a b Lo Hc TR Hk0 (Fits0 a VA) Ri Rf EM HW RC SA).
  Qed.

  Lemma config_at n kd ps k i f R V : nth_error net n = Some (kd, ps) -> (forall t, kd <> NLut t) -> result_kifRS (S fuel) net n s = Ok (((k, i, f), R, V), s) ->
    match kd with
    | NKernel _ _ _ => True
    | NAct a _ => types n "table_t" = read_type (tuple_to_apf (k, i, f) R V true) /\
        (types n "result_t" = read_type (tuple_to_apf (k, i, f) R V true) \/ types n "result_t" = read_type (tuple_to_apf (k, i, f) "TRN" "WRAP" true))
    | _ => types n "result_t" = read_type (tuple_to_apf (k, i, f) R V true)
    end.
  Proof.
    intros En NL HR. pose proof (HC n kd ps En NL) as H. rewrite config_main in H. unfold main_conf in H. rewrite En in H. unfold types.
    destruct kd; try (rewrite HR in H; cbn [rbind fst snd] in H; destruct (check_types _) as [[]|]; cbn [rbind] in H; [|discriminate]; apply okpair in H as [H _];
      pose proof (f_equal fst H) as HT; cbn [fst] in HT; rewrite <- HT; reflexivity); [|exact I].
    unfold config_table in H. rewrite HR in H. cbn [rbind fst snd] in H. destruct (input_kifs _ _ _ _) as [[l s2]|]; cbn [rbind fst snd] in H; [|discriminate].
    destruct (kifs_max l) as [[[ik ii] jf]|]; cbn [rbind] in H; [|discriminate]. destruct (Z.ltb (ik + ii + jf) 0); [discriminate|]. cbn [rbind] in H.
    destruct (check_types _) as [[]|]; cbn [rbind] in H; [|discriminate]. apply okpair in H as [H _]. pose proof (f_equal fst H) as HT. cbn [fst] in HT. rewrite <- HT.
    split; [reflexivity|]. destruct a; (left; reflexivity) || (right; reflexivity).
  Qed.
  Lemma kernel_step n kernel div bias p : nth_error net n = Some (NKernel kernel div bias, [p]) -> forall pk pi pf, produced (S fuel) net n s = Ok ((pk, pi, pf), s) ->
    (pk = 0 \/ pk = 1) /\ (forall y, value net s n y -> fits pk pi pf y) /\ Forall plain_value kernel /\
    (forall u xs, Forall (fun x => value net s p x \/ x = qz 0) xs -> Forall (on_grid pf) (products (column kernel div u) xs)) /\
    (forall l u b, bias = Some l -> 0 <= u < div -> nth_error l (Z.to_nat u) = Some b -> on_grid pf b).
  Proof.
    intros En pk pi pf HP. destruct (produced_sound (S fuel) net s AF n (pk, pi, pf) HP) as [Hpk FV]. cbn [fst snd] in Hpk, FV. split; [exact Hpk|]. split; [exact FV|].
    pose proof HP as HP0. rewrite produced_S, En in HP. destruct (step_fix _ _ _ _ _ _ HP) as [ts HI]. destruct AF as [AF1 _].
    pose proof (AF1 n _ _ fuel ts (pk, pi, pf) En HI HP0) as NF. cbn [node_fine] in NF. destruct NF as (Hd & _ & _ & PV & _ & HB). split; [exact PV|].
    cbn [step] in HP. rewrite HI in HP. cbn [rbind fst snd] in HP. pose proof (input_kifs_fix _ _ _ _ _ HI) as FI. inversion FI as [|? t ? ? Hp FI']; subst. inversion FI'; subst.
    apply okpair in HP as [HP _]. destruct t as [[ik ii] jf]. destruct (produced_sound fuel net s AF p (ik, ii, jf) Hp) as [Hik FP]. cbn [fst snd] in Hik, FP.
    unfold kernel_produced in HP. destruct (get_arr_container kernel) as [[wk wi] wf] eqn:EC. assert (pf = jf + wf) by congruence. subst pf. split.
    - intros u xs FX. destruct (column_fits kernel div PV u wk wi wf EC) as (_ & _ & _ & FW). unfold products. apply Forall_map, Forall_forall. intros [w x] IP. cbn [fst snd].
      replace (jf + wf) with (wf + jf) by lia. apply grid_mul.
      + apply (proj1 (Forall_forall _ _) FW w). apply (in_combine_l _ _ _ _ IP).
      + destruct (proj1 (Forall_forall _ _) FX x (in_combine_r _ _ _ _ IP)) as [VX| ->]; [apply FP, VX|apply grid_0].
    - intros l u b -> Hu Eb. cbn [snd] in HB. apply (HB ik ii jf u b); auto. left. reflexivity.
  Qed.

  Lemma kernel_element n kernel div bias ps ins r y k i f R V : nth_error net n = Some (NKernel kernel div bias, ps) -> Forall2 (fun p x => Forall (value net s p) x) ps ins ->
    result_kifRS (S fuel) net n s = Ok (((k, i, f), R, V), s) -> (k = 0 \/ k = 1) -> 1 <= k + i + f -> 0 <= i + f -> In R rounding_names -> In V overflow_names -> accumulates (S fuel) net s n k i f R V ->
    element s (NKernel kernel div bias) (List.length ins) ins r = Ok y ->
    exists z, fw_element net s types adder n (NKernel kernel div bias) (List.length ins) ins r = Ok z /\ gfixed_quantizer y k (k + i + f) (k + i) R V = Ok z.
  Proof.
    intros En FI HR Hk W1 W0 HRn HVn AC H. pose proof (element_value s net n _ ps ins r y En FI H) as VY. unfold accumulates in AC. rewrite En in AC. destruct AC as (pk & pi & pf & HP & AC).
    pose proof (forall2_len _ _ _ FI) as LE. unfold element in H. unfold fw_element. destruct (fetches ins (r_src r)) as [xs|] eqn:X; [|discriminate]. cbn [rbind] in H |- *.
    apply demand_ok in H as [B H]. rewrite B. cbn [negb]. apply andb_true_iff in B as [B B4]. apply andb_true_iff in B as [B B3]. apply andb_true_iff in B as [B1 B2]. apply Nat.eqb_eq in B1, B4. apply Z.ltb_lt in B3.
    rewrite <- LE in B1. destruct ps as [|p [|? ?]]; try discriminate.
    pose proof (fetches_pad s net p ins (r_src r) xs FI B2 X) as VX.
    destruct (kernel_step n kernel div bias p En pk pi pf HP) as (Hpk & FV & PV & GP & GB). specialize (GP (Z.of_nat (r_ch r)) xs VX).
    pose proof (HC n _ _ En ltac:(discriminate)) as HCn.
    destruct (kernel_types _ _ _ _ _ _ _ _ _ _ _ _ _ _ _ _ _ _ _ _ _ _ En HCn HR HP) as (T1 & T2 & T3 & T4). cbn [acc_f] in T2, T3.
    destruct (get_arr_container kernel) as [[wk wi] wf] eqn:EC. destruct (column_fits kernel div PV (Z.of_nat (r_ch r)) wk wi wf EC) as (Hwk & Ww1 & Ww2 & FW).
    rewrite (read_acc wk wi wf Hwk Ww1) in T1. rewrite (read_result k i f R V Hk W1 HRn HVn) in T4.
    assert (TA : exists ak ai, read_type (if String.eqb V "WRAP" then tuple_to_apf (k, i, pf) "TRN" "WARP" true else tuple_to_apf (pk, pi, pf) "TRN" "WARP" true) = Some (acc_type ak ai pf)).
    { destruct AC as [(-> & _ & A2 & _)|(NV & _ & A2)]; [cbn [String.eqb Ascii.eqb Bool.eqb]; rewrite (read_acc k i pf Hk A2); eauto|]. apply String.eqb_neq in NV. rewrite NV, (read_acc pk pi pf Hpk A2). eauto. }
    destruct TA as (ak & ai & TA). rewrite TA in T2, T3.
    assert (CT : forall t : hwt, In (h_rnd t) rounding_names -> In (h_sat t) overflow_names -> forall x, exists z, cast t x = Ok z) by (intros t A1 A2 x; apply gfixed_ok; assumption).
    assert (NT : In "TRN"%string rounding_names) by (cbn; auto 10). assert (NW : In "WRAP"%string overflow_names) by (cbn; auto 10).
    set (ws := column kernel div (Z.of_nat (r_ch r))) in *.
    destruct (total_map (cast (acc_type wk wi wf)) ws) as (ws' & EW & _); [apply CT; assumption|].
    assert (EW' : rseq (map (as_type types n "weight_t") ws) = Ok ws') by (rewrite <- EW; f_equal; apply map_ext; intros w; unfold as_type, types; rewrite T1; reflexivity).
    rewrite EW'. cbn [rbind].
    set (bo := match bias with None => None | Some l => nth_error l (r_ch r) end).
    assert (HB : y = (dotq ws xs + match bo with None => qz 0 | Some v => v end)%Qc /\ exists b', match bo with None => b' = qz 0 | Some v => cast (acc_type ak ai pf) v = Ok b' end /\
      match bias with None => Ok (qz 0) | Some l => match nth_error l (r_ch r) with Some b => as_type types n "bias_t" b | None => Raise end end = Ok b').
    { subst bo. destruct bias as [l|].
      - destruct (nth_error l (r_ch r)) as [b|] eqn:Eb; [|discriminate]. split; [congruence|]. destruct (CT (acc_type ak ai pf) NT NW b) as [b' Eb']. exists b'. split; [exact Eb'|]. unfold as_type, types. rewrite T3. exact Eb'.
      - split; [congruence|]. exists (qz 0). split; reflexivity. }
    destruct HB as (EY & b' & Eb' & EB'). rewrite EB'. cbn [rbind]. unfold types at 1. rewrite T2.
    destruct (AD n r (acc_type ak ai pf) (products ws' xs ++ [b'])) as (acc & EA & SA); [destruct (products ws' xs); discriminate|exact NT|exact NW|]. unfold products in EA, SA. rewrite EA. cbn [rbind].
    unfold as_type, types. rewrite T4. destruct (CT (mkHw k (k + i + f) (k + i) R V) HRn HVn acc) as [z EZ]. exists z. split; [exact EZ|].
    change (cast (mkHw k (k + i + f) (k + i) R V) y = Ok z). rewrite EY.
    refine (kernel_exact (S fuel) net n s None kernel div bias [p] (confs n) (sizes n) s k i f R V s pk pi pf s En HCn HR HP Hk W1 HRn HVn PV (Z.of_nat (r_ch r)) xs bo z eq_refl _ GP _ _).
    - destruct AC as [(-> & A1 & A2 & A3)|(NV & A1 & A2)]; [left; auto 10|right]. repeat split; auto; rewrite EY in VY; apply (FV _ VY).
    - subst bo. destruct bias as [l|]; [|exact I]. destruct (nth_error l (r_ch r)) as [b|] eqn:Eb; [|exact I]. apply (GB l (Z.of_nat (r_ch r)) b eq_refl); [lia|rewrite Nat2Z.id; exact Eb].
    - exists (acc_type wk wi wf), (acc_type ak ai pf), (acc_type ak ai pf), (mkHw k (k + i + f) (k + i) R V), ws', b', acc. repeat split; assumption.
  Qed.

  Lemma in_table_point n a func ps : nth_error net n = Some (NAct a func, ps) -> in_table (S fuel) net s n -> forall k i f R V, result_kifRS (S fuel) net n s = Ok (((k, i, f), R, V), s) ->
    match a with
    | ATanh => exists size p, ps = [p] /\ sizes n = Some size /\ forall x, value net s p x -> tabulated 4 size x = x
    | ASigmoid => exists size p, ps = [p] /\ sizes n = Some size /\ forall x, value net s p x -> tabulated 8 size x = x
    | _ => True
    end.
  Proof.
    intros En IT k i f R V HR. unfold in_table in IT. rewrite En in IT. pose proof (HC n _ _ En ltac:(discriminate)) as H.
    destruct a; try exact I; destruct IT as (p & ik & ii & jf & -> & HP & B1 & B2); destruct (config_size _ _ _ _ _ _ _ _ _ _ _ _ _ _ _ _ _ En H HR HP) as [W ->];
    destruct (produced_sound (S fuel) net s AF p (ik, ii, jf) HP) as [Hk FV]; cbn [fst snd] in Hk, FV; eexists; exists p; (split; [reflexivity|]; split; [reflexivity|]); intros x VX; destruct (FV x VX) as (G & L & U).
    - change 8 with (2 ^ 3) at 1. rewrite (table_size_pow 3 jf) by lia. replace (3 + jf) with (2 + 1 + jf) by lia. change 4 with (2 ^ 2). apply tabulated_exact; [lia|lia|exact G| |].
      + pose proof (pow2_le ii 2 B1) as PL. pose proof (pow2_pos ii) as P0. destruct Hk as [-> | ->].
        * replace (qz 0 * pow2 ii)%Qc with (qz 0) in L by (change (qz 0) with 0%Qc; ring). qlra.
        * replace (qz 1 * pow2 ii)%Qc with (pow2 ii) in L by (change (qz 1) with 1%Qc; ring). qlra.
      + pose proof (pow2_le ii 2 B1) as PL. qlra.
    - change 16 with (2 ^ 4) at 1. rewrite (table_size_pow 4 jf) by lia. replace (4 + jf) with (3 + 1 + jf) by lia. change 8 with (2 ^ 3). apply tabulated_exact; [lia|lia|exact G| |].
      + pose proof (pow2_le ii 3 B1) as PL. pose proof (pow2_pos ii) as P0. destruct Hk as [-> | ->].
        * replace (qz 0 * pow2 ii)%Qc with (qz 0) in L by (change (qz 0) with 0%Qc; ring). qlra.
        * replace (qz 1 * pow2 ii)%Qc with (pow2 ii) in L by (change (qz 1) with 1%Qc; ring). qlra.
      + pose proof (pow2_le ii 3 B1) as PL. qlra.
  Qed.
  Lemma lookup_call l x : on_grid (lut_f l) x -> forall y, lut_call l x = Ok y -> lookup l x = Ok y /\ In y (lut_table l).
  Proof.
    intros [m E] y H. unfold lut_call in H. unfold lookup.
    assert (EX : (x * pow2 (lut_f l))%Qc = qz m) by (rewrite E; replace (qz m * pow2 (- lut_f l) * pow2 (lut_f l))%Qc with (qz m * (pow2 (- lut_f l) * pow2 (lut_f l)))%Qc by ring; rewrite pow2_opp_l; change (qz 1) with 1%Qc; ring).
    rewrite EX, qround_even_qz in H. rewrite EX, qfloor_qz. destruct (Z.eqb _ 0); [discriminate|]. destruct (nth_error (lut_table l) _) as [w|] eqn:W; [|discriminate].
    assert (w = y) by congruence. subst w. split; [reflexivity|]. apply (nth_error_In _ _ W).
  Qed.
  Lemma lut_layer n t ps : nth_error net n = Some (NLut t, ps) -> looked_up (S fuel) net s tables n.
  Proof.
    intros En. destruct (SY n _ _ En) as [(RN & _)|[LU|(NL & _)]]; [|exact LU|destruct (NL _ _ En)]. apply removed_spec in RN as (? & ? & ? & X & _). congruence.
  Qed.
  Lemma lut_entries n t ps l : nth_error net n = Some (NLut t, ps) -> tables n = Some l -> Forall (value net s n) (lut_table l).
  Proof.
    intros En T. destruct (lut_layer n t ps En) as (l' & p & k & i & f & ko & io & fo & En' & T' & _ & _ & FT & _). assert (l' = l) by congruence. subst l'.
    destruct AF as [_ AF2]. destruct (AF2 n ko io fo [p] En') as [Hk W].
    apply Forall_forall. intros y IY. apply (v_lut net s n [p] ko io fo y y "TRN" "WRAP" En'). apply (cast_fits ko io fo y Hk); [lia|]. apply (proj1 (Forall_forall _ _) FT y IY).
  Qed.

  Lemma fw_layer n kd ps ins y : nth_error net n = Some (kd, ps) -> removed net s n = false -> (match kd with NFpq _ => True | _ => Forall2 (fun p x => Forall (value net s p) x) ps ins end) ->
    layer_out s geo feed opaque tables n kd ins = Ok y ->
    exists y', fw_out net s geo feed opaque types sizes tables adder n kd ins = Ok y' /\ Forall2 (stored n) y y'.
  Proof.
    intros En RN FI H. destruct (SY n kd ps En) as [(? & _)|[LU|(NL & IT & _ & k & i & f & R & V & HR & Hk & W1 & W0 & HRn & HVn & AC & _)]]; [congruence|..].
    { destruct LU as (l & p & k & i & f & ko & io & fo & En' & T & HP & Lf & FT & _). assert (kd = NLut (ko, io, fo) /\ ps = [p]) as [-> ->] by (split; congruence).
      cbn [layer_out fw_out] in H |- *. destruct ins as [|x [|? ?]]; try discriminate. rewrite T in H. rewrite T. inversion FI as [|? ? ? ? VX _]; subst.
      destruct (produced_sound (S fuel) net s AF p (k, i, f) HP) as [Hk FV]. cbn [fst snd] in Hk, FV. exists y. apply rseq_forall2 in H.
      assert (Q : Forall2 (fun a b => lookup l a = Ok b /\ In b (lut_table l)) x y).
      { clear -H VX FV Lf. induction H as [|a b x y E H IH]; [constructor|]. inversion VX as [|? ? V1 V2]; subst. constructor; [|apply IH; exact V2].
        apply (lookup_call l a); [|exact E]. destruct (FV a V1) as [G _]. apply (grid_weaken f); [exact Lf|exact G]. }
      split; [apply forall2_rseq; clear -Q; induction Q as [|a b x y [E _] Q IH]; constructor; assumption|].
      clear -Q En T. induction Q as [|a b x y [_ E] Q IH]; constructor; [|exact IH]. right. left. split; [|reflexivity]. exists (ko, io, fo), [p], l. auto. }
    assert (NT : forall t, kd <> NLut t) by (intros t ->; destruct (NL _ _ En)).
    pose proof (config_at n kd ps k i f R V En NT HR) as CA. rewrite (read_result k i f R V Hk W1 HRn HVn) in CA.
    set (rt := mkHw k (k + i + f) (k + i) R V) in *.
    assert (ST : forall a b, cast rt a = Ok b -> stored n a b) by (intros a b E; right; right; split; [exact NL|]; split; [exact RN|]; exists k, i, f, R, V; split; [exact HR|exact E]).
    assert (CT : forall x, exists z, cast rt x = Ok z) by (intros x; apply gfixed_ok; assumption).
    (* casting a list *)
    assert (LI : forall g : Qc -> result Qc, (forall x, g x = cast rt x) -> forall l, exists y', rseq (map g l) = Ok y' /\ Forall2 (stored n) l y').
    { intros g G l. destruct (total_map (cast rt) l CT) as (l' & E & F). exists l'. split; [rewrite <- E; f_equal; apply map_ext; exact G|]. clear -F ST. induction F; constructor; auto. }
    (* layers computing element by element *)
    assert (GE : (forall r v, element s kd (List.length ins) ins r = Ok v -> exists z, fw_element net s types adder n kd (List.length ins) ins r = Ok z /\ stored n v z) ->
      rseq (map (element s kd (List.length ins) ins) (geo n)) = Ok y ->
      exists y', rseq (map (fw_element net s types adder n kd (List.length ins) ins) (geo n)) = Ok y' /\ Forall2 (stored n) y y').
    { intros E1 E. apply rseq_forall2 in E. clear H. induction E as [|r v rs ys E E' IH]; [exists []; split; [reflexivity|constructor]|].
      destruct (E1 r v E) as (z & Z1 & Z2). destruct IH as (y' & Y1 & Y2). exists (z :: y'). split; [|constructor; assumption]. cbn [map rseq]. rewrite Z1. cbn [rbind rseq]. rewrite Y1. reflexivity. }
    assert (PL : types n "result_t" = Some rt -> forall v, as_type types n "result_t" v = cast rt v) by (intros T v; unfold as_type; rewrite T; reflexivity).
    (* activations with tables *)
    assert (TB : types n "table_t" = Some rt /\ (types n "result_t" = Some rt \/ types n "result_t" = read_type (tuple_to_apf (k, i, f) "TRN" "WRAP" true)) ->
      forall v, rbind (as_type types n "table_t" v) (as_type types n "result_t") = cast rt v).
    { intros [T1 T2] v. unfold as_type. rewrite T1. destruct (CT v) as [z Z]. rewrite Z. cbn [rbind].
      assert (FZ : fits k i f z).
      { unfold cast, rt in Z. cbn [h_k h_b h_i h_rnd h_sat] in Z. apply gfixed_fits in Z; [|exact Hk|lia]. replace (k + i - k) with i in Z by lia. replace (k + i + f - (k + i)) with f in Z by lia. exact Z. }
      destruct T2 as [T2|T2]; rewrite T2.
      - destruct (CT z) as [w Wz]. rewrite Wz. f_equal. assert (Kb : k <= k + i + f) by lia. exact (gfixed_idem _ _ _ _ _ _ _ _ Hk Kb Z Wz).
      - rewrite (read_result k i f "TRN" "WRAP" Hk W1) by (cbn; auto 10). exact (cast_fits k i f z Hk W0 FZ). }
    destruct kd; cbn [layer_out fw_out] in H |- *;
      try (apply GE; [|exact H]; intros r v E; cbn [fw_element]; rewrite ?RN, E; cbn [rbind]; rewrite (PL CA v); destruct (CT v) as [z Z]; exists z; split; [exact Z|apply ST, Z]).
    - assert (y = feed n) by congruence. subst y. apply (LI _ (PL CA)).
    - pose proof (in_table_point n a func ps En IT k i f R V HR) as TP.
      destruct a; [assert (y = opaque n ins) by congruence; subst y; apply (LI (fun y => rbind (as_type types n "table_t" y) (as_type types n "result_t")) (TB CA))|..];
      try (destruct TP as (size & p & -> & SZ & TP); destruct ins as [|x [|? ?]]; try discriminate; rewrite SZ; assert (y = map func x) by congruence; subst y; inversion FI as [|? ? ? ? VX _]; subst;
       destruct (LI (fun y => rbind (as_type types n "table_t" y) (as_type types n "result_t")) (TB CA) (map func x)) as (y' & Y1 & Y2); exists y'; split; [|exact Y2];
       rewrite <- Y1, map_map; f_equal; apply map_ext_in; intros v IV; rewrite (TP v (proj1 (Forall_forall _ _) VX v IV)); reflexivity);
      (destruct ins as [|x [|? ?]]; try discriminate; assert (y = map func x) by congruence; subst y;
       destruct (LI (fun y => rbind (as_type types n "table_t" y) (as_type types n "result_t")) (TB CA) (map func x)) as (y' & Y1 & Y2); exists y'; split; [rewrite map_map in Y1; exact Y1|exact Y2]).
    - destruct softmax; [assert (y = opaque n ins) by congruence; subst y; apply (LI _ (PL CA))|].
      destruct ins as [|x [|? ?]]; try discriminate. assert (y = map func x) by congruence. subst y.
      destruct (LI _ (PL CA) (map func x)) as (y' & Y1 & Y2). exists y'. split; [rewrite map_map in Y1; exact Y1|exact Y2].
    - apply GE; [|exact H]. intros r v E. destruct (kernel_element n kernel div bias ps ins r v k i f R V En FI HR Hk W1 W0 HRn HVn AC E) as (z & Z1 & Z2). exists z. split; [exact Z1|apply ST; exact Z2].
    - destruct (NT kif_out eq_refl).
    - assert (y = opaque n ins) by congruence. subst y. apply (LI _ (PL CA)).
  Qed.

  Definition carries (env env' : list (list Qc)) : Prop :=
    List.length env' = List.length env /\ forall n x, nth_error env n = Some x -> exists x', nth_error env' n = Some x' /\ Forall2 (stored n) x x'.

  Lemma one_fetch (ins : list (list Qc)) x src w : ins = [x] -> fetches ins src = Ok [w] -> forallb (from 0) src = true -> exists j, src = [Some (0%nat, j)] /\ nth_error x j = Some w.
  Proof.
    intros -> X B. pose proof (rseq_forall2 _ _ _ X) as FX. inversion FX as [|so ? l0 ? E FX' E1]; subst. inversion FX'; subst.
    cbn in B. destruct so as [[b j]|]; [|discriminate]. rewrite andb_true_r in B. apply Nat.eqb_eq in B. subst b. exists j. split; [reflexivity|]. cbn in E. destruct (nth_error x j); [congruence|discriminate].
  Qed.
  Lemma quantized_element q n p x x' m r y : nth_error net n = Some (NFpq q, [p]) -> Forall (value net s p) x -> Forall2 (stored p) x x' -> (exists kd ps, nth_error net p = Some (kd, ps)) ->
    (removed net s n = false -> forall o c a b, nth_error s q = Some o -> In c (data (cfgs o)) -> value net s p a -> stored p a b -> quant o c b = quant o c a) ->
    element s (NFpq q) m [x] r = Ok y ->
    if removed net s n then fw_element net s types adder n (NFpq q) m [x'] r = Ok y else element s (NFpq q) m [x'] r = Ok y.
  Proof.
    intros En VX ST HP TR H. unfold fw_element, element in *. destruct (fetches [x] (r_src r)) as [xs|] eqn:X; [|discriminate]. cbn [rbind] in H.
    destruct xs as [|w [|? ?]]; try discriminate. destruct (nth_error s q) as [o|] eqn:Eo; [|discriminate].
    destruct (nth_error (data (cfgs o)) (r_ch r)) as [c|] eqn:Ec; [|discriminate]. apply demand_ok in H as [B H]. apply andb_true_iff in B as [B1 B2].
    destruct (one_fetch [x] x (r_src r) w eq_refl X B2) as (j & Es & Ej). pose proof (forall2_nth _ _ _ ST j) as NJ. rewrite Ej in NJ. destruct (nth_error x' j) as [w'|] eqn:Ej'; [|contradiction].
    rewrite Es. unfold fetches. cbn [map rseq fetch nth_error]. rewrite Ej'. cbn [rbind rseq]. unfold demand. rewrite B1. cbn [forallb from Nat.eqb andb].
    assert (VW : value net s p w) by (apply (proj1 (Forall_forall _ _) VX); apply (nth_error_In _ _ Ej)). destruct (removed net s n) eqn:RN.
    - pose proof (removed_reader n q p o c w w' RN En Eo (nth_error_In _ _ Ec) HP NJ) as Q. unfold quant in Q. congruence.
    - pose proof (TR eq_refl o c w w' eq_refl (nth_error_In _ _ Ec) VW NJ) as Q. unfold quant in Q. rewrite Q. exact H.
  Qed.

  Lemma carries_step env env' n kd ps ins y : carries env env' -> attainable s net env -> List.length env = n -> nth_error net n = Some (kd, ps) -> (forall m, (m < n)%nat -> exists kd ps, nth_error net m = Some (kd, ps)) ->
    inputs_of env ps = Ok ins -> layer_out s geo feed opaque tables n kd ins = Ok y ->
    exists ins' y', inputs_of env' ps = Ok ins' /\ fw_out net s geo feed opaque types sizes tables adder n kd ins' = Ok y' /\ Forall2 (stored n) y y'.
  Proof.
    intros [L M] A Ln En Below EI EL.
    (* a quantizer reading anything *)
    assert (QR : forall q p, kd = NFpq q -> ps = [p] ->
      (removed net s n = false -> forall o c a b, nth_error s q = Some o -> In c (data (cfgs o)) -> value net s p a -> stored p a b -> quant o c b = quant o c a) ->
      exists ins' y', inputs_of env' ps = Ok ins' /\ fw_out net s geo feed opaque types sizes tables adder n kd ins' = Ok y' /\ Forall2 (stored n) y y').
    { intros q p -> -> TR. unfold inputs_of in EI. cbn [map rseq] in EI. destruct (nth_error env p) as [x|] eqn:Ex; [|discriminate]. cbn [rbind] in EI. assert (ins = [x]) by congruence. subst ins.
      assert (HP : exists kd ps, nth_error net p = Some (kd, ps)) by (apply Below; rewrite <- Ln; apply (proj1 (nth_error_Some env p)); rewrite Ex; discriminate).
      destruct (M p x Ex) as (x' & Ex' & ST). exists [x'].
      assert (EI' : inputs_of env' [p] = Ok [x']) by (unfold inputs_of; cbn; rewrite Ex'; reflexivity).
      cbn [layer_out] in EL. apply rseq_forall2 in EL. cbn [List.length] in EL. pose proof (A p x Ex) as VX. destruct (removed net s n) eqn:RN.
      - exists y. split; [exact EI'|]. split.
        + cbn [fw_out List.length]. apply forall2_rseq.
          assert (Q : forall r w, element s (NFpq q) 1 [x] r = Ok w -> fw_element net s types adder n (NFpq q) 1 [x'] r = Ok w).
          { intros r w E. pose proof (quantized_element q n p x x' 1 r w En VX ST HP ltac:(rewrite RN; discriminate) E) as Q. rewrite RN in Q. exact Q. }
          clear -EL Q. induction EL; constructor; auto.
        + clear -RN. induction y; constructor; [left; auto|assumption].
      - assert (EL' : layer_out s geo feed opaque tables n (NFpq q) [x'] = Ok y).
        { cbn [layer_out List.length]. apply forall2_rseq.
          assert (Q : forall r w, element s (NFpq q) 1 [x] r = Ok w -> element s (NFpq q) 1 [x'] r = Ok w).
          { intros r w E. pose proof (quantized_element q n p x x' 1 r w En VX ST HP ltac:(intros _; exact (TR eq_refl)) E) as Q. rewrite RN in Q. exact Q. }
          clear -EL Q. induction EL; constructor; auto. }
        destruct (fw_layer n (NFpq q) [p] [x'] y En RN I EL') as (y' & Y1 & Y2). exists y'. auto. }
    assert (CL : (exists p, In p ps /\ read_by_quantizers p) \/ (forall p, In p ps -> exact_at p)).
    { apply rseq_forall2 in EI. clear -EI SY AF Below Ln. induction EI as [|p x ps ins E EI IH]; [right; intros p []|].
      destruct (nth_error env p) as [x0|] eqn:Ex; [|discriminate].
      destruct (Below p) as (kd0 & ps0 & Ep); [rewrite <- Ln; apply (proj1 (nth_error_Some env p)); rewrite Ex; discriminate|].
      destruct IH as [(p0 & I0 & Q)|N]; [left; exists p0; split; [right; exact I0|exact Q]|].
      destruct (carried p kd0 ps0 Ep) as [X|X]; [right; intros p0 [->|I0]; auto|left; exists p; split; [left; reflexivity|exact X]]. }
    destruct CL as [(p & Ip & RQ)|EX].
    - destruct (RQ n kd ps En Ip) as (EP & q & EK & TR). apply (QR q p EK EP TR).
    - assert (EI' : inputs_of env' ps = Ok ins).
      { apply (matches_plain env env' ps ins); [|exact EI]. intros p Ip x Ex. destruct (M p x Ex) as (x' & Ex' & ST). rewrite Ex'. f_equal. pose proof (A p x Ex) as VX. specialize (EX p Ip).
        clear -VX ST EX. induction ST as [|a b x x' S ST IH]; [reflexivity|]. inversion VX; subst. f_equal; [apply (EX a b); assumption|apply IH; assumption]. }
      destruct (removed net s n) eqn:RN.
      + destruct (removed_spec net s n RN) as (q & p & o & En' & _). assert (kd = NFpq q /\ ps = [p]) as [EK EP] by (split; congruence). apply (QR q p EK EP). congruence.
      + destruct (fw_layer n kd ps ins y En RN) as (y' & Y1 & Y2); [destruct kd; try exact I; apply (inputs_value _ _ _ _ _ A EI)|exact EL|]. exists ins, y'. auto.
  Qed.

  Lemma fw_run_gen : forall rest pre env env' out, net = (pre ++ rest)%list -> List.length env = List.length pre -> carries env env' -> attainable s net env ->
    run s geo feed opaque tables rest env = Ok out ->
    exists out', fw_run net s geo feed opaque types sizes tables adder rest env' = Ok out' /\ carries out out' /\ attainable s net out.
  Proof.
    induction rest as [|[kd ps] rest IH]; intros pre env env' out EN L M A H; cbn in H.
    - assert (out = env) by congruence. subst out. exists env'. split; [reflexivity|]. split; assumption.
    - destruct (inputs_of env ps) as [ins|] eqn:EI; [|discriminate]. cbn [rbind] in H.
      destruct (layer_out s geo feed opaque tables (List.length env) kd ins) as [y|] eqn:EL; [|discriminate]. cbn [rbind] in H.
      assert (En : nth_error net (List.length env) = Some (kd, ps)) by (rewrite EN, L, nth_error_app2, Nat.sub_diag by lia; reflexivity).
      assert (A2 : attainable s net (env ++ [y])%list).
      { intros n x E. rewrite nth_snoc in E. destruct (Nat.eqb_spec n (List.length env)) as [->|]; [|apply (A n x E)]. assert (x = y) by congruence. subst x.
        apply (layer_value_t s geo feed opaque tables net hon lut_entries _ _ _ _ _ En (inputs_value _ _ _ _ _ A EI) EL). }
      destruct (carries_step env env' (List.length env) kd ps ins y M A eq_refl En) as (ins' & y' & I' & O' & Y'); [|exact EI|exact EL|].
      { intros m Lm. destruct (nth_error net m) as [[kd0 ps0]|] eqn:E; [eauto|]. apply nth_error_None in E. rewrite EN, app_length in E. lia. }
      destruct (IH (pre ++ [(kd, ps)])%list (env ++ [y])%list (env' ++ [y'])%list out) as (out' & R & MO); [rewrite <- app_assoc; exact EN|rewrite !app_length; cbn; lia| |exact A2|exact H|].
      + destruct M as [L' M]. split; [rewrite !app_length; cbn; lia|]. intros n x E. rewrite nth_snoc in E. rewrite nth_snoc, L'. destruct (Nat.eqb_spec n (List.length env)) as [->|N].
        * assert (x = y) by congruence. subst x. exists y'. auto.
        * apply (M n x E).
      + exists out'. split; [|exact MO]. cbn [fw_run]. rewrite I'. cbn [rbind]. destruct M as [L' _]. rewrite L', O'. cbn [rbind]. exact R.
  Qed.

  Lemma fw_run_same out : run s geo feed opaque tables net [] = Ok out ->
    exists out', fw_run net s geo feed opaque types sizes tables adder net [] = Ok out' /\ List.length out' = List.length out /\
      forall n, removed net s n = true \/ (exists t ps, nth_error net n = Some (NLut t, ps)) \/ ((forall ps, nth_error net n <> Some (NInput, ps)) /\ demanding_readers (S fuel) net s n) -> nth_error out' n = nth_error out n.
  Proof.
    intros H. destruct (fw_run_gen net [] [] [] out eq_refl eq_refl) as (out' & R & (L & M) & A); [split; [reflexivity|intros [|n] x E; discriminate]|intros [|n] x E; discriminate|exact H|].
    exists out'. split; [exact R|]. split; [exact L|]. intros n HN. destruct (nth_error out n) as [x|] eqn:Ex.
    - destruct (M n x Ex) as (x' & Ex' & ST). rewrite Ex'. f_equal. pose proof (A n x Ex) as VX. clear Ex Ex'.
      assert (EX : exact_at n).
      { intros a b VA SA. destruct SA as [[_ ->]|[[_ ->]|(NL & RN & k & i & f & R0 & V & HR & EB)]]; [reflexivity|reflexivity|]. destruct HN as [?|[(t & ps & X)|(NI & FN & k0 & i0 & f0 & k1 & i1 & f1 & HP & HQ & B1 & B2 & B3)]]; [congruence|destruct (NL _ _ X)|].
        destruct (result_merged _ _ _ _ _ _ _ _ _ _ _ _ HR FN NI HP HQ) as (EM & -> & ->). destruct (produced_sound (S fuel) net s AF n (k0, i0, f0) HP) as [Hk0 Fits0]. cbn [fst snd] in Hk0, Fits0.
        rewrite (merge_exact k0 i0 f0 k1 i1 f1 k i f a Hk0 B1 (Fits0 a VA) B2 B3 EM) in EB. congruence. }
      clear -VX ST EX. induction ST as [|a b x x' S ST IH]; [reflexivity|]. inversion VX; subst. f_equal; [apply (EX a b); assumption|apply IH; assumption].
    - apply nth_error_None. apply nth_error_None in Ex. lia.
  Qed.
End Net.

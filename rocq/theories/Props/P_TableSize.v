(** Table sizes of activations: C73. *)
From Coq Require Import ZArith Qcanon List Bool String Lia.
From Verif Require Import Base.Num Base.NumFacts Base.Tensor Base.Compute Model.FixedPoint Model.Precision Spec.Fixed Spec.Precision Spec.NetEval Spec.Firmware.
From Verif Require Import Proofs.FixedPointP Proofs.PrecisionP Proofs.TableSizeP Props.P_Lut.
Import ListNotations.
Open Scope Z_scope.

(** The activations with a table over a fixed range: tanh [-4, 4), sigmoid
    [-8, 8). *)
Definition ranged (a : activ) (half : Z) : Prop := a = ATanh /\ half = 4 \/ a = ASigmoid /\ half = 8.

(** The points of the registered table of a tanh or sigmoid are the multiples of
    the input's resolution in the range, each once, if the resolution is at most
    half the range. *)
Theorem C73_points : forall fuel net n s offset a func p types size s' r s1 k i f s2 half,
  nth_error net n = Some (NAct a func, [p]) -> layer_config fuel net n s offset = Ok ((types, size), s') ->
  result_kifRS fuel net n s = Ok (r, s1) -> produced fuel net p s1 = Ok ((k, i, f), s2) ->
  ranged a half -> (pow2 (- f) <= qz half)%Qc ->
  exists z, size = Some z /\ 0 < z /\
    (forall j1 j2, 0 <= j1 < z -> 0 <= j2 < z -> table_point half z j1 = table_point half z j2 -> j1 = j2) /\
    (forall x, (exists j, 0 <= j < z /\ table_point half z j = x) <-> on_grid f x /\ (- qz half <= x)%Qc /\ (x < qz half)%Qc).
Proof.
  intros fuel net n s offset a func p types size s' r s1 k i f s2 half En HC HR HP RG HF.
  destruct (config_size _ _ _ _ _ _ _ _ _ _ _ _ _ _ _ _ _ En HC HR HP) as [W ->].
  assert (H : exists h, 0 <= h /\ half = 2 ^ h /\ - h <= f /\ match a with ATanh => qfloor (qz 8 * pow2 f)%Qc | ASigmoid => qfloor (qz 16 * pow2 f)%Qc | _ => 2 ^ (k + i + f) end = 2 ^ (h + 1 + f)).
  { destruct RG as [[-> ->]|[-> ->]].
    - exists 2. split; [lia|]. split; [reflexivity|]. assert (F : - 2 <= f) by (change (qz 4) with (pow2 2) in HF; apply pow2_le_inv in HF; lia). split; [exact F|].
      change 8 with (2 ^ 3). rewrite table_size_pow by lia. apply (f_equal (Z.pow 2)). lia.
    - exists 3. split; [lia|]. split; [reflexivity|]. assert (F : - 3 <= f) by (change (qz 8) with (pow2 3) in HF; apply pow2_le_inv in HF; lia). split; [exact F|].
      change 16 with (2 ^ 4). rewrite table_size_pow by lia. apply (f_equal (Z.pow 2)). lia. }
  destruct H as (h & Hh & -> & Hf & ->). eexists. split; [reflexivity|]. destruct (size_half h f Hf) as (_ & S1 & P). split; [lia|].
  assert (QH : qz (2 ^ h) = pow2 h) by (symmetry; apply pow2_Z; exact Hh). split.
  - intros j1 j2 _ _ E. rewrite !(point h f Hh Hf) in E. apply qz_inj. apply (qmul_inj_r (pow2 (- f))); [apply pow2_nz|].
    set (u := (qz j1 * pow2 (- f))%Qc) in *. set (v := (qz j2 * pow2 (- f))%Qc) in *. replace u with (u - pow2 h + pow2 h)%Qc by ring. rewrite E. ring.
  - intros x. rewrite QH. split.
    + intros (j & J & <-). rewrite (point h f Hh Hf). pose proof (middle h f Hf) as M. pose proof (pow2_pos (- f)) as PF. split; [|split].
      * exists (j - 2 ^ (h + f)). rewrite qz_sub. rewrite <- M. ring.
      * assert (0 <= qz j * pow2 (- f))%Qc; [|qlra]. replace 0%Qc with (qz 0 * pow2 (- f))%Qc by (change (qz 0) with 0%Qc; ring). apply qmul_le_r; [qlra|]. apply qz_le. lia.
      * assert (X : (qz j * pow2 (- f) < qz (2 * 2 ^ (h + f)) * pow2 (- f))%Qc) by (apply qmul_lt_r; [exact PF|]; apply qz_lt; lia).
        rewrite qz_mul in X. replace (qz 2 * qz (2 ^ (h + f)) * pow2 (- f))%Qc with (qz 2 * (qz (2 ^ (h + f)) * pow2 (- f)))%Qc in X by ring. rewrite M in X. set (u := (qz j * pow2 (- f))%Qc) in *. qlra.
    + intros ([m E] & L & U). exists (m + 2 ^ (h + f)). split.
      * assert (EX : (x * pow2 f)%Qc = qz m) by (rewrite E; replace (qz m * pow2 (- f) * pow2 f)%Qc with (qz m * (pow2 (- f) * pow2 f))%Qc by ring; rewrite pow2_opp_l; change (qz 1) with 1%Qc; ring).
        assert (M1 : - 2 ^ (h + f) <= m).
        { apply qz_le. rewrite <- EX, qz_opp, <- pow2_Z by lia. rewrite pow2_add. replace (- (pow2 h * pow2 f))%Qc with (- pow2 h * pow2 f)%Qc by ring. apply qmul_le_r; [|exact L]. pose proof (pow2_pos f). qlra. }
        assert (M2 : m < 2 ^ (h + f)) by (apply qz_lt; rewrite <- EX, <- pow2_Z by lia; rewrite pow2_add; apply qmul_lt_r; [apply pow2_pos|exact U]). lia.
      * rewrite (point h f Hh Hf), qz_add, E. replace ((qz m + qz (2 ^ (h + f))) * pow2 (- f))%Qc with (qz m * pow2 (- f) + qz (2 ^ (h + f)) * pow2 (- f))%Qc by ring. rewrite (middle h f Hf). ring.
Qed.
Print Assumptions C73_points.

(** An input of the derived precision reads the activation at itself if it is in
    the range, else at the nearest end. *)
Theorem C73_reads : forall fuel net n s offset a func p types size s' r s1 k i f s2 half z x,
  nth_error net n = Some (NAct a func, [p]) -> layer_config fuel net n s offset = Ok ((types, size), s') ->
  result_kifRS fuel net n s = Ok (r, s1) -> produced fuel net p s1 = Ok ((k, i, f), s2) ->
  ranged a half -> (pow2 (- f) <= qz half)%Qc -> size = Some z -> fits k i f x ->
  (- qz half <= x -> x < qz half -> tabulated half z x = x)%Qc /\
  (x < - qz half -> tabulated half z x = - qz half)%Qc /\
  (qz half <= x -> tabulated half z x = qz half - pow2 (- f))%Qc.
Proof.
  intros fuel net n s offset a func p types size s' r s1 k i f s2 half z x En HC HR HP RG HF HS [G _].
  destruct (config_size _ _ _ _ _ _ _ _ _ _ _ _ _ _ _ _ _ En HC HR HP) as [W HS']. rewrite HS' in HS. clear HS'.
  assert (H : exists h, 0 <= h /\ half = 2 ^ h /\ - h <= f /\ z = 2 ^ (h + 1 + f)).
  { destruct RG as [[-> ->]|[-> ->]].
    - exists 2. split; [lia|]. split; [reflexivity|]. assert (F : - 2 <= f) by (change (qz 4) with (pow2 2) in HF; apply pow2_le_inv in HF; lia). split; [exact F|].
      change 8 with (2 ^ 3) in HS. rewrite table_size_pow in HS by lia. replace (2 + 1 + f) with (3 + f) by lia. congruence.
    - exists 3. split; [lia|]. split; [reflexivity|]. assert (F : - 3 <= f) by (change (qz 8) with (pow2 3) in HF; apply pow2_le_inv in HF; lia). split; [exact F|].
      change 16 with (2 ^ 4) in HS. rewrite table_size_pow in HS by lia. replace (3 + 1 + f) with (4 + f) by lia. congruence. }
  destruct H as (h & Hh & -> & Hf & ->). assert (QH : qz (2 ^ h) = pow2 h) by (symmetry; apply pow2_Z; exact Hh). rewrite QH.
  split; [|split]; intros; [apply tabulated_exact|apply tabulated_low|apply tabulated_high]; assumption.
Qed.
Print Assumptions C73_reads.

(** So an activation that increases and has values between lo and hi is off by at
    most hi minus its value at the last point above the range, and at most its
    value at the first point minus lo below. *)
Theorem C73_error : forall fuel net n s offset a func p types size s' r s1 k i f s2 half z x lo hi,
  nth_error net n = Some (NAct a func, [p]) -> layer_config fuel net n s offset = Ok ((types, size), s') ->
  result_kifRS fuel net n s = Ok (r, s1) -> produced fuel net p s1 = Ok ((k, i, f), s2) ->
  ranged a half -> (pow2 (- f) <= qz half)%Qc -> size = Some z -> fits k i f x ->
  (forall u v, u <= v -> func u <= func v)%Qc -> (forall u, lo <= func u /\ func u <= hi)%Qc ->
  (func (tabulated half z x) - func x <= func (- qz half) - lo /\ func x - func (tabulated half z x) <= hi - func (qz half - pow2 (- f)))%Qc.
Proof.
  intros fuel net n s offset a func p types size s' r s1 k i f s2 half z x lo hi En HC HR HP RG HF HS FX M B.
  destruct (C73_reads _ _ _ _ _ _ _ _ _ _ _ _ _ _ _ _ _ _ _ x En HC HR HP RG HF HS FX) as (A1 & A2 & A3).
  pose proof (B (- qz half)%Qc) as [B1 _]. pose proof (B (qz half - pow2 (- f))%Qc) as [_ B2]. pose proof (B x) as [B3 B4].
  pose proof (pow2_pos (- f)) as PF.
  destruct (Qclt_le_dec x (- qz half)%Qc) as [L|L]; [rewrite (A2 L)|destruct (Qclt_le_dec x (qz half)) as [U|U]; [rewrite (A1 L U)|rewrite (A3 U)]].
  - assert (Y : (func x <= func (- qz half))%Qc) by (apply M; qlra). split; qlra.
  - split; qlra.
  - assert (Y : (func (qz half - pow2 (- f)) <= func x)%Qc) by (apply M; qlra). split; qlra.
Qed.
Print Assumptions C73_error.

(** Any other activation: as many entries as there are inputs of the derived
    precision. *)
Theorem C73_other : forall fuel net n s offset a func p types size s' r s1 k i f s2,
  nth_error net n = Some (NAct a func, [p]) -> layer_config fuel net n s offset = Ok ((types, size), s') ->
  result_kifRS fuel net n s = Ok (r, s1) -> produced fuel net p s1 = Ok ((k, i, f), s2) ->
  a <> ATanh -> a <> ASigmoid -> k = 0 \/ k = 1 ->
  exists l, NoDup l /\ (forall x, In x l <-> fits k i f x) /\ size = Some (Z.of_nat (List.length l)).
Proof.
  intros fuel net n s offset a func p types size s' r s1 k i f s2 En HC HR HP N1 N2 Hk.
  destruct (config_size _ _ _ _ _ _ _ _ _ _ _ _ _ _ _ _ _ En HC HR HP) as [W ->].
  assert (E : match a with ATanh => qfloor (qz 8 * pow2 f)%Qc | ASigmoid => qfloor (qz 16 * pow2 f)%Qc | _ => 2 ^ (k + i + f) end = 2 ^ (k + i + f)) by (destruct a; congruence). rewrite E. clear E.
  destruct (all_values k i f Hk W) as (l & ND & IN & LE). exists l. split; [exact ND|]. split; [exact IN|]. rewrite LE. reflexivity.
Qed.
Print Assumptions C73_other.

(** *** Examples *)

Definition cut (lo hi x : Qc) : Qc := if qleb x lo then lo else if qleb hi x then hi else x.
Definition tnet (a : activ) : pnet := [(NInput, []); (NFpq 0, [0%nat]); (NAct a (cut (qz (-1)) (qz 1)), [1%nat]); (NFpq 1, [2%nat])].
Definition tst (b i : Z) : pst := [lfpq 1 b i "RND" "SAT"; lfpq 1 2 1 "RND" "SAT"].
Definition tsize (a : activ) (b i : Z) : option Z := match layer_config 4 (tnet a) 2 (tst b i) None with Ok ((_, z), _) => z | Raise => None end.
(** Inputs of 3 integer and 2 fractional bits (sign included). *)
Example C73_points_ex : (tsize ATanh 5 3, tsize ASigmoid 5 3, tsize AFun 5 3, tsize ARelu 5 3) = (Some 32, Some 64, Some 32, Some 32) /\
  produced 4 (tnet ATanh) 1 (tst 5 3) = Ok ((1, 2, 2), tst 5 3) /\
  map (fun j => this (table_point 4 32 j)) [0; 1; 16; 31] = map this [qz (-4); Q2Qc (-15 # 4); qz 0; Q2Qc (15 # 4)].
Proof. split; [vm_compute; reflexivity|]. split; vm_compute; reflexivity. Qed.
Example C73_reads_ex : tsize ATanh 7 5 = Some 32 /\ produced 4 (tnet ATanh) 1 (tst 7 5) = Ok ((1, 4, 2), tst 7 5) /\
  fits 1 4 2 (Q2Qc (-7 # 4)) /\ fits 1 4 2 (qz 9) /\
  map (fun x => this (tabulated 4 32 x)) [Q2Qc (-7 # 4); qz (-9); qz 9] = map this [Q2Qc (-7 # 4); qz (-4); Q2Qc (15 # 4)].
Proof.
  split; [vm_compute; reflexivity|]. split; [vm_compute; reflexivity|].
  assert (F : forall m x, x = (qz m * pow2 (- (2)))%Qc -> -64 <= m < 64 -> fits 1 4 2 x).
  { intros m x -> M. split; [exists m; reflexivity|]. assert (Q1 : (qz (-64) <= qz m)%Qc) by (apply qz_le; lia). assert (Q2 : (qz m < qz 64)%Qc) by (apply qz_lt; lia). pose proof (pow2_pos (- (2))) as P.
    split; [replace (- (qz 1 * pow2 4))%Qc with (qz (-64) * pow2 (- (2)))%Qc by qvm; apply qmul_le_r; [qlra|exact Q1]|replace (pow2 4) with (qz 64 * pow2 (- (2)))%Qc by qvm; apply qmul_lt_r; assumption]. }
  split; [apply (F (-7)); [qvm|lia]|]. split; [apply (F 36); [qvm|lia]|]. vm_compute. reflexivity.
Qed.
Example C73_error_ex : (forall u v, u <= v -> cut (qz (-1)) (qz 1) u <= cut (qz (-1)) (qz 1) v)%Qc /\ (forall u, qz (-1) <= cut (qz (-1)) (qz 1) u /\ cut (qz (-1)) (qz 1) u <= qz 1)%Qc.
Proof.
  assert (Q : (qz (-1) < qz 1)%Qc) by (apply qz_lt; lia).
  split; [intros u v H; unfold cut; destruct (qleb_spec u (qz (-1))), (qleb_spec v (qz (-1))), (qleb_spec (qz 1) u), (qleb_spec (qz 1) v); qlra|].
  intros u. unfold cut. destruct (qleb_spec u (qz (-1))), (qleb_spec (qz 1) u); split; qlra.
Qed.
Example C73_other_ex : exists types s', layer_config 4 (tnet AFun) 2 (tst 3 1) None = Ok ((types, Some 8), s') /\ produced 4 (tnet AFun) 1 (tst 3 1) = Ok ((1, 0, 2), tst 3 1).
Proof. eexists. eexists. split; vm_compute; reflexivity. Qed.

(** Inputs that are multiples of 8: a table of one entry, at -4, is read for the
    input 0; multiples of 16: no entry at all. *)
Theorem C73_coarse_refuted : exists net s1 s2,
  (exists func types, nth_error net 2 = Some (NAct ATanh func, [1%nat]) /\ produced 4 net 1 s1 = Ok ((1, 5, -3), s1) /\
     layer_config 4 net 2 s1 None = Ok ((types, Some 1), s1) /\ fits 1 5 (-3) (qz 0) /\ tabulated 4 1 (qz 0) = qz (-4)) /\
  (exists types, produced 4 net 1 s2 = Ok ((1, 5, -4), s2) /\ layer_config 4 net 2 s2 None = Ok ((types, Some 0), s2)) /\ Forall legal_fpq s1 /\ Forall legal_fpq s2.
Proof.
  exists (tnet ATanh), (tst 3 6), (tst 2 6). split; [|split].
  - eexists. eexists. split; [reflexivity|]. split; [vm_compute; reflexivity|]. split; [vm_compute; reflexivity|]. split; [|qvm].
    split; [exists 0; qvm|]. split; [apply qleb_true; vm_compute; reflexivity|apply qltb_true; vm_compute; reflexivity].
  - eexists. split; vm_compute; reflexivity.
  - split; repeat (apply Forall_cons; [unfold legal_fpq, legal_fmt; cbn; repeat split; try discriminate; auto 10; apply Forall_cons; [cbn; lia|apply Forall_nil]|]); apply Forall_nil.
Qed.
Print Assumptions C73_coarse_refuted.

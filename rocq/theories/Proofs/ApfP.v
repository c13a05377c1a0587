(** Lemmas about type strings. *)
From Coq Require Import ZArith List Bool String Ascii Decimal DecimalString DecimalZ DecimalPos DecimalFacts Lia.
From Verif Require Import Base.Num Model.Apf Spec.Apf.
Import ListNotations.
Open Scope Z_scope.

Lemma all_app P a b : all_chars P (a ++ b) <-> all_chars P a /\ all_chars P b.
Proof. induction a as [|c a IH]; cbn; tauto. Qed.
Lemma app_assoc_s (a b c : string) : ((a ++ b) ++ c = a ++ (b ++ c))%string.
Proof. induction a as [|x a IH]; cbn; [|rewrite IH]; reflexivity. Qed.
Lemma app_nil_s (a : string) : (a ++ "" = a)%string.
Proof. induction a as [|x a IH]; cbn; [|rewrite IH]; reflexivity. Qed.

Ltac codes := unfold blank, digit, suffix_char, word_char, code_of, is_space, is_digit, is_suffix, is_word, Ascii.eqb in *.
Lemma spaceP c : is_space c = true <-> blank c.
Proof. unfold is_space, blank, code_of. rewrite orb_true_iff, !andb_true_iff, !N.leb_le. lia. Qed.
Lemma digitP c : is_digit c = true <-> digit c.
Proof. unfold is_digit, digit, code_of. rewrite andb_true_iff, !N.leb_le. lia. Qed.
Lemma wordP c : is_word c = true <-> word_char c.
Proof. unfold is_word, word_char. rewrite !orb_true_iff, !andb_true_iff, digitP, !N.leb_le, N.eqb_eq. unfold code_of. intuition lia. Qed.
Lemma eqb_code c d : Ascii.eqb c d = true <-> code_of c = code_of d.
Proof.
  rewrite Ascii.eqb_eq. unfold code_of. split; [intros ->; reflexivity|]. intros H. apply N2Z.inj in H.
  rewrite <- (ascii_N_embedding c), <- (ascii_N_embedding d), H. reflexivity.
Qed.
Lemma suffixP c : is_suffix c = true <-> suffix_char c.
Proof.
  unfold is_suffix, suffix_char. rewrite !orb_true_iff, !eqb_code, spaceP, wordP. unfold word_char.
  change (code_of ",") with 44. change (code_of "_") with 95. tauto.
Qed.

Lemma span_spec p s : let '(a, b) := span p s in s = (a ++ b)%string /\ all_chars (fun c => p c = true) a /\ (b = EmptyString \/ exists c b', b = String c b' /\ p c = false).
Proof.
  induction s as [|c s IH]; [cbn; auto|]. cbn [span]. destruct (p c) eqn:E.
  - destruct (span p s) as [a b]. destruct IH as [-> [Ha Hb]]. cbn. auto.
  - cbn. repeat split; auto. right. eauto.
Qed.
Lemma all_weaken (P Q : ascii -> Prop) s : (forall c, P c -> Q c) -> all_chars P s -> all_chars Q s.
Proof. intros H. induction s as [|c s IH]; cbn; firstorder. Qed.

(** Greedy spans read a prefix of the class followed by a character outside it. *)
Lemma span_app p (P : ascii -> Prop) (HP : forall c, p c = true <-> P c) w c r : all_chars P w -> ~ P c -> span p (w ++ String c r) = (w, String c r).
Proof.
  intros Hw Hc. induction w as [|a w IH]; cbn.
  - destruct (p c) eqn:E; [|reflexivity]. apply HP in E. tauto.
  - cbn in Hw. destruct Hw as [Ha Hw]. rewrite (proj2 (HP a) Ha), (IH Hw). reflexivity.
Qed.
Lemma span_first p (P : ascii -> Prop) (HP : forall c, p c = true <-> P c) w s c r : s = String c r -> all_chars P w -> ~ P c -> span p (w ++ s) = (w, s).
Proof. intros ->. apply span_app, HP. Qed.

Lemma lit_app l s : lit l (l ++ s) = Some s.
Proof. induction l as [|a l IH]; cbn; [reflexivity|]. rewrite Ascii.eqb_refl. exact IH. Qed.
Lemma lit_some l s r : lit l s = Some r -> s = (l ++ r)%string.
Proof.
  revert s. induction l as [|a l IH]; intros s; cbn; [congruence|]. destruct s as [|c s]; [discriminate|].
  destruct (Ascii.eqb_spec a c); [|discriminate]. subst. intros H. f_equal. auto.
Qed.

(** Numerals. *)
Lemma digits_app a b acc : digits_acc (a ++ b) acc = digits_acc b (digits_acc a acc).
Proof. revert acc. induction a as [|c a IH]; intros acc; cbn; auto. Qed.
Lemma numeral_digits s z : numeral s z -> all_chars digit s /\ s <> EmptyString /\ digits_acc s 0 = z.
Proof.
  induction 1 as [c H|s z c H IH Hc].
  - split; [cbn; auto|]. split; [discriminate|]. cbn -[Z.mul]. unfold code_of. lia.
  - destruct IH as [A [B C]]. rewrite all_app. split; [cbn; auto|]. split; [destruct s; discriminate|]. rewrite digits_app, C. reflexivity.
Qed.
Lemma snoc_cases (s : string) : s = EmptyString \/ exists s' c, s = (s' ++ String c EmptyString)%string.
Proof.
  induction s as [|a s IH]; [auto|]. right. destruct IH as [->|[s' [c ->]]].
  - exists EmptyString, a. reflexivity.
  - exists (String a s'), c. reflexivity.
Qed.
Lemma numeral_intro s : all_chars digit s -> s <> EmptyString -> numeral s (digits_acc s 0).
Proof.
  remember (String.length s) as n eqn:E. revert s E. induction n as [n IH] using lt_wf_ind. intros s E Hs Hn.
  destruct (snoc_cases s) as [->|[s' [c ->]]]; [congruence|]. rewrite all_app in Hs. cbn in Hs. destruct Hs as [Hs [Hc _]].
  destruct s' as [|d s'].
  - cbn. replace (Z.of_N (N_of_ascii c) - 48) with (code_of c - 48) by reflexivity.
    assert (G : 10 * 0 + (code_of c - 48) = code_of c - 48) by lia. change (numeral (String c "") (10 * 0 + (code_of c - 48))). rewrite G. constructor. exact Hc.
  - rewrite digits_app. cbn [digits_acc]. apply num_snoc; [|exact Hc]. apply (IH (String.length (String d s'))); [|reflexivity|exact Hs|discriminate].
    rewrite E. clear. generalize (String d s'). intros s. induction s as [|x s IH]; cbn; lia.
Qed.

Lemma number_app d z r c r' : numeral d z -> r = String c r' -> ~ digit c -> number (d ++ r) = Some (z, r).
Proof.
  intros H -> Hc. apply numeral_digits in H. destruct H as [A [B C]]. unfold number. rewrite (span_app _ _ digitP d c r' A Hc).
  destruct d; [congruence|]. rewrite C. reflexivity.
Qed.
Lemma number_some s z r : number s = Some (z, r) -> exists d, s = (d ++ r)%string /\ numeral d z.
Proof.
  unfold number. pose proof (span_spec is_digit s) as H. destruct (span is_digit s) as [d r']. destruct H as [-> [A _]].
  intros E. destruct d as [|c d]; [discriminate|]. injection E as <- <-. exists (String c d). split; [reflexivity|].
  apply (numeral_intro (String c d)); [|discriminate]. eapply all_weaken; [|exact A]. intros a. apply digitP.
Qed.

(** The matcher accepts exactly the type strings. *)
Ltac code_no := unfold suffix_char, blank, digit, code_of; cbn; lia.
Lemma match_complete s u b i : type_string s u b i -> apf_match s = Some (u, b, i).
Proof.
  intros (w1 & w2 & w3 & w4 & db & di & n & suf & rest & neg & -> & H1 & H2 & H3 & H4 & Hs & Hd & Hb & Hi & ->).
  unfold apf_match.
  assert (D : forall t, exists c r, (db ++ t)%string = String c r /\ digit c).
  { intros t. destruct (numeral_digits _ _ Hb) as [A [B _]]. destruct db as [|c r]; [congruence|]. cbn in *. exists c, (r ++ t)%string. tauto. }
  assert (D' : forall t, exists c r, (di ++ t)%string = String c r /\ digit c).
  { intros t. destruct (numeral_digits _ _ Hi) as [A [B _]]. destruct di as [|c r]; [congruence|]. cbn in *. exists c, (r ++ t)%string. tauto. }
  assert (S0 : forall w t c r, all_chars blank w -> t = String c r -> ~ blank c -> snd (span is_space (w ++ t)) = t).
  { intros w t c r Hw Et Hc. rewrite (span_first _ _ spaceP w t c r Et Hw Hc). reflexivity. }
  set (T2 := (w3 ++ "," ++ w4 ++ (if neg then "-" else "") ++ di ++ suf ++ ">" ++ rest)%string).
  set (T1 := (w2 ++ db ++ T2)%string).
  assert (E1 : snd (span is_space (w1 ++ (if u then "u" else "") ++ "fixed<" ++ T1)) = ((if u then "u" else "") ++ "fixed<" ++ T1)%string).
  { destruct u; (eapply S0; [exact H1|cbn; reflexivity|code_no]). }
  rewrite E1. clear E1.
  assert (E2 : match lit "u" ((if u then "u" else "") ++ "fixed<" ++ T1)%string with Some r => (true, r) | None => (false, ((if u then "u" else "") ++ "fixed<" ++ T1)%string) end = (u, ("fixed<" ++ T1)%string)).
  { destruct u; reflexivity. }
  rewrite E2, lit_app. clear E2. unfold T1.
  destruct (D T2) as [c [r [Ec Hc]]]. rewrite (S0 w2 _ c r H2 Ec) by (revert Hc; code_no).
  assert (E3 : number (db ++ T2) = Some (b, T2)).
  { unfold T2. destruct w3 as [|c3 w3].
    - eapply number_app; [exact Hb|cbn; reflexivity|code_no].
    - eapply number_app; [exact Hb|cbn; reflexivity|]. cbn in H3. destruct H3 as [H3 _]. revert H3. code_no. }
  rewrite E3. unfold T2 at 1. rewrite (S0 w3 ("," ++ w4 ++ (if neg then "-" else "") ++ di ++ suf ++ ">" ++ rest)%string ","%char _ H3 eq_refl) by code_no. rewrite lit_app.
  destruct (D' (suf ++ ">" ++ rest)%string) as [c' [r' [Ec' Hc']]].
  assert (E4 : snd (span is_space (w4 ++ (if neg then "-" else "") ++ di ++ suf ++ ">" ++ rest)) = ((if neg then "-" else "") ++ di ++ suf ++ ">" ++ rest)%string).
  { destruct neg; [eapply S0; [exact H4|cbn; reflexivity|code_no]|]. cbn [append]. eapply S0; [exact H4|exact Ec'|revert Hc'; code_no]. }
  rewrite E4. clear E4.
  assert (E5 : match lit "-" ((if neg then "-" else "") ++ di ++ suf ++ ">" ++ rest)%string with Some r => (true, r) | None => (false, ((if neg then "-" else "") ++ di ++ suf ++ ">" ++ rest)%string) end = (neg, (di ++ suf ++ ">" ++ rest)%string)).
  { destruct neg; [reflexivity|]. rewrite Ec'. cbn [append lit]. destruct (Ascii.eqb_spec "-" c'); [subst; exfalso; revert Hc'; code_no|reflexivity]. }
  rewrite E5. clear E5.
  assert (E6 : number (di ++ suf ++ ">" ++ rest) = Some (n, (suf ++ ">" ++ rest)%string)).
  { destruct suf as [|cs suf]; (eapply number_app; [exact Hi|cbn; reflexivity|]); [code_no|exact (Hd _ _ eq_refl)]. }
  rewrite E6. clear E6. rewrite (span_first _ _ suffixP suf (">" ++ rest)%string ">"%char rest eq_refl Hs) by code_no. cbn [snd]. rewrite lit_app. reflexivity.
Qed.

Lemma match_sound s u b i : apf_match s = Some (u, b, i) -> type_string s u b i.
Proof.
  unfold apf_match. pose proof (span_spec is_space s) as P1. destruct (span is_space s) as [w1 s1]. destruct P1 as [-> [W1 _]]. cbn [snd].
  assert (U : exists u' s2, match lit "u" s1 with Some r => (true, r) | None => (false, s1) end = (u', s2) /\ s1 = ((if u' then "u" else "") ++ s2)%string).
  { destruct (lit "u" s1) as [r|] eqn:E; [apply lit_some in E; subst; exists true, r; auto|exists false, s1; auto]. }
  destruct U as [u' [s2 [-> ->]]]. destruct (lit "fixed<" s2) as [s3|] eqn:E; [|discriminate]. apply lit_some in E. subst s2.
  pose proof (span_spec is_space s3) as P2. destruct (span is_space s3) as [w2 s4]. destruct P2 as [-> [W2 _]]. cbn [snd].
  destruct (number s4) as [[b' s5]|] eqn:E; [|discriminate]. apply number_some in E. destruct E as [db [-> Hb]].
  pose proof (span_spec is_space s5) as P3. destruct (span is_space s5) as [w3 s6]. destruct P3 as [-> [W3 _]]. cbn [snd].
  destruct (lit "," s6) as [s7|] eqn:E; [|discriminate]. apply lit_some in E. subst s6.
  pose proof (span_spec is_space s7) as P4. destruct (span is_space s7) as [w4 s8]. destruct P4 as [-> [W4 _]]. cbn [snd].
  assert (U : exists ng s9, match lit "-" s8 with Some r => (true, r) | None => (false, s8) end = (ng, s9) /\ s8 = ((if ng then "-" else "") ++ s9)%string).
  { destruct (lit "-" s8) as [r|] eqn:E; [apply lit_some in E; subst; exists true, r; auto|exists false, s8; auto]. }
  destruct U as [ng [s9 [-> ->]]]. unfold number. pose proof (span_spec is_digit s9) as P5. destruct (span is_digit s9) as [di s10]. destruct P5 as [-> [W5 Q5]].
  assert (Hn : di <> EmptyString -> numeral di (digits_acc di 0)).
  { intros N. apply numeral_intro; [|exact N]. eapply all_weaken; [|exact W5]. intros a. apply digitP. }
  destruct di as [|c0 di0] eqn:Edi; [discriminate|]. rewrite <- Edi in *. assert (N : di <> EmptyString) by (rewrite Edi; discriminate). specialize (Hn N). clear Edi c0 di0 N W5.
  pose proof (span_spec is_suffix s10) as P6. destruct (span is_suffix s10) as [suf s11]. destruct P6 as [-> [W6 _]]. cbn [snd].
  destruct (lit ">" s11) as [rest|] eqn:E; [|discriminate]. apply lit_some in E. subst s11.
  intros H. injection H as <- <- <-.
  exists w1, w2, w3, w4, db, di, (digits_acc di 0), suf, rest, ng.
  assert (SP : forall w, all_chars (fun c => is_space c = true) w -> all_chars blank w) by (intros w; apply all_weaken; intros c; apply spaceP).
  split; [repeat rewrite app_assoc_s; reflexivity|]. do 4 (split; [auto|]). split; [|split; [|auto]].
  - eapply all_weaken; [|exact W6]. intros c. apply suffixP.
  - intros c r -> Hc. destruct Q5 as [Q|[c' [b'' [Q Q']]]]; [discriminate|]. cbn in Q. injection Q as <- _. apply digitP in Hc. congruence.
Qed.

(** Printing of integers. *)
Lemma uint_chars u : all_chars digit (NilEmpty.string_of_uint u).
Proof. induction u; cbn; (split; [code_no|assumption]) || exact I. Qed.
Lemma uint_acc u p : digits_acc (NilEmpty.string_of_uint u) (Z.pos p) = Z.pos (Pos.of_uint_acc u p).
Proof.
  revert p. induction u as [|u IH|u IH|u IH|u IH|u IH|u IH|u IH|u IH|u IH|u IH]; intros p; cbn [NilEmpty.string_of_uint digits_acc Pos.of_uint_acc]; [reflexivity|..];
  rewrite <- IH; f_equal; match goal with |- context [Z.of_N (N_of_ascii ?c)] => let v := eval compute in (Z.of_N (N_of_ascii c)) in change (Z.of_N (N_of_ascii c)) with v end; lia.
Qed.
Lemma uint_val u : digits_acc (NilEmpty.string_of_uint u) 0 = Z.of_N (Pos.of_uint u).
Proof.
  induction u as [|u IH|u IH|u IH|u IH|u IH|u IH|u IH|u IH|u IH|u IH]; cbn [NilEmpty.string_of_uint digits_acc Pos.of_uint]; [reflexivity|exact IH|..];
  cbn -[digits_acc]; rewrite uint_acc; reflexivity.
Qed.
Lemma nilzero_numeral u : numeral (NilZero.string_of_uint u) (Z.of_uint u).
Proof.
  assert (G : u <> Nil -> numeral (NilZero.string_of_uint u) (Z.of_uint u)).
  { intros H. unfold Z.of_uint. rewrite <- uint_val. destruct u; try congruence; (apply numeral_intro; [apply uint_chars|discriminate]). }
  destruct u; try (apply G; discriminate). cbn. replace (Z.of_uint Nil) with (code_of "0" - 48) by reflexivity. constructor. code_no.
Qed.
Lemma str_int_spec z : exists d n, str_int z = ((if Z.ltb z 0 then "-" else "") ++ d)%string /\ numeral d n /\ z = (if Z.ltb z 0 then - n else n).
Proof.
  unfold str_int. pose proof (DecimalZ.of_to z) as H. destruct z as [|p|p]; cbn [Z.to_int NilZero.string_of_int] in *.
  - exists "0"%string, 0. split; [reflexivity|]. split; [|reflexivity]. change 0 with (code_of "0" - 48). constructor. code_no.
  - exists (NilZero.string_of_uint (Pos.to_uint p)), (Z.of_uint (Pos.to_uint p)). split; [reflexivity|]. split; [apply nilzero_numeral|]. symmetry. exact H.
  - exists (NilZero.string_of_uint (Pos.to_uint p)), (Z.of_uint (Pos.to_uint p)). split; [reflexivity|]. split; [apply nilzero_numeral|]. symmetry. exact H.
Qed.

Lemma word_suffix s : all_chars word_char s -> all_chars suffix_char s.
Proof. apply all_weaken. intros c. unfold word_char, suffix_char. tauto. Qed.

Lemma print_string kn i f rnd warp kz : (kn = 0 \/ kn = 1) -> all_chars suffix_char rnd -> all_chars suffix_char warp -> (kz = true \/ 0 < i + f + kn) ->
  type_string (tuple_to_apf (kn, i, f) rnd warp kz) (Z.eqb kn 0) (Z.max (i + f + kn) 1) (i + kn).
Proof.
  intros Hk Hr Hw Hz. unfold tuple_to_apf. replace (negb kz && (i + f + kn <=? 0))%bool with false.
  2: { destruct Hz as [->|Hz]; [reflexivity|]. destruct (Z.leb_spec (i + f + kn) 0); [lia|]. destruct kz; reflexivity. }
  destruct (str_int_spec (Z.max (i + f + kn) 1)) as [db [nb [Eb [Nb Vb]]]]. destruct (Z.ltb_spec (Z.max (i + f + kn) 1) 0); [lia|].
  destruct (str_int_spec (i + kn)) as [di [ni [Ei [Ni Vi]]]]. rewrite Eb, Ei. change ("" ++ db)%string with db.
  assert (G : forall suf, all_chars suffix_char suf -> (forall c r, suf = String c r -> ~ digit c) ->
    type_string (((if kn =? 0 then "u" else "") ++ "fixed<" ++ db ++ "," ++ (if i + kn <? 0 then "-" else "") ++ di) ++ suf ++ ">") (kn =? 0) (Z.max (i + f + kn) 1) (i + kn)).
  { intros suf Hs Hd. exists EmptyString, EmptyString, EmptyString, EmptyString, db, di, ni, suf, EmptyString, (i + kn <? 0). rewrite Vb.
    split; [repeat rewrite app_assoc_s; reflexivity|]. do 4 (split; [exact I|]). auto. }
  assert (GC : forall c r t, String "," t = String c r -> ~ digit c) by (intros c r t E; injection E as <- <-; code_no).
  destruct (negb (rnd =? "TRN")%string && (warp =? "WARP")%string)%bool.
  - specialize (G ("," ++ rnd)%string). rewrite (app_assoc_s "," rnd ">") in G. apply G; [|intros c r; apply GC]. cbn. split; [code_no|exact Hr].
  - destruct (negb (warp =? "WARP")%string).
    + specialize (G ("," ++ rnd ++ "," ++ warp)%string). repeat rewrite (app_assoc_s _ _ ">") in G. repeat rewrite (app_assoc_s "," _ _) in *. repeat rewrite app_assoc_s in G. repeat rewrite app_assoc_s.
      apply G; [|intros c r; apply GC]. cbn. split; [code_no|]. rewrite all_app. split; [exact Hr|]. cbn. split; [code_no|exact Hw].
    + apply (G ""%string); [exact I|discriminate].
Qed.

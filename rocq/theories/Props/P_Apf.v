(** Type strings (utils/utils.py): C51. *)
From Coq Require Import ZArith List Bool String Ascii Lia.
From Verif Require Import Base.Num Model.Apf Spec.Apf Proofs.ApfP.
Import ListNotations.
Open Scope Z_scope.
Local Ltac okz := match goal with |- Ok (?a, ?b, ?c) = Ok (?d, ?e, ?g) => assert (a = d) by lia; assert (b = e) by lia; assert (c = g) by lia; congruence end.

(** Formatting and parsing back is the identity on every format with at least
    one bit, whatever the rounding and overflow suffixes. *)
Theorem C51_round_trip : forall kn i f rnd sat keep_zeros,
  kn = 0 \/ kn = 1 -> 1 <= kn + i + f -> all_chars word_char rnd -> all_chars word_char sat ->
  apf_to_tuple (tuple_to_apf (kn, i, f) rnd sat keep_zeros) = Ok (kn, i, f).
Proof.
  intros kn i f rnd sat kz Hk Hp Hr Hs. assert (HQ : 0 < i + f + kn) by lia. unfold apf_to_tuple.
  rewrite (match_complete _ _ _ _ (print_string kn i f rnd sat kz Hk (word_suffix _ Hr) (word_suffix _ Hs) (or_intror HQ))).
  rewrite Z.max_l by lia. destruct Hk as [->| ->]; cbn [Z.eqb Pos.eqb]; okz.
Qed.
Print Assumptions C51_round_trip.
Example C51_round_trip_ex : 1 <= 1 + (-3) + 12 /\ all_chars word_char "RND_CONV" /\ all_chars word_char "SAT" /\
  tuple_to_apf (1, -3, 12) "RND_CONV" "SAT" true = "fixed<10,-2,RND_CONV,SAT>"%string /\ apf_to_tuple "fixed<10,-2,RND_CONV,SAT>" = Ok (1, -3, 12).
Proof. split; [lia|]. repeat split; vm_compute; intuition discriminate. Qed.

(** A format without bits is printed as one bit, so it does not come back. *)
Theorem C51_no_bits_changed : forall kn i f rnd sat,
  kn = 0 \/ kn = 1 -> kn + i + f <= 0 -> all_chars word_char rnd -> all_chars word_char sat ->
  apf_to_tuple (tuple_to_apf (kn, i, f) rnd sat true) = Ok (kn, i, 1 - i - kn) /\ f <> 1 - i - kn.
Proof.
  intros kn i f rnd sat Hk Hp Hr Hs. split; [|lia]. unfold apf_to_tuple.
  rewrite (match_complete _ _ _ _ (print_string kn i f rnd sat true Hk (word_suffix _ Hr) (word_suffix _ Hs) (or_introl eq_refl))).
  rewrite Z.max_r by lia. destruct Hk as [->| ->]; cbn [Z.eqb Pos.eqb]; okz.
Qed.
Print Assumptions C51_no_bits_changed.
Example C51_no_bits_ex : tuple_to_apf (0, 5, -5) "TRN" "WRAP" true = "ufixed<1,5,TRN,WRAP>"%string /\ apf_to_tuple "ufixed<1,5,TRN,WRAP>" = Ok (0, 5, -4).
Proof. split; reflexivity. Qed.

(** With keep_zeros=False such a format is printed as "nuke", which is not a type. *)
Theorem C51_nuke_not_parsed : forall kn i f rnd sat, kn + i + f <= 0 ->
  apf_to_tuple (tuple_to_apf (kn, i, f) rnd sat false) = Raise.
Proof.
  intros kn i f rnd sat H. unfold tuple_to_apf. destruct (Z.leb_spec (i + f + kn) 0); [reflexivity|lia].
Qed.
Print Assumptions C51_nuke_not_parsed.
Example C51_nuke_ex : apf_to_tuple (tuple_to_apf (1, 2, -3) "RND" "SAT" false) = Raise.
Proof. apply C51_nuke_not_parsed. lia. Qed.

(** The parser accepts exactly the strings that start with a type, and reads
    its numbers; everything else is rejected. *)
Theorem C51_parser : forall s,
  match apf_to_tuple s with
  | Ok (kn, i, f) => exists u b, type_string s u b (i + kn) /\ kn = (if u then 0 else 1) /\ f = b - (i + kn)
  | Raise => forall u b i, ~ type_string s u b i
  end.
Proof.
  intros s. unfold apf_to_tuple. destruct (apf_match s) as [[[u b] i]|] eqn:E.
  - exists u, b. replace (i - (if u then 0 else 1) + (if u then 0 else 1)) with i by lia. split; [apply match_sound, E|]. split; [reflexivity|lia].
  - intros u b i H. apply match_complete in H. congruence.
Qed.
Print Assumptions C51_parser.
Theorem C51_parser_reads : forall s u b i, type_string s u b i ->
  apf_to_tuple s = Ok ((if u then 0 else 1), i - (if u then 0 else 1), b - i).
Proof. intros s u b i H. unfold apf_to_tuple. rewrite (match_complete _ _ _ _ H). reflexivity. Qed.
Print Assumptions C51_parser_reads.
Example C51_parser_ex : type_string "  ufixed< 10 , -3,AP_RND>::x" true 10 (-3).
Proof. apply match_sound. reflexivity. Qed.

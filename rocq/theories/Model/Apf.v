(** Model of the type strings of src/HGQ/utils/utils.py (lines 77-101).
    Strings are sequences of ASCII characters. *)
From Coq Require Import ZArith List Bool String Ascii Decimal DecimalString.
From Verif Require Import Base.Num.
Import ListNotations.
Open Scope Z_scope.

(** The regex class \s on ASCII characters. (utils.py:77) *)
Definition is_space (c : ascii) : bool :=
  let n := N_of_ascii c in ((9 <=? n) && (n <=? 13) || (28 <=? n) && (n <=? 32))%N.
(** The regex class \d. (utils.py:77) *)
Definition is_digit (c : ascii) : bool :=
  let n := N_of_ascii c in ((48 <=? n) && (n <=? 57))%N.
(** The regex class \w. (utils.py:77) *)
Definition is_word (c : ascii) : bool :=
  let n := N_of_ascii c in
  (is_digit c || (65 <=? n) && (n <=? 90) || (97 <=? n) && (n <=? 122) || (n =? 95))%N.
(** The regex class [\s,_\w]. (utils.py:77) *)
Definition is_suffix (c : ascii) : bool :=
  (is_space c || Ascii.eqb c ","%char || Ascii.eqb c "_"%char || is_word c)%bool.

(** Greedy c* : the longest prefix in the class, and the rest.  None of the
    repetitions of the regex of line 77 can succeed by giving characters back,
    since what follows each of them starts outside its class (or, for the last
    \d+, is a class containing the digits). *)
Fixpoint span (p : ascii -> bool) (s : string) : string * string :=
  match s with
  | EmptyString => (EmptyString, EmptyString)
  | String c s' => if p c then let '(a, b) := span p s' in (String c a, b) else (EmptyString, s)
  end.

(** A literal of the regex. (utils.py:77) *)
Fixpoint lit (l s : string) : option string :=
  match l, s with
  | EmptyString, _ => Some s
  | String a l', String c s' => if Ascii.eqb a c then lit l' s' else None
  | _, EmptyString => None
  end.

(** int(...) of a string of digits. (utils.py:85) *)
Fixpoint digits_acc (s : string) (acc : Z) : Z :=
  match s with
  | EmptyString => acc
  | String c s' => digits_acc s' (10 * acc + (Z.of_N (N_of_ascii c) - 48))
  end.

(** \d+ (utils.py:77) *)
Definition number (s : string) : option (Z * string) :=
  match span is_digit s with
  | (EmptyString, _) => None
  | (d, r) => Some (digits_acc d 0, r)
  end.

(** utils.py:77, _apf_m.match: whether there is a "u", and the two numbers. *)
Definition apf_match (s : string) : option (bool * Z * Z) :=
  let s := snd (span is_space s) in
  let '(u, s) := match lit "u" s with Some r => (true, r) | None => (false, s) end in
  match lit "fixed<" s with
  | None => None
  | Some s =>
    match number (snd (span is_space s)) with
    | None => None
    | Some (b, s) =>
      match lit "," (snd (span is_space s)) with
      | None => None
      | Some s =>
        let s := snd (span is_space s) in
        let '(neg, s) := match lit "-" s with Some r => (true, r) | None => (false, s) end in
        match number s with
        | None => None
        | Some (i, s) =>
          match lit ">" (snd (span is_suffix s)) with
          | None => None
          | Some _ => Some (u, b, if neg then - i else i)
          end
        end
      end
    end
  end.

(** apf_to_tuple, utils.py:80-89. *)
Definition apf_to_tuple (apf : string) : result (Z * Z * Z) :=
  match apf_match apf with
  | None => Raise
  | Some (u, b, i) =>
    let kn := if (u : bool) then 0 else 1 in
    let f := b - i in
    let i := i - kn in
    Ok (kn, i, f)
  end.

(** An integer in an f-string. (utils.py:98-101) *)
Definition str_int (z : Z) : string := NilZero.string_of_int (Z.to_int z).

(** tuple_to_apf, utils.py:92-101. *)
Definition tuple_to_apf (t : Z * Z * Z) (rnd warp : string) (keep_zeros : bool) : string :=
  let '(kn, i, f) := t in
  if (negb keep_zeros && Z.leb (i + f + kn) 0)%bool then "nuke"%string
  else
    let head := ((if Z.eqb kn 0 then "u" else "") ++ "fixed<" ++ str_int (Z.max (i + f + kn) 1) ++ "," ++ str_int (i + kn))%string in
    if (negb (String.eqb rnd "TRN") && String.eqb warp "WARP")%bool then (head ++ "," ++ rnd ++ ">")%string
    else if negb (String.eqb warp "WARP") then (head ++ "," ++ rnd ++ "," ++ warp ++ ">")%string
    else (head ++ ">")%string.

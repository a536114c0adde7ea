(** JSON texts (RFC 8259) and the values they denote; independent of the model
    of the parser. *)
From Coq Require Import ZArith List Bool.
From Verif Require Import Base Json NumeralProofs Utf8Proofs.
Import ListNotations.
Open Scope Z_scope.

(** * Strings (RFC 8259, section 7) *)
Definition hex_digit (c v : Z) : Prop :=
  48 <= c <= 57 /\ v = c - 48 \/ 97 <= c <= 102 /\ v = c - 97 + 10 \/ 65 <= c <= 70 /\ v = c - 65 + 10.
(** Four hexadecimal digits and their value *)
Definition hex4 (h : text) (x : Z) : Prop :=
  exists a b c d va vb vc vd, h = [a; b; c; d] /\ hex_digit a va /\ hex_digit b vb /\
    hex_digit c vc /\ hex_digit d vd /\ x = va * 4096 + vb * 256 + vc * 16 + vd.
Definition high_surrogate (x : Z) : Prop := 55296 <= x <= 56319.
Definition low_surrogate (x : Z) : Prop := 56320 <= x <= 57343.
(** The code point of a surrogate pair *)
Definition pair_value (hi lo : Z) : Z := 65536 + (hi - 55296) * 1024 + (lo - 56320).
(** The character behind a backslash and the character meant *)
Definition escapes : list (Z * Z) :=
  [(34, 34); (92, 92); (47, 47); (98, 8); (102, 12); (110, 10); (114, 13); (116, 9)].

(** [chars w s]: between quotes, [w] denotes the text [s] (both in UTF-8). *)
Inductive chars : text -> text -> Prop :=
| ch_nil : chars [] []
| ch_plain u w s : scalar_value u -> 32 <= u -> u <> 34 -> u <> 92 -> chars w s ->
    chars (utf8 u ++ w) (utf8 u ++ s)
| ch_escape e c w s : In (e, c) escapes -> chars w s -> chars (92 :: e :: w) (c :: s)
| ch_unicode h x w s : hex4 h x -> ~ high_surrogate x -> ~ low_surrogate x -> chars w s ->
    chars (92 :: 117 :: h ++ w) (utf8 x ++ s)
| ch_pair h1 h2 hi lo w s : hex4 h1 hi -> hex4 h2 lo -> high_surrogate hi -> low_surrogate lo ->
    chars w s -> chars (92 :: 117 :: h1 ++ 92 :: 117 :: h2 ++ w) (utf8 (pair_value hi lo) ++ s).

(** A relaxed version: bytes that need not be UTF-8 are taken as they are, and a
    high surrogate at the very end counts for nothing. *)
Inductive loose_chars : text -> text -> Prop :=
| lc_nil : loose_chars [] []
| lc_plain c w s : 32 <= c < 256 -> c <> 34 -> c <> 92 -> loose_chars w s -> loose_chars (c :: w) (c :: s)
| lc_escape e c w s : In (e, c) escapes -> loose_chars w s -> loose_chars (92 :: e :: w) (c :: s)
| lc_unicode h x w s : hex4 h x -> ~ high_surrogate x -> ~ low_surrogate x -> loose_chars w s ->
    loose_chars (92 :: 117 :: h ++ w) (utf8 x ++ s)
| lc_pair h1 h2 hi lo w s : hex4 h1 hi -> hex4 h2 lo -> high_surrogate hi -> low_surrogate lo ->
    loose_chars w s -> loose_chars (92 :: 117 :: h1 ++ 92 :: 117 :: h2 ++ w) (utf8 (pair_value hi lo) ++ s)
| lc_lone h x : hex4 h x -> high_surrogate x -> loose_chars (92 :: 117 :: h) [].

(** A C string ends at the first NUL. *)
Fixpoint before_nul (s : text) : text :=
  match s with [] => [] | c :: r => if c =? 0 then [] else c :: before_nul r end.

(** What a string literal gives according to the RFC, and in the relaxed reading *)
Definition rfc_string (w s : text) : Prop := chars w s /\ ~ In 0 s.
Definition loose_string (w s : text) : Prop :=
  exists s0, loose_chars w s0 /\ (In 92 w -> valid_utf8 s0) /\ s = before_nul s0.

(** * Numbers (section 6) *)
Definition digits (w : text) : Prop := w <> [] /\ Forall digit_char w.
Definition minus (w : text) : Prop := w = [] \/ w = [45].
(** 0, or digits not starting with 0 *)
Definition int_part (w : text) : Prop := digits w /\ (hd 0 w = 48 -> w = [48]).
Definition frac_part (w : text) : Prop := exists ds, w = 46 :: ds /\ digits ds.
Definition exp_part (w : text) : Prop :=
  exists e sg ds, (e = 101 \/ e = 69) /\ (sg = [] \/ sg = [43] \/ sg = [45]) /\ w = e :: sg ++ ds /\ digits ds.
(** The number written by an optional minus sign and digits *)
Definition integer_value (m ds : text) : Z :=
  match m with [] => digits_value ds | _ => - digits_value ds end.
Definition int64 (z : Z) : Prop := - 2 ^ 63 <= z < 2 ^ 63.
(** The nearest 64-bit integer *)
Definition saturate (z : Z) : Z :=
  if z <? - 2 ^ 63 then - 2 ^ 63 else if 2 ^ 63 <=? z then 2 ^ 63 - 1 else z.

Section Numbers.
(** Conversion of a decimal literal with a fraction or an exponent *)
Variable strtod : text -> Z.
Inductive rfc_number : text -> json -> Prop :=
| rn_int m ds : minus m -> int_part ds -> int64 (integer_value m ds) ->
    rfc_number (m ++ ds) (JI64 (integer_value m ds))
| rn_double m i f e : minus m -> int_part i -> (f = [] \/ frac_part f) -> (e = [] \/ exp_part e) ->
    f ++ e <> [] -> rfc_number (m ++ i ++ f ++ e) (JDouble (strtod (m ++ i ++ f ++ e))).
(** Relaxed: integers too big are replaced by the nearest one that fits, and a
    number with fraction or exponent may start with superfluous zeros. *)
Inductive loose_number : text -> json -> Prop :=
| ln_int m ds : minus m -> int_part ds -> loose_number (m ++ ds) (JI64 (saturate (integer_value m ds)))
| ln_double m i f e : minus m -> digits i -> (f = [] \/ frac_part f) -> (e = [] \/ exp_part e) ->
    f ++ e <> [] -> loose_number (m ++ i ++ f ++ e) (JDouble (strtod (m ++ i ++ f ++ e))).
End Numbers.

(** * Values (sections 2 to 5) *)
Definition ws (c : Z) : Prop := c = 32 \/ c = 9 \/ c = 10 \/ c = 13.
Definition spaces (w : text) : Prop := Forall ws w.

(** The members of an object read from left to right: of members with the same
    name the last value counts, at the place of the first. *)
Definition with_member (kvs : list (text * json)) (k : text) (v : json) : list (text * json) :=
  if existsb (fun kv => text_eqb k (fst kv)) kvs
  then map (fun kv => if text_eqb k (fst kv) then (fst kv, v) else kv) kvs
  else kvs ++ [(k, v)].

Section Grammar.
(** String literals, number literals, and whether a comma may follow the last
    element or member (it may not, in JSON) *)
Variables (str : text -> text -> Prop) (num : text -> json -> Prop) (trailing_comma : bool).

(** [jvalue n w v]: the text [w] denotes [v], and arrays and objects are nested
    at most [n] deep in it. *)
Inductive jvalue : nat -> text -> json -> Prop :=
| jv_null n : jvalue n [110; 117; 108; 108] JNull
| jv_true n : jvalue n [116; 114; 117; 101] (JBool true)
| jv_false n : jvalue n [102; 97; 108; 115; 101] (JBool false)
| jv_str n w s : str w s -> jvalue n (34 :: w ++ [34]) (JStr s)
| jv_num n w v : num w v -> jvalue n w v
| jv_arr0 n b : spaces b -> jvalue (S n) (91 :: b ++ [93]) (JArr [])
| jv_arr n w l : jelements n w l -> jvalue (S n) (91 :: w ++ [93]) (JArr l)
| jv_arr_comma n w l b : trailing_comma = true -> jelements n w l -> spaces b ->
    jvalue (S n) (91 :: w ++ 44 :: b ++ [93]) (JArr l)
| jv_obj0 n b : spaces b -> jvalue (S n) (123 :: b ++ [125]) (JObj [])
| jv_obj n w kvs : jmembers n w kvs -> jvalue (S n) (123 :: w ++ [125]) (JObj kvs)
| jv_obj_comma n w kvs b : trailing_comma = true -> jmembers n w kvs -> spaces b ->
    jvalue (S n) (123 :: w ++ 44 :: b ++ [125]) (JObj kvs)
with jelements : nat -> text -> list json -> Prop :=
| je_one n a w b v : spaces a -> jvalue n w v -> spaces b -> jelements n (a ++ w ++ b) [v]
| je_more n w0 l a w b v : jelements n w0 l -> spaces a -> jvalue n w v -> spaces b ->
    jelements n (w0 ++ 44 :: a ++ w ++ b) (l ++ [v])
with jmembers : nat -> text -> list (text * json) -> Prop :=
| jm_one n w k v : jmember n w k v -> jmembers n w [(k, v)]
| jm_more n w0 kvs w k v : jmembers n w0 kvs -> jmember n w k v ->
    jmembers n (w0 ++ 44 :: w) (with_member kvs k v)
with jmember : nat -> text -> text -> json -> Prop :=
| jm n a k s b c w d v : spaces a -> str k s -> spaces b -> spaces c -> jvalue n w v -> spaces d ->
    jmember n (a ++ (34 :: k ++ [34]) ++ b ++ 58 :: c ++ w ++ d) s v.

Definition json_text (n : nat) (t : text) (v : json) : Prop :=
  exists a w b, spaces a /\ jvalue n w v /\ spaces b /\ t = a ++ w ++ b.
End Grammar.

(** RFC 8259: [t] is a JSON text denoting [v], nested at most [n] deep, with
    integers that fit 64 bits and strings without U+0000. *)
Definition rfc_json (strtod : text -> Z) (n : nat) (t : text) (v : json) : Prop :=
  json_text rfc_string (rfc_number strtod) false n t v.
(** The relaxed language *)
Definition loose_json (strtod : text -> Z) (n : nat) (t : text) (v : json) : Prop :=
  json_text loose_string (loose_number strtod) true n t v.

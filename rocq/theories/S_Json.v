(** JSON texts (RFC 8259) as a grammar, with the two limits of serde_json: the nesting depth, and
    numbers outside the range of [f64] (given by [fo]). *)
From Verif Require Import M_Base M_Utf8 M_Json S_Utf8.

Definition ws (w : bytes) : Prop := Forall (fun c => In c [x20; x0a; x09; x0d]) w.

(** * Strings *)

Definition escapes : list (byte * byte) :=
  [(x22, x22); (x5c, x5c); (x2f, x2f); (x62, x08); (x66, x0c); (x6e, x0a); (x72, x0d); (x74, x09)].

(** Values of hexadecimal digits. *)
Definition hexdig (c : byte) (v : N) : Prop :=
  nth_error (bs "0123456789abcdef") (N.to_nat v) = Some c \/
  nth_error (bs "0123456789ABCDEF") (N.to_nat v) = Some c.

Definition hexquad (t : bytes) (n : N) : Prop :=
  exists a b c d x y z w, t = [a; b; c; d] /\ hexdig a x /\ hexdig b y /\ hexdig c z /\ hexdig d w /\
    n = (x * 4096 + y * 256 + z * 16 + w)%N.

(** [chars str text]: [text] between quotes denotes [str]. *)
Inductive chars : bytes -> bytes -> Prop :=
| chars_nil : chars [] []
| chars_plain : forall c str t, c <> x22 -> c <> x5c -> (32 <= Byte.to_N c)%N ->
    chars str t -> chars (c :: str) (c :: t)
| chars_escape : forall e c str t, In (e, c) escapes -> chars str t -> chars (c :: str) (x5c :: e :: t)
| chars_unicode : forall q n str t, hexquad q n -> scalar n -> chars str t ->
    chars (utf8_char n ++ str) (x5c :: x75 :: q ++ t)
| chars_surrogates : forall q1 q2 n m str t, hexquad q1 (0xD800 + n) -> hexquad q2 (0xDC00 + m) ->
    (n < 1024)%N -> (m < 1024)%N -> chars str t ->
    chars (utf8_char (0x10000 + n * 1024 + m) ++ str) (x5c :: x75 :: q1 ++ x5c :: x75 :: q2 ++ t).

(** [string_text escaped str text]: [text] is a string literal with contents [str]. *)
Definition string_text (escaped : bool) (str text : bytes) : Prop :=
  exists t, text = x22 :: t ++ [x22] /\ chars str t /\ utf8 str = true /\ escaped = contains_byte x5c t.

(** * Numbers *)

Definition digit (c : byte) (v : N) : Prop := nth_error (bs "0123456789") (N.to_nat v) = Some c.

(** Non-empty digit strings and their value. *)
Inductive decimal : bytes -> N -> Prop :=
| decimal_one : forall c v, digit c v -> decimal [c] v
| decimal_snoc : forall ds n c v, decimal ds n -> digit c v -> decimal (ds ++ [c]) (10 * n + v).

Definition digits (ds : bytes) : Prop := exists n, decimal ds n.

(** Integer part: no superfluous leading zero. *)
Definition integer (ds : bytes) (n : N) : Prop :=
  decimal ds n /\ (forall t, ds = x30 :: t -> t = []).

Definition fraction (t : bytes) : Prop := exists ds, t = x2e :: ds /\ digits ds.
Definition exponent (t : bytes) : Prop :=
  exists e sign ds, t = e :: sign ++ ds /\ (e = x65 \/ e = x45) /\
    (sign = [] \/ sign = [x2b] \/ sign = [x2d]) /\ digits ds.

Definition u64_max : N := 18446744073709551615.

(** Fraction and exponent, [b] telling whether at least one is there. *)
Definition suffix (b : bool) (t : bytes) : Prop :=
  (b = false /\ t = []) \/
  (b = true /\ exists f e, t = f ++ e /\ (fraction f \/ f = []) /\ (exponent e \/ e = []) /\ t <> []).

(** Numbers other than unsigned 64-bit integers. *)
Definition other_number (fo : bytes -> bool) (t : bytes) : Prop :=
  exists sign ds n b sfx, t = sign ++ ds ++ sfx /\ (sign = [] \/ sign = [x2d]) /\ integer ds n /\
    suffix b sfx /\
    ((b = true \/ (u64_max < n)%N) /\ fo t = true \/
     b = false /\ (n <= u64_max)%N /\ sign = [x2d]).

(** * Values *)

(** [value fo d j t]: [t] (without surrounding whitespace) denotes [j], nested at most [d] deep. *)
Inductive value (fo : bytes -> bool) : nat -> json -> bytes -> Prop :=
| v_null : forall d, value fo d JNull (bs "null")
| v_true : forall d, value fo d (JBool true) (bs "true")
| v_false : forall d, value fo d (JBool false) (bs "false")
| v_pos : forall d n t, integer t n -> (n <= u64_max)%N -> value fo d (JPos n) t
| v_num : forall d t, other_number fo t -> value fo d JNum t
| v_str : forall d e str t, string_text e str t -> value fo d (JStr str) t
| v_arr_empty : forall d w, ws w -> value fo (S d) (JArr []) (x5b :: w ++ [x5d])
| v_arr : forall d l t, elements fo d l t -> value fo (S d) (JArr l) (x5b :: t ++ [x5d])
| v_obj_empty : forall d w, ws w -> value fo (S d) (JObj []) (x7b :: w ++ [x7d])
| v_obj : forall d l t, members fo d l t -> value fo (S d) (JObj l) (x7b :: t ++ [x7d])
(** Non-empty comma separated lists *)
with elements (fo : bytes -> bool) : nat -> list json -> bytes -> Prop :=
| e_last : forall d j w1 t w2, ws w1 -> value fo d j t -> ws w2 -> elements fo d [j] (w1 ++ t ++ w2)
| e_more : forall d j l w1 t w2 t', ws w1 -> value fo d j t -> ws w2 -> elements fo d l t' ->
    elements fo d (j :: l) (w1 ++ t ++ w2 ++ x2c :: t')
with members (fo : bytes -> bool) : nat -> list (bool * bytes * json) -> bytes -> Prop :=
| m_last : forall d e k j w1 tk w2 w3 t w4, ws w1 -> string_text e k tk -> ws w2 -> ws w3 ->
    value fo d j t -> ws w4 -> members fo d [(e, k, j)] (w1 ++ tk ++ w2 ++ x3a :: w3 ++ t ++ w4)
| m_more : forall d e k j l w1 tk w2 w3 t w4 t', ws w1 -> string_text e k tk -> ws w2 -> ws w3 ->
    value fo d j t -> ws w4 -> members fo d l t' ->
    members fo d ((e, k, j) :: l) (w1 ++ tk ++ w2 ++ x3a :: w3 ++ t ++ w4 ++ x2c :: t').

(** A JSON document: nesting below 128. *)
Definition document (fo : bytes -> bool) (j : json) (text : bytes) : Prop :=
  exists w1 t w2, text = w1 ++ t ++ w2 /\ ws w1 /\ value fo 127 j t /\ ws w2.

(** serde_json 1.0.81 ([from_slice], [from_str], [to_vec], [to_string], re-exported by
    pfp/src/json/mod.rs:10) for the documents this program reads and writes.

    The typed deserializers of serde_json are modelled in two steps: parsing to a tree (this file)
    and interpreting the tree (M_Serde). As every failure is the same error InvalidJson, the order in
    which problems are found does not matter. *)
From Verif Require Import M_Base M_Utf8.

(** Values. Object keys keep their order and duplicates; the flag of a key tells whether it was
    written with escape sequences (then serde_json cannot lend it as [&str]). Negative integers and
    floating point numbers are never accepted for any field, so their value is dropped. *)
Inductive json : Type :=
| JNull
| JBool (b : bool)
| JPos (n : N)
| JNum
| JStr (s : bytes)
| JArr (l : list json)
| JObj (l : list (bool * bytes * json)).

(** * Parsing *)

Definition is_ws (c : byte) : bool :=
  Byte.eqb c " "%byte || Byte.eqb c x0a || Byte.eqb c x09 || Byte.eqb c x0d.

(** [parse_whitespace] *)
Fixpoint skip_ws (s : bytes) : bytes :=
  match s with
  | c :: s' => if is_ws c then skip_ws s' else s
  | [] => []
  end.

Definition is_digit (c : byte) : bool := in_range 0x30 0x39 c.

Fixpoint span_digits (s : bytes) : bytes * bytes :=
  match s with
  | c :: s' => if is_digit c then let '(d, r) := span_digits s' in (c :: d, r) else ([], s)
  | [] => ([], [])
  end.

Definition digit_value (c : byte) : N := (Byte.to_N c - 48)%N.
Definition digits_value (ds : bytes) : N := fold_left (fun acc c => (acc * 10 + digit_value c)%N) ds 0%N.

(** Exponent part: optional sign and at least one digit. *)
Definition parse_exponent (s : bytes) : option bytes :=
  let s := match s with
           | c :: s' => if Byte.eqb c "+"%byte || Byte.eqb c "-"%byte then s' else s
           | [] => s
           end in
  match span_digits s with
  | ([], _) => None
  | (_, r) => Some r
  end.

(** End of the fraction and exponent after the integer part; [None] when malformed. The flag tells
    whether there is a fraction or an exponent. *)
Definition parse_fraction (s : bytes) : option (bool * bytes) :=
  let exponent (had : bool) (s : bytes) :=
    match s with
    | c :: s' => if Byte.eqb c "e"%byte || Byte.eqb c "E"%byte
                 then match parse_exponent s' with Some r => Some (true, r) | None => None end
                 else Some (had, s)
    | [] => Some (had, s)
    end in
  match s with
  | c :: s' =>
      if Byte.eqb c "."%byte then
        match span_digits s' with
        | ([], _) => None
        | (_, r) => exponent true r
        end
      else exponent false s
  | [] => exponent false s
  end.

(** Number starting with its sign or first digit. [fo] decides whether a literal that does not fit
    [u64] is in the range of [f64] (serde_json reports an error otherwise). *)
Definition parse_number (fo : bytes -> bool) (s : bytes) : option (json * bytes) :=
  let '(neg, s1) := match s with
                    | c :: s' => if Byte.eqb c "-"%byte then (true, s') else (false, s)
                    | [] => (false, s)
                    end in
  let '(ds, r) := span_digits s1 in
  let leading_zero := match ds with c :: _ :: _ => Byte.eqb c "0"%byte | _ => false end in
  match ds with
  | [] => None
  | _ =>
      if leading_zero then None
      else
        match parse_fraction r with
        | None => None
        | Some (isfloat, r') =>
            let literal := firstn (length s - length r') s in
            let v := digits_value ds in
            if isfloat || (18446744073709551615 <? v)%N then
              if fo literal then Some (JNum, r') else None
            else if neg then Some (JNum, r')
            else Some (JPos v, r')
        end
  end.

(** [decode_hex_val] *)
Definition hex_value (c : byte) : option N :=
  let n := Byte.to_N c in
  if in_range 0x30 0x39 c then Some (n - 48)%N
  else if in_range 0x41 0x46 c then Some (n - 55)%N
  else if in_range 0x61 0x66 c then Some (n - 87)%N
  else None.

Definition hex4 (a b c d : byte) : option N :=
  match hex_value a, hex_value b, hex_value c, hex_value d with
  | Some w, Some x, Some y, Some z => Some (((w * 16 + x) * 16 + y) * 16 + z)%N
  | _, _, _, _ => None
  end.

(** [char::encode_utf8] *)
Definition encode_utf8 (n : N) : bytes :=
  (if n <? 0x80 then [u8 n]
   else if n <? 0x800 then
     [u8 (N.lor 0xC0 (N.shiftr n 6)); u8 (N.lor 0x80 (N.land n 0x3F))]
   else if n <? 0x10000 then
     [u8 (N.lor 0xE0 (N.shiftr n 12)); u8 (N.lor 0x80 (N.land (N.shiftr n 6) 0x3F));
      u8 (N.lor 0x80 (N.land n 0x3F))]
   else
     [u8 (N.lor 0xF0 (N.shiftr n 18)); u8 (N.lor 0x80 (N.land (N.shiftr n 12) 0x3F));
      u8 (N.lor 0x80 (N.land (N.shiftr n 6) 0x3F)); u8 (N.lor 0x80 (N.land n 0x3F))])%N.

(** Single-character escapes of [parse_escape] *)
Definition simple_escape (e : byte) : option byte :=
  if Byte.eqb e """"%byte then Some """"%byte
  else if Byte.eqb e "\"%byte then Some "\"%byte
  else if Byte.eqb e "/"%byte then Some "/"%byte
  else if Byte.eqb e "b"%byte then Some x08
  else if Byte.eqb e "f"%byte then Some x0c
  else if Byte.eqb e "n"%byte then Some x0a
  else if Byte.eqb e "r"%byte then Some x0d
  else if Byte.eqb e "t"%byte then Some x09
  else None.

Definition push (p : bytes) (e : bool) (o : option (bool * bytes * bytes)) : option (bool * bytes * bytes) :=
  match o with
  | Some (esc, str, r) => Some (e || esc, p ++ str, r)
  | None => None
  end.

(** Rest of a string after its opening quote: escape flag, contents, remaining input
    ([parse_str_bytes] and [parse_escape] with validation). *)
Fixpoint parse_chars (s : bytes) : option (bool * bytes * bytes) :=
  match s with
  | [] => None
  | c :: s1 =>
      if Byte.eqb c """"%byte then Some (false, [], s1)
      else if Byte.eqb c "\"%byte then
        match s1 with
        | [] => None
        | e :: s2 =>
            match simple_escape e with
            | Some x => push [x] true (parse_chars s2)
            | None =>
                if Byte.eqb e "u"%byte then
                  match s2 with
                  | h1 :: h2 :: h3 :: h4 :: s6 =>
                      match hex4 h1 h2 h3 h4 with
                      | None => None
                      | Some n =>
                          if (0xDC00 <=? n)%N && (n <=? 0xDFFF)%N then None
                          else if (0xD800 <=? n)%N && (n <=? 0xDBFF)%N then
                            match s6 with
                            | b :: u :: k1 :: k2 :: k3 :: k4 :: s12 =>
                                if Byte.eqb b "\"%byte && Byte.eqb u "u"%byte then
                                  match hex4 k1 k2 k3 k4 with
                                  | None => None
                                  | Some n2 =>
                                      if (0xDC00 <=? n2)%N && (n2 <=? 0xDFFF)%N then
                                        push (encode_utf8 ((n - 0xD800) * 1024 + (n2 - 0xDC00) + 0x10000)%N)
                                             true (parse_chars s12)
                                      else None
                                  end
                                else None
                            | _ => None
                            end
                          else push (encode_utf8 n) true (parse_chars s6)
                      end
                  | _ => None
                  end
                else None
            end
        end
      else if (Byte.to_N c <? 0x20)%N then None
      else push [c] false (parse_chars s1)
  end.

(** String after its opening quote, contents checked to be UTF-8 *)
Definition parse_string (s : bytes) : option (bool * bytes * bytes) :=
  match parse_chars s with
  | Some (esc, str, r) => if utf8 str then Some (esc, str, r) else None
  | None => None
  end.

(** Object members after '{' ([first]) or after a member; the fuel is the length of the input, of
    which every round consumes at least one byte. *)
Fixpoint parse_members (value : bytes -> option (json * bytes)) (fuel : nat) (first : bool) (s : bytes)
  : option (list (bool * bytes * json) * bytes) :=
  match fuel with
  | O => None
  | S fuel =>
      match skip_ws s with
      | [] => None
      | c :: s1 =>
          if Byte.eqb c "}"%byte then Some ([], s1)
          else
            let key_start := if first then Some (c :: s1)
                             else if Byte.eqb c ","%byte then Some (skip_ws s1) else None in
            match key_start with
            | Some (q :: s2) =>
                if Byte.eqb q """"%byte then
                  match parse_string s2 with
                  | None => None
                  | Some (esc, k, r) =>
                      match skip_ws r with
                      | d :: r1 =>
                          if Byte.eqb d ":"%byte then
                            match value r1 with
                            | None => None
                            | Some (v, r2) =>
                                match parse_members value fuel false r2 with
                                | Some (ms, r3) => Some ((esc, k, v) :: ms, r3)
                                | None => None
                                end
                            end
                          else None
                      | [] => None
                      end
                  end
                else None
            | _ => None
            end
      end
  end.

(** Array elements after '[' ([first]) or after an element. *)
Fixpoint parse_elements (value : bytes -> option (json * bytes)) (fuel : nat) (first : bool) (s : bytes)
  : option (list json * bytes) :=
  match fuel with
  | O => None
  | S fuel =>
      match skip_ws s with
      | [] => None
      | c :: s1 =>
          if Byte.eqb c "]"%byte then Some ([], s1)
          else
            let start := if first then Some (c :: s1)
                         else if Byte.eqb c ","%byte then Some s1 else None in
            match start with
            | Some s2 =>
                match value s2 with
                | None => None
                | Some (v, r2) =>
                    match parse_elements value fuel false r2 with
                    | Some (vs, r3) => Some (v :: vs, r3)
                    | None => None
                    end
                end
            | None => None
            end
      end
  end.

(** One value. [depth] is the remaining recursion depth: a container at depth 0 exceeds the limit
    of 128 nested containers. *)
Fixpoint parse_value (fo : bytes -> bool) (depth : nat) (s : bytes) : option (json * bytes) :=
  match skip_ws s with
  | [] => None
  | c :: s1 =>
      if Byte.eqb c "{"%byte then
        match depth with
        | O => None
        | S d => match parse_members (parse_value fo d) (S (length s1)) true s1 with
                 | Some (ms, r) => Some (JObj ms, r)
                 | None => None
                 end
        end
      else if Byte.eqb c "["%byte then
        match depth with
        | O => None
        | S d => match parse_elements (parse_value fo d) (S (length s1)) true s1 with
                 | Some (vs, r) => Some (JArr vs, r)
                 | None => None
                 end
        end
      else if Byte.eqb c """"%byte then
        match parse_string s1 with
        | Some (_, str, r) => Some (JStr str, r)
        | None => None
        end
      else if Byte.eqb c "n"%byte then
        option_map (fun r => (JNull, r)) (strip_prefix (bs "ull") s1)
      else if Byte.eqb c "t"%byte then
        option_map (fun r => (JBool true, r)) (strip_prefix (bs "rue") s1)
      else if Byte.eqb c "f"%byte then
        option_map (fun r => (JBool false, r)) (strip_prefix (bs "alse") s1)
      else parse_number fo (c :: s1)
  end.

(** Whole document ([from_slice]/[from_str]): a value, then only whitespace. *)
Definition parse_json (fo : bytes -> bool) (s : bytes) : option json :=
  match parse_value fo 127 s with
  | Some (v, r) => match skip_ws r with [] => Some v | _ => None end
  | None => None
  end.

(** * Writing (compact formatter) *)

Definition hex_digit (n : N) : byte := if (n <? 10)%N then u8 (48 + n) else u8 (87 + n).

(** [format_escaped_str_contents]: escape of one byte *)
Definition escape_byte (c : byte) : bytes :=
  if Byte.eqb c """"%byte then ["\"%byte; """"%byte]
  else if Byte.eqb c "\"%byte then ["\"%byte; "\"%byte]
  else if Byte.eqb c x08 then ["\"%byte; "b"%byte]
  else if Byte.eqb c x0c then ["\"%byte; "f"%byte]
  else if Byte.eqb c x0a then ["\"%byte; "n"%byte]
  else if Byte.eqb c x0d then ["\"%byte; "r"%byte]
  else if Byte.eqb c x09 then ["\"%byte; "t"%byte]
  else if (Byte.to_N c <? 0x20)%N then
    ["\"%byte; "u"%byte; "0"%byte; "0"%byte; hex_digit (Byte.to_N c / 16); hex_digit (Byte.to_N c mod 16)]
  else [c].

Definition write_string (s : bytes) : bytes := """"%byte :: flat_map escape_byte s ++ [""""%byte].

(** Decimal digits; 20 digits suffice for [u64]. *)
Fixpoint write_digits (fuel : nat) (n : N) (acc : bytes) : bytes :=
  match fuel with
  | O => acc
  | S f => if (n <? 10)%N then u8 (48 + n) :: acc
           else write_digits f (n / 10)%N (u8 (48 + n mod 10) :: acc)
  end.
Definition write_number (n : N) : bytes := write_digits 20 n [].

(** Text of a value. [JNum] is never written by this program. *)
Fixpoint write_json (j : json) : bytes :=
  match j with
  | JNull => bs "null"
  | JBool true => bs "true"
  | JBool false => bs "false"
  | JPos n => write_number n
  | JNum => []
  | JStr s => write_string s
  | JArr l => "["%byte :: join [","%byte] (map write_json l) ++ ["]"%byte]
  | JObj l => "{"%byte :: join [","%byte]
                (map (fun '(_, k, v) => write_string k ++ ":"%byte :: write_json v) l) ++ ["}"%byte]
  end.

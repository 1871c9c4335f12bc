(** Recovery codes described independently of the parser and generator. *)
From Verif Require Import M_Base M_Codec S_Codec.

(** ASCII upper-casing by arithmetic on the code. *)
Definition upcase (c : byte) : byte :=
  if (97 <=? Byte.to_N c)%N && (Byte.to_N c <=? 122)%N then u8 (Byte.to_N c - 32) else c.

(** The characters of a text that carry data, upper-cased. *)
Definition significant (text : bytes) : bytes :=
  filter (fun c => contains_byte c alphabet32) (map upcase text).

(** Printed layout: lines of 24 characters, two halves separated by ':', groups of four separated by
    '-'. *)
Definition layout_half (h : bytes) : bytes := join ["-"%byte] (chunks 4 h).
Definition layout_line (l : bytes) : bytes := join [":"%byte] (map layout_half (chunks 12 l)).
Definition layout (s : bytes) : bytes := join [x0a] (map layout_line (chunks 24 s)).

(** A line is 14 data bytes and the checksum of the data for the virtual byte [v]. *)
Definition line_valid (v : byte) (line : bytes) : Prop :=
  exists block, length block = 14 /\ line = block ++ [pearson_hash block v].

(** Virtual byte of line [i] (from 0): the number [i], for the last line [255 - i], modulo 256. *)
Definition nonfinal_byte (i : nat) : byte := u8 (N.of_nat i).
Definition final_byte (i : nat) : byte := u8 (255 + 256 * N.of_nat i - N.of_nat i).
Definition virtual_byte (total i : nat) : byte :=
  if S i =? total then final_byte i else nonfinal_byte i.

(** All lines of a complete code carry valid checksums. *)
Definition lines_valid (lines : list bytes) : Prop :=
  lines <> [] /\
  forall i line, nth_error lines i = Some line -> line_valid (virtual_byte (length lines) i) line.

(** Complete, correctly checksummed code: [lines] are the lines of the data that [text] spells. *)
Definition code_lines (text : bytes) (lines : list bytes) : Prop :=
  base32_text (concat lines) (significant text) /\ lines_valid lines.

(** Password with its trailing NUL bytes removed. *)
Fixpoint strip_nuls (s : bytes) : bytes :=
  match s with
  | [] => []
  | c :: s' => match strip_nuls s' with
               | [] => if Byte.eqb c x00 then [] else [c]
               | r => c :: r
               end
  end.

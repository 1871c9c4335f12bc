(** UTF-8 by arithmetic on code points. *)
From Verif Require Import M_Base.

Definition utf8_char (c : N) : bytes :=
  (if c <? 0x80 then [u8 c]
   else if c <? 0x800 then [u8 (0xC0 + c / 64); u8 (0x80 + c mod 64)]
   else if c <? 0x10000 then
     [u8 (0xE0 + c / 4096); u8 (0x80 + c / 64 mod 64); u8 (0x80 + c mod 64)]
   else [u8 (0xF0 + c / 262144); u8 (0x80 + c / 4096 mod 64); u8 (0x80 + c / 64 mod 64);
         u8 (0x80 + c mod 64)])%N.

(** Unicode scalar values. *)
Definition scalar (c : N) : Prop := (c < 0xD800 \/ (0xE000 <= c /\ c < 0x110000))%N.

(** UTF-8 text of a sequence of code points. *)
Definition utf8_text (cs : list N) : bytes := flat_map utf8_char cs.

(** Latin-1 bytes as code points. *)
Definition latin1_points (s : bytes) : list N := map Byte.to_N s.

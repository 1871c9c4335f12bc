(** UTF-8 validity as decided by [std::str::from_utf8] (recovery_codes.rs:235, serde_json,
    [fs::read_to_string]): RFC 3629, i.e. no overlong forms, no surrogates, at most U+10FFFF. *)
From Verif Require Import M_Base.

Definition in_range (lo hi : N) (b : byte) : bool :=
  (lo <=? Byte.to_N b)%N && (Byte.to_N b <=? hi)%N.

Definition cont (b : byte) : bool := in_range 0x80 0xbf b.

(** Second byte allowed after a three-byte lead / four-byte lead *)
Definition second3 (a b : byte) : bool :=
  if Byte.eqb a xe0 then in_range 0xa0 0xbf b
  else if Byte.eqb a xed then in_range 0x80 0x9f b
  else in_range 0x80 0xbf b.
Definition second4 (a b : byte) : bool :=
  if Byte.eqb a xf0 then in_range 0x90 0xbf b
  else if Byte.eqb a xf4 then in_range 0x80 0x8f b
  else in_range 0x80 0xbf b.

Fixpoint utf8 (s : bytes) : bool :=
  match s with
  | [] => true
  | a :: s1 =>
      if in_range 0 0x7f a then utf8 s1
      else if in_range 0xc2 0xdf a then
        match s1 with b :: s2 => cont b && utf8 s2 | _ => false end
      else if in_range 0xe0 0xef a then
        match s1 with b :: c :: s3 => second3 a b && cont c && utf8 s3 | _ => false end
      else if in_range 0xf0 0xf4 a then
        match s1 with b :: c :: d :: s4 => second4 a b && cont c && cont d && utf8 s4 | _ => false end
      else false
  end.

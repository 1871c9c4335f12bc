(** The texts of entries and of the storage file, as the documentation of the format has them: one line, no white space, members
    in a fixed order. *)
From stdpp Require Import gmap.
From Verif Require Import M_Base M_Utf8 M_Types M_Json S_Json.

(** How a byte of a string is written: as it is, with a short escape, or with four hexadecimal digits. *)
Definition short_escapes : list (byte * byte) :=
  [(x22, x22); (x5c, x5c); (x62, x08); (x66, x0c); (x6e, x0a); (x72, x0d); (x74, x09)].
Inductive escaped : byte -> bytes -> Prop :=
| escaped_not c : c <> x22 -> c <> x5c -> (32 <= Byte.to_N c)%N -> escaped c [c]
| escaped_short e c : In (e, c) short_escapes -> escaped c [x5c; e]
| escaped_digits c d : (Byte.to_N c < 32)%N -> (forall e, ~ In (e, c) short_escapes) ->
    nth_error (bs "0123456789abcdef") (N.to_nat (Byte.to_N c mod 16)) = Some d ->
    escaped c (bs "\u00" ++ (if (Byte.to_N c <? 16)%N then bs "0" else bs "1") ++ [d]).
Definition quoted (s text : bytes) : Prop := exists ts, Forall2 escaped s ts /\ text = bs """" ++ concat ts ++ bs """".
Definition comma_list (l : list bytes) (text : bytes) : Prop :=
  text = match l with [] => [] | x :: l' => x ++ concat (map (fun y => bs "," ++ y) l') end.
Definition yes_no (b : bool) : bytes := if b then bs "true" else bs "false".
(** Nothing, or [,"label":text] *)
Definition extra (label : bytes) (v : option bytes) (text : bytes) : Prop :=
  match v with None => text = [] | Some s => exists t, quoted s t /\ text = bs "," ++ bs """" ++ label ++ bs """:" ++ t end.

Definition site_text (s : site) (text : bytes) : Prop :=
  exists n a, quoted (site_name s) n /\ extra (bs "alias") (site_alias s) a /\ text = bs "{""site"":" ++ n ++ a ++ bs "}".
Definition notes_part (notes : bytes) : option bytes := match notes with [] => None | _ => Some notes end.
Definition password_text (p : password) (text : bytes) : Prop :=
  match p with
  | Generated g => exists s n r k x, quoted (id_site (gp_id g)) s /\ quoted (id_name (gp_id g)) n /\ quoted (id_revision (gp_id g)) r /\
      integer k (gp_length g) /\ extra (bs "notes") (notes_part (gp_notes g)) x /\
      text = bs "{""type"":""generated2"",""site"":" ++ s ++ bs ",""name"":" ++ n ++ bs ",""revision"":" ++ r ++ bs ",""length"":" ++ k ++
        bs ",""lower"":" ++ yes_no (cs_lower (gp_charset g)) ++ bs ",""upper"":" ++ yes_no (cs_upper (gp_charset g)) ++
        bs ",""number"":" ++ yes_no (cs_digit (gp_charset g)) ++ bs ",""symbol"":" ++ yes_no (cs_symbol (gp_charset g)) ++ x ++ bs "}"
  | Stored d => exists s n r p x, quoted (id_site (sp_id d)) s /\ quoted (id_name (sp_id d)) n /\ quoted (id_revision (sp_id d)) r /\
      quoted (sp_password d) p /\ extra (bs "notes") (notes_part (sp_notes d)) x /\
      text = bs "{""type"":""stored"",""site"":" ++ s ++ bs ",""name"":" ++ n ++ bs ",""revision"":" ++ r ++ bs ",""password"":" ++ p ++ x ++ bs "}"
  end.
(** The storage file with these entries *)
Definition file_text (l : list (bytes * bytes)) (text : bytes) : Prop :=
  exists ts body, Forall2 (fun '(k, v) t => exists a b, quoted k a /\ quoted v b /\ t = a ++ bs ":" ++ b) l ts /\ comma_list ts body /\
    text = bs "{""application"":""pfp"",""format"":3,""data"":{" ++ body ++ bs "}}".

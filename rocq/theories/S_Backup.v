(** Vocabulary for restoring passwords from a printed list. *)
From stdpp Require Import gmap.
From Verif Require Import M_Base M_Prims M_Types M_Recovery M_Json S_Recovery M_Storage M_Passwords S_Vault M_History M_Cli S_Cli.

(** What [list -r] prints before the recovery code of a stored password. *)
Definition heading (show : bool) (n r text : bytes) : bytes :=
  bs "    " ++ n ++ bs " (stored" ++ (match r with [] => [] | _ => bs ", revision: " ++ r end) ++ bs ")" ++ [newline] ++
  (if show then bs "        " ++ text ++ [newline] else []) ++
  bs "        Recovery code:" ++ [newline].
Definition as_lines (lines : list bytes) : bytes := flat_map (fun line => line ++ [newline]) lines.
(** Lines typed one after the other as answers to questions. *)
Definition one_by_one (lines : list bytes) : list (option answer) := map (fun line => Some (RESPONSE line)) lines.

(** Whoever enters this text when asked for a recovery code - in any way [spells] allows - stores [text]; with any
    instance of the program, for any site, name and revision, as long as the primary password is [pp]. *)
Definition restores (P : prims) (pp code text : bytes) : Prop :=
  forall E path sp x n r y answers ms more t,
  ready t -> s_primary (t_st t) = Some pp -> y = true \/ seems_new P (t_st t) x n r ->
  spells [] (significant code) answers ms -> t_asks t = answers ++ more ->
  finishes P (SetStored x n r text) (bs "Password added.") (after_questions (t_confirms t) more ms t)
    (process_simple P E path sp (AddStored x n r true y) t).

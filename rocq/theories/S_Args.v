(** What command lines mean: the usual conventions for options, and the table of options and arguments as the
    user is told about them. *)
From Verif Require Import M_Base M_Utf8 M_Types M_Cli S_Json S_Utf8 S_Trim.

(** An option: its letter, its name, whether it needs a value. *)
Record option_entry : Type := mk_entry { e_letter : option byte; e_name : bytes; e_value : bool }.
Definition flag_entry (c : byte) (n : bytes) : option_entry := mk_entry (Some c) n false.
Definition value_entry (c : byte) (n : bytes) : option_entry := mk_entry (Some c) n true.

(** Not an option: does not start with a hyphen, or is a hyphen. *)
Definition no_option (w : bytes) : Prop := forall c r, w <> "-"%byte :: c :: r.

(** * One option, or several letters in one word *)

Section options.
Context (table : list option_entry).

Inductive letters : bytes -> list (bytes * option bytes) -> Prop :=
| letters_nil : letters [] []
| letters_cons c n w l : In (flag_entry c n) table -> letters w l -> letters (c :: w) ((n, None) :: l).

(** Words and the options they stand for. *)
Inductive option_words : list bytes -> list (bytes * option bytes) -> Prop :=
| name_alone x n : In (mk_entry x n false) table -> option_words [bs "--" ++ n] [(n, None)]
| name_equals x n v : In (mk_entry x n true) table -> option_words [bs "--" ++ n ++ bs "=" ++ v] [(n, Some v)]
| name_then x n v : In (mk_entry x n true) table -> no_option v -> option_words [bs "--" ++ n; v] [(n, Some v)]
| letters_alone w l : letters w l -> w <> [] -> option_words [bs "-" ++ w] l
| letters_equals w l c n v : letters w l -> In (value_entry c n) table ->
    option_words [bs "-" ++ w ++ [c] ++ bs "=" ++ v] (l ++ [(n, Some v)])
| letters_attached w l c n x v : letters w l -> In (value_entry c n) table -> x <> "="%byte ->
    option_words [bs "-" ++ w ++ [c] ++ x :: v] (l ++ [(n, Some (x :: v))])
| letters_then w l c n v : letters w l -> In (value_entry c n) table -> no_option v ->
    option_words [bs "-" ++ w ++ [c]; v] (l ++ [(n, Some v)]).

(** Nothing but options. *)
Inductive options_only : list bytes -> list (bytes * option bytes) -> Prop :=
| options_nil : options_only [] []
| options_cons ws l ws' l' : option_words ws l -> options_only ws' l' -> options_only (ws ++ ws') (l ++ l').

(** Options and arguments in any order; everything after [--] is an argument. *)
Inductive arranged : list bytes -> list (bytes * option bytes) -> list bytes -> Prop :=
| arr_nil : arranged [] [] []
| arr_argument w ws l ps : no_option w -> arranged ws l ps -> arranged (w :: ws) l (w :: ps)
| arr_option ws l ws' l' ps : option_words ws l -> arranged ws' l' ps -> arranged (ws ++ ws') (l ++ l') ps
| arr_rest ps : arranged (bs "--" :: ps) [] ps.
End options.

(** * The table *)

Definition general_table : list option_entry :=
  [value_entry "c" (bs "storage"); mk_entry None (bs "stdin-passwords") false; mk_entry None (bs "wait") false].
Definition revision_entry := value_entry "r" (bs "revision").
Definition yes_entry := flag_entry "y" (bs "assume-yes").
Definition tables : list (bytes * list option_entry) :=
  [(bs "set-primary", [yes_entry]);
   (bs "add", [revision_entry; value_entry "l" (bs "length"); flag_entry "w" (bs "no-lower"); flag_entry "u" (bs "no-upper");
               flag_entry "d" (bs "no-digit"); flag_entry "s" (bs "no-symbol"); yes_entry]);
   (bs "add-stored", [revision_entry; flag_entry "c" (bs "recovery"); yes_entry]);
   (bs "remove", [revision_entry]);
   (bs "show", [revision_entry; flag_entry "q" (bs "qrcode")]);
   (bs "notes", [revision_entry; flag_entry "s" (bs "set")]);
   (bs "list", [flag_entry "s" (bs "show"); flag_entry "r" (bs "recovery"); flag_entry "v" (bs "verbose")]);
   (bs "alias", [flag_entry "r" (bs "remove")]);
   (bs "shell", [value_entry "s" (bs "history")])].

(** * What they mean *)

Definition on (l : list (bytes * option bytes)) (name : bytes) (b : bool) : Prop := b = true <-> In name (map fst l).
Definition set_to (l : list (bytes * option bytes)) (name default v : bytes) : Prop :=
  In (name, Some v) l \/ (~ In name (map fst l) /\ v = default).
(** A number from 4 to 24, possibly with a plus sign. *)
Definition a_length (text : bytes) (len : N) : Prop :=
  (decimal text len \/ exists t, text = "+"%byte :: t /\ decimal t len) /\ (4 <= len <= 24)%N.

Inductive means (l : list (bytes * option bytes)) : bytes -> list bytes -> command -> Prop :=
| m_primary y : on l (bs "assume-yes") y -> means l (bs "set-primary") [] (SetPrimary y)
| m_add d n r text len w u g s y :
    set_to l (bs "revision") (bs "1") r -> set_to l (bs "length") (bs "16") text -> a_length text len ->
    on l (bs "no-lower") w -> on l (bs "no-upper") u -> on l (bs "no-digit") g -> on l (bs "no-symbol") s ->
    on l (bs "assume-yes") y -> means l (bs "add") [d; n] (Add d n r len w u g s y)
| m_stored d n r c y : set_to l (bs "revision") (bs "1") r -> on l (bs "recovery") c -> on l (bs "assume-yes") y ->
    means l (bs "add-stored") [d; n] (AddStored d n r c y)
| m_remove d n r : set_to l (bs "revision") (bs "1") r -> means l (bs "remove") [d; n] (RemoveCmd d n r)
| m_show d n r q : set_to l (bs "revision") (bs "1") r -> on l (bs "qrcode") q -> means l (bs "show") [d; n] (Show d n r q)
| m_notes d n r s : set_to l (bs "revision") (bs "1") r -> on l (bs "set") s -> means l (bs "notes") [d; n] (Notes d n r s)
| m_list ps d n s r v : on l (bs "show") s -> on l (bs "recovery") r -> on l (bs "verbose") v ->
    (ps = [] /\ d = bs "*" /\ n = bs "*") \/ (ps = [d] /\ n = bs "*") \/ ps = [d; n] ->
    means l (bs "list") ps (List d n s r v)
| m_alias ps d a r : on l (bs "remove") r -> ps = d :: match a with Some x => [x] | None => [] end ->
    means l (bs "alias") ps (Alias d a r)
| m_shell : means l (bs "shell") [] Shell.

(** The words after the options in front of the subcommand. *)
Definition subcommand (words : list bytes) (c : command) : Prop :=
  exists name table rest l ps, words = name :: rest /\ In (name, table) tables /\ arranged table rest l ps /\
    List.NoDup (map fst l) /\ means l name ps c.

(** The whole command line. *)
Definition command_line (words : list bytes) (storage : option bytes) (stdin wait : bool) (c : command) : Prop :=
  exists ws rest l, words = ws ++ rest /\ options_only general_table ws l /\ List.NoDup (map fst l) /\ subcommand rest c /\
    match storage with Some p => In (bs "storage", Some p) l | None => ~ In (bs "storage") (map fst l) end /\
    on l (bs "stdin-passwords") stdin /\ on l (bs "wait") wait.

(** [exit] and [lock], which the shell knows in addition. *)
Definition bare_command (words : list bytes) (name : bytes) : Prop :=
  exists ws rest l, words = ws ++ name :: rest /\ options_only general_table ws l /\ List.NoDup (map fst l) /\
    (rest = [] \/ rest = [bs "--"]).

(** * One way to write a command *)

Definition write_general (storage : option bytes) (stdin wait : bool) : list bytes :=
  (if stdin then [bs "--stdin-passwords"] else []) ++ (if wait then [bs "--wait"] else []) ++
  match storage with Some p => [bs "--storage=" ++ p] | None => [] end.

Definition write_flag (b : bool) (n : bytes) : list bytes := if b then [bs "--" ++ n] else [].
Definition write_value (n v : bytes) : list bytes := [bs "--" ++ n ++ bs "=" ++ v].
Definition write_command (c : command) (len : bytes) : list bytes :=
  match c with
  | SetPrimary y => bs "set-primary" :: write_flag y (bs "assume-yes")
  | Add d n r _ w u g s y =>
      bs "add" :: write_value (bs "revision") r ++ write_value (bs "length") len ++ write_flag w (bs "no-lower") ++
      write_flag u (bs "no-upper") ++ write_flag g (bs "no-digit") ++ write_flag s (bs "no-symbol") ++
      write_flag y (bs "assume-yes") ++ [bs "--"; d; n]
  | AddStored d n r c y =>
      bs "add-stored" :: write_value (bs "revision") r ++ write_flag c (bs "recovery") ++ write_flag y (bs "assume-yes") ++
      [bs "--"; d; n]
  | RemoveCmd d n r => bs "remove" :: write_value (bs "revision") r ++ [bs "--"; d; n]
  | Show d n r q => bs "show" :: write_value (bs "revision") r ++ write_flag q (bs "qrcode") ++ [bs "--"; d; n]
  | Notes d n r s => bs "notes" :: write_value (bs "revision") r ++ write_flag s (bs "set") ++ [bs "--"; d; n]
  | List d n s r v =>
      bs "list" :: write_flag s (bs "show") ++ write_flag r (bs "recovery") ++ write_flag v (bs "verbose") ++ [bs "--"; d; n]
  | Alias d a r => bs "alias" :: write_flag r (bs "remove") ++ [bs "--"; d] ++ match a with Some x => [x] | None => [] end
  | Shell => [bs "shell"]
  end.

(** * Typing words in the shell *)

(** What may stand in double quotes, and what it stands for. *)
Inductive in_double : bytes -> bytes -> Prop :=
| dbl_nil : in_double [] []
| dbl_char c t w : c <> """"%byte -> c <> "\"%byte -> in_double t w -> in_double (c :: t) (c :: w)
| dbl_escape c t w : In c (bs "$`""\") -> in_double t w -> in_double ("\"%byte :: c :: t) (c :: w)
| dbl_backslash c t w : ~ In c (bs "$`""\") -> c <> "010"%byte -> in_double t w -> in_double ("\"%byte :: c :: t) ("\"%byte :: c :: w).

(** A piece of a word: a character, a text in quotes, a character after a backslash. *)
Inductive piece : bytes -> bytes -> Prop :=
| piece_char c : scalar c -> white c = false -> ~ In c [34; 39; 92]%N -> piece (utf8_char c) (utf8_char c)
| piece_single w : ~ In "'"%byte w -> piece (bs "'" ++ w ++ bs "'") w
| piece_double t w : in_double t w -> piece (bs """" ++ t ++ bs """") w
| piece_escape c : scalar c -> c <> 10%N -> piece (bs "\" ++ utf8_char c) (utf8_char c).
Inductive typed_word : bytes -> bytes -> Prop :=
| word_one t w : piece t w -> typed_word t w
| word_more t w t' w' : piece t w -> typed_word t' w' -> typed_word (t ++ t') (w ++ w').

(** White space and what may follow a word: nothing, or white space. *)
Definition blank (s : bytes) : Prop := exists cs, s = utf8_text cs /\ Forall (fun c => white c = true) cs.
Definition ends (s : bytes) : Prop := s = [] \/ exists c r, white c = true /\ s = utf8_char c ++ r.

Definition at_end (s : bytes) : Prop := s = [] \/ exists r, s = "010"%byte :: r.

(** A line and the words in it. A backslash at the end of a line stands for itself. *)
Inductive typed_line : bytes -> list bytes -> Prop :=
| line_end b : blank b -> typed_line b []
| line_backslash b t w rest ws : blank b -> (t = [] /\ w = []) \/ typed_word t w ->
    at_end rest -> typed_line rest ws ->
    typed_line (b ++ t ++ bs "\" ++ rest) ((w ++ bs "\") :: ws)
| line_word b t w rest ws : blank b -> typed_word t w -> ends rest -> typed_line rest ws -> typed_line (b ++ t ++ rest) (w :: ws).

(** A quote is opened but not closed; in double quotes a line may not end with a backslash. *)
Inductive open_quote : bytes -> Prop :=
| open_single w : ~ In "'"%byte w -> open_quote (bs "'" ++ w)
| open_double t w : in_double t w -> open_quote (bs """" ++ t)
| open_backslash t w r : in_double t w -> at_end r -> open_quote (bs """" ++ t ++ bs "\" ++ r).
Inductive broken_line : bytes -> Prop :=
| broken_here b t w q : blank b -> (t = [] /\ w = []) \/ typed_word t w -> open_quote q -> broken_line (b ++ t ++ q)
| broken_backslash b t w rest : blank b -> (t = [] /\ w = []) \/ typed_word t w -> at_end rest -> broken_line rest ->
    broken_line (b ++ t ++ bs "\" ++ rest)
| broken_later b t w rest : blank b -> typed_word t w -> ends rest -> broken_line rest -> broken_line (b ++ t ++ rest).

(** One way to type any word: in single quotes; a single quote is written after a backslash between two quoted
    texts. *)
Fixpoint quoted_text (w : bytes) : bytes :=
  match w with
  | [] => []
  | c :: r => (if Byte.eqb c "'"%byte then bs "'\''" else [c]) ++ quoted_text r
  end.
Definition quoted (w : bytes) : bytes := bs "'" ++ quoted_text w ++ bs "'".

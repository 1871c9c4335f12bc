(** Vocabulary for statements about the command line program. *)
From Coq Require Import Sorted.
From stdpp Require Import gmap.
From Verif Require Import M_Base M_Utf8 M_Codec M_Prims M_Types M_Json S_Codec S_Recovery M_Recovery M_Storage M_Passwords S_Vault M_History S_Api S_History M_Cli.

(** Arguments are Rust strings; clap has checked the length. *)
Definition command_valid (c : command) : Prop :=
  match c with
  | Add d n r len _ _ _ _ _ =>
      utf8 d = true /\ utf8 n = true /\ utf8 r = true /\ exists arg, length_arg arg = Some len
  | AddStored d n r _ _ | RemoveCmd d n r | Show d n r _ | Notes d n r _ =>
      utf8 d = true /\ utf8 n = true /\ utf8 r = true
  | List d n _ _ _ => utf8 d = true /\ utf8 n = true
  | Alias d a _ => utf8 d = true /\ match a with Some x => utf8 x = true | None => True end
  | SetPrimary _ | Shell => True
  end.
Definition externals_valid (E : externals) : Prop :=
  forall line c, e_parse E line = SCommand c -> command_valid c.
(** rpassword returns strings. *)
Definition typed_valid (t : term) : Prop :=
  Forall (fun o => match o with Some p => utf8 p = true | None => True end) (t_tty t).

(** The calls of the library a command may make. *)
Definition calls (c : command) (o : op) : Prop :=
  match o with
  | Unlock pp => (forall y, c <> SetPrimary y) /\ 6 <= length pp
  | Reset pp => (exists y, c = SetPrimary y) /\ 6 <= length pp
  | Has x n r =>
      (exists len a b d e, c = Add x n r len a b d e false) \/ (exists rc, c = AddStored x n r rc false)
  | SetGenerated x n r len cs =>
      cs <> cs_empty /\ (4 <= len <= 24)%N /\
      exists a b d e y, c = Add x n r len a b d e y /\ cs = mk_charset (negb a) (negb b) (negb d) (negb e)
  | SetStored x n r _ => exists rc y, c = AddStored x n r rc y
  | DecodeCode _ => exists x n r y, c = AddStored x n r true y
  | Remove x n r => c = RemoveCmd x n r
  | Get x n r => (exists q, c = Show x n r q) \/ exists d p rc v, c = List d p true rc v
  | GetNotes x n r => exists s, c = Notes x n r s
  | SetNotes x n r _ => c = Notes x n r true
  | ListSites p => exists n s rc v, c = List p n s rc v
  | ListPasswords _ p => exists d s rc v, c = List d p s rc v
  | RecoveryCode _ _ _ _ => exists d p s v, c = List d p s true v
  | RemoveSites _ => exists d s rc v, c = List d (bs "*") s rc v
  | GetAlias x => c = Alias x None false
  | SetAlias x a => exists r, c = Alias x (Some a) r
  | RemoveAlias x => c = Alias x None true
  | Lock | Restart | Initialized | Unlocked => False
  end.
(** In a shell: those of the commands typed, and [Lock]. *)
Definition refused (c : command) : Prop := match c with Shell | SetPrimary _ => True | _ => False end.
Definition session_calls (E : externals) (c : command) (o : op) : Prop :=
  match c with
  | Shell => o = Lock \/ exists line c', e_parse E line = SCommand c' /\ ~ refused c' /\ calls c' o
  | _ => calls c o
  end.

(** Sequences of whitespace characters. *)
Inductive spaces : bytes -> Prop :=
| spaces_nil : spaces []
| spaces_cons w s : In w whitespace -> spaces s -> spaces (w ++ s).

(** * Entering passwords *)

(** What will be entered at prompts for secrets, one after the other: the lines of the standard input
    (the last one may be empty: the end of the file) or what is typed. [None]: not a text, or an error. *)
Definition entered (sp : bool) (t : term) (es : list (option bytes)) : Prop :=
  if sp then exists ls, ls <> [] /\ Forall (fun l => ~ In newline l) ls /\ t_stdin t = join [newline] ls /\
                        es = map (fun l => if utf8 l then Some l else None) ls
  else es = t_tty t.

(** Candidates for the primary password that are refused, and what is printed then. *)
Inductive rejected (P : prims) (s : st) : bytes -> message -> Prop :=
| too_short c : length (trim c) < 6 ->
    rejected P s c (Text (bs "Primary password length should be at least 6 characters."))
| wrong c e : 6 <= length (trim c) -> fst (exec P (Unlock (trim c)) s) = OErr e -> rejected P s c (Lib e).

(** A secret was asked for with the text [prompt]. *)
Record prompted (prompt : bytes) (sp : bool) (t t' : term) : Prop := {
  pr_st : t_st t' = t_st t;
  pr_stdin : sp = false -> t_stdin t' = t_stdin t;
  pr_tty : sp = true -> t_tty t' = t_tty t;
  pr_confirms : t_confirms t' = t_confirms t;
  pr_asks : t_asks t' = t_asks t;
  pr_lines : t_lines t' = t_lines t;
  pr_shown : t_shown t' = t_shown t ++ (if sp then prompt else []);
  pr_buf : t_buf t' = t_buf t;
  pr_err : t_err t' = t_err t
}.
(** The primary password was asked for [n] times. *)
Record asked (n : nat) (sp : bool) (t t' : term) : Prop := {
  as_stdin : sp = false -> t_stdin t' = t_stdin t;
  as_tty : sp = true -> t_tty t' = t_tty t;
  as_confirms : t_confirms t' = t_confirms t;
  as_asks : t_asks t' = t_asks t;
  as_lines : t_lines t' = t_lines t;
  as_shown : t_shown t' = t_shown t ++ (if sp then concat (repeat (bs "Your primary password: ") n) else []);
  as_buf : t_buf t' = t_buf t
}.
(** The remaining entries; after the end of the standard input only empty ones. *)
Definition remaining (sp : bool) (t : term) (es : list (option bytes)) : Prop :=
  entered sp t es \/ (sp = true /\ es = [] /\ t_stdin t = []).

(** * Commands *)

(** Everything is in place for a command: unlocked, nothing left to be printed. *)
Definition ready (t : term) : Prop := initialized (t_st t) = true /\ unlocked (t_st t) = true /\ t_buf t = [].

(** [text] was printed. *)
Definition show_text (text : bytes) (t : term) : term := with_out (t_shown t ++ text) (t_buf t) t.
(** The question was answered, [l] are the answers to come. *)
Definition answered (l : list answer) (t : term) : term :=
  mk_term (t_st t) (t_stdin t) (t_tty t) l (t_asks t) (t_lines t) (t_shown t) (t_buf t) (t_err t).

(** Make a call; print a line if it is successful. *)
Definition finishes (P : prims) (o : op) (line : bytes) (t : term) (r : cres unit * term) : Prop :=
  let '(x, s) := exec P o (t_st t) in
  match x with
  | ODone => r = (COk tt, show_text (line ++ [newline]) (with_st s t))
  | OErr e => r = (CErr (Lib e), with_st s t)
  | _ => r = (CPanic, with_st s t)
  end.

(** The call that tells whether the password exists says so, or it fails. *)
Definition seems_new (P : prims) (s : st) (x n r : bytes) : Prop :=
  fst (exec P (Has x n r) s) = OBool false \/ exists e, fst (exec P (Has x n r) s) = OErr e.

(** The characters wanted, given the options [--no-lower] etc. *)
Definition wanted (a b d e : bool) : charset := mk_charset (negb a) (negb b) (negb d) (negb e).

(** How notes are shown. *)
Definition notes_text (notes : bytes) : bytes :=
  match notes with
  | [] => bs "Currently no notes are stored for this password." ++ [newline]
  | _ => bs "Notes for this password: " ++ notes ++ [newline]
  end.

(** The question whether an existing file may be overwritten is asked. *)
Definition asks_first (P : prims) (t : term) (assume_yes : bool) : bool :=
  is_ok (load P (s_disk (t_st t))) && negb assume_yes.

(** The end of the process: the passwords are locked, all output appears. *)
Definition ended (t : term) : term := with_out (t_shown t ++ t_buf t) [] (with_st (snd (lock (t_st t))) t).
(** An error message was printed. *)
Definition complained (m : message) (t : term) : term :=
  mk_term (t_st t) (t_stdin t) (t_tty t) (t_confirms t) (t_asks t) (t_lines t) (t_shown t) (t_buf t) (t_err t ++ [m]).
(** The process as it ends with this result of the command. *)
Definition ends (r : cres unit * term) : exit * term :=
  match r with
  | (COk _, t) => (Success, ended t)
  | (CErr m, t) => (Failure, ended (complained m t))
  | (CPanic, t) => (Aborted, t)
  | (CStuck, t) => (Waiting, t)
  end.
(** A new process, with what it finds in the file or nothing. *)
Definition begins (P : prims) (t : term) : term := with_st (snd (exec P Restart (t_st t))) t.

(** What ends a session of the shell. *)
Definition ending (E : externals) (r : readline) : Prop := r = Eof \/ exists line, r = Line line /\ e_parse E line = SExit.

(** * Entering a recovery code *)

(** A text with at least one whole line, the first one having neither the checksum of line number [i] nor
    that of the last line of a code with [S i] lines. *)
Definition bad_line (i : nat) (text : bytes) : Prop :=
  exists l t r, significant text = t ++ r /\ length l = 15 /\ base32_text l t /\
    ~ line_valid (nonfinal_byte i) l /\ ~ line_valid (final_byte i) l.

(** The message after a wrong line: [a] are the characters entered correctly before. *)
Definition wrong_line (a : bytes) : bytes :=
  match a with
  | [] => bs "The data you entered doesn't seem valid, please try again." ++ [newline]
  | _ => bs "The following lines were accepted:" ++ [newline] ++ layout a ++ [newline] ++
         bs "The line after that doesn't seem valid, a typo maybe?" ++ [newline]
  end.
Definition more_needed : bytes :=
  bs "Line accepted. The recovery code is still incomplete, please enter more data." ++ [newline].

(** [spells a s answers messages]: the characters [a] of a code being entered, these answers add the
    remaining characters [s]. The code may be entered in pieces of any size; before each line there may be
    attempts with wrong checksums. *)
Inductive spells : bytes -> bytes -> list (option answer) -> list message -> Prop :=
| spells_rest a text : significant text <> [] -> spells a (significant text) [Some (RESPONSE text)] []
| spells_piece a text s l ms : text <> [] -> s <> [] -> spells (a ++ significant text) s l ms ->
    spells a (significant text ++ s) (Some (RESPONSE text) :: l) (Text more_needed :: ms)
| spells_wrong a s text l ms : length a mod 24 = 0 -> bad_line (length a / 24) text -> spells a s l ms ->
    spells a s (Some (RESPONSE text) :: l) (Text (wrong_line a) :: ms)
| spells_nothing a s x l ms : (forall text, x <> Some (RESPONSE text)) -> spells a s l ms ->
    spells a s (x :: l) ms.

(** All whole lines are right, and none of them is the last one of the code. *)
Definition good_start (a : bytes) : Prop :=
  exists lines, length lines = length a / 24 /\ base32_text (concat lines) (firstn (24 * length lines) a) /\
    forall i l, nth_error lines i = Some l -> line_valid (nonfinal_byte i) l.
(** After each answer some initial part of what was entered so far is kept; as long as more is asked for its
    lines are right. *)
Inductive kept : bytes -> list (option answer) -> bytes -> Prop :=
| kept_last a text b : (exists r, a ++ significant text = b ++ r) -> kept a [Some (RESPONSE text)] b
| kept_text a text b l c : (exists r, a ++ significant text = b ++ r) -> good_start b -> kept b l c ->
    kept a (Some (RESPONSE text) :: l) c
| kept_other a x l c : (forall text, x <> Some (RESPONSE text)) -> kept a l c -> kept a (x :: l) c.

(** Answers to questions were read, messages printed. *)
Definition after_questions (confirms : list answer) (asks : list (option answer)) (ms : list message) (t : term)
  : term :=
  mk_term (t_st t) (t_stdin t) (t_tty t) confirms asks (t_lines t) (t_shown t) (t_buf t) (t_err t ++ ms).

(** What decoding the complete code means for the dialogue. *)
Definition outcome_of (r : res bytes) : cres bytes :=
  match r with Ok v => COk v | Err e => CErr (Lib e) | Panic => CPanic end.
(** Errors that show only when a code is complete. *)
Definition final_error (e : error) : Prop :=
  e = RecoveryCodeWrongVersion \/ e = RecoveryCodeInsufficientData \/ e = DecryptionFailure \/ e = InvalidUtf8.

(** * Listing *)

(** Order of texts: byte by byte. *)
Inductive before : bytes -> bytes -> Prop :=
| before_end y b : before [] (y :: b)
| before_less x y a b : (Byte.to_N x < Byte.to_N y)%N -> before (x :: a) (y :: b)
| before_same x a b : before a b -> before (x :: a) (x :: b).

(** What is shown of a password; the value and the recovery code if they are shown. *)
Record shown : Type := mk_shown { sh_item : pid * entry; sh_value : bytes; sh_code : bytes }.

Definition spaced : bytes := bs "        ".
Definition charset_text (cs : charset) : bytes :=
  join (bs " ") ((if cs_lower cs then [bs "abc"] else []) ++ (if cs_upper cs then [bs "ABC"] else []) ++
                 (if cs_digit cs then [bs "789"] else []) ++ (if cs_symbol cs then [bs "+^;"] else [])).
Definition item_text (show recovery verbose : bool) (it : shown) : bytes :=
  let '((_, n, r), e) := sh_item it in
  bs "    " ++ n ++ (match e_secret e with SGenerated _ _ => bs " (generated" | SFixed _ => bs " (stored" end) ++
  (match r with [] => [] | _ => bs ", revision: " ++ r end) ++ bs ")" ++ [newline] ++
  (if show then spaced ++ sh_value it ++ [newline] else []) ++
  (match recovery, e_secret e with
   | true, SFixed _ =>
       spaced ++ bs "Recovery code:" ++ [newline] ++
       flat_map (fun line => spaced ++ line ++ [newline]) (split_on newline (sh_code it))
   | _, _ => []
   end) ++
  (if verbose then
     (match e_notes e with [] => [] | notes => spaced ++ bs "Notes: " ++ notes ++ [newline] end) ++
     (match e_secret e with
      | SGenerated len cs =>
          spaced ++ bs "Length: " ++ write_number len ++ [newline] ++
          spaced ++ bs "Allowed characters: " ++ charset_text cs ++ [newline]
      | SFixed _ => []
      end)
   else []).
Definition group_text (show recovery verbose : bool) (x : bytes) (aliases : list bytes) (items : list shown) : bytes :=
  bs "Passwords for " ++ x ++ bs ":" ++ [newline] ++
  (match verbose, aliases with
   | true, _ :: _ => bs "    Aliases: " ++ join (bs "," ++ [newline] ++ bs "             ") aliases ++ [newline]
   | _, _ => []
   end) ++
  flat_map (item_text show recovery verbose) items.

(** The sites among [L] and their targets that are not aliases among [L]. *)
Definition listed (L : list (bytes * option bytes)) (x : bytes) : Prop :=
  In (x, None) L \/ ((exists y, In (y, Some x) L) /\ forall a, ~ In (x, Some a) L).

(** Passwords are ordered by this text. *)
Definition order_key (i : pid) : bytes := i.1.2 ++ bs " " ++ i.2.
Definition not_after (a b : shown) : Prop :=
  ~ before (order_key (sh_item b).1) (order_key (sh_item a).1).

(** No control characters, no spaces. *)
Definition printable (s : bytes) : Prop := Forall (fun c => 32 < Byte.to_N c)%N s.
(** First by name, then by revision. *)
Definition by_name (a b : shown) : Prop :=
  let '((_, n, r), _) := sh_item a in let '((_, n', r'), _) := sh_item b in
  before n n' \/ (n = n' /\ ~ before r' r).


(** The value of a password and its recovery code are shown as the library returns them. *)
Definition item_ok (P : prims) (s : st) (show recovery : bool) (x : bytes) (it : shown) : Prop :=
  let '((_, n, r), e) := sh_item it in
  (show = true -> fst (exec P (Get x n r) s) = OText (sh_value it)) /\
  (recovery = true -> forall text, e_secret e = SFixed text -> exists s', same_but_random s s' /\
     fst (exec P (RecoveryCode x n r text) s') = OCode (sh_code it)).

(** What is listed: site, aliases, passwords. *)
Record group : Type := mk_group { gr_site : bytes; gr_aliases : list bytes; gr_items : list shown }.
Record group_ok (P : prims) (s : st) (L : list (bytes * option bytes)) (name : bytes) (show recovery : bool)
  (g : group) : Prop := {
  go_listed : listed L (gr_site g);
  go_aliases : forall y, In y (gr_aliases g) <-> In (y, Some (gr_site g)) L;
  go_aliases_order : StronglySorted before (gr_aliases g);
  go_some : gr_items g <> [];
  go_passwords : exists l, fst (exec P (ListPasswords (gr_site g) name) s) = OPasswords l /\ map sh_item (gr_items g) ≡ₚ l;
  go_order : StronglySorted not_after (gr_items g);
  go_items : Forall (item_ok P s show recovery (gr_site g)) (gr_items g)
}.
Definition list_text (show recovery verbose : bool) (groups : list group) : bytes :=
  match groups with
  | [] => bs "No matching passwords found." ++ [newline]
  | _ => flat_map (fun g => group_text show recovery verbose (gr_site g) (gr_aliases g) (gr_items g)) groups
  end.
(** No passwords match for this site. *)
Definition no_passwords (P : prims) (s : st) (name x : bytes) : Prop :=
  fst (exec P (ListPasswords x name) s) = OPasswords [].
(** Looking up the value or the recovery code of a listed password gives this. *)
Definition lookup_gives (P : prims) (s : st) (show recovery : bool) (o : out) (x : bytes) (it : pid * entry) : Prop :=
  let '((_, n, r), e) := it in
  (show = true /\ fst (exec P (Get x n r) s) = o) \/
  (recovery = true /\ exists text s', e_secret e = SFixed text /\ same_but_random s s' /\ fst (exec P (RecoveryCode x n r text) s') = o).
(** Listing the passwords of some site, or looking up one of them, gives this. *)
Definition list_fault (P : prims) (s : st) (L : list (bytes * option bytes)) (name : bytes) (show recovery : bool) (o : out) : Prop :=
  exists x, listed L x /\
    (fst (exec P (ListPasswords x name) s) = o \/
     exists l it, fst (exec P (ListPasswords x name) s) = OPasswords l /\ In it l /\ lookup_gives P s show recovery o x it).
(** The sites removed after listing: only if all passwords were asked for, those without passwords. *)
Definition unused (P : prims) (s : st) (L : list (bytes * option bytes)) (name : bytes) (sites : list bytes) : Prop :=
  StronglySorted before sites /\
  forall x, In x sites <-> name = bs "*" /\ listed L x /\ no_passwords P s name x.

(** * Listing, given what is stored *)

(** The sites shown for [list domain]: the matching ones and the targets of matching aliases, unless they are aliases
    themselves. *)
Definition shows_site (P : prims) (v : vault) (domain x : bytes) : Prop :=
  (forall a, v_sites v !! x <> Some (Some a)) /\
  ((v_sites v !! x = Some None /\ p_wild P domain x = true) \/
   exists y, v_sites v !! y = Some (Some x) /\ (p_wild P domain x = true \/ p_wild P domain y = true)).
(** The passwords shown there. *)
Definition shows_password (P : prims) (v : vault) (name x : bytes) (i : pid) (e : entry) : Prop :=
  v_pw v !! i = Some e /\ pid_site i = x /\ p_wild P name (pid_name i) = true.
(** What is shown is right and complete. *)
Record shows (P : prims) (pp : bytes) (v : vault) (domain name : bytes) (show recovery : bool) (g : group) : Prop := {
  sh_listed : shows_site P v domain (gr_site g);
  sh_aliases : forall y, In y (gr_aliases g) <->
    v_sites v !! y = Some (Some (gr_site g)) /\ (p_wild P domain (gr_site g) = true \/ p_wild P domain y = true);
  sh_aliases_order : StronglySorted before (gr_aliases g);
  sh_some : gr_items g <> [];
  sh_once : List.NoDup (map (fun it => (sh_item it).1) (gr_items g));
  sh_items : forall i e, (exists it, In it (gr_items g) /\ sh_item it = (i, e)) <-> shows_password P v name (gr_site g) i e;
  sh_order : StronglySorted not_after (gr_items g);
  sh_values : show = true -> forall it, In it (gr_items g) ->
    reveal P pp (sh_item it).1 (e_secret (sh_item it).2) = OText (sh_value it);
  sh_codes : recovery = true -> forall it text, In it (gr_items g) -> e_secret (sh_item it).2 = SFixed text ->
    text <> [] -> (forall r, text <> r ++ [x00]) -> decode P (sh_code it) pp = Ok text;
  sh_layout : recovery = true -> forall it text, In it (gr_items g) -> e_secret (sh_item it).2 = SFixed text ->
    sh_code it = layout (significant (sh_code it))
}.
(** Where a matching alias leads to another alias, the latter matches as well. So it is if all sites match, or if no alias
    leads to an alias. *)
Definition chains_match (P : prims) (v : vault) (domain : bytes) : Prop := forall y x a,
  v_sites v !! y = Some (Some x) -> v_sites v !! x = Some (Some a) ->
  p_wild P domain y = true \/ p_wild P domain x = true -> p_wild P domain x = true \/ p_wild P domain a = true.
(** A site whose passwords are shown when everything is listed: no alias, known or the target of an alias. *)
Definition in_list (v : vault) (x : bytes) : Prop :=
  (forall a, v_sites v !! x <> Some (Some a)) /\ (is_Some (v_sites v !! x) \/ exists y, v_sites v !! y = Some (Some x)).
(** A site shown without passwords: it is removed if all passwords were asked for. *)
Definition leftover (P : prims) (v : vault) (domain name x : bytes) : Prop :=
  name = bs "*" /\ shows_site P v domain x /\ forall i e, ~ shows_password P v name x i e.
(** Showing some password fails. *)
Definition cannot_show (P : prims) (pp : bytes) (v : vault) (domain name : bytes) (show recovery : bool) : Prop :=
  exists x i e, shows_site P v domain x /\ shows_password P v name x i e /\
    ((show = true /\ exists len cs, e_secret e = SGenerated len cs /\
        (len = 0 \/ cs = cs_empty \/ 137438953471 < len)%N) \/
     (recovery = true /\ p_overflow_checks P = true /\ exists text, e_secret e = SFixed text /\ (3539 < N.of_nat (length text))%N)).

(** What listing does, given what is stored: *)
Definition list_goes (P : prims) (sc : scope) (pp : bytes) (v : vault) (domain name : bytes) (show recovery verbose : bool)
  (t : term) (result : cres unit * term) : Prop :=
  let '(r, t') := result in
  (* what is stored for names within the scope stays the same *)
  (forall q x n r, covered sc (Has x n r) -> q = Get x n r \/ q = GetNotes x n r \/ q = Has x n r \/ q = GetAlias x ->
     fst (exec P q (t_st t')) = fst (exec P q (t_st t))) /\
  match r with
  | COk _ => exists groups, Forall (shows P pp v domain name show recovery) groups /\
      StronglySorted before (map gr_site groups) /\
      (forall x i e, shows_site P v domain x -> shows_password P v name x i e -> In x (map gr_site groups)) /\
      t_shown t' = t_shown t ++ list_text show recovery verbose groups /\
      (* the sites without passwords are gone *)
      (forall x, leftover P v domain name x -> is_Some (v_sites v !! x)) /\
      forall pattern, exists L, fst (exec P (ListSites pattern) (t_st t')) = OSites L /\
        forall y a, In (y, a) L <-> v_sites v !! y = Some a /\ ~ leftover P v domain name y /\
          (p_wild P pattern y = true \/ exists t, a = Some t /\ p_wild P pattern t = true)
  | CErr m => (m = Lib KeyMissing /\ exists x, leftover P v domain name x /\ v_sites v !! x = None) \/
      ((m = Lib CreateDirFailure \/ m = Lib FileWriteFailure) /\ exists x, leftover P v domain name x)
  | CPanic => cannot_show P pp v domain name show recovery
  | CStuck => False
  end.

(** * Processes *)

(** Processes one after the other, each with its own arguments and terminal. *)
Fixpoint processes (P : prims) (E : externals) (path : bytes) (l : list (args * term)) (s : st) : st :=
  match l with
  | [] => s
  | (a, t) :: l' => processes P E path l' (t_st (snd (main P E path a (with_st s t))))
  end.
(** Their arguments and what is typed are strings. *)
Definition process_valid (p : args * term) : Prop := command_valid (a_command (fst p)) /\ typed_valid (snd p).

(** Line numbers are of type [usize]. *)
Definition usize_lines (e : error) : Prop :=
  match e with
  | RecoveryCodeExtraData n | RecoveryCodeChecksumMismatch n => (N.of_nat n <= 18446744073709551615)%N
  | _ => True
  end.

(** What is said about a wrong primary password. *)
Definition complaint (c : bytes) : message :=
  if length (trim c) <? 6 then Text (bs "Primary password length should be at least 6 characters.") else Lib DecryptionFailure.

(** A process is opened with primary password [p], after other entries and the messages about them. *)
Record opened_by (P : prims) (p : bytes) (msgs : list message) (sp : bool) (es : list (option bytes)) (t t1 : term) : Prop := {
  ob_ready : ready t1;
  ob_st : t_st t1 = snd (run P [Restart; Unlock p] (t_st t));
  ob_asked : asked (S (length msgs)) sp t t1;
  ob_remaining : remaining sp t1 es;
  ob_err : t_err t1 = t_err t ++ msgs
}.

(** Commands that make one call, and what they print. *)
Inductive one_call : command -> op -> bytes -> Prop :=
| one_add x n r len a b d e : wanted a b d e <> cs_empty ->
    one_call (Add x n r len a b d e true) (SetGenerated x n r len (wanted a b d e)) (bs "Password added.")
| one_remove x n r : one_call (RemoveCmd x n r) (Remove x n r) (bs "Password removed.")
| one_alias x a rm : one_call (Alias x (Some a) rm) (SetAlias x a) (bs "Alias added.")
| one_unalias x : one_call (Alias x None true) (RemoveAlias x) (bs "Alias removed.").

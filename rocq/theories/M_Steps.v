(** The command line program as a text of single actions, cli/src/processor/*.rs and cli/src/main.rs.

    The functions of M_Cli only tell how a terminal looks in the end. Here the same code is written down action by
    action, so that one can talk about what happened up to some moment: the process may be killed, the terminal may be
    closed (all writes to it are followed by [unwrap]), the computer may be switched off.
    P_Steps proves that the actions end as M_Cli says. Not modelled: the same as in M_Cli except for writing that fails. *)
From stdpp Require Import gmap.
From Verif Require Import M_Base M_Utf8 M_Prims M_Types M_Recovery M_Json M_Storage M_Passwords M_Cli.

(** * Programs *)

(** Rust code that returns an [A]. [Fail] is [return Err(..)], [Abort] a panic, [Try] a [match] on the [Result]. The
    other constructors starting with [Call] are actions, explained by [completes]. *)
Inductive prog : Type -> Type :=
| Ret {A : Type} (a : A) : prog A
| Fail {A : Type} (m : message) : prog A
| Abort {A : Type} : prog A
| Bind {A B : Type} (p : prog A) (k : A -> prog B) : prog B
| Loop {A B : Type} (body : A -> prog (A + B)) (a : A) : prog B
| Try {A : Type} (p : prog A) : prog (message + A)
| Call {A : Type} (m : M A) : prog (res A)
| Print (b : bytes) : prog unit
| Flush : prog unit
| Direct (b : bytes) : prog unit
| Complain (m : message) : prog unit
| Confirm : prog answer
| Question : prog (option answer)
| Typed : prog bytes
| Stdin : prog bytes
| Readline : prog readline.
Notation "'do' x '<-' p ';' k" := (Bind p (fun x => k))
  (at level 200, x pattern, p at level 100, k at level 200, right associativity).

(** utils.rs:78-92: reading a line in [prompt_secret_text] *)
Definition stdin_line : C bytes := fun t =>
  let '(line, rest) := read_line (t_stdin t) in
  (if utf8 line then COk line else CPanic,
   mk_term (t_st t) rest (t_tty t) (t_confirms t) (t_asks t) (t_lines t) (t_shown t) (t_buf t) (t_err t)).
(** shell.rs:48 [editor.readline] *)
Definition next_line : C readline := fun t =>
  match t_lines t with
  | [] => (CStuck, t)
  | l :: rest => (COk l, with_lines rest t)
  end.

(** What the process is about to do: call the library (which takes it to state [s]), write to the standard output by
    [print!], [flush] or [write_all], write to stderr, wait for somebody to type something: the answer to a question, a
    secret asked for by rpassword, a line on the standard input, a command. *)
Inductive source : Type := Answers | Secrets | Input | Commands.
Inductive action : Type :=
| Calls (s : st)
| Prints (b : bytes)
| Flushes
| Writes (b : bytes)
| Complains (m : message)
| Waits (from : source).
(** A moment in the life of a process. *)
Record point : Type := mk_point { pt_next : action; pt_term : term }.

(** An action was carried out; it was not one that waits forever. *)
Definition acts {A} (c : C A) (t : term) (r : cres A) (t' : term) : Prop := c t = (r, t') /\ r <> CStuck.

(** Repeating [body] until it returns [inr]. *)
Inductive loop_ends {A B : Type} (E : A -> term -> cres (A + B) -> term -> Prop) : A -> term -> cres B -> term -> Prop :=
| loop_again a t a1 t1 r t' : E a t (COk (inl a1)) t1 -> loop_ends E a1 t1 r t' -> loop_ends E a t r t'
| loop_done a t b t' : E a t (COk (inr b)) t' -> loop_ends E a t (COk b) t'
| loop_fails a t m t' : E a t (CErr m) t' -> loop_ends E a t (CErr m) t'
| loop_aborts a t t' : E a t CPanic t' -> loop_ends E a t CPanic t'.
Inductive loop_during {A B : Type} (E : A -> term -> cres (A + B) -> term -> Prop) (D : A -> term -> point -> Prop)
  : A -> term -> point -> Prop :=
| loop_now a t pt : D a t pt -> loop_during E D a t pt
| loop_later a t a1 t1 pt : E a t (COk (inl a1)) t1 -> loop_during E D a1 t1 pt -> loop_during E D a t pt.

(** [completes p t r t']: started with the terminal [t], the program comes to its end with result [r] and terminal [t']. *)
Fixpoint completes {A : Type} (p : prog A) : term -> cres A -> term -> Prop :=
  match p in prog A return term -> cres A -> term -> Prop with
  | Ret a => fun t r t' => r = COk a /\ t' = t
  | Fail m => fun t r t' => r = CErr m /\ t' = t
  | Abort => fun t r t' => r = CPanic /\ t' = t
  | Bind p k => fun t r t' =>
      (exists a t1, completes p t (COk a) t1 /\ completes (k a) t1 r t') \/
      (exists m, completes p t (CErr m) t' /\ r = CErr m) \/ (completes p t CPanic t' /\ r = CPanic)
  | Loop body a => fun t r t' => loop_ends (fun x => completes (body x)) a t r t'
  | Try p => fun t r t' =>
      (exists a, completes p t (COk a) t' /\ r = COk (inr a)) \/
      (exists m, completes p t (CErr m) t' /\ r = COk (inl m)) \/ (completes p t CPanic t' /\ r = CPanic)
  | Call m => acts (api_res m)
  | Print b => acts (print b)
  | Flush => acts flush_stdout
  | Direct b => acts (write_direct b)
  | Complain m => acts (eprintln m)
  | Confirm => acts confirm
  | Question => acts ask
  | Typed => acts tty_password
  | Stdin => acts stdin_line
  | Readline => acts next_line
  end.

(** [during p t pt]: started with the terminal [t], the program gets to the moment [pt]. *)
Fixpoint during {A : Type} (p : prog A) : term -> point -> Prop :=
  match p with
  | Ret _ | Fail _ | Abort => fun _ _ => False
  | Bind p k => fun t pt => during p t pt \/ exists a t1, completes p t (COk a) t1 /\ during (k a) t1 pt
  | Loop body a => fun t pt => loop_during (fun x => completes (body x)) (fun x => during (body x)) a t pt
  | Try p => fun t pt => during p t pt
  | Call m => fun t pt => pt = mk_point (Calls (snd (m (t_st t)))) t
  | Print b => fun t pt => pt = mk_point (Prints b) t
  | Flush => fun t pt => pt = mk_point Flushes t
  | Direct b => fun t pt => pt = mk_point (Writes b) t
  | Complain m => fun t pt => pt = mk_point (Complains m) t
  | Confirm | Question => fun t pt => pt = mk_point (Waits Answers) t
  | Typed => fun t pt => pt = mk_point (Waits Secrets) t
  | Stdin => fun t pt => pt = mk_point (Waits Input) t
  | Readline => fun t pt => pt = mk_point (Waits Commands) t
  end.

(** * cli/src/processor/utils.rs *)

(** [..convert_error()?] (utils.rs:58-69) *)
Definition lib {A} (m : M A) : prog A :=
  do r <- Call m; match r with Ok a => Ret a | Err e => Fail (Lib e) | Panic => Abort end.
(** [.unwrap_or(d)] *)
Definition lib_or {A} (m : M A) (d : A) : prog A :=
  do r <- Call m; match r with Ok a => Ret a | Err _ => Ret d | Panic => Abort end.
(** [println!] *)
Definition print_line (b : bytes) : prog unit := Print (b ++ [newline]).

(** utils.rs:71-93 [prompt_secret_text] *)
Definition prompt_secret_text_p (prompt : bytes) : prog bytes :=
  do _ <- Direct prompt; Stdin.
(** utils.rs:95-102 [prompt_password] *)
Definition prompt_password_p (prompt : bytes) (stdin_passwords : bool) : prog bytes :=
  do secret <- (if stdin_passwords then prompt_secret_text_p prompt else Typed); Ret (trim secret).

(** passwords.rs [initialized], [unlocked]: reading the state *)
Definition is_initialized : M bool := fun s => (Ok (initialized s), s).
Definition is_unlocked : M bool := fun s => (Ok (unlocked s), s).

(** utils.rs:112-121 *)
Definition unlock_loop_p (P : prims) (stdin_passwords : bool) : prog unit :=
  Loop (fun _ : unit =>
    do open <- lib is_unlocked;
    if open then Ret (inr tt)
    else
      do primary_password <- prompt_password_p (bs "Your primary password: ") stdin_passwords;
      do _ <- (if length primary_password <? 6 then Complain (Text TOO_SHORT)
               else do r <- Call (unlock P primary_password);
                    match r with Err e => Complain (Lib e) | _ => Ret tt end);
      Ret (inl tt)) tt.
(** utils.rs:104-123 [ensure_unlocked_passwords] *)
Definition ensure_unlocked_p (P : prims) (stdin_passwords : bool) : prog unit :=
  do usable <- lib is_initialized;
  if negb usable then Fail (Lib StorageNotInitialized) else unlock_loop_p P stdin_passwords.

(** utils.rs:143, 157: slicing panics if there are not enough lines *)
Definition first_lines_p (formatted : bytes) (line : nat) : prog bytes :=
  match first_lines formatted line with Ok x => Ret x | _ => Abort end.

(** utils.rs:125-177 [prompt_recovery_code] *)
Definition prompt_recovery_code_p (P : prims) : prog bytes :=
  Loop (fun accepted =>
    do a <- Question;
    match a with
    | Some (RESPONSE line) =>
        match line with
        | [] => Fail (Text [])
        | _ =>
            let code := accepted ++ line in
            let formatted := format_code code true in
            do r <- Call (decode_recovery_code P code);
            match r with
            | Ok value => Ret (inr value)
            | Err (RecoveryCodeExtraData n) =>
                do accepted <- first_lines_p formatted n;
                do accept <- Confirm;
                match accept with
                | YES => do value <- lib (decode_recovery_code P accepted); Ret (inr value)
                | _ => Fail (Text [])
                end
            | Err (RecoveryCodeChecksumMismatch n) =>
                do accepted <- first_lines_p formatted n;
                do _ <- Complain (Text (match accepted with [] => NOT_VALID | _ => ACCEPTED accepted end));
                Ret (inl accepted)
            | Err RecoveryCodeIncomplete =>
                do _ <- Complain (Text MORE_DATA);
                Ret (inl formatted)
            | Err e => Fail (Lib e)
            | Panic => Abort
            end
        end
    | _ => Ret (inl accepted)
    end) [].

(** * The commands *)

(** add.rs:48-58, add_stored.rs:28-38 *)
Definition overwrite_p (P : prims) (assume_yes : bool) (domain name revision : bytes) : prog bool :=
  if assume_yes then Ret true
  else
    do exists_ <- lib_or (has P domain name revision) false;
    if exists_ then do allow <- Confirm; Ret (match allow with NO => false | _ => true end)
    else Ret true.

(** add.rs:13-67 *)
Definition add_p (P : prims) (sp : bool) (domain name revision : bytes) (len : N)
  (no_lower no_upper no_digit no_symbol assume_yes : bool) : prog unit :=
  do _ <- ensure_unlocked_p P sp;
  let cs := add_charset no_lower no_upper no_digit no_symbol in
  if cs_is_empty cs then Fail (Text (bs "You need to allow at least one character set."))
  else
    do go <- overwrite_p P assume_yes domain name revision;
    if go then
      do _ <- lib (set_generated P domain name revision len cs);
      print_line (bs "Password added.")
    else Ret tt.

(** add_stored.rs:14-52 *)
Definition add_stored_p (P : prims) (sp : bool) (domain name revision : bytes) (recovery assume_yes : bool)
  : prog unit :=
  do _ <- ensure_unlocked_p P sp;
  do go <- overwrite_p P assume_yes domain name revision;
  if go then
    do password <- (if recovery then prompt_recovery_code_p P
                    else prompt_password_p (bs "Password to be stored: ") sp);
    do _ <- lib (set_stored P domain name revision password);
    print_line (bs "Password added.")
  else Ret tt.

(** alias.rs:12-40 *)
Definition alias_p (P : prims) (sp : bool) (domain : bytes) (alias_target : option bytes) (remove_ : bool)
  : prog unit :=
  do _ <- ensure_unlocked_p P sp;
  match alias_target with
  | Some target =>
      do _ <- lib (set_alias P domain target); print_line (bs "Alias added.")
  | None =>
      if remove_ then
        do _ <- lib (remove_alias P domain); print_line (bs "Alias removed.")
      else
        do a <- lib (get_alias P domain);
        print_line (bs "'" ++ domain ++ bs "' is an alias for '" ++ a ++ bs "'.")
  end.

(** remove.rs:12-29 *)
Definition remove_p (P : prims) (sp : bool) (domain name revision : bytes) : prog unit :=
  do _ <- ensure_unlocked_p P sp;
  do _ <- lib (remove P domain name revision);
  print_line (bs "Password removed.").

(** notes.rs:14-55 *)
Definition notes_p (P : prims) (sp : bool) (domain name revision : bytes) (set : bool) : prog unit :=
  do _ <- ensure_unlocked_p P sp;
  do notes <- lib (get_notes P domain name revision);
  do _ <-
    (match notes with
     | [] => print_line (bs "Currently no notes are stored for this password.")
     | _ =>
         do _ <- Direct (bs "Notes for this password: ");
         do _ <- Direct notes;
         Direct [newline]
     end);
  if set then
    do notes <- prompt_secret_text_p (bs "Please enter new notes to be stored:");
    do _ <- lib (set_notes P domain name revision notes);
    print_line (match notes with [] => bs "Notes removed." | _ => bs "Notes stored." end)
  else Ret tt.

(** A [for] loop *)
Fixpoint for_each {A} (f : A -> prog unit) (l : list A) : prog unit :=
  match l with
  | [] => Ret tt
  | x :: l' => do _ <- f x; for_each f l'
  end.

(** show.rs:40-45: blocks are written one by one *)
Definition qr_row_p (q : qr) (y : nat) : prog unit :=
  do _ <- for_each (fun x => Direct (block (get_module q x y) (get_module q x (y + 1)))) (seq 0 (qr_size q));
  Direct [newline].
(** show.rs:15-61 *)
Definition show_p (P : prims) (E : externals) (sp : bool) (domain name revision : bytes) (qrcode : bool) : prog unit :=
  do _ <- ensure_unlocked_p P sp;
  do password <- lib (get P domain name revision);
  do _ <- Direct (bs "Password retrieved.");
  if qrcode then
    match e_qr E password with
    | Some q => for_each (fun i => qr_row_p q (2 * i)) (seq 0 ((qr_size q + 1) / 2))
    | None => Fail (Text (bs "Error generating QR code: "))
    end
  else
    do _ <- Direct password;
    Direct [newline].

(** list.rs:79-152 *)
Definition list_password_p (P : prims) (show recovery verbose : bool) (site : bytes) (p : password) : prog unit :=
  do _ <- print_line (password_line p);
  do _ <-
    (if show then
       do _ <- Print indent;
       do _ <- Flush;
       do value <- lib (get P site (id_name (pass_id p)) (id_revision (pass_id p)));
       do _ <- Direct value;
       print_line []
     else Ret tt);
  do _ <-
    (match recovery, p with
     | true, Stored sp =>
         do _ <- print_line (indent ++ bs "Recovery code:");
         do code <- lib (get_recovery_code P sp);
         for_each (fun line => print_line (indent ++ line)) (split_on newline code)
     | _, _ => Ret tt
     end);
  if verbose then
    do _ <-
      (match pass_notes p with
       | [] => Ret tt
       | notes =>
           do _ <- Print (indent ++ bs "Notes: ");
           do _ <- Flush;
           do _ <- Direct notes;
           print_line []
       end);
    match p with
    | Generated g =>
        do _ <- print_line (indent ++ bs "Length: " ++ write_number (gp_length g));
        print_line (indent ++ bs "Allowed characters: " ++ allowed_chars (gp_charset g))
    | Stored _ => Ret tt
    end
  else Ret tt.

(** list.rs:69-74 *)
Definition heading_p (verbose : bool) (site : bytes) (aliases : list bytes) : prog unit :=
  do _ <- print_line (bs "Passwords for " ++ site ++ bs ":");
  match verbose, aliases with
  | true, _ :: _ => print_line (bs "    Aliases: " ++ join (bs "," ++ [newline] ++ bs "             ") aliases)
  | _, _ => Ret tt
  end.

(** list.rs:58-153 *)
Fixpoint list_loop_p (P : prims) (name : bytes) (show recovery verbose : bool) (all sites : list M_Types.site)
  : prog (bool * list bytes) :=
  match sites with
  | [] => Ret (false, [])
  | s :: rest =>
      do l <- lib (list_ P (site_name s) name);
      match l with
      | [] =>
          do (found, empty_sites) <- list_loop_p P name show recovery verbose all rest;
          Ret (found, if bytes_eqb name (bs "*") then site_name s :: empty_sites else empty_sites)
      | _ =>
          do _ <- heading_p verbose (site_name s) (aliased all (site_name s));
          do _ <- for_each (list_password_p P show recovery verbose (site_name s)) (sort_by password_key l);
          do (_, empty_sites) <- list_loop_p P name show recovery verbose all rest;
          Ret (true, empty_sites)
      end
  end.
(** list.rs:16-163 *)
Definition list_p (P : prims) (sp : bool) (domain name : bytes) (show recovery verbose : bool) : prog unit :=
  do _ <- ensure_unlocked_p P sp;
  do sites <- lib (list_sites P domain);
  let all := arrange_sites sites in
  do (found, empty_sites) <- list_loop_p P name show recovery verbose all (regular_sites all);
  do _ <- lib (remove_sites P empty_sites);
  if found then Ret tt else print_line (bs "No matching passwords found.").

(** set_primary.rs:13-35 *)
Definition set_primary_p (P : prims) (path : bytes) (sp : bool) : prog unit :=
  do primary_password <- prompt_password_p (bs "New primary password: ") sp;
  if length primary_password <? 6 then Fail (Text TOO_SHORT)
  else
    do primary_password2 <- prompt_password_p (bs "Repeat primary password: ") sp;
    if negb (bytes_eqb primary_password primary_password2) then Fail (Text (bs "Primary passwords don't match."))
    else
      do _ <- lib (reset P primary_password);
      print_line (bs "New primary password set for " ++ path ++ bs ".").

(** mod.rs:22-38, except for the shell *)
Definition simple_p (P : prims) (E : externals) (path : bytes) (sp : bool) (c : command) : prog unit :=
  match c with
  | SetPrimary _ => set_primary_p P path sp
  | Add d n r len nl nu nd ns y => add_p P sp d n r len nl nu nd ns y
  | AddStored d n r rc y => add_stored_p P sp d n r rc y
  | RemoveCmd d n r => remove_p P sp d n r
  | Show d n r q => show_p P E sp d n r q
  | Notes d n r s => notes_p P sp d n r s
  | List d n s r v => list_p P sp d n s r v
  | Alias d a r => alias_p P sp d a r
  | Shell => Ret tt
  end.

(** shell.rs:49-107: one line; whether the session goes on *)
Definition shell_step_p (P : prims) (E : externals) (path : bytes) (sp : bool) (line : bytes) : prog bool :=
  match e_parse E line with
  | SError m => do _ <- Complain m; Ret true
  | SExit => Ret false
  | SLock =>
      do _ <- lib lock;
      do _ <- print_line (bs "Passwords locked.");
      Ret true
  | SCommand Shell => do _ <- Complain (Text (bs "You cannot run a shell from a shell.")); Ret true
  | SCommand (SetPrimary _) =>
      do _ <- Complain (Text (bs "You cannot change primary password from a shell.")); Ret true
  | SCommand c =>
      do r <- Try (simple_p P E path sp c);
      do _ <- (match r with inl m => Complain m | inr _ => Flush end);
      Ret true
  end.
(** shell.rs:47-116 *)
Definition shell_loop_p (P : prims) (E : externals) (path : bytes) (sp : bool) : prog unit :=
  Loop (fun _ : unit =>
    do r <- Readline;
    match r with
    | Line line =>
        do go <- shell_step_p P E path sp line;
        Ret (if go : bool then inl tt else inr tt)
    | Interrupted => Ret (inl tt)
    | Eof => Ret (inr tt)
    | OtherError => do _ <- Complain (Text (bs "Error: ")); Ret (inl tt)
    end) tt.
(** shell.rs:24-127 *)
Definition shell_p (P : prims) (E : externals) (path : bytes) (sp : bool) : prog unit :=
  do _ <- print_line SHELL_HELP;
  do _ <- Flush;
  shell_loop_p P E path sp.
(** mod.rs:22-38 [process_command] *)
Definition command_p (P : prims) (E : externals) (path : bytes) (sp : bool) (c : command) : prog unit :=
  match c with
  | Shell => shell_p P E path sp
  | _ => simple_p P E path sp c
  end.

(** * cli/src/main.rs *)

(** As [start_process] of M_Cli *)
Definition open_file (P : prims) : M (res kvmap) := fun s =>
  let r := load P (s_disk s) in (Ok r, passwords_new (match r with Ok d => d | _ => ∅ end) s).
(** main.rs:68-98 [main_inner] *)
Definition main_inner_p (P : prims) (E : externals) (path : bytes) (a : args) : prog unit :=
  do r <- lib (open_file P);
  match a_command a with
  | SetPrimary assume_yes =>
      do go <-
        (match r with
         | Ok _ => if assume_yes then Ret true
                   else do allow <- Confirm; Ret (match allow with NO => false | _ => true end)
         | _ => Ret true
         end);
      if go then command_p P E path (a_stdin_passwords a) (a_command a) else Ret tt
  | c =>
      match r with
      | Ok _ => command_p P E path (a_stdin_passwords a) c
      | Err e => Fail (Lib e)
      | Panic => Abort
      end
  end.
(** main.rs:100-111 [main]; [Passwords] is dropped at the end of [main_inner] (passwords.rs:460-464) *)
Definition main_p (P : prims) (E : externals) (path : bytes) (a : args) : prog exit :=
  do r <- Try (main_inner_p P E path a);
  do _ <- lib lock;
  match r with
  | inl m => do _ <- Complain m; do _ <- Flush; Ret Failure
  | inr _ => do _ <- Flush; Ret Success
  end.

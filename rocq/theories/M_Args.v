(** Command lines: cli/src/args.rs as understood by clap 3.2.11, and lines typed in the shell
    (cli/src/processor/shell.rs:60-107) as split by shellwords 1.1.0.
    The sources of the crates are not at hand: [scan] follows the documentation of clap, [split] the regular
    expression shellwords is made of. Not modelled: what clap prints (help, version and error messages; in
    all these cases no command is run), arguments that are not UTF-8. *)
From Verif Require Import M_Base M_Utf8 M_Prims M_Types M_Recovery M_Json M_Storage M_Passwords M_Cli.

(** * Options *)

Record opt : Type := mk_opt { o_short : option byte; o_long : bytes; o_takes : bool }.

(** The options given, in order, by their long names; [Some]: with a value. *)
Notation given := (list (bytes * option bytes)).

Fixpoint find_long (opts : list opt) (name : bytes) : option opt :=
  match opts with
  | [] => None
  | o :: l => if bytes_eqb (o_long o) name then Some o else find_long l name
  end.
Fixpoint find_short (opts : list opt) (c : byte) : option opt :=
  match opts with
  | [] => None
  | o :: l => match o_short o with
              | Some x => if Byte.eqb x c then Some o else find_short l c
              | None => find_short l c
              end
  end.

(** [--name] or [--name=value] *)
Fixpoint split_eq (w : bytes) : bytes * option bytes :=
  match w with
  | [] => ([], None)
  | c :: r => if Byte.eqb c "="%byte then ([], Some r)
              else let '(a, v) := split_eq r in (c :: a, v)
  end.

(** What comes of one word starting with a hyphen: the options in it; the last one may still need a value. *)
Inductive dash : Type := DBad | DOpts (l : given) | DNeeds (l : given) (name : bytes).

Definition long_word (opts : list opt) (w : bytes) : dash :=
  let '(name, value) := split_eq w in
  match find_long opts name with
  | None => DBad
  | Some o =>
      if o_takes o then match value with Some v => DOpts [(name, Some v)] | None => DNeeds [] name end
      else match value with Some _ => DBad | None => DOpts [(name, None)] end
  end.

Fixpoint short_word (opts : list opt) (w : bytes) : dash :=
  match w with
  | [] => DOpts []
  | c :: r =>
      match find_short opts c with
      | None => DBad
      | Some o =>
          if o_takes o then
            match r with
            | [] => DNeeds [] (o_long o)
            | x :: r' => DOpts [(o_long o, Some (if Byte.eqb x "="%byte then r' else r))]
            end
          else
            match short_word opts r with
            | DBad => DBad
            | DOpts l => DOpts ((o_long o, None) :: l)
            | DNeeds l n => DNeeds ((o_long o, None) :: l) n
            end
      end
  end.

(** A word is no option: it does not start with a hyphen, or it is a hyphen. *)
Definition plain (w : bytes) : bool :=
  match w with
  | "-"%byte :: _ :: _ => false
  | _ => true
  end.
Definition dash_word (opts : list opt) (w : bytes) : dash :=
  match w with
  | "-"%byte :: "-"%byte :: r => long_word opts r
  | "-"%byte :: r => short_word opts r
  | _ => DBad
  end.

(** * Words *)

(** Options and positional arguments among the words of a subcommand. *)
Fixpoint scan (opts : list opt) (pending : option bytes) (words : list bytes) : option (given * list bytes) :=
  match words with
  | [] => match pending with None => Some ([], []) | Some _ => None end
  | w :: rest =>
      match pending with
      | Some name =>
          if plain w then
            match scan opts None rest with Some (l, ps) => Some ((name, Some w) :: l, ps) | None => None end
          else None
      | None =>
          if plain w then
            match scan opts None rest with Some (l, ps) => Some (l, w :: ps) | None => None end
          else if bytes_eqb w (bs "--") then Some ([], rest)
          else
            match dash_word opts w with
            | DBad => None
            | DOpts l => match scan opts None rest with Some (l', ps) => Some (l ++ l', ps) | None => None end
            | DNeeds l name => match scan opts (Some name) rest with Some (l', ps) => Some (l ++ l', ps) | None => None end
            end
      end
  end.

(** The same in front of the subcommand: there are no positional arguments, the first word that is no option is
    the subcommand. *)
Fixpoint scan_top (opts : list opt) (pending : option bytes) (words : list bytes) : option (given * (bytes * list bytes)) :=
  match words with
  | [] => None
  | w :: rest =>
      match pending with
      | Some name =>
          if plain w then
            match scan_top opts None rest with Some (l, r) => Some ((name, Some w) :: l, r) | None => None end
          else None
      | None =>
          if plain w then Some ([], (w, rest))
          else if bytes_eqb w (bs "--") then None
          else
            match dash_word opts w with
            | DBad => None
            | DOpts l => match scan_top opts None rest with Some (l', r) => Some (l ++ l', r) | None => None end
            | DNeeds l name => match scan_top opts (Some name) rest with Some (l', r) => Some (l ++ l', r) | None => None end
            end
      end
  end.

(** No option may be given twice. *)
Fixpoint distinct (l : list bytes) : bool :=
  match l with
  | [] => true
  | x :: r => negb (existsb (bytes_eqb x) r) && distinct r
  end.
Definition flag (name : bytes) (l : given) : bool := existsb (fun '(n, _) => bytes_eqb n name) l.
Fixpoint value (name : bytes) (l : given) : option bytes :=
  match l with
  | [] => None
  | (n, v) :: r => if bytes_eqb n name then v else value name r
  end.
Definition value_or (d name : bytes) (l : given) : bytes :=
  match value name l with Some v => v | None => d end.

(** * cli/src/args.rs *)

(** [#[clap(short = c, long)]] for a [bool] and for other types; clap makes long names of field names. *)
Definition switch (c : byte) (name : bytes) : opt := mk_opt (Some c) name false.
Definition setting (c : byte) (name : bytes) : opt := mk_opt (Some c) name true.

(** args.rs:13-22 *)
Definition TOP_OPTIONS : list opt :=
  [setting "c" (bs "storage"); mk_opt None (bs "stdin-passwords") false; mk_opt None (bs "wait") false].

(** The fields of the subcommands that are options (args.rs:28-148) *)
Definition YES_OPTION : opt := switch "y" (bs "assume-yes").
Definition REVISION : opt := setting "r" (bs "revision").
Definition sub_options (name : bytes) : option (list opt) :=
  if bytes_eqb name (bs "set-primary") then Some [YES_OPTION]
  else if bytes_eqb name (bs "add") then
    Some [REVISION; setting "l" (bs "length"); switch "w" (bs "no-lower"); switch "u" (bs "no-upper");
          switch "d" (bs "no-digit"); switch "s" (bs "no-symbol"); YES_OPTION]
  else if bytes_eqb name (bs "add-stored") then Some [REVISION; switch "c" (bs "recovery"); YES_OPTION]
  else if bytes_eqb name (bs "remove") then Some [REVISION]
  else if bytes_eqb name (bs "show") then Some [REVISION; switch "q" (bs "qrcode")]
  else if bytes_eqb name (bs "notes") then Some [REVISION; switch "s" (bs "set")]
  else if bytes_eqb name (bs "list") then
    Some [switch "s" (bs "show"); switch "r" (bs "recovery"); switch "v" (bs "verbose")]
  else if bytes_eqb name (bs "alias") then Some [switch "r" (bs "remove")]
  else if bytes_eqb name (bs "shell") then Some [setting "s" (bs "history")]
  else None.

(** The command made of the options and positional arguments (args.rs:28-148): required and optional
    positional arguments, default values. *)
Definition make_command (name : bytes) (l : given) (ps : list bytes) : option command :=
  let revision := value_or (bs "1") (bs "revision") l in
  if bytes_eqb name (bs "set-primary") then
    match ps with [] => Some (SetPrimary (flag (bs "assume-yes") l)) | _ => None end
  else if bytes_eqb name (bs "add") then
    match ps, length_arg (value_or (bs "16") (bs "length") l) with
    | [d; n], Some len =>
        Some (Add d n revision len (flag (bs "no-lower") l) (flag (bs "no-upper") l) (flag (bs "no-digit") l)
                  (flag (bs "no-symbol") l) (flag (bs "assume-yes") l))
    | _, _ => None
    end
  else if bytes_eqb name (bs "add-stored") then
    match ps with
    | [d; n] => Some (AddStored d n revision (flag (bs "recovery") l) (flag (bs "assume-yes") l))
    | _ => None
    end
  else if bytes_eqb name (bs "remove") then
    match ps with [d; n] => Some (RemoveCmd d n revision) | _ => None end
  else if bytes_eqb name (bs "show") then
    match ps with [d; n] => Some (Show d n revision (flag (bs "qrcode") l)) | _ => None end
  else if bytes_eqb name (bs "notes") then
    match ps with [d; n] => Some (Notes d n revision (flag (bs "set") l)) | _ => None end
  else if bytes_eqb name (bs "list") then
    let command d n := Some (List d n (flag (bs "show") l) (flag (bs "recovery") l) (flag (bs "verbose") l)) in
    match ps with
    | [] => command (bs "*") (bs "*")
    | [d] => command d (bs "*")
    | [d; n] => command d n
    | _ => None
    end
  else if bytes_eqb name (bs "alias") then
    match ps with
    | [d] => Some (Alias d None (flag (bs "remove") l))
    | [d; a] => Some (Alias d (Some a) (flag (bs "remove") l))
    | _ => None
    end
  else if bytes_eqb name (bs "shell") then
    match ps with [] => Some Shell | _ => None end
  else None.

Definition parse_sub (name : bytes) (words : list bytes) : option command :=
  match sub_options name with
  | None => None
  | Some opts =>
      match scan opts None words with
      | Some (l, ps) => if distinct (map fst l) then make_command name l ps else None
      | None => None
      end
  end.

(** What the arguments say: storage path, [--wait], and the rest. The history file of the shell is dropped. *)
Record invocation : Type := mk_inv { i_storage : option bytes; i_wait : bool; i_args : args }.

(** main.rs:101 [Args::parse()] with the words after the name of the program; [None]: clap prints something
    and ends the process. *)
Definition parse_args (words : list bytes) : option invocation :=
  match scan_top TOP_OPTIONS None words with
  | Some (l, (name, rest)) =>
      if distinct (map fst l) then
        match parse_sub name rest with
        | Some c => Some (mk_inv (value (bs "storage") l) (flag (bs "wait") l)
                                 (mk_args (flag (bs "stdin-passwords") l) c))
        | None => None
        end
      else None
  | None => None
  end.

(** * [shellwords::split]: matches of a regular expression one after the other. Each is, after white space,
    a run of characters other than white space, quotes and backslashes, or a text in single or double quotes,
    or a backslash and a character, and then possibly a white space character or the end of the text, which
    ends the word. A quote without counterpart is an error. *)

Definition special (c : byte) : bool :=
  Byte.eqb c "'"%byte || Byte.eqb c """"%byte || Byte.eqb c "\"%byte.
(** A run of characters that mean nothing special *)
Fixpoint span_plain (s : bytes) : bytes * bytes :=
  match s with
  | [] => ([], [])
  | c :: r =>
      if special c || match strip_any whitespace s with Some _ => true | None => false end then ([], s)
      else let '(a, b) := span_plain r in (c :: a, b)
  end.
(** The rest of a text in single quotes *)
Fixpoint span_single (s : bytes) : option (bytes * bytes) :=
  match s with
  | [] => None
  | c :: r => if Byte.eqb c "'"%byte then Some ([], r)
              else match span_single r with Some (a, b) => Some (c :: a, b) | None => None end
  end.
(** The rest of a text in double quotes, where a backslash in front of a dollar sign, backtick, double quote or
    backslash is dropped. A backslash must not be followed by the end of the line. *)
Fixpoint span_double (s : bytes) : option (bytes * bytes) :=
  match s with
  | [] => None
  | c :: r =>
      if Byte.eqb c """"%byte then Some ([], r)
      else if Byte.eqb c "\"%byte then
        match r with
        | [] => None
        | x :: r' =>
            if Byte.eqb x newline then None
            else match span_double r' with
                 | Some (a, b) =>
                     Some ((if existsb (Byte.eqb x) (bs "$`""\") then [x] else [c; x]) ++ a, b)
                 | None => None
                 end
        end
      else match span_double r with Some (a, b) => Some (c :: a, b) | None => None end
  end.

(** [fuel]: every match uses up some of the text. *)
Fixpoint split_words (fuel : nat) (field s : bytes) : option (list bytes) :=
  match fuel with
  | O => None
  | S f =>
      let after (field rest : bytes) : option (list bytes) :=
        match rest with
        | [] => Some [field]
        | _ =>
            match strip_any whitespace rest with
            | Some rest' => match split_words f [] rest' with Some l => Some (field :: l) | None => None end
            | None => split_words f field rest
            end
        end in
      match trim_start s with
      | [] => Some []
      | c :: r =>
          if Byte.eqb c "'"%byte then
            match span_single r with Some (w, rest) => after (field ++ w) rest | None => None end
          else if Byte.eqb c """"%byte then
            match span_double r with Some (w, rest) => after (field ++ w) rest | None => None end
          else if Byte.eqb c "\"%byte then
            match r with
            | x :: r' => if Byte.eqb x newline then after (field ++ [c]) r else after (field ++ [x]) r'
            | [] => after (field ++ [c]) r
            end
          else let '(w, rest) := span_plain (c :: r) in after (field ++ w) rest
      end
  end.
Definition split (line : bytes) : option (list bytes) := split_words (S (length line)) [] line.

(** * A line typed in the shell (shell.rs:62-104); in addition to the commands there are [exit] and [lock]. What
    is printed in case of errors is left out. *)
Definition parse_line (line : bytes) : shell_line :=
  let error := SError (Text []) in
  match split line with
  | None => error
  | Some words =>
      match scan_top TOP_OPTIONS None words with
      | Some (l, (name, rest)) =>
          if distinct (map fst l) then
            if bytes_eqb name (bs "exit") || bytes_eqb name (bs "lock") then
              match scan [] None rest with
              | Some (_, []) => if bytes_eqb name (bs "exit") then SExit else SLock
              | _ => error
              end
            else match parse_sub name rest with Some c => SCommand c | None => error end
          else error
      | None => error
      end
  end.

(** The program with this reading of the lines. Lines are strings, there are none that are not UTF-8. *)
Definition shell_externals (qr : bytes -> option qr) : externals :=
  mk_ext qr (fun line => if utf8 line then parse_line line else SError (Text [])).

(** * --wait (main.rs:32-56, 104): everything else is dropped first, then the process waits for a line, which
    [read_line(..).unwrap()] takes to be text. (A process that panics does not come to this in release builds.) *)
Definition WAITING : bytes := [newline] ++ bs "Waiting..." ++ [newline].
Definition wait_for_line : C unit :=
  let& _ := flush_stdout in
  let& _ := write_direct WAITING in
  fun t =>
    let '(line, rest) := read_line (t_stdin t) in
    (if utf8 line then COk tt else CPanic,
     mk_term (t_st t) rest (t_tty t) (t_confirms t) (t_asks t) (t_lines t) (t_shown t) (t_buf t) (t_err t)).
Definition program (P : prims) (E : externals) (path : bytes) (i : invocation) (t : term) : exit * term :=
  let '(x, t') := main P E path (i_args i) t in
  match x with
  | Success | Failure =>
      if i_wait i then
        match wait_for_line t' with
        | (COk _, t'') => (x, t'')
        | (_, t'') => (Aborted, t'')
        end
      else (x, t')
  | _ => (x, t')
  end.

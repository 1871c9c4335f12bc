(** The command line program: cli/src/processor/*.rs, cli/src/args.rs and cli/src/main.rs.
    Not modelled: writing to the terminal fails ([unwrap] panics), the command history file of the shell,
    the search for the default storage path, the texts printed by the crates clap, question,
    rpassword and rustyline. *)
From stdpp Require Import gmap.
From Verif Require Import M_Base M_Utf8 M_Prims M_Types M_Recovery M_Json M_Storage M_Passwords.

(** * The terminal *)

(** Crate question: [Answer] *)
Inductive answer : Type := YES | NO | RESPONSE (line : bytes).

(** Result of [editor.readline] (shell.rs:48, 108-114) *)
Inductive readline : Type := Line (l : bytes) | Interrupted | Eof | OtherError.

(** What is printed to stderr: an error of the library (formatted by [format_error]) or a text. *)
Inductive message : Type := Lib (e : error) | Text (t : bytes).

(** A process with its terminal:
    - [t_st]: state of the library and the storage file
    - [t_stdin]: what [StreamReader::stdin()] is going to deliver; the end of the list is the end of the
      file or a failure to read
    - [t_tty]: results of [rpassword::prompt_password]; [None] is an error
    - [t_confirms]: results of [Question::confirm]
    - [t_asks]: results of [Question::ask]
    - [t_lines]: results of [readline] in the shell
    - [t_shown]: what reached the standard output; [t_buf]: what is still buffered by [std::io::stdout()]
    - [t_err]: what was printed to stderr *)
Record term : Type := mk_term {
  t_st : st;
  t_stdin : bytes;
  t_tty : list (option bytes);
  t_confirms : list answer;
  t_asks : list (option answer);
  t_lines : list readline;
  t_shown : bytes;
  t_buf : bytes;
  t_err : list message
}.

(** Outcome of a function of the program: [Result<A, String>], a panic, or [CStuck]: the program waits
    for input that never comes or asks again and again at the end of the input. *)
Inductive cres (A : Type) : Type := COk (a : A) | CErr (m : message) | CPanic | CStuck.
Arguments COk {A} a.
Arguments CErr {A} m.
Arguments CPanic {A}.
Arguments CStuck {A}.

Definition C (A : Type) : Type := term -> cres A * term.
Definition cret {A} (a : A) : C A := fun t => (COk a, t).
Definition cfail {A} (m : message) : C A := fun t => (CErr m, t).
Definition cbind {A B} (c : C A) (f : A -> C B) : C B := fun t =>
  match c t with
  | (COk a, t') => f a t'
  | (CErr m, t') => (CErr m, t')
  | (CPanic, t') => (CPanic, t')
  | (CStuck, t') => (CStuck, t')
  end.
Notation "'let&' x ':=' c 'in' k" := (cbind c (fun x => k))
  (at level 200, x pattern, c at level 100, k at level 200, right associativity).

Definition with_st (s : st) (t : term) : term :=
  mk_term s (t_stdin t) (t_tty t) (t_confirms t) (t_asks t) (t_lines t) (t_shown t) (t_buf t) (t_err t).
Definition with_out (shown buf : bytes) (t : term) : term :=
  mk_term (t_st t) (t_stdin t) (t_tty t) (t_confirms t) (t_asks t) (t_lines t) shown buf (t_err t).
Definition with_lines (l : list readline) (t : term) : term :=
  mk_term (t_st t) (t_stdin t) (t_tty t) (t_confirms t) (t_asks t) l (t_shown t) (t_buf t) (t_err t).

(** A call of the library followed by [.convert_error()?] (utils.rs:58-69) *)
Definition api {A} (m : M A) : C A := fun t =>
  let '(r, s) := m (t_st t) in
  (match r with Ok a => COk a | Err e => CErr (Lib e) | Panic => CPanic end, with_st s t).

(** A call of the library followed by [.unwrap_or(d)] *)
Definition api_or {A} (m : M A) (d : A) : C A := fun t =>
  let '(r, s) := m (t_st t) in
  (match r with Ok a => COk a | Err _ => COk d | Panic => CPanic end, with_st s t).

(** A call of the library the result of which is examined *)
Definition api_res {A} (m : M A) : C (res A) := fun t =>
  let '(r, s) := m (t_st t) in
  (match r with Panic => CPanic | r => COk r end, with_st s t).

(** [std::io::stdout()] is a [LineWriter]: everything up to the last newline character is written, the
    rest is kept. (It also writes when 1024 bytes are buffered; that changes nothing as nothing else is
    written in between.) *)
Fixpoint last_line (s : bytes) : bytes * bytes :=
  match s with
  | [] => ([], [])
  | x :: s' =>
      match last_line s' with
      | ([], r) => if Byte.eqb x newline then ([x], r) else ([], x :: r)
      | (d, r) => (x :: d, r)
      end
  end.
(** [print!] *)
Definition print (b : bytes) : C unit := fun t =>
  let '(d, r) := last_line (t_buf t ++ b) in (COk tt, with_out (t_shown t ++ d) r t).
(** [println!] *)
Definition println (b : bytes) : C unit := print (b ++ [newline]).
(** [std::io::stdout().flush()] *)
Definition flush_stdout : C unit := fun t => (COk tt, with_out (t_shown t ++ t_buf t) [] t).
(** [StreamWriter::stdout().unwrap().write_all(..)]: not buffered *)
Definition write_direct (b : bytes) : C unit := fun t => (COk tt, with_out (t_shown t ++ b) (t_buf t) t).
(** [eprintln!] *)
Definition eprintln (m : message) : C unit := fun t =>
  (COk tt, mk_term (t_st t) (t_stdin t) (t_tty t) (t_confirms t) (t_asks t) (t_lines t) (t_shown t) (t_buf t)
                   (t_err t ++ [m])).

(** [Question::new(..).default(..).show_defaults().confirm()] *)
Definition confirm : C answer := fun t =>
  match t_confirms t with
  | [] => (CStuck, t)
  | a :: l => (COk a, mk_term (t_st t) (t_stdin t) (t_tty t) l (t_asks t) (t_lines t) (t_shown t) (t_buf t) (t_err t))
  end.
(** [Question::new(..).ask()] *)
Definition ask : C (option answer) := fun t =>
  match t_asks t with
  | [] => (CStuck, t)
  | a :: l => (COk a, mk_term (t_st t) (t_stdin t) (t_tty t) (t_confirms t) l (t_lines t) (t_shown t) (t_buf t) (t_err t))
  end.

(** * cli/src/processor/utils.rs *)

(** utils.rs:15-56 [format_error]; [detail] is the text of the error of another crate that the variants
    of [Error] carry *)
Definition format_error (detail : bytes) (e : error) : bytes :=
  match e with
  | CreateDirFailure => bs "Failed creating directory for storage (" ++ detail ++ bs ")."
  | FileReadFailure =>
      bs "Failed reading storage file (" ++ detail ++ bs "). Maybe use set-primary subcommand first?"
  | FileWriteFailure => bs "Failed writing storage file (" ++ detail ++ bs ")."
  | StorageNotInitialized => bs "Storage is missing data. Maybe use set-primary subcommand first?"
  | UnexpectedStorageFormat => bs "Unexpected storage file format."
  | PasswordsLocked => bs "Passwords are locked."
  | KeyMissing => bs "No such value in storage."
  | UnexpectedData => bs "Unexpected JSON data in storage."
  | InvalidCiphertext => bs "Corrupt ciphertext data in storage."
  | InvalidBase64 => bs "Corrupt Base64 data in storage (" ++ detail ++ bs ")."
  | InvalidJson => bs "Corrupt JSON data in storage (" ++ detail ++ bs ")."
  | InvalidUtf8 => bs "Corrupt UTF-8 data in storage (" ++ detail ++ bs ")."
  | DecryptionFailure => bs "Decryption failure, wrong primary password?"
  | NoSuchAlias => bs "Site is not an alias."
  | AliasToSelf => bs "Cannot make a site an alias for itself."
  | SiteHasPasswords => bs "Site has passwords, remove before making it an alias."
  | RecoveryCodeExtraData line =>
      bs "Error in recovery code, extra data starting with line " ++ write_number (N.of_nat line) ++ bs "."
  | RecoveryCodeChecksumMismatch line =>
      bs "Error in recovery code, checksum mismatch in line " ++ write_number (N.of_nat line) ++ bs "."
  | RecoveryCodeIncomplete => bs "Error in recovery code, code is incomplete."
  | RecoveryCodeWrongVersion => bs "Wrong recovery code version, generated by a newer application version?"
  | RecoveryCodeInsufficientData => bs "Not enough data in the recovery code."
  end.

(** The loop reading bytes up to a newline (utils.rs:80-85): line and remaining input *)
Fixpoint read_line (input : bytes) : bytes * bytes :=
  match input with
  | [] => ([], [])
  | b :: input' =>
      if Byte.eqb b newline then ([], input')
      else let '(l, rest) := read_line input' in (b :: l, rest)
  end.

(** utils.rs:71-93 [prompt_secret_text] *)
Definition prompt_secret_text (prompt : bytes) : C bytes :=
  let& _ := write_direct prompt in
  fun t =>
    let '(line, rest) := read_line (t_stdin t) in
    (if utf8 line then COk line else CPanic,
     mk_term (t_st t) rest (t_tty t) (t_confirms t) (t_asks t) (t_lines t) (t_shown t) (t_buf t) (t_err t)).

(** [rpassword::prompt_password(prompt).unwrap()] *)
Definition tty_password : C bytes := fun t =>
  match t_tty t with
  | [] => (CStuck, t)
  | o :: l =>
      (match o with Some p => COk p | None => CPanic end,
       mk_term (t_st t) (t_stdin t) l (t_confirms t) (t_asks t) (t_lines t) (t_shown t) (t_buf t) (t_err t))
  end.

(** [char::is_whitespace]: the characters with Unicode property White_Space in UTF-8 *)
Definition whitespace : list bytes :=
  [[x09]; [x0a]; [x0b]; [x0c]; [x0d]; [x20]; [xc2; x85]; [xc2; xa0]; [xe1; x9a; x80];
   [xe2; x80; x80]; [xe2; x80; x81]; [xe2; x80; x82]; [xe2; x80; x83]; [xe2; x80; x84]; [xe2; x80; x85];
   [xe2; x80; x86]; [xe2; x80; x87]; [xe2; x80; x88]; [xe2; x80; x89]; [xe2; x80; x8a];
   [xe2; x80; xa8]; [xe2; x80; xa9]; [xe2; x80; xaf]; [xe2; x81; x9f]; [xe3; x80; x80]].
Fixpoint strip_any (ws : list bytes) (s : bytes) : option bytes :=
  match ws with
  | [] => None
  | w :: ws' => match strip_prefix w s with Some r => Some r | None => strip_any ws' s end
  end.
Fixpoint strip_all (fuel : nat) (ws : list bytes) (s : bytes) : bytes :=
  match fuel with
  | O => s
  | S f => match strip_any ws s with Some r => strip_all f ws r | None => s end
  end.
(** [str::trim]. In valid UTF-8 the encoding of a character is found nowhere but at the place of that
    character, so comparing bytes suffices. *)
Definition trim_start (s : bytes) : bytes := strip_all (length s) whitespace s.
Definition trim_end (s : bytes) : bytes := rev (strip_all (length s) (map (@rev byte) whitespace) (rev s)).
Definition trim (s : bytes) : bytes := trim_end (trim_start s).

(** utils.rs:95-102 [prompt_password] *)
Definition prompt_password (prompt : bytes) (stdin_passwords : bool) : C bytes :=
  let& secret := (if stdin_passwords then prompt_secret_text prompt else tty_password) in
  cret (trim secret).

(** utils.rs:115, set_primary.rs:20 *)
Definition TOO_SHORT : bytes := bs "Primary password length should be at least 6 characters.".

(** utils.rs:112-121: the loop asking for the primary password. [fuel]: every round uses up some input
    unless there is none left; then all later rounds are the same. *)
Fixpoint unlock_loop (fuel : nat) (P : prims) (stdin_passwords : bool) : C unit := fun t =>
  if unlocked (t_st t) then (COk tt, t)
  else
    match fuel with
    | O => (CStuck, t)
    | S f =>
        (let& primary_password := prompt_password (bs "Your primary password: ") stdin_passwords in
         let& _ := (if length primary_password <? 6 then eprintln (Text TOO_SHORT)
                    else let& r := api_res (unlock P primary_password) in
                         match r with Err e => eprintln (Lib e) | _ => cret tt end) in
         unlock_loop f P stdin_passwords) t
    end.

(** utils.rs:104-123 [ensure_unlocked_passwords] *)
Definition ensure_unlocked (P : prims) (stdin_passwords : bool) : C unit := fun t =>
  if negb (initialized (t_st t)) then (CErr (Lib StorageNotInitialized), t)
  else unlock_loop (S (length (t_stdin t) + length (t_tty t))) P stdin_passwords t.

(** [formatted.split('\n').collect::<Vec<&str>>()[..line].join("\n")] (utils.rs:143, 157) *)
Definition first_lines (formatted : bytes) (line : nat) : res bytes :=
  let lines := split_on newline formatted in
  if line <=? length lines then Ok (join [newline] (firstn line lines)) else Panic.

(** utils.rs:159-161, 163, 168 *)
Definition NOT_VALID : bytes := bs "The data you entered doesn't seem valid, please try again." ++ [newline].
Definition ACCEPTED (accepted : bytes) : bytes :=
  bs "The following lines were accepted:" ++ [newline] ++ accepted ++ [newline] ++
  bs "The line after that doesn't seem valid, a typo maybe?" ++ [newline].
Definition MORE_DATA : bytes :=
  bs "Line accepted. The recovery code is still incomplete, please enter more data." ++ [newline].

(** utils.rs:125-177 [prompt_recovery_code]; [asks] are the answers still to come. The question for a
    confirmation (lines 145-149) shows [accepted]. *)
Fixpoint recovery_loop (P : prims) (asks : list (option answer)) (accepted : bytes) : C bytes :=
  let& a := ask in
  match asks with
  | [] => fun t => (CStuck, t)
  | _ :: rest =>
      match a with
      | Some (RESPONSE line) =>
          match line with
          | [] => cfail (Text [])
          | _ =>
              let code := accepted ++ line in
              let formatted := format_code code true in
              let& r := api_res (decode_recovery_code P code) in
              match r with
              | Ok value => cret value
              | Err (RecoveryCodeExtraData n) =>
                  let& accepted := (fun t => (match first_lines formatted n with Ok x => COk x | _ => CPanic end, t)) in
                  let& accept := confirm in
                  match accept with
                  | YES => api (decode_recovery_code P accepted)
                  | _ => cfail (Text [])
                  end
              | Err (RecoveryCodeChecksumMismatch n) =>
                  let& accepted := (fun t => (match first_lines formatted n with Ok x => COk x | _ => CPanic end, t)) in
                  let& _ := eprintln (Text (match accepted with [] => NOT_VALID | _ => ACCEPTED accepted end)) in
                  recovery_loop P rest accepted
              | Err RecoveryCodeIncomplete =>
                  let& _ := eprintln (Text MORE_DATA) in
                  recovery_loop P rest formatted
              | Err e => cfail (Lib e)
              | Panic => fun t => (CPanic, t)
              end
          end
      | _ => recovery_loop P rest accepted
      end
  end.
Definition prompt_recovery_code (P : prims) : C bytes := fun t => recovery_loop P (t_asks t) [] t.

(** * cli/src/args.rs *)

(** args.rs:26-148 [Commands] *)
Inductive command : Type :=
| SetPrimary (assume_yes : bool)
| Add (domain name revision : bytes) (len : N) (no_lower no_upper no_digit no_symbol assume_yes : bool)
| AddStored (domain name revision : bytes) (recovery assume_yes : bool)
| RemoveCmd (domain name revision : bytes)
| Show (domain name revision : bytes) (qrcode : bool)
| Notes (domain name revision : bytes) (set : bool)
| List (domain name : bytes) (show recovery verbose : bool)
| Alias (domain : bytes) (alias_target : option bytes) (remove : bool)
| Shell.

(** [str::parse::<usize>]: an optional plus sign, at least one digit, at most 2^64 - 1 *)
Definition parse_usize (arg : bytes) : option N :=
  let digits := match arg with "+"%byte :: r => r | _ => arg end in
  match digits with
  | [] => None
  | _ => if forallb is_digit digits then
           let n := digits_value digits in
           if (n <=? 18446744073709551615)%N then Some n else None
         else None
  end.

(** args.rs:150-157 [validate_length] *)
Definition validate_length (arg : bytes) : bool :=
  match parse_usize arg with
  | Some n => (4 <=? n)%N && (n <=? 24)%N
  | None => true
  end.

(** args.rs:44-45: clap calls the validator, then parses the argument *)
Definition length_arg (arg : bytes) : option N :=
  if validate_length arg then parse_usize arg else None.

(** * External functions of the command line program *)

(** [qrcodegen::QrCode]: size and modules; [get_module] is [false] outside of the square *)
Record qr : Type := mk_qr { qr_size : nat; qr_modules : nat -> nat -> bool }.
Definition get_module (q : qr) (x y : nat) : bool :=
  (x <? qr_size q) && (y <? qr_size q) && qr_modules q x y.

(** A line typed in the shell as split by shellwords and understood by clap (shell.rs:64-102) *)
Inductive shell_line : Type := SError (m : message) | SExit | SLock | SCommand (c : command).

Record externals : Type := mk_ext {
  (** [QrCode::encode_text(text, QrCodeEcc::Low)] *)
  e_qr : bytes -> option qr;
  e_parse : bytes -> shell_line
}.

(** * cli/src/processor/add.rs *)

(** add.rs:48-58, add_stored.rs:28-38 *)
Definition OVERWRITE (P : prims) (assume_yes : bool) (domain name revision : bytes) : C bool :=
  if assume_yes then cret true
  else
    let& exists_ := api_or (has P domain name revision) false in
    if exists_ then
      let& allow := confirm in
      cret (match allow with NO => false | _ => true end)
    else cret true.

(** add.rs:31-43 *)
Definition add_charset (no_lower no_upper no_digit no_symbol : bool) : charset :=
  let cs := cs_empty in
  let cs := if no_lower then cs else cs_insert cs Lower in
  let cs := if no_upper then cs else cs_insert cs Upper in
  let cs := if no_digit then cs else cs_insert cs Digit in
  if no_symbol then cs else cs_insert cs Symbol.

(** add.rs:13-67 [processor] *)
Definition add_cmd (P : prims) (sp : bool) (domain name revision : bytes) (len : N)
  (no_lower no_upper no_digit no_symbol assume_yes : bool) : C unit :=
  let& _ := ensure_unlocked P sp in
  let cs := add_charset no_lower no_upper no_digit no_symbol in
  if cs_is_empty cs then cfail (Text (bs "You need to allow at least one character set."))
  else
    let& go := OVERWRITE P assume_yes domain name revision in
    if go then
      let& _ := api (set_generated P domain name revision len cs) in
      println (bs "Password added.")
    else cret tt.

(** * cli/src/processor/add_stored.rs:14-52 *)
Definition add_stored_cmd (P : prims) (sp : bool) (domain name revision : bytes) (recovery assume_yes : bool)
  : C unit :=
  let& _ := ensure_unlocked P sp in
  let& go := OVERWRITE P assume_yes domain name revision in
  if go then
    let& password := (if recovery then prompt_recovery_code P
                      else prompt_password (bs "Password to be stored: ") sp) in
    let& _ := api (set_stored P domain name revision password) in
    println (bs "Password added.")
  else cret tt.

(** * cli/src/processor/alias.rs:12-40 *)
Definition alias_cmd (P : prims) (sp : bool) (domain : bytes) (alias_target : option bytes) (remove_ : bool)
  : C unit :=
  let& _ := ensure_unlocked P sp in
  match alias_target with
  | Some target =>
      let& _ := api (set_alias P domain target) in println (bs "Alias added.")
  | None =>
      if remove_ then
        let& _ := api (remove_alias P domain) in println (bs "Alias removed.")
      else
        let& a := api (get_alias P domain) in
        println (bs "'" ++ domain ++ bs "' is an alias for '" ++ a ++ bs "'.")
  end.

(** * cli/src/processor/remove.rs:12-29 *)
Definition remove_cmd (P : prims) (sp : bool) (domain name revision : bytes) : C unit :=
  let& _ := ensure_unlocked P sp in
  let& _ := api (remove P domain name revision) in
  println (bs "Password removed.").

(** * cli/src/processor/notes.rs:14-55 *)
Definition notes_cmd (P : prims) (sp : bool) (domain name revision : bytes) (set : bool) : C unit :=
  let& _ := ensure_unlocked P sp in
  let& notes := api (get_notes P domain name revision) in
  let& _ :=
    (match notes with
     | [] => println (bs "Currently no notes are stored for this password.")
     | _ =>
         let& _ := write_direct (bs "Notes for this password: ") in
         let& _ := write_direct notes in
         write_direct [newline]
     end) in
  if set then
    let& notes := prompt_secret_text (bs "Please enter new notes to be stored:") in
    let& _ := api (set_notes P domain name revision notes) in
    println (match notes with [] => bs "Notes removed." | _ => bs "Notes stored." end)
  else cret tt.

(** * cli/src/processor/show.rs *)

(** show.rs:32 [BLOCKS] *)
Definition block (upper lower : bool) : bytes :=
  match upper, lower with
  | false, false => [x20]
  | true, false => [xe2; x96; x80]
  | false, true => [xe2; x96; x84]
  | true, true => [xe2; x96; x88]
  end.
(** show.rs:40-45: rows [y] and [y + 1] *)
Definition qr_row (q : qr) (y : nat) : bytes :=
  concat (map (fun x => block (get_module q x y) (get_module q x (y + 1))) (seq 0 (qr_size q))) ++ [newline].
(** show.rs:39: [(0..qr.size()).step_by(2)] *)
Definition qr_text (q : qr) : bytes :=
  concat (map (fun i => qr_row q (2 * i)) (seq 0 ((qr_size q + 1) / 2))).

(** show.rs:15-61 [processor]; the text of the error of crate qrcodegen is dropped *)
Definition show_cmd (P : prims) (E : externals) (sp : bool) (domain name revision : bytes) (qrcode : bool) : C unit :=
  let& _ := ensure_unlocked P sp in
  let& password := api (get P domain name revision) in
  let& _ := write_direct (bs "Password retrieved.") in
  if qrcode then
    match e_qr E password with
    | Some q => write_direct (qr_text q)
    | None => cfail (Text (bs "Error generating QR code: "))
    end
  else
    let& _ := write_direct password in
    write_direct [newline].

(** * cli/src/processor/list.rs *)

(** [Ord for str]: comparison of the bytes *)
Fixpoint bytes_leb (a b : bytes) : bool :=
  match a, b with
  | [], _ => true
  | _ :: _, [] => false
  | x :: a', y :: b' =>
      (Byte.to_N x <? Byte.to_N y)%N || (Byte.eqb x y && bytes_leb a' b')
  end.

(** [sort_by_key]: stable, hence determined; done by insertion here *)
Fixpoint insert_by {A} (key : A -> bytes) (x : A) (l : list A) : list A :=
  match l with
  | [] => [x]
  | y :: l' => if bytes_leb (key x) (key y) then x :: l else y :: insert_by key x l'
  end.
Fixpoint sort_by {A} (key : A -> bytes) (l : list A) : list A :=
  match l with [] => [] | x :: l' => insert_by key x (sort_by key l') end.

(** [dedup_by_key]: drop elements with the same key as the one kept before *)
Fixpoint dedup_after {A} (key : A -> bytes) (k : bytes) (l : list A) : list A :=
  match l with
  | [] => []
  | x :: l' => if bytes_eqb (key x) k then dedup_after key k l' else x :: dedup_after key (key x) l'
  end.
Definition dedup_by {A} (key : A -> bytes) (l : list A) : list A :=
  match l with [] => [] | x :: l' => x :: dedup_after key (key x) l' end.

(** list.rs:32-41: the listed sites and the targets of aliases among them *)
Definition arrange_sites (sites : list M_Types.site) : list M_Types.site :=
  let additions := flat_map (fun s => match site_alias s with Some a => [mk_site a None] | None => [] end) sites in
  dedup_by site_name (sort_by site_name (sites ++ additions)).

(** list.rs:43-56: what remains after [retain], and the aliases pointing to a site in the order in which
    they are pushed (the [HashMap] has no entry exactly if there are none) *)
Definition regular_sites (sites : list M_Types.site) : list M_Types.site :=
  List.filter (fun s => match site_alias s with Some _ => false | None => true end) sites.
Definition aliased (sites : list M_Types.site) (target : bytes) : list bytes :=
  map site_name (List.filter (fun s => match site_alias s with Some a => bytes_eqb a target | None => false end) sites).

(** list.rs:76-78 *)
Definition password_key (p : password) : bytes := id_name (pass_id p) ++ bs " " ++ id_revision (pass_id p).

Fixpoint each {A} (f : A -> C unit) (l : list A) : C unit :=
  match l with
  | [] => cret tt
  | x :: l' => let& _ := f x in each f l'
  end.

Definition indent : bytes := bs "        ".

(** list.rs:82-90: heading of a password *)
Definition password_line (p : password) : bytes :=
  let type := match p with Generated _ => bs "generated" | Stored _ => bs "stored" end in
  match id_revision (pass_id p) with
  | [] => bs "    " ++ id_name (pass_id p) ++ bs " (" ++ type ++ bs ")"
  | r => bs "    " ++ id_name (pass_id p) ++ bs " (" ++ type ++ bs ", revision: " ++ r ++ bs ")"
  end.

(** list.rs:136-149 *)
Definition allowed_chars (cs : charset) : bytes :=
  join (bs " ") ((if cs_contains cs Lower then [bs "abc"] else []) ++
                 (if cs_contains cs Upper then [bs "ABC"] else []) ++
                 (if cs_contains cs Digit then [bs "789"] else []) ++
                 (if cs_contains cs Symbol then [bs "+^;"] else [])).

(** list.rs:79-152: one password *)
Definition list_password (P : prims) (show recovery verbose : bool) (site : bytes) (p : password) : C unit :=
  let& _ := println (password_line p) in
  let& _ :=
    (if show then
       let& _ := print indent in
       let& _ := flush_stdout in
       let& value := api (get P site (id_name (pass_id p)) (id_revision (pass_id p))) in
       let& _ := write_direct value in
       println []
     else cret tt) in
  let& _ :=
    (match recovery, p with
     | true, Stored sp =>
         let& _ := println (indent ++ bs "Recovery code:") in
         let& code := api (get_recovery_code P sp) in
         each (fun line => println (indent ++ line)) (split_on newline code)
     | _, _ => cret tt
     end) in
  if verbose then
    let& _ :=
      (match pass_notes p with
       | [] => cret tt
       | notes =>
           let& _ := print (indent ++ bs "Notes: ") in
           let& _ := flush_stdout in
           let& _ := write_direct notes in
           println []
       end) in
    match p with
    | Generated g =>
        let& _ := println (indent ++ bs "Length: " ++ write_number (gp_length g)) in
        println (indent ++ bs "Allowed characters: " ++ allowed_chars (gp_charset g))
    | Stored _ => cret tt
    end
  else cret tt.

(** list.rs:69-74 *)
Definition heading (verbose : bool) (site : bytes) (aliases : list bytes) : C unit :=
  let& _ := println (bs "Passwords for " ++ site ++ bs ":") in
  match verbose, aliases with
  | true, _ :: _ => println (bs "    Aliases: " ++ join (bs "," ++ [newline] ++ bs "             ") aliases)
  | _, _ => cret tt
  end.

(** list.rs:58-153: the sites; returns [found] and [empty_sites] *)
Fixpoint list_loop (P : prims) (name : bytes) (show recovery verbose : bool) (all sites : list M_Types.site)
  : C (bool * list bytes) :=
  match sites with
  | [] => cret (false, [])
  | s :: rest =>
      let& l := api (list_ P (site_name s) name) in
      match l with
      | [] =>
          let& (found, empty_sites) := list_loop P name show recovery verbose all rest in
          cret (found, if bytes_eqb name (bs "*") then site_name s :: empty_sites else empty_sites)
      | _ =>
          let& _ := heading verbose (site_name s) (aliased all (site_name s)) in
          let& _ := each (list_password P show recovery verbose (site_name s)) (sort_by password_key l) in
          let& (_, empty_sites) := list_loop P name show recovery verbose all rest in
          cret (true, empty_sites)
      end
  end.

(** list.rs:16-163 [processor] *)
Definition list_cmd (P : prims) (sp : bool) (domain name : bytes) (show recovery verbose : bool) : C unit :=
  let& _ := ensure_unlocked P sp in
  let& sites := api (list_sites P domain) in
  let all := arrange_sites sites in
  let& (found, empty_sites) := list_loop P name show recovery verbose all (regular_sites all) in
  let& _ := api (remove_sites P empty_sites) in
  if found then cret tt else println (bs "No matching passwords found.").

(** * cli/src/processor/set_primary.rs:13-35; [path] is the storage path as displayed *)
Definition set_primary_cmd (P : prims) (path : bytes) (sp : bool) : C unit :=
  let& primary_password := prompt_password (bs "New primary password: ") sp in
  if length primary_password <? 6 then cfail (Text TOO_SHORT)
  else
    let& primary_password2 := prompt_password (bs "Repeat primary password: ") sp in
    if negb (bytes_eqb primary_password primary_password2) then cfail (Text (bs "Primary passwords don't match."))
    else
      let& _ := api (reset P primary_password) in
      println (bs "New primary password set for " ++ path ++ bs ".").

(** * cli/src/processor/mod.rs:22-38 [process_command], except for [Shell] *)
Definition process_simple (P : prims) (E : externals) (path : bytes) (sp : bool) (c : command) : C unit :=
  match c with
  | SetPrimary _ => set_primary_cmd P path sp
  | Add d n r len nl nu nd ns y => add_cmd P sp d n r len nl nu nd ns y
  | AddStored d n r rc y => add_stored_cmd P sp d n r rc y
  | RemoveCmd d n r => remove_cmd P sp d n r
  | Show d n r q => show_cmd P E sp d n r q
  | Notes d n r s => notes_cmd P sp d n r s
  | List d n s r v => list_cmd P sp d n s r v
  | Alias d a r => alias_cmd P sp d a r
  | Shell => cret tt (* see [process_command] *)
  end.

(** * cli/src/processor/shell.rs *)

(** One line (shell.rs:49-107): whether the session goes on. *)
Definition shell_step (P : prims) (E : externals) (path : bytes) (sp : bool) (line : bytes) : C bool :=
  match e_parse E line with
  | SError m => let& _ := eprintln m in cret true
  | SExit => cret false
  | SLock =>
      let& _ := api lock in
      let& _ := println (bs "Passwords locked.") in
      cret true
  | SCommand Shell => let& _ := eprintln (Text (bs "You cannot run a shell from a shell.")) in cret true
  | SCommand (SetPrimary _) =>
      let& _ := eprintln (Text (bs "You cannot change primary password from a shell.")) in cret true
  | SCommand c =>
      fun t =>
        match process_simple P E path sp c t with
        | (COk _, t') => (let& _ := flush_stdout in cret true) t'
        | (CErr m, t') => (let& _ := eprintln m in cret true) t'
        | (CPanic, t') => (CPanic, t')
        | (CStuck, t') => (CStuck, t')
        end
  end.

(** shell.rs:47-116: the loop. The lines still to come are put back into the terminal. *)
Fixpoint shell_loop (P : prims) (E : externals) (path : bytes) (sp : bool) (lines : list readline) : C unit :=
  match lines with
  | [] => fun t => (CStuck, t)
  | Line line :: rest =>
      let& go := (fun t => shell_step P E path sp line (with_lines rest t)) in
      if go then shell_loop P E path sp rest else cret tt
  | Interrupted :: rest => fun t => shell_loop P E path sp rest (with_lines rest t)
  | Eof :: rest => fun t => (COk tt, with_lines rest t)
  | OtherError :: rest =>
      fun t => (let& _ := eprintln (Text (bs "Error: ")) in shell_loop P E path sp rest) (with_lines rest t)
  end.

Definition SHELL_HELP : bytes :=
  bs "Enter a command or type 'help' for a list of commands. Enter 'help <command>' for detailed information on a command.".

(** shell.rs:24-127 [processor] *)
Definition shell_cmd (P : prims) (E : externals) (path : bytes) (sp : bool) : C unit :=
  let& _ := println SHELL_HELP in
  let& _ := flush_stdout in
  fun t => shell_loop P E path sp (t_lines t) t.

(** mod.rs:22-38 [process_command] *)
Definition process_command (P : prims) (E : externals) (path : bytes) (sp : bool) (c : command) : C unit :=
  match c with
  | Shell => shell_cmd P E path sp
  | _ => process_simple P E path sp c
  end.

(** * cli/src/main.rs *)

Record args : Type := mk_args { a_stdin_passwords : bool; a_command : command }.

(** A new process: what [FileIO::load] finds, or nothing (main.rs:74-96). [Passwords::new] is moved before
    the question, which does not look at it. *)
Definition start_process (P : prims) : C (res kvmap) := fun t =>
  let r := load P (s_disk (t_st t)) in
  (COk r, with_st (passwords_new (match r with Ok d => d | _ => ∅ end) (t_st t)) t).

(** main.rs:68-98 [main_inner] *)
Definition main_inner (P : prims) (E : externals) (path : bytes) (a : args) : C unit :=
  let& r := start_process P in
  match a_command a with
  | SetPrimary assume_yes =>
      let& go :=
        (match r with
         | Ok _ => if assume_yes then cret true
                   else let& allow := confirm in cret (match allow with NO => false | _ => true end)
         | _ => cret true
         end) in
      if go then process_command P E path (a_stdin_passwords a) (a_command a) else cret tt
  | c =>
      match r with
      | Ok _ => process_command P E path (a_stdin_passwords a) c
      | Err e => cfail (Lib e)
      | Panic => fun t => (CPanic, t)
      end
  end.

Inductive exit : Type := Success | Failure | Aborted | Waiting.

(** main.rs:100-111 [main]; [Passwords] is locked when dropped (passwords.rs:460-464), and the standard
    output is flushed at the end of the process *)
Definition main (P : prims) (E : externals) (path : bytes) (a : args) (t : term) : exit * term :=
  let finish t := snd (flush_stdout (snd (api lock t))) in
  match main_inner P E path a t with
  | (COk _, t') => (Success, finish t')
  | (CErr m, t') => (Failure, finish (snd (eprintln m t')))
  | (CPanic, t') => (Aborted, t')
  | (CStuck, t') => (Waiting, t')
  end.

(** The tests of the repository that run the program (cli/tests/cli/*.rs), on the model: command lines are read by
    [parse_args], lines typed in the shell by [parse_line].

    The primitives are those of [T_Toy], except for the three values of scrypt that make the generated passwords the
    tests expect (computed with an independent implementation) and for the wildcard patterns. What the tests cannot
    see in the model is left out: texts of the crates clap, question and serde_json, and the search for secrets in the
    memory of the process. *)
From Coq Require Import String.
From stdpp Require Import gmap.
From Verif Require Import M_Base M_Utf8 M_Prims M_Types M_Recovery M_Json M_Storage M_Passwords M_Concrete M_Cli M_Args
  T_Toy T_History T_Cli.
Local Open Scope list_scope.

(** scrypt of the password foobar *)
Definition generated_values : list (bytes * bytes) :=
   [([x65; x78; x61; x6d; x70; x6c; x65; x2e; x63; x6f; x6d; x00; x62; x6c; x75; x62; x62; x65; x72],
    [x78; x28; x6c; x1f; x5a; x0b; x8c; x8b; x43; xaf; x6a; xfa; xa2; xa6; x60; x1e]);
    ([x65; x78; x61; x6d; x70; x6c; x65; x2e; x63; x6f; x6d; x00; x62; x6c; x75; x62; x62; x65; x72; x00; x32],
    [xe7; xc1; x5c; xcf; x74]);
    ([x65; x78; x61; x6d; x70; x6c; x65; x2e; x63; x6f; x6d; x00; x62; x6c; x75; x62; x62; x65; x72; x00; x38],
    [xb8; xaa; x6f; xff; x90; xc7; x99; xd5; x69; xcd; xa0; x21; x7a; xb7; x4b; xec; x6f; x33; x7b; x82])].
Definition test_scrypt (p s : bytes) (n : nat) : bytes :=
  match find (fun '(s', v) => bytes_eqb p (bs "foobar") && bytes_eqb s s' && (length v =? n)) generated_values with
  | Some (_, v) => v
  | None => fit n (p ++ s)
  end.
Definition cli_prims : prims :=
  mk_prims false (p_hmac toy_release) (p_seal toy_release) (p_open toy_release) test_scrypt (p_random toy_release)
           (p_order toy_release) wildmatch (fun _ => WriteOk) (fun _ => true).

(** The code for [asdf], see passwords.rs:519-533 *)
Definition asdf_code : list bytes :=
  map bs
  ["#######.#.....#######";
   "#.....#.#..#..#.....#";
   "#.###.#.#..##.#.###.#";
   "#.###.#..##...#.###.#";
   "#.###.#..##.#.#.###.#";
   "#.....#.#.#.#.#.....#";
   "#######.#.#.#.#######";
   "........###.#........";
   "..###.#.#...####..###";
   "..####....#.####..###";
   "..#...######....##.#.";
   ".#.#.#......##.#####.";
   "#...#.###...#.#.#....";
   "........#.#..#...##.#";
   "#######...###.##..##.";
   "#.....#.......#..##..";
   "#.###.#.###...##...#.";
   "#.###.#.####...#.##..";
   "#.###.#.##..#.#.#....";
   "#.....#...#.#####.#..";
   "#######.....#.#.#.##."]%string.
Definition asdf_qr : qr :=
  mk_qr 21 (fun x y => Byte.eqb (nth x (nth y asdf_code []) x00) "#"%byte).
Definition cli_ext : externals :=
  shell_externals (fun p => if bytes_eqb p (bs "asdf") then Some asdf_qr else None).

(** * common.rs *)

(** What a test expects of the output: a string on the standard output ([expect_str]) or among the error messages, a
    string up to which the standard output is another one ([read_to], [trim], [assert_eq]). *)
Inductive expected : Type := Out (s : string) | Err_ (s : string) | Upto (p : bytes) (s : bytes).

(** What comes after the first occurrence of [p], and what comes before its end *)
Fixpoint search (p s acc : bytes) : option (bytes * bytes) :=
  match strip_prefix p s with
  | Some r => Some (rev acc ++ p, r)
  | None => match s with [] => None | c :: s' => search p s' (c :: acc) end
  end.
Fixpoint satisfied (l : list expected) (out err : bytes) : bool :=
  match l with
  | [] => true
  | Out p :: l' => match search (bs p) out [] with Some (_, r) => satisfied l' r err | None => false end
  | Err_ p :: l' => match search (bs p) err [] with Some (_, r) => satisfied l' out r | None => false end
  | Upto p s :: l' =>
      match search p out [] with
      | Some (a, r) => bytes_eqb (trim a) (trim s) && satisfied l' r err
      | None => false
      end
  end.
Definition empty_line : bytes := [newline; newline].

Definition text_of (m : message) : bytes :=
  match m with Lib e => format_error [] e | Text t => t end ++ [newline].

(** A process: its arguments, what is typed (given what the previous process printed after [Recovery code:]), what is
    expected. *)
Record step : Type := mk_step { p_words : list string; p_typed : bytes -> typing; p_expected : list expected }.

(** common.rs:46-55 *)
Definition storage_path : string := "/tmp/storage".
Definition command_line (words : list string) : list bytes :=
  map bs (["--stdin-passwords"; "-c"; storage_path; "--wait"]%string ++ words).

Definition force_term {A : Type} (t : term) (k : st -> bytes -> bytes -> A) : A :=
  force_state (t_st t) (fun s => force_bytes (t_shown t) (fun out =>
  force_bytes (concat (map text_of (t_err t))) (fun err => k s out err))).

Fixpoint passes (l : list step) (s : st) (before : bytes) : bool :=
  match l with
  | [] => true
  | x :: l' =>
      match parse_args (command_line (p_words x)) with
      | None => false
      | Some i =>
          force_term (snd (program cli_prims cli_ext (bs storage_path) i (typed (p_typed x before) s))) (fun s' out err =>
          satisfied (p_expected x) out err &&
          passes l' s' (match search (bs "Recovery code:") out [] with
                        | Some (_, r) => match search empty_line r [] with Some (c, _) => trim c | None => [] end
                        | None => []
                        end))
      end
  end.

(** Lines typed *)
Definition lines (l : list string) : bytes := concat (map (fun x => bs x ++ [newline]) l).
Definition types (l : list string) (_ : bytes) : typing := mk_typing (lines l) [] [] [] [].
Definition answers (l : list string) (a : answer) (_ : bytes) : typing := mk_typing (lines l) [] [a] [] [].
(** common.rs:60-65 *)
Definition foobar : bytes -> typing := types ["foobar"%string].
(** common.rs:70-78 [initialize] *)
Definition initialize : step :=
  mk_step ["set-primary"%string] (types ["foobar"; "foobar"]%string)
    [Out "New primary password:"; Out "Repeat primary password:"; Out "primary password set"].

Definition test (l : list step) : bool := passes l start [].
Definition test_with_file (data : string) (l : list step) : bool :=
  passes l (mk_st ∅ None None None (Some (bs data)) 0 0 0) [].

Local Open Scope string_scope.

(** * initialization.rs *)

Example cli_short_password :
  test [mk_step ["set-primary"] (types ["asdf"]) [Out "New primary password"; Err_ "at least 6 characters"]] = true.
Proof. vm_compute. reflexivity. Qed.

Example cli_mismatch :
  test [mk_step ["set-primary"] (types ["foobar"; "asdfyxcv"])
          [Out "New primary password"; Out "Repeat primary password"; Err_ "don't match"]] = true.
Proof. vm_compute. reflexivity. Qed.

Example cli_success :
  test [initialize;
        mk_step ["list"] (types ["asdfyxcv"; "foobar"])
          [Out "Your primary password:"; Err_ "Decryption failure"; Out "Your primary password"; Out "No matching passwords"]]
  = true.
Proof. vm_compute. reflexivity. Qed.

Example cli_reinitialization_aborted :
  test [initialize; mk_step ["set-primary"] (answers [] NO) [];
        mk_step ["list"] foobar [Out "Your primary password:"; Out "No matching passwords"]] = true.
Proof. vm_compute. reflexivity. Qed.

Definition other_password : list step :=
  [mk_step ["list"] (types ["foobar"; "asdfyxcv"])
     [Out "Your primary password:"; Err_ "Decryption failure"; Out "Your primary password"; Out "No matching passwords"]].
Example cli_reinitialization_accepted :
  test (initialize ::
        mk_step ["set-primary"] (answers ["asdfyxcv"; "asdfyxcv"] YES)
          [Out "New primary password"; Out "Repeat primary password"; Out "primary password set"] :: other_password) = true.
Proof. vm_compute. reflexivity. Qed.

Example cli_reinitialization_noninteractive :
  test (initialize ::
        mk_step ["set-primary"; "-y"] (types ["asdfyxcv"; "asdfyxcv"])
          [Out "New primary password"; Out "Repeat primary password"; Out "primary password set"] :: other_password) = true.
Proof. vm_compute. reflexivity. Qed.

(** * passwords.rs *)

Definition unreadable : list expected := [Err_ "Failed reading storage file"].

Example cli_passwords_uninitialized :
  test (map (fun c => mk_step [c; "example.com"; "blubber"] (types []) unreadable) ["add"; "add-stored"; "show"; "notes"]) = true.
Proof. vm_compute. reflexivity. Qed.

Definition added : list expected := [Out "Your primary password:"; Out "Password added"].
Definition added_stored : list expected := [Out "Your primary password:"; Out "Password to be stored"; Out "Password added"].
Definition shown (password : string) : list expected :=
  [Out "Your primary password:"; Out "Password retrieved."; Upto empty_line (bs password)].
Definition listed (text : string) : list expected := [Out "Your primary password:"; Upto empty_line (bs text)].
Definition nothing_found : list expected := [Out "Your primary password:"; Out "No matching passwords"].

Definition add_blubber : step := mk_step ["add"; "example.com"; "blubber"] foobar added.
Definition add_blubber_2 : step :=
  mk_step ["add"; "example.com"; "blubber"; "-r"; "2"; "--no-lower"; "--no-digit"; "--length"; "5"] foobar added.
Definition add_blubber_8 : step :=
  mk_step ["add"; "example.com"; "blubber"; "-r"; "8"; "--no-upper"; "--no-symbol"; "--length"; "20"] foobar added.
Definition add_blabber (site : string) : step :=
  mk_step ["add-stored"; site; "blabber"] (types ["foobar"; "asdf"]) added_stored.
Definition add_another : step :=
  mk_step ["add-stored"; "example.com"; "blabber"; "-r"; "another"] (types ["foobar"; "yxcv"]) added_stored.

Example cli_add :
  test [initialize; add_blubber; add_blubber_2; add_blubber_8; add_blabber "example.com"; add_another;
        mk_step ["list"; "-v"] foobar (listed
"Passwords for example.com:
    blabber (stored)
    blabber (stored, revision: another)
    blubber (generated)
        Length: 16
        Allowed characters: abc ABC 789 +^;
    blubber (generated, revision: 2)
        Length: 5
        Allowed characters: ABC +^;
    blubber (generated, revision: 8)
        Length: 20
        Allowed characters: abc 789
");
        mk_step ["show"; "example.com"; "blubber"; "--revision"; "1"] foobar (shown "SUDJjn&%:nBe}cr8");
        mk_step ["show"; "example.com"; "blubber"; "-r"; "2"] foobar (shown "&>?DR");
        mk_step ["show"; "example.com"; "blubber"; "-r"; "8"] foobar (shown "8svhxq86pwfc87qwvx9g");
        mk_step ["show"; "-r"; "1"; "example.com"; "blabber"] foobar (shown "asdf");
        mk_step ["show"; "-r"; "another"; "example.com"; "blabber"] foobar (shown "yxcv")] = true.
Proof. vm_compute. reflexivity. Qed.

Definition add_short (a : bytes -> typing) (e : list expected) : step :=
  mk_step ["add"; "example.com"; "blubber"; "--length"; "8"; "--no-lower"] a e.
Definition list_short : step :=
  mk_step ["list"; "-v"] foobar (listed
"Passwords for example.com:
    blubber (generated)
        Length: 8
        Allowed characters: ABC 789 +^;
").

Example cli_overwrite_aborted :
  test [initialize; add_blubber; add_short (answers ["foobar"] NO) [Out "Your primary password:"];
        mk_step ["list"; "-v"] foobar (listed
"Passwords for example.com:
    blubber (generated)
        Length: 16
        Allowed characters: abc ABC 789 +^;
")] = true.
Proof. vm_compute. reflexivity. Qed.

Definition show_blabber (password : string) : step := mk_step ["show"; "example.com"; "blabber"] foobar (shown password).
Example cli_overwrite_aborted_stored :
  test [initialize; add_blabber "example.com";
        mk_step ["add-stored"; "example.com"; "blabber"] (answers ["foobar"] NO) [Out "Your primary password:"];
        show_blabber "asdf"] = true.
Proof. vm_compute. reflexivity. Qed.

Example cli_overwrite_accepted :
  test [initialize; add_blubber; add_short (answers ["foobar"] YES) added; list_short] = true.
Proof. vm_compute. reflexivity. Qed.

Example cli_overwrite_accepted_stored :
  test [initialize; add_blabber "example.com";
        mk_step ["add-stored"; "example.com"; "blabber"] (answers ["foobar"; "yxcv"] YES) added_stored;
        show_blabber "yxcv"] = true.
Proof. vm_compute. reflexivity. Qed.

Example cli_overwrite_noninteractive :
  test [initialize; mk_step ["add"; "-y"; "example.com"; "blubber"] foobar added;
        mk_step ["add"; "-y"; "example.com"; "blubber"; "--length"; "8"; "--no-lower"] foobar added; list_short] = true.
Proof. vm_compute. reflexivity. Qed.

Example cli_overwrite_noninteractive_stored :
  test [initialize; mk_step ["add-stored"; "-y"; "example.com"; "blabber"] (types ["foobar"; "asdf"]) added_stored;
        mk_step ["add-stored"; "-y"; "example.com"; "blabber"] (types ["foobar"; "yxcv"]) added_stored;
        show_blabber "yxcv"] = true.
Proof. vm_compute. reflexivity. Qed.

Example cli_remove :
  test [initialize; mk_step ["add"; "example.com"; "blubber"; "-r"; "5"] foobar added; add_blabber "example.com";
        mk_step ["remove"; "example.com"; "blubber"; "-r"; "5"] foobar [Out "Your primary password:"; Out "Password removed"];
        mk_step ["remove"; "example.com"; "blabber"] foobar [Out "Your primary password:"; Out "Password removed"];
        mk_step ["list"; "-v"] foobar nothing_found] = true.
Proof. vm_compute. reflexivity. Qed.

Example cli_recovery_codes :
  test [initialize; add_blabber "example.com";
        mk_step ["add-stored"; "-c"; "example.net"; "test"]
          (fun _ => mk_typing (lines ["foobar"]) [] [] [Some (RESPONSE [])] []) [Out "Your primary password:"];
        mk_step ["list"; "-r"] foobar [Out "Your primary password:"; Out "Recovery code:"];
        mk_step ["add-stored"; "-c"; "example.net"; "test"]
          (fun code => mk_typing (lines ["foobar"]) [] [] (map (fun l => Some (RESPONSE l)) (split_on newline code)) []) added;
        mk_step ["show"; "example.net"; "test"] foobar (shown "asdf")] = true.
Proof. vm_compute. reflexivity. Qed.

Example cli_show_qrcode :
  test [initialize; add_blabber "example.com";
        mk_step ["show"; "-q"; "example.com"; "blabber"] foobar (shown
"█▀▀▀▀▀█ █  ▄  █▀▀▀▀▀█
█ ███ █ ▀▄▄▀▀ █ ███ █
█ ▀▀▀ █ ▄▀█ █ █ ▀▀▀ █
▀▀▀▀▀▀▀ █▄█ █ ▀▀▀▀▀▀▀
  ███▄▀ ▀ ▄ ████  ███
 ▄▀▄ ▄▀▀▀▀▀▀▄▄ ▄██▄█ 
▀   ▀ ▀▀█ ▄ ▀▄▀ ▀▄▄ ▄
█▀▀▀▀▀█   ▀▀▀ █▀ ▄█▀ 
█ ███ █ ███▄  ▀█ ▄▄▀ 
█ ▀▀▀ █ ▀▀▄ █▄█▄█ ▄  
▀▀▀▀▀▀▀     ▀ ▀ ▀ ▀▀ 
")] = true.
Proof. vm_compute. reflexivity. Qed.

Definition notes_2 (o : list string) (y : bytes -> typing) (e : list expected) : step :=
  mk_step (["notes"; "example.com"; "blubber"; "-r"; "2"] ++ o)%list y (Out "Your primary password:" :: e).
Example cli_notes :
  test [initialize; add_blubber_2;
        notes_2 [] foobar [Out "no notes are stored"];
        notes_2 ["-s"] (types ["foobar"; "hi there!"]) [Out "no notes are stored"; Out "enter new notes"; Out "Notes stored"];
        notes_2 [] foobar [Out "Notes for this password: hi there!"];
        notes_2 ["-s"] (types ["foobar"; ""]) [Out "Notes for this password: hi there!"; Out "enter new notes"; Out "Notes removed"];
        notes_2 [] foobar [Out "no notes are stored"]] = true.
Proof. vm_compute. reflexivity. Qed.

(** * aliases.rs *)

Example cli_aliases_uninitialized :
  test (map (fun w => mk_step ("alias" :: w) (types []) unreadable)
          [["example.info"]; ["example.info"; "example.com"]; ["-r"; "example.info"]]) = true.
Proof. vm_compute. reflexivity. Qed.

Definition alias_step (w : list string) (e : expected) : step := mk_step ("alias" :: w) foobar [Out "Your primary password:"; e].
Definition show_step (site : string) (e : expected) : step :=
  mk_step ["show"; site; "blubber"] foobar [Out "Your primary password:"; e].
Example cli_aliases_add_remove :
  test [initialize; add_blubber;
        show_step "example.info" (Err_ "No such value");
        alias_step ["example.info"] (Err_ "is not an alias");
        alias_step ["example.info"; "example.com"] (Out "Alias added");
        alias_step ["example.net"; "example.com"] (Out "Alias added");
        alias_step ["example.info"] (Out "'example.info' is an alias for 'example.com'");
        alias_step ["example.net"] (Out "'example.net' is an alias for 'example.com'");
        alias_step ["example.com"] (Err_ "is not an alias");
        show_step "example.info" (Out "Password retrieved");
        alias_step ["-r"; "example.info"] (Out "Alias removed");
        show_step "example.info" (Err_ "No such value");
        show_step "example.net" (Out "Password retrieved")] = true.
Proof. vm_compute. reflexivity. Qed.

(** * invalid_data.rs; of the text in parentheses nothing is modelled *)

Definition listing (e : list expected) : list step := [mk_step ["list"] (types []) e].
Definition corrupt : list step := listing [Err_ "Corrupt JSON data"].
Definition missing : list step := listing [Err_ "Storage is missing data"].

Example cli_invalid_data :
  test_with_file "" corrupt = true /\
  test_with_file "42" corrupt = true /\
  test_with_file "{}" corrupt = true /\
  test_with_file "{""application"":""easypasswords""}" corrupt = true /\
  test_with_file "{""application"":""pfp"",""format"":8}" corrupt = true /\
  test_with_file "{""application"":""pfp"",""format"":""3""}" corrupt = true /\
  test_with_file "{""application"":""pfp"",""format"":3}" corrupt = true /\
  test_with_file "{""application"":""pfp"",""format"":3,""data"":null}" corrupt = true /\
  test_with_file "{""application"":""pfp"",""format"":3,""data"":{}}" missing = true /\
  test_with_file "{""application"":""pfp"",""format"":3,""data"":{""hmac_secret"":""abc""}}" missing = true /\
  test_with_file "{""application"":""pfp"",""format"":3,""data"":{""salt"":""cba""}}" missing = true /\
  test_with_file "{""application"":""pfp"",""format"":3,""data"":{""salt"":""cba"",""hmac-secret"":""abc""}" corrupt = true /\
  test_with_file "{""application"":""pfp"",""format"":3,""data"":{""salt"":""cba"",""hmac-secret"":""abc""},""something"":2}" corrupt
  = true /\
  test_with_file "{""application"":""pfp"",""format"":3,""data"":{""salt"":""cba"",""hmac-secret"":""abc""}}5" corrupt = true /\
  test_with_file "{""application"":""pfp"",""format"":3,""data"":{""salt"":""cba"",""hmac-secret"":""abc""}}"
    (listing [Out "Your primary password:"]) = true.
Proof. vm_compute. repeat split; reflexivity. Qed.

(** * list.rs *)

Example cli_list_uninitialized : test (listing unreadable) = true.
Proof. vm_compute. reflexivity. Qed.

Example cli_list :
  test [initialize; add_blubber; add_blubber_2; add_blubber_8; add_blabber "example.net"; add_another;
        alias_step ["example.info"; "example.com"] (Out "Alias added");
        alias_step ["example.org"; "example.com"] (Out "Alias added");
        mk_step ["notes"; "www.example.com"; "blubber"; "-r"; "8"; "-s"] (types ["foobar"; "Now some notes stored here"])
          [Out "Your primary password:"; Out "no notes are stored"; Out "enter new notes"; Out "Notes stored"];
        mk_step ["list"; "-v"; "foo.example.com"] foobar nothing_found;
        mk_step ["list"; "-v"; "example.com"; "x*"] foobar nothing_found;
        mk_step ["list"; "-v"; "-s"] foobar (listed
"Passwords for example.com:
    Aliases: example.info,
             example.org
    blabber (stored, revision: another)
        yxcv
    blubber (generated)
        SUDJjn&%:nBe}cr8
        Length: 16
        Allowed characters: abc ABC 789 +^;
    blubber (generated, revision: 2)
        &>?DR
        Length: 5
        Allowed characters: ABC +^;
    blubber (generated, revision: 8)
        8svhxq86pwfc87qwvx9g
        Notes: Now some notes stored here
        Length: 20
        Allowed characters: abc 789
Passwords for example.net:
    blabber (stored)
        asdf
");
        mk_step ["list"; "-v"; "*.net"] foobar (listed
"Passwords for example.net:
    blabber (stored)
");
        mk_step ["list"; "-v"; "example.com"; "*ub*"] foobar (listed
"Passwords for example.com:
    Aliases: example.info,
             example.org
    blubber (generated)
        Length: 16
        Allowed characters: abc ABC 789 +^;
    blubber (generated, revision: 2)
        Length: 5
        Allowed characters: ABC +^;
    blubber (generated, revision: 8)
        Notes: Now some notes stored here
        Length: 20
        Allowed characters: abc 789
");
        mk_step ["list"; "-v"; "example.info"; "blabber"] foobar (listed
"Passwords for example.com:
    Aliases: example.info
    blabber (stored, revision: another)
");
        mk_step ["list"; "-v"; "*"; "blabber"] foobar (listed
"Passwords for example.com:
    Aliases: example.info,
             example.org
    blabber (stored, revision: another)
Passwords for example.net:
    blabber (stored)
")] = true.
Proof. vm_compute. reflexivity. Qed.

(** * shell.rs *)

Definition shell_lines (l : list string) : list readline := map (fun x => Line (bs x)) l.
Example cli_shell :
  test [initialize;
        mk_step ["shell"; "-s"; "/tmp/history"]
          (fun _ => mk_typing (lines ["foobar"; "asdf"; "asdf"; "hi there!"; "foobar"]) [] [] []
             (shell_lines ["help"; "help add"; "add example.com blubber"; "add-stored example.com 'blabber whatever'";
                "add-stored -r 2 example.com 'blabber whatever'"; "remove example.com 'blabber whatever'";
                "alias example.info example.com"; "alias example.org example.com"; "notes -s example.com blubber";
                "notes example.com blubber"; "lock"; "alias -r example.info";
                "show --revision 2 example.com ""blabber whatever"""; "list -v"; "set-primary"; "shell"; "exit"]))
          [Out "Enter a command"; Out "Your primary password:"; Out "Password added";
           Out "Password to be stored"; Out "Password added"; Out "Password to be stored"; Out "Password added";
           Out "Password removed"; Out "Alias added"; Out "Alias added"; Out "no notes are stored"; Out "enter new notes";
           Out "Notes stored"; Out "hi there!"; Out "Passwords locked"; Out "Your primary password:"; Out "Alias removed";
           Out "Password retrieved"; Out "asdf"; Upto (bs "+^;")
(bs "Passwords for example.com:
    Aliases: example.org
    blabber whatever (stored, revision: 2)
    blubber (generated)
        Notes: hi there!
        Length: 16
        Allowed characters: abc ABC 789 +^;
"); Err_ "cannot change primary password"; Err_ "cannot run a shell"]] = true.
Proof. vm_compute. reflexivity. Qed.

#!/usr/bin/env python3
# Generates /verif/properties.jsonl from the table below (one tuple per property).
import json
P = []
def p(id, title, statement, quant, why, anchors):
    P.append(dict(id=id, title=title, statement=statement, quantifier=quant,
                  why_tests_cant=why, anchors=anchors))

CR="pfp/src/crypto.rs"; RC="pfp/src/recovery_codes.rs"; ST="pfp/src/storage.rs"; PW="pfp/src/passwords.rs"
PT="pfp/src/storage_types/password.rs"; SI="pfp/src/storage_types/site.rs"; FI="pfp/src/storage_io/file.rs"
JM="pfp/src/json/macros.rs"; CS="pfp/src/storage_types/character_set.rs"
CL="cli/src/processor/"

p("C01","Base32 codec is lossless",
  "base32_encode succeeds exactly on inputs whose length is a multiple of 5, its output has 8 characters per 5 input bytes, all from the 32-character alphabet, and base32_decode of that output returns the input.",
  "every byte sequence of every length",
  "256^n inputs for every n; unit tests sample five strings",
  [CR+":base32_encode", CR+":base32_decode"])
p("C02","Base32 decoding accepts exactly the canonical encodings",
  "base32_decode succeeds exactly when the input length is a multiple of 8 and every byte is in the alphabet; on success re-encoding gives the input back, and in every other case the result is the UnexpectedData error (never a panic, never partial data).",
  "every byte sequence of every length",
  "acceptance and rejection over an unbounded input space",
  [CR+":base32_decode"])
p("C03","Block checksum detects any single-byte error and pins the line number and the final-line flag",
  "For two inputs of equal length that differ in exactly one byte the checksum differs; for the same input two different virtual bytes give different checksums, so a line can never be valid both as a final and as a non-final line of the same number, nor (below 128 lines) for two different line numbers.",
  "every block content, every position, every replacement byte, every virtual byte",
  "256^14 blocks times positions times replacement bytes",
  [CR+":pearson_hash", RC+":validate"])
p("C04","Generated passwords obey the requested policy",
  "Turning n derived bytes into a password with a non-empty set of character types yields exactly n characters, each belonging to a selected type, and if n is at least the number of selected types every selected type occurs at least once; if n is smaller all characters are of pairwise different types.",
  "every byte sequence, every length, every one of the 15 non-empty character sets",
  "depends on the whole byte sequence through the 'seen' set; all lengths",
  [CR+":to_password", CR+":derive_password"])
p("C05","Generation excludes no policy-compliant password",
  "For every string that satisfies the policy of C04 there is a byte sequence from which the generator produces exactly that string, and the characters I, l, i, o, O, 0, 1, \", ' and \\ are never produced.",
  "every policy-compliant string of every length, every character set",
  "surjectivity is a for-all/exists statement over an infinite set",
  [CR+":to_password", CR+":CHARS_MAPPING"])
p("C06","When generating a password value can panic",
  "Retrieving a generated password panics exactly when its length is 0, its character set is empty or the length exceeds the scrypt output limit (2^37-1); both can be created through the public set_generated API, so 'get never panics' is refuted, and passwords created through the command line (length 4..24, at least one type) never panic.",
  "every length, character set and primary password",
  "absence of panics over all inputs",
  [CR+":to_password", CR+":derive_bits", PW+":Passwords::get", "cli/src/args.rs:validate_length", CL+"add.rs:processor"])
p("C07","Recovery code round trip",
  "For every stored password that does not end in a NUL byte, decoding the generated recovery code with the same primary password returns exactly that password; a password ending in NUL bytes comes back without them (refutes the unrestricted statement).",
  "every password (any length, any bytes), every 16-byte salt, every nonce, every primary password",
  "all lengths modulo the block size and all contents; tests try three passwords",
  [RC+":generate", RC+":decode", PW+":Passwords::get_recovery_code", PW+":Passwords::decode_recovery_code"])
p("C08","Recovery codes are insensitive to layout",
  "The result of decoding depends only on the sequence of alphabet characters (upper-cased) in the input: inserting or deleting any characters outside the alphabet, changing case, or re-formatting with or without punctuation never changes the result; the canonical format is idempotent.",
  "every input byte string, every interleaving of ignored characters",
  "unbounded inputs and interleavings",
  [RC+":format_code", RC+":validate", RC+":decode"])
p("C09","A single mistyped character in a recovery code is always rejected",
  "Replacing any one character of a valid recovery code by any other character (from the alphabet or not) makes decoding fail with an error; no such code is ever decoded to a password.",
  "every valid code of every length, every position, every replacement character",
  "the checksum is only 8 bits per line and most characters straddle two bytes; sampling cannot establish that no collision exists",
  [RC+":validate", CR+":pearson_hash", CR+":base32_decode"])
p("C10","A missing or superfluous character is always rejected",
  "A code whose number of alphabet characters is not a multiple of 24 never decodes; hence deleting or inserting a single alphabet character anywhere in a valid code is always rejected.",
  "every code, every position, every inserted character",
  "unbounded",
  [RC+":validate"])
p("C11","Truncated and over-long recovery codes are reported as such",
  "Keeping only the first k lines of a valid n-line code (k < n), possibly followed by an incomplete line, reports RecoveryCodeIncomplete; appending any alphabet characters to a valid n-line code reports RecoveryCodeExtraData with line n.",
  "every valid code, every cut, every appended text",
  "unbounded cuts and suffixes",
  [RC+":validate"])
p("C12","Misplaced lines are reported at the right line",
  "If the first k lines of the input are valid non-final lines and line k is a valid line of another position (or final/non-final flag; codes of fewer than 128 lines), decoding reports RecoveryCodeChecksumMismatch for line k; in particular exchanging two lines is always detected at the first exchanged line.",
  "every code below 128 lines, every pair of lines",
  "all permutations of all codes",
  [RC+":validate", CR+":pearson_hash"])
p("C13","Recovery code size leaks only the padded length",
  "The generated code consists of exactly ceil((45+len)/14) complete lines of 24 characters grouped 4-4-4:4-4-4, and never depends on the password length otherwise.",
  "every password, salt, nonce",
  "all lengths",
  [RC+":generate", RC+":format_code"])
p("C14","Recovery code decoding is total in release builds, and panics for an empty password in debug builds",
  "With overflow checks off, decoding arbitrary text never panics. With overflow checks on, decoding the genuine code of the empty password panics (refutes totality for development builds), and so do codes with more than 256 lines.",
  "every input text, every primary password, both build profiles",
  "totality over all inputs",
  [RC+":decode", RC+":generate", RC+":validate"])
p("C15","Interactive recovery code entry",
  "While entering a recovery code line by line, whatever was typed before, the accumulated text always consists of lines that are valid so far, no index is ever out of range, rejected lines are forgotten and accepted ones kept, and typing the lines of a valid code (with any number of lines with checksum errors in between) ends with the decoded password.",
  "every sequence of typed lines",
  "every interactive history",
  [CL+"utils.rs:prompt_recovery_code"])
p("C16","Encryption round trip",
  "decrypt_data(encrypt_data(m, k), k) returns m, and the ciphertext text has the form base64(nonce)_base64(ciphertext) containing exactly one underscore and no colon.",
  "every plaintext, every 32-byte key, every nonce",
  "all plaintexts and nonces",
  [CR+":encrypt_data", CR+":decrypt_data"])
p("C17","Corrupt ciphertext: error or panic",
  "For a 32-byte key decrypt_data returns an error or a plaintext for every text, except that it panics exactly when the part before the first underscore is valid Base64 of a length other than 12 bytes; hence a storage file can be crafted on which unlock panics (refutes 'corrupt data is always reported as an error').",
  "every text",
  "totality over all inputs",
  [CR+":decrypt_data", PW+":Passwords::unlock"])
p("C18","Distinct salts derive keys from distinct scrypt salts",
  "The salt given to scrypt is the UTF-8 encoding of the salt bytes read as Latin-1; this map is injective and every derived key has 32 bytes.",
  "every pair of salts of any length",
  "injectivity over an infinite domain",
  [PW+":get_encryption_key", CR+":derive_key"])
p("C19","Records survive serialization",
  "For every site entry and every password entry (all field values, including empty notes, quotes, control and non-ASCII characters) deserializing the serialized JSON text returns the same entry. The text itself is a JSON object with the documented members in a fixed order and nothing else, so that other programs find what they look for.",
  "every record with valid UTF-8 fields",
  "all strings, escapes and flag combinations",
  [PT+":Password", SI+":Site", JM+":enumset_serialization", "pfp/src/json/secret_serialization.rs"])
p("C20","The storage file round-trips and foreign files are rejected",
  "Loading the text written by flush returns exactly the key/value data, whatever the map iteration order; loading succeeds only for JSON with exactly the fields application = \"pfp\", format = 3 and a string-to-string data object. The text written is that object, without white space, with every entry once.",
  "every key/value map, every iteration order; every file content for the rejection half",
  "all maps, orders and file contents",
  [FI+":FileIO::load", FI+":FileIO::flush", JM+":const_serializable"])
p("C21","Different password identifiers use different storage slots",
  "Unless the HMAC collides on one of the finitely many strings used, two identifiers with different site, name or (normalised) revision are stored under different keys, provided the names contain no NUL character; with NUL characters two different identifiers share one key (refutation).",
  "every pair of identifiers",
  "all pairs of strings",
  [ST+":Storage::get_password_key", ST+":Storage::get_site_key"])
p("C22","Site entries and password entries are never confused",
  "No site key ever equals a password key, the salt key or the HMAC secret key; listing sites only looks at site entries and listing the passwords of a site only looks at password entries of that site.",
  "all sites, names, revisions and HMAC secrets",
  "all digests",
  [ST+":Storage::list_sites", ST+":Storage::list_passwords", ST+":Storage::get_site_prefix"])
p("C23","The password API behaves like a simple vault",
  "After any history of API calls (reset, lock, unlock, set/remove/get alias, remove_sites, set_generated, set_stored, has, get, get/set notes, remove, list, list_sites, restart) every call returns what a plain map from (site, name, revision) to entries with a plain alias map would return.",
  "every finite history of calls with every argument, every random source, every map iteration order, every schedule of write failures",
  "infinitely many histories",
  [PW+":Passwords", ST+":Storage"])
p("C24","Acknowledged changes are durable",
  "When a modifying call returns Ok the storage file on disk holds exactly the data in memory: reloading it in a new process and unlocking with the same primary password gives a vault with the same contents; when it fails in creating the directory or opening the file, the file is unchanged.",
  "every history, every schedule of write failures",
  "every history and failure point",
  [PW+":Passwords", FI+":FileIO::flush", FI+":FileIO::load"])
p("C25","Operations touch nothing else",
  "set_generated, set_stored, set_notes and remove change at most the addressed entry (and create the site entry); alias operations change only the addressed site; read operations change nothing at all.",
  "every state and every other identifier",
  "frame condition over all other identifiers",
  [PW+":Passwords"])
p("C26","Aliases and the www. prefix are transparent",
  "Any password operation through www.S, S, or an alias of S has the same result and the same effect as the operation on the resolved site.",
  "every state, site and operation",
  "all states",
  [ST+":Storage::resolve_site", ST+":Storage::normalize_site", PW+":Passwords"])
p("C27","Alias structure",
  "set_alias never makes a site with passwords or the target itself an alias and makes it an alias of what the given target currently resolves to; but chains can arise (A -> B, then B -> C), after which the passwords filed under B are reachable through A only (refutes 'an alias always points to a regular site').",
  "every history",
  "histories",
  [PW+":Passwords::set_alias", ST+":Storage::set_alias"])
p("C28","Revision 1 is the empty revision",
  "For every operation taking a revision, passing \"1\" and passing the empty string have identical results and effects, and no other two revisions are identified.",
  "every state and operation",
  "all states and operations",
  [PT+":PasswordId::new", PW+":Passwords"])
p("C29","Locked storage reveals and changes nothing",
  "In a locked instance every fallible operation needing secrets returns PasswordsLocked without changing memory or disk (list and list_sites panic), lock erases key, HMAC secret and primary password, and unlocking again restores exactly the previous view.",
  "every state and operation",
  "all states",
  [PW+":Passwords::lock", PW+":Passwords::unlock"])
p("C30","Unlock accepts the right primary password and a failed unlock changes nothing",
  "After reset(p), in every later state, unlock(p) succeeds; unlock(q) for another q fails with DecryptionFailure whenever the authenticated decryption under q's key rejects the stored ciphertext, and a failed unlock leaves the instance exactly as it was.",
  "every history and every candidate password",
  "all histories and passwords",
  [PW+":Passwords::unlock", PW+":Passwords::reset"])
p("C31","Reset starts from an empty vault",
  "A successful reset leaves the storage initialized, unlocked and containing no site and no password, in memory and on disk, regardless of the previous contents.",
  "every previous state",
  "all states",
  [PW+":Passwords::reset", ST+":Storage::clear"])
p("C32","Failed writes",
  "If writing fails a call reports the error; except for reset the memory then holds the change and a later successful write persists it. If reset fails to write, the instance stays unlocked with the old key on top of new empty data: passwords added afterwards are acknowledged, but lost after the next unlock (refutes 'after an error the instance is still consistent').",
  "every state and failure kind",
  "failure schedules",
  [PW+":Passwords::reset", FI+":FileIO::flush"])
p("C33","Notes",
  "set_notes changes only the notes of the addressed password and get_notes returns what was set last; replacing a password by set_generated or set_stored clears its notes; password value and generation parameters are unaffected by notes.",
  "every state and notes text",
  "all states and texts",
  [PW+":Passwords::set_notes", PW+":Passwords::get_notes", PT+":Password::set_notes"])
p("C34","Listing is complete and exact",
  "list returns each password of the resolved site whose name matches the pattern exactly once and nothing else; list_sites returns each site entry whose name or alias target matches exactly once and nothing else.",
  "every reachable state, every pattern, every map iteration order",
  "all states and orders",
  [PW+":Passwords::list", PW+":Passwords::list_sites"])
p("C35","has agrees with get",
  "In every reachable unlocked state has returns true exactly when get does not return KeyMissing, and get of a stored password returns the value stored last, get of a generated one is a function of primary password, site, name, revision, length and character set only.",
  "every reachable state",
  "all states",
  [PW+":Passwords::has", PW+":Passwords::get"])
p("C36","No nonce is ever used twice",
  "If the random source never repeats a 12-byte value, then in every history no two encryptions (stored entries, HMAC secret, recovery codes) use the same nonce.",
  "every history",
  "histories",
  [CR+":encrypt_data", CR+":get_rng"])
p("C37","Crash during a write",
  "If the process is interrupted while writing, the file on disk is the old text, or a prefix of the new text; every strict prefix is rejected on load (never loaded as partial data), but the old data is then lost (refutes atomicity of updates).",
  "every state, every crash point",
  "every crash point of every state",
  [FI+":FileIO::flush", FI+":FileIO::load"])
p("C38","Only ciphertext reaches the disk",
  "In every reachable state every value in the storage file except the salt is an AES-GCM ciphertext under the current key, every entry key is an HMAC of the identifier; replacing secrets by others of the same length changes nothing but ciphertext bytes: key set sizes and text lengths coincide.",
  "every history",
  "histories",
  [ST+":Storage", FI+":FileIO::flush"])
p("C39","Unlock prompt",
  "The command line only proceeds to an operation with an unlocked instance; candidates shorter than 6 bytes are never tried; wrong candidates leave everything unchanged; uninitialized storage is refused before any prompt.",
  "every sequence of typed candidates",
  "all interactive histories",
  [CL+"utils.rs:ensure_unlocked_passwords"])
p("C40","set-primary",
  "set-primary changes the file only if the same candidate of at least 6 bytes was typed twice and, when a loadable file exists, the user confirmed or passed -y; but a file that exists and cannot be parsed is overwritten without any question (refutes 'existing data is never discarded unasked').",
  "every file content and every typed input",
  "all file contents",
  ["cli/src/main.rs:main_inner", CL+"set_primary.rs:processor"])
p("C41","No silent overwrite",
  "add and add-stored replace an existing password only with -y or after an affirmative answer; otherwise memory and disk stay unchanged.",
  "every state and input",
  "all states",
  [CL+"add.rs:processor", CL+"add_stored.rs:processor"])
p("C42","list command cleans up only empty sites",
  "The list command changes no password, and removes only site entries without passwords when the site name does not start with www.; it fails with 'No such value' when an alias points to a site without entry, and for a site filed as www.X it drops the site entry although passwords exist (refutations).",
  "every reachable state and all arguments",
  "all states",
  [CL+"list.rs:processor", PW+":Passwords::remove_sites"])
p("C43","list command output is complete and ordered",
  "The list command prints every matching password of every matching site exactly once, sites in ascending order, passwords of a site ordered by name and revision. When everything is listed, exactly the passwords of those sites are shown that are not aliases themselves and are known or have an alias; so a password filed under a site that became an alias later can be retrieved but is missing from the list, even from the list for the name under which it is retrieved (refutations).",
  "every reachable state (site names without www. prefix; aliases that lead to aliases match the pattern, as they do when everything is listed)",
  "all states",
  [CL+"list.rs:processor"])
p("C44","show prints exactly the password and the QR rendering is lossless",
  "show writes the password verbatim followed by a newline; with -q the block-character rendering determines every module of the QR code. The first rendered row is preceded by the message text on the same line.",
  "every password, every QR matrix",
  "all matrices",
  [CL+"show.rs:processor"])
p("C45","Shell session",
  "Within a shell, set-primary and shell are refused, a failing command neither ends the session nor changes what later commands see beyond its own effect, lock makes the next command prompt again, and every other command behaves like its one-shot version.",
  "every sequence of commands",
  "all sessions",
  [CL+"shell.rs:processor", CL+"mod.rs:process_command"])
p("C46","Concrete primitives satisfy the assumed laws",
  "SHA-256, HMAC, AES-256-GCM and scrypt written out after their standards satisfy every law the other theorems assume (decryption inverts encryption, output lengths); a ciphertext opens exactly if it was sealed; wildcard patterns match character by character (* any characters, ? one), so that * lists everything; with these primitives the model passes the unit tests of the repository.",
  "every key, nonce, message, pattern and text",
  "all messages",
  [CR])
p("C47","Which library calls a process makes",
  "Every process of the command line program is a history of library calls starting with a restart; each call is one the command is meant to make (set-primary: reset; list: list, get, recovery code, remove_sites; show: get; and so on), with valid arguments; reset is never called on an unlocked instance.",
  "every command, terminal input and file",
  "all executions of all commands",
  ["cli/src/main.rs:main", CL+"mod.rs:process_command"])
p("C48","Only set-primary changes the salt and the secret",
  "After any sequence of processes other than set-primary the salt and the encrypted HMAC secret in the file are the same as before.",
  "every sequence of processes",
  "all sequences",
  ["cli/src/main.rs:main_inner", ST+":Storage::flush"])
p("C49","Spaces around typed secrets",
  "What is typed as a secret is used without leading and trailing Unicode white space and otherwise unchanged; it remains valid UTF-8.",
  "every typed line",
  "all texts",
  [CL+"utils.rs:prompt_password"])
p("C50","Error messages identify the error",
  "Two errors of the library with the same message are the same error, whatever the details reported by the operating system.",
  "every pair of errors and details",
  "all details and line numbers",
  [CL+"utils.rs:format_error"])
p("C51","Processes one after the other",
  "A password stored or generated by one process is shown by a later one; after any history a new process shows the contents of the file as the abstract vault of C23 predicts; commands making one change leave the state of the corresponding calls.",
  "every history of calls and processes",
  "all histories",
  ["cli/src/main.rs:main_inner", CL+"show.rs:processor", CL+"add_stored.rs:processor", CL+"add.rs:processor"])
p("C52","A file changed by somebody without the key",
  "Whoever rewrites the file but cannot make new texts the key opens (AES-GCM is unforgeable) gets the program to show only passwords, notes, sites and aliases that were once entered, with the notes and secret of one entry kept together; which entry is shown for a name is not protected (entries can be exchanged, copied and rolled back).",
  "every history of calls and rewrites of the file by others",
  "all contents of the rewritten file",
  [ST+":Storage::get_password", ST+":Storage::list_passwords", ST+":Storage::get_alias", CR+":decrypt_data"])
p("C53","The program does not abort",
  "A call of the library panics only while listing when locked, because of a nonce of the wrong size in the file, because of an entry of a generated password that cannot be generated, or because of overflow checks in the code for recovery codes. In a release build no process aborts and no process makes the file unusable if the file has no such entries, only one key opens it and everything typed is text; set-primary does not abort whatever the file contains.",
  "every call in every reachable state; every sequence of processes",
  "all files, inputs and histories",
  ["cli/src/main.rs:main", CR+":decrypt_data", CR+":derive_password", CL+"utils.rs:prompt_secret_text", CL+"utils.rs:prompt_recovery_code"])
p("C54","Failed calls and commands",
  "A library call that reports an error other than a failed write changes neither the data in memory, nor the secrets, nor the file; remove_sites leaves the file alone but has removed the sites in front of the missing one in memory. A process other than shell writes the file at most once, and if it does not report success the file is untouched unless it reports that writing failed; the same holds for each command typed in a shell.",
  "every call in every state; every command, input and file",
  "all states and inputs",
  [PW+":Passwords::remove_sites", PW+":Passwords::set_alias", "cli/src/main.rs:main", CL+"mod.rs:process_command"])
p("C55","Command lines",
  "The program accepts exactly the command lines of the usual conventions (long and short options in any order, values attached or following, clusters of letters, --) over its table of options, no option twice, and understands them as documented: defaults, length between 4 and 24. The description is unambiguous, every command can be given with any texts, and arguments are valid as far as other properties assume that.",
  "every list of words",
  "all command lines",
  ["cli/src/args.rs:Args", "cli/src/args.rs:Commands", "cli/src/args.rs:validate_length", "cli/src/main.rs:main"])
p("C56","Lines typed in the shell",
  "Lines are split into words as by a Unix shell (white space of Unicode, single and double quotes, backslashes); exactly the lines with open quotes are refused; any words can be typed by quoting them; the words mean the same as on the command line, or exit and lock.",
  "every line",
  "all lines",
  [CL+"shell.rs:processor", "cli/src/args.rs:Args"])
p("C57","What remove, alias and notes print",
  "remove, alias and notes print what they did, or the value asked for, and nothing else; notes shows the old notes before asking for new ones, reads these from the standard input whatever the options, stores them without trimming and says whether notes were stored or removed. A process doing this leaves the state of the corresponding call.",
  "every state and input",
  "all notes and all states of the file",
  [CL+"notes.rs:processor", CL+"alias.rs:processor", CL+"remove.rs:processor"])
p("C58","A session compared with separate processes",
  "A session of the shell in which each command is followed by lock leaves the same file, consumes the same input and prints the same as one process for each command, except for the lines of the shell itself, provided no command fails to write the file and no listing fails.",
  "every sequence of commands and every input",
  "all sequences of commands; relates two executions",
  [CL+"shell.rs:processor", CL+"mod.rs:process_command", "cli/src/main.rs:main_inner"])
p("C59","Several processes working on the same file",
  "Processes making calls in any order behave like vaults of C23 that load the file when they start and afterwards only replace it: the file is always as the last process to save left it, a running process gets the same results as without the others, processes running one after the other are a single history, and what another process saved in the meantime is lost. A command does not notice changes of the file made after it started and overwrites them.",
  "every interleaving of calls by any number of processes; every command",
  "all interleavings",
  [ST+":Storage::flush", ST+":Storage::new", "cli/src/main.rs:main_inner"])
p("C60","Waiting before the process ends",
  "With --wait the program does the same as without; when it says that it waits everything else has been printed and no secrets remain in memory, and then it reads one line. Stopped at any moment, it leaves what a process without --wait could have left, or the completed command.",
  "every command line, input and file",
  "all executions of all commands; relates two executions",
  ["cli/src/main.rs:main"])
p("C61","The history of the shell",
  "The history saved when a session ends consists of entries of the old history and lines typed at the prompt, in this order; secrets, the storage and what the commands do make no difference to it. It never has more than a hundred entries, empty ones or equal ones in a row, and it contains the last hundred lines. It shows names of sites and passwords, unlike the storage file.",
  "every session",
  "all sessions; relates two executions",
  [CL+"shell.rs:processor"])
p("C62","How likely each generated password is",
  "If k characters may be chosen at a position, between 256/k rounded down and 256/k rounded up of the 256 byte values choose the one wanted; so the number of byte sequences leading to a password is the product of such numbers. With all types, as by default, no password of n characters comes from more than 5760 * 4^(n-4) of the 256^n sequences. Passwords of digits are equally likely. In general passwords are not equally likely.",
  "all lengths, character sets and passwords",
  "counts over all byte sequences; a test draws a few",
  [CR+":to_password"])
p("C63","Passwords can be restored from the printed list",
  "list -r prints below the name of every stored password that is not empty and does not end with NUL lines which can be entered one after the other at add-stored -c, in any vault with the same primary password, for any site, name and revision: each line but the last is answered by asking for more, then the password is stored and show returns it.",
  "all histories, listings, vaults, passwords of any length",
  "relates the output of one command to the input of another one over all states and passwords; the layout of lines, indentation, checksums and encryption all have to agree",
  [CL+"list.rs:processor",CL+"utils.rs:prompt_recovery_code",RC+":generate",RC+":decode"])
p("C64","Any file can be found at the place of the storage",
  "Whatever file a process finds: a storage counts as present exactly if the file is a usable document with a salt and an HMAC secret; a primary password is accepted exactly if the key derived from it and the salt opens the secret, and key and secret are the ones used then; otherwise nothing changes. If no password opens the file no command but set-primary and shell ever succeeds and the file stays as it is: unusable documents and missing entries are reported; with both entries present the process asks for ever or aborts.",
  "all contents of the file, all primary passwords and inputs",
  "all files, not only those written by the program",
  [PW+":Passwords::unlock",PW+":Passwords::initialized",ST+":Storage::get_hmac_secret","cli/src/main.rs:main_inner",CL+"utils.rs:ensure_unlocked_passwords"])
p("C65","Saves and loads that overlap in time",
  "Call by call of the operating system (create, write, open, read), by any number of processes: a save without others leaves the file as the model of flush says. Somebody loading during one save gets a beginning of the old text continued by the new one; who starts after the save began gets the new text or an error. If every call transfers all there is, the file and everything loaded is one of the texts saved or is refused. Refuted: two overlapping saves that both succeed leave a usable file; one of the two changes survives; an entry present before and after a save is seen by who loads during it.",
  "all interleavings of the calls of any number of processes, all sizes of the pieces transferred, all texts",
  "races between processes hit rarely and depend on how the system splits the transfers",
  ["pfp/src/storage_io/file.rs:FileIO::load","pfp/src/storage_io/file.rs:FileIO::flush"])
p("C66","What passwords and the encryption key are derived from",
  "Entries that differ in site, name or revision are derived from different texts unless a NUL character occurs in site or name (refuted with NUL characters). The encryption key is derived from the same text as some possible password exactly if the salt has a NUL byte; that password is the key, converted to characters. Generating an entry again with another length keeps all but the last characters (as many as character types).",
  "all sites, names, revisions, salts, lengths and character types; all states that can be reached, of all storages with the same primary password",
  "needs a salt with a NUL byte or names with NUL characters; that inputs never collide is a statement about all pairs",
  ["pfp/src/crypto.rs:derive_password","pfp/src/crypto.rs:derive_key","pfp/src/crypto.rs:to_password","pfp/src/passwords.rs:get_encryption_key","pfp/src/storage_types/password.rs:GeneratedPassword::salt"])
p("C67","Which recovery codes are accepted",
  "A text is accepted as recovery code exactly if its lines carry correct checksums and the data version 1, a salt, a nonce and a ciphertext that the key of primary password and salt opens; codes and data correspond one to one, apart from case and ignored characters. Two different neighbouring characters exchanged are reported at positions 1, 3, 6 and 8 of a group of eight; at positions 2, 4, 5 and 7 the checksum can miss it (refuted) and only the cipher can reject the code. Any encrypted value of suitable length, such as an entry of the file, can be written as a code and decodes to what was encrypted.",
  "all texts, primary passwords, salts, ciphertexts; all positions in codes of any number of lines",
  "undetected exchanges need particular neighbouring bytes; that none exists at the other positions is a statement about all lines",
  ["pfp/src/recovery_codes.rs:validate","pfp/src/recovery_codes.rs:decode","pfp/src/crypto.rs:pearson_hash","pfp/src/crypto.rs:base32_decode"])
p("C68","Copies of secrets left behind in memory",
  "Deriving a password, padding a password for a recovery code, taking the padding off again, and encoding the HMAC secret leave no copy behind in memory given back to the allocator. A secret read from standard input leaves one exactly if its line has more than 1024 bytes: the first 1024, 2048, ... bytes. The text of a password record leaves beginnings of it exactly if it has more than 128 bytes; the claim that a stored password does not stay behind is refuted for notes that make the record longer than that.",
  "all passwords, salts, lengths, character sets, lines of input, password records",
  "the tests of the repository search the memory of the process for a few short secrets; none has notes",
  ["pfp/src/crypto.rs:to_password","pfp/src/recovery_codes.rs:generate","pfp/src/recovery_codes.rs:decode","pfp/src/storage.rs:set","cli/src/processor/utils.rs:prompt_secret_text","cli/src/leaking_allocator.rs"])
p("C69","What is printed does not depend on secrets",
  "Take two storage files that give the same answers to the primary passwords which are going to be entered and that differ otherwise only in the texts of stored passwords (and, unless these are asked for, in notes and parameters of generated passwords). Then add, add-stored, remove, alias, list, notes and any shell session made of such commands print exactly the same to standard output and as error messages, exit in the same way and read the same input, also if entries of the file are damaged.",
  "all pairs of files, all inputs typed, all command arguments, all shell sessions",
  "a test compares outputs for a few files; that no error message, order of lines or question depends on a secret is a statement about pairs of runs",
  ["cli/src/processor/mod.rs:process_command","cli/src/processor/list.rs","cli/src/processor/add_stored.rs","cli/src/processor/shell.rs","pfp/src/storage.rs:list_passwords"])
p("C70","A process that is stopped",
  "The command line program is a sequence of library calls, writes to the terminal and waits for input. Stopped before, after or within any of them (killed, terminal closed so that a write panics, power lost), a command leaves the file as it was, as the completed command would have left it, or - only while it is being written - as a beginning of the new text that everybody opening it gets an error for; a shell leaves the file of the session ended after some line, or such a beginning. A confirmation is printed only after the call it reports has succeeded and the file holds the change; until then commands that make a change print nothing but prompts. Whatever was printed can be seen whenever the program waits for input or calls the library, and is never taken back; a line of the standard input is read only after its prompt was shown. That a usable file stays usable is refuted.",
  "all commands, shell sessions, inputs, files, moments of stopping, lengths of what was written",
  "tests run commands to their end; the moments in between and what a kill leaves behind are not observed",
  ["cli/src/main.rs:main","cli/src/processor/shell.rs:processor","cli/src/processor/add.rs","cli/src/processor/list.rs","cli/src/processor/utils.rs","pfp/src/storage_io/file.rs:flush"])
p("C71","Files and directories",
  "Saving creates the missing directories of the storage file and then the file; it changes no other file, removes nothing and leaves a proper directory tree. It fails to create directories exactly if a file is in the way or the system refuses to create one that is missing, fails to open exactly if the path is a directory or the system refuses. If the system refuses nothing, saving always works or never works, and which of the two can be seen beforehand; in particular set-primary works where nothing exists yet. Every theorem about histories and processes holds with the outcomes of writes decided by the file system, and the file they speak of is the one found there. Commands that only look leave the file system as it is. By default the history of the shell is a file of its own next to the storage file; given the storage file as history file, a shell destroys it.",
  "all directory trees, paths, refusals of the operating system, call histories, sequences of processes",
  "tests use an existing temporary directory in which everything works",
  ["pfp/src/storage_io/file.rs:flush","pfp/src/storage_io/file.rs:load","cli/src/main.rs:get_default_storage_path","cli/src/processor/shell.rs:get_default_history_path"])
p("C72","Several storage files",
  "The program is called again and again with any arguments: different storage files given by -c or the default one, absolute or relative paths, shells saving their history. A storage file that is not used as a history file is at any time what calls made by uses of that very file made of it, and the next use of it behaves as the models with one file say; so show prints what the vault of C23 contains after these calls. If nothing is in the way of a storage file and the others are neither above nor below it, then what is done with other storage files and which other files exist makes no difference to what is printed and saved for it. No file is changed but storage files and history files that are named, directories stay, new ones are directories of storage files. Command lines that are rejected and commands that only look change nothing.",
  "all machines, command lines, paths, sequences of calls of the program, refusals of the operating system",
  "the tests use one storage file at a time and never the real argument parser",
  ["cli/src/main.rs:main_inner","cli/src/args.rs:Args","cli/src/processor/shell.rs:processor","pfp/src/storage_io/file.rs:flush"])
p("C73","Which entries are accepted",
  "A text is accepted as a site exactly if it is a JSON object with the name site once, perhaps alias (null or a string) and nothing else, or an array of both; as a password exactly if it is a JSON object with the type, the parameters of that type, the identifier and perhaps notes, each once and of the right kind. Order and additional members make no difference, a character type is used exactly if it is set somewhere. Everything else is reported as invalid JSON. False is that equivalent spellings of names are treated alike and that repeated names are always rejected.",
  "all texts, sites, passwords",
  "the tests read a few entries written by the program itself",
  ["pfp/src/storage_types/site.rs:Site","pfp/src/storage_types/password.rs:Password","pfp/src/json/macros.rs:enumset_serialization"])
p("C74","The printed list can be read back",
  "If the texts stored contain no line breaks, names do not start with a space, revisions contain no parenthesis and site names do not end with one, then list prints the same for two storages only if the same passwords are listed: same sites, names, revisions and kinds, and the same values, notes and rules for generating as far as they are asked for. False is this without these conditions: a name with a line break makes one password look like two, and a revision with a parenthesis may look like a part of the name.",
  "all storages, histories, patterns, options of list",
  "the tests compare the output for a few passwords",
  ["cli/src/processor/list.rs"])
p("C75","How likely it is that a nonce is used twice",
  "With uniformly random values, the probability that two values stored at any time, or recovery codes shown, share a nonce is at most n(n-1)/2^97 where n is three times the number of calls; less than 10^-16 for a million calls. That it never happens is false: a generator that repeats itself makes nonces repeat.",
  "all histories of calls of the library, all sequences of random values",
  "a test cannot estimate probabilities this small",
  ["pfp/src/crypto.rs:encrypt_data","pfp/src/crypto.rs:get_rng","pfp/src/recovery_codes.rs:generate"])
p("C76","What is printed does not depend on random values or on the order of the hash map",
  "Two files made with other salts, HMAC secrets and nonces but for the same vault, read by processes whose hash maps list their keys in other orders: if the same is typed, every command that prints no recovery codes, and every shell with such commands, prints the same, reads the same input and exits in the same way, provided that no two passwords have the same name, space and revision. Every usable file is of this kind. Without the proviso the claim is false: of two passwords with the same sort key, chance decides which is printed first.",
  "all vaults, random values, orders of hash maps, commands, typed input",
  "a test sees one seed of the hash map and one sequence of random values at a time",
  ["cli/src/main.rs:main","cli/src/processor/list.rs","pfp/src/storage.rs:list_sites","pfp/src/storage.rs:list_passwords","pfp/src/storage_io/file.rs:keys"])
p("C77","What somebody sees who watches the storage file",
  "Two histories of calls with other site names, other names and revisions, other passwords, notes, primary passwords and random values, but with the same calls that write, about the same entries up to the exchange of names, with JSON of the same length: whoever sees the two files after every call between two resets can pair their entries once and for all such that paired keys and values have the same length, salt and HMAC secret are paired with each other, and keys that start with another key are paired with such keys. Calls that only read leave no trace. What the keys do show is how many sites there are and how many passwords each of them has: keys of passwords share their first 49 characters exactly if they belong to the same site.",
  "all histories that can be reached, all exchanges of names, random values",
  "the claim compares pairs of histories after every call",
  ["pfp/src/storage.rs:get_site_key","pfp/src/storage.rs:get_password_key","pfp/src/storage.rs:set_password","pfp/src/storage.rs:set_alias","pfp/src/storage.rs:remove_site","pfp/src/crypto.rs:encrypt_data","pfp/src/storage_types/password.rs:Password"])
p("C78","Which values in the storage file a call replaces",
  "Between two resets each site and each password has one key in the file. Comparing the file at two times, salt and HMAC secret are the same, and the value of an entry is the same exactly if no call in between encrypted this entry: set_generated and set_stored encrypt the password, and its site only if the site was unknown; set_notes encrypts the password if it exists; set_alias encrypts the site; all others, remove_sites, remove, remove_alias, unlock and a restart of the program among them, replace no value. For two histories as in C77 the values that differ from one time to another are the same ones up to the pairing of keys.",
  "all histories that can be reached, all pairs of times, all exchanges of names, random values without repeated nonces",
  "the claim compares files at all pairs of times of pairs of histories",
  ["pfp/src/storage.rs:ensure_site_data","pfp/src/storage.rs:set_password","pfp/src/storage.rs:set_alias","pfp/src/storage.rs:remove_site","pfp/src/passwords.rs:set_notes","pfp/src/passwords.rs:set_stored","pfp/src/crypto.rs:encrypt_data"])
p("C79","Neither the file nor later calls show how a vault came about",
  "If two histories, with whatever calls, primary passwords and random values, end with the same entries in the file, then the entries of the two files can be paired, with keys and values of the same length: what was removed or overwritten leaves no trace. If entries and primary password are the same, all later calls have the same results. Two changes that concern different passwords, neither of which gives or takes the alias of a site the other one follows, can be exchanged without a difference in their results, in the results of later calls or in the entries; any number of changes pairwise like that can be made in any order. Setting and removing a new password, setting a password twice, and setting and removing an alias of an unknown site leave the same entries as not doing so or doing it once.",
  "all pairs of histories that can be reached, all later calls, all lists of pairwise independent changes and their permutations, all random values",
  "the claim compares pairs of histories of any length; the files always differ in their random parts",
  ["pfp/src/storage.rs:ensure_site_data","pfp/src/storage.rs:set_alias","pfp/src/storage.rs:remove_alias","pfp/src/passwords.rs:set_stored","pfp/src/passwords.rs:set_notes","pfp/src/passwords.rs:remove","pfp/src/passwords.rs:set_alias","pfp/src/passwords.rs:remove_alias"])
p("C80","Output that cannot be written",
  "Let the standard output accept only some number of bytes and stderr only some number of messages (a closed pipe, a closed terminal, a full disk). If all the process writes is accepted, limits make no difference. Otherwise it panics at the first write that is not accepted, what was accepted is the beginning of what would have been written, and no library call is made afterwards: the file is as before the command or as after the completed command, for a shell as if it had been left after some line. The same holds with --wait, whose text may be what cannot be written. Asking for the primary password at the end of the standard input, which never ends otherwise, ends. That a process which does not report success has changed nothing is refuted: the password is saved before the message about it is printed.",
  "all commands, shell sessions, inputs, files and limits",
  "tests read all output; a pipe would have to be closed after every possible number of bytes",
  ["cli/src/main.rs:main","cli/src/processor/utils.rs:prompt_secret_text","cli/src/processor/list.rs","cli/src/processor/notes.rs","cli/src/processor/show.rs","cli/src/processor/shell.rs","cli/src/processor/add.rs"])
p("C81","Which vaults can come about",
  "Calls of the library lead to a vault exactly if no site in it is an alias of itself, no revision is written as 1, and texts and lengths are what they can be in Rust; this holds in memory and in the file, also if writes fail, and no call ever reports anything else. For every such vault there are calls that all succeed, after which the library behaves like this vault. That two sites are never aliases of each other, and that the site of every password is listed, is refuted.",
  "all vaults, all histories, all outcomes of writes",
  "that a state cannot come about is a statement about all histories; that every other one can is a statement about all vaults",
  ["pfp/src/passwords.rs:set_alias","pfp/src/storage.rs:set_alias","pfp/src/storage.rs:remove_site","pfp/src/storage.rs:ensure_site_data","pfp/src/storage_types/password.rs:PasswordId::new"])
p("C82","The storage of the unit tests stands for the file",
  "Code that uses storage only through the trait StorageIO gets the same results from MemoryIO, the storage of the unit tests, as from FileIO, if they hold the same entries, writes succeed and the order in which keys are listed is the same or does not matter; both then hold the same entries. The entries MemoryIO keeps as its file are those found in the written file, after a save and also from the start, if the file is there. Every sequence of calls of the library is such code, and all it sets is text: a unit test is a process that starts with a file of the same entries. That this also holds if writes fail is refuted.",
  "all code using the trait, all contents of the storage, all sequences of calls of one instance",
  "the unit tests themselves rest on it: they run with MemoryIO only, for a few sequences of calls",
  ["pfp/src/storage_io/memory.rs:MemoryIO","pfp/src/storage_io/mod.rs:StorageIO","pfp/src/storage_io/file.rs:FileIO","pfp/src/passwords.rs:Passwords::new"])
p("C83","The logging allocator",
  "In builds with the logging allocator, each request for memory and the writing of the log come to an end although the allocator needs memory itself and locks its list meanwhile. The log names exactly the blocks the program got after the start and those for creating the file, in order, each with its own backtrace and its address in hexadecimal digits. No address is handed out twice, so that one in the log stands for one allocation. With several threads, none has to wait for another one. That all blocks are in the log is refuted.",
  "all sequences of requests and returns of memory, all numbers of blocks that backtraces, lists and files take",
  "the build flag is used by hand only; recursion and self-locking depend on how much memory the libraries take",
  ["cli/src/logging_allocator.rs:LoggingAllocator","cli/src/main.rs:Shutdown"])
with open("/verif/properties.jsonl","w") as f:
    for x in P: f.write(json.dumps(x, ensure_ascii=False)+"\n")
print(len(P))

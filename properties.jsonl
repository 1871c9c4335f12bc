{"id": "C01", "title": "Base32 codec is lossless", "statement": "base32_encode succeeds exactly on inputs whose length is a multiple of 5, its output has 8 characters per 5 input bytes, all from the 32-character alphabet, and base32_decode of that output returns the input.", "quantifier": "every byte sequence of every length", "why_tests_cant": "256^n inputs for every n; unit tests sample five strings", "anchors": ["pfp/src/crypto.rs:base32_encode", "pfp/src/crypto.rs:base32_decode"]}
{"id": "C02", "title": "Base32 decoding accepts exactly the canonical encodings", "statement": "base32_decode succeeds exactly when the input length is a multiple of 8 and every byte is in the alphabet; on success re-encoding gives the input back, and in every other case the result is the UnexpectedData error (never a panic, never partial data).", "quantifier": "every byte sequence of every length", "why_tests_cant": "acceptance and rejection over an unbounded input space", "anchors": ["pfp/src/crypto.rs:base32_decode"]}
{"id": "C03", "title": "Block checksum detects any single-byte error and pins the line number and the final-line flag", "statement": "For two inputs of equal length that differ in exactly one byte the checksum differs; for the same input two different virtual bytes give different checksums, so a line can never be valid both as a final and as a non-final line of the same number, nor (below 128 lines) for two different line numbers.", "quantifier": "every block content, every position, every replacement byte, every virtual byte", "why_tests_cant": "256^14 blocks times positions times replacement bytes", "anchors": ["pfp/src/crypto.rs:pearson_hash", "pfp/src/recovery_codes.rs:validate"]}
{"id": "C04", "title": "Generated passwords obey the requested policy", "statement": "Turning n derived bytes into a password with a non-empty set of character types yields exactly n characters, each belonging to a selected type, and if n is at least the number of selected types every selected type occurs at least once; if n is smaller all characters are of pairwise different types.", "quantifier": "every byte sequence, every length, every one of the 15 non-empty character sets", "why_tests_cant": "depends on the whole byte sequence through the 'seen' set; all lengths", "anchors": ["pfp/src/crypto.rs:to_password", "pfp/src/crypto.rs:derive_password"]}
{"id": "C05", "title": "Generation excludes no policy-compliant password", "statement": "For every string that satisfies the policy of C04 there is a byte sequence from which the generator produces exactly that string, and the characters I, l, i, o, O, 0, 1, \", ' and \\ are never produced.", "quantifier": "every policy-compliant string of every length, every character set", "why_tests_cant": "surjectivity is a for-all/exists statement over an infinite set", "anchors": ["pfp/src/crypto.rs:to_password", "pfp/src/crypto.rs:CHARS_MAPPING"]}
{"id": "C06", "title": "When generating a password value can panic", "statement": "Retrieving a generated password panics exactly when its length is 0, its character set is empty or the length exceeds the scrypt output limit (2^37-1); both can be created through the public set_generated API, so 'get never panics' is refuted, and passwords created through the command line (length 4..24, at least one type) never panic.", "quantifier": "every length, character set and primary password", "why_tests_cant": "absence of panics over all inputs", "anchors": ["pfp/src/crypto.rs:to_password", "pfp/src/crypto.rs:derive_bits", "pfp/src/passwords.rs:Passwords::get", "cli/src/args.rs:validate_length", "cli/src/processor/add.rs:processor"]}
{"id": "C07", "title": "Recovery code round trip", "statement": "For every stored password that does not end in a NUL byte, decoding the generated recovery code with the same primary password returns exactly that password; a password ending in NUL bytes comes back without them (refutes the unrestricted statement).", "quantifier": "every password (any length, any bytes), every 16-byte salt, every nonce, every primary password", "why_tests_cant": "all lengths modulo the block size and all contents; tests try three passwords", "anchors": ["pfp/src/recovery_codes.rs:generate", "pfp/src/recovery_codes.rs:decode", "pfp/src/passwords.rs:Passwords::get_recovery_code", "pfp/src/passwords.rs:Passwords::decode_recovery_code"]}
{"id": "C08", "title": "Recovery codes are insensitive to layout", "statement": "The result of decoding depends only on the sequence of alphabet characters (upper-cased) in the input: inserting or deleting any characters outside the alphabet, changing case, or re-formatting with or without punctuation never changes the result; the canonical format is idempotent.", "quantifier": "every input byte string, every interleaving of ignored characters", "why_tests_cant": "unbounded inputs and interleavings", "anchors": ["pfp/src/recovery_codes.rs:format_code", "pfp/src/recovery_codes.rs:validate", "pfp/src/recovery_codes.rs:decode"]}
{"id": "C09", "title": "A single mistyped character in a recovery code is always rejected", "statement": "Replacing any one character of a valid recovery code by any other character (from the alphabet or not) makes decoding fail with an error; no such code is ever decoded to a password.", "quantifier": "every valid code of every length, every position, every replacement character", "why_tests_cant": "the checksum is only 8 bits per line and most characters straddle two bytes; sampling cannot establish that no collision exists", "anchors": ["pfp/src/recovery_codes.rs:validate", "pfp/src/crypto.rs:pearson_hash", "pfp/src/crypto.rs:base32_decode"]}
{"id": "C10", "title": "A missing or superfluous character is always rejected", "statement": "A code whose number of alphabet characters is not a multiple of 24 never decodes; hence deleting or inserting a single alphabet character anywhere in a valid code is always rejected.", "quantifier": "every code, every position, every inserted character", "why_tests_cant": "unbounded", "anchors": ["pfp/src/recovery_codes.rs:validate"]}
{"id": "C11", "title": "Truncated and over-long recovery codes are reported as such", "statement": "Keeping only the first k lines of a valid n-line code (k < n), possibly followed by an incomplete line, reports RecoveryCodeIncomplete; appending any alphabet characters to a valid n-line code reports RecoveryCodeExtraData with line n.", "quantifier": "every valid code, every cut, every appended text", "why_tests_cant": "unbounded cuts and suffixes", "anchors": ["pfp/src/recovery_codes.rs:validate"]}
{"id": "C12", "title": "Misplaced lines are reported at the right line", "statement": "If the first k lines of the input are valid non-final lines and line k is a valid line of another position (or final/non-final flag; codes of fewer than 128 lines), decoding reports RecoveryCodeChecksumMismatch for line k; in particular exchanging two lines is always detected at the first exchanged line.", "quantifier": "every code below 128 lines, every pair of lines", "why_tests_cant": "all permutations of all codes", "anchors": ["pfp/src/recovery_codes.rs:validate", "pfp/src/crypto.rs:pearson_hash"]}
{"id": "C13", "title": "Recovery code size leaks only the padded length", "statement": "The generated code consists of exactly ceil((45+len)/14) complete lines of 24 characters grouped 4-4-4:4-4-4, and never depends on the password length otherwise.", "quantifier": "every password, salt, nonce", "why_tests_cant": "all lengths", "anchors": ["pfp/src/recovery_codes.rs:generate", "pfp/src/recovery_codes.rs:format_code"]}
{"id": "C14", "title": "Recovery code decoding is total in release builds, and panics for an empty password in debug builds", "statement": "With overflow checks off, decoding arbitrary text never panics. With overflow checks on, decoding the genuine code of the empty password panics (refutes totality for development builds), and so do codes with more than 256 lines.", "quantifier": "every input text, every primary password, both build profiles", "why_tests_cant": "totality over all inputs", "anchors": ["pfp/src/recovery_codes.rs:decode", "pfp/src/recovery_codes.rs:generate", "pfp/src/recovery_codes.rs:validate"]}
{"id": "C15", "title": "Interactive recovery code entry", "statement": "While entering a recovery code line by line, whatever was typed before, the accumulated text always consists of lines that are valid so far, no index is ever out of range, rejected lines are forgotten and accepted ones kept, and typing the lines of a valid code (with any number of lines with checksum errors in between) ends with the decoded password.", "quantifier": "every sequence of typed lines", "why_tests_cant": "every interactive history", "anchors": ["cli/src/processor/utils.rs:prompt_recovery_code"]}
{"id": "C16", "title": "Encryption round trip", "statement": "decrypt_data(encrypt_data(m, k), k) returns m, and the ciphertext text has the form base64(nonce)_base64(ciphertext) containing exactly one underscore and no colon.", "quantifier": "every plaintext, every 32-byte key, every nonce", "why_tests_cant": "all plaintexts and nonces", "anchors": ["pfp/src/crypto.rs:encrypt_data", "pfp/src/crypto.rs:decrypt_data"]}
{"id": "C17", "title": "Corrupt ciphertext: error or panic", "statement": "For a 32-byte key decrypt_data returns an error or a plaintext for every text, except that it panics exactly when the part before the first underscore is valid Base64 of a length other than 12 bytes; hence a storage file can be crafted on which unlock panics (refutes 'corrupt data is always reported as an error').", "quantifier": "every text", "why_tests_cant": "totality over all inputs", "anchors": ["pfp/src/crypto.rs:decrypt_data", "pfp/src/passwords.rs:Passwords::unlock"]}
{"id": "C18", "title": "Distinct salts derive keys from distinct scrypt salts", "statement": "The salt given to scrypt is the UTF-8 encoding of the salt bytes read as Latin-1; this map is injective and every derived key has 32 bytes.", "quantifier": "every pair of salts of any length", "why_tests_cant": "injectivity over an infinite domain", "anchors": ["pfp/src/passwords.rs:get_encryption_key", "pfp/src/crypto.rs:derive_key"]}
{"id": "C19", "title": "Records survive serialization", "statement": "For every site entry and every password entry (all field values, including empty notes, quotes, control and non-ASCII characters) deserializing the serialized JSON text returns the same entry. The text itself is a JSON object with the documented members in a fixed order and nothing else, so that other programs find what they look for.", "quantifier": "every record with valid UTF-8 fields", "why_tests_cant": "all strings, escapes and flag combinations", "anchors": ["pfp/src/storage_types/password.rs:Password", "pfp/src/storage_types/site.rs:Site", "pfp/src/json/macros.rs:enumset_serialization", "pfp/src/json/secret_serialization.rs"]}
{"id": "C20", "title": "The storage file round-trips and foreign files are rejected", "statement": "Loading the text written by flush returns exactly the key/value data, whatever the map iteration order; loading succeeds only for JSON with exactly the fields application = \"pfp\", format = 3 and a string-to-string data object. The text written is that object, without white space, with every entry once.", "quantifier": "every key/value map, every iteration order; every file content for the rejection half", "why_tests_cant": "all maps, orders and file contents", "anchors": ["pfp/src/storage_io/file.rs:FileIO::load", "pfp/src/storage_io/file.rs:FileIO::flush", "pfp/src/json/macros.rs:const_serializable"]}
{"id": "C21", "title": "Different password identifiers use different storage slots", "statement": "Unless the HMAC collides on one of the finitely many strings used, two identifiers with different site, name or (normalised) revision are stored under different keys, provided the names contain no NUL character; with NUL characters two different identifiers share one key (refutation).", "quantifier": "every pair of identifiers", "why_tests_cant": "all pairs of strings", "anchors": ["pfp/src/storage.rs:Storage::get_password_key", "pfp/src/storage.rs:Storage::get_site_key"]}
{"id": "C22", "title": "Site entries and password entries are never confused", "statement": "No site key ever equals a password key, the salt key or the HMAC secret key; listing sites only looks at site entries and listing the passwords of a site only looks at password entries of that site.", "quantifier": "all sites, names, revisions and HMAC secrets", "why_tests_cant": "all digests", "anchors": ["pfp/src/storage.rs:Storage::list_sites", "pfp/src/storage.rs:Storage::list_passwords", "pfp/src/storage.rs:Storage::get_site_prefix"]}
{"id": "C23", "title": "The password API behaves like a simple vault", "statement": "After any history of API calls (reset, lock, unlock, set/remove/get alias, remove_sites, set_generated, set_stored, has, get, get/set notes, remove, list, list_sites, restart) every call returns what a plain map from (site, name, revision) to entries with a plain alias map would return.", "quantifier": "every finite history of calls with every argument, every random source, every map iteration order, every schedule of write failures", "why_tests_cant": "infinitely many histories", "anchors": ["pfp/src/passwords.rs:Passwords", "pfp/src/storage.rs:Storage"]}
{"id": "C24", "title": "Acknowledged changes are durable", "statement": "When a modifying call returns Ok the storage file on disk holds exactly the data in memory: reloading it in a new process and unlocking with the same primary password gives a vault with the same contents; when it fails in creating the directory or opening the file, the file is unchanged.", "quantifier": "every history, every schedule of write failures", "why_tests_cant": "every history and failure point", "anchors": ["pfp/src/passwords.rs:Passwords", "pfp/src/storage_io/file.rs:FileIO::flush", "pfp/src/storage_io/file.rs:FileIO::load"]}
{"id": "C25", "title": "Operations touch nothing else", "statement": "set_generated, set_stored, set_notes and remove change at most the addressed entry (and create the site entry); alias operations change only the addressed site; read operations change nothing at all.", "quantifier": "every state and every other identifier", "why_tests_cant": "frame condition over all other identifiers", "anchors": ["pfp/src/passwords.rs:Passwords"]}
{"id": "C26", "title": "Aliases and the www. prefix are transparent", "statement": "Any password operation through www.S, S, or an alias of S has the same result and the same effect as the operation on the resolved site.", "quantifier": "every state, site and operation", "why_tests_cant": "all states", "anchors": ["pfp/src/storage.rs:Storage::resolve_site", "pfp/src/storage.rs:Storage::normalize_site", "pfp/src/passwords.rs:Passwords"]}
{"id": "C27", "title": "Alias structure", "statement": "set_alias never makes a site with passwords or the target itself an alias and makes it an alias of what the given target currently resolves to; but chains can arise (A -> B, then B -> C), after which the passwords filed under B are reachable through A only (refutes 'an alias always points to a regular site').", "quantifier": "every history", "why_tests_cant": "histories", "anchors": ["pfp/src/passwords.rs:Passwords::set_alias", "pfp/src/storage.rs:Storage::set_alias"]}
{"id": "C28", "title": "Revision 1 is the empty revision", "statement": "For every operation taking a revision, passing \"1\" and passing the empty string have identical results and effects, and no other two revisions are identified.", "quantifier": "every state and operation", "why_tests_cant": "all states and operations", "anchors": ["pfp/src/storage_types/password.rs:PasswordId::new", "pfp/src/passwords.rs:Passwords"]}
{"id": "C29", "title": "Locked storage reveals and changes nothing", "statement": "In a locked instance every fallible operation needing secrets returns PasswordsLocked without changing memory or disk (list and list_sites panic), lock erases key, HMAC secret and primary password, and unlocking again restores exactly the previous view.", "quantifier": "every state and operation", "why_tests_cant": "all states", "anchors": ["pfp/src/passwords.rs:Passwords::lock", "pfp/src/passwords.rs:Passwords::unlock"]}
{"id": "C30", "title": "Unlock accepts the right primary password and a failed unlock changes nothing", "statement": "After reset(p), in every later state, unlock(p) succeeds; unlock(q) for another q fails with DecryptionFailure whenever the authenticated decryption under q's key rejects the stored ciphertext, and a failed unlock leaves the instance exactly as it was.", "quantifier": "every history and every candidate password", "why_tests_cant": "all histories and passwords", "anchors": ["pfp/src/passwords.rs:Passwords::unlock", "pfp/src/passwords.rs:Passwords::reset"]}
{"id": "C31", "title": "Reset starts from an empty vault", "statement": "A successful reset leaves the storage initialized, unlocked and containing no site and no password, in memory and on disk, regardless of the previous contents.", "quantifier": "every previous state", "why_tests_cant": "all states", "anchors": ["pfp/src/passwords.rs:Passwords::reset", "pfp/src/storage.rs:Storage::clear"]}
{"id": "C32", "title": "Failed writes", "statement": "If writing fails a call reports the error; except for reset the memory then holds the change and a later successful write persists it. If reset fails to write, the instance stays unlocked with the old key on top of new empty data: passwords added afterwards are acknowledged, but lost after the next unlock (refutes 'after an error the instance is still consistent').", "quantifier": "every state and failure kind", "why_tests_cant": "failure schedules", "anchors": ["pfp/src/passwords.rs:Passwords::reset", "pfp/src/storage_io/file.rs:FileIO::flush"]}
{"id": "C33", "title": "Notes", "statement": "set_notes changes only the notes of the addressed password and get_notes returns what was set last; replacing a password by set_generated or set_stored clears its notes; password value and generation parameters are unaffected by notes.", "quantifier": "every state and notes text", "why_tests_cant": "all states and texts", "anchors": ["pfp/src/passwords.rs:Passwords::set_notes", "pfp/src/passwords.rs:Passwords::get_notes", "pfp/src/storage_types/password.rs:Password::set_notes"]}
{"id": "C34", "title": "Listing is complete and exact", "statement": "list returns each password of the resolved site whose name matches the pattern exactly once and nothing else; list_sites returns each site entry whose name or alias target matches exactly once and nothing else.", "quantifier": "every reachable state, every pattern, every map iteration order", "why_tests_cant": "all states and orders", "anchors": ["pfp/src/passwords.rs:Passwords::list", "pfp/src/passwords.rs:Passwords::list_sites"]}
{"id": "C35", "title": "has agrees with get", "statement": "In every reachable unlocked state has returns true exactly when get does not return KeyMissing, and get of a stored password returns the value stored last, get of a generated one is a function of primary password, site, name, revision, length and character set only.", "quantifier": "every reachable state", "why_tests_cant": "all states", "anchors": ["pfp/src/passwords.rs:Passwords::has", "pfp/src/passwords.rs:Passwords::get"]}
{"id": "C36", "title": "No nonce is ever used twice", "statement": "If the random source never repeats a 12-byte value, then in every history no two encryptions (stored entries, HMAC secret, recovery codes) use the same nonce.", "quantifier": "every history", "why_tests_cant": "histories", "anchors": ["pfp/src/crypto.rs:encrypt_data", "pfp/src/crypto.rs:get_rng"]}
{"id": "C37", "title": "Crash during a write", "statement": "If the process is interrupted while writing, the file on disk is the old text, or a prefix of the new text; every strict prefix is rejected on load (never loaded as partial data), but the old data is then lost (refutes atomicity of updates).", "quantifier": "every state, every crash point", "why_tests_cant": "every crash point of every state", "anchors": ["pfp/src/storage_io/file.rs:FileIO::flush", "pfp/src/storage_io/file.rs:FileIO::load"]}
{"id": "C38", "title": "Only ciphertext reaches the disk", "statement": "In every reachable state every value in the storage file except the salt is an AES-GCM ciphertext under the current key, every entry key is an HMAC of the identifier; replacing secrets by others of the same length changes nothing but ciphertext bytes: key set sizes and text lengths coincide.", "quantifier": "every history", "why_tests_cant": "histories", "anchors": ["pfp/src/storage.rs:Storage", "pfp/src/storage_io/file.rs:FileIO::flush"]}
{"id": "C39", "title": "Unlock prompt", "statement": "The command line only proceeds to an operation with an unlocked instance; candidates shorter than 6 bytes are never tried; wrong candidates leave everything unchanged; uninitialized storage is refused before any prompt.", "quantifier": "every sequence of typed candidates", "why_tests_cant": "all interactive histories", "anchors": ["cli/src/processor/utils.rs:ensure_unlocked_passwords"]}
{"id": "C40", "title": "set-primary", "statement": "set-primary changes the file only if the same candidate of at least 6 bytes was typed twice and, when a loadable file exists, the user confirmed or passed -y; but a file that exists and cannot be parsed is overwritten without any question (refutes 'existing data is never discarded unasked').", "quantifier": "every file content and every typed input", "why_tests_cant": "all file contents", "anchors": ["cli/src/main.rs:main_inner", "cli/src/processor/set_primary.rs:processor"]}
{"id": "C41", "title": "No silent overwrite", "statement": "add and add-stored replace an existing password only with -y or after an affirmative answer; otherwise memory and disk stay unchanged.", "quantifier": "every state and input", "why_tests_cant": "all states", "anchors": ["cli/src/processor/add.rs:processor", "cli/src/processor/add_stored.rs:processor"]}
{"id": "C42", "title": "list command cleans up only empty sites", "statement": "The list command changes no password, and removes only site entries without passwords when the site name does not start with www.; it fails with 'No such value' when an alias points to a site without entry, and for a site filed as www.X it drops the site entry although passwords exist (refutations).", "quantifier": "every reachable state and all arguments", "why_tests_cant": "all states", "anchors": ["cli/src/processor/list.rs:processor", "pfp/src/passwords.rs:Passwords::remove_sites"]}
{"id": "C43", "title": "list command output is complete and ordered", "statement": "The list command prints every matching password of every matching site exactly once, sites in ascending order, passwords of a site ordered by name and revision. When everything is listed, exactly the passwords of those sites are shown that are not aliases themselves and are known or have an alias; so a password filed under a site that became an alias later can be retrieved but is missing from the list, even from the list for the name under which it is retrieved (refutations).", "quantifier": "every reachable state (site names without www. prefix; aliases that lead to aliases match the pattern, as they do when everything is listed)", "why_tests_cant": "all states", "anchors": ["cli/src/processor/list.rs:processor"]}
{"id": "C44", "title": "show prints exactly the password and the QR rendering is lossless", "statement": "show writes the password verbatim followed by a newline; with -q the block-character rendering determines every module of the QR code. The first rendered row is preceded by the message text on the same line.", "quantifier": "every password, every QR matrix", "why_tests_cant": "all matrices", "anchors": ["cli/src/processor/show.rs:processor"]}
{"id": "C45", "title": "Shell session", "statement": "Within a shell, set-primary and shell are refused, a failing command neither ends the session nor changes what later commands see beyond its own effect, lock makes the next command prompt again, and every other command behaves like its one-shot version.", "quantifier": "every sequence of commands", "why_tests_cant": "all sessions", "anchors": ["cli/src/processor/shell.rs:processor", "cli/src/processor/mod.rs:process_command"]}
{"id": "C46", "title": "Concrete primitives satisfy the assumed laws", "statement": "SHA-256, HMAC, AES-256-GCM and scrypt written out after their standards satisfy every law the other theorems assume (decryption inverts encryption, output lengths); a ciphertext opens exactly if it was sealed; wildcard patterns match character by character (* any characters, ? one), so that * lists everything; with these primitives the model passes the unit tests of the repository.", "quantifier": "every key, nonce, message, pattern and text", "why_tests_cant": "all messages", "anchors": ["pfp/src/crypto.rs"]}
{"id": "C47", "title": "Which library calls a process makes", "statement": "Every process of the command line program is a history of library calls starting with a restart; each call is one the command is meant to make (set-primary: reset; list: list, get, recovery code, remove_sites; show: get; and so on), with valid arguments; reset is never called on an unlocked instance.", "quantifier": "every command, terminal input and file", "why_tests_cant": "all executions of all commands", "anchors": ["cli/src/main.rs:main", "cli/src/processor/mod.rs:process_command"]}
{"id": "C48", "title": "Only set-primary changes the salt and the secret", "statement": "After any sequence of processes other than set-primary the salt and the encrypted HMAC secret in the file are the same as before.", "quantifier": "every sequence of processes", "why_tests_cant": "all sequences", "anchors": ["cli/src/main.rs:main_inner", "pfp/src/storage.rs:Storage::flush"]}
{"id": "C49", "title": "Spaces around typed secrets", "statement": "What is typed as a secret is used without leading and trailing Unicode white space and otherwise unchanged; it remains valid UTF-8.", "quantifier": "every typed line", "why_tests_cant": "all texts", "anchors": ["cli/src/processor/utils.rs:prompt_password"]}
{"id": "C50", "title": "Error messages identify the error", "statement": "Two errors of the library with the same message are the same error, whatever the details reported by the operating system.", "quantifier": "every pair of errors and details", "why_tests_cant": "all details and line numbers", "anchors": ["cli/src/processor/utils.rs:format_error"]}
{"id": "C51", "title": "Processes one after the other", "statement": "A password stored or generated by one process is shown by a later one; after any history a new process shows the contents of the file as the abstract vault of C23 predicts; commands making one change leave the state of the corresponding calls.", "quantifier": "every history of calls and processes", "why_tests_cant": "all histories", "anchors": ["cli/src/main.rs:main_inner", "cli/src/processor/show.rs:processor", "cli/src/processor/add_stored.rs:processor", "cli/src/processor/add.rs:processor"]}
{"id": "C52", "title": "A file changed by somebody without the key", "statement": "Whoever rewrites the file but cannot make new texts the key opens (AES-GCM is unforgeable) gets the program to show only passwords, notes, sites and aliases that were once entered, with the notes and secret of one entry kept together; which entry is shown for a name is not protected (entries can be exchanged, copied and rolled back).", "quantifier": "every history of calls and rewrites of the file by others", "why_tests_cant": "all contents of the rewritten file", "anchors": ["pfp/src/storage.rs:Storage::get_password", "pfp/src/storage.rs:Storage::list_passwords", "pfp/src/storage.rs:Storage::get_alias", "pfp/src/crypto.rs:decrypt_data"]}
{"id": "C53", "title": "The program does not abort", "statement": "A call of the library panics only while listing when locked, because of a nonce of the wrong size in the file, because of an entry of a generated password that cannot be generated, or because of overflow checks in the code for recovery codes. In a release build no process aborts and no process makes the file unusable if the file has no such entries, only one key opens it and everything typed is text; set-primary does not abort whatever the file contains.", "quantifier": "every call in every reachable state; every sequence of processes", "why_tests_cant": "all files, inputs and histories", "anchors": ["cli/src/main.rs:main", "pfp/src/crypto.rs:decrypt_data", "pfp/src/crypto.rs:derive_password", "cli/src/processor/utils.rs:prompt_secret_text", "cli/src/processor/utils.rs:prompt_recovery_code"]}
{"id": "C54", "title": "Failed calls and commands", "statement": "A library call that reports an error other than a failed write changes neither the data in memory, nor the secrets, nor the file; remove_sites leaves the file alone but has removed the sites in front of the missing one in memory. A process other than shell writes the file at most once, and if it does not report success the file is untouched unless it reports that writing failed; the same holds for each command typed in a shell.", "quantifier": "every call in every state; every command, input and file", "why_tests_cant": "all states and inputs", "anchors": ["pfp/src/passwords.rs:Passwords::remove_sites", "pfp/src/passwords.rs:Passwords::set_alias", "cli/src/main.rs:main", "cli/src/processor/mod.rs:process_command"]}
{"id": "C55", "title": "Command lines", "statement": "The program accepts exactly the command lines of the usual conventions (long and short options in any order, values attached or following, clusters of letters, --) over its table of options, no option twice, and understands them as documented: defaults, length between 4 and 24. The description is unambiguous, every command can be given with any texts, and arguments are valid as far as other properties assume that.", "quantifier": "every list of words", "why_tests_cant": "all command lines", "anchors": ["cli/src/args.rs:Args", "cli/src/args.rs:Commands", "cli/src/args.rs:validate_length", "cli/src/main.rs:main"]}
{"id": "C56", "title": "Lines typed in the shell", "statement": "Lines are split into words as by a Unix shell (white space of Unicode, single and double quotes, backslashes); exactly the lines with open quotes are refused; any words can be typed by quoting them; the words mean the same as on the command line, or exit and lock.", "quantifier": "every line", "why_tests_cant": "all lines", "anchors": ["cli/src/processor/shell.rs:processor", "cli/src/args.rs:Args"]}
{"id": "C57", "title": "What remove, alias and notes print", "statement": "remove, alias and notes print what they did, or the value asked for, and nothing else; notes shows the old notes before asking for new ones, reads these from the standard input whatever the options, stores them without trimming and says whether notes were stored or removed. A process doing this leaves the state of the corresponding call.", "quantifier": "every state and input", "why_tests_cant": "all notes and all states of the file", "anchors": ["cli/src/processor/notes.rs:processor", "cli/src/processor/alias.rs:processor", "cli/src/processor/remove.rs:processor"]}
{"id": "C58", "title": "A session compared with separate processes", "statement": "A session of the shell in which each command is followed by lock leaves the same file, consumes the same input and prints the same as one process for each command, except for the lines of the shell itself, provided no command fails to write the file and no listing fails.", "quantifier": "every sequence of commands and every input", "why_tests_cant": "all sequences of commands; relates two executions", "anchors": ["cli/src/processor/shell.rs:processor", "cli/src/processor/mod.rs:process_command", "cli/src/main.rs:main_inner"]}
{"id": "C59", "title": "Several processes working on the same file", "statement": "Processes making calls in any order behave like vaults of C23 that load the file when they start and afterwards only replace it: the file is always as the last process to save left it, a running process gets the same results as without the others, processes running one after the other are a single history, and what another process saved in the meantime is lost. A command does not notice changes of the file made after it started and overwrites them.", "quantifier": "every interleaving of calls by any number of processes; every command", "why_tests_cant": "all interleavings", "anchors": ["pfp/src/storage.rs:Storage::flush", "pfp/src/storage.rs:Storage::new", "cli/src/main.rs:main_inner"]}
{"id": "C60", "title": "Waiting before the process ends", "statement": "With --wait the program does the same as without; when it says that it waits everything else has been printed and no secrets remain in memory, and then it reads one line. Stopped at any moment, it leaves what a process without --wait could have left, or the completed command.", "quantifier": "every command line, input and file", "why_tests_cant": "all executions of all commands; relates two executions", "anchors": ["cli/src/main.rs:main"]}
{"id": "C61", "title": "The history of the shell", "statement": "The history saved when a session ends consists of entries of the old history and lines typed at the prompt, in this order; secrets, the storage and what the commands do make no difference to it. It never has more than a hundred entries, empty ones or equal ones in a row, and it contains the last hundred lines. It shows names of sites and passwords, unlike the storage file.", "quantifier": "every session", "why_tests_cant": "all sessions; relates two executions", "anchors": ["cli/src/processor/shell.rs:processor"]}
{"id": "C62", "title": "How likely each generated password is", "statement": "If k characters may be chosen at a position, between 256/k rounded down and 256/k rounded up of the 256 byte values choose the one wanted; so the number of byte sequences leading to a password is the product of such numbers. With all types, as by default, no password of n characters comes from more than 5760 * 4^(n-4) of the 256^n sequences. Passwords of digits are equally likely. In general passwords are not equally likely.", "quantifier": "all lengths, character sets and passwords", "why_tests_cant": "counts over all byte sequences; a test draws a few", "anchors": ["pfp/src/crypto.rs:to_password"]}
{"id": "C63", "title": "Passwords can be restored from the printed list", "statement": "list -r prints below the name of every stored password that is not empty and does not end with NUL lines which can be entered one after the other at add-stored -c, in any vault with the same primary password, for any site, name and revision: each line but the last is answered by asking for more, then the password is stored and show returns it.", "quantifier": "all histories, listings, vaults, passwords of any length", "why_tests_cant": "relates the output of one command to the input of another one over all states and passwords; the layout of lines, indentation, checksums and encryption all have to agree", "anchors": ["cli/src/processor/list.rs:processor", "cli/src/processor/utils.rs:prompt_recovery_code", "pfp/src/recovery_codes.rs:generate", "pfp/src/recovery_codes.rs:decode"]}
{"id": "C64", "title": "Any file can be found at the place of the storage", "statement": "Whatever file a process finds: a storage counts as present exactly if the file is a usable document with a salt and an HMAC secret; a primary password is accepted exactly if the key derived from it and the salt opens the secret, and key and secret are the ones used then; otherwise nothing changes. If no password opens the file no command but set-primary and shell ever succeeds and the file stays as it is: unusable documents and missing entries are reported; with both entries present the process asks for ever or aborts.", "quantifier": "all contents of the file, all primary passwords and inputs", "why_tests_cant": "all files, not only those written by the program", "anchors": ["pfp/src/passwords.rs:Passwords::unlock", "pfp/src/passwords.rs:Passwords::initialized", "pfp/src/storage.rs:Storage::get_hmac_secret", "cli/src/main.rs:main_inner", "cli/src/processor/utils.rs:ensure_unlocked_passwords"]}
{"id": "C65", "title": "Saves and loads that overlap in time", "statement": "Call by call of the operating system (create, write, open, read), by any number of processes: a save without others leaves the file as the model of flush says. Somebody loading during one save gets a beginning of the old text continued by the new one; who starts after the save began gets the new text or an error. If every call transfers all there is, the file and everything loaded is one of the texts saved or is refused. Refuted: two overlapping saves that both succeed leave a usable file; one of the two changes survives; an entry present before and after a save is seen by who loads during it.", "quantifier": "all interleavings of the calls of any number of processes, all sizes of the pieces transferred, all texts", "why_tests_cant": "races between processes hit rarely and depend on how the system splits the transfers", "anchors": ["pfp/src/storage_io/file.rs:FileIO::load", "pfp/src/storage_io/file.rs:FileIO::flush"]}
{"id": "C66", "title": "What passwords and the encryption key are derived from", "statement": "Entries that differ in site, name or revision are derived from different texts unless a NUL character occurs in site or name (refuted with NUL characters). The encryption key is derived from the same text as some possible password exactly if the salt has a NUL byte; that password is the key, converted to characters. Generating an entry again with another length keeps all but the last characters (as many as character types).", "quantifier": "all sites, names, revisions, salts, lengths and character types; all states that can be reached, of all storages with the same primary password", "why_tests_cant": "needs a salt with a NUL byte or names with NUL characters; that inputs never collide is a statement about all pairs", "anchors": ["pfp/src/crypto.rs:derive_password", "pfp/src/crypto.rs:derive_key", "pfp/src/crypto.rs:to_password", "pfp/src/passwords.rs:get_encryption_key", "pfp/src/storage_types/password.rs:GeneratedPassword::salt"]}
{"id": "C67", "title": "Which recovery codes are accepted", "statement": "A text is accepted as recovery code exactly if its lines carry correct checksums and the data version 1, a salt, a nonce and a ciphertext that the key of primary password and salt opens; codes and data correspond one to one, apart from case and ignored characters. Two different neighbouring characters exchanged are reported at positions 1, 3, 6 and 8 of a group of eight; at positions 2, 4, 5 and 7 the checksum can miss it (refuted) and only the cipher can reject the code. Any encrypted value of suitable length, such as an entry of the file, can be written as a code and decodes to what was encrypted.", "quantifier": "all texts, primary passwords, salts, ciphertexts; all positions in codes of any number of lines", "why_tests_cant": "undetected exchanges need particular neighbouring bytes; that none exists at the other positions is a statement about all lines", "anchors": ["pfp/src/recovery_codes.rs:validate", "pfp/src/recovery_codes.rs:decode", "pfp/src/crypto.rs:pearson_hash", "pfp/src/crypto.rs:base32_decode"]}
{"id": "C68", "title": "Copies of secrets left behind in memory", "statement": "Deriving a password, padding a password for a recovery code, taking the padding off again, and encoding the HMAC secret leave no copy behind in memory given back to the allocator. A secret read from standard input leaves one exactly if its line has more than 1024 bytes: the first 1024, 2048, ... bytes. The text of a password record leaves beginnings of it exactly if it has more than 128 bytes; the claim that a stored password does not stay behind is refuted for notes that make the record longer than that.", "quantifier": "all passwords, salts, lengths, character sets, lines of input, password records", "why_tests_cant": "the tests of the repository search the memory of the process for a few short secrets; none has notes", "anchors": ["pfp/src/crypto.rs:to_password", "pfp/src/recovery_codes.rs:generate", "pfp/src/recovery_codes.rs:decode", "pfp/src/storage.rs:set", "cli/src/processor/utils.rs:prompt_secret_text", "cli/src/leaking_allocator.rs"]}
{"id": "C69", "title": "What is printed does not depend on secrets", "statement": "Take two storage files that give the same answers to the primary passwords which are going to be entered and that differ otherwise only in the texts of stored passwords (and, unless these are asked for, in notes and parameters of generated passwords). Then add, add-stored, remove, alias, list, notes and any shell session made of such commands print exactly the same to standard output and as error messages, exit in the same way and read the same input, also if entries of the file are damaged.", "quantifier": "all pairs of files, all inputs typed, all command arguments, all shell sessions", "why_tests_cant": "a test compares outputs for a few files; that no error message, order of lines or question depends on a secret is a statement about pairs of runs", "anchors": ["cli/src/processor/mod.rs:process_command", "cli/src/processor/list.rs", "cli/src/processor/add_stored.rs", "cli/src/processor/shell.rs", "pfp/src/storage.rs:list_passwords"]}
{"id": "C70", "title": "A process that is stopped", "statement": "The command line program is a sequence of library calls, writes to the terminal and waits for input. Stopped before, after or within any of them (killed, terminal closed so that a write panics, power lost), a command leaves the file as it was, as the completed command would have left it, or - only while it is being written - as a beginning of the new text that everybody opening it gets an error for; a shell leaves the file of the session ended after some line, or such a beginning. A confirmation is printed only after the call it reports has succeeded and the file holds the change; until then commands that make a change print nothing but prompts. Whatever was printed can be seen whenever the program waits for input or calls the library, and is never taken back; a line of the standard input is read only after its prompt was shown. That a usable file stays usable is refuted.", "quantifier": "all commands, shell sessions, inputs, files, moments of stopping, lengths of what was written", "why_tests_cant": "tests run commands to their end; the moments in between and what a kill leaves behind are not observed", "anchors": ["cli/src/main.rs:main", "cli/src/processor/shell.rs:processor", "cli/src/processor/add.rs", "cli/src/processor/list.rs", "cli/src/processor/utils.rs", "pfp/src/storage_io/file.rs:flush"]}
{"id": "C71", "title": "Files and directories", "statement": "Saving creates the missing directories of the storage file and then the file; it changes no other file, removes nothing and leaves a proper directory tree. It fails to create directories exactly if a file is in the way or the system refuses to create one that is missing, fails to open exactly if the path is a directory or the system refuses. If the system refuses nothing, saving always works or never works, and which of the two can be seen beforehand; in particular set-primary works where nothing exists yet. Every theorem about histories and processes holds with the outcomes of writes decided by the file system, and the file they speak of is the one found there. Commands that only look leave the file system as it is. By default the history of the shell is a file of its own next to the storage file; given the storage file as history file, a shell destroys it.", "quantifier": "all directory trees, paths, refusals of the operating system, call histories, sequences of processes", "why_tests_cant": "tests use an existing temporary directory in which everything works", "anchors": ["pfp/src/storage_io/file.rs:flush", "pfp/src/storage_io/file.rs:load", "cli/src/main.rs:get_default_storage_path", "cli/src/processor/shell.rs:get_default_history_path"]}
{"id": "C72", "title": "Several storage files", "statement": "The program is called again and again with any arguments: different storage files given by -c or the default one, absolute or relative paths, shells saving their history. A storage file that is not used as a history file is at any time what calls made by uses of that very file made of it, and the next use of it behaves as the models with one file say; so show prints what the vault of C23 contains after these calls. If nothing is in the way of a storage file and the others are neither above nor below it, then what is done with other storage files and which other files exist makes no difference to what is printed and saved for it. No file is changed but storage files and history files that are named, directories stay, new ones are directories of storage files. Command lines that are rejected and commands that only look change nothing.", "quantifier": "all machines, command lines, paths, sequences of calls of the program, refusals of the operating system", "why_tests_cant": "the tests use one storage file at a time and never the real argument parser", "anchors": ["cli/src/main.rs:main_inner", "cli/src/args.rs:Args", "cli/src/processor/shell.rs:processor", "pfp/src/storage_io/file.rs:flush"]}
{"id": "C73", "title": "Which entries are accepted", "statement": "A text is accepted as a site exactly if it is a JSON object with the name site once, perhaps alias (null or a string) and nothing else, or an array of both; as a password exactly if it is a JSON object with the type, the parameters of that type, the identifier and perhaps notes, each once and of the right kind. Order and additional members make no difference, a character type is used exactly if it is set somewhere. Everything else is reported as invalid JSON. False is that equivalent spellings of names are treated alike and that repeated names are always rejected.", "quantifier": "all texts, sites, passwords", "why_tests_cant": "the tests read a few entries written by the program itself", "anchors": ["pfp/src/storage_types/site.rs:Site", "pfp/src/storage_types/password.rs:Password", "pfp/src/json/macros.rs:enumset_serialization"]}
{"id": "C74", "title": "The printed list can be read back", "statement": "If the texts stored contain no line breaks, names do not start with a space, revisions contain no parenthesis and site names do not end with one, then list prints the same for two storages only if the same passwords are listed: same sites, names, revisions and kinds, and the same values, notes and rules for generating as far as they are asked for. False is this without these conditions: a name with a line break makes one password look like two, and a revision with a parenthesis may look like a part of the name.", "quantifier": "all storages, histories, patterns, options of list", "why_tests_cant": "the tests compare the output for a few passwords", "anchors": ["cli/src/processor/list.rs"]}
{"id": "C75", "title": "How likely it is that a nonce is used twice", "statement": "With uniformly random values, the probability that two values stored at any time, or recovery codes shown, share a nonce is at most n(n-1)/2^97 where n is three times the number of calls; less than 10^-16 for a million calls. That it never happens is false: a generator that repeats itself makes nonces repeat.", "quantifier": "all histories of calls of the library, all sequences of random values", "why_tests_cant": "a test cannot estimate probabilities this small", "anchors": ["pfp/src/crypto.rs:encrypt_data", "pfp/src/crypto.rs:get_rng", "pfp/src/recovery_codes.rs:generate"]}
{"id": "C76", "title": "What is printed does not depend on random values or on the order of the hash map", "statement": "Two files made with other salts, HMAC secrets and nonces but for the same vault, read by processes whose hash maps list their keys in other orders: if the same is typed, every command that prints no recovery codes, and every shell with such commands, prints the same, reads the same input and exits in the same way, provided that no two passwords have the same name, space and revision. Every usable file is of this kind. Without the proviso the claim is false: of two passwords with the same sort key, chance decides which is printed first.", "quantifier": "all vaults, random values, orders of hash maps, commands, typed input", "why_tests_cant": "a test sees one seed of the hash map and one sequence of random values at a time", "anchors": ["cli/src/main.rs:main", "cli/src/processor/list.rs", "pfp/src/storage.rs:list_sites", "pfp/src/storage.rs:list_passwords", "pfp/src/storage_io/file.rs:keys"]}
{"id": "C77", "title": "What somebody sees who watches the storage file", "statement": "Two histories of calls with other site names, other names and revisions, other passwords, notes, primary passwords and random values, but with the same calls that write, about the same entries up to the exchange of names, with JSON of the same length: whoever sees the two files after every call between two resets can pair their entries once and for all such that paired keys and values have the same length, salt and HMAC secret are paired with each other, and keys that start with another key are paired with such keys. Calls that only read leave no trace. What the keys do show is how many sites there are and how many passwords each of them has: keys of passwords share their first 49 characters exactly if they belong to the same site.", "quantifier": "all histories that can be reached, all exchanges of names, random values", "why_tests_cant": "the claim compares pairs of histories after every call", "anchors": ["pfp/src/storage.rs:get_site_key", "pfp/src/storage.rs:get_password_key", "pfp/src/storage.rs:set_password", "pfp/src/storage.rs:set_alias", "pfp/src/storage.rs:remove_site", "pfp/src/crypto.rs:encrypt_data", "pfp/src/storage_types/password.rs:Password"]}
{"id": "C78", "title": "Which values in the storage file a call replaces", "statement": "Between two resets each site and each password has one key in the file. Comparing the file at two times, salt and HMAC secret are the same, and the value of an entry is the same exactly if no call in between encrypted this entry: set_generated and set_stored encrypt the password, and its site only if the site was unknown; set_notes encrypts the password if it exists; set_alias encrypts the site; all others, remove_sites, remove, remove_alias, unlock and a restart of the program among them, replace no value. For two histories as in C77 the values that differ from one time to another are the same ones up to the pairing of keys.", "quantifier": "all histories that can be reached, all pairs of times, all exchanges of names, random values without repeated nonces", "why_tests_cant": "the claim compares files at all pairs of times of pairs of histories", "anchors": ["pfp/src/storage.rs:ensure_site_data", "pfp/src/storage.rs:set_password", "pfp/src/storage.rs:set_alias", "pfp/src/storage.rs:remove_site", "pfp/src/passwords.rs:set_notes", "pfp/src/passwords.rs:set_stored", "pfp/src/crypto.rs:encrypt_data"]}
{"id": "C79", "title": "Neither the file nor later calls show how a vault came about", "statement": "If two histories, with whatever calls, primary passwords and random values, end with the same entries in the file, then the entries of the two files can be paired, with keys and values of the same length: what was removed or overwritten leaves no trace. If entries and primary password are the same, all later calls have the same results. Two changes that concern different passwords, neither of which gives or takes the alias of a site the other one follows, can be exchanged without a difference in their results, in the results of later calls or in the entries; any number of changes pairwise like that can be made in any order. Setting and removing a new password, setting a password twice, and setting and removing an alias of an unknown site leave the same entries as not doing so or doing it once.", "quantifier": "all pairs of histories that can be reached, all later calls, all lists of pairwise independent changes and their permutations, all random values", "why_tests_cant": "the claim compares pairs of histories of any length; the files always differ in their random parts", "anchors": ["pfp/src/storage.rs:ensure_site_data", "pfp/src/storage.rs:set_alias", "pfp/src/storage.rs:remove_alias", "pfp/src/passwords.rs:set_stored", "pfp/src/passwords.rs:set_notes", "pfp/src/passwords.rs:remove", "pfp/src/passwords.rs:set_alias", "pfp/src/passwords.rs:remove_alias"]}
{"id": "C80", "title": "Output that cannot be written", "statement": "Let the standard output accept only some number of bytes and stderr only some number of messages (a closed pipe, a closed terminal, a full disk). If all the process writes is accepted, limits make no difference. Otherwise it panics at the first write that is not accepted, what was accepted is the beginning of what would have been written, and no library call is made afterwards: the file is as before the command or as after the completed command, for a shell as if it had been left after some line. The same holds with --wait, whose text may be what cannot be written. Asking for the primary password at the end of the standard input, which never ends otherwise, ends. That a process which does not report success has changed nothing is refuted: the password is saved before the message about it is printed.", "quantifier": "all commands, shell sessions, inputs, files and limits", "why_tests_cant": "tests read all output; a pipe would have to be closed after every possible number of bytes", "anchors": ["cli/src/main.rs:main", "cli/src/processor/utils.rs:prompt_secret_text", "cli/src/processor/list.rs", "cli/src/processor/notes.rs", "cli/src/processor/show.rs", "cli/src/processor/shell.rs", "cli/src/processor/add.rs"]}
{"id": "C81", "title": "Which vaults can come about", "statement": "Calls of the library lead to a vault exactly if no site in it is an alias of itself, no revision is written as 1, and texts and lengths are what they can be in Rust; this holds in memory and in the file, also if writes fail, and no call ever reports anything else. For every such vault there are calls that all succeed, after which the library behaves like this vault. That two sites are never aliases of each other, and that the site of every password is listed, is refuted.", "quantifier": "all vaults, all histories, all outcomes of writes", "why_tests_cant": "that a state cannot come about is a statement about all histories; that every other one can is a statement about all vaults", "anchors": ["pfp/src/passwords.rs:set_alias", "pfp/src/storage.rs:set_alias", "pfp/src/storage.rs:remove_site", "pfp/src/storage.rs:ensure_site_data", "pfp/src/storage_types/password.rs:PasswordId::new"]}
{"id": "C82", "title": "The storage of the unit tests stands for the file", "statement": "Code that uses storage only through the trait StorageIO gets the same results from MemoryIO, the storage of the unit tests, as from FileIO, if they hold the same entries, writes succeed and the order in which keys are listed is the same or does not matter; both then hold the same entries. The entries MemoryIO keeps as its file are those found in the written file, after a save and also from the start, if the file is there. Every sequence of calls of the library is such code, and all it sets is text: a unit test is a process that starts with a file of the same entries. That this also holds if writes fail is refuted.", "quantifier": "all code using the trait, all contents of the storage, all sequences of calls of one instance", "why_tests_cant": "the unit tests themselves rest on it: they run with MemoryIO only, for a few sequences of calls", "anchors": ["pfp/src/storage_io/memory.rs:MemoryIO", "pfp/src/storage_io/mod.rs:StorageIO", "pfp/src/storage_io/file.rs:FileIO", "pfp/src/passwords.rs:Passwords::new"]}
{"id": "C83", "title": "The logging allocator", "statement": "In builds with the logging allocator, each request for memory and the writing of the log come to an end although the allocator needs memory itself and locks its list meanwhile. The log names exactly the blocks the program got after the start and those for creating the file, in order, each with its own backtrace and its address in hexadecimal digits. No address is handed out twice, so that one in the log stands for one allocation. With several threads, none has to wait for another one. That all blocks are in the log is refuted.", "quantifier": "all sequences of requests and returns of memory, all numbers of blocks that backtraces, lists and files take", "why_tests_cant": "the build flag is used by hand only; recursion and self-locking depend on how much memory the libraries take", "anchors": ["cli/src/logging_allocator.rs:LoggingAllocator", "cli/src/main.rs:Shutdown"]}

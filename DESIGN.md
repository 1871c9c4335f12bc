# Formal model of palant/pfp-cli in Rocq (Coq 8.16.1)

pfp-cli is a password manager: a library (`pfp`) that keeps an encrypted file of passwords and generates
passwords from a primary password, and a command line program (`pfp-cli`). The model covers both, down to the
bytes of the file, the recovery codes and the text on the terminal, and up to command lines and shell sessions.

## Layout of rocq/theories

| files | contents |
|---|---|
| `M_*.v` | **Model.** Executable Gallina (M_Logging, M_LogThreads: relations), one definition per Rust function, each with a comment citing file and lines in `/repo` and naming simplifications. No proofs of properties. |
| `S_*.v` | **Specification.** Small, readable without the model's helpers: the abstract vault, the policy for generated passwords, grammars of JSON and command lines, what a process may do, ... |
| `P_*.v` | **Proofs.** Lemmas. |
| `Prop_*.v` | **Properties.** The theorems `Cxx_...`, examples that meet their hypotheses, `Print Assumptions` after each theorem. |
| `T_*.v` | Toy primitives for the examples; the repository's own tests, executed on the model. |

`tools/gen_props.py` writes `properties.jsonl`; `tools/gen_manifest.py` writes `MANIFEST.json` from the theorem
names and `tools/notes.json`; `tools/mutate.py` runs wrong variants of the model against the theorems
(`seeded/LOG.jsonl` is the record). There, a failing proof is replaced by `Admitted`, and `theorems_failed` lists the theorems
that then depend on it: for these the wrong variant is not proved. It does not follow that they are false of it; edits marked
as controls in the log break no claim, and show where proofs depend on the text of a definition.

## Trusted base

1. **The kernel of Coq 8.16.1** (and `coqchk`).
2. **Axioms: none.** `Print Assumptions` says "Closed under the global context" for every theorem `Cxx_...`.
   `coqchk` additionally lists `Coq.ssr.ssrunder.Under_rel.*` (7 entries), which are parameters of a module type in
   the standard library loaded by std++; no theorem depends on them. No functors or module types are defined here.
3. **That the model is the code.** Supported by: definitions follow the source function by function; all unit tests of
   `pfp/src` (`T_Repo.v`) and the integration tests of `cli/tests` (`T_CliRepo.v`) are executed on the model by
   the kernel and pass; the former with written-out cryptography, the latter with toy primitives except for the values of scrypt that make
   the expected passwords.
4. **That the crates not in the repository do what the model says.** See "Outside the repository".

Hypotheses of the theorems are explicit arguments, never axioms:

* `prims_ok P`: functional laws of the primitives (lengths; opening inverts sealing; iteration over a map is a
  permutation of its keys). Proved for the primitives written out after their standards (C46).
* `assumptions P ...` (part of `sound`): among the *finitely many* sites, names and primary passwords used in the history at
  hand there are no HMAC collisions and no wrong key that opens a stored text. A global injectivity assumption would be
  unsatisfiable; this one is checked by computation in the examples.
* `utf8 s = true`: Rust strings are UTF-8. C55 and C56 show that everything coming from the command line is.
* `calm ...`: no `reset` of an unlocked instance fails to write (what happens then is C32). The command line program never does
  this (C47).

## Modelling decisions

* `u8` is Coq's `byte`; `Vec<u8>`, `String`, `SecretString`, ... are `list byte`.
* `Result` is `res A := Ok a | Err e | Panic`. Every panic (index, `unwrap`, `% 0`, overflow with checks on,
  wrong `GenericArray` length, `assert!`) is the value `Panic`. Error payloads of the crate itself (line numbers) are kept,
  payloads of other crates are a parameter of the message.
* The library is a state monad over `st`: data in memory, key, HMAC secret, primary password, file, and counters for random values,
  writes and iteration orders. The command line program is a state monad over `term`: that state, everything that is going to be
  typed (standard input, terminal, answers, shell lines), what was shown, what is still buffered, what went to standard error. It can end
  with a value, an error, a panic, or waiting for input for ever.
* Everything outside the two crates is a field of `prims` or `externals`, an explicit argument of the model: HMAC, AES-GCM, scrypt, random source,
  iteration order of hash maps (may change with every change of the map), wildcard matcher, outcome of each write (success, failure before
  opening, failure after n bytes), build profile, QR code of a text.
* Loops of the program over input are recursion on the input; nothing is bounded by fuel that could run out unnoticed.
* Other processes: `machine` (M_Processes) is a file and the memory of each process; one library call is one step. M_Syscalls: the calls of the operating system behind loading and saving, in any order.

## Modelled and not modelled

| code | model |
|---|---|
| pfp/src/crypto.rs | M_Codec (Base32, checksum), M_Crypto, M_Base64 |
| pfp/src/recovery_codes.rs | M_Recovery |
| pfp/src/json/*, storage_types/* | M_Json (serde_json's reader and writer for the documents used), M_Serde (what the derives and macros generate), M_Types, M_Utf8 |
| pfp/src/storage.rs | M_Storage |
| pfp/src/storage_io/file.rs | M_Storage (`load`, `flush`), M_Serde, M_Files (directories) |
| pfp/src/storage_io/memory.rs | M_Double; `data()` (read by the tests) as the field |
| pfp/src/passwords.rs | M_Passwords |
| pfp/src/error.rs | M_Types, messages in M_Cli (`format_error`) |
| cli/src/processor/*.rs, main.rs | M_Cli; M_Steps (the same action by action); M_Pipe (with output that fails); M_Shell (history of the shell); M_Args, M_Wait (`--wait`); M_Machine (the whole program, called again and again) |
| cli/src/args.rs | M_Args |
| cli/src/leaking_allocator.rs; buffers in crypto.rs, recovery_codes.rs, storage.rs, utils.rs | M_Memory |
| cli/src/logging_allocator.rs | M_Logging (one thread), M_LogThreads (several) |
| tests in pfp/src and cli/tests | T_Repo, T_CliRepo |

Not modelled:

* erasure of secrets from memory (`secrecy`) except for the buffers in M_Memory; timing;
* failing writes to the terminal (`unwrap` panics) except in M_Pipe (C80) and in so far as C70 covers stopping before any of them;
* the directory of the default paths (`app_dirs2::get_app_root`: depends on the operating system; a parameter in M_Files);
* what clap, question, rpassword and rustyline print themselves; editing of lines; the format of the history file;
* links and permissions in the file system (M_Files: a tree of directories and an oracle for refusals; elsewhere only how a write ends).

### Outside the repository

Sources of dependencies are not available here. serde_json, base64, clap 3.2.11, shellwords, wildmatch, rustyline's history and
the primitives are modelled after their documentation, their standards, and their observable behaviour in the repository's
tests. Cryptography: SHA-256, HMAC, PBKDF2, scrypt, AES-256-GCM written out in `M_Concrete.v`, checked on the vectors of the standards. scrypt with
the parameters (15, 8, 1) is too slow for the kernel; in T_Repo the seven values needed by the tests come from a table. (The model's scrypt,
extracted and run once outside, gave the key in the repository's test and the vectors of RFC 7914.)

## Plan per property

All properties are expressed; statements that turned out false are proved false with a witness (`_refuted`) next to the strongest
true version found.

| id | modelled | proof |
|----|----------|-------|
| C01, C02 | `base32_encode/decode` on `u8` | meaning as base-32 digits; sweeps over one or two bytes lifted to lists by chunk induction |
| C03 | `pearson_hash`, table as in the source | permutation property by sweep over 256, induction over the block |
| C04-C06 | `to_password`, `derive_password`, `get` | loop invariant on the `seen` set; explicit witness bytes for surjectivity; exact panic set |
| C07, C10-C14 | `generate`, `format_code`, `validate`, `decode` | codec lemmas and AEAD law; induction over lines |
| C08, C09 | same | `format_code` as filter; a 5-bit change cannot be cancelled |
| C15 | `prompt_recovery_code` over typed lines | invariant of the dialogue, induction over the input |
| C16, C17 | `encrypt_data`, `decrypt_data`, Base64 | Base64 round trip; exact success and panic sets |
| C18 | `get_encryption_key` | injectivity of Latin-1 to UTF-8 |
| C19, C20 | JSON reader and writer, derive output | reader proved sound and complete for a grammar (S_Json); reader inverts writer; written texts described with the grammar's strings and numbers (S_Text) |
| C21, C22 | construction of storage keys | string lemmas; NUL characters refute the unrestricted statement |
| C23 | `Passwords` over `Storage` over `FileIO` | refinement to the abstract vault `vstep` (S_Vault), representation invariant `contents`, induction over histories |
| C24-C36, C38 | same | from the refinement or the invariant: durability, frame, aliases, revisions, locking, unlock, reset, failed writes, notes, listing, nonces, contents of the file |
| C37 | `flush` as truncation and writing of prefixes | no strict prefix of a JSON object parses |
| C39-C45 | command processors over scripted input | equations for each command under unlocked and locked states, induction over input and shell lines |
| C46 | primitives in Gallina | XOR involution, length lemmas, wildcard semantics; vectors by `vm_compute` |
| C47, C48 | `main` | every command is a history of calls (logical relation `calls`), so theorems about histories carry over |
| C49, C50 | `trim`, `format_error` | white space table; injectivity by first differing words and number syntax |
| C51 | `main` one after the other | C47 and C23 |
| C52 | `load` of arbitrary files | values of the file either do not open or were written before; invariant over histories with tampering |
| C53 | all | panic-freedom as a Hoare logic for both monads (`safe`) |
| C54 | all | relational invariant on failing calls, writes counted |
| C55, C56 | clap's parser for this program, shellwords | parser equals a declarative grammar (S_Args); splitting equals a declarative reading of lines |
| C57, C58 | notes, alias, remove; `shell_loop` | equations; simulation between a session and separate processes |
| C59 | several processes | refinement to several vaults in front of one file; commands do not read the file again |
| C62 | `to_password` | preimages of every choice counted in residue classes; induction over the positions |
| C63 | `list -r`, `add-stored -c` | C43 and C15; the printed lines split the layout of the code |
| C60, C61 | `Shutdown`, history in shell.rs | equations; fold over the lines, sublist invariant |
| C64 | `load`, `unlock`, `main` on any file | equivalences with the grammars of documents, base64 and ciphertexts |
| C65 | system calls behind `load` and `flush` | invariants over all interleavings (M_Syscalls); JSON texts followed by the end of another text are refused |
| C66 | `generated_salt`, `get_encryption_key`, `derive_password`, `to_password` | NUL splits the text once; prefix of PBKDF2; induction over the loop of `to_password` |
| C67 | `validate`, `decode`, `pearson_hash`, `base32_decode` | low bits of the Pearson hash are affine, so a collision fixes the low bits of two neighbouring bytes; blocks and lines correspond one to one |
| C68 | vectors with capacities, functions that handle secrets | the content fits the capacity in every step; doubling of the buffer by induction over the input; pieces written by serde_json |
| C69 | `main` with all commands, two runs side by side | relation between two states kept by every call and every command; induction over shell lines and prompts |
| C70 | `main_p`: all commands and the shell as sequences of actions | equivalence with `main`; invariants over all moments by induction over programs and loops |
| C71 | `create_dir_all`, `fs::write`, default paths on a tree of directories | induction over paths; calls depend on their own write only, so runs with a file system are runs with its outcomes |
| C72 | main.rs as a whole: words, paths, files, any number of calls of the program (M_Machine) | invariant per storage file; a run depends on its own writes only; relational invariant for two machines |
| C73 | the readers of M_Serde for sites and passwords | values described by occurrences of names (S_Accept); readers proved equivalent to it |
| C74 | list of M_Cli, text of S_Cli | lines told apart by how they start, parsed back to what is shown; with C43 for what is shown |
| C75 | random values of M_Storage, M_Passwords, M_Recovery | sequences with two equal nonces counted (union bound, injection), C36 for all others |
| C76 | M_Cli, M_Passwords, M_Storage, with the random values and the order of the hash map exchanged | relation between two runs of the command-line monad, sorting as a function of the set of keys |
| C77 | M_Passwords, M_Storage, M_Crypto, M_Serde through the vault of C23 | relation between two vaults up to a renaming, kept by every call; the HMAC secret stays the same between two resets; pairing of keys from the representation of a vault in a file |
| C78 | M_Passwords, M_Storage, M_Crypto through the vault of C23 | effect of one call on the values in memory and in the file, memory never has entries the file lacks; values carry the index of their nonce, induction over the calls between two times |
| C79 | M_Passwords, M_Storage, M_Crypto through the vault of C23 | files by C77's description of keys and lengths; later calls by C23 from pointwise equal vaults; exchange by cases on the two calls, maps compared pointwise; any order by induction on permutations, independence being preserved by the calls made before (P_Permute) |
| C80 | M_Steps with limited output (M_Pipe) | induction over programs: same result, or stopped at a moment of C70; overflow and prefix by determinism; --wait as further actions after those of the command (M_Wait) |
| C81 | M_Passwords, M_Storage through the vault of C23 | invariant by cases on the calls; the other direction by an explicit list of calls: a long other name for each site, through which sites and passwords are added, then removed |
| C82 | M_Double (memory.rs; code using the trait as a tree of its calls), M_Storage | induction on the tree, for both storages together; the library by composing trees along its calls |
| C83 | M_Logging (logging_allocator.rs), as a relation since the allocator calls itself | calls while the list is locked by induction on their number; the others by inversion of the rules; induction over programs; several threads by an invariant of the interleavings (M_LogThreads) |

## Findings

Behaviour the proofs brought up (theorem names are the witnesses):

* A crash or full disk while saving destroys the file: `fs::write` truncates first (C37_atomic_refuted, C70_usable_refuted).
* A failed `reset` of an unlocked instance leaves it unlocked with the old key; later changes are acknowledged and lost (C32_consistent_after_error_refuted).
* A crafted file makes the program panic: nonce of the wrong length (C17_corrupt_data_always_error_refuted), generated password of length 0
  (C06_get_never_panics_refuted).
* NUL characters in names make different entries share a slot (C21_all_names_refuted).
* Chains of aliases arise; passwords become unreachable or reachable under another site (C27_points_to_regular_site_refuted, C27_found_under_own_site_refuted), and
  `list` fails or removes sites in use (C42_always_works_refuted, C42_keeps_sites_in_use_refuted, C42_keeps_aliases_refuted) or leaves passwords out that can be retrieved (C43_all_shown_refuted, C43_site_shown_refuted).
* Recovery codes drop trailing NUL characters (C07_trailing_nul_refuted) and panic with overflow checks (C14_debug_total_refuted).
* `set-primary` overwrites an unreadable file without asking (C40_unasked_refuted).
* `--stdin-passwords` at the end of the input asks for ever (C39_ends_refuted).
* No newline after "Password retrieved." (C44_own_line_refuted).
* `list` sorts by name, space, revision (C43_order_by_name_refuted).
* `remove_sites` stops half way and keeps the first removals in memory (C54_remove_sites_refuted, C54_shell_refuted).
* Entries can be exchanged, copied and rolled back by whoever can write the file: the key of an entry is not bound to its contents (C52_entry_asked_for_refuted).
* `-c` is accepted in the shell and ignored (C56_other_file_refuted).
* Two processes overwrite each other's changes (C59_no_update_lost_refuted).
* Generated passwords are not equally likely, though nearly so (C62_equally_likely_refuted, C62_count).
* The history of the shell shows the names the storage file hides (C61_names_hidden_refuted).
* With a salt that is not base64 the program refuses every primary password and asks again, for ever (C64_unopened, C64_example).
* Two saves at the same time can leave a file that cannot be loaded, although both report success (C65_usable_refuted); with writes in several pieces also a usable file with
  neither change (C65_one_change_remains_refuted). Loading during a save can miss entries (C65_entry_seen_refuted).
* The encryption key and the passwords come from the same function without separation: with a NUL byte in the salt (1 of 16 storages) one entry exists whose password is the key
  in other characters (C66_key_input, C66_password_from_key). Changing the length of a generated password leaves its beginning as it was (C66_longer_password).
* The checksum of recovery codes uses an affine permutation. Typing two neighbouring characters in the wrong order goes unnoticed by it at half of the positions, for some codes
  (C67_exchanged_characters_refuted); the user then learns only that decryption failed. Recovery codes and entries of the file are encrypted with the same key and not told apart (C67_any_encrypted_value).
* `serde_json::to_vec` starts with 128 bytes and its buffer grows. A stored password with notes, if the record gets longer, stays in the block given back
  (C68_record_refuted); the same goes for lines of input of more than 1024 bytes (C68_typed). `Secret<Vec<u8>>` overwrites only the final block.
* `pfp -c FILE shell --history FILE` replaces the storage file by the command history (C71_history_refuted).
* A generated password with an unrelated or character type name spelled with escapes (`\u006cower`) is rejected as invalid JSON, a stored one is not (C73_spelling_refuted): json/macros.rs asks for `&str` keys.
* list prints names, revisions, notes and values as they are: a name with a line break makes one password look like two (C74_lines_refuted), a revision with a parenthesis looks like a part of the name (C74_parentheses_refuted).
* Of two passwords of a site with the same name, space and revision (`x y` without revision and `x` with revision `y `), `list` prints one first at random: the order of the `HashMap` (C76_any_names_refuted).
* Without the primary password the storage file shows how many sites there are, how many passwords each of them has, and the lengths of the JSON of all entries (C77_counts, C38): the key of a password starts with the key of its site.
* set_alias looks one step ahead only: with `c` an alias of `a` and `a` of `b`, `b` can be made an alias of `c` and so of `a`. Passwords set for `a` are then stored for `b` and the other way round (C81_no_circle_refuted).
* The unit tests run with MemoryIO only, whose flush cannot fail: what the library does when a write fails (C32) cannot be seen by them (C82_failures_refuted).

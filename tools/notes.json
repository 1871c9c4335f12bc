{
 "C06": {
  "note": "Exact panic set for derive_password and for get after set_generated; 'get never panics' refuted by length 0."
 },
 "C07": {
  "note": "Unrestricted round trip refuted by a password ending in NUL; the exact result (trailing NULs stripped) is proved."
 },
 "C14": {
  "note": "Totality proved for builds without overflow checks; refuted with overflow checks."
 },
 "C15": {
  "note": "Every answer history; panics only with overflow checks and more than 256 lines (C14)."
 },
 "C17": {
  "note": "Exact success and panic sets; 'never panics' refuted."
 },
 "C21": {
  "note": "Distinct slots proved for names without NUL, given no HMAC collision on the strings involved; refuted with NUL characters (slots, retrieval and generation input)."
 },
 "C23": {
  "note": "Refinement of an abstract vault for all histories; histories where reset of an unlocked instance fails to write are excluded (C32), names without NUL (C21), no HMAC collision among the finitely many strings used."
 },
 "C27": {
  "note": "'An alias points to a regular site' and 'a password is found under the site it belongs to' refuted by an alias chain."
 },
 "C30": {
  "note": "After a torn write and restart the storage is uninitialized; otherwise unlock(p) works after reset(p)."
 },
 "C32": {
  "note": "Consistency after a failed reset refuted; all other calls keep the change in memory."
 },
 "C37": {
  "note": "Atomicity refuted; partial files are never loaded."
 },
 "C39": {
  "note": "'The prompt ends' refuted: at the end of the standard input the program asks forever."
 },
 "C40": {
  "note": "'Existing data is never discarded unasked' refuted by a file that cannot be parsed."
 },
 "C42": {
  "note": "Proved for sites without 'www.' prefix, where aliases that lead to aliases match the pattern (as they do when everything is listed); 'always works', 'keeps entries of sites in use' and 'keeps aliases' refuted without these conditions."
 },
 "C43": {
  "note": "Order by name and revision proved for names without control characters and spaces; refuted in general (the sort key is name, space, revision). C43_all_shown_refuted: with a chain of aliases a password that can be retrieved is missing from the list of everything; C43_site_shown_refuted: and from the list for the alias, which shows passwords of another site; C43_everything says which ones are shown."
 },
 "C44": {
  "note": "'The password is on a line of its own' refuted: no newline after 'Password retrieved.'."
 },
 "C46": {
  "note": "The crates' sources are not available; the primitives follow the standards and are checked on the vectors of the standards and, in T_Repo, on all unit tests of pfp/src (storage.rs, passwords.rs, recovery_codes.rs, crypto.rs). scrypt with parameters (15,8,1) is too slow for the kernel: the seven values the tests need come from a table. Wildcards follow the documentation of wildmatch."
 },
 "C52": {
  "note": "Proved for rewritten files whose texts either do not open under the key or were written by earlier calls; 'the entry asked for is the one shown', 'removed entries stay removed' and 'notes stay with the entry asked for' refuted."
 },
 "C53": {
  "note": "Reasons for panics proved complete; absence of aborts proved for harmless files, text input and builds without overflow checks. For arbitrary files (a nonce of the wrong size aborts listing), arbitrary entries (generated password of length 0) and input that is not text refuted."
 },
 "C54": {
  "note": "'A failed call changes nothing' refuted for remove_sites (passwords.rs:213-215: the loop stops at the first missing site, what was removed before stays removed in memory and is written by the next successful call); in a shell a failing list does the same."
 },
 "C55": {
  "note": "clap itself is modelled after its documentation (M_Args.v), not after its source; what it prints is not modelled."
 },
 "C56": {
  "note": "shellwords is modelled after its regular expression. 'A line in the shell that names another storage file is refused' refuted: -c is accepted there and ignored, the command runs on the file of the shell (shell.rs:95-101)."
 },
 "C58": {
  "note": "For a fixed iteration order of hash maps (otherwise the order of entries in the file, and of equally named passwords in a listing, differs). That failures of listing have to be excluded is C54_shell_refuted."
 },
 "C59": {
  "note": "A call of the library is one step; two processes writing at the same instant are not modelled. That no change is ever lost is refuted (C59_no_update_lost_refuted)."
 },
 "C60": {
  "note": "What the terminal does while the program waits is not modelled."
 },
 "C61": {
  "note": "The history is a list of lines; the format of its file and rustyline's editing of lines are not modelled. That the history hides names is refuted (C61_names_hidden_refuted)."
 },
 "C62": {
  "note": "Counted are the byte sequences the key derivation may return; that these are equally likely is not modelled. That all passwords are equally likely is refuted (C62_equally_likely_refuted)."
 },
 "C63": {
  "note": "Sites beginning with www. and chains of aliases matched in part are excluded as in C42. Passwords that are empty or end with NUL: see C07."
 },
 "C64": {
  "note": "Damaged files with both entries make the program ask for ever or abort (nonce of the wrong size)."
 },
 "C65": {
  "note": "Model of the system calls: M_Syscalls (one file, no failing calls). The three refutations need overlapping saves (usable, one change remains) or transfers in several pieces."
 },
 "C66": {
  "note": "C66_password_from_key and C66_longer_password need that scrypt gives beginnings of the same bytes (extendable), proved for the scrypt of the program in C66_scrypt."
 },
 "C67": {
  "note": "Exchanged characters: proved for the four positions of a group of eight at which they are always found, refuted with a generated code for each of the other four."
 },
 "C68": {
  "note": "Buffers which the functions allocate themselves; memory of called libraries is not modelled. C68_record_refuted gives the records for which the stored password stays behind."
 },
 "C69": {
  "note": "Commands whose purpose is to show a password (show, list with -s or -r) and notes --set are outside; set-primary is covered by C40. The order of a HashMap is assumed to depend on its keys and history, not on the values."
 },
 "C70": {
  "note": "The program is written down a second time action by action and proved to end as the model of C38-C47 says. 'Always usable afterwards' refuted: the file is overwritten in place. What is left of an interrupted write is taken to be a beginning of the text."
 },
 "C71": {
  "note": "std::fs::create_dir_all and fs::write modelled after the standard library; no links, no other programs changing directories. 'The history file never harms the storage file' refuted: --history and --storage can name the same file."
 },
 "C72": {
  "note": "one process at a time (C59 and C65 are about several); paths without '..'; each storage file has its own sequence of random values."
 },
 "C73": {
  "note": "C73_spelling_refuted and C73_repeated_refuted refute two stronger readings."
 },
 "C74": {
  "note": "C74_lines_refuted and C74_parentheses_refuted refute the claim without the conditions."
 },
 "C75": {
  "note": "C75_never_refuted refutes that it is impossible. Equally likely: all sequences of 32-byte blocks, one for each value drawn (C75_tapes counts them)."
 },
 "C76": {
  "note": "C76_any_names_refuted refutes the claim for passwords with the same sort key. Recovery codes contain a nonce and are left out."
 },
 "C77": {
  "note": "Compared are keys and lengths of values after every call; which of the values are replaced by a call is the subject of C78. All writes to the file succeed."
 },
 "C78": {
  "note": "All writes to the file succeed; the nonces drawn in the history are distinct (C36 says how likely it is that they are not)."
 },
 "C79": {
  "note": "All writes to the file succeed. remove_sites is not among the calls that can be exchanged; results of later calls are the same but for the order of lists and the random part of recovery codes."
 },
 "C80": {
  "note": "What question, rpassword and rustyline print themselves is not counted. C80_unreported_refuted refutes the stronger reading."
 },
 "C81": {
  "note": "The exact description is about the vault of C23, which C81_results and C81_built connect with the calls themselves; names with NUL characters are excluded there (C21). C81_no_circle_refuted and C81_all_listed_refuted refute stronger readings."
 },
 "C82": {
  "note": "C82_library shows that the library's calls (without a restart, which only FileIO has) are code of this kind; the code it gives may ask for more keys than the Rust code does, only results and data are compared. C82_failures_refuted: MemoryIO never fails to save."
 },
 "C83": {
  "note": "C83_ends, C83_log, C83_distinct are for one thread, as in the program; C83_no_waiting, C83_threads and C83_threads_logged for any number of threads, where the log may miss blocks obtained while another thread adds to it (C83_threads_all_refuted). C83_all_refuted: blocks taken by the allocator itself are not in the log. C83_distinct assumes that the system does not hand out a block that is in use."
 }
}
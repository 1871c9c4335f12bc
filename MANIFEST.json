{"claims": [
 {"property": "C01", "status": "proved", "theorems": ["C01_base32_encode_meaning", "C01_base32_encode_domain", "C01_base32_lossless"], "note": ""},
 {"property": "C02", "status": "proved", "theorems": ["C02_base32_decode_meaning", "C02_base32_decode_canonical"], "note": ""},
 {"property": "C03", "status": "proved", "theorems": ["C03_pearson_single_byte", "C03_pearson_virtual_byte", "C03_line_position"], "note": ""},
 {"property": "C04", "status": "proved", "theorems": ["C04_generated_password_policy", "C04_derive_password_policy"], "note": ""},
 {"property": "C05", "status": "proved", "theorems": ["C05_generator_range", "C05_no_ambiguous_characters"], "note": ""},
 {"property": "C06", "status": "proved", "theorems": ["C06_get_panics", "C06_get_never_panics_refuted", "C06_derive_password_panics"], "note": "Exact panic set for derive_password and for get after set_generated; 'get never panics' refuted by length 0."},
 {"property": "C07", "status": "proved", "theorems": ["C07_recovery_roundtrip", "C07_recovery_exact", "C07_wrong_primary_password", "C07_trailing_nul_refuted"], "note": "Unrestricted round trip refuted by a password ending in NUL; the exact result (trailing NULs stripped) is proved."},
 {"property": "C08", "status": "proved", "theorems": ["C08_layout_insensitive", "C08_ignored_characters", "C08_case_ignored", "C08_canonical_format"], "note": ""},
 {"property": "C09", "status": "proved", "theorems": ["C09_single_character_error", "C09_generated_codes"], "note": ""},
 {"property": "C10", "status": "proved", "theorems": ["C10_wrong_length", "C10_inserted_character", "C10_deleted_character"], "note": ""},
 {"property": "C11", "status": "proved", "theorems": ["C11_truncated", "C11_extra_data"], "note": ""},
 {"property": "C12", "status": "proved", "theorems": ["C12_misplaced_line", "C12_exchanged_lines"], "note": ""},
 {"property": "C13", "status": "proved", "theorems": ["C13_generated_layout", "C13_generate_outcome"], "note": ""},
 {"property": "C14", "status": "proved", "theorems": ["C14_release_total", "C14_release_generate_total", "C14_empty_password_panics", "C14_long_code_panics", "C14_debug_total_refuted"], "note": "Totality proved for builds without overflow checks; refuted with overflow checks."},
 {"property": "C15", "status": "proved", "theorems": ["C15_dialogue", "C15_code_entered", "C15_round", "C15_stored"], "note": "Every answer history; panics only with overflow checks and more than 256 lines (C14)."},
 {"property": "C16", "status": "proved", "theorems": ["C16_encryption_roundtrip", "C16_ciphertext_shape"], "note": ""},
 {"property": "C17", "status": "proved", "theorems": ["C17_decrypt_success", "C17_decrypt_panics", "C17_corrupt_data_always_error_refuted"], "note": "Exact success and panic sets; 'never panics' refuted."},
 {"property": "C18", "status": "proved", "theorems": ["C18_key_derivation", "C18_salt_injective"], "note": ""},
 {"property": "C19", "status": "proved", "theorems": ["C19_site_roundtrip", "C19_password_roundtrip", "C19_json_reader", "C19_site_text", "C19_password_text"], "note": ""},
 {"property": "C20", "status": "proved", "theorems": ["C20_file_roundtrip", "C20_load_accepts", "C20_load_never_panics", "C20_only_objects_refuted", "C20_text"], "note": ""},
 {"property": "C21", "status": "proved", "theorems": ["C21_slots_distinct", "C21_all_names_refuted", "C21_other_name_read_refuted", "C21_generation_input_refuted"], "note": "Distinct slots proved for names without NUL, given no HMAC collision on the strings involved; refuted with NUL characters (slots, retrieval and generation input)."},
 {"property": "C22", "status": "proved", "theorems": ["C22_slots_disjoint", "C22_list_sites_looks_at_sites", "C22_list_looks_at_passwords_of_site"], "note": ""},
 {"property": "C23", "status": "proved", "theorems": ["C23_behaves_like_vault", "C23_behaves_like_vault_saved"], "note": "Refinement of an abstract vault for all histories; histories where reset of an unlocked instance fails to write are excluded (C32), names without NUL (C21), no HMAC collision among the finitely many strings used."},
 {"property": "C24", "status": "proved", "theorems": ["C24_acknowledged_is_saved", "C24_restart_and_unlock", "C24_failed_open_keeps_file"], "note": ""},
 {"property": "C25", "status": "proved", "theorems": ["C25_other_slots_unchanged", "C25_reading_changes_nothing", "C25_other_passwords_unchanged", "C25_other_sites_unchanged"], "note": ""},
 {"property": "C26", "status": "proved", "theorems": ["C26_spelling_is_irrelevant", "C26_alias_is_transparent"], "note": ""},
 {"property": "C27", "status": "proved", "theorems": ["C27_alias_set", "C27_no_passwords_hidden", "C27_alias_removed", "C27_points_to_regular_site_refuted", "C27_found_under_own_site_refuted"], "note": "'An alias points to a regular site' and 'a password is found under the site it belongs to' refuted by an alias chain."},
 {"property": "C28", "status": "proved", "theorems": ["C28_revision_1_is_empty", "C28_no_other_revisions_identified"], "note": ""},
 {"property": "C29", "status": "proved", "theorems": ["C29_locked_refuses", "C29_locked_lists_panic", "C29_locked_no_recovery_code", "C29_lock_erases", "C29_no_partial_secrets", "C29_unlock_restores"], "note": ""},
 {"property": "C30", "status": "proved", "theorems": ["C30_unlock_after_reset", "C30_failed_unlock_changes_nothing"], "note": "After a torn write and restart the storage is uninitialized; otherwise unlock(p) works after reset(p)."},
 {"property": "C31", "status": "proved", "theorems": ["C31_reset_empties"], "note": ""},
 {"property": "C32", "status": "proved", "theorems": ["C32_failure_is_reported", "C32_change_is_kept_in_memory", "C32_consistent_after_error_refuted"], "note": "Consistency after a failed reset refuted; all other calls keep the change in memory."},
 {"property": "C33", "status": "proved", "theorems": ["C33_notes_are_set", "C33_other_notes_unchanged"], "note": ""},
 {"property": "C34", "status": "proved", "theorems": ["C34_list_exact", "C34_list_sites_exact"], "note": ""},
 {"property": "C35", "status": "proved", "theorems": ["C35_has_iff_get", "C35_stored_is_returned", "C35_generated_is_function", "C35_removed_is_gone"], "note": ""},
 {"property": "C36", "status": "proved", "theorems": ["C36_nonces_unique"], "note": ""},
 {"property": "C37", "status": "proved", "theorems": ["C37_old_or_prefix", "C37_atomic_refuted", "C37_partial_file_rejected"], "note": "Atomicity refuted; partial files are never loaded."},
 {"property": "C38", "status": "proved", "theorems": ["C38_only_ciphertext", "C38_file_size", "C38_size_reveals_only_sizes"], "note": ""},
 {"property": "C39", "status": "proved", "theorems": ["C39_not_initialized", "C39_asked_once", "C39_asks", "C39_cases", "C39_commands", "C39_ends_refuted", "C39_waits"], "note": "'The prompt ends' refuted: at the end of the standard input the program asks forever."},
 {"property": "C40", "status": "proved", "theorems": ["C40_too_short", "C40_entered_twice", "C40_process", "C40_file", "C40_unusable_file", "C40_unasked_refuted"], "note": "'Existing data is never discarded unasked' refuted by a file that cannot be parsed."},
 {"property": "C41", "status": "proved", "theorems": ["C41_no_characters", "C41_add", "C41_add_asks", "C41_add_stored", "C41_add_stored_asks", "C41_unconfirmed", "C41_file", "C41_length"], "note": ""},
 {"property": "C42", "status": "proved", "theorems": ["C42_list", "C42_any_state", "C42_always_works_refuted", "C42_keeps_sites_in_use_refuted", "C42_keeps_aliases_refuted"], "note": "Proved for sites without 'www.' prefix, where aliases that lead to aliases match the pattern (as they do when everything is listed); 'always works', 'keeps entries of sites in use' and 'keeps aliases' refuted without these conditions."},
 {"property": "C43", "status": "proved", "theorems": ["C43_output", "C43_everything", "C43_order_by_name_refuted", "C43_all_shown_refuted", "C43_site_shown_refuted"], "note": "Order by name and revision proved for names without control characters and spaces; refuted in general (the sort key is name, space, revision). C43_all_shown_refuted: with a chain of aliases a password that can be retrieved is missing from the list of everything; C43_site_shown_refuted: and from the list for the alias, which shows passwords of another site; C43_everything says which ones are shown."},
 {"property": "C44", "status": "proved", "theorems": ["C44_show", "C44_show_qr", "C44_qr_lossless", "C44_own_line_refuted"], "note": "'The password is on a line of its own' refuted: no newline after 'Password retrieved.'."},
 {"property": "C45", "status": "proved", "theorems": ["C45_refuses", "C45_command", "C45_goes_on", "C45_lock", "C45_ends"], "note": ""},
 {"property": "C46", "status": "proved", "theorems": ["C46_laws", "C46_opens_what_was_sealed", "C46_wildcards", "C46_literal_patterns", "C46_listing", "C46_listing_all"], "note": "The crates' sources are not available; the primitives follow the standards and are checked on the vectors of the standards and, in T_Repo, on all unit tests of pfp/src (storage.rs, passwords.rs, recovery_codes.rs, crypto.rs). scrypt with parameters (15,8,1) is too slow for the kernel: the seven values the tests need come from a table. Wildcards follow the documentation of wildmatch."},
 {"property": "C47", "status": "proved", "theorems": ["C47_calls", "C47_processes"], "note": ""},
 {"property": "C48", "status": "proved", "theorems": ["C48_salt_and_secret"], "note": ""},
 {"property": "C49", "status": "proved", "theorems": ["C49_trim", "C49_still_text", "C49_white_space"], "note": ""},
 {"property": "C50", "status": "proved", "theorems": ["C50_messages"], "note": ""},
 {"property": "C51", "status": "proved", "theorems": ["C51_next_process", "C51_one_change", "C51_stored_then_shown", "C51_generated_then_shown"], "note": ""},
 {"property": "C52", "status": "proved", "theorems": ["C52_only_genuine_passwords", "C52_only_genuine_listed", "C52_only_genuine_sites", "C52_entry_asked_for_refuted", "C52_removed_stays_removed_refuted", "C52_notes_where_asked_refuted"], "note": "Proved for rewritten files whose texts either do not open under the key or were written by earlier calls; 'the entry asked for is the one shown', 'removed entries stay removed' and 'notes stay with the entry asked for' refuted."},
 {"property": "C53", "status": "proved", "theorems": ["C53_reasons", "C53_calls", "C53_new_file", "C53_process", "C53_processes", "C53_set_primary", "C53_any_file_refuted", "C53_any_call_refuted", "C53_any_input_refuted"], "note": "Reasons for panics proved complete; absence of aborts proved for harmless files, text input and builds without overflow checks. For arbitrary files (a nonce of the wrong size aborts listing), arbitrary entries (generated password of length 0) and input that is not text refuted."},
 {"property": "C54", "status": "proved", "theorems": ["C54_calls", "C54_remove_sites", "C54_remove_sites_refuted", "C54_commands", "C54_process", "C54_shell_refuted"], "note": "'A failed call changes nothing' refuted for remove_sites (passwords.rs:213-215: the loop stops at the first missing site, what was removed before stays removed in memory and is written by the next successful call); in a shell a failing list does the same."},
 {"property": "C55", "status": "proved", "theorems": ["C55_understood", "C55_unambiguous", "C55_every_command", "C55_order", "C55_twice", "C55_valid"], "note": "clap itself is modelled after its documentation (M_Args.v), not after its source; what it prints is not modelled."},
 {"property": "C56", "status": "proved", "theorems": ["C56_words", "C56_broken", "C56_any_words", "C56_commands", "C56_exit", "C56_lock", "C56_valid", "C56_no_abort", "C56_other_file_refuted"], "note": "shellwords is modelled after its regular expression. 'A line in the shell that names another storage file is refused' refuted: -c is accepted there and ignored, the command runs on the file of the shell (shell.rs:95-101)."},
 {"property": "C57", "status": "proved", "theorems": ["C57_remove", "C57_alias", "C57_unalias", "C57_alias_shown", "C57_notes_shown", "C57_notes_set", "C57_notes_process"], "note": ""},
 {"property": "C58", "status": "proved", "theorems": ["C58_session"], "note": "For a fixed iteration order of hash maps (otherwise the order of entries in the file, and of equally named passwords in a listing, differs). That failures of listing have to be excluded is C54_shell_refuted."},
 {"property": "C59", "status": "proved", "theorems": ["C59_behave_like_vaults", "C59_last_writer", "C59_isolated", "C59_one_at_a_time", "C59_no_update_lost_refuted", "C59_command_does_not_notice", "C59_command_overwrites"], "note": "A call of the library is one step; two processes writing at the same instant are not modelled. That no change is ever lost is refuted (C59_no_update_lost_refuted)."},
 {"property": "C60", "status": "proved", "theorems": ["C60_wait", "C60_completes", "C60_stopped"], "note": "What the terminal does while the program waits is not modelled."},
 {"property": "C61", "status": "proved", "theorems": ["C61_lines_typed", "C61_nothing_else_matters", "C61_orderly", "C61_recent_lines", "C61_names_hidden_refuted"], "note": "The history is a list of lines; the format of its file and rustyline's editing of lines are not modelled. That the history hides names is refuted (C61_names_hidden_refuted)."},
 {"property": "C62", "status": "proved", "theorems": ["C62_characters", "C62_count", "C62_all_types", "C62_digits", "C62_equally_likely_refuted"], "note": "Counted are the byte sequences the key derivation may return; that these are equally likely is not modelled. That all passwords are equally likely is refuted (C62_equally_likely_refuted)."},
 {"property": "C63", "status": "proved", "theorems": ["C63_backup", "C63_restored", "C63_codes"], "note": "Sites beginning with www. and chains of aliases matched in part are excluded as in C42. Passwords that are empty or end with NUL: see C07."},
 {"property": "C64", "status": "proved", "theorems": ["C64_initialized", "C64_unlock", "C64_unopened"], "note": "Damaged files with both entries make the program ask for ever or abort (nonce of the wrong size)."},
 {"property": "C65", "status": "proved", "theorems": ["C65_flush_alone", "C65_one_save", "C65_started_later", "C65_at_once", "C65_usable_refuted", "C65_one_change_remains_refuted", "C65_entry_seen_refuted"], "note": "Model of the system calls: M_Syscalls (one file, no failing calls). The three refutations need overlapping saves (usable, one change remains) or transfers in several pieces."},
 {"property": "C66", "status": "proved", "theorems": ["C66_different_entries", "C66_any_characters_refuted", "C66_key_input", "C66_scrypt", "C66_password_from_key", "C66_longer_password"], "note": "C66_password_from_key and C66_longer_password need that scrypt gives beginnings of the same bytes (extendable), proved for the scrypt of the program in C66_scrypt."},
 {"property": "C67", "status": "proved", "theorems": ["C67_exchanged_characters", "C67_exchanged_characters_refuted", "C67_missed_by_checksum", "C67_codes_and_data", "C67_accepted", "C67_any_encrypted_value"], "note": "Exchanged characters: proved for the four positions of a group of eight at which they are always found, refuted with a generated code for each of the other four."},
 {"property": "C68", "status": "proved", "theorems": ["C68_generated", "C68_recovery_code", "C68_decoded", "C68_typed", "C68_typed_short", "C68_typed_long", "C68_record", "C68_text", "C68_record_refuted", "C68_hmac_secret"], "note": "Buffers which the functions allocate themselves; memory of called libraries is not modelled. C68_record_refuted gives the records for which the stored password stays behind."},
 {"property": "C69", "status": "proved", "theorems": ["C69_process", "C69_vaults"], "note": "Commands whose purpose is to show a password (show, list with -s or -r) and notes --set are outside; set-primary is covered by C40. The order of a HashMap is assumed to depend on its keys and history, not on the values."},
 {"property": "C70", "status": "proved", "theorems": ["C70_completes", "C70_output", "C70_visible", "C70_history", "C70_confirmed", "C70_stopped_anywhere", "C70_stopped", "C70_shell", "C70_said", "C70_prompted", "C70_usable_refuted"], "note": "The program is written down a second time action by action and proved to end as the model of C38-C47 says. 'Always usable afterwards' refuted: the file is overwritten in place. What is left of an interrupted write is taken to be a beginning of the text."},
 {"property": "C71", "status": "proved", "theorems": ["C71_outcome", "C71_untouched", "C71_runs", "C71_processes", "C71_works", "C71_blocked", "C71_first", "C71_history", "C71_history_refuted"], "note": "std::fs::create_dir_all and fs::write modelled after the standard library; no links, no other programs changing directories. 'The history file never harms the storage file' refuted: --history and --storage can name the same file."},
 {"property": "C72", "status": "proved", "theorems": ["C72_isolated", "C72_next", "C72_untouched", "C72_looking", "C72_noninterference", "C72_show", "C72_paths"], "note": "one process at a time (C59 and C65 are about several); paths without '..'; each storage file has its own sequence of random values."},
 {"property": "C73", "status": "proved", "theorems": ["C73_sites", "C73_passwords", "C73_rejected", "C73_site_order", "C73_password_order", "C73_unknown", "C73_site_repeated", "C73_password_repeated", "C73_spelling_refuted", "C73_repeated_refuted"], "note": "C73_spelling_refuted and C73_repeated_refuted refute two stronger readings."},
 {"property": "C74", "status": "proved", "theorems": ["C74_readable", "C74_vaults", "C74_lines_refuted", "C74_parentheses_refuted"], "note": "C74_lines_refuted and C74_parentheses_refuted refute the claim without the conditions."},
 {"property": "C75", "status": "proved", "theorems": ["C75_tapes", "C75_draws", "C75_few_repeats", "C75_million", "C75_never_refuted"], "note": "C75_never_refuted refutes that it is impossible. Equally likely: all sequences of 32-byte blocks, one for each value drawn (C75_tapes counts them)."},
 {"property": "C76", "status": "proved", "theorems": ["C76_printed", "C76_reached", "C76_any_names_refuted"], "note": "C76_any_names_refuted refutes the claim for passwords with the same sort key. Recovery codes contain a nonce and are left out."},
 {"property": "C77", "status": "proved", "theorems": ["C77_watched", "C77_counts"], "note": "Compared are keys and lengths of values after every call; which of the values are replaced by a call is the subject of C78. All writes to the file succeed."},
 {"property": "C78", "status": "proved", "theorems": ["C78_values", "C78_watched"], "note": "All writes to the file succeed; the nonces drawn in the history are distinct (C36 says how likely it is that they are not)."},
 {"property": "C79", "status": "proved", "theorems": ["C79_file", "C79_later", "C79_order", "C79_any_order", "C79_undone"], "note": "All writes to the file succeed. remove_sites is not among the calls that can be exchanged; results of later calls are the same but for the order of lists and the random part of recovery codes."},
 {"property": "C80", "status": "proved", "theorems": ["C80_outcome", "C80_exact", "C80_file", "C80_nothing_left", "C80_prompt", "C80_unreported_refuted", "C80_wait", "C80_wait_file"], "note": "What question, rpassword and rustyline print themselves is not counted. C80_unreported_refuted refutes the stronger reading."},
 {"property": "C81", "status": "proved", "theorems": ["C81_exactly", "C81_always", "C81_results", "C81_built", "C81_valid", "C81_no_circle_refuted", "C81_all_listed_refuted"], "note": "The exact description is about the vault of C23, which C81_results and C81_built connect with the calls themselves; names with NUL characters are excluded there (C21). C81_no_circle_refuted and C81_all_listed_refuted refute stronger readings."},
 {"property": "C82", "status": "proved", "theorems": ["C82_results", "C82_saved", "C82_first_save", "C82_new", "C82_library", "C82_test", "C82_failures_refuted"], "note": "C82_library shows that the library's calls (without a restart, which only FileIO has) are code of this kind; the code it gives may ask for more keys than the Rust code does, only results and data are compared. C82_failures_refuted: MemoryIO never fails to save."},
 {"property": "C83", "status": "proved", "theorems": ["C83_no_waiting", "C83_threads", "C83_threads_logged", "C83_threads_all_refuted", "C83_ends", "C83_log", "C83_distinct", "C83_all_refuted"], "note": "C83_ends, C83_log, C83_distinct are for one thread, as in the program; C83_no_waiting, C83_threads and C83_threads_logged for any number of threads, where the log may miss blocks obtained while another thread adds to it (C83_threads_all_refuted). C83_all_refuted: blocks taken by the allocator itself are not in the log. C83_distinct assumes that the system does not hand out a block that is in use."}
]}

(** C03 (line positions), C07-C14: recovery codes. *)
From Verif Require Import M_Base M_Codec M_Utf8 M_Prims M_Crypto M_Recovery.
From Verif Require Import S_Codec S_Recovery P_Base P_Format P_Validate P_Recovery T_Toy.

(** Ingredients of the examples: the code of the repository's test (recovery_codes.rs:317-320) and a
    code made with the toy primitives. *)
Definition ex_salt : bytes := bs "abcdefghijklmnop".
Definition ex_pp : bytes := bs "primary".
Definition ex_key : bytes := bs "primaryabcdefghijklmnop" ++ repeat x00 9.
Definition nl : bytes := [x0a].
Definition ex_line1 : bytes := bs "AFSY-E25E-NXVG:Q4DK-PKXY-25KP".
Definition ex_line2 : bytes := bs "P3ZZ-A2MC-NPUG:L3VH-PBWY-W48F".
Definition ex_line3 : bytes := bs "PTST-72NZ-ENV2:8U57-4DJQ-XDFB".
Definition ex_line4 : bytes := bs "GK6N-MXKF-GTMT:MKLU-CNZE-ES85".
Definition ex_code : bytes := ex_line1 ++ nl ++ ex_line2 ++ nl ++ ex_line3 ++ nl ++ ex_line4.

Example ex_code_valid : exists lines, code_lines ex_code lines /\ length lines = 4.
Proof.
  assert (exists d, validate toy_debug ex_code = Ok d /\ length d = 60) as (d & Hv & Hl).
  { eexists. split; vm_compute; reflexivity. }
  apply validate_ok_iff in Hv. destruct Hv as (lines & -> & Hc & _). exists lines. split; [exact Hc|].
  pose proof (lines_valid_length _ (proj2 Hc)) as H15. rewrite (length_concat_15 _ H15) in Hl. lia.
Qed.

(** C03. A line (of codes of at most 128 lines) fits one position only and tells whether it is the
    last one. *)
Theorem C03_line_position : forall n m i j line,
  line_valid (virtual_byte n i) line -> line_valid (virtual_byte m j) line ->
  n <= 128 -> m <= 128 -> i < n -> j < m -> i = j /\ (S i = n <-> S j = m).
Proof. exact line_position. Qed.
Print Assumptions C03_line_position.

Example C03_line_example :
  line_valid (virtual_byte 4 3) (bs "0123456789abcd" ++ [pearson_hash (bs "0123456789abcd") (u8 252)]).
Proof. exists (bs "0123456789abcd"). split; reflexivity. Qed.

(** C07. The genuine code decodes, with the right primary password, to the password without its
    trailing NUL characters; in builds with overflow checks provided something is left. *)
Theorem C07_recovery_roundtrip : forall P rnd pw salt key code pp,
  prims_ok P -> get_encryption_key P pp salt = Ok key -> utf8 pw = true ->
  generate P rnd pw salt key = Ok code ->
  (p_overflow_checks P = false \/ strip_nuls pw <> []) ->
  decode P code pp = Ok (strip_nuls pw).
Proof.
  intros P rnd pw salt key code pp HP Hkey Hu Hg Ho.
  rewrite (recovery_roundtrip P rnd pw salt key code pp HP Hkey Hu Hg).
  destruct Ho as [->|Hne]; [reflexivity|]. destruct (strip_nuls pw); [contradiction|].
  rewrite andb_false_r. reflexivity.
Qed.
Print Assumptions C07_recovery_roundtrip.

Theorem C07_recovery_exact : forall P rnd pw salt key code pp,
  prims_ok P -> get_encryption_key P pp salt = Ok key -> utf8 pw = true ->
  generate P rnd pw salt key = Ok code ->
  pw <> [] -> (forall r, pw <> r ++ [x00]) ->
  decode P code pp = Ok pw.
Proof.
  intros P rnd pw salt key code pp HP Hkey Hu Hg Hne Hr. apply strip_nuls_id in Hr.
  rewrite <- Hr at 1. eapply C07_recovery_roundtrip; try eassumption. right. rewrite Hr. exact Hne.
Qed.
Print Assumptions C07_recovery_exact.

(** With another primary password, whose key the cipher rejects for the sealed (padded) password, the
    code is refused. *)
Theorem C07_wrong_primary_password : forall P rnd pw salt key code pp key',
  prims_ok P -> length key = 32 -> generate P rnd pw salt key = Ok code ->
  get_encryption_key P pp salt = Ok key' ->
  (forall pad, (45 + length pw + length pad) mod 14 = 0 -> length pad < 14 -> (forall x, In x pad -> x = x00) ->
     p_open P key' (p_random P rnd 12) (p_seal P key (p_random P rnd 12) (pw ++ pad)) = None) ->
  decode P code pp = Err DecryptionFailure.
Proof. exact wrong_primary_password. Qed.
Print Assumptions C07_wrong_primary_password.

Theorem C07_trailing_nul_refuted :
  ~ (forall P rnd pw salt key code pp,
       prims_ok P -> get_encryption_key P pp salt = Ok key -> utf8 pw = true ->
       generate P rnd pw salt key = Ok code -> decode P code pp = Ok pw).
Proof.
  intros H.
  specialize (H toy_release 5 (bs "a" ++ [x00]) ex_salt ex_key).
  destruct (generate toy_release 5 (bs "a" ++ [x00]) ex_salt ex_key) as [code| |] eqn:E;
    [|vm_compute in E; discriminate..].
  specialize (H code ex_pp (toy_ok _ _) eq_refl eq_refl eq_refl).
  vm_compute in E. injection E as <-. vm_compute in H. discriminate.
Qed.
Print Assumptions C07_trailing_nul_refuted.

Definition ex_toy_code : bytes := bs "AFSY-E25E-NXVG:Q4DK-PKXY-25KP
P3ZZ-ABMB-NKTY:J3MG-N7WG-U4UZ
PPWH-L5VW-NX3D:EJDJ-QXZH-J3RE
QJ3A-AAAA-AAAA:AAAA-AAAA-L2JC
NKTY-J3MG-N7WG:U4VM-QB3G-U5KK".

Example C07_example :
  get_encryption_key toy_debug ex_pp ex_salt = Ok ex_key /\
  generate toy_debug 5 (bs "hunter2 hunter2") ex_salt ex_key = Ok ex_toy_code /\
  decode toy_debug ex_toy_code ex_pp = Ok (bs "hunter2 hunter2") /\
  decode toy_debug ex_toy_code (bs "other") = Err DecryptionFailure.
Proof. repeat split; vm_compute; reflexivity. Qed.

(** C08. Only the significant characters matter. *)
Theorem C08_layout_insensitive : forall P c1 c2 pp,
  significant c1 = significant c2 -> decode P c1 pp = decode P c2 pp.
Proof. exact decode_significant. Qed.
Print Assumptions C08_layout_insensitive.

Theorem C08_ignored_characters : forall P a w b pp,
  (forall c, In c w -> ~ In (upcase c) alphabet32) -> decode P (a ++ w ++ b) pp = decode P (a ++ b) pp.
Proof. exact decode_junk. Qed.
Print Assumptions C08_ignored_characters.

Theorem C08_case_ignored : forall P c1 c2 pp,
  map upcase c1 = map upcase c2 -> decode P c1 pp = decode P c2 pp.
Proof. exact decode_case. Qed.
Print Assumptions C08_case_ignored.

Theorem C08_canonical_format : forall code b b',
  format_code code true = layout (significant code) /\
  format_code code false = significant code /\
  format_code (format_code code b) b' = format_code code b' /\
  significant (format_code code b) = significant code.
Proof.
  intros code b b'. split; [apply format_code_true|]. split; [apply format_code_false|].
  split; [apply format_code_idem|apply significant_format].
Qed.
Print Assumptions C08_canonical_format.

Example C08_example :
  significant (bs "+.-abcdEFG%&/HJKLMNPQRSTUvWXYZ<>!" ++ bs "2345-6789") = bs "ABCDEFGHJKLMNPQRSTUVWXYZ23456789" /\
  layout (bs "ABCDEFGHJKLMNPQRSTUVWXYZ23456789") = bs "ABCD-EFGH-JKLM:NPQR-STUV-WXYZ" ++ nl ++ bs "2345-6789" /\
  decode toy_debug (bs " " ++ firstn 20 ex_toy_code ++ bs "(oO0)1i" ++ skipn 20 ex_toy_code) ex_pp
    = Ok (bs "hunter2 hunter2").
Proof. repeat split; vm_compute; reflexivity. Qed.

(** C09. Replacing one character of a valid code by one with another meaning (another data character,
    or an ignored one in place of a data character and vice versa) is always reported as an error. *)
Theorem C09_single_character_error : forall P a c c' b lines pp,
  code_lines (a ++ [c] ++ b) lines -> (length lines <= 256 \/ p_overflow_checks P = false) ->
  significant [c] <> significant [c'] ->
  exists e, decode P (a ++ [c'] ++ b) pp = Err e.
Proof.
  intros P a c c' b lines pp Hc Hs Hne.
  assert (forall x, length (significant [x]) <= 1) as Hl.
  { intros x. destruct (significant_single x) as [E|E]; rewrite E; cbn; lia. }
  eapply decode_edit; eauto.
Qed.
Print Assumptions C09_single_character_error.

(** All codes produced by [generate] are covered. *)
Theorem C09_generated_codes : forall P rnd pw salt key a c c' b pp,
  prims_ok P -> length key = 32 -> generate P rnd pw salt key = Ok (a ++ [c] ++ b) ->
  significant [c] <> significant [c'] ->
  exists e, decode P (a ++ [c'] ++ b) pp = Err e.
Proof.
  intros P rnd pw salt key a c c' b pp HP Hk Hg Hne.
  destruct (generated_layout _ _ _ _ _ _ HP Hk Hg) as (lines & rows & Hc & _ & Hs & _).
  eapply C09_single_character_error; eassumption.
Qed.
Print Assumptions C09_generated_codes.

Example C09_example :
  decode toy_debug (bs "AFSY-E25E-NXVG:Q4DK-PKXY-25KQ" ++ nl ++ ex_line2 ++ nl ++ ex_line3 ++ nl ++ ex_line4) ex_pp
    = Err (RecoveryCodeChecksumMismatch 0) /\
  significant (bs "P") <> significant (bs "Q").
Proof. split; [vm_compute; reflexivity|vm_compute; discriminate]. Qed.

(** C10. Wrong numbers of characters never decode; so no single insertion or deletion goes
    unnoticed. *)
Theorem C10_wrong_length : forall P code pp pw,
  length (significant code) mod 24 <> 0 -> decode P code pp <> Ok pw.
Proof. exact decode_bad_length. Qed.
Print Assumptions C10_wrong_length.

Theorem C10_inserted_character : forall P a c b lines pp,
  code_lines (a ++ b) lines -> (length lines <= 256 \/ p_overflow_checks P = false) ->
  In (upcase c) alphabet32 -> exists e, decode P (a ++ [c] ++ b) pp = Err e.
Proof.
  intros P a c b lines pp Hc Hs Hin. change (a ++ b) with (a ++ [] ++ b) in Hc.
  apply contains_byte_spec in Hin. eapply decode_edit; [exact Hc|exact Hs|cbn; lia| |].
  - rewrite significant_cons, Hin. cbn. lia.
  - rewrite significant_cons, Hin. discriminate.
Qed.
Print Assumptions C10_inserted_character.

Theorem C10_deleted_character : forall P a c b lines pp,
  code_lines (a ++ [c] ++ b) lines -> (length lines <= 256 \/ p_overflow_checks P = false) ->
  In (upcase c) alphabet32 -> exists e, decode P (a ++ b) pp = Err e.
Proof.
  intros P a c b lines pp Hc Hs Hin. change (a ++ b) with (a ++ [] ++ b).
  apply contains_byte_spec in Hin. eapply decode_edit; [exact Hc|exact Hs| |cbn; lia|].
  - rewrite significant_cons, Hin. cbn. lia.
  - rewrite significant_cons, Hin. discriminate.
Qed.
Print Assumptions C10_deleted_character.

Example C10_example :
  decode toy_debug (bs "X" ++ ex_code) ex_pp = Err (RecoveryCodeChecksumMismatch 0) /\
  decode toy_debug (ex_code ++ bs "X") ex_pp = Err (RecoveryCodeExtraData 4) /\
  decode toy_debug (firstn 118 ex_code) ex_pp = Err RecoveryCodeIncomplete.
Proof. repeat split; vm_compute; reflexivity. Qed.

(** C11. Truncated and over-long codes. *)
Theorem C11_truncated : forall P code lines code' rest pp,
  code_lines code lines -> (length lines <= 256 \/ p_overflow_checks P = false) ->
  significant code = significant code' ++ rest -> rest <> [] ->
  decode P code' pp = Err RecoveryCodeIncomplete.
Proof. exact decode_truncated. Qed.
Print Assumptions C11_truncated.

Theorem C11_extra_data : forall P code lines code' extra pp,
  code_lines code lines -> (length lines <= 256 \/ p_overflow_checks P = false) ->
  significant code' = significant code ++ extra -> extra <> [] ->
  decode P code' pp = Err (RecoveryCodeExtraData (length lines)).
Proof. exact decode_overlong. Qed.
Print Assumptions C11_extra_data.

Example C11_example :
  decode toy_debug (ex_line1 ++ ex_line2 ++ bs "PTST-72") ex_pp = Err RecoveryCodeIncomplete /\
  decode toy_debug [] ex_pp = Err RecoveryCodeIncomplete /\
  decode toy_debug (ex_code ++ ex_line1 ++ bs "AB") ex_pp = Err (RecoveryCodeExtraData 4).
Proof. repeat split; vm_compute; reflexivity. Qed.

(** C12. A line belonging to another position is reported at its place, in particular two exchanged
    lines at the first of them. *)
Theorem C12_misplaced_line : forall P code pre l k total j t1 t2 t3 pp,
  significant code = t1 ++ t2 ++ t3 ->
  base32_text (concat pre) t1 -> base32_text l t2 ->
  length pre = k -> (forall i l', nth_error pre i = Some l' -> line_valid (nonfinal_byte i) l') ->
  line_valid (virtual_byte total j) l -> total <= 128 -> j < total -> k < 128 -> j <> k ->
  decode P code pp = Err (RecoveryCodeChecksumMismatch k).
Proof. exact decode_misplaced. Qed.
Print Assumptions C12_misplaced_line.

Theorem C12_exchanged_lines : forall P code code' L1 a L2 b L3 pp,
  code_lines code (L1 ++ a :: L2 ++ b :: L3) ->
  length (L1 ++ a :: L2 ++ b :: L3) <= 128 ->
  base32_text (concat (L1 ++ b :: L2 ++ a :: L3)) (significant code') ->
  decode P code' pp = Err (RecoveryCodeChecksumMismatch (length L1)).
Proof. exact decode_exchanged. Qed.
Print Assumptions C12_exchanged_lines.

Example C12_example :
  decode toy_debug (ex_line1 ++ ex_line4 ++ ex_line3 ++ ex_line2) ex_pp = Err (RecoveryCodeChecksumMismatch 1) /\
  decode toy_debug (ex_line1 ++ ex_line3 ++ ex_line2 ++ ex_line4) ex_pp = Err (RecoveryCodeChecksumMismatch 1) /\
  exists L1 a L2 b L3, code_lines ex_code (L1 ++ a :: L2 ++ b :: L3) /\ length L1 = 1 /\ length L2 = 1.
Proof.
  split; [vm_compute; reflexivity|]. split; [vm_compute; reflexivity|].
  destruct ex_code_valid as (lines & Hc & Hl).
  destruct lines as [|l1 [|l2 [|l3 [|l4 [|? ?]]]]]; try discriminate.
  exists [l1], l2, [l3], l4, []. auto.
Qed.

(** C13. Layout of the generated code; the number of lines is the only thing depending on the
    password length. *)
Theorem C13_generated_layout : forall P rnd pw salt key code,
  prims_ok P -> length key = 32 -> generate P rnd pw salt key = Ok code ->
  exists lines rows,
    code_lines code lines /\ length lines = (45 + length pw + 13) / 14 /\
    (length lines <= 256 \/ p_overflow_checks P = false) /\
    code = join [x0a] rows /\ length rows = length lines /\
    Forall (fun r => exists a b c d e f,
      Forall (fun g => length g = 4 /\ Forall (fun x => In x alphabet32) g) [a; b; c; d; e; f] /\
      r = a ++ "-"%byte :: b ++ "-"%byte :: c ++ ":"%byte :: d ++ "-"%byte :: e ++ "-"%byte :: f) rows.
Proof. exact generated_layout. Qed.
Print Assumptions C13_generated_layout.

Theorem C13_generate_outcome : forall P rnd pw salt key,
  prims_ok P -> length key = 32 ->
  (length salt <> 16 /\ generate P rnd pw salt key = Err UnexpectedData) \/
  (length salt = 16 /\ 256 < (45 + length pw + 13) / 14 /\ p_overflow_checks P = true /\
   generate P rnd pw salt key = Panic) \/
  (length salt = 16 /\ ((45 + length pw + 13) / 14 <= 256 \/ p_overflow_checks P = false) /\
   exists code, generate P rnd pw salt key = Ok code).
Proof. exact generate_outcome. Qed.
Print Assumptions C13_generate_outcome.

Example C13_example :
  generate toy_debug 5 (bs "hunter2 hunter2") ex_salt ex_key = Ok ex_toy_code /\
  (45 + length (bs "hunter2 hunter2") + 13) / 14 = 5 /\ length (split_on x0a ex_toy_code) = 5.
Proof. repeat split; vm_compute; reflexivity. Qed.

(** C14. Without overflow checks neither direction panics, whatever the input. *)
Theorem C14_release_total : forall P code pp,
  prims_ok P -> p_overflow_checks P = false -> decode P code pp <> Panic.
Proof. exact decode_no_panic. Qed.
Print Assumptions C14_release_total.

Theorem C14_release_generate_total : forall P rnd pw salt key,
  prims_ok P -> length key = 32 -> p_overflow_checks P = false -> generate P rnd pw salt key <> Panic.
Proof. exact generate_no_panic. Qed.
Print Assumptions C14_release_generate_total.

(** With overflow checks the genuine code of the empty password makes [decode] panic, *)
Theorem C14_empty_password_panics : forall P rnd pp salt key,
  prims_ok P -> get_encryption_key P pp salt = Ok key -> length salt = 16 -> p_overflow_checks P = true ->
  exists code, generate P rnd [] salt key = Ok code /\ decode P code pp = Panic.
Proof. exact empty_password_code. Qed.
Print Assumptions C14_empty_password_panics.

(** and so does every text of more than 256 lines the first 256 of which have valid checksums. *)
Theorem C14_long_code_panics : forall P code pre l t1 t2 t3 pp,
  p_overflow_checks P = true ->
  significant code = t1 ++ t2 ++ t3 -> base32_text (concat pre) t1 -> base32_text l t2 ->
  length pre = 256 -> (forall i l', nth_error pre i = Some l' -> line_valid (nonfinal_byte i) l') ->
  length l = 15 ->
  decode P code pp = Panic.
Proof. exact decode_too_many_lines. Qed.
Print Assumptions C14_long_code_panics.

Theorem C14_debug_total_refuted :
  ~ (forall P code pp, prims_ok P -> decode P code pp <> Panic).
Proof.
  intros H.
  destruct (C14_empty_password_panics toy_debug 0 ex_pp ex_salt ex_key (toy_ok _ _) eq_refl eq_refl eq_refl)
    as (code & _ & Hp).
  exact (H toy_debug code ex_pp (toy_ok _ _) Hp).
Qed.
Print Assumptions C14_debug_total_refuted.

(** 256 good lines followed by anything of the size of a line. *)
Example C14_long_example :
  let pre := map (fun i => repeat x41 14 ++ [pearson_hash (repeat x41 14) (u8 (N.of_nat i))]) (seq 0 256) in
  match base32_encode (concat pre) with
  | Ok t => decode toy_debug (t ++ repeat "A"%byte 24) ex_pp = Panic
            /\ decode toy_release (t ++ repeat "A"%byte 24) ex_pp <> Panic
  | _ => False
  end.
Proof. vm_compute. split; [reflexivity|discriminate]. Qed.

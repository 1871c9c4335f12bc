(** C67: which texts are accepted as recovery codes; exchanged characters. *)
From Verif Require Import M_Base M_Base64 M_Codec M_Utf8 M_Prims M_Crypto M_Recovery.
From Verif Require Import S_Codec S_Recovery S_Codes P_Base P_Validate P_Recovery P_Codes T_Toy.

(** Exchanging two neighbouring, different characters of a valid code is reported as an error, at four
    of the eight positions in a group of eight characters. Ignored characters may stand between them. *)
Theorem C67_exchanged_characters : forall P a c m d b lines pp,
  code_lines (a ++ [c] ++ m ++ [d] ++ b) lines -> (length lines <= 256 \/ p_overflow_checks P = false) ->
  In (upcase c) alphabet32 -> In (upcase d) alphabet32 -> upcase c <> upcase d ->
  (forall x, In x m -> ~ In (upcase x) alphabet32) ->
  In (length (significant a) mod 8) [0; 2; 5; 7] ->
  exists e, decode P (a ++ [d] ++ m ++ [c] ++ b) pp = Err e.
Proof. exact decode_swapped. Qed.
Print Assumptions C67_exchanged_characters.

(** A code made with the toy primitives. *)
Definition sw_salt : bytes := bs "S4UQfAfUMabcdefg".
Definition sw_pp : bytes := bs "primary".
Definition sw_key : bytes := bs "primaryS4UQfAfUMabcdefg" ++ repeat x00 9.
Definition sw_rest : bytes := bs "
NXVG-QBMB-NKTY:J3MG-N7WG-U4WG
PPWH-L5VW-NX3D:EJDJ-QXZH-J3RE
QJ3A-AAAA-AAAA:AAAA-AAAA-L2JC
NKTY-J3MG-N7WG:U4VM-QB3G-U5KK".
Definition sw_code : bytes := bs "AFKV-JXLT-N3AY:NXLP-NFTG-G3EY" ++ sw_rest.

Example C67_swap_example :
  get_encryption_key toy_debug sw_pp sw_salt = Ok sw_key /\
  generate toy_debug 5 (bs "hunter2 hunter2") sw_salt sw_key = Ok sw_code /\
  decode toy_debug (bs "FAKV-JXLT-N3AY:NXLP-NFTG-G3EY" ++ sw_rest) sw_pp = Err (RecoveryCodeChecksumMismatch 0) /\
  decode toy_debug (bs "AFVK-JXLT-N3AY:NXLP-NFTG-G3EY" ++ sw_rest) sw_pp = Err (RecoveryCodeChecksumMismatch 0) /\
  decode toy_debug (bs "AFKV-JLXT-N3AY:NXLP-NFTG-G3EY" ++ sw_rest) sw_pp = Err (RecoveryCodeChecksumMismatch 0) /\
  decode toy_debug (bs "AFKV-JXLN-T3AY:NXLP-NFTG-G3EY" ++ sw_rest) sw_pp = Err (RecoveryCodeChecksumMismatch 0) /\
  decode toy_debug (bs "AFKV-JXLT-N3AY:NXLP-NFTG-G3EN" ++ bs "
YXVG" ++ skipn 5 sw_rest) sw_pp = Err (RecoveryCodeChecksumMismatch 0).
Proof. repeat split; vm_compute; reflexivity. Qed.

(** At the other positions the checksum can miss it: the same code, with the characters exchanged at
    one of them, still has correct checksums. *)
Lemma sw_valid : exists lines, code_lines sw_code lines /\ length lines = 5.
Proof.
  assert (exists d, validate toy_debug sw_code = Ok d /\ length d = 75) as (d & Hv & Hl).
  { eexists. split; vm_compute; reflexivity. }
  apply validate_ok_iff in Hv. destruct Hv as (lines & -> & Hc & _). exists lines. split; [exact Hc|].
  pose proof (lines_valid_length _ (proj2 Hc)) as H15. rewrite (length_concat_15 _ H15) in Hl. lia.
Qed.

Theorem C67_exchanged_characters_refuted : forall r, In r [1; 3; 4; 6] ->
  ~ (forall P a c m d b lines,
       code_lines (a ++ [c] ++ m ++ [d] ++ b) lines -> length lines <= 256 ->
       In (upcase c) alphabet32 -> In (upcase d) alphabet32 -> upcase c <> upcase d ->
       (forall x, In x m -> ~ In (upcase x) alphabet32) ->
       length (significant a) mod 8 = r ->
       exists e, validate P (a ++ [d] ++ m ++ [c] ++ b) = Err e).
Proof.
  intros r Hr H. destruct sw_valid as (lines & C & L).
  assert (forall c, contains_byte (upcase c) alphabet32 = true -> In (upcase c) alphabet32) as A
    by (intros c; apply contains_byte_spec).
  destruct Hr as [<-|[<-|[<-|[<-|[]]]]].
  - destruct (H toy_debug (firstn 11 sw_code) "3"%byte [] "A"%byte (skipn 13 sw_code) lines) as [e E];
      [exact C|lia|apply A; reflexivity|apply A; reflexivity|discriminate|intros x []|reflexivity|].
    vm_compute in E. discriminate E.
  - destruct (H toy_debug (firstn 3 sw_code) "V"%byte (bs "-") "J"%byte (skipn 6 sw_code) lines) as [e E];
      [exact C|lia|apply A; reflexivity|apply A; reflexivity|discriminate| |reflexivity|].
    { intros x [<-|[]] Hx. apply contains_byte_spec in Hx. discriminate Hx. }
    vm_compute in E. discriminate E.
  - destruct (H toy_debug (firstn 15 sw_code) "N"%byte [] "X"%byte (skipn 17 sw_code) lines) as [e E];
      [exact C|lia|apply A; reflexivity|apply A; reflexivity|discriminate|intros x []|reflexivity|].
    vm_compute in E. discriminate E.
  - destruct (H toy_debug (firstn 7 sw_code) "L"%byte [] "T"%byte (skipn 9 sw_code) lines) as [e E];
      [exact C|lia|apply A; reflexivity|apply A; reflexivity|discriminate|intros x []|reflexivity|].
    vm_compute in E. discriminate E.
Qed.
Print Assumptions C67_exchanged_characters_refuted.

(** It is then left to the cipher to reject the text. *)
Theorem C67_missed_by_checksum : forall P code salt n c pp key,
  prims_ok P -> spells code (x01 :: salt ++ n ++ c) -> (length (significant code) <= 24 * 256 \/ p_overflow_checks P = false) ->
  length salt = 16 -> length n = 12 -> 16 <= length c ->
  get_encryption_key P pp salt = Ok key -> p_open P key n c = None -> decode P code pp = Err DecryptionFailure.
Proof. exact rejected_by_cipher. Qed.
Print Assumptions C67_missed_by_checksum.

Example C67_missed_example :
  (exists data, spells sw_code data) /\
  decode toy_debug sw_code (bs "other") = Err DecryptionFailure.
Proof.
  split; [|vm_compute; reflexivity]. destruct sw_valid as (lines & C & _). eexists. exists lines. split; [exact C|reflexivity].
Qed.

(** Codes and the data they carry: every text that is a complete code carries one data, of whole blocks;
    all data of whole blocks are carried by one text, apart from case and ignored characters. *)
Theorem C67_codes_and_data :
  (forall text d1 d2, spells text d1 -> spells text d2 -> d1 = d2) /\
  (forall t1 t2 data, spells t1 data -> spells t2 data -> significant t1 = significant t2) /\
  (forall text data, spells text data ->
     data <> [] /\ length data mod 14 = 0 /\ length (significant text) = 24 * (length data / 14)) /\
  (forall data, data <> [] -> length data mod 14 = 0 -> exists text, spells text data /\ text = layout (significant text)).
Proof. exact (conj spells_data (conj spells_text (conj spells_size spells_exists))). Qed.
Print Assumptions C67_codes_and_data.

(** Exactly these texts are accepted: codes carrying version 1, a salt, a nonce and a ciphertext which the
    cipher opens with the key of the primary password and the salt. The password is what was encrypted,
    without trailing NUL characters. *)
Theorem C67_accepted : forall P code pp pw,
  prims_ok P ->
  (decode P code pp = Ok pw <->
   exists salt n c key plain,
     spells code (x01 :: salt ++ n ++ c) /\ length salt = 16 /\ length n = 12 /\ 16 <= length c /\
     (length (significant code) <= 24 * 256 \/ p_overflow_checks P = false) /\
     get_encryption_key P pp salt = Ok key /\ p_open P key n c = Some plain /\
     pw = strip_nuls plain /\ utf8 pw = true /\ (pw <> [] \/ p_overflow_checks P = false)).
Proof. exact decode_accepts. Qed.
Print Assumptions C67_accepted.

Example C67_accepted_example :
  decode toy_debug sw_code sw_pp = Ok (bs "hunter2 hunter2") /\ prims_ok toy_debug.
Proof. split; [vm_compute; reflexivity|apply toy_ok]. Qed.

(** Nothing tells recovery codes from the entries of a storage: what [encrypt_data] made of any text of
    suitable length can be written as a code, without knowing the key, and decodes to the text. *)
Theorem C67_any_encrypted_value : forall P pp salt key rnd m e,
  prims_ok P -> length salt = 16 -> get_encryption_key P pp salt = Ok key -> encrypt_data P rnd m key = Ok e ->
  (45 + length m) mod 14 = 0 -> (45 + length m <= 14 * 256 \/ p_overflow_checks P = false) ->
  utf8 m = true -> m <> [] -> (forall r, m <> r ++ [x00]) ->
  exists code n c, e = b64_encode n ++ bs "_" ++ b64_encode c /\ spells code (x01 :: salt ++ n ++ c) /\
    decode P code pp = Ok m.
Proof. exact recoded. Qed.
Print Assumptions C67_any_encrypted_value.

(** A site record whose text happens to have a suitable length, encrypted and written as a code. *)
Definition sw_record : bytes := bs "{""site"":""my.example.org""}".
Example C67_encrypted_value_example :
  exists e code, encrypt_data toy_debug 7 sw_record sw_key = Ok e /\
    (45 + length sw_record) mod 14 = 0 /\ decode toy_debug code sw_pp = Ok sw_record.
Proof.
  destruct (encrypt_data toy_debug 7 sw_record sw_key) as [e| |] eqn:E; [|vm_compute in E; discriminate..].
  destruct (C67_any_encrypted_value toy_debug sw_pp sw_salt sw_key 7 sw_record e) as (code & n & c & _ & _ & D);
    try reflexivity; [apply toy_ok|exact E|left; cbn; lia|discriminate| |].
  - intros r Hr. apply (f_equal (fun l => last l x01)) in Hr. rewrite last_last in Hr. discriminate Hr.
  - exists e, code. split; [reflexivity|]. split; [reflexivity|exact D].
Qed.

(** C68: copies of secrets that stay behind in memory when buffers grow. *)
From stdpp Require Import gmap.
From Verif Require Import M_Base M_Base64 M_Utf8 M_Json M_Types M_Serde M_Prims M_Crypto M_Recovery M_Cli M_Memory.
From Verif Require Import S_Recovery S_Memory P_Base P_Recovery P_Memory T_Toy.

(** Deriving a password leaves nothing behind: the buffers never grow. *)
Theorem C68_generated : forall P pp salt len cs old,
  exists r, derive_password_mem P pp salt len cs old = (r, old) /\ contents r = derive_password P pp salt len cs.
Proof. exact derive_password_kept. Qed.
Print Assumptions C68_generated.

Example C68_generated_example :
  exists v, derive_password_mem toy_release (bs "primary") (bs "salt") 12 (mk_charset true true true true) [] = (Ok v, []) /\
    length (v_data v) = 12 /\ v_cap v = 12.
Proof. eexists. vm_compute. repeat split. Qed.

(** Had the capacity not been reserved, most of the password would have stayed behind. *)
Example C68_without_capacity :
  snd (to_password_loop_mem (mk_charset true true true true) cs_empty 12 0 (repeat x05 12) vec_new []) <> [].
Proof. vm_compute. discriminate. Qed.

(** Nor does padding a password for a recovery code, *)
Theorem C68_recovery_code : forall pw old,
  exists v, padded_password_mem pw old = (Ok v, old) /\ v_data v = pw ++ repeat x00 (fill_bytes (length pw)).
Proof. exact padded_password_kept. Qed.
Print Assumptions C68_recovery_code.

(** or taking the padding off again. *)
Theorem C68_decoded : forall P d old, strip_nuls (v_data d) <> [] ->
  exists r, stripped_password_mem P d old = (r, old) /\
    contents r = if utf8 (strip_nuls (v_data d)) then Ok (strip_nuls (v_data d)) else Err InvalidUtf8.
Proof. exact stripped_password_nuls. Qed.
Print Assumptions C68_decoded.

Example C68_recovery_code_example :
  exists v w, padded_password_mem (bs "hunter2") [] = (Ok v, []) /\ length (v_data v) = 11 /\
    stripped_password_mem toy_debug v [] = (Ok w, []) /\ v_data w = bs "hunter2".
Proof. eexists _, _. vm_compute. repeat split. Qed.

(** Reading a secret from standard input: what stays behind is the beginnings of the line of 1024, 2048, ... bytes, *)
Theorem C68_typed : forall input old, utf8 (fst (read_line input)) = true ->
  exists v blocks, prompt_password_mem input old = (Ok (v, snd (read_line input)), old ++ blocks) /\
    v_data v = trim (fst (read_line input)) /\ left_by 1024 (fst (read_line input)) blocks.
Proof. exact prompt_password_left. Qed.
Print Assumptions C68_typed.

(** so nothing exactly if the line has at most 1024 bytes. *)
Theorem C68_typed_short : forall input old, utf8 (fst (read_line input)) = true ->
  (snd (prompt_password_mem input old) = old <-> length (fst (read_line input)) <= 1024).
Proof. exact prompt_password_short. Qed.
Print Assumptions C68_typed_short.

Theorem C68_typed_long : forall input old, utf8 (fst (read_line input)) = true -> 1024 < length (fst (read_line input)) ->
  In (firstn 1024 (fst (read_line input))) (snd (prompt_password_mem input old)).
Proof. exact prompt_password_long. Qed.
Print Assumptions C68_typed_long.

Example C68_typed_example :
  (exists v, prompt_password_mem (bs " my secret
more") [] = (Ok (v, bs "more"), []) /\ v_data v = bs "my secret") /\
  (let line := repeat "a"%byte 1025 in utf8 line = true /\ snd (prompt_password_mem line []) = [repeat "a"%byte 1024]).
Proof. split; [eexists; vm_compute; repeat split|vm_compute; split; reflexivity]. Qed.

(** The text of a record, before it is encrypted: nothing stays behind if a stored password has no notes and
    site, name, revision and password, as written with quotes, have at most 71 characters; *)
Theorem C68_record : forall s old,
  length (write_string (id_site (sp_id s))) + length (write_string (id_name (sp_id s))) +
    length (write_string (id_revision (sp_id s))) + length (write_string (sp_password s)) <= 71 -> sp_notes s = [] ->
  exists v, record_mem (Stored s) old = (Ok v, old) /\ v_data v = password_to_vec (Stored s).
Proof. exact record_short. Qed.
Print Assumptions C68_record.

(** in general, if the text has at most 128 bytes; what stays behind otherwise is beginnings of the text. *)
Theorem C68_text : forall p old,
  exists v blocks, record_mem p old = (Ok v, old ++ blocks) /\ v_data v = password_to_vec p /\
    (blocks = [] <-> length (password_to_vec p) <= 128) /\
    (forall x, In x blocks -> exists y, x ++ y = password_to_vec p).
Proof. exact record_blocks. Qed.
Print Assumptions C68_text.

(** The claim that stored passwords do not stay behind is wrong: with notes that make the text longer than
    128 bytes, the password does. *)
Theorem C68_record_refuted : forall s old,
  length (password_to_vec (Stored (without_notes s))) <= 129 -> 128 < length (password_to_vec (Stored s)) ->
  sp_notes s <> [] ->
  exists v before after blocks,
    record_mem (Stored s) old = (Ok v, old ++ (before ++ write_string (sp_password s) ++ after) :: blocks) /\
    v_data v = password_to_vec (Stored s).
Proof. exact record_left. Qed.
Print Assumptions C68_record_refuted.

Definition noted : stored_password :=
  mk_stored (mk_id (bs "example.com") (bs "blubber") []) (bs "hunter2") (bs "Recovery questions: name of the first pet").

Example C68_record_example :
  length (password_to_vec (Stored (without_notes noted))) = 90 /\ length (password_to_vec (Stored noted)) = 142 /\
  snd (record_mem (Stored (without_notes noted)) []) = [] /\
  snd (record_mem (Stored noted) []) =
    [bs "{""type"":""stored"",""site"":""example.com"",""name"":""blubber"",""revision"":"""",""password"":""hunter2"",""notes"":"""].
Proof. vm_compute. repeat split. Qed.

(** The HMAC secret, as it is encoded to be encrypted, does not. *)
Theorem C68_hmac_secret : forall k old, length k = 32 ->
  exists v, hmac_secret_mem k old = (Ok v, old) /\ v_data v = string_to_vec (b64_encode k).
Proof. exact hmac_secret_kept. Qed.
Print Assumptions C68_hmac_secret.

Example C68_hmac_secret_example : length (repeat x07 32) = 32 /\
  exists v, hmac_secret_mem (repeat x07 32) [] = (Ok v, []) /\ length (v_data v) = 46.
Proof. split; [reflexivity|]. eexists. vm_compute. repeat split. Qed.

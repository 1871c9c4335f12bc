(** Vocabulary for statements about processes that find any file. *)
From stdpp Require Import gmap.
From Verif Require Import M_Base M_Utf8 M_Prims M_Json S_Json S_Serde S_Base64 S_Utf8.

(** The file can be used and contains these entries. *)
Definition file_entries (P : prims) (disk : option bytes) (l : list (bytes * bytes)) : Prop :=
  exists text j, disk = Some text /\ utf8 text = true /\ document (p_float_ok P) j text /\ (storage_object j l \/ storage_array j l).
(** Entries the file has values for; of several values the last one counts. *)
Definition file_value (P : prims) (disk : option bytes) (k v : bytes) : Prop :=
  exists l, file_entries P disk l /\ last_value k l = Some v.

(** The primary password [pp] opens the file: the key derived with the salt in the file opens the secret in the file. *)
Definition opens_file (P : prims) (disk : option bytes) (pp key secret : bytes) : Prop :=
  exists v salt a b n c text h,
    file_value P disk (bs "salt") v /\ base64_accepted salt v /\ key = p_scrypt P pp (utf8_text (latin1_points salt)) 32 /\
    file_value P disk (bs "hmac-secret") (a ++ "_"%byte :: b) /\ ~ In "_"%byte a /\
    base64_accepted n a /\ length n = 12 /\ base64_accepted c b /\ p_open P key n c = Some text /\
    document (p_float_ok P) (JStr h) text /\ base64_accepted secret h.

(** Serialization of the storage types: what the serde derives (serde 1.0.137) make of
    pfp/src/storage_types/*.rs, pfp/src/storage_io/file.rs:13-25 and pfp/src/json/macros.rs. *)
From Verif Require Import M_Base M_Utf8 M_Json M_Types.

(** Object member with a plain key. *)
Definition member (k : bytes) (v : json) : bool * bytes * json := (false, k, v).

(** * Writing *)

(** storage_types/site.rs:9-17 *)
Definition site_json (s : site) : json :=
  JObj (member (bs "site") (JStr (site_name s)) ::
        match site_alias s with Some a => [member (bs "alias") (JStr a)] | None => [] end).

(** storage_types/password.rs:15-21, flattened *)
Definition id_members (i : password_id) : list (bool * bytes * json) :=
  [member (bs "site") (JStr (id_site i)); member (bs "name") (JStr (id_name i));
   member (bs "revision") (JStr (id_revision i))].

(** json/macros.rs:43-52 with character_set.rs:25-30, flattened *)
Definition charset_members (c : charset) : list (bool * bytes * json) :=
  [member (bs "lower") (JBool (cs_contains c Lower)); member (bs "upper") (JBool (cs_contains c Upper));
   member (bs "number") (JBool (cs_contains c Digit)); member (bs "symbol") (JBool (cs_contains c Symbol))].

(** password.rs:65-70, 138-142: [skip_serializing_if = "empty_secret"] (11-13) *)
Definition notes_members (notes : bytes) : list (bool * bytes * json) :=
  match notes with [] => [] | _ => [member (bs "notes") (JStr notes)] end.

(** password.rs:56-71, 130-143, 177-187 *)
Definition password_json (p : password) : json :=
  match p with
  | Generated g =>
      JObj (member (bs "type") (JStr (bs "generated2")) :: id_members (gp_id g) ++
            member (bs "length") (JPos (gp_length g)) :: charset_members (gp_charset g) ++
            notes_members (gp_notes g))
  | Stored s =>
      JObj (member (bs "type") (JStr (bs "stored")) :: id_members (sp_id s) ++
            member (bs "password") (JStr (sp_password s)) :: notes_members (sp_notes s))
  end.

(** storage_io/file.rs:13-25; [pairs] is the data in iteration order *)
Definition file_json (pairs : list (bytes * bytes)) : json :=
  JObj [member (bs "application") (JStr (bs "pfp")); member (bs "format") (JPos 3);
        member (bs "data") (JObj (map (fun '(k, v) => member k (JStr v)) pairs))].

Definition site_to_vec (s : site) : bytes := write_json (site_json s).
Definition password_to_vec (p : password) : bytes := write_json (password_json p).
Definition string_to_vec (s : bytes) : bytes := write_json (JStr s).
Definition file_to_string (pairs : list (bytes * bytes)) : bytes := write_json (file_json pairs).

(** * Reading *)

Definition as_str (j : json) : option bytes := match j with JStr s => Some s | _ => None end.
Definition as_bool (j : json) : option bool := match j with JBool b => Some b | _ => None end.
Definition as_pos (j : json) : option N := match j with JPos n => Some n | _ => None end.

(** Values of all members with the given key. *)
Definition lookup (k : bytes) (ms : list (bool * bytes * json)) : list json :=
  map snd (filter (fun '(_, k', _) => bytes_eqb k k') ms).

(** Required field: exactly one member of that name (a second one is "duplicate field"). *)
Definition required {A} (k : bytes) (conv : json -> option A) (ms : list (bool * bytes * json)) : option A :=
  match lookup k ms with [j] => conv j | _ => None end.

(** Field with a default for absence. *)
Definition optional {A} (k : bytes) (conv : json -> option A) (d : A) (ms : list (bool * bytes * json)) : option A :=
  match lookup k ms with [] => Some d | [j] => conv j | _ => None end.

(** [Option<String>]: null or a string *)
Definition as_opt_str (j : json) : option (option bytes) :=
  match j with JNull => Some None | JStr s => Some (Some s) | _ => None end.

Definition key_in (keys : list bytes) (m : bool * bytes * json) : bool :=
  let '(_, k, _) := m in existsb (bytes_eqb k) keys.

Notation "'let*' x ':=' o 'in' k" := (match o with Some x => k | None => None end)
  (at level 200, x name, o at level 100, k at level 200, right associativity).

(** [Site]: site.rs:9-17, [deny_unknown_fields]; a struct may also be given as an array of its
    fields. *)
Definition site_of_json (j : json) : option site :=
  match j with
  | JObj ms =>
      if forallb (key_in [bs "site"; bs "alias"]) ms then
        let* n := required (bs "site") as_str ms in
        let* a := optional (bs "alias") as_opt_str None ms in
        Some (mk_site n a)
      else None
  | JArr [n; a] =>
      let* n := as_str n in
      let* a := as_opt_str a in
      Some (mk_site n a)
  | _ => None
  end.

(** [PasswordId] flattened (password.rs:15-21) *)
Definition id_of_members (ms : list (bool * bytes * json)) : option password_id :=
  let* s := required (bs "site") as_str ms in
  let* n := required (bs "name") as_str ms in
  let* r := required (bs "revision") as_str ms in
  Some (mk_id s n r).

(** json/macros.rs:54-90: the loop over the members left over by the other fields. Keys are requested
    as [&str], which fails for keys written with escapes. Values of unknown keys are not looked at. *)
Fixpoint charset_of_members (acc : charset) (ms : list (bool * bytes * json)) : option charset :=
  match ms with
  | [] => Some acc
  | (esc, k, v) :: ms' =>
      if (esc : bool) then None
      else
        let flag t := let* b := as_bool v in
                      charset_of_members (if b then cs_insert acc t else acc) ms' in
        if bytes_eqb k (bs "lower") then flag Lower
        else if bytes_eqb k (bs "upper") then flag Upper
        else if bytes_eqb k (bs "number") then flag Digit
        else if bytes_eqb k (bs "symbol") then flag Symbol
        else charset_of_members acc ms'
  end.

(** [Password]: internally tagged enum (password.rs:177-187) of structs with flattened fields.
    Unknown members are ignored. *)
Definition password_of_json (j : json) : option password :=
  match j with
  | JObj ms0 =>
      let* tag := required (bs "type") as_str ms0 in
      let ms := filter (fun m => negb (key_in [bs "type"] m)) ms0 in
      if bytes_eqb tag (bs "generated2") then
        let* len := required (bs "length") as_pos ms in
        let* notes := optional (bs "notes") as_str [] ms in
        let rest := filter (fun m => negb (key_in [bs "length"; bs "notes"] m)) ms in
        let* i := id_of_members rest in
        let rest := filter (fun m => negb (key_in [bs "site"; bs "name"; bs "revision"] m)) rest in
        let* cs := charset_of_members cs_empty rest in
        Some (Generated (mk_generated i len cs notes))
      else if bytes_eqb tag (bs "stored") then
        let* pw := required (bs "password") as_str ms in
        let* notes := optional (bs "notes") as_str [] ms in
        let rest := filter (fun m => negb (key_in [bs "password"; bs "notes"] m)) ms in
        let* i := id_of_members rest in
        Some (Stored (mk_stored i pw notes))
      else None
  | _ => None
  end.

(** [HashMap<String, String>]: pairs in order of appearance *)
Definition pairs_of_json (j : json) : option (list (bytes * bytes)) :=
  match j with
  | JObj ms =>
      fold_right (fun '(_, k, v) acc => let* s := as_str v in let* l := acc in Some ((k, s) :: l))
                 (Some []) ms
  | _ => None
  end.

(** json/macros.rs:13-36 [const_serializable!] with file.rs:13-14 *)
Definition application_of_json (j : json) : option unit :=
  let* s := as_str j in if bytes_eqb s (bs "pfp") then Some tt else None.
Definition format_of_json (j : json) : option unit :=
  let* n := as_pos j in
  if (n <? 256)%N then if (n =? 3)%N then Some tt else None else None.

(** [FileIO]: file.rs:16-25, [deny_unknown_fields] *)
Definition file_of_json (j : json) : option (list (bytes * bytes)) :=
  match j with
  | JObj ms =>
      if forallb (key_in [bs "application"; bs "format"; bs "data"]) ms then
        let* _a := required (bs "application") application_of_json ms in
        let* _f := required (bs "format") format_of_json ms in
        required (bs "data") pairs_of_json ms
      else None
  | JArr [a; f; d] =>
      let* _a := application_of_json a in
      let* _f := format_of_json f in
      pairs_of_json d
  | _ => None
  end.

Definition from_slice {A} (fo : bytes -> bool) (conv : json -> option A) (s : bytes) : res A :=
  ok_or (let* j := parse_json fo s in conv j) InvalidJson.

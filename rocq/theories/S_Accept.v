(** Which JSON values stand for a site or a password. *)
From Coq Require Import Permutation.
From Verif Require Import M_Base M_Types M_Json S_Serde.

(** The names in an object, in order. *)
Definition keys (ms : list (bool * bytes * json)) : list bytes := map fst (plain ms).

(** The name occurs once, with this value. *)
Definition has_one (k : bytes) (v : json) (ms : list (bool * bytes * json)) : Prop :=
  exists a b, plain ms = a ++ (k, v) :: b /\ ~ In k (map fst a) /\ ~ In k (map fst b).

(** The name does not occur. *)
Definition has_none (k : bytes) (ms : list (bool * bytes * json)) : Prop := ~ In k (keys ms).

(** [site_value j s]: an object with a site and perhaps an alias and nothing else, or an array of
    both. *)
Definition site_value (j : json) (s : site) : Prop :=
  (exists ms, j = JObj ms /\
     (forall k, In k (keys ms) -> k = bs "site" \/ k = bs "alias") /\
     has_one (bs "site") (JStr (site_name s)) ms /\
     match site_alias s with
     | Some a => has_one (bs "alias") (JStr a) ms
     | None => has_none (bs "alias") ms \/ has_one (bs "alias") JNull ms
     end) \/
  j = JArr [JStr (site_name s); match site_alias s with Some a => JStr a | None => JNull end].

Definition id_value (ms : list (bool * bytes * json)) (i : password_id) : Prop :=
  has_one (bs "site") (JStr (id_site i)) ms /\
  has_one (bs "name") (JStr (id_name i)) ms /\
  has_one (bs "revision") (JStr (id_revision i)) ms.

Definition notes_value (ms : list (bool * bytes * json)) (notes : bytes) : Prop :=
  has_one (bs "notes") (JStr notes) ms \/ has_none (bs "notes") ms /\ notes = [].

Definition flag_name (t : ctype) : bytes :=
  match t with Lower => bs "lower" | Upper => bs "upper" | Digit => bs "number" | Symbol => bs "symbol" end.

(** The names of everything in a generated password but the character types. *)
Definition generated_names : list bytes :=
  [bs "type"; bs "length"; bs "notes"; bs "site"; bs "name"; bs "revision"].

(** [password_value j p]: an object. What else it contains does not matter, except that in a
    generated password no further name may be spelled with escapes. A character type is used if it
    is set anywhere. *)
Definition password_value (j : json) (p : password) : Prop :=
  exists ms, j = JObj ms /\
  match p with
  | Generated g =>
      has_one (bs "type") (JStr (bs "generated2")) ms /\
      has_one (bs "length") (JPos (gp_length g)) ms /\
      notes_value ms (gp_notes g) /\
      id_value ms (gp_id g) /\
      (forall e k v, In (e, k, v) ms -> ~ In k generated_names -> e = false) /\
      (forall e t v, In (e, flag_name t, v) ms -> exists b, v = JBool b) /\
      (forall t, cs_contains (gp_charset g) t = true <-> exists e, In (e, flag_name t, JBool true) ms)
  | Stored s =>
      has_one (bs "type") (JStr (bs "stored")) ms /\
      has_one (bs "password") (JStr (sp_password s)) ms /\
      notes_value ms (sp_notes s) /\
      id_value ms (sp_id s)
  end.

(** All the names which mean something in a password of either kind. *)
Definition password_names : list bytes :=
  generated_names ++ [bs "lower"; bs "upper"; bs "number"; bs "symbol"; bs "password"].

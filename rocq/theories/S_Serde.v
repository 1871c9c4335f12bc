(** What the records and the storage file have to look like. *)
From Coq Require Import Permutation.
From Verif Require Import M_Base M_Utf8 M_Types M_Json S_Json.

(** Rust strings are UTF-8 and lengths are [usize]. *)
Definition site_valid (s : site) : Prop :=
  utf8 (site_name s) = true /\ (forall a, site_alias s = Some a -> utf8 a = true).
Definition id_valid (i : password_id) : Prop :=
  utf8 (id_site i) = true /\ utf8 (id_name i) = true /\ utf8 (id_revision i) = true.
Definition password_valid (p : password) : Prop :=
  match p with
  | Generated g => id_valid (gp_id g) /\ (gp_length g <= u64_max)%N /\ utf8 (gp_notes g) = true
  | Stored s => id_valid (sp_id s) /\ utf8 (sp_password s) = true /\ utf8 (sp_notes s) = true
  end.

(** Object members without the note how their keys were spelled. *)
Definition plain (ms : list (bool * bytes * json)) : list (bytes * json) :=
  map (fun '(_, k, v) => (k, v)) ms.

(** [string_map j l]: [j] is an object with string values, in this order. *)
Definition string_map (j : json) (l : list (bytes * bytes)) : Prop :=
  exists ms, j = JObj ms /\ plain ms = map (fun '(k, v) => (k, JStr v)) l.

(** [storage_object j l]: an object with exactly the three fields, in any order. *)
Definition storage_object (j : json) (l : list (bytes * bytes)) : Prop :=
  exists ms d, j = JObj ms /\ string_map d l /\
    Permutation (plain ms) [(bs "application", JStr (bs "pfp")); (bs "format", JPos 3); (bs "data", d)].

(** The same three values as an array. *)
Definition storage_array (j : json) (l : list (bytes * bytes)) : Prop :=
  exists d, j = JArr [JStr (bs "pfp"); JPos 3; d] /\ string_map d l.

(** Value of a key in a list of pairs of which later ones win. *)
Fixpoint last_value (k : bytes) (l : list (bytes * bytes)) : option bytes :=
  match l with
  | [] => None
  | (k', v) :: l' =>
      match last_value k l' with
      | Some v' => Some v'
      | None => if bytes_eqb k k' then Some v else None
      end
  end.

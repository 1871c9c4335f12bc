(** C73: which entries are accepted, also if another program wrote them. *)
From Coq Require Import Permutation.
From Verif Require Import M_Base M_Utf8 M_Types M_Json M_Serde S_Json S_Serde S_Accept P_Base P_Json P_Serde P_Accept.

(** C73. Exactly these texts are sites, with this meaning. *)
Theorem C73_sites : forall fo text s,
  from_slice fo site_of_json text = Ok s <-> exists j, document fo j text /\ site_value j s.
Proof. exact sites_accepted. Qed.
Print Assumptions C73_sites.

(** Exactly these texts are passwords, with this meaning. *)
Theorem C73_passwords : forall fo text p,
  from_slice fo password_of_json text = Ok p <-> exists j, document fo j text /\ password_value j p.
Proof. exact passwords_accepted. Qed.
Print Assumptions C73_passwords.

(** All others are reported as invalid. *)
Theorem C73_rejected : forall fo text,
  ((exists s, from_slice fo site_of_json text = Ok s) \/ from_slice fo site_of_json text = Err InvalidJson) /\
  ((exists p, from_slice fo password_of_json text = Ok p) \/ from_slice fo password_of_json text = Err InvalidJson).
Proof. intros fo text. split; apply from_slice_cases. Qed.
Print Assumptions C73_rejected.

(** The order of the members does not matter. *)
Theorem C73_site_order : forall fo ms ms' text text',
  document fo (JObj ms) text -> document fo (JObj ms') text' -> Permutation (plain ms) (plain ms') ->
  from_slice fo site_of_json text = from_slice fo site_of_json text'.
Proof. exact site_order. Qed.
Print Assumptions C73_site_order.

Theorem C73_password_order : forall fo ms ms' text text',
  document fo (JObj ms) text -> document fo (JObj ms') text' -> Permutation ms ms' ->
  from_slice fo password_of_json text = from_slice fo password_of_json text'.
Proof. exact password_order. Qed.
Print Assumptions C73_password_order.

(** A member without meaning makes no difference to a password. *)
Theorem C73_unknown : forall fo ms a b k v text text',
  ~ In k password_names -> ms = a ++ (false, k, v) :: b ->
  document fo (JObj ms) text -> document fo (JObj (a ++ b)) text' ->
  from_slice fo password_of_json text = from_slice fo password_of_json text'.
Proof. exact password_unknown. Qed.
Print Assumptions C73_unknown.

(** Repeated names are rejected. *)
Theorem C73_site_repeated : forall fo ms k v1 v2 a b c text,
  document fo (JObj ms) text -> plain ms = a ++ (k, v1) :: b ++ (k, v2) :: c ->
  from_slice fo site_of_json text = Err InvalidJson.
Proof. exact site_repeated. Qed.
Print Assumptions C73_site_repeated.

Theorem C73_password_repeated : forall fo ms k v1 v2 a b c text,
  document fo (JObj ms) text -> plain ms = a ++ (k, v1) :: b ++ (k, v2) :: c ->
  In k [bs "type"; bs "site"; bs "name"; bs "revision"; bs "notes"] ->
  from_slice fo password_of_json text = Err InvalidJson.
Proof. exact password_repeated. Qed.
Print Assumptions C73_password_repeated.

Definition plainly : bytes :=
  bs "{""lower"":true,""type"":""generated2"",""site"":""s"",""name"":""n"",""revision"":"""",""length"":8}".
Definition escaped : bytes :=
  bs "{""\u006cower"":true,""type"":""generated2"",""site"":""s"",""name"":""n"",""revision"":"""",""length"":8}".

Definition members (e : bool) : list (bool * bytes * json) :=
  [(e, bs "lower", JBool true); (false, bs "type", JStr (bs "generated2")); (false, bs "site", JStr (bs "s"));
   (false, bs "name", JStr (bs "n")); (false, bs "revision", JStr []); (false, bs "length", JPos 8)].

Example C73_example_documents : forall fo,
  document fo (JObj (members false)) plainly /\ document fo (JObj (members true)) escaped.
Proof. intros fo. split; apply parse_json_iff; vm_compute; reflexivity. Qed.

(** Texts with the same meaning are not always treated alike: a name spelled with escapes makes the
    program reject a generated password, although it accepts one in all the names it needs. *)
Theorem C73_spelling_refuted :
  ~ (forall fo ms ms' text text',
       document fo (JObj ms) text -> document fo (JObj ms') text' -> plain ms = plain ms' ->
       from_slice fo password_of_json text = from_slice fo password_of_json text').
Proof.
  intros H. specialize (H (fun _ => true) _ _ _ _ (proj1 (C73_example_documents _)) (proj2 (C73_example_documents _)) eq_refl).
  vm_compute in H. discriminate H.
Qed.
Print Assumptions C73_spelling_refuted.

(** Repeated names are not always rejected: the character types may be repeated. *)
Theorem C73_repeated_refuted :
  ~ (forall fo ms k v1 v2 a b c text,
       document fo (JObj ms) text -> plain ms = a ++ (k, v1) :: b ++ (k, v2) :: c -> In k password_names ->
       from_slice fo password_of_json text = Err InvalidJson).
Proof.
  intros H.
  specialize (H (fun _ => true) ((false, bs "lower", JBool false) :: members false) (bs "lower") (JBool false) (JBool true)
    [] [] (plain (List.tl (members false)))
    (bs "{""lower"":false,""lower"":true,""type"":""generated2"",""site"":""s"",""name"":""n"",""revision"":"""",""length"":8}")).
  assert (forall T (x : T), Err InvalidJson <> Ok x) as Hne by discriminate.
  rewrite (proj2 (passwords_accepted _ _ (Generated (mk_generated (mk_id (bs "s") (bs "n") []) 8
    (mk_charset true false false false) [])))) in H.
  - apply (Hne password _ (eq_sym (H ltac:(apply parse_json_iff; vm_compute; reflexivity) eq_refl ltac:(cbn; tauto)))).
  - apply passwords_accepted. vm_compute. reflexivity.
Qed.
Print Assumptions C73_repeated_refuted.

Example C73_example :
  (exists j, document (fun _ => true) j plainly /\
     password_value j (Generated (mk_generated (mk_id (bs "s") (bs "n") []) 8 (mk_charset true false false false) []))) /\
  from_slice (fun _ => true) site_of_json (bs "[""a"",null]") = Ok (mk_site (bs "a") None) /\
  from_slice (fun _ => true) site_of_json (bs "{""alias"":""b"",""site"":""a""}") = Ok (mk_site (bs "a") (Some (bs "b"))) /\
  from_slice (fun _ => true) site_of_json (bs "{""site"":""a"",""x"":1}") = Err InvalidJson /\
  from_slice (fun _ => true) password_of_json escaped = Err InvalidJson /\
  from_slice (fun _ => true) password_of_json
    (bs "{""type"":""stored"",""site"":""s"",""name"":""n"",""revision"":"""",""password"":""p"",""x"":1}") =
  Ok (Stored (mk_stored (mk_id (bs "s") (bs "n") []) (bs "p") [])).
Proof. split; [apply passwords_accepted; vm_compute; reflexivity|]. repeat split; vm_compute; reflexivity. Qed.

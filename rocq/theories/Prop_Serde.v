(** C19, C20 and the file part of C37: JSON, records, the storage file. *)
From stdpp Require Import gmap.
From Verif Require Import M_Base M_Utf8 M_Prims M_Types M_Json M_Serde M_Storage S_Json S_Serde
  P_Base P_Json P_Serde P_Utf8 P_File T_Toy.

(** C19. Site and password entries of all contents survive serialization. *)
Theorem C19_site_roundtrip : forall fo s,
  site_valid s -> from_slice fo site_of_json (site_to_vec s) = Ok s.
Proof. exact site_roundtrip. Qed.
Print Assumptions C19_site_roundtrip.

Theorem C19_password_roundtrip : forall fo p,
  password_valid p -> from_slice fo password_of_json (password_to_vec p) = Ok p.
Proof. exact password_roundtrip. Qed.
Print Assumptions C19_password_roundtrip.

(** The JSON reader accepts exactly the JSON documents (nesting below 128) with their meaning. *)
Theorem C19_json_reader : forall fo text j,
  parse_json fo text = Some j <-> document fo j text.
Proof. exact parse_json_iff. Qed.
Print Assumptions C19_json_reader.

Example C19_example :
  let p := Stored (mk_stored (mk_id (bs "a.com") (bs """x\") []) [xc3; xa4; x07] (bs "n")) in
  password_valid p /\
  password_to_vec p =
    bs "{""type"":""stored"",""site"":""a.com"",""name"":""\""x\\"",""revision"":"""",""password"":"""
    ++ [xc3; xa4] ++ bs "\u0007"",""notes"":""n""}" /\
  from_slice (fun _ => true) password_of_json (bs " {""length"":3,""type"":""generated2"",
     ""revision"":"""",""name"":""a😀"",""site"":""s"",""upper"":true,""x"":[1e5,{}]}") =
  Ok (Generated (mk_generated (mk_id (bs "s") [x61; xf0; x9f; x98; x80] []) 3
                              (mk_charset false true false false) [])).
Proof. split; [repeat split; reflexivity|]. split; vm_compute; reflexivity. Qed.

(** C20. What flush writes is loaded as exactly the same data, in whatever order it was written. *)
Theorem C20_file_roundtrip : forall P s,
  prims_ok P -> (forall k v, s_data s !! k = Some v -> utf8 k = true /\ utf8 v = true) ->
  load P (Some (flush_text P s)) = Ok (s_data s).
Proof. exact load_flush. Qed.
Print Assumptions C20_file_roundtrip.

(** Exactly these files are loaded. *)
Theorem C20_load_accepts : forall P disk d,
  load P disk = Ok d <->
  exists text j l, disk = Some text /\ utf8 text = true /\ document (p_float_ok P) j text /\
    (storage_object j l \/ storage_array j l) /\ forall k, d !! k = last_value k l.
Proof. exact load_iff. Qed.
Print Assumptions C20_load_accepts.

Theorem C20_load_never_panics : forall P disk, load P disk <> Panic.
Proof. exact load_no_panic. Qed.
Print Assumptions C20_load_never_panics.

(** Read as "only for a JSON object with these fields" the claim is false: an array of the three
    values is loaded as well. *)
Theorem C20_only_objects_refuted :
  ~ (forall P text d, load P (Some text) = Ok d ->
       exists j l, document (p_float_ok P) j text /\ storage_object j l).
Proof.
  intros H.
  assert (is_ok (load toy_release (Some (bs "[""pfp"",3,{""a"":""b""}]"))) = true) as Hl
    by (vm_compute; reflexivity).
  destruct (load _ _) as [d0| |] eqn:E in Hl; try discriminate. clear Hl.
  apply H in E. destruct E as (j & l & Hd & (ms & d & -> & _)).
  apply parse_json_iff in Hd.
  assert (match parse_json (p_float_ok toy_release) (bs "[""pfp"",3,{""a"":""b""}]") with
          | Some (JObj _) => false | _ => true end = true) as Hp
    by (vm_compute; reflexivity).
  rewrite Hd in Hp. discriminate.
Qed.
Print Assumptions C20_only_objects_refuted.

(** The error of a failed computation. *)
Definition err_of {A} (r : res A) : option error := match r with Err e => Some e | _ => None end.

Example C20_example :
  match load toy_release (Some (bs "{""data"":{""k"":""v"",""l"":"""",""k"":""w""}, ""format"":3,""application"":""pfp""}"))
  with Ok d => (d !! bs "k", d !! bs "l", d !! bs "m") = (Some (bs "w"), Some [], None) | _ => False end /\
  err_of (load toy_release (Some (bs "{""application"":""pfp"",""format"":2,""data"":{}}"))) = Some InvalidJson /\
  err_of (load toy_release (Some (bs "{""application"":""pfp"",""format"":3,""data"":{},""x"":0}"))) = Some InvalidJson /\
  err_of (load toy_release (Some [xff])) = Some FileReadFailure.
Proof. repeat split; vm_compute; reflexivity. Qed.

(** C37 (file part). A strictly shorter prefix of the text flush writes is never loaded. *)
Theorem C37_partial_file_rejected : forall P s p q,
  (forall k v, s_data s !! k = Some v -> utf8 k = true /\ utf8 v = true) ->
  flush_text P s = p ++ q -> q <> [] ->
  load P (Some p) = Err FileReadFailure \/ load P (Some p) = Err InvalidJson.
Proof. exact load_prefix. Qed.
Print Assumptions C37_partial_file_rejected.

Example C37_prefix_example :
  let s := mk_st {[bs "salt" := bs "AA=="]} None None None None 0 0 0 in
  flush_text toy_release s = bs "{""application"":""pfp"",""format"":3,""data"":{""salt"":""AA==""}}" /\
  err_of (load toy_release (Some (firstn 40 (flush_text toy_release s)))) = Some InvalidJson.
Proof. split; vm_compute; reflexivity. Qed.

(** C19, C20: the texts that are written, for other programs that read them. *)
From stdpp Require Import gmap.
From Verif Require Import M_Base M_Utf8 M_Prims M_Types M_Json M_Serde M_Storage S_Json S_Serde S_Text P_Base P_Text T_Toy.

(** An entry is one JSON object with these members in this order, and nothing else; notes and alias are left out if there are none. *)
Theorem C19_site_text : forall s, site_valid s -> site_text s (site_to_vec s).
Proof. exact written_site. Qed.
Print Assumptions C19_site_text.
Theorem C19_password_text : forall p, password_valid p -> password_text p (password_to_vec p).
Proof. exact written_password. Qed.
Print Assumptions C19_password_text.

(** The storage file consists of application, format 3 and the entries, each of them once, in some order. *)
Theorem C20_text : forall P s, prims_ok P -> (forall k v, s_data s !! k = Some v -> utf8 k = true /\ utf8 v = true) ->
  exists l, l ≡ₚ map_to_list (s_data s) /\ file_text l (flush_text P s).
Proof. exact written_flush. Qed.
Print Assumptions C20_text.

Example C19_text_example :
  let g := Generated (mk_generated (mk_id (bs "a.com") (bs "x") (bs "2")) 16 (mk_charset true false true false) (bs "n")) in
  password_valid g /\
  password_to_vec g = bs "{""type"":""generated2"",""site"":""a.com"",""name"":""x"",""revision"":""2"",""length"":16,""lower"":true,""upper"":false,""number"":true,""symbol"":false,""notes"":""n""}" /\
  site_valid (mk_site (bs "b.com") (Some (bs "a.com"))) /\ site_to_vec (mk_site (bs "b.com") (Some (bs "a.com"))) = bs "{""site"":""b.com"",""alias"":""a.com""}".
Proof.
  split; [repeat split; vm_compute; congruence|]. split; [vm_compute; reflexivity|]. split; [|vm_compute; reflexivity].
  split; [reflexivity|]. intros a [= <-]. reflexivity.
Qed.
Example C20_text_example :
  let s := mk_st {[bs "salt" := bs "AA=="; bs "hmac-secret" := bs "AQ=="]} None None None None 0 0 0 in
  flush_text toy_release s = bs "{""application"":""pfp"",""format"":3,""data"":{""hmac-secret"":""AQ=="",""salt"":""AA==""}}" \/
  flush_text toy_release s = bs "{""application"":""pfp"",""format"":3,""data"":{""salt"":""AA=="",""hmac-secret"":""AQ==""}}".
Proof. vm_compute. first [left; reflexivity|right; reflexivity]. Qed.

(** Checking by computation that two files differ in secrets only, for examples. *)
From stdpp Require Import gmap.
From Verif Require Import M_Base M_Base64 M_Prims M_Types M_Crypto M_Json M_Serde M_Storage M_Passwords M_Utf8 M_Cli M_History S_Vault S_History S_Cli S_Screen P_Base T_Toy T_History.

(** The example primitives with an order that depends on the keys only. *)
Definition plain_toy : prims := {|
  p_overflow_checks := p_overflow_checks toy_release;
  p_hmac := p_hmac toy_release; p_seal := p_seal toy_release; p_open := p_open toy_release;
  p_scrypt := p_scrypt toy_release; p_random := p_random toy_release;
  p_order _ m := elements (dom m : gset bytes);
  p_wild := p_wild toy_release; p_write := p_write toy_release; p_float_ok := p_float_ok toy_release
|}.
Lemma plain_toy_ok : prims_ok plain_toy.
Proof.
  destruct (toy_ok false (fun _ => WriteOk)) as [h1 h2 h3 h4 h5 h6 h7]. constructor; try assumption.
  intros t m. cbn [p_order plain_toy]. apply NoDup_Permutation; [apply NoDup_elements|apply NoDup_fst_map_to_list|].
  intros k. rewrite elem_of_elements, elem_of_dom, elem_of_list_fmap. split.
  - intros [v Hv]. exists (k, v). split; [reflexivity|]. apply elem_of_map_to_list, Hv.
  - intros ([k' v] & -> & H). exists v. apply elem_of_map_to_list, H.
Qed.
Lemma plain_toy_order : order_of_slots plain_toy.
Proof.
  intros n d d' H. cbn [p_order plain_toy]. f_equal. apply leibniz_equiv. intros k. rewrite !elem_of_dom.
  split; intros [v Hv]; [destruct (d' !! k) eqn:E|destruct (d !! k) eqn:E]; eauto; apply H in E; congruence.
Qed.

Definition slot_of_password (slot : bytes) : bool := starts_with (bs "site:") slot && contains_byte ":"%byte (skipn 5 slot).
Lemma slot_of_password_ok slot : password_slot slot <-> slot_of_password slot = true.
Proof.
  unfold slot_of_password. rewrite andb_true_iff, starts_with_spec. split.
  - intros (a & b & ->). split; [eexists; reflexivity|]. change (skipn 5 (bs "site:" ++ a ++ ":"%byte :: b)) with (a ++ ":"%byte :: b).
    apply contains_byte_spec, in_or_app. right. left. reflexivity.
  - intros [[r ->] H]. change (skipn 5 (bs "site:" ++ r)) with r in H. apply contains_byte_spec, in_split in H.
    destruct H as (a & b & ->). exists a, b. reflexivity.
Qed.

Definition check_id (i j : password_id) : bool :=
  bytes_eqb (id_site i) (id_site j) && bytes_eqb (id_name i) (id_name j) && bytes_eqb (id_revision i) (id_revision j).
(** Only stored passwords, which is enough for examples. *)
Definition check_records (notes : bool) (p q : password) : bool :=
  match p, q with
  | Stored a, Stored b => check_id (sp_id a) (sp_id b) && (negb notes || bytes_eqb (sp_notes a) (sp_notes b))
  | _, _ => false
  end.
Definition read_with (P : prims) (key c : bytes) : res password :=
  let? text := decrypt_data P c key in from_slice (p_float_ok P) password_of_json text.
Definition check_value (P : prims) (notes : bool) (key slot c c' : bytes) : bool :=
  bytes_eqb c c' ||
  if slot_of_password slot then
    match read_with P key c, read_with P key c' with Ok p, Ok q => check_records notes p q | _, _ => false end
  else match decrypt_data P c key, decrypt_data P c' key with Ok t, Ok t' => bytes_eqb t t' | _, _ => false end.
Definition check_slots (f : bytes -> bytes -> bytes -> bool) (d d' : kvmap) : bool :=
  forallb (fun '(slot, c) => match d' !! slot with Some c' => f slot c c' | None => false end) (map_to_list d) &&
  forallb (fun '(slot, _) => match d !! slot with Some _ => true | None => false end) (map_to_list d').
(** For one primary password. *)
Definition check_alike (P : prims) (notes : bool) (pp : bytes) (d d' : kvmap) : bool :=
  match d !! bs "salt", d' !! bs "salt", d !! bs "hmac-secret", d' !! bs "hmac-secret" with
  | Some s, Some s', Some h, Some h' =>
      bytes_eqb s s' && bytes_eqb h h' &&
      match get_salt d with
      | Ok salt => match get_encryption_key P pp salt with Ok key => check_slots (check_value P notes key) d d' | _ => false end
      | _ => false
      end
  | _, _, _, _ => false
  end.

Lemma check_records_ok notes p q : check_records notes p q = true -> alike_records notes p q.
Proof.
  destruct p as [|[[s n r] pw nt]], q as [|[[s' n' r'] pw' nt']]; try discriminate. unfold check_records, check_id.
  cbn [sp_id sp_notes id_site id_name id_revision]. rewrite !andb_true_iff, !bytes_eqb_eq. intros [[[-> ->] ->] H]. split; [reflexivity|].
  intros ->. cbn in H. apply bytes_eqb_eq in H. exact H.
Qed.

Lemma hmac_entry (P : prims) (d d' : kvmap) key : d !! bs "hmac-secret" = d' !! bs "hmac-secret" -> get_hmac_secret P d key = get_hmac_secret P d' key.
Proof. intros E. unfold get_hmac_secret. change HMAC_SECRET_KEY with (bs "hmac-secret"). rewrite E. reflexivity. Qed.

Lemma check_slots_ok f d d' : check_slots f d d' = true ->
  (forall slot, d !! slot = None <-> d' !! slot = None) /\
  (forall slot c c', d !! slot = Some c -> d' !! slot = Some c' -> f slot c c' = true).
Proof.
  unfold check_slots. rewrite andb_true_iff, !forallb_forall. intros [H1 H2].
  assert (forall slot c, d !! slot = Some c -> match d' !! slot with Some c' => f slot c c' = true | None => False end) as K1.
  { intros slot c E. specialize (H1 (slot, c)). cbn in H1. destruct (d' !! slot); [apply H1|discriminate H1];
      apply elem_of_list_In, elem_of_map_to_list, E. }
  assert (forall slot c, d' !! slot = Some c -> d !! slot <> None) as K2.
  { intros slot c E. specialize (H2 (slot, c)). cbn in H2. destruct (d !! slot); [discriminate|discriminate H2].
    apply elem_of_list_In, elem_of_map_to_list, E. }
  split.
  - intros slot. split; intros E.
    + destruct (d' !! slot) eqn:E'; [|reflexivity]. destruct (K2 _ _ E' E).
    + destruct (d !! slot) eqn:E'; [|reflexivity]. specialize (K1 _ _ E'). rewrite E in K1. destruct K1.
  - intros slot c c' E E'. specialize (K1 _ _ E). rewrite E' in K1. exact K1.
Qed.

Lemma bind_split {A B} (r : res A) (f : A -> res B) y : bind r f = Ok y -> exists x, r = Ok x /\ f x = Ok y.
Proof. destruct r as [x| |]; [intros H; exists x; split; [reflexivity|exact H]|discriminate|discriminate]. Qed.
Lemma read_with_ok P key c p : read_with P key c = Ok p -> reads_as P key c p.
Proof. intros H. exact (bind_split _ _ _ H). Qed.
Lemma check_password P notes key slot c c' : check_value P notes key slot c c' = true -> password_slot slot ->
  c = c' \/ exists p q, reads_as P key c p /\ reads_as P key c' q /\ alike_records notes p q.
Proof.
  intros H Hs. apply slot_of_password_ok in Hs. unfold check_value in H. rewrite Hs in H.
  destruct (bytes_eqb c c') eqn:Eb; [left; apply bytes_eqb_eq, Eb|right].
  destruct (read_with P key c) as [p| |] eqn:Ec; try discriminate.
  destruct (read_with P key c') as [q| |] eqn:Eq; try discriminate.
  exists p, q. split; [apply read_with_ok, Ec|]. split; [apply read_with_ok, Eq|]. apply check_records_ok, H.
Qed.
Lemma check_site P notes key slot c c' : check_value P notes key slot c c' = true -> ~ password_slot slot ->
  c = c' \/ exists text, decrypt_data P c key = Ok text /\ decrypt_data P c' key = Ok text.
Proof.
  intros H Hs. unfold check_value in H. destruct (slot_of_password slot) eqn:Eo; [destruct Hs; apply slot_of_password_ok, Eo|].
  destruct (bytes_eqb c c') eqn:Eb; [left; apply bytes_eqb_eq, Eb|right]. cbn [orb] in H.
  destruct (decrypt_data P c key) as [t| |]; try discriminate. destruct (decrypt_data P c' key) as [t'| |]; try discriminate.
  apply bytes_eqb_eq in H. subst t'. exists t. split; reflexivity.
Qed.

Lemma check_alike_ok P notes pp (T : bytes -> Prop) d d' : check_alike P notes pp d d' = true -> (forall x, T x -> x = pp) -> alike_data P notes T d d'.
Proof.
  intros H HT. unfold check_alike in H.
  destruct (d !! bs "salt") as [s|] eqn:E1; [|discriminate]. destruct (d' !! bs "salt") as [s'|] eqn:E2; [|discriminate].
  destruct (d !! bs "hmac-secret") as [h|] eqn:E3; [|discriminate]. destruct (d' !! bs "hmac-secret") as [h'|] eqn:E4; [|discriminate].
  rewrite !andb_true_iff, !bytes_eqb_eq in H. destruct H as [[<- <-] H].
  destruct (get_salt d) as [salt| |] eqn:E5; try discriminate. destruct (get_encryption_key P pp salt) as [key| |] eqn:E6; try discriminate.
  apply check_slots_ok in H. destruct H as [H1 H2].
  assert (forall k, tried_key P d T k -> k = key) as Hk.
  { intros k (x & sa & Hx & Hsa & Hy). apply HT in Hx. subst x. congruence. }
  constructor.
  - congruence.
  - intros k _. apply (hmac_entry P d d'). rewrite E3, E4. reflexivity.
  - exact H1.
  - intros k slot c c' [Ha _] Hs E E'. apply Hk in Ha. subst k. eapply check_site; [|exact Hs]. apply H2; assumption.
  - intros k slot c c' [Ha _] Hs E E'. apply Hk in Ha. subst k. eapply check_password; [|exact Hs]. apply H2; assumption.
Qed.

(** The files after two histories. *)
Definition check_files (P : prims) (notes : bool) (pp : bytes) (l l' : list op) : bool :=
  final P l start (fun s => final P l' start (fun s' =>
    match load P (s_disk s), load P (s_disk s') with Ok d, Ok d' => check_alike P notes pp d d' | _, _ => false end)).
Lemma check_files_ok P notes pp (T : bytes -> Prop) l l' : check_files P notes pp l l' = true -> (forall x, T x -> x = pp) ->
  exists d d', load P (s_disk (snd (run P l start))) = Ok d /\ load P (s_disk (snd (run P l' start))) = Ok d' /\ alike_data P notes T d d'.
Proof.
  unfold check_files. rewrite final_run, final_run. intros H HT.
  destruct (load P (s_disk (snd (run P l start)))) as [d| |]; try discriminate.
  destruct (load P (s_disk (snd (run P l' start)))) as [d'| |]; try discriminate.
  exists d, d'. split; [reflexivity|]. split; [reflexivity|]. eapply check_alike_ok; eassumption.
Qed.

(** Checking what the data says. *)
Definition check_encrypts (P : prims) (key text value : bytes) : bool :=
  existsb (fun rnd => let nonce := p_random P rnd 12 in
    bytes_eqb value (b64_encode nonce ++ "_"%byte :: b64_encode (p_seal P key nonce text))) (seq 0 32).
Definition check_at (P : prims) (d : kvmap) (slot key text : bytes) : bool :=
  match d !! slot with Some c => check_encrypts P key text c | None => false end.
Definition site_slot (P : prims) (i : nat) (x : bytes) : bytes := bs "site:" ++ hashed P i x.
Definition entry_slot (P : prims) (i : nat) (j : pid) : bytes :=
  bs "site:" ++ hashed P i j.1.1 ++ ":"%byte :: hashed P i (id_string j.1.1 j.1.2 j.2).
Definition check_contents (P : prims) (pp : bytes) (i : nat) (d : kvmap) (v : vault) : bool :=
  let key := key_for P pp i in
  match d !! bs "salt" with Some c => bytes_eqb c (b64_encode (p_random P i 16)) | None => false end &&
  check_at P d (bs "hmac-secret") key (x22 :: b64_encode (p_random P (i + 1) 32) ++ [x22]) &&
  forallb (fun '(x, a) => check_at P d (site_slot P i x) key (site_to_vec (mk_site x a))) (map_to_list (v_sites v)) &&
  forallb (fun '(j, e) => check_at P d (entry_slot P i j) key (password_to_vec (entry_of j e))) (map_to_list (v_pw v)) &&
  forallb (fun '(k, _) => bytes_eqb k (bs "salt") || bytes_eqb k (bs "hmac-secret") ||
      existsb (fun '(x, _) => bytes_eqb k (site_slot P i x)) (map_to_list (v_sites v)) ||
      existsb (fun '(j, _) => bytes_eqb k (entry_slot P i j)) (map_to_list (v_pw v))) (map_to_list d).

Lemma check_at_ok P d slot key text : check_at P d slot key text = true -> exists c, d !! slot = Some c /\ encrypts P key text c.
Proof.
  unfold check_at, check_encrypts. destruct (d !! slot) as [c|]; [|discriminate]. rewrite existsb_exists. intros (rnd & _ & H).
  exists c. split; [reflexivity|]. exists rnd. apply bytes_eqb_eq, H.
Qed.
Lemma check_contents_ok P pp i d v : check_contents P pp i d v = true -> contents P pp i d v.
Proof.
  unfold check_contents. cbv zeta. rewrite !andb_true_iff, !forallb_forall. intros [[[[H1 H2] H3] H4] H5]. constructor.
  - destruct (d !! bs "salt") as [c|]; [|discriminate]. f_equal. apply bytes_eqb_eq, H1.
  - apply check_at_ok, H2.
  - intros x a Hx. apply check_at_ok. apply (H3 (x, a)). apply elem_of_list_In, elem_of_map_to_list, Hx.
  - intros x n r e Hx. apply check_at_ok. apply (H4 (x, n, r, e)). apply elem_of_list_In, elem_of_map_to_list, Hx.
  - intros k [c Hc]. specialize (H5 (k, c) ltac:(apply elem_of_list_In, elem_of_map_to_list, Hc)). cbn in H5.
    rewrite !orb_true_iff, !bytes_eqb_eq, !existsb_exists in H5. destruct H5 as [[[H|H]|([x a] & Hx & H)]|([[[x n] r] e] & Hx & H)]; auto.
    + right. right. left. exists x. split; [|apply bytes_eqb_eq, H]. exists a. apply elem_of_map_to_list, elem_of_list_In, Hx.
    + right. right. right. exists x, n, r. split; [|apply bytes_eqb_eq, H]. exists e. apply elem_of_map_to_list, elem_of_list_In, Hx.
Qed.

Definition check_saved (P : prims) (pp : bytes) (i : nat) (l : list op) (v : vault) : bool :=
  final P l start (fun s => match load P (s_disk s) with Ok d => check_contents P pp i d v | _ => false end).
Lemma check_saved_ok P pp i l v : check_saved P pp i l v = true ->
  exists d, load P (s_disk (snd (run P l start))) = Ok d /\ contents P pp i d v.
Proof.
  unfold check_saved. rewrite final_run. destruct (load P _) as [d| |]; [|discriminate|discriminate]. intros H. exists d.
  split; [reflexivity|apply check_contents_ok, H].
Qed.

Definition saved_value (P : prims) (slot : bytes) (l : list op) : option bytes :=
  final P l start (fun s => match load P (s_disk s) with Ok d => d !! slot | _ => None end).
Lemma saved_value_eq P slot l d : load P (s_disk (snd (run P l start))) = Ok d -> saved_value P slot l = d !! slot.
Proof. intros H. unfold saved_value. rewrite final_run, H. reflexivity. Qed.

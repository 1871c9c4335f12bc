(** A concrete harmless file, for examples. *)
From stdpp Require Import gmap.
From Verif Require Import M_Base M_Base64 M_Utf8 M_Prims M_Types M_Crypto M_Json M_Serde M_Storage M_Passwords S_Base64 S_Vault M_History S_Api
  P_Base P_Base64 P_Crypto P_Storage M_Cli S_Cli S_Abort T_Toy T_History T_Cli.

(** The toy instance with keys that are determined by their first four bytes, which its cipher looks at. *)
Definition toy_keyed : prims := {|
  p_overflow_checks := false; p_hmac := p_hmac toy_release; p_seal := p_seal toy_release; p_open := toy_open;
  p_scrypt p s n := fit n (firstn 4 p); p_random := p_random toy_release; p_order := p_order toy_release;
  p_wild := toy_wild; p_write _ := WriteOk; p_float_ok _ := true
|}.
Lemma toy_keyed_ok : prims_ok toy_keyed.
Proof.
  destruct (toy_ok false (fun _ => WriteOk)) as [H1 H2 H3 H4 H5 H6 H7].
  split; [exact H1|exact H2|exact H3|exact H4| |exact H6|exact H7]. intros p s n. apply fit_length.
Qed.

Lemma keyed_tag k n m : length n = 12 -> length k = 32 -> skipn 12 (toy_tag k n m) = firstn 4 k.
Proof.
  intros Hn Hk. unfold toy_tag, fit. rewrite app_length, Hn, firstn_length, Hk. change (Nat.min 4 32) with 4. cbn [Nat.add Nat.sub repeat].
  rewrite app_nil_r, firstn_all2 by (rewrite app_length, Hn, firstn_length, Hk; cbn; lia).
  rewrite skipn_app, Hn, Nat.sub_diag, skipn_all2 by lia. reflexivity.
Qed.
Lemma keyed_decrypt v k k' m m' : length k = 32 -> length k' = 32 ->
  decrypt_data toy_keyed v k = Ok m -> decrypt_data toy_keyed v k' = Ok m' -> firstn 4 k = firstn 4 k'.
Proof.
  intros Hk Hk'. unfold decrypt_data. rewrite Hk, Hk'. cbn [Nat.eqb negb]. destruct (split_once "_"%byte v) as [[a b]|]; cbn [ok_or bind]; [|discriminate].
  destruct (b64_decode a) as [n|]; cbn [ok_or bind]; [|discriminate]. destruct (length n =? 12) eqn:En; cbn [negb]; [|discriminate]. apply Nat.eqb_eq in En.
  destruct (b64_decode b) as [c|]; cbn [ok_or bind]; [|discriminate].
  cbn [p_open toy_keyed]. unfold toy_open. destruct (16 <=? length c); cbn [andb]; [|discriminate].
  destruct (bytes_eqb (skipn (length c - 16) c) (toy_tag k n _)) eqn:E1; [|discriminate]. intros _.
  destruct (bytes_eqb (skipn (length c - 16) c) (toy_tag k' n _)) eqn:E2; [|discriminate]. intros _.
  apply bytes_eqb_eq in E1, E2. rewrite <- (keyed_tag k n (firstn (length c - 16) c) En Hk), <- E1, E2. apply keyed_tag; assumption.
Qed.

Definition keyed (pp : bytes) : bytes := fit 32 (firstn 4 pp).
Lemma keyed_length pp : length (keyed pp) = 32.
Proof. apply fit_length. Qed.
Lemma keyed_start pp : firstn 4 (keyed pp) = fit 4 (firstn 4 pp).
Proof. destruct pp as [|a [|b [|c [|d pp]]]]; reflexivity. Qed.
Lemma keyed_inj pp pp' : firstn 4 (keyed pp) = firstn 4 (keyed pp') -> keyed pp = keyed pp'.
Proof.
  intros H. assert (forall p, keyed p = firstn 4 (keyed p) ++ repeat x00 28) as E.
  { intros p. destruct p as [|a [|b [|c [|d p]]]]; reflexivity. }
  rewrite (E pp), (E pp'), H. reflexivity.
Qed.

Definition check_entry (key : bytes) (v : bytes) : bool :=
  match decrypt_data toy_keyed v key with
  | Panic => false
  | Err _ => true
  | Ok m => match from_slice (fun _ => true) password_of_json m with
            | Ok (Generated g) => ((0 <? gp_length g) && (gp_length g <=? 137438953471))%N && negb (cs_is_empty (gp_charset g))
            | _ => true
            end
  end.
Definition check_harmless (pp : bytes) (d : kvmap) : bool :=
  is_ok (get_hmac_secret toy_keyed d (keyed pp)) && forallb (fun '(_, v) => check_entry (keyed pp) v) (map_to_list d).
Lemma check_harmless_ok pp d : check_harmless pp d = true -> harmless toy_keyed (keyed pp) d.
Proof.
  unfold check_harmless. rewrite andb_true_iff, forallb_forall. intros [H1 H2].
  assert (forall k v, d !! k = Some v -> check_entry (keyed pp) v = true) as H.
  { intros k v Hk. apply (H2 (k, v)). apply elem_of_list_In, elem_of_map_to_list, Hk. }
  split; [|split].
  - intros k v _ Hk Hw. apply H in Hk. unfold check_entry in Hk.
    apply (decrypt_panic toy_keyed v (keyed pp) (keyed_length pp)) in Hw. rewrite Hw in Hk. discriminate Hk.
  - intros pp' salt k h _ Hk Hh. rewrite get_encryption_key_eq in Hk. injection Hk as <-.
    change (keyed pp' = keyed pp). apply keyed_inj.
    unfold get_hmac_secret in H1, Hh. destruct (d !! HMAC_SECRET_KEY) as [v|]; cbn [ok_or bind] in *; [|discriminate Hh].
    destruct (decrypt_data toy_keyed v (keyed pp)) as [m|e|] eqn:E1; try discriminate H1.
    cbn [p_scrypt toy_keyed] in Hh. fold (keyed pp') in Hh.
    destruct (decrypt_data toy_keyed v (keyed pp')) as [m'|e|] eqn:E2; try discriminate Hh.
    exact (keyed_decrypt v _ _ m' m (keyed_length _) (keyed_length _) E2 E1).
  - intros len cs (k & v & m & g & Hk & Hd & Hg & <- & <-). apply H in Hk. unfold check_entry in Hk. rewrite Hd in Hk.
    change (p_float_ok toy_keyed) with (fun _ : bytes => true) in Hg. rewrite Hg in Hk.
    rewrite !andb_true_iff, N.ltb_lt, N.leb_le in Hk. destruct Hk as [Hk1 Hk2]. split; [exact Hk1|]. intros E. rewrite E in Hk2. discriminate Hk2.
Qed.

(** The file after some calls. *)
Definition file_harmless (pp : bytes) (l : list op) : bool :=
  final toy_keyed l start (fun s => match load toy_keyed (s_disk s) with Ok d => check_harmless pp d | _ => false end).
Lemma file_harmless_ok pp l : file_harmless pp l = true ->
  forall d, load toy_keyed (s_disk (snd (run toy_keyed l start))) = Ok d -> harmless toy_keyed (keyed pp) d.
Proof.
  unfold file_harmless. rewrite final_run. intros H d E. rewrite E in H. apply check_harmless_ok, H.
Qed.

(** The file with one more entry. *)
Definition file_with (s : st) (k v : bytes) : bytes := file_to_string (map_to_list (<[k := v]> (s_data s))).

(** Recovery codes: generation, decoding and the round trip. *)
From Verif Require Import M_Base M_Base64 M_Codec M_Utf8 M_Prims M_Crypto M_Recovery.
From Verif Require Import P_Base P_Base64 P_Codec P_Crypto S_Codec S_Recovery P_Format P_Lines P_Validate.
From Coq Require Import ZArith ZifyBool ZifyNat ZifyN.
Ltac Zify.zify_post_hook ::= Z.div_mod_to_equations.

(** * Trailing NUL bytes *)

Lemma strip_nuls_prefix s : exists n, s = strip_nuls s ++ repeat x00 n.
Proof.
  induction s as [|c s [n IH]]; [exists 0; reflexivity|]. cbn [strip_nuls].
  destruct (strip_nuls s) as [|d r] eqn:E.
  - destruct (Byte.eqb c x00) eqn:Ec.
    + apply eqb_eq in Ec. subst c. exists (S n). rewrite IH at 1. reflexivity.
    + exists n. rewrite IH at 1. reflexivity.
  - exists n. rewrite IH at 1. reflexivity.
Qed.

Lemma strip_nuls_repeat n : strip_nuls (repeat x00 n) = [].
Proof. induction n as [|n IH]; [reflexivity|]. cbn [repeat strip_nuls]. rewrite IH. reflexivity. Qed.

Lemma strip_nuls_snoc s c : c <> x00 -> strip_nuls (s ++ [c]) = s ++ [c].
Proof.
  intros Hc. induction s as [|d s IH]; cbn [app strip_nuls].
  - apply eqb_neq in Hc. rewrite Hc. reflexivity.
  - rewrite IH. destruct (s ++ [c]) eqn:E; [destruct s; discriminate|reflexivity].
Qed.

Lemma strip_nuls_app_nuls s n : strip_nuls (s ++ repeat x00 n) = strip_nuls s.
Proof.
  induction s as [|c s IH]; cbn [app strip_nuls]; [apply strip_nuls_repeat|]. rewrite IH. reflexivity.
Qed.

Lemma strip_nuls_id s : strip_nuls s = s <-> (forall r, s <> r ++ [x00]).
Proof.
  split.
  - intros E r ->. pose proof (strip_nuls_app_nuls r 1) as H. cbn [repeat] in H. rewrite H in E.
    destruct (strip_nuls_prefix r) as [n Hn]. rewrite E in Hn.
    apply (f_equal (@length byte)) in Hn. rewrite !app_length in Hn. cbn in Hn. lia.
  - intros H. destruct s as [|c s] using rev_ind; [reflexivity|]. apply strip_nuls_snoc.
    intros ->. exact (H s eq_refl).
Qed.

Lemma strip_nuls_idem s : strip_nuls (strip_nuls s) = strip_nuls s.
Proof. destruct (strip_nuls_prefix s) as [n H]. rewrite H at 2. rewrite strip_nuls_app_nuls. reflexivity. Qed.

Lemma find_end_app P a b e : e <= length a -> find_end P (a ++ b) e = find_end P a e.
Proof.
  induction e as [|e IH]; intros H; cbn [find_end]; [reflexivity|].
  rewrite nth_error_app1 by lia. destruct (nth_error a e) as [c|]; [|reflexivity].
  destruct (Byte.eqb c x00); [apply IH; lia|reflexivity].
Qed.

Lemma find_end_eq P d :
  find_end P d (length d) =
  if (p_overflow_checks P && match strip_nuls d with [] => true | _ => false end)%bool then Panic
  else Ok (length (strip_nuls d)).
Proof.
  induction d as [|c d IH] using rev_ind.
  - cbn. destruct (p_overflow_checks P); reflexivity.
  - rewrite app_length. cbn [length]. rewrite Nat.add_1_r. cbn [find_end].
    rewrite nth_error_app2, Nat.sub_diag by lia. cbn [nth_error].
    destruct (Byte.eqb c x00) eqn:Ec.
    + rewrite find_end_app by lia. rewrite IH. apply eqb_eq in Ec. subst c.
      pose proof (strip_nuls_app_nuls d 1) as Hs. cbn [repeat] in Hs. rewrite Hs. reflexivity.
    + apply eqb_neq in Ec. rewrite strip_nuls_snoc by exact Ec.
      destruct (d ++ [c]) eqn:E; [destruct d; discriminate|]. rewrite <- E, andb_false_r, app_length.
      cbn [length]. rewrite Nat.add_1_r. reflexivity.
Qed.

Lemma firstn_strip d : firstn (length (strip_nuls d)) d = strip_nuls d.
Proof.
  destruct (strip_nuls_prefix d) as [n H]. rewrite H at 2. rewrite firstn_app, Nat.sub_diag.
  rewrite firstn_all2 by lia. cbn [firstn]. apply app_nil_r.
Qed.

(** * UTF-8 and trailing NULs *)

Lemma utf8_prefix_nuls n s : utf8 (s ++ repeat x00 n) = true -> utf8 s = true.
Proof.
  remember (length s) as m eqn:Hm. revert s Hm.
  induction m as [m IH] using lt_wf_ind; intros s Hm H.
  assert (forall b, In b (repeat x00 n) -> b = x00) as Hz by (intros b Hb; apply repeat_spec in Hb; exact Hb).
  assert (forall b r, repeat x00 n = b :: r -> b = x00) as Hz1.
  { intros b r E. apply Hz. rewrite E. left. reflexivity. }
  destruct s as [|a s]; [reflexivity|]. cbn [app utf8] in H. cbn [utf8].
  destruct (in_range 0 127 a).
  { eapply IH; [|reflexivity|exact H]. subst m. cbn. lia. }
  destruct (in_range 0xc2 0xdf a).
  { destruct s as [|b s]; cbn [app] in H.
    - destruct (repeat x00 n) as [|b r] eqn:E; [discriminate|].
      rewrite (Hz1 b r eq_refl) in H. discriminate.
    - apply andb_true_iff in H. destruct H as [-> H]. cbn [andb].
      eapply IH; [|reflexivity|exact H]. subst m. cbn. lia. }
  destruct (in_range 0xe0 0xef a).
  { destruct s as [|b [|c s]]; cbn [app] in H.
    - destruct (repeat x00 n) as [|b [|c r]] eqn:E; try discriminate.
      assert (c = x00) as -> by (apply Hz; right; left; reflexivity).
      rewrite andb_false_r in H. discriminate.
    - destruct (repeat x00 n) as [|c r] eqn:E; try discriminate.
      rewrite (Hz1 c r eq_refl), andb_false_r in H. discriminate.
    - apply andb_true_iff in H. destruct H as [-> H]. cbn [andb].
      eapply IH; [|reflexivity|exact H]. subst m. cbn. lia. }
  destruct (in_range 0xf0 0xf4 a); [|exact H].
  destruct s as [|b [|c [|d s]]]; cbn [app] in H.
  - destruct (repeat x00 n) as [|b [|c [|d r]]] eqn:E; try discriminate.
    assert (d = x00) as -> by (apply Hz; right; right; left; reflexivity).
    rewrite andb_false_r in H. discriminate.
  - destruct (repeat x00 n) as [|c [|d r]] eqn:E; try discriminate.
    assert (d = x00) as -> by (apply Hz; right; left; reflexivity).
    rewrite andb_false_r in H. discriminate.
  - destruct (repeat x00 n) as [|d r] eqn:E; try discriminate.
    rewrite (Hz1 d r eq_refl), andb_false_r in H. discriminate.
  - apply andb_true_iff in H. destruct H as [-> H]. cbn [andb].
    eapply IH; [|reflexivity|exact H]. subst m. cbn. lia.
Qed.

Lemma utf8_strip s : utf8 s = true -> utf8 (strip_nuls s) = true.
Proof. intros H. destruct (strip_nuls_prefix s) as [n E]. rewrite E in H. eapply utf8_prefix_nuls, H. Qed.

(** * Checksums *)

(** Lines numbered from [i] of a code of [total] lines, for the given data blocks. *)
Fixpoint seal_lines (total i : nat) (blocks : list bytes) : list bytes :=
  match blocks with
  | [] => []
  | b :: bl => (b ++ [pearson_hash b (virtual_byte total i)]) :: seal_lines total (S i) bl
  end.

Lemma length_seal_lines total i blocks : length (seal_lines total i blocks) = length blocks.
Proof. revert i; induction blocks as [|b bl IH]; intros i; cbn; [reflexivity|]. rewrite IH. reflexivity. Qed.

Lemma seal_lines_nth total i blocks j :
  nth_error (seal_lines total i blocks) j =
  option_map (fun b => b ++ [pearson_hash b (virtual_byte total (i + j))]) (nth_error blocks j).
Proof.
  revert i j; induction blocks as [|b bl IH]; intros i [|j]; cbn [seal_lines nth_error option_map]; try reflexivity.
  - rewrite Nat.add_0_r. reflexivity.
  - rewrite IH. replace (i + S j) with (S i + j) by lia. reflexivity.
Qed.

Lemma seal_lines_valid blocks :
  blocks <> [] -> Forall (fun b => length b = 14) blocks -> lines_valid (seal_lines (length blocks) 0 blocks).
Proof.
  intros Hne Hf. split.
  - destruct blocks; [contradiction|discriminate].
  - intros i line. rewrite length_seal_lines, seal_lines_nth. cbn [Nat.add].
    destruct (nth_error blocks i) as [b|] eqn:E; cbn [option_map]; [|discriminate]. intros [= <-].
    exists b. split; [|reflexivity]. rewrite Forall_forall in Hf. apply Hf. eapply nth_error_In, E.
Qed.

Lemma checksum_loop_prefix P total i j acc b rest :
  j + length b < 14 ->
  checksum_loop P total (14 * i + j) acc (b ++ rest) =
  checksum_loop P total (14 * i + (j + length b)) (rev b ++ acc) rest.
Proof.
  revert j acc; induction b as [|x b IH]; intros j acc H; cbn [app length rev].
  - rewrite Nat.add_0_r. reflexivity.
  - cbn [length] in H. cbn [checksum_loop]. change BLOCK_SIZE with 14.
    destruct (Nat.eqb_spec ((14 * i + j) mod 14) (14 - 1)) as [E|E]; [lia|].
    replace (S (14 * i + j)) with (14 * i + S j) by lia. rewrite IH by lia.
    rewrite <- app_assoc. cbn [app]. f_equal. lia.
Qed.

Lemma checksum_loop_block P total i acc b rest :
  length b = 14 -> i < total ->
  checksum_loop P total (14 * i) acc (b ++ rest) =
  if ((S i =? total) && (256 <=? i) && p_overflow_checks P)%bool then Panic
  else checksum_loop P total (14 * S i) (rev (b ++ [pearson_hash b (virtual_byte total i)]) ++ acc) rest.
Proof.
  intros Hb Hi. destruct b as [|x b'] using rev_ind; [discriminate|]. clear IHb'.
  rename b' into b. rewrite app_length in Hb. cbn [length] in Hb.
  replace (14 * i) with (14 * i + 0) by lia. rewrite <- app_assoc, checksum_loop_prefix by lia.
  replace (0 + length b) with 13 by lia. cbn [app checksum_loop]. change BLOCK_SIZE with 14.
  destruct (Nat.eqb_spec ((14 * i + 13) mod 14) (14 - 1)) as [_|E]; [|lia].
  replace ((14 * i + 13) / 14) with i by lia.
  replace (i =? total - 1) with (S i =? total)
    by (destruct (Nat.eqb_spec (S i) total), (Nat.eqb_spec i (total - 1)); lia || reflexivity).
  assert (rev (firstn 14 (x :: rev b ++ acc)) = b ++ [x]) as Er.
  { cbn [firstn]. rewrite firstn_app, rev_length. replace (13 - length b) with 0 by lia.
    rewrite firstn_all2 by (rewrite rev_length; lia). cbn [firstn]. rewrite app_nil_r. cbn [rev].
    rewrite rev_involutive. reflexivity. }
  rewrite Er. unfold virtual_byte. destruct (S i =? total) eqn:Ef; cbn [andb].
  - rewrite final_virtual_byte_eq. destruct ((256 <=? i) && p_overflow_checks P)%bool; cbn [bind]; [reflexivity|].
    replace (S (14 * i + 13)) with (14 * S i) by lia. f_equal.
    rewrite rev_app_distr. cbn [rev app]. rewrite rev_app_distr. cbn [rev app]. reflexivity.
  - cbn [bind]. rewrite usize_as_u8_eq. replace (S (14 * i + 13)) with (14 * S i) by lia. f_equal.
    rewrite rev_app_distr. cbn [rev app]. rewrite rev_app_distr. cbn [rev app]. reflexivity.
Qed.

Lemma checksum_loop_eq P total i acc blocks :
  Forall (fun b => length b = 14) blocks -> i + length blocks = total ->
  checksum_loop P total (14 * i) acc (concat blocks) =
  if ((256 <? total) && negb (length blocks =? 0) && p_overflow_checks P)%bool then Panic
  else Ok (rev acc ++ concat (seal_lines total i blocks)).
Proof.
  intros Hf. revert i acc. induction Hf as [|b bl Hb Hf IH]; intros i acc Ht; cbn [concat seal_lines length].
  - cbn [checksum_loop]. rewrite Nat.eqb_refl. cbn [negb]. rewrite andb_false_r. cbn [andb].
    rewrite app_nil_r. reflexivity.
  - cbn [length] in Ht. rewrite checksum_loop_block by (assumption || lia).
    rewrite IH by lia. change (S (length bl) =? 0) with false. cbn [negb]. rewrite andb_true_r.
    destruct (Nat.eqb_spec (S i) total) as [E|E].
    + assert (length bl = 0) as -> by lia. cbn [Nat.eqb negb]. rewrite andb_false_r. cbn [andb].
      replace (256 <? total) with (256 <=? i)
        by (destruct (Nat.leb_spec 256 i), (Nat.ltb_spec 256 total); lia || reflexivity).
      destruct ((256 <=? i) && p_overflow_checks P)%bool; [reflexivity|].
      rewrite rev_app_distr, rev_involutive, <- app_assoc. reflexivity.
    + cbn [andb]. destruct (Nat.eqb_spec (length bl) 0) as [El|El]; [lia|]. cbn [negb]. rewrite andb_true_r.
      destruct ((256 <? total) && p_overflow_checks P)%bool; [reflexivity|].
      rewrite rev_app_distr, rev_involutive, <- app_assoc. reflexivity.
Qed.

Lemma strip_checksums_prefix i j b rest :
  j + length b <= 14 ->
  strip_checksums (15 * i + j) (b ++ rest) = b ++ strip_checksums (15 * i + (j + length b)) rest.
Proof.
  revert j; induction b as [|x b IH]; intros j H; cbn [app length].
  - rewrite Nat.add_0_r. reflexivity.
  - cbn [length] in H. cbn [strip_checksums]. change (BLOCK_SIZE + 1) with 15. change BLOCK_SIZE with 14.
    destruct (Nat.eqb_spec ((15 * i + j) mod 15) 14) as [E|E]; [lia|].
    replace (S (15 * i + j)) with (15 * i + S j) by lia. rewrite IH by lia. do 3 f_equal. lia.
Qed.

Lemma strip_checksums_lines i lines :
  Forall (fun l => length l = 15) lines ->
  strip_checksums (15 * i) (concat lines) = concat (map (firstn 14) lines).
Proof.
  intros Hf. revert i. induction Hf as [|l ls Hl Hf IH]; intros i; [reflexivity|].
  cbn [concat map]. destruct l as [|x b] using rev_ind; [discriminate|]. clear IHb.
  rewrite app_length in Hl. cbn [length] in Hl.
  replace (15 * i) with (15 * i + 0) by lia. rewrite <- app_assoc, strip_checksums_prefix by lia.
  replace (0 + length b) with 14 by lia.
  rewrite firstn_app. replace (14 - length b) with 0 by lia. rewrite firstn_all2 by lia. cbn [firstn].
  rewrite app_nil_r. f_equal. cbn [app strip_checksums]. change (BLOCK_SIZE + 1) with 15. change BLOCK_SIZE with 14.
  destruct (Nat.eqb_spec ((15 * i + 14) mod 15) 14) as [_|E]; [|lia].
  replace (S (15 * i + 14)) with (15 * S i) by lia. apply IH.
Qed.

Lemma seal_lines_data total i blocks :
  Forall (fun b => length b = 14) blocks -> map (firstn 14) (seal_lines total i blocks) = blocks.
Proof.
  intros Hf. revert i. induction Hf as [|b bl Hb Hf IH]; intros i; [reflexivity|].
  cbn [seal_lines map]. rewrite IH. f_equal. rewrite firstn_app. replace (14 - length b) with 0 by lia.
  rewrite firstn_all2 by lia. cbn [firstn]. apply app_nil_r.
Qed.

(** * Generation *)

(** Number of lines needed for a password of [n] bytes. *)
Definition lines_for (n : nat) : nat := (45 + n + 13) / 14.

Definition payload (P : prims) (rnd : nat) (pw salt key : bytes) : bytes :=
  x01 :: salt ++ nonce P rnd ++ p_seal P key (nonce P rnd) (pw ++ repeat x00 (fill_bytes (length pw))).

Lemma fill_bytes_spec n : fill_bytes n < 14 /\ 45 + n + fill_bytes n = 14 * lines_for n.
Proof.
  unfold fill_bytes, lines_for. change (VERSION_SIZE + SALT_SIZE + NONCE_SIZE + TAG_SIZE) with 45.
  change BLOCK_SIZE with 14.
  destruct ((45 + n) mod 14) as [|r] eqn:E; lia.
Qed.

Lemma payload_length P rnd pw salt key :
  prims_ok P -> length salt = 16 -> length key = 32 ->
  length (payload P rnd pw salt key) = 14 * lines_for (length pw).
Proof.
  intros HP Hs Hk. unfold payload. cbn [length]. rewrite !app_length, (nonce_len P rnd HP), Hs.
  rewrite (ok_seal_len P HP) by (try apply nonce_len; assumption). rewrite app_length, repeat_length.
  pose proof (fill_bytes_spec (length pw)). lia.
Qed.

Definition too_long (P : prims) (n : nat) : bool := (256 <? n) && p_overflow_checks P.

Lemma generate_eq P rnd pw salt key :
  prims_ok P -> length salt = 16 -> length key = 32 ->
  let blocks := chunks 14 (payload P rnd pw salt key) in
  length blocks = lines_for (length pw) /\
  Forall (fun b => length b = 14) blocks /\
  concat blocks = payload P rnd pw salt key /\
  exists text, base32_text (concat (seal_lines (length blocks) 0 blocks)) text /\
  generate P rnd pw salt key =
    if too_long P (lines_for (length pw)) then Panic else Ok (layout text).
Proof.
  intros HP Hs Hk blocks.
  pose proof (payload_length P rnd pw salt key HP Hs Hk) as Hlen.
  assert (length (payload P rnd pw salt key) mod 14 = 0) as Hm
    by (rewrite Hlen, Nat.mul_comm; apply Nat.mod_mul; lia).
  assert (length blocks = lines_for (length pw)) as Hb.
  { unfold blocks. rewrite length_chunks by (exact Hm || lia). rewrite Hlen, Nat.mul_comm. apply Nat.div_mul. lia. }
  assert (Forall (fun b => length b = 14) blocks) as H14 by (apply Forall_chunks_length; [lia|exact Hm]).
  assert (concat blocks = payload P rnd pw salt key) as Hc by (apply concat_chunks; [lia|exact Hm]).
  split; [exact Hb|]. split; [exact H14|]. split; [exact Hc|].
  assert (Forall (fun l => length l = 15) (seal_lines (length blocks) 0 blocks)) as H15.
  { destruct (list_eq_dec (list_eq_dec Byte.byte_eq_dec) blocks []) as [->|Hne]; [constructor|].
    apply lines_valid_length, seal_lines_valid; assumption. }
  destruct (base32_encode_ok (concat (seal_lines (length blocks) 0 blocks))) as (text & He & Ht).
  { rewrite length_concat_15 by exact H15. lia. }
  exists text. split; [exact Ht|].
  unfold generate. rewrite Hs. change SALT_SIZE with 16. cbn [Nat.eqb negb].
  rewrite encrypt_data_eq by exact Hk. cbn [bind].
  rewrite split_once_app by (apply b64_encode_no; auto). cbn [ok_or bind].
  rewrite b64_roundtrip. cbn [ok_or bind]. rewrite nonce_len by exact HP. change NONCE_SIZE with 12.
  cbn [Nat.eqb negb]. rewrite b64_roundtrip. cbn [ok_or bind].
  rewrite (ok_seal_len P HP) by (try apply nonce_len; assumption). rewrite app_length, repeat_length.
  change TAG_SIZE with 16. rewrite Nat.eqb_refl. cbn [negb]. change BLOCK_SIZE with 14.
  change VERSION with x01.
  change ([x01] ++ salt ++ nonce P rnd ++ p_seal P key (nonce P rnd) (pw ++ repeat x00 (fill_bytes (length pw))))
    with (payload P rnd pw salt key).
  rewrite Hlen. replace (14 * lines_for (length pw) / 14) with (lines_for (length pw))
    by (rewrite Nat.mul_comm, Nat.div_mul; lia).
  rewrite <- Hc, <- Hb. pose proof (checksum_loop_eq P (length blocks) 0 [] blocks H14 eq_refl) as Hl.
  change (14 * 0) with 0 in Hl. rewrite Hl. clear Hl.
  destruct (Nat.eqb_spec (length blocks) 0) as [E0|_].
  { exfalso. rewrite Hb in E0. unfold lines_for in E0. lia. }
  cbn [negb]. rewrite andb_true_r. fold (too_long P (length blocks)).
  destruct (too_long P (length blocks)); cbn [bind]; [reflexivity|].
  cbn [rev app]. rewrite He. cbn [bind]. rewrite format_code_true. f_equal. f_equal.
  apply significant_id. apply base32_text_alphabet in Ht. exact Ht.
Qed.

Lemma generate_bad_salt P rnd pw salt key :
  length salt <> 16 -> generate P rnd pw salt key = Err UnexpectedData.
Proof. intros H. unfold generate. change SALT_SIZE with 16. apply Nat.eqb_neq in H. rewrite H. reflexivity. Qed.

Lemma generate_ok P rnd pw salt key code :
  prims_ok P -> length key = 32 -> generate P rnd pw salt key = Ok code ->
  length salt = 16 /\ too_long P (lines_for (length pw)) = false /\
  exists lines, length lines = lines_for (length pw) /\ code_lines code lines /\
    code = layout (significant code) /\
    concat (map (firstn 14) lines) = payload P rnd pw salt key.
Proof.
  intros HP Hk Hg.
  destruct (Nat.eq_dec (length salt) 16) as [Hs|Hs].
  2:{ rewrite generate_bad_salt in Hg by exact Hs. discriminate. }
  split; [exact Hs|].
  destruct (generate_eq P rnd pw salt key HP Hs Hk) as (Hb & H14 & Hc & text & Ht & Hg').
  rewrite Hg' in Hg. set (blocks := chunks 14 (payload P rnd pw salt key)) in *.
  destruct (too_long P (lines_for (length pw))) eqn:Etl; [discriminate|]. injection Hg as <-.
  split; [reflexivity|].
  pose proof (base32_text_alphabet _ _ Ht) as Ha.
  exists (seal_lines (length blocks) 0 blocks). split; [rewrite length_seal_lines; exact Hb|].
  split; [split|split].
  - rewrite significant_layout by exact Ha. exact Ht.
  - apply seal_lines_valid; [|exact H14]. intros E. rewrite E in Hb. unfold lines_for in Hb. cbn [length] in Hb. lia.
  - rewrite significant_layout by exact Ha. reflexivity.
  - rewrite seal_lines_data by exact H14. exact Hc.
Qed.

Lemma too_long_small P n : too_long P n = false <-> small_enough P n.
Proof.
  unfold too_long, small_enough. rewrite andb_false_iff, Nat.ltb_ge. reflexivity.
Qed.

(** * Decoding *)

Lemma decode_payload P code lines pp salt n c :
  code_lines code lines -> small_enough P (length lines) ->
  concat (map (firstn 14) lines) = x01 :: salt ++ n ++ c ->
  length salt = 16 -> length n = 12 -> 16 <= length c ->
  prims_ok P ->
  decode P code pp =
    let? decrypted := ok_or (p_open P (p_scrypt P pp (latin1 salt) 32) n c) DecryptionFailure in
    if (p_overflow_checks P && match strip_nuls decrypted with [] => true | _ => false end)%bool then Panic
    else if utf8 (strip_nuls decrypted) then Ok (strip_nuls decrypted) else Err InvalidUtf8.
Proof.
  intros Hc Hsm Hd Hs Hn Hcl HP.
  assert (validate P code = Ok (concat lines)) as Hv by (apply validate_ok_iff; exists lines; auto).
  pose proof (lines_valid_length _ (proj2 Hc)) as H15.
  unfold decode. rewrite Hv. cbn [bind].
  pose proof (strip_checksums_lines 0 lines H15) as Hsc. change (15 * 0) with 0 in Hsc. rewrite Hsc, Hd. clear Hsc.
  cbn [Byte.eqb]. change (Byte.eqb x01 VERSION) with true. cbn [negb].
  change (VERSION_SIZE + SALT_SIZE + NONCE_SIZE + TAG_SIZE) with 45.
  assert (length (x01 :: salt ++ n ++ c) <? 45 = false) as ->.
  { cbn [length]. rewrite !app_length. apply Nat.ltb_ge. lia. }
  change VERSION_SIZE with 1. change SALT_SIZE with 16. change NONCE_SIZE with 12.
  change (1 + 16 + 12) with 29. change (1 + 16) with 17.
  change (skipn 1 (x01 :: salt ++ n ++ c)) with (salt ++ n ++ c).
  assert (firstn 16 (salt ++ n ++ c) = salt) as ->.
  { rewrite firstn_app, Hs, Nat.sub_diag, firstn_all2 by lia. cbn [firstn]. apply app_nil_r. }
  assert (skipn 17 (x01 :: salt ++ n ++ c) = n ++ c) as ->.
  { cbn [skipn]. rewrite skipn_app, Hs, Nat.sub_diag, skipn_all2 by lia. reflexivity. }
  assert (firstn 12 (n ++ c) = n) as ->.
  { rewrite firstn_app, Hn, Nat.sub_diag, firstn_all2 by lia. cbn [firstn]. apply app_nil_r. }
  assert (skipn 29 (x01 :: salt ++ n ++ c) = c) as ->.
  { cbn [skipn]. rewrite app_assoc, skipn_app, app_length, Hs, Hn, skipn_all2 by (rewrite app_length; lia). reflexivity. }
  rewrite get_encryption_key_eq. cbn [bind].
  change (b64_encode n ++ ["_"%byte] ++ b64_encode c) with (b64_encode n ++ "_"%byte :: b64_encode c).
  rewrite decrypt_data_parts; [|apply (ok_scrypt_len P HP)|exact Hn].
  destruct (p_open P _ n c) as [decrypted|]; cbn [ok_or bind]; [|reflexivity].
  rewrite find_end_eq.
  destruct (p_overflow_checks P && match strip_nuls decrypted with [] => true | _ => false end)%bool;
    cbn [bind]; [reflexivity|].
  rewrite firstn_strip. reflexivity.
Qed.

(** C07: a code decodes, with the password it was made for, to the sealed password without its
    trailing NULs; with any other password according to whether the cipher accepts that key. *)
Lemma generated_code_decodes P rnd pw salt key code pp :
  prims_ok P -> length key = 32 -> generate P rnd pw salt key = Ok code ->
  decode P code pp =
    let? decrypted := ok_or (p_open P (p_scrypt P pp (latin1 salt) 32) (nonce P rnd)
        (p_seal P key (nonce P rnd) (pw ++ repeat x00 (fill_bytes (length pw))))) DecryptionFailure in
    if (p_overflow_checks P && match strip_nuls decrypted with [] => true | _ => false end)%bool then Panic
    else if utf8 (strip_nuls decrypted) then Ok (strip_nuls decrypted) else Err InvalidUtf8.
Proof.
  intros HP Hk Hg. destruct (generate_ok _ _ _ _ _ _ HP Hk Hg) as (Hs & Htl & lines & Hl & Hc & _ & Hd).
  eapply decode_payload; [exact Hc|rewrite Hl; apply too_long_small, Htl|exact Hd|exact Hs|
    apply nonce_len, HP| |exact HP].
  rewrite (ok_seal_len P HP) by (try apply nonce_len; assumption). lia.
Qed.

Lemma recovery_roundtrip P rnd pw salt key code pp :
  prims_ok P -> get_encryption_key P pp salt = Ok key -> utf8 pw = true ->
  generate P rnd pw salt key = Ok code ->
  decode P code pp =
    if (p_overflow_checks P && match strip_nuls pw with [] => true | _ => false end)%bool then Panic
    else Ok (strip_nuls pw).
Proof.
  intros HP Hkey Hu Hg. rewrite get_encryption_key_eq in Hkey. injection Hkey as <-.
  assert (length (p_scrypt P pp (latin1 salt) 32) = 32) as Hk by apply (ok_scrypt_len P HP).
  rewrite (generated_code_decodes _ _ _ _ _ _ _ HP Hk Hg).
  rewrite (ok_open_seal P HP) by (exact Hk || apply nonce_len, HP). cbn [ok_or bind].
  rewrite strip_nuls_app_nuls, utf8_strip by exact Hu. reflexivity.
Qed.

(** C14 *)
Lemma decode_no_panic P code pp :
  prims_ok P -> p_overflow_checks P = false -> decode P code pp <> Panic.
Proof.
  intros HP Ho. unfold decode.
  destruct (validate P code) as [d|e|] eqn:Ev; cbn [bind]; [|discriminate|].
  2:{ exfalso. apply (validate_no_panic P code); [right; exact Ho|exact Ev]. }
  destruct (match strip_checksums 0 d with [] => false | v :: _ => negb (Byte.eqb v VERSION) end); [discriminate|].
  destruct (length (strip_checksums 0 d) <? _) eqn:El; [discriminate|]. apply Nat.ltb_ge in El.
  change (VERSION_SIZE + SALT_SIZE + NONCE_SIZE + TAG_SIZE) with 45 in El.
  rewrite get_encryption_key_eq. cbn [bind].
  match goal with |- context [decrypt_data P (b64_encode ?n ++ [_] ++ b64_encode ?c) ?k] =>
    change (b64_encode n ++ ["_"%byte] ++ b64_encode c) with (b64_encode n ++ "_"%byte :: b64_encode c);
    rewrite (decrypt_data_parts P k n c)
  end.
  - destruct (p_open P _ _ _) as [dec|]; cbn [ok_or bind]; [|discriminate].
    rewrite find_end_eq, Ho. cbn [andb bind].
    destruct (utf8 _); discriminate.
  - apply (ok_scrypt_len P HP).
  - rewrite firstn_length, skipn_length. change (VERSION_SIZE + SALT_SIZE) with 17. change NONCE_SIZE with 12. lia.
Qed.

Lemma generate_no_panic P rnd pw salt key :
  prims_ok P -> length key = 32 -> p_overflow_checks P = false ->
  generate P rnd pw salt key <> Panic.
Proof.
  intros HP Hk Ho. destruct (Nat.eq_dec (length salt) 16) as [Hs|Hs].
  - destruct (generate_eq P rnd pw salt key HP Hs Hk) as (_ & _ & _ & text & _ & ->).
    unfold too_long. rewrite Ho, andb_false_r. discriminate.
  - rewrite generate_bad_salt by exact Hs. discriminate.
Qed.

(** C13: shape of the printed code. *)
Lemma layout_size s :
  s <> [] -> length s mod 24 = 0 ->
  exists rows, layout s = join [x0a] rows /\ length rows = length s / 24 /\
    Forall (fun r => exists a b c d e f,
      Forall (fun g => length g = 4 /\ Forall (fun x => In x s) g) [a; b; c; d; e; f] /\
      r = a ++ "-"%byte :: b ++ "-"%byte :: c ++ ":"%byte :: d ++ "-"%byte :: e ++ "-"%byte :: f) rows.
Proof.
  intros Hne Hm. exists (map layout_line (chunks 24 s)). split; [reflexivity|].
  rewrite map_length, length_chunks by (exact Hm || lia). split; [reflexivity|].
  apply Forall_map. rewrite Forall_forall. intros l Hl.
  pose proof (Forall_chunks_length 24 s ltac:(lia) Hm) as Hf. rewrite Forall_forall in Hf.
  specialize (Hf l Hl). cbn beta in Hf.
  assert (forall x, In x l -> In x s) as Hin.
  { intros x Hx. rewrite <- (concat_chunks 24 s) by (exact Hm || lia). apply in_concat. eauto. }
  destruct l as [|c0 [|c1 [|c2 [|c3 [|c4 [|c5 [|c6 [|c7 [|c8 [|c9 [|c10 [|c11 [|c12 [|c13 [|c14 [|c15
    [|c16 [|c17 [|c18 [|c19 [|c20 [|c21 [|c22 [|c23 [|? ?]]]]]]]]]]]]]]]]]]]]]]]]]; try discriminate.
  exists [c0; c1; c2; c3], [c4; c5; c6; c7], [c8; c9; c10; c11], [c12; c13; c14; c15], [c16; c17; c18; c19],
    [c20; c21; c22; c23]. split; [|reflexivity].
  repeat (constructor; [split; [reflexivity|]; repeat (constructor; [apply Hin; cbn; auto 30|]); constructor|]).
  constructor.
Qed.

(** * Statements about [decode] *)

Lemma decode_significant P c1 c2 pp : significant c1 = significant c2 -> decode P c1 pp = decode P c2 pp.
Proof. intros H. unfold decode. rewrite (validate_significant P c1 c2 H). reflexivity. Qed.

Lemma decode_err P code pp e : validate P code = Err e -> decode P code pp = Err e.
Proof. intros H. unfold decode. rewrite H. reflexivity. Qed.

Lemma decode_panic P code pp : validate P code = Panic -> decode P code pp = Panic.
Proof. intros H. unfold decode. rewrite H. reflexivity. Qed.

Lemma validate_code P code lines :
  code_lines code lines -> small_enough P (length lines) -> validate P code = Ok (concat lines).
Proof. intros Hc Hs. apply validate_ok_iff. exists lines. auto. Qed.

Lemma significant_junk w :
  (forall c, In c w -> ~ In (upcase c) alphabet32) -> significant w = [].
Proof.
  induction w as [|c w IH]; intros H; [reflexivity|]. rewrite significant_cons.
  destruct (contains_byte (upcase c) alphabet32) eqn:E.
  - exfalso. apply contains_byte_spec in E. eapply H; [left; reflexivity|exact E].
  - apply IH. intros c' Hc'. apply H. right. exact Hc'.
Qed.

Lemma upcase_idem c : upcase (upcase c) = upcase c.
Proof.
  pose proof (sweep1 (fun c => Byte.eqb (upcase (upcase c)) (upcase c)) ltac:(vm_compute; reflexivity) c) as H.
  cbn beta in H. apply eqb_eq, H.
Qed.

Lemma significant_case c1 c2 : map upcase c1 = map upcase c2 -> significant c1 = significant c2.
Proof. intros H. unfold significant. rewrite H. reflexivity. Qed.

Lemma decode_junk P a w b pp :
  (forall c, In c w -> ~ In (upcase c) alphabet32) -> decode P (a ++ w ++ b) pp = decode P (a ++ b) pp.
Proof.
  intros H. apply decode_significant. rewrite !significant_app, (significant_junk w H). reflexivity.
Qed.

Lemma decode_case P c1 c2 pp : map upcase c1 = map upcase c2 -> decode P c1 pp = decode P c2 pp.
Proof. intros H. apply decode_significant, significant_case, H. Qed.

Lemma decode_edit P a u w b lines pp :
  code_lines (a ++ u ++ b) lines -> (length lines <= 256 \/ p_overflow_checks P = false) ->
  length (significant u) <= 1 -> length (significant w) <= 1 -> significant u <> significant w ->
  exists e, decode P (a ++ w ++ b) pp = Err e.
Proof.
  intros Hc Hs Hu Hw Hne.
  destruct (one_character_edit P a u w b (concat lines)) as [e He]; try assumption.
  - apply validate_code; assumption.
  - exists e. apply decode_err, He.
Qed.

Lemma decode_bad_length P code pp pw :
  length (significant code) mod 24 <> 0 -> decode P code pp <> Ok pw.
Proof.
  intros Hm Hd. unfold decode in Hd. destruct (validate P code) as [d| |] eqn:Ev; cbn [bind] in Hd; try discriminate.
  exact (validate_bad_length P code d Hm Ev).
Qed.

Lemma decode_truncated P code lines code' rest pp :
  code_lines code lines -> (length lines <= 256 \/ p_overflow_checks P = false) ->
  significant code = significant code' ++ rest -> rest <> [] ->
  decode P code' pp = Err RecoveryCodeIncomplete.
Proof.
  intros Hc Hs He Hr. apply decode_err. eapply truncated_code; [|exact He|exact Hr].
  apply validate_code; eassumption.
Qed.

Lemma decode_overlong P code lines code' extra pp :
  code_lines code lines -> (length lines <= 256 \/ p_overflow_checks P = false) ->
  significant code' = significant code ++ extra -> extra <> [] ->
  decode P code' pp = Err (RecoveryCodeExtraData (length lines)).
Proof.
  intros Hc Hs He Hr. apply decode_err.
  pose proof (code_lines_size _ _ Hc) as Hsz.
  replace (length lines) with (length (significant code) / 24) by lia.
  eapply overlong_code; [|exact He|exact Hr]. apply validate_code; eassumption.
Qed.

Lemma decode_misplaced P code pre l k total j t1 t2 t3 pp :
  significant code = t1 ++ t2 ++ t3 ->
  base32_text (concat pre) t1 -> base32_text l t2 ->
  length pre = k -> (forall i l', nth_error pre i = Some l' -> line_valid (nonfinal_byte i) l') ->
  line_valid (virtual_byte total j) l -> total <= 128 -> j < total -> k < 128 -> j <> k ->
  decode P code pp = Err (RecoveryCodeChecksumMismatch k).
Proof.
  intros Es T1 T2 <- Hn Hv Ht Hj Hk Hne. apply decode_err.
  destruct (virtual_byte_other total (length pre) j) as [N1 N2]; [lia..|].
  eapply misplaced_line; [exact Es|exact T1|exact T2| |exact Hv|exact N1|exact N2|left; lia].
  apply nonfinal_from_spec. exact Hn.
Qed.

Lemma decode_exchanged P code code' L1 a L2 b L3 pp :
  code_lines code (L1 ++ a :: L2 ++ b :: L3) ->
  length (L1 ++ a :: L2 ++ b :: L3) <= 128 ->
  base32_text (concat (L1 ++ b :: L2 ++ a :: L3)) (significant code') ->
  decode P code' pp = Err (RecoveryCodeChecksumMismatch (length L1)).
Proof. intros Hc Hl Ht. apply decode_err. eapply exchanged_lines; eassumption. Qed.

Lemma decode_too_many_lines P code pre l t1 t2 t3 pp :
  p_overflow_checks P = true ->
  significant code = t1 ++ t2 ++ t3 -> base32_text (concat pre) t1 -> base32_text l t2 ->
  length pre = 256 -> (forall i l', nth_error pre i = Some l' -> line_valid (nonfinal_byte i) l') ->
  length l = 15 ->
  decode P code pp = Panic.
Proof.
  intros Ho Es T1 T2 Hl Hn L15. apply decode_panic.
  eapply validate_panic; try eassumption. apply nonfinal_from_spec. exact Hn.
Qed.

Lemma line_position n m i j line :
  line_valid (virtual_byte n i) line -> line_valid (virtual_byte m j) line ->
  n <= 128 -> m <= 128 -> i < n -> j < m -> i = j /\ (S i = n <-> S j = m).
Proof.
  intros H1 H2 Hn Hm Hi Hj. pose proof (line_valid_virtual_inj _ _ _ H1 H2) as E.
  unfold virtual_byte in E.
  destruct (Nat.eqb_spec (S i) n), (Nat.eqb_spec (S j) m); apply (f_equal Byte.to_N) in E;
    rewrite ?to_N_final, ?to_N_nonfinal in E; lia.
Qed.

Lemma generated_layout P rnd pw salt key code :
  prims_ok P -> length key = 32 -> generate P rnd pw salt key = Ok code ->
  exists lines rows,
    code_lines code lines /\ length lines = (45 + length pw + 13) / 14 /\
    (length lines <= 256 \/ p_overflow_checks P = false) /\
    code = join [x0a] rows /\ length rows = length lines /\
    Forall (fun r => exists a b c d e f,
      Forall (fun g => length g = 4 /\ Forall (fun x => In x alphabet32) g) [a; b; c; d; e; f] /\
      r = a ++ "-"%byte :: b ++ "-"%byte :: c ++ ":"%byte :: d ++ "-"%byte :: e ++ "-"%byte :: f) rows.
Proof.
  intros HP Hk Hg. destruct (generate_ok _ _ _ _ _ _ HP Hk Hg) as (Hs & Htl & lines & Hl & Hc & Hlay & _).
  pose proof (code_lines_size _ _ Hc) as Hsz.
  assert (length lines <> 0) as Hnz by (rewrite Hl; unfold lines_for; lia).
  destruct (layout_size (significant code)) as (rows & Hj & Hr & Hf).
  - intros E. rewrite E in Hsz. cbn [length] in Hsz. lia.
  - lia.
  - exists lines, rows. split; [exact Hc|]. split; [exact Hl|].
    split; [rewrite Hl; apply too_long_small, Htl|].
    split; [rewrite Hlay at 1; exact Hj|]. split; [lia|].
    eapply Forall_impl; [|exact Hf]. cbn beta.
    intros r (a & b & c & d & e & f & Hg' & ->). exists a, b, c, d, e, f. split; [|reflexivity].
    eapply Forall_impl; [|exact Hg']. cbn beta. intros g [Hg1 Hg2]. split; [exact Hg1|].
    eapply Forall_impl; [|exact Hg2]. cbn beta. intros x Hx.
    pose proof (significant_inA code) as Ha. rewrite Forall_forall in Ha. exact (Ha x Hx).
Qed.

Lemma generate_outcome P rnd pw salt key :
  prims_ok P -> length key = 32 ->
  (length salt <> 16 /\ generate P rnd pw salt key = Err UnexpectedData) \/
  (length salt = 16 /\ 256 < (45 + length pw + 13) / 14 /\ p_overflow_checks P = true /\
   generate P rnd pw salt key = Panic) \/
  (length salt = 16 /\ ((45 + length pw + 13) / 14 <= 256 \/ p_overflow_checks P = false) /\
   exists code, generate P rnd pw salt key = Ok code).
Proof.
  intros HP Hk. destruct (Nat.eq_dec (length salt) 16) as [Hs|Hs].
  2:{ left. split; [exact Hs|]. apply generate_bad_salt, Hs. }
  right. destruct (generate_eq P rnd pw salt key HP Hs Hk) as (_ & _ & _ & text & _ & ->).
  fold (lines_for (length pw)).
  destruct (too_long P (lines_for (length pw))) eqn:E.
  - left. unfold too_long in E. apply andb_true_iff in E. destruct E as [E1 E2]. apply Nat.ltb_lt in E1. auto.
  - right. split; [exact Hs|]. split; [apply too_long_small, E|]. eexists; reflexivity.
Qed.

Lemma empty_password_code P rnd pp salt key :
  prims_ok P -> get_encryption_key P pp salt = Ok key -> length salt = 16 -> p_overflow_checks P = true ->
  exists code, generate P rnd [] salt key = Ok code /\ decode P code pp = Panic.
Proof.
  intros HP Hkey Hs Ho.
  assert (length key = 32) as Hk.
  { rewrite get_encryption_key_eq in Hkey. injection Hkey as <-. apply (ok_scrypt_len P HP). }
  destruct (generate_outcome P rnd [] salt key HP Hk) as [[H _]|[(_ & H & _)|(_ & _ & code & Hg)]].
  - contradiction.
  - cbn in H. lia.
  - exists code. split; [exact Hg|]. rewrite (recovery_roundtrip P rnd [] salt key code pp HP Hkey eq_refl Hg), Ho. reflexivity.
Qed.

Lemma wrong_primary_password P rnd pw salt key code pp key' :
  prims_ok P -> length key = 32 -> generate P rnd pw salt key = Ok code ->
  get_encryption_key P pp salt = Ok key' ->
  (forall pad, (45 + length pw + length pad) mod 14 = 0 -> length pad < 14 -> (forall x, In x pad -> x = x00) ->
     p_open P key' (p_random P rnd 12) (p_seal P key (p_random P rnd 12) (pw ++ pad)) = None) ->
  decode P code pp = Err DecryptionFailure.
Proof.
  intros HP Hk Hg Hk' Hr. rewrite get_encryption_key_eq in Hk'. injection Hk' as <-.
  rewrite (generated_code_decodes P rnd pw salt key code pp HP Hk Hg). unfold nonce.
  pose proof (fill_bytes_spec (length pw)) as [Hf Hs].
  rewrite Hr; [reflexivity|rewrite repeat_length; lia|rewrite repeat_length; exact Hf|].
  intros x Hx. eapply repeat_spec, Hx.
Qed.

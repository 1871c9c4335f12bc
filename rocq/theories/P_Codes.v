(** Accepted recovery codes: proofs. *)
From Verif Require Import M_Base M_Base64 M_Codec M_Utf8 M_Prims M_Crypto M_Recovery.
From Verif Require Import P_Base S_Codec P_Codec S_Recovery S_Codes P_Format P_Lines P_Validate P_Crypto P_Recovery P_Swaps.

(** * Exchanged characters *)

Lemma significant_one c : In (upcase c) alphabet32 -> significant [c] = [upcase c].
Proof.
  intros H. rewrite significant_cons. destruct (contains_byte (upcase c) alphabet32) eqn:E; [reflexivity|].
  exfalso. apply contains_byte_spec in H. congruence.
Qed.

Lemma decode_swapped P a c m d b lines pp :
  code_lines (a ++ [c] ++ m ++ [d] ++ b) lines -> (length lines <= 256 \/ p_overflow_checks P = false) ->
  In (upcase c) alphabet32 -> In (upcase d) alphabet32 -> upcase c <> upcase d ->
  (forall x, In x m -> ~ In (upcase x) alphabet32) ->
  In (length (significant a) mod 8) seen_positions ->
  exists e, decode P (a ++ [d] ++ m ++ [c] ++ b) pp = Err e.
Proof.
  intros C Hs Hc Hd Hne Hm Hp.
  assert (significant (a ++ [c] ++ m ++ [d] ++ b) = significant a ++ upcase c :: upcase d :: significant b) as E.
  { rewrite !significant_app, !significant_one, (significant_junk m) by assumption. reflexivity. }
  assert (significant (a ++ [d] ++ m ++ [c] ++ b) = significant a ++ upcase d :: upcase c :: significant b) as E'.
  { rewrite !significant_app, !significant_one, (significant_junk m) by assumption. reflexivity. }
  destruct (validate_err P (a ++ [d] ++ m ++ [c] ++ b)) as [e He].
  - replace (length (significant (a ++ [d] ++ m ++ [c] ++ b))) with (24 * length lines).
    + rewrite Nat.mul_comm, Nat.div_mul by lia. exact Hs.
    + rewrite <- (code_lines_size _ _ C), E, E', !app_length. reflexivity.
  - intros x Hx. apply validate_ok_iff in Hx. destruct Hx as (lines' & _ & C' & _).
    eapply swap_codes; [exact C|exact C'|exact E|exact E'|exact Hp|exact Hne].
  - exists e. apply decode_err, He.
Qed.

(** * Codes and data *)

Lemma lines_valid_seal lines : lines_valid lines ->
  lines = seal_lines (length lines) 0 (map (firstn 14) lines) /\ Forall (fun b => length b = 14) (map (firstn 14) lines).
Proof.
  intros [_ V].
  assert (forall total i, (forall j l, nth_error lines j = Some l -> line_valid (virtual_byte total (i + j)) l) ->
            lines = seal_lines total i (map (firstn 14) lines) /\ Forall (fun b => length b = 14) (map (firstn 14) lines)) as G.
  { clear V. induction lines as [|l ls IH]; intros total i V; [split; [reflexivity|constructor]|].
    destruct (IH total (S i)) as [IH1 IH2].
    { intros j l' Hj. specialize (V (S j) l' Hj). replace (S i + j) with (i + S j) by lia. exact V. }
    specialize (V 0 l eq_refl). rewrite Nat.add_0_r in V. destruct V as (block & Hb & ->).
    assert (firstn 14 (block ++ [pearson_hash block (virtual_byte total i)]) = block) as E.
    { rewrite firstn_app, Hb. cbn [Nat.sub firstn]. rewrite firstn_all2 by lia. apply app_nil_r. }
    cbn [map seal_lines]. rewrite E. split; [rewrite <- IH1; reflexivity|constructor; assumption]. }
  apply G. exact V.
Qed.

Lemma length_concat_14 (bl : list bytes) : Forall (fun b => length b = 14) bl -> length (concat bl) = 14 * length bl.
Proof. induction 1 as [|b bl Hb _ IH]; [reflexivity|]. cbn [concat length]. rewrite app_length, IH. lia. Qed.

Lemma spells_lines text data lines :
  code_lines text lines -> concat (map (firstn 14) lines) = data ->
  length data = 14 * length lines /\ lines = seal_lines (length lines) 0 (chunks 14 data).
Proof.
  intros [_ V] <-. destruct (lines_valid_seal lines V) as [E F]. split.
  - rewrite length_concat_14 by exact F. rewrite map_length. reflexivity.
  - rewrite chunks_concat by (exact F || lia). exact E.
Qed.

Lemma spells_text t1 t2 data : spells t1 data -> spells t2 data -> significant t1 = significant t2.
Proof.
  intros (l1 & C1 & D1) (l2 & C2 & D2).
  destruct (spells_lines _ _ _ C1 D1) as [L1 E1]. destruct (spells_lines _ _ _ C2 D2) as [L2 E2].
  assert (length l1 = length l2) as L by lia. rewrite L in E1. rewrite <- E2 in E1. subst l2.
  eapply base32_text_fun_text; [exact (proj1 C1)|exact (proj1 C2)].
Qed.

Lemma spells_data t d1 d2 : spells t d1 -> spells t d2 -> d1 = d2.
Proof.
  intros (l1 & C1 & <-) (l2 & C2 & <-). rewrite (code_lines_fun _ _ _ C1 C2). reflexivity.
Qed.

Lemma spells_size t d : spells t d -> d <> [] /\ length d mod 14 = 0 /\ length (significant t) = 24 * (length d / 14).
Proof.
  intros (l & C & D). destruct (spells_lines _ _ _ C D) as [L _]. rewrite L.
  rewrite (code_lines_size _ _ C). replace (14 * length l) with (length l * 14) by lia.
  rewrite Nat.mod_mul, Nat.div_mul by lia. split; [|split; reflexivity].
  intros ->. destruct C as [_ [Hne _]]. destruct l; [contradiction|discriminate L].
Qed.

Lemma spells_exists d : d <> [] -> length d mod 14 = 0 -> exists t, spells t d /\ t = layout (significant t).
Proof.
  intros Hne Hm. set (blocks := chunks 14 d).
  assert (Forall (fun b => length b = 14) blocks) as F by (apply Forall_chunks_length; [lia|exact Hm]).
  assert (concat blocks = d) as E by (apply concat_chunks; [lia|exact Hm]).
  assert (blocks <> []) as Hb by (intros E0; rewrite E0 in E; cbn in E; congruence).
  pose proof (seal_lines_valid blocks Hb F) as V.
  destruct (base32_encode_ok (concat (seal_lines (length blocks) 0 blocks))) as (t & _ & T).
  { rewrite length_concat_15 by (apply lines_valid_length, V).
    replace (15 * length (seal_lines (length blocks) 0 blocks)) with (length (seal_lines (length blocks) 0 blocks) * 3 * 5) by lia.
    apply Nat.mod_mul. lia. }
  pose proof (base32_text_alphabet _ _ T) as A.
  exists (layout t). rewrite significant_layout by exact A. split; [|reflexivity].
  exists (seal_lines (length blocks) 0 blocks). split.
  - split; [rewrite significant_layout by exact A; exact T|exact V].
  - rewrite seal_lines_data by exact F. exact E.
Qed.

(** * Acceptance *)

Lemma spells_decode P code pp salt n c :
  prims_ok P -> spells code (x01 :: salt ++ n ++ c) -> small_enough P (length (significant code) / 24) ->
  length salt = 16 -> length n = 12 -> 16 <= length c ->
  decode P code pp =
    let? decrypted := ok_or (p_open P (p_scrypt P pp (latin1 salt) 32) n c) DecryptionFailure in
    if (p_overflow_checks P && match strip_nuls decrypted with [] => true | _ => false end)%bool then Panic
    else if utf8 (strip_nuls decrypted) then Ok (strip_nuls decrypted) else Err InvalidUtf8.
Proof.
  intros HP (lines & C & D) Hs H1 H2 H3. apply decode_payload with (lines := lines); try assumption.
  rewrite (code_lines_size _ _ C), Nat.mul_comm, Nat.div_mul in Hs by lia. exact Hs.
Qed.

Lemma rejected_by_cipher P code salt n c pp key :
  prims_ok P -> spells code (x01 :: salt ++ n ++ c) -> (length (significant code) <= 24 * 256 \/ p_overflow_checks P = false) ->
  length salt = 16 -> length n = 12 -> 16 <= length c ->
  get_encryption_key P pp salt = Ok key -> p_open P key n c = None -> decode P code pp = Err DecryptionFailure.
Proof.
  intros HP Sp Hsm L1 L2 L3 Hk Ho. rewrite get_encryption_key_eq in Hk. injection Hk as <-.
  rewrite (spells_decode P code pp salt n c HP Sp); try assumption; [rewrite Ho; reflexivity|].
  destruct Hsm as [Hsm|Hsm]; [left|right; exact Hsm]. apply Nat.div_le_upper_bound; [lia|exact Hsm].
Qed.

Lemma decode_accepts P code pp pw :
  prims_ok P ->
  (decode P code pp = Ok pw <->
   exists salt n c key plain,
     spells code (x01 :: salt ++ n ++ c) /\ length salt = 16 /\ length n = 12 /\ 16 <= length c /\
     (length (significant code) <= 24 * 256 \/ p_overflow_checks P = false) /\
     get_encryption_key P pp salt = Ok key /\ p_open P key n c = Some plain /\
     pw = strip_nuls plain /\ utf8 pw = true /\ (pw <> [] \/ p_overflow_checks P = false)).
Proof.
  intros HP. split.
  - intros H. pose proof H as H0. unfold decode in H.
    destruct (validate P code) as [d|e|] eqn:Ev; cbn [bind] in H; [|discriminate|discriminate].
    pose proof (validate_ok_size _ _ _ Ev) as [_ Hsm].
    apply validate_ok_iff in Ev. destruct Ev as (lines & -> & C & Hsl).
    pose proof (lines_valid_length _ (proj2 C)) as H15.
    pose proof (strip_checksums_lines 0 lines H15) as Hsc. change (15 * 0) with 0 in Hsc. rewrite Hsc in H. clear Hsc.
    set (data := concat (map (firstn 14) lines)) in *.
    change (VERSION_SIZE + SALT_SIZE + NONCE_SIZE + TAG_SIZE) with 45 in H.
    destruct data as [|v rest] eqn:Ed; [discriminate H|].
    destruct (Byte.eqb v VERSION) eqn:Evv; cbn [negb] in H; [|discriminate H].
    apply eqb_eq in Evv. change VERSION with x01 in Evv. subst v.
    destruct (length (x01 :: rest) <? 45) eqn:El; [discriminate H|]. apply Nat.ltb_ge in El. cbn [length] in El. clear H.
    set (salt := firstn 16 rest). set (n := firstn 12 (skipn 16 rest)). set (c := skipn 12 (skipn 16 rest)).
    assert (rest = salt ++ n ++ c) as Er by (unfold salt, n, c; rewrite !firstn_skipn; reflexivity).
    assert (length salt = 16) as L1 by (unfold salt; rewrite firstn_length; lia).
    assert (length n = 12) as L2 by (unfold n; rewrite firstn_length, skipn_length; lia).
    assert (16 <= length c) as L3 by (unfold c; rewrite !skipn_length; lia).
    clearbody salt n c. subst rest.
    assert (spells code (x01 :: salt ++ n ++ c)) as Sp by (exists lines; split; [exact C|exact Ed]).
    rewrite (spells_decode P code pp salt n c HP Sp Hsm L1 L2 L3) in H0.
    destruct (p_open P (p_scrypt P pp (latin1 salt) 32) n c) as [plain|] eqn:Eo; cbn [ok_or bind] in H0; [|discriminate].
    exists salt, n, c, (p_scrypt P pp (latin1 salt) 32), plain.
    split; [exact Sp|]. split; [exact L1|]. split; [exact L2|]. split; [exact L3|].
    split. { destruct Hsl as [Hsl|Hsl]; [left|right; exact Hsl]. rewrite (code_lines_size _ _ C). lia. }
    split; [apply get_encryption_key_eq|]. split; [exact Eo|].
    destruct (p_overflow_checks P) eqn:Eov; cbn [andb] in H0.
    + destruct (strip_nuls plain) as [|x y] eqn:Es; [discriminate H0|].
      destruct (utf8 (x :: y)) eqn:Eu; [|discriminate H0]. injection H0 as <-.
      split; [reflexivity|]. split; [exact Eu|left; discriminate].
    + destruct (utf8 (strip_nuls plain)) eqn:Eu; [|discriminate H0]. injection H0 as <-. auto.
  - intros (salt & n & c & key & plain & Sp & L1 & L2 & L3 & Hsm & Hk & Ho & -> & Hu & Hne).
    rewrite get_encryption_key_eq in Hk. injection Hk as <-.
    rewrite (spells_decode P code pp salt n c HP Sp); try assumption.
    + rewrite Ho. cbn [ok_or bind]. rewrite Hu.
      destruct Hne as [Hne| ->]; [|reflexivity]. destruct (strip_nuls plain); [contradiction|]. rewrite andb_false_r. reflexivity.
    + destruct Hsm as [Hsm|Hsm]; [left|right; exact Hsm].
      apply Nat.div_le_upper_bound; [lia|]. exact Hsm.
Qed.

(** An encrypted value, such as those in a storage file, written as a recovery code. *)
Lemma recoded P pp salt key rnd m e :
  prims_ok P -> length salt = 16 -> get_encryption_key P pp salt = Ok key -> encrypt_data P rnd m key = Ok e ->
  (45 + length m) mod 14 = 0 -> (45 + length m <= 14 * 256 \/ p_overflow_checks P = false) ->
  utf8 m = true -> m <> [] -> (forall r, m <> r ++ [x00]) ->
  exists code n c, e = b64_encode n ++ bs "_" ++ b64_encode c /\ spells code (x01 :: salt ++ n ++ c) /\
    decode P code pp = Ok m.
Proof.
  intros HP Hs Hk He Hm Hsm Hu Hne Hr.
  rewrite get_encryption_key_eq in Hk. injection Hk as <-.
  assert (length (p_scrypt P pp (latin1 salt) 32) = 32) as Lk by apply (ok_scrypt_len P HP).
  rewrite encrypt_data_eq in He by exact Lk. injection He as <-.
  set (n := nonce P rnd). set (c := p_seal P (p_scrypt P pp (latin1 salt) 32) n m).
  assert (length n = 12) as Ln by apply nonce_len, HP.
  assert (length c = length m + 16) as Lc by (unfold c; apply (ok_seal_len P HP); assumption).
  assert (length (x01 :: salt ++ n ++ c) = 45 + length m) as Ll by (cbn [length]; rewrite !app_length; lia).
  destruct (spells_exists (x01 :: salt ++ n ++ c)) as (code & Sp & _); [discriminate|rewrite Ll; exact Hm|].
  exists code, n, c. split; [reflexivity|]. split; [exact Sp|].
  apply strip_nuls_id in Hr. apply decode_accepts; [exact HP|].
  exists salt, n, c, (p_scrypt P pp (latin1 salt) 32), m.
  split; [exact Sp|]. split; [exact Hs|]. split; [exact Ln|]. split; [lia|]. split.
  { destruct Hsm as [Hsm|Hsm]; [left|right; exact Hsm].
    pose proof (spells_size _ _ Sp) as (_ & _ & E). rewrite E, Ll.
    apply Nat.mul_le_mono_l. apply Nat.div_le_upper_bound; [lia|]. exact Hsm. }
  split; [apply get_encryption_key_eq|]. split; [apply (ok_open_seal P HP); assumption|].
  rewrite Hr. auto.
Qed.

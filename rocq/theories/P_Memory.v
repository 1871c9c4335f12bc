(** Buffers on the heap: proofs. *)
From stdpp Require Import gmap.
From Verif Require Import M_Base M_Base64 M_Utf8 M_Json M_Types M_Serde M_Prims M_Crypto M_Recovery M_Cli M_Memory.
From Verif Require Import S_Recovery S_Base64 S_Memory P_Base P_Base64 P_Size P_Recovery.

(** * Vectors *)

Lemma extend_fits s v old : length (v_data v) + length s <= v_cap v ->
  vec_extend s v old = (Ok (mk_vec (v_cap v) (v_data v ++ s)), old).
Proof.
  intros H. unfold vec_extend, mbind, vec_reserve. apply Nat.leb_le in H. rewrite H. reflexivity.
Qed.

Lemma extend_grows s v old : v_cap v < length (v_data v) + length s -> 0 < v_cap v ->
  vec_extend s v old =
    (Ok (mk_vec (Nat.max 8 (Nat.max (2 * v_cap v) (length (v_data v) + length s))) (v_data v ++ s)), old ++ [v_data v]).
Proof.
  intros H Hc. unfold vec_extend, mbind, vec_reserve. apply Nat.leb_gt in H. rewrite H. cbn [v_cap v_data].
  destruct (Nat.eqb_spec (v_cap v) 0) as [E|_]; [lia|reflexivity].
Qed.

Lemma vec_of_eq s old : vec_of s old = (Ok (mk_vec (length s) s), old).
Proof. unfold vec_of. rewrite extend_fits by reflexivity. reflexivity. Qed.

Lemma resize_new n b old : exists c, vec_resize n b vec_new old = (Ok (mk_vec c (repeat b n)), old).
Proof.
  unfold vec_resize, vec_new. cbn [v_data length]. destruct n as [|n].
  - exists 0. reflexivity.
  - cbn [Nat.leb]. unfold vec_extend, mbind, vec_reserve. cbn [v_data v_cap length].
    rewrite repeat_length. cbn [Nat.add Nat.sub Nat.leb Nat.eqb]. eexists. reflexivity.
Qed.

(** * Passwords *)

Lemma derive_bits_kept P pp salt size old :
  exists r, derive_bits_mem P pp salt size old = (r, old) /\ contents r = derive_bits P pp salt size.
Proof.
  unfold derive_bits_mem, mbind, mlift, mret. destruct (resize_new (N.to_nat size) x00 old) as [c ->].
  destruct (derive_bits P pp salt size) as [l| |]; eexists; split; reflexivity.
Qed.

Lemma to_password_loop_kept cs seen len i l v old :
  length (v_data v) + length l <= v_cap v ->
  exists r, to_password_loop_mem cs seen len i l v old = (r, old) /\
    contents r = let? rest := to_password_loop cs seen len i l in Ok (v_data v ++ rest).
Proof.
  revert seen i v. induction l as [|b l IH]; intros seen i v H; cbn [to_password_loop_mem to_password_loop].
  - eexists. split; [reflexivity|]. cbn. rewrite app_nil_r. reflexivity.
  - cbn [length] in H. set (allowed := if _ <=? _ then _ else _). clearbody allowed.
    destruct (num_chars allowed =? 0); [eexists; split; reflexivity|].
    destruct (pick_char allowed CHARS_MAPPING (b_nat b mod num_chars allowed)) as [[c t]|].
    + unfold mbind, vec_push. rewrite extend_fits by (cbn [length]; lia).
      destruct (IH (cs_insert seen t) (S i) (mk_vec (v_cap v) (v_data v ++ [c]))) as (r & -> & E).
      { cbn [v_data v_cap]. rewrite app_length. cbn [length]. lia. }
      exists r. split; [reflexivity|]. rewrite E. cbn [v_data].
      destruct (to_password_loop cs (cs_insert seen t) len (S i) l); cbn [bind]; [|reflexivity..].
      rewrite <- app_assoc. reflexivity.
    + apply IH. lia.
Qed.

Lemma to_password_kept v cs old :
  exists r, to_password_mem v cs old = (r, old) /\ contents r = to_password (v_data v) cs.
Proof.
  unfold to_password_mem, to_password.
  destruct (to_password_loop_kept cs cs_empty (length (v_data v)) 0 (v_data v) (vec_with_capacity (length (v_data v))) old)
    as (r & -> & E); [reflexivity|].
  exists r. split; [reflexivity|]. rewrite E. cbn [vec_with_capacity v_data app].
  destruct (to_password_loop _ _ _ _ _); reflexivity.
Qed.

Lemma derive_password_kept P pp salt len cs old :
  exists r, derive_password_mem P pp salt len cs old = (r, old) /\ contents r = derive_password P pp salt len cs.
Proof.
  unfold derive_password_mem, derive_password, mbind, drop_secret, mret.
  destruct (derive_bits_kept P pp salt len old) as (r & -> & E). rewrite <- E.
  destruct r as [v| |]; cbn [contents bind]; [|eexists; split; reflexivity..].
  destruct (to_password_kept v cs old) as (r & -> & E').
  destruct r as [w| |]; eexists; (split; [reflexivity|exact E']).
Qed.

(** * Recovery codes *)

Lemma padded_password_kept pw old :
  exists v, padded_password_mem pw old = (Ok v, old) /\ v_data v = pw ++ repeat x00 (fill_bytes (length pw)).
Proof.
  unfold padded_password_mem, mbind. rewrite extend_fits by (cbn [v_data v_cap vec_with_capacity length]; lia).
  cbn [v_data v_cap vec_with_capacity app]. unfold vec_resize. cbn [v_data v_cap].
  destruct (Nat.leb_spec (length pw + fill_bytes (length pw)) (length pw)) as [H|H].
  - assert (fill_bytes (length pw) = 0) as E by lia. rewrite E. cbn [repeat]. rewrite app_nil_r, Nat.add_0_r, firstn_all.
    eexists. split; reflexivity.
  - rewrite extend_fits by (rewrite repeat_length; cbn [v_data v_cap]; lia). eexists. split; [reflexivity|].
    cbn [v_data]. f_equal. f_equal. lia.
Qed.

Lemma stripped_password_kept P d old :
  exists r, stripped_password_mem P d old = (r, old) /\
    contents r = let? end_pos := find_end P (v_data d) (length (v_data d)) in
                 let stripped := firstn end_pos (v_data d) in
                 if utf8 stripped then Ok stripped else Err InvalidUtf8.
Proof.
  unfold stripped_password_mem, mbind, mlift, mret, drop_secret.
  destruct (find_end P (v_data d) (length (v_data d))) as [e| |]; cbn [bind]; [|eexists; split; reflexivity..].
  destruct (Nat.eqb_spec e (length (v_data d))) as [->|Hne].
  - rewrite firstn_all. destruct (utf8 (v_data d)); [|eexists; split; reflexivity].
    rewrite vec_of_eq. eexists. split; reflexivity.
  - rewrite vec_of_eq. unfold mret. cbn [v_data]. destruct (utf8 (firstn e (v_data d))); [|eexists; split; reflexivity].
    rewrite vec_of_eq. eexists. split; reflexivity.
Qed.

(** * Typed secrets *)

Lemma read_line_left input v old :
  length (v_data v) <= v_cap v -> 8 <= v_cap v ->
  exists c blocks,
    read_line_mem input v old = (Ok (mk_vec c (v_data v ++ fst (read_line input)), snd (read_line input)), old ++ blocks) /\
    left_by (v_cap v) (v_data v ++ fst (read_line input)) blocks.
Proof.
  revert v old. induction input as [|b input IH]; intros v old H H8; cbn [read_line_mem read_line].
  - exists (v_cap v), []. cbn [fst snd]. rewrite !app_nil_r. destruct v as [c0 d0]. cbn [v_cap v_data] in *. split; [reflexivity|].
    exists 0. cbn. rewrite Nat.mul_1_r. auto.
  - destruct (Byte.eqb b newline).
    { exists (v_cap v), []. cbn [fst snd]. rewrite !app_nil_r. destruct v as [c0 d0]. cbn [v_cap v_data] in *. split; [reflexivity|].
      exists 0. cbn. rewrite Nat.mul_1_r. auto. }
    destruct (read_line input) as [line rest] eqn:El. cbn [fst snd] in *. unfold mbind, vec_push.
    destruct (Nat.eq_dec (length (v_data v)) (v_cap v)) as [E|E].
    + rewrite extend_grows by (cbn [length]; lia). cbn [length].
      replace (Nat.max 8 (Nat.max (2 * v_cap v) (length (v_data v) + 1))) with (2 * v_cap v) by lia.
      destruct (IH (mk_vec (2 * v_cap v) (v_data v ++ [b])) (old ++ [v_data v])) as (c & blocks & Hr & m & L1 & L2 & L3).
      { cbn [v_data v_cap]. rewrite app_length. cbn [length]. lia. } { cbn [v_cap]. lia. }
      rewrite Hr. cbn [v_data v_cap] in *. rewrite <- !app_assoc in *. cbn [app] in *.
      exists c, (v_data v :: blocks). split; [reflexivity|].
      exists (S m). replace (v_cap v * 2 ^ S m) with (2 * v_cap v * 2 ^ m) by (cbn [Nat.pow]; lia).
      split; [exact L1|]. split.
      { right. destruct m as [|m].
        - cbn. rewrite app_length. cbn [length]. lia.
        - destruct L2 as [L2|L2]; [discriminate L2|]. replace (S (S m) - 1) with (S m) by lia.
          replace (S m - 1) with m in L2 by lia. cbn [Nat.pow]. cbn [Nat.pow] in L2. lia. }
      cbn [seq map]. f_equal.
      * cbn [Nat.pow]. rewrite Nat.mul_1_r, <- E, firstn_app, Nat.sub_diag, firstn_all. cbn [firstn]. rewrite app_nil_r. reflexivity.
      * rewrite L3, <- seq_shift, map_map. apply map_ext. intros k. f_equal. cbn [Nat.pow]. lia.
    + rewrite extend_fits by (cbn [length]; lia).
      destruct (IH (mk_vec (v_cap v) (v_data v ++ [b])) old) as (c & blocks & Hr & L).
      { cbn [v_data v_cap]. rewrite app_length. cbn [length]. lia. } { exact H8. }
      rewrite Hr. cbn [v_data v_cap] in *. rewrite <- !app_assoc in *. cbn [app] in *. exists c, blocks. split; [reflexivity|exact L].
Qed.

Lemma prompt_secret_text_left input old :
  exists r blocks, prompt_secret_text_mem input old = (r, old ++ blocks) /\
    left_by 1024 (fst (read_line input)) blocks /\
    (utf8 (fst (read_line input)) = true -> r = Ok (mk_vec (length (fst (read_line input))) (fst (read_line input)), snd (read_line input))).
Proof.
  unfold prompt_secret_text_mem, mbind, mlift, mret, drop_secret.
  destruct (read_line_left input (vec_with_capacity 1024) old) as (c & blocks & -> & L).
  { cbn [v_data v_cap vec_with_capacity length]. lia. } { cbn [v_cap vec_with_capacity]. lia. }
  cbn [vec_with_capacity v_data v_cap app] in *.
  destruct (utf8 (fst (read_line input))) eqn:Eu.
  - rewrite vec_of_eq. eexists _, blocks. split; [reflexivity|]. split; [exact L|]. intros _. reflexivity.
  - eexists _, blocks. split; [reflexivity|]. split; [exact L|]. discriminate.
Qed.

Lemma left_by_short cap text blocks : left_by cap text blocks -> (blocks = [] <-> length text <= cap).
Proof.
  intros (m & L1 & L2 & ->). split.
  - intros E. destruct m; [|discriminate E]. cbn in L1. lia.
  - intros H. destruct m; [reflexivity|]. destruct L2 as [L2|L2]; [discriminate L2|].
    assert (2 ^ (S m - 1) <> 0) by (apply Nat.pow_nonzero; lia). nia.
Qed.

Lemma left_by_long cap text blocks : left_by cap text blocks -> cap < length text -> In (firstn cap text) blocks.
Proof.
  intros (m & L1 & L2 & ->) H. destruct m as [|m]; [cbn in L1; lia|]. left. cbn. rewrite Nat.mul_1_r. reflexivity.
Qed.

Lemma prompt_password_left input old :
  utf8 (fst (read_line input)) = true ->
  exists v blocks, prompt_password_mem input old = (Ok (v, snd (read_line input)), old ++ blocks) /\
    v_data v = trim (fst (read_line input)) /\ left_by 1024 (fst (read_line input)) blocks.
Proof.
  intros Hu. unfold prompt_password_mem, mbind, mret, drop_secret.
  destruct (prompt_secret_text_left input old) as (r & blocks & -> & L & E). rewrite (E Hu). cbn [v_data].
  rewrite vec_of_eq. eexists _, blocks. split; [reflexivity|]. split; [reflexivity|exact L].
Qed.

(** * JSON *)

Lemma escape_single c x : escape_byte c = [x] -> x = c.
Proof. unfold escape_byte. repeat match goal with |- context [if ?x then _ else _] => destruct x end; congruence. Qed.

Lemma string_pieces_text s part : concat (string_pieces s part) = part ++ flat_map escape_byte s.
Proof.
  revert part. induction s as [|c s IH]; intros part; cbn [string_pieces flat_map].
  - destruct part; cbn [concat]; rewrite ?app_nil_r; reflexivity.
  - destruct (escape_byte c) as [|x [|y e]] eqn:E.
    + exfalso. revert E. unfold escape_byte. repeat match goal with |- context [if ?x then _ else _] => destruct x end; discriminate.
    + apply escape_single in E. subst x. rewrite IH, <- app_assoc. reflexivity.
    + rewrite concat_app. cbn [concat]. rewrite IH. cbn [app].
      destruct part; cbn [concat]; rewrite ?app_nil_r; reflexivity.
Qed.

Lemma quoted_pieces_text s : concat (quoted_pieces s) = write_string s.
Proof.
  unfold quoted_pieces, write_string. cbn [concat]. rewrite concat_app, string_pieces_text. reflexivity.
Qed.

Lemma with_commas_text (l : list (list bytes)) : concat (with_commas l) = join [","%byte] (map (@concat byte) l).
Proof.
  induction l as [|x [|y l] IH]; [reflexivity|reflexivity|].
  cbn [with_commas map join] in *. rewrite concat_app. cbn [concat]. rewrite IH. reflexivity.
Qed.

Lemma json_pieces_text : forall j, concat (json_pieces j) = write_json j.
Proof.
  fix IH 1. intros [|[|]|n| |s|l|l]; cbn [json_pieces write_json].
  - reflexivity.
  - reflexivity.
  - reflexivity.
  - cbn [concat]. apply app_nil_r.
  - reflexivity.
  - apply quoted_pieces_text.
  - cbn [concat]. rewrite concat_app, with_commas_text. cbn [concat]. rewrite map_map.
    replace (map (fun x => concat (json_pieces x)) l) with (map write_json l); [reflexivity|].
    induction l as [|x l IHl]; [reflexivity|]. cbn [map]. rewrite IHl, IH. reflexivity.
  - cbn [concat]. rewrite concat_app, with_commas_text. cbn [concat]. rewrite map_map.
    match goal with |- context [join _ (map ?f l) ++ bs "}" ++ []] =>
      replace (map f l) with (map (fun '(_, k, v) => write_string k ++ ":"%byte :: write_json v) l); [reflexivity|]
    end.
    induction l as [|[[b k] v] l IHl]; [reflexivity|]. cbn [map]. rewrite IHl. f_equal.
    rewrite concat_app. cbn [concat]. rewrite quoted_pieces_text, IH. reflexivity.
Qed.

(** Blocks left behind by a vector written in pieces. *)
Lemma extend_all_left l v old :
  length (v_data v) <= v_cap v -> 0 < v_cap v ->
  exists c blocks, vec_extend_all l v old = (Ok (mk_vec c (v_data v ++ concat l)), old ++ blocks) /\
    (length (v_data v ++ concat l) <= v_cap v -> blocks = []) /\
    (v_cap v < length (v_data v ++ concat l) ->
       exists a b d blocks', l = a ++ b :: d /\ length (v_data v ++ concat a) <= v_cap v < length (v_data v ++ concat (a ++ [b])) /\
         blocks = (v_data v ++ concat a) :: blocks') /\
    (forall x, In x blocks -> exists a b d, l = a ++ b :: d /\ x = v_data v ++ concat a).
Proof.
  revert v old. induction l as [|s l IH]; intros v old H H0; cbn [vec_extend_all].
  - exists (v_cap v), []. cbn [concat]. rewrite !app_nil_r. destruct v as [c0 d0]. cbn [v_cap v_data] in *. split; [reflexivity|].
    split; [reflexivity|]. split; [lia|]. intros x [].
  - unfold mbind. cbn [concat]. destruct (Nat.le_gt_cases (length (v_data v) + length s) (v_cap v)) as [Hf|Hg].
    + rewrite extend_fits by exact Hf.
      destruct (IH (mk_vec (v_cap v) (v_data v ++ s)) old) as (c & blocks & Hr & B1 & B2 & B3).
      { cbn [v_data v_cap]. rewrite app_length. exact Hf. } { exact H0. }
      cbn [v_data v_cap] in *. rewrite <- !app_assoc in *. exists c, blocks. split; [exact Hr|]. split; [exact B1|]. split.
      * intros Hx. destruct (B2 Hx) as (a & b & d & blocks' & -> & L & ->). exists (s :: a), b, d, blocks'.
        cbn [app concat]. rewrite <- !app_assoc in *. auto.
      * intros x Hx. destruct (B3 x Hx) as (a & b & d & -> & ->). exists (s :: a), b, d. cbn [concat]. rewrite <- !app_assoc. auto.
    + rewrite extend_grows by lia.
      destruct (IH (mk_vec (Nat.max 8 (Nat.max (2 * v_cap v) (length (v_data v) + length s))) (v_data v ++ s)) (old ++ [v_data v]))
        as (c & blocks & Hr & _ & _ & B3).
      { cbn [v_data v_cap]. rewrite app_length. lia. } { cbn [v_cap]. lia. }
      cbn [v_data v_cap] in *. rewrite <- !app_assoc in *. cbn [app] in Hr. exists c, (v_data v :: blocks). split; [exact Hr|].
      split; [rewrite !app_length; lia|]. split.
      * intros _. exists [], s, l, blocks. cbn [app concat]. rewrite !app_nil_r, app_length. repeat split; lia.
      * intros x [<-|Hx].
        -- exists [], s, l. cbn [concat]. rewrite app_nil_r. auto.
        -- destruct (B3 x Hx) as (a & b & d & -> & ->). exists (s :: a), b, d. cbn [concat]. rewrite <- !app_assoc. auto.
Qed.

Lemma json_to_vec_left j old :
  exists c blocks, json_to_vec_mem j old = (Ok (mk_vec c (write_json j)), old ++ blocks) /\
    (length (write_json j) <= 128 -> blocks = []) /\
    (128 < length (write_json j) ->
       exists a b d blocks', json_pieces j = a ++ b :: d /\ length (concat a) <= 128 < length (concat (a ++ [b])) /\
         blocks = concat a :: blocks') /\
    (forall x, In x blocks -> exists y, x ++ y = write_json j).
Proof.
  destruct (extend_all_left (json_pieces j) (vec_with_capacity 128) old) as (c & blocks & Hr & B1 & B2 & B3).
  { cbn [v_data v_cap vec_with_capacity length]. lia. } { cbn [v_cap vec_with_capacity]. lia. }
  unfold json_to_vec_mem. cbn [v_data v_cap vec_with_capacity app] in *. rewrite json_pieces_text in *.
  exists c, blocks. split; [exact Hr|]. split; [exact B1|]. split; [exact B2|].
  intros x Hx. destruct (B3 x Hx) as (a & b & d & E & ->).
  rewrite <- (json_pieces_text j), E, concat_app. exists (concat (b :: d)). reflexivity.
Qed.

Lemma hmac_secret_kept k old : length k = 32 ->
  exists v, hmac_secret_mem k old = (Ok v, old) /\ v_data v = string_to_vec (b64_encode k).
Proof.
  intros Hk. destruct (json_to_vec_left (JStr (b64_encode k)) old) as (c & blocks & Hr & B & _).
  unfold hmac_secret_mem. rewrite Hr, B.
  - rewrite app_nil_r. eexists. split; reflexivity.
  - cbn [write_json]. unfold write_string. rewrite plain_escape by apply plain_b64.
    cbn [length]. rewrite app_length, b64_encode_length, Hk. cbn. lia.
Qed.

(** * Password records *)

Lemma stored_length s : length (password_to_vec (Stored (without_notes s))) =
  57 + length (write_string (id_site (sp_id s))) + length (write_string (id_name (sp_id s))) +
  length (write_string (id_revision (sp_id s))) + length (write_string (sp_password s)).
Proof.
  destruct s as [[site name rev] pw notes]. unfold password_to_vec, without_notes.
  cbn [sp_id sp_password sp_notes password_json id_members notes_members member write_json map join app id_site id_name id_revision].
  cbn [length]. repeat (rewrite ?app_length; cbn [length]).
  change (length (write_string (bs "type"))) with 6. change (length (write_string (bs "site"))) with 6.
  change (length (write_string (bs "name"))) with 6. change (length (write_string (bs "revision"))) with 10.
  change (length (write_string (bs "password"))) with 10. change (length (write_string (bs "stored"))) with 8.
  lia.
Qed.

Lemma pieces_app_split (l a d u w : list bytes) (b : bytes) : l = a ++ b :: d -> l = u ++ w ->
  length (concat u) < length (concat (a ++ [b])) -> exists y, concat a = concat u ++ y.
Proof.
  intros -> E. revert u E. induction a as [|x a IH]; intros [|y u] E H; cbn [app concat] in *.
  - exists []. reflexivity.
  - injection E as <- _. rewrite !app_length in H. cbn [length] in H. lia.
  - eexists. reflexivity.
  - injection E as <- E. rewrite !app_length in H.
    destruct (IH u E) as [z Hz]; [lia|]. exists z. rewrite Hz, app_assoc. reflexivity.
Qed.

(** The pieces of a stored password, with and without notes. *)
Lemma stored_pieces s : sp_notes s <> [] ->
  exists u w, json_pieces (password_json (Stored s)) = u ++ w /\
    json_pieces (password_json (Stored (without_notes s))) = u ++ [bs "}"] /\
    exists u', u = u' ++ quoted_pieces (sp_password s).
Proof.
  destruct s as [[site name rev] pw notes]. intros Hn. cbn [sp_notes] in Hn. unfold without_notes.
  cbn [sp_id sp_password sp_notes password_json id_members member id_site id_name id_revision].
  destruct notes as [|n notes]; [congruence|].
  unfold id_members, notes_members, member. cbn [app id_site id_name id_revision json_pieces map with_commas].
  set (ty := quoted_pieces (bs "type") ++ bs ":" :: quoted_pieces (bs "stored")).
  set (si := quoted_pieces (bs "site") ++ bs ":" :: quoted_pieces site).
  set (na := quoted_pieces (bs "name") ++ bs ":" :: quoted_pieces name).
  set (re := quoted_pieces (bs "revision") ++ bs ":" :: quoted_pieces rev).
  set (no := quoted_pieces (bs "notes") ++ bs ":" :: quoted_pieces (n :: notes)). clearbody ty si na re no.
  set (q := quoted_pieces pw). set (k := quoted_pieces (bs "password")). clearbody q k.
  exists (bs "{" :: ty ++ bs "," :: si ++ bs "," :: na ++ bs "," :: re ++ bs "," :: k ++ bs ":" :: q), (bs "," :: no ++ [bs "}"]).
  split; [|split].
  - repeat (rewrite <- ?app_assoc; cbn [app]). reflexivity.
  - repeat (rewrite <- ?app_assoc; cbn [app]). reflexivity.
  - exists (bs "{" :: ty ++ bs "," :: si ++ bs "," :: na ++ bs "," :: re ++ bs "," :: k ++ [bs ":"]).
    repeat (rewrite <- ?app_assoc; cbn [app]). reflexivity.
Qed.

Lemma record_short s old :
  length (write_string (id_site (sp_id s))) + length (write_string (id_name (sp_id s))) +
    length (write_string (id_revision (sp_id s))) + length (write_string (sp_password s)) <= 71 -> sp_notes s = [] ->
  exists v, record_mem (Stored s) old = (Ok v, old) /\ v_data v = password_to_vec (Stored s).
Proof.
  intros H Hn. destruct (json_to_vec_left (password_json (Stored s)) old) as (c & blocks & Hr & B & _).
  unfold record_mem. rewrite Hr, B.
  - rewrite app_nil_r. eexists. split; reflexivity.
  - change (write_json (password_json (Stored s))) with (password_to_vec (Stored s)).
    replace s with (without_notes s) at 1; [rewrite stored_length; lia|].
    destruct s. cbn in Hn. subst. reflexivity.
Qed.

(** With notes that make the record too long for the first buffer. *)
Lemma record_left s old :
  length (password_to_vec (Stored (without_notes s))) <= 129 -> 128 < length (password_to_vec (Stored s)) ->
  sp_notes s <> [] ->
  exists v before after blocks,
    record_mem (Stored s) old = (Ok v, old ++ (before ++ write_string (sp_password s) ++ after) :: blocks) /\
    v_data v = password_to_vec (Stored s).
Proof.
  intros Hs Hl Hn. destruct (json_to_vec_left (password_json (Stored s)) old) as (c & blocks & Hr & _ & B & _).
  destruct (B Hl) as (a & b & d & blocks' & Ep & [La Lb] & ->).
  destruct (stored_pieces s Hn) as (u & w & Eu & Ew & u' & Eu').
  assert (length (concat u) <= 128) as Lu.
  { unfold password_to_vec in Hs. rewrite <- json_pieces_text, Ew, concat_app, app_length in Hs. change (length (concat [bs "}"])) with 1 in Hs. lia. }
  destruct (pieces_app_split _ a d u w b Ep Eu ltac:(lia)) as [y Hy].
  rewrite Eu', concat_app, quoted_pieces_text, <- app_assoc in Hy.
  unfold record_mem. rewrite Hr, Hy. eexists _, _, _, _. split; reflexivity.
Qed.

Lemma record_blocks p old :
  exists v blocks, record_mem p old = (Ok v, old ++ blocks) /\ v_data v = password_to_vec p /\
    (blocks = [] <-> length (password_to_vec p) <= 128) /\
    (forall x, In x blocks -> exists y, x ++ y = password_to_vec p).
Proof.
  destruct (json_to_vec_left (password_json p) old) as (c & blocks & Hr & B1 & B2 & B3).
  exists (mk_vec c (password_to_vec p)), blocks. split; [exact Hr|]. split; [reflexivity|]. split; [|exact B3].
  split; [|exact B1]. intros ->. apply Nat.nlt_ge. intros H. destruct (B2 H) as (? & ? & ? & ? & _ & _ & E). discriminate E.
Qed.

Lemma prompt_password_short input old : utf8 (fst (read_line input)) = true ->
  (snd (prompt_password_mem input old) = old <-> length (fst (read_line input)) <= 1024).
Proof.
  intros Hu. destruct (prompt_password_left input old Hu) as (v & blocks & -> & _ & L). cbn [snd].
  rewrite <- (left_by_short _ _ _ L). split; intros E.
  - apply (f_equal (@length _)) in E. rewrite app_length in E. destruct blocks; [reflexivity|cbn [length] in E; lia].
  - rewrite E, app_nil_r. reflexivity.
Qed.

Lemma prompt_password_long input old : utf8 (fst (read_line input)) = true -> 1024 < length (fst (read_line input)) ->
  In (firstn 1024 (fst (read_line input))) (snd (prompt_password_mem input old)).
Proof.
  intros Hu Hl. destruct (prompt_password_left input old Hu) as (v & blocks & -> & _ & L). cbn [snd].
  apply in_or_app. right. apply (left_by_long _ _ _ L Hl).
Qed.

Lemma stripped_password_nuls P d old : strip_nuls (v_data d) <> [] ->
  exists r, stripped_password_mem P d old = (r, old) /\
    contents r = if utf8 (strip_nuls (v_data d)) then Ok (strip_nuls (v_data d)) else Err InvalidUtf8.
Proof.
  intros H. destruct (stripped_password_kept P d old) as (r & -> & E). exists r. split; [reflexivity|].
  rewrite E, find_end_eq. destruct (strip_nuls (v_data d)) as [|c s] eqn:Es; [congruence|].
  rewrite andb_false_r. cbn [bind]. rewrite <- Es, firstn_strip. reflexivity.
Qed.

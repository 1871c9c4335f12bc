(** The command line program: entering recovery codes. *)
From Coq Require Import ZArith ZifyBool ZifyNat ZifyN.
From stdpp Require Import gmap.
From Verif Require Import M_Base M_Base64 M_Utf8 M_Codec M_Prims M_Types M_Crypto M_Recovery M_Storage M_Passwords
  S_Codec S_Recovery P_Base P_Codec P_Crypto P_Lines P_Format P_Validate P_Recovery
  S_Vault M_History S_Api P_Api P_Calls M_Cli S_Cli P_CliBase P_CliCalls P_CliUnlock P_CliCommands.

Ltac Zify.zify_post_hook ::= Z.to_euclidean_division_equations.

(** * Lines of the layout *)

Lemma in_join (x : byte) sep l : In x (join sep l) -> In x sep \/ exists y, In y l /\ In x y.
Proof.
  induction l as [|a l IH]; [contradiction|]. destruct l as [|b l].
  - cbn. intros H. right. exists a. auto.
  - change (join sep (a :: b :: l)) with (a ++ sep ++ join sep (b :: l)). rewrite !in_app_iff.
    intros [H|[H|H]]; [right; exists a; cbn; auto|auto|].
    destruct (IH H) as [?|(y & H1 & H2)]; [auto|right; exists y; cbn in *; auto].
Qed.
Lemma in_firstn_list {A} (x : A) n l : In x (firstn n l) -> In x l.
Proof. intros H. rewrite <- (firstn_skipn n l). apply in_app_iff. auto. Qed.
Lemma in_skipn_list {A} (x : A) n l : In x (skipn n l) -> In x l.
Proof. intros H. rewrite <- (firstn_skipn n l). apply in_app_iff. auto. Qed.
Lemma in_chunks {A} (x : A) n : forall l y, In y (chunks n l) -> In x y -> In x l.
Proof.
  intros l y. unfold chunks. generalize (length l). intros f. revert l.
  induction f as [|f IH]; intros l; [destruct l; intros []|]. cbn [chunks_aux].
  destruct l as [|a l']; [intros []|]. intros [<-|H] Hx; [exact (in_firstn_list _ _ _ Hx)|].
  exact (in_skipn_list _ _ _ (IH _ H Hx)).
Qed.
Lemma in_layout_line x l : In x (layout_line l) -> x = ":"%byte \/ x = "-"%byte \/ In x l.
Proof.
  unfold layout_line. intros H. destruct (in_join _ _ _ H) as [[<-|[]]|(y & Hy & Hx)]; [auto|].
  apply in_map_iff in Hy. destruct Hy as (h & <- & Hh). unfold layout_half in Hx.
  destruct (in_join _ _ _ Hx) as [[<-|[]]|(z & Hz & Hx')]; [auto|].
  right. right. exact (in_chunks _ _ _ _ Hh (in_chunks _ _ _ _ Hz Hx')).
Qed.
Lemma no_newline s : Forall inA s -> ~ In newline (layout_line s).
Proof.
  intros Hf H. destruct (in_layout_line _ _ H) as [?|[?|Hin]]; try discriminate.
  rewrite List.Forall_forall in Hf. apply Hf, inA_facts in Hin. destruct Hin as [_ Hin]. discriminate Hin.
Qed.

Lemma split_none c s : ~ In c s -> split_on c s = [s].
Proof.
  induction s as [|x s IH]; intros H; [reflexivity|]. cbn [split_on]. rewrite IH by (cbn in H; tauto).
  destruct (Byte.eqb x c) eqn:E; [|reflexivity]. apply P_Base.eqb_eq in E. subst. cbn in H. tauto.
Qed.
Lemma split_cons c s r : ~ In c s -> split_on c (s ++ c :: r) = s :: split_on c r.
Proof.
  induction s as [|x s IH]; intros H; cbn [app split_on].
  - rewrite P_Base.eqb_refl. reflexivity.
  - rewrite IH by (cbn in H; tauto).
    destruct (Byte.eqb x c) eqn:E; [|reflexivity]. apply P_Base.eqb_eq in E. subst. cbn in H. tauto.
Qed.

Lemma join_cons (sep x : bytes) l : l <> [] -> join sep (x :: l) = x ++ sep ++ join sep l.
Proof. destruct l; [contradiction|reflexivity]. Qed.

Lemma first_lines_layout : forall n s, Forall inA s -> 24 * n <= length s ->
  first_lines (layout s) n = Ok (layout (firstn (24 * n) s)).
Proof.
  induction n as [|n IH]; intros s Hf Hn.
  - unfold first_lines. cbn [Nat.leb firstn Nat.mul]. reflexivity.
  - assert (exists a r, s = a ++ r /\ length a = 24) as (a & r & -> & Ha).
    { exists (firstn 24 s), (skipn 24 s). rewrite firstn_skipn, firstn_length. split; [reflexivity|lia]. }
    apply Forall_app in Hf. destruct Hf as [Hfa Hfr]. rewrite app_length in Hn.
    replace (firstn (24 * S n) (a ++ r)) with (a ++ firstn (24 * n) r).
    2:{ rewrite firstn_app, (firstn_all2 a) by lia. do 2 f_equal. lia. }
    assert (a <> []) as Hane by (intros ->; discriminate Ha).
    destruct r as [|c r'] eqn:Er.
    + assert (n = 0) as -> by (cbn [length] in Hn; lia). replace (24 * 0) with 0 by lia. cbn [firstn]. rewrite !app_nil_r.
      rewrite (layout_single a) by (assumption || lia). unfold first_lines.
      rewrite split_none by (apply no_newline; exact Hfa). reflexivity.
    + rewrite <- Er in *. assert (r <> []) as Hr by (rewrite Er; discriminate). clear Er.
      rewrite layout_cons by assumption. specialize (IH r Hfr ltac:(lia)). unfold first_lines in IH |- *.
      rewrite split_cons by (apply no_newline; exact Hfa). cbn [length firstn].
      change (S n <=? S (length (split_on newline (layout r)))) with (n <=? length (split_on newline (layout r))).
      destruct (n <=? length (split_on newline (layout r))) eqn:El; [|discriminate IH]. injection IH as IH. f_equal.
      destruct n as [|n].
      * replace (24 * 0) with 0 by lia. rewrite !firstn_O. cbn [join]. rewrite app_nil_r. symmetry. apply layout_single; [lia|assumption].
      * rewrite join_cons.
        2:{ apply Nat.leb_le in El. destruct (split_on newline (layout r)); [cbn in El; lia|discriminate]. }
        rewrite IH, layout_cons; [reflexivity|exact Ha|].
        destruct r as [|y r]; [contradiction|]. replace (24 * S n) with (S (23 + 24 * n)) by lia. discriminate.
Qed.

(** * Outcomes of decoding *)

(** The first [n] lines are a complete code. *)
Lemma validate_row P code : match validate P code with
  | Err (RecoveryCodeExtraData n) => 24 * n <= length (significant code) /\
      exists lines, lines_valid lines /\ length lines = n /\ base32_text (concat lines) (firstn (24 * n) (significant code))
  | Err (RecoveryCodeChecksumMismatch n) => 24 * n <= length (significant code) /\ good_start (firstn (24 * n) (significant code))
  | Err e => e = RecoveryCodeIncomplete /\ good_start (significant code)
  | _ => True
  end.
Proof.
  destruct (validate_unfold P code) as (lines & Hl & H15 & HT & ->).
  set (s := significant code) in *.
  assert (forall pre l rest, lines = pre ++ l :: rest -> nonfinal_from 0 pre -> line_valid (final_byte (length pre)) l ->
    24 * S (length pre) <= length s /\
    exists ls, lines_valid ls /\ length ls = S (length pre) /\ base32_text (concat ls) (firstn (24 * S (length pre)) s))
    as Hcomplete.
  { intros pre l rest -> Hn Hv. rewrite app_length in Hl. cbn [length] in Hl. split; [lia|].
    exists (pre ++ [l]). split; [apply lines_valid_snoc; eauto|]. split; [rewrite app_length; cbn; lia|].
    rewrite <- (firstn_skipn (24 * S (length pre)) (firstn (length s / 24 * 24) s)) in HT.
    rewrite firstn_firstn in HT. replace (Nat.min _ _) with (24 * S (length pre)) in HT by lia.
    destruct (base32_text_split _ _ _ HT) as (d1 & d2 & Ed & T1 & T2); [rewrite firstn_length; lia|].
    pose proof (base32_text_length _ _ T1) as Hd1. rewrite firstn_length in Hd1.
    replace (pre ++ l :: rest) with ((pre ++ [l]) ++ rest) in * by (rewrite <- app_assoc; reflexivity).
    rewrite concat_app in Ed. apply Forall_app in H15. destruct H15 as [H15 _].
    pose proof (length_concat_15 _ H15) as Hlc. rewrite app_length in Hlc. cbn [length] in Hlc.
    apply app_inj_1 in Ed; [|lia]. destruct Ed as [-> _]. exact T1. }
  destruct (validate_loop_outcome P 0 lines H15) as [pre rest _ _ _ _ _|Hinc|pre l E Hn Hv _|pre l rest E Hr Hn Hv|pre l rest E Hn _ _];
    cbn [bind negb Nat.add].
  - exact I.
  - split; [reflexivity|]. exists lines. split; [exact Hl|]. split; [rewrite Hl, Nat.mul_comm; exact HT|].
    exact (proj1 (nonfinal_from_spec 0 lines) Hinc).
  - destruct (length s mod 24 =? 0); cbn [negb]; [exact I|].
    assert (length s / 24 = S (length pre)) as ->.
    { rewrite <- Hl, E, app_length. cbn. lia. }
    eapply Hcomplete; eassumption.
  - eapply Hcomplete; eassumption.
  - rewrite E, app_length in Hl. cbn [length] in Hl. split; [lia|]. exists pre.
    assert (length (firstn (24 * length pre) s) = 24 * length pre) as Hlen by (rewrite firstn_length; lia).
    split; [rewrite Hlen, Nat.mul_comm, Nat.div_mul; lia|]. split; [|exact (proj1 (nonfinal_from_spec 0 pre) Hn)].
    rewrite firstn_firstn, Nat.min_id.
    rewrite <- (firstn_skipn (24 * length pre) (firstn (length s / 24 * 24) s)) in HT.
    rewrite firstn_firstn in HT. replace (Nat.min _ _) with (24 * length pre) in HT by lia.
    destruct (base32_text_split _ _ _ HT) as (d1 & d2 & Ed & T1 & T2); [rewrite firstn_length; lia|].
    pose proof (base32_text_length _ _ T1) as Hd1. rewrite Hlen in Hd1.
    rewrite E, concat_app in Ed. rewrite E in H15. apply Forall_app in H15. destruct H15 as [H15 _].
    pose proof (length_concat_15 _ H15) as Hlc. apply app_inj_1 in Ed; [|lia]. destruct Ed as [-> _]. exact T1.
Qed.

(** A complete code is accepted, unless that panics. *)
Lemma validate_complete P code lines e : code_lines code lines -> validate P code <> Err e.
Proof.
  intros Hc. pose proof (code_lines_size _ _ Hc) as Hsz. destruct Hc as [T V].
  pose proof (lines_valid_length _ V) as L15.
  destruct (lines_prefix P code lines (significant code) [] ltac:(symmetry; apply app_nil_r) L15 T) as (more & _ & Hm & _ & ->).
  destruct more; [|discriminate Hm]. rewrite app_nil_r. destruct V as [Hne V].
  assert (forall pre l rest, lines = pre ++ l :: rest ->
    line_valid (if match rest with [] => true | _ => false end then final_byte (length pre) else nonfinal_byte (length pre)) l) as Hv.
  { intros pre l rest ->. specialize (V (length pre) l). rewrite nth_error_app2, Nat.sub_diag in V by lia.
    specialize (V eq_refl). unfold virtual_byte in V. rewrite app_length in V. cbn [length] in V.
    destruct rest as [|x rest]; cbn [length] in V.
    - destruct (Nat.eqb_spec (S (length pre)) (length pre + 1)); [exact V|lia].
    - destruct (Nat.eqb_spec (S (length pre)) (length pre + S (S (length rest)))); [lia|exact V]. }
  destruct (validate_loop_outcome P 0 lines L15) as [pre rest _ _ _ _ _|Hn|pre l E Hn Hl _|pre l rest E Hr Hn Hl|pre l rest E Hn N1 N2];
    cbn [bind negb Nat.add].
  - discriminate.
  - exfalso. destruct (exists_last Hne) as (pre & l & E). specialize (Hv pre l [] E).
    rewrite E in Hn. apply nonfinal_app in Hn. destruct Hn as [_ [Hn _]].
    apply (final_neq_nonfinal (length pre)). eapply line_valid_virtual_inj; [exact Hv|exact Hn].
  - replace (length (significant code) mod 24) with 0 by lia. discriminate.
  - exfalso. specialize (Hv pre l rest E). destruct rest; [contradiction|].
    apply (final_neq_nonfinal (length pre)). eapply line_valid_virtual_inj; [exact Hl|exact Hv].
  - exfalso. specialize (Hv pre l rest E). cbn [Nat.add] in *. destruct rest; contradiction.
Qed.

Lemma decode_cases P code pp : prims_ok P -> match validate P code with
  | Ok _ => match decode P code pp with Err e => final_error e | _ => True end
  | Err e => decode P code pp = Err e
  | Panic => decode P code pp = Panic
  end.
Proof.
  intros HP. unfold decode. destruct (validate P code) as [d|e|] eqn:Ev; cbn [bind]; [|reflexivity..].
  destruct (match strip_checksums 0 d with [] => false | v :: _ => negb (Byte.eqb v VERSION) end); [cbv; auto|].
  destruct (length (strip_checksums 0 d) <? _) eqn:El; [cbv; auto|]. apply Nat.ltb_ge in El.
  change (VERSION_SIZE + SALT_SIZE + NONCE_SIZE + TAG_SIZE) with 45 in El.
  rewrite get_encryption_key_eq. cbn [bind].
  match goal with |- context [decrypt_data P (b64_encode ?n ++ [_] ++ b64_encode ?c) ?k] =>
    change (b64_encode n ++ ["_"%byte] ++ b64_encode c) with (b64_encode n ++ "_"%byte :: b64_encode c);
    rewrite (decrypt_data_parts P k n c)
  end.
  - destruct (p_open P _ _ _) as [dec|]; cbn [ok_or bind]; [|cbv; auto].
    rewrite find_end_eq. destruct (_ && _)%bool; cbn [bind]; [exact I|].
    destruct (utf8 _); [exact I|cbv; auto].
  - apply (ok_scrypt_len P HP).
  - rewrite firstn_length, skipn_length. change (VERSION_SIZE + SALT_SIZE) with 17. change NONCE_SIZE with 12. lia.
Qed.

(** * The dialogue *)

Lemma inA_significant s : Forall inA s -> significant s = s.
Proof. apply significant_id. Qed.
Lemma layout_wrong a : Forall inA a ->
  match layout a with [] => NOT_VALID | _ => ACCEPTED (layout a) end = wrong_line a.
Proof.
  intros Hf. destruct (layout a) as [|x l] eqn:E.
  - pose proof (significant_layout a Hf) as Hs. rewrite E in Hs. cbn in Hs. subst a. reflexivity.
  - destruct a as [|y a]; [discriminate E|]. unfold wrong_line. rewrite E. reflexivity.
Qed.

Section dialogue.
Context (P : prims) (HP : prims_ok P).

Definition pulled (l : list (option answer)) (t : term) : term :=
  mk_term (t_st t) (t_stdin t) (t_tty t) (t_confirms t) l (t_lines t) (t_shown t) (t_buf t) (t_err t).

Lemma asked_questions l t : pulled l t = after_questions (t_confirms t) l [] t.
Proof. unfold pulled, after_questions. rewrite app_nil_r. reflexivity. Qed.

Lemma decode_call code pp t : s_primary (t_st t) = Some pp ->
  api_res (decode_recovery_code P code) t = (match decode P code pp with Panic => CPanic | r => COk r end, t).
Proof.
  intros Hp. unfold api_res, decode_recovery_code, the_primary. unfold mbind, M_Storage.bindM, lift.
  cbn. rewrite Hp. cbn. rewrite with_st_same. destruct (decode P code pp); reflexivity.
Qed.
Lemma decode_api code pp t : s_primary (t_st t) = Some pp ->
  api (decode_recovery_code P code) t =
  (match decode P code pp with Ok v => COk v | Err e => CErr (Lib e) | Panic => CPanic end, t).
Proof.
  intros Hp. unfold api, decode_recovery_code, the_primary. unfold bindM, lift.
  cbn. rewrite Hp. cbn. rewrite with_st_same. destruct (decode P code pp); reflexivity.
Qed.

(** One answer. *)
Lemma recovery_round pp a t text rest : Forall inA a -> s_primary (t_st t) = Some pp ->
  t_asks t = Some (RESPONSE text) :: rest -> text <> [] ->
  let s := a ++ significant text in
  recovery_loop P (t_asks t) (layout a) t =
  match decode P s pp with
  | Err (RecoveryCodeExtraData n) =>
      match t_confirms t with
      | [] => (CStuck, pulled rest t)
      | YES :: l => (outcome_of (decode P (firstn (24 * n) s) pp), answered l (pulled rest t))
      | _ :: l => (CErr (Text []), answered l (pulled rest t))
      end
  | Err (RecoveryCodeChecksumMismatch n) =>
      recovery_loop P rest (layout (firstn (24 * n) s)) (complained (Text (wrong_line (firstn (24 * n) s))) (pulled rest t))
  | Err RecoveryCodeIncomplete => recovery_loop P rest (layout s) (complained (Text more_needed) (pulled rest t))
  | r => (outcome_of r, pulled rest t)
  end.
Proof.
  intros Hf Hp Ha Hne s.
  assert (Forall inA s) as Hs by (apply Forall_app; split; [exact Hf|apply significant_inA]).
  assert (significant (layout a ++ text) = s) as Hsig by (rewrite significant_app, significant_layout by exact Hf; reflexivity).
  assert (decode P (layout a ++ text) pp = decode P s pp) as Hd.
  { apply decode_significant. rewrite Hsig. symmetry. apply inA_significant, Hs. }
  assert (t_asks t = Some (RESPONSE text) :: rest -> ask t = (COk (Some (RESPONSE text)), pulled rest t)) as Hask.
  { intros E. unfold ask. rewrite E. reflexivity. }
  specialize (Hask Ha). rewrite Ha. cbn [recovery_loop]. rewrite (bind_ok _ _ _ _ _ Hask).
  assert (forall x y : C bytes, match text with [] => x | _ :: _ => y end = y) as Hm
    by (intros x y; destruct text; [contradiction|reflexivity]).
  rewrite Hm. clear Hm.
  set (t1 := pulled rest t) in *.
  assert (s_primary (t_st t1) = Some pp) as Hp1 by exact Hp.
  rewrite format_code_true, Hsig.
  pose proof (decode_call (layout a ++ text) pp t1 Hp1) as Hc. rewrite Hd in Hc.
  pose proof (decode_cases P s pp HP) as Hcases. pose proof (validate_row P s) as Hrow.
  rewrite (inA_significant s Hs) in Hrow.
  assert (forall n, 24 * n <= length s -> first_lines (layout s) n = Ok (layout (firstn (24 * n) s))) as Hfirst
    by (intros n; apply first_lines_layout; exact Hs).
  assert (forall n, Forall inA (firstn n s)) as Hfn.
  { intros n. rewrite <- (firstn_skipn n s) in Hs. apply Forall_app in Hs. exact (proj1 Hs). }
  destruct (validate P s) as [d|e|].
  - destruct (decode P s pp) as [v|e|].
    + rewrite (bind_ok _ _ _ _ _ Hc). reflexivity.
    + rewrite (bind_ok _ _ _ _ _ Hc). destruct Hcases as [->|[->|[->| ->]]]; reflexivity.
    + unfold cbind at 1. rewrite Hc. reflexivity.
  - rewrite Hcases in Hc |- *. rewrite (bind_ok _ _ _ _ _ Hc).
    destruct e; try (destruct Hrow as [Hrow _]; discriminate Hrow).
    + destruct Hrow as [Hrow _]. rewrite Hfirst by exact Hrow. erewrite (bind_ok _ _ t1) by reflexivity.
      unfold cbind, confirm. change (t_confirms t1) with (t_confirms t). destruct (t_confirms t) as [|[| |x] l]; try reflexivity.
      change (mk_term (t_st t1) _ _ l _ _ _ _ _) with (answered l t1).
      rewrite (decode_api _ pp) by exact Hp1.
      rewrite (decode_significant P (layout (firstn (24 * line) s)) (firstn (24 * line) s)); [reflexivity|].
      rewrite significant_layout by apply Hfn. symmetry. apply inA_significant, Hfn.
    + rewrite Hfirst by exact (proj1 Hrow). erewrite (bind_ok _ _ t1) by reflexivity.
      rewrite layout_wrong by apply Hfn. reflexivity.
    + reflexivity.
  - rewrite Hcases in Hc |- *. unfold cbind at 1. rewrite Hc. reflexivity.
Qed.

Lemma recovery_skip pp a t x rest : s_primary (t_st t) = Some pp -> t_asks t = x :: rest ->
  (forall text, x <> Some (RESPONSE text)) ->
  recovery_loop P (t_asks t) a t = recovery_loop P rest a (pulled rest t).
Proof.
  intros Hp Ha Hx. assert (ask t = (COk x, pulled rest t)) as Hask by (unfold ask; rewrite Ha; reflexivity).
  rewrite Ha. cbn [recovery_loop]. rewrite (bind_ok _ _ _ _ _ Hask).
  destruct x as [[| |text]|]; try reflexivity. destruct (Hx text eq_refl).
Qed.

(** Part of a complete code. *)
Lemma prefix_lines code lines a s : code_lines code lines -> significant code = a ++ s -> s <> [] ->
  length a mod 24 = 0 -> exists pre, nonfinal_from 0 pre /\ base32_text (concat pre) a /\
    length pre = length a / 24 /\ length pre < length lines.
Proof.
  intros Hc Es Hs Hm. pose proof (code_lines_size _ _ Hc) as Hsz. destruct Hc as [T V].
  pose proof (lines_valid_length _ V) as L15. rewrite Es in T.
  destruct (base32_text_split _ _ _ T) as (d1 & d2 & Ed & T1 & T2); [lia|].
  pose proof (base32_text_length _ _ T1) as Hl1. assert (length d1 mod 15 = 0) as Hm1 by lia.
  assert (lines = chunks 15 d1 ++ chunks 15 d2) as El.
  { rewrite <- (chunks_concat_15 lines) by exact L15. rewrite Ed, chunks_app_multiple by (lia || exact Hm1). reflexivity. }
  assert (length (chunks 15 d1) = length a / 24) as Hlc by (rewrite length_chunks by (lia || exact Hm1); lia).
  assert (length (chunks 15 d1) < length lines) as Hlt.
  { rewrite Hlc. rewrite Es, app_length in Hsz. destruct s; [contradiction|]. cbn [length] in Hsz. lia. }
  exists (chunks 15 d1). rewrite concat_chunks by (lia || exact Hm1). split; [|auto].
  apply lines_valid_snoc in V. destruct V as (pre & l & E & Hn & _).
  rewrite El in E, Hlt. rewrite app_length in Hlt.
  destruct (chunks 15 d2) as [|x y] eqn:Ey; [cbn in Hlt; lia|]. rewrite <- Ey in E.
  assert (chunks 15 d2 <> []) as Hne by (rewrite Ey; discriminate).
  destruct (exists_last Hne) as (y' & z & E'). rewrite E', app_assoc in E. apply app_inj_tail in E. destruct E as [<- _].
  apply nonfinal_app in Hn. exact (proj1 Hn).
Qed.

Lemma decode_bad_line code lines a s text pp : code_lines code lines ->
  (length lines <= 256 \/ p_overflow_checks P = false) -> significant code = a ++ s -> s <> [] ->
  length a mod 24 = 0 -> bad_line (length a / 24) text ->
  decode P (a ++ significant text) pp = Err (RecoveryCodeChecksumMismatch (length a / 24)).
Proof.
  intros Hc Hsm Es Hs Hm (l & t & r & Et & L15 & Tl & N1 & N2). apply decode_err.
  destruct (prefix_lines code lines a s Hc Es Hs Hm) as (pre & Hn & Tp & Hlen & Hlt).
  pose proof (base32_text_length _ _ Tl) as Htl.
  assert (significant (a ++ significant text) = (a ++ t) ++ r) as Hsig.
  { rewrite significant_app, (inA_significant (significant text)) by apply significant_inA.
    rewrite (inA_significant a), Et, <- app_assoc; [reflexivity|].
    pose proof (significant_inA code) as Hf. rewrite Es in Hf. apply Forall_app in Hf. exact (proj1 Hf). }
  destruct (lines_prefix P _ (pre ++ [l]) (a ++ t) r Hsig) as (more & _ & _ & _ & ->).
  - apply Forall_app. split; [eapply nonfinal_length; exact Hn|constructor; [exact L15|constructor]].
  - rewrite concat_app. cbn [concat]. rewrite app_nil_r. apply base32_text_app; assumption.
  - rewrite <- app_assoc, validate_skip; [|exact Hn|destruct Hsm; [left; lia|right; assumption]].
    cbn [app Nat.add]. rewrite Hlen in *.
    destruct (validate_step P (length a / 24) l more L15) as [[Hp _]|[(_ & Hv & _)|[(_ & Hv & _)|(_ & _ & _ & ->)]]];
      [|contradiction..|reflexivity].
    exfalso. unfold panics_at in Hp. apply andb_true_iff in Hp. destruct Hp as [Hp Ho]. apply Nat.leb_le in Hp.
    destruct Hsm; [lia|congruence].
Qed.

Lemma spells_more a s l ms : spells a s l ms -> s <> [].
Proof.
  induction 1 as [a text H|a text s l ms _ Hs _ _|a s text l ms _ _ _ IH|a s x l ms _ _ IH]; try assumption.
  intros E. apply app_eq_nil in E. tauto.
Qed.

(** Entering a complete code. *)
Lemma recovery_spells code lines pp a s l ms : code_lines code lines ->
  (length lines <= 256 \/ p_overflow_checks P = false) -> spells a s l ms -> significant code = a ++ s ->
  forall more t, t_asks t = l ++ more -> s_primary (t_st t) = Some pp ->
  recovery_loop P (t_asks t) (layout a) t =
  (outcome_of (decode P code pp), after_questions (t_confirms t) more ms t).
Proof.
  intros Hc Hsm Hsp. induction Hsp as [a text H|a text s l ms Hne Hs Hsp IH|a s text l ms Hm Hb Hsp IH|a s x l ms Hx Hsp IH];
    intros Es more t Ha Hp; cbn [app] in Ha.
  - assert (Forall inA a) as Hf.
    { pose proof (significant_inA code) as Hf. rewrite Es in Hf. apply Forall_app in Hf. exact (proj1 Hf). }
    rewrite (recovery_round pp a t text more Hf Hp Ha) by (intros ->; contradiction).
    assert (decode P (a ++ significant text) pp = decode P code pp) as ->.
    { rewrite <- Es. apply decode_significant, inA_significant, significant_inA. }
    pose proof (decode_cases P code pp HP) as Hd. rewrite (validate_code P code lines Hc Hsm) in Hd.
    rewrite asked_questions.
    destruct (decode P code pp) as [v|e|]; [reflexivity| |reflexivity].
    destruct Hd as [->|[->|[->| ->]]]; reflexivity.
  - assert (Forall inA a) as Hf.
    { pose proof (significant_inA code) as Hf. rewrite Es in Hf. apply Forall_app in Hf. exact (proj1 Hf). }
    rewrite (recovery_round pp a t text (l ++ more) Hf Hp Ha Hne).
    assert (decode P (a ++ significant text) pp = Err RecoveryCodeIncomplete) as ->.
    { eapply decode_truncated; [exact Hc|exact Hsm| |exact Hs].
      rewrite significant_app, (inA_significant a) by exact Hf.
      rewrite (inA_significant (significant text)) by apply significant_inA. rewrite Es, app_assoc. reflexivity. }
    set (t1 := complained _ _). assert (t_asks t1 = l ++ more) as Ha1 by reflexivity. rewrite <- Ha1.
    rewrite (IH ltac:(rewrite <- app_assoc; exact Es) more t1 Ha1 Hp).
    unfold after_questions, t1. cbn. rewrite <- app_assoc. reflexivity.
  - assert (Forall inA a) as Hf.
    { pose proof (significant_inA code) as Hf. rewrite Es in Hf. apply Forall_app in Hf. exact (proj1 Hf). }
    assert (text <> []) as Hne.
    { intros ->. destruct Hb as (l0 & t0 & r0 & E0 & L15 & T0 & _). apply base32_text_length in T0.
      destruct t0; [cbn in T0; lia|discriminate E0]. }
    rewrite (recovery_round pp a t text (l ++ more) Hf Hp Ha Hne).
    rewrite (decode_bad_line code lines a s text pp Hc Hsm Es (spells_more _ _ _ _ Hsp) Hm Hb).
    assert (firstn (24 * (length a / 24)) (a ++ significant text) = a) as ->.
    { replace (24 * (length a / 24)) with (length a + 0) by lia. rewrite firstn_app_2. cbn. apply app_nil_r. }
    set (t1 := complained _ _). assert (t_asks t1 = l ++ more) as Ha1 by reflexivity. rewrite <- Ha1.
    rewrite (IH Es more t1 Ha1 Hp).
    unfold after_questions, t1. cbn. rewrite <- app_assoc. reflexivity.
  - rewrite (recovery_skip pp (layout a) t x (l ++ more) Hp Ha Hx).
    set (t1 := pulled _ _). assert (t_asks t1 = l ++ more) as Ha1 by reflexivity. rewrite <- Ha1.
    rewrite (IH Es more t1 Ha1 Hp). reflexivity.
Qed.

(** Everything that can happen. *)
Lemma recovery_dialogue pp : forall asks a t, t_asks t = asks -> s_primary (t_st t) = Some pp -> Forall inA a ->
  let '(r, t') := recovery_loop P asks (layout a) t in
  exists used ms, asks = used ++ t_asks t' /\ t' = after_questions (t_confirms t') (t_asks t') ms t /\
  match r with
  | COk v => exists code, kept a used code /\ decode P code pp = Ok v
  | CErr (Lib e) => final_error e /\ exists code, kept a used code /\ decode P code pp = Err e
  | CErr (Text x) => x = []
  | CPanic => p_overflow_checks P = true
  | CStuck => t_asks t' = [] \/ t_confirms t' = []
  end.
Proof.
  induction asks as [|x asks IH]; intros a t Ha Hp Hf.
  - cbn [recovery_loop]. unfold cbind, ask. rewrite Ha. exists [], []. rewrite Ha. split; [reflexivity|].
    split; [|auto]. unfold after_questions. destruct t; cbn in *. subst. rewrite app_nil_r. reflexivity.
  - assert ((exists text, x = Some (RESPONSE text)) \/ forall text, x <> Some (RESPONSE text)) as [[text ->]|Hx].
    { destruct x as [[| |text]|]; [right; discriminate..|left; eauto|right; discriminate]. }
    + destruct text as [|c text].
      { cbn [recovery_loop]. unfold cbind, ask. rewrite Ha. exists [Some (RESPONSE [])], []. cbn.
        split; [reflexivity|]. split; [|reflexivity]. unfold after_questions. rewrite app_nil_r. reflexivity. }
      set (text0 := c :: text) in *.
      assert (Forall inA (a ++ significant text0)) as Hs by (apply Forall_app; split; [exact Hf|apply significant_inA]).
      rewrite <- Ha. rewrite (recovery_round pp a t text0 asks Hf Hp Ha) by discriminate. rewrite Ha. clear Ha.
      set (s := a ++ significant text0) in *.
      assert (forall n, Forall inA (firstn n s)) as Hfn.
      { intros n. rewrite <- (firstn_skipn n s) in Hs. apply Forall_app in Hs. exact (proj1 Hs). }
      assert (forall b m, (exists r, s = b ++ r) -> good_start b -> Forall inA b ->
        let '(r, t') := recovery_loop P asks (layout b) (complained m (pulled asks t)) in
        exists used ms, Some (RESPONSE text0) :: asks = used ++ t_asks t' /\
          t' = after_questions (t_confirms t') (t_asks t') ms t /\
          match r with
          | COk v => exists code, kept a used code /\ decode P code pp = Ok v
          | CErr (Lib e) => final_error e /\ exists code, kept a used code /\ decode P code pp = Err e
          | CErr (Text x) => x = []
          | CPanic => p_overflow_checks P = true
          | CStuck => t_asks t' = [] \/ t_confirms t' = []
          end) as Hgo.
      { intros b m Hb Hgood Hfb. specialize (IH b (complained m (pulled asks t)) eq_refl Hp Hfb).
        destruct (recovery_loop P asks (layout b) (complained m (pulled asks t))) as [r t'].
        destruct IH as (used & ms & E1 & E2 & E3). exists (Some (RESPONSE text0) :: used), (m :: ms).
        split; [cbn; congruence|]. split.
        { rewrite E2 at 1. unfold after_questions. cbn. rewrite <- app_assoc. reflexivity. }
        assert (forall code, kept b used code -> kept a (Some (RESPONSE text0) :: used) code) as Hk
          by (intros code; apply kept_text; [exact Hb|exact Hgood]).
        destruct r as [v|[e|y]| |]; [destruct E3 as (code & K1 & K2); eauto| |exact E3..].
        destruct E3 as (Hfe & code & K1 & K2). eauto 6. }
      assert (forall l r t', t' = answered l (pulled asks t) \/ t' = pulled asks t ->
        match r with
        | COk v => exists code, kept a [Some (RESPONSE text0)] code /\ decode P code pp = Ok v
        | CErr (Lib e) => final_error e /\ exists code, kept a [Some (RESPONSE text0)] code /\ decode P code pp = Err e
        | CErr (Text x) => x = []
        | CPanic => p_overflow_checks P = true
        | CStuck => t_asks t' = [] \/ t_confirms t' = []
        end -> let '(r, t') := (r, t') in
        exists used ms, Some (RESPONSE text0) :: asks = used ++ t_asks t' /\
          t' = after_questions (t_confirms t') (t_asks t') ms t /\
          match r with
          | COk v => exists code, kept a used code /\ decode P code pp = Ok v
          | CErr (Lib e) => final_error e /\ exists code, kept a used code /\ decode P code pp = Err e
          | CErr (Text x) => x = []
          | CPanic => p_overflow_checks P = true
          | CStuck => t_asks t' = [] \/ t_confirms t' = []
          end) as Hstop.
      { intros l r t' Ht' Hr. exists [Some (RESPONSE text0)], [].
        split; [destruct Ht' as [->| ->]; reflexivity|]. split; [|exact Hr].
        destruct Ht' as [->| ->]; unfold after_questions; cbn; rewrite app_nil_r; reflexivity. }
      assert (forall b, (exists r, s = b ++ r) -> kept a [Some (RESPONSE text0)] b) as Hk1.
      { intros b Hb. apply kept_last, Hb. }
      assert (forall n, exists r, s = firstn n s ++ r) as Hfst by (intros n; exists (skipn n s); symmetry; apply firstn_skipn).
      assert (exists r, s = s ++ r) as Hself by (exists []; symmetry; apply app_nil_r).
      pose proof (decode_cases P s pp HP) as Hd. pose proof (validate_row P s) as Hrow.
      rewrite (inA_significant s Hs) in Hrow.
      assert (forall code, decode P code pp = Panic -> p_overflow_checks P = true) as Hpanic.
      { intros code E. destruct (p_overflow_checks P) eqn:Eo; [reflexivity|]. destruct (decode_no_panic P code pp HP Eo E). }
      destruct (validate P s) as [d|e|].
      * destruct (decode P s pp) as [v|e|] eqn:Ed.
        -- apply (Hstop [] (outcome_of (Ok v))); [right; reflexivity|]. exists s. auto.
        -- assert (let '(r, t') := (outcome_of (Err e), pulled asks t) in
             exists used ms, Some (RESPONSE text0) :: asks = used ++ t_asks t' /\
               t' = after_questions (t_confirms t') (t_asks t') ms t /\
               match r with
               | COk v => exists code, kept a used code /\ decode P code pp = Ok v
               | CErr (Lib e) => final_error e /\ exists code, kept a used code /\ decode P code pp = Err e
               | CErr (Text x) => x = []
               | CPanic => p_overflow_checks P = true
               | CStuck => t_asks t' = [] \/ t_confirms t' = []
               end) as Hres.
           { apply (Hstop [] (outcome_of (Err e))); [right; reflexivity|]. split; [exact Hd|]. exists s. auto. }
           destruct Hd as [->|[->|[->| ->]]]; exact Hres.
        -- apply (Hstop [] CPanic (pulled asks t)); [right; reflexivity|]. exact (Hpanic _ Ed).
      * rewrite Hd. destruct e; try (destruct Hrow as [Hrow _]; discriminate Hrow).
        -- destruct Hrow as (_ & ls & Hlv & Hll & Htx). destruct (t_confirms t) as [|q l] eqn:Ec.
           { apply (Hstop [] CStuck (pulled asks t)); [right; reflexivity|]. right. exact Ec. }
           destruct q.
           ++ apply (Hstop l (outcome_of (decode P (firstn (24 * line) s) pp)) (answered l (pulled asks t))); [left; reflexivity|].
              assert (code_lines (firstn (24 * line) s) ls) as Hcl.
              { split; [|exact Hlv]. rewrite (inA_significant _ (Hfn _)). exact Htx. }
              pose proof (decode_cases P (firstn (24 * line) s) pp HP) as Hd2.
              destruct (validate P (firstn (24 * line) s)) as [d2|e2|] eqn:Ev.
              ** destruct (decode P (firstn (24 * line) s) pp) as [v|e2|] eqn:Ed; cbn [outcome_of].
                 --- exists (firstn (24 * line) s). auto.
                 --- split; [exact Hd2|]. exists (firstn (24 * line) s). auto.
                 --- exact (Hpanic _ Ed).
              ** destruct (validate_complete P _ _ _ Hcl Ev).
              ** rewrite Hd2. exact (Hpanic _ Hd2).
           ++ apply (Hstop l (CErr (Text [])) (answered l (pulled asks t))); [left; reflexivity|]. reflexivity.
           ++ apply (Hstop l (CErr (Text [])) (answered l (pulled asks t))); [left; reflexivity|]. reflexivity.
        -- apply Hgo; [apply Hfst|exact (proj2 Hrow)|apply Hfn].
        -- apply Hgo; [exact Hself|exact (proj2 Hrow)|exact Hs].
      * rewrite Hd. apply (Hstop [] CPanic (pulled asks t)); [right; reflexivity|]. exact (Hpanic _ Hd).
    + rewrite <- Ha. rewrite (recovery_skip pp (layout a) t x asks Hp Ha Hx). rewrite Ha.
      specialize (IH a (pulled asks t) eq_refl Hp Hf).
      destruct (recovery_loop P asks (layout a) (pulled asks t)) as [r t'].
      destruct IH as (used & ms & E1 & E2 & E3). exists (x :: used), ms.
      split; [cbn; congruence|]. split; [exact E2|].
      assert (forall code, kept a used code -> kept a (x :: used) code) as Hk by (intros code; apply kept_other; exact Hx).
      destruct r as [v|[e|y]| |]; [destruct E3 as (code & K1 & K2); eauto| |exact E3..].
      destruct E3 as (Hfe & code & K1 & K2). eauto 6.
Qed.
End dialogue.

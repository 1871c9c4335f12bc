(** Restoring passwords from a printed list. *)
From Coq Require Import ZArith ZifyBool ZifyNat ZifyN Sorted.
From stdpp Require Import gmap.
From Verif Require Import M_Base M_Base64 M_Utf8 M_Codec M_Prims M_Types M_Crypto M_Recovery M_Json M_Serde M_Storage M_Passwords
  S_Codec S_Policy S_Recovery P_Base P_Codec P_Crypto P_Lines P_Format P_Validate P_Recovery
  S_Vault M_History S_Api S_History P_Api P_Calls P_Sound P_Corollary P_Props M_Cli S_Cli P_CliBase P_CliCalls P_CliUnlock P_CliCommands P_CliMain P_CliRecovery
  P_CliList P_CliVault P_CliLives P_CliWorld P_CliProps P_CliNext S_Backup.

(** * Typing the lines *)

Definition printed_lines (code : bytes) : list bytes := map (app spaced) (split_on newline code).

Lemma spaced_significant line : significant (spaced ++ line) = significant line.
Proof. rewrite significant_app. reflexivity. Qed.
Lemma line_significant s : Forall inA s -> s <> [] -> length s <= 24 -> significant (layout_line s) = s.
Proof. intros Hf Hn Hl. rewrite <- layout_single by assumption. apply significant_layout, Hf. Qed.

Lemma type_lines : forall n s a, length s <= n -> Forall inA s -> s <> [] ->
  spells a s (one_by_one (printed_lines (layout s))) (repeat (Text more_needed) (length (printed_lines (layout s)) - 1)) /\
  significant (concat (printed_lines (layout s))) = s.
Proof.
  induction n as [|n IH]; intros s a Hl Hf Hn; [destruct s; [contradiction|cbn in Hl; lia]|].
  destruct (Nat.le_gt_cases (length s) 24) as [H24|H24].
  - rewrite layout_single by assumption. unfold printed_lines. rewrite split_none by (apply no_newline; exact Hf).
    cbn [map one_by_one repeat length Nat.sub concat]. rewrite app_nil_r, spaced_significant, line_significant by assumption. split; [|reflexivity].
    assert (s = significant (spaced ++ layout_line s)) as Es by (rewrite spaced_significant, line_significant by assumption; reflexivity).
    rewrite Es at 1. apply spells_rest. rewrite <- Es. exact Hn.
  - rewrite <- (firstn_skipn 24 s) in Hf |- *. set (u := firstn 24 s) in *. set (w := skipn 24 s) in *.
    assert (length u = 24) as Hu by (unfold u; rewrite firstn_length; lia).
    assert (length w = length s - 24) as Hw by (unfold w; rewrite skipn_length; lia).
    apply Forall_app in Hf. destruct Hf as [Hfu Hfw].
    assert (w <> []) as Hnw by (intros ->; cbn in Hw; lia).
    assert (u <> []) as Hnu by (intros ->; cbn in Hu; lia).
    rewrite layout_cons by assumption. unfold printed_lines. rewrite split_cons by (apply no_newline; exact Hfu).
    cbn [map]. fold (printed_lines (layout w)).
    assert (significant (spaced ++ layout_line u) = u) as Eu by (rewrite spaced_significant, line_significant by (assumption || lia); reflexivity).
    destruct (IH w (a ++ u) ltac:(lia) Hfw Hnw) as [H1 H2]. split.
    + assert (length (printed_lines (layout w)) <> 0) as Hz.
      { intros Hz. destruct (printed_lines (layout w)); [|discriminate Hz]. cbn in H2. congruence. }
      change (length ((spaced ++ layout_line u) :: printed_lines (layout w)) - 1) with (length (printed_lines (layout w)) - 0).
      rewrite Nat.sub_0_r. destruct (length (printed_lines (layout w))) as [|m] eqn:Em; [contradiction|].
      cbn [repeat]. cbn [one_by_one map]. fold (one_by_one (printed_lines (layout w))).
      replace (S m - 1) with m in H1 by lia. rewrite <- Eu at 1. apply spells_piece; [discriminate|exact Hnw|]. rewrite Eu. exact H1.
    + cbn [concat]. rewrite significant_app, Eu, H2. reflexivity.
Qed.

Lemma code_restores P code pp text : prims_ok P -> decode P code pp = Ok text -> restores P pp code text.
Proof.
  intros HP Hd E path sp x n r y answers ms more t Hr Hp Hy Hs Ha.
  pose proof (decode_cases P code pp HP) as Hc. destruct (validate P code) as [d|e|] eqn:Ev; [|congruence..].
  apply validate_ok_iff in Ev. destruct Ev as (lines & _ & Hl & Hsm).
  pose proof (add_recovery_goes P E path sp x n r y code lines pp answers ms more t HP Hr Hy Hl Hsm Hs Ha Hp) as H.
  cbn zeta in H. rewrite Hd in H. exact H.
Qed.

(** * Finding them in the list *)

Lemma printed_code code : flat_map (fun line => spaced ++ line ++ [newline]) (split_on newline code) = as_lines (printed_lines code).
Proof.
  unfold as_lines, printed_lines. induction (split_on newline code) as [|l ls IH]; [reflexivity|].
  cbn [flat_map map]. rewrite IH, <- !app_assoc. reflexivity.
Qed.
Lemma in_flat_map_split {A} (f : A -> bytes) x l : In x l -> exists a b, flat_map f l = a ++ f x ++ b.
Proof.
  intros H. apply in_split in H. destruct H as (l1 & l2 & ->). rewrite flat_map_app. cbn [flat_map]. eauto.
Qed.

Lemma backup P sc l s0 : sound P sc l s0 ->
  (forall x, In x (sc_sites sc) -> host x = x) ->
  let s1 := snd (run P l s0) in
  unlocked s1 = true ->
  exists pp v wrs, s_primary s1 = Some pp /\ writes_ok P l wrs s0 /\ w_mem (fst (vrun P wrs nothing l)) = Some (pp, v) /\
  (forall E path sp domain name sh vb t t', chains_match P v domain -> ready t -> t_st t = s1 ->
   process_simple P E path sp (List domain name sh true vb) t = (COk tt, t') ->
   forall x i e text, shows_site P v domain x -> shows_password P v name x i e ->
   e_secret e = SFixed text -> text <> [] -> (forall r, text <> r ++ [x00]) ->
   exists before lines after, t_shown t' = before ++ heading sh (pid_name i) (i.2) text ++ as_lines lines ++ after /\
     spells [] (significant (concat lines)) (one_by_one lines) (repeat (Text more_needed) (length lines - 1)) /\
     restores P pp (concat lines) text).
Proof.
  intros So Hh s1 Hu. destruct (list_output P sc l s0 So Hh Hu) as (pp & v & wrs & H1 & H2 & H3 & H4).
  exists pp, v, wrs. split; [exact H1|]. split; [exact H2|]. split; [exact H3|].
  intros E path sp domain name sh vb t t' Hn Hr Et Hp x i e text Hx Hi He Hne Hz.
  destruct (H4 E path sp domain name sh true vb t t' Hn Hr Et Hp) as (groups & Hg & _ & Hin & Ht & _).
  specialize (Hin x i e Hx Hi). apply in_map_iff in Hin. destruct Hin as (g & Hgx & Hgin).
  rewrite List.Forall_forall in Hg. pose proof (Hg g Hgin) as G. rewrite <- Hgx in Hi. apply (sh_items _ _ _ _ _ _ _ _ G) in Hi.
  destruct Hi as (it & Hit & Eit).
  pose proof (sh_codes _ _ _ _ _ _ _ _ G eq_refl it text Hit) as Hc. rewrite Eit in Hc. cbn [snd] in Hc. specialize (Hc He Hne Hz).
  pose proof (sh_layout _ _ _ _ _ _ _ _ G eq_refl it text Hit) as Hl. rewrite Eit in Hl. cbn [snd] in Hl. specialize (Hl He).
  pose proof (fun H => sh_values _ _ _ _ _ _ _ _ G H it Hit) as Hv. rewrite Eit in Hv. cbn [fst snd] in Hv. rewrite He in Hv.
  assert (significant (sh_code it) <> []) as Hns.
  { intros Hs. pose proof (decode_cases P (sh_code it) pp (so_prims _ _ _ _ So)) as Hd.
    destruct (validate P (sh_code it)) as [d|er|] eqn:Ev; [|congruence..]. apply validate_ok_iff in Ev. destruct Ev as (lines & _ & Hcl & _).
    pose proof (code_lines_size _ _ Hcl) as Hsz. destruct Hcl as [_ [Hne' _]]. rewrite Hs in Hsz. destruct lines; [contradiction|]. cbn in Hsz. lia. }
  destruct (type_lines _ (significant (sh_code it)) [] (le_n _) (significant_inA _) Hns) as [Hsp Hcc].
  rewrite <- Hl in Hsp, Hcc.
  assert (exists a b, t_shown t' = a ++ item_text sh true vb it ++ b) as (a & b & Hab).
  { rewrite Ht. unfold list_text. destruct groups as [|g0 gs]; [destruct Hgin|].
    destruct (in_flat_map_split (fun g => group_text sh true vb (gr_site g) (gr_aliases g) (gr_items g)) g _ Hgin) as (a & b & ->).
    unfold group_text. destruct (in_flat_map_split (item_text sh true vb) it _ Hit) as (a' & b' & ->).
    match goal with |- exists a0 b0, ?u ++ ?v ++ (?w1 ++ ?w2 ++ ?w3 ++ ?w4 ++ ?w5 ++ _ ++ _ ++ ?w6) ++ ?w7 = _ => 
      exists (u ++ v ++ w1 ++ w2 ++ w3 ++ w4 ++ w5 ++ a'), (b' ++ w7) end.
    rewrite <- !app_assoc. reflexivity. }
  assert (exists c, item_text sh true vb it = heading sh (pid_name i) (i.2) text ++ as_lines (printed_lines (sh_code it)) ++ c) as (c & Hitem).
  { unfold item_text. rewrite Eit. destruct i as [[ix n] r]. rewrite He.
    assert ((if sh then spaced ++ sh_value it ++ [newline] else []) = (if sh then spaced ++ text ++ [newline] else [])) as Ev.
    { destruct sh; [|reflexivity]. specialize (Hv eq_refl). cbn in Hv. injection Hv as ->. reflexivity. }
    rewrite Ev, printed_code. eexists. unfold heading. cbn [pid_name fst snd]. 
    change (bs "        Recovery code:") with (spaced ++ bs "Recovery code:"). change (bs "        ") with spaced.
    rewrite <- !app_assoc. reflexivity. }
  exists a, (printed_lines (sh_code it)), (c ++ b). split; [rewrite Hab, Hitem, <- !app_assoc; reflexivity|]. split; [rewrite Hcc; exact Hsp|].
  apply code_restores; [exact (so_prims _ _ _ _ So)|]. rewrite <- Hc. apply decode_significant. rewrite Hcc. reflexivity.
Qed.

(** * The password is there afterwards *)
Lemma restored P pp code text E path sp x n r y answers ms more t t' : prims_ok P -> restores P pp code text -> utf8 text = true ->
  reachable P (t_st t) -> utf8 x = true -> utf8 n = true -> utf8 r = true ->
  ready t -> s_primary (t_st t) = Some pp -> y = true \/ seems_new P (t_st t) x n r ->
  spells [] (significant code) answers ms -> t_asks t = answers ++ more ->
  process_simple P E path sp (AddStored x n r true y) t = (COk tt, t') ->
  fst (exec P (Get x n r) (t_st t')) = OText text.
Proof.
  intros HP R Ht HR Hx Hn Hr Hrd Hp Hy Hs Ha H. pose proof (R E path sp x n r y answers ms more t Hrd Hp Hy Hs Ha) as F.
  rewrite H in F. unfold finishes in F. change (t_st (after_questions (t_confirms t) more ms t)) with (t_st t) in F.
  pose proof (stored_after P HP (t_st t) HR x n r text) as Hst. destruct (exec P (SetStored x n r text) (t_st t)) as [o s]. cbn [fst snd] in Hst.
  destruct o; try discriminate F. apply pair_equal_spec in F. destruct F as [_ ->].
  exact (proj1 (Hst (conj Hx (conj Hn (conj Hr Ht))) (or_introl eq_refl))).
Qed.

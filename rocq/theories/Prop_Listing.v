(** C74: the printed list can be read back. *)
From stdpp Require Import gmap.
From Verif Require Import M_Base M_Prims M_Types M_Recovery M_Json M_Storage M_Passwords
  S_Json S_Vault M_History S_Api S_History P_Base P_Sound M_Cli S_Cli S_Listing P_Listing T_Toy T_History T_Cli.

(** * The text *)

(** Two lists with the same text have the same sites, names, revisions and kinds in the same order, and the same values,
    recovery codes, notes, aliases and rules for generating as far as these are asked for. *)
Theorem C74_readable : forall show recovery verbose l l',
  Forall (group_tidy show recovery verbose) l -> Forall (group_tidy show recovery verbose) l' ->
  list_text show recovery verbose l = list_text show recovery verbose l' ->
  map (group_view show recovery verbose) l = map (group_view show recovery verbose) l'.
Proof. exact list_readable. Qed.
Print Assumptions C74_readable.

(** * The program *)

(** Two storages, possibly made by different histories in different surroundings: if [list] prints the same for both, then
    the passwords that are listed are the same ones, and each looks the same. *)
Theorem C74_vaults : forall P sc l s0 P' sc' l' s0',
  sound P sc l s0 -> (forall x, In x (sc_sites sc) -> host x = x) -> unlocked (snd (run P l s0)) = true ->
  sound P' sc' l' s0' -> (forall x, In x (sc_sites sc') -> host x = x) -> unlocked (snd (run P' l' s0')) = true ->
  exists pp v wrs pp' v' wrs',
    writes_ok P l wrs s0 /\ w_mem (fst (vrun P wrs nothing l)) = Some (pp, v) /\
    writes_ok P' l' wrs' s0' /\ w_mem (fst (vrun P' wrs' nothing l')) = Some (pp', v') /\
    forall E path sp domain name sh rc vb t t1 E' path' sp' t' t1' text,
      chains_match P v domain -> chains_match P' v' domain -> vault_tidy sh vb v -> vault_tidy sh vb v' ->
      ready t -> t_st t = snd (run P l s0) -> ready t' -> t_st t' = snd (run P' l' s0') ->
      process_simple P E path sp (List domain name sh rc vb) t = (COk tt, t1) ->
      process_simple P' E' path' sp' (List domain name sh rc vb) t' = (COk tt, t1') ->
      t_shown t1 = t_shown t ++ text -> t_shown t1' = t_shown t' ++ text ->
      forall i e, listed_as P v domain name i e ->
      exists e', listed_as P' v' domain name i e' /\ looks_like sh vb P pp P' pp' i e e'.
Proof. exact listing_tells. Qed.
Print Assumptions C74_vaults.

(** Checking that all texts are tidy. *)
Definition check_line (s : bytes) : bool := negb (existsb (Byte.eqb newline) s).
Lemma check_line_ok s : check_line s = true -> one_line s.
Proof.
  unfold check_line, one_line. intros H Hin. apply negb_true_iff in H.
  assert (existsb (Byte.eqb newline) s = true) as H'; [|congruence].
  apply existsb_exists. exists newline. split; [exact Hin|]. apply P_Base.eqb_refl.
Qed.
Definition check_name (s : bytes) : bool := check_line s && match s with c :: _ => negb (Byte.eqb c " "%byte) | [] => true end.
Lemma check_name_ok s : check_name s = true -> name_tidy s.
Proof.
  unfold check_name. intros H. apply andb_prop in H. destruct H as [H1 H2]. split; [apply check_line_ok, H1|].
  intros w ->. discriminate H2.
Qed.
Definition check_revision (s : bytes) : bool := check_line s && negb (existsb (Byte.eqb "("%byte) s).
Lemma check_revision_ok s : check_revision s = true -> revision_tidy s.
Proof.
  unfold check_revision. intros H. apply andb_prop in H. destruct H as [H1 H2]. split; [apply check_line_ok, H1|].
  intros Hin. apply negb_true_iff in H2.
  assert (existsb (Byte.eqb "("%byte) s = true) as H'; [|congruence].
  apply existsb_exists. exists "("%byte. split; [exact Hin|]. apply P_Base.eqb_refl.
Qed.
Definition check_alias (s : bytes) : bool := check_line s && match rev s with c :: _ => negb (Byte.eqb c ")"%byte) | [] => true end.
Lemma check_alias_ok s : check_alias s = true -> alias_tidy s.
Proof.
  unfold check_alias. intros H. apply andb_prop in H. destruct H as [H1 H2]. split; [apply check_line_ok, H1|].
  intros w ->. rewrite rev_app_distr in H2. discriminate H2.
Qed.
Definition check_entry (e : entry) : bool :=
  check_line (e_notes e) && match e_secret e with SGenerated len _ => (len <=? u64_max)%N | SFixed text => check_line text end.
Lemma check_entry_ok show verbose e : check_entry e = true -> entry_tidy show verbose e.
Proof.
  unfold check_entry. intros H. apply andb_prop in H. destruct H as [H1 H2]. split; [intros _; apply check_line_ok, H1|].
  destruct (e_secret e); [apply N.leb_le, H2|intros _; apply check_line_ok, H2].
Qed.
Definition check_tidy (v : vault) : bool :=
  forallb (fun '(x, a) => check_alias x && match a with Some y => check_alias y | None => true end) (map_to_list (v_sites v)) &&
  forallb (fun '(i, e) => check_name (pid_name i) && check_revision i.2 && check_entry e) (map_to_list (v_pw v)).
Lemma check_tidy_ok show verbose v : check_tidy v = true -> vault_tidy show verbose v.
Proof.
  unfold check_tidy. intros H. apply andb_prop in H. destruct H as [H1 H2]. rewrite forallb_forall in H1, H2.
  assert (forall i e, v_pw v !! i = Some e -> (check_name (pid_name i) && check_revision i.2 && check_entry e)%bool = true) as Hp.
  { intros i e Hi. apply (H2 (i, e)), elem_of_list_In, elem_of_map_to_list, Hi. }
  constructor.
  - intros x a Hx. assert (In (x, a) (map_to_list (v_sites v))) as Hin by (apply elem_of_list_In, elem_of_map_to_list, Hx).
    specialize (H1 _ Hin). cbn in H1. apply andb_prop in H1. destruct H1 as [Hc Ha]. split; [apply check_alias_ok, Hc|].
    intros y ->. apply check_alias_ok, Ha.
  - intros i e Hi. specialize (Hp _ _ Hi). apply andb_prop in Hp. destruct Hp as [Hp _]. apply andb_prop in Hp. destruct Hp as [Hn Hr].
    split; [apply check_name_ok, Hn|apply check_revision_ok, Hr].
  - intros i e Hi. specialize (Hp _ _ Hi). apply andb_prop in Hp. destruct Hp as [_ He]. apply check_entry_ok, He.
Qed.
Lemma tidy_saved P l : (forall n, p_write P n = WriteOk) ->
  match w_mem (fst (vrun P (repeat Saved (length l)) nothing l)) with Some (_, v) => check_tidy v | None => true end = true ->
  forall wrs pp v show verbose, writes_ok P l wrs start -> w_mem (fst (vrun P wrs nothing l)) = Some (pp, v) -> vault_tidy show verbose v.
Proof.
  intros HP H wrs pp v show verbose Hw Hm. rewrite (P_Sound.saved_writes P l HP wrs start Hw) in Hm. rewrite Hm in H.
  apply check_tidy_ok, H.
Qed.

(** Two different histories with an alias, a generated and a stored password, after which everything is listed alike. *)
Definition made : list op :=
  [Reset (bs "secret"); SetGenerated (bs "a.com") (bs "n") (bs "2") 8 all_chars; SetStored (bs "a.com") (bs "m") [] (bs "p (stored)");
   SetNotes (bs "a.com") (bs "m") [] (bs "line (generated)"); SetAlias (bs "c") (bs "a.com")].
Definition made_otherwise : list op :=
  [Reset (bs "secret"); SetAlias (bs "c") (bs "a.com"); SetStored (bs "c") (bs "m") [] (bs "p (stored)");
   SetStored (bs "b") (bs "x") [] (bs "p"); SetNotes (bs "a.com") (bs "m") [] (bs "line (generated)"); Remove (bs "b") (bs "x") [];
   SetGenerated (bs "a.com") (bs "n") (bs "2") 8 all_chars].
Definition list_made (l : list op) : cres unit * bytes :=
  doing toy_release l no_typing (process_simple toy_release toy_ext [] false (List (bs "*") (bs "*") true false true)) (fun r t => (r, t_shown t)).
Example C74_vaults_example :
  (forall l, l = made \/ l = made_otherwise ->
     sound toy_release (mentioned l) l start /\ (forall x, In x (sc_sites (mentioned l)) -> host x = x) /\
     unlocked (snd (run toy_release l start)) = true /\
     (forall wrs pp v, writes_ok toy_release l wrs start -> w_mem (fst (vrun toy_release wrs nothing l)) = Some (pp, v) ->
        (forall domain, chains_match toy_release v domain) /\ vault_tidy true true v)) /\
  fst (list_made made) = COk tt /\ list_made made = list_made made_otherwise /\
  length (snd (list_made made)) = 212.
Proof.
  assert (forall l, check_sound toy_release l = true ->
    forallb (fun x => bytes_eqb (host x) x) (sc_sites (mentioned l)) = true ->
    final toy_release l start unlocked = true ->
    match w_mem (fst (vrun toy_release (repeat Saved (length l)) nothing l)) with Some (_, v) => check_chains v | None => true end = true ->
    match w_mem (fst (vrun toy_release (repeat Saved (length l)) nothing l)) with Some (_, v) => check_tidy v | None => true end = true ->
     sound toy_release (mentioned l) l start /\ (forall x, In x (sc_sites (mentioned l)) -> host x = x) /\
     unlocked (snd (run toy_release l start)) = true /\
     (forall wrs pp v, writes_ok toy_release l wrs start -> w_mem (fst (vrun toy_release wrs nothing l)) = Some (pp, v) ->
        (forall domain, chains_match toy_release v domain) /\ vault_tidy true true v)) as H.
  { intros l H1 H2 H3 H4 H5. split; [apply check_sound_ok; [apply toy_ok|exact H1]|]. split; [|split].
    - intros x Hx. rewrite forallb_forall in H2. apply bytes_eqb_eq, H2, Hx.
    - rewrite <- (final_run toy_release l start unlocked). exact H3.
    - intros wrs pp v Hw Hm. split.
      + exact (chains_saved toy_release l (fun _ => eq_refl) H4 wrs pp v Hw Hm).
      + exact (tidy_saved toy_release l (fun _ => eq_refl) H5 wrs pp v true true Hw Hm). }
  split; [|split; [|split]; vm_compute; reflexivity].
  intros l [-> | ->]; apply H; vm_compute; reflexivity.
Qed.

(** * Texts that can be mistaken *)

(** A name with a line break: one password prints like two. *)
Theorem C74_lines_refuted :
  ~ (forall P E path sp pp x n n1 n2 p t t1 t' t1',
       ready t -> t_st t = snd (run P [Reset pp; SetStored x n [] p] start) ->
       ready t' -> t_st t' = snd (run P [Reset pp; SetStored x n1 [] p; SetStored x n2 [] p] start) ->
       n1 <> n2 ->
       process_simple P E path sp (List x (bs "*") false false false) t = (COk tt, t1) ->
       process_simple P E path sp (List x (bs "*") false false false) t' = (COk tt, t1') ->
       t_shown t = t_shown t' -> t_shown t1 <> t_shown t1').
Proof.
  intros H. set (n := bs "m (stored)" ++ [newline] ++ bs "    n").
  set (l := [Reset (bs "secret"); SetStored (bs "a") n [] (bs "p")]).
  set (l' := [Reset (bs "secret"); SetStored (bs "a") (bs "m") [] (bs "p"); SetStored (bs "a") (bs "n") [] (bs "p")]).
  set (c := process_simple toy_release toy_ext [] false (List (bs "a") (bs "*") false false false)).
  set (t := typed no_typing (snd (run toy_release l start))). set (t' := typed no_typing (snd (run toy_release l' start))).
  set (text := bs "Passwords for a:" ++ [newline] ++ bs "    m (stored)" ++ [newline] ++ bs "    n (stored)" ++ [newline]).
  assert (doing toy_release l no_typing c (fun r t => (r, t_shown t)) = (COk tt, text)) as Hd by (vm_compute; reflexivity).
  assert (doing toy_release l' no_typing c (fun r t => (r, t_shown t)) = (COk tt, text)) as Hd' by (vm_compute; reflexivity).
  rewrite doing_eq in Hd, Hd'. fold t in Hd. fold t' in Hd'.
  destruct (c t) as [r t1] eqn:Ec. destruct (c t') as [r' t1'] eqn:Ec'.
  assert (r = COk tt) as -> by (exact (f_equal fst Hd)). assert (r' = COk tt) as -> by (exact (f_equal fst Hd')).
  apply (f_equal snd) in Hd, Hd'. cbn [snd] in Hd, Hd'.
  refine (H toy_release toy_ext [] false (bs "secret") (bs "a") n (bs "m") (bs "n") (bs "p") t t1 t' t1' _ _ _ _ _ Ec Ec' (@eq_trans _ _ (@nil byte) _ eq_refl eq_refl) _).
  - apply typed_ready. vm_compute. reflexivity.
  - unfold t, l, n. reflexivity.
  - apply typed_ready. vm_compute. reflexivity.
  - unfold t', l'. reflexivity.
  - discriminate.
  - rewrite Hd, Hd'. reflexivity.
Qed.
Print Assumptions C74_lines_refuted.

(** Without line breaks, a parenthesis in the revision: it may be part of the name as well. *)
Theorem C74_parentheses_refuted :
  ~ (forall P E path sp pp x n r n' r' p t t1 t' t1',
       one_line n -> one_line r -> one_line n' -> one_line r' ->
       ready t -> t_st t = snd (run P [Reset pp; SetStored x n r p] start) ->
       ready t' -> t_st t' = snd (run P [Reset pp; SetStored x n' r' p] start) ->
       process_simple P E path sp (List x (bs "*") false false false) t = (COk tt, t1) ->
       process_simple P E path sp (List x (bs "*") false false false) t' = (COk tt, t1') ->
       t_shown t = t_shown t' -> t_shown t1 = t_shown t1' -> n = n' /\ r = r').
Proof.
  intros H. set (n := bs "a (stored, revision: b"). set (r' := bs "b (stored").
  set (l := [Reset (bs "secret"); SetStored (bs "x") n [] (bs "p")]).
  set (l' := [Reset (bs "secret"); SetStored (bs "x") (bs "a") r' (bs "p")]).
  set (c := process_simple toy_release toy_ext [] false (List (bs "x") (bs "*") false false false)).
  set (t := typed no_typing (snd (run toy_release l start))). set (t' := typed no_typing (snd (run toy_release l' start))).
  set (text := bs "Passwords for x:" ++ [newline] ++ bs "    a (stored, revision: b (stored)" ++ [newline]).
  assert (doing toy_release l no_typing c (fun r t => (r, t_shown t)) = (COk tt, text)) as Hd by (vm_compute; reflexivity).
  assert (doing toy_release l' no_typing c (fun r t => (r, t_shown t)) = (COk tt, text)) as Hd' by (vm_compute; reflexivity).
  rewrite doing_eq in Hd, Hd'. fold t in Hd. fold t' in Hd'.
  destruct (c t) as [q t1] eqn:Ec. destruct (c t') as [q' t1'] eqn:Ec'.
  assert (q = COk tt) as -> by (exact (f_equal fst Hd)). assert (q' = COk tt) as -> by (exact (f_equal fst Hd')).
  apply (f_equal snd) in Hd, Hd'. cbn [snd] in Hd, Hd'.
  assert (n = bs "a" /\ [] = r') as [_ Hr]; [|discriminate Hr].
  assert (Hx := H toy_release toy_ext [] false (bs "secret") (bs "x") n [] (bs "a") r' (bs "p") t t1 t' t1').
  apply Hx; clear Hx H.
  1-4: apply check_line_ok; vm_compute; reflexivity.
  - apply typed_ready. vm_compute. reflexivity.
  - unfold t, l, n. reflexivity.
  - apply typed_ready. vm_compute. reflexivity.
  - unfold t', l', r'. reflexivity.
  - exact Ec.
  - exact Ec'.
  - transitivity (@nil byte); reflexivity.
  - rewrite Hd, Hd'. reflexivity.
Qed.
Print Assumptions C74_parentheses_refuted.

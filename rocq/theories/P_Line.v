(** More on command lines: every command can be written and typed, the order of options does not matter, what
    comes of UTF-8 is UTF-8. *)
From stdpp Require Import gmap.
From Coq Require Import ZArith ZifyBool ZifyNat ZifyN Permutation.
From Verif Require Import M_Base M_Utf8 M_Prims M_Types M_Recovery M_Json M_Storage M_Passwords M_Cli.
From Verif Require Import S_Json P_Base P_Utf8 S_Utf8 S_Trim S_Cli P_CliBase P_Trim M_Args S_Args P_Args P_Split.

(** * Writing commands *)

Definition len_of (c : command) : option N := match c with Add _ _ _ len _ _ _ _ _ => Some len | _ => None end.
Lemma write_parse_sub c text : (forall len, len_of c = Some len -> a_length text len) ->
  exists name rest, write_command c text = name :: rest /\ parse_sub name rest = Some c.
Proof.
  intros H. destruct c as [y|d n r len w u g s y|d n r c y|d n r|d n r q|d n r s|d n s r v|d a r|]; cbn [write_command].
  - eexists _, _. split; [reflexivity|]. destruct y; reflexivity.
  - eexists _, _. split; [reflexivity|]. specialize (H len eq_refl). apply length_spec in H.
    destruct w, u, g, s, y; cbv [parse_sub sub_options]; change (bytes_eqb (bs "add") (bs "set-primary")) with false;
      change (bytes_eqb (bs "add") (bs "add")) with true; cbv iota;
      (match goal with |- match ?x with _ => _ end = _ =>
         let y := eval cbv -[length_arg] in x in change x with y end); cbv iota beta;
      (match goal with |- context [distinct ?x] => change (distinct x) with true end);
      cbv [make_command]; change (bytes_eqb (bs "add") (bs "set-primary")) with false;
      change (bytes_eqb (bs "add") (bs "add")) with true; cbv iota;
      (match goal with |- context [length_arg ?x] => change x with text end); rewrite H; reflexivity.
  - eexists _, _. split; [reflexivity|]. destruct c, y; reflexivity.
  - eexists _, _. split; [reflexivity|]. reflexivity.
  - eexists _, _. split; [reflexivity|]. destruct q; reflexivity.
  - eexists _, _. split; [reflexivity|]. destruct s; reflexivity.
  - eexists _, _. split; [reflexivity|]. destruct s, r, v; reflexivity.
  - eexists _, _. split; [reflexivity|]. destruct a, r; reflexivity.
  - eexists _, _. split; reflexivity.
Qed.
Lemma write_parse c text p stdin wait : (forall len, len_of c = Some len -> a_length text len) ->
  parse_args (write_general p stdin wait ++ write_command c text) = Some (mk_inv p wait (mk_args stdin c)).
Proof.
  intros H. destruct (write_parse_sub c text H) as (name & rest & E & Hp). rewrite E.
  apply parse_args_spec. exists (write_general p stdin wait), (name :: rest),
    ((if stdin then [(bs "stdin-passwords", None)] else []) ++ (if wait then [(bs "wait", None)] else []) ++
     match p with Some x => [(bs "storage", Some x)] | None => [] end).
  apply parse_sub_spec in Hp.
  split; [reflexivity|]. split; [|split; [|split; [exact Hp|]]].
  - unfold write_general.
    assert (forall a b la lb, options_only general_table a la -> options_only general_table b lb -> options_only general_table (a ++ b) (la ++ lb)) as A.
    { intros a b la lb Ha Hb. induction Ha as [|ws l ws' l' Ho Ha IH]; [exact Hb|]. rewrite <- !app_assoc. constructor; assumption. }
    assert (forall a la, option_words general_table a la -> options_only general_table a la) as B.
    { intros a la Ha. rewrite <- (app_nil_r a), <- (app_nil_r la). constructor; [exact Ha|constructor]. }
    apply A; [|apply A].
    + destruct stdin; [|constructor]. apply B. apply (name_alone general_table None (bs "stdin-passwords")). cbn. tauto.
    + destruct wait; [|constructor]. apply B. apply (name_alone general_table None (bs "wait")). cbn. tauto.
    + destruct p as [x|]; [|constructor]. apply B. apply (name_equals general_table (Some "c"%byte) (bs "storage") x). cbn. tauto.
  - destruct stdin, wait, p; apply distinct_spec; reflexivity.
  - split; [|split; apply flag_spec; destruct stdin, wait, p; reflexivity].
    destruct p; [|destruct stdin, wait; cbn; intuition discriminate].
    apply in_or_app. right. apply in_or_app. right. left. reflexivity.
Qed.

(** * The order of options does not matter *)

Lemma on_perm l l' n b : Permutation l l' -> on l n b -> on l' n b.
Proof.
  unfold on. intros H Ho. rewrite Ho. split; intros Hi; eapply Permutation_in; try exact Hi;
    [apply Permutation_map; exact H|apply Permutation_map; symmetry; exact H].
Qed.
Lemma set_to_perm l l' n d v : Permutation l l' -> set_to l n d v -> set_to l' n d v.
Proof.
  unfold set_to. intros H [Hi|[Hi ->]]; [left; eapply Permutation_in; eassumption|right; split; [|reflexivity]].
  intros C. apply Hi. eapply Permutation_in; [|exact C]. apply Permutation_map. symmetry. exact H.
Qed.
Lemma means_perm l l' name ps c : Permutation l l' -> means l name ps c -> means l' name ps c.
Proof.
  intros H M. destruct M as [y H1|d n r text len w u g s y H1 H2 H3 H4 H5 H6 H7 H8|d n r x y H1 H2 H3|d n r H1|d n r q H1 H2
      |d n r s H1 H2|ps d n s r v H1 H2 H3 H4|ps d a r H1 H2|]; econstructor;
    try (eapply on_perm; eassumption); try (eapply set_to_perm; eassumption); assumption.
Qed.
Lemma order_irrelevant name table rest rest' l l' ps c : In (name, table) tables ->
  arranged table rest l ps -> arranged table rest' l' ps -> Permutation l l' ->
  parse_sub name rest = Some c -> parse_sub name rest' = Some c.
Proof.
  intros Ht Ha Ha' Hp H. apply parse_sub_spec in H. destruct H as (name' & table' & r & l0 & ps0 & [= <- <-] & Ht' & Ha0 & Hd & Hm).
  assert (table' = table) as ->.
  { assert (sub_options name = Some (map as_opt table)) as E by (apply sub_options_spec; exists table; auto).
    assert (sub_options name = Some (map as_opt table')) as E' by (apply sub_options_spec; exists table'; auto).
    rewrite E in E'. injection E' as E'. clear -E'. revert table' E'. induction table as [|[a b c] r IH]; intros [|[a' b' c'] r'] E;
      try discriminate E; [reflexivity|]. injection E as <- <- <- E. f_equal. apply IH. exact E. }
  pose proof (scan_complete table (good_tables _ _ Ht) _ _ _ Ha) as S1.
  pose proof (scan_complete table (good_tables _ _ Ht) _ _ _ Ha0) as S2. rewrite S1 in S2. injection S2 as <- <-.
  apply parse_sub_spec. exists name, table, rest', l', ps. split; [reflexivity|]. split; [exact Ht|]. split; [exact Ha'|].
  split; [|exact (means_perm _ _ _ _ _ Hp Hm)]. eapply Permutation_NoDup; [|exact Hd]. apply Permutation_map. exact Hp.
Qed.

(** * Typing any word *)

Lemma quoted_from w : forall pre, ~ In "'"%byte pre -> typed_word (bs "'" ++ pre ++ quoted_text w ++ bs "'") (pre ++ w).
Proof.
  induction w as [|c r IH]; intros pre Hp.
  - rewrite app_nil_r. apply word_one. apply piece_single. exact Hp.
  - cbn [quoted_text]. destruct (Byte.eqb c "'"%byte) eqn:E.
    + apply Byte.byte_dec_bl in E. subst c.
      assert (bs "'" ++ pre ++ (bs "'\''" ++ quoted_text r) ++ bs "'" =
              (bs "'" ++ pre ++ bs "'") ++ (bs "\" ++ utf8_char 39) ++ (bs "'" ++ [] ++ quoted_text r ++ bs "'")) as ->
        by (rewrite <- !app_assoc; reflexivity).
      apply word_more; [apply piece_single; exact Hp|].
      change ("'"%byte :: r) with (utf8_char 39 ++ [] ++ r). apply word_more; [apply piece_escape; [left; reflexivity|discriminate]|].
      apply IH. intros [].
    + replace (pre ++ c :: r) with ((pre ++ [c]) ++ r) by (rewrite <- app_assoc; reflexivity).
      replace (bs "'" ++ pre ++ ([c] ++ quoted_text r) ++ bs "'") with (bs "'" ++ (pre ++ [c]) ++ quoted_text r ++ bs "'")
        by (rewrite <- !app_assoc; reflexivity).
      apply IH. intros Hi. apply in_app_or in Hi. destruct Hi as [Hi|[-> |[]]]; [contradiction|discriminate E].
Qed.
Lemma quoted_word w : typed_word (quoted w) w.
Proof. exact (quoted_from w [] (fun H => H)). Qed.
Lemma quoted_line ws : typed_line (join (bs " ") (map quoted ws)) ws.
Proof.
  assert (forall ws, typed_line (concat (map (fun w => bs " " ++ quoted w) ws)) ws) as H.
  { clear ws. induction ws as [|w ws IH]; [apply line_end; exists []; split; [reflexivity|constructor]|].
    cbn [map concat]. rewrite <- app_assoc. apply (line_word (bs " ") (quoted w) w).
    - exists [32%N]. split; [reflexivity|]. constructor; [vm_compute; reflexivity|constructor].
    - apply quoted_word.
    - destruct ws as [|w' ws]; [left; reflexivity|]. right. exists 32%N, (quoted w' ++ concat (map (fun w => bs " " ++ quoted w) ws)).
      split; [vm_compute; reflexivity|reflexivity].
    - exact IH. }
  destruct ws as [|w ws]; [exact (H [])|].
  replace (join (bs " ") (map quoted (w :: ws))) with ([] ++ quoted w ++ concat (map (fun w => bs " " ++ quoted w) ws)).
  - apply line_word; [exists []; split; [reflexivity|constructor]|apply quoted_word| |apply H].
    destruct ws as [|w' ws]; [left; reflexivity|]. right. exists 32%N, (quoted w' ++ concat (map (fun w => bs " " ++ quoted w) ws)).
    split; [vm_compute; reflexivity|reflexivity].
  - cbn [app]. clear H. revert w. induction ws as [|w' ws IH]; intros w; cbn [map concat join]; [apply app_nil_r|].
    rewrite <- app_assoc. rewrite IH. reflexivity.
Qed.

(** * Lines in the shell *)

Lemma parse_line_command line words c : typed_line line words ->
  parse_line line = SCommand c <-> exists p stdin wait, command_line words p stdin wait c.
Proof.
  intros Hl. apply split_line in Hl. unfold parse_line. rewrite Hl. split.
  - destruct (scan_top TOP_OPTIONS None words) as [[l [name rest]]|] eqn:Es; [|discriminate].
    destruct (distinct (map fst l)) eqn:Ed; [|discriminate].
    destruct (bytes_eqb name (bs "exit") || bytes_eqb name (bs "lock")).
    { destruct (scan [] None rest) as [[? [|? ?]]|]; try discriminate. destruct (bytes_eqb name (bs "exit")); discriminate. }
    destruct (parse_sub name rest) as [c'|] eqn:Ec; [|discriminate]. intros [= <-].
    eexists _, _, _. apply parse_args_spec. unfold parse_args. rewrite Es, Ed, Ec. reflexivity.
  - intros (p & stdin & wait & H). apply parse_args_spec in H. unfold parse_args in H.
    destruct (scan_top TOP_OPTIONS None words) as [[l [name rest]]|] eqn:Es; [|discriminate].
    destruct (distinct (map fst l)) eqn:Ed; [|discriminate].
    destruct (parse_sub name rest) as [c'|] eqn:Ec; [|discriminate]. injection H as _ _ _ <-.
    destruct (bytes_eqb name (bs "exit") || bytes_eqb name (bs "lock")) eqn:En; [|reflexivity]. exfalso.
    apply parse_sub_spec in Ec. destruct Ec as (n' & t' & r' & l' & ps & [= <- <-] & Ht & _).
    assert (forallb (fun p => negb (bytes_eqb (fst p) (bs "exit") || bytes_eqb (fst p) (bs "lock"))) tables = true) as T by reflexivity.
    apply (proj1 (forallb_forall _ _) T) in Ht. cbn [fst] in Ht. rewrite En in Ht. discriminate Ht.
Qed.

Lemma scan_nothing rest l ps : scan [] None rest = Some (l, ps) -> l = [] /\ (ps = [] -> rest = [] \/ rest = [bs "--"]).
Proof.
  revert l ps. induction rest as [|w rest IH]; intros l ps; cbn [scan]; [intros [= <- <-]; auto|].
  destruct (plain w) eqn:Ep.
  - destruct (scan [] None rest) as [[l' ps']|] eqn:Es; [|discriminate]. intros [= <- <-]. split; [apply (IH l' ps' eq_refl)|discriminate].
  - destruct (bytes_eqb w (bs "--")) eqn:Ed.
    + apply bytes_eqb_eq in Ed. subst. intros [= <- <-]. split; [reflexivity|]. intros ->. auto.
    + assert (dash_word [] w = DBad) as ->; [|discriminate]. pose proof Ep as Ew. apply not_plain in Ew. destruct Ew as (c & r & ->).
      cbn [dash_word]. destruct c; try reflexivity. unfold long_word. destruct (split_eq r). reflexivity.
Qed.
Lemma parse_line_bare line words name r : (name, r) = (bs "exit", SExit) \/ (name, r) = (bs "lock", SLock) -> typed_line line words ->
  parse_line line = r <-> bare_command words name.
Proof.
  intros Hn Hl. apply split_line in Hl. unfold parse_line. rewrite Hl. change TOP_OPTIONS with (map as_opt general_table).
  assert (no_option name) as Hp by (apply plain_spec; destruct Hn as [Hn|Hn]; inversion Hn; subst; reflexivity).
  assert (bytes_eqb name (bs "exit") || bytes_eqb name (bs "lock") = true) as Hb
    by (destruct Hn as [Hn|Hn]; inversion Hn; subst; reflexivity).
  assert ((if bytes_eqb name (bs "exit") then SExit else SLock) = r) as Hr
    by (destruct Hn as [Hn|Hn]; inversion Hn; subst; reflexivity).
  split.
  - destruct (scan_top (map as_opt general_table) None words) as [[l [name' rest]]|] eqn:Es;
      [|destruct Hn as [Hn|Hn]; inversion Hn; subst; discriminate].
    apply scan_top_spec in Es; [|exact good_general]. destruct Es as (ws & -> & Ho & _).
    destruct (distinct (map fst l)) eqn:Ed; [|destruct Hn as [Hn|Hn]; inversion Hn; subst; discriminate]. apply distinct_spec in Ed.
    destruct (bytes_eqb name' (bs "exit") || bytes_eqb name' (bs "lock")) eqn:En;
      [|destruct (parse_sub name' rest); destruct Hn as [Hn|Hn]; inversion Hn; subst; discriminate].
    destruct (scan [] None rest) as [[l' [|? ?]]|] eqn:Es; try (destruct Hn as [Hn|Hn]; inversion Hn; subst; discriminate).
    intros H. apply scan_nothing in Es. destruct Es as [-> Es]. specialize (Es eq_refl).
    assert (name' = name) as ->.
    { destruct (bytes_eqb name' (bs "exit")) eqn:E1.
      - apply bytes_eqb_eq in E1. subst. destruct Hn as [Hn|Hn]; inversion Hn; subst; [reflexivity|discriminate H].
      - apply bytes_eqb_eq in En. subst. destruct Hn as [Hn|Hn]; inversion Hn; subst; [discriminate H|reflexivity]. }
    exists ws, rest, l. auto.
  - intros (ws & rest & l & -> & Ho & Hd & Hrest).
    rewrite (scan_top_complete _ good_general _ _ _ _ Ho Hp), (proj2 (distinct_spec _) Hd), Hb.
    destruct Hrest as [-> | ->]; exact Hr.
Qed.

(** * UTF-8 *)

Definition texts (l : list bytes) : Prop := Forall (fun w => utf8 w = true) l.
Definition ascii_table (t : list option_entry) : bool :=
  forallb (fun e => utf8 (e_name e) && match e_letter e with Some c => utf8 [c] | None => true end) t.
Lemma ascii_in t e : ascii_table t = true -> In e t -> utf8 (e_name e) = true /\ forall c, e_letter e = Some c -> utf8 [c] = true.
Proof.
  intros H Hi. unfold ascii_table in H. apply (proj1 (forallb_forall _ _) H) in Hi. apply andb_true_iff in Hi. destruct Hi as [H1 H2].
  split; [exact H1|]. intros c Hc. rewrite Hc in H2. exact H2.
Qed.
Lemma letters_utf8 t w l : ascii_table t = true -> letters t w l -> utf8 w = true.
Proof.
  intros H. induction 1 as [|c n w l Hi Hl IH]; [reflexivity|]. change (c :: w) with ([c] ++ w).
  apply utf8_concat; [|exact IH]. apply (ascii_in t _ H Hi). reflexivity.
Qed.
Definition good_values (l : list (bytes * option bytes)) : Prop := forall n v, In (n, Some v) l -> utf8 v = true.
Lemma letters_values t w l : letters t w l -> good_values l.
Proof. induction 1 as [|c n w l Hi Hl IH]; intros m v; [intros []|intros [[=]|H]; eapply IH; exact H]. Qed.
Lemma good_values_app a b : good_values a -> good_values b -> good_values (a ++ b).
Proof. intros Ha Hb n v Hi. apply in_app_or in Hi. destruct Hi; [eapply Ha|eapply Hb]; eassumption. Qed.
Lemma good_values_one n v : utf8 v = true -> good_values [(n, Some v)].
Proof. intros H m u [[= <- <-]|[]]. exact H. Qed.
Lemma option_words_utf8 t ws l : ascii_table t = true -> option_words t ws l -> texts ws -> good_values l.
Proof.
  intros A H T.
  destruct H as [x n Hi|x n v Hi|x n v Hi Hv|w l Hl Hw|w l c n v Hl Hi|w l c n x v Hl Hi Hx|w l c n v Hl Hi Hv].
  - intros m u [[=]|[]].
  - apply good_values_one. pose proof (List.Forall_inv T) as T1. cbv beta in T1. rewrite utf8_app in T1 by reflexivity.
    rewrite utf8_app in T1 by apply (ascii_in t _ A Hi). rewrite utf8_app in T1 by reflexivity. exact T1.
  - apply good_values_one. inversion T as [|? ? _ T1]; subst. inversion T1; subst. assumption.
  - eapply letters_values; exact Hl.
  - apply good_values_app; [eapply letters_values; exact Hl|]. apply good_values_one.
    pose proof (List.Forall_inv T) as T1. cbv beta in T1. rewrite utf8_app in T1 by reflexivity.
    rewrite utf8_app in T1 by (eapply letters_utf8; eassumption).
    rewrite utf8_app in T1 by (apply (ascii_in t _ A Hi); reflexivity). rewrite utf8_app in T1 by reflexivity. exact T1.
  - apply good_values_app; [eapply letters_values; exact Hl|]. apply good_values_one.
    pose proof (List.Forall_inv T) as T1. cbv beta in T1. rewrite utf8_app in T1 by reflexivity.
    rewrite utf8_app in T1 by (eapply letters_utf8; eassumption).
    rewrite utf8_app in T1 by (apply (ascii_in t _ A Hi); reflexivity). exact T1.
  - apply good_values_app; [eapply letters_values; exact Hl|]. apply good_values_one.
    inversion T as [|? ? _ T1]; subst. inversion T1; subst. assumption.
Qed.
Lemma arranged_utf8 t ws l ps : ascii_table t = true -> arranged t ws l ps -> texts ws -> good_values l /\ texts ps.
Proof.
  intros A. induction 1 as [|w ws l ps Hw H IH|ws l ws' l' ps Ho H IH|ps]; intros T.
  - split; [intros ? ? []|constructor].
  - inversion T as [|? ? T1 T2]; subst. destruct (IH T2) as [H1 H2]. split; [exact H1|]. constructor; assumption.
  - apply List.Forall_app in T. destruct T as [T1 T2]. destruct (IH T2) as [H1 H2]. split; [|exact H2].
    apply good_values_app; [eapply option_words_utf8; eassumption|exact H1].
  - inversion T; subst. split; [intros ? ? []|assumption].
Qed.
Lemma tables_ascii name t : In (name, t) tables -> ascii_table t = true.
Proof.
  intros H. assert (forallb (fun p => ascii_table (snd p)) tables = true) as T by reflexivity.
  exact (proj1 (forallb_forall _ _) T (name, t) H).
Qed.
Lemma set_to_utf8 l n d v : good_values l -> utf8 d = true -> set_to l n d v -> utf8 v = true.
Proof. intros G Hd [H|[_ ->]]; [eapply G; exact H|exact Hd]. Qed.
Lemma two_texts a b : texts [a; b] -> utf8 a = true /\ utf8 b = true.
Proof. intros H. split; [exact (List.Forall_inv H)|exact (List.Forall_inv (List.Forall_inv_tail H))]. Qed.
Lemma subcommand_valid words c : texts words -> subcommand words c -> command_valid c.
Proof.
  intros T (name & t & rest & l & ps & -> & Ht & Ha & Hd & M).
  inversion T as [|? ? _ T']; subst. destruct (arranged_utf8 _ _ _ _ (tables_ascii _ _ Ht) Ha T') as [G P].
  destruct M as [y H1|d n r text len w u g s y H1 H2 H3 H4 H5 H6 H7 H8|d n r x y H1 H2 H3|d n r H1|d n r q H1 H2
      |d n r s H1 H2|ps d n s r v H1 H2 H3 H4|ps d a r H1 H2|]; cbn [command_valid]; try exact I;
    try (match goal with H : set_to _ (bs "revision") _ _ |- _ => apply (set_to_utf8 l (bs "revision") (bs "1") _ G eq_refl) in H end).
  - destruct (two_texts _ _ P). split; [assumption|]. split; [assumption|]. split; [assumption|]. exists text. apply length_spec. exact H3.
  - destruct (two_texts _ _ P). auto.
  - destruct (two_texts _ _ P). auto.
  - destruct (two_texts _ _ P). auto.
  - destruct (two_texts _ _ P). auto.
  - destruct H4 as [(-> & -> & ->)|[(-> & ->)| ->]].
    + split; reflexivity.
    + split; [exact (List.Forall_inv P)|reflexivity].
    + exact (two_texts _ _ P).
  - subst ps. split; [exact (List.Forall_inv P)|]. destruct a; [|exact I]. apply (two_texts _ _ P).
Qed.

Lemma span_double_utf8 n : forall s p w rest, length s <= n -> span_double s = Some (w, rest) -> utf8 (p ++ s) = true ->
  utf8 (p ++ w) = true /\ utf8 rest = true.
Proof.
  induction n as [|n IH]; intros s p w rest Hn; (destruct s as [|c r]; [discriminate|]); cbn in Hn; [lia|]. cbn [span_double].
  destruct (Byte.eqb c """"%byte) eqn:E1.
  - apply Byte.byte_dec_bl in E1. subst. intros [= <- <-] H. rewrite app_nil_r. exact (cut_special _ _ _ H eq_refl).
  - destruct (Byte.eqb c "\"%byte) eqn:E2.
    + apply Byte.byte_dec_bl in E2. subst. destruct r as [|x r']; [discriminate|]. cbn in Hn. destruct (Byte.eqb x newline); [discriminate|].
      destruct (span_double r') as [[a b]|] eqn:E; [|discriminate].
      destruct (existsb (Byte.eqb x) (bs "$`""\")) eqn:Ex; intros [= <- <-] H.
      * apply (IH r' (p ++ [x])) in E; [|lia|].
        -- rewrite <- app_assoc in E. exact E.
        -- destruct (cut_special _ _ _ H eq_refl) as [H1 H2]. rewrite <- app_assoc. apply utf8_concat; assumption.
      * apply (IH r' (p ++ ["\"%byte; x])) in E; [|lia|].
        -- rewrite <- app_assoc in E. exact E.
        -- rewrite <- app_assoc. exact H.
    + destruct (span_double r) as [[a b]|] eqn:E; [|discriminate]. intros [= <- <-] H.
      apply (IH r (p ++ [c])) in E; [|lia|rewrite <- app_assoc; exact H]. rewrite <- app_assoc in E. exact E.
Qed.
Lemma split_utf8_fuel f : forall field s ws, split_words f field s = Some ws -> utf8 (field ++ s) = true ->
  (field = [] \/ no_white s) -> texts ws.
Proof.
  induction f as [|f IH]; intros field s ws; [discriminate|]. rewrite split_words_S. unfold pieces. intros H Hu Hw.
  assert (utf8 (field ++ trim_start s) = true) as Ht.
  { destruct Hw as [-> |Hw]; [|rewrite trim_start_none by exact Hw; exact Hu].
    destruct (trim_start_spec s) as (a & E & Sa & _). cbn [app] in *. rewrite E, utf8_app in Hu by (apply spaces_utf8; exact Sa). exact Hu. }
  destruct (trim_start s) as [|c r]; [injection H as <-; constructor|]. clear Hu Hw.
  assert (forall field rest, match rest with
    | [] => Some [field]
    | _ => match strip_any whitespace rest with
           | Some rest' => match split_words f [] rest' with Some l => Some (field :: l) | None => None end
           | None => split_words f field rest end end = Some ws -> utf8 (field ++ rest) = true -> texts ws) as A.
  { clear -IH. intros field rest H Hu. destruct rest as [|x rest].
    - injection H as <-. rewrite app_nil_r in Hu. constructor; [exact Hu|constructor].
    - destruct (strip_any whitespace (x :: rest)) as [rest'|] eqn:E.
      + destruct (split_words f [] rest') as [l|] eqn:El; [|discriminate]. injection H as <-.
        apply strip_any_some in E. destruct E as (w & Hw & E). rewrite E in Hu.
        apply whitespace_utf8 in Hw. destruct Hw as (Hw & _ & d & q & -> & Hd).
        pose proof (utf8_cut d (q ++ rest') Hd field Hu) as Hf. constructor; [exact Hf|].
        eapply IH; [exact El| |left; reflexivity]. rewrite utf8_app in Hu by exact Hf. rewrite utf8_app in Hu by exact Hw. exact Hu.
      + eapply IH; [exact H|exact Hu|right; exact E]. }
  destruct (Byte.eqb c "'"%byte) eqn:E1.
  { apply Byte.byte_dec_bl in E1. subst. destruct (cut_special _ _ _ Ht eq_refl) as [H1 H2].
    destruct (span_single r) as [[w rest]|] eqn:E; [|discriminate]. apply span_single_spec in E. destruct E as [_ ->].
    destruct (cut_special _ _ _ H2 eq_refl) as [H3 H4]. apply (A _ _ H). rewrite <- app_assoc. repeat apply utf8_concat; assumption. }
  destruct (Byte.eqb c """"%byte) eqn:E2.
  { apply Byte.byte_dec_bl in E2. subst. destruct (cut_special _ _ _ Ht eq_refl) as [H1 H2].
    destruct (span_double r) as [[w rest]|] eqn:E; [|discriminate].
    apply (span_double_utf8 (length r) r []) in E; [|lia|exact H2]. destruct E as [H3 H4].
    apply (A _ _ H). rewrite <- app_assoc. repeat apply utf8_concat; assumption. }
  destruct (Byte.eqb c "\"%byte) eqn:E3.
  { apply Byte.byte_dec_bl in E3. subst. destruct (cut_special _ _ _ Ht eq_refl) as [H1 H2]. destruct r as [|x r'].
    - apply (A _ [] H). rewrite app_nil_r. apply utf8_concat; [exact H1|reflexivity].
    - destruct (Byte.eqb x newline).
      + apply (A (field ++ ["\"%byte]) (x :: r') H). rewrite <- app_assoc. exact Ht.
      + apply (A _ _ H). rewrite <- app_assoc. apply utf8_concat; assumption. }
  destruct (span_plain (c :: r)) as [w rest] eqn:E. apply span_plain_spec in E. rewrite E in Ht.
  apply (A _ _ H). rewrite <- app_assoc. exact Ht.
Qed.
Lemma split_utf8 s ws : utf8 s = true -> split s = Some ws -> texts ws.
Proof. intros Hu H. eapply split_utf8_fuel; [exact H|exact Hu|left; reflexivity]. Qed.

Lemma shell_externals_valid qr : externals_valid (shell_externals qr).
Proof.
  intros line c. cbn [shell_externals e_parse]. destruct (utf8 line) eqn:Hu; [|discriminate]. unfold parse_line.
  destruct (split line) as [words|] eqn:Es; [|discriminate]. pose proof (split_utf8 _ _ Hu Es) as T.
  destruct (scan_top TOP_OPTIONS None words) as [[l [name rest]]|] eqn:Et; [|discriminate].
  change TOP_OPTIONS with (map as_opt general_table) in Et. apply scan_top_spec in Et; [|exact good_general].
  destruct Et as (ws & -> & _ & _). destruct (distinct (map fst l)); [|discriminate].
  destruct (bytes_eqb name (bs "exit") || bytes_eqb name (bs "lock")).
  { destruct (scan [] None rest) as [[? [|? ?]]|]; try discriminate. destruct (bytes_eqb name (bs "exit")); discriminate. }
  destruct (parse_sub name rest) as [c'|] eqn:Ec; [|discriminate]. intros [= <-].
  apply parse_sub_spec in Ec. eapply subcommand_valid; [|exact Ec]. apply List.Forall_app in T. apply T.
Qed.
Lemma command_line_valid words p stdin wait c : texts words -> command_line words p stdin wait c ->
  command_valid c /\ match p with Some x => utf8 x = true | None => True end.
Proof.
  intros T (ws & rest & l & -> & Ho & Hd & Hs & Hp & _). apply List.Forall_app in T. destruct T as [T1 T2].
  split; [eapply subcommand_valid; eassumption|]. destruct p as [x|]; [|exact I].
  assert (good_values l) as G; [|eapply G; exact Hp]. clear -Ho T1.
  induction Ho as [|ws l ws' l' H1 H2 IH]; [intros ? ? []|]. apply List.Forall_app in T1. destruct T1 as [T1 T2].
  apply good_values_app; [|apply IH; exact T2]. eapply option_words_utf8; [|exact H1|exact T1]. reflexivity.
Qed.

(** Command lines are understood as described in [S_Args]. *)
From stdpp Require Import gmap.
From Coq Require Import Lia.
From Verif Require Import M_Base M_Utf8 M_Prims M_Types M_Recovery M_Json M_Storage M_Passwords M_Cli.
From Verif Require Import S_Json P_Base P_Json M_Args S_Args.

Definition as_opt (e : option_entry) : opt := mk_opt (e_letter e) (e_name e) (e_value e).

Record good (table : list option_entry) : Prop := {
  g_name : forall a b, In a table -> In b table -> e_name a = e_name b -> a = b;
  g_letter : forall a b c, In a table -> In b table -> e_letter a = Some c -> e_letter b = Some c -> a = b;
  g_eq : forall a, In a table -> ~ In "="%byte (e_name a);
  g_empty : forall a, In a table -> e_name a <> [];
  g_dash : forall a, In a table -> e_letter a <> Some "-"%byte }.

Lemma plain_spec w : plain w = true <-> no_option w.
Proof.
  unfold no_option. split.
  - intros H c r ->. discriminate H.
  - intros H. destruct w as [|c [|d r]]; [reflexivity| |].
    + destruct c; reflexivity.
    + destruct (Byte.eqb c "-"%byte) eqn:E.
      * apply Byte.byte_dec_bl in E. subst. exfalso. apply (H d r). reflexivity.
      * destruct c; try reflexivity. discriminate E.
Qed.
Lemma not_plain w : plain w = false -> exists c r, w = "-"%byte :: c :: r.
Proof.
  intros H. destruct w as [|c [|d r]]; [discriminate H| |].
  - destruct c; discriminate H.
  - exists d, r. destruct c; try discriminate H. reflexivity.
Qed.

Section table.
Context (table : list option_entry) (G : good table).
Let opts := map as_opt table.

Lemma find_long_some n o : find_long opts n = Some o -> exists e, In e table /\ o = as_opt e /\ e_name e = n.
Proof.
  unfold opts. clear G. induction table as [|e l IH]; cbn; [discriminate|].
  destruct (bytes_eqb (e_name e) n) eqn:E.
  - intros [= <-]. apply bytes_eqb_eq in E. exists e. auto.
  - intros H. destruct (IH H) as (e' & H1 & H2). exists e'. auto.
Qed.
Lemma find_long_in e : In e table -> find_long opts (e_name e) = Some (as_opt e).
Proof.
  intros H. destruct (find_long opts (e_name e)) as [o|] eqn:E.
  - apply find_long_some in E. destruct E as (e' & H1 & -> & H2). f_equal. f_equal. symmetry. eapply g_name; eauto.
  - exfalso. revert E. unfold opts. clear -H. induction table as [|x l IH]; [inversion H|]. cbn.
    destruct H as [-> | H].
    + rewrite (proj2 (bytes_eqb_eq _ _) eq_refl). discriminate.
    + destruct (bytes_eqb (e_name x) (e_name e)); [discriminate|auto].
Qed.
Lemma find_short_some c o : find_short opts c = Some o -> exists e, In e table /\ o = as_opt e /\ e_letter e = Some c.
Proof.
  unfold opts. clear G. induction table as [|e l IH]; cbn; [discriminate|].
  destruct (e_letter e) as [x|] eqn:Ex.
  - destruct (Byte.eqb x c) eqn:E.
    + intros [= <-]. apply Byte.byte_dec_bl in E. subst. exists e. auto.
    + intros H. destruct (IH H) as (e' & H1 & H2). exists e'. auto.
  - intros H. destruct (IH H) as (e' & H1 & H2). exists e'. auto.
Qed.
Lemma find_short_in e c : In e table -> e_letter e = Some c -> find_short opts c = Some (as_opt e).
Proof.
  intros H Hc. destruct (find_short opts c) as [o|] eqn:E.
  - apply find_short_some in E. destruct E as (e' & H1 & -> & H2). f_equal. f_equal. eapply g_letter; eauto.
  - exfalso. revert E. unfold opts. clear -H Hc. induction table as [|x l IH]; [inversion H|]. cbn.
    destruct H as [-> | H].
    + rewrite Hc, (Byte.byte_dec_lb eq_refl). discriminate.
    + destruct (e_letter x) as [y|]; [destruct (Byte.eqb y c); [discriminate|]|]; auto.
Qed.

Lemma find_long_entry x n b : In (mk_entry x n b) table -> find_long opts n = Some (mk_opt x n b).
Proof. exact (find_long_in (mk_entry x n b)). Qed.

Lemma split_eq_name n : ~ In "="%byte n -> split_eq n = (n, None).
Proof.
  induction n as [|c r IH]; intros H; [reflexivity|]. cbn.
  destruct (Byte.eqb c "="%byte) eqn:E.
  - apply Byte.byte_dec_bl in E. subst. exfalso. apply H. left. reflexivity.
  - rewrite IH; [reflexivity|]. intros Hi. apply H. right. exact Hi.
Qed.
Lemma split_eq_value n v : ~ In "="%byte n -> split_eq (n ++ "="%byte :: v) = (n, Some v).
Proof.
  induction n as [|c r IH]; intros H; [reflexivity|]. cbn.
  destruct (Byte.eqb c "="%byte) eqn:E.
  - apply Byte.byte_dec_bl in E. subst. exfalso. apply H. left. reflexivity.
  - rewrite IH; [reflexivity|]. intros Hi. apply H. right. exact Hi.
Qed.
Lemma split_eq_inv w n v : split_eq w = (n, v) -> w = n ++ match v with Some x => "="%byte :: x | None => [] end.
Proof.
  revert n v. induction w as [|c r IH]; intros n v; cbn.
  - intros [= <- <-]. reflexivity.
  - destruct (Byte.eqb c "="%byte) eqn:E.
    + apply Byte.byte_dec_bl in E. subst. intros [= <- <-]. reflexivity.
    + destruct (split_eq r) as [a u] eqn:Er. intros [= <- <-]. cbn. rewrite <- (IH a u); reflexivity.
Qed.

(** * One word *)

Lemma long_word_sound w :
  match long_word opts w with
  | DBad => True
  | DOpts l => option_words table [bs "--" ++ w] l
  | DNeeds l n => forall v, no_option v -> option_words table [bs "--" ++ w; v] (l ++ [(n, Some v)])
  end.
Proof.
  unfold long_word. destruct (split_eq w) as [n v] eqn:E. apply split_eq_inv in E. subst w.
  destruct (find_long opts n) as [o|] eqn:Ef; [|exact I].
  apply find_long_some in Ef. destruct Ef as ([x n' b] & Hi & -> & Hn). cbn in Hn. subst n'. cbn.
  destruct b, v as [v|]; try exact I.
  - eapply name_equals. exact Hi.
  - intros v Hv. rewrite app_nil_r. eapply name_then; eassumption.
  - rewrite app_nil_r. eapply name_alone. exact Hi.
Qed.

Lemma short_word_sound w :
  match short_word opts w with
  | DBad => True
  | DOpts l => (letters table w l) \/
      (exists pre l' c n v, l = l' ++ [(n, Some v)] /\ letters table pre l' /\ In (value_entry c n) table /\
         ((exists x r, v = x :: r /\ x <> "="%byte /\ w = pre ++ [c] ++ v) \/ w = pre ++ [c] ++ bs "=" ++ v))
  | DNeeds l n => exists pre c, letters table pre l /\ In (value_entry c n) table /\ w = pre ++ [c]
  end.
Proof.
  induction w as [|c r IH]; cbn [short_word].
  - left. constructor.
  - destruct (find_short opts c) as [o|] eqn:Ef; [|exact I].
    apply find_short_some in Ef. destruct Ef as ([x n b] & Hi & -> & Hn). cbn in Hn. subst x. cbn [o_takes as_opt e_value o_long e_name].
    destruct b.
    + destruct r as [|x r'].
      * exists [], c. split; [constructor|]. split; [exact Hi|reflexivity].
      * right. exists [], [], c, n, (if Byte.eqb x "="%byte then r' else x :: r'). split; [reflexivity|].
        split; [constructor|]. split; [exact Hi|]. destruct (Byte.eqb x "="%byte) eqn:E.
        -- apply Byte.byte_dec_bl in E. subst. right. reflexivity.
        -- left. exists x, r'. split; [reflexivity|]. split; [|reflexivity]. intros ->. discriminate E.
    + destruct (short_word opts r) as [|l|l m]; [exact I| |].
      * destruct IH as [IH|(pre & l' & d & m & v & -> & Hl & Hd & Hw)].
        -- left. constructor; assumption.
        -- right. exists (c :: pre), ((n, None) :: l'), d, m, v. split; [reflexivity|]. split; [constructor; assumption|].
           split; [exact Hd|]. destruct Hw as [(x & q & -> & Hx & ->)| ->].
           ++ left. exists x, q. auto.
           ++ right. reflexivity.
      * destruct IH as (pre & d & Hl & Hd & ->). exists (c :: pre), d. split; [constructor; assumption|]. auto.
Qed.

Lemma dash_word_sound w : plain w = false ->
  match dash_word opts w with
  | DBad => True
  | DOpts l => option_words table [w] l
  | DNeeds l n => forall v, no_option v -> option_words table [w; v] (l ++ [(n, Some v)])
  end.
Proof.
  intros H. apply not_plain in H. destruct H as (c & r & ->).
  destruct (Byte.eqb c "-"%byte) eqn:E.
  - apply Byte.byte_dec_bl in E. subst c. exact (long_word_sound r).
  - assert (dash_word opts ("-"%byte :: c :: r) = short_word opts (c :: r)) as ->
      by (destruct c; try reflexivity; discriminate E).
    pose proof (short_word_sound (c :: r)) as S.
    destruct (short_word opts (c :: r)) as [|l|l n]; [exact I| |].
    + destruct S as [S|(pre & l' & d & n & v & -> & Hl & Hd & Hw)].
      * apply (letters_alone table (c :: r)); [exact S|discriminate].
      * destruct Hw as [(x & q & -> & Hx & Hw)|Hw]; rewrite Hw.
        -- exact (letters_attached table pre l' d n x q Hl Hd Hx).
        -- exact (letters_equals table pre l' d n v Hl Hd).
    + destruct S as (pre & d & Hl & Hd & Hw). rewrite Hw. intros v Hv. exact (letters_then table pre l d n v Hl Hd Hv).
Qed.

Definition with_letters (l : list (bytes * option bytes)) (d : dash) : dash :=
  match d with DBad => DBad | DOpts l' => DOpts (l ++ l') | DNeeds l' n => DNeeds (l ++ l') n end.
Lemma letters_scan w l rest : letters table w l -> short_word opts (w ++ rest) = with_letters l (short_word opts rest).
Proof.
  induction 1 as [|c n w l Hi Hl IH]; cbn [app].
  - destruct (short_word opts rest); reflexivity.
  - cbn [short_word]. rewrite (find_short_in (flag_entry c n) c Hi eq_refl). cbn [o_takes as_opt flag_entry e_value e_name o_long].
    rewrite IH. destruct (short_word opts rest); reflexivity.
Qed.
Lemma letter_not_dash e c : In e table -> e_letter e = Some c -> Byte.eqb c "-"%byte = false.
Proof.
  intros H Hc. destruct (Byte.eqb c "-"%byte) eqn:E; [|reflexivity]. apply Byte.byte_dec_bl in E. subst.
  exfalso. exact (g_dash _ G _ H Hc).
Qed.
Lemma dash_short w l rest : letters table w l ->
  (w = [] -> exists c r, rest = c :: r /\ Byte.eqb c "-"%byte = false) ->
  dash_word opts ("-"%byte :: w ++ rest) = with_letters l (short_word opts rest) /\
  plain ("-"%byte :: w ++ rest) = false /\ bytes_eqb ("-"%byte :: w ++ rest) (bs "--") = false.
Proof.
  intros Hl Hr. rewrite <- (letters_scan w l rest Hl).
  assert (exists c r, w ++ rest = c :: r /\ Byte.eqb c "-"%byte = false) as (c & r & -> & E).
  { inversion Hl as [|c n w' l' Hi Hl']; subst.
    - exact (Hr eq_refl).
    - exists c, (w' ++ rest). split; [reflexivity|]. apply (letter_not_dash _ _ Hi). reflexivity. }
  split; [|split].
  - destruct c; try reflexivity. discriminate E.
  - reflexivity.
  - cbn. rewrite E. reflexivity.
Qed.

Lemma not_dashes n : n <> [] -> bytes_eqb (bs "--" ++ n) (bs "--") = false.
Proof. intros H. destruct n; [congruence|reflexivity]. Qed.

Lemma option_words_complete ws l : option_words table ws l ->
  (exists w, ws = [w] /\ plain w = false /\ bytes_eqb w (bs "--") = false /\ dash_word opts w = DOpts l) \/
  (exists w v l' n, ws = [w; v] /\ l = l' ++ [(n, Some v)] /\ plain w = false /\ bytes_eqb w (bs "--") = false /\
     dash_word opts w = DNeeds l' n /\ plain v = true).
Proof.
  intros H. destruct H as [x n Hi|x n v Hi|x n v Hi Hv|w l Hl Hw|w l c n v Hl Hi|w l c n x v Hl Hi Hx|w l c n v Hl Hi Hv].
  - left. eexists. split; [reflexivity|]. split; [reflexivity|].
    split; [apply not_dashes; exact (g_empty _ G _ Hi)|].
    cbn. unfold long_word. rewrite split_eq_name by exact (g_eq _ G _ Hi).
    rewrite (find_long_entry _ _ _ Hi). reflexivity.
  - left. eexists. split; [reflexivity|]. split; [reflexivity|].
    split; [apply not_dashes; destruct n; discriminate|].
    cbn. unfold long_word. change (bs "=" ++ v) with ("="%byte :: v). rewrite split_eq_value by exact (g_eq _ G _ Hi).
    rewrite (find_long_entry _ _ _ Hi). reflexivity.
  - right. exists (bs "--" ++ n), v, [], n. split; [reflexivity|]. split; [reflexivity|]. split; [reflexivity|].
    split; [apply not_dashes; exact (g_empty _ G _ Hi)|]. split; [|apply plain_spec; exact Hv].
    cbn. unfold long_word. rewrite split_eq_name by exact (g_eq _ G _ Hi).
    rewrite (find_long_entry _ _ _ Hi). reflexivity.
  - left. destruct (dash_short w l [] Hl) as (H1 & H2 & H3); [congruence|]. rewrite app_nil_r in *.
    eexists. split; [reflexivity|]. split; [exact H2|]. split; [exact H3|]. etransitivity; [exact H1|]. cbn. rewrite app_nil_r. reflexivity.
  - left. destruct (dash_short w l ([c] ++ bs "=" ++ v) Hl) as (H1 & H2 & H3).
    { intros _. exists c, (bs "=" ++ v). split; [reflexivity|]. exact (letter_not_dash _ _ Hi eq_refl). }
    eexists. split; [reflexivity|]. split; [exact H2|]. split; [exact H3|]. etransitivity; [exact H1|]. cbn.
    rewrite (find_short_in _ c Hi eq_refl). reflexivity.
  - left. destruct (dash_short w l ([c] ++ x :: v) Hl) as (H1 & H2 & H3).
    { intros _. exists c, (x :: v). split; [reflexivity|]. exact (letter_not_dash _ _ Hi eq_refl). }
    eexists. split; [reflexivity|]. split; [exact H2|]. split; [exact H3|]. etransitivity; [exact H1|]. cbn.
    rewrite (find_short_in _ c Hi eq_refl). cbn.
    destruct (Byte.eqb x "="%byte) eqn:E; [apply Byte.byte_dec_bl in E; congruence|reflexivity].
  - right. destruct (dash_short w l [c] Hl) as (H1 & H2 & H3).
    { intros _. exists c, []. split; [reflexivity|]. exact (letter_not_dash _ _ Hi eq_refl). }
    exists ("-"%byte :: w ++ [c]), v, l, n. split; [reflexivity|]. split; [reflexivity|].
    split; [exact H2|]. split; [exact H3|]. split; [|apply plain_spec; exact Hv]. etransitivity; [exact H1|]. cbn.
    rewrite (find_short_in _ c Hi eq_refl). cbn. rewrite app_nil_r. reflexivity.
Qed.

(** * All words *)

Lemma scan_pending n words l ps : scan opts (Some n) words = Some (l, ps) ->
  exists v rest l', words = v :: rest /\ no_option v /\ l = (n, Some v) :: l' /\ scan opts None rest = Some (l', ps).
Proof.
  destruct words as [|v rest]; cbn [scan]; [discriminate|].
  destruct (plain v) eqn:E; [|discriminate].
  destruct (scan opts None rest) as [[l' ps']|] eqn:Es; [|discriminate].
  intros [= <- <-]. exists v, rest, l'. split; [reflexivity|]. split; [apply plain_spec; exact E|]. auto.
Qed.
Lemma scan_sound_fuel k : forall words l ps, length words <= k -> scan opts None words = Some (l, ps) -> arranged table words l ps.
Proof.
  induction k as [|k IH]; intros words l ps Hk.
  - destruct words; [|cbn in Hk; lia]. cbn. intros [= <- <-]. constructor.
  - destruct words as [|w rest]; cbn [scan]; [intros [= <- <-]; constructor|]. cbn in Hk.
    destruct (plain w) eqn:E.
    + destruct (scan opts None rest) as [[l' ps']|] eqn:Es; [|discriminate]. intros [= <- <-].
      constructor; [apply plain_spec; exact E|]. apply IH; [lia|exact Es].
    + destruct (bytes_eqb w (bs "--")) eqn:Ed.
      { apply bytes_eqb_eq in Ed. subst w. intros [= <- <-]. constructor. }
      pose proof (dash_word_sound w E) as S. destruct (dash_word opts w) as [|l1|l1 n]; [discriminate| |].
      * destruct (scan opts None rest) as [[l' ps']|] eqn:Es; [|discriminate]. intros [= <- <-].
        apply (arr_option table [w] l1 rest); [exact S|]. apply IH; [lia|exact Es].
      * destruct (scan opts (Some n) rest) as [[l' ps']|] eqn:Es; [|discriminate]. intros [= <- <-].
        apply scan_pending in Es. destruct Es as (v & rest' & l2 & -> & Hv & -> & Es).
        change (w :: v :: rest') with ([w; v] ++ rest'). change ((n, Some v) :: l2) with ([(n, Some v)] ++ l2).
        rewrite (app_assoc l1). apply arr_option; [exact (S v Hv)|]. cbn in Hk. apply IH; [lia|exact Es].
Qed.
Lemma scan_complete words l ps : arranged table words l ps -> scan opts None words = Some (l, ps).
Proof.
  induction 1 as [|w ws l ps Hw H IH|ws l ws' l' ps Ho H IH|ps]; [reflexivity| | |].
  - cbn [scan]. rewrite (proj2 (plain_spec w) Hw), IH. reflexivity.
  - apply option_words_complete in Ho.
    destruct Ho as [(w & -> & E1 & E2 & E3)|(w & v & l0 & n & -> & -> & E1 & E2 & E3 & E4)]; cbn [app scan].
    + rewrite E1, E2, E3, IH. reflexivity.
    + rewrite E1, E2, E3. cbn [scan]. rewrite E4, IH. rewrite <- app_assoc. reflexivity.
  - reflexivity.
Qed.
Lemma scan_spec words l ps : scan opts None words = Some (l, ps) <-> arranged table words l ps.
Proof. split; [apply (scan_sound_fuel (length words)); lia|apply scan_complete]. Qed.

Lemma scan_top_pending n words l r : scan_top opts (Some n) words = Some (l, r) ->
  exists v rest l', words = v :: rest /\ no_option v /\ l = (n, Some v) :: l' /\ scan_top opts None rest = Some (l', r).
Proof.
  destruct words as [|v rest]; cbn [scan_top]; [discriminate|].
  destruct (plain v) eqn:E; [|discriminate].
  destruct (scan_top opts None rest) as [[l' ps']|] eqn:Es; [|discriminate].
  intros [= <- <-]. exists v, rest, l'. split; [reflexivity|]. split; [apply plain_spec; exact E|]. auto.
Qed.
Lemma scan_top_sound_fuel k : forall words l name rest, length words <= k -> scan_top opts None words = Some (l, (name, rest)) ->
  exists ws, words = ws ++ name :: rest /\ options_only table ws l /\ no_option name.
Proof.
  induction k as [|k IH]; intros words l name rest Hk.
  - destruct words; [|cbn in Hk; lia]. discriminate.
  - destruct words as [|w words]; cbn [scan_top]; [discriminate|]. cbn in Hk.
    destruct (plain w) eqn:E.
    + intros [= <- <- <-]. exists []. split; [reflexivity|]. split; [constructor|apply plain_spec; exact E].
    + destruct (bytes_eqb w (bs "--")) eqn:Ed; [discriminate|].
      pose proof (dash_word_sound w E) as S. destruct (dash_word opts w) as [|l1|l1 n]; [discriminate| |].
      * destruct (scan_top opts None words) as [[l' [name' rest']]|] eqn:Es; [|discriminate]. intros [= <- <- <-].
        apply IH in Es; [|lia]. destruct Es as (ws & -> & Ho & Hn). exists ([w] ++ ws). split; [reflexivity|].
        split; [|exact Hn]. constructor; assumption.
      * destruct (scan_top opts (Some n) words) as [[l' [name' rest']]|] eqn:Es; [|discriminate]. intros [= <- <- <-].
        apply scan_top_pending in Es. destruct Es as (v & rest2 & l2 & -> & Hv & -> & Es).
        apply IH in Es; [|cbn in Hk; lia]. destruct Es as (ws & -> & Ho & Hn). exists ([w; v] ++ ws). split; [reflexivity|].
        split; [|exact Hn]. change ((n, Some v) :: l2) with ([(n, Some v)] ++ l2).
        rewrite (app_assoc l1). constructor; [exact (S v Hv)|exact Ho].
Qed.
Lemma scan_top_complete ws l name rest : options_only table ws l -> no_option name ->
  scan_top opts None (ws ++ name :: rest) = Some (l, (name, rest)).
Proof.
  intros H Hn. induction H as [|ws l ws' l' Ho H IH].
  - cbn. rewrite (proj2 (plain_spec name) Hn). reflexivity.
  - apply option_words_complete in Ho.
    destruct Ho as [(w & -> & E1 & E2 & E3)|(w & v & l0 & n & -> & -> & E1 & E2 & E3 & E4)]; cbn [app scan_top].
    + rewrite E1, E2, E3, IH. reflexivity.
    + rewrite E1, E2, E3. cbn [scan_top]. rewrite E4, IH. rewrite <- app_assoc. reflexivity.
Qed.
Lemma scan_top_spec words l name rest : scan_top opts None words = Some (l, (name, rest)) <->
  exists ws, words = ws ++ name :: rest /\ options_only table ws l /\ no_option name.
Proof.
  split; [apply (scan_top_sound_fuel (length words)); lia|].
  intros (ws & -> & Ho & Hn). apply scan_top_complete; assumption.
Qed.

(** The options given are in the table, with values where needed. *)
Lemma letters_in w l : letters table w l -> forall n v, In (n, v) l -> exists e, In e table /\ e_name e = n /\ (e_value e = true <-> v <> None).
Proof.
  induction 1 as [|c n w l Hi Hl IH]; intros m v; [intros []|]. intros [[= <- <-]|H]; [|eauto].
  eexists. split; [exact Hi|]. split; [reflexivity|]. cbn. split; [discriminate|congruence].
Qed.
Lemma option_words_in ws l : option_words table ws l ->
  forall n v, In (n, v) l -> exists e, In e table /\ e_name e = n /\ (e_value e = true <-> v <> None).
Proof.
  intros H m u Hm.
  destruct H as [x n Hi|x n v Hi|x n v Hi Hv|w l Hl Hw|w l c n v Hl Hi|w l c n x v Hl Hi Hx|w l c n v Hl Hi Hv].
  1-3: destruct Hm as [[= <- <-]|[]]; eexists; split; [exact Hi|]; split; [reflexivity|]; cbn; split; congruence.
  - eapply letters_in; eassumption.
  - apply in_app_or in Hm. destruct Hm as [Hm|[[= <- <-]|[]]]; [eapply letters_in; eassumption|].
    eexists; split; [exact Hi|]; split; [reflexivity|]; cbn; split; congruence.
  - apply in_app_or in Hm. destruct Hm as [Hm|[[= <- <-]|[]]]; [eapply letters_in; eassumption|].
    eexists; split; [exact Hi|]; split; [reflexivity|]; cbn; split; congruence.
  - apply in_app_or in Hm. destruct Hm as [Hm|[[= <- <-]|[]]]; [eapply letters_in; eassumption|].
    eexists; split; [exact Hi|]; split; [reflexivity|]; cbn; split; congruence.
Qed.
Lemma arranged_in words l ps : arranged table words l ps ->
  forall n v, In (n, v) l -> exists e, In e table /\ e_name e = n /\ (e_value e = true <-> v <> None).
Proof.
  induction 1 as [|w ws l ps Hw H IH|ws l ws' l' ps Ho H IH|ps]; intros n v Hn; try (destruct Hn; fail); eauto.
  apply in_app_or in Hn. destruct Hn as [Hn|Hn]; [eapply option_words_in; eassumption|eauto].
Qed.
Lemma options_only_in words l : options_only table words l ->
  forall n v, In (n, v) l -> exists e, In e table /\ e_name e = n /\ (e_value e = true <-> v <> None).
Proof.
  induction 1 as [|ws l ws' l' Ho H IH]; intros n v Hn; [destruct Hn|].
  apply in_app_or in Hn. destruct Hn as [Hn|Hn]; [eapply option_words_in; eassumption|eauto].
Qed.
End table.

(** * The tables *)

Fixpoint nodup_by {A} (eq : A -> A -> bool) (l : list A) : bool :=
  match l with [] => true | x :: r => negb (existsb (eq x) r) && nodup_by eq r end.
Definition same_letter (a b : option_entry) : bool :=
  match e_letter a, e_letter b with Some x, Some y => Byte.eqb x y | _, _ => false end.
Definition good_entry (e : option_entry) : bool :=
  negb (existsb (Byte.eqb "="%byte) (e_name e)) && negb (bytes_eqb (e_name e) []) &&
  match e_letter e with Some c => negb (Byte.eqb c "-"%byte) | None => true end.
Definition good_table (t : list option_entry) : bool :=
  nodup_by (fun a b => bytes_eqb (e_name a) (e_name b)) t && nodup_by same_letter t && forallb good_entry t.

Lemma nodup_by_spec {A} (eq : A -> A -> bool) l : (forall a b, eq a b = eq b a) -> nodup_by eq l = true ->
  forall a b, In a l -> In b l -> eq a b = true -> a = b.
Proof.
  intros Hs. induction l as [|x r IH]; cbn; [intros _ a b []|]. intros H. apply andb_true_iff in H. destruct H as [H1 H2].
  apply negb_true_iff in H1. assert (forall y, In y r -> eq x y = true -> False) as Hx.
  { intros y Hy Hxy. assert (existsb (eq x) r = true) as C by (apply existsb_exists; exists y; auto). congruence. }
  intros a b [-> | Ha] [-> | Hb] E.
  - reflexivity.
  - exfalso. eauto.
  - exfalso. rewrite Hs in E. eauto.
  - eauto.
Qed.
Lemma byte_eqb_sym a b : Byte.eqb a b = Byte.eqb b a.
Proof.
  destruct (Byte.eqb b a) eqn:E.
  - apply Byte.byte_dec_bl in E. subst. apply Byte.byte_dec_lb. reflexivity.
  - destruct (Byte.eqb a b) eqn:E'; [|reflexivity]. apply Byte.byte_dec_bl in E'. subst.
    rewrite (Byte.byte_dec_lb eq_refl) in E. discriminate E.
Qed.
Lemma bytes_eqb_sym a b : bytes_eqb a b = bytes_eqb b a.
Proof.
  destruct (bytes_eqb b a) eqn:E.
  - apply bytes_eqb_eq in E. subst. apply bytes_eqb_eq. reflexivity.
  - destruct (bytes_eqb a b) eqn:E'; [|reflexivity]. apply bytes_eqb_eq in E'. subst.
    rewrite (proj2 (bytes_eqb_eq _ _) eq_refl) in E. discriminate E.
Qed.
Lemma good_table_good t : good_table t = true -> good t.
Proof.
  intros H. unfold good_table in H. apply andb_true_iff in H. destruct H as [H H3]. apply andb_true_iff in H. destruct H as [H1 H2].
  assert (forall a, In a t -> good_entry a = true) as H4 by (apply forallb_forall; exact H3). clear H3. split.
  - intros a b Ha Hb E. eapply nodup_by_spec in H1; [exact H1| |exact Ha|exact Hb|].
    + intros. apply bytes_eqb_sym.
    + apply bytes_eqb_eq. exact E.
  - intros a b c Ha Hb Ea Eb. eapply nodup_by_spec in H2; [exact H2| |exact Ha|exact Hb|].
    + intros x y. unfold same_letter. destruct (e_letter x), (e_letter y); try reflexivity. apply byte_eqb_sym.
    + unfold same_letter. rewrite Ea, Eb. apply Byte.byte_dec_lb. reflexivity.
  - intros a Ha. specialize (H4 _ Ha). unfold good_entry in H4. apply andb_true_iff in H4. destruct H4 as [H4 _].
    apply andb_true_iff in H4. destruct H4 as [H4 _]. apply negb_true_iff in H4. intros Hi.
    assert (existsb (Byte.eqb "="%byte) (e_name a) = true) as C
      by (apply existsb_exists; eexists; split; [exact Hi|reflexivity]). congruence.
  - intros a Ha. specialize (H4 _ Ha). unfold good_entry in H4. apply andb_true_iff in H4. destruct H4 as [H4 _].
    apply andb_true_iff in H4. destruct H4 as [_ H4]. intros E. rewrite E in H4. discriminate H4.
  - intros a Ha. specialize (H4 _ Ha). unfold good_entry in H4. apply andb_true_iff in H4. destruct H4 as [_ H4].
    intros E. rewrite E in H4. discriminate H4.
Qed.
Lemma good_general : good general_table.
Proof. apply good_table_good. reflexivity. Qed.
Lemma good_tables name table : In (name, table) tables -> good table.
Proof.
  intros H. apply good_table_good. revert H.
  assert (forallb (fun p => good_table (snd p)) tables = true) as T by reflexivity.
  intros H. exact (proj1 (forallb_forall _ _) T (name, table) H).
Qed.

Lemma sub_options_spec name opts : sub_options name = Some opts <-> exists table, In (name, table) tables /\ opts = map as_opt table.
Proof.
  split.
  - unfold sub_options.
    repeat match goal with |- (if bytes_eqb name ?x then _ else _) = _ -> _ =>
      let E := fresh "E" in destruct (bytes_eqb name x) eqn:E;
      [apply bytes_eqb_eq in E; subst name; intros [= <-]; eexists; split;
        [unfold tables; repeat (first [left; reflexivity|right])|reflexivity]|clear E] end.
    discriminate.
  - intros (table & H & ->). unfold tables in H. cbn [In] in H.
    repeat (destruct H as [H|H]; [injection H as <- <-; reflexivity|]). destruct H.
Qed.

(** * What was given *)

Lemma distinct_spec l : distinct l = true <-> List.NoDup l.
Proof.
  induction l as [|x r IH]; cbn; [split; [constructor|reflexivity]|].
  rewrite andb_true_iff, negb_true_iff, IH. split.
  - intros [H1 H2]. constructor; [|exact H2]. intros Hi.
    assert (existsb (bytes_eqb x) r = true) as C by (apply existsb_exists; exists x; split; [exact Hi|apply bytes_eqb_eq; reflexivity]).
    congruence.
  - intros H. inversion H as [|? ? H1 H2]; subst. split; [|exact H2].
    destruct (existsb (bytes_eqb x) r) eqn:E; [|reflexivity]. apply existsb_exists in E. destruct E as (y & Hy & E).
    apply bytes_eqb_eq in E. subst. contradiction.
Qed.
Lemma flag_spec l n b : on l n b <-> b = flag n l.
Proof.
  assert (flag n l = true <-> In n (map fst l)) as F.
  { unfold flag. rewrite existsb_exists, in_map_iff. split.
    - intros ([m v] & Hi & E). apply bytes_eqb_eq in E. subst. exists (n, v). auto.
    - intros ([m v] & E & Hi). cbn in E. subst. exists (n, v). split; [exact Hi|]. apply bytes_eqb_eq. reflexivity. }
  unfold on. rewrite <- F. destruct b, (flag n l); intuition congruence.
Qed.
Lemma value_in l n v : value n l = Some v -> In (n, Some v) l.
Proof.
  induction l as [|[m u] r IH]; cbn; [discriminate|].
  destruct (bytes_eqb m n) eqn:E.
  - apply bytes_eqb_eq in E. intros ->. subst. left. reflexivity.
  - intros H. right. auto.
Qed.
Lemma value_spec l n v : List.NoDup (map fst l) -> In (n, v) l -> value n l = v.
Proof.
  induction l as [|[m u] r IH]; cbn; [intros _ []|]. intros H. inversion H as [|? ? H1 H2]; subst.
  intros [[= <- <-]|Hi].
  - rewrite (proj2 (bytes_eqb_eq _ _) eq_refl). reflexivity.
  - destruct (bytes_eqb m n) eqn:E; [|auto]. apply bytes_eqb_eq in E. subst. exfalso. apply H1.
    apply in_map_iff. exists (n, v). auto.
Qed.
Lemma value_none l n : ~ In n (map fst l) -> value n l = None.
Proof.
  induction l as [|[m u] r IH]; cbn; [reflexivity|]. intros H. destruct (bytes_eqb m n) eqn:E; [|tauto].
  apply bytes_eqb_eq in E. subst. exfalso. tauto.
Qed.
Lemma set_to_spec l n d v : List.NoDup (map fst l) -> ~ In (n, None) l -> set_to l n d v <-> v = value_or d n l.
Proof.
  intros Hd Hn. unfold set_to, value_or. split.
  - intros [H|[H ->]]; [rewrite (value_spec _ _ _ Hd H)|rewrite value_none by exact H]; reflexivity.
  - intros ->. destruct (value n l) as [u|] eqn:E.
    + left. apply value_in. exact E.
    + right. split; [|reflexivity]. intros H. apply in_map_iff in H. destruct H as ([m [u|]] & Hm & H); cbn in Hm; subst m.
      * rewrite (value_spec _ _ _ Hd H) in E. discriminate E.
      * contradiction.
Qed.

Lemma length_spec text len : a_length text len <-> length_arg text = Some len.
Proof.
  assert (forall ds n, ds <> [] -> (n <= 18446744073709551615)%N ->
    (decimal ds n <-> match ds with [] => None | _ => if forallb is_digit ds then
           let n := digits_value ds in if (n <=? 18446744073709551615)%N then Some n else None else None end = Some n)) as D.
  { intros ds n Hne Hb. rewrite decimal_spec. destruct ds as [|c r]; [congruence|].
    destruct (forallb is_digit (c :: r)); [|intuition congruence]. cbn zeta.
    destruct (N.leb_spec (digits_value (c :: r)) 18446744073709551615) as [L|L].
    - split; [intros (_ & _ & ->); reflexivity|intros [= <-]; auto].
    - split; [intros (_ & _ & E); lia|discriminate]. }
  assert (forall n, (n <= 18446744073709551615)%N -> (decimal text n \/ (exists t, text = "+"%byte :: t /\ decimal t n)) <-> parse_usize text = Some n) as U.
  { intros n Hb. unfold parse_usize. destruct text as [|c r].
    - split; [|discriminate]. intros [H|(t & H & _)]; [|discriminate H]. apply decimal_spec in H. tauto.
    - destruct (Byte.eqb c "+"%byte) eqn:E.
      + apply Byte.byte_dec_bl in E. subst c. destruct r as [|d r].
        * split; [|discriminate]. intros [H|(t & [= <-] & H)]; apply decimal_spec in H; destruct H as (H1 & H2 & _); [discriminate H2|congruence].
        * rewrite <- (D (d :: r) n) by (discriminate || exact Hb). split.
          -- intros [H|(t & [= <-] & H)]; [|exact H]. apply decimal_spec in H. destruct H as (_ & H & _). discriminate H.
          -- intros H. right. exists (d :: r). auto.
      + assert ((match c :: r with "+"%byte :: r0 => r0 | _ => c :: r end) = c :: r) as ->
          by (destruct c; try reflexivity; discriminate E).
        rewrite <- (D (c :: r) n) by (discriminate || exact Hb). split.
        * intros [H|(t & [= -> <-] & H)]; [exact H|discriminate E].
        * intros H. left. exact H. }
  unfold a_length, length_arg, validate_length. split.
  - intros [H B]. apply U in H; [|lia]. rewrite H.
    rewrite (proj2 (N.leb_le 4 len)), (proj2 (N.leb_le len 24)) by lia. reflexivity.
  - destruct (parse_usize text) as [m|] eqn:E; [|intros [=]].
    destruct ((4 <=? m)%N && (m <=? 24)%N) eqn:B; [|discriminate].
    apply andb_true_iff in B. destruct B as [B1 B2]. apply N.leb_le in B1, B2.
    intros [= ->]. split; [|lia]. apply U; [lia|reflexivity].
Qed.

Ltac pick H Hd Hval := apply set_to_spec in H; [|exact Hd|apply Hval; cbn; tauto].

Lemma means_spec l name table ps c :
  In (name, table) tables -> List.NoDup (map fst l) ->
  (forall n v, In (n, v) l -> exists e, In e table /\ e_name e = n /\ (e_value e = true <-> v <> None)) ->
  means l name ps c <-> make_command name l ps = Some c.
Proof.
  intros Ht Hd Hin.
  assert (forall n, In (value_entry "r" n) table \/ In (value_entry "l" n) table -> ~ In (n, None) l) as Hval.
  { intros n H Hi. pose proof (good_tables _ _ Ht) as G. destruct (Hin _ _ Hi) as (e & He & En & Ev).
    destruct H as [H|H]; pose proof (g_name _ G _ _ H He (eq_sym En)) as <-; cbn in Ev; destruct Ev as [Ev _]; exact (Ev eq_refl eq_refl). }
  split.
  - intros M. destruct M as [y H1|d n r text len w u g s y H1 H2 H3 H4 H5 H6 H7 H8|d n r x y H1 H2 H3|d n r H1|d n r q H1 H2
      |d n r s H1 H2|ps d n s r v H1 H2 H3 H4|ps d a r H1 H2|];
    cbn [tables In] in Ht; repeat (destruct Ht as [Ht|Ht]; [try discriminate Ht|]); try (destruct Ht; fail); injection Ht as <-.
    all: repeat match goal with H : on _ _ _ |- _ => apply flag_spec in H; subst end.
    all: try (match goal with H : set_to _ (bs "revision") _ _ |- _ => pick H Hd Hval end; subst).
    + reflexivity.
    + pick H2 Hd Hval. subst text. apply length_spec in H3.
      cbv [make_command]. change (bytes_eqb (bs "add") (bs "set-primary")) with false.
      change (bytes_eqb (bs "add") (bs "add")) with true. cbv iota. rewrite H3. reflexivity.
    + reflexivity.
    + reflexivity.
    + reflexivity.
    + reflexivity.
    + destruct H4 as [(-> & -> & ->)|[(-> & ->)| ->]]; reflexivity.
    + destruct a; reflexivity.
    + reflexivity.
  - cbn [tables In] in Ht.
    repeat (destruct Ht as [Ht|Ht]; [injection Ht as <- <-|]); try (destruct Ht; fail).
    + destruct ps; intros [= <-]. constructor. apply flag_spec. reflexivity.
    + cbv [make_command]. change (bytes_eqb (bs "add") (bs "set-primary")) with false.
      change (bytes_eqb (bs "add") (bs "add")) with true. cbv iota.
      destruct ps as [|d [|n [|? ?]]]; try discriminate.
      destruct (length_arg (value_or (bs "16") (bs "length") l)) as [len|] eqn:E; [|discriminate].
      intros [= <-]. econstructor; try (apply flag_spec; reflexivity).
      * apply set_to_spec; [exact Hd|apply Hval; cbn; tauto|reflexivity].
      * apply set_to_spec; [exact Hd|apply Hval; cbn; tauto|reflexivity].
      * apply length_spec. exact E.
    + destruct ps as [|d [|n [|? ?]]]; try discriminate. intros [= <-].
      constructor; try (apply flag_spec; reflexivity). apply set_to_spec; [exact Hd|apply Hval; cbn; tauto|reflexivity].
    + destruct ps as [|d [|n [|? ?]]]; try discriminate. intros [= <-].
      constructor; try (apply flag_spec; reflexivity). apply set_to_spec; [exact Hd|apply Hval; cbn; tauto|reflexivity].
    + destruct ps as [|d [|n [|? ?]]]; try discriminate. intros [= <-].
      constructor; try (apply flag_spec; reflexivity). apply set_to_spec; [exact Hd|apply Hval; cbn; tauto|reflexivity].
    + destruct ps as [|d [|n [|? ?]]]; try discriminate. intros [= <-].
      constructor; try (apply flag_spec; reflexivity). apply set_to_spec; [exact Hd|apply Hval; cbn; tauto|reflexivity].
    + destruct ps as [|d [|n [|? ?]]]; try discriminate; intros [= <-];
        (constructor; try (apply flag_spec; reflexivity); auto).
    + destruct ps as [|d [|n [|? ?]]]; try discriminate; intros [= <-];
        (constructor; try (apply flag_spec; reflexivity); reflexivity).
    + destruct ps; intros [= <-]. constructor.
Qed.

(** * Command lines *)

Lemma parse_sub_spec name rest c : parse_sub name rest = Some c <-> subcommand (name :: rest) c.
Proof.
  unfold parse_sub, subcommand. split.
  - destruct (sub_options name) as [opts|] eqn:Es; [|discriminate].
    apply sub_options_spec in Es. destruct Es as (table & Ht & ->).
    destruct (scan (map as_opt table) None rest) as [[l ps]|] eqn:Ec; [|discriminate].
    apply scan_spec in Ec; [|exact (good_tables _ _ Ht)].
    destruct (distinct (map fst l)) eqn:Ed; [|discriminate]. apply distinct_spec in Ed. intros H.
    exists name, table, rest, l, ps. split; [reflexivity|]. split; [exact Ht|]. split; [exact Ec|]. split; [exact Ed|].
    apply (means_spec l name table ps c Ht Ed); [|exact H]. eapply arranged_in. exact Ec.
  - intros (name' & table & rest' & l & ps & [= <- <-] & Ht & Ha & Hd & Hm).
    assert (sub_options name = Some (map as_opt table)) as -> by (apply sub_options_spec; exists table; auto).
    rewrite (scan_complete table (good_tables _ _ Ht) _ _ _ Ha), (proj2 (distinct_spec _) Hd).
    apply (means_spec l name table ps c Ht Hd); [|exact Hm]. eapply arranged_in. exact Ha.
Qed.

Lemma name_plain name table : In (name, table) tables -> no_option name.
Proof.
  intros H. apply plain_spec. cbn [tables In] in H.
  repeat (destruct H as [H|H]; [injection H as <- _; reflexivity|]). destruct H.
Qed.

Lemma storage_spec l p : List.NoDup (map fst l) ->
  (forall n v, In (n, v) l -> exists e, In e general_table /\ e_name e = n /\ (e_value e = true <-> v <> None)) ->
  value (bs "storage") l = p <->
  match p with Some p => In (bs "storage", Some p) l | None => ~ In (bs "storage") (map fst l) end.
Proof.
  intros Hd Hin. split.
  - intros <-. destruct (value (bs "storage") l) as [v|] eqn:E; [apply value_in; exact E|].
    intros H. apply in_map_iff in H. destruct H as ([m v] & Hm & H). change (m = bs "storage") in Hm. subst m.
    pose proof (value_spec _ _ _ Hd H) as Ev. rewrite E in Ev. subst v.
    destruct (Hin _ _ H) as (e & He & En & Ev).
    assert (e = value_entry "c" (bs "storage")) as -> by (eapply (g_name _ good_general); [exact He|left; reflexivity|exact En]).
    cbn in Ev. destruct Ev as [Ev _]. exact (Ev eq_refl eq_refl).
  - destruct p as [p|]; intros H; [exact (value_spec _ _ _ Hd H)|exact (value_none _ _ H)].
Qed.

Lemma parse_args_spec words p wait stdin c :
  parse_args words = Some (mk_inv p wait (mk_args stdin c)) <-> command_line words p stdin wait c.
Proof.
  unfold parse_args, command_line. change TOP_OPTIONS with (map as_opt general_table). split.
  - destruct (scan_top (map as_opt general_table) None words) as [[l [name rest]]|] eqn:Es; [|discriminate].
    apply scan_top_spec in Es; [|exact good_general]. destruct Es as (ws & -> & Ho & Hn).
    destruct (distinct (map fst l)) eqn:Ed; [|discriminate]. apply distinct_spec in Ed.
    destruct (parse_sub name rest) as [c'|] eqn:Ec; [|discriminate]. apply parse_sub_spec in Ec.
    intros [= Hp <- <- <-]. exists ws, (name :: rest), l. split; [reflexivity|]. split; [exact Ho|]. split; [exact Ed|].
    split; [exact Ec|]. split; [|split; apply flag_spec; reflexivity].
    apply storage_spec; [exact Ed|eapply options_only_in; exact Ho|exact Hp].
  - intros (ws & rest & l & -> & Ho & Hd & Hs & Hp & Hi & Hw).
    pose proof Hs as (name & table & rest' & l' & ps & -> & Ht & _).
    rewrite (scan_top_complete _ good_general _ _ _ _ Ho (name_plain _ _ Ht)), (proj2 (distinct_spec _) Hd).
    rewrite (proj2 (parse_sub_spec _ _ _) Hs).
    apply flag_spec in Hi, Hw. subst stdin wait. do 3 f_equal.
    apply storage_spec; [exact Hd|eapply options_only_in; exact Ho|exact Hp].
Qed.

(** Reading the output of [list]. *)
From Coq Require Import Sorted Permutation ZArith ZifyBool ZifyNat ZifyN.
From stdpp Require Import gmap.
From Verif Require Import M_Base M_Utf8 M_Prims M_Types M_Crypto M_Recovery M_Json M_Passwords S_Json S_Recovery S_Policy S_Vault M_History S_Api S_History
  P_Base P_Json P_Format P_Policy M_Cli S_Cli P_CliBase P_CliRecovery P_CliVault P_CliLives P_CliProps P_CliNext S_Listing.

(** * Lines *)

Definition lined (l : list bytes) : bytes := flat_map (fun x => x ++ [newline]) l.

Lemma lined_app a b : lined (a ++ b) = lined a ++ lined b.
Proof. apply flat_map_app. Qed.

Lemma lined_inj l : forall l', Forall one_line l -> Forall one_line l' -> lined l = lined l' -> l = l'.
Proof.
  assert (forall (x y a b : bytes), one_line x -> one_line y -> x ++ newline :: a = y ++ newline :: b -> x = y /\ a = b) as Hcut.
  { induction x as [|c x IH]; intros [|d y] a b Hx Hy; cbn [app].
    - intros [= ->]. split; reflexivity.
    - intros [= <- _]. elim Hy. left. reflexivity.
    - intros [= -> _]. elim Hx. left. reflexivity.
    - intros [= -> H]. destruct (IH y a b) as [-> ->].
      + intros Hin. apply Hx. right. exact Hin.
      + intros Hin. apply Hy. right. exact Hin.
      + exact H.
      + split; reflexivity. }
  induction l as [|x l IH]; intros [|y l'] Hl Hl' E.
  - reflexivity.
  - cbn in E. destruct y; discriminate E.
  - cbn in E. destruct x; discriminate E.
  - cbn [lined flat_map] in E. rewrite <- !app_assoc in E. cbn [app] in E.
    inversion Hl as [|? ? Hx Hr]; inversion Hl' as [|? ? Hx' Hr']; subst.
    destruct (Hcut _ _ _ _ Hx Hx' E) as [-> E']. f_equal. apply IH; assumption.
Qed.

(** The first part is what comes before the first element with a property. *)
Lemma break {A} (p : A -> bool) a : forall a' b b',
  Forall (fun x => p x = false) a -> Forall (fun x => p x = false) a' ->
  (forall x r, b = x :: r -> p x = true) -> (forall x r, b' = x :: r -> p x = true) ->
  a ++ b = a' ++ b' -> a = a' /\ b = b'.
Proof.
  induction a as [|x a IH]; intros [|x' a'] b b' Ha Ha' Hb Hb' E; cbn [app] in E.
  - split; [reflexivity|exact E].
  - inversion Ha'; subst. rewrite (Hb _ _ eq_refl) in *. discriminate.
  - inversion Ha; subst. rewrite (Hb' _ _ eq_refl) in *. discriminate.
  - injection E as -> E. inversion Ha; inversion Ha'; subst.
    destruct (IH a' b b') as [-> ->]; try assumption. split; reflexivity.
Qed.

(** Lists of pieces, each beginning with an element with a property. *)
Lemma pieces {A B} (p : B -> bool) (f : A -> B) (t : A -> list B) (Q : A -> Prop) l : forall l',
  (forall x, Q x -> p (f x) = true /\ Forall (fun y => p y = false) (t x)) ->
  Forall Q l -> Forall Q l' ->
  flat_map (fun x => f x :: t x) l = flat_map (fun x => f x :: t x) l' ->
  Forall2 (fun x x' => f x = f x' /\ t x = t x') l l'.
Proof.
  intros l' HQ Hl Hl'. revert l' Hl'. induction Hl as [|x l Hx Hl IH]; intros l' Hl' E.
  - destruct l'; [constructor|discriminate E].
  - destruct l' as [|x' l']; [discriminate E|]. inversion Hl' as [|? ? Hx' Hl'']; subst. cbn [flat_map app] in E. injection E as E1 E2.
    assert (forall l, Forall Q l -> forall y r, flat_map (fun x => f x :: t x) l = y :: r -> p y = true) as Hhead.
    { intros [|z l0] Hl0 y r; [discriminate|]. cbn [flat_map app]. intros [= <- _]. inversion Hl0; subst.
      apply HQ. assumption. }
    destruct (break p (t x) (t x') _ _ (proj2 (HQ x Hx)) (proj2 (HQ x' Hx')) (Hhead l Hl) (Hhead l' Hl'') E2) as [Et Er].
    constructor; [split; assumption|]. apply IH; assumption.
Qed.

(** * Passwords *)

Definition generated (e : entry) : bool := match e_secret e with SGenerated _ _ => true | SFixed _ => false end.
Definition title (n r : bytes) (gen : bool) : bytes :=
  bs "    " ++ n ++ bs " (" ++ (if gen then bs "generated" else bs "stored") ++
  (match r with [] => [] | _ => bs ", revision: " ++ r end) ++ bs ")".
Definition parameters (e : entry) : list bytes :=
  match e_secret e with
  | SGenerated len cs => [spaced ++ bs "Length: " ++ write_number len; spaced ++ bs "Allowed characters: " ++ charset_text cs]
  | SFixed _ => []
  end.
Definition notes_lines (e : entry) : list bytes :=
  match e_notes e with [] => [] | notes => [spaced ++ bs "Notes: " ++ notes] end.
Definition code_part (recovery : bool) (it : shown) : list bytes :=
  match recovery, e_secret (sh_item it).2 with
  | true, SFixed _ => (spaced ++ bs "Recovery code:") :: map (app spaced) (split_on newline (sh_code it))
  | _, _ => []
  end.
Definition details (show recovery verbose : bool) (it : shown) : list bytes :=
  (if show then [spaced ++ sh_value it] else []) ++ code_part recovery it ++
  (if verbose then notes_lines (sh_item it).2 ++ parameters (sh_item it).2 else []).

Lemma lined_map (l : list bytes) : lined (map (app spaced) l) = flat_map (fun line => spaced ++ line ++ [newline]) l.
Proof. induction l as [|x l IH]; [reflexivity|]. unfold lined in *. cbn [map flat_map]. rewrite IH, <- !app_assoc. reflexivity. Qed.

Lemma item_lines show recovery verbose it :
  item_text show recovery verbose it =
  lined (title (pid_name (sh_item it).1) (sh_item it).1.2 (generated (sh_item it).2) :: details show recovery verbose it).
Proof.
  destruct it as [[[[x n] r] e] value code]. unfold item_text, details, code_part, generated, title, pid_name.
  cbn [sh_item sh_value sh_code fst snd].
  change (lined ?a) with (flat_map (fun x : bytes => x ++ [newline]) a). cbn [flat_map].
  destruct (e_secret e) as [len cs|text] eqn:Es.
  - rewrite !flat_map_app. destruct show, recovery, verbose, (e_notes e) as [|c w] eqn:En;
      unfold notes_lines, parameters; rewrite ?En, ?Es; cbn [flat_map app]; rewrite ?app_nil_r, <- ?app_assoc;
      cbn [app]; rewrite <- ?app_assoc; reflexivity.
  - rewrite !flat_map_app. destruct show, recovery, verbose, (e_notes e) as [|c w] eqn:En;
      unfold notes_lines, parameters; rewrite ?En, ?Es; cbn [flat_map]; rewrite <- ?app_assoc;
      fold (lined (map (app spaced) (split_on newline code))); rewrite ?lined_map, ?app_nil_r, <- ?app_assoc;
      cbn [app flat_map]; rewrite ?app_nil_r, <- ?app_assoc; cbn [app]; rewrite <- ?app_assoc; reflexivity.
Qed.

Lemma last_paren (a a' w w' : bytes) : ~ In "("%byte w -> ~ In "("%byte w' ->
  a ++ "("%byte :: w = a' ++ "("%byte :: w' -> a = a' /\ w = w'.
Proof.
  intros Hw Hw' E. apply (f_equal (@rev byte)) in E. rewrite !rev_app_distr in E. cbn [rev] in E. rewrite <- !app_assoc in E. cbn [app] in E.
  apply (break (fun c => Byte.eqb c "("%byte)) in E.
  - destruct E as [E1 E2]. injection E2 as E2. apply (f_equal (@rev byte)) in E1, E2. rewrite !rev_involutive in E1, E2. split; assumption.
  - apply List.Forall_forall. intros c Hc. apply eqb_neq. intros ->. apply Hw, in_rev, Hc.
  - apply List.Forall_forall. intros c Hc. apply eqb_neq. intros ->. apply Hw', in_rev, Hc.
  - intros x r [= <- _]. reflexivity.
  - intros x r [= <- _]. reflexivity.
Qed.

Lemma title_inj n r g n' r' g' : revision_tidy r -> revision_tidy r' -> title n r g = title n' r' g' -> n = n' /\ r = r' /\ g = g'.
Proof.
  intros [_ Hr] [_ Hr'] E. unfold title in E. apply app_inv_head in E.
  set (w := fun (g : bool) (r : bytes) => (if g then bs "generated" else bs "stored") ++
    (match r with [] => [] | _ => bs ", revision: " ++ r end) ++ bs ")").
  assert (forall g r, ~ In "("%byte r -> ~ In "("%byte (w g r)) as Hw.
  { intros b q Hq Hin. unfold w in Hin. apply in_app_or in Hin. destruct Hin as [Hin|Hin].
    - destruct b; cbn in Hin; repeat (destruct Hin as [Hin|Hin]; [discriminate Hin|]); exact Hin.
    - apply in_app_or in Hin. destruct Hin as [Hin|[Hin|[]]]; [|discriminate Hin]. destruct q; [exact Hin|].
      apply in_app_or in Hin. destruct Hin as [Hin|Hin]; [|exact (Hq Hin)].
      cbn in Hin. repeat (destruct Hin as [Hin|Hin]; [discriminate Hin|]). exact Hin. }
  assert (forall n (g : bool) r, n ++ bs " (" ++ (if g then bs "generated" else bs "stored") ++
    (match r with [] => [] | _ => bs ", revision: " ++ r end) ++ bs ")" = (n ++ bs " ") ++ "("%byte :: w g r) as Ht.
  { intros. unfold w. rewrite <- app_assoc. reflexivity. }
  rewrite !Ht in E. apply last_paren in E; [|apply Hw; assumption..]. destruct E as [E1 E2].
  apply app_inv_tail in E1. split; [exact E1|]. unfold w in E2.
  destruct g, g'; [|destruct r, r'; discriminate E2..|]; apply app_inv_head in E2;
    (destruct r as [|c r], r' as [|c' r']; try discriminate E2;
     [split; reflexivity|apply app_inv_tail, app_inv_head in E2; split; [exact E2|reflexivity]]).
Qed.

Lemma charset_text_inj c c' : charset_text c = charset_text c' -> c = c'.
Proof. destruct c as [[] [] [] []], c' as [[] [] [] []]; try reflexivity; discriminate. Qed.

Lemma split_on_lines c s : Forall (fun l => ~ In c l) (split_on c s).
Proof.
  induction s as [|x s IH]; cbn [split_on]; [constructor; [intros []|constructor]|].
  destruct (Byte.eqb x c) eqn:E; [constructor; [intros []|exact IH]|].
  apply eqb_neq in E. destruct (split_on c s) as [|p ps]; inversion IH; subst.
  - constructor; [|constructor]. intros [H|[]]; congruence.
  - constructor; [|assumption]. intros [H|H]; [congruence|contradiction].
Qed.

Lemma split_on_inj c s : forall s', split_on c s = split_on c s' -> s = s'.
Proof.
  assert (forall s, split_on c s <> []) as Hne.
  { intros [|x q]; cbn [split_on]; [discriminate|]. destruct (Byte.eqb x c); [discriminate|]. destruct (split_on c q); discriminate. }
  induction s as [|x s IH]; intros [|x' s']; cbn [split_on].
  - reflexivity.
  - destruct (Byte.eqb x' c); [intros [= H]; symmetry in H; elim (Hne _ H)|]. destruct (split_on c s') eqn:E; [elim (Hne _ E)|discriminate].
  - destruct (Byte.eqb x c); [intros [= H]; elim (Hne _ H)|]. destruct (split_on c s) eqn:E; [elim (Hne _ E)|discriminate].
  - destruct (Byte.eqb x c) eqn:Ex, (Byte.eqb x' c) eqn:Ex'.
    + apply eqb_eq in Ex, Ex'. subst. intros [= H]. f_equal. apply IH, H.
    + destruct (split_on c s') eqn:E; [elim (Hne _ E)|discriminate].
    + destruct (split_on c s) eqn:E; [elim (Hne _ E)|discriminate].
    + destruct (split_on c s) as [|p ps] eqn:E; [elim (Hne _ E)|]. destruct (split_on c s') as [|p' ps'] eqn:E'; [elim (Hne _ E')|].
      intros [= -> -> ->]. f_equal. apply IH. rewrite E'. reflexivity.
Qed.

Lemma split_on_in c s l x : In l (split_on c s) -> In x l -> In x s.
Proof.
  revert l. induction s as [|y s IH]; intros l; cbn [split_on].
  - intros [<-|[]] [].
  - destruct (Byte.eqb y c).
    + intros [<-|H] Hx; [destruct Hx|]. right. eapply IH; eassumption.
    + destruct (split_on c s) as [|p ps].
      * intros [<-|[]] [<-|[]]. left. reflexivity.
      * intros [<-|H] Hx.
        -- destruct Hx as [<-|Hx]; [left; reflexivity|]. right. apply (IH p); [left; reflexivity|exact Hx].
        -- right. apply (IH l); [right; exact H|exact Hx].
Qed.

(** Everything but titles starts with eight spaces. *)
Definition detail (l : bytes) : bool := starts_with spaced l.
(** A space after the first eight *)
Definition roomy (l : bytes) : bool := existsb (Byte.eqb " "%byte) (skipn 8 l).

Lemma starts_with_app p s : starts_with p (p ++ s) = true.
Proof.
  unfold starts_with. assert (strip_prefix p (p ++ s) = Some s) as ->; [|reflexivity].
  induction p as [|c p IH]; [destruct s; reflexivity|]. cbn [app strip_prefix]. rewrite eqb_refl. exact IH.
Qed.

Lemma details_detail show recovery verbose it : Forall (fun l => detail l = true) (details show recovery verbose it).
Proof.
  unfold details, code_part, notes_lines, parameters. repeat apply Forall_app_2.
  - destruct show; repeat constructor; apply starts_with_app.
  - destruct recovery, (e_secret (sh_item it).2); constructor; try apply starts_with_app.
    apply List.Forall_forall. intros l Hl. apply in_map_iff in Hl. destruct Hl as (l' & <- & _). apply starts_with_app.
  - destruct verbose; [|constructor]. apply Forall_app_2.
    + destruct (e_notes _); repeat constructor; apply starts_with_app.
    + destruct (e_secret _); repeat constructor; apply starts_with_app.
Qed.

Lemma starts_with_some p : forall s, starts_with p s = true -> exists w, s = p ++ w.
Proof.
  unfold starts_with. induction p as [|c p IH]; intros s; [intros _; exists s; reflexivity|].
  destruct s as [|d s]; [discriminate|]. cbn [strip_prefix]. destruct (Byte.eqb c d) eqn:E; [|discriminate].
  apply eqb_eq in E. subst d. intros H. destruct (IH s H) as [w ->]. exists w. reflexivity.
Qed.

Lemma title_not_detail n r g : name_tidy n -> detail (title n r g) = false.
Proof.
  intros [_ Hn]. destruct (detail (title n r g)) eqn:E; [|reflexivity]. exfalso.
  apply starts_with_some in E. destruct E as [w E]. unfold title in E.
  change spaced with (bs "    " ++ bs "    ") in E. rewrite <- app_assoc in E. apply app_inv_head in E.
  destruct n as [|c n]; [discriminate E|]. injection E as -> _. elim (Hn n). reflexivity.
Qed.

Lemma in_app_no (x : byte) a b : ~ In x a -> ~ In x b -> ~ In x (a ++ b).
Proof. intros Ha Hb H. apply in_app_or in H. destruct H; contradiction. Qed.

Ltac literal := let H := fresh in intros H; cbn in H; repeat (destruct H as [H|H]; [discriminate H|]); exact H.

Lemma title_line n r g : name_tidy n -> revision_tidy r -> one_line (title n r g).
Proof.
  intros [Hn _] [Hr _]. unfold title, one_line. repeat apply in_app_no; try assumption; try literal.
  - destruct g; literal.
  - destruct r; [intros []|]. apply in_app_no; [literal|exact Hr].
Qed.

Lemma write_number_line n : (n <= u64_max)%N -> one_line (write_number n).
Proof.
  intros H. destruct (write_number_spec n H) as [Hd _]. apply decimal_spec in Hd. destruct Hd as (_ & Hd & _).
  intros Hin. rewrite forallb_forall in Hd. specialize (Hd _ Hin). discriminate Hd.
Qed.

Lemma charset_line cs : one_line (charset_text cs).
Proof. destruct cs as [[] [] [] []]; literal. Qed.

Lemma details_line show recovery verbose it : item_tidy show recovery verbose it ->
  Forall one_line (details show recovery verbose it).
Proof.
  intros [_ _ [Hnotes Hsec] Hv _]. unfold details, code_part, notes_lines, parameters.
  assert (one_line spaced) as Hs by literal.
  repeat apply Forall_app_2.
  - destruct show; repeat constructor. apply in_app_no; [exact Hs|apply Hv; reflexivity].
  - destruct recovery, (e_secret (sh_item it).2); constructor; [apply in_app_no; [exact Hs|literal]|].
    apply List.Forall_forall. intros l Hl. apply in_map_iff in Hl. destruct Hl as (l' & <- & Hl').
    apply in_app_no; [exact Hs|]. pose proof (split_on_lines newline (sh_code it)) as H.
    rewrite List.Forall_forall in H. apply H, Hl'.
  - destruct verbose; [|constructor]. apply Forall_app_2.
    + specialize (Hnotes eq_refl). destruct (e_notes _); repeat constructor.
      repeat apply in_app_no; [exact Hs|literal|exact Hnotes].
    + destruct (e_secret _); repeat constructor.
      * repeat apply in_app_no; [exact Hs|literal|apply write_number_line; exact Hsec].
      * repeat apply in_app_no; [exact Hs|literal|apply charset_line].
Qed.

Lemma map_app_inj (p : bytes) l : forall l', map (app p) l = map (app p) l' -> l = l'.
Proof.
  induction l as [|x l IH]; intros [|x' l']; try discriminate; [reflexivity|].
  cbn [map]. intros [= H1 H2]. apply app_inv_head in H1. f_equal; [exact H1|apply IH, H2].
Qed.

Lemma notes_inj e e' : notes_lines e = notes_lines e' -> e_notes e = e_notes e'.
Proof.
  unfold notes_lines. destruct (e_notes e), (e_notes e'); try discriminate; [reflexivity|].
  intros [= H]. subst. reflexivity.
Qed.

Lemma parameters_inj e e' : generated e = generated e' ->
  match e_secret e with SGenerated len _ => (len <= u64_max)%N | _ => True end ->
  match e_secret e' with SGenerated len _ => (len <= u64_max)%N | _ => True end ->
  notes_lines e ++ parameters e = notes_lines e' ++ parameters e' ->
  e_notes e = e_notes e' /\
  match e_secret e with SGenerated len cs => Some (len, cs) | SFixed _ => None end =
  match e_secret e' with SGenerated len cs => Some (len, cs) | SFixed _ => None end.
Proof.
  intros Hg He He' E.
  assert (notes_lines e = notes_lines e' /\ parameters e = parameters e') as [E1 E2].
  { apply app_inj_1; [|exact E]. apply (f_equal (@length bytes)) in E. rewrite !app_length in E.
    unfold parameters, generated in *. destruct (e_secret e), (e_secret e'); try discriminate Hg; cbn [length] in E; lia. }
  split; [apply notes_inj, E1|]. unfold parameters, generated in *.
  destruct (e_secret e) as [len cs|], (e_secret e') as [len' cs'|]; try discriminate Hg; [|reflexivity].
  injection E2 as E2 E3.
  assert (write_number len = write_number len') as E2' by congruence.
  assert (charset_text cs = charset_text cs') as E3' by congruence.
  apply write_number_inj in E2'; [|assumption..]. apply charset_text_inj in E3'. subst. reflexivity.
Qed.

Lemma details_inj show recovery verbose it it' :
  item_tidy show recovery verbose it -> item_tidy show recovery verbose it' ->
  pid_name (sh_item it).1 = pid_name (sh_item it').1 -> (sh_item it).1.2 = (sh_item it').1.2 ->
  generated (sh_item it).2 = generated (sh_item it').2 ->
  details show recovery verbose it = details show recovery verbose it' ->
  item_view show recovery verbose it = item_view show recovery verbose it'.
Proof.
  destruct it as [[[[x n] r] e] value code], it' as [[[[x' n'] r'] e'] value' code'].
  unfold pid_name. cbn [sh_item sh_value sh_code fst snd]. intros [_ _ [_ He] _ Hc] [_ _ [_ He'] _ Hc'] <- <- Hg E.
  cbn [sh_item sh_value sh_code fst snd] in *.
  unfold item_view, details in *. cbn [sh_item sh_value sh_code fst snd] in *.
  assert ((if show then Some value else None) = (if show then Some value' else None) /\
    code_part recovery (mk_shown (x, n, r, e) value code) ++ (if verbose then notes_lines e ++ parameters e else []) =
    code_part recovery (mk_shown (x', n, r, e') value' code') ++ (if verbose then notes_lines e' ++ parameters e' else [])) as [Ev E1].
  { destruct show; [|split; [reflexivity|exact E]]. cbn [app] in E. injection E as E1 E2.
    split; [|exact E2]. f_equal. congruence. }
  assert (match recovery, e_secret e with true, SFixed _ => Some code | _, _ => None end =
          match recovery, e_secret e' with true, SFixed _ => Some code' | _, _ => None end /\
    (if verbose then notes_lines e ++ parameters e else []) = (if verbose then notes_lines e' ++ parameters e' else [])) as [Ec E2].
  { unfold code_part, generated in *. cbn [sh_item sh_value sh_code fst snd] in *.
    destruct recovery; [|split; [reflexivity|exact E1]].
    destruct (e_secret e) as [len cs|text] eqn:Es, (e_secret e') as [len' cs'|text'] eqn:Es'; try discriminate Hg;
      [split; [reflexivity|exact E1]|].
    cbn [app] in E1. injection E1 as E1.
    apply (break roomy) in E1.
    - destruct E1 as [E1 E2]. split; [|exact E2]. apply (map_app_inj spaced), split_on_inj in E1. congruence.
    - apply List.Forall_forall. intros l Hl. apply in_map_iff in Hl. destruct Hl as (l' & <- & Hl').
      unfold roomy. change (skipn 8 (spaced ++ l')) with l'. apply not_true_is_false. intros H.
      apply existsb_exists in H. destruct H as (c & H1 & H2). apply eqb_eq in H2. subst c.
      apply (Hc eq_refl text eq_refl). eapply split_on_in; eassumption.
    - apply List.Forall_forall. intros l Hl. apply in_map_iff in Hl. destruct Hl as (l' & <- & Hl').
      unfold roomy. change (skipn 8 (spaced ++ l')) with l'. apply not_true_is_false. intros H.
      apply existsb_exists in H. destruct H as (c & H1 & H2). apply eqb_eq in H2. subst c.
      apply (Hc' eq_refl text' eq_refl). eapply split_on_in; eassumption.
    - intros l q. destruct verbose; [|discriminate]. unfold notes_lines, parameters. rewrite Es.
      destruct (e_notes e); [discriminate|]. intros [= <- _]. reflexivity.
    - intros l q. destruct verbose; [|discriminate]. unfold notes_lines, parameters. rewrite Es'.
      destruct (e_notes e'); [discriminate|]. intros [= <- _]. reflexivity. }
  rewrite Ev, Ec. unfold generated in Hg. rewrite Hg. f_equal. destruct verbose; [|reflexivity].
  destruct (parameters_inj e e') as [En Ep].
  - exact Hg.
  - destruct (e_secret e); [exact He|exact I].
  - destruct (e_secret e'); [exact He'|exact I].
  - exact E2.
  - rewrite En, Ep. reflexivity.
Qed.

(** * Sites *)

Definition item_part (show recovery verbose : bool) (items : list shown) : list bytes :=
  flat_map (fun it => title (pid_name (sh_item it).1) (sh_item it).1.2 (generated (sh_item it).2) ::
                      details show recovery verbose it) items.

Lemma items_lines show recovery verbose items :
  flat_map (item_text show recovery verbose) items = lined (item_part show recovery verbose items).
Proof.
  induction items as [|it items IH]; [reflexivity|]. unfold item_part in *. cbn [flat_map]. rewrite item_lines, IH.
  rewrite <- lined_app. reflexivity.
Qed.

Lemma items_inj show recovery verbose l l' :
  Forall (item_tidy show recovery verbose) l -> Forall (item_tidy show recovery verbose) l' ->
  item_part show recovery verbose l = item_part show recovery verbose l' ->
  map (item_view show recovery verbose) l = map (item_view show recovery verbose) l'.
Proof.
  intros Hl Hl' E. unfold item_part in E.
  apply (pieces (fun x => negb (detail x)) (fun it => title (pid_name (sh_item it).1) (sh_item it).1.2 (generated (sh_item it).2))
    (details show recovery verbose) (item_tidy show recovery verbose)) in E; [|intros it Hit; split|exact Hl|exact Hl'].
  - induction E as [|it it' l l' [E1 E2] E IH]; [reflexivity|]. inversion Hl; inversion Hl'; subst. cbn [map].
    f_equal; [|apply IH; assumption]. apply title_inj in E1; [|eapply it_revision; eassumption..].
    destruct E1 as (En & Er & Eg). apply details_inj; assumption.
  - rewrite title_not_detail; [reflexivity|apply Hit].
  - eapply Forall_impl; [|apply details_detail]. intros x Hx. cbn beta in *. rewrite Hx. reflexivity.
Qed.

Lemma items_line show recovery verbose l : Forall (item_tidy show recovery verbose) l ->
  Forall one_line (item_part show recovery verbose l).
Proof.
  induction 1 as [|it l Hit Hl IH]; [constructor|]. unfold item_part in *. cbn [flat_map]. constructor.
  - apply title_line; apply Hit.
  - apply Forall_app_2; [apply details_line, Hit|exact IH].
Qed.

Definition far : bytes := bs "             ".
Fixpoint alias_lines (p : bytes) (l : list bytes) : list bytes :=
  match l with
  | [] => []
  | [y] => [p ++ y]
  | y :: l' => (p ++ y ++ bs ",") :: alias_lines far l'
  end.
Definition alias_part (verbose : bool) (l : list bytes) : list bytes :=
  if verbose then alias_lines (bs "    Aliases: ") l else [].

Lemma alias_lined p l : l <> [] -> p ++ join (bs "," ++ [newline] ++ far) l ++ [newline] = lined (alias_lines p l).
Proof.
  revert p. induction l as [|y l IH]; intros p H; [congruence|]. destruct l as [|y' l].
  - cbn. rewrite <- !app_assoc. reflexivity.
  - rewrite join_cons by discriminate.
    assert (lined (alias_lines p (y :: y' :: l)) = ((p ++ y ++ bs ",") ++ [newline]) ++ lined (alias_lines far (y' :: l))) as -> by reflexivity.
    rewrite <- (IH far) by discriminate. rewrite <- !app_assoc. reflexivity.
Qed.

Lemma group_lines show recovery verbose x aliases items :
  group_text show recovery verbose x aliases items =
  lined ((bs "Passwords for " ++ x ++ bs ":") :: alias_part verbose aliases ++ item_part show recovery verbose items).
Proof.
  unfold group_text. change (lined (?a :: ?b)) with ((a ++ [newline]) ++ lined b). rewrite lined_app, <- items_lines, <- !app_assoc.
  do 4 f_equal. unfold alias_part. destruct verbose; [|reflexivity]. destruct aliases as [|y l]; [reflexivity|].
  rewrite <- alias_lined by discriminate. rewrite <- !app_assoc. reflexivity.
Qed.

Lemma alias_lines_inj l : forall p l', alias_lines p l = alias_lines p l' -> l = l'.
Proof.
  assert (forall p y (l : list bytes), alias_lines p (y :: l) <> []) as Hne by (intros p y [|z q]; discriminate).
  induction l as [|y l IH]; intros p [|y' l'] E.
  - reflexivity.
  - symmetry in E. elim (Hne _ _ _ E).
  - elim (Hne _ _ _ E).
  - destruct l as [|z l], l' as [|z' l']; cbn [alias_lines] in E.
    + injection E as E. apply app_inv_head in E. subst. reflexivity.
    + injection E as _ E. symmetry in E. elim (Hne far z' l' E).
    + injection E as _ E. elim (Hne far z l E).
    + injection E as E1 E2. apply app_inv_head, app_inv_tail in E1. f_equal; [exact E1|]. apply (IH far), E2.
Qed.

Lemma alias_lines_line p l : one_line p -> Forall alias_tidy l -> Forall one_line (alias_lines p l).
Proof.
  intros Hp Hl. revert p Hp. induction Hl as [|y l [Hy _] Hl IH]; intros p Hp; [constructor|].
  assert (one_line far) as Hf by literal.
  destruct l as [|z l]; cbn [alias_lines]; constructor; try constructor.
  - apply in_app_no; assumption.
  - apply in_app_no; [exact Hp|]. apply in_app_no; [exact Hy|literal].
  - exact (IH far Hf).
Qed.

Lemma far_detail l : Forall (fun x => detail x = true) (alias_lines far l).
Proof.
  induction l as [|y l IH]; [constructor|]. destruct l as [|z l].
  - constructor; [exact (starts_with_app spaced (bs "     " ++ y))|constructor].
  - constructor; [exact (starts_with_app spaced (bs "     " ++ y ++ bs ","))|exact IH].
Qed.

Lemma alias_first p y l : exists f r, alias_lines p (y :: l) = f :: r /\ Forall (fun x => detail x = true) r /\
  (f = p ++ y \/ f = p ++ y ++ bs ",").
Proof.
  destruct l as [|z l].
  - exists (p ++ y), []. split; [reflexivity|]. split; [constructor|]. left. reflexivity.
  - exists (p ++ y ++ bs ","), (alias_lines far (z :: l)). split; [reflexivity|]. split; [apply far_detail|]. right. reflexivity.
Qed.

Lemma alias_not_title y l n r g w w' : alias_tidy y ->
  alias_lines (bs "    Aliases: ") (y :: l) ++ w <> title n r g :: w'.
Proof.
  intros [_ Hy] E. destruct (alias_first (bs "    Aliases: ") y l) as (f & q & Ef & _ & Hf). rewrite Ef in E.
  cbn [app] in E. injection E as E _.
  assert (exists u, f = u ++ [")"%byte]) as [u Hu].
  { exists (bs "    " ++ n ++ bs " (" ++ (if g then bs "generated" else bs "stored") ++
       (match r with [] => [] | _ => bs ", revision: " ++ r end)). rewrite E. unfold title. rewrite <- !app_assoc. reflexivity. }
  destruct Hf as [Hf|Hf]; rewrite Hf in Hu.
  - destruct y as [|c y] using rev_ind.
    + rewrite app_nil_r in Hu. apply (f_equal (@rev byte)) in Hu. rewrite (rev_app_distr u) in Hu. discriminate Hu.
    + rewrite app_assoc in Hu. apply app_inj_tail in Hu. destruct Hu as [_ ->]. exact (Hy y eq_refl).
  - rewrite app_assoc in Hu. apply app_inj_tail in Hu. destruct Hu as [_ Hu]. discriminate Hu.
Qed.

Lemma group_inj show recovery verbose g g' :
  group_tidy show recovery verbose g -> group_tidy show recovery verbose g' ->
  alias_part verbose (gr_aliases g) ++ item_part show recovery verbose (gr_items g) =
  alias_part verbose (gr_aliases g') ++ item_part show recovery verbose (gr_items g') ->
  (if verbose then gr_aliases g else []) = (if verbose then gr_aliases g' else []) /\
  item_part show recovery verbose (gr_items g) = item_part show recovery verbose (gr_items g').
Proof.
  intros [_ Ha Hs Hi] [_ Ha' Hs' Hi'] E. destruct verbose; [|split; [reflexivity|exact E]].
  specialize (Ha eq_refl). specialize (Ha' eq_refl). unfold alias_part in E.
  assert (forall l, l <> [] -> exists n r b w, item_part show recovery true l = title n r b :: w) as Hfirst.
  { intros [|it l] H; [congruence|]. unfold item_part. cbn [flat_map app]. eexists _, _, _, _. reflexivity. }
  assert (forall l, Forall (item_tidy show recovery true) l -> forall x w, item_part show recovery true l = x :: w -> negb (detail x) = true) as Hhead.
  { intros [|it l] Hl x w; [discriminate|]. unfold item_part. cbn [flat_map app]. intros [= <- _]. inversion Hl; subst.
    rewrite title_not_detail; [reflexivity|]. eapply it_name. eassumption. }
  destruct (gr_aliases g) as [|y l], (gr_aliases g') as [|y' l'].
  - split; [reflexivity|exact E].
  - exfalso. destruct (Hfirst _ Hs) as (n & r & b & w & Ef). rewrite Ef in E. symmetry in E. inversion Ha'; subst.
    eapply alias_not_title; [eassumption|exact E].
  - exfalso. destruct (Hfirst _ Hs') as (n & r & b & w & Ef). rewrite Ef in E. inversion Ha; subst.
    eapply alias_not_title; [eassumption|exact E].
  - destruct (alias_first (bs "    Aliases: ") y l) as (f & q & Ef & Hq & _).
    destruct (alias_first (bs "    Aliases: ") y' l') as (f' & q' & Ef' & Hq' & _).
    rewrite Ef, Ef' in E. cbn [app] in E. injection E as E1 E2.
    apply (break (fun x => negb (detail x))) in E2.
    + destruct E2 as [-> E2]. split; [|exact E2]. subst f'. rewrite <- Ef' in Ef. apply alias_lines_inj in Ef. exact Ef.
    + eapply Forall_impl; [|exact Hq]. intros x Hx. cbn beta in *. rewrite Hx. reflexivity.
    + eapply Forall_impl; [|exact Hq']. intros x Hx. cbn beta in *. rewrite Hx. reflexivity.
    + intros x w. apply Hhead, Hi.
    + intros x w. apply Hhead, Hi'.
Qed.

(** * The whole list *)

Definition headline (l : bytes) : bool := starts_with (bs "P") l.

Lemma detail_not_headline l : detail l = true -> headline l = false.
Proof.
  intros H. apply starts_with_some in H. destruct H as [w ->]. reflexivity.
Qed.

Lemma tail_not_headline show recovery verbose g :
  Forall (fun x => headline x = false) (alias_part verbose (gr_aliases g) ++ item_part show recovery verbose (gr_items g)).
Proof.
  apply Forall_app_2.
  - unfold alias_part. destruct verbose; [|constructor]. destruct (gr_aliases g) as [|y l]; [constructor|].
    destruct (alias_first (bs "    Aliases: ") y l) as (f & q & -> & Hq & Hf). constructor.
    + destruct Hf as [-> | ->]; reflexivity.
    + eapply Forall_impl; [|exact Hq]. intros x Hx. apply detail_not_headline, Hx.
  - unfold item_part. induction (gr_items g) as [|it l IH]; [constructor|]. cbn [flat_map app]. constructor; [reflexivity|].
    apply Forall_app_2; [|exact IH]. eapply Forall_impl; [|apply details_detail]. intros x Hx. apply detail_not_headline, Hx.
Qed.

Lemma group_line show recovery verbose g : group_tidy show recovery verbose g ->
  Forall one_line ((bs "Passwords for " ++ gr_site g ++ bs ":") ::
                   alias_part verbose (gr_aliases g) ++ item_part show recovery verbose (gr_items g)).
Proof.
  intros [Hx Ha _ Hi]. constructor; [apply in_app_no; [literal|apply in_app_no; [exact Hx|literal]]|].
  apply Forall_app_2; [|apply items_line, Hi]. unfold alias_part. destruct verbose; [|constructor].
  apply alias_lines_line; [literal|apply Ha; reflexivity].
Qed.

Lemma list_readable show recovery verbose l l' :
  Forall (group_tidy show recovery verbose) l -> Forall (group_tidy show recovery verbose) l' ->
  list_text show recovery verbose l = list_text show recovery verbose l' ->
  map (group_view show recovery verbose) l = map (group_view show recovery verbose) l'.
Proof.
  intros Hl Hl' E.
  set (h := fun g => bs "Passwords for " ++ gr_site g ++ bs ":").
  set (t := fun g => alias_part verbose (gr_aliases g) ++ item_part show recovery verbose (gr_items g)).
  assert (forall l, flat_map (fun g => group_text show recovery verbose (gr_site g) (gr_aliases g) (gr_items g)) l =
                    lined (flat_map (fun g => h g :: t g) l)) as Ht.
  { intros q. induction q as [|g q IH]; [reflexivity|]. cbn [flat_map]. rewrite group_lines, IH, <- lined_app. reflexivity. }
  assert (flat_map (fun g => h g :: t g) l = flat_map (fun g => h g :: t g) l') as E'.
  { unfold list_text in E. destruct l as [|g l], l' as [|g' l'].
    - reflexivity.
    - discriminate E.
    - discriminate E.
    - rewrite !Ht in E. apply lined_inj; [| |exact E].
      + apply List.Forall_forall. intros x Hx. apply in_flat_map in Hx. destruct Hx as (y & Hy & Hx).
        rewrite List.Forall_forall in Hl. pose proof (group_line _ _ _ _ (Hl y Hy)) as H. rewrite List.Forall_forall in H. exact (H x Hx).
      + apply List.Forall_forall. intros x Hx. apply in_flat_map in Hx. destruct Hx as (y & Hy & Hx).
        rewrite List.Forall_forall in Hl'. pose proof (group_line _ _ _ _ (Hl' y Hy)) as H. rewrite List.Forall_forall in H. exact (H x Hx). }
  apply (pieces headline h t (group_tidy show recovery verbose)) in E'; [|intros g Hg; split|exact Hl|exact Hl'].
  - clear E. induction E' as [|g g' l l' [E1 E2] E IH]; [reflexivity|]. inversion Hl; inversion Hl'; subst. cbn [map].
    f_equal; [|apply IH; assumption]. unfold h in E1. apply app_inv_head, app_inv_tail in E1. unfold t in E2.
    destruct (group_inj show recovery verbose g g') as [Ea Ei]; [assumption..|].
    unfold group_view. rewrite E1, Ea. f_equal. apply items_inj; [eapply gt_items; eassumption..|exact Ei].
  - reflexivity.
  - apply tail_not_headline.
Qed.

(** * Vaults *)

Lemma derived_line P pp salt len cs pw : derive_password P pp salt len cs = Ok pw -> one_line pw.
Proof.
  unfold derive_password. destruct (derive_bits P pp salt len) as [l| |]; [|discriminate..]. cbn [bind].
  destruct (Nat.eq_dec (cs_len cs) 0) as [E|E].
  - apply cs_len_zero in E. subst. rewrite to_password_empty_charset. destruct l; [|discriminate]. intros [= <-] [].
  - intros H. apply to_password_policy in H; [|exact E]. destruct H as (_ & ts & Hf & _). intros Hin.
    assert (exists t, char_of t newline) as [t Ht].
    { clear - Hf Hin. induction Hf as [|t c ts pw Hc _ IH]; [destruct Hin|].
      destruct Hin as [-> |Hin]; [exists t; exact Hc|apply IH, Hin]. }
    unfold char_of in Ht. change (Byte.to_N newline) with 10%N in Ht. destruct t; lia.
Qed.

Lemma layout_no_space s : Forall inA s -> ~ In " "%byte (layout s).
Proof.
  intros Hs H. unfold layout in H. apply in_join in H. destruct H as [[H|[]]|(l & Hl & H)]; [discriminate H|].
  apply in_map_iff in Hl. destruct Hl as (c & <- & Hc). apply in_layout_line in H. destruct H as [H|[H|H]]; try discriminate H.
  pose proof (in_chunks _ _ _ _ Hc H) as Hin. rewrite List.Forall_forall in Hs. specialize (Hs _ Hin).
  cbn in Hs. repeat (destruct Hs as [Hs|Hs]; [discriminate Hs|]). exact Hs.
Qed.

Lemma shows_tidy P pp v domain name sh rc vb g : vault_tidy sh vb v -> shows P pp v domain name sh rc g -> group_tidy sh rc vb g.
Proof.
  intros [Hs Hi He] [Hl Ha _ Hsome _ Hitems _ Hv _ Hc]. constructor.
  - destruct Hl as [_ [[Hl _]|(y & Hl & _)]]; destruct (Hs _ _ Hl) as [H1 H2].
    + exact (proj1 H1).
    + exact (proj1 (H2 _ eq_refl)).
  - intros _. apply List.Forall_forall. intros y Hy. apply Ha in Hy. destruct Hy as [Hy _]. exact (proj1 (Hs _ _ Hy)).
  - exact Hsome.
  - apply List.Forall_forall. intros it Hit. destruct it as [[i e] value code]. 
    assert (v_pw v !! i = Some e) as Hpw.
    { apply (Hitems i e). exists (mk_shown (i, e) value code). split; [exact Hit|reflexivity]. }
    constructor; cbn [sh_item sh_value sh_code fst snd].
    + exact (proj1 (Hi _ _ Hpw)).
    + exact (proj2 (Hi _ _ Hpw)).
    + exact (He _ _ Hpw).
    + intros Hsh. specialize (Hv Hsh _ Hit). cbn [sh_item sh_value fst snd] in Hv. destruct (He _ _ Hpw) as [_ Hsec].
      destruct (e_secret e) as [len cs|text]; cbn [reveal] in Hv.
      * destruct (derive_password _ _ _ _ _) eqn:Ed; [|discriminate Hv..]. injection Hv as <-. apply derived_line in Ed. exact Ed.
      * injection Hv as <-. apply Hsec, Hsh.
    + intros Hrc text Et. pose proof (Hc Hrc _ text Hit Et) as Hlay. cbn [sh_code] in Hlay. rewrite Hlay.
      apply layout_no_space, significant_inA.
Qed.

Lemma views_in show recovery verbose l l' :
  map (group_view show recovery verbose) l = map (group_view show recovery verbose) l' ->
  forall g it, In g l -> In it (gr_items g) ->
  exists g' it', In g' l' /\ In it' (gr_items g') /\ gr_site g = gr_site g' /\
    item_view show recovery verbose it = item_view show recovery verbose it'.
Proof.
  intros E g it Hg Hit. assert (In (group_view show recovery verbose g) (map (group_view show recovery verbose) l')) as H.
  { rewrite <- E. apply in_map, Hg. }
  apply in_map_iff in H. destruct H as (g' & Eg & Hg'). injection Eg as E1 _ E3.
  assert (In (item_view show recovery verbose it) (map (item_view show recovery verbose) (gr_items g'))) as H.
  { rewrite E3. apply in_map, Hit. }
  apply in_map_iff in H. destruct H as (it' & Ei & Hit'). exists g', it'. auto.
Qed.

Lemma same_listing P pp v P' pp' v' domain name sh rc vb l l' :
  vault_tidy sh vb v -> vault_tidy sh vb v' ->
  Forall (shows P pp v domain name sh rc) l -> Forall (shows P' pp' v' domain name sh rc) l' ->
  (forall x i e, shows_site P v domain x -> shows_password P v name x i e -> In x (map gr_site l)) ->
  list_text sh rc vb l = list_text sh rc vb l' ->
  forall i e, listed_as P v domain name i e ->
  exists e', listed_as P' v' domain name i e' /\ looks_like sh vb P pp P' pp' i e e'.
Proof.
  intros Hv Hv' Hl Hl' Hall E i e [Hsite Hpw].
  assert (map (group_view sh rc vb) l = map (group_view sh rc vb) l') as Eg.
  { apply list_readable; [| |exact E].
    - eapply Forall_impl; [|exact Hl]. intros g. apply shows_tidy, Hv.
    - eapply Forall_impl; [|exact Hl']. intros g. apply shows_tidy, Hv'. }
  pose proof (Hall _ _ _ Hsite Hpw) as Hx. apply in_map_iff in Hx. destruct Hx as (g & Hgx & Hg).
  rewrite List.Forall_forall in Hl, Hl'. pose proof (Hl _ Hg) as Hs.
  assert (exists it, In it (gr_items g) /\ sh_item it = (i, e)) as (it & Hit & Ei).
  { apply (sh_items _ _ _ _ _ _ _ _ Hs). rewrite Hgx. exact Hpw. }
  destruct (views_in _ _ _ _ _ Eg g it Hg Hit) as (g' & it' & Hg' & Hit' & Esite & Eview).
  pose proof (Hl' _ Hg') as Hs'. destruct (sh_item it') as [i' e'] eqn:Ei'.
  assert (shows_password P' v' name (gr_site g') i' e') as Hpw'.
  { apply (sh_items _ _ _ _ _ _ _ _ Hs'). exists it'. split; assumption. }
  assert (pid_site i' = gr_site g') as Hp' by apply Hpw'.
  unfold item_view in Eview. rewrite Ei, Ei' in Eview. destruct i as [[x n] r], i' as [[x' n'] r'].
  unfold pid_site in *. cbn [fst snd] in *. injection Eview as En Er Egen Evalue _ Everb.
  assert (x' = x) as -> by congruence. subst n' r'.
  exists e'. split; [split; cbn [pid_site fst snd]; unfold pid_site; cbn [fst snd]|].
  - rewrite Hp'. apply (sh_listed _ _ _ _ _ _ _ _ Hs').
  - rewrite Hp' at 1. exact Hpw'.
  - assert (sh = true -> reveal P pp (x, n, r) (e_secret e) = reveal P' pp' (x, n, r) (e_secret e')) as Hrev.
    { intros Hsh. pose proof (sh_values _ _ _ _ _ _ _ _ Hs Hsh _ Hit) as H1. pose proof (sh_values _ _ _ _ _ _ _ _ Hs' Hsh _ Hit') as H2.
      rewrite Ei in H1. rewrite Ei' in H2. cbn [fst snd] in H1, H2. rewrite H1, H2. subst sh. injection Evalue as ->. reflexivity. }
    split; [exact Hrev|]. split.
    + intros ->. injection Everb as Hn _. exact Hn.
    + destruct (e_secret e) as [len cs|text], (e_secret e') as [len' cs'|text']; try discriminate Egen.
      * intros ->. injection Everb as _ H1 H2. split; assumption.
      * intros Hsh. specialize (Hrev Hsh). injection Hrev as Hrev. exact Hrev.
Qed.

Lemma listing_tells P sc l s0 P' sc' l' s0' :
  sound P sc l s0 -> (forall x, In x (sc_sites sc) -> host x = x) -> unlocked (snd (run P l s0)) = true ->
  sound P' sc' l' s0' -> (forall x, In x (sc_sites sc') -> host x = x) -> unlocked (snd (run P' l' s0')) = true ->
  exists pp v wrs pp' v' wrs',
    writes_ok P l wrs s0 /\ w_mem (fst (vrun P wrs nothing l)) = Some (pp, v) /\
    writes_ok P' l' wrs' s0' /\ w_mem (fst (vrun P' wrs' nothing l')) = Some (pp', v') /\
    forall E path sp domain name sh rc vb t t1 E' path' sp' t' t1' text,
      chains_match P v domain -> chains_match P' v' domain -> vault_tidy sh vb v -> vault_tidy sh vb v' ->
      ready t -> t_st t = snd (run P l s0) -> ready t' -> t_st t' = snd (run P' l' s0') ->
      process_simple P E path sp (List domain name sh rc vb) t = (COk tt, t1) ->
      process_simple P' E' path' sp' (List domain name sh rc vb) t' = (COk tt, t1') ->
      t_shown t1 = t_shown t ++ text -> t_shown t1' = t_shown t' ++ text ->
      forall i e, listed_as P v domain name i e ->
      exists e', listed_as P' v' domain name i e' /\ looks_like sh vb P pp P' pp' i e e'.
Proof.
  intros So Hh Hu So' Hh' Hu'.
  destruct (list_output P sc l s0 So Hh Hu) as (pp & v & wrs & _ & Hw & Hm & Hout).
  destruct (list_output P' sc' l' s0' So' Hh' Hu') as (pp' & v' & wrs' & _ & Hw' & Hm' & Hout').
  exists pp, v, wrs, pp', v', wrs'. do 4 (split; [assumption|]).
  intros E path sp domain name sh rc vb t t1 E' path' sp' t' t1' text Hn Hn' Hv Hv' Hr Ht Hr' Ht' Hp Hp' Hs Hs'.
  destruct (Hout E path sp domain name sh rc vb t t1 Hn Hr Ht Hp) as (g & Hg & _ & Hall & Htext & _).
  destruct (Hout' E' path' sp' domain name sh rc vb t' t1' Hn' Hr' Ht' Hp') as (g' & Hg' & _ & _ & Htext' & _).
  rewrite Hs in Htext. apply app_inv_head in Htext. rewrite Hs' in Htext'. apply app_inv_head in Htext'.
  eapply same_listing; [exact Hv|exact Hv'|exact Hg|exact Hg'|exact Hall|congruence].
Qed.

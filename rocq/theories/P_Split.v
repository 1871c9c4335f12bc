(** Lines typed in the shell are split into words as described in [S_Args]. *)
From stdpp Require Import gmap.
From Coq Require Import ZArith ZifyBool ZifyNat ZifyN.
From Verif Require Import M_Base M_Utf8 M_Prims M_Types M_Recovery M_Json M_Storage M_Passwords M_Cli.
From Verif Require Import P_Base P_Utf8 S_Utf8 S_Trim S_Cli P_CliBase P_Trim M_Args S_Args.

(** * Without fuel *)

Definition pieces (next : bytes -> bytes -> option (list bytes)) (field s : bytes) : option (list bytes) :=
  let after (field rest : bytes) : option (list bytes) :=
    match rest with
    | [] => Some [field]
    | _ =>
        match strip_any whitespace rest with
        | Some rest' => match next [] rest' with Some l => Some (field :: l) | None => None end
        | None => next field rest
        end
    end in
  match trim_start s with
  | [] => Some []
  | c :: r =>
      if Byte.eqb c "'"%byte then
        match span_single r with Some (w, rest) => after (field ++ w) rest | None => None end
      else if Byte.eqb c """"%byte then
        match span_double r with Some (w, rest) => after (field ++ w) rest | None => None end
      else if Byte.eqb c "\"%byte then
        match r with
        | x :: r' => if Byte.eqb x newline then after (field ++ [c]) r else after (field ++ [x]) r'
        | [] => after (field ++ [c]) r
        end
      else let '(w, rest) := span_plain (c :: r) in after (field ++ w) rest
  end.
Lemma split_words_S f field s : split_words (S f) field s = pieces (split_words f) field s.
Proof. reflexivity. Qed.

Lemma strip_any_shorter s r : strip_any whitespace s = Some r -> length r < length s.
Proof.
  intros H. apply strip_any_some in H. destruct H as (w & Hw & ->). apply whitespace_utf8 in Hw. destruct Hw as (_ & Hw & _).
  rewrite app_length. destruct w; [congruence|cbn; lia].
Qed.
Lemma trim_start_shorter s : length (trim_start s) <= length s.
Proof. destruct (trim_start_spec s) as (a & E & _). rewrite E at 2. rewrite app_length. lia. Qed.
Lemma span_single_spec s w rest : span_single s = Some (w, rest) <-> ~ In "'"%byte w /\ s = w ++ "'"%byte :: rest.
Proof.
  revert w rest. induction s as [|c r IH]; intros w rest; cbn.
  - split; [discriminate|]. intros [_ H]. destruct w; discriminate H.
  - destruct (Byte.eqb c "'"%byte) eqn:E.
    + apply Byte.byte_dec_bl in E. subst c. split.
      * intros [= <- <-]. auto.
      * intros [Hn H]. destruct w as [|x w]; injection H as ?; subst; [reflexivity|]. exfalso. apply Hn. left. reflexivity.
    + destruct (span_single r) as [[a b]|] eqn:Er.
      * split.
        -- intros [= <- <-]. destruct (proj1 (IH a b) eq_refl) as [H1 ->]. split; [|reflexivity].
           intros [-> | H]; [discriminate E|contradiction].
        -- intros [Hn H]. destruct w as [|x w]; injection H as -> H; [discriminate E|].
           assert (Some (a, b) = Some (w, rest)) as [= -> ->]; [|reflexivity].
           apply IH. split; [|exact H]. intros Hi. apply Hn. right. exact Hi.
      * split; [discriminate|]. intros [Hn H]. destruct w as [|x w]; injection H as -> H; [discriminate E|].
        assert (@None (bytes * bytes) = Some (w, rest)) as C; [|discriminate C].
        apply IH. split; [|exact H]. intros Hi. apply Hn. right. exact Hi.
Qed.
Lemma span_double_shorter_fuel n : forall s, length s <= n -> forall w rest, span_double s = Some (w, rest) -> length rest < length s.
Proof.
  induction n as [|n IH]; intros s Hn w rest; (destruct s as [|c r]; [discriminate|]); cbn in Hn; [lia|]. cbn [span_double].
  destruct (Byte.eqb c """"%byte); [intros [= <- <-]; cbn; lia|].
  destruct (Byte.eqb c "\"%byte).
  - destruct r as [|x r']; [discriminate|]. cbn in Hn. destruct (Byte.eqb x newline); [discriminate|].
    destruct (span_double r') as [[a b]|] eqn:E; [|discriminate]. intros [= _ <-]. apply IH in E; [cbn; lia|lia].
  - destruct (span_double r) as [[a b]|] eqn:E; [|discriminate]. intros [= _ <-]. apply IH in E; [cbn; lia|lia].
Qed.
Lemma span_plain_spec s w rest : span_plain s = (w, rest) -> s = w ++ rest.
Proof.
  revert w rest. induction s as [|c r IH]; intros w rest; cbn [span_plain]; [intros [= <- <-]; reflexivity|].
  destruct (_ || _); [intros [= <- <-]; reflexivity|].
  destruct (span_plain r) as [a b]. intros [= <- <-]. cbn. f_equal. apply IH. reflexivity.
Qed.

Lemma pieces_ext f g field s : (forall field' s', length s' < length s -> f field' s' = g field' s') -> pieces f field s = pieces g field s.
Proof.
  intros H. unfold pieces. pose proof (trim_start_shorter s) as L. destruct (trim_start s) as [|c r] eqn:Et; [reflexivity|].
  assert (strip_any whitespace (c :: r) = None) as Nw.
  { destruct (strip_any whitespace (c :: r)) as [x|] eqn:E; [|reflexivity]. apply strip_any_some in E. destruct E as (w & Hw & E).
    destruct (trim_start_spec s) as (_ & _ & _ & Hn). rewrite Et in Hn. exfalso. exact (Hn w x Hw E). }
  assert (forall field rest, length rest < length s ->
    match rest with
    | [] => Some [field]
    | _ => match strip_any whitespace rest with
           | Some rest' => match f [] rest' with Some l => Some (field :: l) | None => None end
           | None => f field rest end end =
    match rest with
    | [] => Some [field]
    | _ => match strip_any whitespace rest with
           | Some rest' => match g [] rest' with Some l => Some (field :: l) | None => None end
           | None => g field rest end end) as A.
  { intros fl rest Hl. destruct rest as [|x rest]; [reflexivity|].
    destruct (strip_any whitespace (x :: rest)) as [rest'|] eqn:E.
    - apply strip_any_shorter in E. rewrite H by lia. reflexivity.
    - apply H. exact Hl. }
  cbn in L. destruct (Byte.eqb c "'"%byte) eqn:E1.
  { destruct (span_single r) as [[w rest]|] eqn:E; [|reflexivity]. apply span_single_spec in E. destruct E as [_ ->].
    apply A. rewrite app_length in L. cbn in L. lia. }
  destruct (Byte.eqb c """"%byte) eqn:E2.
  { destruct (span_double r) as [[w rest]|] eqn:E; [|reflexivity].
    apply (span_double_shorter_fuel (length r)) in E; [|lia]. apply A. lia. }
  destruct (Byte.eqb c "\"%byte) eqn:E3.
  { destruct r as [|x r']; [reflexivity|]. cbn in L.
    destruct (Byte.eqb x newline); [apply (A (field ++ [c]) (x :: r'))|apply (A (field ++ [x]) r')]; cbn; lia. }
  assert (exists w rest, span_plain (c :: r) = (c :: w, rest)) as (w & rest & E).
  { cbn [span_plain]. unfold special. rewrite E1, E2, E3, Nw. cbn. destruct (span_plain r) as [w rest]. eauto. }
  rewrite E. apply span_plain_spec in E. injection E as E. subst r. rewrite app_length in L. apply A. lia.
Qed.

Lemma fuel_enough f g field s : length s < f -> length s < g -> split_words f field s = split_words g field s.
Proof.
  revert g field s. induction f as [|f IH]; intros g field s Hf Hg; [lia|].
  destruct g as [|g]; [lia|]. rewrite !split_words_S. apply pieces_ext. intros field' s' Hs. apply IH; lia.
Qed.

Definition words_of (field s : bytes) : option (list bytes) := split_words (S (length s)) field s.
Lemma words_of_eq field s : words_of field s = pieces words_of field s.
Proof.
  unfold words_of at 1. rewrite split_words_S. apply pieces_ext. intros field' s' Hs. apply fuel_enough; lia.
Qed.

(** Inside a word *)
Definition inside (field rest : bytes) : option (list bytes) :=
  match rest with
  | [] => Some [field]
  | _ => match strip_any whitespace rest with
         | Some rest' => match words_of [] rest' with Some l => Some (field :: l) | None => None end
         | None => words_of field rest
         end
  end.
Lemma trim_start_none s : strip_any whitespace s = None -> trim_start s = s.
Proof. intros H. unfold trim_start. destruct s as [|c r]; [reflexivity|]. cbn [length strip_all]. rewrite H. reflexivity. Qed.

Lemma words_inside field s : s <> [] -> strip_any whitespace s = None -> words_of field s = inside field s.
Proof. intros Hn H. unfold inside. rewrite H. destruct s; [congruence|reflexivity]. Qed.

Lemma not_white_front c r : In c (bs "'""\") -> strip_any whitespace (c :: r) = None.
Proof. intros H. cbn [In bs] in H. repeat (destruct H as [<-|H]; [reflexivity|]). destruct H. Qed.

Lemma inside_single field w rest : ~ In "'"%byte w -> inside field (bs "'" ++ w ++ bs "'" ++ rest) = inside (field ++ w) rest.
Proof.
  intros H. change (bs "'" ++ w ++ bs "'" ++ rest) with ("'"%byte :: w ++ "'"%byte :: rest).
  rewrite <- words_inside; [|discriminate|apply not_white_front; cbn; tauto].
  rewrite words_of_eq. unfold pieces. rewrite trim_start_none by (apply not_white_front; cbn; tauto).
  change (Byte.eqb "'" "'") with true. cbv iota.
  rewrite (proj2 (span_single_spec _ w rest) (conj H eq_refl)). reflexivity.
Qed.

Lemma byte_neq_eqb a b : a <> b -> Byte.eqb a b = false.
Proof. intros H. destruct (Byte.eqb a b) eqn:E; [|reflexivity]. apply Byte.byte_dec_bl in E. contradiction. Qed.
Lemma byte_eqb_refl a : Byte.eqb a a = true.
Proof. apply Byte.byte_dec_lb. reflexivity. Qed.

Lemma in_double_span t w rest : in_double t w -> span_double (t ++ """"%byte :: rest) = Some (w, rest).
Proof.
  induction 1 as [|c t w H1 H2 H IH|c t w H1 H IH|c t w H1 H2 H IH]; cbn [app span_double].
  - reflexivity.
  - rewrite (byte_neq_eqb _ _ H1), (byte_neq_eqb _ _ H2), IH. reflexivity.
  - change (Byte.eqb "\" """") with false. change (Byte.eqb "\" "\") with true. cbv iota. rewrite IH.
    assert (Byte.eqb c newline = false) as -> by (apply byte_neq_eqb; intros ->; revert H1; cbn; intuition discriminate).
    assert (existsb (Byte.eqb c) (bs "$`""\") = true) as ->
      by (apply existsb_exists; exists c; split; [exact H1|apply byte_eqb_refl]). reflexivity.
  - change (Byte.eqb "\" """") with false. change (Byte.eqb "\" "\") with true. cbv iota. rewrite IH.
    rewrite (byte_neq_eqb c newline H2).
    assert (existsb (Byte.eqb c) (bs "$`""\") = false) as ->; [|reflexivity].
    destruct (existsb (Byte.eqb c) (bs "$`""\")) eqn:E; [|reflexivity]. apply existsb_exists in E. destruct E as (x & Hx & E).
    apply Byte.byte_dec_bl in E. subst. contradiction.
Qed.
Lemma inside_double field t w rest : in_double t w -> inside field (bs """" ++ t ++ bs """" ++ rest) = inside (field ++ w) rest.
Proof.
  intros H. change (bs """" ++ t ++ bs """" ++ rest) with (""""%byte :: t ++ """"%byte :: rest).
  rewrite <- words_inside; [|discriminate|apply not_white_front; cbn; tauto].
  rewrite words_of_eq. unfold pieces. rewrite trim_start_none by (apply not_white_front; cbn; tauto).
  change (Byte.eqb """" "'") with false. change (Byte.eqb """" """") with true. cbv iota.
  rewrite (in_double_span _ _ rest H). reflexivity.
Qed.
Lemma inside_escape field x rest : x <> newline -> inside field (bs "\" ++ x :: rest) = inside (field ++ [x]) rest.
Proof.
  intros H. change (bs "\" ++ x :: rest) with ("\"%byte :: x :: rest).
  rewrite <- words_inside; [|discriminate|apply not_white_front; cbn; tauto].
  rewrite words_of_eq. unfold pieces. rewrite trim_start_none by (apply not_white_front; cbn; tauto).
  change (Byte.eqb "\" "'") with false. change (Byte.eqb "\" """") with false. change (Byte.eqb "\" "\") with true. cbv iota.
  rewrite (byte_neq_eqb _ _ H). reflexivity.
Qed.

Lemma inside_backslash field rest : at_end rest -> inside field (bs "\" ++ rest) = inside (field ++ bs "\") rest.
Proof.
  intros H. change (bs "\" ++ rest) with ("\"%byte :: rest).
  rewrite <- words_inside; [|discriminate|apply not_white_front; cbn; tauto].
  rewrite words_of_eq. unfold pieces. rewrite trim_start_none by (apply not_white_front; cbn; tauto).
  change (Byte.eqb "\" "'") with false. change (Byte.eqb "\" """") with false. change (Byte.eqb "\" "\") with true. cbv iota.
  destruct H as [-> |(r & ->)]; reflexivity.
Qed.

Definition no_white (s : bytes) : Prop := strip_any whitespace s = None.
Lemma words_plain field c r : special c = false -> no_white (c :: r) ->
  words_of field (c :: r) = inside (field ++ fst (span_plain (c :: r))) (snd (span_plain (c :: r))).
Proof.
  intros Hs Hw. rewrite words_of_eq. unfold pieces. rewrite (trim_start_none _ Hw).
  unfold special in Hs. apply orb_false_iff in Hs. destruct Hs as [Hs H3]. apply orb_false_iff in Hs. destruct Hs as [H1 H2].
  rewrite H1, H2, H3. destruct (span_plain (c :: r)) as [w rest]. reflexivity.
Qed.
Lemma span_plain_cons c r : special c = false -> no_white (c :: r) ->
  span_plain (c :: r) = (c :: fst (span_plain r), snd (span_plain r)).
Proof. intros Hs Hw. cbn [span_plain]. rewrite Hs, Hw. cbn. destruct (span_plain r). reflexivity. Qed.

(** A byte that means nothing special *)
Lemma inside_plain field c r : special c = false -> no_white (c :: r) -> inside field (c :: r) = inside (field ++ [c]) r.
Proof.
  intros Hs Hw. rewrite <- words_inside by (discriminate || exact Hw). rewrite words_plain by assumption.
  rewrite span_plain_cons by assumption. cbn [fst snd]. change (c :: fst (span_plain r)) with ([c] ++ fst (span_plain r)).
  rewrite app_assoc. generalize (field ++ [c]). clear field. intros field.
  destruct r as [|d r']; [cbn; rewrite app_nil_r; reflexivity|].
  destruct (special d) eqn:Ed.
  - cbn [span_plain]. rewrite Ed. cbn [orb fst snd]. rewrite app_nil_r. reflexivity.
  - destruct (strip_any whitespace (d :: r')) eqn:Ew.
    + cbn [span_plain]. rewrite Ed, Ew. cbn [orb fst snd]. rewrite app_nil_r. reflexivity.
    + rewrite <- (words_inside field (d :: r')) by (discriminate || exact Ew). rewrite words_plain by assumption. reflexivity.
Qed.

Lemma cont_plain c r : cont c = true -> special c = false /\ no_white (c :: r).
Proof.
  intros H. split.
  - unfold special. apply orb_false_iff. split; [apply orb_false_iff; split|]; apply byte_neq_eqb; intros ->; discriminate H.
  - unfold no_white. destruct (strip_any whitespace (c :: r)) as [x|] eqn:E; [|reflexivity].
    apply strip_any_some in E. destruct E as (w & Hw & E). apply whitespace_utf8 in Hw. destruct Hw as (_ & _ & d & q & -> & Hd).
    injection E as -> _. congruence.
Qed.
Lemma inside_conts l : forall field r, forallb cont l = true -> inside field (l ++ r) = inside (field ++ l) r.
Proof.
  induction l as [|c l IH]; intros field r; [rewrite app_nil_r; reflexivity|]. cbn [forallb app]. intros H.
  apply andb_true_iff in H. destruct H as [Hc Hl]. destruct (cont_plain c (l ++ r) Hc) as [H1 H2].
  rewrite (inside_plain _ _ _ H1 H2), IH by exact Hl. rewrite <- app_assoc. reflexivity.
Qed.

(** A line is read from the left. *)
Lemma words_start s : words_of [] s = match trim_start s with [] => Some [] | s' => inside [] s' end.
Proof.
  destruct (trim_start_spec s) as (a & Ea & Sa & Na).
  destruct (trim_start s) as [|c r] eqn:Et.
  - rewrite words_of_eq. unfold pieces. rewrite Et. reflexivity.
  - assert (strip_any whitespace (c :: r) = None) as Nw.
    { destruct (strip_any whitespace (c :: r)) as [x|] eqn:E; [|reflexivity]. apply strip_any_some in E. destruct E as (w & Hw & E).
      exfalso. exact (Na w x Hw E). }
    rewrite <- words_inside by (discriminate || exact Nw). rewrite !words_of_eq. unfold pieces.
    rewrite Et, (trim_start_none _ Nw). reflexivity.
Qed.

Lemma strip_char c r : white c = true -> strip_any whitespace (utf8_char c ++ r) = Some r.
Proof.
  intros Hc. destruct (strip_any whitespace (utf8_char c ++ r)) as [x|] eqn:E.
  - apply strip_any_some in E. destruct E as (w & Hw & E). apply whitespace_white in Hw. destruct Hw as (d & Hd & ->).
    apply char_prefix in E; [|apply white_points; assumption..]. destruct E as [_ ->]. reflexivity.
  - exfalso. exact (strip_any_none _ _ E (utf8_char c) r (white_whitespace c Hc) eq_refl).
Qed.
Lemma char_not_white c r : point c -> white c = false -> no_white (utf8_char c ++ r).
Proof.
  intros Hp Hc. unfold no_white. destruct (strip_any whitespace (utf8_char c ++ r)) as [x|] eqn:E; [|reflexivity].
  apply strip_any_some in E. destruct E as (w & Hw & E). apply whitespace_white in Hw. destruct Hw as (d & Hd & ->).
  apply char_prefix in E; [|exact Hp|apply white_points; assumption]. destruct E as [-> _]. congruence.
Qed.
Lemma char_first c h r : scalar c -> utf8_char c = h :: r -> (Byte.to_N h < 128)%N -> Byte.to_N h = c.
Proof.
  intros Hc E H. unfold scalar in Hc. unfold utf8_char in E.
  destruct (N.ltb_spec c 0x80); [|destruct (N.ltb_spec c 0x800); [|destruct (N.ltb_spec c 0x10000)]];
    injection E as <- _; rewrite to_N_u8 in *; Z.div_mod_to_equations; lia.
Qed.
Lemma scalar_pt c : scalar c -> point c.
Proof. unfold scalar, point. lia. Qed.

Lemma inside_piece t w field rest : piece t w -> inside field (t ++ rest) = inside (field ++ w) rest.
Proof.
  intros H. destruct H as [c Hc Hw Hn|w Hw|t w Hw|c Hc Hn].
  - destruct (char_shape c (scalar_pt c Hc)) as (h & r & E & Hh & Hr).
    pose proof (char_not_white c rest (scalar_pt c Hc) Hw) as Nw. rewrite E in *. cbn [app] in *.
    rewrite inside_plain; [|unfold special|exact Nw].
    + rewrite inside_conts by exact Hr. rewrite <- app_assoc. reflexivity.
    + apply orb_false_iff; split; [apply orb_false_iff; split|]; apply byte_neq_eqb; intros ->; apply Hn;
        rewrite <- (char_first c _ _ Hc E) by (cbn; lia); cbn; tauto.
  - rewrite <- !app_assoc. apply inside_single. exact Hw.
  - rewrite <- !app_assoc. apply inside_double. exact Hw.
  - destruct (char_shape c (scalar_pt c Hc)) as (h & r & E & Hh & Hr). rewrite E in *. rewrite <- app_assoc. cbn [app].
    change (bs "\" ++ h :: r ++ rest) with (bs "\" ++ h :: (r ++ rest)). rewrite inside_escape.
    + rewrite inside_conts by exact Hr. rewrite <- app_assoc. reflexivity.
    + intros ->. apply Hn. rewrite <- (char_first c _ _ Hc E) by (cbn; lia). reflexivity.
Qed.
Lemma inside_word t w : typed_word t w -> forall field rest, inside field (t ++ rest) = inside (field ++ w) rest.
Proof.
  induction 1 as [t w H|t w t' w' H H' IH]; intros field rest; [apply inside_piece; exact H|].
  rewrite <- app_assoc, (inside_piece t w) by exact H. rewrite IH, <- app_assoc. reflexivity.
Qed.
Lemma piece_front t w rest : piece t w -> exists c r, t ++ rest = c :: r /\ no_white (c :: r).
Proof.
  intros H. destruct H as [c Hc Hw Hn|w Hw|t w Hw|c Hc Hn].
  - pose proof (char_not_white c rest (scalar_pt c Hc) Hw) as Nw.
    destruct (char_shape c (scalar_pt c Hc)) as (h & r & E & Hh & Hr). rewrite E in *. eauto.
  - eexists _, _. split; [reflexivity|]. apply not_white_front. cbn. tauto.
  - eexists _, _. split; [reflexivity|]. apply not_white_front. cbn. tauto.
  - eexists _, _. split; [reflexivity|]. apply not_white_front. cbn. tauto.
Qed.
Lemma word_front t w rest : typed_word t w -> exists c r, t ++ rest = c :: r /\ no_white (c :: r).
Proof.
  intros [t' w' H|t1 w1 t2 w2 H _]; [exact (piece_front _ _ rest H)|]. rewrite <- app_assoc. exact (piece_front _ _ (t2 ++ rest) H).
Qed.
Lemma strip_all_enough ws : (forall w, In w ws -> w <> []) -> forall f g s, length s <= f -> length s <= g -> strip_all f ws s = strip_all g ws s.
Proof.
  intros Hw. induction f as [|f IH]; intros g s Hf Hg.
  - destruct s; [|cbn in Hf; lia]. destruct g; [reflexivity|]. cbn. destruct (strip_any ws []) as [r|] eqn:E; [|reflexivity].
    apply strip_any_some in E. destruct E as (w & Hi & E). symmetry in E. apply app_eq_nil in E. destruct E as [-> _]. exfalso. exact (Hw _ Hi eq_refl).
  - destruct g as [|g].
    + destruct s; [|cbn in Hg; lia]. cbn. destruct (strip_any ws []) as [r|] eqn:E; [|reflexivity].
      apply strip_any_some in E. destruct E as (w & Hi & E). symmetry in E. apply app_eq_nil in E. destruct E as [-> _]. exfalso. exact (Hw _ Hi eq_refl).
    + cbn. destruct (strip_any ws s) as [r|] eqn:E; [|reflexivity]. apply strip_any_some in E. destruct E as (w & Hi & ->).
      specialize (Hw _ Hi). rewrite app_length in *. destruct w; [congruence|]. cbn in *. apply IH; lia.
Qed.
Lemma trim_start_white c s : white c = true -> trim_start (utf8_char c ++ s) = trim_start s.
Proof.
  intros H. unfold trim_start. destruct (length (utf8_char c ++ s)) as [|n] eqn:L.
  - exfalso. destruct (char_shape c (white_points c H)) as (h & r & E & _). rewrite E in L. discriminate L.
  - cbn [strip_all]. rewrite (strip_char c s H). apply strip_all_enough.
    + intros w Hw. apply whitespace_utf8. exact Hw.
    + rewrite app_length in L. destruct (char_shape c (white_points c H)) as (h & r & E & _). rewrite E in L. cbn in L. lia.
    + lia.
Qed.
Lemma trim_start_blank b s : blank b -> trim_start (b ++ s) = trim_start s.
Proof.
  intros (cs & -> & H). induction H as [|c cs Hc H IH]; [reflexivity|].
  rewrite text_cons, <- app_assoc, trim_start_white by exact Hc. exact IH.
Qed.
Lemma words_blank b s : blank b -> words_of [] (b ++ s) = words_of [] s.
Proof. intros H. rewrite !words_start, trim_start_blank by exact H. reflexivity. Qed.
Lemma words_after_blank b t w rest : blank b -> typed_word t w -> words_of [] (b ++ t ++ rest) = inside w rest.
Proof.
  intros Hb Hw. rewrite words_blank by exact Hb. rewrite words_start.
  destruct (word_front t w rest Hw) as (c & r & E & Nw). pose proof (inside_word t w Hw [] rest) as I. rewrite E in *.
  rewrite (trim_start_none _ Nw). exact I.
Qed.

Lemma words_after_word b t w c r : blank b -> (t = [] /\ w = []) \/ typed_word t w -> In c (bs "'""\") ->
  words_of [] (b ++ t ++ c :: r) = inside w (c :: r).
Proof.
  intros Hb [[-> ->]|Hw] Hc; [|exact (words_after_blank b t w (c :: r) Hb Hw)]. cbn [app].
  rewrite words_blank by exact Hb. apply words_inside; [discriminate|]. apply not_white_front. exact Hc.
Qed.
Lemma inside_ends w rest ws : ends rest -> words_of [] rest = Some ws -> inside w rest = Some (w :: ws).
Proof.
  intros He IH. unfold inside. destruct He as [-> |(c & r & Hc & ->)].
  - rewrite words_of_eq in IH. injection IH as <-. reflexivity.
  - rewrite (strip_char c r Hc). destruct (utf8_char c ++ r) as [|x y] eqn:Ex.
    { destruct (char_shape c (white_points c Hc)) as (h & q & E & _). rewrite E in Ex. discriminate Ex. }
    rewrite <- Ex in IH. rewrite words_start, (trim_start_white c r Hc), <- words_start in IH. rewrite IH. reflexivity.
Qed.
Lemma line_end_ends rest : at_end rest -> ends rest.
Proof. intros [-> |(r & ->)]; [left; reflexivity|right]. exists 10%N, r. split; reflexivity. Qed.
Lemma typed_words s ws : typed_line s ws -> words_of [] s = Some ws.
Proof.
  induction 1 as [b Hb|b t w rest ws Hb Hw He H IH|b t w rest ws Hb Hw He H IH].
  - rewrite <- (app_nil_r b), words_blank by exact Hb. reflexivity.
  - change (bs "\" ++ rest) with ("\"%byte :: rest).
    rewrite (words_after_word b t w "\"%byte rest Hb Hw) by (cbn; tauto).
    change ("\"%byte :: rest) with (bs "\" ++ rest). rewrite inside_backslash by exact He.
    apply inside_ends; [apply line_end_ends; exact He|exact IH].
  - rewrite (words_after_blank b t w rest Hb Hw). apply inside_ends; assumption.
Qed.

(** The other way round *)
Lemma span_double_in n : forall s, length s <= n -> forall w rest, span_double s = Some (w, rest) ->
  exists t, in_double t w /\ s = t ++ """"%byte :: rest.
Proof.
  induction n as [|n IH]; intros s Hn w rest; (destruct s as [|c r]; [discriminate|]); cbn in Hn; [lia|]. cbn [span_double].
  destruct (Byte.eqb c """"%byte) eqn:E1.
  { apply Byte.byte_dec_bl in E1. subst. intros [= <- <-]. exists []. split; [constructor|reflexivity]. }
  destruct (Byte.eqb c "\"%byte) eqn:E2.
  - apply Byte.byte_dec_bl in E2. subst. destruct r as [|x r']; [discriminate|]. cbn in Hn.
    destruct (Byte.eqb x newline) eqn:En; [discriminate|].
    destruct (span_double r') as [[a b]|] eqn:E; [|discriminate]. apply IH in E; [|lia]. destruct E as (t & Ht & ->).
    destruct (existsb (Byte.eqb x) (bs "$`""\")) eqn:Ex; intros [= <- <-].
    + exists ("\"%byte :: x :: t). split; [|reflexivity]. apply dbl_escape; [|exact Ht].
      apply existsb_exists in Ex. destruct Ex as (y & Hy & E). apply Byte.byte_dec_bl in E. subst. exact Hy.
    + exists ("\"%byte :: x :: t). split; [|reflexivity]. apply dbl_backslash; [| |exact Ht].
      * intros Hi. assert (existsb (Byte.eqb x) (bs "$`""\") = true) as C
          by (apply existsb_exists; exists x; split; [exact Hi|apply byte_eqb_refl]). rewrite C in Ex. discriminate Ex.
      * intros ->. discriminate En.
  - destruct (span_double r) as [[a b]|] eqn:E; [|discriminate]. apply IH in E; [|lia]. destruct E as (t & Ht & ->).
    intros [= <- <-]. exists (c :: t). split; [|reflexivity]. apply dbl_char; [| |exact Ht]; intros ->; discriminate.
Qed.
Lemma first_char s : utf8 s = true -> s <> [] -> exists c r, s = utf8_char c ++ r /\ scalar c /\ utf8 r = true.
Proof.
  intros H Hn. pose proof H as Hp. apply utf8_points in Hp. destruct Hp as (cs & Hs & ->).
  destruct Hs as [|c cs Hc Hs]; [exfalso; apply Hn; reflexivity|].
  exists c, (utf8_text cs). split; [reflexivity|]. split; [exact Hc|]. rewrite text_cons in H.
  destruct Hs as [|d cs Hd Hs]; [reflexivity|]. rewrite text_cons in *.
  destruct (char_shape d (scalar_pt d Hd)) as (h & q & E & Hh & _). rewrite E in *. cbn [app] in *.
  pose proof (utf8_cut h _ Hh _ H) as Uc. rewrite utf8_app in H by exact Uc. exact H.
Qed.
Lemma split_line s ws : typed_line s ws -> split s = Some ws.
Proof. exact (typed_words s ws). Qed.

(** * Broken lines *)

Lemma span_single_none s : ~ In "'"%byte s -> span_single s = None.
Proof.
  intros H. destruct (span_single s) as [[w r]|] eqn:E; [|reflexivity]. apply span_single_spec in E. destruct E as [_ ->].
  exfalso. apply H. apply in_or_app. right. left. reflexivity.
Qed.
Lemma span_double_none t w rest : in_double t w -> rest = [] \/ (exists r, rest = "\"%byte :: r /\ at_end r) -> span_double (t ++ rest) = None.
Proof.
  intros H Hr. induction H as [|c t w H1 H2 H IH|c t w H1 H IH|c t w H1 H2 H IH]; cbn [app span_double].
  - destruct Hr as [-> |(r & -> & [-> |(r' & ->)])]; reflexivity.
  - rewrite (byte_neq_eqb _ _ H1), (byte_neq_eqb _ _ H2), IH. reflexivity.
  - change (Byte.eqb "\" """") with false. change (Byte.eqb "\" "\") with true. cbv iota. rewrite IH.
    destruct (Byte.eqb c newline); reflexivity.
  - change (Byte.eqb "\" """") with false. change (Byte.eqb "\" "\") with true. cbv iota. rewrite IH.
    destruct (Byte.eqb c newline); reflexivity.
Qed.
Lemma open_front q : open_quote q -> exists c r, q = c :: r /\ In c (bs "'""\").
Proof. intros [w H|t w H|t w r H Hr]; eexists _, _; (split; [reflexivity|]); cbn; tauto. Qed.
Lemma inside_open field q : open_quote q -> inside field q = None.
Proof.
  intros [w H|t w H|t w r H Hr];
    [change (bs "'" ++ w) with ("'"%byte :: w)|change (bs """" ++ t) with (""""%byte :: t)
    |change (bs """" ++ t ++ bs "\" ++ r) with (""""%byte :: t ++ "\"%byte :: r)];
    (rewrite <- words_inside; [|discriminate|apply not_white_front; cbn; tauto]);
    rewrite words_of_eq; unfold pieces; (rewrite trim_start_none by (apply not_white_front; cbn; tauto)).
  - change (Byte.eqb "'" "'") with true. cbv iota. rewrite span_single_none by exact H. reflexivity.
  - change (Byte.eqb """" "'") with false. change (Byte.eqb """" """") with true. cbv iota.
    rewrite <- (app_nil_r t), (span_double_none t w) by tauto. reflexivity.
  - change (Byte.eqb """" "'") with false. change (Byte.eqb """" """") with true. cbv iota.
    rewrite (span_double_none t w); [reflexivity|exact H|]. right. exists r. auto.
Qed.
Lemma inside_ends_none w rest : ends rest -> words_of [] rest = None -> inside w rest = None.
Proof.
  intros He IH. unfold inside. destruct He as [-> |(c & r & Hc & ->)].
  - rewrite words_of_eq in IH. discriminate IH.
  - rewrite (strip_char c r Hc). destruct (utf8_char c ++ r) as [|x y] eqn:Ex.
    { destruct (char_shape c (white_points c Hc)) as (h & q & E & _). rewrite E in Ex. discriminate Ex. }
    rewrite <- Ex in IH. rewrite words_start, (trim_start_white c r Hc), <- words_start in IH. rewrite IH. reflexivity.
Qed.
Lemma broken_words s : broken_line s -> words_of [] s = None.
Proof.
  induction 1 as [b t w q Hb Hw Hq|b t w rest Hb Hw He H IH|b t w rest Hb Hw He H IH].
  - pose proof (inside_open w q Hq) as I. destruct (open_front q Hq) as (c & r & -> & Hc).
    rewrite (words_after_word b t w c r Hb Hw Hc). exact I.
  - change (bs "\" ++ rest) with ("\"%byte :: rest).
    rewrite (words_after_word b t w "\"%byte rest Hb Hw) by (cbn; tauto).
    change ("\"%byte :: rest) with (bs "\" ++ rest). rewrite inside_backslash by exact He.
    apply inside_ends_none; [apply line_end_ends; exact He|exact IH].
  - rewrite (words_after_blank b t w rest Hb Hw). apply inside_ends_none; assumption.
Qed.

(** * Every line is one or the other *)

Lemma ascii_special c : special c = true -> cont c = false /\ in_range 0 0x7f c = true.
Proof.
  unfold special. intros H. apply orb_true_iff in H. destruct H as [H|H]; [apply orb_true_iff in H; destruct H as [H|H]|];
    apply Byte.byte_dec_bl in H; subst; split; reflexivity.
Qed.
Lemma cut_special a c b : utf8 (a ++ c :: b) = true -> special c = true -> utf8 a = true /\ utf8 b = true.
Proof.
  intros H Hc. destruct (ascii_special c Hc) as [H1 H2]. pose proof (utf8_cut c b H1 a H) as Ha. split; [exact Ha|].
  rewrite utf8_app in H by exact Ha. rewrite utf8_1 in H by exact H2. exact H.
Qed.
Lemma span_double_open n : forall s, length s <= n -> span_double s = None ->
  exists t w, in_double t w /\ (s = t \/ exists r, s = t ++ "\"%byte :: r /\ at_end r).
Proof.
  induction n as [|n IH]; intros s Hn; (destruct s as [|c r]; [intros _; exists [], []; split; [constructor|left; reflexivity]|]); cbn in Hn; [lia|].
  cbn [span_double]. destruct (Byte.eqb c """"%byte) eqn:E1; [discriminate|].
  destruct (Byte.eqb c "\"%byte) eqn:E2.
  - apply Byte.byte_dec_bl in E2. subst. destruct r as [|x r'].
    { intros _. exists [], []. split; [constructor|]. right. exists []. split; [reflexivity|left; reflexivity]. }
    destruct (Byte.eqb x newline) eqn:En.
    { intros _. apply Byte.byte_dec_bl in En. subst. exists [], []. split; [constructor|]. right. eexists. split; [reflexivity|right; eexists; reflexivity]. }
    cbn in Hn. destruct (span_double r') as [[a b]|] eqn:E; [discriminate|]. intros _. apply IH in E; [|lia].
    destruct E as (t & w & Ht & Hr). 
    assert (exists w', in_double ("\"%byte :: x :: t) w') as (w' & Hw').
    { destruct (existsb (Byte.eqb x) (bs "$`""\")) eqn:Ex.
      - exists (x :: w). apply dbl_escape; [|exact Ht].
        apply existsb_exists in Ex. destruct Ex as (y & Hy & E). apply Byte.byte_dec_bl in E. subst. exact Hy.
      - exists ("\"%byte :: x :: w). apply dbl_backslash; [| |exact Ht].
        + intros Hi. assert (existsb (Byte.eqb x) (bs "$`""\") = true) as C
            by (apply existsb_exists; exists x; split; [exact Hi|apply byte_eqb_refl]). rewrite C in Ex. discriminate Ex.
        + intros ->. discriminate En. }
    exists ("\"%byte :: x :: t), w'. split; [exact Hw'|]. destruct Hr as [-> |(q & -> & Hq)]; [left; reflexivity|right].
    exists q. split; [reflexivity|exact Hq].
  - destruct (span_double r) as [[a b]|] eqn:E; [discriminate|]. intros _. apply IH in E; [|lia].
    destruct E as (t & w & Ht & Hr). exists (c :: t), (c :: w).
    split; [apply dbl_char; [| |exact Ht]; intros ->; discriminate|].
    destruct Hr as [-> |(q & -> & Hq)]; [left; reflexivity|right]. exists q. split; [reflexivity|exact Hq].
Qed.

Definition stops (rest : bytes) : Prop :=
  ends rest \/ (exists r, rest = bs "\" ++ r /\ at_end r /\ utf8 r = true) \/ open_quote rest.
Lemma word_cases n : forall rest, length rest <= n -> utf8 rest = true ->
  exists t w rest', (t = [] /\ w = [] \/ typed_word t w) /\ rest = t ++ rest' /\ utf8 rest' = true /\ stops rest'.
Proof.
  induction n as [|n IH]; intros rest Hn Hu.
  { destruct rest; [|cbn in Hn; lia]. exists [], [], []. split; [auto|]. split; [reflexivity|]. split; [reflexivity|]. left. left. reflexivity. }
  destruct rest as [|x y] eqn:Er.
  { exists [], [], []. split; [auto|]. split; [reflexivity|]. split; [reflexivity|]. left. left. reflexivity. }
  rewrite <- Er in *. assert (rest <> []) as Hne by (rewrite Er; discriminate). clear Er x y.
  destruct (strip_any whitespace rest) as [r|] eqn:Ew.
  { apply strip_any_some in Ew. destruct Ew as (w & Hw & E). apply whitespace_white in Hw. destruct Hw as (c & Hc & ->).
    exists [], [], rest. split; [auto|]. split; [reflexivity|]. split; [exact Hu|]. left. right. exists c, r. auto. }
  assert (forall t1 w1 rest1, piece t1 w1 -> rest = t1 ++ rest1 -> length rest1 < length rest -> utf8 rest1 = true ->
    exists t w rest', (t = [] /\ w = [] \/ typed_word t w) /\ rest = t ++ rest' /\ utf8 rest' = true /\ stops rest') as Step.
  { intros t1 w1 rest1 Hp E Hl Hu1. destruct (IH rest1 ltac:(lia) Hu1) as (t & w & rest' & Ht & -> & Hu' & Hs).
    exists (t1 ++ t), (w1 ++ w), rest'. split; [right|split; [rewrite <- app_assoc; exact E|auto]].
    destruct Ht as [[-> ->]|Ht]; [rewrite !app_nil_r; apply word_one; exact Hp|apply word_more; assumption]. }
  assert (forall s, stops s -> rest = s -> exists t w rest', (t = [] /\ w = [] \/ typed_word t w) /\ rest = t ++ rest' /\ utf8 rest' = true /\ stops rest') as Stop.
  { intros s Hs <-. exists [], [], rest. split; [auto|]. auto. }
  destruct rest as [|c r]; [congruence|].
  destruct (Byte.eqb c "'"%byte) eqn:E1.
  { apply Byte.byte_dec_bl in E1. subst. destruct (cut_special [] _ _ Hu eq_refl) as [_ H2].
    destruct (span_single r) as [[w rest1]|] eqn:E.
    - apply span_single_spec in E. destruct E as [H3 ->]. apply (Step (bs "'" ++ w ++ bs "'") w rest1).
      + apply piece_single. exact H3.
      + rewrite <- !app_assoc. reflexivity.
      + cbn [length]. rewrite app_length. cbn. lia.
      + destruct (cut_special _ _ _ H2 eq_refl) as [_ H4]. exact H4.
    - apply (Stop (bs "'" ++ r)); [|reflexivity]. right. right. apply open_single. intros Hi.
      apply in_split in Hi. destruct Hi as (a & b & Hab). clear -E Hab. subst r.
      induction a as [|z a IHa]; cbn in E; [discriminate E|].
      destruct (Byte.eqb z "'"%byte); [discriminate E|]. destruct (span_single (a ++ "'"%byte :: b)) as [[? ?]|]; [discriminate E|auto]. }
  destruct (Byte.eqb c """"%byte) eqn:E2.
  { apply Byte.byte_dec_bl in E2. subst. destruct (cut_special [] _ _ Hu eq_refl) as [_ H2].
    destruct (span_double r) as [[w rest1]|] eqn:E.
    - pose proof (span_double_in (length r) r ltac:(lia) w rest1 E) as (t & Ht & ->).
      apply (Step (bs """" ++ t ++ bs """") w rest1).
      + apply piece_double. exact Ht.
      + rewrite <- !app_assoc. reflexivity.
      + cbn [length]. rewrite app_length. cbn. lia.
      + destruct (cut_special _ _ _ H2 eq_refl) as [_ H4]. exact H4.
    - apply (span_double_open (length r)) in E; [|lia]. destruct E as (t & w & Ht & Hr).
      apply (Stop (""""%byte :: r)); [|reflexivity]. right. right.
      destruct Hr as [-> |(q & -> & Hq)]; [exact (open_double t w Ht)|exact (open_backslash t w q Ht Hq)]. }
  destruct (Byte.eqb c "\"%byte) eqn:E3.
  { apply Byte.byte_dec_bl in E3. subst. destruct (cut_special [] _ _ Hu eq_refl) as [_ H2].
    destruct r as [|x r'] eqn:Er.
    { apply (Stop (bs "\" ++ [])); [|reflexivity]. right. left. exists []. split; [reflexivity|]. split; [left; reflexivity|reflexivity]. }
    rewrite <- Er in *. assert (r <> []) as Hr by (rewrite Er; discriminate).
    destruct (first_char r H2 Hr) as (d & r1 & Ed & Hd & Hu1).
    destruct (N.eqb_spec d 10) as [-> |Hd10].
    { apply (Stop (bs "\" ++ r)); [|reflexivity]. right. left. exists r. split; [reflexivity|]. split; [|exact H2].
      right. exists r1. rewrite Ed. reflexivity. }
    apply (Step (bs "\" ++ utf8_char d) (utf8_char d) r1).
    - apply piece_escape; assumption.
    - rewrite <- app_assoc, <- Ed. reflexivity.
    - cbn [length]. rewrite Ed, app_length. lia.
    - exact Hu1. }
  destruct (first_char (c :: r) Hu ltac:(discriminate)) as (d & r1 & Ed & Hd & Hu1).
  destruct (char_shape d (scalar_pt d Hd)) as (h & q & Eh & Hh & Hq). rewrite Eh in Ed. injection Ed as -> ->.
  apply (Step (utf8_char d) (utf8_char d) r1).
  - apply piece_char; [exact Hd| |].
    + destruct (white d) eqn:Ewd; [|reflexivity]. exfalso.
      apply (strip_any_none _ _ Ew (utf8_char d) r1 (white_whitespace d Ewd)). rewrite Eh. reflexivity.
    + intros Hi. assert (h = u8 d) as ->.
      { assert (d < 0x80)%N as L by (cbn in Hi; lia). unfold utf8_char in Eh. destruct (N.ltb_spec d 0x80); [|lia].
        injection Eh as <- _. reflexivity. }
      cbn in Hi. destruct Hi as [<-|[<-|[<-|[]]]]; discriminate.
  - rewrite Eh. reflexivity.
  - cbn [length]. rewrite app_length. lia.
  - exact Hu1.
Qed.

Lemma ends_not_word c r : no_white (c :: r) -> ~ ends (c :: r).
Proof.
  intros H [E|(d & q & Hd & E)]; [discriminate E|]. unfold no_white in H. rewrite E, (strip_char d q Hd) in H. discriminate H.
Qed.
Lemma line_cases n : forall s, length s <= n -> utf8 s = true -> (exists ws, typed_line s ws) \/ broken_line s.
Proof.
  induction n as [|n IH]; intros s Hn Hu.
  { destruct s; [|cbn in Hn; lia]. left. exists []. apply line_end. exists []. split; [reflexivity|constructor]. }
  destruct (trim_start_spec s) as (a & Ea & Sa & Na). pose proof (spaces_utf8 a Sa) as Ua. apply spaces_white in Sa.
  assert (blank a) as Ba by exact Sa. rewrite Ea, utf8_app in Hu by exact Ua. rewrite Ea in Hn. rewrite Ea. clear Ea Sa.
  revert Na Hn Hu. generalize (trim_start s). clear s. intros s Na Hn Hu. rewrite app_length in Hn.
  destruct s as [|c r].
  { left. exists []. rewrite app_nil_r. apply line_end. exact Ba. }
  assert (no_white (c :: r)) as Nw.
  { unfold no_white. destruct (strip_any whitespace (c :: r)) as [x|] eqn:E; [|reflexivity]. apply strip_any_some in E.
    destruct E as (w & Hw & E). exfalso. exact (Na w x Hw E). }
  destruct (word_cases (length (c :: r)) (c :: r) ltac:(lia) Hu) as (t & w & rest & Ht & E & Hu' & Hs). rewrite E in Hn. rewrite E.
  destruct Hs as [He|[(q & -> & Hq & Hq')|Ho]].
  - destruct Ht as [[-> ->]|Ht].
    { exfalso. apply (ends_not_word c r Nw). rewrite E. exact He. }
    destruct (IH rest) as [(ws & Hws)|Hb].
    + destruct (word_front t w [] Ht) as (? & ? & Et & _). rewrite app_nil_r in Et. subst t. rewrite app_length in Hn. cbn in Hn. lia.
    + exact Hu'.
    + left. exists (w :: ws). apply line_word; assumption.
    + right. apply (broken_later a t w rest); assumption.
  - destruct (IH q) as [(ws & Hws)|Hb].
    + rewrite !app_length in Hn. cbn in Hn. lia.
    + exact Hq'.
    + left. exists ((w ++ bs "\") :: ws). apply line_backslash; assumption.
    + right. apply (broken_backslash a t w q); assumption.
  - right. apply (broken_here a t w rest); assumption.
Qed.

Lemma split_spec s ws : utf8 s = true -> split s = Some ws <-> typed_line s ws.
Proof.
  intros Hu. split; [|apply split_line]. intros H. destruct (line_cases (length s) s ltac:(lia) Hu) as [(ws' & Hw)|Hb].
  - pose proof (split_line _ _ Hw) as H'. rewrite H in H'. injection H' as ->. exact Hw.
  - apply broken_words in Hb. change (split s = None) in Hb. congruence.
Qed.
Lemma split_broken s : utf8 s = true -> split s = None <-> broken_line s.
Proof.
  intros Hu. split; [|apply broken_words]. intros H. destruct (line_cases (length s) s ltac:(lia) Hu) as [(ws' & Hw)|Hb]; [|exact Hb].
  apply split_line in Hw. congruence.
Qed.

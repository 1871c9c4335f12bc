(** The JSON parser accepts exactly the documents of the grammar, and the writer produces such
    documents. *)
From Verif Require Import M_Base M_Utf8 M_Json S_Utf8 S_Json P_Base.
From Coq Require Import ZArith ZifyBool ZifyNat ZifyN.
Ltac Zify.zify_post_hook ::= Z.div_mod_to_equations.

(** * Whitespace *)

Lemma is_ws_spec c : is_ws c = true <-> In c [x20; x0a; x09; x0d].
Proof.
  unfold is_ws. rewrite !orb_true_iff, !eqb_eq. cbn [In]. intuition congruence.
Qed.

Lemma skip_ws_app w t : ws w -> skip_ws (w ++ t) = skip_ws t.
Proof.
  induction 1 as [|c w Hc _ IH]; [reflexivity|]. cbn [app skip_ws].
  apply is_ws_spec in Hc. rewrite Hc. exact IH.
Qed.

Lemma skip_ws_inv s : exists w, s = w ++ skip_ws s /\ ws w.
Proof.
  induction s as [|c s (w & Hs & Hw)]; [exists []; split; [reflexivity|constructor]|].
  cbn [skip_ws]. destruct (is_ws c) eqn:E.
  - exists (c :: w). split; [cbn [app]; congruence|]. constructor; [apply is_ws_spec, E|exact Hw].
  - exists []. split; [reflexivity|constructor].
Qed.

Lemma skip_ws_cons c t : is_ws c = false -> skip_ws (c :: t) = c :: t.
Proof. intros H. cbn [skip_ws]. rewrite H. reflexivity. Qed.

Lemma skip_ws_nil w : ws w -> skip_ws w = [].
Proof. intros H. rewrite <- (app_nil_r w), skip_ws_app by exact H. reflexivity. Qed.

(** * Numbers *)

Lemma digit_spec c v : digit c v <-> is_digit c = true /\ digit_value c = v.
Proof.
  unfold digit. split.
  - intros H. remember (N.to_nat v) as k eqn:Ek.
    assert (v = N.of_nat k) as -> by lia. clear Ek.
    do 10 (destruct k as [|k]; [injection H as <-; split; reflexivity|]).
    destruct k; discriminate H.
  - intros [H <-]. destruct c; try discriminate H; reflexivity.
Qed.

Lemma digits_value_snoc ds c : digits_value (ds ++ [c]) = (10 * digits_value ds + digit_value c)%N.
Proof. unfold digits_value. rewrite fold_left_app. cbn [fold_left]. lia. Qed.

Lemma decimal_spec ds n :
  decimal ds n <-> ds <> [] /\ forallb is_digit ds = true /\ digits_value ds = n.
Proof.
  split.
  - induction 1 as [c v H|ds n c v _ (_ & IH1 & IH2) H]; apply digit_spec in H; destruct H as [H <-].
    + split; [discriminate|]. cbn [forallb]. rewrite H. split; [reflexivity|].
      unfold digits_value. cbn [fold_left]. lia.
    + split; [destruct ds; discriminate|]. rewrite forallb_app, IH1. cbn [forallb].
      rewrite H, digits_value_snoc, IH2. split; reflexivity.
  - intros (Hne & Hd & <-). induction ds as [|c ds IH] using rev_ind; [congruence|].
    rewrite forallb_app in Hd. apply andb_true_iff in Hd. destruct Hd as [Hd Hc].
    cbn [forallb] in Hc. rewrite andb_true_r in Hc.
    destruct ds as [|d ds].
    + cbn [app]. assert (digits_value [c] = digit_value c) as ->
        by (unfold digits_value; cbn [fold_left]; lia).
      constructor. apply digit_spec. split; [exact Hc|reflexivity].
    + rewrite digits_value_snoc. constructor; [apply IH; [discriminate|exact Hd]|].
      apply digit_spec. split; [exact Hc|reflexivity].
Qed.

Lemma digits_spec ds : digits ds <-> ds <> [] /\ forallb is_digit ds = true.
Proof.
  unfold digits. split.
  - intros [n H]. apply decimal_spec in H. tauto.
  - intros [H1 H2]. exists (digits_value ds). apply decimal_spec. tauto.
Qed.

(** The next byte does not satisfy [f]. *)
Definition head_not (f : byte -> bool) (r : bytes) : Prop :=
  match r with [] => True | c :: _ => f c = false end.

Lemma span_digits_app ds r :
  forallb is_digit ds = true -> head_not is_digit r -> span_digits (ds ++ r) = (ds, r).
Proof.
  intros H Hr. induction ds as [|c ds IH]; cbn [app span_digits].
  - destruct r as [|c r]; [reflexivity|]. cbn [span_digits head_not] in *. rewrite Hr. reflexivity.
  - cbn [forallb] in H. apply andb_true_iff in H. destruct H as [Hc H]. rewrite Hc, (IH H).
    reflexivity.
Qed.

Lemma span_digits_inv s ds r : span_digits s = (ds, r) -> s = ds ++ r /\ forallb is_digit ds = true.
Proof.
  revert ds r; induction s as [|c s IH]; intros ds r; cbn [span_digits].
  - intros [= <- <-]. split; reflexivity.
  - destruct (is_digit c) eqn:E.
    + destruct (span_digits s) as [d r'] eqn:E2. intros [= <- <-].
      destruct (IH d r' eq_refl) as [-> H]. cbn [forallb app]. rewrite E, H. split; reflexivity.
    + intros [= <- <-]. split; reflexivity.
Qed.

(** What may follow a number: not a digit, '.', 'e' or 'E'. *)
Definition numeric (c : byte) : bool :=
  is_digit c || Byte.eqb c "."%byte || Byte.eqb c "e"%byte || Byte.eqb c "E"%byte.
Definition stop (r : bytes) : Prop := head_not numeric r.

Lemma stop_digit r : stop r -> head_not is_digit r.
Proof. destruct r as [|c r]; [easy|]. unfold stop, head_not, numeric. destruct (is_digit c); easy. Qed.

Lemma parse_exponent_app sign ds r :
  (sign = [] \/ sign = [x2b] \/ sign = [x2d]) -> digits ds -> stop r ->
  parse_exponent (sign ++ ds ++ r) = Some r.
Proof.
  intros Hs Hd Hr. apply digits_spec in Hd. destruct Hd as [Hne Hd].
  assert (span_digits (ds ++ r) = (ds, r)) as Hspan by (apply span_digits_app; [exact Hd|apply stop_digit, Hr]).
  assert (parse_exponent (sign ++ ds ++ r) =
          match span_digits (ds ++ r) with ([], _) => None | (_, r) => Some r end) as ->.
  { destruct Hs as [->|[->| ->]]; [|reflexivity|reflexivity].
    destruct ds as [|d ds]; [congruence|]. cbn [app]. unfold parse_exponent.
    cbn [forallb] in Hd. apply andb_true_iff in Hd. destruct Hd as [Hd _].
    assert (Byte.eqb d "+"%byte || Byte.eqb d "-"%byte = false) as ->
      by (destruct d; try reflexivity; discriminate Hd).
    reflexivity. }
  rewrite Hspan. destruct ds; [congruence|reflexivity].
Qed.

Lemma parse_exponent_inv s r : parse_exponent s = Some r ->
  exists sign ds, s = sign ++ ds ++ r /\ (sign = [] \/ sign = [x2b] \/ sign = [x2d]) /\ digits ds.
Proof.
  assert (forall s, match span_digits s with ([], _) => None | (_, r) => Some r end = Some r ->
          exists ds, s = ds ++ r /\ digits ds) as Hd.
  { intros s'. destruct (span_digits s') as [ds r'] eqn:E. apply span_digits_inv in E.
    destruct E as [-> E]. destruct ds as [|d ds]; [discriminate|]. intros [= <-].
    exists (d :: ds). split; [reflexivity|]. apply digits_spec. split; [discriminate|exact E]. }
  unfold parse_exponent. destruct s as [|c s].
  { intros H. apply Hd in H. destruct H as (ds & Hs & H). exists [], ds. tauto. }
  destruct (Byte.eqb c "+"%byte) eqn:E1.
  { cbn [orb]. intros H. apply Hd in H. destruct H as (ds & -> & H). apply eqb_eq in E1. subst.
    exists [x2b], ds. tauto. }
  destruct (Byte.eqb c "-"%byte) eqn:E2.
  { cbn [orb]. intros H. apply Hd in H. destruct H as (ds & -> & H). apply eqb_eq in E2. subst.
    exists [x2d], ds. tauto. }
  cbn [orb]. intros H. apply Hd in H. destruct H as (ds & Hs & H). exists [], ds. tauto.
Qed.

Lemma exponent_head e : exponent e ->
  exists c s, e = c :: s /\ Byte.eqb c "."%byte = false /\ is_digit c = false /\
              Byte.eqb c "e"%byte || Byte.eqb c "E"%byte = true.
Proof.
  intros (c & sign & ds & -> & H & _). exists c, (sign ++ ds). destruct H as [-> | ->]; repeat split.
Qed.

Lemma parse_fraction_app b t r :
  suffix b t -> stop r -> parse_fraction (t ++ r) = Some (b, r).
Proof.
  intros Hs Hr.
  assert (forall had, match r with
    | c :: s' => if Byte.eqb c "e"%byte || Byte.eqb c "E"%byte
                 then match parse_exponent s' with Some r => Some (true, r) | None => None end
                 else Some (had, r)
    | [] => Some (had, r)
    end = Some (had, r)) as Hno.
  { intros had. destruct r as [|c r]; [reflexivity|].
    unfold stop, head_not, numeric in Hr.
    apply orb_false_iff in Hr. destruct Hr as [Hr ->]. apply orb_false_iff in Hr.
    destruct Hr as [_ ->]. reflexivity. }
  assert (forall e had, exponent e -> match e ++ r with
    | c :: s' => if Byte.eqb c "e"%byte || Byte.eqb c "E"%byte
                 then match parse_exponent s' with Some r => Some (true, r) | None => None end
                 else Some (had, e ++ r)
    | [] => Some (had, e ++ r)
    end = Some (true, r)) as Hexp.
  { intros e had (c & sign & ds & -> & Hc & Hsg & Hds).
    cbn [app]. rewrite <- app_assoc, parse_exponent_app by assumption.
    destruct Hc as [-> | ->]; reflexivity. }
  destruct Hs as [[-> ->]|[-> (f & e & -> & Hf & He & Hne)]].
  - cbn [app]. unfold parse_fraction. destruct r as [|c r]; [reflexivity|].
    assert (Byte.eqb c "."%byte = false) as ->; [|apply Hno].
    unfold stop, head_not, numeric in Hr. destruct (Byte.eqb c "."%byte); [|reflexivity].
    rewrite orb_true_r in Hr. discriminate.
  - destruct Hf as [(ds & -> & Hds)| ->].
    + rewrite <- app_assoc. cbn [app]. unfold parse_fraction.
      change (Byte.eqb x2e "."%byte) with true. cbv iota.
      apply digits_spec in Hds. destruct Hds as [Hn Hds].
      rewrite span_digits_app; [|exact Hds|].
      * destruct ds as [|d ds]; [congruence|]. destruct He as [He| ->]; [apply Hexp, He|apply Hno].
      * destruct He as [He| ->]; [|apply stop_digit, Hr].
        apply exponent_head in He. destruct He as (c & s & -> & _ & H & _). exact H.
    + cbn [app] in *. destruct He as [He| ->]; [|congruence].
      pose proof (Hexp e false He) as H.
      apply exponent_head in He. destruct He as (c & s & -> & H1 & H2 & H3).
      unfold parse_fraction. cbn [app] in *. rewrite H1. exact H.
Qed.

Lemma parse_fraction_inv s b r : parse_fraction s = Some (b, r) ->
  exists t, s = t ++ r /\ suffix b t.
Proof.
  assert (forall had s, match s with
    | c :: s' => if Byte.eqb c "e"%byte || Byte.eqb c "E"%byte
                 then match parse_exponent s' with Some r => Some (true, r) | None => None end
                 else Some (had, s)
    | [] => Some (had, s)
    end = Some (b, r) -> exists e, s = e ++ r /\ (b = true /\ exponent e \/ b = had /\ e = [])) as Hexp.
  { intros had s'. destruct s' as [|c s']; [intros [= <- <-]; exists []; tauto|].
    destruct (_ || _) eqn:E.
    - destruct (parse_exponent s') as [r'|] eqn:E2; [|discriminate]. intros [= <- <-].
      apply parse_exponent_inv in E2. destruct E2 as (sign & ds & -> & H1 & H2).
      exists (c :: sign ++ ds). split; [cbn [app]; rewrite <- app_assoc; reflexivity|]. left.
      split; [reflexivity|]. exists c, sign, ds. repeat split; try assumption.
      apply orb_true_iff in E. rewrite !eqb_eq in E. exact E.
    - intros [= <- <-]. exists []. tauto. }
  unfold parse_fraction. destruct s as [|c s].
  { intros [= <- <-]. exists []. split; [reflexivity|]. left. tauto. }
  destruct (Byte.eqb c "."%byte) eqn:Ec.
  - apply eqb_eq in Ec. subst c. destruct (span_digits s) as [ds r1] eqn:Es.
    apply span_digits_inv in Es. destruct Es as [-> Es]. destruct ds as [|d ds]; [discriminate|].
    intros H. apply Hexp in H. destruct H as (e & -> & He).
    exists ("."%byte :: (d :: ds) ++ e). split; [cbn [app]; rewrite <- app_assoc; reflexivity|].
    right. split; [tauto|]. exists ("."%byte :: d :: ds), e. split; [reflexivity|].
    split; [|split; [tauto|discriminate]]. left. exists (d :: ds). split; [reflexivity|].
    apply digits_spec. split; [discriminate|exact Es].
  - intros H. apply (Hexp false (c :: s)) in H. destruct H as (e & He & [[Hb H]|[Hb H]]); exists e; split; try exact He.
    + right. split; [exact Hb|]. exists [], e. split; [reflexivity|]. split; [tauto|]. split; [tauto|].
      destruct H as (? & ? & ? & -> & _). discriminate.
    + left. tauto.
Qed.

Definition number_of (fo : bytes -> bool) (j : json) (t : bytes) : Prop :=
  (exists n, j = JPos n /\ integer t n /\ (n <= u64_max)%N) \/ (j = JNum /\ other_number fo t).

Lemma integer_spec ds n : integer ds n <->
  ds <> [] /\ forallb is_digit ds = true /\ digits_value ds = n /\
  match ds with c :: _ :: _ => Byte.eqb c "0"%byte | _ => false end = false.
Proof.
  unfold integer. rewrite decimal_spec. split.
  - intros [(H1 & H2 & H3) H4]. repeat split; try assumption.
    destruct ds as [|c [|d ds]]; try reflexivity. apply eqb_neq. intros ->.
    specialize (H4 _ eq_refl). discriminate.
  - intros (H1 & H2 & H3 & H4). split; [tauto|]. intros t ->.
    destruct t as [|d t]; [reflexivity|discriminate].
Qed.

Lemma firstn_front {A} (a b : list A) : firstn (length (a ++ b) - length b) (a ++ b) = a.
Proof.
  rewrite app_length. replace (length a + length b - length b) with (length a) by lia.
  rewrite firstn_app, firstn_all, Nat.sub_diag. cbn [firstn]. apply app_nil_r.
Qed.

(** Common form of all numbers *)
Lemma parse_number_form fo sign ds n b sfx r :
  (sign = [] \/ sign = [x2d]) -> integer ds n -> suffix b sfx -> stop r ->
  parse_number fo ((sign ++ ds ++ sfx) ++ r) =
    if b || (u64_max <? n)%N then if fo (sign ++ ds ++ sfx) then Some (JNum, r) else None
    else match sign with [] => Some (JPos n, r) | _ => Some (JNum, r) end.
Proof.
  intros Hsg Hi Hsf Hr. apply integer_spec in Hi. destruct Hi as (Hne & Hd & Hv & Hz).
  unfold parse_number.
  remember ((sign ++ ds ++ sfx) ++ r) as s eqn:Es.
  assert ((match s with
           | c :: s' => if Byte.eqb c "-"%byte then (true, s') else (false, s)
           | [] => (false, s)
           end) = (match sign with [] => false | _ => true end, ds ++ sfx ++ r)) as ->.
  { subst s. rewrite <- !app_assoc. destruct Hsg as [-> | ->]; [|reflexivity].
    destruct ds as [|d ds]; [congruence|]. cbn [app forallb] in *.
    apply andb_true_iff in Hd. destruct Hd as [Hd _].
    assert (Byte.eqb d "-"%byte = false) as -> by (destruct d; try reflexivity; discriminate Hd).
    reflexivity. }
  rewrite span_digits_app; [|exact Hd|].
  2:{ destruct Hsf as [[_ ->]|[_ (f & e & -> & Hf & He & Hn)]]; [apply stop_digit, Hr|].
      destruct Hf as [(fd & -> & _)| ->]; [reflexivity|].
      destruct He as [He| ->]; [|cbn [app] in Hn; congruence].
      apply exponent_head in He. destruct He as (c & t & -> & _ & H & _). exact H. }
  rewrite (parse_fraction_app b) by assumption. rewrite Hz, Hv.
  assert (firstn (length s - length r) s = sign ++ ds ++ sfx) as -> by (subst s; apply firstn_front).
  change 18446744073709551615%N with u64_max.
  destruct ds as [|d ds]; [congruence|]. destruct sign; reflexivity.
Qed.

Lemma suffix_nil : suffix false [].
Proof. left. tauto. Qed.

Lemma parse_number_app fo j t r : number_of fo j t -> stop r -> parse_number fo (t ++ r) = Some (j, r).
Proof.
  intros [(n & -> & Hi & Hn)|[-> (sign & ds & n & b & sfx & -> & Hsg & Hi & Hsf & Hc)]] Hr.
  - replace t with ([] ++ t ++ []) by (cbn [app]; apply app_nil_r).
    rewrite (parse_number_form fo [] t n false []) by (try assumption; try (left; reflexivity); apply suffix_nil).
    cbn [orb]. destruct (N.ltb_spec u64_max n); [lia|reflexivity].
  - rewrite (parse_number_form fo sign ds n b sfx) by assumption.
    destruct Hc as [[Hb Hf]|(Hb & Hn & ->)].
    + rewrite Hf. assert (b || (u64_max <? n)%N = true) as ->; [|reflexivity].
      destruct Hb as [-> |Hb]; [reflexivity|]. apply orb_true_iff. right. lia.
    + subst b. cbn [orb]. destruct (N.ltb_spec u64_max n); [lia|reflexivity].
Qed.

Lemma parse_number_inv fo s j r : parse_number fo s = Some (j, r) ->
  exists t, s = t ++ r /\ number_of fo j t.
Proof.
  unfold parse_number.
  assert (exists sign s1, s = sign ++ s1 /\ (sign = [] \/ sign = [x2d]) /\ (match s with
           | c :: s' => if Byte.eqb c "-"%byte then (true, s') else (false, s)
           | [] => (false, s)
           end) = (match sign with [] => false | _ => true end, s1)) as (sign & s1 & Hs & Hsg & ->).
  { destruct s as [|c s]; [exists [], []; tauto|].
    destruct (Byte.eqb c "-"%byte) eqn:E; [|exists [], (c :: s); tauto].
    apply eqb_eq in E. subst c. exists [x2d], s. tauto. }
  destruct (span_digits s1) as [ds r1] eqn:Esp. apply span_digits_inv in Esp. destruct Esp as [-> Hd].
  intros H. destruct ds as [|d ds]; [discriminate|].
  match type of H with (if ?lz then None else _) = _ => destruct lz eqn:Ez; [discriminate|] end.
  pose (dd := d :: ds). change (d :: ds) with dd in Hs, Hd, H.
  assert (dd <> []) as Hdd by discriminate.
  destruct (parse_fraction r1) as [[b r']|] eqn:Ef; [|discriminate].
  apply parse_fraction_inv in Ef. destruct Ef as (sfx & -> & Hsf).
  assert (integer dd (digits_value dd)) as Hi by (apply integer_spec; repeat split; assumption).
  assert (s = (sign ++ dd ++ sfx) ++ r') as Hs' by (rewrite Hs, <- !app_assoc; reflexivity).
  assert (firstn (length s - length r') s = sign ++ dd ++ sfx) as Hl by (rewrite Hs'; apply firstn_front).
  rewrite Hl in H. change 18446744073709551615%N with u64_max in H.
  destruct (b || (u64_max <? digits_value dd)%N) eqn:Eb.
  - destruct (fo _) eqn:Efo; [|discriminate]. injection H as <- <-.
    exists (sign ++ dd ++ sfx). split; [exact Hs'|]. right. split; [reflexivity|].
    exists sign, dd, (digits_value dd), b, sfx. repeat split; try assumption; [apply Hi|apply Hi|].
    left. split; [|exact Efo]. apply orb_true_iff in Eb. destruct Eb as [Eb|Eb]; [tauto|]. right. lia.
  - apply orb_false_iff in Eb. destruct Eb as [-> Eb].
    destruct Hsf as [[_ ->]|[? _]]; [|discriminate].
    destruct Hsg as [-> | ->]; injection H as <- <-.
    + exists dd. cbn [app] in Hs'. rewrite app_nil_r in Hs'. split; [exact Hs'|]. left.
      eexists. split; [reflexivity|]. split; [exact Hi|lia].
    + exists ([x2d] ++ dd ++ []). split; [exact Hs'|]. right. split; [reflexivity|].
      exists [x2d], dd, (digits_value dd), false, [].
      split; [reflexivity|]. split; [tauto|]. split; [exact Hi|]. split; [apply suffix_nil|].
      right. repeat split; lia.
Qed.

(** * Strings *)

Lemma hexdig_spec c v : hexdig c v <-> hex_value c = Some v.
Proof.
  unfold hexdig. split.
  - remember (N.to_nat v) as k eqn:Ek. assert (v = N.of_nat k) as -> by lia. clear Ek.
    do 16 (destruct k as [|k]; [intros [[= <-]|[= <-]]; reflexivity|]).
    intros [H|H]; destruct k; discriminate H.
  - intros H. destruct c; try discriminate H; injection H as <-;
      first [left; reflexivity | right; reflexivity].
Qed.

Lemma hexdig_lt c v : hexdig c v -> (v < 16)%N.
Proof. rewrite hexdig_spec. intros H. destruct c; try discriminate H; injection H as <-; lia. Qed.

Lemma hexquad_spec a b c d n : hexquad [a; b; c; d] n <-> hex4 a b c d = Some n.
Proof.
  unfold hexquad, hex4. split.
  - intros (a' & b' & c' & d' & x & y & z & w & [= <- <- <- <-] & Ha & Hb & Hc & Hd & ->).
    apply hexdig_spec in Ha, Hb, Hc, Hd. rewrite Ha, Hb, Hc, Hd. f_equal. lia.
  - destruct (hex_value a) as [x|] eqn:Ha; [|discriminate].
    destruct (hex_value b) as [y|] eqn:Hb; [|discriminate].
    destruct (hex_value c) as [z|] eqn:Hc; [|discriminate].
    destruct (hex_value d) as [w|] eqn:Hd; [|discriminate]. intros [= <-].
    exists a, b, c, d, x, y, z, w. rewrite !hexdig_spec. repeat split; try assumption. lia.
Qed.

Lemma hexquad_inv q n : hexquad q n ->
  exists a b c d, q = [a; b; c; d] /\ hex4 a b c d = Some n /\ (n < 65536)%N.
Proof.
  intros H. pose proof H as (a & b & c & d & x & y & z & w & -> & Ha & Hb & Hc & Hd & Hn).
  exists a, b, c, d. split; [reflexivity|]. split; [apply hexquad_spec, H|].
  apply hexdig_lt in Ha, Hb, Hc, Hd. lia.
Qed.

Lemma lor_high (h y : N) :
  (h = 0x80 /\ y < 64 \/ h = 0xC0 /\ y < 32 \/ h = 0xE0 /\ y < 16 \/ h = 0xF0 /\ y < 8)%N ->
  N.lor h y = (h + y)%N.
Proof.
  intros H.
  assert (forallb (fun k => forallb (fun h => N.lor h (N.of_nat k) =? h + N.of_nat k)%N
            (if (k <? 8)%nat then [0x80; 0xC0; 0xE0; 0xF0] else if (k <? 16)%nat then [0x80; 0xC0; 0xE0]
             else if (k <? 32)%nat then [0x80; 0xC0] else [0x80])%N) (seq 0 64) = true) as Hs
    by (vm_compute; reflexivity).
  rewrite forallb_forall in Hs. specialize (Hs (N.to_nat y)). cbn beta in Hs.
  rewrite N2Nat.id, forallb_forall in Hs. apply N.eqb_eq. apply Hs; [apply in_seq; lia|].
  destruct (Nat.ltb_spec (N.to_nat y) 8); [cbn [In]; lia|].
  destruct (Nat.ltb_spec (N.to_nat y) 16); [cbn [In]; lia|].
  destruct (Nat.ltb_spec (N.to_nat y) 32); cbn [In]; lia.
Qed.

Lemma encode_utf8_char n : (n < 0x110000)%N -> encode_utf8 n = utf8_char n.
Proof.
  intros Hn. unfold encode_utf8, utf8_char.
  change 0x3F%N with (N.ones 6). rewrite !N.land_ones, !N.shiftr_div_pow2.
  change (2 ^ 6)%N with 64%N. change (2 ^ 12)%N with 4096%N. change (2 ^ 18)%N with 262144%N.
  destruct (N.ltb_spec n 0x80); [reflexivity|].
  destruct (N.ltb_spec n 0x800); [rewrite !lor_high by lia; reflexivity|].
  destruct (N.ltb_spec n 0x10000); rewrite !lor_high by lia; reflexivity.
Qed.

Lemma simple_escape_spec e c : simple_escape e = Some c <-> In (e, c) escapes.
Proof.
  split.
  - intros H. destruct e; try discriminate H; injection H as <-; cbn; tauto.
  - cbn. intros H. repeat (destruct H as [H|H]; [injection H as <- <-; reflexivity|]). destruct H.
Qed.

Lemma parse_chars_app str t r :
  chars str t -> parse_chars (t ++ x22 :: r) = Some (contains_byte x5c t, str, r).
Proof.
  induction 1 as [|c str t H1 H2 H3 _ IH|e c str t He _ IH|q n str t Hq Hn _ IH
                 |q1 q2 n m str t Hq1 Hq2 Hn Hm _ IH].
  - reflexivity.
  - cbn [app parse_chars]. apply eqb_neq in H1, H2. rewrite H1, H2.
    destruct (N.ltb_spec (Byte.to_N c) 0x20); [lia|]. rewrite IH. cbn [push orb contains_byte existsb app].
    assert (Byte.eqb x5c c = false) as -> by (apply eqb_neq in H2; apply eqb_neq; congruence).
    reflexivity.
  - cbn [app parse_chars]. change (Byte.eqb x5c """"%byte) with false.
    change (Byte.eqb x5c "\"%byte) with true. cbv iota. apply simple_escape_spec in He. rewrite He, IH.
    cbn [push contains_byte existsb app orb]. reflexivity.
  - apply hexquad_inv in Hq. destruct Hq as (a & b & c & d & -> & Hq & Hlt).
    cbn [app parse_chars]. change (Byte.eqb x5c """"%byte) with false.
    change (Byte.eqb x5c "\"%byte) with true. change (simple_escape x75) with (@None byte).
    change (Byte.eqb x75 "u"%byte) with true. cbv iota. rewrite Hq.
    assert ((0xDC00 <=? n)%N && (n <=? 0xDFFF)%N = false) as -> by (unfold scalar in Hn; lia).
    assert ((0xD800 <=? n)%N && (n <=? 0xDBFF)%N = false) as -> by (unfold scalar in Hn; lia).
    rewrite IH, encode_utf8_char by lia. cbn [push contains_byte existsb orb]. reflexivity.
  - apply hexquad_inv in Hq1, Hq2.
    destruct Hq1 as (a & b & c & d & -> & Hq1 & Hlt1). destruct Hq2 as (a2 & b2 & c2 & d2 & -> & Hq2 & Hlt2).
    cbn [app parse_chars]. change (Byte.eqb x5c """"%byte) with false.
    change (Byte.eqb x5c "\"%byte) with true. change (simple_escape x75) with (@None byte).
    change (Byte.eqb x75 "u"%byte) with true. cbn [andb]. cbv iota. rewrite Hq1, Hq2.
    assert ((0xDC00 <=? 0xD800 + n)%N && (0xD800 + n <=? 0xDFFF)%N = false) as -> by lia.
    assert ((0xD800 <=? 0xD800 + n)%N && (0xD800 + n <=? 0xDBFF)%N = true) as -> by lia.
    assert ((0xDC00 <=? 0xDC00 + m)%N && (0xDC00 + m <=? 0xDFFF)%N = true) as -> by lia.
    replace ((0xD800 + n - 0xD800) * 1024 + (0xDC00 + m - 0xDC00) + 0x10000)%N
      with (0x10000 + n * 1024 + m)%N by lia.
    rewrite IH, encode_utf8_char by lia. cbn [push contains_byte existsb orb]. reflexivity.
Qed.

Lemma push_some p e o x : push p e o = Some x ->
  exists esc str r, o = Some (esc, str, r) /\ x = (e || esc, p ++ str, r).
Proof.
  destruct o as [[[esc str] r]|]; [|discriminate]. cbn [push]. intros [= <-].
  exists esc, str, r. split; reflexivity.
Qed.

Lemma parse_chars_inv s e str r : parse_chars s = Some (e, str, r) ->
  exists t, s = t ++ x22 :: r /\ chars str t /\ e = contains_byte x5c t.
Proof.
  remember (length s) as k eqn:Ek. assert (length s <= k) as Hk by lia. clear Ek.
  revert s e str r Hk; induction k as [|k IH]; intros s e str r Hk.
  { destruct s; [discriminate|cbn in Hk; lia]. }
  destruct s as [|c s1]; [discriminate|]. cbn [parse_chars]. cbn [length] in Hk.
  destruct (Byte.eqb c """"%byte) eqn:E1.
  { intros [= <- <- <-]. apply eqb_eq in E1. subst c. exists []. repeat split. constructor. }
  destruct (Byte.eqb c "\"%byte) eqn:E2.
  2:{ destruct (N.ltb_spec (Byte.to_N c) 0x20); [discriminate|]. intros H0.
      apply push_some in H0. destruct H0 as (esc & str' & r' & H1 & [= -> -> ->]).
      apply IH in H1; [|lia]. destruct H1 as (t & -> & Ht & ->). exists (c :: t).
      split; [reflexivity|]. split.
      - constructor; [apply eqb_neq, E1|apply eqb_neq, E2|lia|exact Ht].
      - cbn [contains_byte existsb orb]. apply eqb_neq in E2.
        assert (Byte.eqb x5c c = false) as -> by (apply eqb_neq; congruence). reflexivity. }
  apply eqb_eq in E2. subst c. destruct s1 as [|ec s2]; [discriminate|].
  destruct (simple_escape ec) as [x|] eqn:Ee.
  { intros H. apply push_some in H. destruct H as (esc & str' & r' & H1 & [= -> -> ->]).
    cbn [length] in Hk. apply IH in H1; [|lia]. destruct H1 as (t & -> & Ht & ->). exists (x5c :: ec :: t).
    split; [reflexivity|]. split; [|reflexivity].
    cbn [app]. constructor; [apply simple_escape_spec, Ee|exact Ht]. }
  destruct (Byte.eqb ec "u"%byte) eqn:Eu; [|discriminate]. apply eqb_eq in Eu. subst ec. clear Ee.
  destruct s2 as [|h1 [|h2 [|h3 [|h4 s6]]]]; try discriminate.
  destruct (hex4 h1 h2 h3 h4) as [n|] eqn:Eh; [|discriminate].
  apply hexquad_spec in Eh. pose proof (hexquad_inv _ _ Eh) as (_ & _ & _ & _ & _ & _ & Hlt).
  destruct ((0xDC00 <=? n)%N && (n <=? 0xDFFF)%N) eqn:Elow; [discriminate|].
  destruct ((0xD800 <=? n)%N && (n <=? 0xDBFF)%N) eqn:Ehigh.
  - destruct s6 as [|b [|u [|k1 [|k2 [|k3 [|k4 s12]]]]]]; try discriminate.
    destruct (Byte.eqb b "\"%byte && Byte.eqb u "u"%byte) eqn:Ebu; [|discriminate].
    apply andb_true_iff in Ebu. destruct Ebu as [Eb Eu]. apply eqb_eq in Eb, Eu. subst b u.
    destruct (hex4 k1 k2 k3 k4) as [n2|] eqn:Eh2; [|discriminate]. apply hexquad_spec in Eh2.
    destruct ((0xDC00 <=? n2)%N && (n2 <=? 0xDFFF)%N) eqn:E3; [|discriminate].
    intros H. apply push_some in H. destruct H as (esc & str' & r' & H1 & [= -> -> ->]).
    cbn [length] in Hk. apply IH in H1; [|lia]. destruct H1 as (t & -> & Ht & ->).
    exists (x5c :: x75 :: [h1; h2; h3; h4] ++ x5c :: x75 :: [k1; k2; k3; k4] ++ t).
    split; [reflexivity|]. split; [|reflexivity].
    rewrite encode_utf8_char by lia.
    replace ((n - 0xD800) * 1024 + (n2 - 0xDC00) + 0x10000)%N
      with (0x10000 + (n - 0xD800) * 1024 + (n2 - 0xDC00))%N by lia.
    apply chars_surrogates; [| |lia|lia|exact Ht].
    + replace (0xD800 + (n - 0xD800))%N with n by lia. exact Eh.
    + replace (0xDC00 + (n2 - 0xDC00))%N with n2 by lia. exact Eh2.
  - intros H. apply push_some in H. destruct H as (esc & str' & r' & H1 & [= -> -> ->]).
    cbn [length] in Hk. apply IH in H1; [|lia]. destruct H1 as (t & -> & Ht & ->).
    exists (x5c :: x75 :: [h1; h2; h3; h4] ++ t).
    split; [reflexivity|]. split; [|reflexivity].
    rewrite encode_utf8_char by lia. apply chars_unicode; [exact Eh|unfold scalar; lia|exact Ht].
Qed.

Lemma parse_string_app e str t r : string_text e str t ->
  exists t', t = x22 :: t' /\ parse_string (t' ++ r) = Some (e, str, r).
Proof.
  intros (t0 & -> & Hc & Hu & ->). exists (t0 ++ [x22]). split; [reflexivity|].
  unfold parse_string. rewrite <- app_assoc. cbn [app]. rewrite (parse_chars_app _ _ _ Hc), Hu.
  reflexivity.
Qed.

Lemma parse_string_inv s e str r : parse_string s = Some (e, str, r) ->
  exists t, x22 :: s = t ++ r /\ string_text e str t.
Proof.
  unfold parse_string. destruct (parse_chars s) as [[[e' str'] r']|] eqn:E; [|discriminate].
  destruct (utf8 str') eqn:Eu; [|discriminate]. intros [= <- <- <-].
  apply parse_chars_inv in E. destruct E as (t & -> & Ht & ->).
  exists (x22 :: t ++ [x22]). split; [cbn [app]; rewrite <- app_assoc; reflexivity|].
  exists t. repeat split; assumption.
Qed.

(** * Values *)

(** First byte of a value text *)
Definition value_head (c : byte) : Prop :=
  is_ws c = false /\ c <> x5d /\ c <> x7d.

Scheme value_mut := Induction for value Sort Prop
  with elements_mut := Induction for elements Sort Prop
  with members_mut := Induction for members Sort Prop.
Combined Scheme value_ind3 from value_mut, elements_mut, members_mut.

Lemma integer_head t n : integer t n -> exists c t', t = c :: t' /\ is_digit c = true.
Proof.
  intros H. apply integer_spec in H. destruct H as (Hne & Hd & _).
  destruct t as [|c t]; [congruence|]. cbn [forallb] in Hd. apply andb_true_iff in Hd.
  exists c, t. split; [reflexivity|tauto].
Qed.

Definition number_head (c : byte) : bool := is_digit c || Byte.eqb c "-"%byte.

Lemma number_of_head fo j t : number_of fo j t -> exists c t', t = c :: t' /\ number_head c = true.
Proof.
  intros [(n & -> & Hi & _)|(-> & sign & ds & n & b & sfx & -> & Hs & Hi & _)];
    apply integer_head in Hi; destruct Hi as (c & t' & -> & Hc).
  - exists c, t'. unfold number_head. rewrite Hc. split; reflexivity.
  - destruct Hs as [-> | ->]; [exists c, (t' ++ sfx)|exists x2d, ((c :: t') ++ sfx)];
      unfold number_head; rewrite ?Hc; split; reflexivity.
Qed.

Lemma value_starts fo d j t : value fo d j t -> exists c t', t = c :: t' /\ value_head c.
Proof.
  assert (forall j t, number_of fo j t -> exists c t', t = c :: t' /\ value_head c) as Hn.
  { intros j' t' H. apply number_of_head in H. destruct H as (c & t1 & -> & Hc). exists c, t1.
    split; [reflexivity|]. destruct c; try discriminate Hc; repeat split; discriminate. }
  intros H. destruct H.
  1-3: (eexists; eexists; split; [reflexivity|repeat split; discriminate]).
  - apply (Hn (JPos n) t). left. eauto.
  - apply (Hn JNum t). right. tauto.
  - destruct H as (t0 & -> & _). eexists; eexists; split; [reflexivity|repeat split; discriminate].
  - eexists; eexists; split; [reflexivity|repeat split; discriminate].
  - eexists; eexists; split; [reflexivity|repeat split; discriminate].
  - eexists; eexists; split; [reflexivity|repeat split; discriminate].
  - eexists; eexists; split; [reflexivity|repeat split; discriminate].
Qed.

Definition is_number (j : json) : bool := match j with JPos _ | JNum => true | _ => false end.

Lemma parse_value_ws fo d w s : ws w -> parse_value fo d (w ++ s) = parse_value fo d s.
Proof. intros Hw. destruct d; cbn [parse_value]; rewrite skip_ws_app by exact Hw; reflexivity. Qed.

Lemma parse_value_number fo d j t r : number_of fo j t -> stop r -> parse_value fo d (t ++ r) = Some (j, r).
Proof.
  intros Hn Hr. pose proof (parse_number_app fo j t r Hn Hr) as Hp.
  apply number_of_head in Hn. destruct Hn as (c & t' & -> & Hc). cbn [app] in *.
  destruct d; cbn [parse_value]; destruct c; try discriminate Hc; exact Hp.
Qed.

Lemma stop_ws w c r : ws w -> numeric c = false -> stop (w ++ c :: r).
Proof.
  intros Hw Hc. destruct Hw as [|x w Hx _]; [exact Hc|]. cbn [app stop head_not].
  unfold stop, head_not. cbn [In] in Hx.
  destruct Hx as [<-|[<-|[<-|[<-|[]]]]]; reflexivity.
Qed.

Lemma parse_complete fo :
  (forall d j t, value fo d j t -> forall r, (is_number j = true -> stop r) ->
     parse_value fo d (t ++ r) = Some (j, r)) /\
  (forall d l t, elements fo d l t -> forall fuel r, length (t ++ x5d :: r) < fuel ->
     parse_elements (parse_value fo d) fuel true (t ++ x5d :: r) = Some (l, r) /\
     (forall w, ws w -> parse_elements (parse_value fo d) fuel false (w ++ x2c :: t ++ x5d :: r) = Some (l, r))) /\
  (forall d l t, members fo d l t -> forall fuel r, length (t ++ x7d :: r) < fuel ->
     parse_members (parse_value fo d) fuel true (t ++ x7d :: r) = Some (l, r) /\
     (forall w, ws w -> parse_members (parse_value fo d) fuel false (w ++ x2c :: t ++ x7d :: r) = Some (l, r))).
Proof.
  apply value_ind3.
  - intros d r _. destruct d; reflexivity.
  - intros d r _. destruct d; reflexivity.
  - intros d r _. destruct d; reflexivity.
  - intros d n t Hi Hn r Hr. apply parse_value_number; [|apply Hr; reflexivity]. left. eauto.
  - intros d t Hn r Hr. apply parse_value_number; [|apply Hr; reflexivity]. right. tauto.
  - intros d e str t Hs r _. destruct (parse_string_app e str t r Hs) as (t' & -> & Hp).
    cbn [app]. destruct d; cbn [parse_value skip_ws]; cbn; rewrite Hp; reflexivity.
  - intros d w Hw r _. cbn [app parse_value skip_ws].
    change (is_ws x5b) with false. cbv iota.
    change (Byte.eqb x5b "{"%byte) with false. change (Byte.eqb x5b "["%byte) with true. cbv iota.
    rewrite <- app_assoc. cbn [app parse_elements]. rewrite skip_ws_app by exact Hw. reflexivity.
  - intros d l t _ IH r _. cbn [app parse_value skip_ws].
    change (is_ws x5b) with false. cbv iota.
    change (Byte.eqb x5b "{"%byte) with false. change (Byte.eqb x5b "["%byte) with true. cbv iota.
    rewrite <- app_assoc. cbn [app].
    destruct (IH (S (length (t ++ x5d :: r))) r ltac:(lia)) as [-> _]. reflexivity.
  - intros d w Hw r _. cbn [app parse_value skip_ws].
    change (is_ws x7b) with false. cbv iota.
    change (Byte.eqb x7b "{"%byte) with true. cbv iota.
    rewrite <- app_assoc. cbn [app parse_members]. rewrite skip_ws_app by exact Hw. reflexivity.
  - intros d l t _ IH r _. cbn [app parse_value skip_ws].
    change (is_ws x7b) with false. cbv iota.
    change (Byte.eqb x7b "{"%byte) with true. cbv iota.
    rewrite <- app_assoc. cbn [app].
    destruct (IH (S (length (t ++ x7d :: r))) r ltac:(lia)) as [-> _]. reflexivity.
  - (* last element *)
    intros d j w1 t w2 Hw1 Hv IH Hw2 fuel r Hf.
    rewrite <- !app_assoc in *. destruct fuel as [|fuel]; [lia|].
    destruct (value_starts _ _ _ _ Hv) as (c & t' & Ht & Hc).
    specialize (IH (w2 ++ x5d :: r) (fun _ => stop_ws w2 x5d r Hw2 eq_refl)).
    assert (parse_elements (parse_value fo d) fuel false (w2 ++ x5d :: r) = Some ([], r)) as Hend.
    { destruct fuel as [|fuel]; [rewrite Ht, !app_length in Hf; cbn in Hf; lia|].
      cbn [parse_elements]. rewrite skip_ws_app by exact Hw2. reflexivity. }
    split.
    + cbn [parse_elements]. rewrite skip_ws_app by exact Hw1.
      rewrite Ht in *. cbn [app] in *. rewrite skip_ws_cons by apply Hc.
      assert (Byte.eqb c "]"%byte = false) as -> by (apply eqb_neq, Hc).
      rewrite IH, Hend. reflexivity.
    + intros w Hw. cbn [parse_elements]. rewrite skip_ws_app by exact Hw.
      rewrite skip_ws_cons by reflexivity.
      change (Byte.eqb x2c "]"%byte) with false. change (Byte.eqb x2c ","%byte) with true. cbv iota.
      rewrite parse_value_ws by exact Hw1. rewrite IH, Hend. reflexivity.
  - (* more elements *)
    intros d j l w1 t w2 t2 Hw1 Hv IH Hw2 _ IH2 fuel r Hf.
    rewrite <- !app_assoc in *. cbn [app] in *. destruct fuel as [|fuel]; [lia|].
    destruct (value_starts _ _ _ _ Hv) as (c & t' & Ht & Hc).
    specialize (IH (w2 ++ x2c :: t2 ++ x5d :: r) (fun _ => stop_ws w2 x2c _ Hw2 eq_refl)).
    destruct (IH2 fuel r) as [_ IH2'].
    { rewrite !app_length in *. cbn [length] in *. rewrite !app_length in *. cbn [length] in *. lia. }
    specialize (IH2' w2 Hw2).
    split.
    + cbn [parse_elements]. rewrite skip_ws_app by exact Hw1.
      rewrite Ht in *. cbn [app] in *. rewrite skip_ws_cons by apply Hc.
      assert (Byte.eqb c "]"%byte = false) as -> by (apply eqb_neq, Hc).
      rewrite IH, IH2'. reflexivity.
    + intros w Hw. cbn [parse_elements]. rewrite skip_ws_app by exact Hw.
      rewrite skip_ws_cons by reflexivity.
      change (Byte.eqb x2c "]"%byte) with false. change (Byte.eqb x2c ","%byte) with true. cbv iota.
      rewrite parse_value_ws by exact Hw1. rewrite IH, IH2'. reflexivity.
  - (* last member *)
    intros d e k j w1 tk w2 w3 t w4 Hw1 Hk Hw2 Hw3 Hv IH Hw4 fuel r Hf.
    rewrite <- !app_assoc in *. cbn [app] in *. rewrite <- !app_assoc in *. cbn [app] in *.
    destruct fuel as [|fuel]; [lia|].
    destruct (parse_string_app e k tk (w2 ++ x3a :: w3 ++ t ++ w4 ++ x7d :: r) Hk) as (tk' & -> & Hp).
    specialize (IH (w4 ++ x7d :: r) (fun _ => stop_ws w4 x7d r Hw4 eq_refl)).
    assert (parse_members (parse_value fo d) fuel false (w4 ++ x7d :: r) = Some ([], r)) as Hend.
    { destruct fuel as [|fuel]; [rewrite !app_length in Hf; cbn in Hf; lia|].
      cbn [parse_members]. rewrite skip_ws_app by exact Hw4. reflexivity. }
    cbn [app]. split.
    + cbn [parse_members]. rewrite skip_ws_app by exact Hw1. rewrite skip_ws_cons by reflexivity.
      change (Byte.eqb x22 "}"%byte) with false. change (Byte.eqb x22 """"%byte) with true. cbv iota.
      rewrite Hp, skip_ws_app by exact Hw2. rewrite skip_ws_cons by reflexivity.
      change (Byte.eqb x3a ":"%byte) with true. cbv iota.
      rewrite parse_value_ws by exact Hw3. rewrite IH, Hend. reflexivity.
    + intros w Hw. cbn [parse_members]. rewrite skip_ws_app by exact Hw.
      rewrite skip_ws_cons by reflexivity.
      change (Byte.eqb x2c "}"%byte) with false. change (Byte.eqb x2c ","%byte) with true. cbv iota.
      rewrite skip_ws_app by exact Hw1. rewrite skip_ws_cons by reflexivity.
      change (Byte.eqb x22 """"%byte) with true. cbv iota.
      rewrite Hp, skip_ws_app by exact Hw2. rewrite skip_ws_cons by reflexivity.
      change (Byte.eqb x3a ":"%byte) with true. cbv iota.
      rewrite parse_value_ws by exact Hw3. rewrite IH, Hend. reflexivity.
  - (* more members *)
    intros d e k j l w1 tk w2 w3 t w4 t2 Hw1 Hk Hw2 Hw3 Hv IH Hw4 _ IH2 fuel r Hf.
    rewrite <- !app_assoc in *. cbn [app] in *. rewrite <- !app_assoc in *. cbn [app] in *.
    destruct fuel as [|fuel]; [lia|].
    destruct (parse_string_app e k tk (w2 ++ x3a :: w3 ++ t ++ w4 ++ x2c :: t2 ++ x7d :: r) Hk)
      as (tk' & -> & Hp).
    specialize (IH (w4 ++ x2c :: t2 ++ x7d :: r) (fun _ => stop_ws w4 x2c _ Hw4 eq_refl)).
    destruct (IH2 fuel r) as [_ IH2'].
    { repeat (rewrite !app_length in *; cbn [length] in * ). lia. }
    specialize (IH2' w4 Hw4).
    cbn [app]. split.
    + cbn [parse_members]. rewrite skip_ws_app by exact Hw1. rewrite skip_ws_cons by reflexivity.
      change (Byte.eqb x22 "}"%byte) with false. change (Byte.eqb x22 """"%byte) with true. cbv iota.
      rewrite Hp, skip_ws_app by exact Hw2. rewrite skip_ws_cons by reflexivity.
      change (Byte.eqb x3a ":"%byte) with true. cbv iota.
      rewrite parse_value_ws by exact Hw3. rewrite IH, IH2'. reflexivity.
    + intros w Hw. cbn [parse_members]. rewrite skip_ws_app by exact Hw.
      rewrite skip_ws_cons by reflexivity.
      change (Byte.eqb x2c "}"%byte) with false. change (Byte.eqb x2c ","%byte) with true. cbv iota.
      rewrite skip_ws_app by exact Hw1. rewrite skip_ws_cons by reflexivity.
      change (Byte.eqb x22 """"%byte) with true. cbv iota.
      rewrite Hp, skip_ws_app by exact Hw2. rewrite skip_ws_cons by reflexivity.
      change (Byte.eqb x3a ":"%byte) with true. cbv iota.
      rewrite parse_value_ws by exact Hw3. rewrite IH, IH2'. reflexivity.
Qed.

Section Sound.
  Context (fo : bytes -> bool) (d : nat).
  Hypothesis IHd : forall s j r, parse_value fo d s = Some (j, r) ->
    exists w t, s = w ++ t ++ r /\ ws w /\ value fo d j t.

  Lemma elements_sound fuel first s l r :
    parse_elements (parse_value fo d) fuel first s = Some (l, r) ->
    (l = [] /\ exists w, ws w /\ s = w ++ x5d :: r) \/
    (exists t, elements fo d l t /\
       (if first then s = t ++ x5d :: r else exists w, ws w /\ s = w ++ x2c :: t ++ x5d :: r)).
  Proof.
    revert first s l r; induction fuel as [|fuel IH]; intros first s l r; [discriminate|].
    cbn [parse_elements]. destruct (skip_ws_inv s) as (w & Hs & Hw).
    destruct (skip_ws s) as [|c s1] eqn:Esk; [discriminate|].
    destruct (Byte.eqb c "]"%byte) eqn:Ec.
    { intros [= <- <-]. apply eqb_eq in Ec. subst c. left. split; [reflexivity|]. exists w. tauto. }
    assert (forall s2, match parse_value fo d s2 with
                | Some (v, r2) =>
                    match parse_elements (parse_value fo d) fuel false r2 with
                    | Some (vs, r3) => Some (v :: vs, r3)
                    | None => None
                    end
                | None => None
                end = Some (l, r) -> exists t, elements fo d l t /\ s2 = t ++ x5d :: r) as Hmain.
    { intros s2. destruct (parse_value fo d s2) as [[v r2]|] eqn:Ev; [|discriminate].
      destruct (parse_elements _ _ false r2) as [[vs r3]|] eqn:Er; [|discriminate].
      intros [= <- <-]. apply IHd in Ev. destruct Ev as (wv & tv & -> & Hwv & Hv).
      apply IH in Er. destruct Er as [[-> (w2 & Hw2 & ->)]|(t & Ht & w2 & Hw2 & ->)].
      - exists (wv ++ tv ++ w2). split; [constructor; assumption|]. rewrite <- !app_assoc. reflexivity.
      - exists (wv ++ tv ++ w2 ++ x2c :: t). split; [constructor; assumption|].
        rewrite <- !app_assoc. reflexivity. }
    destruct first.
    - intros H. apply Hmain in H. destruct H as (t & Ht & Hst). right.
      exists (w ++ t). split; [|rewrite <- app_assoc, <- Hst; exact Hs].
      assert (forall w' a b, ws w' -> ws (w ++ w') /\ w ++ (w' ++ a ++ b) = (w ++ w') ++ a ++ b) as Hww.
      { intros w' a b Hw'. split; [apply Forall_app; split; assumption|rewrite !app_assoc; reflexivity]. }
      destruct Ht as [d0 j w1 t w2 Hw1 Hv Hw2|d0 j l0 w1 t w2 t' Hw1 Hv Hw2 Hl].
      + destruct (Hww w1 t w2 Hw1) as [H ->]. constructor; assumption.
      + destruct (Hww w1 t (w2 ++ x2c :: t') Hw1) as [H ->]. constructor; assumption.
    - destruct (Byte.eqb c ","%byte) eqn:E2; [|discriminate]. apply eqb_eq in E2. subst c.
      intros H. apply Hmain in H. destruct H as (t & Ht & ->). right. exists t. split; [exact Ht|].
      exists w. split; [exact Hw|exact Hs].
  Qed.

  Lemma members_sound fuel first s l r :
    parse_members (parse_value fo d) fuel first s = Some (l, r) ->
    (l = [] /\ exists w, ws w /\ s = w ++ x7d :: r) \/
    (exists t, members fo d l t /\
       (if first then s = t ++ x7d :: r else exists w, ws w /\ s = w ++ x2c :: t ++ x7d :: r)).
  Proof.
    revert first s l r; induction fuel as [|fuel IH]; intros first s l r; [discriminate|].
    cbn [parse_members]. destruct (skip_ws_inv s) as (w & Hs & Hw).
    destruct (skip_ws s) as [|c s1] eqn:Esk; [discriminate|].
    destruct (Byte.eqb c "}"%byte) eqn:Ec.
    { intros [= <- <-]. apply eqb_eq in Ec. subst c. left. split; [reflexivity|]. exists w. tauto. }
    assert (forall w1 q s2, ws w1 -> (if Byte.eqb q """"%byte then
                  match parse_string s2 with
                  | None => None
                  | Some (esc, k, r) =>
                      match skip_ws r with
                      | d1 :: r1 =>
                          if Byte.eqb d1 ":"%byte then
                            match parse_value fo d r1 with
                            | None => None
                            | Some (v, r2) =>
                                match parse_members (parse_value fo d) fuel false r2 with
                                | Some (ms, r3) => Some ((esc, k, v) :: ms, r3)
                                | None => None
                                end
                            end
                          else None
                      | [] => None
                      end
                  end
                else None) = Some (l, r) ->
            exists t, members fo d l t /\ w1 ++ q :: s2 = t ++ x7d :: r) as Hmain.
    { intros w1 q s2 Hw1. destruct (Byte.eqb q """"%byte) eqn:Eq; [|discriminate].
      apply eqb_eq in Eq. subst q.
      destruct (parse_string s2) as [[[esc k] r0]|] eqn:Ek; [|discriminate].
      apply parse_string_inv in Ek. destruct Ek as (tk & Hk & Htk).
      destruct (skip_ws_inv r0) as (w2 & Hr0 & Hw2).
      destruct (skip_ws r0) as [|d1 r1] eqn:Esk2; [discriminate|].
      destruct (Byte.eqb d1 ":"%byte) eqn:Ed; [|discriminate]. apply eqb_eq in Ed. subst d1.
      destruct (parse_value fo d r1) as [[v r2]|] eqn:Ev; [|discriminate].
      destruct (parse_members _ _ false r2) as [[ms r3]|] eqn:Er; [|discriminate].
      intros [= <- <-]. apply IHd in Ev. destruct Ev as (wv & tv & -> & Hwv & Hv).
      change (w1 ++ """"%byte :: s2) with (w1 ++ (x22 :: s2)). rewrite Hk, Hr0.
      apply IH in Er. destruct Er as [[-> (w3 & Hw3 & ->)]|(t & Ht & w3 & Hw3 & ->)].
      - exists (w1 ++ tk ++ w2 ++ x3a :: wv ++ tv ++ w3). split; [constructor; assumption|].
        rewrite <- !app_assoc. cbn [app]. rewrite <- !app_assoc. reflexivity.
      - exists (w1 ++ tk ++ w2 ++ x3a :: wv ++ tv ++ w3 ++ x2c :: t). split; [constructor; assumption|].
        rewrite <- !app_assoc. cbn [app]. rewrite <- !app_assoc. reflexivity. }
    destruct first.
    - intros H. apply (Hmain w) in H; [|exact Hw]. destruct H as (t & Ht & Hst). right.
      exists t. split; [exact Ht|]. rewrite <- Hst. exact Hs.
    - destruct (Byte.eqb c ","%byte) eqn:E2; [|discriminate]. apply eqb_eq in E2. subst c.
      destruct (skip_ws_inv s1) as (w1 & Hs1 & Hw1). destruct (skip_ws s1) as [|q s2]; [discriminate|].
      intros H. apply (Hmain w1) in H; [|exact Hw1]. destruct H as (t & Ht & Hst). right.
      exists t. split; [exact Ht|]. exists w. split; [exact Hw|]. rewrite <- Hst, <- Hs1. exact Hs.
  Qed.
End Sound.

Lemma option_map_some {A B} (f : A -> B) o b : option_map f o = Some b -> exists a, o = Some a /\ f a = b.
Proof. destruct o as [a|]; [|discriminate]. intros [= <-]. exists a. split; reflexivity. Qed.

Lemma parse_value_sound fo d s j r : parse_value fo d s = Some (j, r) ->
  exists w t, s = w ++ t ++ r /\ ws w /\ value fo d j t.
Proof.
  revert s j r; induction d as [|d IH]; intros s j r; cbn [parse_value];
    destruct (skip_ws_inv s) as (w & Hs & Hw); destruct (skip_ws s) as [|c s1]; try discriminate;
    destruct (Byte.eqb c "{"%byte) eqn:E1; try discriminate.
  2:{ destruct (parse_members _ _ true s1) as [[ms r']|] eqn:E; [|discriminate]. intros [= <- <-].
      apply eqb_eq in E1. subst c.
      apply (members_sound fo d IH) in E. destruct E as [[-> (w1 & Hw1 & ->)]|(t & Ht & ->)].
      - exists w, (x7b :: w1 ++ [x7d]). split; [rewrite Hs; cbn [app]; rewrite <- app_assoc; reflexivity|].
        split; [exact Hw|constructor; exact Hw1].
      - exists w, (x7b :: t ++ [x7d]). split; [rewrite Hs; cbn [app]; rewrite <- app_assoc; reflexivity|].
        split; [exact Hw|constructor; exact Ht]. }
  all: destruct (Byte.eqb c "["%byte) eqn:E2; try discriminate.
  2:{ destruct (parse_elements _ _ true s1) as [[ms r']|] eqn:E; [|discriminate]. intros [= <- <-].
      apply eqb_eq in E2. subst c.
      apply (elements_sound fo d IH) in E. destruct E as [[-> (w1 & Hw1 & ->)]|(t & Ht & ->)].
      - exists w, (x5b :: w1 ++ [x5d]). split; [rewrite Hs; cbn [app]; rewrite <- app_assoc; reflexivity|].
        split; [exact Hw|constructor; exact Hw1].
      - exists w, (x5b :: t ++ [x5d]). split; [rewrite Hs; cbn [app]; rewrite <- app_assoc; reflexivity|].
        split; [exact Hw|constructor; exact Ht]. }
  all: destruct (Byte.eqb c """"%byte) eqn:E3;
    [destruct (parse_string s1) as [[[e str] r']|] eqn:E; [|discriminate];
     intros [= <- <-]; apply eqb_eq in E3; subst c; apply parse_string_inv in E;
     destruct E as (t & Ht & Hst); exists w, t; split; [rewrite Hs, <- Ht; reflexivity|];
     split; [exact Hw|apply (v_str _ _ e); exact Hst]|].
  all: destruct (Byte.eqb c "n"%byte) eqn:E4;
    [intros H; apply option_map_some in H; destruct H as (r' & H & [= <- <-]);
     apply eqb_eq in E4; subst c; apply strip_prefix_some in H; subst s1; exists w, (bs "null");
     split; [exact Hs|split; [exact Hw|constructor]]|].
  all: destruct (Byte.eqb c "t"%byte) eqn:E5;
    [intros H; apply option_map_some in H; destruct H as (r' & H & [= <- <-]);
     apply eqb_eq in E5; subst c; apply strip_prefix_some in H; subst s1; exists w, (bs "true");
     split; [exact Hs|split; [exact Hw|constructor]]|].
  all: destruct (Byte.eqb c "f"%byte) eqn:E6;
    [intros H; apply option_map_some in H; destruct H as (r' & H & [= <- <-]);
     apply eqb_eq in E6; subst c; apply strip_prefix_some in H; subst s1; exists w, (bs "false");
     split; [exact Hs|split; [exact Hw|constructor]]|].
  all: intros H; apply parse_number_inv in H; destruct H as (t & Ht & Hn); exists w, t;
    (split; [rewrite Hs, Ht; reflexivity|split; [exact Hw|]]);
    destruct Hn as [(n & -> & Hi & Hl)|[-> Ho]]; constructor; assumption.
Qed.

Theorem parse_json_iff fo s j : parse_json fo s = Some j <-> document fo j s.
Proof.
  unfold parse_json. split.
  - destruct (parse_value fo 127 s) as [[v r]|] eqn:E; [|discriminate].
    apply parse_value_sound in E. destruct E as (w & t & -> & Hw & Hv).
    destruct (skip_ws_inv r) as (w2 & Hr & Hw2). destruct (skip_ws r); [|discriminate].
    intros [= <-]. exists w, t, w2. rewrite app_nil_r in Hr. subst. repeat split; assumption.
  - intros (w1 & t & w2 & -> & Hw1 & Hv & Hw2). rewrite parse_value_ws by exact Hw1.
    destruct (parse_complete fo) as [Hc _]. rewrite (Hc _ _ _ Hv).
    + rewrite skip_ws_nil by exact Hw2. reflexivity.
    + intros _. destruct Hw2 as [|c w Hc' _]; [exact I|]. cbn [In] in Hc'.
      destruct Hc' as [<-|[<-|[<-|[<-|[]]]]]; reflexivity.
Qed.

(** * Writing *)

Lemma chars_escape_byte c str t : chars str t -> chars (c :: str) (escape_byte c ++ t).
Proof.
  intros H.
  destruct (Byte.to_N c <? 0x20)%N eqn:E.
  - destruct c; try discriminate E;
      match goal with |- chars (?c :: _) (?e ++ _) =>
        let v := eval vm_compute in e in change e with v; cbn [app];
        first [ apply chars_escape; [cbn; tauto|exact H]
              | change (c :: str) with (utf8_char (Byte.to_N c) ++ str);
                match v with _ :: _ :: ?q =>
                  apply (chars_unicode q); [apply hexquad_spec; reflexivity|left; reflexivity|exact H]
                end ]
      end.
  - destruct (Byte.eqb c x22) eqn:E1;
      [apply eqb_eq in E1; subst; apply (chars_escape x22); [cbn; tauto|exact H]|].
    destruct (Byte.eqb c x5c) eqn:E2;
      [apply eqb_eq in E2; subst; apply (chars_escape x5c); [cbn; tauto|exact H]|].
    assert (escape_byte c = [c]) as -> by (destruct c; try discriminate; reflexivity).
    apply chars_plain; [apply eqb_neq, E1|apply eqb_neq, E2|lia|exact H].
Qed.

Lemma chars_written s : chars s (flat_map escape_byte s).
Proof.
  induction s as [|c s IH]; [constructor|]. cbn [flat_map]. apply chars_escape_byte, IH.
Qed.

(** Bytes written as escape sequences *)
Definition needs_escape (s : bytes) : bool := contains_byte x5c (flat_map escape_byte s).

Lemma string_written s : utf8 s = true -> string_text (needs_escape s) s (write_string s).
Proof.
  intros H. exists (flat_map escape_byte s). repeat split; [apply chars_written|exact H].
Qed.

Lemma write_digits_spec fuel n acc : (n < 10 ^ N.of_nat fuel)%N -> 0 < fuel ->
  exists ds, write_digits fuel n acc = ds ++ acc /\ integer ds n.
Proof.
  revert n acc; induction fuel as [|f IH]; intros n acc Hn Hf; [lia|].
  cbn [write_digits]. destruct (N.ltb_spec n 10) as [H|H].
  - exists [u8 (48 + n)]. split; [reflexivity|].
    assert (digit (u8 (48 + n)) n) as Hd.
    { apply digit_spec. unfold is_digit, M_Utf8.in_range, digit_value. rewrite to_N_u8.
      rewrite N.mod_small by lia. split; lia. }
    split; [constructor; exact Hd|]. intros t [= _ <-]. reflexivity.
  - assert (n / 10 < 10 ^ N.of_nat f)%N as Hn'.
    { replace (N.of_nat (S f)) with (N.succ (N.of_nat f)) in Hn by lia.
      rewrite N.pow_succ_r' in Hn. apply N.div_lt_upper_bound; lia. }
    destruct f as [|f]; [cbn in Hn'; lia|].
    destruct (IH (n / 10)%N (u8 (48 + n mod 10) :: acc) Hn' ltac:(lia)) as (ds & -> & Hi & Hz).
    exists (ds ++ [u8 (48 + n mod 10)]). split; [rewrite <- app_assoc; reflexivity|]. split.
    + replace n with (10 * (n / 10) + n mod 10)%N at 2 by lia. constructor; [exact Hi|].
      apply digit_spec. unfold is_digit, M_Utf8.in_range, digit_value. rewrite to_N_u8.
      rewrite N.mod_small by lia. split; lia.
    + intros t Ht. destruct ds as [|c ds]; [apply decimal_spec in Hi; destruct Hi; congruence|].
      cbn [app] in Ht. injection Ht as -> _. rewrite (Hz ds eq_refl) in Hi.
      apply decimal_spec in Hi. destruct Hi as (_ & _ & Hi). change (digits_value [x30]) with 0%N in Hi. lia.
Qed.

Lemma write_number_spec n : (n <= u64_max)%N -> integer (write_number n) n.
Proof.
  intros H. destruct (write_digits_spec 20 n []) as (ds & Hw & Hi); [|lia|].
  - change (10 ^ N.of_nat 20)%N with 100000000000000000000%N. unfold u64_max in H. lia.
  - unfold write_number. rewrite Hw, app_nil_r. exact Hi.
Qed.

(** Values that can be written: UTF-8 strings, integers in range, limited nesting. *)
Fixpoint writable (d : nat) (j : json) : bool :=
  match j with
  | JNull | JBool _ => true
  | JPos n => (n <=? u64_max)%N
  | JNum => false
  | JStr s => utf8 s
  | JArr l => match d with O => false | S d => forallb (writable d) l end
  | JObj l => match d with
              | O => false
              | S d => forallb (fun '(_, k, v) => utf8 k && writable d v) l
              end
  end.

(** The value as read back: the flags of the keys tell which ones needed escapes. *)
Fixpoint reflag (j : json) : json :=
  match j with
  | JArr l => JArr (map reflag l)
  | JObj l => JObj (map (fun '(_, k, v) => (needs_escape k, k, reflag v)) l)
  | j => j
  end.

Lemma ws_nil : ws [].
Proof. constructor. Qed.

Lemma written fo d j : writable d j = true -> value fo d (reflag j) (write_json j).
Proof.
  revert j; induction d as [|d IH]; intros j H.
  - destruct j as [|[]| | | | |]; try discriminate; cbn [reflag write_json writable] in *.
    1-3: constructor.
    + apply v_pos; [apply write_number_spec|]; lia.
    + apply (v_str _ _ (needs_escape s)), string_written, H.
  - destruct j as [|[]| | |s|l|l]; try discriminate; cbn [reflag write_json writable] in *.
    1-3: constructor.
    + apply v_pos; [apply write_number_spec|]; lia.
    + apply (v_str _ _ (needs_escape s)), string_written, H.
    + destruct l as [|x l]; [apply (v_arr_empty fo d []), ws_nil|].
      cbn [map]. apply v_arr. revert x H; induction l as [|y l IHl]; intros x H; cbn [map join] in *;
        cbn [forallb] in H; apply andb_true_iff in H; destruct H as [Hx H].
      * replace (write_json x) with ([] ++ write_json x ++ []) by (cbn [app]; apply app_nil_r).
        apply e_last; [apply ws_nil|apply IH, Hx|apply ws_nil].
      * apply (e_more fo d _ _ [] _ [] _); [apply ws_nil|apply IH, Hx|apply ws_nil|]. apply IHl, H.
    + destruct l as [|x l]; [apply (v_obj_empty fo d []), ws_nil|].
      cbn [map]. apply v_obj. revert x H; induction l as [|y l IHl]; intros [[e k] v] H; cbn [map join] in *;
        cbn [forallb] in H; apply andb_true_iff in H; destruct H as [Hx H]; apply andb_true_iff in Hx;
        destruct Hx as [Hk Hv].
      * replace (write_string k ++ ":"%byte :: write_json v)
          with ([] ++ write_string k ++ [] ++ x3a :: [] ++ write_json v ++ [])
          by (cbn [app]; rewrite app_nil_r; reflexivity).
        apply m_last; try apply ws_nil; [apply string_written, Hk|apply IH, Hv].
      * rewrite <- app_assoc.
        apply (m_more fo d _ _ _ _ [] _ [] [] _ [] _); try apply ws_nil;
          [apply string_written, Hk|apply IH, Hv|]. apply IHl, H.
Qed.

Theorem write_parse fo j : writable 127 j = true -> parse_json fo (write_json j) = Some (reflag j).
Proof.
  intros H. apply parse_json_iff. exists [], (write_json j), [].
  rewrite app_nil_r. repeat split; [constructor|apply written, H|constructor].
Qed.

(** * Incomplete documents *)

Theorem strict_prefix_rejected fo j t p q :
  value fo 127 j t -> is_number j = false -> t = p ++ q -> q <> [] -> parse_json fo p = None.
Proof.
  intros Hv Hj Ht Hq. destruct (parse_json fo p) as [j'|] eqn:E; [|reflexivity]. exfalso.
  apply parse_json_iff in E. destruct E as (w1 & t1 & w2 & Hp & Hw1 & Hv1 & Hw2).
  destruct (parse_complete fo) as [Hc _].
  pose proof (Hc _ _ _ Hv [] ltac:(congruence)) as H1. rewrite app_nil_r in H1.
  destruct (value_starts _ _ _ _ Hv) as (c & t' & Htc & Hcw & _ & _).
  assert (w1 = []) as ->.
  { destruct Hw1 as [|x w1 Hx _]; [reflexivity|]. subst p. rewrite Ht in Htc. cbn [app] in Htc.
    injection Htc as -> _. apply is_ws_spec in Hx. congruence. }
  cbn [app] in Hp. subst p. rewrite <- !app_assoc in Ht.
  destruct (is_number j') eqn:Ej.
  - (* a number is no prefix of a non-number *)
    assert (number_of fo j' t1) as Hn.
    { destruct Hv1; try discriminate Ej; [left; eauto|right; tauto]. }
    apply number_of_head in Hn. destruct Hn as (c1 & t2 & -> & Hc1).
    rewrite Ht in Htc. cbn [app] in Htc. injection Htc as <- _.
    destruct Hv; try discriminate Hj;
      try (match goal with H : string_text _ _ _ |- _ => destruct H as (t0 & -> & _) end);
      cbn in Ht; injection Ht as <- _; discriminate Hc1.
  - rewrite Ht, (Hc _ _ _ Hv1 (w2 ++ q) ltac:(congruence)) in H1. injection H1 as _ H1.
    apply app_eq_nil in H1. tauto.
Qed.

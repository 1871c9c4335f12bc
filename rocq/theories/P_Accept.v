(** Which entries are accepted. *)
From Coq Require Import Permutation.
From Verif Require Import M_Base M_Utf8 M_Types M_Json M_Serde S_Json S_Serde S_Accept P_Base P_Json P_Serde.

Lemma in_plain k v (ms : list (bool * bytes * json)) : In (k, v) (plain ms) <-> exists e, In (e, k, v) ms.
Proof.
  unfold plain. rewrite in_map_iff. split.
  - intros ([[e k'] v'] & [= -> ->] & H). exists e. exact H.
  - intros [e H]. exists (e, k, v). split; [reflexivity|exact H].
Qed.

Lemma lookup_plain k ms : lookup k ms = map snd (filter (fun '(k', _) => bytes_eqb k k') (plain ms)).
Proof.
  unfold lookup, plain. induction ms as [|[[e k'] v] ms IH]; [reflexivity|]. cbn [map filter].
  destruct (bytes_eqb k k'); cbn [map snd]; [f_equal|]; exact IH.
Qed.

Lemma lookup_none k ms : lookup k ms = [] <-> has_none k ms.
Proof.
  rewrite lookup_plain. unfold has_none, keys. induction (plain ms) as [|[k' v] l IH].
  - split; [intros _ []|reflexivity].
  - cbn [filter map fst In]. destruct (bytes_eqb k k') eqn:E.
    + apply bytes_eqb_eq in E. split; [discriminate|]. intros H. contradict H. left. congruence.
    + apply bytes_eqb_neq in E. rewrite IH. split; [intros H [H'|H']; [congruence|exact (H H')]|].
      intros H H'. apply H. right. exact H'.
Qed.

Lemma found_none k (l : list (bytes * json)) :
  map snd (filter (fun '(k', _) => bytes_eqb k k') l) = [] <-> ~ In k (map fst l).
Proof.
  induction l as [|[k' v] l IH]; [split; [intros _ []|reflexivity]|].
  cbn [filter map fst In]. destruct (bytes_eqb k k') eqn:E.
  - apply bytes_eqb_eq in E. split; [discriminate|]. intros H. contradict H. left. congruence.
  - apply bytes_eqb_neq in E. rewrite IH. split; [intros H [H'|H']; [congruence|exact (H H')]|].
    intros H H'. apply H. right. exact H'.
Qed.

Lemma lookup_one k v ms : lookup k ms = [v] <-> has_one k v ms.
Proof.
  rewrite lookup_plain. unfold has_one. generalize (plain ms) as l. clear ms. split.
  - induction l as [|[k' v'] l IH]; [discriminate|]. cbn [filter].
    destruct (bytes_eqb k k') eqn:E.
    + apply bytes_eqb_eq in E. subst k'. cbn [map snd]. intros [= -> H]. apply found_none in H.
      exists [], l. split; [reflexivity|]. split; [intros []|exact H].
    + apply bytes_eqb_neq in E. intros H. destruct (IH H) as (a & b & -> & Ha & Hb).
      exists ((k', v') :: a), b. split; [reflexivity|]. split; [|exact Hb].
      cbn [map fst In]. intros [H'|H']; [congruence|exact (Ha H')].
  - intros (a & b & -> & Ha & Hb). apply found_none in Ha, Hb. rewrite filter_app, map_app, Ha.
    cbn [filter]. rewrite bytes_eqb_refl. cbn [map snd app]. rewrite Hb. reflexivity.
Qed.

Lemma key_in_iff ks e k (v : json) : key_in ks (e, k, v) = true <-> In k ks.
Proof.
  unfold key_in. rewrite existsb_exists. split.
  - intros (x & Hin & Hx). apply bytes_eqb_eq in Hx. subst x. exact Hin.
  - intros H. exists k. split; [exact H|apply bytes_eqb_refl].
Qed.

Lemma key_in_false ks e k (v : json) : key_in ks (e, k, v) = false <-> ~ In k ks.
Proof. rewrite <- (key_in_iff ks e k v). destruct (key_in ks (e, k, v)); split; congruence. Qed.

Lemma lookup_filter k ks ms : ~ In k ks ->
  lookup k (filter (fun m => negb (key_in ks m)) ms) = lookup k ms.
Proof.
  intros Hk. unfold lookup. f_equal. induction ms as [|[[e k'] v] ms IH]; [reflexivity|].
  cbn [filter]. destruct (key_in ks (e, k', v)) eqn:E; cbn [negb filter].
  - apply key_in_iff in E. assert (bytes_eqb k k' = false) as -> by (apply bytes_eqb_neq; congruence). exact IH.
  - destruct (bytes_eqb k k'); [f_equal|]; exact IH.
Qed.

Lemma has_one_fun k v v' ms : has_one k v ms -> has_one k v' ms -> v = v'.
Proof. intros H H'. apply lookup_one in H, H'. congruence. Qed.

Lemma has_one_none k v ms : has_one k v ms -> has_none k ms -> False.
Proof. intros H H'. apply lookup_one in H. apply lookup_none in H'. congruence. Qed.

(** * Fields *)

Lemma as_str_iff j s : as_str j = Some s <-> j = JStr s.
Proof. split; [destruct j; try discriminate; intros [= ->]; reflexivity|intros ->; reflexivity]. Qed.

Lemma as_pos_iff j n : as_pos j = Some n <-> j = JPos n.
Proof. split; [destruct j; try discriminate; intros [= ->]; reflexivity|intros ->; reflexivity]. Qed.

Lemma as_bool_iff j n : as_bool j = Some n <-> j = JBool n.
Proof. split; [destruct j; try discriminate; intros [= ->]; reflexivity|intros ->; reflexivity]. Qed.

Lemma as_opt_str_iff j a : as_opt_str j = Some a <-> j = match a with Some a => JStr a | None => JNull end.
Proof.
  split; [destruct j; try discriminate; intros [= <-]; reflexivity|].
  intros ->. destruct a; reflexivity.
Qed.

Lemma required_iff {A} k (conv : json -> option A) (of : A -> json) ms a :
  (forall j a, conv j = Some a <-> j = of a) -> required k conv ms = Some a <-> has_one k (of a) ms.
Proof.
  intros Hc. rewrite <- lookup_one. unfold required. split.
  - destruct (lookup k ms) as [|j [|]]; try discriminate. intros H. apply Hc in H. subst j. reflexivity.
  - intros ->. apply Hc. reflexivity.
Qed.

Lemma optional_iff {A} k (conv : json -> option A) (of : A -> json) d ms a :
  (forall j a, conv j = Some a <-> j = of a) ->
  optional k conv d ms = Some a <-> has_one k (of a) ms \/ has_none k ms /\ a = d.
Proof.
  intros Hc. rewrite <- lookup_one, <- lookup_none. unfold optional. split.
  - destruct (lookup k ms) as [|j [|]]; try discriminate.
    + intros [= <-]. right. split; reflexivity.
    + intros H. apply Hc in H. subst j. left. reflexivity.
  - intros [-> | [-> ->]]; [apply Hc|]; reflexivity.
Qed.

(** * Sites *)

Lemma site_of_json_iff j s : site_of_json j = Some s <-> site_value j s.
Proof.
  assert (forall ms : list (bool * bytes * json), forallb (key_in [bs "site"; bs "alias"]) ms = true <->
            forall k, In k (keys ms) -> k = bs "site" \/ k = bs "alias") as Hkeys.
  { intros ms. rewrite forallb_forall. unfold keys. split.
    - intros H k Hk. apply in_map_iff in Hk. destruct Hk as ([k' v] & <- & Hk). apply in_plain in Hk.
      destruct Hk as [e Hk]. apply H, key_in_iff in Hk. destruct Hk as [Hk|[Hk|[]]]; [left|right]; symmetry; exact Hk.
    - intros H [[e k] v] Hin. apply key_in_iff. destruct (H k) as [-> | ->].
      + apply in_map_iff. exists (k, v). split; [reflexivity|]. apply in_plain. exists e. exact Hin.
      + left. reflexivity.
      + right. left. reflexivity. }
  unfold site_value. split.
  - destruct j as [| | | | | l | ms]; try discriminate.
    + destruct l as [|n [|a [|]]]; try discriminate. cbn [site_of_json].
      destruct (as_str n) eqn:En; [|discriminate]. destruct (as_opt_str a) eqn:Ea; [|discriminate].
      intros [= <-]. right. apply as_str_iff in En. apply as_opt_str_iff in Ea. subst. reflexivity.
    + cbn [site_of_json]. destruct (forallb _ ms) eqn:Ek; [|discriminate].
      destruct (required _ _ ms) as [n|] eqn:En; [|discriminate].
      destruct (optional _ _ _ ms) as [a|] eqn:Ea; [|discriminate]. intros [= <-]. left.
      apply (required_iff _ _ JStr) in En; [|apply as_str_iff].
      apply (optional_iff _ _ (fun a => match a with Some a => JStr a | None => JNull end)) in Ea;
        [|apply as_opt_str_iff].
      exists ms. split; [reflexivity|]. split; [apply Hkeys; exact Ek|]. split; [exact En|].
      cbn [site_alias]. destruct Ea as [Ea|[Ea ->]]; [|left; exact Ea]. destruct a as [a|]; [exact Ea|right; exact Ea].
  - destruct s as [n a]. cbn [site_name site_alias]. intros [(ms & -> & Hk & Hn & Ha) | ->].
    + apply Hkeys in Hk. cbn [site_of_json]. rewrite Hk.
      apply (required_iff _ as_str JStr) in Hn; [|apply as_str_iff]. rewrite Hn.
      assert (optional (bs "alias") as_opt_str None ms = Some a) as ->; [|reflexivity].
      apply (optional_iff _ _ (fun a => match a with Some a => JStr a | None => JNull end)); [apply as_opt_str_iff|].
      destruct a as [a|]; [left; exact Ha|]. destruct Ha as [Ha|Ha]; [right; split; [exact Ha|reflexivity]|left; exact Ha].
    + destruct a; reflexivity.
Qed.

(** * Passwords *)

Lemma id_of_members_iff ms i : id_of_members ms = Some i <-> id_value ms i.
Proof.
  unfold id_of_members, id_value. destruct i as [s n r]. cbn [id_site id_name id_revision].
  rewrite <- !(required_iff _ as_str JStr) by apply as_str_iff.
  destruct (required (bs "site") _ ms), (required (bs "name") _ ms), (required (bs "revision") _ ms);
    split; try discriminate; try (intros (? & ? & ?); congruence).
  intros [= -> -> ->]. repeat split; reflexivity.
Qed.

Lemma cs_ext c c' : (forall t, cs_contains c t = true <-> cs_contains c' t = true) -> c = c'.
Proof.
  intros H. destruct c as [l u d y], c' as [l' u' d' y'].
  pose proof (H Lower) as H1. pose proof (H Upper) as H2. pose proof (H Digit) as H3. pose proof (H Symbol) as H4.
  cbn in H1, H2, H3, H4. f_equal.
  - destruct l, l'; intuition congruence.
  - destruct u, u'; intuition congruence.
  - destruct d, d'; intuition congruence.
  - destruct y, y'; intuition congruence.
Qed.

Lemma cs_insert_iff c t t' : cs_contains (cs_insert c t) t' = true <-> t' = t \/ cs_contains c t' = true.
Proof. destruct c as [[] [] [] []], t, t'; cbn; intuition congruence. Qed.

Lemma flag_name_inj t t' : flag_name t = flag_name t' -> t = t'.
Proof. destruct t, t'; cbn; congruence. Qed.

Definition flag_of (k : bytes) : option ctype :=
  if bytes_eqb k (bs "lower") then Some Lower
  else if bytes_eqb k (bs "upper") then Some Upper
  else if bytes_eqb k (bs "number") then Some Digit
  else if bytes_eqb k (bs "symbol") then Some Symbol
  else None.

Lemma flag_of_iff k t : flag_of k = Some t <-> k = flag_name t.
Proof.
  split; [|intros ->; destruct t; reflexivity]. unfold flag_of.
  repeat match goal with |- context [bytes_eqb k ?c] => destruct (bytes_eqb k c) eqn:?E end;
    try discriminate; intros [= <-]; apply bytes_eqb_eq; assumption.
Qed.

Lemma charset_step acc esc k v ms :
  charset_of_members acc ((esc, k, v) :: ms) =
  if (esc : bool) then None
  else match flag_of k with
       | Some t => match as_bool v with
                   | Some b => charset_of_members (if b then cs_insert acc t else acc) ms
                   | None => None
                   end
       | None => charset_of_members acc ms
       end.
Proof.
  cbn [charset_of_members]. unfold flag_of. destruct esc; [reflexivity|].
  repeat match goal with |- context [bytes_eqb k ?c] => destruct (bytes_eqb k c) end; reflexivity.
Qed.

Lemma charset_iff ms acc c :
  charset_of_members acc ms = Some c <->
  (forall e k v, In (e, k, v) ms -> e = false) /\
  (forall e t v, In (e, flag_name t, v) ms -> exists b, v = JBool b) /\
  (forall t, cs_contains c t = true <->
     cs_contains acc t = true \/ exists e, In (e, flag_name t, JBool true) ms).
Proof.
  revert acc. induction ms as [|[[e k] v] ms IH]; intros acc.
  - split.
    + intros [= ->]. split; [intros e k v []|]. split; [intros e t v []|].
      intros t. split; [intros H; left; exact H|intros [H|[e []]]; exact H].
    + intros (_ & _ & H). cbn [charset_of_members]. f_equal. apply cs_ext. intros t. rewrite H.
      split; [intros H'; left; exact H'|intros [H'|[e []]]; exact H'].
  - rewrite charset_step. split.
    + destruct e; [discriminate|]. destruct (flag_of k) as [t|] eqn:Ek.
      * apply flag_of_iff in Ek. subst k. destruct (as_bool v) as [b|] eqn:Ev; [|discriminate].
        apply as_bool_iff in Ev. subst v. intros H. apply IH in H. destruct H as (H1 & H2 & H3).
        split; [|split].
        -- intros e k v [[= <- _ _]|H]; [reflexivity|exact (H1 _ _ _ H)].
        -- intros e t' v [[= _ _ <-]|H]; [exists b; reflexivity|exact (H2 _ _ _ H)].
        -- intros t'. rewrite H3. split.
           ++ intros [H|[e H]].
              ** destruct b; [|left; exact H]. apply cs_insert_iff in H. destruct H as [-> |H]; [|left; exact H].
                 right. exists false. left. reflexivity.
              ** right. exists e. right. exact H.
           ++ intros [H|[e [[= Et Eb]|H]]].
              ** left. destruct b; [|exact H]. apply cs_insert_iff. right. exact H.
              ** left. subst b. apply cs_insert_iff. left.
                 apply flag_name_inj. symmetry. assumption.
              ** right. exists e. exact H.
      * intros H. apply IH in H. destruct H as (H1 & H2 & H3).
        assert (forall t, k <> flag_name t) as Hk.
        { intros t Ht. apply flag_of_iff in Ht. congruence. }
        split; [|split].
        -- intros e k' v' [[= <- _ _]|H]; [reflexivity|exact (H1 _ _ _ H)].
        -- intros e t' v' [[= _ Ht _]|H]; [elim (Hk _ Ht)|exact (H2 _ _ _ H)].
        -- intros t'. rewrite H3. split.
           ++ intros [H|[e H]]; [left; exact H|]. right. exists e. right. exact H.
           ++ intros [H|[e [[= _ Ht _]|H]]]; [left; exact H|elim (Hk _ Ht)|]. right. exists e. exact H.
    + intros (H1 & H2 & H3).
      assert (e = false) as -> by (apply (H1 e k v); left; reflexivity).
      destruct (flag_of k) as [t|] eqn:Ek.
      * apply flag_of_iff in Ek. subst k. destruct (H2 false t v) as [b ->]; [left; reflexivity|].
        cbn [as_bool]. apply IH. split; [|split].
        -- intros e k v H. apply (H1 e k v). right. exact H.
        -- intros e t' v H. apply (H2 e t' v). right. exact H.
        -- intros t'. rewrite H3. split.
           ++ intros [H|[e [[= Ee Et Eb]|H]]].
              ** left. destruct b; [|exact H]. apply cs_insert_iff. right. exact H.
              ** left. subst b. apply cs_insert_iff. left. apply flag_name_inj. symmetry. assumption.
              ** right. exists e. exact H.
           ++ intros [H|[e H]].
              ** destruct b; [|left; exact H]. apply cs_insert_iff in H. destruct H as [-> |H]; [|left; exact H].
                 right. exists false. left. reflexivity.
              ** right. exists e. right. exact H.
      * assert (forall t, k <> flag_name t) as Hk.
        { intros t Ht. apply flag_of_iff in Ht. congruence. }
        apply IH. split; [|split].
        -- intros e k' v' H. apply (H1 e k' v'). right. exact H.
        -- intros e t' v' H. apply (H2 e t' v'). right. exact H.
        -- intros t'. rewrite H3. split.
           ++ intros [H|[e [[= _ Ht _]|H]]]; [left; exact H|elim (Hk _ Ht)|]. right. exists e. exact H.
           ++ intros [H|[e H]]; [left; exact H|]. right. exists e. right. exact H.
Qed.

Lemma in_filtered ks (m : bool * bytes * json) ms :
  In m (filter (fun m => negb (key_in ks m)) ms) <-> In m ms /\ ~ In (snd (fst m)) ks.
Proof.
  rewrite filter_In. destruct m as [[e k] v]. cbn [fst snd]. rewrite negb_true_iff, key_in_false. reflexivity.
Qed.

Lemma flag_not_named t : ~ In (flag_name t) generated_names.
Proof. destruct t; cbn; intuition discriminate. Qed.

Ltac off := let H := fresh in intros H; cbn in H; intuition discriminate.

Lemma required_filter {A} k ks (conv : json -> option A) ms : ~ In k ks ->
  required k conv (filter (fun m => negb (key_in ks m)) ms) = required k conv ms.
Proof. intros H. unfold required. rewrite lookup_filter by exact H. reflexivity. Qed.

Lemma optional_filter {A} k ks (conv : json -> option A) d ms : ~ In k ks ->
  optional k conv d (filter (fun m => negb (key_in ks m)) ms) = optional k conv d ms.
Proof. intros H. unfold optional. rewrite lookup_filter by exact H. reflexivity. Qed.

Lemma id_filter ks ms : ~ In (bs "site") ks -> ~ In (bs "name") ks -> ~ In (bs "revision") ks ->
  id_of_members (filter (fun m => negb (key_in ks m)) ms) = id_of_members ms.
Proof. intros. unfold id_of_members. rewrite !required_filter by assumption. reflexivity. Qed.

Definition others (ms : list (bool * bytes * json)) : list (bool * bytes * json) :=
  filter (fun m => negb (key_in [bs "site"; bs "name"; bs "revision"] m))
    (filter (fun m => negb (key_in [bs "length"; bs "notes"] m))
      (filter (fun m => negb (key_in [bs "type"] m)) ms)).

Lemma in_others m ms : In m (others ms) <-> In m ms /\ ~ In (snd (fst m)) generated_names.
Proof.
  unfold others. rewrite !in_filtered. unfold generated_names. cbn [In]. intuition.
Qed.

Lemma others_iff ms c :
  charset_of_members cs_empty (others ms) = Some c <->
  (forall e k v, In (e, k, v) ms -> ~ In k generated_names -> e = false) /\
  (forall e t v, In (e, flag_name t, v) ms -> exists b, v = JBool b) /\
  (forall t, cs_contains c t = true <-> exists e, In (e, flag_name t, JBool true) ms).
Proof.
  rewrite charset_iff. split; intros (H1 & H2 & H3); (split; [|split]).
  - intros e k v Hin Hk. apply (H1 e k v), in_others. split; assumption.
  - intros e t v Hin. apply (H2 e t v), in_others. split; [exact Hin|apply flag_not_named].
  - intros t. rewrite H3. split.
    + intros [H|[e H]]; [destruct t; discriminate|]. apply in_others in H. exists e. apply H.
    + intros [e H]. right. exists e. apply in_others. split; [exact H|apply flag_not_named].
  - intros e k v Hin. apply in_others in Hin. apply (H1 e k v); apply Hin.
  - intros e t v Hin. apply in_others in Hin. apply (H2 e t v), Hin.
  - intros t. rewrite H3. split.
    + intros [e H]. right. exists e. apply in_others. split; [exact H|apply flag_not_named].
    + intros [H|[e H]]; [destruct t; discriminate|]. apply in_others in H. exists e. apply H.
Qed.

Lemma password_of_object ms :
  password_of_json (JObj ms) =
  match required (bs "type") as_str ms with
  | None => None
  | Some tag =>
      if bytes_eqb tag (bs "generated2") then
        match required (bs "length") as_pos ms, optional (bs "notes") as_str [] ms,
              id_of_members ms, charset_of_members cs_empty (others ms) with
        | Some len, Some notes, Some i, Some cs => Some (Generated (mk_generated i len cs notes))
        | _, _, _, _ => None
        end
      else if bytes_eqb tag (bs "stored") then
        match required (bs "password") as_str ms, optional (bs "notes") as_str [] ms, id_of_members ms with
        | Some pw, Some notes, Some i => Some (Stored (mk_stored i pw notes))
        | _, _, _ => None
        end
      else None
  end.
Proof.
  unfold password_of_json. fold (others ms).
  rewrite !required_filter, !optional_filter, !id_filter by off.
  destruct (required (bs "type") as_str ms) as [tag|]; [|reflexivity].
  destruct (bytes_eqb tag (bs "generated2")); [|destruct (bytes_eqb tag (bs "stored")); [|reflexivity]].
  - destruct (required (bs "length") as_pos ms), (optional (bs "notes") as_str [] ms), (id_of_members ms),
      (charset_of_members cs_empty (others ms)); reflexivity.
  - destruct (required (bs "password") as_str ms), (optional (bs "notes") as_str [] ms), (id_of_members ms); reflexivity.
Qed.

Lemma password_of_json_iff j p : password_of_json j = Some p <-> password_value j p.
Proof.
  unfold password_value. split.
  - destruct j as [| | | | | | ms]; try discriminate. rewrite password_of_object.
    destruct (required (bs "type") _ _) as [tag|] eqn:Et; [|discriminate].
    apply (required_iff _ as_str JStr) in Et; [|apply as_str_iff].
    destruct (bytes_eqb tag (bs "generated2")) eqn:Eg; [|destruct (bytes_eqb tag (bs "stored")) eqn:Es; [|discriminate]].
    + apply bytes_eqb_eq in Eg. subst tag.
      destruct (required _ _ _) as [len|] eqn:El; [|discriminate].
      destruct (optional _ _ _ _) as [notes|] eqn:En; [|discriminate].
      destruct (id_of_members ms) as [i|] eqn:Ei; [|discriminate].
      destruct (charset_of_members _ _) as [cs|] eqn:Ec; [|discriminate]. intros [= <-].
      exists ms. split; [reflexivity|]. split; [exact Et|].
      split; [apply (required_iff _ as_pos JPos); [apply as_pos_iff|exact El]|].
      split; [apply (optional_iff _ as_str JStr); [apply as_str_iff|exact En]|].
      split; [apply id_of_members_iff; exact Ei|]. apply others_iff. exact Ec.
    + apply bytes_eqb_eq in Es. subst tag.
      destruct (required _ _ _) as [pw|] eqn:El; [|discriminate].
      destruct (optional _ _ _ _) as [notes|] eqn:En; [|discriminate].
      destruct (id_of_members ms) as [i|] eqn:Ei; [|discriminate]. intros [= <-].
      exists ms. split; [reflexivity|]. split; [exact Et|].
      split; [apply (required_iff _ as_str JStr); [apply as_str_iff|exact El]|].
      split; [apply (optional_iff _ as_str JStr); [apply as_str_iff|exact En]|].
      apply id_of_members_iff; exact Ei.
  - intros (ms & -> & H). rewrite password_of_object. destruct p as [[i len cs notes]|[i pw notes]].
    + destruct H as (Ht & Hl & Hn & Hi & Hc). cbn [gp_id gp_length gp_charset gp_notes] in *.
      apply (required_iff _ as_str JStr) in Ht; [|apply as_str_iff]. rewrite Ht, bytes_eqb_refl.
      apply (required_iff _ as_pos JPos) in Hl; [|apply as_pos_iff]. rewrite Hl.
      apply (optional_iff _ as_str JStr) in Hn; [|apply as_str_iff]. rewrite Hn.
      apply id_of_members_iff in Hi. rewrite Hi. apply others_iff in Hc. rewrite Hc. reflexivity.
    + destruct H as (Ht & Hl & Hn & Hi). cbn [sp_id sp_password sp_notes] in *.
      apply (required_iff _ as_str JStr) in Ht; [|apply as_str_iff]. rewrite Ht, bytes_eqb_refl.
      apply (required_iff _ as_str JStr) in Hl; [|apply as_str_iff]. rewrite Hl.
      apply (optional_iff _ as_str JStr) in Hn; [|apply as_str_iff]. rewrite Hn.
      apply id_of_members_iff in Hi. rewrite Hi. reflexivity.
Qed.

(** * Texts *)

Lemma sites_accepted fo text s :
  from_slice fo site_of_json text = Ok s <-> exists j, document fo j text /\ site_value j s.
Proof.
  rewrite from_slice_ok. split; intros (j & Hd & H); exists j; (split; [exact Hd|]); apply site_of_json_iff; exact H.
Qed.

Lemma passwords_accepted fo text p :
  from_slice fo password_of_json text = Ok p <-> exists j, document fo j text /\ password_value j p.
Proof.
  rewrite from_slice_ok. split; intros (j & Hd & H); exists j; (split; [exact Hd|]); apply password_of_json_iff; exact H.
Qed.

Lemma from_document {A} fo (conv : json -> option A) j text : document fo j text ->
  from_slice fo conv text = ok_or (conv j) InvalidJson.
Proof. intros H. apply parse_json_iff in H. unfold from_slice. rewrite H. reflexivity. Qed.

Lemma option_ext {A} (a b : option A) : (forall x, a = Some x <-> b = Some x) -> a = b.
Proof.
  intros H. destruct a as [x|].
  - symmetry. apply H. reflexivity.
  - destruct b as [x|]; [|reflexivity]. apply H. reflexivity.
Qed.

Lemma found_perm k (l l' : list (bytes * json)) : Permutation l l' ->
  Permutation (filter (fun '(k', _) => bytes_eqb k k') l) (filter (fun '(k', _) => bytes_eqb k k') l').
Proof.
  induction 1 as [|[k' v'] l l' Hp IH|[k1 v1] [k2 v2] l|l l' l'' Hp IH Hp' IH'].
  - constructor.
  - cbn [filter]. destruct (bytes_eqb k k'); [constructor|]; exact IH.
  - cbn [filter]. destruct (bytes_eqb k k1), (bytes_eqb k k2);
      first [apply perm_swap | apply Permutation_refl].
  - eapply perm_trans; eassumption.
Qed.

Lemma has_one_perm k v ms ms' : Permutation (plain ms) (plain ms') -> has_one k v ms -> has_one k v ms'.
Proof.
  intros Hp H. apply lookup_one in H. apply lookup_one. rewrite lookup_plain in *.
  apply (found_perm k), (Permutation_map snd) in Hp. rewrite H in Hp.
  apply Permutation_length_1_inv in Hp. exact Hp.
Qed.

Lemma has_none_perm k ms ms' : Permutation (plain ms) (plain ms') -> has_none k ms -> has_none k ms'.
Proof.
  unfold has_none, keys. intros Hp H Hin. apply H. eapply Permutation_in; [|exact Hin].
  apply Permutation_map, Permutation_sym, Hp.
Qed.

Lemma site_value_perm ms ms' s : Permutation (plain ms) (plain ms') ->
  site_value (JObj ms) s -> site_value (JObj ms') s.
Proof.
  intros Hp [(x & [= <-] & Hk & Hn & Ha)|H]; [|discriminate]. left. exists ms'. split; [reflexivity|].
  split; [|split].
  - intros k Hin. apply Hk. unfold keys in *. eapply Permutation_in; [|exact Hin].
    apply Permutation_map, Permutation_sym, Hp.
  - eapply has_one_perm; eassumption.
  - destruct (site_alias s); [eapply has_one_perm; eassumption|].
    destruct Ha as [Ha|Ha]; [left; eapply has_none_perm|right; eapply has_one_perm]; eassumption.
Qed.

Lemma id_value_perm ms ms' i : Permutation (plain ms) (plain ms') -> id_value ms i -> id_value ms' i.
Proof. intros Hp (H1 & H2 & H3). repeat split; eapply has_one_perm; eassumption. Qed.

Lemma notes_value_perm ms ms' n : Permutation (plain ms) (plain ms') -> notes_value ms n -> notes_value ms' n.
Proof.
  intros Hp [H|[H H']]; [left; eapply has_one_perm; eassumption|].
  right. split; [eapply has_none_perm; eassumption|exact H'].
Qed.

Lemma plain_perm ms ms' : Permutation ms ms' -> Permutation (plain ms) (plain ms').
Proof. apply Permutation_map. Qed.

Lemma password_value_perm ms ms' p : Permutation ms ms' ->
  password_value (JObj ms) p -> password_value (JObj ms') p.
Proof.
  intros Hp (x & [= <-] & H). exists ms'. split; [reflexivity|]. pose proof (plain_perm _ _ Hp) as Hq.
  assert (forall m, In m ms' -> In m ms) as Hback.
  { intros m. apply Permutation_in, Permutation_sym, Hp. }
  destruct p as [g|s].
  - destruct H as (H1 & H2 & H3 & H4 & H5 & H6 & H7).
    split; [eapply has_one_perm; eassumption|]. split; [eapply has_one_perm; eassumption|].
    split; [eapply notes_value_perm; eassumption|]. split; [eapply id_value_perm; eassumption|].
    split; [intros e k v Hin; apply (H5 e k v), Hback, Hin|].
    split; [intros e t v Hin; apply (H6 e t v), Hback, Hin|].
    intros t. rewrite H7. split; intros [e Hin]; exists e; [|apply Hback, Hin].
    eapply Permutation_in; eassumption.
  - destruct H as (H1 & H2 & H3 & H4).
    split; [eapply has_one_perm; eassumption|]. split; [eapply has_one_perm; eassumption|].
    split; [eapply notes_value_perm; eassumption|eapply id_value_perm; eassumption].
Qed.

Lemma site_order fo ms ms' text text' :
  document fo (JObj ms) text -> document fo (JObj ms') text' -> Permutation (plain ms) (plain ms') ->
  from_slice fo site_of_json text = from_slice fo site_of_json text'.
Proof.
  intros H H' Hp. rewrite (from_document _ _ _ _ H), (from_document _ _ _ _ H'). f_equal.
  apply option_ext. intros s. rewrite !site_of_json_iff.
  split; apply site_value_perm; [exact Hp|apply Permutation_sym, Hp].
Qed.

Lemma password_order fo ms ms' text text' :
  document fo (JObj ms) text -> document fo (JObj ms') text' -> Permutation ms ms' ->
  from_slice fo password_of_json text = from_slice fo password_of_json text'.
Proof.
  intros H H' Hp. rewrite (from_document _ _ _ _ H), (from_document _ _ _ _ H'). f_equal.
  apply option_ext. intros s. rewrite !password_of_json_iff.
  split; apply password_value_perm; [exact Hp|apply Permutation_sym, Hp].
Qed.

(** * Additional members *)

Lemma has_one_more k v e k' v' ms : k <> k' -> has_one k v ((e, k', v') :: ms) <-> has_one k v ms.
Proof.
  intros Hk. rewrite <- !lookup_one. unfold lookup. cbn [filter].
  assert (bytes_eqb k k' = false) as -> by (apply bytes_eqb_neq; exact Hk). reflexivity.
Qed.

Lemma has_none_more k e k' v' ms : k <> k' -> has_none k ((e, k', v') :: ms) <-> has_none k ms.
Proof.
  intros Hk. rewrite <- !lookup_none. unfold lookup. cbn [filter].
  assert (bytes_eqb k k' = false) as -> by (apply bytes_eqb_neq; exact Hk). reflexivity.
Qed.

Lemma password_value_more k v ms p : ~ In k password_names ->
  password_value (JObj ((false, k, v) :: ms)) p <-> password_value (JObj ms) p.
Proof.
  intros Hk.
  assert (forall n, In n password_names -> n <> k) as Hn by congruence.
  assert (forall t, flag_name t <> k) as Hf.
  { intros t. apply Hn. destruct t; cbn; tauto. }
  assert (forall t j, (exists e, In (e, flag_name t, j) ((false, k, v) :: ms)) <->
                      exists e, In (e, flag_name t, j) ms) as Hin.
  { intros t j. split; intros [e H]; exists e; [|right; exact H].
    destruct H as [[= _ H _]|H]; [|exact H]. elim (Hf t). symmetry. exact H. }
  unfold password_value. split; intros (x & [= <-] & H); eexists; (split; [reflexivity|]).
  - destruct p; unfold notes_value, id_value in *;
      rewrite !has_one_more, has_none_more in H by (apply Hn; cbn; tauto).
    + destruct H as (H1 & H2 & H3 & H4 & H5 & H6 & H7). do 4 (split; [assumption|]).
      split; [intros e k' v' H; apply (H5 e k' v'); right; exact H|].
      split; [intros e t v' H; apply (H6 e t v'); right; exact H|].
      intros t. rewrite H7. apply Hin.
    + exact H.
  - destruct p; unfold notes_value, id_value in *;
      rewrite !has_one_more, has_none_more by (apply Hn; cbn; tauto).
    + destruct H as (H1 & H2 & H3 & H4 & H5 & H6 & H7). do 4 (split; [assumption|]).
      split; [intros e k' v' [[= <- _ _]|H] Hg; [reflexivity|exact (H5 e k' v' H Hg)]|].
      split; [intros e t v' [[= _ H _]|H]; [elim (Hf t); symmetry; exact H|exact (H6 e t v' H)]|].
      intros t. rewrite H7. symmetry. apply Hin.
    + exact H.
Qed.

Lemma password_unknown fo ms a b k v text text' : ~ In k password_names ->
  ms = a ++ (false, k, v) :: b ->
  document fo (JObj ms) text -> document fo (JObj (a ++ b)) text' ->
  from_slice fo password_of_json text = from_slice fo password_of_json text'.
Proof.
  intros Hk -> H H'. rewrite (from_document _ _ _ _ H), (from_document _ _ _ _ H'). f_equal.
  apply option_ext. intros p. rewrite !password_of_json_iff.
  rewrite <- (password_value_more k v (a ++ b)) by exact Hk.
  split; apply password_value_perm; [apply Permutation_sym|]; apply Permutation_middle.
Qed.

(** * Repeated names *)

Lemma twice_not_one k v v1 v2 a b c ms : plain ms = a ++ (k, v1) :: b ++ (k, v2) :: c ->
  has_one k v ms -> False.
Proof.
  intros E H. apply lookup_one in H. rewrite lookup_plain, E in H.
  apply (f_equal (@length json)) in H.
  repeat (rewrite ?filter_app, ?map_app, ?app_length in H; cbn [filter] in H; rewrite ?bytes_eqb_refl in H;
          cbn [map length] in H). lia.
Qed.

Lemma twice_not_none k v1 v2 a b c ms : plain ms = a ++ (k, v1) :: b ++ (k, v2) :: c ->
  has_none k ms -> False.
Proof.
  intros E H. apply H. unfold keys. rewrite E, map_app. apply in_or_app. right. left. reflexivity.
Qed.

Lemma site_repeated fo ms k v1 v2 a b c text :
  document fo (JObj ms) text -> plain ms = a ++ (k, v1) :: b ++ (k, v2) :: c ->
  from_slice fo site_of_json text = Err InvalidJson.
Proof.
  intros H E. rewrite (from_document _ _ _ _ H). destruct (site_of_json (JObj ms)) as [s|] eqn:Es; [|reflexivity].
  exfalso. apply site_of_json_iff in Es. destruct Es as [(x & [= <-] & Hk & Hn & Ha)|Es]; [|discriminate].
  destruct (Hk k) as [-> | ->].
  - unfold keys. rewrite E, map_app. apply in_or_app. right. left. reflexivity.
  - exact (twice_not_one _ _ _ _ _ _ _ _ E Hn).
  - destruct (site_alias s) as [al|]; [exact (twice_not_one _ _ _ _ _ _ _ _ E Ha)|].
    destruct Ha as [Ha|Ha]; [exact (twice_not_none _ _ _ _ _ _ _ E Ha)|exact (twice_not_one _ _ _ _ _ _ _ _ E Ha)].
Qed.

Lemma password_repeated fo ms k v1 v2 a b c text :
  document fo (JObj ms) text -> plain ms = a ++ (k, v1) :: b ++ (k, v2) :: c ->
  In k [bs "type"; bs "site"; bs "name"; bs "revision"; bs "notes"] ->
  from_slice fo password_of_json text = Err InvalidJson.
Proof.
  intros H E Hk. rewrite (from_document _ _ _ _ H).
  destruct (password_of_json (JObj ms)) as [p|] eqn:Ep; [|reflexivity].
  exfalso. apply password_of_json_iff in Ep. destruct Ep as (x & [= <-] & Hp).
  assert (exists t n i, has_one (bs "type") t ms /\ notes_value ms n /\ id_value ms i) as (t & n & i & Ht & Hn & Hi).
  { destruct p as [g|s].
    - destruct Hp as (H1 & _ & H3 & H4 & _). exists (JStr (bs "generated2")), (gp_notes g), (gp_id g). auto.
    - destruct Hp as (H1 & _ & H3 & H4). exists (JStr (bs "stored")), (sp_notes s), (sp_id s). auto. }
  destruct Hi as (Hs & Hm & Hr).
  destruct Hk as [<-|[<-|[<-|[<-|[<-|[]]]]]];
    try (eapply twice_not_one; [exact E|eassumption]).
  destruct Hn as [Hn|[Hn _]]; [eapply twice_not_one|eapply twice_not_none]; eassumption.
Qed.

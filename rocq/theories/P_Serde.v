(** Serialization of the records and of the storage file. *)
From Coq Require Import Permutation.
From Verif Require Import M_Base M_Utf8 M_Types M_Json M_Serde S_Json S_Serde P_Base P_Json.
From Coq Require Import ZArith ZifyBool ZifyNat ZifyN.
Ltac Zify.zify_post_hook ::= Z.div_mod_to_equations.

Lemma from_slice_ok {A} fo (conv : json -> option A) s a :
  from_slice fo conv s = Ok a <-> exists j, document fo j s /\ conv j = Some a.
Proof.
  unfold from_slice. split.
  - destruct (parse_json fo s) as [j|] eqn:E; [|discriminate]. apply parse_json_iff in E.
    destruct (conv j) as [a'|] eqn:Ec; [|discriminate]. intros [= <-]. exists j. split; assumption.
  - intros (j & Hd & Hc). apply parse_json_iff in Hd. rewrite Hd, Hc. reflexivity.
Qed.

Lemma from_slice_cases {A} fo (conv : json -> option A) s :
  (exists a, from_slice fo conv s = Ok a) \/ from_slice fo conv s = Err InvalidJson.
Proof.
  unfold from_slice. destruct (match parse_json fo s with Some _ => _ | None => _ end) as [a|].
  - left. exists a. reflexivity.
  - right. reflexivity.
Qed.

Lemma from_written {A} fo (conv : json -> option A) j a :
  writable 127 j = true -> conv (reflag j) = Some a -> from_slice fo conv (write_json j) = Ok a.
Proof. intros Hw Hc. unfold from_slice. rewrite write_parse by exact Hw. rewrite Hc. reflexivity. Qed.

(** * Sites *)

Lemma site_roundtrip fo s : site_valid s -> from_slice fo site_of_json (site_to_vec s) = Ok s.
Proof.
  intros [Hn Ha]. destruct s as [n [a|]]; cbn [site_name site_alias] in *.
  - specialize (Ha a eq_refl). unfold site_to_vec; apply from_written; [|vm_compute; reflexivity].
    unfold site_json, member. cbn [writable forallb site_name site_alias]. rewrite Hn, Ha. reflexivity.
  - unfold site_to_vec; apply from_written; [|vm_compute; reflexivity].
    unfold site_json, member. cbn [writable forallb site_name site_alias]. rewrite Hn. reflexivity.
Qed.

(** * Passwords *)

Lemma password_roundtrip fo p :
  password_valid p -> from_slice fo password_of_json (password_to_vec p) = Ok p.
Proof.
  destruct p as [[[s n r] len [l u d y] notes]|[[s n r] pw notes]]; unfold password_valid.
  - intros ((Hs & Hn & Hr) & Hl & Hnotes).
    cbn [gp_id gp_length gp_notes id_site id_name id_revision] in Hs, Hn, Hr, Hl, Hnotes.
    assert ((len <=? u64_max)%N = true) as Hl' by lia.
    unfold password_to_vec. apply from_written.
    + unfold password_json, id_members, charset_members, notes_members, member.
      cbn [gp_id gp_length gp_charset gp_notes id_site id_name id_revision].
      destruct notes as [|c notes]; cbn [app writable forallb];
        rewrite ?Hs, ?Hn, ?Hr, ?Hl', ?Hnotes; reflexivity.
    + destruct notes as [|c notes]; destruct l, u, d, y; vm_compute; reflexivity.
  - intros ((Hs & Hn & Hr) & Hpw & Hnotes).
    cbn [sp_id sp_password sp_notes id_site id_name id_revision] in Hs, Hn, Hr, Hpw, Hnotes.
    unfold password_to_vec. apply from_written.
    + unfold password_json, id_members, notes_members, member.
      cbn [sp_id sp_password sp_notes id_site id_name id_revision].
      destruct notes as [|c notes]; cbn [app writable forallb];
        rewrite ?Hs, ?Hn, ?Hr, ?Hpw, ?Hnotes; reflexivity.
    + destruct notes as [|c notes]; vm_compute; reflexivity.
Qed.

Lemma string_roundtrip fo s : utf8 s = true -> from_slice fo as_str (string_to_vec s) = Ok s.
Proof. intros H. unfold string_to_vec. apply from_written; [exact H|reflexivity]. Qed.

(** * The storage file *)

Lemma pairs_of_json_iff j l : pairs_of_json j = Some l <-> string_map j l.
Proof.
  split.
  - destruct j as [| | | | | |ms]; try discriminate. cbn [pairs_of_json].
    intros H. exists ms. split; [reflexivity|].
    revert l H; induction ms as [|[[e k] v] ms IH]; intros l; cbn [fold_right].
    + intros [= <-]. reflexivity.
    + destruct (as_str v) as [s|] eqn:Ev; [|discriminate].
      destruct (fold_right _ _ ms) as [l'|] eqn:E; [|discriminate]. intros [= <-].
      specialize (IH _ eq_refl). unfold plain in *. cbn [map]. rewrite IH.
      destruct v; try discriminate. injection Ev as ->. reflexivity.
  - intros (ms & -> & H). cbn [pairs_of_json].
    revert l H; induction ms as [|[[e k] v] ms IH]; intros [|[k' v'] l] H;
      try discriminate; [reflexivity|].
    unfold plain in H. cbn [map] in H. injection H as -> -> H. cbn [fold_right as_str].
    rewrite (IH l H). reflexivity.
Qed.

Lemma application_iff j : application_of_json j = Some tt <-> j = JStr (bs "pfp").
Proof.
  split; [|intros ->; reflexivity]. destruct j; try discriminate. unfold application_of_json, as_str.
  destruct (bytes_eqb s (bs "pfp")) eqn:E; [|discriminate]. intros _. apply bytes_eqb_eq in E. congruence.
Qed.

Lemma format_iff j : format_of_json j = Some tt <-> j = JPos 3.
Proof.
  split; [|intros ->; reflexivity]. destruct j; try discriminate. unfold format_of_json, as_pos.
  destruct (n <? 256)%N; [|discriminate]. destruct (N.eqb_spec n 3); [|discriminate]. congruence.
Qed.

Definition has_key (k : bytes) (m : bool * bytes * json) : bool := let '(_, k', _) := m in bytes_eqb k k'.

Lemma required_some {A} k (conv : json -> option A) ms a :
  required k conv ms = Some a <->
  exists j, map snd (filter (fun '(_, k', _) => bytes_eqb k k') ms) = [j] /\ conv j = Some a.
Proof.
  unfold required, lookup. split.
  - destruct (map snd _) as [|j [|]]; try discriminate. intros H. exists j. split; [reflexivity|exact H].
  - intros (j & -> & H). exact H.
Qed.

(** A list of members with keys among three, each occurring once. *)
Lemma three_fields ms ka kf kd a f d :
  ka <> kf -> ka <> kd -> kf <> kd ->
  (forallb (key_in [ka; kf; kd]) ms = true /\ lookup ka ms = [a] /\ lookup kf ms = [f] /\ lookup kd ms = [d])
  <-> Permutation (plain ms) [(ka, a); (kf, f); (kd, d)].
Proof.
  intros H1 H2 H3. split.
  - intros (Hin & Ha & Hf & Hd).
    assert (forall ms la lf ld, forallb (key_in [ka; kf; kd]) ms = true ->
              lookup ka ms = la -> lookup kf ms = lf -> lookup kd ms = ld ->
              Permutation (plain ms) (map (pair ka) la ++ map (pair kf) lf ++ map (pair kd) ld)) as Hgen.
    { clear ms Hin Ha Hf Hd. induction ms as [|[[e k] v] ms IH]; intros la lf ld Hin <- <- <-; [constructor|].
      cbn [forallb] in Hin. apply andb_true_iff in Hin. destruct Hin as [Hk Hin].
      specialize (IH _ _ _ Hin eq_refl eq_refl eq_refl).
      cbn [plain map key_in existsb] in *. fold (plain ms).
      unfold lookup in *. cbn [filter].
      apply orb_true_iff in Hk. destruct Hk as [Hk|Hk]; [|apply orb_true_iff in Hk; destruct Hk as [Hk|Hk]].
      - apply bytes_eqb_eq in Hk. subst k. rewrite bytes_eqb_refl.
        assert (bytes_eqb kf ka = false) as -> by (apply bytes_eqb_neq; congruence).
        assert (bytes_eqb kd ka = false) as -> by (apply bytes_eqb_neq; congruence).
        cbn [map snd app]. constructor. exact IH.
      - apply bytes_eqb_eq in Hk. subst k. rewrite bytes_eqb_refl.
        assert (bytes_eqb ka kf = false) as -> by (apply bytes_eqb_neq; congruence).
        assert (bytes_eqb kd kf = false) as -> by (apply bytes_eqb_neq; congruence).
        cbn [map snd app]. etransitivity; [constructor; exact IH|]. apply Permutation_middle.
      - rewrite orb_false_r in Hk. apply bytes_eqb_eq in Hk. subst k. rewrite bytes_eqb_refl.
        assert (bytes_eqb ka kd = false) as -> by (apply bytes_eqb_neq; congruence).
        assert (bytes_eqb kf kd = false) as -> by (apply bytes_eqb_neq; congruence).
        cbn [map snd app]. etransitivity; [constructor; exact IH|].
        rewrite !app_assoc. apply Permutation_middle. }
    exact (Hgen ms [a] [f] [d] Hin Ha Hf Hd).
  - intros Hp.
    assert (forall k, Permutation (lookup k ms)
              (map snd (filter (fun '(k', _) => bytes_eqb k k') [(ka, a); (kf, f); (kd, d)]))) as Hl.
    { intros k.
      assert (lookup k ms = map snd (filter (fun '(k', _) => bytes_eqb k k') (plain ms))) as ->.
      { unfold lookup, plain. clear Hp. induction ms as [|[[e k'] v] ms IH]; [reflexivity|].
        cbn [filter map]. destruct (bytes_eqb k k'); cbn [map snd]; rewrite IH; reflexivity. }
      apply Permutation_map. remember (plain ms) as l. clear Heql ms.
      induction Hp as [|x l1 l2 _ IH|x y l0|l1 l2 l3 _ IH1 _ IH2].
      - constructor.
      - cbn [filter]. destruct x as [k' v]. destruct (bytes_eqb k k'); [constructor|]; exact IH.
      - cbn [filter]. destruct x as [k1 v1], y as [k2 v2].
        destruct (bytes_eqb k k1), (bytes_eqb k k2); try reflexivity. apply perm_swap.
      - etransitivity; eassumption. }
    assert (bytes_eqb ka kf = false /\ bytes_eqb ka kd = false /\ bytes_eqb kf kd = false /\
            bytes_eqb kf ka = false /\ bytes_eqb kd ka = false /\ bytes_eqb kd kf = false)
      as (E1 & E2 & E3 & E4 & E5 & E6) by (repeat split; apply bytes_eqb_neq; congruence).
    split; [|split; [|split]].
    + apply forallb_forall. intros [[e k] v] Hm. cbn [key_in existsb].
      assert (In (k, v) (plain ms)) as Hi by (apply in_map_iff; exists (e, k, v); split; [reflexivity|exact Hm]).
      apply (Permutation_in _ Hp) in Hi. cbn [In] in Hi.
      destruct Hi as [[= <- _]|[[= <- _]|[[= <- _]|[]]]]; rewrite bytes_eqb_refl, ?orb_true_r; reflexivity.
    + specialize (Hl ka). cbn [filter map snd] in Hl.
      rewrite bytes_eqb_refl, E1, E2 in Hl. symmetry in Hl. apply Permutation_length_1_inv in Hl. exact Hl.
    + specialize (Hl kf). cbn [filter map snd] in Hl.
      rewrite bytes_eqb_refl, E3, E4 in Hl. symmetry in Hl. apply Permutation_length_1_inv in Hl. exact Hl.
    + specialize (Hl kd). cbn [filter map snd] in Hl.
      rewrite bytes_eqb_refl, E5, E6 in Hl. symmetry in Hl. apply Permutation_length_1_inv in Hl. exact Hl.
Qed.

Lemma file_of_json_iff j l : file_of_json j = Some l <-> storage_object j l \/ storage_array j l.
Proof.
  assert (bs "application" <> bs "format" /\ bs "application" <> bs "data" /\ bs "format" <> bs "data")
    as (N1 & N2 & N3) by (repeat split; discriminate).
  split.
  - destruct j as [| | | | |es|ms]; try discriminate.
    + destruct es as [|a [|f [|d [|]]]]; try discriminate. cbn [file_of_json].
      destruct (application_of_json a) as [[]|] eqn:Ea; [|discriminate].
      destruct (format_of_json f) as [[]|] eqn:Ef; [|discriminate]. intros Hd.
      apply application_iff in Ea. apply format_iff in Ef. apply pairs_of_json_iff in Hd. subst.
      right. exists d. split; [reflexivity|exact Hd].
    + cbn [file_of_json]. destruct (forallb _ ms) eqn:Hin; [|discriminate].
      destruct (required (bs "application") _ ms) as [[]|] eqn:Ea; [|discriminate].
      destruct (required (bs "format") _ ms) as [[]|] eqn:Ef; [|discriminate]. intros Hd.
      apply required_some in Ea, Ef, Hd.
      destruct Ea as (a & La & Ea), Ef as (f & Lf & Ef), Hd as (d & Ld & Ed).
      apply application_iff in Ea. apply format_iff in Ef. apply pairs_of_json_iff in Ed. subst.
      left. exists ms, d. split; [reflexivity|]. split; [exact Ed|].
      apply (three_fields ms _ _ _ _ _ _ N1 N2 N3). split; [exact Hin|]. split; [exact La|].
      split; [exact Lf|exact Ld].
  - intros [(ms & d & -> & Hd & Hp)|(d & -> & Hd)].
    + apply (three_fields ms _ _ _ _ _ _ N1 N2 N3) in Hp. destruct Hp as (Hin & La & Lf & Ld).
      cbn [file_of_json]. rewrite Hin. unfold required. rewrite La, Lf, Ld.
      change (application_of_json (JStr (bs "pfp"))) with (Some tt).
      change (format_of_json (JPos 3)) with (Some tt). cbv iota. apply pairs_of_json_iff, Hd.
    + cbn [file_of_json]. change (application_of_json (JStr (bs "pfp"))) with (Some tt).
      change (format_of_json (JPos 3)) with (Some tt). cbv iota. apply pairs_of_json_iff, Hd.
Qed.

Definition pairs_valid (l : list (bytes * bytes)) : bool := forallb (fun '(k, v) => utf8 k && utf8 v) l.

Lemma data_writable d l : pairs_valid l = true ->
  writable (S d) (JObj (map (fun '(k, v) => member k (JStr v)) l)) = true.
Proof.
  unfold pairs_valid. cbn [writable]. induction l as [|[k v] l IH]; [reflexivity|].
  cbn [forallb map member writable]. intros H.
  apply andb_true_iff in H. destruct H as [H1 H2]. rewrite (IH H2), andb_true_r. destruct d; exact H1.
Qed.

Lemma file_writable_depth d l : pairs_valid l = true -> writable (S (S d)) (file_json l) = true.
Proof.
  intros H. unfold file_json.
  remember (JObj (map (fun '(k, v) => member k (JStr v)) l)) as j eqn:Ej.
  assert (writable (S d) j = true) as Hj by (subst j; apply data_writable, H).
  clear Ej H. remember (S d) as d' eqn:Ed. clear Ed.
  cbn [writable forallb member]. rewrite Hj. destruct d'; reflexivity.
Qed.

Lemma file_writable l : pairs_valid l = true -> writable 127 (file_json l) = true.
Proof. exact (file_writable_depth 125 l). Qed.

Lemma file_roundtrip fo l :
  pairs_valid l = true -> from_slice fo file_of_json (file_to_string l) = Ok l.
Proof.
  intros H. unfold file_to_string. apply from_written; [apply file_writable, H|]. apply file_of_json_iff. left.
  unfold file_json. cbn [reflag map member]. eexists _, _. split; [reflexivity|].
  split; [|cbn [plain map]; reflexivity].
  eexists. split; [reflexivity|]. unfold plain. rewrite !map_map.
  apply map_ext. intros [k v]. reflexivity.
Qed.

(** Strict prefixes of the file are no JSON documents. *)
Lemma file_prefix_rejected fo l p q :
  pairs_valid l = true -> file_to_string l = p ++ q -> q <> [] ->
  parse_json fo p = None.
Proof.
  intros H Hpq Hq.
  apply (strict_prefix_rejected fo (reflag (file_json l)) (file_to_string l) p q);
    [|reflexivity|exact Hpq|exact Hq].
  apply written, file_writable, H.
Qed.

(** What the data consists of and how large the file is (C38). *)
From stdpp Require Import gmap.
From Coq Require Import Permutation ZArith ZifyBool ZifyNat ZifyN.
From Verif Require Import M_Base M_Base64 M_Utf8 M_Prims M_Types M_Crypto M_Recovery M_Json M_Serde M_Storage
  M_Passwords M_History S_Base64 S_Json S_Serde S_Vault S_Api S_History P_Base P_Base64 P_Crypto P_Recovery P_Json P_Serde P_Utf8
  P_File P_Storage P_Api P_Vault P_History P_Calls P_Sound.

Ltac Zify.zify_post_hook ::= Z.div_mod_to_equations.

(** * Characters that are written as they are *)

Definition plain (s : bytes) : Prop := forall c, In c s -> escape_byte c = [c].

Lemma plain_app a b : plain a -> plain b -> plain (a ++ b).
Proof. intros Ha Hb c Hc. apply in_app_or in Hc. destruct Hc; auto. Qed.
Lemma plain_cons c s : escape_byte c = [c] -> plain s -> plain (c :: s).
Proof. intros Hc Hs x [<-|H]; auto. Qed.
Lemma plain_b64 d : plain (b64_encode d).
Proof.
  intros c Hc. apply b64_encode_chars in Hc. destruct Hc as [->|Hc]; [reflexivity|].
  assert (forallb (fun c => bytes_eqb (escape_byte c) [c]) alphabet64 = true) as H by reflexivity.
  rewrite forallb_forall in H. apply bytes_eqb_eq, H, Hc.
Qed.
Lemma plain_escape s : plain s -> flat_map escape_byte s = s.
Proof.
  induction s as [|c s IH]; intros H; [reflexivity|]. cbn [flat_map]. rewrite (H c (or_introl eq_refl)), IH; [reflexivity|].
  intros x Hx. apply H. right. exact Hx.
Qed.
Lemma plain_write s : plain s -> write_string s = x22 :: s ++ [x22].
Proof. intros H. unfold write_string. rewrite plain_escape by exact H. reflexivity. Qed.

Lemma plain_sealed P k rnd m : plain (sealed P k rnd m).
Proof. apply plain_app; [apply plain_b64|]. apply plain_cons; [reflexivity|apply plain_b64]. Qed.

Lemma sealed_length P k rnd m : prims_ok P -> length k = 32 -> length (sealed P k rnd m) = sealed_size m.
Proof.
  intros HP Hk. unfold sealed, sealed_size. rewrite app_length. cbn [length]. rewrite !b64_encode_length, (ok_random_len P HP).
  rewrite (ok_seal_len P HP) by (try exact Hk; apply (ok_random_len P HP)). lia.
Qed.

(** * Contents *)

Section contents.
Context (P : prims) (sc : scope) (l : list op) (s0 : st) (So : sound P sc l s0).
Notation HP := (so_prims _ _ _ _ So).
Notation bound := (s_rand (snd (run P l s0))).
Notation Rep := (data_rep P (sc_sites sc) (sc_ids sc) (sc_pws sc) bound).

Lemma skey_eq i x : skey P i x = bs "site:" ++ hashed P i x.
Proof. reflexivity. Qed.
Lemma pkey_eq i x n r : pkey P i (x, n, r) = bs "site:" ++ hashed P i x ++ ":"%byte :: hashed P i (id_string x n r).
Proof. unfold pkey. rewrite password_key_eq. reflexivity. Qed.

Lemma rep_contents i pp d v : Rep i pp d v -> contents P pp i d v.
Proof.
  intros R. split.
  - apply (dr_salt _ _ _ _ _ _ _ _ _ R).
  - eexists. split; [apply (dr_hmac _ _ _ _ _ _ _ _ _ R)|]. exists (i + 2). unfold sealed, string_to_vec. cbn [write_json].
    rewrite (plain_write _ (plain_b64 _)). reflexivity.
  - intros x a H. destruct (dr_site _ _ _ _ _ _ _ _ _ R _ _ H) as (_ & _ & rnd & E). eexists. split; [exact E|]. exists rnd. reflexivity.
  - intros x n r e H. destruct (dr_pw _ _ _ _ _ _ _ _ _ R _ _ H) as (_ & _ & rnd & E). rewrite pkey_eq in E.
    eexists. split; [exact E|]. exists rnd. reflexivity.
  - intros k Hk. destruct (dr_dom _ _ _ _ _ _ _ _ _ R k Hk) as [H|[H|[H|([[x n] r] & H & E)]]]; auto.
    right. right. right. exists x, n, r. rewrite pkey_eq in E. auto.
Qed.

(** Memory and file hold vaults in this form. *)
Lemma sound_contents : exists wrs, writes_ok P l wrs s0 /\
  let s := snd (run P l s0) in let w := fst (vrun P wrs nothing l) in
  match w_mem w with
  | Some (pp, v) => exists i, contents P pp i (s_data s) v
  | None => s_data s = ∅
  end /\
  match w_file w with
  | Some (pp, v) => exists i d, load P (s_disk s) = Ok d /\ contents P pp i d v
  | None => forall d, load P (s_disk s) <> Ok d
  end.
Proof.
  destruct (sound_rep P sc l s0 So) as (wrs & Hw & [M F] & _). exists wrs. split; [exact Hw|]. cbv zeta.
  unfold mem_rep, file_rep in *. split.
  - destruct (w_mem _) as [[pp v]|]; [|apply M]. destruct M as (i & R & _). exists i. apply rep_contents, R.
  - destruct (w_file _) as [[pp v]|].
    + destruct F as (i & d & Hd & R). exists i, d. split; [exact Hd|apply rep_contents, R].
    + intros d Hd. rewrite Hd in F. discriminate F.
Qed.

(** * Size of the file *)

Definition msize (kv : bytes * bytes) : nat := member_size (length kv.1) (length kv.2).

Lemma join_length (l' : list bytes) : l' <> [] -> length (join [","%byte] l') + 1 = total (map (fun x => length x + 1) l').
Proof.
  induction l' as [|x l' IH]; intros H; [congruence|]. destruct l' as [|y l'].
  - cbn. lia.
  - cbn [join map total] in *. rewrite !app_length. cbn [length]. specialize (IH ltac:(discriminate)). lia.
Qed.

Definition frame_size : nat := 42.
Lemma file_length pairs : pairs <> [] -> Forall (fun kv => plain kv.1 /\ plain kv.2) pairs ->
  length (file_to_string pairs) + 1 = frame_size + total (map msize pairs).
Proof.
  intros Hne Hp. unfold file_to_string, file_json.
  set (inner := JObj (map _ pairs)).
  assert (length (write_json inner) = 1 + total (map msize pairs)) as E.
  { unfold inner. change (write_json (JObj ?x)) with ("{"%byte :: join [","%byte]
                (map (fun '(_, k, v) => write_string k ++ ":"%byte :: write_json v) x) ++ ["}"%byte]).
    cbn [length]. rewrite app_length. cbn [length].
    assert (forall n m, n + 1 = m -> S (n + 1) = 1 + m) as Ha by (intros; lia). apply Ha. clear Ha.
    rewrite join_length by (destruct pairs; [congruence|discriminate]). clear -Hp. rewrite !map_map.
    induction Hp as [|[k v] l' [H1 H2] _ IH]; [reflexivity|]. cbn [map total]. rewrite IH. f_equal.
    unfold member. cbn [fst snd] in *. cbn [write_json]. rewrite !plain_write by assumption.
    unfold msize, member_size. cbn [fst snd]. rewrite !app_length. cbn [length]. rewrite !app_length. cbn [length]. lia. }
  change (write_json (JObj [?a; ?b; member ?c inner])) with
    ("{"%byte :: (write_string (bs "application") ++ ":"%byte :: write_string (bs "pfp")) ++ [","%byte] ++
                 (write_string (bs "format") ++ ":"%byte :: write_number 3) ++ [","%byte] ++
                 (write_string (bs "data") ++ ":"%byte :: write_json inner) ++ ["}"%byte]).
  revert E. generalize (write_json inner). intros x E.
  cbn [length]. repeat (rewrite app_length; cbn [length]). rewrite E.
  change (length (write_string (bs "application"))) with 13. change (length (write_string (bs "pfp"))) with 5.
  change (length (write_string (bs "format"))) with 8. change (length (write_string (bs "data"))) with 6.
  change (length (write_number 3)) with 1. unfold frame_size. lia.
Qed.

Lemma total_perm a b : a ≡ₚ b -> total a = total b.
Proof. induction 1; cbn; lia. Qed.
Lemma total_app a b : total (a ++ b) = total a + total b.
Proof. induction a; cbn; lia. Qed.

Lemma pairs_of_perm (d : kvmap) o o' : o ≡ₚ o' -> pairs_of o d ≡ₚ pairs_of o' d.
Proof. intros H. unfold pairs_of. apply Permutation_flat_map. exact H. Qed.

Lemma rep_size i pp s v : Rep i pp (s_data s) v -> length (flush_text P s) = 193 + file_size v.
Proof.
  intros R. unfold flush_text.
  assert (pairs_of (io_keys P s) (s_data s) ≡ₚ
    pairs_of (SALT_KEY :: HMAC_SECRET_KEY :: (skey P i <$> (map_to_list (v_sites v)).*1) ++
                        (pkey P i <$> (map_to_list (v_pw v)).*1)) (s_data s)) as Hp.
  { apply pairs_of_perm. unfold io_keys. rewrite (ok_order P HP).
    apply (keys_perm P _ _ _ _ (so_sites _ _ _ _ So) (so_ids _ _ _ _ So) (so_assumptions _ _ _ _ So) i pp _ v R). }
  assert (forall k c, s_data s !! k = Some c -> plain k /\ plain c) as Hplain.
  { intros k c Hk. destruct (dr_dom _ _ _ _ _ _ _ _ _ R k (mk_is_Some _ _ Hk)) as [->|[->|[(x & [o Hx] & ->)|([[x n] r] & [e Hx] & ->)]]].
    - rewrite (dr_salt _ _ _ _ _ _ _ _ _ R) in Hk. injection Hk as <-. split; [|apply plain_b64].
      unfold plain. cbn. intuition (subst; reflexivity).
    - rewrite (dr_hmac _ _ _ _ _ _ _ _ _ R) in Hk. injection Hk as <-. split; [|apply plain_sealed].
      unfold plain. cbn. intuition (subst; reflexivity).
    - destruct (dr_site _ _ _ _ _ _ _ _ _ R _ _ Hx) as (_ & _ & rnd & E). rewrite E in Hk. injection Hk as <-.
      split; [|apply plain_sealed]. rewrite skey_eq. apply plain_app; [|apply plain_b64].
      unfold plain. cbn. intuition (subst; reflexivity).
    - destruct (dr_pw _ _ _ _ _ _ _ _ _ R _ _ Hx) as (_ & _ & rnd & E). rewrite E in Hk. injection Hk as <-.
      split; [|apply plain_sealed]. rewrite pkey_eq. apply plain_app; [unfold plain; cbn; intuition (subst; reflexivity)|].
      apply plain_app; [apply plain_b64|]. apply plain_cons; [reflexivity|apply plain_b64]. }
  set (pairs := pairs_of (io_keys P s) (s_data s)) in *.
  assert (Forall (fun kv => plain kv.1 /\ plain kv.2) pairs) as Hall.
  { apply List.Forall_forall. intros [k c] Hin. unfold pairs, pairs_of in Hin. apply in_flat_map in Hin. destruct Hin as (k' & _ & Hin).
    destruct (s_data s !! k') as [c'|] eqn:E; [|destruct Hin]. destruct Hin as [[= <- <-]|[]]. apply (Hplain _ _ E). }
  assert (total (map msize pairs) = 152 + file_size v) as Et.
  { rewrite (total_perm _ _ (Permutation_map msize Hp)). unfold pairs_of. cbn [flat_map]. rewrite flat_map_app, !map_app.
    rewrite (dr_salt _ _ _ _ _ _ _ _ _ R), (dr_hmac _ _ _ _ _ _ _ _ _ R). cbn [map total app]. rewrite !total_app.
    unfold msize at 1 2. cbn [fst snd]. rewrite (sealed_length P _ _ _ HP (ekey_len P HP pp i)).
    rewrite b64_encode_length, (ok_random_len P HP).
    unfold string_to_vec, sealed_size. cbn [write_json]. rewrite (plain_write _ (plain_b64 _)). cbn [length]. rewrite app_length, b64_encode_length.
    unfold hsec. rewrite (ok_random_len P HP). cbn [length].
    change (member_size (length SALT_KEY) (4 * ((16 + 2) / 3))) with 34.
    change (member_size (length HMAC_SECRET_KEY) (17 + 4 * ((S (4 * ((32 + 2) / 3) + 1) + 18) / 3))) with 118.
    unfold file_size.
    match goal with |- 34 + (118 + (?A + ?B)) = 152 + (?C + ?D) => assert (A = C) as E1; [|assert (B = D) as E2; [|rewrite E1, E2; generalize C, D; lia]] end.
    - assert (forall x a, In (x, a) (map_to_list (v_sites v)) -> exists rnd, s_data s !! skey P i x = Some (sealed P (ekey P pp i) rnd (site_to_vec (mk_site x a)))) as Hin.
      { intros x a H. rewrite <- elem_of_list_In in H. apply elem_of_map_to_list in H.
        destruct (dr_site _ _ _ _ _ _ _ _ _ R _ _ H) as (_ & _ & H'). exact H'. }
      revert Hin. generalize (map_to_list (v_sites v)). induction l0 as [|[x a] l0 IH]; intros Hin; [reflexivity|].
      destruct (Hin x a (or_introl eq_refl)) as [rnd E]. cbn [fmap list_fmap map flat_map fst]. rewrite E. cbn [app map total].
      rewrite IH by (intros; apply Hin; right; assumption). f_equal. unfold msize. cbn [fst snd].
      rewrite (sealed_length P _ _ _ HP (ekey_len P HP pp i)). f_equal. rewrite skey_eq, app_length. unfold hashed.
      rewrite b64_encode_length, (ok_hmac_len P HP). reflexivity.
    - assert (forall x a, In (x, a) (map_to_list (v_pw v)) -> exists rnd, s_data s !! pkey P i x = Some (sealed P (ekey P pp i) rnd (password_to_vec (to_password x a)))) as Hin.
      { intros x a H. rewrite <- elem_of_list_In in H. apply elem_of_map_to_list in H.
        destruct (dr_pw _ _ _ _ _ _ _ _ _ R _ _ H) as (_ & _ & H'). exact H'. }
      revert Hin. generalize (map_to_list (v_pw v)). induction l0 as [|[[[x n] r] a] l0 IH]; intros Hin; [reflexivity|].
      destruct (Hin (x, n, r) a (or_introl eq_refl)) as [rnd E]. cbn [fmap list_fmap map flat_map fst]. rewrite E. cbn [app map total].
      rewrite IH by (intros; apply Hin; right; assumption). f_equal. unfold msize. cbn [fst snd].
      rewrite (sealed_length P _ _ _ HP (ekey_len P HP pp i)). f_equal. rewrite pkey_eq, app_length, app_length. cbn [length]. unfold hashed.
      rewrite !b64_encode_length, !(ok_hmac_len P HP). reflexivity. }
  pose proof (file_length pairs) as Hl. rewrite Et in Hl. unfold frame_size in Hl.
  assert (pairs <> []) as Hne by (intros E; rewrite E in Et; cbn in Et; lia). specialize (Hl Hne Hall). lia.
Qed.

Lemma sound_size : exists wrs, writes_ok P l wrs s0 /\
  match w_mem (fst (vrun P wrs nothing l)) with
  | Some (_, v) => length (flush_text P (snd (run P l s0))) = 193 + file_size v
  | None => True
  end.
Proof.
  destruct (sound_rep P sc l s0 So) as (wrs & Hw & [M _] & _). exists wrs. split; [exact Hw|].
  unfold mem_rep in M. destruct (w_mem _) as [[pp v]|]; [|exact I]. destruct M as (i & R & _). apply (rep_size i pp), R.
Qed.
End contents.

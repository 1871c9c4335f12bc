(** The written-out primitives satisfy the laws. *)
From stdpp Require Import gmap.
From Verif Require Import M_Base M_Utf8 M_Prims M_Concrete S_Utf8 S_Wild P_Base P_Utf8 P_Trim.

(** ** Lengths *)

Lemma le_bytes_length n : forall x, length (le_bytes n x) = n.
Proof. induction n as [|n IH]; intros x; [reflexivity|]. cbn [le_bytes length]. rewrite IH. reflexivity. Qed.

Lemma be_bytes_length n x : length (be_bytes n x) = n.
Proof. unfold be_bytes. rewrite rev_length. apply le_bytes_length. Qed.

Lemma sha256_length m : length (sha256 m) = 32.
Proof.
  unfold sha256. destruct (fold_left _ _ _) as [[[[[[[a b] c] d] e] f] g] h].
  rewrite !app_length, !be_bytes_length. reflexivity.
Qed.

Lemma hmac_sha256_length k m : length (hmac_sha256 k m) = 32.
Proof. unfold hmac_sha256. apply sha256_length. Qed.

Lemma concat_map_length {A B} (f : A -> list B) k l :
  (forall x, length (f x) = k) -> length (concat (map f l)) = length l * k.
Proof.
  intros H. induction l as [|x l IH]; [reflexivity|]. cbn [map concat length]. rewrite app_length, H, IH. lia.
Qed.

Lemma pbkdf2_length p s n : length (pbkdf2 p s n) = n.
Proof.
  unfold pbkdf2. rewrite firstn_length, (concat_map_length _ 32) by (intros; apply hmac_sha256_length).
  rewrite seq_length. pose proof (Nat.div_mod n 32 ltac:(lia)). pose proof (Nat.mod_upper_bound n 32 ltac:(lia)). lia.
Qed.

Lemma scrypt_length ln r p pw s n : length (scrypt ln r p pw s n) = n.
Proof. unfold scrypt. apply pbkdf2_length. Qed.

(** ** Exclusive or *)

Lemma byte_xor_twice a b : byte_xor (byte_xor a b) b = a.
Proof.
  unfold byte_xor.
  destruct (Byte.to_bits a) as [a0 [a1 [a2 [a3 [a4 [a5 [a6 a7]]]]]]] eqn:Ea.
  destruct (Byte.to_bits b) as [b0 [b1 [b2 [b3 [b4 [b5 [b6 b7]]]]]]] eqn:Eb.
  rewrite Byte.to_bits_of_bits. rewrite <- (Byte.of_bits_to_bits a), Ea.
  assert (forall x y, xorb (xorb x y) y = x) as Hx by (intros [] []; reflexivity).
  rewrite !Hx. reflexivity.
Qed.

Lemma xor_bytes_length a : forall b, length (xor_bytes a b) = length a.
Proof. induction a as [|x a IH]; intros [|y b]; cbn [xor_bytes length]; [..|rewrite IH]; reflexivity. Qed.

Lemma xor_bytes_twice a : forall b, xor_bytes (xor_bytes a b) b = a.
Proof.
  induction a as [|x a IH]; intros [|y b]; cbn [xor_bytes]; try reflexivity.
  rewrite IH, byte_xor_twice. reflexivity.
Qed.

(** ** AES-256-GCM *)

Lemma counter_mode_length ks n m : length (counter_mode ks n m) = length m.
Proof. unfold counter_mode. apply xor_bytes_length. Qed.

Lemma counter_mode_twice ks n m : counter_mode ks n (counter_mode ks n m) = m.
Proof. unfold counter_mode at 1. rewrite counter_mode_length. unfold counter_mode. apply xor_bytes_twice. Qed.

Lemma gcm_tag_length ks n c : length (gcm_tag ks n c) = 16.
Proof. unfold gcm_tag. apply be_bytes_length. Qed.

Lemma gcm_seal_length k n m : length (gcm_seal k n m) = length m + 16.
Proof. unfold gcm_seal. cbv zeta. rewrite app_length, counter_mode_length, gcm_tag_length. reflexivity. Qed.

Lemma gcm_open_seal k n m : gcm_open k n (gcm_seal k n m) = Some m.
Proof.
  unfold gcm_open. rewrite gcm_seal_length.
  destruct (Nat.ltb_spec (length m + 16) 16); [lia|]. replace (length m + 16 - 16) with (length m) by lia.
  cbv zeta. unfold gcm_seal. cbv zeta. set (ks := round_keys k). set (c := counter_mode ks n m).
  assert (length c = length m) as Hc by apply counter_mode_length.
  rewrite <- Hc. rewrite firstn_app, skipn_app, Nat.sub_diag, firstn_all, skipn_all.
  cbn [firstn skipn app]. rewrite app_nil_r, bytes_eqb_refl. unfold c. rewrite counter_mode_twice. reflexivity.
Qed.

(** What opens is exactly what sealing the result gives. *)
Lemma gcm_open_exact k n c m : gcm_open k n c = Some m -> c = gcm_seal k n m.
Proof.
  unfold gcm_open. destruct (Nat.ltb_spec (length c) 16); [discriminate|]. cbv zeta.
  destruct (bytes_eqb _ _) eqn:E; [|discriminate]. apply bytes_eqb_eq in E. intros [= <-].
  unfold gcm_seal. cbv zeta. rewrite counter_mode_twice, E. symmetry. apply firstn_skipn.
Qed.

(** ** The laws *)

Lemma with_scrypt_ok sc e :
  environment_ok e -> (forall p s n, length (sc p s n) = n) -> prims_ok (with_scrypt sc e).
Proof.
  intros [Hr Ho] Hs. split; cbn.
  - apply hmac_sha256_length.
  - intros k n m _ _. apply gcm_seal_length.
  - intros k n m _ _. apply gcm_open_seal.
  - intros k n c m H. apply gcm_open_exact in H. subst c. apply gcm_seal_length.
  - exact Hs.
  - exact Hr.
  - exact Ho.
Qed.

Lemma real_ok e : environment_ok e -> prims_ok (real e).
Proof. intros H. apply with_scrypt_ok; [exact H|]. intros. apply scrypt_length. Qed.

(** ** Wildcards *)

Lemma continues_cont b : continues b = cont b.
Proof. destruct b; reflexivity. Qed.

Lemma chars_char h r t :
  forallb cont r = true -> match t with c :: _ => cont c = false | [] => True end ->
  chars (h :: r ++ t) = (h :: r) :: chars t.
Proof.
  revert h. induction r as [|c r IH]; intros h Hr Ht.
  - destruct t as [|c t]; [reflexivity|]. cbn [app]. cbn [chars]. rewrite continues_cont, Ht. reflexivity.
  - cbn [forallb] in Hr. apply andb_true_iff in Hr. destruct Hr as [Hc Hr].
    change ((c :: r) ++ t) with (c :: r ++ t).
    change (chars (h :: c :: r ++ t)) with
      (if continues c then match chars (c :: r ++ t) with ch :: l => (h :: ch) :: l | [] => [[h]] end
       else [h] :: chars (c :: r ++ t)).
    rewrite continues_cont, Hc, (IH c Hr Ht). reflexivity.
Qed.

Lemma scalar_point c : scalar c -> (c < 0x110000)%N.
Proof. unfold scalar. lia. Qed.

Lemma chars_text cs : Forall scalar cs -> chars (utf8_text cs) = map utf8_char cs.
Proof.
  induction 1 as [|c cs Hc Hcs IH]; [reflexivity|]. rewrite text_cons. cbn [map].
  destruct (char_shape c (scalar_point c Hc)) as (h & r & E & _ & Hr). rewrite E. change ((h :: r) ++ utf8_text cs) with (h :: r ++ utf8_text cs).
  rewrite chars_char; [rewrite IH; reflexivity|exact Hr|].
  destruct Hcs as [|d cs Hd Hcs]; [exact I|]. rewrite text_cons.
  destruct (char_shape d (scalar_point d Hd)) as (h' & r' & E' & Hh' & _). rewrite E'. exact Hh'.
Qed.

Lemma char_eqb c d : scalar c -> scalar d -> bytes_eqb (utf8_char c) (utf8_char d) = (c =? d)%N.
Proof.
  intros Hc Hd. destruct (N.eqb_spec c d) as [->|Hne]; [apply bytes_eqb_refl|].
  destruct (bytes_eqb _ _) eqn:E; [|reflexivity]. apply bytes_eqb_eq in E.
  exfalso. apply Hne. apply char_inj; [apply scalar_point, Hc|apply scalar_point, Hd|exact E].
Qed.

Lemma scalar_star : scalar STAR. Proof. left. reflexivity. Qed.
Lemma scalar_any : scalar ANY. Proof. left. reflexivity. Qed.

(** The function by its equations. *)
Lemma wild_match_star p t :
  wild_match ([x2a] :: p) t = wild_match p t || match t with [] => false | _ :: t' => wild_match ([x2a] :: p) t' end.
Proof. destruct t; reflexivity. Qed.

Lemma wild_match_other c p t : bytes_eqb c [x2a] = false ->
  wild_match (c :: p) t =
  match t with [] => false | d :: t' => (bytes_eqb c [x3f] || bytes_eqb c d) && wild_match p t' end.
Proof. intros H. cbn [wild_match]. rewrite H. reflexivity. Qed.

Lemma wild_match_fits p : Forall scalar p -> forall t, Forall scalar t ->
  (wild_match (map utf8_char p) (map utf8_char t) = true <-> fits p t).
Proof.
  induction 1 as [|c p Hc Hp IH]; intros t Ht.
  - cbn [map wild_match]. destruct t as [|d t]; cbn [map]; split; intros H; try discriminate H.
    + constructor.
    + reflexivity.
    + inversion H.
  - cbn [map]. destruct (N.eq_dec c STAR) as [->|Hstar].
    + change (utf8_char STAR) with [x2a]. induction Ht as [|d t Hd Ht IHt].
      * rewrite wild_match_star. cbn [map]. rewrite orb_false_r. pose proof (IH [] (List.Forall_nil _)) as IH0. cbn [map] in IH0. rewrite IH0.
        split; intros H; [exact (fits_star p [] [] H)|]. inversion H as [|q u t' Hq Eq Et| |q e t' He]; subst.
        -- destruct u; [|discriminate Et]. cbn [app] in Et. subst t'. exact Hq.
      * rewrite wild_match_star. cbn [map]. rewrite orb_true_iff. change (utf8_char d :: map utf8_char t) with (map utf8_char (d :: t)).
        rewrite (IH (d :: t)) by (constructor; assumption). rewrite IHt. split.
        -- intros [H|H]; [exact (fits_star p [] (d :: t) H)|]. inversion H as [|q u t' Hq Eq Et| |q e t' He]; subst.
           ++ exact (fits_star p (d :: u) t' Hq).
           ++ contradiction.
        -- intros H. inversion H as [|q u t' Hq Eq Et| |q e t' He]; subst; [|contradiction].
           destruct u as [|e u]; cbn [app] in Et; [subst t'; left; exact Hq|]. injection Et as -> <-.
           right. exact (fits_star p u t' Hq).
    + rewrite wild_match_other.
      2:{ change [x2a] with (utf8_char STAR). rewrite (char_eqb c STAR Hc scalar_star). apply N.eqb_neq, Hstar. }
      destruct Ht as [|d t Hd Ht]; cbn [map].
      * split; [discriminate|]. intros H. inversion H; subst; contradiction.
      * change [x3f] with (utf8_char ANY). rewrite (char_eqb c ANY Hc scalar_any), (char_eqb c d Hc Hd), andb_true_iff, orb_true_iff, !N.eqb_eq, (IH t Ht).
        split.
        -- intros [Hcd Hf]. destruct (N.eq_dec c ANY) as [->|Hany]; [constructor; exact Hf|].
           destruct Hcd as [Hcd | <-]; [contradiction|]. constructor; assumption.
        -- intros H. inversion H; subst; [contradiction|split; [left; reflexivity|assumption]|split; [right; reflexivity|assumption]].
Qed.

Lemma wildmatch_fits p t : Forall scalar p -> Forall scalar t ->
  (wildmatch (utf8_text p) (utf8_text t) = true <-> fits p t).
Proof. intros Hp Ht. unfold wildmatch. rewrite !chars_text by assumption. apply wild_match_fits; assumption. Qed.

Lemma fits_all t : fits [STAR] t.
Proof. rewrite <- (app_nil_r t). apply fits_star. constructor. Qed.

Lemma fits_literal p t : literal p -> (fits p t <-> t = p).
Proof.
  revert t. induction p as [|c p IH]; intros t [Hs Ha].
  - split; [intros H; inversion H; reflexivity|intros ->; constructor].
  - cbn [In] in *. assert (literal p) as Hl by (split; tauto). split.
    + intros H. inversion H; subst; [tauto|tauto|]. f_equal. apply IH; assumption.
    + intros ->. constructor; [intros ->; tauto|intros ->; tauto|]. apply IH; [exact Hl|reflexivity].
Qed.

(** ** Listing *)

Lemma wildmatch_star t : wildmatch (bs "*") t = true.
Proof.
  unfold wildmatch. change (chars (bs "*")) with [[x2a]]. induction (chars t) as [|c l IH]; [reflexivity|].
  rewrite wild_match_star, IH. apply orb_true_r.
Qed.

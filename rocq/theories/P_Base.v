(** Basic lemmas: bytes and finite sweeps, results, chunks, strings. *)
From Verif Require Import M_Base.
From Coq Require Import ZArith ZifyBool ZifyNat ZifyN.
Ltac Zify.zify_post_hook ::= Z.div_mod_to_equations.

(** * Bytes *)

Lemma to_N_u8 n : Byte.to_N (u8 n) = (n mod 256)%N.
Proof.
  unfold u8. destruct (Byte.of_N (n mod 256)) as [b|] eqn:E.
  - apply Byte.to_of_N in E. exact E.
  - apply Byte.of_N_None_iff in E. pose proof (N.mod_lt n 256). lia.
Qed.

Lemma to_N_inj a b : Byte.to_N a = Byte.to_N b -> a = b.
Proof.
  intros H. pose proof (Byte.of_to_N a) as Ha. pose proof (Byte.of_to_N b) as Hb.
  rewrite H in Ha. congruence.
Qed.

Lemma to_N_lt b : (Byte.to_N b < 256)%N.
Proof. pose proof (Byte.to_N_bounded b). lia. Qed.

Lemma u8_to_N b : u8 (Byte.to_N b) = b.
Proof. apply to_N_inj. rewrite to_N_u8. apply N.mod_small, to_N_lt. Qed.

Lemma b_nat_lt b : b_nat b < 256.
Proof. unfold b_nat. pose proof (to_N_lt b). lia. Qed.

Lemma b_nat_inj a b : b_nat a = b_nat b -> a = b.
Proof. unfold b_nat. intros H. apply to_N_inj. lia. Qed.

Lemma eqb_refl b : Byte.eqb b b = true.
Proof. apply Byte.byte_dec_lb. reflexivity. Qed.

Lemma eqb_eq a b : Byte.eqb a b = true <-> a = b.
Proof. split; [apply Byte.byte_dec_bl | apply Byte.byte_dec_lb]. Qed.

Lemma eqb_neq a b : Byte.eqb a b = false <-> a <> b.
Proof. rewrite <- not_true_iff_false, eqb_eq. reflexivity. Qed.

(** All 256 bytes, for sweeps. *)
Definition all_bytes : list byte := map (fun n => u8 (N.of_nat n)) (seq 0 256).

Lemma in_all_bytes b : In b all_bytes.
Proof.
  unfold all_bytes. apply in_map_iff. exists (b_nat b). split.
  - unfold b_nat. rewrite N2Nat.id. apply u8_to_N.
  - apply in_seq. pose proof (b_nat_lt b). lia.
Qed.

Lemma sweep1 (f : byte -> bool) : forallb f all_bytes = true -> forall a, f a = true.
Proof. intros H a. rewrite forallb_forall in H. apply H, in_all_bytes. Qed.

Lemma sweep2 (f : byte -> byte -> bool) :
  forallb (fun a => forallb (f a) all_bytes) all_bytes = true -> forall a b, f a b = true.
Proof.
  intros H a b. apply (sweep1 (f a)). exact (sweep1 (fun a => forallb (f a) all_bytes) H a).
Qed.

(** Sweeps over the bytes below a bound. *)
Definition bytes_below (k : nat) : list byte := map (fun n => u8 (N.of_nat n)) (seq 0 k).

Lemma in_bytes_below k b : b_nat b < k -> In b (bytes_below k).
Proof.
  intros H. unfold bytes_below. apply in_map_iff. exists (b_nat b). split.
  - unfold b_nat. rewrite N2Nat.id. apply u8_to_N.
  - apply in_seq. lia.
Qed.

Lemma sweep_below k (f : byte -> bool) :
  forallb f (bytes_below k) = true -> forall a, b_nat a < k -> f a = true.
Proof. intros H a Ha. rewrite forallb_forall in H. apply H, in_bytes_below, Ha. Qed.

Lemma sweep_below2 k (f : byte -> byte -> bool) :
  forallb (fun a => forallb (f a) (bytes_below k)) (bytes_below k) = true ->
  forall a b, b_nat a < k -> b_nat b < k -> f a b = true.
Proof.
  intros H a b Ha Hb. apply (sweep_below k (f a)); [|exact Hb].
  exact (sweep_below k (fun a => forallb (f a) (bytes_below k)) H a Ha).
Qed.

Lemma sweep_below3 k (f : byte -> byte -> byte -> bool) :
  forallb (fun a => forallb (fun b => forallb (f a b) (bytes_below k)) (bytes_below k))
          (bytes_below k) = true ->
  forall a b c, b_nat a < k -> b_nat b < k -> b_nat c < k -> f a b c = true.
Proof.
  intros H a b c Ha Hb Hc. apply (sweep_below2 k (f a)); [|exact Hb|exact Hc].
  exact (sweep_below k (fun a => forallb (fun b => forallb (f a b) (bytes_below k)) (bytes_below k))
                     H a Ha).
Qed.

(** * Byte strings *)

Lemma bytes_eqb_eq a b : bytes_eqb a b = true <-> a = b.
Proof.
  revert b; induction a as [|x a IH]; intros [|y b]; cbn [bytes_eqb]; try (split; congruence).
  rewrite andb_true_iff, eqb_eq, IH. split; [intros [-> ->]; reflexivity|].
  intros [= -> ->]; split; reflexivity.
Qed.

Lemma bytes_eqb_refl a : bytes_eqb a a = true.
Proof. apply bytes_eqb_eq; reflexivity. Qed.

Lemma bytes_eqb_neq a b : bytes_eqb a b = false <-> a <> b.
Proof. rewrite <- not_true_iff_false, bytes_eqb_eq. reflexivity. Qed.

Lemma contains_byte_spec c s : contains_byte c s = true <-> In c s.
Proof.
  unfold contains_byte. rewrite existsb_exists. split.
  - intros (x & Hx & He). apply eqb_eq in He. subst. exact Hx.
  - intros H. exists c. split; [exact H|apply eqb_refl].
Qed.

Lemma contains_byte_false c s : contains_byte c s = false <-> ~ In c s.
Proof. rewrite <- not_true_iff_false, contains_byte_spec. reflexivity. Qed.

Lemma split_once_app c a b : ~ In c a -> split_once c (a ++ c :: b) = Some (a, b).
Proof.
  induction a as [|x a IH]; intros Hn; cbn [split_once app].
  - rewrite eqb_refl. reflexivity.
  - destruct (Byte.eqb x c) eqn:E.
    + apply eqb_eq in E. subst. exfalso. apply Hn. left; reflexivity.
    + rewrite IH; [reflexivity|]. intros H; apply Hn; right; exact H.
Qed.

Lemma split_once_some c s a b : split_once c s = Some (a, b) <-> s = a ++ c :: b /\ ~ In c a.
Proof.
  split.
  - revert a b; induction s as [|x s IH]; intros a b; cbn [split_once]; [discriminate|].
    destruct (Byte.eqb x c) eqn:E.
    + intros [= <- <-]. apply eqb_eq in E. subst. split; [reflexivity|intros []].
    + destruct (split_once c s) as [[a' b']|] eqn:E2; [|discriminate].
      intros [= <- <-]. destruct (IH a' b' eq_refl) as [-> Hn]. split; [reflexivity|].
      intros [H|H]; [|exact (Hn H)]. apply eqb_neq in E. congruence.
  - intros [-> Hn]. apply split_once_app, Hn.
Qed.

Lemma split_once_none c s : split_once c s = None <-> ~ In c s.
Proof.
  induction s as [|x s IH]; cbn [split_once]; [split; [intros _ []|reflexivity]|].
  destruct (Byte.eqb x c) eqn:E.
  - split; [discriminate|]. apply eqb_eq in E. intros H; exfalso; apply H; left; exact E.
  - destruct (split_once c s) as [[a b]|] eqn:E2.
    + split; [discriminate|]. intros H. exfalso.
      assert (~ In c s) as Hn by (intros Hi; apply H; right; exact Hi).
      apply IH in Hn. discriminate.
    + split; [|reflexivity]. intros _ [H|H]; [apply eqb_neq in E; congruence|].
      apply IH in H; [exact H|reflexivity].
Qed.

Lemma strip_prefix_some p s r : strip_prefix p s = Some r <-> s = p ++ r.
Proof.
  revert s; induction p as [|x p IH]; intros s; cbn [strip_prefix app].
  - split; congruence.
  - destruct s as [|y s]; [split; discriminate|].
    destruct (Byte.eqb x y) eqn:E.
    + apply eqb_eq in E. subst. rewrite IH. split; congruence.
    + apply eqb_neq in E. split; [discriminate|congruence].
Qed.

Lemma starts_with_spec p s : starts_with p s = true <-> exists r, s = p ++ r.
Proof.
  unfold starts_with. destruct (strip_prefix p s) as [r|] eqn:E.
  - apply strip_prefix_some in E. split; [exists r; exact E|reflexivity].
  - split; [discriminate|]. intros [r Hr]. apply strip_prefix_some in Hr. congruence.
Qed.

Lemma Forall2_len {A B} (R : A -> B -> Prop) l1 l2 : Forall2 R l1 l2 -> length l1 = length l2.
Proof. induction 1 as [|? ? ? ? _ _ IH]; cbn [length]; congruence. Qed.

(** * Results *)

Lemma bind_ok {A B} (r : res A) (f : A -> res B) b :
  bind r f = Ok b <-> exists a, r = Ok a /\ f a = Ok b.
Proof.
  destruct r as [a|e|]; cbn [bind]; split.
  - intros H. exists a. split; [reflexivity|exact H].
  - intros (a' & [= ->] & H). exact H.
  - discriminate.
  - intros (a' & H & _). discriminate.
  - discriminate.
  - intros (a' & H & _). discriminate.
Qed.

Lemma mapM_ok {A B} (f : A -> res B) l ys :
  mapM f l = Ok ys <-> Forall2 (fun x y => f x = Ok y) l ys.
Proof.
  revert ys; induction l as [|x l IH]; intros ys; cbn [mapM].
  - split; [intros [= <-]; constructor|]. intros H; inversion H; reflexivity.
  - rewrite bind_ok. split.
    + intros (y & Hy & H). apply bind_ok in H. destruct H as (ys' & Hys & [= <-]).
      constructor; [exact Hy|]. apply IH, Hys.
    + intros H; inversion H as [|? y ? ys' Hy Hys]; subst. exists y. split; [exact Hy|].
      apply bind_ok. exists ys'. split; [apply IH, Hys|reflexivity].
Qed.

(** * Chunks *)

Lemma chunks_aux_fuel {A} n (l : list A) f1 f2 :
  0 < n -> length l <= f1 -> length l <= f2 -> chunks_aux f1 n l = chunks_aux f2 n l.
Proof.
  intros Hn. revert f2 l; induction f1 as [|f1 IH]; intros f2 l H1 H2.
  - destruct l; [|cbn in H1; lia]. destruct f2; reflexivity.
  - destruct l as [|x l]; [destruct f2; reflexivity|].
    destruct f2 as [|f2]; [cbn in H2; lia|]. cbn [chunks_aux]. f_equal.
    assert (length (skipn n (x :: l)) <= length l) as Hs.
    { rewrite skipn_length. cbn [length]. lia. }
    apply IH; cbn [length] in *; lia.
Qed.

Lemma chunks_app {A} n (a r : list A) :
  0 < n -> length a = n -> chunks n (a ++ r) = a :: chunks n r.
Proof.
  intros Hn Ha. unfold chunks.
  destruct a as [|x a']; [cbn in Ha; lia|].
  cbn [app length chunks_aux]. f_equal.
  - change (x :: a' ++ r) with ((x :: a') ++ r). rewrite <- Ha, firstn_app, Nat.sub_diag.
    rewrite firstn_all. cbn [firstn]. apply app_nil_r.
  - change (x :: a' ++ r) with ((x :: a') ++ r). rewrite <- Ha, skipn_app, Nat.sub_diag.
    rewrite skipn_all. cbn [skipn app].
    apply chunks_aux_fuel; rewrite ?app_length; cbn [length]; lia.
Qed.

Lemma chunks_nil {A} n : chunks n (@nil A) = [].
Proof. reflexivity. Qed.

(** Induction over a list whose length is a multiple of [n], one chunk at a time. *)
Lemma chunk_ind {A} n (P : list A -> Prop) :
  0 < n -> P [] -> (forall a r, length a = n -> length r mod n = 0 -> P r -> P (a ++ r)) ->
  forall l, length l mod n = 0 -> P l.
Proof.
  intros Hn H0 HS l.
  assert (forall k (l : list A), length l <= k -> length l mod n = 0 -> P l) as Hgen.
  { induction k as [|k IH]; intros m Hk Hm.
    - destruct m; [exact H0|cbn in Hk; lia].
    - destruct m as [|x m]; [exact H0|].
      destruct (Nat.lt_ge_cases (length (x :: m)) n) as [Hl|Hl].
      { rewrite Nat.mod_small in Hm by exact Hl. cbn in Hm. lia. }
      rewrite <- (firstn_skipn n (x :: m)).
      assert (length (skipn n (x :: m)) mod n = 0) as Hmod.
      { rewrite skipn_length.
        replace (length (x :: m)) with ((length (x :: m) - n) + 1 * n) in Hm by lia.
        rewrite Nat.mod_add in Hm by lia. exact Hm. }
      apply HS; [rewrite firstn_length; lia|exact Hmod|].
      apply IH; [rewrite skipn_length; lia|exact Hmod]. }
  apply (Hgen (length l)). lia.
Qed.

Lemma concat_chunks {A} n (l : list A) :
  0 < n -> length l mod n = 0 -> concat (chunks n l) = l.
Proof.
  intros Hn. revert l. apply chunk_ind; [exact Hn|reflexivity|].
  intros a r Ha _ IH. rewrite chunks_app by assumption. cbn [concat]. rewrite IH. reflexivity.
Qed.

Lemma length_chunks {A} n (l : list A) :
  0 < n -> length l mod n = 0 -> length (chunks n l) = length l / n.
Proof.
  intros Hn. revert l. apply chunk_ind; [exact Hn| |].
  - rewrite chunks_nil. cbn [length]. rewrite Nat.div_0_l by lia. reflexivity.
  - intros a r Ha _ IH. rewrite chunks_app by assumption. cbn [length]. rewrite IH, app_length, Ha.
    replace (n + length r) with (length r + 1 * n) by lia. rewrite Nat.div_add by lia. lia.
Qed.

Lemma Forall_chunks_length {A} n (l : list A) :
  0 < n -> length l mod n = 0 -> Forall (fun c => length c = n) (chunks n l).
Proof.
  intros Hn. revert l. apply chunk_ind; [exact Hn|constructor|].
  intros a r Ha _ IH. rewrite chunks_app by assumption. constructor; assumption.
Qed.

Lemma chunks_concat {A} n (ls : list (list A)) :
  0 < n -> Forall (fun c => length c = n) ls -> chunks n (concat ls) = ls.
Proof.
  intros Hn H. induction H as [|c ls Hc _ IH]; [reflexivity|].
  cbn [concat]. rewrite chunks_app by assumption. rewrite IH. reflexivity.
Qed.

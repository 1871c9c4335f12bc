(** A small instance of the primitives for examples and refutations: it satisfies all assumed laws
    (it offers no security). *)
From stdpp Require Import gmap.
From Verif Require Import M_Base M_Codec M_Prims P_Base.

Definition fit (n : nat) (s : bytes) : bytes := firstn n s ++ repeat x00 (n - length s).

Lemma fit_length n s : length (fit n s) = n.
Proof. unfold fit. rewrite app_length, firstn_length, repeat_length. lia. Qed.

Definition toy_tag (k n m : bytes) : bytes := fit 16 (n ++ firstn 4 k).

Definition toy_open (k n c : bytes) : option bytes :=
  let m := firstn (length c - 16) c in
  if (16 <=? length c) && bytes_eqb (skipn (length c - 16) c) (toy_tag k n m) then Some m else None.

Definition toy_wild (p s : bytes) : bool := bytes_eqb p (bs "*") || bytes_eqb p s.

Definition toy (checks : bool) (write : nat -> write_outcome) : prims := {|
  p_overflow_checks := checks;
  p_hmac k m := fit 32 (firstn 2 k ++ m);
  p_seal k n m := m ++ toy_tag k n m;
  p_open := toy_open;
  p_scrypt p s n := fit n (p ++ s);
  p_random i n := fit n (u8 (N.of_nat i) :: bs "abcdefghijklmnopqrstuvwxyz");
  p_order _ m := (map_to_list m).*1;
  p_wild := toy_wild;
  p_write := write;
  p_float_ok _ := true
|}.

Lemma toy_ok checks write : prims_ok (toy checks write).
Proof.
  split; cbn.
  - intros k m. apply fit_length.
  - intros k n m _ _. rewrite app_length. unfold toy_tag. rewrite fit_length. reflexivity.
  - intros k n m _ _. unfold toy_open.
    assert (length (m ++ toy_tag k n m) = length m + 16) as ->
      by (rewrite app_length; unfold toy_tag; rewrite fit_length; reflexivity).
    replace (length m + 16 - 16) with (length m) by lia.
    rewrite firstn_app, skipn_app, Nat.sub_diag. rewrite firstn_all2, skipn_all2 by lia.
    cbn [firstn skipn app]. rewrite app_nil_r, bytes_eqb_refl.
    destruct (Nat.leb_spec 16 (length m + 16)); [reflexivity|lia].
  - intros k n c m. unfold toy_open. destruct (Nat.leb_spec 16 (length c)); cbn [andb]; [|discriminate].
    destruct (bytes_eqb _ _); [|discriminate]. intros [= <-]. rewrite firstn_length. lia.
  - intros p s n. apply fit_length.
  - intros i n. apply fit_length.
  - intros t m. reflexivity.
Qed.

Definition toy_release : prims := toy false (fun _ => WriteOk).
Definition toy_debug : prims := toy true (fun _ => WriteOk).

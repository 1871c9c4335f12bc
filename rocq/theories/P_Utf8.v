(** UTF-8 texts. *)
From Verif Require Import M_Base M_Utf8 M_Json M_Serde S_Json S_Serde P_Base P_Json P_Serde.
From Coq Require Import ZArith ZifyBool ZifyNat ZifyN.
Ltac Zify.zify_post_hook ::= Z.div_mod_to_equations.

(** Induction over the characters of a UTF-8 text. *)
Definition seq2 (a b : byte) : bool := negb (in_range 0 0x7f a) && in_range 0xc2 0xdf a && cont b.
Definition seq3 (a b c : byte) : bool :=
  negb (in_range 0 0x7f a) && negb (in_range 0xc2 0xdf a) && in_range 0xe0 0xef a && second3 a b && cont c.
Definition seq4 (a b c d : byte) : bool :=
  negb (in_range 0 0x7f a) && negb (in_range 0xc2 0xdf a) && negb (in_range 0xe0 0xef a) &&
  in_range 0xf0 0xf4 a && second4 a b && cont c && cont d.

Lemma utf8_ind (Q : bytes -> Prop) :
  Q [] ->
  (forall a s, in_range 0 0x7f a = true -> utf8 s = true -> Q s -> Q (a :: s)) ->
  (forall a b s, seq2 a b = true -> utf8 s = true -> Q s -> Q (a :: b :: s)) ->
  (forall a b c s, seq3 a b c = true -> utf8 s = true -> Q s -> Q (a :: b :: c :: s)) ->
  (forall a b c d s, seq4 a b c d = true -> utf8 s = true -> Q s -> Q (a :: b :: c :: d :: s)) ->
  forall s, utf8 s = true -> Q s.
Proof.
  intros H0 H1 H2 H3 H4 s. remember (length s) as k eqn:Ek. assert (length s <= k) as Hk by lia. clear Ek.
  revert s Hk; induction k as [|k IH]; intros s Hk Hs.
  { destruct s; [exact H0|cbn in Hk; lia]. }
  destruct s as [|a s]; [exact H0|]. cbn [utf8] in Hs. cbn [length] in Hk.
  destruct (in_range 0 0x7f a) eqn:E1.
  { apply H1; [exact E1|exact Hs|]. apply IH; [lia|exact Hs]. }
  destruct (in_range 0xc2 0xdf a) eqn:E2.
  { destruct s as [|b s]; [discriminate|]. apply andb_true_iff in Hs. destruct Hs as [Hb Hs].
    apply H2; [|exact Hs|apply IH; [cbn [length] in Hk; lia|exact Hs]].
    unfold seq2. rewrite E1, E2, Hb. reflexivity. }
  destruct (in_range 0xe0 0xef a) eqn:E3.
  { destruct s as [|b [|c s]]; try discriminate. apply andb_true_iff in Hs. destruct Hs as [Hb Hs].
    apply andb_true_iff in Hb. destruct Hb as [Hb Hc].
    apply H3; [|exact Hs|apply IH; [cbn [length] in Hk; lia|exact Hs]].
    unfold seq3. rewrite E1, E2, E3, Hb, Hc. reflexivity. }
  destruct (in_range 0xf0 0xf4 a) eqn:E4; [|discriminate].
  destruct s as [|b [|c [|d s]]]; try discriminate. apply andb_true_iff in Hs. destruct Hs as [Hb Hs].
  apply andb_true_iff in Hb. destruct Hb as [Hb Hd]. apply andb_true_iff in Hb. destruct Hb as [Hb Hc].
  apply H4; [|exact Hs|apply IH; [cbn [length] in Hk; lia|exact Hs]].
  unfold seq4. rewrite E1, E2, E3, E4, Hb, Hc, Hd. reflexivity.
Qed.

Lemma utf8_1 a s : in_range 0 0x7f a = true -> utf8 (a :: s) = utf8 s.
Proof. intros H. cbn [utf8]. rewrite H. reflexivity. Qed.
Lemma utf8_2 a b s : seq2 a b = true -> utf8 (a :: b :: s) = utf8 s.
Proof.
  unfold seq2. intros H. cbn [utf8]. destruct (in_range 0 0x7f a); [discriminate|].
  destruct (in_range 0xc2 0xdf a); [|discriminate]. cbn [negb andb] in H. rewrite H. reflexivity.
Qed.
Lemma utf8_3 a b c s : seq3 a b c = true -> utf8 (a :: b :: c :: s) = utf8 s.
Proof.
  unfold seq3. intros H. cbn [utf8]. destruct (in_range 0 0x7f a); [discriminate|].
  destruct (in_range 0xc2 0xdf a); [discriminate|]. destruct (in_range 0xe0 0xef a); [|discriminate].
  cbn [negb andb] in H. rewrite H. reflexivity.
Qed.
Lemma utf8_4 a b c d s : seq4 a b c d = true -> utf8 (a :: b :: c :: d :: s) = utf8 s.
Proof.
  unfold seq4. intros H. cbn [utf8]. destruct (in_range 0 0x7f a); [discriminate|].
  destruct (in_range 0xc2 0xdf a); [discriminate|]. destruct (in_range 0xe0 0xef a); [discriminate|].
  destruct (in_range 0xf0 0xf4 a); [|discriminate].
  cbn [negb andb] in H. rewrite H. reflexivity.
Qed.

Lemma utf8_app a b : utf8 a = true -> utf8 (a ++ b) = utf8 b.
Proof.
  revert a. apply utf8_ind; [reflexivity| | | |]; intros; cbn [app].
  - rewrite utf8_1 by assumption. assumption.
  - rewrite utf8_2 by assumption. assumption.
  - rewrite utf8_3 by assumption. assumption.
  - rewrite utf8_4 by assumption. assumption.
Qed.

Lemma utf8_concat a b : utf8 a = true -> utf8 b = true -> utf8 (a ++ b) = true.
Proof. intros Ha Hb. rewrite utf8_app; assumption. Qed.

Lemma utf8_join sep l : utf8 sep = true -> Forall (fun x => utf8 x = true) l -> utf8 (join sep l) = true.
Proof.
  intros Hs. induction 1 as [|x l Hx Hl IH]; [reflexivity|]. destruct l as [|y l]; [exact Hx|].
  change (join sep (x :: y :: l)) with (x ++ sep ++ join sep (y :: l)).
  apply utf8_concat; [exact Hx|]. apply utf8_concat; [exact Hs|exact IH].
Qed.

Lemma forallb_ascii s : forallb (in_range 0 0x7f) s = true -> utf8 s = true.
Proof.
  induction s as [|c s IH]; [reflexivity|]. cbn [forallb]. intros H. apply andb_true_iff in H.
  destruct H as [Hc H]. rewrite utf8_1 by exact Hc. exact (IH H).
Qed.

Lemma escape_ascii c : in_range 0 0x7f c = true -> utf8 (escape_byte c) = true.
Proof. intros H. destruct c; try discriminate H; reflexivity. Qed.

Lemma escape_other c : in_range 0 0x7f c = false -> escape_byte c = [c].
Proof. intros H. destruct c; try discriminate H; reflexivity. Qed.

Lemma cont_other b : cont b = true -> in_range 0 0x7f b = false.
Proof. unfold cont, in_range. lia. Qed.
Lemma second3_other a b : second3 a b = true -> in_range 0 0x7f b = false.
Proof. unfold second3, in_range. destruct (Byte.eqb a xe0), (Byte.eqb a xed); lia. Qed.
Lemma second4_other a b : second4 a b = true -> in_range 0 0x7f b = false.
Proof. unfold second4, in_range. destruct (Byte.eqb a xf0), (Byte.eqb a xf4); lia. Qed.

Lemma utf8_escaped s : utf8 s = true -> utf8 (flat_map escape_byte s) = true.
Proof.
  revert s. apply utf8_ind; [reflexivity| | | |]; intros; cbn [flat_map].
  - apply utf8_concat; [apply escape_ascii|]; assumption.
  - pose proof H as H'. unfold seq2 in H'. rewrite !andb_true_iff, negb_true_iff in H'.
    destruct H' as ((Ha & _) & Hb). apply cont_other in Hb.
    rewrite !escape_other by assumption. cbn [app]. rewrite utf8_2; assumption.
  - pose proof H as H'. unfold seq3 in H'. rewrite !andb_true_iff, !negb_true_iff in H'.
    destruct H' as ((((Ha & _) & _) & Hb) & Hc). apply cont_other in Hc. apply second3_other in Hb.
    rewrite !escape_other by assumption. cbn [app]. rewrite utf8_3; assumption.
  - pose proof H as H'. unfold seq4 in H'. rewrite !andb_true_iff, !negb_true_iff in H'.
    destruct H' as ((((((Ha & _) & _) & _) & Hb) & Hc) & Hd).
    apply cont_other in Hc, Hd. apply second4_other in Hb.
    rewrite !escape_other by assumption. cbn [app]. rewrite utf8_4; assumption.
Qed.

Lemma utf8_write_string s : utf8 s = true -> utf8 (write_string s) = true.
Proof.
  intros H. unfold write_string. rewrite utf8_1 by reflexivity.
  apply utf8_concat; [apply utf8_escaped, H|reflexivity].
Qed.

Lemma digits_ascii ds : forallb is_digit ds = true -> utf8 ds = true.
Proof.
  intros H. apply forallb_ascii. apply forallb_forall. intros c Hc. rewrite forallb_forall in H.
  specialize (H c Hc). unfold is_digit, in_range in *. lia.
Qed.

Lemma utf8_write_json d j : writable d j = true -> utf8 (write_json j) = true.
Proof.
  revert j; induction d as [|d IH]; intros j H;
    (destruct j as [|[]|n| |s|l|l]; try discriminate; cbn [write_json writable] in *; try reflexivity).
  - destruct (write_number_spec n) as [Hd _]; [lia|]. apply decimal_spec in Hd. apply digits_ascii, Hd.
  - apply utf8_write_string, H.
  - destruct (write_number_spec n) as [Hd _]; [lia|]. apply decimal_spec in Hd. apply digits_ascii, Hd.
  - apply utf8_write_string, H.
  - rewrite utf8_1 by reflexivity. apply utf8_concat; [|reflexivity]. apply utf8_join; [reflexivity|].
    apply Forall_map, Forall_forall. intros x Hx. rewrite forallb_forall in H. apply IH, H, Hx.
  - rewrite utf8_1 by reflexivity. apply utf8_concat; [|reflexivity]. apply utf8_join; [reflexivity|].
    apply Forall_map, Forall_forall. intros [[e k] v] Hx. rewrite forallb_forall in H.
    specialize (H _ Hx). cbn beta iota in H. apply andb_true_iff in H. destruct H as [Hk Hv].
    apply utf8_concat; [apply utf8_write_string, Hk|]. rewrite utf8_1 by reflexivity. apply IH, Hv.
Qed.

Lemma utf8_file l : pairs_valid l = true -> utf8 (file_to_string l) = true.
Proof. intros H. apply (utf8_write_json 127), file_writable, H. Qed.

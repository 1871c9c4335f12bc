(** Trimming removes white space, by code points. *)
From Coq Require Import ZArith ZifyBool ZifyNat ZifyN.
From stdpp Require Import gmap.
From Verif Require Import M_Base M_Utf8 S_Utf8 M_Json M_Cli S_Cli S_Trim P_Base P_Json P_Utf8 P_CliBase.
Ltac Zify.zify_post_hook ::= Z.div_mod_to_equations.

(** * Characters *)

(** The encoding of a character: one byte that starts a character, then bytes that continue it. *)
Lemma char_shape c : (c < 0x110000)%N ->
  exists h r, utf8_char c = h :: r /\ cont h = false /\ forallb cont r = true.
Proof.
  intros Hc. unfold utf8_char.
  destruct (N.ltb_spec c 0x80); [|destruct (N.ltb_spec c 0x800); [|destruct (N.ltb_spec c 0x10000)]];
    eexists _, _; (split; [reflexivity|]); cbn [forallb]; unfold cont, in_range; rewrite !to_N_u8; lia.
Qed.

Lemma u8_same a b : (a < 256)%N -> (b < 256)%N -> u8 a = u8 b -> a = b.
Proof. intros Ha Hb E. apply (f_equal Byte.to_N) in E. rewrite !to_N_u8 in E. lia. Qed.

Lemma char_inj c d : (c < 0x110000)%N -> (d < 0x110000)%N -> utf8_char c = utf8_char d -> c = d.
Proof.
  intros Hc Hd. unfold utf8_char.
  destruct (N.ltb_spec c 0x80); [|destruct (N.ltb_spec c 0x800); [|destruct (N.ltb_spec c 0x10000)]];
  (destruct (N.ltb_spec d 0x80); [|destruct (N.ltb_spec d 0x800); [|destruct (N.ltb_spec d 0x10000)]]);
    intros E; try discriminate E; injection E; clear E; intros;
    repeat match goal with E : u8 _ = u8 _ |- _ => apply u8_same in E; [|lia..] end; lia.
Qed.

Definition point (c : N) : Prop := (c < 0x110000)%N.
Lemma text_cons c cs : utf8_text (c :: cs) = utf8_char c ++ utf8_text cs.
Proof. reflexivity. Qed.
Lemma text_app a b : utf8_text (a ++ b) = utf8_text a ++ utf8_text b.
Proof. unfold utf8_text. apply flat_map_app. Qed.

(** The first byte tells the length. *)
Definition size (h : byte) : nat :=
  let n := Byte.to_N h in if (n <? 0x80)%N then 0 else if (n <? 0xE0)%N then 1 else if (n <? 0xF0)%N then 2 else 3.
Lemma char_size c h r : point c -> utf8_char c = h :: r -> length r = size h.
Proof.
  unfold point, utf8_char. intros Hc.
  destruct (N.ltb_spec c 0x80); [|destruct (N.ltb_spec c 0x800); [|destruct (N.ltb_spec c 0x10000)]];
    intros E; injection E as <- <-; cbn [length]; unfold size; cbv zeta; rewrite to_N_u8.
  - destruct (N.ltb_spec (c mod 256) 0x80); lia.
  - destruct (N.ltb_spec ((0xC0 + c / 64) mod 256) 0x80); [lia|].
    destruct (N.ltb_spec ((0xC0 + c / 64) mod 256) 0xE0); lia.
  - destruct (N.ltb_spec ((0xE0 + c / 4096) mod 256) 0x80); [lia|].
    destruct (N.ltb_spec ((0xE0 + c / 4096) mod 256) 0xE0); [lia|].
    destruct (N.ltb_spec ((0xE0 + c / 4096) mod 256) 0xF0); lia.
  - destruct (N.ltb_spec ((0xF0 + c / 262144) mod 256) 0x80); [lia|].
    destruct (N.ltb_spec ((0xF0 + c / 262144) mod 256) 0xE0); [lia|].
    destruct (N.ltb_spec ((0xF0 + c / 262144) mod 256) 0xF0); lia.
Qed.

Lemma app_same_length {A} (a b x y : list A) : length a = length b -> a ++ x = b ++ y -> a = b /\ x = y.
Proof.
  revert b. induction a as [|u a IH]; intros [|v b] Hl E; try discriminate Hl; [exact (conj eq_refl E)|].
  injection E as -> E. injection Hl as Hl. destruct (IH b Hl E) as [-> ->]. split; reflexivity.
Qed.
Lemma char_prefix c r w r' : point c -> point w -> utf8_char c ++ r = utf8_char w ++ r' -> c = w /\ r = r'.
Proof.
  intros Hc Hw E. destruct (char_shape c Hc) as (h & t & Ec & _). destruct (char_shape w Hw) as (h' & t' & Ew & _).
  pose proof (char_size c h t Hc Ec) as L. pose proof (char_size w h' t' Hw Ew) as L'.
  rewrite Ec, Ew in E. cbn [app] in E. injection E as -> E.
  destruct (app_same_length t t' r r' ltac:(congruence) E) as [-> ->]. split; [|reflexivity].
  apply char_inj; [exact Hc|exact Hw|]. congruence.
Qed.

(** The bytes continuing a character end at the next character. *)
Lemma split_cont (r r' x x' : bytes) : forallb cont r = true -> forallb cont r' = true ->
  (x = [] \/ exists h t, x = h :: t /\ cont h = false) -> (x' = [] \/ exists h t, x' = h :: t /\ cont h = false) ->
  r ++ x = r' ++ x' -> r = r' /\ x = x'.
Proof.
  intros Hr Hr' Hx Hx'. revert r' Hr'. induction r as [|b r IH]; intros r' Hr' E.
  - destruct r' as [|b r']; [exact (conj eq_refl E)|]. cbn in E, Hr'. apply andb_true_iff in Hr'. destruct Hr' as [Hb _].
    destruct Hx as [->|(h & t & -> & Hh)]; [discriminate E|]. injection E as -> _. congruence.
  - cbn in Hr. apply andb_true_iff in Hr. destruct Hr as [Hb Hr]. destruct r' as [|b' r'].
    + cbn in E. destruct Hx' as [->|(h & t & -> & Hh)]; [discriminate E|]. injection E as -> _. congruence.
    + cbn in Hr'. apply andb_true_iff in Hr'. destruct Hr' as [Hb' Hr']. injection E as -> E.
      destruct (IH Hr r' Hr' E) as [-> ->]. split; reflexivity.
Qed.

(** The last byte that does not continue a character starts the last character. *)
Lemma char_suffix x c y w : point c -> point w -> x ++ utf8_char c = y ++ utf8_char w -> c = w.
Proof.
  intros Hc Hw E. apply char_inj; [exact Hc|exact Hw|].
  destruct (char_shape c Hc) as (h & t & Ec & Hh & Ht). destruct (char_shape w Hw) as (h' & t' & Ew & Hh' & Ht').
  rewrite Ec, Ew in *. apply (f_equal (@rev byte)) in E. rewrite !rev_app_distr in E. cbn [rev] in E.
  rewrite <- !app_assoc in E. cbn [app] in E.
  assert (forall l, forallb cont l = true -> forallb cont (rev l) = true) as R.
  { intros l Hl. rewrite forallb_forall in *. intros b Hb. apply Hl, in_rev, Hb. }
  destruct (split_cont (rev t) (rev t') (h :: rev x) (h' :: rev y) (R _ Ht) (R _ Ht')) as [Er Ex]; [right; eauto..|exact E|].
  injection Ex as -> _. apply (f_equal (@rev byte)) in Er. rewrite !rev_involutive in Er. rewrite Er. reflexivity.
Qed.

(** * White space *)

Lemma white_points c : white c = true -> point c.
Proof.
  unfold white. rewrite existsb_exists. intros (x & Hx & E). apply N.eqb_eq in E. subst x.
  assert (forallb (fun x => x <? 0x110000)%N white_space = true) as H by (vm_compute; reflexivity).
  rewrite forallb_forall in H. specialize (H c Hx). unfold point. lia.
Qed.
Lemma white_whitespace c : white c = true -> In (utf8_char c) whitespace.
Proof.
  unfold white. rewrite existsb_exists. intros (x & Hx & E). apply N.eqb_eq in E. subst x.
  assert (forallb (fun x => existsb (bytes_eqb (utf8_char x)) whitespace) white_space = true) as H by (vm_compute; reflexivity).
  rewrite forallb_forall in H. specialize (H c Hx). apply existsb_exists in H. destruct H as (w & Hw & E).
  apply bytes_eqb_eq in E. rewrite E. exact Hw.
Qed.
Lemma whitespace_white w : In w whitespace -> exists c, white c = true /\ w = utf8_char c.
Proof.
  intros Hw.
  assert (forallb (fun w => existsb (fun x => bytes_eqb w (utf8_char x)) white_space) whitespace = true) as H by (vm_compute; reflexivity).
  rewrite forallb_forall in H. specialize (H w Hw). apply existsb_exists in H. destruct H as (c & Hc & E).
  exists c. split; [apply existsb_exists; exists c; split; [exact Hc|apply N.eqb_refl]|apply bytes_eqb_eq, E].
Qed.
Lemma whitespace_is_white w : In w whitespace <-> exists c, white c = true /\ w = utf8_char c.
Proof. split; [apply whitespace_white|]. intros (c & Hc & ->). apply white_whitespace, Hc. Qed.

Opaque white.
Lemma skip_white_split cs : exists a, cs = a ++ skip_white cs /\ Forall (fun c => white c = true) a /\
  (skip_white cs = [] \/ exists c r, skip_white cs = c :: r /\ white c = false).
Proof.
  induction cs as [|c cs (a & E & Ha & H)]; [exists []; split; [reflexivity|split; [constructor|left; reflexivity]]|].
  cbn [skip_white]. destruct (white c) eqn:Ew.
  - exists (c :: a). split; [cbn; rewrite <- E; reflexivity|]. split; [constructor; assumption|exact H].
  - exists []. split; [reflexivity|]. split; [constructor|right; eauto].
Qed.
Lemma spaces_white s : spaces s -> exists a, s = utf8_text a /\ Forall (fun c => white c = true) a.
Proof.
  induction 1 as [|w s Hw _ (a & -> & Ha)]; [exists []; split; [reflexivity|constructor]|].
  apply whitespace_white in Hw. destruct Hw as (c & Hc & ->). exists (c :: a). split; [reflexivity|constructor; assumption].
Qed.

(** * Trimming *)

Lemma white_front a cs r : Forall (fun c => white c = true) a -> Forall point cs ->
  (forall w x, In w whitespace -> r <> w ++ x) -> utf8_text cs = utf8_text a ++ r -> r = utf8_text (skip_white cs).
Proof.
  intros Ha Hcs Hr. revert cs Hcs. induction Ha as [|c a Hc _ IH]; intros cs Hcs E.
  - cbn in E. subst r. destruct cs as [|d cs]; [reflexivity|]. cbn [skip_white]. destruct (white d) eqn:Ed; [|reflexivity].
    exfalso. exact (Hr _ _ (white_whitespace d Ed) (text_cons d cs)).
  - destruct cs as [|d cs].
    { exfalso. rewrite text_cons in E. destruct (char_shape c (white_points c Hc)) as (h & t & Ec & _). rewrite Ec in E. discriminate E. }
    rewrite !text_cons, <- app_assoc in E. inversion Hcs as [|? ? Hd Hcs']; subst.
    destruct (char_prefix d _ c _ Hd (white_points c Hc) E) as [-> E']. cbn [skip_white]. rewrite Hc. exact (IH cs Hcs' E').
Qed.
Lemma white_back b cs r : Forall (fun c => white c = true) b -> Forall point cs ->
  (forall w x, In w whitespace -> r <> x ++ w) -> utf8_text (rev cs) = r ++ utf8_text (rev b) -> r = utf8_text (rev (skip_white cs)).
Proof.
  intros Hb Hcs Hr. revert cs Hcs. induction Hb as [|c b Hc _ IH]; intros cs Hcs E.
  - cbn in E. rewrite app_nil_r in E. subst r. destruct cs as [|d cs]; [reflexivity|]. cbn [skip_white].
    destruct (white d) eqn:Ed; [|reflexivity]. exfalso. cbn [rev] in Hr. rewrite text_app in Hr. cbn in Hr. rewrite app_nil_r in Hr.
    exact (Hr _ _ (white_whitespace d Ed) eq_refl).
  - destruct cs as [|d cs].
    { exfalso. cbn [rev] in E. rewrite text_app in E. destruct (char_shape c (white_points c Hc)) as (h & t & Ec & _).
      cbn in E. rewrite Ec in E. destruct r; [|discriminate E]. destruct (utf8_text (rev b)); discriminate E. }
    cbn [rev] in E. rewrite !text_app in E. cbn [utf8_text flat_map] in E. rewrite !app_nil_r, app_assoc in E.
    inversion Hcs as [|? ? Hd Hcs']; subst.
    pose proof (char_suffix _ d _ c Hd (white_points c Hc) E) as ->. apply app_inv_tail in E.
    cbn [skip_white]. rewrite Hc. exact (IH cs Hcs' E).
Qed.

Lemma scalar_point cs : Forall scalar cs -> Forall point cs.
Proof. intros H. eapply List.Forall_impl; [|exact H]. unfold scalar, point. intros; lia. Qed.

Lemma trim_points cs : Forall scalar cs -> trim (utf8_text cs) = utf8_text (unpadded cs).
Proof.
  intros H. apply scalar_point in H. unfold trim, unpadded.
  destruct (trim_start_spec (utf8_text cs)) as (a & Ea & Sa & Na). apply spaces_white in Sa. destruct Sa as (wa & -> & Ha).
  pose proof (white_front wa cs _ Ha H Na Ea) as E1. rewrite E1.
  destruct (trim_end_spec (utf8_text (skip_white cs))) as (b & Eb & Sb & Nb). apply spaces_white in Sb. destruct Sb as (wb & -> & Hb).
  apply (white_back (rev wb) (rev (skip_white cs))).
  - apply List.Forall_rev, Hb.
  - destruct (skip_white_split cs) as (x & Ex & _). rewrite Ex in H. apply List.Forall_app in H. apply List.Forall_rev, H.
  - exact Nb.
  - rewrite !rev_involutive. exact Eb.
Qed.

(** * Every text is made of characters *)

Lemma utf8_points s : utf8 s = true -> exists cs, Forall scalar cs /\ s = utf8_text cs.
Proof.
  revert s. apply utf8_ind; [|intros a s Ha _ (cs & Hcs & ->)|intros a b s Ha _ (cs & Hcs & ->)|intros a b c s Ha _ (cs & Hcs & ->)
    |intros a b c d s Ha _ (cs & Hcs & ->)].
  - exists []. split; [constructor|reflexivity].
  - exists (Byte.to_N a :: cs). unfold in_range in Ha. split; [constructor; [unfold scalar; lia|exact Hcs]|].
    rewrite text_cons. unfold utf8_char. destruct (N.ltb_spec (Byte.to_N a) 0x80); [|lia]. rewrite u8_to_N. reflexivity.
  - unfold seq2, cont, in_range in Ha.
    exists (((Byte.to_N a - 0xC0) * 64 + (Byte.to_N b - 0x80))%N :: cs).
    split; [constructor; [unfold scalar; lia|exact Hcs]|]. rewrite text_cons. unfold utf8_char.
    set (n := ((Byte.to_N a - 0xC0) * 64 + (Byte.to_N b - 0x80))%N).
    destruct (N.ltb_spec n 0x80); [lia|]. destruct (N.ltb_spec n 0x800); [|lia]. cbn [app]. repeat f_equal; apply to_N_inj; rewrite to_N_u8; lia.
  - unfold seq3, second3, cont, in_range in Ha.
    assert (Byte.eqb a xe0 = (Byte.to_N a =? 0xe0)%N) as Q1 by (destruct a; reflexivity).
    assert (Byte.eqb a xed = (Byte.to_N a =? 0xed)%N) as Q2 by (destruct a; reflexivity). rewrite Q1, Q2 in Ha.
    exists (((Byte.to_N a - 0xE0) * 4096 + (Byte.to_N b - 0x80) * 64 + (Byte.to_N c - 0x80))%N :: cs).
    destruct (N.eqb_spec (Byte.to_N a) 0xe0) as [Qa|Qa]; [|destruct (N.eqb_spec (Byte.to_N a) 0xed) as [Qb|Qb]];
    (split; [constructor; [unfold scalar; lia|exact Hcs]|]; rewrite text_cons; unfold utf8_char;
     set (n := ((Byte.to_N a - 0xE0) * 4096 + (Byte.to_N b - 0x80) * 64 + (Byte.to_N c - 0x80))%N);
     destruct (N.ltb_spec n 0x80); [lia|]; destruct (N.ltb_spec n 0x800); [lia|]; destruct (N.ltb_spec n 0x10000); [|lia];
     cbn [app]; repeat f_equal; apply to_N_inj; rewrite to_N_u8; lia).
  - unfold seq4, second4, cont, in_range in Ha.
    assert (Byte.eqb a xf0 = (Byte.to_N a =? 0xf0)%N) as Q1 by (destruct a; reflexivity).
    assert (Byte.eqb a xf4 = (Byte.to_N a =? 0xf4)%N) as Q2 by (destruct a; reflexivity). rewrite Q1, Q2 in Ha.
    exists (((Byte.to_N a - 0xF0) * 262144 + (Byte.to_N b - 0x80) * 4096 + (Byte.to_N c - 0x80) * 64 + (Byte.to_N d - 0x80))%N :: cs).
    destruct (N.eqb_spec (Byte.to_N a) 0xf0) as [Qa|Qa]; [|destruct (N.eqb_spec (Byte.to_N a) 0xf4) as [Qb|Qb]];
    (split; [constructor; [unfold scalar; lia|exact Hcs]|]; rewrite text_cons; unfold utf8_char;
     set (n := ((Byte.to_N a - 0xF0) * 262144 + (Byte.to_N b - 0x80) * 4096 + (Byte.to_N c - 0x80) * 64 + (Byte.to_N d - 0x80))%N);
     destruct (N.ltb_spec n 0x80); [lia|]; destruct (N.ltb_spec n 0x800); [lia|]; destruct (N.ltb_spec n 0x10000); [lia|];
     cbn [app]; repeat f_equal; apply to_N_inj; rewrite to_N_u8; lia).
Qed.
Transparent white.

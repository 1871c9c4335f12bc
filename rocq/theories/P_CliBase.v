(** The command line program: trimming, sorting, and the calls a command makes. *)
From Coq Require Import Permutation ZArith ZifyBool ZifyNat ZifyN.
From stdpp Require Import gmap.
From Verif Require Import M_Base M_Base64 M_Utf8 M_Prims M_Types M_Crypto M_Recovery M_Json M_Serde M_Storage M_Passwords S_Serde
  S_Vault M_History S_Api P_Base P_Utf8 P_Json P_Serde P_Storage P_Api P_Calls M_Cli S_Cli.

(** * UTF-8 and trimming *)

Lemma cont_ranges c : cont c = false ->
  in_range 0x80 0xbf c = false /\ in_range 0xa0 0xbf c = false /\ in_range 0x80 0x9f c = false /\
  in_range 0x90 0xbf c = false /\ in_range 0x80 0x8f c = false.
Proof. unfold cont, in_range. lia. Qed.

Lemma second3_cont a b : second3 a b = true -> cont b = true.
Proof. unfold second3, cont, in_range. destruct (Byte.eqb a xe0), (Byte.eqb a xed); lia. Qed.
Lemma second4_cont a b : second4 a b = true -> cont b = true.
Proof. unfold second4, cont, in_range. destruct (Byte.eqb a xf0), (Byte.eqb a xf4); lia. Qed.

(** A text can be cut in front of any byte that does not continue a character. *)
Lemma utf8_cut c b : cont c = false -> forall a, utf8 (a ++ c :: b) = true -> utf8 a = true.
Proof.
  intros Hc. assert (forall n a, length a <= n -> utf8 (a ++ c :: b) = true -> utf8 a = true) as H.
  { induction n as [|n IH]; intros a Hl Hu; [destruct a; [reflexivity|cbn in Hl; lia]|].
    destruct a as [|x a]; [reflexivity|]. cbn [app utf8] in Hu. cbn [utf8]. cbn [length] in Hl.
    destruct (in_range 0 0x7f x); [apply IH; [lia|exact Hu]|].
    destruct (in_range 0xc2 0xdf x).
    { destruct a as [|y a]; cbn [app] in Hu; [rewrite Hc in Hu; discriminate Hu|].
      apply andb_true_iff in Hu. destruct Hu as [-> Hu]. apply IH; [cbn in Hl; lia|exact Hu]. }
    destruct (in_range 0xe0 0xef x).
    { destruct a as [|y [|z a]]; cbn [app] in Hu.
      - destruct b as [|y b]; [discriminate Hu|]. apply andb_true_iff in Hu. destruct Hu as [Hu _].
        apply andb_true_iff in Hu. destruct Hu as [Hu _]. apply second3_cont in Hu. congruence.
      - apply andb_true_iff in Hu. destruct Hu as [Hu _].
        apply andb_true_iff in Hu. destruct Hu as [_ Hu]. congruence.
      - apply andb_true_iff in Hu. destruct Hu as [-> Hu]. apply IH; [cbn in Hl; lia|exact Hu]. }
    destruct (in_range 0xf0 0xf4 x); [|exact Hu].
    destruct a as [|y [|z [|w a]]]; cbn [app] in Hu.
    - destruct b as [|y [|z b]]; [discriminate Hu..|]. rewrite !andb_true_iff in Hu. destruct Hu as [[[Hu _] _] _].
      apply second4_cont in Hu. congruence.
    - destruct b as [|z b]; [discriminate Hu|]. rewrite !andb_true_iff in Hu. destruct Hu as [[[_ Hu] _] _]. congruence.
    - rewrite !andb_true_iff in Hu. destruct Hu as [[[_ _] Hu] _]. congruence.
    - apply andb_true_iff in Hu. destruct Hu as [-> Hu]. apply IH; [cbn in Hl; lia|exact Hu]. }
  intros a. apply (H (length a)). lia.
Qed.

Lemma whitespace_utf8 w : In w whitespace -> utf8 w = true /\ w <> [] /\ exists c r, w = c :: r /\ cont c = false.
Proof.
  intros H. cbn in H. repeat (destruct H as [<-|H]; [split; [reflexivity|split; [discriminate|eexists _, _; split; reflexivity]]|]).
  destruct H.
Qed.

Lemma spaces_app a b : spaces a -> spaces b -> spaces (a ++ b).
Proof. induction 1 as [|w s Hw Hs IH]; intros Hb; [exact Hb|]. rewrite <- app_assoc. constructor; auto. Qed.
Lemma spaces_utf8 a : spaces a -> utf8 a = true.
Proof.
  induction 1 as [|w s Hw Hs IH]; [reflexivity|]. apply utf8_concat; [apply whitespace_utf8, Hw|exact IH].
Qed.

Lemma strip_any_some ws s r : strip_any ws s = Some r -> exists w, In w ws /\ s = w ++ r.
Proof.
  induction ws as [|w ws IH]; cbn; [discriminate|]. destruct (strip_prefix w s) as [x|] eqn:E.
  - intros [= ->]. apply strip_prefix_some in E. exists w. auto.
  - intros H. destruct (IH H) as (w' & ? & ?). exists w'. auto.
Qed.
Lemma strip_any_none ws s : strip_any ws s = None -> forall w r, In w ws -> s <> w ++ r.
Proof.
  induction ws as [|w ws IH]; cbn; [intros _ ? ? []|]. destruct (strip_prefix w s) as [x|] eqn:E; [discriminate|].
  intros H w' r [->|Hin]; [|apply IH; assumption]. intros E'. apply strip_prefix_some in E'. congruence.
Qed.

Lemma strip_all_spec ws : (forall w, In w ws -> w <> []) -> forall fuel s, length s <= fuel ->
  (exists p, s = concat p ++ strip_all fuel ws s /\ Forall (fun w => In w ws) p) /\
  forall w r, In w ws -> strip_all fuel ws s <> w ++ r.
Proof.
  intros Hne. induction fuel as [|f IH]; intros s Hl.
  - destruct s; [|cbn in Hl; lia]. cbn. split; [exists []; split; [reflexivity|constructor]|].
    intros w r Hw E. specialize (Hne w Hw). destruct w; [contradiction|discriminate E].
  - cbn [strip_all]. destruct (strip_any ws s) as [x|] eqn:E.
    + apply strip_any_some in E. destruct E as (w & Hw & ->). specialize (Hne w Hw) as Hw'.
      rewrite app_length in Hl. destruct w as [|b w]; [contradiction|]. cbn [length] in Hl.
      destruct (IH x ltac:(lia)) as [(p & Hp & HF) Hn]. split; [|exact Hn].
      exists ((b :: w) :: p). split; [|constructor; assumption]. cbn [concat]. rewrite <- app_assoc, <- Hp. reflexivity.
    + split; [exists []; split; [reflexivity|constructor]|]. apply strip_any_none, E.
Qed.

Lemma spaces_concat p : Forall (fun w => In w whitespace) p -> spaces (concat p).
Proof. induction 1; cbn; constructor; assumption. Qed.

Lemma rev_concat (p : list bytes) : rev (concat (map (@rev byte) p)) = concat (rev p).
Proof.
  induction p as [|w p IH]; [reflexivity|]. cbn. rewrite rev_app_distr, rev_involutive, IH, concat_app. cbn.
  rewrite app_nil_r. reflexivity.
Qed.

Lemma trim_end_spec s : exists b, s = trim_end s ++ b /\ spaces b /\ forall w r, In w whitespace -> trim_end s <> r ++ w.
Proof.
  unfold trim_end.
  destruct (strip_all_spec (map (@rev byte) whitespace)) with (fuel := length s) (s := rev s) as [(p & Hp & HF) Hn].
  { intros w Hw. apply in_map_iff in Hw. destruct Hw as (w' & <- & Hw'). apply whitespace_utf8 in Hw'.
    destruct Hw' as (_ & H & _). destruct w' as [|c r]; [contradiction|]. cbn. destruct (rev r); discriminate. }
  { rewrite rev_length. lia. }
  set (x := strip_all _ _ _) in *. exists (rev (concat p)). split; [|split].
  - rewrite <- rev_app_distr, <- Hp, rev_involutive. reflexivity.
  - assert (exists q, p = map (@rev byte) q /\ Forall (fun w => In w whitespace) q) as (q & -> & Hq).
    { clear -HF. induction HF as [|w p Hw _ (q & -> & Hq)]; [exists []; split; [reflexivity|constructor]|].
      apply in_map_iff in Hw. destruct Hw as (w' & <- & Hw'). exists (w' :: q). split; [reflexivity|constructor; assumption]. }
    rewrite rev_concat. apply spaces_concat. apply List.Forall_rev, Hq.
  - intros w r Hw E. apply (Hn (rev w) (rev r)); [apply in_map, Hw|].
    rewrite <- (rev_involutive x), E, rev_app_distr. reflexivity.
Qed.
Lemma trim_start_spec s : exists a, s = a ++ trim_start s /\ spaces a /\ forall w r, In w whitespace -> trim_start s <> w ++ r.
Proof.
  unfold trim_start. destruct (strip_all_spec whitespace) with (fuel := length s) (s := s) as [(p & Hp & HF) Hn].
  - intros w Hw. apply whitespace_utf8, Hw.
  - lia.
  - exists (concat p). split; [exact Hp|]. split; [apply spaces_concat, HF|exact Hn].
Qed.

Lemma spaces_cut a b : spaces b -> utf8 (a ++ b) = true -> utf8 a = true.
Proof.
  intros Hb. destruct Hb as [|w s Hw Hs]; [rewrite app_nil_r; auto|].
  apply whitespace_utf8 in Hw. destruct Hw as (_ & _ & c & r & -> & Hc). cbn. apply utf8_cut, Hc.
Qed.

(** The trimmed text is the text without whitespace around it, and does not start or end with any. *)
Lemma trim_spec s : exists a b, s = a ++ trim s ++ b /\ spaces a /\ spaces b /\
  (forall w r, In w whitespace -> trim s <> w ++ r) /\ (forall w r, In w whitespace -> trim s <> r ++ w).
Proof.
  destruct (trim_start_spec s) as (a & Ha & Sa & Na). destruct (trim_end_spec (trim_start s)) as (b & Hb & Sb & Nb).
  exists a, b. fold (trim s) in *. split; [rewrite <- Hb; exact Ha|]. split; [exact Sa|]. split; [exact Sb|].
  split; [|exact Nb]. intros w r Hw E. rewrite Hb, E, <- app_assoc in Na. exact (Na w _ Hw eq_refl).
Qed.
Lemma trim_utf8 s : utf8 s = true -> utf8 (trim s) = true.
Proof.
  intros Hu. destruct (trim_spec s) as (a & b & E & Sa & Sb & _). rewrite E in Hu.
  rewrite utf8_app in Hu by apply spaces_utf8, Sa. exact (spaces_cut _ _ Sb Hu).
Qed.

(** Such a text is determined. *)
Lemma whitespace_prefix w w' r r' : In w whitespace -> In w' whitespace -> w ++ r = w' ++ r' -> w = w'.
Proof.
  intros Hw Hw' E.
  assert (forallb (fun w => forallb (fun w' => bytes_eqb w w' || negb (starts_with w w')) whitespace) whitespace = true) as H
    by (vm_compute; reflexivity).
  rewrite forallb_forall in H. pose proof (H w Hw) as H1. pose proof (H w' Hw') as H2. cbn beta in *.
  rewrite forallb_forall in H1, H2. specialize (H1 w' Hw'). specialize (H2 w Hw).
  apply orb_true_iff in H1. destruct H1 as [H1|H1]; [apply bytes_eqb_eq, H1|].
  apply orb_true_iff in H2. destruct H2 as [H2|H2]; [symmetry; apply bytes_eqb_eq, H2|].
  exfalso. assert ((exists q, w' = w ++ q) \/ (exists q, w = w' ++ q)) as [(q & ->)|(q & ->)].
  { clear -E. revert w' E. induction w as [|b w IH]; intros w' E; [left; eexists; reflexivity|].
    destruct w' as [|b' w']; [right; eexists; reflexivity|]. injection E as -> E.
    destruct (IH w' E) as [(q & ->)|(q & ->)]; [left|right]; exists q; reflexivity. }
  - destruct (starts_with_spec w (w ++ q)) as [_ K]. rewrite K in H1 by eauto. discriminate H1.
  - destruct (starts_with_spec w' (w' ++ q)) as [_ K]. rewrite K in H2 by eauto. discriminate H2.
Qed.

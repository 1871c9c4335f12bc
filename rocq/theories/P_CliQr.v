(** The command line program: drawing QR codes. *)
From Coq Require Import ZArith ZifyBool ZifyNat ZifyN.
From stdpp Require Import gmap.
From Verif Require Import M_Base M_Types M_Recovery M_Cli P_Base.

(** Symbols: two modules, or the end of a row. *)
Definition enc (x : option (bool * bool)) : bytes := match x with Some (u, l) => block u l | None => [newline] end.

Lemma enc_inj x y a b : enc x ++ a = enc y ++ b -> x = y /\ a = b.
Proof.
  destruct x as [[[] []]|], y as [[[] []]|]; cbn; intros H; try discriminate H; injection H; auto; intros; subst; auto.
Qed.
Lemma encs_inj l : forall l', concat (map enc l) = concat (map enc l') -> l = l'.
Proof.
  induction l as [|x l IH]; intros [|y l'] H; cbn in H.
  - reflexivity.
  - exfalso. destruct y as [[[] []]|]; discriminate H.
  - exfalso. destruct x as [[[] []]|]; discriminate H.
  - apply enc_inj in H. destruct H as [-> H]. f_equal. apply IH, H.
Qed.

Definition row (q : qr) (y : nat) : list (option (bool * bool)) :=
  map (fun x => Some (get_module q x y, get_module q x (y + 1))) (seq 0 (qr_size q)) ++ [None].
Lemma qr_row_enc q y : qr_row q y = concat (map enc (row q y)).
Proof. unfold qr_row, row. rewrite map_app, concat_app, map_map. reflexivity. Qed.
Lemma qr_text_enc q : qr_text q = concat (map enc (concat (map (fun i => row q (2 * i)) (seq 0 ((qr_size q + 1) / 2))))).
Proof.
  unfold qr_text. generalize (seq 0 ((qr_size q + 1) / 2)). induction l as [|i l IH]; [reflexivity|].
  cbn [map concat]. rewrite map_app, concat_app, IH, qr_row_enc. reflexivity.
Qed.

Lemma app_none_inj {A : Type} (a b : list A) r r' : map Some a ++ None :: r = map Some b ++ None :: r' -> a = b /\ r = r'.
Proof.
  revert b. induction a as [|x a IH]; intros [|y b] H; cbn in H; try discriminate H.
  - injection H as H. auto.
  - injection H as -> H. destruct (IH b H) as [-> ->]. auto.
Qed.
Lemma row_inj q q' y y' r r' : row q y ++ r = row q' y' ++ r' ->
  map (fun x => (get_module q x y, get_module q x (y + 1))) (seq 0 (qr_size q)) =
  map (fun x => (get_module q' x y', get_module q' x (y' + 1))) (seq 0 (qr_size q')) /\ r = r'.
Proof.
  unfold row. rewrite <- !app_assoc. cbn [app]. intros H. apply app_none_inj.
  rewrite !map_map. exact H.
Qed.

Lemma rows_inj q q' l : forall l', length l = length l' ->
  concat (map (row q) l) = concat (map (row q') l') ->
  forall i, nth_error l i <> None -> exists y y', nth_error l i = Some y /\ nth_error l' i = Some y' /\
    map (fun x => (get_module q x y, get_module q x (y + 1))) (seq 0 (qr_size q)) =
    map (fun x => (get_module q' x y', get_module q' x (y' + 1))) (seq 0 (qr_size q')).
Proof.
  induction l as [|y l IH]; intros [|y' l'] Hl H i Hi; try discriminate Hl.
  - destruct i; contradiction.
  - cbn in H. apply row_inj in H. destruct H as [H1 H2]. destruct i as [|i]; [exists y, y'; auto|].
    apply (IH l'); [cbn in Hl; lia|exact H2|exact Hi].
Qed.

(** The drawing determines the size and all modules. *)
Lemma qr_text_inj q q' : qr_text q = qr_text q' ->
  qr_size q = qr_size q' /\ forall x y, get_module q x y = get_module q' x y.
Proof.
  intros H. rewrite !qr_text_enc in H. apply encs_inj in H.
  assert (qr_size q = qr_size q') as Hs.
  { destruct (qr_size q) as [|n] eqn:En, (qr_size q') as [|n'] eqn:En'; [reflexivity| | |].
    - exfalso. replace ((S n' + 1) / 2) with (S ((S n' + 1) / 2 - 1)) in H
        by (assert (1 <= (S n' + 1) / 2) by (apply Nat.div_le_lower_bound; lia); lia).
      cbn [seq map concat Nat.mul Nat.add] in H. change ((0 + 1) / 2) with 0 in H. cbn [seq map concat] in H. symmetry in H.
      apply app_eq_nil in H. destruct H as [H _]. apply app_eq_nil in H. destruct H as [_ H]. discriminate H.
    - exfalso. replace ((S n + 1) / 2) with (S ((S n + 1) / 2 - 1)) in H
        by (assert (1 <= (S n + 1) / 2) by (apply Nat.div_le_lower_bound; lia); lia).
      cbn [seq map concat Nat.mul Nat.add] in H. change ((0 + 1) / 2) with 0 in H. cbn [seq map concat] in H.
      apply app_eq_nil in H. destruct H as [H _]. apply app_eq_nil in H. destruct H as [_ H]. discriminate H.
    - replace ((S n' + 1) / 2) with (S ((S n' + 1) / 2 - 1)) in H
        by (assert (1 <= (S n' + 1) / 2) by (apply Nat.div_le_lower_bound; lia); lia).
      replace ((S n + 1) / 2) with (S ((S n + 1) / 2 - 1)) in H
        by (assert (1 <= (S n + 1) / 2) by (apply Nat.div_le_lower_bound; lia); lia).
      cbn [seq map concat] in H. apply row_inj in H. destruct H as [H _]. apply (f_equal (@length _)) in H.
      rewrite !map_length, !seq_length in H. congruence. }
  split; [exact Hs|]. intros x y. unfold get_module at 1 2. rewrite <- Hs.
  destruct (x <? qr_size q) eqn:Ex; [|reflexivity]. destruct (y <? qr_size q) eqn:Ey; [|reflexivity]. cbn [andb].
  rewrite <- Hs in H.
  rewrite <- (map_map (fun i => 2 * i) (row q)), <- (map_map (fun i => 2 * i) (row q')) in H.
  assert (y / 2 < (qr_size q + 1) / 2) as Hy.
  { pose proof (Nat.div_mod y 2 ltac:(lia)). pose proof (Nat.mod_upper_bound y 2 ltac:(lia)).
    pose proof (Nat.div_mod (qr_size q + 1) 2 ltac:(lia)). pose proof (Nat.mod_upper_bound (qr_size q + 1) 2 ltac:(lia)). lia. }
  assert (nth_error (map (fun i => 2 * i) (seq 0 ((qr_size q + 1) / 2))) (y / 2) = Some (2 * (y / 2))) as Hn.
  { apply map_nth_error. rewrite nth_error_nth' with (d := 0) by (rewrite seq_length; exact Hy). f_equal. rewrite seq_nth by exact Hy. reflexivity. }
  destruct (rows_inj q q' _ _ eq_refl H (y / 2)) as (z & z' & E1 & E2 & Hr); [congruence|].
  assert (z = 2 * (y / 2)) as Ez by congruence. assert (z' = z) as -> by congruence. rewrite <- Hs in Hr.
  assert (nth_error (seq 0 (qr_size q)) x = Some x) as Hx.
  { rewrite nth_error_nth' with (d := 0) by (rewrite seq_length; lia). f_equal. rewrite seq_nth by lia. reflexivity. }
  apply (f_equal (fun l => nth_error l x)) in Hr.
  rewrite (map_nth_error _ _ _ Hx), (map_nth_error _ _ _ Hx) in Hr. injection Hr as H1 H2.
  pose proof (Nat.div_mod y 2 ltac:(lia)) as Hdm. pose proof (Nat.mod_upper_bound y 2 ltac:(lia)) as Hmod.
  unfold get_module in H1, H2. rewrite <- Hs, Ex in H1, H2. cbn [andb] in H1, H2.
  destruct (y mod 2) as [|[|]] eqn:Em; [| |lia].
  - replace z with y in H1 by lia. rewrite Ey in H1. exact H1.
  - replace (z + 1) with y in H2 by lia. rewrite Ey in H2. exact H2.
Qed.

(** Concrete histories with changes of the file, for examples. *)
From stdpp Require Import gmap.
From Verif Require Import M_Base M_Utf8 M_Prims M_Types M_Crypto M_Serde M_Storage M_Passwords S_Vault M_History S_Api S_History S_Tamper
  P_Base P_Tamper T_Toy T_History.

(** What a call puts. *)
Definition put_list (P : prims) (o : op) (s : st) : list (bytes * bytes) :=
  match s_key (snd (exec P o s)) with
  | Some key =>
      if negb (is_reset o) || match fst (exec P o s) with ODone => true | _ => false end then
        flat_map (fun '(slot, c) => match s_data s !! slot with
                                    | Some c' => if bytes_eqb c c' then [] else [(key, c)]
                                    | None => [(key, c)]
                                    end) (map_to_list (s_data (snd (exec P o s))))
      else []
  | None => []
  end.
Lemma put_list_ok P o s key c : In (key, c) (put_list P o s) -> puts P o s key c.
Proof.
  unfold put_list, puts. destruct (s_key (snd (exec P o s))) as [k|]; [|intros []].
  destruct (negb (is_reset o) || _) eqn:Er; [|intros []]. intros H. apply in_flat_map in H. destruct H as ([slot c'] & Hin & H).
  apply elem_of_list_In, elem_of_map_to_list in Hin.
  assert (k = key /\ c' = c /\ s_data s !! slot <> Some c) as (-> & -> & Hn).
  { destruct (s_data s !! slot) as [c0|].
    - destruct (bytes_eqb c' c0) eqn:E; [destruct H|]. apply bytes_eqb_neq in E. destruct H as [[= -> ->]|[]]. repeat split. congruence.
    - destruct H as [[= -> ->]|[]]. repeat split. discriminate. }
  split; [reflexivity|]. split; [|exists slot; auto]. intros Hr. rewrite Hr in Er. cbn [negb orb] in Er.
  destruct (fst (exec P o s)); try discriminate Er. reflexivity.
Qed.

Definition state_ok (P : prims) (seen : list (bytes * bytes)) (s : st) : bool :=
  match s_key s with
  | None => true
  | Some key => forallb (fun '(_, c) => negb (is_ok (decrypt_data P c key)) || existsb (id_eqb (key, c)) seen) (map_to_list (s_data s))
  end.
Fixpoint check_unforged (P : prims) (seen : list (bytes * bytes)) (l : list happening) (s : st) : bool :=
  state_ok P seen s &&
  match l with
  | [] => true
  | e :: l' =>
      force_pairs (match e with Call o => put_list P o s | Rewritten _ => [] end ++ seen) (fun seen' =>
      force_state (happens P e s) (check_unforged P seen' l'))
  end.

Lemma check_unforged_ok P l s0 : check_unforged P [] l s0 = true -> unforged P l s0.
Proof.
  assert (forall l2 l0 seen, 
    (forall key c, In (key, c) seen -> exists la o lb, l0 = la ++ Call o :: lb /\ puts P o (later P la s0) key c) ->
    check_unforged P seen l2 (later P l0 s0) = true ->
    forall l1 l3 key slot c m, l2 = l1 ++ l3 -> s_key (later P (l0 ++ l1) s0) = Some key ->
      s_data (later P (l0 ++ l1) s0) !! slot = Some c -> decrypt_data P c key = Ok m ->
      exists la o lb, l0 ++ l1 = la ++ Call o :: lb /\ puts P o (later P la s0) key c) as H.
  { induction l2 as [|e l2 IH]; intros l0 seen Hseen Hc l1 l3 key slot c m El Hk Hd Hm.
    - destruct l1; [|discriminate]. rewrite app_nil_r in *. cbn [check_unforged] in Hc. rewrite andb_true_r in Hc.
      unfold state_ok in Hc. rewrite Hk in Hc. rewrite forallb_forall in Hc.
      assert (In (slot, c) (map_to_list (s_data (later P l0 s0)))) as Hin by (apply elem_of_list_In, elem_of_map_to_list, Hd).
      specialize (Hc _ Hin). cbn in Hc. rewrite Hm in Hc. cbn [is_ok negb orb] in Hc. apply existsb_exists in Hc.
      destruct Hc as (x & Hx & E). apply id_eqb_eq in E. subst x. exact (Hseen _ _ Hx).
    - cbn [check_unforged] in Hc. apply andb_true_iff in Hc. destruct Hc as [Hc1 Hc2]. rewrite force_pairs_eq, force_state_eq in Hc2.
      destruct l1 as [|e' l1].
      + rewrite app_nil_r in *. unfold state_ok in Hc1. rewrite Hk in Hc1. rewrite forallb_forall in Hc1.
        assert (In (slot, c) (map_to_list (s_data (later P l0 s0)))) as Hin by (apply elem_of_list_In, elem_of_map_to_list, Hd).
        specialize (Hc1 _ Hin). cbn in Hc1. rewrite Hm in Hc1. cbn [is_ok negb orb] in Hc1. apply existsb_exists in Hc1.
        destruct Hc1 as (x & Hx & E). apply id_eqb_eq in E. subst x. exact (Hseen _ _ Hx).
      + injection El as <- El.
        assert (l0 ++ e :: l1 = (l0 ++ [e]) ++ l1) as Ea by (rewrite <- app_assoc; reflexivity). rewrite Ea in *.
        apply (IH (l0 ++ [e]) (match e with Call o => put_list P o (later P l0 s0) | Rewritten _ => [] end ++ seen)) with (l3 := l3) (slot := slot) (m := m); try assumption.
        * intros key' c' Hin. apply in_app_or in Hin. destruct Hin as [Hin|Hin].
          -- destruct e as [o|f]; [|destruct Hin]. exists l0, o, []. split; [reflexivity|apply put_list_ok, Hin].
          -- destruct (Hseen _ _ Hin) as (la & o & lb & -> & Hp). exists la, o, (lb ++ [e]). rewrite <- app_assoc. split; [reflexivity|exact Hp].
        * rewrite later_app. exact Hc2. }
  intros Hc l1 l2 key slot c m El Hk Hd Hm. apply (H l [] [] (fun _ _ F => match F with end) Hc l1 l2 key slot c m El Hk Hd Hm).
Qed.

Definition check_happening (e : happening) : bool := match e with Call o => check_valid o | Rewritten _ => true end.
Lemma check_happenings_ok l : forallb check_happening l = true -> Forall happening_valid l.
Proof.
  rewrite forallb_forall. intros H. apply List.Forall_forall. intros e He. specialize (H e He).
  destruct e; [apply check_valid_ok, H|exact I].
Qed.

Fixpoint finally {A : Type} (P : prims) (l : list happening) (s : st) (k : st -> A) : A :=
  match l with
  | [] => k s
  | e :: l' => force_state (happens P e s) (fun s1 => finally P l' s1 k)
  end.
Lemma finally_eq {A : Type} P l : forall s (k : st -> A), finally P l s k = k (later P l s).
Proof.
  induction l as [|e l IH]; intros s k; [reflexivity|]. cbn [finally later]. rewrite force_state_eq. apply IH.
Qed.

(** The file with the value of one slot copied to another, or exchanged. *)
Definition copied (s : st) (from to : bytes) : bytes :=
  file_to_string (map (fun '(k, c) => (k, if bytes_eqb k to then default c (s_data s !! from) else c)) (map_to_list (s_data s))).
Definition exchanged (s : st) (k1 k2 : bytes) : bytes :=
  file_to_string (map (fun '(k, c) => (k, if bytes_eqb k k1 then default c (s_data s !! k2)
                                          else if bytes_eqb k k2 then default c (s_data s !! k1) else c)) (map_to_list (s_data s))).
Definition slot_of (s : st) (x n : bytes) : bytes :=
  match s_hmac s with Some h => get_password_key toy_release (mk_id x n []) h | None => [] end.

Definition entries : list op :=
  [Reset (bs "secret"); SetStored (bs "a") (bs "n") [] (bs "one"); SetStored (bs "b") (bs "n") [] (bs "two")].
Definition exchanged_file : bytes := Eval vm_compute in
  final toy_release entries start (fun s => exchanged s (slot_of s (bs "a") (bs "n")) (slot_of s (bs "b") (bs "n"))).
Definition copied_file : bytes := Eval vm_compute in
  final toy_release entries start (fun s => copied s (slot_of s (bs "b") (bs "n")) (slot_of s (bs "a") (bs "n"))).
Definition old_file : bytes := Eval vm_compute in
  final toy_release entries start (fun s => default [] (s_disk s)).

Definition reopened (file : bytes) : list happening := [Rewritten (Some file); Call Restart; Call (Unlock (bs "secret"))].
Definition exchange_story : list happening := map Call entries ++ reopened exchanged_file.
Definition copy_story : list happening := map Call entries ++ reopened copied_file.
Definition rollback_story : list happening := map Call (entries ++ [Remove (bs "a") (bs "n") []]) ++ reopened old_file.

Definition check_story (l : list happening) : bool := check_unforged toy_release [] l start && forallb check_happening l.
Lemma exchange_ok : check_story exchange_story = true.
Proof. vm_compute. reflexivity. Qed.
Lemma copy_ok : check_story copy_story = true.
Proof. vm_compute. reflexivity. Qed.
Lemma rollback_ok : check_story rollback_story = true.
Proof. vm_compute. reflexivity. Qed.

Definition check_open (pp : bytes) (s : st) : bool :=
  match s_key s, s_hmac s, s_primary s with Some _, Some _, Some p => bytes_eqb p pp | _, _, _ => false end.
Lemma check_open_ok P l s0 pp : finally P l s0 (check_open pp) = true -> exists key h, unlocked_with (later P l s0) key h pp.
Proof.
  rewrite finally_eq. unfold check_open, unlocked_with, secrets.
  destruct (s_key (later P l s0)) as [k|]; [|discriminate]. destruct (s_hmac (later P l s0)) as [h|]; [|discriminate].
  destruct (s_primary (later P l s0)) as [p|]; [|discriminate]. intros H. apply bytes_eqb_eq in H. subst p. exists k, h. reflexivity.
Qed.

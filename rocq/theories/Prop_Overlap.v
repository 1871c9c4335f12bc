(** C65: saves and loads that overlap in time, call by call of the operating system. *)
From stdpp Require Import gmap.
From Verif Require Import M_Base M_Utf8 M_Prims M_Types M_Storage M_Passwords S_Vault M_History M_Processes M_Syscalls S_Api S_Overlap
  P_Overlap T_Toy T_History T_Processes.

(** A save without others leaves the file in one of the states [flush] is said to leave it in. *)
Theorem C65_flush_alone : forall P s l p, saves l = [(p, flush_text P s)] ->
  let y := happens l (at_rest (s_disk s)) in
  (p_write P (s_flushes s) = WriteOk -> has_saved y p (flush_text P s) -> y_file y = s_disk (snd (flush P s))) /\
  (forall n, p_write P (s_flushes s) = WriteFailsAfter n -> y_jobs y p = Saving (flush_text P s) n ->
     y_file y = s_disk (snd (flush P s))).
Proof. exact flush_alone. Qed.
Print Assumptions C65_flush_alone.

(** Who loads while one process saves gets the beginning of the old text and continues with the new one. *)
Theorem C65_one_save : forall file l p text q c, saves l = [(p, text)] -> y_jobs (happens l (at_rest file)) q = Loaded c ->
  exists a m, c = firstn a (content file) ++ firstn m (skipn a text).
Proof. exact one_save_seen. Qed.
Print Assumptions C65_one_save.

(** Who starts loading after the save began gets the new text or an error. *)
Theorem C65_started_later : forall P file l1 l2 p text q c, saves l1 = [] -> saves l2 = [] -> saved_text P text ->
  not_loading (happens l1 (at_rest file)) q ->
  y_jobs (happens (l1 ++ ECreate p text :: l2) (at_rest file)) q = Loaded c -> c = text \/ refused_text P c.
Proof. exact one_save_later. Qed.
Print Assumptions C65_started_later.

(** If every call transfers all there is then any number of processes can save and load at any time: the file, and whatever is loaded,
    is one of the texts saved or is refused. *)
Theorem C65_at_once : forall P file l,
  (forall c, file = Some c -> saved_text P c) -> (forall p t, In (p, t) (saves l) -> saved_text P t) ->
  at_once l (at_rest file) ->
  let y := happens l (at_rest file) in
  let known c := file = Some c \/ exists p, In (p, c) (saves l) in
  (forall c, y_file y = Some c -> known c \/ refused_text P c) /\
  (forall q c, y_jobs y q = Loaded c -> known c \/ refused_text P c).
Proof. exact overlap_at_once. Qed.
Print Assumptions C65_at_once.

(** * Two processes save at the same time *)

Definition start2 : list (nat * op) :=
  [(0, Restart); (0, Reset (bs "secret")); (0, SetStored (bs "a") (bs "n") [] (bs "p1")); (0, SetStored (bs "b") (bs "m") [] (bs "p2"));
   (1, Restart); (1, Unlock (bs "secret"))].
(** The text saved by a process. *)
Definition text_of (P : prims) (p : nat) (m : machine) : bytes := flush_text P (seen_by p m).
Definition with_file (f : option bytes) (m : machine) : machine := mk_machine (ma_procs m) f (ma_tick m) (ma_flushes m) (ma_rand m).
(** Process 0 changes the password of site a, process 1 that of site b to a long or a short one. *)
Definition change_a : op := SetStored (bs "a") (bs "n") [] (bs "p3").
Definition long_b : op := SetStored (bs "b") (bs "m") [] (bs "longer").
Definition short_b : op := SetStored (bs "b") (bs "m") [] (bs "p4").
(** What another process finds afterwards. *)
Definition look : list (nat * op) := [(2, Restart); (2, Unlock (bs "secret")); (2, Get (bs "a") (bs "n") []); (2, Get (bs "b") (bs "m") [])].

(** The shorter text is written last, over the longer one. *)
Definition clash (t1 t2 : bytes) : list event :=
  [ECreate 0 t1; ECreate 1 t2; EWrite 1 (length t2); EWrite 0 (length t1)].
(** The writes are in two pieces. *)
Definition crossing (t1 t2 : bytes) : list event :=
  [ECreate 0 t1; ECreate 1 t2; EWrite 1 648; EWrite 0 (length t1); EWrite 1 (length t2)].

(** Two calls, and the state after each. *)
Definition two_saves {A : Type} (P : prims) (o1 o2 : op) (k : machine -> out -> machine -> out -> machine -> A) : A :=
  weave P start2 new_machine (fun _ m => acting P 0 o1 m (fun r1 m1 => acting P 1 o2 m1 (fun r2 m2 => k m r1 m1 r2 m2))).
Lemma two_saves_eq {A : Type} P o1 o2 (k : machine -> out -> machine -> out -> machine -> A) :
  two_saves P o1 o2 k =
  let m := snd (interleave P start2 new_machine) in let m1 := snd (act P 0 o1 m) in let m2 := snd (act P 1 o2 m1) in
  k m (fst (act P 0 o1 m)) m1 (fst (act P 1 o2 m1)) m2.
Proof. unfold two_saves. rewrite weave_eq, acting_eq, acting_eq. reflexivity. Qed.

(** Both calls report success, but the file cannot be used any more: everything is lost. *)
Theorem C65_usable_refuted :
  ~ (forall P l0 m0 p q o1 o2 l, prims_ok P -> unused P m0 -> p <> q ->
       let m := snd (interleave P l0 m0) in let m1 := snd (act P p o1 m) in let m2 := snd (act P q o2 m1) in
       fst (act P p o1 m) = ODone -> fst (act P q o2 m1) = ODone ->
       let t1 := text_of P p m1 in let t2 := text_of P q m2 in
       let y := happens l (at_rest (ma_disk m)) in
       saves l = [(p, t1); (q, t2)] -> has_saved y p t1 -> has_saved y q t2 ->
       is_ok (load P (y_file y)) = true).
Proof.
  intros H. set (P := toy_release).
  assert (two_saves P change_a long_b (fun m r1 m1 r2 m2 =>
    let t1 := text_of P 0 m1 in let t2 := text_of P 1 m2 in let y := happens (clash t1 t2) (at_rest (ma_disk m)) in
    (r1, r2, is_ok (load P (y_file y)))) = (ODone, ODone, false)) as E by (vm_compute; reflexivity).
  rewrite two_saves_eq in E. cbv zeta in E. apply pair_equal_spec in E. destruct E as [E E3].
  apply pair_equal_spec in E. destruct E as [E1 E2].
  pose proof (fun l => H P start2 new_machine 0 1 change_a long_b l (toy_ok _ _) (new_unused _) ltac:(discriminate) E1 E2) as H'.
  clear H. cbv zeta in H'. set (m := snd (interleave P start2 new_machine)) in *. clearbody m.
  set (m1 := snd (act P 0 change_a m)) in *. set (m2 := snd (act P 1 long_b m1)) in *.
  set (t1 := text_of P 0 m1) in *. set (t2 := text_of P 1 m2) in *. clearbody t1 t2.
  specialize (H' (clash t1 t2) eq_refl).
  assert (forall f, let y := happens (clash t1 t2) (at_rest f) in has_saved y 0 t1 /\ has_saved y 1 t2) as Hs.
  { intros f. unfold has_saved, clash, happens. cbn. rewrite !firstn_all. cbn. rewrite ?firstn_all. split; reflexivity. }
  destruct (Hs (ma_disk m)) as [Hs1 Hs2]. specialize (H' Hs1 Hs2). rewrite E3 in H'. discriminate H'.
Qed.
Print Assumptions C65_usable_refuted.

(** If writing takes several calls then the file can be usable, and yet neither of the two changes is in it. *)
Theorem C65_one_change_remains_refuted :
  ~ (forall P l0 m0 l t, prims_ok P -> unused P m0 ->
       let m := snd (interleave P l0 m0) in
       let m1 := snd (act P 0 change_a m) in let m2 := snd (act P 1 short_b m1) in
       fst (act P 0 change_a m) = ODone -> fst (act P 1 short_b m1) = ODone ->
       let t1 := text_of P 0 m1 in let t2 := text_of P 1 m2 in
       let y := happens l (at_rest (ma_disk m)) in
       saves l = [(0, t1); (1, t2)] -> has_saved y 0 t1 -> has_saved y 1 t2 ->
       fst (interleave P look (with_file (y_file y) m2)) = ODone :: ODone :: t ->
       In (OText (bs "p3")) t \/ In (OText (bs "p4")) t).
Proof.
  intros H. set (P := toy_release).
  assert (two_saves P change_a short_b (fun m r1 m1 r2 m2 =>
    let t1 := text_of P 0 m1 in let t2 := text_of P 1 m2 in let y := happens (crossing t1 t2) (at_rest (ma_disk m)) in
    (r1, r2, weave P look (with_file (y_file y) m2) (fun rs _ => rs), length t1 =? length t2)) =
    (ODone, ODone, [ODone; ODone; OText (bs "p1"); OText (bs "p2")], true)) as E by (vm_compute; reflexivity).
  rewrite two_saves_eq in E. cbv zeta in E. rewrite weave_eq in E. apply pair_equal_spec in E. destruct E as [E E4].
  apply pair_equal_spec in E. destruct E as [E E3].
  apply pair_equal_spec in E. destruct E as [E1 E2].
  pose proof (fun l t => H P start2 new_machine l t (toy_ok _ _) (new_unused _) E1 E2) as H'.
  clear H. cbv zeta in H'. set (m := snd (interleave P start2 new_machine)) in *. clearbody m.
  set (m1 := snd (act P 0 change_a m)) in *. set (m2 := snd (act P 1 short_b m1)) in *.
  set (t1 := text_of P 0 m1) in *. set (t2 := text_of P 1 m2) in *. clearbody t1 t2.
  specialize (H' (crossing t1 t2) [OText (bs "p1"); OText (bs "p2")] eq_refl).
  assert (forall f, let y := happens (crossing t1 t2) (at_rest f) in has_saved y 0 t1 /\ has_saved y 1 t2) as Hs.
  { intros f. unfold has_saved. cbn -[Nat.min overwrite firstn skipn]. unfold crossing, happens.
    cbn -[overwrite firstn skipn Nat.add]. cbn [skipn Nat.add]. rewrite !firstn_all. split; [reflexivity|].
    f_equal. rewrite !firstn_length, !skipn_length. lia. }
  destruct (Hs (ma_disk m)) as [Hs1 Hs2]. specialize (H' Hs1 Hs2 E3).
  cbn in H'. intuition discriminate.
Qed.
Print Assumptions C65_one_change_remains_refuted.

(** * Loading during a save, in two pieces *)

(** The order of the entries in memory, and therefore in the file, changes from time to time. *)
Definition swap_last (l : list bytes) : list bytes :=
  match rev l with a :: b :: r => rev (b :: a :: r) | _ => l end.
Definition toy_order : prims := {|
  p_overflow_checks := false; p_hmac := p_hmac toy_release; p_seal := p_seal toy_release; p_open := p_open toy_release;
  p_scrypt := p_scrypt toy_release; p_random := p_random toy_release;
  p_order t m := if Nat.even t then (map_to_list m).*1 else swap_last (map_to_list m).*1;
  p_wild := p_wild toy_release; p_write _ := WriteOk; p_float_ok _ := true |}.
Lemma swap_last_perm l : swap_last l ≡ₚ l.
Proof.
  unfold swap_last. destruct (rev l) as [|a [|b r]] eqn:E; [reflexivity|reflexivity|].
  rewrite <- (rev_involutive l), E. rewrite <- !Permutation_rev. apply perm_swap.
Qed.
Lemma toy_order_ok : prims_ok toy_order.
Proof.
  destruct (toy_ok false (fun _ => WriteOk)). split; try assumption.
  intros t m. cbn [p_order toy_order]. destruct (Nat.even t); [reflexivity|apply swap_last_perm].
Qed.

(** What somebody loads during a save can be usable and lack an entry that was there before and is there afterwards. *)
Definition before_save : list op :=
  [Restart; Reset (bs "secret"); SetStored (bs "a") (bs "n") [] (bs "p1"); SetStored (bs "b") (bs "m") [] (bs "p2")].
Definition peek (old new : bytes) : list event :=
  [EOpen 1; ERead 1 648; ECreate 0 new; EWrite 0 (length new); ERead 1 (length old); ERead 1 1].
Definition entry_a : bytes :=
  bs "site:AWFhAAAAAAAAAAAAAAAAAAAAAAAAAAAAAAAAAAAAAAA=:AWFhAG4AAAAAAAAAAAAAAAAAAAAAAAAAAAAAAAAAAAA=".

Definition peeked (s : st) : out * bool * bool * bool :=
  let '(r, s') := exec toy_order short_b s in
  match y_jobs (happens (peek (content (s_disk s)) (flush_text toy_order s')) (at_rest (s_disk s))) 1 with
  | Loaded c => match load toy_order (Some c) with
                | Ok d => (r, io_contains (s_data s) entry_a, io_contains (s_data s') entry_a, io_contains d entry_a)
                | _ => (OPanic, false, false, true) end
  | _ => (OPanic, false, false, true)
  end.
Lemma peeked_eq : peeked (snd (run toy_order before_save start)) = (ODone, true, true, false).
Proof. rewrite <- (final_run toy_order before_save start peeked). vm_compute. reflexivity. Qed.
Lemma contains_some (d : kvmap) key : io_contains d key = true -> is_Some (d !! key).
Proof. unfold io_contains. destruct (d !! key); [eexists; reflexivity|discriminate]. Qed.
Lemma peeked_inv s : peeked s = (ODone, true, true, false) ->
  let s' := snd (exec toy_order short_b s) in
  exists l c d, fst (exec toy_order short_b s) = ODone /\ saves l = [(0, flush_text toy_order s')] /\
    y_jobs (happens l (at_rest (s_disk s))) 1 = Loaded c /\ load toy_order (Some c) = Ok d /\
    is_Some (s_data s !! entry_a) /\ is_Some (s_data s' !! entry_a) /\ ~ is_Some (d !! entry_a).
Proof.
  unfold peeked. destruct (exec toy_order short_b s) as [r s']. cbv zeta. cbn [fst snd].
  destruct (y_jobs _ 1) as [| | |c] eqn:Ey; try discriminate. destruct (load toy_order (Some c)) as [d| |] eqn:El; try discriminate.
  intros E. apply pair_equal_spec in E. destruct E as [E E4]. apply pair_equal_spec in E. destruct E as [E E3].
  apply pair_equal_spec in E. destruct E as [E1 E2]. exists (peek (content (s_disk s)) (flush_text toy_order s')), c, d.
  split; [exact E1|]. split; [reflexivity|]. split; [exact Ey|]. split; [exact El|].
  split; [apply contains_some, E2|]. split; [apply contains_some, E3|].
  intros [x Hx]. unfold io_contains in E4. rewrite Hx in E4. discriminate E4.
Qed.

Theorem C65_entry_seen_refuted :
  ~ (forall P l0 s0 o p q l c d key, prims_ok P -> fresh P s0 ->
       let s := snd (run P l0 s0) in let s' := snd (exec P o s) in
       fst (exec P o s) = ODone -> saves l = [(p, flush_text P s')] ->
       y_jobs (happens l (at_rest (s_disk s))) q = Loaded c -> load P (Some c) = Ok d ->
       is_Some (s_data s !! key) -> is_Some (s_data s' !! key) -> is_Some (d !! key)).
Proof.
  intros H. destruct (peeked_inv _ peeked_eq) as (l & c & d & H1 & H2 & H3 & H4 & H5 & H6 & H7).
  apply H7. exact (H toy_order before_save start short_b 0 1 l c d entry_a toy_order_ok (start_fresh _) H1 H2 H3 H4 H5 H6).
Qed.
Print Assumptions C65_entry_seen_refuted.

(** The hypotheses of the positive statements: a save while somebody loads, and two saves at once with somebody loading. *)
Definition one_entry (v : bytes) : st := mk_st {[bs "salt" := v]} None None None (Some (bs "{}")) 0 0 0.
Lemma one_entry_text v : utf8 v = true -> saved_text toy_release (flush_text toy_release (one_entry v)).
Proof.
  intros Hv. exists (one_entry v). split; [|reflexivity]. intros k x. cbn [s_data one_entry].
  rewrite lookup_singleton_Some. intros [<- <-]. split; [reflexivity|exact Hv].
Qed.
Definition small : bytes := flush_text toy_release (one_entry (bs "x")).
Definition large : bytes := flush_text toy_release (one_entry (bs "yy")).
Definition one_saving : list event := [ECreate 0 large; EWrite 0 10; EOpen 1; ERead 1 30; EOpen 2; ERead 2 4; ERead 1 30; EWrite 0 1000;
   ERead 2 100; ERead 2 100].
Definition both_saving : list event :=
  [EOpen 2; ERead 2 1000; ECreate 0 small; ECreate 1 large; EWrite 1 1000; EOpen 3; ERead 3 1000; ERead 3 1000; EWrite 0 1000; ERead 2 1000; ERead 2 1000].
Definition received (y : sys) (q : nat) : option bytes := match y_jobs y q with Loaded c => Some c | _ => None end.
Example C65_example :
  saves one_saving = [(0, large)] /\ not_loading (happens [] (at_rest None)) 1 /\
  (let y := happens one_saving (at_rest None) in has_saved y 0 large /\ received y 1 = Some (firstn 10 large) /\ received y 2 = Some large) /\
  saved_text toy_release small /\ saved_text toy_release large /\
  at_once both_saving (at_rest (Some small)) /\
  (let y := happens both_saving (at_rest (Some small)) in
   y_file y = Some (small ++ bs "}") /\ received y 3 = Some large /\ received y 2 = Some (small ++ bs "}") /\
   match load toy_release (y_file y) with Err InvalidJson => True | _ => False end).
Proof.
  split; [reflexivity|]. split; [exact I|]. split; [vm_compute; auto|]. split; [apply one_entry_text; reflexivity|].
  split; [apply one_entry_text; reflexivity|]. split; [|vm_compute; auto].
  vm_compute. repeat split; lia.
Qed.

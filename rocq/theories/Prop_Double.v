(** C82: the storage used by the unit tests stands for the storage file. *)
From stdpp Require Import gmap.
From Verif Require Import M_Base M_Utf8 M_Prims M_Types M_Json M_Serde M_Storage M_Double S_Double P_Base P_File P_Double S_Vault M_Passwords M_History P_Client T_Toy T_History.

(** As long as the file can be written: code that is generic in the storage gets the same results from [MemoryIO] as from
    [FileIO], if both maps are iterated in the same order or the order does not matter to it, and both hold the same in the end. *)
Theorem C82_results : forall (A : Type) P order (c : client A), prims_ok P -> (forall n, p_write P n = WriteOk) ->
  (forall n d, order n d ≡ₚ (map_to_list d).*1) ->
  (forall n d, order n d = p_order P n d) \/ orderless c ->
  forall m s, holds_same m s ->
  fst (with_memory order c m) = fst (with_file P c s) /\ holds_same (snd (with_memory order c m)) (snd (with_file P c s)).
Proof. exact @same_answers. Qed.
Print Assumptions C82_results.

(** What [MemoryIO] keeps as its "file" is what is loaded from the real one. *)
Theorem C82_saved : forall (A : Type) P order (c : client A), prims_ok P -> (forall n, p_write P n = WriteOk) ->
  (forall n d, order n d ≡ₚ (map_to_list d).*1) ->
  (forall n d, order n d = p_order P n d) \/ orderless c -> sets_texts c ->
  forall m s, holds_same m s -> (forall k v, s_data s !! k = Some v -> utf8 k = true /\ utf8 v = true) -> saved_same P m s ->
  saved_same P (snd (with_memory order c m)) (snd (with_file P c s)).
Proof. intros A P order c HP Hw Ho Hc Hs m s Hm Hx Hl. exact (proj1 (same_saves P order c HP Hw Ho Hc Hs m s Hm Hx Hl)). Qed.
Print Assumptions C82_saved.

(** So it is after the first save, whatever was in the file before (nothing at all for [FileIO::new]). *)
Theorem C82_first_save : forall P m s, prims_ok P -> p_write P (s_flushes s) = WriteOk -> holds_same m s ->
  (forall k v, s_data s !! k = Some v -> utf8 k = true /\ utf8 v = true) ->
  saved_same P (snd (memory_flush m)) (snd (flush P s)).
Proof. exact saved_now. Qed.
Print Assumptions C82_first_save.

(** So a test that starts with [MemoryIO::new] behaves like a process that starts with a file of these entries. The order of
    the keys is that of the process, or does not matter. *)
Theorem C82_new : forall (A : Type) P order (c : client A) s d, prims_ok P -> (forall n, p_write P n = WriteOk) ->
  (forall n d, order n d ≡ₚ (map_to_list d).*1) -> load P (s_disk s) = Ok d ->
  (forall n d, order n d = p_order P (S (s_tick s) + n) d) \/ orderless c -> sets_texts c ->
  let m' := snd (with_memory order c (memory_new d)) in
  let s' := snd (with_file P c (snd (exec P Restart s))) in
  fst (with_memory order c (memory_new d)) = fst (with_file P c (snd (exec P Restart s))) /\
  m_data m' = s_data s' /\ load P (s_disk s') = Ok (m_file_data m').
Proof. exact @started_same. Qed.
Print Assumptions C82_new.

(** The library: any sequence of calls of one instance is such code. It may be written in several ways, but each that behaves
    like the library with [FileIO] gives with [MemoryIO] the results of the library with [FileIO], and leaves the same data; if all
    it sets is text, then also the same in the file. *)
Theorem C82_library : forall P, prims_ok P -> (forall n, p_write P n = WriteOk) -> forall l, Forall (fun o => o <> Restart) l ->
  (exists c : owned -> client (list out * owned), (forall s, run P l s = library P c s) /\ forall a, sets_texts (c a)) /\
  forall c : owned -> client (list out * owned), (forall s, run P l s = library P c s) ->
  forall m s, holds_same m s ->
    let end_ := with_memory (p_order P) (c (owned_of s)) m in
    fst (fst end_) = fst (run P l s) /\ m_data (snd end_) = s_data (snd (run P l s)) /\
    ((forall a, sets_texts (c a)) -> (forall k v, s_data s !! k = Some v -> utf8 k = true /\ utf8 v = true) -> saved_same P m s ->
     load P (s_disk (snd (run P l s))) = Ok (m_file_data (snd end_))).
Proof. exact tests_stand_for. Qed.
Print Assumptions C82_library.

(** A unit test of the library, with [MemoryIO::new] and [Passwords::new], is a process that starts with a file of these
    entries: the same results, the same data in memory and in the file. *)
Theorem C82_test : forall P l s d, prims_ok P -> (forall n, p_write P n = WriteOk) -> Forall (fun o => o <> Restart) l ->
  load P (s_disk s) = Ok d ->
  forall c : owned -> client (list out * owned), (forall s, run P l s = library P c s) -> (forall a, sets_texts (c a)) ->
  let process := run P (Restart :: l) s in
  let test := with_memory (fun n => p_order P (S (s_tick s) + n)) (c (mk_owned None None None (s_rand s))) (memory_new d) in
  fst process = ODone :: fst (fst test) /\ s_data (snd process) = m_data (snd test) /\ load P (s_disk (snd process)) = Ok (m_file_data (snd test)).
Proof. exact test_is_process. Qed.
Print Assumptions C82_test.

Definition ex_calls : list op :=
  [Reset (bs "secret"); SetAlias (bs "b") (bs "a"); SetStored (bs "b") (bs "n") [] (bs "p1"); Get (bs "a") (bs "n") []; ListSites (bs "*"); Remove (bs "c") (bs "n") []].
Example C82_library_example :
  Forall (fun o => o <> Restart) ex_calls /\ holds_same (memory_new (s_data start)) start /\
  fst (run toy_release ex_calls start) =
    [ODone; ODone; ODone; OText (bs "p1"); OSites [(bs "a", None); (bs "b", Some (bs "a"))]; OErr KeyMissing] /\
  fst (fst (with_memory (p_order toy_release)
    (proj1_sig (run_client toy_release (toy_ok _ _) ex_calls ltac:(repeat constructor; discriminate)) (owned_of start)) (memory_new (s_data start)))) =
    [ODone; ODone; ODone; OText (bs "p1"); OSites [(bs "a", None); (bs "b", Some (bs "a"))]; OErr KeyMissing].
Proof.
  split; [repeat constructor; discriminate|]. split; [split; reflexivity|]. split; vm_compute; reflexivity.
Qed.

(** Tests with [MemoryIO] cannot show what happens when the file cannot be written. *)
Theorem C82_failures_refuted :
  ~ (forall (A : Type) P order (c : client A), prims_ok P ->
       (forall n d, order n d = p_order P n d) -> orderless c ->
       forall m s, holds_same m s -> fst (with_memory order c m) = fst (with_file P c s)).
Proof.
  intros H. pose (P := toy false (fun _ => OpenFails)).
  specialize (H (res unit) P (p_order P) (SaveAll Finish) (toy_ok _ _) (fun _ _ => eq_refl) (fun _ => I)
    (memory_new ∅) (mk_st ∅ None None None None 0 0 0) (conj eq_refl eq_refl)).
  discriminate H.
Qed.
Print Assumptions C82_failures_refuted.

(** A client that sets two values, drops one that is not there, saves, clears, and counts the keys in between. *)
Definition ex_client : client (res unit * res unit * nat * res bytes) :=
  SetValue (bs "salt") (bs "abc") (SetValue (bs "site:x") (bs "d""e") (DropValue (bs "y") (fun r1 => SaveAll (fun r2 =>
    AllKeys (fun l => GetValue (bs "site:x") (fun v => ClearAll (Finish (r1, r2, length l, v)))))))).
Example C82_example :
  sets_texts ex_client /\ orderless ex_client /\
  let m := memory_new ∅ in let s := mk_st ∅ None None None None 0 0 0 in
  holds_same m s /\
  fst (with_file toy_release ex_client s) = (Err KeyMissing, Ok tt, 2, Ok (bs "d""e")) /\
  fst (with_memory (fun _ d => rev (map fst (map_to_list d))) ex_client m) = (Err KeyMissing, Ok tt, 2, Ok (bs "d""e")) /\
  match load toy_release (s_disk (snd (with_file toy_release ex_client s))) with Ok d => size d | _ => 0 end = 2 /\
  size (m_file_data (snd (with_memory (fun _ d => rev (map fst (map_to_list d))) ex_client m))) = 2.
Proof.
  split; [cbn; repeat split|]. split.
  - cbn. repeat split. intros l l' H. rewrite (Permutation_length H). reflexivity.
  - split; [split; reflexivity|]. repeat split; vm_compute; reflexivity.
Qed.

(** Started from the file that [ex_client] has written: what is dropped and not saved stays in both files. *)
Definition ex_reader : client (res bytes * res unit) :=
  GetValue (bs "site:x") (fun v => DropValue (bs "salt") (fun r => Finish (v, r))).
Example C82_new_example :
  let s := snd (with_file toy_release ex_client (mk_st ∅ None None None None 0 0 0)) in
  sets_texts ex_reader /\ orderless ex_reader /\
  match load toy_release (s_disk s) with
  | Ok d =>
      let m := with_memory (fun _ d => rev (map fst (map_to_list d))) ex_reader (memory_new d) in
      size d = 2 /\ fst m = (Ok (bs "d""e"), Ok tt) /\ size (m_data (snd m)) = 1 /\ size (m_file_data (snd m)) = 2 /\
      fst (with_file toy_release ex_reader (snd (exec toy_release Restart s))) = (Ok (bs "d""e"), Ok tt)
  | _ => False
  end.
Proof. split; [cbn; repeat split|]. split; [cbn; repeat split|]. vm_compute. repeat split. Qed.

(** A test that starts with the entries saved by [ex_calls]. *)
Definition ex_test : list op := [Unlock (bs "secret"); Get (bs "a") (bs "n") []; SetStored (bs "a") (bs "m") [] (bs "p2"); Remove (bs "a") (bs "n") []].
Example C82_test_example :
  let s := snd (run toy_release ex_calls start) in
  Forall (fun o => o <> Restart) ex_test /\
  fst (run toy_release (Restart :: ex_test) s) = [ODone; ODone; OText (bs "p1"); ODone; ODone] /\
  match load toy_release (s_disk s) with
  | Ok d =>
      let test := with_memory (fun n => p_order toy_release (S (s_tick s) + n))
        (proj1_sig (run_client toy_release (toy_ok _ _) ex_test ltac:(repeat constructor; discriminate)) (mk_owned None None None (s_rand s))) (memory_new d) in
      fst (fst test) = [ODone; OText (bs "p1"); ODone; ODone] /\ size d = 5 /\ size (m_file_data (snd test)) = 5
  | _ => False
  end.
Proof. split; [repeat constructor; discriminate|]. split; vm_compute; repeat split. Qed.

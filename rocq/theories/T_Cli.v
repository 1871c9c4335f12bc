(** A concrete terminal and concrete external functions, for examples. *)
From stdpp Require Import gmap.
From Verif Require Import M_Base M_Utf8 M_Prims M_Types M_Storage M_Passwords S_Vault M_History S_Api S_History M_Cli S_Cli T_Toy T_History.

Definition toy_parse (line : bytes) : shell_line :=
  if bytes_eqb line (bs "exit") then SExit
  else if bytes_eqb line (bs "lock") then SLock
  else if bytes_eqb line (bs "show") then SCommand (Show (bs "a") (bs "n") [] false)
  else if bytes_eqb line (bs "remove") then SCommand (RemoveCmd (bs "a") (bs "n") [])
  else if bytes_eqb line (bs "set-primary") then SCommand (SetPrimary true)
  else if bytes_eqb line (bs "shell") then SCommand Shell
  else SError (Text (bs "unknown")).
Definition toy_ext : externals := mk_ext (fun p => if length p <=? 8 then Some (mk_qr 3 Nat.eqb) else None) toy_parse.
Lemma toy_ext_valid : externals_valid toy_ext.
Proof.
  intros line c. cbn [e_parse toy_ext]. unfold toy_parse.
  destruct (bytes_eqb line (bs "exit")); [discriminate|]. destruct (bytes_eqb line (bs "lock")); [discriminate|].
  destruct (bytes_eqb line (bs "show")); [intros [= <-]; repeat split|].
  destruct (bytes_eqb line (bs "remove")); [intros [= <-]; repeat split|].
  destruct (bytes_eqb line (bs "set-primary")); [intros [= <-]; exact I|].
  destruct (bytes_eqb line (bs "shell")); [intros [= <-]; exact I|]. discriminate.
Qed.

(** What will be typed: as secrets, as answers to yes/no questions, as answers to other questions, as commands. *)
Record typing : Type := mk_typing {
  ty_stdin : bytes; ty_secrets : list (option bytes); ty_confirms : list answer; ty_asks : list (option answer); ty_lines : list readline
}.
Definition typed (y : typing) (s : st) : term :=
  mk_term s (ty_stdin y) (ty_secrets y) (ty_confirms y) (ty_asks y) (ty_lines y) [] [] [].
Definition secrets_only (l : list bytes) : typing := mk_typing [] (map Some l) [] [] [].
Definition no_typing : typing := secrets_only [].

(** A function of the program after some calls. *)
Definition doing {A B : Type} (P : prims) (l : list op) (y : typing) (c : C A) (k : cres A -> term -> B) : B :=
  final P l start (fun s => let '(r, t) := c (typed y s) in k r t).
Lemma doing_eq {A B : Type} P l y (c : C A) (k : cres A -> term -> B) :
  doing P l y c k = let '(r, t) := c (typed y (snd (run P l start))) in k r t.
Proof. apply (final_run P l start (fun s => let '(r, t) := c (typed y s) in k r t)). Qed.

(** A process after some calls. *)
Definition running {B : Type} (P : prims) (l : list op) (y : typing) (a : args) (k : exit -> term -> B) : B :=
  final P l start (fun s => let '(x, t) := main P toy_ext (bs "path") a (typed y s) in k x t).
Lemma running_eq {B : Type} P l y a (k : exit -> term -> B) :
  running P l y a k = let '(x, t) := main P toy_ext (bs "path") a (typed y (snd (run P l start))) in k x t.
Proof. apply (final_run P l start (fun s => let '(x, t) := main P toy_ext (bs "path") a (typed y s) in k x t)). Qed.

Definition check_ready (s : st) : bool := initialized s && unlocked s.
Lemma typed_ready P l y : final P l start check_ready = true -> ready (typed y (snd (run P l start))).
Proof.
  rewrite final_run. unfold check_ready. rewrite andb_true_iff. intros [H1 H2]. repeat split; assumption.
Qed.

(** Checking that no alias leads to an alias. *)
Definition check_chains (v : vault) : bool :=
  forallb (fun '(_, a) => match a with Some b => match v_sites v !! b with Some (Some _) => false | _ => true end | None => true end)
    (map_to_list (v_sites v)).
Lemma check_chains_ok v : check_chains v = true -> forall P domain, chains_match P v domain.
Proof.
  intros H P domain x a b Hx Ha _. unfold check_chains in H. rewrite forallb_forall in H.
  assert (In (x, Some a) (map_to_list (v_sites v))) as Hin by (apply elem_of_list_In, elem_of_map_to_list, Hx).
  specialize (H _ Hin). cbn in H. rewrite Ha in H. discriminate H.
Qed.
Lemma chains_saved P l : (forall n, p_write P n = WriteOk) ->
  match w_mem (fst (vrun P (repeat Saved (length l)) nothing l)) with Some (_, v) => check_chains v | None => true end = true ->
  forall wrs pp v, writes_ok P l wrs start -> w_mem (fst (vrun P wrs nothing l)) = Some (pp, v) -> forall domain, chains_match P v domain.
Proof.
  intros HP H wrs pp v Hw Hm. rewrite (P_Sound.saved_writes P l HP wrs start Hw) in Hm. rewrite Hm in H. apply check_chains_ok, H.
Qed.

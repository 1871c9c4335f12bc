(** Vocabulary for statements about a machine with several storage files. *)
From stdpp Require Import gmap.
From Verif Require Import M_Base M_Utf8 M_Prims M_Types M_Storage M_Passwords S_Vault M_History S_Api S_History M_Cli S_Cli M_Args S_Args M_Files S_Files M_Machine.

Section machine.
Context (cwd root : fpath).

(** This use of the program is for the storage file [p], with the command [c]. *)
Definition uses (u : usage) (p : fpath) (c : command) : Prop :=
  exists storage stdin wait, command_line (u_words u) storage stdin wait c /\
    p = match storage with Some text => resolve cwd text | None => default_storage_path root end.
(** The history file for this command line. *)
Definition history_for (words : list bytes) (h : fpath) : Prop :=
  exists ws l0 rest l, words = ws ++ bs "shell" :: rest /\ options_only general_table ws l0 /\
    arranged [value_entry "s" (bs "history")] rest l [] /\ List.NoDup (map fst l) /\
    ((exists text, In (bs "history", Some text) l /\ h = resolve cwd text) \/
     (~ In (bs "history") (map fst l) /\ h = default_history_path root)).
(** This use of the program may save the history of a shell to [h]. *)
Definition keeps_history (u : usage) (h : fpath) : Prop := u_history u <> None /\ history_for (u_words u) h.
(** A call of the library that uses of [p] among [l] may make. *)
Definition call_for (E : externals) (p : fpath) (l : list usage) (o : op) : Prop :=
  op_valid o /\ (o = Restart \/ o = Lock \/ exists u c, In u l /\ uses u p c /\ session_calls E c o).
(** What may happen to [q] when the program is used like this: nothing, or a directory for a storage file is created, or
    the file is a storage file or a history file and is written. *)
Definition kept (l : list usage) (fs fs' : files) (q : fpath) : Prop :=
  fs' !! q = fs !! q \/
  (fs !! q = None /\ fs' !! q = Some Dir /\ exists u p c, In u l /\ uses u p c /\ ~ looks c /\ above q p) \/
  (fs !! q <> Some Dir /\ (exists text, fs' !! q = Some (File text)) /\
   exists u, In u l /\ ((exists c, uses u q c /\ ~ looks c) \/ keeps_history u q)).

(** The files used otherwise are elsewhere: not [p], not above [p], and [p] is not above them. *)
Definition elsewhere (p : fpath) (u : usage) : Prop :=
  (forall q c, uses u q c -> q <> p -> ~ above q p /\ ~ above p q) /\ (forall h, keeps_history u h -> h <> p /\ ~ above h p).
(** The same uses of [p] in the same order, with any others in between. *)
Inductive same_uses (p : fpath) : list usage -> list usage -> Prop :=
| su_nil : same_uses p [] []
| su_left u l l' : (forall c, ~ uses u p c) -> same_uses p l l' -> same_uses p (u :: l) l'
| su_right u l l' : (forall c, ~ uses u p c) -> same_uses p l l' -> same_uses p l (u :: l')
| su_both u l l' : same_uses p l l' -> same_uses p (u :: l) (u :: l').
(** Nothing prevents saving [p]. *)
Definition way_clear (p : fpath) (fs : files) : Prop :=
  tree fs /\ (forall q t, above q p -> fs !! q <> Some (File t)) /\ fs !! p <> Some Dir.
(** The same as far as [p] is concerned. *)
Definition same_at (p : fpath) (m m' : machine) : Prop :=
  m_state m p = m_state m' p /\ read (m_files m) p = s_disk (m_state m p) /\ read (m_files m') p = s_disk (m_state m p) /\
  forall k, k < s_flushes (m_state m p) -> m_past m p k = m_past m' p k.

(** Words are strings, and so is what is typed. *)
Definition usage_valid (u : usage) : Prop := Forall (fun w => utf8 w = true) (u_words u) /\ typed_valid (u_term u).
End machine.

(** Names of files and directories. *)
Definition names (l : list bytes) : Prop := Forall (fun c => c <> [] /\ c <> bs "." /\ ~ In "/"%byte c) l.

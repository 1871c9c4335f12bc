(** Histories in which somebody else changes the file (C52). *)
From stdpp Require Import gmap.
From Verif Require Import M_Base M_Prims M_Types M_Crypto M_Storage M_Passwords S_Vault M_History S_Api S_History.

(** A call, or the file being replaced by anything at all. *)
Inductive happening : Type := Call (o : op) | Rewritten (file : option bytes).

Definition happens (P : prims) (e : happening) (s : st) : st :=
  match e with
  | Call o => snd (exec P o s)
  | Rewritten file =>
      mk_st (s_data s) (s_key s) (s_hmac s) (s_primary s) file (s_tick s) (s_flushes s) (s_rand s)
  end.
Fixpoint later (P : prims) (l : list happening) (s : st) : st :=
  match l with [] => s | e :: l' => later P l' (happens P e s) end.

(** Call [o] puts the value [c] somewhere, using [key]. (A [reset] that fails leaves values encrypted with a
    key that is not in use.) *)
Definition puts (P : prims) (o : op) (s : st) (key c : bytes) : Prop :=
  s_key (snd (exec P o s)) = Some key /\ (is_reset o = true -> fst (exec P o s) = ODone) /\
  exists slot, s_data (snd (exec P o s)) !! slot = Some c /\ s_data s !! slot <> Some c.

(** Nobody can forge: whatever the data contains, if it can be decrypted with the key in use then it has been
    put there by an earlier call using the same key. *)
Definition unforged (P : prims) (l : list happening) (s0 : st) : Prop :=
  forall l1 l2 key slot c m, l = l1 ++ l2 ->
    s_key (later P l1 s0) = Some key -> s_data (later P l1 s0) !! slot = Some c -> decrypt_data P c key = Ok m ->
    exists l0 o l3, l1 = l0 ++ Call o :: l3 /\ puts P o (later P l0 s0) key c.

(** A call with property [Q] has been performed with this key. *)
Definition once (P : prims) (l : list happening) (s0 : st) (key : bytes) (Q : st -> op -> Prop) : Prop :=
  exists l1 o l2, l = l1 ++ Call o :: l2 /\ s_key (snd (exec P o (later P l1 s0))) = Some key /\
    performed (fst (exec P o (later P l1 s0))) /\ Q (later P l1 s0) o.

Definition sets_entry (P : prims) (i : pid) (x : secret) (s : st) (o : op) : Prop :=
  match o with
  | SetGenerated y n r len cs => i = (resolved P s y, n, rev_of r) /\ x = SGenerated len cs
  | SetStored y n r t => i = (resolved P s y, n, rev_of r) /\ x = SFixed t
  | _ => False
  end.
Definition sets_notes (t : bytes) (_ : st) (o : op) : Prop := exists y n r, o = SetNotes y n r t.
Definition sets_site (P : prims) (x : bytes) (a : option bytes) (s : st) (o : op) : Prop :=
  match o with
  | SetAlias y b => x = host y /\ a = Some (resolved P s b)
  | SetGenerated y _ _ _ _ | SetStored y _ _ _ => x = resolved P s y /\ a = None
  | _ => False
  end.

(** An entry the user once made, with notes the user once wrote. *)
Definition genuine (P : prims) (l : list happening) (s0 : st) (key : bytes) (i : pid) (e : entry) : Prop :=
  once P l s0 key (sets_entry P i (e_secret e)) /\ (e_notes e = [] \/ once P l s0 key (sets_notes (e_notes e))).

(** Texts of calls are valid (the file can be anything). *)
Definition happening_valid (e : happening) : Prop := match e with Call o => op_valid o | Rewritten _ => True end.

(** Several abstract vaults in front of one file. *)
From stdpp Require Import gmap.
From Verif Require Import M_Base M_Utf8 M_Prims M_Types M_Storage M_Passwords S_Vault M_History S_Api S_History M_Processes M_Cli.

(** Each process has a primary password with a vault, or nothing, and is open or not; all share a file. *)
Record vaults : Type := mk_vaults {
  vs_procs : nat -> option (bytes * vault) * bool;
  vs_file : option (bytes * vault)
}.
Definition no_vaults : vaults := mk_vaults (fun _ => (None, false)) None.

(** A call is a step of the vault of C23 in front of the shared file. *)
Definition vact (P : prims) (wr : write) (x : vaults) (p : nat) (o : op) : vaults * out :=
  let '(mem, opened) := vs_procs x p in
  let '(w, r) := vstep P wr (mk_world mem opened (vs_file x)) o in
  (mk_vaults (fun q => if q =? p then (w_mem w, w_open w) else vs_procs x q) (w_file w), r).
Fixpoint vinterleave (P : prims) (wrs : list write) (x : vaults) (l : list (nat * op)) : vaults * list out :=
  match l, wrs with
  | (p, o) :: l', wr :: wrs' =>
      let '(x1, r) := vact P wr x p o in
      let '(x2, rs) := vinterleave P wrs' x1 l' in
      (x2, r :: rs)
  | _, _ => (x, [])
  end.

(** Like [sound]. *)
Record sound_all (P : prims) (sc : scope) (l : list (nat * op)) (m : machine) : Prop := {
  sa_prims : prims_ok P;
  sa_unused : unused P m;
  sa_sites : forall x, In x (sc_sites sc) -> utf8 x = true;
  sa_ids : forall n r, In (n, r) (sc_ids sc) -> utf8 n = true /\ utf8 r = true /\ ~ In x00 n;
  sa_covered : Forall (fun '(_, o) => covered sc o) l;
  sa_calm : calm_all P l m;
  sa_assumptions : assumptions P (sc_sites sc) (sc_ids sc) (sc_pws sc) (ma_rand (snd (interleave P l m)))
}.

(** The calls and results of one process. *)
Definition calls_of (p : nat) (l : list (nat * op)) : list (nat * op) := List.filter (fun '(q, _) => q =? p) l.
Fixpoint outs_of (p : nat) (l : list (nat * op)) (rs : list out) : list out :=
  match l, rs with
  | (q, _) :: l', r :: rs' => if q =? p then r :: outs_of p l' rs' else outs_of p l' rs'
  | _, _ => []
  end.

(** Nobody else makes a call until a process is done: whoever makes a call after somebody else starts with it. *)
Fixpoint one_at_a_time (p : nat) (l : list (nat * op)) : Prop :=
  match l with
  | [] => True
  | (q, o) :: l' => (q = p \/ o = Restart) /\ one_at_a_time q l'
  end.

(** Results that differ at most in the order of lists and in recovery codes: both are as one description says. *)
Definition same_result (P : prims) (r r' : out) : Prop := exists e, agrees P r e /\ agrees P r' e.

(** Somebody else changes the file while a command is at work. *)
Definition meanwhile (d : option bytes) (t : term) : term :=
  let s := t_st t in
  with_st (mk_st (s_data s) (s_key s) (s_hmac s) (s_primary s) d (s_tick s) (s_flushes s) (s_rand s)) t.

(** Vocabulary for statements about moments in the life of a process. *)
From stdpp Require Import gmap.
From Verif Require Import M_Base M_Utf8 M_Prims M_Types M_Recovery M_Json M_Storage M_Passwords S_Vault M_History S_Api M_Cli S_Cli M_Steps.

(** What a process says when it has made a change. *)
Definition confirms (path : bytes) (o : op) (line : bytes) : Prop :=
  match o with
  | SetGenerated _ _ _ _ _ | SetStored _ _ _ _ => line = bs "Password added." ++ [newline]
  | Remove _ _ _ => line = bs "Password removed." ++ [newline]
  | SetNotes _ _ _ [] => line = bs "Notes removed." ++ [newline]
  | SetNotes _ _ _ _ => line = bs "Notes stored." ++ [newline]
  | SetAlias _ _ => line = bs "Alias added." ++ [newline]
  | RemoveAlias _ => line = bs "Alias removed." ++ [newline]
  | Reset _ => line = bs "New primary password set for " ++ path ++ bs "." ++ [newline]
  | _ => False
  end.
Definition confirmation (path line : bytes) : Prop := exists o, confirms path o line.

(** Texts that ask for secrets. *)
Definition prompt (text : bytes) : Prop :=
  text = bs "Your primary password: " \/ text = bs "Password to be stored: " \/
  text = bs "New primary password: " \/ text = bs "Repeat primary password: ".
(** Since [t] nothing but such texts was printed. *)
Definition only_prompts (t t' : term) : Prop :=
  t_buf t' = [] /\ exists l, Forall prompt l /\ t_shown t' = t_shown t ++ concat l.

(** What is in the file if the process is stopped at this moment: what was there before, or, if it is stopped within a
    call of the library that writes the file, some initial part of the text being written. *)
Definition stopped (P : prims) (pt : point) (d : option bytes) : Prop :=
  let s0 := t_st (pt_term pt) in
  d = s_disk s0 \/
  exists s p q, pt_next pt = Calls s /\ s_flushes s <> s_flushes s0 /\ flush_text P s = p ++ q /\ d = Some p /\
    match p_write P (s_flushes s0) with WriteOk => True | WriteFailsAfter n => length p <= n | _ => False end.
(** The file was being written, but not completely. *)
Definition torn (P : prims) (pt : point) (d : option bytes) : Prop :=
  exists s p q, pt_next pt = Calls s /\ s_flushes s <> s_flushes (t_st (pt_term pt)) /\ flush_text P s = p ++ q /\ q <> [] /\ d = Some p.

(** Commands that change something and say so. *)
Definition tells (c : command) : Prop :=
  match c with
  | SetPrimary _ | Add _ _ _ _ _ _ _ _ _ | AddStored _ _ _ _ _ | RemoveCmd _ _ _ | Alias _ (Some _) _ | Alias _ None true => True
  | _ => False
  end.

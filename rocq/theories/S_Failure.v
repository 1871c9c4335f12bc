(** Vocabulary for statements about calls and processes that fail. *)
From stdpp Require Import gmap.
From Verif Require Import M_Base M_Prims M_Types M_Storage M_Passwords S_Vault M_History S_Api M_Cli S_Cli.

(** The errors of writing the file. *)
Definition write_error (e : error) : bool :=
  match e with CreateDirFailure | FileWriteFailure => true | _ => false end.

Definition is_remove_sites (o : op) : bool := match o with RemoveSites _ => true | _ => false end.

(** The data without the entries of these sites. *)
Definition without (P : prims) (h : bytes) (l : list bytes) (d d' : kvmap) : Prop :=
  forall slot, (In slot (map (fun x => get_site_key P x h) l) -> d' !! slot = None) /\
               (~ In slot (map (fun x => get_site_key P x h) l) -> d' !! slot = d !! slot).

(** The file was not touched. *)
Definition file_untouched (s s' : st) : Prop := s_disk s' = s_disk s /\ s_flushes s' = s_flushes s.

(** The file is untouched, or written once: successfully if the outcome is a success, and otherwise the
    error of writing is reported. *)
Definition written_once {A} (P : prims) (s : st) (r : cres A) (s' : st) : Prop :=
  file_untouched s s' \/
  (s_flushes s' = S (s_flushes s) /\
   match r with
   | COk _ => p_write P (s_flushes s) = WriteOk
   | CErr m => p_write P (s_flushes s) <> WriteOk /\ exists e, m = Lib e /\ write_error e = true
   | _ => False
   end).

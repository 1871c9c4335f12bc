(** Saves and loads that overlap in time: notions for the claims about M_Syscalls. *)
From stdpp Require Import gmap.
From Verif Require Import M_Base M_Utf8 M_Prims M_Storage M_Syscalls.

(** A text that a process with these data saves. *)
Definition saved_text (P : prims) (t : bytes) : Prop :=
  exists s, (forall k v, s_data s !! k = Some v -> utf8 k = true /\ utf8 v = true) /\ t = flush_text P s.

(** The save of process [p] is complete: every byte was written. *)
Definition has_saved (y : sys) (p : nat) (text : bytes) : Prop := y_jobs y p = Saving text (length text).

(** Only process [p] saves, and only once. *)
Fixpoint saves (l : list event) : list (nat * bytes) :=
  match l with
  | [] => []
  | ECreate p text :: l' => (p, text) :: saves l'
  | _ :: l' => saves l'
  end.

(** Every [write] takes all that is left and every [read] gets all that is there. *)
Fixpoint at_once (l : list event) (y : sys) : Prop :=
  match l with
  | [] => True
  | e :: l' =>
      match e with
      | EWrite p n => match y_jobs y p with Saving text pos => length text <= n | _ => True end
      | ERead p n => match y_file y with Some file => length file <= n | None => True end
      | _ => True
      end /\ at_once l' (happen e y)
  end.

(** A load cut short or spoiled is noticed: the file is refused, so that the program reports an error. *)
Definition refused_text (P : prims) (c : bytes) : Prop :=
  load P (Some c) = Err FileReadFailure \/ load P (Some c) = Err InvalidJson.
Definition not_loading (y : sys) (q : nat) : Prop :=
  match y_jobs y q with Loading _ | Loaded _ => False | _ => True end.
Definition content (file : option bytes) : bytes := match file with Some c => c | None => [] end.

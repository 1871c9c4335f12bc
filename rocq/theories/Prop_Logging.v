(** C83: the allocator that logs where memory was allocated. *)
From stdpp Require Import gmap.
From Verif Require Import M_Base M_Logging S_Logging P_Logging.

(** Although the allocator needs memory itself, no call of it goes on for ever, and writing the log does not wait for a mutex
    that is never unlocked: every program comes to an end, with blocks for all its requests and the log in a file, in one way only. *)
Theorem C83_ends : forall E before during,
  exists old ps create t h, length ps = asked during /\
    forall old' ps' create' file' h', program E before during old' ps' create' file' h' <->
      old' = old /\ ps' = ps /\ create' = create /\ file' = Some t /\ h' = h.
Proof. intros E before during. eexists. exact (program_ends E before during). Qed.
Print Assumptions C83_ends.

(** The log names the blocks the program has got since [init_allocator], then those used for creating the file: each once, in this
    order, in hexadecimal digits without leading zeros, with the backtrace made for it. The blocks the allocator takes for itself are not
    in the log. *)
Theorem C83_log : forall E before during old ps create file h, program E before during old ps create file h ->
  exists t, file = Some t /\ log_of (made_for E (h_used h)) (ps ++ create) t.
Proof. exact program_log. Qed.
Print Assumptions C83_log.

(** An address in the log stands for one allocation only, also if the program has given blocks back: none of them is used again. *)
Theorem C83_distinct : forall E before during old ps create file h, fresh_blocks E -> program E before during old ps create file h ->
  NoDup (old ++ ps ++ create) /\ NoDup (h_used h).
Proof. intros E before during old ps create file h F H. exact (conj (program_distinct _ _ _ _ _ _ _ _ F H) (program_all_distinct _ _ _ _ _ _ _ _ F H)). Qed.
Print Assumptions C83_distinct.

(** Each block takes a block for its backtrace, and the first one a block for the list. *)
Definition ex_env : alloc_env :=
  mk_alloc_env (fun used => fold_right N.max 4080 used + 16)%N (fun i => bs "at " ++ repeat x2a i) (fun _ => 1)
    (fun n => if n =? 1 then 1 else 0) 1 (fun _ => 2).
Lemma ex_fresh : fresh_blocks ex_env.
Proof.
  intros used H. assert (forall l x, In x l -> x <= fold_right N.max 4080 l)%N as Hm.
  { induction l as [|y l IH]; intros x []; cbn [fold_right]; [subst; lia|]. pose proof (IH x ltac:(assumption)). lia. }
  specialize (Hm _ _ H). unfold ex_env in Hm. cbn [e_system] in Hm. lia.
Qed.

(** One block before [main], then two, the first of which is given back in between. *)
Example C83_example : exists h, fresh_blocks ex_env /\
  program ex_env [Takes] [Takes; Gives 4112%N; Takes] [4096%N] [4112%N; 4160%N] [4192%N]
    (Some (bs "Allocation of 1010:" ++ [x0a] ++ bs "at *" ++ [x0a] ++ bs "Allocation of 1040:" ++ [x0a] ++ bs "at ****" ++ [x0a] ++
           bs "Allocation of 1060:" ++ [x0a] ++ bs "at ******" ++ [x0a])) h /\ length (h_used h) = 14.
Proof.
  eexists. split; [exact ex_fresh|]. split.
  - apply program_is. split; [vm_compute; reflexivity|]. split; [vm_compute; reflexivity|]. split; [vm_compute; reflexivity|].
    split; [vm_compute; reflexivity|]. eexists. split; [|reflexivity].
    vm_compute logged_entries.
    repeat (eapply writes_cons; [apply silent_allocs; [right; vm_compute; reflexivity|split; reflexivity]|]). apply writes_nil.
  - vm_compute. reflexivity.
Qed.

(** Not all blocks are in the log: not those obtained before [main], and not those the allocator takes itself. *)
Theorem C83_all_refuted : ~ forall E before during old ps create file h, fresh_blocks E ->
  program E before during old ps create file h -> forall p, In p (h_used h) -> In p (old ++ ps ++ create).
Proof.
  intros H. destruct C83_example as (h & F & Hp & Hl). pose proof (H _ _ _ _ _ _ _ _ F Hp) as Hi.
  pose proof (program_all_distinct _ _ _ _ _ _ _ _ F Hp) as Hd.
  pose proof (NoDup_incl_length Hd Hi) as Hn. rewrite Hl in Hn. cbn in Hn. lia.
Qed.
Print Assumptions C83_all_refuted.

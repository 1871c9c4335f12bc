(** Checking by computation that an interleaving of a concrete instance is sound, for examples. *)
From stdpp Require Import gmap.
From Verif Require Import M_Base M_Base64 M_Utf8 M_Prims M_Types M_Storage M_Passwords M_History S_Vault S_Api S_History
  M_Processes S_Processes P_Base P_History P_Sound P_Processes T_Toy T_History.

(** A machine on which nothing was started, without a file. *)
Definition new_machine : machine := mk_machine (fun _ => no_memory) None 0 0 0.
Lemma new_unused P : unused P new_machine.
Proof. split; reflexivity. Qed.

(** Evaluation with the state in normal form after each call. *)
Definition acting {A : Type} (P : prims) (p : nat) (o : op) (m : machine) (k : out -> machine -> A) : A :=
  let '(r, s) := exec P o (seen_by p m) in force_state s (fun s' => k r (left_by p s' m)).
Fixpoint weave {A : Type} (P : prims) (l : list (nat * op)) (m : machine) (k : list out -> machine -> A) : A :=
  match l with
  | [] => k [] m
  | (p, o) :: l' => acting P p o m (fun r m1 => weave P l' m1 (fun rs m2 => k (r :: rs) m2))
  end.
Lemma acting_eq {A : Type} P p o m (k : out -> machine -> A) : acting P p o m k = k (fst (act P p o m)) (snd (act P p o m)).
Proof. unfold acting, act. destruct (exec P o (seen_by p m)) as [r s]. apply (force_state_eq s (fun s' => k r (left_by p s' m))). Qed.
Lemma weave_eq {A : Type} P l : forall m (k : list out -> machine -> A),
  weave P l m k = k (fst (interleave P l m)) (snd (interleave P l m)).
Proof.
  induction l as [|[p o] l IH]; intros m k; [reflexivity|]. cbn [weave]. rewrite acting_eq, IH, interleave_cons. reflexivity.
Qed.

Lemma calm_saved P l : prims_ok P -> (forall n, p_write P n = WriteOk) -> forall m, calm_all P l m.
Proof.
  intros HP Hw. induction l as [|[p o] l IH]; intros m; [exact I|]. split; [|apply IH]. destruct o; try exact I. intros H.
  rewrite act_out. pose proof (saved_calm P [Reset pp] HP Hw (seen_by p m)) as [Hc _]. exact (Hc H).
Qed.

(** What is mentioned. *)
Definition mentions (l : list (nat * op)) : scope :=
  let all := map snd l in
  mk_scope (dedup bytes_eqb (flat_map op_sites all)) (dedup id_eqb (flat_map op_ids all)) (dedup bytes_eqb (flat_map op_passwords all)).
Definition check_all (P : prims) (sc : scope) (l : list (nat * op)) : bool :=
  forallb (fun o => check_valid o && forallb (fun x => existsb (bytes_eqb x) (sc_sites sc)) (op_sites o) &&
     forallb (fun x => existsb (id_eqb x) (sc_ids sc)) (op_ids o) && forallb (fun x => existsb (bytes_eqb x) (sc_pws sc)) (op_passwords o))
    (map snd l) &&
  forallb utf8 (sc_sites sc) &&
  forallb (fun '(n, r) => utf8 n && utf8 r && forallb (fun c => negb (Byte.eqb c x00)) n) (sc_ids sc) &&
  weave P l new_machine (fun _ m => force_nat (ma_rand m) (check_assumptions P (sc_sites sc) (sc_ids sc) (sc_pws sc))).
Lemma check_all_ok P sc l : prims_ok P -> (forall n, p_write P n = WriteOk) -> check_all P sc l = true -> sound_all P sc l new_machine.
Proof.
  intros HP Hw H. unfold check_all in H. rewrite !andb_true_iff in H. destruct H as [[[H1 H2] H3] H4].
  rewrite weave_eq, force_nat_eq in H4. rewrite forallb_forall in H1, H2, H3.
  split; [exact HP|apply new_unused|exact H2| | |apply calm_saved; assumption|apply check_assumptions_ok, H4].
  - intros n r Hin. specialize (H3 _ Hin). cbn in H3. rewrite !andb_true_iff, forallb_forall in H3. destruct H3 as [[H5 H6] H7].
    repeat split; try assumption. intros H0. specialize (H7 _ H0). discriminate H7.
  - apply List.Forall_forall. intros [p o] Hin. specialize (H1 o (in_map snd _ _ Hin)). rewrite !andb_true_iff in H1.
    destruct H1 as [[[H5 H6] H7] H8]. rewrite forallb_forall in H6, H7, H8.
    split; [apply check_valid_ok, H5|]. repeat split; intros x Hx.
    + specialize (H6 x Hx). apply existsb_exists in H6. destruct H6 as (y & Hy & E). apply bytes_eqb_eq in E. subst. exact Hy.
    + specialize (H7 x Hx). apply existsb_exists in H7. destruct H7 as (y & Hy & E). apply id_eqb_eq in E. subst. exact Hy.
    + specialize (H8 x Hx). apply existsb_exists in H8. destruct H8 as (y & Hy & E). apply bytes_eqb_eq in E. subst. exact Hy.
Qed.

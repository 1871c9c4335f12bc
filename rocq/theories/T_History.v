(** Checking by computation that a history of a concrete instance is sound, for examples. *)
From stdpp Require Import gmap.
From Verif Require Import M_Base M_Base64 M_Utf8 M_Prims M_Types M_Crypto M_Recovery M_Serde M_Storage
  M_Passwords M_History S_Vault S_Api S_History P_Base P_Sound P_Props T_Toy.

Definition pairs_ok {A} (eq : A -> A -> bool) (f : A -> bytes) (l : list A) : bool :=
  forallb (fun x => forallb (fun y => eq x y || negb (bytes_eqb (f x) (f y))) l) l.

Definition check_assumptions (P : prims) (sites : list bytes) (ids : list (bytes * bytes)) (pws : list bytes) (bound : nat) : bool :=
  forallb (fun i =>
    pairs_ok bytes_eqb (p_hmac P (p_random P i 32)) sites &&
    forallb (fun s => pairs_ok bytes_eqb (p_hmac P (p_random P i 32)) (map (fun '(n, r) => id_string s n r) ids)) sites &&
    forallb (fun p => forallb (fun q => bytes_eqb p q ||
      match p_open P (key_for P q i) (p_random P (i + 2) 12)
                   (p_seal P (key_for P p i) (p_random P (i + 2) 12) (string_to_vec (b64_encode (p_random P (i + 1) 32)))) with
      | Some _ => false | None => true end) pws) pws) (seq 0 bound).

Lemma pairs_ok_spec f l : pairs_ok bytes_eqb f l = true -> forall x y, In x l -> In y l -> f x = f y -> x = y.
Proof.
  intros H x y Hx Hy E. unfold pairs_ok in H. rewrite forallb_forall in H. specialize (H x Hx). rewrite forallb_forall in H.
  specialize (H y Hy). apply orb_true_iff in H. destruct H as [H|H]; [apply bytes_eqb_eq, H|].
  rewrite E, bytes_eqb_refl in H. discriminate H.
Qed.

Lemma check_assumptions_ok P sites ids pws bound :
  check_assumptions P sites ids pws bound = true -> assumptions P sites ids pws bound.
Proof.
  intros H. unfold check_assumptions in H. rewrite forallb_forall in H.
  assert (forall i, i < bound -> In i (seq 0 bound)) as Hs by (intros; apply in_seq; lia).
  split.
  - intros i x y Hi Hx Hy E. specialize (H i (Hs i Hi)). apply andb_true_iff in H. destruct H as [H _].
    apply andb_true_iff in H. destruct H as [H _]. exact (pairs_ok_spec _ _ H x y Hx Hy E).
  - intros i s n r n' r' Hi Hx Hn Hn' E. specialize (H i (Hs i Hi)). apply andb_true_iff in H. destruct H as [H _].
    apply andb_true_iff in H. destruct H as [_ H]. rewrite forallb_forall in H. specialize (H s Hx).
    apply (pairs_ok_spec _ _ H); [| |exact E].
    + apply in_map_iff. exists (n, r). auto.
    + apply in_map_iff. exists (n', r'). auto.
  - intros i p q Hi Hp Hq Hne. specialize (H i (Hs i Hi)). apply andb_true_iff in H. destruct H as [_ H].
    rewrite forallb_forall in H. specialize (H p Hp). rewrite forallb_forall in H. specialize (H q Hq).
    apply orb_true_iff in H. destruct H as [H|H]; [apply bytes_eqb_eq in H; contradiction|].
    destruct (p_open _ _ _ _); [discriminate H|reflexivity].
Qed.

Definition check_valid (o : op) : bool :=
  match o with
  | GetAlias s | RemoveAlias s | ListPasswords s _ => utf8 s
  | SetAlias s a => utf8 s && utf8 a
  | RemoveSites l => forallb utf8 l
  | SetGenerated s n r len _ => utf8 s && utf8 n && utf8 r && (len <=? 18446744073709551615)%N
  | SetStored s n r t | SetNotes s n r t => utf8 s && utf8 n && utf8 r && utf8 t
  | Has s n r | Get s n r | GetNotes s n r | Remove s n r => utf8 s && utf8 n && utf8 r
  | RecoveryCode _ _ _ t => utf8 t
  | _ => true
  end.
Lemma check_valid_ok o : check_valid o = true -> op_valid o.
Proof.
  destruct o; cbn; rewrite ?andb_true_iff; try tauto.
  - rewrite forallb_forall. intros H. apply List.Forall_forall. exact H.
  - rewrite N.leb_le. tauto.
Qed.

Definition check_names (l : list op) : bool := forallb (fun '(n, _) => forallb (fun c => negb (Byte.eqb c x00)) n) (flat_map op_ids l).
Lemma check_names_ok l : check_names l = true -> names_ok l.
Proof.
  unfold check_names, names_ok. rewrite forallb_forall. intros H. apply List.Forall_forall. intros [n r] Hin H0.
  specialize (H _ Hin). rewrite forallb_forall in H. specialize (H _ H0). discriminate H.
Qed.

(** * Evaluating a history step by step, with the state in normal form after each call *)

Definition force_byte {A : Type} (c : byte) (k : byte -> A) : A :=
  match c with
  | x00 => k x00 | x01 => k x01 | x02 => k x02 | x03 => k x03 | x04 => k x04 | x05 => k x05 | x06 => k x06 | x07 => k x07
  | x08 => k x08 | x09 => k x09 | x0a => k x0a | x0b => k x0b | x0c => k x0c | x0d => k x0d | x0e => k x0e | x0f => k x0f
  | x10 => k x10 | x11 => k x11 | x12 => k x12 | x13 => k x13 | x14 => k x14 | x15 => k x15 | x16 => k x16 | x17 => k x17
  | x18 => k x18 | x19 => k x19 | x1a => k x1a | x1b => k x1b | x1c => k x1c | x1d => k x1d | x1e => k x1e | x1f => k x1f
  | x20 => k x20 | x21 => k x21 | x22 => k x22 | x23 => k x23 | x24 => k x24 | x25 => k x25 | x26 => k x26 | x27 => k x27
  | x28 => k x28 | x29 => k x29 | x2a => k x2a | x2b => k x2b | x2c => k x2c | x2d => k x2d | x2e => k x2e | x2f => k x2f
  | x30 => k x30 | x31 => k x31 | x32 => k x32 | x33 => k x33 | x34 => k x34 | x35 => k x35 | x36 => k x36 | x37 => k x37
  | x38 => k x38 | x39 => k x39 | x3a => k x3a | x3b => k x3b | x3c => k x3c | x3d => k x3d | x3e => k x3e | x3f => k x3f
  | x40 => k x40 | x41 => k x41 | x42 => k x42 | x43 => k x43 | x44 => k x44 | x45 => k x45 | x46 => k x46 | x47 => k x47
  | x48 => k x48 | x49 => k x49 | x4a => k x4a | x4b => k x4b | x4c => k x4c | x4d => k x4d | x4e => k x4e | x4f => k x4f
  | x50 => k x50 | x51 => k x51 | x52 => k x52 | x53 => k x53 | x54 => k x54 | x55 => k x55 | x56 => k x56 | x57 => k x57
  | x58 => k x58 | x59 => k x59 | x5a => k x5a | x5b => k x5b | x5c => k x5c | x5d => k x5d | x5e => k x5e | x5f => k x5f
  | x60 => k x60 | x61 => k x61 | x62 => k x62 | x63 => k x63 | x64 => k x64 | x65 => k x65 | x66 => k x66 | x67 => k x67
  | x68 => k x68 | x69 => k x69 | x6a => k x6a | x6b => k x6b | x6c => k x6c | x6d => k x6d | x6e => k x6e | x6f => k x6f
  | x70 => k x70 | x71 => k x71 | x72 => k x72 | x73 => k x73 | x74 => k x74 | x75 => k x75 | x76 => k x76 | x77 => k x77
  | x78 => k x78 | x79 => k x79 | x7a => k x7a | x7b => k x7b | x7c => k x7c | x7d => k x7d | x7e => k x7e | x7f => k x7f
  | x80 => k x80 | x81 => k x81 | x82 => k x82 | x83 => k x83 | x84 => k x84 | x85 => k x85 | x86 => k x86 | x87 => k x87
  | x88 => k x88 | x89 => k x89 | x8a => k x8a | x8b => k x8b | x8c => k x8c | x8d => k x8d | x8e => k x8e | x8f => k x8f
  | x90 => k x90 | x91 => k x91 | x92 => k x92 | x93 => k x93 | x94 => k x94 | x95 => k x95 | x96 => k x96 | x97 => k x97
  | x98 => k x98 | x99 => k x99 | x9a => k x9a | x9b => k x9b | x9c => k x9c | x9d => k x9d | x9e => k x9e | x9f => k x9f
  | xa0 => k xa0 | xa1 => k xa1 | xa2 => k xa2 | xa3 => k xa3 | xa4 => k xa4 | xa5 => k xa5 | xa6 => k xa6 | xa7 => k xa7
  | xa8 => k xa8 | xa9 => k xa9 | xaa => k xaa | xab => k xab | xac => k xac | xad => k xad | xae => k xae | xaf => k xaf
  | xb0 => k xb0 | xb1 => k xb1 | xb2 => k xb2 | xb3 => k xb3 | xb4 => k xb4 | xb5 => k xb5 | xb6 => k xb6 | xb7 => k xb7
  | xb8 => k xb8 | xb9 => k xb9 | xba => k xba | xbb => k xbb | xbc => k xbc | xbd => k xbd | xbe => k xbe | xbf => k xbf
  | xc0 => k xc0 | xc1 => k xc1 | xc2 => k xc2 | xc3 => k xc3 | xc4 => k xc4 | xc5 => k xc5 | xc6 => k xc6 | xc7 => k xc7
  | xc8 => k xc8 | xc9 => k xc9 | xca => k xca | xcb => k xcb | xcc => k xcc | xcd => k xcd | xce => k xce | xcf => k xcf
  | xd0 => k xd0 | xd1 => k xd1 | xd2 => k xd2 | xd3 => k xd3 | xd4 => k xd4 | xd5 => k xd5 | xd6 => k xd6 | xd7 => k xd7
  | xd8 => k xd8 | xd9 => k xd9 | xda => k xda | xdb => k xdb | xdc => k xdc | xdd => k xdd | xde => k xde | xdf => k xdf
  | xe0 => k xe0 | xe1 => k xe1 | xe2 => k xe2 | xe3 => k xe3 | xe4 => k xe4 | xe5 => k xe5 | xe6 => k xe6 | xe7 => k xe7
  | xe8 => k xe8 | xe9 => k xe9 | xea => k xea | xeb => k xeb | xec => k xec | xed => k xed | xee => k xee | xef => k xef
  | xf0 => k xf0 | xf1 => k xf1 | xf2 => k xf2 | xf3 => k xf3 | xf4 => k xf4 | xf5 => k xf5 | xf6 => k xf6 | xf7 => k xf7
  | xf8 => k xf8 | xf9 => k xf9 | xfa => k xfa | xfb => k xfb | xfc => k xfc | xfd => k xfd | xfe => k xfe | xff => k xff
  end.
Fixpoint force_bytes {A : Type} (s : bytes) (k : bytes -> A) : A :=
  match s with
  | [] => k []
  | c :: s' => force_byte c (fun c' => force_bytes s' (fun s'' => k (c' :: s'')))
  end.
Definition force_option {A : Type} (o : option bytes) (k : option bytes -> A) : A :=
  match o with Some s => force_bytes s (fun s' => k (Some s')) | None => k None end.
Fixpoint force_nat {A : Type} (n : nat) (k : nat -> A) : A :=
  match n with O => k O | S n' => force_nat n' (fun m => k (S m)) end.
Fixpoint force_pairs {A : Type} (l : list (bytes * bytes)) (k : list (bytes * bytes) -> A) : A :=
  match l with
  | [] => k []
  | (a, b) :: l' => force_bytes a (fun a' => force_bytes b (fun b' => force_pairs l' (fun l'' => k ((a', b') :: l''))))
  end.
Definition force_state {A : Type} (s : st) (k : st -> A) : A :=
  force_pairs (map_to_list (s_data s)) (fun d => force_option (s_key s) (fun key => force_option (s_hmac s) (fun h =>
  force_option (s_primary s) (fun p => force_option (s_disk s) (fun disk => force_nat (s_tick s) (fun t =>
  force_nat (s_flushes s) (fun f => force_nat (s_rand s) (fun r =>
  k (mk_st (list_to_map d) key h p disk t f r))))))))).

Lemma force_byte_eq {A : Type} c (k : byte -> A) : force_byte c k = k c.
Proof. destruct c; reflexivity. Qed.
Lemma force_bytes_eq {A : Type} s : forall (k : bytes -> A), force_bytes s k = k s.
Proof. induction s as [|c s IH]; intros k; [reflexivity|]. cbn [force_bytes]. rewrite force_byte_eq. apply IH. Qed.
Lemma force_option_eq {A : Type} o (k : option bytes -> A) : force_option o k = k o.
Proof. destruct o as [s|]; [apply (force_bytes_eq s (fun x => k (Some x)))|reflexivity]. Qed.
Lemma force_nat_eq {A : Type} n : forall (k : nat -> A), force_nat n k = k n.
Proof. induction n as [|n IH]; intros k; [reflexivity|]. cbn [force_nat]. apply (IH (fun m => k (S m))). Qed.
Lemma force_pairs_eq {A : Type} l : forall (k : list (bytes * bytes) -> A), force_pairs l k = k l.
Proof.
  induction l as [|[a b] l IH]; intros k; [reflexivity|]. cbn [force_pairs]. rewrite !force_bytes_eq.
  apply (IH (fun m => k ((a, b) :: m))).
Qed.
Lemma force_state_eq {A : Type} s (k : st -> A) : force_state s k = k s.
Proof.
  unfold force_state. rewrite force_pairs_eq, !force_option_eq, !force_nat_eq, list_to_map_to_list. destruct s; reflexivity.
Qed.

Fixpoint outs (P : prims) (l : list op) (s : st) : list out :=
  match l with
  | [] => []
  | o :: l' => fst (exec P o s) :: force_state (snd (exec P o s)) (outs P l')
  end.
Fixpoint final {A : Type} (P : prims) (l : list op) (s : st) (k : st -> A) : A :=
  match l with
  | [] => k s
  | o :: l' => force_state (snd (exec P o s)) (fun s1 => final P l' s1 k)
  end.
Lemma outs_run P l : forall s, outs P l s = fst (run P l s).
Proof.
  induction l as [|o l IH]; intros s; [reflexivity|]. cbn [outs run]. rewrite force_state_eq, IH.
  destruct (exec P o s) as [r s1]. cbn [fst snd]. destruct (run P l s1). reflexivity.
Qed.
Lemma final_run {A : Type} P l : forall s (k : st -> A), final P l s k = k (snd (run P l s)).
Proof.
  induction l as [|o l IH]; intros s k; [reflexivity|]. cbn [final run]. rewrite force_state_eq, IH.
  destruct (exec P o s) as [r s1]. cbn [fst snd]. destruct (run P l s1). reflexivity.
Qed.

Fixpoint check_calm (P : prims) (l : list op) (s : st) : bool :=
  match l with
  | [] => true
  | o :: l' =>
      match o with Reset _ => negb (unlocked s) || match fst (exec P o s) with ODone => true | _ => false end | _ => true end &&
      force_state (snd (exec P o s)) (check_calm P l')
  end.
Lemma check_calm_ok P l : forall s, check_calm P l s = true -> calm_run P l s.
Proof.
  induction l as [|o l IH]; intros s H; [exact I|]. cbn [check_calm] in H. rewrite force_state_eq in H. apply andb_true_iff in H. destruct H as [H1 H2].
  split; [|apply IH, H2]. destruct o; try exact I. intros Hu. rewrite Hu in H1. cbn [negb orb] in H1.
  destruct (fst (exec P (Reset pp) s)); try discriminate H1. reflexivity.
Qed.


(** Nothing in memory, no file. *)
Definition start : st := mk_st ∅ None None None None 0 0 0.
Lemma start_fresh P : fresh P start.
Proof. repeat split. Qed.

(** Only what is mentioned matters, not how often. *)
Definition id_eqb (x y : bytes * bytes) : bool := bytes_eqb x.1 y.1 && bytes_eqb x.2 y.2.
Fixpoint dedup {A : Type} (eq : A -> A -> bool) (l : list A) : list A :=
  match l with [] => [] | x :: l' => let d := dedup eq l' in if existsb (eq x) d then d else x :: d end.
Lemma dedup_in {A : Type} (eq : A -> A -> bool) l x : (forall a b, eq a b = true -> a = b) -> In x l -> In x (dedup eq l).
Proof.
  intros He. induction l as [|y l IH]; intros H; [destruct H|]. cbn [dedup].
  destruct (existsb (eq y) (dedup eq l)) eqn:E; destruct H as [->|H]; auto.
  - apply existsb_exists in E. destruct E as (z & Hz & E). apply He in E. subst z. exact Hz.
  - left. reflexivity.
  - right. auto.
Qed.
Lemma id_eqb_eq x y : id_eqb x y = true -> x = y.
Proof.
  unfold id_eqb. rewrite andb_true_iff. intros [H1 H2]. apply bytes_eqb_eq in H1, H2. destruct x, y; cbn in *; congruence.
Qed.
Lemma assumptions_incl P a b c a' b' c' n : incl a a' -> incl b b' -> incl c c' -> assumptions P a' b' c' n -> assumptions P a b c n.
Proof.
  intros Ha Hb Hc [H1 H2 H3]. split.
  - intros i x y Hi Hx Hy. apply H1; auto.
  - intros i s m r m' r' Hi Hs Hm Hm'. apply H2; auto.
  - intros i p q Hi Hp Hq. apply H3; auto.
Qed.

Definition check_sound (P : prims) (l : list op) : bool :=
  forallb check_valid l && check_names l && check_calm P l start &&
  check_assumptions P (dedup bytes_eqb (flat_map op_sites l)) (dedup id_eqb (flat_map op_ids l))
    (dedup bytes_eqb (flat_map op_passwords l)) (final P l start s_rand).

Lemma check_sound_parts P l : check_sound P l = true ->
  Forall op_valid l /\ names_ok l /\ calm_run P l start /\
  assumptions P (flat_map op_sites l) (flat_map op_ids l) (flat_map op_passwords l) (s_rand (snd (run P l start))).
Proof.
  intros H. unfold check_sound in H. rewrite final_run in H. rewrite !andb_true_iff in H. destruct H as [[[H1 H2] H3] H4].
  split; [|split; [apply check_names_ok, H2|split; [apply check_calm_ok, H3|eapply assumptions_incl; [| | |apply check_assumptions_ok, H4]; intros x Hx; apply dedup_in; auto; intros ? ?; first [apply bytes_eqb_eq|apply id_eqb_eq]]]].
  rewrite forallb_forall in H1. apply List.Forall_forall. intros o Ho. apply check_valid_ok, H1, Ho.
Qed.

Lemma check_sound_ok P l : prims_ok P -> check_sound P l = true -> sound P (mentioned l) l start.
Proof.
  intros HP H. destruct (check_sound_parts P l H) as (H1 & H2 & H3 & H4). apply sound_mentioned; auto. apply start_fresh.
Qed.

(** The result of a call after some calls. *)
Definition after (P : prims) (l : list op) (o : op) : out := final P l start (fun s => fst (exec P o s)).
Lemma after_eq P l o : after P l o = fst (exec P o (snd (run P l start))).
Proof. apply (final_run P l start (fun s => fst (exec P o s))). Qed.

(** * Example histories *)

Definition all_chars : charset := mk_charset true true true true.

(** A history with a bit of everything. *)
Definition story1 : list op :=
  [Reset (bs "secret"); SetStored (bs "a") (bs "n") (bs "1") (bs "p1");
   SetGenerated (bs "www.a") (bs "n") (bs "2") 8 all_chars].
Definition story2 : list op := [SetNotes (bs "a") (bs "n") [] (bs "note"); SetAlias (bs "b") (bs "a")].
Definition story3 : list op :=
  [GetNotes (bs "b") (bs "n") []; GetNotes (bs "a") (bs "n") (bs "2"); Lock; Unlock (bs "wrong!");
   Get (bs "a") (bs "n") []; Restart; Unlock (bs "secret"); Get (bs "www.b") (bs "n") (bs "2");
   ListPasswords (bs "b") (bs "*"); ListSites (bs "*"); Remove (bs "a") (bs "n") (bs "2"); RemoveAlias (bs "b");
   RecoveryCode [] [] [] (bs "p1")].
Definition story : list op := story1 ++ story2 ++ story3.

Lemma story_sound : sound toy_release (mentioned story) story start.
Proof. apply check_sound_ok; [apply toy_ok|]. vm_compute. reflexivity. Qed.

Lemma story_sound1 : sound toy_release (mentioned story) story1 start.
Proof. exact (sound_app _ _ _ _ _ story_sound). Qed.
Lemma story_sound2 : sound toy_release (mentioned story) (story1 ++ story2) start.
Proof. apply (sound_app _ _ _ story3). rewrite <- List.app_assoc. exact story_sound. Qed.

Lemma story_covers o : In o story -> covered (mentioned story) o.
Proof. apply List.Forall_forall. exact (so_covered _ _ _ _ story_sound). Qed.

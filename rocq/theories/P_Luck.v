(** What is printed does not depend on chance: proofs. *)
From stdpp Require Import gmap.
From Coq Require Import Permutation Sorted ZArith ZifyBool ZifyNat ZifyN.
From Verif Require Import M_Base M_Codec M_Base64 M_Utf8 M_Prims M_Types M_Crypto M_Recovery M_Json M_Serde M_Storage M_Passwords M_Cli M_History.
From Verif Require Import S_Json S_Vault S_Api S_History S_Serde S_Cli S_Screen S_Luck P_Base P_Base64 P_Crypto P_Serde P_Storage P_Api P_Vault
  P_History P_Sound P_Files P_CliUnlock P_CliBase P_CliCalls P_CliList P_Screen P_Size.

(** * Sorting *)

Lemma leb_total a b : bytes_leb a b = false -> bytes_leb b a = true.
Proof. intros H. apply leb_false in H. apply leb_before. right. exact H. Qed.
Lemma leb_antisym a b : bytes_leb a b = true -> bytes_leb b a = true -> a = b.
Proof.
  intros H1 H2. apply leb_before in H1, H2. destruct H1 as [H1|H1]; [auto|]. destruct H2 as [H2|H2]; [auto|].
  destruct (before_irrefl _ (before_trans _ _ _ H1 H2)).
Qed.
Lemma leb_trans a b c : bytes_leb a b = true -> bytes_leb b c = true -> bytes_leb a c = true.
Proof.
  rewrite !leb_before. intros [->|H1] [->|H2]; eauto using before_trans.
Qed.

Lemma insert_swap {A} (key : A -> bytes) a b l : key a <> key b -> insert_by key a (insert_by key b l) = insert_by key b (insert_by key a l).
Proof.
  intros Hk. induction l as [|y l IH]; cbn [insert_by].
  - destruct (bytes_leb (key a) (key b)) eqn:E1, (bytes_leb (key b) (key a)) eqn:E2; try reflexivity.
    + destruct (Hk (leb_antisym _ _ E1 E2)).
    + apply leb_total in E1. congruence.
  - destruct (bytes_leb (key a) (key y)) eqn:Ea, (bytes_leb (key b) (key y)) eqn:Eb; cbn [insert_by]; rewrite ?Ea, ?Eb.
    + destruct (bytes_leb (key a) (key b)) eqn:E1, (bytes_leb (key b) (key a)) eqn:E2; try reflexivity.
      * destruct (Hk (leb_antisym _ _ E1 E2)).
      * apply leb_total in E1. congruence.
    + destruct (bytes_leb (key b) (key a)) eqn:E2; [|reflexivity]. rewrite (leb_trans _ _ _ E2 Ea) in Eb. discriminate.
    + destruct (bytes_leb (key a) (key b)) eqn:E2; [|reflexivity]. rewrite (leb_trans _ _ _ E2 Eb) in Ea. discriminate.
    + rewrite IH. reflexivity.
Qed.
Lemma sort_unique {A} (key : A -> bytes) l l' : l ≡ₚ l' -> List.NoDup (map key l) -> sort_by key l = sort_by key l'.
Proof.
  intros H. induction H as [|x l l' H IH|x y l|l1 l2 l3 H12 IH1 H23 IH2]; intros Hn.
  - reflexivity.
  - cbn [sort_by]. inversion Hn; subst. rewrite IH by assumption. reflexivity.
  - cbn [sort_by]. apply insert_swap. inversion Hn as [|? ? Hx _]; subst. intros E. apply Hx. rewrite E. left. reflexivity.
  - rewrite IH1 by exact Hn. apply IH2. eapply Permutation_NoDup; [|exact Hn]. apply Permutation_map, H12.
Qed.

Lemma strict_unique {A} (key : A -> bytes) : forall l l', StronglySorted (fun x y => before (key x) (key y)) l ->
  StronglySorted (fun x y => before (key x) (key y)) l' -> (forall x, In x l <-> In x l') -> l = l'.
Proof.
  induction l as [|a l IH]; intros l' Hl Hl' Hi.
  - destruct l' as [|b l']; [reflexivity|]. destruct (proj2 (Hi b) (or_introl eq_refl)).
  - inversion Hl as [|? ? Hs Hf]; subst. destruct l' as [|b l']; [destruct (proj1 (Hi a) (or_introl eq_refl))|].
    inversion Hl' as [|? ? Hs' Hf']; subst. rewrite List.Forall_forall in Hf, Hf'.
    assert (a = b) as <-.
    { destruct (proj1 (Hi a) (or_introl eq_refl)) as [E|Ha]; [auto|].
      destruct (proj2 (Hi b) (or_introl eq_refl)) as [E|Hb]; [auto|].
      destruct (before_irrefl _ (before_trans _ _ _ (Hf _ Hb) (Hf' _ Ha))). }
    f_equal. apply IH; [exact Hs|exact Hs'|]. intros x. split; intros Hx.
    + destruct (proj1 (Hi x) (or_intror Hx)) as [<-|H]; [|exact H]. destruct (before_irrefl _ (Hf _ Hx)).
    + destruct (proj2 (Hi x) (or_intror Hx)) as [<-|H]; [|exact H]. destruct (before_irrefl _ (Hf' _ Hx)).
Qed.
Lemma arrange_unique l l' : l ≡ₚ l' -> List.NoDup (map site_name l) -> arrange_sites l = arrange_sites l'.
Proof.
  intros H Hn.
  assert (forall k, List.NoDup (map site_name k) -> List.NoDup (map fst (map show_site k))) as Hm.
  { intros k Hk. rewrite map_map. exact Hk. }
  assert (List.NoDup (map site_name l')) as Hn' by (eapply Permutation_NoDup; [apply Permutation_map, H|exact Hn]).
  assert (forall x, In x l <-> In x l') as Hi by (intros x; split; apply Permutation_in; [exact H|symmetry; exact H]).
  assert (forall x, In x (map show_site l) <-> In x (map show_site l')) as HL.
  { intros x. split; apply Permutation_in; apply Permutation_map; [exact H|symmetry; exact H]. }
  apply (strict_unique site_name); [apply arranged_strict|apply arranged_strict|].
  intros x. rewrite (arranged_in l (Hm l Hn)), (arranged_in l' (Hm l' Hn')), Hi. split; (intros [Hx|(a & b & E & Hb & Hno)]; [left; exact Hx|right]);
    exists a, b; (split; [exact E|]); (split; [apply HL, Hb|]); intros c Hc; apply (Hno c), HL, Hc.
Qed.

(** * The vault *)

(** Calls whose result is no matter of chance. *)
Definition certain (o : op) : Prop := match o with Reset _ | Restart | RecoveryCode _ _ _ _ => False | _ => True end.

Definition out_rel (a b : out) : Prop :=
  match a with
  | OPasswords l => exists l', b = OPasswords l' /\ l ≡ₚ l'
  | OSites l => exists l', b = OSites l' /\ l ≡ₚ l'
  | _ => b = a
  end.

Lemma allowed_commit c wr wr' w w' pp v : allowed c wr -> allowed c wr' -> w_open w = w_open w' ->
  snd (commit wr w pp v) = snd (commit wr' w' pp v) /\ w_mem (fst (commit wr w pp v)) = w_mem (fst (commit wr' w' pp v)) /\
  w_open (fst (commit wr w pp v)) = w_open (fst (commit wr' w' pp v)).
Proof. intros H H' E. destruct c; cbn in H, H'; [subst..|destruct H as [-> | ->], H' as [-> | ->]]; cbn; auto. Qed.

Lemma vstep_rel P c wr wr' w w' o : allowed c wr -> allowed c wr' -> certain o -> w_mem w = w_mem w' -> w_open w = w_open w' ->
  snd (vstep P wr w o) = snd (vstep P wr' w' o) /\ w_mem (fst (vstep P wr w o)) = w_mem (fst (vstep P wr' w' o)) /\
  w_open (fst (vstep P wr w o)) = w_open (fst (vstep P wr' w' o)).
Proof.
  intros H H' Ho Em Eo. pose proof (fun pp v => allowed_commit c wr wr' w w' pp v H H' Eo) as Hc.
  destruct o; try contradiction; cbn [vstep]; rewrite <- ?Em, <- ?Eo; cbn [fst snd w_mem w_open]; auto;
    try (destruct l as [|x l]; [cbn [fst snd]; auto|]);
    destruct (w_open w) eqn:E1, (w_mem w) as [[pp0 v]|] eqn:E2; cbn [fst snd]; rewrite ?E1, ?E2, <- ?Em, <- ?Eo; auto;
    repeat match goal with |- context [match ?x with _ => _ end] => first [is_var x; destruct x|destruct x] end;
    cbn [fst snd w_mem w_open]; rewrite ?E1, ?E2, <- ?Em, <- ?Eo; auto.
Qed.

Lemma vstep_certain P wr w o pp text : certain o -> snd (vstep P wr w o) <> ORecovers pp text.
Proof.
  intros Ho. destruct o; try contradiction; cbn [vstep].
  all: try (destruct l; [discriminate|]).
  all: repeat match goal with
    | |- snd (match ?x with _ => _ end) <> _ => destruct x
    | |- snd (commit ?wr _ _ _) <> _ => destruct wr; discriminate
    | |- snd (_, match ?x with _ => _ end) <> _ => destruct x
    | |- snd (_, text_out ?x) <> _ => destruct x; discriminate
    | |- snd (_, reveal _ _ _ ?x) <> _ => destruct x; [unfold reveal|discriminate]
    end; discriminate.
Qed.

(** * When the file is written *)

Section flushes.
Context (P : prims) (HP : prims_ok P) (sc : scope) (Hsc : scope_texts sc) (bound : nat)
  (HA : assumptions P (sc_sites sc) (sc_ids sc) (sc_pws sc) bound).
Notation Srep := (srep P (sc_sites sc) (sc_ids sc) (sc_pws sc) bound).
Notation P1 := (with_writes P (fun _ => WriteOk)).
Notation Srep1 := (srep P1 (sc_sites sc) (sc_ids sc) (sc_pws sc) bound).

Lemma scoped_of o : covered sc o -> in_scope (sc_sites sc) (sc_ids sc) (sc_pws sc) o.
Proof. intros (H1 & H2 & H3 & H4). split; [exact H1|]. split; [exact H2|]. split; [intros n r; apply H3|exact H4]. Qed.

Lemma one_step o s w : Srep s w -> covered sc o -> is_reset o = false ->
  exists wr, allowed (p_write P (s_flushes s)) wr /\ Srep (snd (exec P o s)) (fst (vstep P wr w o)) /\
    S_Vault.agrees P (fst (exec P o s)) (snd (vstep P wr w o)).
Proof.
  intros R Ho Hr. apply (step_any P HP _ _ _ _ (st_sites _ Hsc) (st_ids _ Hsc) HA o s w R).
  - apply scoped_of, Ho.
  - unfold calm. destruct o; try exact I. discriminate Hr.
  - intros pp ->. discriminate Hr.
Qed.

Lemma rep_one i pp d v : data_rep P (sc_sites sc) (sc_ids sc) (sc_pws sc) bound i pp d v ->
  data_rep P1 (sc_sites sc) (sc_ids sc) (sc_pws sc) bound i pp d v.
Proof. intros [h1 h2 h3 h4 h5 h6 h7]. split; assumption. Qed.
Lemma srep_one s w : Srep s w -> Srep1 s w.
Proof.
  intros [M F]. split.
  - unfold mem_rep in *. destruct (w_mem w) as [[pp v]|]; [|exact M]. destruct M as (i & R & Hs). exists i. split; [apply rep_one, R|].
    unfold secrets_rep in *. destruct (w_open w); exact Hs.
  - unfold file_rep in *. destruct (w_file w) as [[pp v]|]; [|exact F]. destruct F as (i & d & Hd & R). exists i, d. split; [exact Hd|apply rep_one, R].
Qed.
Lemma assumptions_one : assumptions P1 (sc_sites sc) (sc_ids sc) (sc_pws sc) bound.
Proof. destruct HA as [h1 h2 h3]. split; assumption. Qed.

Lemma saved_out o s w : Srep s w -> covered sc o -> modifies o = true -> is_reset o = false ->
  fst (exec P1 o s) = snd (vstep P Saved w o).
Proof.
  intros R Ho Hm Hr.
  assert (exists wr, allowed (p_write P1 (s_flushes s)) wr /\ Srep1 (snd (exec P1 o s)) (fst (vstep P1 wr w o)) /\
    S_Vault.agrees P1 (fst (exec P1 o s)) (snd (vstep P1 wr w o))) as (wr & Hw & _ & Ha).
  { apply (step_any P1 (with_writes_ok P _ HP) _ _ _ _ (st_sites _ Hsc) (st_ids _ Hsc) assumptions_one o s w (srep_one _ _ R)).
    - apply scoped_of, Ho.
    - unfold calm. destruct o; try exact I. discriminate Hr.
    - intros pp ->. discriminate Hr. }
  cbn in Hw. subst wr. assert (vstep P1 Saved w o = vstep P Saved w o) as E by (destruct o; try discriminate Hm; reflexivity).
  rewrite E in Ha. clear E. destruct o; try discriminate Hm; try discriminate Hr.
  all: try (destruct l; [discriminate Hm|]).
  all: revert Ha; cbn [vstep]; repeat match goal with
    | |- context [snd (match ?x with _ => _ end)] => destruct x
    end; intros Ha; exact Ha.
Qed.

Lemma exec_back o s : s_flushes (snd (exec P1 o s)) = s_flushes s -> exec P1 o s = exec P o s.
Proof. intros H. destruct P as [a b c d e f g h i j]. exact (exec_same (with_writes _ _) i o s (or_intror H)). Qed.

(** The file is written if the call would be successful, if writing worked. *)
Lemma flush_iff o s w : Srep s w -> covered sc o -> is_reset o = false ->
  s_flushes (snd (exec P o s)) =
    s_flushes s + (if modifies o then match snd (vstep P Saved w o) with ODone => 1 | _ => 0 end else 0).
Proof.
  intros R Ho Hr. destruct (modifies o) eqn:Em; [|rewrite (exec_reads P o s HP Em); lia].
  pose proof (saved_out o s w R Ho Em Hr) as Hs.
  destruct (exec_once P o s HP) as [H|H].
  - rewrite <- (exec_same P (fun _ => WriteOk) o s (or_intror H)) in Hs. rewrite <- Hs.
    destruct (exec_shaped P o s Em Hr) as [[_ Hn]|(s1 & ((E1 & E2 & E3) & _) & E)].
    + rewrite H. destruct (fst (exec P o s)); try lia. destruct (Hn eq_refl).
    + exfalso. rewrite E, done_out_snd, flush_counts in H. lia.
  - rewrite H, <- Hs. destruct (exec_once P1 o s (with_writes_ok P _ HP)) as [H1|H1].
    + exfalso. rewrite (exec_back o s H1) in H1. lia.
    + destruct (exec_shaped P1 o s Em Hr) as [[((E1 & E2 & E3) & _) _]|(s1 & _ & E)]; [rewrite E3 in H1; lia|].
      rewrite E. unfold done_out, flush. cbn [with_writes p_write as_out fst snd]. lia.
Qed.
End flushes.

(** * Two environments *)

Section luck.
Context (P : prims) (rnd : nat -> nat -> bytes) (ord : nat -> kvmap -> list bytes) (wf : nat -> write_outcome).
Notation P' := (with_luck P rnd ord wf).

Lemma luck_validate i lines seen : validate_loop P i lines seen = validate_loop P' i lines seen.
Proof.
  revert i seen. induction lines as [|c lines IH]; intros i seen; [reflexivity|]. cbn [validate_loop]. destruct seen; [reflexivity|].
  destruct (idx c BLOCK_SIZE) as [k|e|]; [|reflexivity..]. cbn [bind].
  change (final_virtual_byte P' i) with (final_virtual_byte P i). destruct (final_virtual_byte P i) as [v|e|]; [|reflexivity..]. cbn [bind].
  destruct (Byte.eqb k _); [apply IH|]. destruct (negb _); [reflexivity|apply IH].
Qed.
Lemma luck_find_end d n : find_end P d n = find_end P' d n.
Proof. induction n as [|n IH]; [reflexivity|]. cbn [find_end]. destruct (nth_error d n) as [b|]; [|reflexivity]. destruct (Byte.eqb b x00); [exact IH|reflexivity]. Qed.
Lemma luck_decode code pp : decode P code pp = decode P' code pp.
Proof.
  unfold decode. assert (validate P code = validate P' code) as <-.
  { unfold validate. destruct (base32_decode _) as [d|e|]; [|reflexivity..]. cbn [bind]. rewrite luck_validate. reflexivity. }
  destruct (validate P code) as [d|e|]; [|reflexivity..]. cbn [bind].
  destruct (match strip_checksums 0 d with [] => false | _ => _ end); [reflexivity|]. destruct (_ <? _); [reflexivity|].
  set (salt := firstn SALT_SIZE _). change (get_encryption_key P' pp salt) with (get_encryption_key P pp salt).
  destruct (get_encryption_key P pp salt) as [k|e|]; [|reflexivity..]. cbn [bind].
  set (x := _ ++ _). change (decrypt_data P' x k) with (decrypt_data P x k).
  destruct (decrypt_data P x k) as [y|e|]; [|reflexivity..]. cbn [bind]. rewrite luck_find_end. reflexivity.
Qed.
Lemma luck_vstep wr w o : vstep P' wr w o = vstep P wr w o.
Proof. destruct o; try reflexivity. cbn [vstep]. destruct (w_open w), (w_mem w) as [[pp v]|]; rewrite <- ?luck_decode; reflexivity. Qed.

Context (HP : prims_ok P) (HP' : prims_ok P') (sc : scope) (Hsc : scope_texts sc) (Hcl : closed sc) (Hso : sortable sc).
Context (bd bd' : nat) (HA : assumptions P (sc_sites sc) (sc_ids sc) (sc_pws sc) bd)
  (HA' : assumptions P' (sc_sites sc) (sc_ids sc) (sc_pws sc) bd').
Context (fl fl' : nat) (Hw : forall k, p_write P (fl + k) = wf (fl' + k)).
Notation Srep := (srep P (sc_sites sc) (sc_ids sc) (sc_pws sc) bd).
Notation Srep' := (srep P' (sc_sites sc) (sc_ids sc) (sc_pws sc) bd').

Definition twins (s s' : st) : Prop := exists w w' k, Srep s w /\ Srep' s' w' /\ w_mem w = w_mem w' /\ w_open w = w_open w' /\
  s_flushes s = fl + k /\ s_flushes s' = fl' + k.

Lemma agrees_rel e a a' : (forall pp t, e <> ORecovers pp t) -> S_Vault.agrees P a e -> S_Vault.agrees P' a' e -> out_rel a a'.
Proof.
  intros Hn. destruct e; cbn; try (intros -> ->; cbn; auto; fail).
  - intros (x & -> & H) (y & -> & H'). cbn. eexists. split; [reflexivity|]. rewrite H, H'. reflexivity.
  - intros (x & -> & H) (y & -> & H'). cbn. eexists. split; [reflexivity|]. rewrite H, H'. reflexivity.
  - destruct (Hn _ _ eq_refl).
Qed.

Lemma twins_exec o s s' : twins s s' -> covered sc o -> certain o ->
  out_rel (fst (exec P o s)) (fst (exec P' o s')) /\ twins (snd (exec P o s)) (snd (exec P' o s')).
Proof.
  intros (w & w' & k & R & R' & Em & Eo & Ef & Ef') Ho Hc.
  assert (is_reset o = false) as Hr by (destruct o; try reflexivity; destruct Hc).
  destruct (one_step P HP sc Hsc bd HA o s w R Ho Hr) as (wr & Ha & R1 & A1).
  destruct (one_step P' HP' sc Hsc bd' HA' o s' w' R' Ho Hr) as (wr' & Ha' & R1' & A1').
  pose proof (flush_iff P HP sc Hsc bd HA o s w R Ho Hr) as F1.
  pose proof (flush_iff P' HP' sc Hsc bd' HA' o s' w' R' Ho Hr) as F1'.
  rewrite luck_vstep in *. cbn [with_luck p_write] in Ha'. rewrite Ef in Ha. rewrite Ef', <- Hw in Ha'.
  destruct (vstep_rel P _ wr wr' w w' o Ha Ha' Hc Em Eo) as (V1 & V2 & V3).
  destruct (vstep_rel P WriteOk Saved Saved w w' o eq_refl eq_refl Hc Em Eo) as (V4 & _).
  rewrite <- V1 in A1'. split; [eapply agrees_rel; [|exact A1|exact A1']; intros pp t; apply vstep_certain, Hc|].
  rewrite <- V4 in F1'.
  exists (fst (vstep P wr w o)), (fst (vstep P wr' w' o)), (k + (if modifies o then match snd (vstep P Saved w o) with ODone => 1 | _ => 0 end else 0)).
  repeat split; try (apply R1 || apply R1'); try assumption; lia.
Qed.

(** ** Calls *)

Definition relM {A} (RA : A -> A -> Prop) (m m' : M A) : Prop :=
  forall s s', twins s s' -> res_rel RA (fst (m s)) (fst (m' s')) /\ twins (snd (m s)) (snd (m' s')).

Lemma relM_exec {A} (RA : A -> A -> Prop) (g : A -> out) (m m' : M A) o :
  (forall s, exec P o s = as_out g (m s)) -> (forall s, exec P' o s = as_out g (m' s)) ->
  (forall a x, out_rel (g a) x -> (forall a', x = g a' -> RA a a') /\ (forall e, x <> OErr e) /\ x <> OPanic) ->
  (forall a e, g a <> OErr e) -> (forall a, g a <> OPanic) ->
  covered sc o -> certain o -> relM RA m m'.
Proof.
  intros E E' Hg He Hn Ho Hc s s' Hs. destruct (twins_exec o s s' Hs Ho Hc) as [H1 H2]. rewrite E, E' in H1, H2.
  unfold as_out in H1, H2. cbn [fst snd] in H1, H2. split; [|exact H2].
  destruct (fst (m s)) as [a|e|], (fst (m' s')) as [a'|e'|]; cbn [res_rel]; try exact I.
  - apply (Hg a _ H1). reflexivity.
  - destruct (Hg a _ H1) as (_ & X & _). destruct (X _ eq_refl).
  - destruct (Hg a _ H1) as (_ & _ & X). destruct (X eq_refl).
  - cbn in H1. destruct (He _ _ H1).
  - cbn in H1. congruence.
  - cbn in H1. discriminate.
  - cbn in H1. destruct (Hn _ H1).
  - cbn in H1. discriminate.
Qed.

Lemma relM_done (m m' : M unit) o : (forall s, exec P o s = as_out (fun _ => ODone) (m s)) -> (forall s, exec P' o s = as_out (fun _ => ODone) (m' s)) ->
  covered sc o -> certain o -> relM eq m m'.
Proof.
  intros E E' Ho Hc. apply (relM_exec eq (fun _ => ODone) m m' o E E'); try assumption; try discriminate.
  intros [] x ->. split; [intros []; reflexivity|]. split; discriminate.
Qed.
Lemma relM_text (m m' : M bytes) o : (forall s, exec P o s = as_out OText (m s)) -> (forall s, exec P' o s = as_out OText (m' s)) ->
  covered sc o -> certain o -> relM eq m m'.
Proof.
  intros E E' Ho Hc. apply (relM_exec eq OText m m' o E E'); try assumption; try discriminate.
  intros a x ->. split; [intros a' [= <-]; reflexivity|]. split; discriminate.
Qed.
Lemma relM_bool (m m' : M bool) o : (forall s, exec P o s = as_out OBool (m s)) -> (forall s, exec P' o s = as_out OBool (m' s)) ->
  covered sc o -> certain o -> relM eq m m'.
Proof.
  intros E E' Ho Hc. apply (relM_exec eq OBool m m' o E E'); try assumption; try discriminate.
  intros a x ->. split; [intros a' [= <-]; reflexivity|]. split; discriminate.
Qed.
Lemma relM_and {A} (m m' : M A) (Q : A -> Prop) : (forall s a, fst (m s) = Ok a -> Q a) -> relM eq m m' -> relM (fun a a' => a = a' /\ Q a) m m'.
Proof.
  intros HQ H s s' Hs. destruct (H s s' Hs) as [H1 H2]. split; [|exact H2]. specialize (HQ s).
  destruct (fst (m s)), (fst (m' s')); cbn in H1 |- *; auto.
Qed.

Lemma twins_flags s s' : twins s s' -> initialized s = initialized s' /\ unlocked s = unlocked s'.
Proof.
  intros Hs. destruct (twins_exec Initialized s s' Hs) as [H1 _]; [repeat split; intros ? []|exact I|].
  destruct (twins_exec Unlocked s s' Hs) as [H2 _]; [repeat split; intros ? []|exact I|]. cbn in H1, H2. split; congruence.
Qed.

Definition named (x n r : bytes) : Prop :=
  (utf8 x = true /\ utf8 n = true /\ utf8 r = true) /\ In (host x) (sc_sites sc) /\ In (n, rev_of r) (sc_ids sc).
Definition placed (x : bytes) : Prop := utf8 x = true /\ In (host x) (sc_sites sc).

Ltac cover := repeat split; try assumption; try (intros ? []; subst; try assumption; try contradiction).

Lemma rel_has x n r : named x n r -> relM eq (has P x n r) (has P' x n r).
Proof. intros ((H1 & H2 & H3) & H4 & H5). apply (relM_bool _ _ (Has x n r)); [reflexivity..| |exact I]. cover. Qed.
Lemma rel_get x n r : named x n r -> relM eq (get P x n r) (get P' x n r).
Proof. intros ((H1 & H2 & H3) & H4 & H5). apply (relM_text _ _ (Get x n r)); [reflexivity..| |exact I]. cover. Qed.
Lemma rel_get_notes x n r : named x n r -> relM eq (get_notes P x n r) (get_notes P' x n r).
Proof. intros ((H1 & H2 & H3) & H4 & H5). apply (relM_text _ _ (GetNotes x n r)); [reflexivity..| |exact I]. cover. Qed.
Lemma rel_set_notes x n r t : named x n r -> utf8 t = true -> relM eq (set_notes P x n r t) (set_notes P' x n r t).
Proof. intros ((H1 & H2 & H3) & H4 & H5) Ht. apply (relM_done _ _ (SetNotes x n r t)); [reflexivity..| |exact I]. cover. Qed.
Lemma rel_set_stored x n r t : named x n r -> utf8 t = true -> relM eq (set_stored P x n r t) (set_stored P' x n r t).
Proof. intros ((H1 & H2 & H3) & H4 & H5) Ht. apply (relM_done _ _ (SetStored x n r t)); [reflexivity..| |exact I]. cover. Qed.
Lemma rel_set_generated x n r len cs : named x n r -> (len <= 18446744073709551615)%N -> relM eq (set_generated P x n r len cs) (set_generated P' x n r len cs).
Proof. intros ((H1 & H2 & H3) & H4 & H5) Ht. apply (relM_done _ _ (SetGenerated x n r len cs)); [reflexivity..| |exact I]. cover. Qed.
Lemma rel_remove x n r : named x n r -> relM eq (remove P x n r) (remove P' x n r).
Proof. intros ((H1 & H2 & H3) & H4 & H5). apply (relM_done _ _ (Remove x n r)); [reflexivity..| |exact I]. cover. Qed.
Lemma rel_get_alias x : placed x -> relM eq (get_alias P x) (get_alias P' x).
Proof. intros (H1 & H2). apply (relM_text _ _ (GetAlias x)); [reflexivity..| |exact I]. cover. Qed.
Lemma rel_remove_alias x : placed x -> relM eq (remove_alias P x) (remove_alias P' x).
Proof. intros (H1 & H2). apply (relM_done _ _ (RemoveAlias x)); [reflexivity..| |exact I]. cover. Qed.
Lemma rel_set_alias x a : placed x -> placed a -> relM eq (set_alias P x a) (set_alias P' x a).
Proof.
  intros (H1 & H2) (H3 & H4). apply (relM_done _ _ (SetAlias x a)); [reflexivity..| |exact I].
  repeat split; try assumption; intros y Hy; [|destruct Hy..]. destruct Hy as [<-|[<-|[]]]; assumption.
Qed.
Lemma rel_unlock pp : In pp (sc_pws sc) -> relM eq (unlock P pp) (unlock P' pp).
Proof. intros H. apply (relM_done _ _ (Unlock pp)); [reflexivity..| |exact I]. cover. Qed.
Lemma rel_lock : relM eq lock lock.
Proof. apply (relM_done _ _ Lock); [reflexivity..| |exact I]. cover. Qed.
Lemma rel_remove_sites l : incl l (sc_sites sc) -> relM eq (remove_sites P l) (remove_sites P' l).
Proof.
  intros H. apply (relM_done _ _ (RemoveSites l)); [reflexivity..| |exact I]. split; [|split; [exact H|split; intros ? []]].
  apply List.Forall_forall. intros x Hx. apply (st_sites _ Hsc), H, Hx.
Qed.
Lemma rel_decode code : relM (fun a a' => a = a' /\ utf8 a = true) (decode_recovery_code P code) (decode_recovery_code P' code).
Proof.
  apply relM_and; [intros s a; apply decoded_utf8|]. apply (relM_text _ _ (DecodeCode code)); [reflexivity..| |exact I]. cover.
Qed.

(** ** Lists *)

Definition unshow (i : pid * entry) : password := to_password (fst i) (snd i).
Lemma unshow_eq p : unshow (show_password p) = p.
Proof. destruct p as [[[a c d] len cs notes]|[[a c d] t notes]]; reflexivity. Qed.
Lemma shown_perm l l' : map show_password l ≡ₚ map show_password l' -> l ≡ₚ l'.
Proof.
  intros H. apply (Permutation_map unshow) in H. rewrite !map_map in H.
  erewrite (map_ext _ (fun p => p)), map_id in H by apply unshow_eq. erewrite (map_ext _ (fun p => p)), map_id in H by apply unshow_eq. exact H.
Qed.
Lemma sites_perm l l' : map show_site l ≡ₚ map show_site l' -> l ≡ₚ l'.
Proof.
  intros H. apply (Permutation_map (fun '(x, a) => mk_site x a)) in H. rewrite !map_map in H.
  erewrite (map_ext _ (fun p => p)), map_id in H by (intros []; reflexivity).
  erewrite (map_ext _ (fun p => p)), map_id in H by (intros []; reflexivity). exact H.
Qed.
Lemma nodup_map_inj {A B C} (g : A -> B) (h : A -> C) l : (forall x y, In x l -> In y l -> h x = h y -> g x = g y) ->
  List.NoDup (map g l) -> List.NoDup (map h l).
Proof.
  induction l as [|x l IH]; intros H Hn; [constructor|]. cbn [map] in *. inversion Hn as [|? ? Hx Hl]; subst. constructor.
  - intros Hi. apply in_map_iff in Hi. destruct Hi as (y & E & Hy). apply Hx. rewrite (H x y); [apply in_map, Hy|left; reflexivity|right; exact Hy|symmetry; exact E].
  - apply IH; [|exact Hl]. intros a c Ha Hc. apply H; right; assumption.
Qed.
Lemma nodup_filter_map {A B} (g : A -> B) (h : A -> bool) l : List.NoDup (map g l) -> List.NoDup (map g (List.filter h l)).
Proof.
  induction l as [|x l IH]; intros Hn; [constructor|]. cbn [map List.filter] in *. inversion Hn as [|? ? Hx Hl]; subst.
  destruct (h x); [|apply IH, Hl]. cbn [map]. constructor; [|apply IH, Hl]. intros Hi. apply Hx.
  apply in_map_iff in Hi. destruct Hi as (y & <- & Hy). apply filter_In in Hy. apply in_map, Hy.
Qed.

Definition known_id (p : password) : Prop := In (id_name (pass_id p), id_revision (pass_id p)) (sc_ids sc).
Definition found_passwords (l l' : list password) : Prop := l ≡ₚ l' /\ List.NoDup (map password_key l) /\ Forall known_id l.

Lemma show_id p : fst (show_password p) = pid_of (pass_id p).
Proof. destruct p; reflexivity. Qed.

Lemma rel_list x n : placed x -> relM found_passwords (list_ P x n) (list_ P' x n).
Proof.
  intros (H1 & H2) s s' Hs.
  assert (covered sc (ListPasswords x n)) as Ho by cover.
  destruct (twins_exec (ListPasswords x n) s s' Hs Ho I) as [Hr Ht].
  destruct Hs as (w & w' & k & R & _). destruct (one_step P HP sc Hsc bd HA (ListPasswords x n) s w R Ho eq_refl) as (wr & _ & _ & A).
  cbn [exec] in *. unfold as_out in *. cbn [fst snd] in *. split; [|exact Ht].
  destruct (fst (list_ P x n s)) as [l|e|], (fst (list_ P' x n s')) as [l'|e'|]; cbn in Hr |- *; try exact I;
    try (destruct Hr as (? & Hr & _); discriminate Hr); try discriminate Hr; [|congruence].
  destruct Hr as (l2 & [= <-] & Hp). apply shown_perm in Hp. split; [exact Hp|].
  cbn [vstep] in A. destruct R as [M _]. unfold mem_rep in M. destruct (w_open w); [|cbn in A; discriminate A].
  destruct (w_mem w) as [[pp v]|]; [|cbn in A; discriminate A]. destruct M as (i & D & _). cbn in A. destruct A as (l3 & [= <-] & A).
  assert (Forall (fun p => in_ids (sc_sites sc) (sc_ids sc) (pid_of (pass_id p)) /\ id_site (pass_id p) = target v x) l) as Hf.
  { apply List.Forall_forall. intros p Hin. apply (in_map show_password) in Hin. apply (Permutation_in _ A) in Hin.
    apply filter_In in Hin. pose proof (show_id p) as Ei. destruct (show_password p) as [j e]. cbn in Ei. subst j. destruct Hin as [Hin Hb].
    apply andb_prop in Hb. destruct Hb as [Hb _]. apply bytes_eqb_eq in Hb.
    split; [|exact Hb]. apply elem_of_list_In, elem_of_map_to_list in Hin. apply (dr_pw _ _ _ _ _ _ _ _ _ D _ _ Hin). }
  rewrite List.Forall_forall in Hf. split.
  - apply (nodup_map_inj (fun p => fst (show_password p))).
    + intros p q Hp1 Hq1 E. rewrite !show_id. destruct (Hf p Hp1) as [[_ Hi] Hsi], (Hf q Hq1) as [[_ Hj] Hsj].
      unfold password_key in E. unfold pid_of in *. cbn in Hi, Hj. pose proof (Hso _ _ _ _ Hi Hj E) as X. injection X as -> ->. congruence.
    + rewrite <- (map_map show_password fst). eapply (Permutation_NoDup (l := map fst _)); [apply Permutation_map; symmetry; exact A|].
      apply nodup_filter_map. rewrite <- NoDup_ListNoDup. apply NoDup_fst_map_to_list.
  - apply List.Forall_forall. intros p Hin. destruct (Hf p Hin) as [[_ H] _]. exact H.
Qed.

Definition known_site (x : M_Types.site) : Prop :=
  In (site_name x) (sc_sites sc) /\ forall a, site_alias x = Some a -> In a (sc_sites sc).
Definition found_sites (l l' : list M_Types.site) : Prop := l ≡ₚ l' /\ List.NoDup (map site_name l) /\ Forall known_site l.

Lemma rel_list_sites p : relM found_sites (list_sites P p) (list_sites P' p).
Proof.
  intros s s' Hs.
  assert (covered sc (ListSites p)) as Ho by cover.
  destruct (twins_exec (ListSites p) s s' Hs Ho I) as [Hr Ht].
  destruct Hs as (w & w' & k & R & _). destruct (one_step P HP sc Hsc bd HA (ListSites p) s w R Ho eq_refl) as (wr & _ & _ & A).
  cbn [exec] in *. unfold as_out in *. cbn [fst snd] in *. split; [|exact Ht].
  destruct (fst (list_sites P p s)) as [l|e|], (fst (list_sites P' p s')) as [l'|e'|]; cbn in Hr |- *; try exact I;
    try (destruct Hr as (? & Hr & _); discriminate Hr); try discriminate Hr; [|congruence].
  destruct Hr as (l2 & [= <-] & Hp). apply sites_perm in Hp. split; [exact Hp|].
  cbn [vstep] in A. destruct R as [M _]. unfold mem_rep in M. destruct (w_open w); [|cbn in A; discriminate A].
  destruct (w_mem w) as [[pp v]|]; [|cbn in A; discriminate A]. destruct M as (i & D & _). cbn in A. destruct A as (l3 & [= <-] & A).
  split.
  - assert (map site_name l = map fst (map show_site l)) as -> by (rewrite map_map; reflexivity).
    eapply (Permutation_NoDup (l := map fst _)); [apply Permutation_map; symmetry; exact A|].
    apply nodup_filter_map. rewrite <- NoDup_ListNoDup. apply NoDup_fst_map_to_list.
  - apply List.Forall_forall. intros [x a] Hin. apply (in_map show_site) in Hin. apply (Permutation_in _ A) in Hin. apply filter_In in Hin. destruct Hin as [Hin _].
    apply elem_of_list_In, elem_of_map_to_list in Hin. destruct (dr_site _ _ _ _ _ _ _ _ _ D _ _ Hin) as (E1 & E2 & _). split; assumption.
Qed.

Lemma regular_known l : List.NoDup (map site_name l) -> Forall known_site l ->
  Forall (fun x => In (site_name x) (sc_sites sc)) (regular_sites (arrange_sites l)).
Proof.
  intros Hn Hk. rewrite List.Forall_forall in *. intros x Hx. unfold regular_sites in Hx. apply filter_In in Hx. destruct Hx as [Hx _].
  apply arranged_in in Hx; [|rewrite map_map; exact Hn]. destruct Hx as [Hx|(a & y & -> & Hy & _)]; [apply Hk, Hx|].
  apply in_map_iff in Hy. destruct Hy as (z & E & Hz). injection E as <- E. apply (Hk z Hz). exact E.
Qed.

(** ** The program *)

Context (sp : bool).

Definition inputs (t : term) : Prop := exists es, entered sp t es /\ entries_fit sc es.
Definition pair_of (t t' : term) : Prop := (same_screen t t' /\ inputs t) /\ twins (t_st t) (t_st t').
Definition relC {A} (RA : A -> A -> Prop) (c c' : C A) : Prop :=
  forall t t', pair_of t t' -> cres_rel RA (fst (c t)) (fst (c' t')) /\ pair_of (snd (c t)) (snd (c' t')).

Lemma relC_bind {A B} (RA : A -> A -> Prop) (RB : B -> B -> Prop) m m' f f' :
  relC RA m m' -> (forall a a', RA a a' -> relC RB (f a) (f' a')) -> relC RB (cbind m f) (cbind m' f').
Proof.
  intros H Hf s s' Hs. specialize (H s s' Hs). unfold cbind. destruct (m s) as [r u], (m' s') as [r' u']. cbn [fst snd] in H.
  destruct H as [Hr Hu]. destruct r, r'; cbn in Hr; try contradiction.
  - apply (Hf _ _ Hr u u' Hu).
  - subst. split; [reflexivity|exact Hu].
  - split; [exact I|exact Hu].
  - split; [exact I|exact Hu].
Qed.
Lemma relC_ret {A} (RA : A -> A -> Prop) a a' : RA a a' -> relC RA (cret a) (cret a').
Proof. intros H t t' Ht. split; [exact H|exact Ht]. Qed.
Lemma relC_fail {A} (RA : A -> A -> Prop) m : relC RA (cfail m) (cfail m).
Proof. intros t t' Ht. split; [reflexivity|exact Ht]. Qed.
Lemma relC_if {A} (RA : A -> A -> Prop) (b : bool) c1 c2 c1' c2' : relC RA c1 c1' -> relC RA c2 c2' ->
  relC RA (if b then c1 else c2) (if b then c1' else c2').
Proof. destruct b; auto. Qed.

Lemma pair_st t t' s s' : pair_of t t' -> twins s s' -> pair_of (with_st s t) (with_st s' t').
Proof. intros [H _] Hs. split; [exact H|exact Hs]. Qed.

Lemma relC_api {A} (RA : A -> A -> Prop) m m' : relM RA m m' -> relC RA (api m) (api m').
Proof.
  intros H t t' Ht. specialize (H _ _ (proj2 Ht)). unfold api. destruct (m (t_st t)) as [r u], (m' (t_st t')) as [r' u'].
  cbn [fst snd] in *. destruct H as [Hr Hu]. split; [|apply pair_st; assumption].
  destruct r, r'; cbn in Hr |- *; try contradiction; auto. congruence.
Qed.
Lemma relC_api_or {A} (m m' : M A) d : relM eq m m' -> relC eq (api_or m d) (api_or m' d).
Proof.
  intros H t t' Ht. specialize (H _ _ (proj2 Ht)). unfold api_or. destruct (m (t_st t)) as [r u], (m' (t_st t')) as [r' u'].
  cbn [fst snd] in *. destruct H as [Hr Hu]. split; [|apply pair_st; assumption].
  destruct r, r'; cbn in Hr |- *; try contradiction; auto.
Qed.
Lemma relC_api_res {A} (RA : A -> A -> Prop) (m m' : M A) : relM RA m m' -> relC (res_rel RA) (api_res m) (api_res m').
Proof.
  intros H t t' Ht. specialize (H _ _ (proj2 Ht)). unfold api_res. destruct (m (t_st t)) as [r u], (m' (t_st t')) as [r' u'].
  cbn [fst snd] in *. destruct H as [Hr Hu]. split; [|apply pair_st; assumption].
  destruct r, r'; cbn in Hr |- *; try contradiction; auto.
Qed.

Lemma rel_print b : relC eq (print b) (print b).
Proof.
  intros t t' [[(e1 & e2 & e3 & e4 & e5 & e6 & e7 & e8) Hi] Hs]. unfold print. rewrite <- e2.
  destruct (last_line (t_buf t ++ b)). split; [reflexivity|]. split; [split; [repeat split; cbn; congruence|exact Hi]|exact Hs].
Qed.
Lemma rel_println b : relC eq (println b) (println b).
Proof. apply rel_print. Qed.
Lemma rel_flush_stdout : relC eq flush_stdout flush_stdout.
Proof.
  intros t t' [[(e1 & e2 & e3 & e4 & e5 & e6 & e7 & e8) Hi] Hs]. split; [reflexivity|]. split; [split; [repeat split; cbn; congruence|exact Hi]|exact Hs].
Qed.
Lemma rel_write b : relC eq (write_direct b) (write_direct b).
Proof.
  intros t t' [[(e1 & e2 & e3 & e4 & e5 & e6 & e7 & e8) Hi] Hs]. split; [reflexivity|]. split; [split; [repeat split; cbn; congruence|exact Hi]|exact Hs].
Qed.
Lemma rel_eprintln m : relC eq (eprintln m) (eprintln m).
Proof.
  intros t t' [[(e1 & e2 & e3 & e4 & e5 & e6 & e7 & e8) Hi] Hs]. split; [reflexivity|]. split; [split; [repeat split; cbn; congruence|exact Hi]|exact Hs].
Qed.
Lemma rel_confirm : relC eq confirm confirm.
Proof.
  intros t t' [[(e1 & e2 & e3 & e4 & e5 & e6 & e7 & e8) Hi] Hs]. unfold confirm. rewrite <- e6. destruct (t_confirms t) as [|a l] eqn:El.
  - split; [exact I|]. split; [split; [repeat split; cbn [snd]; congruence|exact Hi]|exact Hs].
  - split; [reflexivity|]. split; [split; [repeat split; cbn; congruence|exact Hi]|exact Hs].
Qed.
Lemma rel_ask : relC eq ask ask.
Proof.
  intros t t' [[(e1 & e2 & e3 & e4 & e5 & e6 & e7 & e8) Hi] Hs]. unfold ask. rewrite <- e7. destruct (t_asks t) as [|a l] eqn:El.
  - split; [exact I|]. split; [split; [repeat split; cbn [snd]; congruence|exact Hi]|exact Hs].
  - split; [reflexivity|]. split; [split; [repeat split; cbn; congruence|exact Hi]|exact Hs].
Qed.
Definition entry_rel (a a' : bytes) : Prop := a = a' /\ utf8 a = true /\ (6 <= length a -> In a (sc_pws sc)).

Lemma no_entries : entries_fit sc [Some []].
Proof. intros e [[= <-]|[]]. split; [reflexivity|]. intros Hl. exfalso. cbn in Hl. lia. Qed.
Lemma rel_prompt p : relC entry_rel (prompt_password p sp) (prompt_password p sp).
Proof.
  intros t t' [[He1 (es & He & Hi)] Hs]. destruct (prompt_same sp p t t' He1) as (H1 & H2 & H3 & H4).
  assert (match fst (prompt_password p sp t) with COk a => utf8 a = true /\ (6 <= length a -> In a (sc_pws sc)) | _ => True end /\ inputs (snd (prompt_password p sp t))) as [H5 H6].
  { destruct es as [|x es].
    - destruct sp eqn:Esp.
      + destruct He as (ls & Hn & _ & _ & Hm). destruct ls; [contradiction|discriminate].
      + rewrite (prompt_waits p t He). split; [exact I|]. exists []. rewrite Esp. split; [exact He|intros ? []].
    - destruct (prompt_entered p sp t x es He) as (u & -> & Hp & Hr). cbn [fst snd]. split.
      + destruct x as [c|]; [|exact I]. destruct (Hi c (or_introl eq_refl)) as [Hu Hl]. split; [apply trim_utf8, Hu|exact Hl].
      + destruct Hr as [Hr|(E1 & -> & Hr)]; [exists es; split; [exact Hr|intros e Hin; apply Hi; right; exact Hin]|].
        exists [Some []]. rewrite E1. split; [apply entered_end, Hr|apply no_entries]. }
  split.
  - destruct (fst (prompt_password p sp t)), (fst (prompt_password p sp t')); cbn in H1 |- *; try contradiction; auto. split; [exact H1|exact H5].
  - split; [split; [exact H2|exact H6]|]. rewrite H3, H4. exact Hs.
Qed.
Lemma rel_secret p : relC (fun a a' => a = a' /\ utf8 a = true) (prompt_secret_text p) (prompt_secret_text p).
Proof.
  intros t t' [[He1 (es & He & Hi)] Hs].
  assert (cres_rel (fun a a' => a = a' /\ utf8 a = true) (fst (prompt_secret_text p t)) (fst (prompt_secret_text p t')) /\
    same_screen (snd (prompt_secret_text p t)) (snd (prompt_secret_text p t')) /\
    t_st (snd (prompt_secret_text p t)) = t_st t /\ t_st (snd (prompt_secret_text p t')) = t_st t' /\
    t_tty (snd (prompt_secret_text p t)) = t_tty t) as (H1 & H2 & H3 & H4 & H5).
  { destruct He1 as (e1 & e2 & e3 & e4 & e5 & e6 & e7 & e8). unfold prompt_secret_text, cbind, write_direct. cbn [t_stdin with_out]. rewrite <- e4.
    destruct (read_line (t_stdin t)) as [line rest]. cbn [fst snd]. destruct (utf8 line) eqn:Eu; (split; [cbn; auto|]); repeat split; cbn; congruence. }
  split; [exact H1|]. split; [split; [exact H2|]|rewrite H3, H4; exact Hs]. unfold inputs.
  destruct sp eqn:Esp; [|exists es; split; [|exact Hi]; unfold entered in He |- *; rewrite H5; exact He].
  destruct es as [|x es]; [destruct He as (ls & Hn & _ & _ & Hm); destruct ls; [contradiction|discriminate]|].
  destruct (prompt_secret_entered p t x es He) as (u & -> & _ & Hr). cbn [snd].
  destruct Hr as [Hr|(E1 & -> & Hr)]; [exists es; split; [exact Hr|intros e Hin; apply Hi; right; exact Hin]|].
  exists [Some []]. split; [apply entered_end, Hr|apply no_entries].
Qed.

Lemma rel_unlock_loop n : relC eq (unlock_loop n P sp) (unlock_loop n P' sp).
Proof.
  induction n as [|n IH]; intros t t' Ht; cbn [unlock_loop]; destruct (twins_flags _ _ (proj2 Ht)) as [_ Hu]; rewrite <- Hu.
  - destruct (unlocked (t_st t)); split; try reflexivity; exact Ht.
  - destruct (unlocked (t_st t)); [split; [reflexivity|exact Ht]|]. revert t t' Ht Hu. intros t t' Ht _. revert t t' Ht.
    eapply relC_bind; [apply rel_prompt|]. intros p ? [<- [_ Hp]]. eapply relC_bind; [|intros _ _ _; exact IH].
    destruct (Nat.ltb_spec (length p) 6) as [_|Hl]; [apply rel_eprintln|]. eapply relC_bind; [apply relC_api_res, rel_unlock, Hp, Hl|].
    intros r r' Hr. destruct r, r'; cbn in Hr; try contradiction; subst; [apply relC_ret; reflexivity|apply rel_eprintln|apply relC_ret; reflexivity].
Qed.
Lemma rel_ensure : relC eq (ensure_unlocked P sp) (ensure_unlocked P' sp).
Proof.
  intros t t' Ht. unfold ensure_unlocked. destruct (twins_flags _ _ (proj2 Ht)) as [Hu _]. rewrite <- Hu.
  destruct (negb _); [split; [reflexivity|exact Ht]|].
  pose proof (proj1 (proj1 Ht)) as (e1 & e2 & e3 & e4 & e5 & e6 & e7 & e8). rewrite <- e4, <- e5. apply rel_unlock_loop, Ht.
Qed.

Lemma rel_state {A} (RA : A -> A -> Prop) (r : cres A) : cres_rel RA r r -> relC RA (fun t => (r, t)) (fun t => (r, t)).
Proof. intros H t t' Ht. split; [exact H|exact Ht]. Qed.

Lemma rel_recovery_loop asks acc : relC (fun a a' => a = a' /\ utf8 a = true) (recovery_loop P asks acc) (recovery_loop P' asks acc).
Proof.
  revert acc. induction asks as [|a0 asks IH]; intros acc; cbn [recovery_loop]; (eapply relC_bind; [apply rel_ask|]); intros a ? <-.
  - apply rel_state. exact I.
  - destruct a as [[| |line]|]; try apply IH. destruct line as [|c line]; [apply relC_fail|].
    eapply relC_bind; [apply relC_api_res, rel_decode|]. intros r r' Hr. destruct r as [v|e|], r' as [v'|e'|]; cbn in Hr; try contradiction; [apply relC_ret; exact Hr| |apply rel_state; exact I].
    subst e'. destruct e; try apply relC_fail.
    + eapply relC_bind; [apply (rel_state eq); destruct (first_lines _ _); reflexivity|]. intros x ? <-. eapply relC_bind; [apply rel_confirm|]. intros y ? <-.
      destruct y; try apply relC_fail. apply relC_api, rel_decode.
    + eapply relC_bind; [apply (rel_state eq); destruct (first_lines _ _); reflexivity|]. intros x ? <-. eapply relC_bind; [apply rel_eprintln|]. intros _ _ _. apply IH.
    + eapply relC_bind; [apply rel_eprintln|]. intros _ _ _. apply IH.
Qed.
Lemma rel_recovery : relC (fun a a' => a = a' /\ utf8 a = true) (prompt_recovery_code P) (prompt_recovery_code P').
Proof.
  intros t t' Ht. unfold prompt_recovery_code. pose proof (proj1 (proj1 Ht)) as (e1 & e2 & e3 & e4 & e5 & e6 & e7 & e8).
  rewrite <- e7. apply rel_recovery_loop, Ht.
Qed.

Ltac cstep := eapply relC_bind; [first [apply rel_ensure|apply rel_println|apply rel_write|apply rel_flush_stdout|apply rel_print|eassumption]|];
  intros ? ? ?; subst.

Lemma rel_overwrite y x n r : named x n r -> relC eq (OVERWRITE P y x n r) (OVERWRITE P' y x n r).
Proof.
  intros Hn. unfold OVERWRITE. apply relC_if; [apply relC_ret; reflexivity|].
  eapply relC_bind; [apply relC_api_or, rel_has, Hn|]. intros c ? <-. apply relC_if; [|apply relC_ret; reflexivity].
  eapply relC_bind; [apply rel_confirm|]. intros a ? <-. apply relC_ret. reflexivity.
Qed.

Lemma rel_list_password sh vb x p : In x (sc_sites sc) -> known_id p ->
  relC eq (list_password P sh false vb x p) (list_password P' sh false vb x p).
Proof.
  intros Hx Hp. unfold list_password. cstep. eapply (relC_bind eq).
  { destruct sh; [|apply relC_ret; reflexivity]. cstep. cstep. eapply relC_bind; [apply relC_api, rel_get|].
    - destruct (st_ids _ Hsc _ _ Hp) as (E1 & E2 & _). split; [split; [apply (st_sites _ Hsc), Hx|auto]|].
      split; [apply (cl_sites _ Hcl), Hx|apply (cl_ids _ Hcl), Hp].
    - intros ? ? <-. cstep. apply rel_println. }
  intros _ _ _. eapply relC_bind; [apply (relC_ret eq); reflexivity|]. intros _ _ _.
  destruct vb; [|apply relC_ret; reflexivity]. eapply (relC_bind eq).
  - destruct (pass_notes p); [apply relC_ret; reflexivity|]. cstep. cstep. cstep. apply rel_println.
  - intros _ _ _. destruct p; [cstep; apply rel_println|apply relC_ret; reflexivity].
Qed.

Definition found_rel (r r' : bool * list bytes) : Prop := r = r' /\ incl (snd r) (sc_sites sc).
Lemma rel_list_loop n sh vb all sites : Forall (fun x => In (site_name x) (sc_sites sc)) sites ->
  relC found_rel (list_loop P n sh false vb all sites) (list_loop P' n sh false vb all sites).
Proof.
  induction 1 as [|x sites Hx Hs IH]; cbn [list_loop]; [apply relC_ret; split; [reflexivity|intros ? []]|].
  assert (placed (site_name x)) as Hpl by (split; [apply (st_sites _ Hsc), Hx|apply (cl_sites _ Hcl), Hx]).
  eapply relC_bind; [apply relC_api, rel_list, Hpl|]. intros l l' (Hp & Hn & Hk). 
  destruct l as [|p l].
  - apply Permutation_nil in Hp. subst l'.
    eapply relC_bind; [apply IH|]. intros [c e] ? [<- Hi]. apply relC_ret. split; [reflexivity|]. cbn [snd] in *.
    destruct (bytes_eqb _ _); [|exact Hi]. intros z [<-|Hz]; auto.
  - destruct l' as [|q l']; [symmetry in Hp; apply Permutation_nil in Hp; discriminate Hp|].
    rewrite <- (sort_unique password_key _ _ Hp Hn).
    eapply relC_bind.
    { unfold heading. cstep. destruct vb, (aliased all (site_name x)); try (apply (relC_ret eq); reflexivity). apply rel_println. }
    intros _ _ _. eapply (relC_bind eq).
    { assert (Forall known_id (sort_by password_key (p :: l))) as Hk'.
      { rewrite List.Forall_forall in *. intros z Hz. apply Hk. apply in_sort in Hz. exact Hz. }
      revert Hk'. generalize (sort_by password_key (p :: l)). induction 1 as [|u m Hu _ IHm]; cbn [each]; [apply relC_ret; reflexivity|].
      eapply relC_bind; [apply rel_list_password; assumption|]. intros _ _ _. exact IHm. }
    intros _ _ _. eapply relC_bind; [apply IH|]. intros [c e] ? [<- Hi]. apply relC_ret. split; [reflexivity|exact Hi].
Qed.

Lemma fits_named x n r : utf8 x = true /\ utf8 n = true /\ utf8 r = true -> In (host x) (sc_sites sc) /\ In (n, rev_of r) (sc_ids sc) -> named x n r.
Proof. split; assumption. Qed.

Lemma rel_simple E path c : command_valid c -> fits sc c -> (forall y, c <> SetPrimary y) ->
  relC eq (process_simple P E path sp c) (process_simple P' E path sp c).
Proof.
  destruct c as [y|x n r len a c d e y|x n r rc y|x n r|x n r qr|x n r set|x n sh rc vb|x a r|]; cbn [fits command_valid process_simple]; intros Hv Hc Hns.
  - destruct (Hns y eq_refl).
  - destruct Hv as (V1 & V2 & V3 & arg & Hlen). assert (named x n r) as Hn by (apply fits_named; auto).
    unfold add_cmd. cstep. apply relC_if; [apply relC_fail|]. eapply relC_bind; [apply rel_overwrite, Hn|]. intros go ? <-.
    apply relC_if; [|apply relC_ret; reflexivity]. eapply relC_bind; [apply relC_api, rel_set_generated; [exact Hn|]|].
    { apply length_arg_bounds in Hlen. lia. }
    intros _ _ _. apply rel_println.
  - assert (named x n r) as Hn by (apply fits_named; auto). unfold add_stored_cmd. cstep. eapply relC_bind; [apply rel_overwrite, Hn|]. intros go ? <-.
    apply relC_if; [|apply relC_ret; reflexivity].
    eapply (relC_bind (fun a a' => a = a' /\ utf8 a = true)).
    { destruct rc; [apply rel_recovery|]. intros t t' Ht. destruct (rel_prompt (bs "Password to be stored: ") t t' Ht) as [H1 H2].
      split; [|exact H2]. destruct (fst (prompt_password _ sp t)), (fst (prompt_password _ sp t')); cbn in H1 |- *; try contradiction; auto.
      destruct H1 as (-> & H1 & _). auto. }
    intros pw ? [<- Hu].
    eapply relC_bind; [apply relC_api, rel_set_stored; assumption|]. intros _ _ _. apply rel_println.
  - unfold remove_cmd. cstep. eapply relC_bind; [apply relC_api, rel_remove, fits_named; assumption|]. intros _ _ _. apply rel_println.
  - unfold show_cmd. cstep. eapply relC_bind; [apply relC_api, rel_get, fits_named; assumption|]. intros v ? <-. cstep.
    destruct qr; [destruct (e_qr E v); [apply rel_write|apply relC_fail]|]. cstep. apply rel_write.
  - assert (named x n r) as Hn by (apply fits_named; auto). unfold notes_cmd. cstep.
    eapply relC_bind; [apply relC_api, rel_get_notes, Hn|]. intros t ? <-.
    eapply (relC_bind eq); [destruct t; [apply rel_println|cstep; cstep; apply rel_write]|]. intros _ _ _.
    destruct set; [|apply relC_ret; reflexivity]. eapply relC_bind; [apply rel_secret|]. intros m ? [<- Hu].
    eapply relC_bind; [apply relC_api, rel_set_notes; assumption|]. intros _ _ _. apply rel_println.
  - subst rc. unfold list_cmd. cstep. eapply relC_bind; [apply relC_api, rel_list_sites|]. intros l l' (Hp & Hn & Hk).
    rewrite <- (arrange_unique l l' Hp Hn). 
    eapply relC_bind; [apply rel_list_loop, regular_known; assumption|]. intros [c e] ? [<- Hi]. cbn [snd] in Hi.
    eapply relC_bind; [apply relC_api, rel_remove_sites, Hi|]. intros _ _ _. apply relC_if; [apply relC_ret; reflexivity|apply rel_println].
  - unfold alias_cmd. cstep. destruct a as [a|].
    + eapply relC_bind; [apply relC_api, rel_set_alias; split; apply Hv || apply Hc|]. intros _ _ _. apply rel_println.
    + apply relC_if.
      * eapply relC_bind; [apply relC_api, rel_remove_alias; split; [apply Hv|apply Hc]|]. intros _ _ _. apply rel_println.
      * eapply relC_bind; [apply relC_api, rel_get_alias; split; [apply Hv|apply Hc]|]. intros y ? <-. apply rel_println.
  - apply relC_ret. reflexivity.
Qed.

Lemma rel_with_lines {A} (RA : A -> A -> Prop) l c c' : relC RA c c' -> relC RA (fun t => c (with_lines l t)) (fun t => c' (with_lines l t)).
Proof.
  intros H t t' [[(e1 & e2 & e3 & e4 & e5 & e6 & e7 & e8) Hi] Hs]. apply H. split; [split; [repeat split; cbn; congruence|exact Hi]|exact Hs].
Qed.

Lemma rel_shell_step E path line :
  (forall c, e_parse E line = SCommand c -> command_valid c /\ fits sc c) ->
  relC eq (shell_step P E path sp line) (shell_step P' E path sp line).
Proof.
  intros H. unfold shell_step. destruct (e_parse E line) as [m| | |c] eqn:Ep.
  - eapply relC_bind; [apply rel_eprintln|]. intros _ _ _. apply relC_ret. reflexivity.
  - apply relC_ret. reflexivity.
  - eapply relC_bind; [apply relC_api, rel_lock|]. intros _ _ _. cstep. apply relC_ret. reflexivity.
  - assert (relC eq (fun t => match process_simple P E path sp c t with
        | (COk _, t') => (let& _ := flush_stdout in cret true) t'
        | (CErr m, t') => (let& _ := eprintln m in cret true) t'
        | (CPanic, t') => (CPanic, t')
        | (CStuck, t') => (CStuck, t')
        end) (fun t => match process_simple P' E path sp c t with
        | (COk _, t') => (let& _ := flush_stdout in cret true) t'
        | (CErr m, t') => (let& _ := eprintln m in cret true) t'
        | (CPanic, t') => (CPanic, t')
        | (CStuck, t') => (CStuck, t')
        end) \/ exists y, c = SetPrimary y) as [Hg|[y ->]].
    { destruct c; try (left; intros t t' Ht; pose proof (rel_simple E path _ (proj1 (H _ eq_refl)) (proj2 (H _ eq_refl)) ltac:(discriminate) t t' Ht) as Hp;
        destruct (process_simple P E path sp _ t) as [r u], (process_simple P' E path sp _ t') as [r' u']; cbn [fst snd] in Hp;
        destruct Hp as [Hr Hu]; destruct r, r'; cbn in Hr; try contradiction;
        [|subst| |]; [revert u u' Hu; eapply relC_bind; [apply rel_flush_stdout|intros _ _ _; apply relC_ret; reflexivity]
                     |revert u u' Hu; eapply relC_bind; [apply rel_eprintln|intros _ _ _; apply relC_ret; reflexivity]
                     |split; [exact I|exact Hu]|split; [exact I|exact Hu]]).
      right. eauto. }
    + destruct c; try exact Hg; (eapply relC_bind; [apply rel_eprintln|]; intros _ _ _; apply relC_ret; reflexivity).
    + eapply relC_bind; [apply rel_eprintln|]. intros _ _ _. apply relC_ret. reflexivity.
Qed.

Lemma rel_shell_loop E path lines : externals_valid E -> lines_fit sc E lines ->
  relC eq (shell_loop P E path sp lines) (shell_loop P' E path sp lines).
Proof.
  intros HE. induction lines as [|x lines IH]; intros H; cbn [shell_loop]; [apply rel_state; exact I|].
  assert (lines_fit sc E lines) as H' by (intros line c Hin; apply H; right; exact Hin). specialize (IH H').
  destruct x as [line| | |].
  - eapply relC_bind; [apply rel_with_lines, rel_shell_step; intros c Ec; split; [apply (HE _ _ Ec)|apply (H line c); [left; reflexivity|exact Ec]]|].
    intros go ? <-. apply relC_if; [exact IH|apply relC_ret; reflexivity].
  - apply rel_with_lines, IH.
  - apply (rel_with_lines eq lines (fun t => (COk tt, t)) (fun t => (COk tt, t))), rel_state. reflexivity.
  - apply (rel_with_lines eq lines (let& _ := eprintln (Text (bs "Error: ")) in shell_loop P E path sp lines)
      (let& _ := eprintln (Text (bs "Error: ")) in shell_loop P' E path sp lines)).
    eapply relC_bind; [apply rel_eprintln|]. intros _ _ _. exact IH.
Qed.

Lemma rel_command E path c t t' : externals_valid E -> command_valid c -> fits sc c -> lines_fit sc E (t_lines t) ->
  (forall y, c <> SetPrimary y) -> pair_of t t' ->
  cres_rel eq (fst (process_command P E path sp c t)) (fst (process_command P' E path sp c t')) /\
  pair_of (snd (process_command P E path sp c t)) (snd (process_command P' E path sp c t')).
Proof.
  intros HE Hv Hc Hl Hns Ht. destruct c; try (apply rel_simple; assumption). cbn [process_command]. unfold shell_cmd, cbind.
  pose proof (rel_println SHELL_HELP t t' Ht) as [_ H1]. unfold println, print in *.
  destruct (last_line (t_buf t ++ _)) as [a c], (last_line (t_buf t' ++ _)) as [a' c']. cbn [snd] in H1.
  pose proof (rel_flush_stdout _ _ H1) as [_ H2]. unfold flush_stdout in *. cbn [snd] in H2.
  pose proof (proj1 (proj1 H2)) as (_ & _ & _ & _ & _ & _ & _ & e8). rewrite <- e8. apply rel_shell_loop; [exact HE|exact Hl|exact H2].
Qed.

(** ** The end: a new primary password, or whatever *)

Definition relX {A} (c c' : C A) : Prop :=
  forall t t', pair_of t t' -> cres_rel eq (fst (c t)) (fst (c' t')) /\ same_screen (snd (c t)) (snd (c' t')).
Lemma relX_of {A} (c c' : C A) : relC eq c c' -> relX c c'.
Proof. intros H t t' Ht. destruct (H t t' Ht) as [H1 H2]. split; [exact H1|apply H2]. Qed.
Lemma relX_bind {A B} (RA : A -> A -> Prop) m m' (g g' : A -> C B) :
  relC RA m m' -> (forall a a', RA a a' -> relX (g a) (g' a')) -> relX (cbind m g) (cbind m' g').
Proof.
  intros H Hf s s' Hs. specialize (H s s' Hs). unfold cbind. destruct (m s) as [r u], (m' s') as [r' u']. cbn [fst snd] in H.
  destruct H as [Hr Hu]. destruct r, r'; cbn in Hr; try contradiction.
  - apply (Hf _ _ Hr u u' Hu).
  - subst. split; [reflexivity|apply Hu].
  - split; [exact I|apply Hu].
  - split; [exact I|apply Hu].
Qed.

Lemma reset_out Q pp s : prims_ok Q -> fst (exec Q (Reset pp) s) =
  match p_write Q (s_flushes s) with WriteOk => ODone | CreateDirFails => OErr CreateDirFailure | _ => OErr FileWriteFailure end.
Proof.
  intros HQ. destruct (reset_cases Q pp s HQ) as (s1 & _ & _ & Ef & _ & _ & _ & _ & H). unfold flush in H. rewrite Ef in H.
  destruct (p_write Q (s_flushes s)); destruct H as [(H1 & H2 & _)|(H1 & H2)]; try discriminate H1; try exact H2; rewrite H2 in *; try reflexivity.
Qed.
Lemma rel_set_primary path : relX (set_primary_cmd P path sp) (set_primary_cmd P' path sp).
Proof.
  unfold set_primary_cmd. eapply relX_bind; [apply rel_prompt|]. intros p ? [<- _].
  destruct (_ <? _); [apply relX_of, relC_fail|]. eapply relX_bind; [apply rel_prompt|]. intros q ? [<- _].
  destruct (negb _); [apply relX_of, relC_fail|]. intros t t' Ht.
  assert (fst (reset P p (t_st t)) = fst (reset P' p (t_st t'))) as Er.
  { pose proof (reset_out P p (t_st t) HP) as E1. pose proof (reset_out P' p (t_st t') HP') as E2.
    destruct Ht as [_ (w & w' & k & _ & _ & _ & _ & F & F')]. rewrite F in E1. rewrite F' in E2. cbn [with_luck p_write] in E2. rewrite <- Hw in E2.
    rewrite <- E1 in E2. clear E1. cbn [exec] in E2. unfold as_out in E2. cbn [fst] in E2.
    destruct (fst (reset P p (t_st t))) as [[]|e|], (fst (reset P' p (t_st t'))) as [[]|e'|]; try discriminate E2; try reflexivity. congruence. }
  destruct Ht as [[(e1 & e2 & e3 & e4 & e5 & e6 & e7 & e8) _] _]. unfold cbind, api.
  destruct (reset P p (t_st t)) as [r u], (reset P' p (t_st t')) as [r' u']. cbn [fst] in Er. subst r'.
  destruct r as [[]|e|]; cbn [cres_rel].
  - unfold println, print. cbn [with_st t_buf]. rewrite <- e2. destruct (last_line _) as [c d]. split; [reflexivity|]. repeat split; cbn; congruence.
  - split; [reflexivity|]. repeat split; assumption.
  - split; [exact I|]. repeat split; assumption.
Qed.

Lemma rel_any E path c t t' : externals_valid E -> command_valid c -> fits sc c -> lines_fit sc E (t_lines t) -> pair_of t t' ->
  cres_rel eq (fst (process_command P E path sp c t)) (fst (process_command P' E path sp c t')) /\
  same_screen (snd (process_command P E path sp c t)) (snd (process_command P' E path sp c t')).
Proof.
  intros HE Hv Hc Hl Ht. assert ((exists y, c = SetPrimary y) \/ forall y, c <> SetPrimary y) as [[y ->]|Hns].
  { destruct c; try (right; intros ?; discriminate). left. eauto. }
  - apply rel_set_primary, Ht.
  - destruct (rel_command E path c t t' HE Hv Hc Hl Hns Ht) as [H1 H2]. split; [exact H1|apply H2].
Qed.

Lemma rel_main E path a t t' d d' : a_stdin_passwords a = sp ->
  load P (s_disk (t_st t)) = Ok d -> load P' (s_disk (t_st t')) = Ok d' ->
  pair_of (with_st (passwords_new d (t_st t)) t) (with_st (passwords_new d' (t_st t')) t') ->
  externals_valid E -> command_valid (a_command a) -> fits sc (a_command a) -> lines_fit sc E (t_lines t) ->
  let '(x, u) := main P E path a t in let '(x', u') := main P' E path a t' in x = x' /\ same_screen u u'.
Proof.
  intros Esp Hd Hd' Hp HE Hv Hc Hl. unfold main, main_inner, start_process, cbind. rewrite Hd, Hd', Esp.
  set (u := with_st _ t) in *. set (u' := with_st _ t') in *.
  assert (forall c, cres_rel eq (fst (process_command P E path sp (a_command a) u)) (fst (process_command P' E path sp (a_command a) u')) /\
    same_screen (snd (process_command P E path sp (a_command a) u)) (snd (process_command P' E path sp (a_command a) u')) -> c = a_command a ->
    let '(x, u) := match process_command P E path sp c u with
      | (COk _, t') => (Success, snd (flush_stdout (snd (api lock t'))))
      | (CErr m, t') => (Failure, snd (flush_stdout (snd (api lock (snd (eprintln m t'))))))
      | (CPanic, t') => (Aborted, t')
      | (CStuck, t') => (Waiting, t')
      end in
    let '(x', u') := match process_command P' E path sp c u' with
      | (COk _, t') => (Success, snd (flush_stdout (snd (api lock t'))))
      | (CErr m, t') => (Failure, snd (flush_stdout (snd (api lock (snd (eprintln m t'))))))
      | (CPanic, t') => (Aborted, t')
      | (CStuck, t') => (Waiting, t')
      end in x = x' /\ same_screen u u') as K.
  { intros c [H1 H2] ->.
    destruct (process_command P E path sp _ u) as [r v], (process_command P' E path sp _ u') as [r' v'];
     cbn [fst snd] in H1, H2; destruct r, r'; cbn in H1; try contradiction;
     (split; [reflexivity|]); destruct H2 as (e1 & e2 & e3 & e4 & e5 & e6 & e7 & e8); repeat split; cbn; congruence. }
  assert (forall c, c = a_command a -> lines_fit sc E (t_lines u)) as Hl' by (intros _ _; exact Hl).
  destruct (a_command a) as [y| | | | | | | |] eqn:Ec;
    [|apply K; [apply rel_any; assumption|reflexivity]..].
  destruct y; [apply K; [apply rel_any; assumption|reflexivity]|].
  pose proof (rel_confirm u u' Hp) as [H1 H2]. 
  destruct (confirm u) as [r v] eqn:Ev, (confirm u') as [r' v'] eqn:Ev'. cbn [fst snd] in H1, H2.
  destruct r as [x|m| |], r' as [x'|m'| |]; cbn in H1; try contradiction; cbn [cret].
  - subst x'.
    assert (lines_fit sc E (t_lines v)) as Hlv.
    { unfold confirm in Ev. destruct (t_confirms u); [discriminate Ev|]. injection Ev as _ <-. exact Hl. }
    pose proof (rel_any E path (SetPrimary false) v v' HE I I Hlv H2) as [G1 G2].
    destruct x; cbn [cret].
    2: { split; [reflexivity|]. destruct H2 as [[(e1 & e2 & e3 & e4 & e5 & e6 & e7 & e8) _] _]. repeat split; cbn; congruence. }
    all: destruct (process_command P E path sp _ v) as [r w], (process_command P' E path sp _ v') as [r' w'];
     cbn [fst snd] in G1, G2; destruct r, r'; cbn in G1; try contradiction;
     (split; [reflexivity|]); destruct G2 as (e1 & e2 & e3 & e4 & e5 & e6 & e7 & e8); repeat split; cbn; congruence.
  - subst m'. split; [reflexivity|]. destruct H2 as [[(e1 & e2 & e3 & e4 & e5 & e6 & e7 & e8) _] _]. repeat split; cbn; congruence.
  - split; [reflexivity|apply H2].
  - split; [reflexivity|apply H2].
Qed.
End luck.

Lemma saved_rep P sc pp v i d : saved P sc pp v i d -> data_rep P (sc_sites sc) (sc_ids sc) (sc_pws sc) (i + 3) i pp d v.
Proof.
  intros [[c1 c2 c3 c4 c5] Hn Hp Hs Hi Ht HA]. split.
  - lia.
  - exact Hp.
  - exact c1.
  - exact Hn.
  - intros x a Hx. destruct (Hs x a Hx) as [H1 H2]. split; [exact H1|]. split; [exact H2|].
    destruct (c3 x a Hx) as (c & E & (rnd & ->)). exists rnd. exact E.
  - intros [[x n] r] e He. destruct (Hi x n r ltac:(eauto)) as [H1 H2]. split; [split; assumption|].
    destruct (Ht x n r e He) as (_ & _ & _ & T1 & T2). split.
    + split; [exact T1|]. destruct (e_secret e); [unfold u64_max; lia|exact T2].
    + destruct (c4 x n r e He) as (c & E & (rnd & ->)). exists rnd. rewrite pkey_eq. exact E.
  - intros k Hk. destruct (c5 k Hk) as [H|[H|[H|(x & n & r & H & E)]]]; auto.
    right. right. right. exists (x, n, r). split; [exact H|]. rewrite pkey_eq. exact E.
Qed.

Lemma printed_alike P rnd ord wf E path a t t' sc pp v i i' d d' es :
  let P' := with_luck P rnd ord wf in
  prims_ok P -> prims_ok P' -> scope_texts sc -> closed sc -> sortable sc ->
  load P (s_disk (t_st t)) = Ok d -> load P' (s_disk (t_st t')) = Ok d' ->
  saved P sc pp v i d -> saved P' sc pp v i' d' -> same_screen t t' ->
  (forall k, p_write P (s_flushes (t_st t) + k) = wf (s_flushes (t_st t') + k)) ->
  entered (a_stdin_passwords a) t es -> entries_fit sc es ->
  externals_valid E -> command_valid (a_command a) -> fits sc (a_command a) -> lines_fit sc E (t_lines t) ->
  let '(x, u) := main P E path a t in let '(x', u') := main P' E path a t' in x = x' /\ same_screen u u'.
Proof.
  intros P' HP HP' Hsc Hcl Hso Hd Hd' S S' Hss Hw He Hef HE Hv Hc Hl.
  apply (rel_main P rnd ord wf HP HP' sc Hsc Hcl Hso (i + 3) (i' + 3) (sv_assumptions _ _ _ _ _ _ S) (sv_assumptions _ _ _ _ _ _ S')
    _ _ Hw (a_stdin_passwords a) E path a t t' d d' eq_refl Hd Hd'); try assumption.
  split; [split; [exact Hss|exists es; split; assumption]|].
  exists (mk_world (Some (pp, v)) false (Some (pp, v))), (mk_world (Some (pp, v)) false (Some (pp, v))), 0.
  pose proof (saved_rep _ _ _ _ _ _ S) as R. pose proof (saved_rep _ _ _ _ _ _ S') as R'.
  split; [split; [exists i; split; [exact R|repeat split]|exists i, d; split; [exact Hd|exact R]]|].
  split; [split; [exists i'; split; [exact R'|repeat split]|exists i', d'; split; [exact Hd'|exact R']]|].
  repeat split; cbn; lia.
Qed.

Lemma rep_saved P sc bound pp v i d : (forall x, In x (sc_sites sc) -> utf8 x = true) -> (forall n r, In (n, r) (sc_ids sc) -> utf8 n = true /\ utf8 r = true /\ ~ In x00 n) ->
  assumptions P (sc_sites sc) (sc_ids sc) (sc_pws sc) bound ->
  data_rep P (sc_sites sc) (sc_ids sc) (sc_pws sc) bound i pp d v -> contents P pp i d v -> saved P sc pp v i d.
Proof.
  intros HDs HIds HA R Hc. pose proof (dr_bound _ _ _ _ _ _ _ _ _ R) as Hb. split.
  - exact Hc.
  - exact (dr_hmac _ _ _ _ _ _ _ _ _ R).
  - exact (dr_pp _ _ _ _ _ _ _ _ _ R).
  - intros x a Hx. destruct (dr_site _ _ _ _ _ _ _ _ _ R x a Hx) as (H1 & H2 & _). auto.
  - intros x n r [e He]. destruct (dr_pw _ _ _ _ _ _ _ _ _ R _ _ He) as (H1 & _). exact H1.
  - intros x n r e He. destruct (dr_pw _ _ _ _ _ _ _ _ _ R _ _ He) as ([H1 H2] & [H3 H4] & _). cbn in H1, H2.
    destruct (HIds _ _ H2) as (U1 & U2 & _). split; [apply HDs, H1|]. split; [exact U1|]. split; [exact U2|]. split; [exact H3|].
    destruct (e_secret e); [unfold u64_max in H4; lia|exact H4].
  - destruct HA as [a1 a2 a3]. split; intros j; intros; [apply (a1 j)|eapply (a2 j)|apply (a3 j)]; try eassumption; lia.
Qed.

Lemma history_saved P sc l s d : sound P sc l s -> load P (s_disk (snd (run P l s))) = Ok d ->
  exists wrs, writes_ok P l wrs s /\ match w_file (fst (vrun P wrs nothing l)) with Some (pp, v) => exists i, saved P sc pp v i d | None => False end.
Proof.
  intros So Hd. destruct (sound_rep P sc l s So) as (wrs & Hw & [_ F] & _). exists wrs. split; [exact Hw|].
  unfold file_rep in F. destruct (w_file _) as [[pp v]|]; [|rewrite Hd in F; discriminate F].
  destruct F as (i & d1 & Hd1 & R). assert (d1 = d) as -> by congruence. exists i.
  eapply rep_saved; [exact (so_sites _ _ _ _ So)|exact (so_ids _ _ _ _ So)|exact (so_assumptions _ _ _ _ So)|exact R|].
  eapply rep_contents; eassumption.
Qed.

Lemma luck_ok P rnd ord wf : prims_ok P -> (forall i n, length (rnd i n) = n) -> (forall t m, ord t m ≡ₚ (map_to_list m).*1) ->
  prims_ok (with_luck P rnd ord wf).
Proof. intros [h1 h2 h3 h4 h5 h6 h7] Hr Ho. constructor; assumption. Qed.

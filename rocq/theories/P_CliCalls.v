(** The command line program: every command makes a sequence of calls of the library, of certain kinds. *)
From Coq Require Import Permutation ZArith ZifyBool ZifyNat ZifyN.
From stdpp Require Import gmap.
From Verif Require Import M_Base M_Base64 M_Utf8 M_Prims M_Types M_Crypto M_Recovery M_Json M_Serde M_Storage M_Passwords S_Serde
  S_Vault M_History S_Api P_Base P_Utf8 P_Json P_Serde P_Storage P_Api P_Calls M_Cli S_Cli P_CliBase.

Section does.
Context (P : prims).
Implicit Types K : op -> Prop.

(** [c] makes calls satisfying [K]; a result satisfies [Q]. *)
Definition does {A : Type} (K : op -> Prop) (Q : A -> Prop) (c : C A) : Prop := forall t, typed_valid t ->
  exists l, Forall K l /\ t_st (snd (c t)) = snd (run P l (t_st t)) /\ typed_valid (snd (c t)) /\
    forall a, fst (c t) = COk a -> Q a.

Lemma does_still {A : Type} K (Q : A -> Prop) (c : C A) :
  (forall t, t_st (snd (c t)) = t_st t /\ t_tty (snd (c t)) = t_tty t) ->
  (forall t a, fst (c t) = COk a -> Q a) -> does K Q c.
Proof.
  intros H HQ t Ht. destruct (H t) as [H1 H2]. exists []. split; [constructor|]. split; [exact H1|].
  split; [unfold typed_valid; rewrite H2; exact Ht|apply HQ].
Qed.
Lemma does_ret {A : Type} K (Q : A -> Prop) (a : A) : Q a -> does K Q (cret a).
Proof. intros H. apply does_still; [split; reflexivity|]. intros t b [= <-]. exact H. Qed.
Lemma does_fail {A : Type} K (Q : A -> Prop) m : does K Q (cfail m : C A).
Proof. apply does_still; [split; reflexivity|discriminate]. Qed.

Lemma does_bind {A B : Type} K (R : A -> Prop) (Q : B -> Prop) (c : C A) (f : A -> C B) :
  does K R c -> (forall a, R a -> does K Q (f a)) -> does K Q (cbind c f).
Proof.
  intros H1 H2 t Ht. destruct (H1 t Ht) as (l & Hl & E & Ht' & HR). unfold cbind.
  destruct (c t) as [[a|m| |] t'] eqn:Ec; cbn [fst snd] in *;
    try (exists l; split; [exact Hl|split; [exact E|split; [exact Ht'|discriminate]]]).
  destruct (H2 a (HR a eq_refl) t' Ht') as (l' & Hl' & E' & Ht'' & HQ).
  exists (l ++ l'). split; [apply Forall_app; auto|]. rewrite run_app. cbn [snd]. rewrite <- E. auto.
Qed.
Lemma does_seq {A B : Type} K (Q : B -> Prop) (c : C A) (f : A -> C B) :
  does K (fun _ => True) c -> (forall a, does K Q (f a)) -> does K Q (cbind c f).
Proof. intros H1 H2. eapply does_bind; [exact H1|]. intros a _. apply H2. Qed.

Lemma does_weaken {A : Type} (K K' : op -> Prop) (Q Q' : A -> Prop) c :
  (forall o, K o -> K' o) -> (forall a, Q a -> Q' a) -> does K Q c -> does K' Q' c.
Proof.
  intros HK HQ H t Ht. destruct (H t Ht) as (l & Hl & E & Ht' & HR). exists l.
  split; [revert Hl; apply Forall_impl, HK|]. auto.
Qed.

Definition same_call {A : Type} (m : M A) (o : op) : Prop := forall s, snd (m s) = snd (exec P o s).

Lemma does_api_gen {A B : Type} K (Q : B -> Prop) (m : M A) (o : op) (f : res A -> cres B) :
  same_call m o -> K o -> (forall s a, f (fst (m s)) = COk a -> Q a) ->
  does K Q (fun t => let '(r, s) := m (t_st t) in (f r, with_st s t)).
Proof.
  intros Hm HK HQ t Ht. exists [o]. split; [constructor; [exact HK|constructor]|]. rewrite run_one. cbn [snd].
  rewrite <- Hm. specialize (HQ (t_st t)). destruct (m (t_st t)) as [r s]. cbn in *. auto.
Qed.
Lemma does_api {A : Type} K (Q : A -> Prop) (m : M A) (o : op) :
  same_call m o -> K o -> (forall s a, fst (m s) = Ok a -> Q a) -> does K Q (api m).
Proof.
  intros Hm HK HQ. apply (does_api_gen K Q m o (fun r => match r with Ok a => COk a | Err e => CErr (Lib e) | Panic => CPanic end) Hm HK).
  intros s a. specialize (HQ s). destruct (fst (m s)) as [b|e|]; try discriminate. intros [= <-]. auto.
Qed.
Lemma does_api_or {A : Type} K (m : M A) (d : A) (o : op) :
  same_call m o -> K o -> does K (fun _ => True) (api_or m d).
Proof.
  intros Hm HK. apply (does_api_gen K _ m o (fun r => match r with Ok a => COk a | Err _ => COk d | Panic => CPanic end) Hm HK). auto.
Qed.
Lemma does_api_res {A : Type} K (Q : res A -> Prop) (m : M A) (o : op) :
  same_call m o -> K o -> (forall s, Q (fst (m s))) -> does K Q (api_res m).
Proof.
  intros Hm HK HQ. apply (does_api_gen K Q m o (fun r => match r with Panic => CPanic | r => COk r end) Hm HK).
  intros s a. specialize (HQ s). destruct (fst (m s)) as [b|e|]; try discriminate; intros [= <-]; auto.
Qed.

(** ** The terminal *)

Lemma does_print K b : does K (fun _ => True) (print b).
Proof. apply does_still; [|auto]. intros t. unfold print. destruct (last_line _). split; reflexivity. Qed.
Lemma does_println K b : does K (fun _ => True) (println b).
Proof. apply does_print. Qed.
Lemma does_flush K : does K (fun _ => True) flush_stdout.
Proof. apply does_still; [|auto]. split; reflexivity. Qed.
Lemma does_direct K b : does K (fun _ => True) (write_direct b).
Proof. apply does_still; [|auto]. split; reflexivity. Qed.
Lemma does_eprintln K m : does K (fun _ => True) (eprintln m).
Proof. apply does_still; [|auto]. split; reflexivity. Qed.
Lemma does_confirm K : does K (fun _ => True) confirm.
Proof. apply does_still; [|auto]. intros t. unfold confirm. destruct (t_confirms t); split; reflexivity. Qed.
Lemma does_ask K : does K (fun _ => True) ask.
Proof. apply does_still; [|auto]. intros t. unfold ask. destruct (t_asks t); split; reflexivity. Qed.
Lemma does_each {A : Type} K (f : A -> C unit) l : (forall x, In x l -> does K (fun _ => True) (f x)) -> does K (fun _ => True) (each f l).
Proof.
  induction l as [|x l IH]; intros H; cbn; [apply does_ret, I|].
  apply does_seq; [apply H; left; reflexivity|]. intros _. apply IH. intros y Hy. apply H. right. exact Hy.
Qed.

Lemma does_secret K pr : does K (fun b => utf8 b = true) (prompt_secret_text pr).
Proof.
  unfold prompt_secret_text. apply does_seq; [apply does_direct|]. intros _. apply does_still.
  - intros t. destruct (read_line _). split; reflexivity.
  - intros t a. destruct (read_line _) as [l r]. cbn. destruct (utf8 l) eqn:E; [|discriminate]. intros [= <-]. exact E.
Qed.
Lemma does_tty K : does K (fun b => utf8 b = true) tty_password.
Proof.
  intros t Ht. exists []. split; [constructor|]. unfold tty_password. unfold typed_valid in *.
  destruct (t_tty t) as [|o l] eqn:E; cbn; [rewrite E; repeat split; [constructor|discriminate]|].
  inversion Ht as [|? ? H1 H2]; subst. split; [reflexivity|]. split; [exact H2|].
  destruct o as [p|]; [|discriminate]. intros a [= <-]. exact H1.
Qed.
Lemma does_password K pr sp : does K (fun b => utf8 b = true) (prompt_password pr sp).
Proof.
  unfold prompt_password. apply (does_bind K (fun b => utf8 b = true)); [destruct sp; [apply does_secret|apply does_tty]|].
  intros a Ha. apply does_ret, trim_utf8, Ha.
Qed.

(** ** Calls of the library *)

Ltac call := intros ?; cbn [exec]; rewrite as_out_snd; reflexivity.

Lemma call_code sp : same_call (get_recovery_code P sp) (RecoveryCode (id_site (sp_id sp)) (id_name (sp_id sp)) (id_revision (sp_id sp)) (sp_password sp)).
Proof.
  intros s. cbn [exec]. rewrite as_out_snd. unfold get_recovery_code, bindM, reads.
  destruct (get_salt (s_data s)); [|reflexivity..]. unfold the_key, reads. destruct (s_key s); reflexivity.
Qed.
Lemma decode_utf8 code pp t : decode P code pp = Ok t -> utf8 t = true.
Proof.
  unfold decode. destruct (validate P code) as [d|e|]; cbn [bind]; try discriminate.
  destruct (match strip_checksums 0 d with [] => false | v :: _ => negb (Byte.eqb v VERSION) end); [discriminate|].
  destruct (_ <? _); [discriminate|]. destruct (get_encryption_key _ _ _); cbn [bind]; try discriminate.
  destruct (decrypt_data _ _ _); cbn [bind]; try discriminate. destruct (find_end _ _ _) as [e| |]; cbn [bind]; try discriminate.
  destruct (utf8 _) eqn:E; [|discriminate]. intros [= <-]. exact E.
Qed.
Lemma decoded_utf8 code s t : fst (decode_recovery_code P code s) = Ok t -> utf8 t = true.
Proof.
  unfold decode_recovery_code, bindM, the_primary, reads. destruct (s_primary s); cbn [ok_or]; [|discriminate].
  cbn. apply decode_utf8.
Qed.

Lemma filter_map_in {A B : Type} (f : A -> res (option B)) l r y :
  filter_map f l = Ok r -> In y r -> exists x, In x l /\ f x = Ok (Some y).
Proof.
  revert r. induction l as [|x l IH]; intros r; cbn [filter_map]; [intros [= <-] []|].
  destruct (f x) as [o|e|] eqn:E; cbn [bind]; try discriminate.
  destruct (filter_map f l) as [r'|e|]; cbn [bind]; try discriminate. intros [= <-] Hy.
  destruct o as [z|].
  - destruct Hy as [<-|Hy]; [exists x; split; [left; reflexivity|exact E]|].
    destruct (IH r' eq_refl Hy) as (x' & ? & ?). exists x'. split; [right|]; assumption.
  - destruct (IH r' eq_refl Hy) as (x' & ? & ?). exists x'. split; [right|]; assumption.
Qed.
Lemma res_ok_get {A : Type} (conv : json -> option A) d key k y :
  res_ok (storage_get P conv d key k) = Ok (Some y) -> exists t, from_slice (p_float_ok P) conv t = Ok y.
Proof.
  destruct (storage_get P conv d key k) as [x|e|] eqn:E; cbn; try discriminate. intros [= <-].
  exact (storage_get_text _ _ _ _ _ _ E).
Qed.

Lemma list_sites_valid pattern s l : fst (list_sites P pattern s) = Ok l -> Forall site_valid l.
Proof.
  unfold list_sites, reads. cbn [fst]. destruct (negb (unlocked s)); [discriminate|].
  destruct (unwrap (s_key s)) as [k|e|]; cbn [bind]; try discriminate.
  unfold storage_list_sites. destruct (filter_map _ _) as [r|e|] eqn:E; cbn [bind]; try discriminate. intros [= <-].
  apply List.Forall_forall. intros y Hy. apply filter_In in Hy. destruct Hy as [Hy _].
  destruct (filter_map_in _ _ _ _ E Hy) as (x & _ & Hx). unfold site_item in Hx.
  destruct (_ && _); [|discriminate]. apply res_ok_get in Hx. destruct Hx as [t Hx]. exact (site_read_valid _ _ _ Hx).
Qed.
Lemma list_valid x pattern s l : fst (list_ P x pattern s) = Ok l -> Forall password_valid l.
Proof.
  unfold list_, reads. cbn [fst]. destruct (negb (unlocked s)); [discriminate|].
  destruct (unwrap (s_hmac s)) as [h|e|]; cbn [bind]; try discriminate.
  destruct (unwrap (s_key s)) as [k|e|]; cbn [bind]; try discriminate.
  destruct (resolve_site _ _ _ _ _) as [z|e|]; cbn [bind]; try discriminate.
  unfold list_passwords. destruct (filter_map _ _) as [r|e|] eqn:E; cbn [bind]; try discriminate. intros [= <-].
  apply List.Forall_forall. intros y Hy. apply filter_In in Hy. destruct Hy as [Hy _].
  destruct (filter_map_in _ _ _ _ E Hy) as (w & _ & Hx). unfold password_item in Hx.
  destruct (starts_with _ _); [|discriminate]. apply res_ok_get in Hx. destruct Hx as [t Hx]. exact (password_read_valid _ _ _ Hx).
Qed.

(** ** Commands *)

Notation any := (fun _ => True).
(** What a command does: its own calls, with valid arguments. *)
Definition K (c : command) (o : op) : Prop := calls c o /\ op_valid o.

Lemma does_unlock_loop c sp fuel : (forall y, c <> SetPrimary y) -> does (K c) any (unlock_loop fuel P sp).
Proof.
  intros Hc. induction fuel as [|f IH]; intros t; cbn [unlock_loop]; destruct (unlocked (t_st t)).
  - apply (does_ret (K c) any tt I t).
  - apply (does_still (K c) any (fun t => (CStuck, t)) (fun _ => conj eq_refl eq_refl)). auto.
  - apply (does_ret (K c) any tt I t).
  - revert t. change (does (K c) any (let& pp := prompt_password (bs "Your primary password: ") sp in
      let& _ := (if length pp <? 6 then eprintln (Text TOO_SHORT)
                    else let& r := api_res (unlock P pp) in
                         match r with Err e => eprintln (Lib e) | _ => cret tt end) in
         unlock_loop f P sp)).
    apply does_seq; [apply (does_weaken (K c) _ (fun b => utf8 b = true)); auto; apply does_password|].
    intros pp. apply does_seq; [|intros _; exact IH]. destruct (length pp <? 6) eqn:E; [apply does_eprintln|].
    apply does_seq.
    + apply (does_api_res (K c) any _ (Unlock pp)); [call| |auto]. split; [|exact I]. split; [exact Hc|]. lia.
    + intros [a|e|]; [apply does_ret, I|apply does_eprintln|apply does_ret, I].
Qed.
Lemma does_ensure c sp : (forall y, c <> SetPrimary y) -> does (K c) any (ensure_unlocked P sp).
Proof.
  intros Hc t. unfold ensure_unlocked. destruct (negb _).
  - apply (does_fail (K c) any (Lib StorageNotInitialized) t).
  - apply does_unlock_loop, Hc.
Qed.

Lemma does_recovery x n r y asks : forall accepted, does (K (AddStored x n r true y)) (fun b => utf8 b = true) (recovery_loop P asks accepted).
Proof.
  set (c := AddStored x n r true y).
  assert (forall code, K c (DecodeCode code)) as HK by (intros code; split; [do 4 eexists; reflexivity|exact I]).
  induction asks as [|a0 asks IH]; intros accepted; cbn [recovery_loop];
    (apply does_seq; [apply does_ask|]; intros a).
  { apply does_still; [split; reflexivity|discriminate]. }
  destruct a as [[| |line]|]; try apply IH. destruct line as [|b line]; [apply does_fail|].
  set (code := accepted ++ b :: line).
  eapply (does_bind (K c) (fun r => forall v, r = Ok v -> utf8 v = true)).
  { apply (does_api_res (K c) _ _ (DecodeCode code)); [call|apply HK|]. intros s v Hv. exact (decoded_utf8 _ _ _ Hv). }
  intros [v|e|] Hr.
  - apply does_ret, Hr. reflexivity.
  - destruct e; try apply does_fail.
    + apply does_seq; [apply does_still; [split; reflexivity|auto]|]. intros acc. apply does_seq; [apply does_confirm|].
      intros [| |l]; try apply does_fail. apply (does_api (K c) _ _ (DecodeCode acc)); [call|apply HK|]. apply decoded_utf8.
    + apply does_seq; [apply does_still; [split; reflexivity|auto]|]. intros acc. apply does_seq; [apply does_eprintln|].
      intros _. apply IH.
    + apply does_seq; [apply does_eprintln|]. intros _. apply IH.
  - apply does_still; [split; reflexivity|discriminate].
Qed.

Lemma does_overwrite c x n r y : (y = false -> K c (Has x n r)) -> does (K c) any (OVERWRITE P y x n r).
Proof.
  intros H. unfold OVERWRITE. destruct y; [apply does_ret, I|]. apply does_seq.
  - apply (does_api_or (K c) _ _ (Has x n r)); [call|auto].
  - intros [|]; [|apply does_ret, I]. apply does_seq; [apply does_confirm|]. intros a. apply does_ret, I.
Qed.

Lemma length_arg_bounds arg len : length_arg arg = Some len -> (4 <= len <= 24)%N.
Proof.
  unfold length_arg, validate_length. destruct (parse_usize arg) as [m|]; [|discriminate].
  destruct ((4 <=? m)%N && (m <=? 24)%N) eqn:E; [|discriminate]. intros [= <-]. lia.
Qed.

Lemma add_charset_eq a b d e : add_charset a b d e = mk_charset (negb a) (negb b) (negb d) (negb e).
Proof. destruct a, b, d, e; reflexivity. Qed.

Lemma in_insert {A : Type} (key : A -> bytes) x l y : In y (insert_by key x l) <-> y = x \/ In y l.
Proof.
  induction l as [|z l IH]; cbn; [intuition congruence|]. destruct (bytes_leb _ _); cbn; [intuition congruence|]. rewrite IH. intuition congruence.
Qed.
Lemma in_sort {A : Type} (key : A -> bytes) l y : In y (sort_by key l) <-> In y l.
Proof. induction l as [|x l IH]; cbn; [tauto|]. rewrite in_insert, IH. intuition congruence. Qed.
Lemma in_dedup_after {A : Type} (key : A -> bytes) l : forall k y, In y (dedup_after key k l) -> In y l.
Proof.
  induction l as [|x l IH]; cbn; intros k y; [tauto|]. destruct (bytes_eqb _ _); [eauto|]. intros [->|H]; [auto|eauto].
Qed.
Lemma in_dedup {A : Type} (key : A -> bytes) l y : In y (dedup_by key l) -> In y l.
Proof. destruct l; cbn; [auto|]. intros [->|H]; [auto|right; exact (in_dedup_after _ _ _ _ H)]. Qed.

Lemma arrange_valid l : Forall site_valid l -> Forall site_valid (arrange_sites l).
Proof.
  intros H. apply List.Forall_forall. intros y Hy. unfold arrange_sites in Hy. apply in_dedup in Hy. rewrite in_sort in Hy.
  rewrite List.Forall_forall in H. apply in_app_iff in Hy. destruct Hy as [Hy|Hy]; [auto|].
  apply in_flat_map in Hy. destruct Hy as (x & Hx & Hy). specialize (H x Hx). destruct H as [_ H].
  destruct (site_alias x) as [a|] eqn:Ea; [|destruct Hy]. destruct Hy as [<-|[]]. split; cbn; [apply H; reflexivity|discriminate].
Qed.
Lemma regular_valid l : Forall site_valid l -> Forall site_valid (regular_sites l).
Proof. rewrite !List.Forall_forall. intros H x Hx. apply filter_In in Hx. apply H, Hx. Qed.

Lemma does_list_password d pat sh rc v site p : utf8 site = true -> password_valid p ->
  does (K (List d pat sh rc v)) any (list_password P sh rc v site p).
Proof.
  intros Hs Hp. set (c := List d pat sh rc v).
  assert (id_valid (pass_id p)) as (Hi1 & Hi2 & Hi3) by (destruct p as [g|g]; apply Hp).
  unfold list_password. apply does_seq; [apply does_println|]. intros _. apply does_seq; [|intros _; apply does_seq].
  - destruct sh; [|apply does_ret, I]. apply does_seq; [apply does_print|]. intros _. apply does_seq; [apply does_flush|]. intros _.
    apply does_seq; [|intros value; apply does_seq; [apply does_direct|intros _; apply does_println]].
    apply (does_api (K c) _ _ (Get site (id_name (pass_id p)) (id_revision (pass_id p)))); [call| |auto].
    split; [|cbn; auto]. right. do 4 eexists. reflexivity.
  - destruct rc; [|apply does_ret, I]. destruct p as [g|sp]; [apply does_ret, I|]. apply does_seq; [apply does_println|]. intros _.
    apply does_seq; [|intros code; apply does_each; intros; apply does_println].
    apply (does_api (K c) _ _ _ (call_code sp)); [|auto]. split; [|apply Hp]. do 4 eexists. reflexivity.
  - intros _. destruct v; [|apply does_ret, I]. apply does_seq.
    + destruct (pass_notes p); [apply does_ret, I|]. apply does_seq; [apply does_print|]. intros _.
      apply does_seq; [apply does_flush|]. intros _. apply does_seq; [apply does_direct|]. intros _. apply does_println.
    + intros _. destruct p; [|apply does_ret, I]. apply does_seq; [apply does_println|]. intros _. apply does_println.
Qed.

Lemma does_list_loop d pat sh rc v all sites : Forall site_valid sites ->
  does (K (List d pat sh rc v)) (fun r => Forall (fun x => utf8 x = true) (snd r) /\ (snd r <> [] -> pat = bs "*"))
       (list_loop P pat sh rc v all sites).
Proof.
  set (c := List d pat sh rc v).
  induction sites as [|s sites IH]; intros Hv; cbn [list_loop]; [apply does_ret; split; [constructor|contradiction]|].
  inversion Hv as [|? ? [Hs _] Hv']; subst. eapply (does_bind (K c) (Forall password_valid)).
  { apply (does_api (K c) _ _ (ListPasswords (site_name s) pat)); [call| |]. - split; [do 4 eexists; reflexivity|exact Hs].
    - intros s0 a. apply list_valid. }
  intros [|p l] Hl.
  - eapply does_bind; [exact (IH Hv')|]. intros [f e] [He Hp]. cbn [snd] in *. apply does_ret. cbn [snd].
    destruct (bytes_eqb pat (bs "*")) eqn:E; [|auto]. split; [constructor; assumption|]. intros _. apply bytes_eqb_eq, E.
  - apply does_seq; [|intros _; apply does_seq; [|intros _; eapply does_bind; [exact (IH Hv')|]]].
    + unfold heading. apply does_seq; [apply does_println|]. intros _. destruct v; [|apply does_ret, I].
      destruct (aliased _ _); [apply does_ret, I|apply does_println].
    + apply does_each. intros q Hq. apply in_sort in Hq. apply does_list_password; [exact Hs|].
      rewrite List.Forall_forall in Hl. apply Hl, Hq.
    + intros [f e] He. apply does_ret, He.
Qed.

Lemma does_simple E path sp c : c <> Shell -> command_valid c -> does (K c) any (process_simple P E path sp c).
Proof.
  intros Hns Hc. destruct c as [y|x n r len a b d e y|x n r rc y|x n r|x n r q|x n r set|d pat sh rc v|x al rm|]; cbn [process_simple command_valid] in *.
  - unfold set_primary_cmd. set (c := SetPrimary y).
    apply does_seq; [eapply does_weaken; [eauto|eauto|apply does_password]|]. intros p1.
    destruct (length p1 <? 6) eqn:E1; [apply does_fail|].
    apply does_seq; [eapply does_weaken; [eauto|eauto|apply does_password]|]. intros p2.
    destruct (negb _); [apply does_fail|]. apply does_seq; [|intros _; apply does_println].
    apply (does_api (K c) _ _ (Reset p1)); [call| |auto]. split; [|exact I]. split; [exists y; reflexivity|]. lia.
  - set (c := Add x n r len a b d e y). destruct Hc as (Hx & Hn & Hr & arg & Hlen). apply length_arg_bounds in Hlen.
    unfold add_cmd. apply does_seq; [apply does_ensure; discriminate|]. intros _.
    destruct (cs_is_empty _) eqn:Ee; [apply does_fail|]. apply does_seq.
    { apply does_overwrite. intros ->. split; [left; do 5 eexists; reflexivity|cbn; auto]. }
    intros [|]; [|apply does_ret, I]. apply does_seq; [|intros _; apply does_println].
    apply (does_api (K c) _ _ (SetGenerated x n r len (add_charset a b d e))); [call| |auto]. split; [|cbn; repeat split; auto; lia].
    split; [intros Ecs; rewrite Ecs in Ee; discriminate Ee|]. split; [exact Hlen|]. exists a, b, d, e, y.
    split; [reflexivity|apply add_charset_eq].
  - set (c := AddStored x n r rc y). destruct Hc as (Hx & Hn & Hr).
    unfold add_stored_cmd. apply does_seq; [apply does_ensure; discriminate|]. intros _. apply does_seq.
    { apply does_overwrite. intros ->. split; [right; eexists; reflexivity|cbn; auto]. }
    intros [|]; [|apply does_ret, I]. eapply (does_bind (K c) (fun b => utf8 b = true)).
    { destruct rc; [|apply does_password]. intros t. apply does_recovery. }
    intros p Hp. apply does_seq; [|intros _; apply does_println].
    apply (does_api (K c) _ _ (SetStored x n r p)); [call| |auto]. split; [do 2 eexists; reflexivity|cbn; auto].
  - set (c := RemoveCmd x n r). unfold remove_cmd. apply does_seq; [apply does_ensure; discriminate|]. intros _.
    apply does_seq; [|intros _; apply does_println]. apply (does_api (K c) _ _ (Remove x n r)); [call| |auto]. split; [reflexivity|cbn; tauto].
  - set (c := Show x n r q). unfold show_cmd. apply does_seq; [apply does_ensure; discriminate|]. intros _.
    apply does_seq; [apply (does_api (K c) _ _ (Get x n r)); [call| |auto]; split; [left; eexists; reflexivity|cbn; tauto]|].
    intros pw. apply does_seq; [apply does_direct|]. intros _. destruct q.
    + destruct (e_qr E pw); [apply does_direct|apply does_fail].
    + apply does_seq; [apply does_direct|]. intros _. apply does_direct.
  - set (c := Notes x n r set). unfold notes_cmd. apply does_seq; [apply does_ensure; discriminate|]. intros _.
    apply does_seq; [apply (does_api (K c) _ _ (GetNotes x n r)); [call| |auto]; split; [eexists; reflexivity|cbn; tauto]|].
    intros notes. apply does_seq.
    { destruct notes; [apply does_println|]. apply does_seq; [apply does_direct|]. intros _. apply does_seq; [apply does_direct|]. intros _. apply does_direct. }
    intros _. destruct set; [|apply does_ret, I]. eapply does_bind; [apply does_secret|]. intros new Hnew.
    apply does_seq; [|intros _; apply does_println]. apply (does_api (K c) _ _ (SetNotes x n r new)); [call| |auto]. split; [reflexivity|cbn; tauto].
  - set (c := List d pat sh rc v). unfold list_cmd. apply does_seq; [apply does_ensure; discriminate|]. intros _.
    eapply (does_bind (K c) (Forall site_valid)).
    { apply (does_api (K c) _ _ (ListSites d)); [call| |]. - split; [do 4 eexists; reflexivity|exact I]. - intros s a. apply list_sites_valid. }
    intros sites Hs. eapply does_bind; [apply does_list_loop, regular_valid, arrange_valid, Hs|].
    intros [f e] [He Hp]. cbn [snd] in *. apply does_seq.
    + destruct e as [|e1 e].
      { apply does_still; [split; reflexivity|auto]. }
      apply (does_api (K c) _ _ (RemoveSites (e1 :: e))); [call| |auto]. split; [|exact He]. unfold c. rewrite Hp by discriminate. do 4 eexists. reflexivity.
    + intros _. destruct f; [apply does_ret, I|apply does_println].
  - set (c := Alias x al rm). unfold alias_cmd. apply does_seq; [apply does_ensure; discriminate|]. intros _.
    destruct al as [a|]; [|destruct rm].
    + apply does_seq; [|intros _; apply does_println]. apply (does_api (K c) _ _ (SetAlias x a)); [call| |auto]. split; [eexists; reflexivity|cbn; tauto].
    + apply does_seq; [|intros _; apply does_println]. apply (does_api (K c) _ _ (RemoveAlias x)); [call| |auto]. split; [reflexivity|cbn; tauto].
    + apply does_seq; [|intros a; apply does_println]. apply (does_api (K c) _ _ (GetAlias x)); [call| |auto]. split; [reflexivity|cbn; tauto].
  - contradiction.
Qed.

(** ** Sessions *)

Definition KS (E : externals) (c : command) (o : op) : Prop := session_calls E c o /\ op_valid o.

Lemma does_lines K0 {A : Type} (Q : A -> Prop) (c : C A) rest : does K0 Q c -> does K0 Q (fun t => c (with_lines rest t)).
Proof. intros H t Ht. exact (H (with_lines rest t) Ht). Qed.

Lemma does_shell_step E path sp line : externals_valid E -> does (KS E Shell) any (shell_step P E path sp line).
Proof.
  intros HE. unfold shell_step. destruct (e_parse E line) as [m| | |c] eqn:Ep.
  - apply does_seq; [apply does_eprintln|]. intros _. apply does_ret, I.
  - apply does_ret, I.
  - apply does_seq; [|intros _; apply does_seq; [apply does_println|intros _; apply does_ret, I]].
    apply (does_api (KS E Shell) _ _ Lock); [intros s; cbn [exec]; rewrite as_out_snd; reflexivity| |auto].
    split; [left; reflexivity|exact I].
  - assert (~ refused c -> does (KS E Shell) any (fun t =>
        match process_simple P E path sp c t with
        | (COk _, t') => (let& _ := flush_stdout in cret true) t'
        | (CErr m, t') => (let& _ := eprintln m in cret true) t'
        | (CPanic, t') => (CPanic, t')
        | (CStuck, t') => (CStuck, t')
        end)) as H.
    { intros Hr t Ht.
      assert (c <> Shell) as Hns by (intros ->; apply Hr; exact I).
      destruct (does_simple E path sp c Hns (HE _ _ Ep) t Ht) as (l & Hl & E1 & Ht' & _). exists l. split.
      - revert Hl. apply Forall_impl. intros o [H1 H2]. split; [|exact H2]. right. exists line, c. auto.
      - destruct (process_simple P E path sp c t) as [[a|m| |] t']; cbn [fst snd cbind] in *; auto. }
    destruct c; try (apply H; intros []; fail); (apply does_seq; [apply does_eprintln|intros _; apply does_ret, I]).
Qed.

Lemma does_shell_loop E path sp lines : externals_valid E -> does (KS E Shell) any (shell_loop P E path sp lines).
Proof.
  intros HE. induction lines as [|[line| | |] lines IH]; cbn [shell_loop].
  - apply does_still; [split; reflexivity|auto].
  - apply does_seq; [apply does_lines, does_shell_step, HE|]. intros [|]; [exact IH|apply does_ret, I].
  - apply (does_lines (KS E Shell)), IH.
  - apply does_still; [split; reflexivity|auto].
  - apply (does_lines (KS E Shell) any (let& _ := eprintln (Text (bs "Error: ")) in shell_loop P E path sp lines)).
    apply does_seq; [apply does_eprintln|]. intros _. exact IH.
Qed.

Lemma does_command E path sp c : externals_valid E -> command_valid c -> does (KS E c) any (process_command P E path sp c).
Proof.
  intros HE Hc. assert (c <> Shell -> does (KS E c) any (process_command P E path sp c)) as H.
  { intros Hn. replace (process_command P E path sp c) with (process_simple P E path sp c) by (destruct c; [reflexivity..|contradiction]).
    apply (does_weaken (K c) _ any); [|auto|apply does_simple; assumption].
    intros o Ho. destruct c; [exact Ho..|contradiction]. }
  destruct c; try (apply H; discriminate). clear H.
  cbn [process_command]. unfold shell_cmd. apply does_seq; [apply does_println|]. intros _. apply does_seq; [apply does_flush|]. intros _ t.
  apply does_shell_loop, HE.
Qed.

(** The whole program. *)
Lemma main_calls E path a t : externals_valid E -> command_valid (a_command a) -> typed_valid t ->
  exists l, Forall (KS E (a_command a)) l /\
    t_st (snd (main P E path a t)) =
      snd (run P (Restart :: l ++ match fst (main P E path a t) with Success | Failure => [Lock] | _ => [] end) (t_st t)).
Proof.
  intros HE Hc Ht.
  assert (exists l, Forall (KS E (a_command a)) l /\
    t_st (snd (main_inner P E path a t)) = snd (run P (Restart :: l) (t_st t))) as (l & Hl & H).
  { unfold main_inner, cbind at 1, start_process. set (s1 := passwords_new _ (t_st t)).
    assert (snd (exec P Restart (t_st t)) = s1) as E1 by reflexivity.
    change (t_st t) with (t_st t). cbn [run]. destruct (exec P Restart (t_st t)) as [r0 s0]. cbn [snd] in E1. subst s0.
    assert (forall c : C unit, does (KS E (a_command a)) any c -> exists l, Forall (KS E (a_command a)) l /\
      t_st (snd (c (with_st s1 t))) = snd (let '(rs, s2) := run P l s1 in (r0 :: rs, s2))) as G.
    { intros c H. destruct (H (with_st s1 t) Ht) as (l & Hl & E2 & _). exists l. split; [exact Hl|].
      change (t_st (with_st s1 t)) with s1 in E2. destruct (run P l s1). exact E2. }
    pose proof (does_command E path (a_stdin_passwords a) (a_command a) HE Hc) as D.
    destruct (load P (s_disk (t_st t))) as [d|e|]; destruct (a_command a) as [[]| | | | | | | |]; try (apply (G _ D)); apply G;
      try apply does_fail; try (apply does_still; [split; reflexivity|discriminate]);
      (apply does_seq; [|intros []; [exact D|apply does_ret, I]]); try apply does_ret, I;
      (apply does_seq; [apply does_confirm|intros; apply does_ret, I]). }
  exists l. split; [exact Hl|]. unfold main. destruct (main_inner P E path a t) as [[u|m| |] t']; cbn [fst snd] in *;
    rewrite ?app_nil_r; try exact H; change (Restart :: l ++ [Lock]) with ((Restart :: l) ++ [Lock]); rewrite run_app;
    cbn [snd]; rewrite <- H, run_one; reflexivity.
Qed.
End does.

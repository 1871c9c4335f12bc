(** Formatting of recovery codes: proofs. *)
From Verif Require Import M_Base M_Codec M_Prims M_Recovery P_Base S_Codec P_Codec S_Recovery.
From Coq Require Import ZArith ZifyBool ZifyNat ZifyN.
Ltac Zify.zify_post_hook ::= Z.div_mod_to_equations.

Lemma upcase_eq c : to_ascii_uppercase c = upcase c.
Proof. reflexivity. Qed.

Definition inA (c : byte) : Prop := In c alphabet32.

Lemma inA_spec c : contains_byte c BASE32_ALPHABET = true <-> inA c.
Proof. apply contains_byte_spec. Qed.

Lemma inA_facts c : inA c -> upcase c = c /\ is_punctuation c = false.
Proof.
  intros H. apply inA_spec in H.
  pose proof (sweep1 (fun c => implb (contains_byte c BASE32_ALPHABET)
     (Byte.eqb (upcase c) c && negb (is_punctuation c))) ltac:(vm_compute; reflexivity) c) as Hs.
  cbn beta in Hs. rewrite H in Hs. cbn [implb] in Hs. apply andb_true_iff in Hs.
  destruct Hs as [H1 H2]. apply eqb_eq in H1. apply negb_true_iff in H2. auto.
Qed.

Lemma significant_cons c t :
  significant (c :: t) = (if contains_byte (upcase c) alphabet32 then [upcase c] else []) ++ significant t.
Proof. unfold significant. cbn [map filter]. destruct (contains_byte (upcase c) alphabet32); reflexivity. Qed.

Lemma significant_app a b : significant (a ++ b) = significant a ++ significant b.
Proof. unfold significant. rewrite map_app, filter_app. reflexivity. Qed.

Lemma significant_inA t : Forall inA (significant t).
Proof.
  unfold significant. apply Forall_forall. intros c Hc.
  apply filter_In in Hc. destruct Hc as [_ Hc]. apply contains_byte_spec in Hc. exact Hc.
Qed.

Lemma significant_id s : Forall inA s -> significant s = s.
Proof.
  induction 1 as [|c s Hc _ IH]; [reflexivity|]. rewrite significant_cons, IH.
  destruct (inA_facts c Hc) as [-> _]. apply contains_byte_spec in Hc. rewrite Hc. reflexivity.
Qed.

(** The loop only sees the significant characters. *)
Fixpoint punct_loop (b : bool) (pos : nat) (s : bytes) : bytes :=
  match s with
  | [] => []
  | c :: s' => [c] ++ (if b then punctuation (S pos) else []) ++ punct_loop b (S pos) s'
  end.

Lemma format_loop_significant b pos code :
  format_loop b pos code = punct_loop b pos (significant code).
Proof.
  revert pos; induction code as [|c code IH]; intros pos; cbn [format_loop]; [reflexivity|].
  rewrite significant_cons, upcase_eq. change BASE32_ALPHABET with alphabet32.
  destruct (contains_byte (upcase c) alphabet32); cbn [negb app]; [|apply IH].
  cbn [punct_loop app]. rewrite IH. reflexivity.
Qed.

Lemma punct_loop_false pos s : punct_loop false pos s = s.
Proof. revert pos; induction s as [|c s IH]; intros pos; cbn; [reflexivity|]. rewrite IH. reflexivity. Qed.

Lemma pop_app a b : b <> [] -> pop_punctuation (a ++ b) = a ++ pop_punctuation b.
Proof.
  intros Hb. induction a as [|x a IH]; [reflexivity|]. cbn [app].
  destruct (a ++ b) as [|y r] eqn:E.
  - apply app_eq_nil in E. destruct E; contradiction.
  - change (pop_punctuation (x :: y :: r)) with (x :: pop_punctuation (y :: r)).
    rewrite IH. reflexivity.
Qed.

Lemma pop_inA s : Forall inA s -> pop_punctuation s = s.
Proof.
  induction s as [|c s IH]; intros H; [reflexivity|]. inversion H as [|? ? Hc Hs]; subst.
  destruct s as [|d s].
  - cbn. destruct (inA_facts c Hc) as [_ ->]. reflexivity.
  - change (pop_punctuation (c :: d :: s)) with (c :: pop_punctuation (d :: s)).
    rewrite IH by exact Hs. reflexivity.
Qed.

Lemma format_code_false code : format_code code false = significant code.
Proof.
  unfold format_code. rewrite format_loop_significant, punct_loop_false.
  apply pop_inA, significant_inA.
Qed.

Lemma punctuation_shift pos : punctuation (24 + pos) = punctuation pos.
Proof.
  unfold punctuation. change LINE_SIZE with 24. change (24 / 2) with 12. change (24 / 6) with 4.
  replace ((24 + pos) mod 24) with (pos mod 24) by lia.
  replace ((24 + pos) mod 12) with (pos mod 12) by lia.
  replace ((24 + pos) mod 4) with (pos mod 4) by lia. reflexivity.
Qed.

Lemma punct_loop_shift pos s : punct_loop true (24 + pos) s = punct_loop true pos s.
Proof.
  revert pos; induction s as [|c s IH]; intros pos; cbn [punct_loop]; [reflexivity|].
  change (S (24 + pos)) with (24 + S pos). rewrite punctuation_shift, IH. reflexivity.
Qed.

Lemma punct_loop_app b pos s1 s2 :
  punct_loop b pos (s1 ++ s2) = punct_loop b pos s1 ++ punct_loop b (length s1 + pos) s2.
Proof.
  revert pos; induction s1 as [|c s1 IH]; intros pos; cbn [punct_loop app length]; [reflexivity|].
  rewrite IH. replace (length s1 + S pos) with (S (length s1) + pos) by lia.
  cbn [app]. rewrite <- app_assoc. reflexivity.
Qed.

Lemma punct_line a : length a = 24 -> punct_loop true 0 a = layout_line a ++ [newline].
Proof.
  intros H. do 24 (destruct a as [|? a]; [discriminate H|]). destruct a; [|discriminate H].
  reflexivity.
Qed.

Lemma punct_partial a : length a < 24 -> Forall inA a -> pop_punctuation (punct_loop true 0 a) = layout_line a.
Proof.
  intros H Hf.
  assert (forall x l, pop_punctuation (l ++ [x]) = if is_punctuation x then l else l ++ [x]) as Hpop.
  { intros x l. rewrite pop_app by discriminate. cbn. destruct (is_punctuation x); [apply app_nil_r|reflexivity]. }
  do 24 (destruct a as [|? a];
    [repeat match goal with Hh : Forall inA (_ :: _) |- _ => inversion Hh; subst; clear Hh end;
     repeat match goal with Hi : inA _ |- _ => apply inA_facts in Hi; destruct Hi as [_ Hi] end;
     cbn; repeat match goal with Hi : is_punctuation _ = false |- _ => rewrite Hi; clear Hi end; reflexivity
    |]).
  cbn in H. lia.
Qed.

Lemma layout_cons a r : length a = 24 -> r <> [] -> layout (a ++ r) = layout_line a ++ newline :: layout r.
Proof.
  intros Ha Hr. unfold layout. rewrite chunks_app by (exact Ha || lia). cbn [map].
  assert (exists l ls, chunks 24 r = l :: ls) as (l & ls & E).
  { destruct r as [|x r]; [contradiction|]. unfold chunks. cbn [length chunks_aux]. eauto. }
  rewrite E. reflexivity.
Qed.

Lemma layout_single a : length a <= 24 -> a <> [] -> layout a = layout_line a.
Proof.
  intros Ha Hne. unfold layout.
  assert (chunks 24 a = [a]) as ->; [|reflexivity].
  destruct a as [|x a]; [contradiction|]. unfold chunks. cbn [length chunks_aux].
  rewrite firstn_all2 by exact Ha. rewrite skipn_all2 by exact Ha. destruct (length a); reflexivity.
Qed.

Lemma punct_layout s : Forall inA s -> pop_punctuation (punct_loop true 0 s) = layout s.
Proof.
  remember (length s) as n eqn:Hn. revert s Hn. induction n as [n IH] using lt_wf_ind; intros s Hn Hf.
  destruct (Nat.lt_ge_cases (length s) 24) as [Hl|Hl].
  - destruct s as [|c s']; [reflexivity|]. rewrite punct_partial by assumption.
    symmetry. apply layout_single; [lia|discriminate].
  - assert (exists a r, s = a ++ r /\ length a = 24) as (a & r & -> & Ha).
    { exists (firstn 24 s), (skipn 24 s). rewrite firstn_skipn, firstn_length. split; [reflexivity|lia]. }
    rewrite punct_loop_app, punct_line by exact Ha. rewrite Ha, punct_loop_shift.
    apply Forall_app in Hf. destruct Hf as [_ Hf].
    destruct r as [|c r'] eqn:Er.
    + cbn [punct_loop]. rewrite !app_nil_r, pop_app by discriminate. cbn. rewrite app_nil_r.
      symmetry. apply layout_single; [lia|]. intros E. subst a. discriminate.
    + rewrite <- Er in *. rewrite pop_app by (rewrite Er; discriminate).
      rewrite layout_cons by (exact Ha || (rewrite Er; discriminate)).
      rewrite (IH (length r)) by (reflexivity || exact Hf || (rewrite Hn, app_length; lia)).
      rewrite <- app_assoc. reflexivity.
Qed.

Lemma format_code_true code : format_code code true = layout (significant code).
Proof.
  unfold format_code. rewrite format_loop_significant. apply punct_layout, significant_inA.
Qed.

Lemma significant_layout s : Forall inA s -> significant (layout s) = s.
Proof.
  intros Hf. rewrite <- punct_layout by exact Hf.
  assert (forall pos, significant (punct_loop true pos s) = s) as Hl.
  { induction Hf as [|c s Hc _ IH]; intros pos; cbn [punct_loop]; [reflexivity|].
    rewrite !significant_app, IH. rewrite (significant_id [c]) by (constructor; [exact Hc|constructor]).
    assert (significant (punctuation (S pos)) = []) as ->; [|reflexivity].
    unfold punctuation. repeat (destruct (_ =? _); [reflexivity|]). reflexivity. }
  assert (forall t, significant (pop_punctuation t) = significant t) as Hp.
  { induction t as [|x t IH]; [reflexivity|]. destruct t as [|y t].
    - cbn [pop_punctuation]. destruct (is_punctuation x) eqn:E; [|reflexivity].
      unfold is_punctuation in E. rewrite !orb_true_iff, !eqb_eq in E.
      destruct E as [[->| ->]| ->]; reflexivity.
    - change (pop_punctuation (x :: y :: t)) with (x :: pop_punctuation (y :: t)).
      rewrite significant_cons, IH, <- significant_cons. reflexivity. }
  rewrite Hp. apply Hl.
Qed.

Lemma significant_format code b : significant (format_code code b) = significant code.
Proof.
  destruct b.
  - rewrite format_code_true. apply significant_layout, significant_inA.
  - rewrite format_code_false. apply significant_id, significant_inA.
Qed.

Lemma format_code_idem code b b' : format_code (format_code code b) b' = format_code code b'.
Proof.
  destruct b'; rewrite ?format_code_true, ?format_code_false, significant_format; reflexivity.
Qed.

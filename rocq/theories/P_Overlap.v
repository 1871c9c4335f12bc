From stdpp Require Import gmap.
From Verif Require Import M_Base M_Utf8 M_Prims M_Json M_Serde M_Storage M_Syscalls S_Json S_Overlap P_Base P_Json P_Serde P_File.

(** * A complete text followed by something *)

Definition closed (r : bytes) : Prop := exists r', r = r' ++ ["}"%byte].

Lemma closed_skipn n r : closed r -> skipn n r = [] \/ closed (skipn n r).
Proof.
  intros [r' ->]. rewrite skipn_app. destruct (n - length r') as [|k] eqn:E.
  - right. cbn [skipn]. eexists. reflexivity.
  - left. rewrite skipn_all2 by lia. cbn [skipn app]. apply skipn_nil.
Qed.

Lemma flush_closed P s : closed (flush_text P s).
Proof.
  unfold flush_text, file_to_string, file_json. cbn [write_json]. eexists. rewrite app_comm_cons. reflexivity.
Qed.

Lemma ws_closed w : ws w -> ~ closed w.
Proof.
  intros Hw [r ->]. unfold ws in Hw. rewrite List.Forall_forall in Hw. specialize (Hw "}"%byte).
  assert (In "}"%byte [x20; x0a; x09; x0d]) as H.
  { apply Hw. apply in_or_app. right. left. reflexivity. }
  cbn in H. intuition discriminate.
Qed.

Lemma skip_ws_closed r : closed r -> skip_ws r <> [].
Proof.
  intros Hc E. destruct (skip_ws_inv r) as (w & Hr & Hw). rewrite E, app_nil_r in Hr. subst w.
  exact (ws_closed r Hw Hc).
Qed.

Lemma load_trailing P t rest : saved_text P t -> closed rest ->
  load P (Some (t ++ rest)) = Err FileReadFailure \/ load P (Some (t ++ rest)) = Err InvalidJson.
Proof.
  intros (s & Hs & ->) Hc. unfold load. cbn [ok_or bind]. destruct (utf8 _); [right|left; reflexivity].
  unfold from_slice. 
  assert (parse_json (p_float_ok P) (flush_text P s ++ rest) = None) as ->; [|reflexivity].
  unfold parse_json. destruct (parse_complete (p_float_ok P)) as [Hp _].
  pose proof (pairs_of_valid (io_keys P s) (s_data s) Hs) as Hv.
  pose proof (written (p_float_ok P) 127 _ (file_writable _ Hv)) as Hw.
  unfold flush_text, file_to_string. rewrite (Hp _ _ _ Hw rest ltac:(discriminate)).
  pose proof (skip_ws_closed rest Hc) as Hn. destruct (skip_ws rest); [contradiction|reflexivity].
Qed.

Lemma load_empty P : load P (Some []) = Err FileReadFailure \/ load P (Some []) = Err InvalidJson.
Proof. right. unfold load, from_slice. cbn. unfold parse_json. cbn. reflexivity. Qed.

(** * Calls that transfer everything at once *)

Definition layered (T : list bytes) (c : bytes) : Prop :=
  c = [] \/ exists w rest, In w T /\ c = w ++ rest /\ (rest = [] \/ closed rest).

Lemma closed_app a b : closed b -> closed (a ++ b).
Proof. intros [r ->]. exists (a ++ r). apply app_assoc. Qed.

Lemma layered_closed T c : (forall w, In w T -> closed w) -> layered T c -> c = [] \/ closed c.
Proof.
  intros HT [->|(w & rest & Hw & -> & [->|Hr])]; [left; reflexivity| |]; right.
  - rewrite app_nil_r. apply HT, Hw.
  - apply closed_app, Hr.
Qed.
Lemma layered_skipn T n c : (forall w, In w T -> closed w) -> layered T c -> skipn n c = [] \/ closed (skipn n c).
Proof.
  intros HT Hc. destruct (layered_closed T c HT Hc) as [-> |H]; [left; apply skipn_nil|apply closed_skipn, H].
Qed.
Lemma layered_more T T' c : (forall w, In w T -> In w T') -> layered T c -> layered T' c.
Proof. intros H [->|(w & rest & Hw & E)]; [left; reflexivity|right]. exists w, rest. auto. Qed.

Definition tidy_job (T : list bytes) (j : job) : Prop :=
  match j with
  | Idle => True
  | Saving text pos => In text T /\ (pos = 0 \/ pos = length text)
  | Loading got | Loaded got => layered T got
  end.
Definition tidy (T : list bytes) (y : sys) : Prop :=
  match y_file y with Some c => layered T c | None => True end /\ forall p, tidy_job T (y_jobs y p).

Lemma tidy_set T f p j jobs : match f with Some c => layered T c | None => True end ->
  tidy_job T j -> (forall q, tidy_job T (jobs q)) -> tidy T (mk_sys f (set_job p j jobs)).
Proof. intros Hf Hj H. split; [exact Hf|]. intros q. cbn [y_jobs]. unfold set_job. destruct (q =? p); [exact Hj|apply H]. Qed.

Lemma tidy_step T e y : (forall w, In w T -> closed w) -> tidy T y ->
  match e with ECreate _ text => In text T | _ => True end -> at_once [e] y -> tidy T (happen e y).
Proof.
  intros HT Hy He [Ho _]. destruct Hy as [Hf Hj]. destruct e as [p text|p n|p|p n]; cbn [happen].
  - apply tidy_set; [left; reflexivity|split; [exact He|left; reflexivity]|exact Hj].
  - pose proof (Hj p) as Hp. destruct (y_jobs y p) as [|text pos| |] eqn:Ep; try (split; [exact Hf|exact Hj]).
    destruct (y_file y) as [c|] eqn:Ef; [|split; [rewrite Ef; exact I|exact Hj]].
    destruct Hp as [Ht [-> | ->]].
    + cbn [skipn Nat.add]. rewrite firstn_all2 by exact Ho. apply tidy_set; [|split; [exact Ht|right; reflexivity]|exact Hj].
      unfold overwrite. destruct text as [|b text]; [exact Hf|]. cbn [firstn app Nat.add]. right.
      exists (b :: text), (skipn (length (b :: text)) c). split; [exact Ht|]. split; [reflexivity|].
      apply (layered_skipn T); [exact HT|exact Hf].
    + rewrite skipn_all, firstn_nil. cbn [length overwrite]. rewrite Nat.add_0_r.
      apply tidy_set; [exact Hf|split; [exact Ht|right; reflexivity]|exact Hj].
  - destruct (y_file y) as [c|] eqn:Ef; [|split; [rewrite Ef; exact I|exact Hj]].
    apply tidy_set; [exact Hf|left; reflexivity|exact Hj].
  - pose proof (Hj p) as Hp. destruct (y_jobs y p) as [| |got|] eqn:Ep; try (split; [exact Hf|exact Hj]).
    destruct (y_file y) as [c|] eqn:Ef; [|split; [rewrite Ef; exact I|exact Hj]].
    cbn [tidy_job] in Hp. rewrite (firstn_all2 (n := n)) by (rewrite skipn_length; lia).
    destruct (skipn (length got) c) as [|b r] eqn:Es.
    + apply tidy_set; [exact Hf| |exact Hj]. destruct (n =? 0); exact Hp.
    + apply tidy_set; [exact Hf| |exact Hj]. cbn [tidy_job]. rewrite <- Es.
      destruct (layered_skipn T (length got) c HT Hf) as [E|Hc]; [congruence|].
      destruct Hp as [->|(w & rest & Hw & -> & _)]; [cbn [length skipn app]; exact Hf|].
      right. exists w, (rest ++ skipn (length (w ++ rest)) c). split; [exact Hw|]. split; [symmetry; apply app_assoc|].
      right. apply closed_app, Hc.
Qed.

Lemma happens_cons e l y : happens (e :: l) y = happens l (happen e y).
Proof. reflexivity. Qed.

Lemma tidy_run T l : forall y, (forall w, In w T -> closed w) -> tidy T y ->
  (forall p text, In (p, text) (saves l) -> In text T) -> at_once l y -> tidy T (happens l y).
Proof.
  induction l as [|e l IH]; intros y HT Hy Hl Ho; [exact Hy|]. rewrite happens_cons. destruct Ho as [Ho1 Ho2].
  apply IH; [exact HT| | |exact Ho2].
  - apply tidy_step; [exact HT|exact Hy| |split; [exact Ho1|exact I]]. destruct e as [p text|p n|p|p n]; try exact I.
    apply (Hl p). left. reflexivity.
  - intros p text H. apply (Hl p). destruct e; try exact H. right. exact H.
Qed.

Lemma layered_load P T c : (forall w, In w T -> saved_text P w) -> layered T c -> In c T \/ refused_text P c.
Proof.
  intros HT [->|(w & rest & Hw & -> & [->|Hr])].
  - right. apply load_empty.
  - left. rewrite app_nil_r. exact Hw.
  - right. apply load_trailing; [apply HT, Hw|exact Hr].
Qed.

Definition old_texts (file : option bytes) : list bytes := match file with Some c => [c] | None => [] end.

Lemma overlap_at_once P file l : 
  (forall c, file = Some c -> saved_text P c) -> (forall p t, In (p, t) (saves l) -> saved_text P t) ->
  at_once l (at_rest file) ->
  let y := happens l (at_rest file) in
  let known c := file = Some c \/ exists p, In (p, c) (saves l) in
  (forall c, y_file y = Some c -> known c \/ refused_text P c) /\
  (forall q c, y_jobs y q = Loaded c -> known c \/ refused_text P c).
Proof.
  intros Hf Hl Ho y known. set (T := old_texts file ++ map snd (saves l)).
  assert (forall w, In w T -> known w) as HT1.
  { intros w Hw. apply in_app_or in Hw. destruct Hw as [Hw|Hw].
    - destruct file as [c|]; [|destruct Hw]. destruct Hw as [->|[]]. left. reflexivity.
    - apply in_map_iff in Hw. destruct Hw as ([p t] & <- & Hp). right. exists p. exact Hp. }
  assert (forall w, In w T -> saved_text P w) as HT2.
  { intros w Hw. apply HT1 in Hw. destruct Hw as [->|[p Hp]]; [apply Hf; reflexivity|apply (Hl p), Hp]. }
  assert (tidy T y) as Hy.
  { apply tidy_run; [| | |exact Ho].
    - intros w Hw. destruct (HT2 w Hw) as (s & _ & ->). apply flush_closed.
    - split; [|intros p; exact I]. destruct file as [c|]; cbn; [|exact I]. right. exists c, []. split; [left; reflexivity|].
      split; [symmetry; apply app_nil_r|left; reflexivity].
    - intros p text Hp. apply in_or_app. right. apply in_map_iff. exists (p, text). split; [reflexivity|exact Hp]. }
  split.
  - intros c Hc. destruct Hy as [Hy _]. rewrite Hc in Hy. apply (layered_load P T c HT2) in Hy.
    destruct Hy as [Hy|Hy]; [left; apply HT1, Hy|right; exact Hy].
  - intros q c Hq. destruct Hy as [_ Hy]. specialize (Hy q). rewrite Hq in Hy. apply (layered_load P T c HT2) in Hy.
    destruct Hy as [Hy|Hy]; [left; apply HT1, Hy|right; exact Hy].
Qed.

(** * A single save *)

Definition mixed (old text got : bytes) : Prop :=
  exists a m, a <= length old /\ m <= length text - a /\ got = firstn a old ++ firstn m (skipn a text).

Lemma mixed_length (old text : bytes) a m : a <= length old -> m <= length text - a ->
  length (firstn a old ++ firstn m (skipn a text)) = a + m.
Proof. intros H1 H2. rewrite app_length, !firstn_length, skipn_length. lia. Qed.

Lemma firstn_skipn_firstn {A} n i k (l : list A) : firstn n (skipn i (firstn k l)) = firstn (min n (k - i)) (skipn i l).
Proof.
  rewrite skipn_firstn_comm. destruct (Nat.le_gt_cases n (k - i)) as [H|H].
  - rewrite firstn_firstn. f_equal. 
  - rewrite firstn_firstn. reflexivity.
Qed.

Lemma firstn_glue {A} n m (l : list A) : firstn n l ++ firstn m (skipn n l) = firstn (n + m) l.
Proof.
  revert l; induction n as [|n IH]; intros l; [reflexivity|]. destruct l as [|x l]; cbn [firstn skipn app Nat.add].
  - rewrite !firstn_nil. reflexivity.
  - f_equal. apply IH.
Qed.

Lemma overwrite_prefix (text : bytes) k n : k <= length text ->
  overwrite k (firstn n (skipn k text)) (firstn k text) = firstn (k + length (firstn n (skipn k text))) text.
Proof.
  intros Hk. rewrite firstn_length, skipn_length. unfold overwrite. destruct (firstn n (skipn k text)) as [|b c] eqn:E.
  - assert (length (firstn n (skipn k text)) = 0) as E0 by (rewrite E; reflexivity).
    rewrite firstn_length, skipn_length in E0. rewrite E0, Nat.add_0_r. reflexivity.
  - rewrite <- E.
    assert (length (firstn k text) = k) as El by (rewrite firstn_length; lia).
    rewrite El, Nat.sub_diag. cbn [repeat]. rewrite app_nil_r, firstn_firstn, Nat.min_id.
    rewrite (skipn_all2 (firstn k text)) by lia. rewrite app_nil_r.
    rewrite <- firstn_glue. f_equal. rewrite <- (skipn_length k text).
    destruct (Nat.le_gt_cases n (length (skipn k text))) as [H|H].
    + rewrite Nat.min_l by exact H. reflexivity.
    + rewrite Nat.min_r by lia. rewrite !firstn_all2 by lia. reflexivity.
Qed.

(** After the save has begun. *)
Definition during (R : bytes -> Prop) (p : nat) (text : bytes) (y : sys) : Prop :=
  exists k, k <= length text /\ y_file y = Some (firstn k text) /\
    forall q, match y_jobs y q with
              | Idle => True
              | Saving t pos => q = p /\ t = text /\ pos = k
              | Loading got | Loaded got => R got
              end.

Lemma during_step (R : bytes -> Prop) p text e y :
  R [] ->
  (forall k n got, k <= length text -> R got -> R (got ++ firstn n (skipn (length got) (firstn k text)))) ->
  during R p text y -> match e with ECreate _ _ => False | _ => True end -> during R p text (happen e y).
Proof.
  intros R0 RS (k & Hk & Hf & Hj) He. destruct e as [q t|q n|q|q n]; [destruct He| | |]; cbn [happen].
  - pose proof (Hj q) as Hq. destruct (y_jobs y q) as [|t pos| |] eqn:Eq; try (exists k; auto; fail).
    rewrite Hf. destruct Hq as (-> & -> & ->). exists (k + length (firstn n (skipn k text))).
    split; [rewrite firstn_length, skipn_length; lia|]. cbn [y_file y_jobs]. split; [f_equal; apply overwrite_prefix, Hk|].
    intros q. unfold set_job. destruct (Nat.eqb_spec q p) as [->|Hne]; [auto|]. specialize (Hj q).
    destruct (y_jobs y q) as [|t pos| |]; try exact Hj. destruct Hj as (-> & _). contradiction.
  - rewrite Hf. exists k. split; [exact Hk|]. split; [reflexivity|]. intros r. cbn [y_jobs]. unfold set_job.
    destruct (r =? q); [exact R0|apply Hj].
  - pose proof (Hj q) as Hq. destruct (y_jobs y q) as [| |got|] eqn:Eq; try (exists k; auto; fail). rewrite Hf.
    pose proof (RS k n got Hk Hq) as HR.
    destruct (firstn n (skipn (length got) (firstn k text))) as [|b c] eqn:Ec;
      (exists k; split; [exact Hk|]; split; [reflexivity|]; intros r; cbn [y_jobs]; unfold set_job;
       destruct (r =? q); [|apply Hj]).
    + rewrite app_nil_r in HR. destruct (n =? 0); exact Hq.
    + exact HR.
Qed.

Lemma during_run (R : bytes -> Prop) p text l :
  R [] ->
  (forall k n got, k <= length text -> R got -> R (got ++ firstn n (skipn (length got) (firstn k text)))) ->
  forall y, during R p text y -> saves l = [] -> during R p text (happens l y).
Proof.
  intros R0 RS. induction l as [|e l IH]; intros y Hy Hl; [exact Hy|]. rewrite happens_cons. apply IH.
  - apply during_step; [exact R0|exact RS|exact Hy|]. destruct e; [discriminate Hl|exact I|exact I|exact I].
  - destruct e; [discriminate Hl|exact Hl|exact Hl|exact Hl].
Qed.

Lemma mixed_nil old text : mixed old text [].
Proof. exists 0, 0. repeat split; lia. Qed.
Lemma mixed_read old text k n got : k <= length text -> mixed old text got ->
  mixed old text (got ++ firstn n (skipn (length got) (firstn k text))).
Proof.
  intros Hk (a & m & Ha & Hm & ->). rewrite mixed_length by assumption. rewrite firstn_skipn_firstn.
  set (d := min n (k - (a + m))). assert (d <= length text - (a + m)) by (unfold d; lia).
  exists a, (m + d). split; [exact Ha|]. split; [lia|]. rewrite <- app_assoc. f_equal.
  rewrite <- firstn_glue, drop_drop. reflexivity.
Qed.

Definition prefix_of (text got : bytes) : Prop := exists m, got = firstn m text /\ m <= length text.
Lemma prefix_read text k n got : k <= length text -> prefix_of text got ->
  prefix_of text (got ++ firstn n (skipn (length got) (firstn k text))).
Proof.
  intros Hk (m & -> & Hm). rewrite firstn_length, Nat.min_l by exact Hm. rewrite firstn_skipn_firstn.
  exists (m + min n (k - m)). split; [apply firstn_glue|lia].
Qed.

(** Before the save. *)
Definition before (file : option bytes) (y : sys) : Prop :=
  y_file y = file /\
  forall q, match y_jobs y q with
            | Idle => True
            | Saving _ _ => False
            | Loading got | Loaded got => prefix_of (content file) got
            end.
Lemma before_step file e y : before file y -> match e with ECreate _ _ => False | _ => True end -> before file (happen e y).
Proof.
  intros [Hf Hj] He. destruct e as [q t|q n|q|q n]; [destruct He| | |]; cbn [happen].
  - pose proof (Hj q) as Hq. destruct (y_jobs y q) as [|t pos| |] eqn:Eq; try (split; [exact Hf|exact Hj]). destruct Hq.
  - destruct (y_file y) as [c|] eqn:Ef; [|split; [congruence|exact Hj]]. split; [exact Hf|]. intros r. cbn [y_jobs].
    unfold set_job. destruct (r =? q); [exists 0; split; [reflexivity|lia]|apply Hj].
  - pose proof (Hj q) as Hq. destruct (y_jobs y q) as [| |got|] eqn:Eq; try (split; [exact Hf|exact Hj]).
    destruct (y_file y) as [c|] eqn:Ef; [|split; [congruence|exact Hj]]. subst file. cbn [content] in *.
    pose proof (prefix_read c (length c) n got (le_n _) Hq) as Hr. rewrite firstn_all in Hr.
    destruct (firstn n (skipn (length got) c)) as [|b r] eqn:Ec;
      (split; [reflexivity|]; intros x; cbn [y_jobs]; unfold set_job; destruct (x =? q); [|apply Hj]).
    + destruct (n =? 0); exact Hq.
    + exact Hr.
Qed.
Lemma before_run file l : forall y, before file y -> saves l = [] -> before file (happens l y).
Proof.
  induction l as [|e l IH]; intros y Hy Hl; [exact Hy|]. rewrite happens_cons. apply IH.
  - apply before_step; [exact Hy|]. destruct e; [discriminate Hl|exact I|exact I|exact I].
  - destruct e; [discriminate Hl|exact Hl|exact Hl|exact Hl].
Qed.

Lemma saves_split l p text : saves l = [(p, text)] ->
  exists l1 l2, l = l1 ++ ECreate p text :: l2 /\ saves l1 = [] /\ saves l2 = [].
Proof.
  induction l as [|e l IH]; [discriminate|]. destruct e as [q t|q n|q|q n]; cbn [saves]; intros H.
  - injection H as -> -> H. exists [], l. auto.
  - destruct (IH H) as (l1 & l2 & -> & H1 & H2). exists (EWrite q n :: l1), l2. auto.
  - destruct (IH H) as (l1 & l2 & -> & H1 & H2). exists (EOpen q :: l1), l2. auto.
  - destruct (IH H) as (l1 & l2 & -> & H1 & H2). exists (ERead q n :: l1), l2. auto.
Qed.

Lemma happens_app l1 l2 y : happens (l1 ++ l2) y = happens l2 (happens l1 y).
Proof. apply fold_left_app. Qed.

Lemma one_save_during file l p text : saves l = [(p, text)] ->
  during (mixed (content file) text) p text (happens l (at_rest file)).
Proof.
  intros H. destruct (saves_split _ _ _ H) as (l1 & l2 & -> & H1 & H2). rewrite happens_app, happens_cons.
  assert (before file (happens l1 (at_rest file))) as [_ Hj].
  { apply before_run; [|exact H1]. split; [reflexivity|intros q; exact I]. }
  apply during_run; [apply mixed_nil|intros; apply mixed_read; assumption| |exact H2].
  exists 0. split; [lia|]. split; [reflexivity|]. intros q. cbn [happen y_jobs]. unfold set_job.
  destruct (Nat.eqb_spec q p) as [->|Hne]; [auto|]. specialize (Hj q).
  destruct (y_jobs _ q) as [|t pos|got|got]; try exact Hj; [destruct Hj| |];
    (destruct Hj as (m & -> & Hm); exists m, 0; split; [exact Hm|]; split; [lia|]; cbn [firstn]; rewrite app_nil_r; reflexivity).
Qed.

Lemma one_save_file file l p text : saves l = [(p, text)] ->
  let y := happens l (at_rest file) in
  exists k, y_file y = Some (firstn k text) /\
            (forall t pos, y_jobs y p = Saving t pos -> k = pos) /\ (has_saved y p text -> y_file y = Some text).
Proof.
  intros H y. destruct (one_save_during file l p text H) as (k & Hk & Hf & Hj). fold y in Hf, Hj. exists k. split; [exact Hf|].
  specialize (Hj p). split.
  - intros t pos E. rewrite E in Hj. destruct Hj as (_ & _ & ->). reflexivity.
  - intros E. unfold has_saved in E. rewrite E in Hj. destruct Hj as (_ & _ & E'). rewrite Hf, <- E', firstn_all. reflexivity.
Qed.

Lemma one_save_seen file l p text q c : saves l = [(p, text)] -> y_jobs (happens l (at_rest file)) q = Loaded c ->
  exists a m, c = firstn a (content file) ++ firstn m (skipn a text).
Proof.
  intros H E. destruct (one_save_during file l p text H) as (k & Hk & Hf & Hj). specialize (Hj q). rewrite E in Hj.
  destruct Hj as (a & m & _ & _ & ->). exists a, m. reflexivity.
Qed.

Lemma one_save_later P file l1 l2 p text q c : saves l1 = [] -> saves l2 = [] -> saved_text P text ->
  not_loading (happens l1 (at_rest file)) q ->
  y_jobs (happens (l1 ++ ECreate p text :: l2) (at_rest file)) q = Loaded c -> c = text \/ refused_text P c.
Proof.
  intros H1 H2 Ht Hq E. unfold not_loading in Hq. rewrite happens_app, happens_cons in E.
  assert (before file (happens l1 (at_rest file))) as Hb.
  { apply before_run; [|exact H1]. split; [reflexivity|intros r; exact I]. }
  set (R := fun (got : bytes) => prefix_of text got).
  set (y1 := happens l1 (at_rest file)) in *.
  (* the other processes do not matter *)
  assert (exists k, k <= length text /\ y_file (happens l2 (happen (ECreate p text) y1)) = Some (firstn k text) /\
    match y_jobs (happens l2 (happen (ECreate p text) y1)) q with Loading got | Loaded got => prefix_of text got | _ => True end) as HK.
  2:{ destruct HK as (k & Hk & Hf & Hj). rewrite E in Hj. destruct Hj as (m & -> & Hm).
      destruct (Nat.eq_dec m (length text)) as [->|Hne]; [left; apply firstn_all|right].
      destruct Ht as (s & Hs & ->). apply (load_prefix P s (firstn m (flush_text P s)) (skipn m (flush_text P s))); [exact Hs| |].
      - symmetry. apply firstn_skipn.
      - intros E0. apply (f_equal (@length byte)) in E0. rewrite skipn_length in E0. change (length (@nil byte)) with 0 in E0. lia. }
  assert (forall y, (exists k, k <= length text /\ y_file y = Some (firstn k text) /\
      (forall r, match y_jobs y r with Saving t pos => r = p /\ t = text /\ pos = k | _ => True end) /\
      match y_jobs y q with Loading got | Loaded got => prefix_of text got | _ => True end) ->
    saves l2 = [] ->
    exists k, k <= length text /\ y_file (happens l2 y) = Some (firstn k text) /\
      match y_jobs (happens l2 y) q with Loading got | Loaded got => prefix_of text got | _ => True end) as Hrun.
  { clear. induction l2 as [|e l IH]; intros y Hy Hl; [destruct Hy as (k & H1 & H2 & _ & H3); exists k; auto|].
    rewrite happens_cons. apply IH; [|destruct e; [discriminate Hl|exact Hl|exact Hl|exact Hl]].
    destruct Hy as (k & Hk & Hf & Hs & Hq). destruct e as [r t|r n|r|r n]; [discriminate Hl| | |]; cbn [happen].
    - pose proof (Hs r) as Hr. destruct (y_jobs y r) as [|t pos| |] eqn:Er; try (exists k; auto; fail).
      rewrite Hf. destruct Hr as (-> & -> & ->). exists (k + length (firstn n (skipn k text))).
      split; [rewrite firstn_length, skipn_length; lia|]. cbn [y_file y_jobs]. split; [f_equal; apply overwrite_prefix, Hk|].
      unfold set_job. split.
      + intros r. destruct (Nat.eqb_spec r p) as [->|Hne]; [auto|]. specialize (Hs r).
        destruct (y_jobs y r) as [|t pos| |]; try exact I. destruct Hs as (-> & _). contradiction.
      + destruct (q =? p); [exact I|exact Hq].
    - rewrite Hf. exists k. cbn [y_file y_jobs]. unfold set_job. split; [exact Hk|]. split; [reflexivity|]. split.
      + intros x. destruct (x =? r); [exact I|apply Hs].
      + destruct (q =? r); [exists 0; split; [reflexivity|lia]|exact Hq].
    - destruct (y_jobs y r) as [| |got|] eqn:Er; try (exists k; auto; fail). rewrite Hf.
      assert (q = r -> prefix_of text (got ++ firstn n (skipn (length got) (firstn k text)))) as HR.
      { intros ->. rewrite Er in Hq. apply prefix_read; assumption. }
      destruct (firstn n (skipn (length got) (firstn k text))) as [|b c] eqn:Ec;
      (exists k; cbn [y_file y_jobs]; unfold set_job; split; [exact Hk|]; split; [reflexivity|]; split;
       [intros x; destruct (x =? r); [try destruct (n =? 0); exact I|apply Hs]|]);
      (destruct (Nat.eqb_spec q r) as [->|Hne]; [|exact Hq]).
      + rewrite app_nil_r in HR. destruct (n =? 0); exact (HR eq_refl).
      + exact (HR eq_refl). }
  apply Hrun; [|exact H2]. exists 0. cbn [happen y_file y_jobs]. unfold set_job. split; [lia|]. split; [reflexivity|].
  destruct Hb as [_ Hb]. split.
  - intros r. destruct (Nat.eqb_spec r p) as [->|Hne]; [auto|]. specialize (Hb r). destruct (y_jobs y1 r); try exact I. destruct Hb.
  - destruct (q =? p); [exact I|]. destruct (y_jobs y1 q); try exact I; destruct Hq.
Qed.

(** [flush] is a save without others. *)
Lemma flush_alone P s l p : saves l = [(p, flush_text P s)] ->
  let y := happens l (at_rest (s_disk s)) in
  (p_write P (s_flushes s) = WriteOk -> has_saved y p (flush_text P s) -> y_file y = s_disk (snd (flush P s))) /\
  (forall n, p_write P (s_flushes s) = WriteFailsAfter n -> y_jobs y p = Saving (flush_text P s) n ->
     y_file y = s_disk (snd (flush P s))).
Proof.
  intros H y. destruct (one_save_file (s_disk s) l p _ H) as (k & Hf & Hk & Ha). fold y in Hf, Hk, Ha. split.
  - intros Hw Hs. rewrite (Ha Hs). unfold flush. rewrite Hw. reflexivity.
  - intros n Hw Hs. rewrite Hf, (Hk _ _ Hs). unfold flush. rewrite Hw. reflexivity.
Qed.

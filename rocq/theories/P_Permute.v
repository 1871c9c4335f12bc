(** Calls that have nothing to do with each other, in any order (C79). *)
From stdpp Require Import gmap.
From Verif Require Import M_Base M_Prims M_Types M_Storage M_Passwords M_History.
From Verif Require Import S_Vault S_Api S_History S_Rewrite S_Order P_Base P_History P_Sound P_Watch P_Order.

Definition saved_run (P : prims) (w : world) (l : list op) : world * list out := vrun P (repeat Saved (length l)) w l.

Lemma saved_run_cons P w o l : saved_run P w (o :: l) =
  (fst (saved_run P (fst (vstep P Saved w o)) l), snd (vstep P Saved w o) :: snd (saved_run P (fst (vstep P Saved w o)) l)).
Proof. unfold saved_run. cbn [length repeat vrun]. destruct (vstep P Saved w o) as [w1 r]. cbn [fst snd]. destruct (vrun P _ w1 l). reflexivity. Qed.
Lemma saved_run_length P l : forall w, length (snd (saved_run P w l)) = length l.
Proof. induction l as [|o l IH]; intros w; [reflexivity|]. rewrite saved_run_cons. cbn. rewrite IH. reflexivity. Qed.
Lemma saved_run_app P l m : forall w, saved_run P w (l ++ m) =
  (fst (saved_run P (fst (saved_run P w l)) m), snd (saved_run P w l) ++ snd (saved_run P (fst (saved_run P w l)) m)).
Proof.
  induction l as [|o l IH]; intros w; [cbn [app]; change (saved_run P w []) with (w, @nil out); cbn [fst snd app]; destruct (saved_run P w m); reflexivity|]. cbn [app]. rewrite !saved_run_cons, IH. reflexivity.
Qed.

Lemma independent_sym v a b : independent v a b -> independent v b a.
Proof. intros (Wa & Wb & A & B). exact (conj Wb (conj Wa (conj B A))). Qed.

Lemma pairs_permuted v a b : Permutation a b -> ForallOrdPairs (independent v) a -> ForallOrdPairs (independent v) b.
Proof.
  induction 1 as [|x a b Hp IH|x y a|a b c _ IH1 _ IH2]; intros H; [exact H| | |auto].
  - inversion H as [|? ? Hx Ha]; subst. constructor; [|auto]. rewrite <- Hp. exact Hx.
  - inversion H as [|? ? Hy Hxa]; subst. inversion Hxa as [|? ? Hx Ha]; subst. inversion Hy as [|? ? Hyx Hya]; subst.
    constructor; [constructor; [apply independent_sym; assumption|assumption]|]. constructor; assumption.
Qed.

(** A call leaves alone what the others are about. *)
Lemma apart_same v v' a b : (forall s, follows a (host s) -> target v' s = target v s) -> (forall s, follows b (host s) -> target v' s = target v s) ->
  apart v a b -> apart v' a b.
Proof.
  intros Ha Hb [H1 H2]. split.
  - intros x Hx. destruct (H1 x Hx) as (F & R & D). split; [exact F|]. split; [exact R|]. intros K. apply D. destruct b; cbn [adds] in K |- *; try contradiction;
      rewrite (Hb s) in K by reflexivity; exact K.
  - intros i Hi. assert (edits v a i) as Hv by (destruct a; cbn [edits] in Hi |- *; try contradiction; rewrite (Ha s) in Hi by reflexivity; exact Hi).
    destruct (H2 i Hv) as (F & R). split; [|exact R]. intros K. apply F. destruct b; cbn [edits] in K |- *; try contradiction;
      rewrite (Hb s) in K by reflexivity; exact K.
Qed.
Lemma target_after v a b c : independent v a b -> plan v a = Ok c -> forall s, follows b (host s) -> target (changed c v) s = target v s.
Proof.
  intros (_ & _ & [A _] & _) Hc s Hs. apply target_changed. intros Hm. apply (plan_moved v a c _ Hc) in Hm. destruct (A _ Hm) as (H & _). exact (H Hs).
Qed.
Lemma independent_after v a b d c : independent v a b -> independent v a d -> plan v a = Ok c -> independent v b d -> independent (changed c v) b d.
Proof.
  intros Hb Hd Hc (Wb & Wd & B & D). pose proof (target_after v a b c Hb Hc) as Tb. pose proof (target_after v a d c Hd Hc) as Td.
  split; [exact Wb|]. split; [exact Wd|]. split; eapply apart_same; eassumption.
Qed.
Lemma pairs_after v a l c : plan v a = Ok c -> Forall (independent v a) l -> ForallOrdPairs (independent v) l -> ForallOrdPairs (independent (changed c v)) l.
Proof.
  intros Hc Ha H. induction H as [|b l Hb Hl IH]; [constructor|]. inversion Ha as [|? ? Hab Hal]; subst. constructor; [|auto].
  rewrite List.Forall_forall in *. intros d Hd. eapply independent_after; eauto.
Qed.

Lemma permuted_run P a b : Permutation a b -> forall pp v fl, unrelated v a ->
  let w := mk_world (Some (pp, v)) true fl in
  fst (saved_run P w a) = fst (saved_run P w b) /\ Permutation (combine a (snd (saved_run P w a))) (combine b (snd (saved_run P w b))).
Proof.
  induction 1 as [|x a b Hp IH|x y a|a b c Hab IH1 Hbc IH2]; intros pp v fl [W U]; cbv zeta.
  - split; [reflexivity|constructor].
  - inversion W as [|? ? Wx Wa]; subst. inversion U as [|? ? Ux Ua]; subst. rewrite !saved_run_cons. cbn [fst snd combine].
    rewrite step_plan by exact Wx. destruct (plan v x) as [c|e|] eqn:Hx; cbn [fst snd].
    + destruct (IH pp (changed c v) (Some (pp, changed c v)) (conj Wa (pairs_after v x a c Hx Ux Ua))) as [H1 H2]. split; [exact H1|constructor; exact H2].
    + destruct (IH pp v fl (conj Wa Ua)) as [H1 H2]. split; [exact H1|constructor; exact H2].
    + destruct (IH pp v fl (conj Wa Ua)) as [H1 H2]. split; [exact H1|constructor; exact H2].
  - inversion U as [|? ? Uy _]; subst. inversion Uy as [|? ? Hi _]; subst. pose proof (either_order P pp v fl y x Hi) as H. cbv zeta in H.
    rewrite !saved_run_cons. cbn [fst snd]. destruct (vstep P Saved (mk_world (Some (pp, v)) true fl) y) as [wa ra]. cbn [fst snd]. destruct (vstep P Saved wa x) as [wab rab].
    destruct (vstep P Saved (mk_world (Some (pp, v)) true fl) x) as [wb rb]. cbn [fst snd]. destruct (vstep P Saved wb y) as [wba rba].
    destruct H as (-> & -> & ->). cbn [fst snd combine]. split; [reflexivity|apply perm_swap].
  - destruct (IH1 pp v fl (conj W U)) as [H1 H2]. assert (unrelated v b) as Hb.
    { split; [rewrite <- Hab; exact W|exact (pairs_permuted v a b Hab U)]. }
    destruct (IH2 pp v fl Hb) as [H3 H4]. split; [congruence|]. etransitivity; eassumption.
Qed.

Lemma split_answers P (q : list out) x y : Forall2 (agrees P) q (x ++ y) -> Forall2 (agrees P) (firstn (length x) q) x /\ Forall2 (agrees P) (skipn (length x) q) y.
Proof.
  revert q. induction x as [|e x IH]; intros q H; [split; [constructor|exact H]|]. inversion H as [|r ? q' ? Hr Hq]; subst. destruct (IH _ Hq). cbn. split; [constructor; assumption|assumption].
Qed.
Lemma paired_answer P (l : list op) q x o r : Forall2 (agrees P) q x -> In (o, r) (combine l q) -> exists y, In (o, y) (combine l x) /\ agrees P r y.
Proof.
  intros H. revert l. induction H as [|b y q x Hb _ IH]; intros [|p l] Hi; try contradiction. destruct Hi as [E|Hi].
  - injection E as <- <-. exists y. split; [left; reflexivity|exact Hb].
  - destruct (IH l Hi) as (z & H1 & H2). exists z. split; [right; exact H1|exact H2].
Qed.
Lemma answer_paired P (l : list op) q x o y : Forall2 (agrees P) q x -> In (o, y) (combine l x) -> exists r, In (o, r) (combine l q) /\ agrees P r y.
Proof.
  intros H. revert l. induction H as [|b z q x Hb _ IH]; intros [|p l] Hi; try contradiction. destruct Hi as [E|Hi].
  - injection E as <- <-. exists b. split; [left; reflexivity|exact Hb].
  - destruct (IH l Hi) as (r & H1 & H2). exists r. split; [right; exact H1|exact H2].
Qed.

Lemma any_order P sc sc' l a b m s0 pp v : (forall n, p_write P n = WriteOk) ->
  sound P sc (l ++ a ++ m) s0 -> sound P sc' (l ++ b ++ m) s0 ->
  w_open (world_after P l) = true -> w_mem (world_after P l) = Some (pp, v) -> unrelated v a -> Permutation a b ->
  let q := fst (run P (a ++ m) (snd (run P l s0))) in let q' := fst (run P (b ++ m) (snd (run P l s0))) in
  (forall o r, In (o, r) (combine a (firstn (length a) q)) -> exists r', In (o, r') (combine b (firstn (length b) q')) /\ same_answer P r r') /\
  Forall2 (same_answer P) (skipn (length a) q) (skipn (length b) q') /\
  same_state (world_after P (l ++ a ++ m)) (world_after P (l ++ b ++ m)).
Proof.
  intros Hw So So' Ho Hm Hu Hp. pose proof (later_run P sc l _ s0 Hw So) as L. pose proof (later_run P sc' l _ s0 Hw So') as L'.
  fold (saved_run P (world_after P l) (a ++ m)) in L. fold (saved_run P (world_after P l) (b ++ m)) in L'.
  assert (forall k, world_after P (l ++ k) = fst (saved_run P (world_after P l) k)) as Hk.
  { intros k. unfold world_after. apply P_Watch.vrun_app. }
  rewrite !Hk. rewrite saved_run_app in L, L' |- *. rewrite (saved_run_app P b). cbn [fst snd] in *.
  assert (world_after P l = mk_world (Some (pp, v)) true (w_file (world_after P l))) as Ew.
  { destruct (world_after P l) as [me op fl]. cbn in Ho, Hm |- *. subst. reflexivity. }
  rewrite Ew in L, L' |- *. destruct (permuted_run P a b Hp pp v (w_file (world_after P l)) Hu) as [H1 H2].
  revert L L' H1 H2. generalize (saved_run_length P a (mk_world (Some (pp, v)) true (w_file (world_after P l)))) (saved_run_length P b (mk_world (Some (pp, v)) true (w_file (world_after P l)))).
  generalize (saved_run P (mk_world (Some (pp, v)) true (w_file (world_after P l))) a) (saved_run P (mk_world (Some (pp, v)) true (w_file (world_after P l))) b).
  intros [wa ra] [wb rb]. cbn [fst snd]. generalize (fst (run P (a ++ m) (snd (run P l s0)))) (fst (run P (b ++ m) (snd (run P l s0)))).
  intros q q' La Lb L L' -> H2. cbv zeta. apply split_answers in L. apply split_answers in L'. rewrite La in L. rewrite Lb in L'. destruct L as [L1 L2], L' as [L1' L2'].
  split; [|split; [eapply answers_same; eassumption|apply same_state_refl]].
  intros o r Hi. destruct (paired_answer P a _ _ o r L1 Hi) as (y & Hy & Ry). apply (Permutation_in _ H2) in Hy.
  destruct (answer_paired P b _ _ o y L1' Hy) as (r' & Hr & Rr). exists r'. split; [exact Hr|]. exists y. auto.
Qed.

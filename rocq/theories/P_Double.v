(** [MemoryIO] and [FileIO]. *)
From stdpp Require Import gmap.
From Verif Require Import M_Base M_Utf8 M_Prims M_Types M_Json M_Serde M_Storage M_Double S_Double P_Base P_File.

Lemma same_answers {A : Type} P order (c : client A) : prims_ok P -> (forall n, p_write P n = WriteOk) ->
  (forall n d, order n d ≡ₚ (map_to_list d).*1) ->
  (forall n d, order n d = p_order P n d) \/ orderless c ->
  forall m s, holds_same m s ->
  fst (with_memory order c m) = fst (with_file P c s) /\ holds_same (snd (with_memory order c m)) (snd (with_file P c s)).
Proof.
  intros HP Hw Ho. induction c as [a|key k IH|key k IH|key value k IH|key k IH|k IH|k IH|k IH]; intros Hc m s [Hd Ht];
    cbn [with_memory with_file].
  - split; [reflexivity|split; assumption].
  - unfold memory_contains, io_contains. rewrite Hd. apply IH; [|split; assumption]. destruct Hc as [Hc|Hc]; [auto|right; apply Hc].
  - unfold memory_get, io_get. rewrite Hd. apply IH; [|split; assumption]. destruct Hc as [Hc|Hc]; [auto|right; apply Hc].
  - apply IH; [exact Hc|]. split; cbn; congruence.
  - unfold memory_remove, io_remove, put_data. rewrite Hd. destruct (s_data s !! key) eqn:E; (apply IH; [destruct Hc as [Hc|Hc]; [auto|right; apply Hc]|]); split; cbn; congruence.
  - apply IH; [exact Hc|]. split; cbn; congruence.
  - unfold io_keys. rewrite Hd, Ht. destruct Hc as [Hc|[Hp Hc]].
    + rewrite Hc. apply IH; [auto|split; assumption].
    + rewrite (Hp _ (p_order P (s_tick s) (s_data s))); [apply IH; [auto|split; assumption]|].
      rewrite Ho. symmetry. apply ok_order, HP.
  - unfold memory_flush, flush. rewrite Hw. apply IH; [destruct Hc as [Hc|Hc]; [auto|right; apply Hc]|]. split; cbn; assumption.
Qed.

Lemma texts_insert (d : kvmap) key value : text_ok d -> utf8 key = true -> utf8 value = true -> text_ok (<[key := value]> d).
Proof.
  intros H Hk Hv k v E. destruct (decide (key = k)) as [->|Hne]; [rewrite lookup_insert in E; injection E as <-; auto|].
  rewrite lookup_insert_ne in E by exact Hne. exact (H _ _ E).
Qed.
Lemma texts_delete (d : kvmap) key : text_ok d -> text_ok (delete key d).
Proof. intros H k v E. apply lookup_delete_Some in E. exact (H _ _ (proj2 E)). Qed.

Lemma same_saves {A : Type} P order (c : client A) : prims_ok P -> (forall n, p_write P n = WriteOk) ->
  (forall n d, order n d ≡ₚ (map_to_list d).*1) ->
  (forall n d, order n d = p_order P n d) \/ orderless c -> sets_texts c ->
  forall m s, holds_same m s -> text_ok (s_data s) -> saved_same P m s ->
  saved_same P (snd (with_memory order c m)) (snd (with_file P c s)) /\ text_ok (s_data (snd (with_file P c s))).
Proof.
  intros HP Hw Ho. induction c as [a|key k IH|key k IH|key value k IH|key k IH|k IH|k IH|k IH]; intros Hc Hs m s [Hd Ht] Hx Hl;
    cbn [with_memory with_file].
  - split; assumption.
  - unfold memory_contains, io_contains. rewrite Hd. apply IH; [|apply Hs|split; assumption|exact Hx|exact Hl]. destruct Hc as [Hc|Hc]; [auto|right; apply Hc].
  - unfold memory_get, io_get. rewrite Hd. apply IH; [|apply Hs|split; assumption|exact Hx|exact Hl]. destruct Hc as [Hc|Hc]; [auto|right; apply Hc].
  - destruct Hs as (Hk & Hv & Hs). apply IH; [exact Hc|exact Hs|split; cbn; congruence| |exact Hl].
    apply texts_insert; assumption.
  - unfold memory_remove, io_remove, put_data. rewrite Hd. destruct (s_data s !! key) eqn:E;
      (apply IH; [destruct Hc as [Hc|Hc]; [auto|right; apply Hc]|apply Hs|split; cbn; congruence| |exact Hl]); [apply texts_delete|]; assumption.
  - apply IH; [exact Hc|exact Hs|split; cbn; congruence| |exact Hl]. intros k' v' E. cbn in E. rewrite lookup_empty in E. discriminate E.
  - unfold io_keys. rewrite Hd, Ht. destruct Hc as [Hc|[Hp Hc]].
    + rewrite Hc. apply IH; [auto|apply Hs|split; assumption|exact Hx|exact Hl].
    + rewrite (Hp _ (p_order P (s_tick s) (s_data s))); [apply IH; [auto|apply Hs|split; assumption|exact Hx|exact Hl]|].
      rewrite Ho. symmetry. apply ok_order, HP.
  - unfold memory_flush, flush. rewrite Hw. apply IH; [destruct Hc as [Hc|Hc]; [auto|right; apply Hc]|apply Hs|split; cbn; assumption|exact Hx|].
    unfold saved_same. cbn [m_file_data s_disk]. rewrite Hd. apply load_flush; assumption.
Qed.

(** Whatever was on the disk before: once something has been saved, both have saved the same. *)
Lemma saved_now P m s : prims_ok P -> p_write P (s_flushes s) = WriteOk -> holds_same m s -> text_ok (s_data s) ->
  saved_same P (snd (memory_flush m)) (snd (flush P s)).
Proof.
  intros HP Hw [Hd _] Hx. unfold saved_same, memory_flush, flush. rewrite Hw. cbn [snd m_file_data s_disk]. rewrite Hd. apply load_flush; assumption.
Qed.

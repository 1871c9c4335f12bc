(** Writing and loading the storage file. *)
From stdpp Require Import gmap.
From Coq Require Import Permutation.
From Verif Require Import M_Base M_Utf8 M_Prims M_Types M_Json M_Serde M_Storage S_Json S_Serde
  P_Base P_Json P_Serde P_Utf8.

Lemma map_of_pairs_lookup l k : map_of_pairs l !! k = last_value k l.
Proof.
  unfold map_of_pairs.
  assert (forall (m : kvmap), fold_left (fun m '(k, v) => <[k := v]> m) l m !! k =
          match last_value k l with Some v => Some v | None => m !! k end) as H.
  { induction l as [|[k' v'] l IH]; intros m; [reflexivity|]. cbn [fold_left last_value].
    rewrite IH. destruct (last_value k l) as [v|]; [reflexivity|].
    destruct (bytes_eqb k k') eqn:E.
    - apply bytes_eqb_eq in E. subst k'. apply lookup_insert.
    - apply bytes_eqb_neq in E. apply lookup_insert_ne. congruence. }
  rewrite H. destruct (last_value k l); [reflexivity|]. apply lookup_empty.
Qed.

Definition text_ok (d : kvmap) : Prop := forall k v, d !! k = Some v -> utf8 k = true /\ utf8 v = true.

Lemma pairs_of_valid order d : text_ok d -> pairs_valid (pairs_of order d) = true.
Proof.
  intros H. unfold pairs_valid, pairs_of. apply forallb_forall. intros [k v] Hin.
  apply in_flat_map in Hin. destruct Hin as (k' & _ & Hin).
  destruct (d !! k') as [v'|] eqn:E; [|destruct Hin]. destruct Hin as [[= -> ->]|[]].
  destruct (H _ _ E) as [-> ->]. reflexivity.
Qed.

Lemma last_value_pairs order d k :
  last_value k (pairs_of order d) = if existsb (bytes_eqb k) order then d !! k else None.
Proof.
  unfold pairs_of. induction order as [|k' order IH]; [reflexivity|]. cbn [flat_map existsb].
  destruct (bytes_eqb k k') eqn:E; cbn [orb].
  - apply bytes_eqb_eq in E. subst k'. destruct (d !! k) as [v|] eqn:Ed; cbn [app last_value].
    + rewrite IH, bytes_eqb_refl. destruct (existsb _ _); reflexivity.
    + rewrite IH. destruct (existsb _ _); reflexivity.
  - destruct (d !! k') as [v|] eqn:Ed; cbn [app last_value]; [rewrite E|];
      rewrite IH; destruct (existsb _ _); try reflexivity. destruct (d !! k); reflexivity.
Qed.

Lemma order_complete (P : prims) (t : nat) (d : kvmap) (k : bytes) : prims_ok P -> is_Some (d !! k) ->
  existsb (bytes_eqb k) (p_order P t d) = true.
Proof.
  intros HP [v Hv]. apply existsb_exists. exists k. split; [|apply bytes_eqb_refl].
  apply elem_of_list_In. rewrite (ok_order P HP t d). apply elem_of_list_fmap.
  exists (k, v). split; [reflexivity|]. apply elem_of_map_to_list, Hv.
Qed.

Lemma map_of_pairs_of (P : prims) (t : nat) (d : kvmap) : prims_ok P -> map_of_pairs (pairs_of (p_order P t d) d) = d.
Proof.
  intros HP. apply map_eq. intros k. rewrite map_of_pairs_lookup, last_value_pairs.
  destruct (d !! k) as [v|] eqn:E; [|destruct (existsb _ _); reflexivity].
  rewrite order_complete; [reflexivity|exact HP|]. eexists; exact E.
Qed.

Lemma load_flush P s : prims_ok P -> text_ok (s_data s) -> load P (Some (flush_text P s)) = Ok (s_data s).
Proof.
  intros HP Ht. unfold load, flush_text. cbn [ok_or bind].
  pose proof (pairs_of_valid (io_keys P s) (s_data s) Ht) as Hv.
  rewrite utf8_file by exact Hv. rewrite file_roundtrip by exact Hv. cbn [bind].
  unfold io_keys. rewrite map_of_pairs_of by exact HP. reflexivity.
Qed.

Lemma load_prefix P s p q : text_ok (s_data s) -> flush_text P s = p ++ q -> q <> [] ->
  load P (Some p) = Err FileReadFailure \/ load P (Some p) = Err InvalidJson.
Proof.
  intros Ht Hpq Hq. unfold load. cbn [ok_or bind]. destruct (utf8 p); [right|left; reflexivity].
  unfold from_slice. rewrite (file_prefix_rejected _ (pairs_of (io_keys P s) (s_data s)) p q);
    [reflexivity| |exact Hpq|exact Hq]. apply pairs_of_valid, Ht.
Qed.

Lemma load_iff P disk d :
  load P disk = Ok d <->
  exists text j l, disk = Some text /\ utf8 text = true /\ document (p_float_ok P) j text /\
    (storage_object j l \/ storage_array j l) /\ forall k, d !! k = last_value k l.
Proof.
  unfold load. split.
  - destruct disk as [text|]; [|discriminate]. cbn [ok_or bind]. destruct (utf8 text) eqn:Eu; [|discriminate].
    destruct (from_slice _ _ text) as [l|e|] eqn:E; try discriminate. cbn [bind]. intros [= <-].
    apply from_slice_ok in E. destruct E as (j & Hd & Hj). exists text, j, l.
    repeat split; try assumption; [apply file_of_json_iff, Hj|]. intros k. apply map_of_pairs_lookup.
  - intros (text & j & l & -> & Hu & Hd & Hj & Hk). cbn [ok_or bind]. rewrite Hu.
    assert (from_slice (p_float_ok P) file_of_json text = Ok l) as ->.
    { apply from_slice_ok. exists j. split; [exact Hd|]. apply file_of_json_iff, Hj. }
    cbn [bind]. f_equal. apply map_eq. intros k. rewrite map_of_pairs_lookup, Hk. reflexivity.
Qed.

Lemma load_no_panic P disk : load P disk <> Panic.
Proof.
  unfold load. destruct disk as [text|]; [|discriminate]. cbn [ok_or bind].
  destruct (utf8 text); [|discriminate].
  destruct (from_slice_cases (p_float_ok P) file_of_json text) as [[a ->]| ->]; discriminate.
Qed.

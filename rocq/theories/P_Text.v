From stdpp Require Import gmap.
From Verif Require Import M_Base M_Utf8 M_Prims M_Types M_Json M_Serde M_Storage S_Json S_Serde S_Text P_Base P_Json P_Serde P_Utf8 P_File.

Definition escape_checked (c : byte) : bool :=
  match List.find (fun '(_, c') => Byte.eqb c c') short_escapes with
  | Some (e, _) => bytes_eqb (escape_byte c) [x5c; e]
  | None =>
      if (Byte.to_N c <? 32)%N then
        match nth_error (bs "0123456789abcdef") (N.to_nat (Byte.to_N c mod 16)) with
        | Some d => bytes_eqb (escape_byte c) (bs "\u00" ++ (if (Byte.to_N c <? 16)%N then bs "0" else bs "1") ++ [d])
        | None => false
        end
      else bytes_eqb (escape_byte c) [c]
  end.
Lemma escape_all c : escape_checked c = true.
Proof. destruct c; vm_compute; reflexivity. Qed.
Lemma escape_written c : escaped c (escape_byte c).
Proof.
  pose proof (escape_all c) as H. unfold escape_checked in H. destruct (List.find _ short_escapes) as [[e c']|] eqn:E.
  - apply List.find_some in E. destruct E as [E1 E2]. apply eqb_eq in E2. subst c'. apply bytes_eqb_eq in H. rewrite H. apply escaped_short, E1.
  - assert (forall e, ~ In (e, c) short_escapes) as Hn.
    { intros e He. apply (List.find_none _ _ E) in He. cbn in He. rewrite (proj2 (eqb_eq c c) eq_refl) in He. discriminate He. }
    destruct (N.ltb_spec (Byte.to_N c) 32) as [Hc|Hc].
    + destruct (nth_error _ _) as [d|] eqn:Ed; [|discriminate H]. apply bytes_eqb_eq in H. rewrite H. apply escaped_digits; assumption.
    + apply bytes_eqb_eq in H. rewrite H. apply escaped_not; [intros -> ; apply (Hn x22); cbn; auto|intros ->; apply (Hn x5c); cbn; auto|exact Hc].
Qed.
Lemma quoted_written s : utf8 s = true -> quoted s (write_string s).
Proof.
  intros _. exists (map escape_byte s). split.
  - induction s as [|c s IH]; constructor; [apply escape_written|exact IH].
  - unfold write_string. rewrite flat_map_concat_map. reflexivity.
Qed.

Ltac text_eq := repeat match goal with |- context [write_string ?x] => match x with bs _ => fail 1 | _ => generalize (write_string x); intro end end;
  try match goal with |- context [write_number ?x] => generalize (write_number x); intro end;
  repeat (rewrite <- app_assoc || rewrite <- app_comm_cons); vm_compute; reflexivity.

Lemma written_site s : site_valid s -> site_text s (site_to_vec s).
Proof.
  intros [Hn Ha]. destruct s as [n a]. cbn [site_name site_alias] in *. destruct a as [a|].
  - exists (write_string n), (bs "," ++ bs """" ++ bs "alias" ++ bs """:" ++ write_string a).
    split; [apply quoted_written, Hn|]. split; [exists (write_string a); split; [apply quoted_written, Ha; reflexivity|reflexivity]|].
    unfold site_to_vec, site_json, member. cbn [write_json map join site_name site_alias]. text_eq.
  - exists (write_string n), []. split; [apply quoted_written, Hn|]. split; [reflexivity|].
    unfold site_to_vec, site_json, member. cbn [write_json map join site_name site_alias]. text_eq.
Qed.
Definition notes_text (notes : bytes) : bytes := match notes with [] => [] | _ => bs "," ++ bs """" ++ bs "notes" ++ bs """:" ++ write_string notes end.
Lemma written_notes notes : utf8 notes = true -> extra (bs "notes") (notes_part notes) (notes_text notes).
Proof. intros H. destruct notes as [|c l]; [reflexivity|]. exists (write_string (c :: l)). split; [apply quoted_written, H|reflexivity]. Qed.
Lemma written_password p : password_valid p -> password_text p (password_to_vec p).
Proof.
  destruct p as [[[s n r] len [l u d y] notes]|[[s n r] pw notes]]; unfold password_valid.
  - intros ((Hs & Hn & Hr) & Hl & Hnotes). cbn [gp_id gp_length gp_notes id_site id_name id_revision] in *.
    exists (write_string s), (write_string n), (write_string r), (write_number len), (notes_text notes).
    do 3 (split; [apply quoted_written; assumption|]). split; [apply write_number_spec, Hl|]. split; [apply written_notes, Hnotes|].
    unfold password_to_vec, password_json, id_members, charset_members, notes_members, notes_text, member, cs_contains.
    cbn [gp_id gp_length gp_charset gp_notes id_site id_name id_revision cs_lower cs_upper cs_digit cs_symbol].
    destruct notes as [|c notes]; cbn [app write_json map join];
    change (if l then bs "true" else bs "false") with (yes_no l); change (if u then bs "true" else bs "false") with (yes_no u);
    change (if d then bs "true" else bs "false") with (yes_no d); change (if y then bs "true" else bs "false") with (yes_no y); generalize (yes_no l), (yes_no u), (yes_no d), (yes_no y); intros bl bu bd by_; text_eq.
  - intros ((Hs & Hn & Hr) & Hpw & Hnotes). cbn [sp_id sp_password sp_notes id_site id_name id_revision] in *.
    exists (write_string s), (write_string n), (write_string r), (write_string pw), (notes_text notes).
    do 4 (split; [apply quoted_written; assumption|]). split; [apply written_notes, Hnotes|].
    unfold password_to_vec, password_json, id_members, notes_members, notes_text, member.
    cbn [sp_id sp_password sp_notes id_site id_name id_revision].
    destruct notes as [|c notes]; cbn [app write_json map join]; text_eq.
Qed.
Lemma join_commas l : comma_list l (join (bs ",") l).
Proof.
  unfold comma_list. destruct l as [|x l]; [reflexivity|]. revert x. induction l as [|y l IH]; intros x; [cbn; rewrite app_nil_r; reflexivity|].
  change (join (bs ",") (x :: y :: l)) with (x ++ bs "," ++ join (bs ",") (y :: l)). rewrite IH. cbn [map concat]. rewrite <- !app_assoc. reflexivity.
Qed.
Lemma written_file l : Forall (fun '(k, v) => utf8 k = true /\ utf8 v = true) l -> file_text l (file_to_string l).
Proof.
  intros H. set (ts := map (fun '(k, v) => write_string k ++ bs ":" ++ write_string v) l).
  exists ts, (join (bs ",") ts). split; [|split; [apply join_commas|]].
  - unfold ts. clear ts. induction H as [|[k v] l [Hk Hv] _ IH]; constructor; [|exact IH].
    exists (write_string k), (write_string v). split; [apply quoted_written, Hk|]. split; [apply quoted_written, Hv|reflexivity].
  - unfold file_to_string, file_json, member. cbn [write_json map join]. rewrite map_map.
    replace (map _ l) with ts; [|unfold ts; apply map_ext; intros [k v]; reflexivity]. change [","%byte] with (bs ","). generalize (join (bs ",") ts). intros b.
    repeat (rewrite <- app_assoc || rewrite <- app_comm_cons). vm_compute. reflexivity.
Qed.
Lemma pairs_back (d : kvmap) : forall l, (forall k v, In (k, v) l -> d !! k = Some v) -> pairs_of l.*1 d = l.
Proof.
  induction l as [|[k v] l IH]; intros H; [reflexivity|]. unfold pairs_of in *. cbn [fmap list_fmap fst flat_map].
  rewrite (H k v (or_introl eq_refl)). cbn [app]. f_equal. apply IH. intros k' v' Hin. apply H. right. exact Hin.
Qed.
Lemma written_flush P s : prims_ok P -> text_ok (s_data s) ->
  exists l, l ≡ₚ map_to_list (s_data s) /\ file_text l (flush_text P s).
Proof.
  intros HP Ht. exists (pairs_of (io_keys P s) (s_data s)).
  assert (pairs_of (io_keys P s) (s_data s) ≡ₚ map_to_list (s_data s)) as Hp.
  { unfold io_keys. transitivity (pairs_of (map_to_list (s_data s)).*1 (s_data s)).
    - unfold pairs_of. apply Permutation_flat_map, (ok_order P HP).
    - rewrite pairs_back; [reflexivity|]. intros k v Hin. apply elem_of_map_to_list, elem_of_list_In, Hin. }
  split; [exact Hp|]. unfold flush_text. apply written_file. apply List.Forall_forall. intros [k v] Hin.
  apply Ht. apply elem_of_map_to_list. rewrite <- Hp. apply elem_of_list_In, Hin.
Qed.

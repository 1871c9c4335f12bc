(** Random values as a finite sequence of bytes, all equally likely. *)
From stdpp Require Import gmap.
From Verif Require Import M_Base M_Prims M_Types M_Storage M_Passwords M_History S_Vault S_Api.

(** One block of 32 bytes for each value drawn; shorter values use only a part of it. *)
Notation tape := (list bytes).
Definition tape_ok (n : nat) (T : tape) : Prop := length T = n /\ Forall (fun b => length b = 32) T.
(** The same environment with these random values. *)
Definition with_tape (P : prims) (T : tape) : prims := {|
  p_overflow_checks := p_overflow_checks P; p_hmac := p_hmac P; p_seal := p_seal P; p_open := p_open P;
  p_scrypt := p_scrypt P; p_random := fun i n => firstn n (nth i T [] ++ repeat x00 n); p_order := p_order P; p_wild := p_wild P;
  p_write := p_write P; p_float_ok := p_float_ok P |}.

(** Two values that were stored at some time, or one of them and a recovery code, or two recovery codes, with the same nonce. *)
Definition repeats (P : prims) (l : list op) (s : st) : Prop :=
  exists i j o1 s1 o2 s2, nth_error (trace P l s) i = Some (o1, s1) /\ nth_error (trace P l s) j = Some (o2, s2) /\
  ((exists k1 v1 k2 v2 n, s_data s1 !! k1 = Some v1 /\ s_data s2 !! k2 = Some v2 /\ k1 <> bs "salt" /\ k2 <> bs "salt" /\
      entry_nonce v1 n /\ entry_nonce v2 n /\ ~ (k1 = k2 /\ v1 = v2)) \/
   (exists c k2 v2 n, o1 = OCode c /\ s_data s2 !! k2 = Some v2 /\ k2 <> bs "salt" /\ code_nonce c n /\ entry_nonce v2 n) \/
   (exists c1 c2 n, o1 = OCode c1 /\ o2 = OCode c2 /\ code_nonce c1 n /\ code_nonce c2 n /\ i <> j)).

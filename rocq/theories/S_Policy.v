(** Policy of generated passwords, stated without reference to the generator. *)
From Verif Require Import M_Base M_Types.

(** The characters of each type, by ASCII ranges: letters without the easily confused i, l, o (both
    cases), digits 2..9, printable punctuation without the quote characters and the backslash. *)
Definition char_of (t : ctype) (c : byte) : Prop :=
  let n := Byte.to_N c in
  match t with
  | Lower => (97 <= n <= 122)%N /\ ~ In c (bs "ilo")
  | Upper => (65 <= n <= 90)%N /\ ~ In c (bs "ILO")
  | Digit => (50 <= n <= 57)%N
  | Symbol => (33 <= n <= 126)%N /\ ~ (48 <= n <= 57)%N /\ ~ (65 <= n <= 90)%N /\
              ~ (97 <= n <= 122)%N /\ ~ In c [x22; x27; x5c; x60]
  end.

Definition all_types : list ctype := [Lower; Upper; Digit; Symbol].

(** Number of selected types. *)
Definition selected_count (cs : charset) : nat := length (filter (cs_contains cs) all_types).

(** [pw] has [n] characters of selected types; all selected types occur if there is room for that,
    otherwise no type occurs twice. *)
Definition meets_policy (n : nat) (cs : charset) (pw : bytes) : Prop :=
  length pw = n /\
  exists types : list ctype,
    Forall2 char_of types pw /\
    Forall (fun t => cs_contains cs t = true) types /\
    (selected_count cs <= n -> forall t, cs_contains cs t = true -> In t types) /\
    (n < selected_count cs -> NoDup types).

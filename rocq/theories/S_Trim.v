(** Surrounding white space, by code points. *)
From Verif Require Import M_Base S_Utf8.

(** The code points with the property White_Space in Unicode's PropList.txt. *)
Definition white_space : list N :=
  [0x9; 0xA; 0xB; 0xC; 0xD; 0x20; 0x85; 0xA0; 0x1680;
   0x2000; 0x2001; 0x2002; 0x2003; 0x2004; 0x2005; 0x2006; 0x2007; 0x2008; 0x2009; 0x200A;
   0x2028; 0x2029; 0x202F; 0x205F; 0x3000]%N.
Definition white (c : N) : bool := existsb (N.eqb c) white_space.

(** Without the white space in front. *)
Fixpoint skip_white (cs : list N) : list N :=
  match cs with
  | [] => []
  | c :: r => if white c then skip_white r else cs
  end.
(** Without the white space on both sides. *)
Definition unpadded (cs : list N) : list N := rev (skip_white (rev (skip_white cs))).

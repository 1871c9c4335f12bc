(** The primitives the two crates use, written out after their standards: SHA-256, HMAC, PBKDF2,
    scrypt, AES-256-GCM, and the wildcard patterns.

    pfp/src/crypto.rs names them: [Hmac<Sha256>] (crypto.rs:18-22, 140-145), [Aes256Gcm]
    (crypto.rs:102-138), [scrypt] with parameters (15, 8, 1) (crypto.rs:36-48);
    pfp/src/passwords.rs:431-455 uses [WildMatch].  The source of those crates is not in the
    repository; the definitions below follow the standards and are checked against the test vectors
    of the standards and of the repository in [T_Vectors]. *)
From stdpp Require Import gmap.
From Verif Require Import M_Prims.

Local Open Scope N_scope.

(** ** Words *)

(** Words of 32 bits are numbers below 2^32. *)
Definition w32 (x : N) : N := N.land x 0xffffffff.
Definition add32 (x y : N) : N := w32 (x + y).
Definition rotr (n x : N) : N := N.lor (N.shiftr x n) (w32 (N.shiftl x (32 - n))).
Definition rotl (n x : N) : N := rotr (32 - n) x.

(** The [n] bytes of a number, least significant first, and back. *)
Fixpoint le_bytes (n : nat) (x : N) : bytes :=
  match n with
  | O => []
  | S n' => u8 x :: le_bytes n' (N.shiftr x 8)
  end.

Fixpoint le_num (l : bytes) : N :=
  match l with
  | [] => 0
  | b :: l' => N.lor (Byte.to_N b) (N.shiftl (le_num l') 8)
  end.

Definition be_bytes (n : nat) (x : N) : bytes := rev (le_bytes n x).
Definition be_num (l : bytes) : N := le_num (rev l).

(** Cut into pieces of [n] elements, the last one possibly shorter. [fuel] bounds the number of
    pieces. *)
Fixpoint pieces {A : Type} (fuel n : nat) (l : list A) : list (list A) :=
  match fuel with
  | O => []
  | S f => match l with
           | [] => []
           | _ => firstn n l :: pieces f n (skipn n l)
           end
  end.

Definition blocks {A : Type} (n : nat) (l : list A) : list (list A) := pieces (length l) n l.

(** Exclusive or, for as long as the second string lasts; the length is that of the first. *)
Definition byte_xor (a b : byte) : byte :=
  let '(a0, (a1, (a2, (a3, (a4, (a5, (a6, a7))))))) := Byte.to_bits a in
  let '(b0, (b1, (b2, (b3, (b4, (b5, (b6, b7))))))) := Byte.to_bits b in
  Byte.of_bits (xorb a0 b0, (xorb a1 b1, (xorb a2 b2, (xorb a3 b3,
               (xorb a4 b4, (xorb a5 b5, (xorb a6 b6, xorb a7 b7))))))).

Fixpoint xor_bytes (a b : bytes) : bytes :=
  match a, b with
  | x :: a', y :: b' => byte_xor x y :: xor_bytes a' b'
  | _, _ => a
  end.

(** ** SHA-256 (FIPS 180-4) *)

Definition sha_k : list N :=
  [0x428a2f98; 0x71374491; 0xb5c0fbcf; 0xe9b5dba5; 0x3956c25b; 0x59f111f1;
   0x923f82a4; 0xab1c5ed5; 0xd807aa98; 0x12835b01; 0x243185be; 0x550c7dc3;
   0x72be5d74; 0x80deb1fe; 0x9bdc06a7; 0xc19bf174; 0xe49b69c1; 0xefbe4786;
   0x0fc19dc6; 0x240ca1cc; 0x2de92c6f; 0x4a7484aa; 0x5cb0a9dc; 0x76f988da;
   0x983e5152; 0xa831c66d; 0xb00327c8; 0xbf597fc7; 0xc6e00bf3; 0xd5a79147;
   0x06ca6351; 0x14292967; 0x27b70a85; 0x2e1b2138; 0x4d2c6dfc; 0x53380d13;
   0x650a7354; 0x766a0abb; 0x81c2c92e; 0x92722c85; 0xa2bfe8a1; 0xa81a664b;
   0xc24b8b70; 0xc76c51a3; 0xd192e819; 0xd6990624; 0xf40e3585; 0x106aa070;
   0x19a4c116; 0x1e376c08; 0x2748774c; 0x34b0bcb5; 0x391c0cb3; 0x4ed8aa4a;
   0x5b9cca4f; 0x682e6ff3; 0x748f82ee; 0x78a5636f; 0x84c87814; 0x8cc70208;
   0x90befffa; 0xa4506ceb; 0xbef9a3f7; 0xc67178f2].

Definition sha_state : Type := N * N * N * N * N * N * N * N.

Definition sha_init : sha_state :=
  (0x6a09e667, 0xbb67ae85, 0x3c6ef372, 0xa54ff53a, 0x510e527f, 0x9b05688c, 0x1f83d9ab, 0x5be0cd19).

(** Section 4.1.2. *)
Definition ch (x y z : N) : N := N.lxor (N.land x y) (N.land (N.lxor x 0xffffffff) z).
Definition maj (x y z : N) : N := N.lxor (N.lxor (N.land x y) (N.land x z)) (N.land y z).
Definition bsig0 (x : N) : N := N.lxor (N.lxor (rotr 2 x) (rotr 13 x)) (rotr 22 x).
Definition bsig1 (x : N) : N := N.lxor (N.lxor (rotr 6 x) (rotr 11 x)) (rotr 25 x).
Definition ssig0 (x : N) : N := N.lxor (N.lxor (rotr 7 x) (rotr 18 x)) (N.shiftr x 3).
Definition ssig1 (x : N) : N := N.lxor (N.lxor (rotr 17 x) (rotr 19 x)) (N.shiftr x 10).

(** Section 6.2.2, step 1: [n] more words of the message schedule, given the words so far, latest
    first. *)
Fixpoint schedule (n : nat) (ws : list N) : list N :=
  match n with
  | O => rev ws
  | S n' =>
    schedule n' (w32 (ssig1 (nth 1 ws 0) + nth 6 ws 0 + ssig0 (nth 14 ws 0) + nth 15 ws 0) :: ws)
  end.

(** Section 6.2.2, step 3. *)
Definition sha_round (s : sha_state) (kw : N * N) : sha_state :=
  let '(a, b, c, d, e, f, g, h) := s in
  let t1 := h + bsig1 e + ch e f g + fst kw + snd kw in
  let t2 := bsig0 a + maj a b c in
  (w32 (t1 + t2), a, b, c, add32 d t1, e, f, g).

(** Section 6.2.2, for one block of 64 bytes. *)
Definition sha_block (s : sha_state) (block : bytes) : sha_state :=
  let ws := schedule 48 (rev (map be_num (blocks 4 block))) in
  let '(a, b, c, d, e, f, g, h) := s in
  let '(a', b', c', d', e', f', g', h') := fold_left sha_round (combine sha_k ws) s in
  (add32 a a', add32 b b', add32 c c', add32 d d', add32 e e', add32 f f', add32 g g', add32 h h').

(** Section 5.1.1. *)
Definition sha_pad (m : bytes) : bytes :=
  let l := length m in
  m ++ x80 :: repeat x00 ((119 - l mod 64) mod 64)%nat ++ be_bytes 8 (8 * N.of_nat l).

Definition sha256 (m : bytes) : bytes :=
  let '(a, b, c, d, e, f, g, h) := fold_left sha_block (blocks 64 (sha_pad m)) sha_init in
  be_bytes 4 a ++ be_bytes 4 b ++ be_bytes 4 c ++ be_bytes 4 d ++
  be_bytes 4 e ++ be_bytes 4 f ++ be_bytes 4 g ++ be_bytes 4 h.

(** ** HMAC-SHA256 (RFC 2104) *)
Definition hmac_sha256 (key m : bytes) : bytes :=
  let k0 := if (64 <? length key)%nat then sha256 key else key in
  let k := k0 ++ repeat x00 (64 - length k0)%nat in
  sha256 (xor_bytes k (repeat x5c 64) ++ sha256 (xor_bytes k (repeat x36 64) ++ m)).

(** ** PBKDF2-HMAC-SHA256 with one iteration (RFC 8018, section 5.2), as scrypt uses it *)
Definition pbkdf2 (password salt : bytes) (n : nat) : bytes :=
  firstn n (concat (map (fun i => hmac_sha256 password (salt ++ be_bytes 4 (N.of_nat i)))
                        (seq 1 (S (n / 32)%nat)))).

(** ** scrypt (RFC 7914) *)

(** Section 3: Salsa20/8, on 16 words. *)
Definition salsa_step (n x a b : N) : N := N.lxor x (rotl n (add32 a b)).

Definition quarter (q : N * N * N * N) : N * N * N * N :=
  let '(a, b, c, d) := q in
  let b := salsa_step 7 b a d in
  let c := salsa_step 9 c b a in
  let d := salsa_step 13 d c b in
  let a := salsa_step 18 a d c in
  (a, b, c, d).

Definition double_round (x : list N) : list N :=
  match x with
  | [v0; v1; v2; v3; v4; v5; v6; v7; v8; v9; v10; v11; v12; v13; v14; v15] =>
    let '(v0, v4, v8, v12) := quarter (v0, v4, v8, v12) in
    let '(v5, v9, v13, v1) := quarter (v5, v9, v13, v1) in
    let '(v10, v14, v2, v6) := quarter (v10, v14, v2, v6) in
    let '(v15, v3, v7, v11) := quarter (v15, v3, v7, v11) in
    let '(v0, v1, v2, v3) := quarter (v0, v1, v2, v3) in
    let '(v5, v6, v7, v4) := quarter (v5, v6, v7, v4) in
    let '(v10, v11, v8, v9) := quarter (v10, v11, v8, v9) in
    let '(v15, v12, v13, v14) := quarter (v15, v12, v13, v14) in
    [v0; v1; v2; v3; v4; v5; v6; v7; v8; v9; v10; v11; v12; v13; v14; v15]
  | _ => x
  end.

Definition map2 (f : N -> N -> N) (a b : list N) : list N :=
  map (fun p => f (fst p) (snd p)) (combine a b).

Definition salsa20_8 (x : list N) : list N :=
  map2 add32 x (double_round (double_round (double_round (double_round x)))).

(** Section 4: scryptBlockMix, on blocks of 16 words. [go] returns the blocks Y_0, Y_1, ... *)
Fixpoint block_mix_go (x : list N) (bl : list (list N)) : list (list N) :=
  match bl with
  | [] => []
  | b :: bl' => let y := salsa20_8 (map2 N.lxor x b) in y :: block_mix_go y bl'
  end.

(** Every second element, starting with the first. *)
Fixpoint evens {A : Type} (l : list A) : list A :=
  match l with
  | [] => []
  | [a] => [a]
  | a :: _ :: l' => a :: evens l'
  end.

Definition block_mix (bl : list (list N)) : list (list N) :=
  let ys := block_mix_go (last bl []) bl in
  evens ys ++ evens (tl ys).

(** Section 5: scryptROMix. The values V_0, V_1, ... and the value after them. *)
Fixpoint fill (n : nat) (x : list (list N)) : list (list (list N)) * list (list N) :=
  match n with
  | O => ([], x)
  | S n' => let '(v, x') := fill n' (block_mix x) in (x :: v, x')
  end.

Fixpoint mix (n : nat) (count : N) (v : list (list (list N))) (x : list (list N)) : list (list N) :=
  match n with
  | O => x
  | S n' =>
    let j := (nth 0 (last x []) 0) mod count in
    mix n' count v
        (block_mix (map (fun p => map2 N.lxor (fst p) (snd p))
                        (combine x (nth (N.to_nat j) v []))))
  end.

Definition ro_mix (count : nat) (b : bytes) : bytes :=
  let x := map (map le_num) (map (blocks 4) (blocks 64 b)) in
  let '(v, x') := fill count x in
  concat (map (le_bytes 4) (concat (mix count (N.of_nat count) v x'))).

(** Section 6: scrypt with cost 2^[log_n], block size [r] and parallelization [p]. *)
Definition scrypt (log_n r p : nat) (password salt : bytes) (n : nat) : bytes :=
  let b := pbkdf2 password salt (p * 128 * r)%nat in
  pbkdf2 password (concat (map (ro_mix (2 ^ log_n)%nat) (blocks (128 * r)%nat b))) n.

(** ** AES-256 (FIPS 197) *)

(** The substitution box (FIPS 197, figure 7). *)
Definition sbox (b : byte) : byte :=
  match b with
  | x00 => x63 | x01 => x7c | x02 => x77 | x03 => x7b | x04 => xf2 | x05 => x6b | x06 => x6f | x07 => xc5
  | x08 => x30 | x09 => x01 | x0a => x67 | x0b => x2b | x0c => xfe | x0d => xd7 | x0e => xab | x0f => x76
  | x10 => xca | x11 => x82 | x12 => xc9 | x13 => x7d | x14 => xfa | x15 => x59 | x16 => x47 | x17 => xf0
  | x18 => xad | x19 => xd4 | x1a => xa2 | x1b => xaf | x1c => x9c | x1d => xa4 | x1e => x72 | x1f => xc0
  | x20 => xb7 | x21 => xfd | x22 => x93 | x23 => x26 | x24 => x36 | x25 => x3f | x26 => xf7 | x27 => xcc
  | x28 => x34 | x29 => xa5 | x2a => xe5 | x2b => xf1 | x2c => x71 | x2d => xd8 | x2e => x31 | x2f => x15
  | x30 => x04 | x31 => xc7 | x32 => x23 | x33 => xc3 | x34 => x18 | x35 => x96 | x36 => x05 | x37 => x9a
  | x38 => x07 | x39 => x12 | x3a => x80 | x3b => xe2 | x3c => xeb | x3d => x27 | x3e => xb2 | x3f => x75
  | x40 => x09 | x41 => x83 | x42 => x2c | x43 => x1a | x44 => x1b | x45 => x6e | x46 => x5a | x47 => xa0
  | x48 => x52 | x49 => x3b | x4a => xd6 | x4b => xb3 | x4c => x29 | x4d => xe3 | x4e => x2f | x4f => x84
  | x50 => x53 | x51 => xd1 | x52 => x00 | x53 => xed | x54 => x20 | x55 => xfc | x56 => xb1 | x57 => x5b
  | x58 => x6a | x59 => xcb | x5a => xbe | x5b => x39 | x5c => x4a | x5d => x4c | x5e => x58 | x5f => xcf
  | x60 => xd0 | x61 => xef | x62 => xaa | x63 => xfb | x64 => x43 | x65 => x4d | x66 => x33 | x67 => x85
  | x68 => x45 | x69 => xf9 | x6a => x02 | x6b => x7f | x6c => x50 | x6d => x3c | x6e => x9f | x6f => xa8
  | x70 => x51 | x71 => xa3 | x72 => x40 | x73 => x8f | x74 => x92 | x75 => x9d | x76 => x38 | x77 => xf5
  | x78 => xbc | x79 => xb6 | x7a => xda | x7b => x21 | x7c => x10 | x7d => xff | x7e => xf3 | x7f => xd2
  | x80 => xcd | x81 => x0c | x82 => x13 | x83 => xec | x84 => x5f | x85 => x97 | x86 => x44 | x87 => x17
  | x88 => xc4 | x89 => xa7 | x8a => x7e | x8b => x3d | x8c => x64 | x8d => x5d | x8e => x19 | x8f => x73
  | x90 => x60 | x91 => x81 | x92 => x4f | x93 => xdc | x94 => x22 | x95 => x2a | x96 => x90 | x97 => x88
  | x98 => x46 | x99 => xee | x9a => xb8 | x9b => x14 | x9c => xde | x9d => x5e | x9e => x0b | x9f => xdb
  | xa0 => xe0 | xa1 => x32 | xa2 => x3a | xa3 => x0a | xa4 => x49 | xa5 => x06 | xa6 => x24 | xa7 => x5c
  | xa8 => xc2 | xa9 => xd3 | xaa => xac | xab => x62 | xac => x91 | xad => x95 | xae => xe4 | xaf => x79
  | xb0 => xe7 | xb1 => xc8 | xb2 => x37 | xb3 => x6d | xb4 => x8d | xb5 => xd5 | xb6 => x4e | xb7 => xa9
  | xb8 => x6c | xb9 => x56 | xba => xf4 | xbb => xea | xbc => x65 | xbd => x7a | xbe => xae | xbf => x08
  | xc0 => xba | xc1 => x78 | xc2 => x25 | xc3 => x2e | xc4 => x1c | xc5 => xa6 | xc6 => xb4 | xc7 => xc6
  | xc8 => xe8 | xc9 => xdd | xca => x74 | xcb => x1f | xcc => x4b | xcd => xbd | xce => x8b | xcf => x8a
  | xd0 => x70 | xd1 => x3e | xd2 => xb5 | xd3 => x66 | xd4 => x48 | xd5 => x03 | xd6 => xf6 | xd7 => x0e
  | xd8 => x61 | xd9 => x35 | xda => x57 | xdb => xb9 | xdc => x86 | xdd => xc1 | xde => x1d | xdf => x9e
  | xe0 => xe1 | xe1 => xf8 | xe2 => x98 | xe3 => x11 | xe4 => x69 | xe5 => xd9 | xe6 => x8e | xe7 => x94
  | xe8 => x9b | xe9 => x1e | xea => x87 | xeb => xe9 | xec => xce | xed => x55 | xee => x28 | xef => xdf
  | xf0 => x8c | xf1 => xa1 | xf2 => x89 | xf3 => x0d | xf4 => xbf | xf5 => xe6 | xf6 => x42 | xf7 => x68
  | xf8 => x41 | xf9 => x99 | xfa => x2d | xfb => x0f | xfc => xb0 | xfd => x54 | xfe => xbb | xff => x16
  end.

(** Multiplication by 2 in the field of FIPS 197, section 4.2.1. *)
Definition xtime (b : byte) : byte :=
  match b with
  | x00 => x00 | x01 => x02 | x02 => x04 | x03 => x06 | x04 => x08 | x05 => x0a | x06 => x0c | x07 => x0e
  | x08 => x10 | x09 => x12 | x0a => x14 | x0b => x16 | x0c => x18 | x0d => x1a | x0e => x1c | x0f => x1e
  | x10 => x20 | x11 => x22 | x12 => x24 | x13 => x26 | x14 => x28 | x15 => x2a | x16 => x2c | x17 => x2e
  | x18 => x30 | x19 => x32 | x1a => x34 | x1b => x36 | x1c => x38 | x1d => x3a | x1e => x3c | x1f => x3e
  | x20 => x40 | x21 => x42 | x22 => x44 | x23 => x46 | x24 => x48 | x25 => x4a | x26 => x4c | x27 => x4e
  | x28 => x50 | x29 => x52 | x2a => x54 | x2b => x56 | x2c => x58 | x2d => x5a | x2e => x5c | x2f => x5e
  | x30 => x60 | x31 => x62 | x32 => x64 | x33 => x66 | x34 => x68 | x35 => x6a | x36 => x6c | x37 => x6e
  | x38 => x70 | x39 => x72 | x3a => x74 | x3b => x76 | x3c => x78 | x3d => x7a | x3e => x7c | x3f => x7e
  | x40 => x80 | x41 => x82 | x42 => x84 | x43 => x86 | x44 => x88 | x45 => x8a | x46 => x8c | x47 => x8e
  | x48 => x90 | x49 => x92 | x4a => x94 | x4b => x96 | x4c => x98 | x4d => x9a | x4e => x9c | x4f => x9e
  | x50 => xa0 | x51 => xa2 | x52 => xa4 | x53 => xa6 | x54 => xa8 | x55 => xaa | x56 => xac | x57 => xae
  | x58 => xb0 | x59 => xb2 | x5a => xb4 | x5b => xb6 | x5c => xb8 | x5d => xba | x5e => xbc | x5f => xbe
  | x60 => xc0 | x61 => xc2 | x62 => xc4 | x63 => xc6 | x64 => xc8 | x65 => xca | x66 => xcc | x67 => xce
  | x68 => xd0 | x69 => xd2 | x6a => xd4 | x6b => xd6 | x6c => xd8 | x6d => xda | x6e => xdc | x6f => xde
  | x70 => xe0 | x71 => xe2 | x72 => xe4 | x73 => xe6 | x74 => xe8 | x75 => xea | x76 => xec | x77 => xee
  | x78 => xf0 | x79 => xf2 | x7a => xf4 | x7b => xf6 | x7c => xf8 | x7d => xfa | x7e => xfc | x7f => xfe
  | x80 => x1b | x81 => x19 | x82 => x1f | x83 => x1d | x84 => x13 | x85 => x11 | x86 => x17 | x87 => x15
  | x88 => x0b | x89 => x09 | x8a => x0f | x8b => x0d | x8c => x03 | x8d => x01 | x8e => x07 | x8f => x05
  | x90 => x3b | x91 => x39 | x92 => x3f | x93 => x3d | x94 => x33 | x95 => x31 | x96 => x37 | x97 => x35
  | x98 => x2b | x99 => x29 | x9a => x2f | x9b => x2d | x9c => x23 | x9d => x21 | x9e => x27 | x9f => x25
  | xa0 => x5b | xa1 => x59 | xa2 => x5f | xa3 => x5d | xa4 => x53 | xa5 => x51 | xa6 => x57 | xa7 => x55
  | xa8 => x4b | xa9 => x49 | xaa => x4f | xab => x4d | xac => x43 | xad => x41 | xae => x47 | xaf => x45
  | xb0 => x7b | xb1 => x79 | xb2 => x7f | xb3 => x7d | xb4 => x73 | xb5 => x71 | xb6 => x77 | xb7 => x75
  | xb8 => x6b | xb9 => x69 | xba => x6f | xbb => x6d | xbc => x63 | xbd => x61 | xbe => x67 | xbf => x65
  | xc0 => x9b | xc1 => x99 | xc2 => x9f | xc3 => x9d | xc4 => x93 | xc5 => x91 | xc6 => x97 | xc7 => x95
  | xc8 => x8b | xc9 => x89 | xca => x8f | xcb => x8d | xcc => x83 | xcd => x81 | xce => x87 | xcf => x85
  | xd0 => xbb | xd1 => xb9 | xd2 => xbf | xd3 => xbd | xd4 => xb3 | xd5 => xb1 | xd6 => xb7 | xd7 => xb5
  | xd8 => xab | xd9 => xa9 | xda => xaf | xdb => xad | xdc => xa3 | xdd => xa1 | xde => xa7 | xdf => xa5
  | xe0 => xdb | xe1 => xd9 | xe2 => xdf | xe3 => xdd | xe4 => xd3 | xe5 => xd1 | xe6 => xd7 | xe7 => xd5
  | xe8 => xcb | xe9 => xc9 | xea => xcf | xeb => xcd | xec => xc3 | xed => xc1 | xee => xc7 | xef => xc5
  | xf0 => xfb | xf1 => xf9 | xf2 => xff | xf3 => xfd | xf4 => xf3 | xf5 => xf1 | xf6 => xf7 | xf7 => xf5
  | xf8 => xeb | xf9 => xe9 | xfa => xef | xfb => xed | xfc => xe3 | xfd => xe1 | xfe => xe7 | xff => xe5
  end.

(** Section 5.2: the key schedule, [n] more words given the words so far, latest first; [i] is the
    index of the next word and [rcon] the next round constant. *)
Fixpoint expand (n i : nat) (rcon : byte) (ws : list bytes) : list bytes :=
  match n with
  | O => rev ws
  | S n' =>
    let temp := nth 0 ws [] in
    let old := nth 7 ws [] in
    if Nat.eqb (i mod 8) 0 then
      let rotated := match temp with a :: l => l ++ [a] | [] => [] end in
      expand n' (S i) (xtime rcon)
             (xor_bytes old (xor_bytes (map sbox rotated) [rcon; x00; x00; x00]) :: ws)
    else if Nat.eqb (i mod 8) 4 then
      expand n' (S i) rcon (xor_bytes old (map sbox temp) :: ws)
    else
      expand n' (S i) rcon (xor_bytes old temp :: ws)
  end.

(** The 15 round keys. *)
Definition round_keys (key : bytes) : list bytes :=
  map (@concat byte) (blocks 4 (expand 52 8 x01 (rev (blocks 4 key)))).

(** Section 5.1.2; the state is the list of its columns. *)
Definition shift_rows (s : bytes) : bytes :=
  match s with
  | [s0; s1; s2; s3; s4; s5; s6; s7; s8; s9; s10; s11; s12; s13; s14; s15] =>
    [s0; s5; s10; s15; s4; s9; s14; s3; s8; s13; s2; s7; s12; s1; s6; s11]
  | _ => s
  end.

(** Section 5.1.3. *)
Fixpoint mix_columns (s : bytes) : bytes :=
  match s with
  | a :: b :: c :: d :: s' =>
    let t := byte_xor (byte_xor a b) (byte_xor c d) in
    byte_xor (byte_xor a t) (xtime (byte_xor a b)) ::
    byte_xor (byte_xor b t) (xtime (byte_xor b c)) ::
    byte_xor (byte_xor c t) (xtime (byte_xor c d)) ::
    byte_xor (byte_xor d t) (xtime (byte_xor d a)) :: mix_columns s'
  | _ => s
  end.

(** Section 5.1: the rounds after the first key has been added. *)
Fixpoint aes_rounds (ks : list bytes) (s : bytes) : bytes :=
  match ks with
  | [] => s
  | [k] => xor_bytes (shift_rows (map sbox s)) k
  | k :: ks' => aes_rounds ks' (xor_bytes (mix_columns (shift_rows (map sbox s))) k)
  end.

Definition aes_block (ks : list bytes) (block : bytes) : bytes :=
  match ks with
  | [] => block
  | k :: ks' => aes_rounds ks' (xor_bytes block k)
  end.

(** ** Galois counter mode (NIST SP 800-38D) with nonces of 12 bytes, tags of 16 bytes and no
    additional data *)

(** The bits of a byte string in the order of the standard: most significant bit first. *)
Definition bits_of (l : bytes) : list bool :=
  concat (map (fun b => let '(b0, (b1, (b2, (b3, (b4, (b5, (b6, b7))))))) := Byte.to_bits b in
                        [b7; b6; b5; b4; b3; b2; b1; b0]) l).

(** Section 6.3: multiplication of blocks; a block is the number its bytes denote, most significant
    byte first. *)
Fixpoint gf_mult (xs : list bool) (z v : N) : N :=
  match xs with
  | [] => z
  | x :: xs' =>
    gf_mult xs' (if x then N.lxor z v else z)
            (if N.odd v then N.lxor (N.div2 v) 0xe1000000000000000000000000000000 else N.div2 v)
  end.

(** Section 6.4. *)
Definition ghash (h : N) (bl : list bytes) : N :=
  fold_left (fun y b => gf_mult (bits_of (be_bytes 16 (N.lxor y (be_num b)))) 0 h) bl 0.

Definition pad16 (b : bytes) : bytes := b ++ repeat x00 (16 - length b)%nat.

(** Section 6.5: the key stream, [n] blocks of it, starting with counter value [i]. *)
Definition counter_block (ks : list bytes) (nonce : bytes) (i : nat) : bytes :=
  aes_block ks (nonce ++ be_bytes 4 (N.of_nat i)).

Definition counter_mode (ks : list bytes) (nonce m : bytes) : bytes :=
  xor_bytes m (concat (map (counter_block ks nonce) (seq 2 ((length m + 15) / 16)%nat))).

(** Section 7.1, steps 5 and 6: the tag of a ciphertext. *)
Definition gcm_tag (ks : list bytes) (nonce c : bytes) : bytes :=
  let h := be_num (aes_block ks (repeat x00 16)) in
  let lengths := be_bytes 8 0 ++ be_bytes 8 (8 * N.of_nat (length c)) in
  let s := ghash h (map pad16 (blocks 16 c) ++ [lengths]) in
  be_bytes 16 (N.lxor s (be_num (counter_block ks nonce 1))).

(** Section 7.1. *)
Definition gcm_seal (key nonce m : bytes) : bytes :=
  let ks := round_keys key in
  let c := counter_mode ks nonce m in
  c ++ gcm_tag ks nonce c.

(** Section 7.2. *)
Definition gcm_open (key nonce ct : bytes) : option bytes :=
  if (length ct <? 16)%nat then None
  else
    let ks := round_keys key in
    let c := firstn (length ct - 16) ct in
    if bytes_eqb (gcm_tag ks nonce c) (skipn (length ct - 16) ct)
    then Some (counter_mode ks nonce c)
    else None.

(** ** Wildcard patterns *)

(** The characters of a string, each as the list of its bytes: a byte below 0x80 or at least 0xc0
    starts a character, the other bytes continue one. *)
Definition continues (b : byte) : bool := N.eqb (N.land (Byte.to_N b) 0xc0) 0x80.

Fixpoint chars (s : bytes) : list bytes :=
  match s with
  | [] => []
  | b :: s' =>
    match s' with
    | c :: _ => if continues c
                then match chars s' with
                     | ch :: l => (b :: ch) :: l
                     | [] => [[b]]
                     end
                else [b] :: chars s'
    | [] => [[b]]
    end
  end.

(** [WildMatch::matches] (passwords.rs:431-455): in a pattern [*] stands for any characters and [?]
    for one character; all other characters stand for themselves. *)
Fixpoint wild_match (p : list bytes) : list bytes -> bool :=
  match p with
  | [] => fun t => match t with [] => true | _ => false end
  | c :: p' =>
    if bytes_eqb c [x2a] then
      fix star (t : list bytes) : bool :=
        wild_match p' t || match t with [] => false | _ :: t' => star t' end
    else fun t => match t with
                  | [] => false
                  | d :: t' => (bytes_eqb c [x3f] || bytes_eqb c d) && wild_match p' t'
                  end
  end.

Definition wildmatch (pattern text : bytes) : bool := wild_match (chars pattern) (chars text).

(** ** The instance *)

(** What the environment decides: the build profile, the random generator, the order of hash maps,
    the file system. *)
Record environment : Type := mk_environment {
  env_overflow_checks : bool;
  env_random : nat -> nat -> bytes;
  env_order : nat -> kvmap -> list bytes;
  env_write : nat -> write_outcome
}.

(** Random values have the size asked for, and iterating over a map gives its keys, each once. *)
Record environment_ok (e : environment) : Prop := mk_environment_ok {
  ok_env_random : forall i n, length (env_random e i n) = n;
  ok_env_order : forall t m, env_order e t m ≡ₚ (map_to_list m).*1
}.

(** The primitives with a given implementation of scrypt.  [p_float_ok]: serde_json rejects the
    numbers of too large exponent only; such literals are not decided here, every literal is
    accepted. *)
Definition with_scrypt (sc : bytes -> bytes -> nat -> bytes) (e : environment) : prims :=
  mk_prims (env_overflow_checks e) hmac_sha256 gcm_seal gcm_open sc
           (env_random e) (env_order e) wildmatch (env_write e) (fun _ => true).

(** The primitives of the program (crypto.rs:36-48 for the parameters of scrypt). *)
Definition real (e : environment) : prims := with_scrypt (scrypt 15 8 1) e.

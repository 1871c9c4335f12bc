(** Base layer of the model: bytes, strings, results, small Rust library helpers. *)
From Coq Require Export List NArith Arith Lia Bool.
From Coq Require Export Strings.Byte.
From Coq Require Strings.String.
Export ListNotations.
Export String.StringSyntax.

(** [u8] is Coq's [byte]; [Vec<u8>], [&[u8]], [String], [&str], [SecretString], [SecretVec<u8>] are
    all [bytes] (a Rust string is the list of its UTF-8 bytes). *)
Notation bytes := (list byte).

(** ASCII string literals of the source. *)
Definition bs (s : String.string) : bytes := String.list_byte_of_string s.
Arguments bs s%string_scope.

(** Truncating cast to [u8] ([as u8]). *)
Definition u8 (n : N) : byte :=
  match Byte.of_N (n mod 256) with Some b => b | None => x00 end.

(** [u8] operators. [<<] discards the high bits, as in Rust (the shift amounts are constants < 8). *)
Definition b_and (a b : byte) : byte := u8 (N.land (Byte.to_N a) (Byte.to_N b)).
Definition b_or  (a b : byte) : byte := u8 (N.lor (Byte.to_N a) (Byte.to_N b)).
Definition b_xor (a b : byte) : byte := u8 (N.lxor (Byte.to_N a) (Byte.to_N b)).
Definition b_shl (a : byte) (k : N) : byte := u8 (N.shiftl (Byte.to_N a) k).
Definition b_shr (a : byte) (k : N) : byte := u8 (N.shiftr (Byte.to_N a) k).
Definition b_eqb (a b : byte) : bool := Byte.eqb a b.
Definition b_nat (a : byte) : nat := N.to_nat (Byte.to_N a).

(** Equality of byte strings. *)
Fixpoint bytes_eqb (a b : bytes) : bool :=
  match a, b with
  | [], [] => true
  | x :: a', y :: b' => Byte.eqb x y && bytes_eqb a' b'
  | _, _ => false
  end.

(** pfp/src/error.rs:9-78.  Simplification: errors of other crates ([io::Error],
    [serde_json::Error], [base64::DecodeError], [Utf8Error]) carried by the variants are dropped. *)
Inductive error : Set :=
| CreateDirFailure
| FileReadFailure
| FileWriteFailure
| StorageNotInitialized
| UnexpectedStorageFormat
| PasswordsLocked
| KeyMissing
| UnexpectedData
| InvalidCiphertext
| InvalidBase64
| InvalidJson
| InvalidUtf8
| DecryptionFailure
| NoSuchAlias
| AliasToSelf
| SiteHasPasswords
| RecoveryCodeExtraData (line : nat)
| RecoveryCodeChecksumMismatch (line : nat)
| RecoveryCodeIncomplete
| RecoveryCodeWrongVersion
| RecoveryCodeInsufficientData.

(** Outcome of a Rust function: [Result<A, Error>] plus an explicit value for a panic. *)
Inductive res (A : Type) : Type :=
| Ok (a : A)
| Err (e : error)
| Panic.
Arguments Ok {A} a.
Arguments Err {A} e.
Arguments Panic {A}.

(** The [?] operator. *)
Definition bind {A B : Type} (r : res A) (f : A -> res B) : res B :=
  match r with Ok a => f a | Err e => Err e | Panic => Panic end.

Declare Scope res_scope.
Delimit Scope res_scope with res.
Notation "'let?' x ':=' r 'in' k" := (bind r (fun x => k))
  (at level 200, x pattern, r at level 100, k at level 200, right associativity) : res_scope.
Open Scope res_scope.

(** [Option::ok_or(e)?] *)
Definition ok_or {A : Type} (o : option A) (e : error) : res A :=
  match o with Some a => Ok a | None => Err e end.

(** [Result::is_ok]-like views; [Result::ok()] of a result that did not panic. *)
Definition is_ok {A : Type} (r : res A) : bool :=
  match r with Ok _ => true | _ => false end.

(** Slice indexing [l[i]]: panics when out of bounds. *)
Definition idx {A : Type} (l : list A) (i : nat) : res A :=
  match nth_error l i with Some x => Ok x | None => Panic end.

(** Fallible map over a list, left to right. *)
Fixpoint mapM {A B : Type} (f : A -> res B) (l : list A) : res (list B) :=
  match l with
  | [] => Ok []
  | x :: l' => let? y := f x in let? ys := mapM f l' in Ok (y :: ys)
  end.

(** [slice.chunks(n)]: consecutive pieces of length [n], the last one possibly shorter.
    The first argument is fuel; [chunks] supplies the length of the slice, which suffices. *)
Fixpoint chunks_aux {A : Type} (fuel n : nat) (l : list A) : list (list A) :=
  match fuel, l with
  | _, [] => []
  | O, _ :: _ => []
  | S f, _ :: _ => firstn n l :: chunks_aux f n (skipn n l)
  end.
Definition chunks {A : Type} (n : nat) (l : list A) : list (list A) :=
  chunks_aux (length l) n l.

(** [str::split_once(c)] for an ASCII character. *)
Fixpoint split_once (c : byte) (s : bytes) : option (bytes * bytes) :=
  match s with
  | [] => None
  | x :: s' =>
      if Byte.eqb x c then Some ([], s')
      else match split_once c s' with
           | Some (a, b) => Some (x :: a, b)
           | None => None
           end
  end.

(** [str::strip_prefix(p)]: the rest of the string if it starts with [p]. *)
Fixpoint strip_prefix (p s : bytes) : option bytes :=
  match p, s with
  | [], _ => Some s
  | x :: p', y :: s' => if Byte.eqb x y then strip_prefix p' s' else None
  | _ :: _, [] => None
  end.

(** [str::starts_with(p)] *)
Definition starts_with (p s : bytes) : bool :=
  match strip_prefix p s with Some _ => true | None => false end.

(** [str::find(c).is_some()] for an ASCII character; [slice::contains]. *)
Definition contains_byte (c : byte) (s : bytes) : bool := existsb (Byte.eqb c) s.

(** [str::split(c)] for an ASCII character: always at least one piece. *)
Fixpoint split_on (c : byte) (s : bytes) : list bytes :=
  match s with
  | [] => [[]]
  | x :: s' =>
      if Byte.eqb x c then [] :: split_on c s'
      else match split_on c s' with
           | p :: ps => (x :: p) :: ps
           | [] => [[x]]
           end
  end.

(** [<[_]>::join(sep)] *)
Fixpoint join (sep : bytes) (l : list bytes) : bytes :=
  match l with
  | [] => []
  | [x] => x
  | x :: l' => x ++ sep ++ join sep l'
  end.

(** [u8::to_ascii_uppercase] *)
Definition to_ascii_uppercase (b : byte) : byte :=
  let n := Byte.to_N b in
  if (97 <=? n)%N && (n <=? 122)%N then u8 (n - 32) else b.

(** Go strings as byte lists, and the functions of package strings that the
    code uses. *)
From Coq Require Import Ascii String.
From Verif.Model Require Import Base.

(** String literals. *)
Fixpoint str (s : string) : bytes :=
  match s with
  | EmptyString => []
  | String a s' => Z.of_N (N_of_ascii a) :: str s'
  end.

(** Equality of strings, bytes.Compare(a, b) == 0. *)
Fixpoint beq (a b : bytes) : bool :=
  match a, b with
  | [], [] => true
  | x :: a', y :: b' => (x =? y) && beq a' b'
  | _, _ => false
  end.

(** strings.HasPrefix *)
Fixpoint has_prefix (s p : bytes) : bool :=
  match p, s with
  | [], _ => true
  | y :: p', x :: s' => (x =? y) && has_prefix s' p'
  | _, [] => false
  end.

(** strings.Contains *)
Fixpoint contains (s p : bytes) : bool :=
  has_prefix s p ||
  match s with [] => false | _ :: s' => contains s' p end.

(** strings.HasSuffix *)
Definition has_suffix (s p : bytes) : bool := has_prefix (rev s) (rev p).

(** A Go map with string keys.  Every use in the model is a lookup, an
    assignment or a delete; iteration is modelled separately. *)
Definition kmap (A : Type) := bytes -> option A.
Definition kempty {A} : kmap A := fun _ => None.
Definition kset {A} (m : kmap A) (k : bytes) (a : A) : kmap A :=
  fun k' => if beq k' k then Some a else m k'.
Definition kdel {A} (m : kmap A) (k : bytes) : kmap A :=
  fun k' => if beq k' k then None else m k'.
Definition kin {A} (m : kmap A) (k : bytes) : bool :=
  match m k with Some _ => true | None => false end.

(** Decimal digits in ASCII. *)
Fixpoint uint_bytes (u : Decimal.uint) : bytes :=
  match u with
  | Decimal.Nil => []
  | Decimal.D0 u => 48 :: uint_bytes u
  | Decimal.D1 u => 49 :: uint_bytes u
  | Decimal.D2 u => 50 :: uint_bytes u
  | Decimal.D3 u => 51 :: uint_bytes u
  | Decimal.D4 u => 52 :: uint_bytes u
  | Decimal.D5 u => 53 :: uint_bytes u
  | Decimal.D6 u => 54 :: uint_bytes u
  | Decimal.D7 u => 55 :: uint_bytes u
  | Decimal.D8 u => 56 :: uint_bytes u
  | Decimal.D9 u => 57 :: uint_bytes u
  end.

(** big.Int.String, strconv.Itoa *)
Definition dec (z : Z) : bytes :=
  match Z.to_int z with
  | Decimal.Pos u => uint_bytes u
  | Decimal.Neg u => 45 :: uint_bytes u
  end.

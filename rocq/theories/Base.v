(* Common vocabulary of the model: bytes, Go integers, results, slices.       *)
From Coq Require Export List ZArith Lia Bool ZifyBool.
From Coq Require Strings.String Strings.Ascii.
Import Strings.String.StringSyntax.
Export ListNotations.
Export Strings.String.StringSyntax.
#[global] Open Scope Z_scope.

Notation string := Strings.String.string.
Delimit Scope string_scope with string.

(* A Go []byte / string: a list of byte values.                              *)
Definition bytes := list Z.
Definition is_byte (b : Z) : Prop := 0 <= b < 256.
Definition zlen {A} (l : list A) : Z := Z.of_nat (length l).

(* Outcome of a Go function: a value, a returned error, a run-time panic, or
   (never reachable, see the termination theorems) exhausted fuel.           *)
Inductive res (A : Type) : Type :=
| Ok (a : A)
| Err (e : string)
| Panic
| Diverge.
Arguments Ok {A} a.
Arguments Err {A} e.
Arguments Panic {A}.
Arguments Diverge {A}.

Definition bind {A B} (x : res A) (f : A -> res B) : res B :=
  match x with Ok a => f a | Err e => Err e | Panic => Panic | Diverge => Diverge end.
Notation "'do' p <- x ; y" := (bind x (fun p => y))
  (at level 200, p pattern, x at level 100, y at level 200).

Definition is_ok {A} (r : res A) : bool := match r with Ok _ => true | _ => false end.

(* Go int64 (int on 64-bit), uint64, uint32, uint16 arithmetic wraps around. *)
Definition wrap64 (z : Z) : Z := (z + 2^63) mod 2^64 - 2^63.
Definition u64 (z : Z) : Z := z mod 2^64.
Definition u32 (z : Z) : Z := z mod 2^32.

(* Index expression l[i]: None models the panic.                             *)
Definition nthZ {A} (l : list A) (i : Z) : option A :=
  if i <? 0 then None else nth_error l (Z.to_nat i).

(* Slice expression l[a:b] of a slice whose capacity equals its length.      *)
Definition sub {A} (l : list A) (a b : Z) : list A :=
  firstn (Z.to_nat (b - a)) (skipn (Z.to_nat a) l).
Definition slice {A} (l : list A) (a b : Z) : res (list A) :=
  if (0 <=? a) && (a <=? b) && (b <=? zlen l) then Ok (sub l a b) else Panic.

(* Byte-string equality (Go == on strings, bytes.Equal).                     *)
Fixpoint beq (a b : bytes) : bool :=
  match a, b with
  | [], [] => true
  | x :: a', y :: b' => (x =? y) && beq a' b'
  | _, _ => false
  end.

(* String literals as byte lists.                                            *)
Fixpoint str (s : string) : bytes :=
  match s with
  | Strings.String.EmptyString => []
  | Strings.String.String c s' => Z.of_N (Strings.Ascii.N_of_ascii c) :: str s'
  end.

Arguments str s%string_scope.
Arguments Err {A} e%string_scope.

(* strconv.Itoa / FormatInt(_, 10) / FormatUint(_, 10): decimal rendering.   *)
Fixpoint digits_aux (fuel : nat) (n : Z) (acc : bytes) : bytes :=
  match fuel with
  | O => acc
  | S f => let acc' := (48 + n mod 10) :: acc in
           if n / 10 =? 0 then acc' else digits_aux f (n / 10) acc'
  end.
Definition utoa (n : Z) : bytes := digits_aux (S (Z.to_nat (Z.log2 n))) n [].
Definition itoa (n : Z) : bytes := if n <? 0 then 45 :: utoa (- n) else utoa n.

(* Association lists stand for Go maps keyed by strings.                     *)
Fixpoint lookup {A} (k : bytes) (m : list (bytes * A)) : option A :=
  match m with
  | [] => None
  | (k', v) :: m' => if beq k k' then Some v else lookup k m'
  end.
Fixpoint insert {A} (k : bytes) (v : A) (m : list (bytes * A)) : list (bytes * A) :=
  match m with
  | [] => [(k, v)]
  | (k', v') :: m' => if beq k k' then (k', v) :: m' else (k', v') :: insert k v m'
  end.

(* encoding/binary BigEndian.PutUintN / UintN as positional notation.        *)
Fixpoint be_put (n : nat) (z : Z) : bytes :=
  match n with
  | O => []
  | S n' => (z / 256 ^ Z.of_nat n') mod 256 :: be_put n' z
  end.
Definition be_get (l : bytes) : Z := fold_left (fun acc b => acc * 256 + b) l 0.

(* IEEE-754 arithmetic as used by Go's float64/float32, on the executable
   SpecFloat of the standard library (round to nearest, ties to even).         *)
From Coq Require Import Floats.SpecFloat.
From Verif Require Import Base.

(* float64(z), float32(z) of an integer z *)
Definition f64_of (z : Z) : spec_float := binary_normalize 53 1024 z 0 false.
Definition f32_of (z : Z) : spec_float := binary_normalize 24 128 z 0 false.
Definition f64_div := SFdiv 53 1024.
Definition f64_mul := SFmul 53 1024.
Definition f32_div := SFdiv 24 128.
Definition f32_mul := SFmul 24 128.

(* floor of m * 2^e *)
Definition scale_floor (m e : Z) : Z := if 0 <=? e then m * 2 ^ e else m / 2 ^ (- e).

(* the integer the float conversion int(f) sees: None for infinities and NaN *)
Definition signed (s : bool) (m : positive) : Z := if s then Zneg m else Zpos m.
(* math.Ceil, as an exact integer *)
Definition f_ceil (f : spec_float) : option Z :=
  match f with
  | S754_zero _ => Some 0
  | S754_finite s m e => Some (- scale_floor (- signed s m) e)
  | _ => None
  end.
(* truncation toward zero *)
Definition f_trunc (f : spec_float) : option Z :=
  match f with
  | S754_zero _ => Some 0
  | S754_finite s m e => let a := scale_floor (Zpos m) e in Some (if s then - a else a)
  | _ => None
  end.
(* math.Round: to nearest, halves away from zero *)
Definition f_round (f : spec_float) : option Z :=
  match f with
  | S754_zero _ => Some 0
  | S754_finite s m e =>
      let a := if 0 <=? e then Zpos m * 2 ^ e else (2 * Zpos m + 2 ^ (- e)) / 2 ^ (1 - e) in
      Some (if s then - a else a)
  | _ => None
  end.
(* int(f) of an integral float: the value if it fits, else (infinity, NaN or out
   of range: implementation-defined in Go) the amd64 result -2^63              *)
Definition int_of (v : option Z) : Z :=
  match v with
  | Some z => if (- 2 ^ 63 <=? z) && (z <? 2 ^ 63) then z else - 2 ^ 63
  | None => - 2 ^ 63
  end.

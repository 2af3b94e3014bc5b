(** keyper/gaspricer/gaspricer.go: the gas price multiplier.  math/big's Float is modelled on integers: a finite value is a number of
    the form x / 2^d. *)
From stdpp Require Import list.
From Coq Require Import ZArith Lia.
Local Open Scope Z_scope.

(** a float64: not a number, infinite (positive or negative), or [sign] m / 2^d.  Every finite float64 is of this form; the limits of its
    mantissa and exponent are not used. *)
Inductive float64 := NaN | Inf (negative : bool) | Finite (negative : bool) (m d : Z).
(** f < 0.0 *)
Definition below_zero (f : float64) : bool := match f with NaN => false | Inf s => s | Finite s m _ => s && (0 <? m) end.

Inductive outcome (A : Type) := Panics | Fails | Returns (a : A).
Arguments Panics {A}. Arguments Fails {A}. Arguments Returns {A}.
(** gaspricer.go:14-20 SetMultiplier; big.NewFloat panics if its argument is not a number *)
Definition set_multiplier (f : float64) : outcome float64 := if below_zero f then Fails else match f with NaN => Panics | _ => Returns f end.

(** the number of bits of a non-negative number (big.Int.BitLen) *)
Definition bit_len (x : Z) : Z := if x =? 0 then 0 else Z.log2 x + 1.
(** rounding to [prec] significant bits, ToNearestEven (big.Float's mode by default) *)
Definition round (prec x : Z) : Z :=
  let k := bit_len x - prec in
  if k <=? 0 then x
  else
    let q := x / 2 ^ k in
    let r := x mod 2 ^ k in
    let half := 2 ^ (k - 1) in
    (if (half <? r) || ((r =? half) && Z.odd q) then q + 1 else q) * 2 ^ k.
(** gaspricer.go:24-29 Adjust, of a non-negative price.  SetInt sets the precision to the larger of 64 and the bits of the price; Mul
    keeps it, rounds, and panics for 0 times infinity; Int truncates, and gives nil ([None]) for infinity.  The exponent of a big.Float
    (32 bits) is taken to suffice. *)
Definition adjust (multiplier : float64) (price : Z) : outcome (option Z) :=
  match multiplier with
  | NaN => Panics
  | Inf _ => if price =? 0 then Panics else Returns None
  | Finite _ m d => Returns (Some (round (Z.max (bit_len price) 64) (price * m) / 2 ^ d))
  end.
(** gaspricer.go:11 *)
Definition default_multiplier : float64 := Finite false 3 1.

(** Specification vocabulary for the secret sharing scheme. *)
From stdpp Require Import list.
From Coq Require Import ZArith.
From Verif Require Import Fq.
Local Open Scope Z_scope.

(** value of the polynomial with coefficients [p] (constant first) at [x], over the integers *)
Fixpoint poly_value (p : list Z) (x : Z) : Z :=
  match p with [] => 0 | c :: p' => c + x * poly_value p' x end.

(** congruence modulo the group order *)
Definition congr (a b : Z) : Prop := a mod order = b mod order.

(** residues *)
Definition residue (v : Z) : Prop := 0 ≤ v < order.

(** the secret shared by a list of polynomials *)
Definition sum_poly (ps : list (list Z)) (x : Z) : Z := foldr (λ p acc, poly_value p x + acc) 0 ps.

(** indices of keypers: non-negative Go ints *)
Definition keyper_index (i : Z) : Prop := 0 ≤ i < 2 ^ 63.

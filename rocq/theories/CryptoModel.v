(** Model of /repo/shlib/shcrypto/feldman.go and keys.go.

    A *big.Int is a [Z], []*big.Int a list.  The elliptic curve library (blst) is a record of operations
    and laws: groups G1, G2, GT of prime order [order] (written additively) with generators and a
    bilinear, non-degenerate pairing.  Points are group elements: membership is checked when points are
    decoded (encoding.go). *)
From stdpp Require Import list.
From Coq Require Import ZArith NArith Lia.
From Coq Require Zpow_facts.
From Verif Require Import Fq.
Local Open Scope Z_scope.

(** blst.P1 / P2 / Fp12 as a cyclic group of order [order]: AddAssign, MultAssign by a scalar, Equals,
    the generator and the zero value (the point at infinity). *)
Record group := mkGroup {
  gcar :> Type;
  geq : EqDecision gcar;
  gzero : gcar;
  gadd : gcar → gcar → gcar;
  gsmul : Z → gcar → gcar;
  ggen : gcar;
  gadd_comm : ∀ x y, gadd x y = gadd y x;
  gadd_assoc : ∀ x y z, gadd x (gadd y z) = gadd (gadd x y) z;
  gadd_0 : ∀ x, gadd gzero x = x;
  gsmul_1 : ∀ x, gsmul 1 x = x;
  gsmul_add : ∀ a b x, gsmul (a + b) x = gadd (gsmul a x) (gsmul b x);
  gsmul_mul : ∀ a b x, gsmul (a * b) x = gsmul a (gsmul b x);
  gsmul_gadd : ∀ a x y, gsmul a (gadd x y) = gadd (gsmul a x) (gsmul a y);
  gsmul_order : ∀ x, gsmul order x = gzero;
  ggen_cyclic : ∀ x, ∃ k, x = gsmul k ggen;
  ggen_order : ∀ k, gsmul k ggen = gzero → (order | k)
}.
Arguments gzero {_}. Arguments gadd {_}. Arguments gsmul {_}. Arguments ggen {_}.
Global Existing Instance geq.

(** blst.Fp12MillerLoop(Q, P) followed by FinalExp: a bilinear map that maps the generators to a
    generator. *)
Record pairing := mkPairing {
  G1 : group; G2 : group; GT : group;
  pair : G2 → G1 → GT;
  pair_add_l : ∀ x y z, pair (gadd x y) z = gadd (pair x z) (pair y z);
  pair_add_r : ∀ x y z, pair x (gadd y z) = gadd (pair x y) (pair x z);
  pair_gen : pair ggen ggen = ggen
}.
Arguments pair {_}.

(** a uint64 computation wraps around *)
Definition u64 (z : Z) : Z := z mod 2 ^ 64.

(** feldman.go:50-64 NewPolynomial; [None] = error *)
Definition new_polynomial (cs : list Z) : option (list Z) :=
  if Nat.eqb (length cs) 0 then None
  else if forallb (λ v, negb (v <? 0) && negb (order <=? v)) cs then Some cs else None.

(** feldman.go:67-74 Degree (of polynomials and gammas) *)
Definition degree {A} (l : list A) : Z := u64 (Z.of_nat (length l) - 1).

(** feldman.go:102-104 DegreeFromThreshold *)
Definition degree_from_threshold (t : Z) : Z := u64 (t - 1).

(** feldman.go:107-116 Eval (Horner); [None] = index out of range panic for the empty polynomial *)
Definition eval (p : list Z) (x : Z) : option Z :=
  match rev p with
  | [] => None
  | c :: cs => Some (foldl (λ res c, (res * x + c) mod order) c cs)
  end.

(** feldman.go:189-192 KeyperX *)
Definition keyper_x (i : Z) : Z := 1 + i.

(** feldman.go:119-122 EvalForKeyper *)
Definition eval_for_keyper (p : list Z) (i : Z) : option Z := eval p (keyper_x i).

(** feldman.go:125-133 ValidEval *)
Definition valid_eval (v : Z) : bool := negb (v <? 0) && negb (order <=? v).

(** feldman.go:205-215 RandomPolynomial: [rnd] is the sequence of values read, each in [0, order) *)
Definition random_polynomial (rnd : nat → Z) (deg : Z) : option (list Z) :=
  new_polynomial ((λ i, rnd i mod order) <$> seq 0 (Z.to_nat (u64 (deg + 1)))).

Section Groups.
Context (P : pairing).
Notation P1 := (G1 P). Notation P2 := (G2 P).

(** feldman.go:30-46 generateP1, generateP2, bigToScalar.  Simplification: scalars outside [0, order)
    are not reduced by the code but passed on to blst; all callers pass values in that range. *)
Definition generate_p1 (i : Z) : P1 := gsmul i ggen.
Definition generate_p2 (i : Z) : P2 := gsmul i ggen.

(** feldman.go:92-99 ZeroGammas *)
Definition zero_gammas (deg : Z) : list P2 := replicate (Z.to_nat (u64 (deg + 1))) gzero.

(** feldman.go:136-143 Gammas *)
Definition gammas (p : list Z) : list P2 := generate_p2 <$> p.

(** feldman.go:146-159 Pi: running power of xi and running sum *)
Definition pi_step (xi : Z) (acc : Z * P2) (gamma : P2) : Z * P2 :=
  ((acc.1 * xi) mod order, gadd acc.2 (gsmul acc.1 gamma)).
Definition pi (gs : list P2) (xi : Z) : P2 := (foldl (pi_step xi) (1, gzero) gs).2.

(** feldman.go:195-202 VerifyPolyEval *)
Definition verify_poly_eval (i : Z) (v : Z) (gs : list P2) (threshold : Z) : bool :=
  if negb (degree gs =? u64 (threshold - 1)) then false
  else bool_decide (generate_p2 v = pi gs (keyper_x i)).

(** keys.go:104-112 ComputeEonSecretKeyShare *)
Definition eon_secret_key_share (evals : list Z) : Z := foldl (λ res s, (res + s) mod order) 0 evals.

(** keys.go:115-125 ComputeEonPublicKeyShare *)
Definition eon_public_key_share (i : Z) (gss : list (list P2)) : P2 :=
  foldl (λ p gs, gadd p (pi gs (keyper_x i))) gzero gss.

(** keys.go:128-137 ComputeEonPublicKey *)
Definition eon_public_key (gss : list (list P2)) : P2 :=
  foldl (λ p gs, gadd p (pi gs 0)) gzero gss.

(** keys.go:140-147 ComputeEpochSecretKeyShare *)
Definition epoch_secret_key_share (sk : Z) (epoch : P1) : P1 := gsmul sk epoch.

(** keys.go:264-267 invert: big.Int.Exp(x, order-2, order), modular exponentiation by repeated squaring
    (the standard library's [Zpow_mod], proved equal to [x ^ (order - 2) mod order] in CryptoProofs.v) *)
Definition invert (x : Z) : Z := Zpow_facts.Zpow_mod x (order - 2) order.

(** keys.go:240-249 lagrangeCoefficientFactor *)
Definition lagrange_factor (k j : Z) : Z :=
  let dx := (keyper_x k - keyper_x j) mod order in
  (keyper_x k * invert dx) mod order.

(** keys.go:251-262 lagrangeCoefficient *)
Definition lagrange_coefficient (j : Z) (ks : list Z) : Z :=
  foldl (λ l k, if k =? j then l else (l * lagrange_factor k j) mod order) 1 ks.

(** keys.go:162-170 NewLagrangeCoeffs *)
Definition new_lagrange_coeffs (ks : list Z) : list Z := (λ j, lagrange_coefficient j ks) <$> ks.

(** keys.go:175-187 LagrangeCoeffs.ComputeEpochSecretKey; [None] = error *)
Definition lc_epoch_secret_key (lambdas : list Z) (shares : list P1) : option P1 :=
  if negb (Nat.eqb (length shares) (length lambdas)) then None
  else Some (foldl (λ acc ls, gadd acc (gsmul ls.1 ls.2)) gzero (zip lambdas shares)).

(** keys.go:190-199 ComputeEpochSecretKey *)
Definition compute_epoch_secret_key (ks : list Z) (shares : list P1) (threshold : Z) : option P1 :=
  if negb (Nat.eqb (length ks) (length shares)) then None
  else if negb (Z.of_nat (length ks) =? threshold) then None
  else lc_epoch_secret_key (new_lagrange_coeffs ks) shares.

(** keys.go:202-211 VerifyEpochSecretKeyShare *)
Definition verify_epoch_secret_key_share (share : P1) (pkshare : P2) (epoch : P1) : bool :=
  bool_decide (pair ggen share = pair pkshare epoch).
End Groups.
Arguments generate_p1 {P}. Arguments generate_p2 {P}. Arguments pi {P}. Arguments verify_poly_eval {P}.
Arguments eon_public_key_share {P}. Arguments eon_public_key {P}. Arguments epoch_secret_key_share {P}.
Arguments compute_epoch_secret_key {P}. Arguments lc_epoch_secret_key {P}. Arguments verify_epoch_secret_key_share {P}.
Arguments pi_step {P}.

(** * A concrete instance: Z/order with the product as pairing. *)
Lemma fq_cyclic x : ∃ k, x = fmul (toF k) f1.
Proof. exists (ofF x). rewrite toF_ofF. pose proof Fq_ring as R. rewrite (Rmul_comm R), (Rmul_1_l R). done. Qed.
Lemma fq_gen_order k : fmul (toF k) f1 = f0 → (order | k).
Proof. pose proof Fq_ring as R. rewrite (Rmul_comm R), (Rmul_1_l R). apply toF_0. Qed.
Add Ring fq_ring_cm : Fq_ring.
Lemma fq_smul_order x : fmul (toF order) x = f0.
Proof. replace (toF order) with f0; [ring|]. symmetry. apply toF_0. done. Qed.
Lemma fq_comm x y : fadd x y = fadd y x. Proof. ring. Qed.
Lemma fq_assoc x y z : fadd x (fadd y z) = fadd (fadd x y) z. Proof. ring. Qed.
Lemma fq_zero x : fadd f0 x = x. Proof. ring. Qed.
Lemma fq_smul_1 x : fmul (toF 1) x = x. Proof. change (toF 1) with f1. ring. Qed.
Lemma fq_smul_add a b x : fmul (toF (a + b)) x = fadd (fmul (toF a) x) (fmul (toF b) x). Proof. rewrite toF_add. ring. Qed.
Lemma fq_smul_mul a b x : fmul (toF (a * b)) x = fmul (toF a) (fmul (toF b) x). Proof. rewrite toF_mul. ring. Qed.
Lemma fq_smul_gadd a x y : fmul (toF a) (fadd x y) = fadd (fmul (toF a) x) (fmul (toF a) y). Proof. ring. Qed.
Lemma fq_pair_l x y z : fmul (fadd x y) z = fadd (fmul x z) (fmul y z). Proof. ring. Qed.
Lemma fq_pair_r x y z : fmul x (fadd y z) = fadd (fmul x y) (fmul x z). Proof. ring. Qed.
Lemma fq_pair_gen : fmul f1 f1 = f1. Proof. ring. Qed.
Definition fq_group : group :=
  mkGroup Fq Fq_eq_dec f0 fadd (λ k x, fmul (toF k) x) f1 fq_comm fq_assoc fq_zero fq_smul_1 fq_smul_add fq_smul_mul
    fq_smul_gadd fq_smul_order fq_cyclic fq_gen_order.
Definition fq_pairing : pairing := mkPairing fq_group fq_group fq_group fmul fq_pair_l fq_pair_r fq_pair_gen.

(** BLS signatures: /repo/shlib/shcrypto/shbls/{shbls,encoding}.go.

    The bn256 library is not in the repository.  Its groups are represented by the laws of a cyclic group of
    order [bn_order] (G1 is the curve, which has prime order; G2.Unmarshal checks the subgroup), its pairing by
    bilinearity and PairingCheck by "the product of the pairings is one".  Scalars are non-negative. *)
From stdpp Require Import list numbers.
From Coq Require Import ZArith Lia.
From Verif Require Import BnField.
Local Open Scope Z_scope.

Record bgroup := mkBgroup {
  bcar :> Type;
  beq : EqDecision bcar;
  bzero : bcar;
  badd : bcar → bcar → bcar;
  bneg : bcar → bcar;
  bmul : Z → bcar → bcar;
  bgen : bcar;
  badd_comm : ∀ x y, badd x y = badd y x;
  badd_assoc : ∀ x y z, badd x (badd y z) = badd (badd x y) z;
  badd_0 : ∀ x, badd bzero x = x;
  badd_neg : ∀ x, badd x (bneg x) = bzero;
  bmul_1 : ∀ x, bmul 1 x = x;
  bmul_add : ∀ a b x, bmul (a + b) x = badd (bmul a x) (bmul b x);
  bmul_mul : ∀ a b x, bmul (a * b) x = bmul a (bmul b x);
  bgen_cyclic : ∀ x, ∃ k, x = bmul k bgen;
  bgen_order : ∀ k, bmul k bgen = bzero ↔ (bn_order | k)
}.
Arguments bzero {_}. Arguments badd {_}. Arguments bneg {_}. Arguments bmul {_}. Arguments bgen {_}.
Global Existing Instance beq.

Record bpairing := mkBpairing {
  B1 : bgroup; B2 : bgroup; BT : bgroup;
  bpair : B1 → B2 → BT;
  bpair_add_l : ∀ x y z, bpair (badd x y) z = badd (bpair x z) (bpair y z);
  bpair_add_r : ∀ x y z, bpair x (badd y z) = badd (bpair x y) (bpair x z);
  bpair_gen : bpair bgen bgen = bgen
}.
Arguments bpair {_}.

(** the library's encoding of points: n bytes, canonical (coordinates below the modulus, on the curve, in the
    subgroup).  Its Unmarshal reads the first n bytes and returns the rest. *)
Record bcodec (n : nat) (G : bgroup) := mkBcodec {
  benc : G → list N;
  bdec : list N → option G;
  benc_length : ∀ x, length (benc x) = n;
  bdec_benc : ∀ x, bdec (benc x) = Some x;
  benc_bdec : ∀ b x, length b = n → bdec b = Some x → b = benc x
}.
Arguments benc {_ _}. Arguments bdec {_ _}.

(** big.Int.SetBytes *)
Definition big (b : list N) : Z := foldl (λ acc x, acc * 256 + Z.of_N x) 0 b.
(** big.Int.FillBytes on a buffer of n bytes: the absolute value, big endian; [None] = panic, it does not fit *)
Fixpoint fill (n : nat) (x : Z) : list N :=
  match n with O => [] | S n => fill n (x / 256) ++ [Z.to_N (x mod 256)] end.
Definition fill_bytes (n : nat) (x : Z) : option (list N) :=
  if Z.abs x <? 256 ^ Z.of_nat n then Some (fill n (Z.abs x)) else None.

Section Bls.
Context (P : bpairing) (H : list N → list N). (* H: crypto.Keccak256Hash *)
Notation G1 := (B1 P). Notation G2 := (B2 P).

(** bn256.PairingCheck *)
Definition pairing_check (l : list (G1 * G2)) : bool :=
  bool_decide (foldr (λ xy acc, badd (bpair xy.1 xy.2) acc) bzero l = bzero).

(** shbls.go:77-82 hashToG2 *)
Definition hash_to_g2 (data : list N) : G2 := bmul (big (H data)) bgen.
(** shbls.go:19-25 RandomKeyPair: bn256.RandomG1 takes the first non-zero scalar below the order; [draws] are the
    scalars drawn, [None] = the reader failed *)
Fixpoint random_key_pair (draws : list Z) : option (Z * G1) :=
  match draws with
  | [] => None
  | k :: draws => if k =? 0 then random_key_pair draws else Some (k, bmul k bgen)
  end.
(** shbls.go:28-32 SecretToPublicKey *)
Definition secret_to_public_key (sk : Z) : G1 := bmul sk bgen.
(** shbls.go:35-40 Sign *)
Definition sign (msg : list N) (sk : Z) : G2 := bmul sk (hash_to_g2 msg).
(** shbls.go:44-57 Verify *)
Definition verify (sig : G2) (pk : G1) (msg : list N) : bool :=
  let h := hash_to_g2 msg in
  let g1 := bmul 1 bgen in
  pairing_check [(bneg g1, sig); (pk, h)].
(** shbls.go:60-66 AggregateSignatures *)
Definition aggregate_signatures (sigs : list G2) : G2 := foldl (λ agg sig, badd agg sig) (bmul 0 bgen) sigs.
(** shbls.go:69-75 AggregatePublicKeys *)
Definition aggregate_public_keys (pks : list G1) : G1 := foldl (λ agg pk, badd agg pk) (bmul 0 bgen) pks.
End Bls.
Arguments pairing_check {P}. Arguments hash_to_g2 {P}. Arguments random_key_pair {P}. Arguments secret_to_public_key {P}.
Arguments sign {P}. Arguments verify {P}. Arguments aggregate_signatures {P}. Arguments aggregate_public_keys {P}.

(** encoding.go:13-17 SecretKey.Marshal; [None] = panic *)
Definition marshal_secret (sk : Z) : option (list N) := fill_bytes 32 sk.
(** encoding.go:21-34 SecretKey.Unmarshal: the new value of the key, and whether there is no error *)
Definition unmarshal_secret (old : Z) (b : list N) : Z * bool :=
  if negb (Nat.eqb (length b) 32) then (old, false)
  else let x := big b in
       if bn_order <=? x then (0, false) else (x, true).

(** the library's Unmarshal: error on too few bytes, else decode the first n *)
Definition lib_unmarshal {n G} (C : bcodec n G) (b : list N) : option G :=
  if Nat.ltb (length b) n then None else bdec C (take n b).
(** encoding.go:37-39 PublicKey.Marshal (n = 64), 53-55 Signature.Marshal (n = 128) *)
Definition marshal_bls {n G} (C : bcodec n G) (x : G) : list N := benc C x.
(** encoding.go:43-50 PublicKey.Unmarshal (n = 64), 59-66 Signature.Unmarshal (n = 128); [None] = error.
    Simplified: the value left behind by a failed Unmarshal is not modelled. *)
Definition unmarshal_bls {n G} (C : bcodec n G) (b : list N) : option G :=
  if negb (Nat.eqb (length b) n) then None else lib_unmarshal C b.
(** shbls.go:90-101 Equal (of public keys and of signatures): the encodings are compared *)
Definition equal_bls {n G} (C : bcodec n G) (x y : G) : bool := bool_decide (marshal_bls C x = marshal_bls C y).
(** shbls.go:85-87 Equal of secret keys *)
Definition equal_secret (x y : Z) : bool := x =? y.

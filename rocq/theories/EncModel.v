(** Model of /repo/shlib/shcrypto/encryption.go, hash.go and the verification of epoch secret keys in keys.go.

    A byte is an [N] (values below 256), a []byte a list.  A Block is a list of 32 bytes; the functions are
    total on lists of other lengths, which the Go type excludes. *)
From stdpp Require Import list gmap.
From Coq Require Import ZArith NArith Lia.
From Verif Require Import Fq CryptoModel.

Notation byte := N (only parsing).
Notation block := (list N) (only parsing).

(** encryption.go:24 *)
Definition block_size : nat := 32.

(** encryption.go:27-33 XORBlocks *)
Definition xor_blocks (b1 b2 : block) : block := zip_with N.lxor b1 b2.

(** encryption.go:169-184 PadMessage, the bytes: PKCS #7 *)
Definition padding_length (m : list byte) : nat := block_size - length m mod block_size.
Definition padding (m : list byte) : list byte := replicate (padding_length m) (N.of_nat (padding_length m)).
Definition split_blocks (m : list byte) : list block :=
  (λ i, take block_size (drop (i * block_size) m)) <$> seq 0 (length m / block_size).
Definition pad_message (m : list byte) : list block := split_blocks (m ++ padding m).

(** encryption.go:187-214 UnpadMessage; [None] = error.  Simplification: the copies into the preallocated
    result are written as concatenations. *)
Definition unpad_message (blocks : list block) : option (list byte) :=
  match last blocks with
  | None => Some []
  | Some last_block =>
      let p := N.to_nat (nth (block_size - 1) last_block 0%N) in
      if Nat.eqb p 0 then None
      else if Nat.ltb block_size p then None
      else Some (mjoin (take (length blocks - 1) blocks) ++ take (block_size - p) last_block)
  end.

(** encryption.go:112-124 Uint64toBytes: big endian without leading zeros *)
Definition be8 (i : N) : list byte := (λ k, (i / 256 ^ N.of_nat (7 - k)) mod 256)%N <$> seq 0 8.
Fixpoint drop_zeros (l : list byte) : list byte :=
  match l with 0%N :: l' => drop_zeros l' | _ => l end.
Definition uint64_to_bytes (i : N) : list byte := if (i =? 0)%N then [0%N] else drop_zeros (be8 i).

(** big.Int.SetBytes *)
Definition be_value (l : list byte) : Z := foldl (λ acc b, acc * 256 + Z.of_N b)%Z 0%Z l.

(** What the code gets from other libraries: legacy Keccak-256 (32 bytes), the serialisation Fp12.ToBendian
    of GT (injective) and blst's hash to G1. *)
Record hashes (P : pairing) := mkHashes {
  keccak : list byte → list byte;
  keccak_length : ∀ x, length (keccak x) = block_size;
  gt_bytes : GT P → list byte;
  gt_bytes_inj : ∀ x y, gt_bytes x = gt_bytes y → x = y;
  hash_to_g1 : list byte → G1 P
}.
Arguments keccak {P}. Arguments gt_bytes {P}. Arguments hash_to_g1 {P}.

(** encryption.go:14-18 EncryptedMessage *)
Record encrypted (P : pairing) := mkEncrypted { c1 : G2 P; c2 : block; c3 : list block }.
Arguments mkEncrypted {P}. Arguments c1 {P}. Arguments c2 {P}. Arguments c3 {P}.

Section Enc.
Context {P : pairing} (H : hashes P).
Notation G1 := (G1 P). Notation G2 := (G2 P). Notation GT := (GT P).

(** hash.go:21-23 hashWithPrefix *)
Definition hash_with_prefix (p : byte) (b : list byte) : list byte := keccak H (p :: b).
(** hash.go:25-29 Hash1 *)
Definition hash1 (b : list byte) : G1 := hash_to_g1 H (1%N :: b).
(** hash.go:31-37 Hash2 *)
Definition hash2 (gt : GT) : block := take block_size (hash_with_prefix 2 (gt_bytes H gt)).
(** hash.go:39-44 Hash3 *)
Definition hash3 (b : list byte) : Z := (be_value (hash_with_prefix 3 b) mod order)%Z.
(** hash.go:46-51 Hash4 *)
Definition hash4 (b : list byte) : block := take block_size (hash_with_prefix 4 b).

(** encryption.go:62-64 computeR *)
Definition compute_r (sigma : block) (message : list byte) : Z := hash3 (sigma ++ message).

(** encryption.go:66-68 computeC1 *)
Definition compute_c1 (r : Z) : G2 := generate_p2 r.

(** encryption.go:78-99 fp12Exp: the loop reads the exponent bit by bit; GT is written additively *)
Fixpoint fp12_exp_loop (result base : GT) (e : positive) : GT :=
  match e with
  | xH => gadd result base
  | xO e' => fp12_exp_loop result (gadd base base) e'
  | xI e' => fp12_exp_loop (gadd result base) (gadd base base) e'
  end.
Definition fp12_exp (base : GT) (exp : Z) : GT :=
  match exp with Zpos e => fp12_exp_loop gzero (gadd gzero base) e | _ => gzero end.

(** encryption.go:70-76 computeC2 *)
Definition compute_c2 (sigma : block) (r : Z) (epoch : G1) (pk : G2) : block :=
  let p := fp12_exp (pair pk epoch) r in
  xor_blocks sigma (hash2 p).

(** encryption.go:126-129 computeBlockKey *)
Definition compute_block_key (sigma : block) (num : N) : block := hash4 (sigma ++ uint64_to_bytes num).

(** encryption.go:101-110 computeC3 *)
Definition compute_c3 (blocks : list block) (sigma : block) : list block :=
  imap (λ i b, xor_blocks (compute_block_key sigma (N.of_nat i)) b) blocks.

(** encryption.go:51-60 Encrypt *)
Definition encrypt (message : list byte) (pk : G2) (epoch : G1) (sigma : block) : encrypted P :=
  let blocks := pad_message message in
  let r := compute_r sigma message in
  mkEncrypted (compute_c1 r) (compute_c2 sigma r epoch pk) (compute_c3 blocks sigma).

(** encryption.go:150-156 Sigma *)
Definition sigma_of (m : encrypted P) (key : G1) : block :=
  xor_blocks (c2 m) (hash2 (pair (c1 m) key)).

(** encryption.go:158-167 DecryptBlocks *)
Definition decrypt_blocks (blocks : list block) (sigma : block) : list block :=
  imap (λ i b, xor_blocks b (compute_block_key sigma (N.of_nat i))) blocks.

(** encryption.go:132-147 Decrypt; [None] = error *)
Definition decrypt (m : encrypted P) (key : G1) : option (list byte) :=
  let sigma := sigma_of m key in
  match unpad_message (decrypt_blocks (c3 m) sigma) with
  | None => None
  | Some message =>
      let r := compute_r sigma message in
      if bool_decide (c1 m = compute_c1 r) then Some message else None
  end.

(** keys.go:150-153 ComputeEpochID *)
Definition compute_epoch_id (bs : list byte) : G1 := hash1 bs.

(** keys.go:228-238 VerifyEpochSecretKeyDeterministic *)
Definition verify_epoch_secret_key (key : G1) (pk : G2) (epoch_bytes : list byte) (sigma : block) (message : list byte) : bool :=
  let em := encrypt message pk (compute_epoch_id epoch_bytes) sigma in
  match decrypt em key with
  | None => false
  | Some m => bool_decide (m = message)
  end.
End Enc.

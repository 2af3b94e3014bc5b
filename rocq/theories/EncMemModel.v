(** The memory effects of /repo/shlib/shcrypto/encryption.go (PadMessage, Encrypt) and shuffle.go. *)
From stdpp Require Import list gmap.
From Coq Require Import ZArith NArith Lia.
From Verif Require Import Fq CryptoModel EncModel GoHeap.

Section Enc.
Context {P : pairing} (H : hashes P).

(** encryption.go:171-184 PadMessage: the append may write into the spare capacity of the argument.
    The blocks are copied into new arrays, which are not part of the heap here. *)
Definition pad_message_mem (extra : list N) (h : heap N) (m : slice) : heap N * list (list N) :=
  let '(h', m') := go_append extra h m (padding (content h m)) in
  (h', split_blocks (content h' m')).

(** encryption.go:51-60 Encrypt: the message is read again after padding.  sigma is an array passed by value:
    appending to sigma[:] (capacity 32) copies it and does not touch memory of the caller. *)
Definition encrypt_mem (extra : list N) (h : heap N) (message : slice) (pk : G2 P) (epoch : G1 P) (sigma : list N) :
    heap N * encrypted P :=
  let '(h', blocks) := pad_message_mem extra h message in
  let r := compute_r H sigma (content h' message) in
  (h', mkEncrypted (compute_c1 r) (compute_c2 H sigma r epoch pk) (compute_c3 H blocks sigma)).
End Enc.

(** math/rand: a generator started from a seed; [next s n] is a number below n and the new state *)
Record rng := mkRng {
  rng_state : Type;
  rng_new : Z → rng_state;
  rng_next : rng_state → nat → nat * rng_state;
  rng_lt : ∀ s n, (0 < n)%nat → ((rng_next s n).1 < n)%nat
}.
Section Shuffle.
Context (R : rng) {A : Type}.

(** shuffle.go:20-22 swap, on the list *)
Definition swap (i j : nat) (l : list A) : list A :=
  match l !! i, l !! j with
  | Some x, Some y => <[i := y]> (<[j := x]> l)
  | _, _ => l
  end.
(** math/rand Shuffle(n, swap): for i = n-1, ..., 1 swap i with a random j <= i *)
Fixpoint rand_shuffle (i : nat) (s : rng_state R) (l : list A) : list A :=
  match i with
  | O => l
  | S i' =>
      let '(j, s') := rng_next R s (S i) in
      rand_shuffle i' s' (swap i j l)
  end.
(** shuffle.go:17-29 Shuffle, the values.  shuffle.go:9-14 computeSeed is a function of the key's bytes: [seed]. *)
Definition shuffle (seed : Z) (txs : list A) : list A := rand_shuffle (length txs - 1) (rng_new R seed) txs.

(** ... and the memory: a copy made by append to an empty slice literal is permuted in place *)
Definition shuffle_mem (extra : list A) (h : heap A) (txs : slice) (seed : Z) : heap A * slice :=
  let i := fresh (dom h) in
  let '(h1, s) := go_append extra (<[i := []]> h) (mkSlice i 0 0 0) (content h txs) in
  let l := array h1 (s_arr s) in
  (<[s_arr s := shuffle seed (take (s_len s) l) ++ drop (s_len s) l]> h1, s).
End Shuffle.

(** shuffle.go:9-14 computeSeed: the first eight bytes of the hash, little endian, as a signed number *)
Definition compute_seed {P} (H : hashes P) (key_bytes : list N) : Z :=
  let u := foldr (λ b acc, Z.of_N b + 256 * acc)%Z 0%Z (take 8 (keccak H key_bytes)) in
  if (u <? 2 ^ 63)%Z then u else (u - 2 ^ 64)%Z.

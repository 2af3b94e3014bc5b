(** From users' transactions to decrypted batches: the two ends of the protocol.
    /repo/shuttermint/keyper/observe/mainchain.go:394-413 DecryptTransactions, keyper/epochkg/epochkg.go:55-60 (epoch ids), and what a user does
    with shlib/shcrypto: Encrypt and EncryptedMessage.Marshal. *)
From stdpp Require Import list.
From Coq Require Import ZArith NArith Lia.
From Verif Require Import Fq CryptoModel EncModel GoHeap EncMemModel EncodingModel.

Section Open.
Context {P : pairing} (H : hashes P) (R : rng).
(** blst points as stored ([raw C2]) and as group elements; [key_bytes]: EpochSecretKey.Marshal *)
Context (C2 : codec p2_bytes) (point : raw C2 → G2 P) (embed : G2 P → raw C2) (key_bytes : G1 P → list N).

(** epochkg.go:56-58, 99-101: the id of a batch is the hash of its number as eight bytes, big endian *)
Definition epoch_id (b : N) : G1 P := compute_epoch_id H (be8 b).

(** a user: encryption.go:51-60 Encrypt for the eon's public key and the batch, encoding.go:22-36 Marshal; [None] = panic *)
Definition user_tx (pk : G2 P) (b : N) (message sigma : list N) : option (list N) :=
  let ct := encrypt H message pk (epoch_id b) sigma in
  marshal_msg (mkEncMsg (Some (embed (c1 ct))) (c2 ct) (c3 ct)).

(** mainchain.go:397-410: the body of the loop; [None] = the transaction is skipped *)
Definition open_one (key : G1 P) (tx : list N) : option (list N) :=
  let '(m, ok) := unmarshal_msg (mkEncMsg (C2 := C2) None (replicate block_size 0%N) []) tx in
  if negb ok then None
  else match m_c1 m with
       | None => None
       | Some p => decrypt H (mkEncrypted (point p) (m_c2 m) (m_c3 m)) key
       end.
(** mainchain.go:394-413 DecryptTransactions *)
Definition open_batch (key : G1 P) (txs : list (list N)) : list (list N) :=
  shuffle R (compute_seed H (key_bytes key)) (omap (open_one key) txs).
End Open.
Arguments epoch_id {P}. Arguments user_tx {P}. Arguments open_one {P}. Arguments open_batch {P}.

(** The second half of the keyper's decisions: decrypted batches, decryption signatures, execution, accusations and appeals
    (/repo/shuttermint/keyper/decide.go, contract/signatures.go, keyper/fx/actions.go).

    Inputs of one decision: the keyper's view of the main chain ([MainModel.view]), the decryption signatures published on
    shuttermint per batch, and the epoch secret keys completed in this decision (each as the function that decrypts a batch).
    [None] = panic.  Gas limits and log output are not modelled. *)
From stdpp Require Import list gmap sorting.
From Coq Require Import ZArith NArith Lia.
From Verif Require Import ArithModel ContractsModel MainModel.
Local Open Scope Z_scope.

(** golang.org/x/crypto/sha3: a hasher collects what is written to it *)
Record hasher := mkHasher { written : bytes }.
Definition h_reset (_ : hasher) : hasher := mkHasher [].
Definition h_write (h : hasher) (x : bytes) : hasher := mkHasher (written h ++ x).
(** encoding/binary: BigEndian.PutUint64 *)
Definition put_uint64 (v : Z) : bytes := (λ k, Z.to_N (Z.land (Z.shiftr v k) 255)) <$> [56; 48; 40; 32; 24; 16; 8; 0].

(** decide.go:37-46 Batch *)
Record batch := mkBatch {
  b_index : Z; b_sig_hash : bytes; b_txs : list bytes; b_hash : bytes; b_sig_index : nat; b_sigs : gmap N bytes; b_empty : bool
}.
(** the fields of State (decide.go:253-274) used here *)
Record xstate := mkX { pending : option Z; pending_appeals : gset Z; xbatches : gmap Z batch; checked : Z }.
Definition new_x : xstate := mkX None ∅ ∅ 0.
(** fx/actions.go: what is submitted *)
Inductive action :=
| AExecCipher (b : Z) (h : bytes) (txs : list bytes) (k : Z)
| AExecPlain (b : Z) (txs : list bytes)
| ASkipCipher (b : Z)
| AAccuse (half_step k : Z)
| AAppeal (u : authorization)
| ASignature (b : Z) (sig : bytes).        (** SendShuttermintMessage with a decryption signature *)

Section Decide.
Context (keccak : bytes → bytes).
(** recovery of the signer's address from a hash, a recovery id (0 to 3), r and s: libsecp256k1, also behind the ecrecover precompile *)
Context (ecrecover : bytes → Z → Z → Z → option N) (addr_bytes : N → bytes) (batcher_address : N).
(** the keyper's address, its signing function (crypto.Sign), the configured execution staggering *)
Context (me : N) (sign : bytes → bytes) (staggering : Z).
(** the order in which Go iterates over a map: any *)
Context (order : ∀ A, list A → list A).

Definition h_sum (h : hasher) : bytes := keccak (written h).
(** go-ethereum crypto.SigToPub (secp256k1.RecoverPubkey) and PubkeyToAddress: 65 bytes r, s, v; v < 4; s is not restricted to the lower half *)
Definition go_recover (hash sig : bytes) : option N :=
  if negb (Nat.eqb (length sig) 65) then None
  else let v := be (drop 64 sig) in
    if 4 <=? v then None else ecrecover hash v (be (take 32 sig)) (be (take 32 (drop 32 sig))).
(** decide.go:48-56 VerifySignature *)
Definition verify_signature (x : batch) (sender : N) (sig : bytes) : bool :=
  match go_recover (b_sig_hash x) sig with Some a => (a =? sender)%N | None => false end.
(** decide.go:58-63 AddSignature *)
Definition add_signature (x : batch) (sender : N) (sig : bytes) : batch :=
  mkBatch (b_index x) (b_sig_hash x) (b_txs x) (b_hash x) (b_sig_index x) (<[sender := sig]> (b_sigs x)) (b_empty x).
Definition set_sig_index (x : batch) (i : nat) : batch := mkBatch (b_index x) (b_sig_hash x) (b_txs x) (b_hash x) i (b_sigs x) (b_empty x).

(** decide.go:640-656 transactionsHash *)
Definition transactions_hash (txs : list bytes) : bytes :=
  snd (foldl (λ '(h, hash) tx, let h := h_write (h_write (h_reset h) tx) hash in (h, h_sum h)) (mkHasher [], zero32) txs).
(** decide.go:636-638 hashPrefix *)
Definition hash_prefix : bytes := [25; 100; 101; 99; 116; 120]%N.
(** decide.go:658-686 computeDecryptionSignatureHash *)
Definition signature_hash (b : Z) (cipher_hash batch_hash : bytes) : bytes :=
  h_sum (h_write (h_write (h_write (h_write (h_write (mkHasher []) hash_prefix) (addr_bytes batcher_address)) (put_uint64 b)) cipher_hash) batch_hash).

(** decide.go:688-711 decryptTransactions; [dec] is DecryptTransactions (mainchain.go:394-413) with the completed key *)
Definition decrypt_transactions (v : view) (b : Z) (dec : list bytes → list bytes) : batch :=
  let m := default empty_mbatch (v_batches v !! b) in
  let txs := dec (enc_txs m) in
  let h := transactions_hash txs in
  mkBatch b (signature_hash b (enc_hash m) h) txs h 0 ∅ (bool_decide (enc_hash m = zero32)).

(** decide.go:821-848 the loop of syncBatch *)
Fixpoint sync_loop (c : config) (x : batch) (sigs : list (N * bytes)) : batch :=
  match sigs with
  | [] => x
  | (sender, sig) :: rest =>
      if negb (is_keyper c sender) then sync_loop c x rest
      else if bool_decide (is_Some (b_sigs x !! sender)) then sync_loop c x rest
      else if negb (verify_signature x sender sig) then sync_loop c x rest
      else
        let x' := add_signature x sender sig in
        if threshold c <=? Z.of_nat (size (b_sigs x')) then x' else sync_loop c x' rest
  end.
(** decide.go:805-858 syncBatch *)
Definition sync_batch (v : view) (sigs : gmap Z (list (N * bytes))) (x : batch) : option batch :=
  match sigs !! b_index x with
  | None => Some x
  | Some l =>
      match config_for_batch (v_configs v) (b_index x) with
      | None | Some None => None
      | Some (Some c) =>
          if b_empty x then Some x
          else Some (set_sig_index (sync_loop c x (drop (b_sig_index x) l)) (length l))
      end
  end.

(** decide.go:778-789 executionTimeoutReachedOrInactive *)
Definition timed_out_or_inactive (v : view) (b : Z) : option bool :=
  match config_for_batch (v_configs v) b with
  | None => None
  | Some None => Some true
  | Some (Some c) => e ← batch_end_block c b; Some (u64 (u64 (e + timeout c) - 1) <=? current v)
  end.
(** decide.go:713-741 sendDecryptionSignature; the batch is known *)
Definition send_signature (v : view) (sigs : gmap Z (list (N * bytes))) (x : batch) : option (batch * list action) :=
  x' ← sync_batch v sigs x;
  match config_for_batch (v_configs v) (b_index x) with
  | None | Some None => None
  | Some (Some c) =>
      Some (x', if (Z.of_nat (size (b_sigs x')) <? threshold c) && negb (b_empty x') then [ASignature (b_index x) (sign (b_sig_hash x'))] else [])
  end.
(** decide.go:625-632: a completed epoch secret key *)
Definition on_key (v : view) (sigs : gmap Z (list (N * bytes))) (s : xstate) (b : Z) (dec : list bytes → list bytes) : option (xstate * list action) :=
  let x := decrypt_transactions v b dec in
  t ← timed_out_or_inactive v b;
  if (t : bool) then Some (mkX (pending s) (pending_appeals s) (<[b := x]> (xbatches s)) (checked s), [])
  else
    '(x', acts) ← send_signature v sigs x;
    Some (mkX (pending s) (pending_appeals s) (<[b := x']> (xbatches s)) (checked s), acts).
Fixpoint on_keys (v : view) (sigs : gmap Z (list (N * bytes))) (s : xstate) (keys : list (Z * (list bytes → list bytes))) : option (xstate * list action) :=
  match keys with
  | [] => Some (s, [])
  | (b, dec) :: keys =>
      '(s1, a1) ← on_key v sigs s b dec;
      '(s2, a2) ← on_keys v sigs s1 keys;
      Some (s2, a1 ++ a2)
  end.

(** decide.go:860-864 handleDecryptionSignatures; batches do not influence each other *)
Definition handle_signatures (v : view) (sigs : gmap Z (list (N * bytes))) (s : xstate) : option xstate :=
  if forallb (λ kx, bool_decide (is_Some (sync_batch v sigs kx.2))) (map_to_list (xbatches s))
  then Some (mkX (pending s) (pending_appeals s) (omap (sync_batch v sigs) (xbatches s)) (checked s))
  else None.

(** decide.go:916-947 executeCipherBatch: [Some None] = nil *)
Definition execute_cipher (v : view) (s : xstate) (b : Z) (c : config) : option (option action) :=
  let m := default empty_mbatch (v_batches v !! b) in
  match keyper_index c me with
  | None => None
  | Some k =>
      match xbatches s !! b with
      | None => Some None
      | Some x =>
          if negb (b_empty x) && (Z.of_nat (size (b_sigs x)) <? threshold c) then Some None
          else Some (Some (AExecCipher b (enc_hash m) (b_txs x) k))
      end
  end.
(** decide.go:949-959 executePlainBatch *)
Definition execute_plain (v : view) (b : Z) : action := AExecPlain b (plain_txs (default empty_mbatch (v_batches v !! b))).
(** decide.go:961-1009 maybeExecuteHalfStep *)
Definition execute_half_step (v : view) (s : xstate) (h : Z) : option (option action) :=
  let b := h / 2 in
  match config_for_batch (v_configs v) b with
  | None => None
  | Some None => Some None
  | Some (Some c) =>
      d ← execution_delay c staggering me h;
      e ← batch_end_block c b;
      let execution_block := u64 (e + d) in
      let timeout_block := u64 (e + timeout c) in
      let cipher := h mod 2 =? 0 in
      if cipher && (timeout_block <=? current v) then
        Some (if u64 (timeout_block + d) <=? current v then Some (ASkipCipher b) else None)
      else if negb (is_keyper c me) then Some None
      else if execution_block <=? current v then
        if cipher then execute_cipher v s b c else Some (Some (execute_plain v b))
      else Some None
  end.
(** decide.go:888-897 the loop of maybeExecuteBatch, [n] half steps from [h] on *)
Fixpoint execute_loop (v : view) (s : xstate) (h : Z) (n : nat) (p : option Z) : option (option Z * list action) :=
  match n with
  | O => Some (p, [])
  | S n =>
      a ← execute_half_step v s h;
      match (a : option action) with
      | None => Some (p, [])
      | Some a =>
          '(p', acts) ← execute_loop v s (h + 1) n (Some h);
          Some (p', a :: acts)
      end
  end.
(** decide.go:866-898 maybeExecuteBatch *)
Definition execute_batch (v : view) (s : xstate) : option (xstate * list action) :=
  match active_config (v_configs v) (current v) with
  | None => None
  | Some c =>
      if negb (is_active c) then Some (s, [])
      else
        b ← batch_index c (current v);
        let next := v_half_steps v in
        let p := match pending s with Some p => if p <? next then None else Some p | None => None end in
        match p with
        | Some _ => Some (mkX p (pending_appeals s) (xbatches s) (checked s), [])
        | None =>
            '(p', acts) ← execute_loop v s next (Z.to_nat (num_half_steps_to_execute next b)) None;
            Some (mkX p' (pending_appeals s) (xbatches s) (checked s), acts)
        end
  end.

(** contract/signatures.go:5-10 SignatureToContractFormat; [None] = panic *)
Definition to_contract_format (sig : bytes) : option bytes :=
  match sig !! 64%nat with Some x => Some (<[64%nat := ((x + 27) mod 256)%N]> sig) | None => None end.
(** decide.go:1011-1050 getSortedDecryptionSignaturesWithIndices; [Some None] = error.  sort.Slice is modelled by merge sort: the
    order of equal elements is left open by Go, but no two elements have equal indices *)
Definition by_index (x y : Z * bytes) : Prop := x.1 ≤ y.1.
Global Instance by_index_dec x y : Decision (by_index x y).
Proof. unfold by_index. apply _. Defined.
Definition sorted_signatures (v : view) (x : batch) : option (option (list bytes * list Z)) :=
  match config_for_batch (v_configs v) (b_index x) with
  | None | Some None => None
  | Some (Some c) =>
      if Z.of_nat (size (b_sigs x)) <? threshold c then Some None
      else
        match mapM (λ '(a, sig), (λ i, (i, sig)) <$> keyper_index c a) (order _ (map_to_list (b_sigs x))) with
        | None => Some None
        | Some l => let l' := merge_sort by_index l in Some (Some (l'.*2, l'.*1))
        end
  end.
(** decide.go:1054-1107 the loop of maybeAppeal; [n] = accusation.HalfStep *)
Definition appeal_one (v : view) (s : xstate) (n : Z) (a : maccusation) : option (option action) :=
  if ma_appealed a then Some None
  else if bool_decide (n ∈ pending_appeals s) then Some None
  else
    match v_receipts v !! n with
    | None => Some None
    | Some r =>
        match xbatches s !! (n / 2) with
        | None => Some None
        | Some x =>
            if negb (bool_decide (r_batch_hash r = b_hash x)) then Some None
            else
              o ← sorted_signatures v x;
              match (o : option (list bytes * list Z)) with
              | None => Some None
              | Some (sigs, indices) => sigs' ← mapM to_contract_format sigs; Some (Some (AAppeal (mkAuth n (b_hash x) indices sigs')))
              end
        end
    end.
Fixpoint appeal_loop (v : view) (s : xstate) (l : list maccusation) : option (xstate * list action) :=
  match l with
  | [] => Some (s, [])
  | a :: l =>
      o ← appeal_one v s (ma_half_step a) a;
      match (o : option action) with
      | None => appeal_loop v s l
      | Some act =>
          '(s', acts) ← appeal_loop v (mkX (pending s) ({[ma_half_step a]} ∪ pending_appeals s) (xbatches s) (checked s)) l;
          Some (s', act :: acts)
      end
  end.
(** decide.go:1147-1160 syncPendingAppeals *)
Definition sync_pending_appeals (v : view) (s : xstate) : xstate :=
  mkX (pending s)
    (filter (λ h, existsb (λ ka, (ma_half_step ka.2 =? h) && ma_appealed ka.2) (map_to_list (v_accusations v)) = false) (pending_appeals s))
    (xbatches s) (checked s).
(** decide.go:1052-1107 maybeAppeal *)
Definition maybe_appeal (v : view) (s : xstate) : option (xstate * list action) :=
  appeal_loop v (sync_pending_appeals v s) (snd <$> order _ (map_to_list (v_accusations v))).

(** decide.go:1109-1145 maybeAccuse *)
Definition accuse_one (v : view) (s : xstate) (h : Z) : option (list action) :=
  if negb (h mod 2 =? 0) then Some []
  else
    match v_receipts v !! h, xbatches s !! (h / 2) with
    | Some r, Some x =>
        if bool_decide (b_hash x = r_batch_hash r) then Some []
        else if bool_decide (is_Some (v_accusations v !! h)) then Some []
        else
          match config_for_batch (v_configs v) (h / 2) with
          | None => None
          | Some None => Some []
          | Some (Some c) => Some [AAccuse h (default 0 (keyper_index c me))]
          end
    | _, _ => Some []
    end.
Definition maybe_accuse (v : view) (s : xstate) : option (xstate * list action) :=
  acts ← mapM (accuse_one v s) (seqZ (checked s) (v_half_steps v - checked s));
  Some (mkX (pending s) (pending_appeals s) (xbatches s) (v_half_steps v), mjoin acts).

(** decide.go:1190-1213 the second half of Decide: handleEpochKG's decryptions, handleDecryptionSignatures, maybeExecuteBatch,
    maybeAppeal, maybeAccuse *)
Record input := mkInput { i_view : view; i_sigs : gmap Z (list (N * bytes)); i_keys : list (Z * (list bytes → list bytes)) }.
Definition decision_step (s : xstate) (i : input) : option (xstate * list action) :=
  let v := i_view i in
  '(s1, a1) ← on_keys v (i_sigs i) s (i_keys i);
  s2 ← handle_signatures v (i_sigs i) s1;
  '(s3, a3) ← execute_batch v s2;
  '(s4, a4) ← maybe_appeal v s3;
  '(s5, a5) ← maybe_accuse v s4;
  Some (s5, a1 ++ a3 ++ a4 ++ a5).
(** a sequence of decisions, and what is submitted in each *)
Fixpoint decisions (s : xstate) (l : list input) : option (xstate * list (list action)) :=
  match l with
  | [] => Some (s, [])
  | i :: l =>
      '(s1, a) ← decision_step s i;
      '(s2, al) ← decisions s1 l;
      Some (s2, a :: al)
  end.
End Decide.

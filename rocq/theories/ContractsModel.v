(** Model of the main chain contracts in /repo/contracts/contracts: ConfigContract, BatcherContract, FeeBankContract,
    ExecutorContract, KeyperSlasher, DepositContract, KeyBroadcastContract.

    One state for all contracts of a deployment.  A call returns [Ok] with the new state and the effects worth naming
    (close to the emitted events), [Revert] or [Panic] (failed assert, overflow); the last two leave the state as it was.
    Calls into other people's code (the target contract, receivers of ether and tokens) may call back: they carry the
    calls made in the meantime.  Gas is not modelled.  uint64 and uint256 arithmetic is checked (Solidity 0.8). *)
From stdpp Require Import list gmap.
From Coq Require Import ZArith NArith Lia.
From Verif Require Import ArithModel.
Local Open Scope Z_scope.

Inductive result (A : Type) := Ok (a : A) | Revert | Panic.
Arguments Ok {A}. Arguments Revert {A}. Arguments Panic {A}.
Definition rbind {A B} (r : result A) (f : A → result B) : result B :=
  match r with Ok a => f a | Revert => Revert | Panic => Panic end.
Notation "'do' p <- r ; k" := (rbind r (λ x, match x with p => k end)) (at level 80, p pattern, r at level 70, k at level 80, right associativity).
Definition require (b : bool) : result unit := if b then Ok tt else Revert.
Definition assert_ (b : bool) : result unit := if b then Ok tt else Panic.
(** checked uint64 and uint256 results *)
Definition c64 (x : Z) : result Z := if (0 <=? x) && (x <? 2 ^ 64) then Ok x else Panic.
Definition c256 (x : Z) : result Z := if (0 <=? x) && (x <? 2 ^ 256) then Ok x else Panic.

Notation bytes := (list N) (only parsing).
Definition zero32 : bytes := replicate 32 0%N.
(** BatcherContract.sol:8-11 *)
Inductive tx_type := Cipher | Plain.
Global Instance tx_type_eq_dec : EqDecision tx_type.
Proof. solve_decision. Defined.
Global Instance tx_type_countable : Countable tx_type.
Proof. refine (inj_countable' (λ t, match t with Cipher => true | Plain => false end) (λ b, if b then Cipher else Plain) _). by intros []. Defined.

(** ConfigContract.sol:50-66 _zeroConfig *)
Definition zero_config : config := mkConfig 0 0 [] 0 0 0 0 0 0 0 0 0.
(** ConfigContract.sol:29-48: the configs array without its last element, and that element (the next config) *)
Record config_contract := mkCC { cc_owner : N; heads_up : Z; scheduled : list config; next_config : config }.

(** ExecutorContract.sol:10-20 *)
Record receipt := mkReceipt { r_executed : bool; r_executor : N; r_half_step : Z; r_cipher_hash : bytes; r_batch_hash : bytes }.
Definition zero_receipt : receipt := mkReceipt false 0 0 zero32 zero32.
(** KeyperSlasher.sol:11-25 *)
Record accusation := mkAccusation { a_accused : bool; a_appealed : bool; a_slashed : bool; a_executor : N; a_half_step : Z; a_block : Z }.
Definition zero_accusation : accusation := mkAccusation false false false 0 0 0.
Record authorization := mkAuth { u_half_step : Z; u_batch_hash : bytes; u_indices : list Z; u_signatures : list bytes }.
(** DepositContract.sol:10-15 *)
Record deposit := mkDeposit { d_amount : Z; d_delay : Z; d_requested : Z; d_slashed : bool }.
Definition zero_deposit : deposit := mkDeposit 0 0 0 false.

Record state := mkState {
  block : Z;                               (** block.number *)
  cc : config_contract;
  (** BatcherContract *)
  batcher_owner : N; batch_sizes : gmap Z Z; batch_hashes : gmap (Z * tx_type) bytes; min_fee : Z;
  (** FeeBankContract: deposits and its ether *)
  fees : gmap N Z; fee_balance : Z;
  (** ExecutorContract *)
  executor_owner : N; half_steps : Z; receipts : gmap Z receipt;
  (** KeyperSlasher *)
  appeal_blocks : Z; accusations : gmap Z accusation;
  (** DepositContract: deposits and its tokens *)
  deposit_owner : N; slasher : N; slashing_receiver : N; deposits : gmap N deposit; token_balance : Z;
  (** KeyBroadcastContract *)
  voted : gset (Z * N); num_votes : gmap (Z * bytes) Z; keys : gmap bytes bytes; best_hash : gmap Z bytes; best_votes : gmap Z Z
}.
(** reads of mappings give zero values for missing keys *)
Definition hash_of (s : state) (b : Z) (t : tx_type) : bytes := default zero32 (batch_hashes s !! (b, t)).
Definition size_of (s : state) (b : Z) : Z := default 0 (batch_sizes s !! b).
Definition receipt_of (s : state) (h : Z) : receipt := default zero_receipt (receipts s !! h).
Definition accusation_of (s : state) (h : Z) : accusation := default zero_accusation (accusations s !! h).
Definition deposit_of (s : state) (a : N) : deposit := default zero_deposit (deposits s !! a).
Definition fee_of (s : state) (a : N) : Z := default 0 (fees s !! a).
Definition votes_of (s : state) (b : Z) (h : bytes) : Z := default 0 (num_votes s !! (b, h)).
Definition best_votes_of (s : state) (b : Z) : Z := default 0 (best_votes s !! b).

(** updates of single fields *)
Definition set_block (s : state) x := mkState x (cc s) (batcher_owner s) (batch_sizes s) (batch_hashes s) (min_fee s) (fees s) (fee_balance s) (executor_owner s) (half_steps s) (receipts s) (appeal_blocks s) (accusations s) (deposit_owner s) (slasher s) (slashing_receiver s) (deposits s) (token_balance s) (voted s) (num_votes s) (keys s) (best_hash s) (best_votes s).
Definition set_cc (s : state) x := mkState (block s) x (batcher_owner s) (batch_sizes s) (batch_hashes s) (min_fee s) (fees s) (fee_balance s) (executor_owner s) (half_steps s) (receipts s) (appeal_blocks s) (accusations s) (deposit_owner s) (slasher s) (slashing_receiver s) (deposits s) (token_balance s) (voted s) (num_votes s) (keys s) (best_hash s) (best_votes s).
Definition set_batcher (s : state) sizes hs fee := mkState (block s) (cc s) (batcher_owner s) sizes hs fee (fees s) (fee_balance s) (executor_owner s) (half_steps s) (receipts s) (appeal_blocks s) (accusations s) (deposit_owner s) (slasher s) (slashing_receiver s) (deposits s) (token_balance s) (voted s) (num_votes s) (keys s) (best_hash s) (best_votes s).
Definition set_fees (s : state) f bal := mkState (block s) (cc s) (batcher_owner s) (batch_sizes s) (batch_hashes s) (min_fee s) f bal (executor_owner s) (half_steps s) (receipts s) (appeal_blocks s) (accusations s) (deposit_owner s) (slasher s) (slashing_receiver s) (deposits s) (token_balance s) (voted s) (num_votes s) (keys s) (best_hash s) (best_votes s).
Definition set_half_steps (s : state) x := mkState (block s) (cc s) (batcher_owner s) (batch_sizes s) (batch_hashes s) (min_fee s) (fees s) (fee_balance s) (executor_owner s) x (receipts s) (appeal_blocks s) (accusations s) (deposit_owner s) (slasher s) (slashing_receiver s) (deposits s) (token_balance s) (voted s) (num_votes s) (keys s) (best_hash s) (best_votes s).
Definition set_receipts (s : state) x := mkState (block s) (cc s) (batcher_owner s) (batch_sizes s) (batch_hashes s) (min_fee s) (fees s) (fee_balance s) (executor_owner s) (half_steps s) x (appeal_blocks s) (accusations s) (deposit_owner s) (slasher s) (slashing_receiver s) (deposits s) (token_balance s) (voted s) (num_votes s) (keys s) (best_hash s) (best_votes s).
Definition set_accusations (s : state) x := mkState (block s) (cc s) (batcher_owner s) (batch_sizes s) (batch_hashes s) (min_fee s) (fees s) (fee_balance s) (executor_owner s) (half_steps s) (receipts s) (appeal_blocks s) x (deposit_owner s) (slasher s) (slashing_receiver s) (deposits s) (token_balance s) (voted s) (num_votes s) (keys s) (best_hash s) (best_votes s).
Definition set_slasher (s : state) x := mkState (block s) (cc s) (batcher_owner s) (batch_sizes s) (batch_hashes s) (min_fee s) (fees s) (fee_balance s) (executor_owner s) (half_steps s) (receipts s) (appeal_blocks s) (accusations s) (deposit_owner s) x (slashing_receiver s) (deposits s) (token_balance s) (voted s) (num_votes s) (keys s) (best_hash s) (best_votes s).
Definition set_slashing_receiver (s : state) x := mkState (block s) (cc s) (batcher_owner s) (batch_sizes s) (batch_hashes s) (min_fee s) (fees s) (fee_balance s) (executor_owner s) (half_steps s) (receipts s) (appeal_blocks s) (accusations s) (deposit_owner s) (slasher s) x (deposits s) (token_balance s) (voted s) (num_votes s) (keys s) (best_hash s) (best_votes s).
Definition set_deposits (s : state) d bal := mkState (block s) (cc s) (batcher_owner s) (batch_sizes s) (batch_hashes s) (min_fee s) (fees s) (fee_balance s) (executor_owner s) (half_steps s) (receipts s) (appeal_blocks s) (accusations s) (deposit_owner s) (slasher s) (slashing_receiver s) d bal (voted s) (num_votes s) (keys s) (best_hash s) (best_votes s).
Definition set_votes (s : state) v n k bh bv := mkState (block s) (cc s) (batcher_owner s) (batch_sizes s) (batch_hashes s) (min_fee s) (fees s) (fee_balance s) (executor_owner s) (half_steps s) (receipts s) (appeal_blocks s) (accusations s) (deposit_owner s) (slasher s) (slashing_receiver s) (deposits s) (token_balance s) v n k bh bv.

(** effects *)
Inductive effect :=
| FTxAdded (b : Z) (t : tx_type) (tx : bytes) (h : bytes)           (** TransactionAdded *)
| FCipher (half_step : Z) (executor : N) (cipher_hash : bytes) (txs : list bytes)   (** BatchExecuted, receipt stored *)
| FPlain (half_step : Z) (txs : list bytes)                         (** BatchExecuted of a plain batch *)
| FSkipped (half_step : Z)                                          (** CipherExecutionSkipped *)
| FJump (from to : Z)                                               (** setHalfSteps *)
| FAccused (half_step : Z) (executor accuser : N)
| FAppealed (half_step : Z)
| FSlashed (half_step : Z) (executor : N)
| FDeposited (account : N) (amount : Z)
| FTokensOut (account : N) (to : N) (amount : Z)                    (** withdrawn, slashed or burnt (to = 0) *)
| FFeeIn (receiver : N) (amount : Z) | FFeeOut (account : N) (to : N) (amount : Z)
| FVoted (keyper : N) (b : Z) (key : bytes) (votes : Z).

Section Contracts.
(** keccak256, the ecrecover precompile (hash, recovery id 0 or 1, r, s), and abi.encodePacked of an address *)
Context (keccak : bytes → bytes) (ecrecover : bytes → Z → Z → Z → option N) (addr_bytes : N → bytes).
(** addresses of the batcher contract (used in the signed hash), the slasher and the deposit contract *)
Context (batcher_address slasher_address deposit_address : N).

(** ** ConfigContract *)
(** ConfigContract.sol:88-103 configIndexForBatchIndex; the loop ends at the guard config *)
Fixpoint sol_config_loop (cs : list config) (i : nat) (b : Z) : result nat :=
  match i with
  | O => Panic
  | S i =>
      match cs !! i with
      | None => Panic
      | Some c => if start_batch c <=? b then Ok i else sol_config_loop cs i b
      end
  end.
Definition config_index (s : state) (b : Z) : result nat := sol_config_loop (scheduled (cc s)) (length (scheduled (cc s))) b.
(** reading configs[configIndex] for an index below numConfigs() *)
Definition config_at (s : state) (i : nat) : result config :=
  match scheduled (cc s) !! i with Some c => Ok c | None => Revert end.
(** ConfigContract.sol:520-522 batchingActive *)
Definition batching_active (c : config) : bool := 0 <? span c.
(** ConfigContract.sol:524-553 batchBoundaryBlocks *)
Definition boundary (c : config) (b : Z) : result (Z * Z * Z) :=
  do _ <- assert_ (0 <? span c);
  do _ <- assert_ (start_batch c <=? b);
  do rel <- c64 (b - start_batch c);
  do m <- c64 (rel * span c);
  do x <- c64 (start_block c + m);
  do e <- c64 (x + span c);
  do st <- c64 (e - span c);
  do st' <- (if 1 <=? rel then c64 (st - span c) else Ok st);
  do t <- c64 (e + timeout c);
  Ok (st', e, t).
(** ConfigContract.sol:435-480 scheduleNextConfig *)
Definition schedule (s : state) (sender : N) : result state :=
  let k := cc s in
  do _ <- require (sender =? cc_owner k)%N;
  do _ <- require (Z.of_nat (S (length (scheduled k))) <? 2 ^ 64 - 2);
  match last (scheduled k) with
  | None => Panic
  | Some c1 =>
      let c2 := next_config k in
      do _ <- require (threshold c2 <=? Z.of_nat (length (keypers c2)));
      let hu := if heads_up k <? span c1 then span c1 else heads_up k in
      do x <- c64 (u64 (block s) + hu);
      do earliest <- c64 (x + 1);
      do _ <- require (earliest <=? start_block c2);
      do _ <- (if 0 <? span c1 then
                 do _ <- require (start_batch c1 <? start_batch c2);
                 do delta <- c64 (start_batch c2 - start_batch c1);
                 do m <- c64 (span c1 * delta);
                 do y <- c64 (start_block c1 + m);
                 require (y =? start_block c2)
               else require (start_batch c2 =? start_batch c1));
      Ok (set_cc s (mkCC (cc_owner k) (heads_up k) (scheduled k ++ [c2]) zero_config))
  end.
(** ConfigContract.sol:491-518 unscheduleConfigs; the loop pops configs from the end, never the first *)
Fixpoint unschedule_loop (i : nat) (cs : list config) (from : Z) : list config :=
  match i with
  | O => cs
  | S i' =>
      match cs !! i with
      | Some c => if from <=? start_block c then unschedule_loop i' (take i cs) from else cs
      | None => cs
      end
  end.
Definition unschedule (s : state) (sender : N) (from : Z) : result state :=
  let k := cc s in
  do _ <- require (sender =? cc_owner k)%N;
  do limit <- c256 (block s + heads_up k);
  do _ <- require (limit <? from);
  let cs := unschedule_loop (length (scheduled k) - 1) (scheduled k) from in
  do _ <- require (Nat.ltb (length cs) (length (scheduled k)));
  Ok (set_cc s (mkCC (cc_owner k) (heads_up k) cs (next_config k))).
(** ConfigContract.sol:273-366: the setters of the next config, together: they can produce any config *)
Definition set_next (s : state) (sender : N) (c : config) : result state :=
  let k := cc s in
  do _ <- require (sender =? cc_owner k)%N;
  Ok (set_cc s (mkCC (cc_owner k) (heads_up k) (scheduled k) c)).

(** ** FeeBankContract *)
(** FeeBankContract.sol:35-53 deposit *)
Definition fee_deposit (s : state) (receiver : N) (value : Z) : result (state * list effect) :=
  do _ <- require (negb (receiver =? 0)%N);
  do _ <- require (0 <? value);
  do _ <- require (value <=? 2 ^ 64 - 1 - fee_of s receiver);
  do d <- c64 (fee_of s receiver + value);
  Ok (set_fees s (<[receiver := d]> (fees s)) (fee_balance s + value), [FFeeIn receiver value]).

(** ** BatcherContract *)
(** BatcherContract.sol:55-121 addTransaction.  [value] is msg.value.  If no fee receiver is set the ether stays in the
    batcher (not modelled). *)
Definition add_transaction (s : state) (b : Z) (t : tx_type) (tx : bytes) (value : Z) : result (state * list effect) :=
  do i <- config_index s b;
  do c <- config_at s i;
  do _ <- require (batching_active c);
  do (st, e, _) <- boundary c b;
  do _ <- require (st <=? block s);
  do _ <- require (block s <? e);
  let len := Z.of_nat (length tx) in
  do _ <- require (0 <? len);
  do _ <- require (len <=? tx_size_limit c);
  do total <- c256 (size_of s b + len);
  do _ <- require (total <=? batch_size_limit c);
  do _ <- require (min_fee s <=? value);
  let h := keccak (tx ++ hash_of s b t) in
  do size <- c64 (size_of s b + u64 len);
  let s1 := set_batcher s (<[b := size]> (batch_sizes s)) (<[(b, t) := h]> (batch_hashes s)) (min_fee s) in
  if (0 <? value) && negb (fee_receiver c =? 0)%N then
    do (s2, f) <- fee_deposit s1 (fee_receiver c) value;
    Ok (s2, f ++ [FTxAdded b t tx h])
  else Ok (s1, [FTxAdded b t tx h]).
(** BatcherContract.sol:123-125 setMinFee *)
Definition set_min_fee (s : state) (sender : N) (fee : Z) : result state :=
  do _ <- require (sender =? batcher_owner s)%N;
  Ok (set_batcher s (batch_sizes s) (batch_hashes s) fee).

(** ** ExecutorContract *)
(** the fold of ExecutorContract.sol:354-374 executeTransactions, started with bytes32(0) *)
Definition chain_hash (txs : list bytes) : bytes := foldl (λ h tx, keccak (tx ++ h)) zero32 txs.
(** ExecutorContract.sol:57-93 setHalfSteps *)
Definition set_half_steps_call (s : state) (sender : N) (n : Z) : result (state * list effect) :=
  do _ <- require (sender =? executor_owner s)%N;
  let b := half_steps s / 2 in
  do i <- config_index s b;
  do c <- config_at s i;
  do (_, _, t) <- boundary c b;
  do _ <- require (t <=? block s);
  do _ <- require (half_steps s <? n);
  let nb := n / 2 in
  do ni <- config_index s nb;
  do nc <- config_at s ni;
  do (_, e, _) <- boundary nc nb;
  do _ <- require (e <? block s);
  Ok (set_half_steps s n, [FJump (half_steps s) n]).
(** ExecutorContract.sol:103-206 executeCipherBatch up to the execution of the transactions: [Ok None]: the timeout is reached
    and the half step is skipped; [Ok (Some tt)]: go on *)
Definition cipher_checks (s : state) (sender : N) (b : Z) (h : bytes) (n : nat) (k : Z) : result (option unit) :=
  do _ <- require (half_steps s / 2 =? b);
  do _ <- require (half_steps s mod 2 =? 0);
  do i <- config_index s b;
  do c <- config_at s i;
  do _ <- require (batching_active c);
  do (_, e, t) <- boundary c b;
  if t <=? block s then Ok None
  else
    do _ <- require (e <=? block s);
    do _ <- require (k <? Z.of_nat (length (keypers c)));
    do a <- (match keypers c !! Z.to_nat k with Some a => Ok a | None => Panic end);
    do _ <- require (sender =? a)%N;
    do _ <- require (negb (d_slashed (deposit_of s sender)));
    do _ <- require (bool_decide (h = hash_of s b Cipher));
    do _ <- require (negb (bool_decide (h = zero32)) || (Nat.eqb n 0));
    Ok (Some tt).
(** ... after their execution (state [s]) *)
Definition cipher_finish (s : state) (sender : N) (h : bytes) (txs : list bytes) : result (state * list effect) :=
  let r := mkReceipt true sender (half_steps s) h (chain_hash txs) in
  do n <- c64 (half_steps s + 1);
  Ok (set_half_steps (set_receipts s (<[half_steps s := r]> (receipts s))) n, [FCipher (half_steps s) sender h txs]).
(** numExecutionHalfSteps++ and CipherExecutionSkipped *)
Definition skip_one (s : state) : result (state * list effect) :=
  do n <- c64 (half_steps s + 1);
  Ok (set_half_steps s n, [FSkipped (half_steps s)]).
(** ExecutorContract.sol:208-259 skipEmptyOrTimedOutBatches: the loop, on local variables *)
Fixpoint skip_loop (fuel : nat) (s : state) (hs b : Z) (eff : list effect) : result (Z * list effect) :=
  match fuel with
  | O => Ok (hs, eff)
  | S fuel =>
      do (go, hs1, eff1) <-
        (if hs mod 2 =? 0 then
           do i <- config_index s b;
           do c <- config_at s i;
           if negb (batching_active c) then Ok (false, hs, eff)
           else
             do (_, e, t) <- boundary c b;
             if block s <? e then Ok (false, hs, eff)
             else if (block s <? t) && negb (bool_decide (hash_of s b Cipher = zero32)) then Ok (false, hs, eff)
             else do n <- c64 (hs + 1); Ok (true, n, eff ++ [FSkipped hs])
         else Ok (true, hs, eff));
      if negb go then Ok (hs1, eff1)
      else if negb (bool_decide (hash_of s b Plain = zero32)) then Ok (hs1, eff1)
      else
        do n <- c64 (hs1 + 1);
        do b' <- c64 (b + 1);
        skip_loop fuel s n b' (eff1 ++ [FPlain hs1 []])
  end.
Definition skip_empty (s : state) (max : Z) : result (state * list effect) :=
  do (hs, eff) <- skip_loop (Z.to_nat max) s (half_steps s) (half_steps s / 2) [];
  Ok (set_half_steps s hs, eff).
(** ExecutorContract.sol:261-296 skipCipherExecution *)
Definition skip_cipher (s : state) (b : Z) : result (state * list effect) :=
  do _ <- require (half_steps s / 2 =? b);
  do _ <- require (half_steps s mod 2 =? 0);
  do i <- config_index s b;
  do c <- config_at s i;
  do _ <- require (batching_active c);
  do (_, _, t) <- boundary c b;
  do _ <- require (t <=? block s);
  skip_one s.
(** ExecutorContract.sol:298-346 executePlainBatch, before and after the execution of the transactions *)
Definition plain_checks (s : state) (b : Z) : result unit :=
  do _ <- require (half_steps s / 2 =? b);
  do _ <- require (half_steps s mod 2 =? 1);
  do i <- config_index s b;
  do c <- config_at s i;
  do _ <- assert_ (batching_active c);
  do (_, e, _) <- boundary c b;
  do _ <- assert_ (e <=? block s);
  Ok tt.
Definition plain_finish (s : state) (b : Z) (txs : list bytes) : result (state * list effect) :=
  do _ <- require (bool_decide (chain_hash txs = hash_of s b Plain));
  do n <- c64 (half_steps s + 1);
  Ok (set_half_steps s n, [FPlain (half_steps s) txs]).

(** ** KeyperSlasher *)
(** KeyperSlasher.sol:59-103 accuse *)
Definition accuse (s : state) (sender : N) (h k : Z) : result (state * list effect) :=
  do _ <- require (h mod 2 =? 0);
  do _ <- require (negb (a_accused (accusation_of s h)));
  do i <- config_index s (h / 2);
  do c <- config_at s i;
  do _ <- require (k <? Z.of_nat (length (keypers c)));
  do a <- (match keypers c !! Z.to_nat k with Some a => Ok a | None => Panic end);
  do _ <- require (sender =? a)%N;
  let r := receipt_of s h in
  do _ <- require (r_executed r);
  do _ <- require (negb (bool_decide (r_cipher_hash r = zero32)));
  Ok (set_accusations s (<[h := mkAccusation true false false (r_executor r) h (u64 (block s))]> (accusations s)),
      [FAccused h (r_executor r) sender]).
(** openzeppelin ECDSA.sol:25-77 recover: [None] = revert *)
Definition be (l : bytes) : Z := foldl (λ acc b, acc * 256 + Z.of_N b) 0 l.
Definition half_order : Z := 0x7FFFFFFFFFFFFFFFFFFFFFFFFFFFFFFF5D576E7357A4501DDFE92F46681B20A0.
Definition sol_recover (hash sig : bytes) : option N :=
  if negb (Nat.eqb (length sig) 65) then None
  else
    let r := be (take 32 sig) in let s := be (take 32 (drop 32 sig)) in let v := be (drop 64 sig) in
    if negb (s <=? half_order) then None
    else if negb ((v =? 27) || (v =? 28)) then None
    else match ecrecover hash (v - 27) r s with
         | Some a => if (a =? 0)%N then None else Some a
         | None => None
         end.
(** KeyperSlasher.sol:191-203 _decryptionSignaturePreimage: abi.encodePacked; "\x19dectx" and uint64 as 8 bytes big endian *)
Definition be64 (x : Z) : bytes := (λ k, Z.to_N (x / 256 ^ Z.of_nat (7 - k) mod 256)) <$> seq 0 8.
Definition preimage (r : receipt) : bytes :=
  [25; 100; 101; 99; 116; 120]%N ++ addr_bytes batcher_address ++ be64 (r_half_step r / 2) ++ r_cipher_hash r ++ r_batch_hash r.
(** KeyperSlasher.sol:164-188: the loop over the signatures *)
Fixpoint verify_loop (c : config) (hash : bytes) (prev : option Z) (indices : list Z) (sigs : list bytes) : result unit :=
  match sigs, indices with
  | [], _ => Ok tt
  | sig :: sigs', i :: indices' =>
      do _ <- require (i <? Z.of_nat (length (keypers c)));
      do _ <- require (match prev with None => true | Some p => p <? i end);
      match sol_recover hash sig with
      | None => Revert
      | Some a =>
          do k <- (match keypers c !! Z.to_nat i with Some k => Ok k | None => Panic end);
          do _ <- require (a =? k)%N;
          verify_loop c hash (Some i) indices' sigs'
      end
  | _, _ => Panic
  end.
(** KeyperSlasher.sol:143-189 _verifyAuthorization; authorization.batchHash is not used *)
Definition verify_authorization (s : state) (u : authorization) (r : receipt) : result unit :=
  do i <- config_index s (r_half_step r / 2);
  do c <- config_at s i;
  do _ <- require (threshold c <=? Z.of_nat (length (u_signatures u)));
  do _ <- require (Nat.eqb (length (u_signatures u)) (length (u_indices u)));
  verify_loop c (keccak (preimage r)) None (u_indices u) (u_signatures u).
(** KeyperSlasher.sol:105-122 appeal *)
Definition appeal (s : state) (u : authorization) : result (state * list effect) :=
  let h := u_half_step u in
  let a := accusation_of s h in
  do _ <- require (a_accused a);
  do _ <- require (negb (a_appealed a));
  do _ <- verify_authorization s u (receipt_of s h);
  Ok (set_accusations s (<[h := mkAccusation (a_accused a) true (a_slashed a) (a_executor a) (a_half_step a) (a_block a)]> (accusations s)),
      [FAppealed h]).
(** KeyperSlasher.sol:124-141 slash: the checks, and what is left to do after depositContract.slash *)
Definition slash_checks (s : state) (h : Z) : result N :=
  let a := accusation_of s h in
  do _ <- require (a_accused a);
  do _ <- require (negb (a_appealed a));
  do _ <- require (negb (a_slashed a));
  do limit <- c256 (a_block a + appeal_blocks s);
  do _ <- require (limit <=? block s);
  Ok (a_executor a).
Definition slash_finish (s : state) (h : Z) (executor : N) : state * list effect :=
  let a := accusation_of s h in
  (set_accusations s (<[h := mkAccusation (a_accused a) (a_appealed a) true (a_executor a) (a_half_step a) (a_block a)]> (accusations s)),
   [FSlashed h executor]).

(** ** DepositContract *)
(** DepositContract.sol:48-54 setSlasher: anyone, while it is not set *)
Definition set_slasher_call (s : state) (a : N) : result state :=
  do _ <- require (slasher s =? 0)%N;
  Ok (set_slasher s a).
(** DepositContract.sol:56-59 setSlashingReceiver *)
Definition set_slashing_receiver_call (s : state) (sender a : N) : result state :=
  do _ <- require (sender =? deposit_owner s)%N;
  Ok (set_slashing_receiver s a).
(** DepositContract.sol:61-75 tokensReceived and 180-207 _deposit: the token has already been moved *)
Definition tokens_received (s : state) (from : N) (amount delay : Z) : result (state * list effect) :=
  let d := deposit_of s from in
  do _ <- require (d_delay d <=? delay);
  do _ <- require (d_requested d =? 0);
  do _ <- require (negb (d_slashed d));
  do total <- c256 (d_amount d + amount);
  Ok (set_deposits s (<[from := mkDeposit total delay (d_requested d) (d_slashed d)]> (deposits s)) (token_balance s + amount),
      [FDeposited from amount]).
(** DepositContract.sol:77-96 requestWithdrawal *)
Definition request_withdrawal (s : state) (sender : N) : result state :=
  let d := deposit_of s sender in
  do _ <- require (0 <? d_amount d);
  do _ <- assert_ (negb (d_slashed d));
  do _ <- require (d_requested d =? 0);
  Ok (set_deposits s (<[sender := mkDeposit (d_amount d) (d_delay d) (u64 (block s)) (d_slashed d)]> (deposits s)) (token_balance s)).
(** DepositContract.sol:98-124 withdraw: the state change before the tokens are sent, and the amount *)
Definition withdraw_start (s : state) (sender : N) : result (state * Z) :=
  let d := deposit_of s sender in
  do _ <- require (0 <? d_amount d);
  do _ <- assert_ (negb (d_slashed d));
  do _ <- require (0 <? d_requested d);
  do limit <- c64 (d_requested d + d_delay d);
  do _ <- require (limit <=? block s);
  Ok (set_deposits s (delete sender (deposits s)) (token_balance s), d_amount d).
(** DepositContract.sol:126-154 slash: the state change before the tokens are sent or burnt; [sender] is msg.sender *)
Definition deposit_slash_start (s : state) (sender account : N) : result (state * Z) :=
  do _ <- require (sender =? slasher s)%N;
  let d := deposit_of s account in
  Ok (set_deposits s (<[account := mkDeposit 0 0 0 true]> (deposits s)) (token_balance s), d_amount d).
(** the ERC777 token moves the tokens, then calls the recipient's hook *)
Definition token_move (s : state) (amount : Z) : result state :=
  do _ <- require (amount <=? token_balance s);
  Ok (set_deposits s (deposits s) (token_balance s - amount)).

(** FeeBankContract.sol:64-73 _withdraw up to the call *)
Definition fee_withdraw_start (s : state) (sender receiver : N) (amount : Z) : result state :=
  do _ <- require (negb (receiver =? 0)%N);
  do _ <- require (0 <? fee_of s sender);
  do _ <- require (amount <=? fee_of s sender);
  do d <- c64 (fee_of s sender - amount);
  do _ <- require (amount <=? fee_balance s);
  Ok (set_fees s (<[sender := d]> (fees s)) (fee_balance s - amount)).

(** ** KeyBroadcastContract *)
(** KeyBroadcastContract.sol:43-92 vote *)
Definition vote (s : state) (sender : N) (k b : Z) (key : bytes) : result (state * list effect) :=
  do i <- config_index s b;
  do c <- config_at s i;
  do _ <- require (0 <? span c);
  do _ <- require (k <? Z.of_nat (length (keypers c)));
  do a <- (match keypers c !! Z.to_nat k with Some a => Ok a | None => Panic end);
  do _ <- require (sender =? a)%N;
  do _ <- require (negb (bool_decide ((b, sender) ∈ voted s)));
  let h := keccak key in
  let ks := match keys s !! h with None | Some [] => <[h := key]> (keys s) | _ => keys s end in
  do n <- c64 (votes_of s b h + 1);
  let better := best_votes_of s b <? n in
  Ok (set_votes s ({[(b, sender)]} ∪ voted s) (<[(b, h) := n]> (num_votes s)) ks
        (if better then <[b := h]> (best_hash s) else best_hash s) (if better then <[b := n]> (best_votes s) else best_votes s),
      [FVoted sender b key n]).

(** ** Calls *)
(** [inner] lists what happens while the call waits for other people's code; the Booleans tell whether that code succeeds *)
Inductive call :=
| SetNext (c : config) | Schedule | Unschedule (from : Z)
| AddTx (b : Z) (t : tx_type) (tx : bytes) (value : Z) | SetMinFee (fee : Z)
| FeeDeposit (receiver : N) (value : Z) | ForceEther (value : Z)
| FeeWithdraw (receiver : N) (amount : Z) (inner : list (N * call)) | FeeWithdrawAll (inner : list (N * call))
| SetHalfSteps (n : Z)
| ExecCipher (b : Z) (h : bytes) (txs : list bytes) (k : Z) (inner : list (bool * list (N * call)))
| ExecPlain (b : Z) (txs : list bytes) (inner : list (bool * list (N * call)))
| SkipEmpty (max : Z) | SkipCipher (b : Z)
| Accuse (h k : Z) | Appeal (u : authorization) | Slash (h : Z) (inner : list (N * call))
| SetSlasher (a : N) | SetSlashingReceiver (a : N) | DepositSlash (account : N) (inner : list (N * call))
| TokenSend (amount delay : Z) | RequestWithdrawal | Withdraw (recipient : N) (inner : list (N * call))
| Vote (k b : Z) (key : bytes).

(** other people's code: a sequence of calls, whose failures it may ignore *)
Definition run_calls (run : state → N → call → result (state * list effect)) (s : state) (l : list (N * call)) : state * list effect :=
  foldl (λ acc sc, match run acc.1 sc.1 sc.2 with Ok (s', f) => (s', acc.2 ++ f) | _ => acc end) (s, []) l.
(** ExecutorContract.sol:354-373 the calls of the target contract, one per transaction; a failed one has no effects *)
Definition run_targets (run : state → N → call → result (state * list effect)) (s : state) (txs : list bytes) (inner : list (bool * list (N * call))) :
    state * list effect :=
  foldl (λ acc (x : bool * list (N * call)), if x.1 then let '(s', f) := run_calls run acc.1 x.2 in (s', acc.2 ++ f) else acc)
    (s, []) (take (length txs) inner).
(** tokens leave the deposit contract; [to] = 0: they are burnt, no hook is called.  Sent to the deposit contract itself, its
    tokensReceived rejects the empty user data.  A recipient whose hook fails undoes the whole call, as if not made. *)
Definition pay_out (run : state → N → call → result (state * list effect)) (s : state) (account to : N) (amount : Z) (inner : list (N * call)) :
    result (state * list effect) :=
  do _ <- require (negb (to =? deposit_address)%N || (to =? 0)%N);
  do s1 <- token_move s amount;
  let '(s2, f) := if (to =? 0)%N then (s1, []) else run_calls run s1 inner in
  Ok (s2, FTokensOut account to amount :: f).

(** argument types, checked by the ABI decoder (an out of range argument reverts).  A list of 2^63 keypers is taken to be
    impossible. *)
Definition is64 (x : Z) : bool := (0 <=? x) && (x <? 2 ^ 64).
Definition is256 (x : Z) : bool := (0 <=? x) && (x <? 2 ^ 256).
Definition config_typed (c : config) : bool :=
  is64 (start_batch c) && is64 (start_block c) && is64 (threshold c) && is64 (span c) && is64 (batch_size_limit c) &&
  is64 (tx_size_limit c) && is64 (tx_gas_limit c) && is64 (timeout c) && (Z.of_nat (length (keypers c)) <? 2 ^ 63).
Definition typed (c : call) : bool :=
  match c with
  | SetNext c => config_typed c
  | Unschedule x | SetMinFee x | SetHalfSteps x | SkipEmpty x | SkipCipher x | FeeWithdraw _ x _ | Slash x _ | ExecPlain x _ _ => is64 x
  | AddTx b _ _ v => is64 b && is256 v
  | FeeDeposit _ x | ForceEther x => is256 x
  | ExecCipher b _ _ k _ | Accuse b k | Vote b k _ => is64 b && is64 k
  | Appeal u => is64 (u_half_step u) && forallb is64 (u_indices u)
  | TokenSend a d => is256 a && is64 d
  | _ => true
  end.
Definition no_effects (r : result state) : result (state * list effect) := do s <- r; Ok (s, []).
(** [fuel] bounds the depth of calls *)
Fixpoint run (fuel : nat) (s : state) (sender : N) (c : call) : result (state * list effect) :=
  match fuel with
  | O => Revert
  | S fuel =>
      if negb (typed c) then Revert else
      match c with
      | SetNext c => no_effects (set_next s sender c)
      | Schedule => no_effects (schedule s sender)
      | Unschedule from => no_effects (unschedule s sender from)
      | AddTx b t tx value => add_transaction s b t tx value
      | SetMinFee fee => no_effects (set_min_fee s sender fee)
      | FeeDeposit receiver value => fee_deposit s receiver value
      | ForceEther value => Ok (set_fees s (fees s) (fee_balance s + value), [])
      | FeeWithdraw receiver amount inner =>
          do s1 <- fee_withdraw_start s sender receiver amount;
          let '(s2, f) := run_calls (run fuel) s1 inner in
          Ok (s2, FFeeOut sender receiver amount :: f)
      | FeeWithdrawAll inner =>
          let amount := fee_of s sender in
          do s1 <- fee_withdraw_start s sender sender amount;
          let '(s2, f) := run_calls (run fuel) s1 inner in
          Ok (s2, FFeeOut sender sender amount :: f)
      | SetHalfSteps n => set_half_steps_call s sender n
      | ExecCipher b h txs k inner =>
          do o <- cipher_checks s sender b h (length txs) k;
          match o with
          | None => skip_one s
          | Some _ =>
              let '(s1, f) := run_targets (run fuel) s txs inner in
              do (s2, g) <- cipher_finish s1 sender h txs;
              Ok (s2, f ++ g)
          end
      | ExecPlain b txs inner =>
          do _ <- plain_checks s b;
          let '(s1, f) := run_targets (run fuel) s txs inner in
          do (s2, g) <- plain_finish s1 b txs;
          Ok (s2, f ++ g)
      | SkipEmpty max => skip_empty s max
      | SkipCipher b => skip_cipher s b
      | Accuse h k => accuse s sender h k
      | Appeal u => appeal s u
      | Slash h inner =>
          do executor <- slash_checks s h;
          do (s1, amount) <- deposit_slash_start s slasher_address executor;
          do (s2, f) <- pay_out (run fuel) s1 executor (slashing_receiver s1) amount inner;
          let '(s3, g) := slash_finish s2 h executor in
          Ok (s3, f ++ g)
      | SetSlasher a => no_effects (set_slasher_call s a)
      | SetSlashingReceiver a => no_effects (set_slashing_receiver_call s sender a)
      | DepositSlash account inner =>
          do (s1, amount) <- deposit_slash_start s sender account;
          pay_out (run fuel) s1 account (slashing_receiver s1) amount inner
      | TokenSend amount delay => tokens_received s sender amount delay
      | RequestWithdrawal => no_effects (request_withdrawal s sender)
      | Withdraw recipient inner =>
          do (s1, amount) <- withdraw_start s sender;
          do _ <- require (negb (recipient =? 0)%N);
          pay_out (run fuel) s1 sender recipient amount inner
      | Vote k b key => vote s sender k b key
      end
  end.

(** a deployment: the constructors (ConfigContract.sol:43-48, ExecutorContract.sol:43-52, KeyperSlasher.sol:44-57, ...) *)
Definition deployed (owner : N) (headsup appeal_period blk : Z) : state :=
  mkState blk (mkCC owner headsup [zero_config] zero_config) owner ∅ ∅ 0 ∅ 0 owner 0 ∅ appeal_period ∅ owner slasher_address 0 ∅ 0 ∅ ∅ ∅ ∅ ∅.

(** histories: transactions of anyone (nesting depth bounded by some fuel), and new blocks *)
Inductive event := Tx (fuel : nat) (sender : N) (c : call) | Mine (blocks : nat).
Definition step (s : state) (e : event) : state * list effect :=
  match e with
  | Tx fuel sender c => match run fuel s sender c with Ok (s', f) => (s', f) | _ => (s, []) end
  | Mine n => (set_block s (block s + Z.of_nat n), [])
  end.
Definition steps (s : state) (l : list event) : state * list effect :=
  foldl (λ acc e, let '(s', f) := step acc.1 e in (s', acc.2 ++ f)) (s, []) l.
End Contracts.

(** TargetProxyContract.sol and TestTargetContract.sol, the target contracts of the deployment, how the executor contract calls them and
    how the example application encodes messages for them (example/src/utils.js): the ABI coding of the
    Solidity 0.8.4 compiler (ABI coder v2) on bytes, and the calls a batch causes. *)
From stdpp Require Import list gmap.
From Coq Require Import ZArith NArith Lia.
From Verif Require Import EncModel EventsModel.
Local Open Scope Z_scope.
Notation bytes := (list N) (only parsing).

(** ** ABI coding *)
(** a 256 bit word *)
Definition word (z : Z) : bytes := be_bytes 32 (Z.to_N z).
(** zero bytes up to a multiple of 32 *)
Definition padding (n : nat) : bytes := replicate (Nat.modulo (32 - Nat.modulo n 32) 32) 0%N.
(** the encoding of the argument of type bytes: its length, its content, the padding *)
Definition encode_bytes (b : bytes) : bytes := word (Z.of_nat (length b)) ++ b ++ padding (length b).
(** abi.encode(receiver, data): what a user of the proxy puts into his transaction (web3, ethers, solc) *)
Definition encode_tx (receiver : N) (data : bytes) : bytes := word (Z.of_N receiver) ++ word 64 ++ encode_bytes data.
(** ExecutorContract.sol:356-359 abi.encodeWithSelector(targetFunctionSelector, transactions[i]) *)
Definition call_data (selector : bytes) (tx : bytes) : bytes := selector ++ word 32 ++ encode_bytes tx.

(** the word at [off]; the decoder reads it only after it has checked that it is there *)
Definition read (d : bytes) (off : Z) : Z := be_value (take 32 (drop (Z.to_nat off) d)).
(** abi_decode_t_bytes_memory_ptr of the compiler: [off] relative to the begin of the encoding [d]; [None] = revert (a length above
    2^64-1 panics in allocate_memory, which reverts as well) *)
Definition decode_bytes (d : bytes) (off : Z) : option bytes :=
  if 2 ^ 64 - 1 <? off then None
  else if negb (off + 31 <? Z.of_nat (length d)) then None
  else
    let len := read d off in
    if 2 ^ 64 - 1 <? len then None
    else if Z.of_nat (length d) <? off + 32 + len then None
    else Some (take (Z.to_nat len) (drop (Z.to_nat (off + 32)) d)).
(** abi_decode_tuple_t_bytes_memory_ptr: the argument of executeTransaction *)
Definition decode_args (d : bytes) : option bytes :=
  if Z.of_nat (length d) <? 32 then None else decode_bytes d (read d 0).
(** TargetProxyContract.sol:20-23 abi.decode(txData, (address, bytes)) *)
Definition decode_tx (d : bytes) : option (N * bytes) :=
  if Z.of_nat (length d) <? 64 then None
  else
    let a := read d 0 in
    if negb (a <? 2 ^ 160) then None (** validator_revert_t_address *)
    else match decode_bytes d (read d 32) with Some x => Some (Z.to_N a, x) | None => None end.

(** ** The contracts *)
(** the selector of executeTransaction(bytes), and of executor(); binding.go:13322, prepare/configs.go:106 *)
Definition execute_selector : bytes := [148; 61; 114; 9]%N.
Definition executor_selector : bytes := [195; 76; 8; 229]%N.

Section World.
Context {W : Type}.
(** a call of other code: the sender, the receiver, the data; afterwards the state of the chain and whether it succeeded.  What it does
    depends on the state and is arbitrary.  Simplifications: calls that run out of gas fail; whether one does depends on the state, the
    receiver and the data ([gas]); no ether is sent with calls. *)
Context (code : N → N → bytes → W → W * bool) (gas : W → N → bytes → bool).

(** TargetProxyContract.sol:14-30; solc checks the selector first: [None] = revert, otherwise the state and the event, if one *)
Definition proxy_call (proxy executor sender : N) (data : bytes) (w : W) : option (W * option (N * bytes)) :=
  if bool_decide (take 4 data = execute_selector) then
    match decode_args (drop 4 data) with
    | None => None
    | Some tx =>
        if negb (sender =? executor)%N then None
        else match decode_tx tx with
             | None => None
             | Some (receiver, d) =>
                 let '(w', ok) := code proxy receiver d w in
                 if ok then Some (w', Some (receiver, d)) else None
             end
    end
  else if bool_decide (take 4 data = executor_selector) then Some (w, None)
  else None.

(** ExecutorContract.sol:348-376 executeTransactions with the proxy as target contract: a failed call has no effects *)
Definition execute_one (proxy executor : N) (selector : bytes) (w : W) (tx : bytes) : W * bool :=
  match proxy_call proxy executor executor (call_data selector tx) w with
  | Some (w', _) => if gas w proxy (call_data selector tx) then (w', true) else (w, false)
  | None => (w, false)
  end.
(** the state in the end and the indices of the TransactionFailed events *)
Fixpoint execute_all (proxy executor : N) (selector : bytes) (i : Z) (w : W) (txs : list bytes) : W * list Z :=
  match txs with
  | [] => (w, [])
  | tx :: txs =>
      let '(w1, ok) := execute_one proxy executor selector w tx in
      let '(w2, failed) := execute_all proxy executor selector (i + 1) w1 txs in
      (w2, if ok then failed else i :: failed)
  end.
End World.

(** ** TestTargetContract *)
Section Test.
(** Keccak-256, ecrecover (hash, v, r, s; the zero address if the signature is invalid) *)
Context (keccak : bytes → bytes) (ecrecover : bytes → Z → bytes → bytes → N).

(** "\x19Ethereum Signed Message:\n32" *)
Definition signed_prefix : bytes :=
  [25; 69; 116; 104; 101; 114; 101; 117; 109; 32; 83; 105; 103; 110; 101; 100; 32; 77; 101; 115; 115; 97; 103; 101; 58; 10; 51; 50]%N.
(** TestTargetContract.sol:25-28; wallet.signMessage of 32 bytes *)
Definition signed_hash (payload : bytes) : bytes := keccak (signed_prefix ++ keccak payload).
(** TestTargetContract.sol:21-24 abi.decode(txData, (bytes, uint8, bytes32, bytes32)): the payload, v, r, s *)
Definition decode_signed (d : bytes) : option (bytes * Z * bytes * bytes) :=
  if Z.of_nat (length d) <? 128 then None
  else match decode_bytes d (read d 0) with
       | None => None
       | Some payload => if negb (read d 32 <? 256) then None else Some (payload, read d 32, take 32 (drop 64 d), take 32 (drop 96 d))
       end.
(** TestTargetContract.sol:30-33 abi.decode(payload, (uint64, bytes)) *)
Definition decode_payload (d : bytes) : option (Z * bytes) :=
  if Z.of_nat (length d) <? 64 then None
  else if negb (read d 0 <? 2 ^ 64) then None
  else match decode_bytes d (read d 32) with Some x => Some (read d 0, x) | None => None end.
(** isNonceUsed(address,uint64), binding.go:15414 *)
Definition nonce_selector : bytes := [58; 138; 139; 235]%N.

(** the contract: the used nonces of every sender; the events ExecutedTransaction, the latest first *)
Record test_state := mkTest { used : gset (N * Z); log : list (N * bytes * Z) }.
Definition no_messages : test_state := mkTest ∅ [].
(** TestTargetContract.sol:15-52; [None] = revert *)
Definition test_call (executor sender : N) (data : bytes) (t : test_state) : option test_state :=
  if bool_decide (take 4 data = execute_selector) then
    match decode_args (drop 4 data) with
    | None => None
    | Some tx =>
        if negb (sender =? executor)%N then None
        else match decode_signed tx with
             | None => None
             | Some (payload, v, r, s) =>
                 let signer := ecrecover (signed_hash payload) v r s in
                 match decode_payload payload with
                 | None => None
                 | Some (nonce, d) => if bool_decide ((signer, nonce) ∈ used t) then None else Some (mkTest ({[(signer, nonce)]} ∪ used t) ((signer, d, nonce) :: log t))
                 end
             end
    end
  else if bool_decide (take 4 data = executor_selector) then Some t
  else if bool_decide (take 4 data = nonce_selector) then
    let d := drop 4 data in if (64 <=? Z.of_nat (length d)) && (read d 0 <? 2 ^ 160) && (read d 32 <? 2 ^ 64) then Some t else None
  else None.

(** the chain: the deployed TestTargetContract at [test], and the rest *)
Definition chain_code {X} (test proxy : N) (other : N → N → bytes → test_state * X → (test_state * X) * bool) (sender receiver : N) (data : bytes)
    (w : test_state * X) : (test_state * X) * bool :=
  if (receiver =? test)%N then
    match test_call proxy sender data w.1 with Some t' => ((t', w.2), true) | None => (w, false) end
  else other sender receiver data w.

(** example/src/utils.js:54-72 encodeTargetContractData; [sign] is the wallet's signature v, r, s of a hash *)
Definition encode_payload (nonce : Z) (message : bytes) : bytes := word nonce ++ word 64 ++ encode_bytes message.
Definition encode_signed (payload : bytes) (v : Z) (r s : bytes) : bytes := word 128 ++ word v ++ r ++ s ++ encode_bytes payload.
Definition encode_target_data (sign : bytes → Z * bytes * bytes) (message : bytes) (nonce : Z) : bytes :=
  let payload := encode_payload nonce message in
  let '(v, r, s) := sign (signed_hash payload) in encode_signed payload v r s.
(** utils.js:74-79 encodeTargetContractCall, 88-105 encodeMessage *)
Definition encode_message (sign : bytes → Z * bytes * bytes) (receiver : N) (message : bytes) (nonce : Z) : bytes :=
  encode_tx receiver (call_data execute_selector (encode_target_data sign message nonce)).
End Test.

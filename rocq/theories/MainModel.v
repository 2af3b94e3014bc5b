(** The keyper's view of the main chain: /repo/shuttermint/keyper/observe/mainchain.go, fed by an Ethereum node.
    Deposits (syncDeposits, not used by any decision) and NodeSyncProgress' contents are not modelled; CloneWithGob is a copy.
    Block numbers, batch indices and half steps (uint64) are integers. *)
From stdpp Require Import list gmap.
From Coq Require Import ZArith NArith Lia.
From Verif Require Import ArithModel ContractsModel.
Local Open Scope Z_scope.

(** mainchain.go:42-50 Batch *)
Record mbatch := mkMBatch { enc_hash : bytes; enc_txs : list bytes; plain_hash : bytes; plain_txs : list bytes }.
Definition empty_mbatch : mbatch := mkMBatch zero32 [] zero32 [].
(** mainchain.go:61-68 Accusation *)
Record maccusation := mkMAcc { ma_executor : N; ma_accuser : N; ma_appealed : bool; ma_half_step : Z; ma_block : Z }.
(** mainchain.go:29-40 MainChain; [v_synced]: NodeSyncProgress == nil *)
Record view := mkView {
  follow : Z; current : Z; v_synced : bool; v_configs : list config; v_batches : gmap Z mbatch; v_half_steps : Z;
  v_receipts : gmap Z receipt; v_accusations : gmap Z maccusation
}.
(** mainchain.go:70-80 NewMainChain *)
Definition new_view (follow_distance : Z) : view := mkView follow_distance 0 true [] ∅ 0 ∅ ∅.

(** medley.go:106-120 DedupAddresses *)
Fixpoint dedup_loop (seen : list N) (l : list N) : list N :=
  match l with
  | [] => []
  | a :: l => if bool_decide (a ∈ seen) then dedup_loop seen l else a :: dedup_loop (a :: seen) l
  end.
Definition dedup_addresses (l : list N) : list N := dedup_loop [] l.
(** contract/config.go:229-255 GetConfigByIndex: the contract's config with its keypers deduplicated *)
Definition read_config (c : config) : config :=
  mkConfig (start_batch c) (start_block c) (dedup_addresses (keypers c)) (threshold c) (span c) (batch_size_limit c) (tx_size_limit c)
    (tx_gas_limit c) (fee_receiver c) (target c) (selector c) (timeout c).
(** mainchain.go:151-164 syncConfigs: reads the configs from number len(BatchConfigs) on *)
Definition sync_configs (known : list config) (s : state) : list config :=
  known ++ (read_config <$> drop (length known) (scheduled (cc s))).

(** mainchain.go:186-206 addTransaction; TransactionAdded events *)
Definition note_transaction (m : gmap Z mbatch) (e : effect) : gmap Z mbatch :=
  match e with
  | FTxAdded b t tx h =>
      let x := default empty_mbatch (m !! b) in
      <[b := match t with
             | Cipher => mkMBatch h (enc_txs x ++ [tx]) (plain_hash x) (plain_txs x)
             | Plain => mkMBatch (enc_hash x) (enc_txs x) h (plain_txs x ++ [tx])
             end]> m
  | _ => m
  end.
(** mainchain.go:208-231 syncExecutionState *)
Definition note_receipt (s : state) (m : gmap Z receipt) (half_step : Z) : gmap Z receipt :=
  if half_step mod 2 =? 0 then let r := receipt_of s half_step in <[r_half_step r := r]> m else m.
Definition sync_receipts (m : gmap Z receipt) (last : Z) (s : state) : gmap Z receipt :=
  foldl (note_receipt s) m (seqZ last (half_steps s - last)).
(** mainchain.go:260-310 syncSlashings: first all Accused events, then all Appealed events; [None] = error *)
Definition note_accused (m : gmap Z maccusation) (e : Z * effect) : gmap Z maccusation :=
  match e.2 with
  | FAccused h executor accuser => <[h := mkMAcc executor accuser false h e.1]> m
  | _ => m
  end.
Definition note_appealed (m : option (gmap Z maccusation)) (e : Z * effect) : option (gmap Z maccusation) :=
  match m, e.2 with
  | Some m, FAppealed h =>
      match m !! h with
      | None => None
      | Some a => Some (<[h := mkMAcc (ma_executor a) (ma_accuser a) true (ma_half_step a) (ma_block a)]> m)
      end
  | m, _ => m
  end.
Definition sync_slashings (m : gmap Z maccusation) (logs : list (Z * effect)) : option (gmap Z maccusation) :=
  foldl note_appealed (Some (foldl note_accused m logs)) logs.

Section Main.
Context (keccak : bytes → bytes) (ecrecover : bytes → Z → Z → Z → option N) (addr_bytes : N → bytes).
Context (batcher_address slasher_address deposit_address : N).
Notation steps := (steps keccak ecrecover addr_bytes batcher_address slasher_address deposit_address).
(** what an Ethereum node knows: the transactions of each block.  The contracts are deployed in block 0 by [owner]. *)
Definition chain := nat → list (nat * N * call).
Context (owner : N) (heads_up appeal_period : Z).
Definition block_events (ch : chain) (n : nat) : list event := (λ '(fuel, sender, c), Tx fuel sender c) <$> ch n.
(** the history before the transactions of block n, and up to its end *)
Definition history_before (ch : chain) (n : nat) : list event := mjoin ((λ m, block_events ch m ++ [Mine 1]) <$> seq 0 n).
Definition history (ch : chain) (n : nat) : list event := history_before ch n ++ block_events ch n.
Definition genesis : state := deployed slasher_address owner heads_up appeal_period 0.
(** the contracts' state at the end of block n, and the events of block n *)
Definition state_at (ch : chain) (n : nat) : state := (steps genesis (history ch n)).1.
Definition block_log (ch : chain) (n : nat) : list effect := (steps (steps genesis (history_before ch n)).1 (block_events ch n)).2.
(** eth_getLogs from block a to block b (with the block number of each event); nothing if b < a *)
Definition logs_between (ch : chain) (a b : nat) : list (Z * effect) :=
  mjoin ((λ n, (λ e, (Z.of_nat n, e)) <$> block_log ch n) <$> seq a (b + 1 - a)).

(** mainchain.go:324-390 SyncToHead: the node answers with its chain [ch], whose latest block is [latest]; [None] = error.
    Requests are answered consistently from one chain, and the node itself does not fail (then nothing changes). *)
Definition sync_to_head (v : view) (ch : chain) (latest : Z) (node_synced : bool) : option view :=
  if latest =? current v then Some v
  else
    let until := if follow v <=? latest then latest - follow v else 0 in
    let s := state_at ch (Z.to_nat until) in
    let logs := logs_between ch (Z.to_nat (current v + 1)) (Z.to_nat until) in
    match sync_slashings (v_accusations v) logs with
    | None => None
    | Some acc =>
        Some (mkView (follow v) until node_synced (sync_configs (v_configs v) s) (foldl note_transaction (v_batches v) (snd <$> logs))
                (half_steps s) (sync_receipts (v_receipts v) (v_half_steps v) s) acc)
    end.
(** mainchain.go:430-476 SyncMain: for every new head; after an error the old view is kept *)
Definition sync_main (v : view) (heads : list (chain * Z * bool)) : view :=
  foldl (λ v '(ch, latest, synced), default v (sync_to_head v ch latest synced)) v heads.
End Main.

(** Deployment of the contracts: cmd/deploy/deploy.go on medley/txbatch/txbatch.go, and the part of the
    chain it depends on: creation of contracts by the deployer's transactions, in the order of their
    nonces, among everything others do.

    Simplifications: contracts are their constructors' arguments, and of their state only the slasher
    of a DepositContract is kept (the other constructors write only what they are given, and mint a
    token or register with ERC1820: whether they succeed is a choice of the history, like gas). A
    transaction may be mined as soon as deploy starts, even before it is sent: this only adds
    histories. Ownership of contracts, balances, printed output and the JSON file are left out. *)
From Coq Require Import NArith Lia.
From stdpp Require Import list.
Open Scope N_scope.

Notation Addr := N (only parsing).

(** the contracts and what their constructors were given
    (contracts/contracts: ConfigContract.sol:43, KeyBroadcastContract.sol:33, BatcherContract.sol:42,
    DepositContract.sol:38, ExecutorContract.sol:43, TargetProxyContract.sol:10, TestTargetContract.sol:11,
    KeyperSlasher.sol:43; FeeBankContract and TestDepositTokenContract take nothing) *)
Inductive contract :=
| CConfig (headsUpBlocks : N)
| CKeyBroadcast (config : Addr)
| CFeeBank
| CBatcher (config feeBank : Addr)
| CToken
| CDeposit (token : Addr)
| CExecutor (config batcher deposit : Addr)
| CTargetProxy (executor : Addr)
| CTarget (proxy : Addr)
| CKeyperSlasher (appealBlocks : N) (config executor deposit : Addr)
| COther.

(** contracts.go:16-27 *)
Record Contracts := mkContracts {
  ConfigContract : Addr; KeyBroadcastContract : Addr; FeeBankContract : Addr; BatcherContract : Addr;
  ExecutorContract : Addr; TokenContract : Addr; DepositContract : Addr; KeyperSlasherContract : Addr;
  TargetProxyContract : Addr; TargetContract : Addr }.

(** deploy.go:26-27 *)
Definition defaultConfigChangeHeadsUpBlocks : N := 20.
Definition defaultAppealBlocks : N := 20.

Section Deploy.
(** the address of the contract the deployer creates with its nonce-th transaction
    (crypto.CreateAddress, used by bind.DeployContract) *)
Variable create : N → Addr.

(** txbatch.go:20-26: the nonce of the next transaction and the transactions, with their nonces *)
Record TXBatch := mkBatch { b_nonce : N; b_txs : list (N * contract) }.
(** bind.DeployContract: the address follows from the sender and the nonce in the options; the node may
    refuse the transaction *)
Definition deploy_contract (sent : N → bool) (b : TXBatch) (c : contract) : option (Addr * (N * contract)) :=
  if sent (b_nonce b) then Some (create (b_nonce b), (b_nonce b, c)) else None.
(** txbatch.go:41-44 Add *)
Definition add (b : TXBatch) (tx : N * contract) : TXBatch := mkBatch (b_nonce b + 1) (b_txs b ++ [tx]).
(** one of the ten blocks of batchContractDeployments: deploy, stop on an error, Add *)
Definition deploy_one {R} (sent : N → bool) (b : TXBatch) (c : contract) (k : Addr → TXBatch → TXBatch * option R) : TXBatch * option R :=
  match deploy_contract sent b c with
  | Some (a, tx) => k a (add b tx)
  | None => (b, None)
  end.
(** deploy.go:157-247 batchContractDeployments: the batch it leaves, and the addresses unless a
    transaction was refused *)
Definition batchContractDeployments (sent : N → bool) (b : TXBatch) : TXBatch * option Contracts :=
  deploy_one sent b (CConfig defaultConfigChangeHeadsUpBlocks) (λ configAddress b,
  deploy_one sent b (CKeyBroadcast configAddress) (λ broadcastAddress b,
  deploy_one sent b CFeeBank (λ feeAddress b,
  deploy_one sent b (CBatcher configAddress feeAddress) (λ batcherAddress b,
  deploy_one sent b CToken (λ tokenAddress b,
  deploy_one sent b (CDeposit tokenAddress) (λ depositAddress b,
  deploy_one sent b (CExecutor configAddress batcherAddress depositAddress) (λ executorAddress b,
  deploy_one sent b (CTargetProxy executorAddress) (λ targetProxyAddress b,
  deploy_one sent b (CTarget targetProxyAddress) (λ targetAddress b,
  deploy_one sent b (CKeyperSlasher defaultAppealBlocks configAddress executorAddress depositAddress) (λ keyperSlasherAddress b,
  (b, Some (mkContracts configAddress broadcastAddress feeAddress batcherAddress executorAddress tokenAddress
              depositAddress keyperSlasherAddress targetProxyAddress targetAddress)))))))))))).

(** the chain: the deployer's nonce, the contracts, the slasher of each DepositContract (0: none), and
    the receipts of this batch's transactions, by nonce *)
Record Chain := mkChain { nonce : N; code : Addr → option contract; slasher : Addr → Addr; receipt : N → option bool }.
Definition upd {A} (f : N → A) (k : N) (v : A) : N → A := λ i, if decide (i = k) then v else f i.

(** DepositContract.sol:48-54 setSlasher, called by anybody: None is a revert *)
Definition setSlasher (s : Chain) (deposit a : Addr) : option Chain :=
  match code s deposit with
  | Some (CDeposit _) =>
    if decide (slasher s deposit = 0) then Some (mkChain (nonce s) (code s) (upd (slasher s) deposit a) (receipt s)) else None
  | _ => None
  end.
(** creation of a contract at an address: it fails where a contract is already; KeyperSlasher.sol:43-56
    is the only constructor with an effect on another contract that can be refused *)
Definition create_at (s : Chain) (a : Addr) (c : contract) : option Chain :=
  match code s a with
  | Some _ => None
  | None =>
    let s' := mkChain (nonce s) (upd (code s) a (Some c)) (upd (slasher s) a 0) (receipt s) in
    match c with
    | CKeyperSlasher _ _ _ deposit => setSlasher s' deposit a
    | _ => Some s'
    end
  end.
Definition set_nonce (s : Chain) (n : N) (r : N → option bool) : Chain := mkChain n (code s) (slasher s) r.

(** what happens on the chain *)
Inductive event :=
| Mined (enough : bool)                (** the deployer's next transaction of this batch; enough: gas, funds and ERC1820 let it through *)
| Foreign (c : option contract)        (** another transaction of the deployer's key, perhaps a creation *)
| Created (a : Addr) (c : contract)    (** somebody else creates a contract *)
| SetSlasher (deposit a : Addr).       (** somebody calls setSlasher *)

Definition step (txs : list (N * contract)) (s : Chain) (e : event) : Chain :=
  match e with
  | Mined enough =>
    match list_find (λ tx, tx.1 = nonce s) txs with
    | None => s (* there is no such transaction *)
    | Some (_, (n, c)) =>
      match (if enough then create_at s (create n) c else None) with
      | Some s' => set_nonce s' (n + 1) (upd (receipt s) n (Some true))
      | None => set_nonce s (n + 1) (upd (receipt s) n (Some false))
      end
    end
  | Foreign None => set_nonce s (nonce s + 1) (receipt s)
  | Foreign (Some c) =>
    match create_at s (create (nonce s)) c with
    | Some s' => set_nonce s' (nonce s + 1) (receipt s)
    | None => set_nonce s (nonce s + 1) (receipt s)
    end
  | Created a c => default s (create_at s a c)
  | SetSlasher d a => default s (setSlasher s d a)
  end.
Definition run (txs : list (N * contract)) (s : Chain) (es : list event) : Chain := foldl (step txs) s es.

(** txbatch.go:46-71 WaitMined and deploy.go:249-306 deploy: what the caller is told *)
Inductive report := Waiting | Failed | Done (c : Contracts).
Fixpoint wait_mined (s : Chain) (txs : list (N * contract)) (numFailed : N) : option N :=
  match txs with
  | [] => Some numFailed
  | tx :: txs =>
    match receipt s tx.1 with
    | None => None (* polls on *)
    | Some ok => wait_mined s txs (if ok then numFailed else numFailed + 1)
    end
  end.
Definition deploy (sent : N → bool) (n : N) (s0 : Chain) (es : list event) : Chain * report :=
  let '(b, addrs) := batchContractDeployments sent (mkBatch n []) in
  let s := run (b_txs b) s0 es in
  (s, match addrs with
      | None => Failed
      | Some c =>
        match wait_mined s (b_txs b) 0 with
        | None => Waiting
        | Some f => if decide (0 < f) then Failed else Done c
        end
      end).
End Deploy.

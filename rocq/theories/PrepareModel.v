(** cmd/prepare: a new keyper set ([prepare configs]), its funding ([prepare fund]) and draining it again ([prepare unfund]), and the
    ether transfers of the main chain these commands use. *)
From stdpp Require Import list gmap.
From Coq Require Import ZArith NArith Lia.
Local Open Scope Z_scope.

(** ** Ether on the main chain *)
(** Modelled: balance and nonce of every account, transfers with 21000 gas at a gas price (types.NewTransaction with empty data; to an
    account without code), and other transactions: these increase the nonce of their sender and change balances, but take ether only
    from their sender (keypers and the funder are accounts of a private key, without code).  Simplification: a reverted transaction is
    one of the others; rewards and fees of block producers are deltas of the others. *)
Record account := mkAccount { balance : Z; nonce : Z }.
Definition accounts := N → account.
Record transfer := mkTransfer { t_from : N; t_nonce : Z; t_to : N; t_amount : Z; t_price : Z }.
Definition gas_limit : Z := 21000.
Definition cost (t : transfer) : Z := t_amount t + gas_limit * t_price t.
(** a block may include a transfer if it is the next of its sender and he can pay for it *)
Definition includable (s : accounts) (t : transfer) : Prop :=
  t_nonce t = nonce (s (t_from t)) ∧ cost t ≤ balance (s (t_from t)) ∧ 0 ≤ t_amount t ∧ 0 ≤ t_price t.
Definition transferred (s : accounts) (t : transfer) : accounts := λ a,
  mkAccount (balance (s a) - (if (a =? t_from t)%N then cost t else 0) + (if (a =? t_to t)%N then t_amount t else 0))
            (nonce (s a) + (if (a =? t_from t)%N then 1 else 0)).
Inductive tx := Transfer (t : transfer) | Other (sender : N) (delta : N → Z).
Definition sender_of (x : tx) : N := match x with Transfer t => t_from t | Other b _ => b end.
Definition apply (s : accounts) (x : tx) : accounts :=
  match x with
  | Transfer t => transferred s t
  | Other b d => λ a, mkAccount (balance (s a) + d a) (nonce (s a) + (if (a =? b)%N then 1 else 0))
  end.
Definition valid (s : accounts) (x : tx) : Prop :=
  match x with
  | Transfer t => includable s t
  | Other b d => ∀ a, (a ≠ b → 0 ≤ d a) ∧ 0 ≤ balance (s a) + d a
  end.
(** the chain mines [l] *)
Fixpoint mines (s : accounts) (l : list tx) : Prop := match l with [] => True | x :: l => valid s x ∧ mines (apply s x) l end.
Definition after (s : accounts) (l : list tx) : accounts := foldl apply s l.

(** ** prepare configs *)
(** cmd/prepare/configs.go:207-209 twothirds (the threshold of the config file, configs.go:98) *)
Definition twothirds (n : Z) : Z := (2 * n + 2) / 3.

(** ** prepare fund *)
Definition ether : Z := 10 ^ 18.
Definition low_amount : Z := ether / 2.
Definition high_amount : Z := ether.
(** cmd/prepare/fund.go:130-152 determineFundings: [seen] is the account of each address as the query for it returns it *)
Definition determine_fundings (seen : list (N * Z)) : list (N * Z) :=
  (λ x, (x.1, if x.2 <? low_amount then high_amount - x.2 else 0)) <$> seen.
(** cmd/prepare/fund.go:186-221 the transactions; medley/txbatch/txbatch.go:39-42 Add (the nonce counts up) *)
Fixpoint fund_txs (owner : N) (n price : Z) (fundings : list (N * Z)) : list transfer :=
  match fundings with
  | [] => []
  | (a, v) :: l => if v <=? 0 then fund_txs owner n price l else mkTransfer owner n a v price :: fund_txs owner (n + 1) price l
  end.

(** ** prepare unfund *)
(** cmd/prepare/unfund.go:46-81 Drain: the nonce of the account and, later, its balance, as the node returns them.  Gas prices are not
    negative. *)
Definition drain (a receiver : N) (n bal price : Z) : option transfer :=
  let amount := bal - gas_limit * price in
  if amount <=? 0 then None else Some (mkTransfer a n receiver amount price).

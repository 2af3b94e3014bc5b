(** Model of the commands with which the operator schedules a config (cmd/config: set-next and schedule), of SetNextBatchConfig
    (contract/config.go), and of the setters of the next config of the config contract, one by one.
    Simplified: gas, nonces and the connection to the node are left out; what a command reads from the chain it reads in one state; the
    JSON decoding itself is left out (the file is the config it decodes to). *)
From stdpp Require Import list gmap.
From Coq Require Import ZArith NArith.
From Verif Require Import ArithModel ContractsModel MainModel.
Local Open Scope Z_scope.

(** ConfigContract.sol:273-366 the setters *)
Inductive setter :=
| SetStartBatch (x : Z) | SetStartBlock (x : Z) | SetThreshold (x : Z) | SetSpan (x : Z) | SetBatchSize (x : Z) | SetTxSize (x : Z) | SetTxGas (x : Z)
| SetFeeReceiver (a : N) | SetTarget (a : N) | SetSelector (f : N) | SetTimeout (x : Z) | AddKeypers (l : list N) | RemoveKeypers (n : Z).
(** with the next config [c]; [Revert]: too many keypers *)
Definition set_field (c : config) (x : setter) : result config :=
  match c with
  | mkConfig sb bl ks th sp bs ts tg fr ta se ti =>
      match x with
      | SetStartBatch x => Ok (mkConfig x bl ks th sp bs ts tg fr ta se ti)
      | SetStartBlock x => Ok (mkConfig sb x ks th sp bs ts tg fr ta se ti)
      | SetThreshold x => Ok (mkConfig sb bl ks x sp bs ts tg fr ta se ti)
      | SetSpan x => Ok (mkConfig sb bl ks th x bs ts tg fr ta se ti)
      | SetBatchSize x => Ok (mkConfig sb bl ks th sp x ts tg fr ta se ti)
      | SetTxSize x => Ok (mkConfig sb bl ks th sp bs x tg fr ta se ti)
      | SetTxGas x => Ok (mkConfig sb bl ks th sp bs ts x fr ta se ti)
      | SetFeeReceiver a => Ok (mkConfig sb bl ks th sp bs ts tg a ta se ti)
      | SetTarget a => Ok (mkConfig sb bl ks th sp bs ts tg fr a se ti)
      | SetSelector f => Ok (mkConfig sb bl ks th sp bs ts tg fr ta f ti)
      | SetTimeout x => Ok (mkConfig sb bl ks th sp bs ts tg fr ta se x)
      | AddKeypers l =>
          do _ <- c256 (2 ^ 64 - 1 - Z.of_nat (length l));
          do _ <- require (Z.of_nat (length ks) <=? 2 ^ 64 - 1 - Z.of_nat (length l));
          Ok (mkConfig sb bl (ks ++ l) th sp bs ts tg fr ta se ti)
      | RemoveKeypers n =>
          Ok (mkConfig sb bl (if n <=? Z.of_nat (length ks) then take (length ks - Z.to_nat n) ks else []) th sp bs ts tg fr ta se ti)
      end
  end.
(** a transaction that calls a setter; onlyOwner *)
Definition set_one (s : state) (sender : N) (x : setter) : result state :=
  let k := cc s in
  do _ <- require (sender =? cc_owner k)%N;
  do c <- set_field (next_config k) x;
  Ok (set_cc s (mkCC (cc_owner k) (heads_up k) (scheduled k) c)).

(** config.go:309-396 SetNextBatchConfig: the transactions, from the next config [cur] the node reports *)
Definition setters (cur new : config) : list setter :=
  (if start_batch new =? start_batch cur then [] else [SetStartBatch (start_batch new)]) ++
  (if start_block new =? start_block cur then [] else [SetStartBlock (start_block new)]) ++
  (if threshold new =? threshold cur then [] else [SetThreshold (threshold new)]) ++
  (if span new =? span cur then [] else [SetSpan (span new)]) ++
  (if batch_size_limit new =? batch_size_limit cur then [] else [SetBatchSize (batch_size_limit new)]) ++
  (if tx_size_limit new =? tx_size_limit cur then [] else [SetTxSize (tx_size_limit new)]) ++
  (if tx_gas_limit new =? tx_gas_limit cur then [] else [SetTxGas (tx_gas_limit new)]) ++
  (if (fee_receiver new =? fee_receiver cur)%N then [] else [SetFeeReceiver (fee_receiver new)]) ++
  (if (target new =? target cur)%N then [] else [SetTarget (target new)]) ++
  (if (selector new =? selector cur)%N then [] else [SetSelector (selector new)]) ++
  (if timeout new =? timeout cur then [] else [SetTimeout (timeout new)]) ++
  (if bool_decide (keypers new = keypers cur) then [] else [RemoveKeypers (Z.of_nat (length (keypers cur))); AddKeypers (keypers new)]).
(** config.go:257-281 GetNextConfig (the keypers deduplicated), then SetNextBatchConfig *)
Definition set_next_batch_config (s : state) (new : config) : list setter := setters (read_config (next_config (cc s))) new.

(** setnext.go:51-97 chooseStartBlockAndBatch: (start block, start batch) *)
Definition choose_start (s : state) : Z * Z :=
  let c := match last (scheduled (cc s)) with Some c => read_config c | None => zero_config end in
  let min := u64 (u64 (u64 (block s) + heads_up (cc s)) + 20) in
  if span c =? 0 then (min, start_batch c)
  else
    let delta := u64 (min - start_block c) in
    let n := u64 (u64 (delta + span c) + 1) / span c in
    (u64 (start_block c + u64 (n * span c)), u64 (start_batch c + n)).
(** setnext.go:99-112 setNext; config.go:115-151 UnmarshalJSON: what the file means; [None]: an error *)
Definition config_from_file (s : state) (file : config) : option config :=
  if negb (validate_threshold (threshold file) (Z.of_nat (length (keypers file)))) then None
  else if start_block file =? 0 then
    let '(bl, sb) := choose_start s in
    Some (mkConfig sb bl (keypers file) (threshold file) (span file) (batch_size_limit file) (tx_size_limit file) (tx_gas_limit file)
            (fee_receiver file) (target file) (selector file) (timeout file))
  else Some file.
(** setnext.go:113-128: the transactions of set-next *)
Definition set_next_command (s : state) (file : config) : option (list setter) := set_next_batch_config s <$> config_from_file s file.

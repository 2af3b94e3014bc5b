(** The keyper's arithmetic on batches, blocks and phases: /repo/shuttermint/contract/config.go,
    keyper/observe/mainchain.go (config lookup), keyper/decide.go (PhaseLength, executionDelay,
    getNumHalfStepsToExecute).  Go's uint64 and int64 wrap around: [u64], [i64]. *)
From stdpp Require Import list.
From Coq Require Import ZArith NArith Lia.

Definition u64 (x : Z) : Z := (x mod 2 ^ 64)%Z.
Definition i64 (x : Z) : Z := ((x + 2 ^ 63) mod 2 ^ 64 - 2 ^ 63)%Z.

(** contracts/ConfigContract.sol:7-20 BatchConfig and its Go binding.  uint64 fields are integers between 0 and 2^64-1,
    addresses are numbers. *)
Record config := mkConfig {
  start_batch : Z; start_block : Z; keypers : list N; threshold : Z; span : Z; batch_size_limit : Z; tx_size_limit : Z;
  tx_gas_limit : Z; fee_receiver : N; target : N; selector : N; timeout : Z
}.
(** what the type uint64 guarantees *)
Definition is_u64 (x : Z) : Prop := (0 ≤ x < 2 ^ 64)%Z.
Record config_ok (c : config) : Prop := {
  ok_start_batch : is_u64 (start_batch c); ok_start_block : is_u64 (start_block c); ok_threshold : is_u64 (threshold c);
  ok_span : is_u64 (span c); ok_timeout : is_u64 (timeout c); ok_keypers : (Z.of_nat (length (keypers c)) < 2 ^ 63)%Z
}.

(** config.go:21-29 KeyperIndex; [None]: (0, false) *)
Fixpoint index_from (i : Z) (l : list N) (a : N) : option Z :=
  match l with
  | [] => None
  | k :: l' => if (k =? a)%N then Some i else index_from (i + 1) l' a
  end.
Definition keyper_index (c : config) (a : N) : option Z := index_from 0 (keypers c) a.
(** config.go:31-35 IsKeyper *)
Definition is_keyper (c : config) (a : N) : bool := match keyper_index c a with Some _ => true | None => false end.
(** config.go:37-40 IsActive *)
Definition is_active (c : config) : bool := (0 <? span c)%Z.
(** config.go:42-50 BatchStartBlock; [None] = panic *)
Definition batch_start_block (c : config) (b : Z) : option Z :=
  if (b <? start_batch c)%Z then None
  else Some (u64 (start_block c + u64 (u64 (b - start_batch c) * span c))).
(** config.go:52-56 BatchEndBlock *)
Definition batch_end_block (c : config) (b : Z) : option Z := (λ s, u64 (s + span c)) <$> batch_start_block c b.
(** config.go:58-69 BatchIndex *)
Definition batch_index (c : config) (block : Z) : option Z :=
  if (block <? start_block c)%Z then None
  else if (span c =? 0)%Z then Some (start_batch c)
  else Some (u64 (start_batch c + u64 (block - start_block c) / span c)).
(** config.go:73-84 validateThreshold: [true] = no error *)
Definition validate_threshold (t : Z) (num_keypers : Z) : bool :=
  if (num_keypers <=? 0)%Z then false
  else if (u64 num_keypers <? t)%Z then false
  else if (t =? 0)%Z then false
  else true.
(** config.go:158-184 NextBatchIndex: [configs] are the scheduled configs; [None] = error *)
Fixpoint next_batch_index_loop (configs : list config) (i : nat) (block : Z) : option Z :=
  match i with
  | O => None
  | S i =>
      match configs !! i with
      | None => None
      | Some c =>
          if (start_block c <=? block)%Z then
            if (span c =? 0)%Z then Some (start_batch c)
            else Some (u64 (u64 (start_batch c + u64 (block - start_block c) / span c) + 1))
          else next_batch_index_loop configs i block
      end
  end.
Definition next_batch_index (configs : list config) (block : Z) : option Z :=
  next_batch_index_loop configs (length configs) block.

(** mainchain.go:100-108 ActiveConfigIndex; [None] = panic *)
Fixpoint active_loop (configs : list config) (i : nat) (block : Z) : option nat :=
  match i with
  | O => None
  | S i =>
      match configs !! i with
      | None => None
      | Some c => if (start_block c <=? block)%Z then Some i else active_loop configs i block
      end
  end.
Definition active_config_index (configs : list config) (block : Z) : option nat := active_loop configs (length configs) block.
(** mainchain.go:110-119 ActiveConfig, CurrentConfig *)
Definition active_config (configs : list config) (block : Z) : option config :=
  active_config_index configs block ≫= λ i, configs !! i.
(** mainchain.go:126-139 ConfigIndexForBatchIndex, 141-149 ConfigForBatchIndex; outer [None] = panic,
    inner [None]: not active *)
Fixpoint config_loop (configs : list config) (i : nat) (b : Z) : option (option nat) :=
  match i with
  | O => None
  | S i =>
      match configs !! i with
      | None => None
      | Some c => if (start_batch c <=? b)%Z then Some (if is_active c then Some i else None) else config_loop configs i b
      end
  end.
Definition config_index_for_batch (configs : list config) (b : Z) : option (option nat) := config_loop configs (length configs) b.
Definition config_for_batch (configs : list config) (b : Z) : option (option config) :=
  (λ oi, oi ≫= λ i, configs !! i) <$> config_index_for_batch configs b.

(** decide.go:417-434 PhaseLength, NewConstantPhaseLength *)
Record phase_length := mkPhaseLength { pl_off : Z; pl_dealing : Z; pl_accusing : Z; pl_apologizing : Z }.
Definition constant_phase_length (l : Z) : phase_length := mkPhaseLength (i64 (0 * l)) (i64 (1 * l)) (i64 (2 * l)) (i64 (3 * l)).
(** decide.go:436-450 getPhaseAtHeight; phases are numbered as in puredkg.go:22-27: 0 = Off, 1 = Dealing,
    2 = Accusing, 3 = Apologizing, 4 = Finalized *)
Definition phase_at (p : phase_length) (height eon_start : Z) : nat :=
  if (height <? i64 (eon_start + pl_off p))%Z then 0
  else if (height <? i64 (eon_start + pl_dealing p))%Z then 1
  else if (height <? i64 (eon_start + pl_accusing p))%Z then 2
  else if (height <? i64 (eon_start + pl_apologizing p))%Z then 3
  else 4.

(** decide.go:1164-1186 executionDelay; [None] = panic (division by zero) *)
Definition execution_delay (c : config) (staggering_cfg : Z) (me : N) (half_step : Z) : option Z :=
  let divisor := u64 (Z.of_nat (length (keypers c)) - 1) in
  let max_staggering := if (divisor =? 0)%Z then Some 0%Z
    else if (u64 (2 * divisor) =? 0)%Z then None else Some (timeout c / u64 (2 * divisor))%Z in
  match max_staggering with
  | None => None
  | Some ms =>
      let staggering := if (ms <=? staggering_cfg)%Z then ms else staggering_cfg in
      let idx := default 0%Z (keyper_index c me) in
      if (Z.of_nat (length (keypers c)) =? 0)%Z then None
      else Some (u64 ((u64 (half_step + idx) mod Z.of_nat (length (keypers c))) * staggering))
  end.

(** decide.go:31-32, 888-900 maxParallelHalfSteps, getNumHalfStepsToExecute *)
Definition num_half_steps_to_execute (next batch : Z) : Z :=
  if (u64 (batch * 2) <=? next)%Z then 0
  else
    let missing := u64 (u64 (batch * 2) - next) in
    if (missing <=? 10)%Z then missing else 10%Z.

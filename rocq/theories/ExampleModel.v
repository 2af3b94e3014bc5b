(** example/src: how the example app reads the chain, picks the eon public key and the batch of a transaction.
    JavaScript numbers are modelled as integers: everything stays far below 2^53.  ethers' BigNumber is modelled as an integer, too; it has no
    valueOf, so the operators of the language see its decimal representation: `a <= n` with a number n compares numbers, but `a >= b` of two BigNumbers
    compares the strings.  What a promise is rejected with is left out: [None]. *)
From stdpp Require Import list gmap.
From Coq Require Import ZArith Lia.
From Verif Require Import ArithModel ContractsModel PropsVotes.
Local Open Scope Z_scope.

(** BigNumber.toString, most significant digit first, of a number that is not negative *)
Fixpoint to_decimal (fuel : nat) (n : Z) (acc : list Z) : list Z :=
  match fuel with
  | O => acc
  | S fuel => let acc := n mod 10 :: acc in if n <? 10 then acc else to_decimal fuel (n / 10) acc
  end.
Definition to_string (n : Z) : list Z := to_decimal (S (Z.to_nat (Z.log2 n))) n [].
(** the order of strings in JavaScript; only the order of the digits' codes matters *)
Fixpoint string_lt (a b : list Z) : bool :=
  match a, b with
  | _, [] => false
  | [], _ :: _ => true
  | x :: a, y :: b => if x <? y then true else if y <? x then false else string_lt a b
  end.
(** a >= b of two BigNumbers *)
Definition big_ge (a b : Z) : bool := negb (string_lt (to_string a) (to_string b)).

(** utils.js:5-14 getConfigIndexAtBlock: [n] is the number of configs still to look at.  BigNumber <= number: a comparison of numbers *)
Fixpoint config_index_loop (cs : list config) (n : nat) (block_number : Z) : option nat :=
  match n with
  | O => None
  | S i => match cs !! i with
           | Some c => if start_block c <=? block_number then Some i else config_index_loop cs i block_number
           | None => None
           end
  end.
(** utils.js:16-37 getConfigAtBlock, configArrayToObject: from the state of the chain in which the calls are made (Simplified: all in the same state) *)
Definition config_at_block (s : state) (block_number : Z) : option config :=
  i ← config_index_loop (scheduled (cc s)) (length (scheduled (cc s))) block_number; scheduled (cc s) !! i.
(** utils.js:39-46 getBatchIndexAtBlock.  console.assert only prints; BigNumber.div truncates and throws for 0 *)
Definition batch_index_at_block (block_number : Z) (c : config) : option Z :=
  if span c =? 0 then None else Some (start_batch c + Z.quot (block_number - start_block c) (span c)).

(** App.vue:60-98: config and eonKey *)
Record page := mkPage { p_config : config; p_eon_key : option (list N) }.
(** App.vue:77-91 getKeyAndConfig, run once, when the page is loaded.  Simplified: all calls see the same state. *)
Definition load_page (s : state) (block_number : Z) : option page :=
  c ← config_at_block s block_number;
  Some (mkPage c (if big_ge (best_votes_of s 0) (threshold c) then Some (best_key s 0) else None)).

(** blocknumber.js:7-13 getBlockNumber: the latest block plus the blocks expected since, ms milliseconds ago; Math.round rounds halves up *)
Definition estimated_block (latest ms : Z) : Z := latest + (2 * ms + 15000) / 30000.
(** SubmitForm.vue:86, 155-186 sendTransaction: the batch and key of the transaction; disabled without a key (:110-118).  The message is TargetModel's;
    batchIndex.toNumber() (utils.js:98) throws from 2^53 on *)
Definition expected_inclusion_delay : Z := 3.
Definition send_encrypted (p : page) (block_number : Z) : option (list N * Z) :=
  k ← p_eon_key p;
  b ← batch_index_at_block (block_number + expected_inclusion_delay) (p_config p);
  if b <? 2 ^ 53 then Some (k, b) else None.

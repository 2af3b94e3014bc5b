(** Joint witnesses for C48-C50 and C53, and findings that need a concrete history. *)
From stdpp Require Import list gmap sorting.
From Coq Require Import ZArith NArith Lia.
From Verif Require Import ArithModel ContractsModel ContractsProofs PropsConfig PropsBatcher PropsExec PropsVotes PropsSlasher.
Local Open Scope Z_scope.

Section Slasher.
Context (keccak : list N → list N) (ecrecover : list N → Z → Z → Z → option N) (addr_bytes : N → list N).
Context (batcher_address slasher_address deposit_address : N).
Notation run := (run keccak ecrecover addr_bytes batcher_address slasher_address deposit_address).
Notation steps := (steps keccak ecrecover addr_bytes batcher_address slasher_address deposit_address).
Notation deployed := (deployed slasher_address).
(** C50: whoever holds an authorization for an accused batch can end the accusation for good *)
Theorem C50_defence owner hu ap blk l sender u fuel i c : let s := (steps (deployed owner hu ap blk) l).1 in let h := u_half_step u in
  0 ≤ h < 2 ^ 64 → Forall (λ x, 0 ≤ x < 2 ^ 64) (u_indices u) → a_accused (accusation_of s h) = true → a_appealed (accusation_of s h) = false →
  config_for (scheduled (cc s)) (h / 2) i c → authorizes keccak ecrecover addr_bytes batcher_address c u (receipt_of s h) →
  ∃ s', run (S fuel) s sender (Appeal u) = Ok (s', [FAppealed h]) ∧ ∀ l2 e, FSlashed h e ∉ (steps s' l2).2.
Proof.
  intros s h Hh Hu Ha Hn Hc Hau. assert (is64 h = true) as H64 by (unfold is64; rewrite andb_true_iff, Z.leb_le, Z.ltb_lt; lia).
  assert (forallb is64 (u_indices u) = true) as Hu64. { apply forallb_forall. intros x Hx%elem_of_list_In. rewrite Forall_forall in Hu. specialize (Hu x Hx). cbn in Hu. unfold is64. rewrite andb_true_iff, Z.leb_le, Z.ltb_lt. lia. }
  destruct (proj2 (C50_appeal_iff keccak ecrecover addr_bytes batcher_address slasher_address deposit_address owner hu ap blk l sender u fuel H64 Hu64)) as [[s' g] Hr].
  { split_and!; [done|done|]. exists i, c. split; [apply config_index_iff; eauto|]. split; [apply Hc|done]. }
  fold s in Hr. assert (g = [FAppealed h] ∧ a_appealed (accusation_of s' h) = true) as [-> Hap].
  { pose proof Hr as Hr'. cbn [ContractsModel.run] in Hr'. destruct (negb _); [done|]. apply appeal_shape in Hr' as (_ & _ & -> & ->). split; [done|]. unfold accusation_of. cbn. by rewrite lookup_insert. }
  exists s'. split; [done|]. intros l2 e.
  assert (s' = (steps (deployed owner hu ap blk) (l ++ [Tx (S fuel) sender (Appeal u)])).1) as Es.
  { rewrite steps_app. unfold s in *. destruct (steps (deployed owner hu ap blk) l) as [s0 f0]. cbn [fst] in *. unfold ContractsModel.steps, ContractsModel.step. cbn [foldl fst snd]. by rewrite Hr. }
  rewrite Es in Hap |- *. by apply C50_appealed_safe.
Qed.
(** C50, finding: a config with threshold 0 (the contract accepts it) lets anyone appeal without any signature *)
Theorem C50_threshold_zero owner hu ap blk l sender h fuel i c : let s := (steps (deployed owner hu ap blk) l).1 in
  0 ≤ h < 2 ^ 64 → a_accused (accusation_of s h) = true → a_appealed (accusation_of s h) = false →
  config_for (scheduled (cc s)) (h / 2) i c → threshold c = 0 →
  ∃ s', run (S fuel) s sender (Appeal (mkAuth h [] [] [])) = Ok (s', [FAppealed h]).
Proof.
  intros s Hh Ha Hn Hc Ht. destruct (C50_defence owner hu ap blk l sender (mkAuth h [] [] []) fuel i c) as (s' & Hr & _); try done; [by constructor| |by exists s'].
  unfold authorizes. cbn. rewrite Ht. split_and!; try done.
Qed.
End Slasher.

(** a deployment with simple stand-ins for the hash (identity) and the recovery of signers (the r value) *)
Definition wc (thr : Z) := mkConfig 0 110 [7; 8; 9]%N thr 10 1000 100 1000 5 1 1 20.
Definition wrec (h : list N) (v r s : Z) : option N := Some (Z.to_N r).
Definition msteps := steps (λ x, x) wrec (λ _, [1]%N) 1 2 3.
Definition ctx : list N := [1; 2]%N.
Definition cipher_hash : list N := ctx ++ zero32.
(** a signature of keyper [k]: r = k, s = 0, v = 27 *)
Definition wsig (k : N) : list N := replicate 31 0%N ++ [k] ++ replicate 32 0%N ++ [27]%N.
Definition setup (thr : Z) : list event :=
  [Tx 1 9 (SetNext (wc thr)); Tx 1 9 Schedule; Tx 1 8 (TokenSend 50 4); Mine 10; Tx 1 4 (AddTx 0 Cipher ctx 0); Tx 1 4 (AddTx 0 Plain [3]%N 6); Tx 1 4 (AddTx 1 Cipher [1]%N 6);
   Mine 10; Tx 2 8 (ExecCipher 0 cipher_hash [[5]%N] 1 [(true, [(4%N, Vote 0 0 []); (7%N, Vote 0 0 [6]%N)])]); Tx 2 4 (ExecPlain 0 [[3]%N] []); Tx 1 7 (Accuse 0 0)].
Definition w0 := mkAuth 0 [] [0; 2] [wsig 7; wsig 9].
Example C48_witness : let '(s, f) := msteps (deployed 2 9 5 10 100) (setup 2) in
  f = [FDeposited 8 50; FTxAdded 0 Cipher ctx cipher_hash; FFeeIn 5 6; FTxAdded 0 Plain [3]%N ([3]%N ++ zero32); FFeeIn 5 6; FTxAdded 1 Cipher [1]%N ([1]%N ++ zero32);
       FVoted 7 0 [6]%N 1; FCipher 0 8 cipher_hash [[5]%N]; FPlain 1 [[3]%N]; FAccused 0 8 7] ∧
  config_index s 0 = Ok 1%nat ∧ open_block (wc 2) 0 ≤ 110 < end_block (wc 2) 0 ∧ end_block (wc 2) 0 ≤ block s ∧ half_steps s = 2.
Proof. vm_compute. done. Qed.
Example C49_witness : calm_history (setup 2) ∧ block (msteps (deployed 2 9 5 10 100) (setup 2)).1 < 2 ^ 64 ∧
  half_steps (msteps (deployed 2 9 5 10 100) (take 9 (setup 2))).1 = 1 ∧ (** the plain half step is due *)
  half_steps (msteps (deployed 2 9 5 10 100) (take 8 (setup 2))).1 = 0 ∧ (** the cipher half step is due *)
  keypers (wc 2) !! 1%nat = Some 8%N.
Proof.
  split; [|by vm_compute].
  assert (∀ a c, inner_calls c = [] → calm a c) as Hs. { intros a c E. constructor; intros _ x; rewrite E; intros []%elem_of_nil. }
  unfold calm_history, setup. repeat (apply Forall_cons; split; [first [exact I|by apply Hs|idtac]|]); [|apply Forall_nil; exact I].
  constructor; [|done]. intros _ x Hx. cbn in Hx. rewrite !elem_of_cons, elem_of_nil in Hx.
  assert (∀ a k b key, quiet a (Vote k b key)) as Hq. { intros. apply quiet_intro; [reflexivity|]. cbn [inner_calls]. intros y []%elem_of_nil. }
  destruct Hx as [Hx|[Hx|[]]]; rewrite Hx; apply Hq.
Qed.
Example C50_witness :
  let s1 := (msteps (deployed 2 9 5 10 100) (setup 2)).1 in
  a_accused (accusation_of s1 0) = true ∧ a_appealed (accusation_of s1 0) = false ∧ r_cipher_hash (receipt_of s1 0) ≠ zero32 ∧
  (msteps s1 [Tx 1 4 (Appeal w0); Mine 100; Tx 5 4 (Slash 0 [])]).2 = [FAppealed 0] ∧
  (msteps s1 [Mine 9; Tx 5 4 (Slash 0 [])]).2 = [] ∧
  (msteps s1 [Mine 10; Tx 5 4 (Slash 0 [])]).2 = [FTokensOut 8 0 50; FSlashed 0 8] ∧
  (msteps s1 [Tx 1 4 (Appeal (mkAuth 0 [] [0] [wsig 7])); Tx 1 4 (Appeal (mkAuth 0 [] [0; 0] [wsig 7; wsig 7])); Tx 1 4 (Appeal (mkAuth 0 [] [0; 1] [wsig 7; wsig 9]))]).2 = [].
Proof. vm_compute. done. Qed.
Example C50_threshold_witness :
  let s1 := (msteps (deployed 2 9 5 10 100) (setup 0)).1 in threshold (wc 0) = 0 ∧ a_accused (accusation_of s1 0) = true ∧ a_appealed (accusation_of s1 0) = false ∧ config_index s1 0 = Ok 1%nat.
Proof. vm_compute. done. Qed.
Example C53_witness :
  let '(s, f) := msteps (deployed 2 9 5 10 100) (setup 2 ++ [Tx 1 8 (Vote 1 0 [4]%N); Tx 1 8 (Vote 1 0 [6]%N); Tx 1 9 (Vote 2 0 [4]%N); Tx 1 6 (Vote 2 0 [4]%N)]) in
  votes f = [(0, 7%N, [6]%N); (0, 8%N, [4]%N); (0, 9%N, [4]%N)] ∧ best_key s 0 = [4]%N ∧ best_votes_of s 0 = 2.
Proof. vm_compute. done. Qed.

(** C49 without the restriction to calm histories is false: a transaction of a plain batch that calls the executor executes the
    batch a second time, and the next cipher half step is lost *)
Definition reentrant : list event := take 9 (setup 2) ++ [Tx 4 4 (ExecPlain 0 [[3]%N] [(true, [(6%N, ExecPlain 0 [[3]%N] [])])])].
Theorem C49_reentrancy_refuted :
  ¬ (∀ owner hu ap blk l, 0 ≤ hu → 0 ≤ blk → let '(s, f) := msteps (deployed 2 owner hu ap blk) l in block s < 2 ^ 64 →
       ∀ n txs, FPlain n txs ∈ f → n mod 2 = 1 ∧ chain_hash (λ x, x) txs = chain_hash (λ x, x) (added (n / 2) Plain f)) ∧
  ∃ s f, msteps (deployed 2 9 5 10 100) reentrant = (s, f) ∧ added 0 Plain f = [[3]%N] ∧ added 1 Plain f = [] ∧ added 1 Cipher f = [[1]%N] ∧
    half_steps s = 3 ∧ FPlain 1 [[3]%N] ∈ f ∧ FPlain 2 [[3]%N] ∈ f ∧ r_executed (receipt_of s 2) = false.
Proof.
  split.
  - intros H. specialize (H 9%N 5 10 100 reentrant ltac:(done) ltac:(done)).
    destruct (msteps _ reentrant) as [s f] eqn:E. assert (block s = 120) as Eb by (replace s with (msteps (deployed 2 9 5 10 100) reentrant).1 by (by rewrite E); by vm_compute).
    destruct (H ltac:(lia) 2 [[3]%N]) as [Hx _]; [|done]. replace f with (msteps (deployed 2 9 5 10 100) reentrant).2 by (by rewrite E).
    apply elem_of_list_lookup. exists 9%nat. by vm_compute.
  - eexists _, _. split; [vm_compute; reflexivity|]. split_and!; try (by vm_compute); (apply elem_of_list_lookup; first [by exists 8%nat|by exists 9%nat]).
Qed.

(** Proof infrastructure for the contracts: inversion of the result monad, and the decomposition of (reentrant) calls. *)
From stdpp Require Import list gmap.
From Coq Require Import ZArith NArith Lia.
From Verif Require Import ArithModel ContractsModel.
Local Open Scope Z_scope.

Lemma rbind_ok {A B} (r : result A) (f : A → result B) b : rbind r f = Ok b → ∃ a, r = Ok a ∧ f a = Ok b.
Proof. destruct r; [eauto|done|done]. Qed.
Lemma require_ok b u : require b = Ok u → b = true.
Proof. by destruct b. Qed.
Lemma assert_ok b u : assert_ b = Ok u → b = true.
Proof. by destruct b. Qed.
Lemma c64_ok x y : c64 x = Ok y → y = x ∧ 0 ≤ x < 2 ^ 64.
Proof. unfold c64. destruct (_ && _) eqn:E; [|done]. intros [= <-]. apply andb_prop in E as [?%Z.leb_le ?%Z.ltb_lt]. done. Qed.
Lemma c256_ok x y : c256 x = Ok y → y = x ∧ 0 ≤ x < 2 ^ 256.
Proof. unfold c256. destruct (_ && _) eqn:E; [|done]. intros [= <-]. apply andb_prop in E as [?%Z.leb_le ?%Z.ltb_lt]. done. Qed.
Lemma c64_eq x : 0 ≤ x < 2 ^ 64 → c64 x = Ok x.
Proof. intros [H1 H2]. unfold c64. apply Z.leb_le in H1. apply Z.ltb_lt in H2. by rewrite H1, H2. Qed.

Lemma u64_small x : 0 ≤ x < 2 ^ 64 → u64 x = x.
Proof. apply Z.mod_small. Qed.
Lemma is64_ok x : is64 x = true → 0 ≤ x < 2 ^ 64.
Proof. unfold is64. intros [?%Z.leb_le ?%Z.ltb_lt]%andb_prop. done. Qed.
Lemma is256_ok x : is256 x = true → 0 ≤ x < 2 ^ 256.
Proof. unfold is256. intros [?%Z.leb_le ?%Z.ltb_lt]%andb_prop. done. Qed.
(** take a successful computation apart *)
Ltac bool_hyp H :=
  first [apply Z.leb_le in H | apply Z.ltb_lt in H | apply Z.eqb_eq in H | apply N.eqb_eq in H
        | apply bool_decide_eq_true in H | idtac].
Ltac inv_step_in H :=
  match type of H with
  | rbind _ _ = Ok _ =>
      let a := fresh "a" in let E := fresh "E" in
      apply rbind_ok in H as (a & E & H); match type of a with (_ * _ * _)%type => destruct a as [[??]?] | (_ * _)%type => destruct a as [??] | unit => destruct a | _ => idtac end; cbv beta iota zeta in H; inv_res E
  end
with inv_res E :=
  match type of E with
  | require _ = Ok _ => apply require_ok in E; bool_hyp E
  | assert_ _ = Ok _ => apply assert_ok in E; bool_hyp E
  | c64 _ = Ok _ => let E1 := fresh "Eq" in apply c64_ok in E as [E1 E]
  | c256 _ = Ok _ => let E1 := fresh "Eq" in apply c256_ok in E as [E1 E]
  | _ => idtac
  end.
Ltac inv_do H := cbv beta iota zeta in H; repeat inv_step_in H.

(** ** What each action can change *)
Lemma set_next_shape s a c s' : set_next s a c = Ok s' → a = cc_owner (cc s) ∧
  s' = set_cc s (mkCC (cc_owner (cc s)) (heads_up (cc s)) (scheduled (cc s)) c).
Proof. intros H. unfold set_next in H. inv_do H. by injection H as <-. Qed.
Lemma schedule_shape s a s' : schedule s a = Ok s' → a = cc_owner (cc s) ∧
  s' = set_cc s (mkCC (cc_owner (cc s)) (heads_up (cc s)) (scheduled (cc s) ++ [next_config (cc s)]) zero_config).
Proof. intros H. unfold schedule in H. inv_do H. destruct (last _); [|done]. inv_do H. by injection H as <-. Qed.
Lemma unschedule_shape s a x s' : unschedule s a x = Ok s' → a = cc_owner (cc s) ∧ block s + heads_up (cc s) < x ∧
  s' = set_cc s (mkCC (cc_owner (cc s)) (heads_up (cc s)) (unschedule_loop (length (scheduled (cc s)) - 1) (scheduled (cc s)) x) (next_config (cc s))).
Proof. intros H. unfold unschedule in H. inv_do H. subst. by injection H as <-. Qed.
Lemma fee_deposit_shape s r v s' f : fee_deposit s r v = Ok (s', f) → r ≠ 0%N ∧ 0 < v ∧ 0 ≤ fee_of s r + v < 2 ^ 64 ∧
  s' = set_fees s (<[r := fee_of s r + v]> (fees s)) (fee_balance s + v) ∧ f = [FFeeIn r v].
Proof.
  intros H. unfold fee_deposit in H. inv_do H. subst. injection H as <- <-. split_and!; try done; try lia.
  intros ->. by apply negb_true_iff, N.eqb_neq in E.
Qed.
Lemma set_min_fee_shape s a x s' : set_min_fee s a x = Ok s' → s' = set_batcher s (batch_sizes s) (batch_hashes s) x.
Proof. intros H. unfold set_min_fee in H. inv_do H. by injection H as <-. Qed.
Lemma fee_withdraw_shape s a r v s' : fee_withdraw_start s a r v = Ok s' → r ≠ 0%N ∧ 0 < fee_of s a ∧ v ≤ fee_of s a ∧ v ≤ fee_balance s ∧
  s' = set_fees s (<[a := fee_of s a - v]> (fees s)) (fee_balance s - v).
Proof.
  intros H. unfold fee_withdraw_start in H. inv_do H. subst. injection H as <-. split_and!; try done; try lia.
  intros ->. by apply negb_true_iff, N.eqb_neq in E.
Qed.
Lemma skip_one_shape s s' f : skip_one s = Ok (s', f) → s' = set_half_steps s (half_steps s + 1) ∧ half_steps s + 1 < 2 ^ 64 ∧ f = [FSkipped (half_steps s)].
Proof. intros H. unfold skip_one in H. inv_do H. subst. injection H as <- <-. split_and!; try done; lia. Qed.
Lemma skip_cipher_shape s b s' f : skip_cipher s b = Ok (s', f) → s' = set_half_steps s (half_steps s + 1) ∧ half_steps s + 1 < 2 ^ 64 ∧ f = [FSkipped (half_steps s)].
Proof. intros H. unfold skip_cipher in H. inv_do H. by apply skip_one_shape. Qed.
Definition skips (e : effect) : Prop := match e with FSkipped _ | FPlain _ [] => True | _ => False end.
Lemma skip_loop_shape n : ∀ s hs b f hs' f', skip_loop n s hs b f = Ok (hs', f') → ∃ g, f' = f ++ g ∧ Forall skips g ∧ hs ≤ hs'.
Proof.
  induction n as [|n IH]; intros s hs b f hs' f' H; cbn [skip_loop] in H.
  { injection H as <- <-. exists []. rewrite app_nil_r. split_and!; [done..|lia]. }
  inv_do H.
  assert (∃ g, l = f ++ g ∧ Forall skips g ∧ hs ≤ z) as (g & -> & Hg & Hle).
  { assert (∀ (r : bool), Ok (r, hs, f) = Ok (b0, z, l) → ∃ g, l = f ++ g ∧ Forall skips g ∧ hs ≤ z) as Hsame.
    { intros r [= <- <- <-]. exists []. rewrite app_nil_r. split_and!; [done..|lia]. }
    destruct (hs mod 2 =? 0); [|by eapply Hsame]. inv_do E. destruct (negb (batching_active _)); [by eapply Hsame|]. inv_do E.
    destruct (_ <? _); [by eapply Hsame|]. destruct (_ && _); [by eapply Hsame|]. inv_do E. injection E as <- <- <-. subst.
    eexists. split_and!; [done|by repeat constructor|lia]. }
  destruct (negb b0); [injection H as <- <-; eauto|]. destruct (negb _); [injection H as <- <-; eauto|]. inv_do H. subst.
  apply IH in H as (g' & -> & Hg' & Hle'). exists (g ++ FPlain z [] :: g'). rewrite <-!app_assoc. split_and!; [done| |lia].
  apply Forall_app. split; [done|]. by constructor.
Qed.
Lemma skip_empty_shape s m s' f : skip_empty s m = Ok (s', f) → ∃ n, s' = set_half_steps s n ∧ half_steps s ≤ n ∧ Forall skips f.
Proof.
  intros H. unfold skip_empty in H. inv_do H. injection H as <- <-. apply skip_loop_shape in E as (g & -> & Hg & Hle). eauto.
Qed.
Lemma half_shape s a n s' f : set_half_steps_call s a n = Ok (s', f) → a = executor_owner s ∧ half_steps s < n ∧
  s' = set_half_steps s n ∧ f = [FJump (half_steps s) n].
Proof. intros H. unfold set_half_steps_call in H. inv_do H. by injection H as <- <-. Qed.
Lemma accuse_shape s a h k s' f : accuse s a h k = Ok (s', f) → a_accused (accusation_of s h) = false ∧ h mod 2 = 0 ∧
  r_executed (receipt_of s h) = true ∧ r_cipher_hash (receipt_of s h) ≠ zero32 ∧
  s' = set_accusations s (<[h := mkAccusation true false false (r_executor (receipt_of s h)) h (u64 (block s))]> (accusations s)) ∧
  f = [FAccused h (r_executor (receipt_of s h)) a].
Proof.
  intros H. unfold accuse in H. inv_do H. injection H as <- <-. split_and!; try done; [by apply negb_true_iff|].
  by match goal with E : negb (bool_decide _) = true |- _ => apply negb_true_iff, bool_decide_eq_false in E end.
Qed.
Lemma slash_checks_shape s h e : slash_checks s h = Ok e → a_accused (accusation_of s h) = true ∧ a_appealed (accusation_of s h) = false ∧
  a_slashed (accusation_of s h) = false ∧ a_block (accusation_of s h) + appeal_blocks s ≤ block s ∧ e = a_executor (accusation_of s h).
Proof.
  intros H. unfold slash_checks in H. inv_do H. subst. injection H as <-. split_and!; try done; by apply negb_true_iff.
Qed.
Lemma set_slasher_shape s a s' : set_slasher_call s a = Ok s' → slasher s = 0%N ∧ s' = set_slasher s a.
Proof. intros H. unfold set_slasher_call in H. inv_do H. by injection H as <-. Qed.
Lemma set_receiver_shape s a b s' : set_slashing_receiver_call s a b = Ok s' → s' = set_slashing_receiver s b.
Proof. intros H. unfold set_slashing_receiver_call in H. inv_do H. by injection H as <-. Qed.
Lemma tokens_shape s a v d s' f : tokens_received s a v d = Ok (s', f) → d_delay (deposit_of s a) ≤ d ∧ d_requested (deposit_of s a) = 0 ∧
  d_slashed (deposit_of s a) = false ∧ 0 ≤ d_amount (deposit_of s a) + v < 2 ^ 256 ∧
  s' = set_deposits s (<[a := mkDeposit (d_amount (deposit_of s a) + v) d 0 false]> (deposits s)) (token_balance s + v) ∧ f = [FDeposited a v].
Proof.
  intros H. unfold tokens_received in H. inv_do H. subst. injection H as <- <-.
  apply negb_true_iff in E1. rewrite E0, E1. split_and!; try done; lia.
Qed.
Lemma request_shape s a s' : request_withdrawal s a = Ok s' → 0 < d_amount (deposit_of s a) ∧ d_slashed (deposit_of s a) = false ∧
  d_requested (deposit_of s a) = 0 ∧
  s' = set_deposits s (<[a := mkDeposit (d_amount (deposit_of s a)) (d_delay (deposit_of s a)) (u64 (block s)) false]> (deposits s)) (token_balance s).
Proof.
  intros H. unfold request_withdrawal in H. inv_do H. injection H as <-. apply negb_true_iff in E0. by rewrite E0.
Qed.
Lemma withdraw_shape s a s1 v s2 : withdraw_start s a = Ok (s1, v) → token_move s1 v = Ok s2 → 0 < d_amount (deposit_of s a) ∧
  d_slashed (deposit_of s a) = false ∧ 0 < d_requested (deposit_of s a) ∧ d_requested (deposit_of s a) + d_delay (deposit_of s a) < 2 ^ 64 ∧
  d_requested (deposit_of s a) + d_delay (deposit_of s a) ≤ block s ∧ v = d_amount (deposit_of s a) ∧ v ≤ token_balance s ∧
  s2 = set_deposits s (delete a (deposits s)) (token_balance s - v).
Proof.
  intros H H2. unfold withdraw_start in H. inv_do H. subst. injection H as <- <-. unfold token_move in H2. inv_do H2. injection H2 as <-.
  apply negb_true_iff in E0. cbn in *. split_and!; try done; lia.
Qed.
Lemma deposit_slash_shape s a e s1 v s2 : deposit_slash_start s a e = Ok (s1, v) → token_move s1 v = Ok s2 → a = slasher s ∧
  v = d_amount (deposit_of s e) ∧ v ≤ token_balance s ∧ slashing_receiver s1 = slashing_receiver s ∧
  s2 = set_deposits s (<[e := mkDeposit 0 0 0 true]> (deposits s)) (token_balance s - v).
Proof.
  intros H H2. unfold deposit_slash_start in H. inv_do H. injection H as <- <-. unfold token_move in H2. inv_do H2. by injection H2 as <-.
Qed.

Section Contracts.
Context (keccak : list N → list N) (ecrecover : list N → Z → Z → Z → option N) (addr_bytes : N → list N).
Context (batcher_address slasher_address deposit_address : N).
Notation run := (run keccak ecrecover addr_bytes batcher_address slasher_address deposit_address).

(** the calls a call makes through other people's code *)
Definition inner_calls (c : call) : list (N * call) :=
  match c with
  | FeeWithdraw _ _ l | FeeWithdrawAll l | Slash _ l | DepositSlash _ l | Withdraw _ l => l
  | ExecCipher _ _ txs _ l | ExecPlain _ txs l => concat (l.*2)
  | _ => []
  end.

(** A relation that holds for every single action and composes holds for every call, however it is nested. *)
Lemma add_shape s b t tx v s' f : add_transaction keccak s b t tx v = Ok (s', f) →
  ∃ fs fb g, s' = set_fees (set_batcher s (<[b := size_of s b + u64 (Z.of_nat (length tx))]> (batch_sizes s))
      (<[(b, t) := keccak (tx ++ hash_of s b t)]> (batch_hashes s)) (min_fee s)) fs fb ∧
    f = g ++ [FTxAdded b t tx (keccak (tx ++ hash_of s b t))] ∧
    ((fs, fb, g) = (fees s, fee_balance s, []) ∨
     ∃ r, r ≠ 0%N ∧ 0 < v ∧ 0 ≤ fee_of s r + v < 2 ^ 64 ∧ (fs, fb, g) = (<[r := fee_of s r + v]> (fees s), fee_balance s + v, [FFeeIn r v])).
Proof.
  intros H. unfold add_transaction in H. inv_do H. subst. destruct (_ && _).
  - inv_do H. injection H as <- <-. apply fee_deposit_shape in E11 as (? & ? & ? & -> & ->).
    eexists _, _, _. split_and!; [done..|]. right. eexists. split_and!; [..|done]; done || (unfold fee_of in *; cbn in *; lia).
  - injection H as <- <-. exists (fees s), (fee_balance s), []. split_and!; [done..|by left].
Qed.
Lemma cipher_finish_shape s a h txs s' f : cipher_finish keccak s a h txs = Ok (s', f) → half_steps s + 1 < 2 ^ 64 ∧
  s' = set_half_steps (set_receipts s (<[half_steps s := mkReceipt true a (half_steps s) h (chain_hash keccak txs)]> (receipts s))) (half_steps s + 1) ∧
  f = [FCipher (half_steps s) a h txs].
Proof. intros H. unfold cipher_finish in H. inv_do H. subst. injection H as <- <-. split_and!; try done; lia. Qed.
Lemma plain_finish_shape s b txs s' f : plain_finish keccak s b txs = Ok (s', f) → half_steps s + 1 < 2 ^ 64 ∧
  chain_hash keccak txs = hash_of s b Plain ∧ s' = set_half_steps s (half_steps s + 1) ∧ f = [FPlain (half_steps s) txs].
Proof. intros H. unfold plain_finish in H. inv_do H. subst. injection H as <- <-. split_and!; try done; lia. Qed.
Lemma appeal_shape s u s' f : appeal keccak ecrecover addr_bytes batcher_address s u = Ok (s', f) →
  let h := u_half_step u in let a := accusation_of s h in
  a_accused a = true ∧ a_appealed a = false ∧
  s' = set_accusations s (<[h := mkAccusation true true (a_slashed a) (a_executor a) (a_half_step a) (a_block a)]> (accusations s)) ∧ f = [FAppealed h].
Proof.
  intros H. unfold appeal in H. inv_do H. injection H as <- <-. apply negb_true_iff in E0. rewrite E. done.
Qed.
Lemma vote_shape s a k b key s' f : vote keccak s a k b key = Ok (s', f) → ∃ ks,
  let n := votes_of s b (keccak key) + 1 in
  (b, a) ∉ voted s ∧ 0 ≤ n < 2 ^ 64 ∧
  ks = (match keys s !! keccak key with None | Some [] => <[keccak key := key]> (keys s) | _ => keys s end) ∧
  s' = set_votes s ({[(b, a)]} ∪ voted s) (<[(b, keccak key) := n]> (num_votes s)) ks
     (if best_votes_of s b <? n then <[b := keccak key]> (best_hash s) else best_hash s)
     (if best_votes_of s b <? n then <[b := n]> (best_votes s) else best_votes s) ∧ f = [FVoted a b key n].
Proof.
  intros H. unfold vote in H. inv_do H. subst. injection H as <- <-. eexists. split_and!; try reflexivity; try lia.
  by match goal with E : negb (bool_decide _) = true |- _ => apply negb_true_iff, bool_decide_eq_false in E end.
Qed.

Section Rel.
Context (ok : N → call → Prop) (ok_inner : ∀ a c x, ok a c → x ∈ inner_calls c → ok x.1 x.2).
Context (R : state → list effect → state → Prop).
Context (R_refl : ∀ s, R s [] s) (R_trans : ∀ s f s1 g s2, R s f s1 → R s1 g s2 → R s (f ++ g) s2).
Context (R_set_next : ∀ s a c s', ok a (SetNext c) → config_typed c = true → set_next s a c = Ok s' → R s [] s').
Context (R_schedule : ∀ s a s', ok a Schedule → schedule s a = Ok s' → R s [] s').
Context (R_unschedule : ∀ s a x s', ok a (Unschedule x) → is64 x = true → unschedule s a x = Ok s' → R s [] s').
Context (R_add : ∀ s a b t tx v s' f, ok a (AddTx b t tx v) → is64 b = true → is256 v = true → add_transaction keccak s b t tx v = Ok (s', f) → R s f s').
Context (R_min_fee : ∀ s a x s', ok a (SetMinFee x) → set_min_fee s a x = Ok s' → R s [] s').
Context (R_fee_deposit : ∀ s a r v s' f, ok a (FeeDeposit r v) → fee_deposit s r v = Ok (s', f) → R s f s').
Context (R_force : ∀ s a v, ok a (ForceEther v) → is256 v = true → R s [] (set_fees s (fees s) (fee_balance s + v))).
Context (R_fee_withdraw : ∀ s a r v s', is64 v = true ∨ v = fee_of s a → fee_withdraw_start s a r v = Ok s' → R s [FFeeOut a r v] s').
Context (R_half : ∀ s a n s' f, ok a (SetHalfSteps n) → is64 n = true → set_half_steps_call s a n = Ok (s', f) → R s f s').
Context (R_cipher_skip : ∀ s a b h txs k l s' f, ok a (ExecCipher b h txs k l) →
  cipher_checks s a b h (length txs) k = Ok None → skip_one s = Ok (s', f) → R s f s').
Context (R_cipher : ∀ fuel s a b h txs k l s1 f s2 g, ok a (ExecCipher b h txs k l) → is64 b = true → is64 k = true →
  cipher_checks s a b h (length txs) k = Ok (Some tt) → R s f s1 → run_targets (run fuel) s txs l = (s1, f) →
  cipher_finish keccak s1 a h txs = Ok (s2, g) → R s (f ++ g) s2).
Context (R_plain : ∀ fuel s a b txs l s1 f s2 g, ok a (ExecPlain b txs l) → is64 b = true → plain_checks s b = Ok tt → R s f s1 → run_targets (run fuel) s txs l = (s1, f) →
  plain_finish keccak s1 b txs = Ok (s2, g) → R s (f ++ g) s2).
Context (R_skip_empty : ∀ s a m s' f, ok a (SkipEmpty m) → is64 m = true → skip_empty s m = Ok (s', f) → R s f s').
Context (R_skip_cipher : ∀ s a b s' f, ok a (SkipCipher b) → is64 b = true → skip_cipher s b = Ok (s', f) → R s f s').
Context (R_accuse : ∀ s a h k s' f, ok a (Accuse h k) → is64 h = true → is64 k = true → accuse s a h k = Ok (s', f) → R s f s').
Context (R_appeal : ∀ s a u s' f, ok a (Appeal u) → appeal keccak ecrecover addr_bytes batcher_address s u = Ok (s', f) → R s f s').
Context (R_slash : ∀ s a h l e s1 v s2 f s3 s4 g, ok a (Slash h l) → is64 h = true → slash_checks s h = Ok e →
  deposit_slash_start s slasher_address e = Ok (s1, v) → token_move s1 v = Ok s2 → R s2 f s3 → slash_finish s3 h e = (s4, g) →
  R s (FTokensOut e (slashing_receiver s1) v :: f ++ g) s4).
Context (R_set_slasher : ∀ s a b s', ok a (SetSlasher b) → set_slasher_call s b = Ok s' → R s [] s').
Context (R_set_receiver : ∀ s a b s', ok a (SetSlashingReceiver b) → set_slashing_receiver_call s a b = Ok s' → R s [] s').
Context (R_deposit_slash : ∀ s a e l s1 v s2, ok a (DepositSlash e l) → deposit_slash_start s a e = Ok (s1, v) → token_move s1 v = Ok s2 →
  R s [FTokensOut e (slashing_receiver s1) v] s2).
Context (R_token : ∀ s a v d s' f, ok a (TokenSend v d) → is256 v = true → is64 d = true → tokens_received s a v d = Ok (s', f) → R s f s').
Context (R_request : ∀ s a s', ok a RequestWithdrawal → request_withdrawal s a = Ok s' → R s [] s').
Context (R_withdraw : ∀ s a r l s1 v s2, ok a (Withdraw r l) → withdraw_start s a = Ok (s1, v) → token_move s1 v = Ok s2 → R s [FTokensOut a r v] s2).
Context (R_vote : ∀ s a k b key s' f, ok a (Vote k b key) → is64 k = true → is64 b = true → vote keccak s a k b key = Ok (s', f) → R s f s').

Lemma run_calls_rel r s l : (∀ x s1 s2 f, x ∈ l → r s1 x.1 x.2 = Ok (s2, f) → R s1 f s2) →
  R s (run_calls r s l).2 (run_calls r s l).1.
Proof.
  intros Hr. unfold run_calls.
  assert (∀ l' acc, (∀ x, x ∈ l' → x ∈ l) → R s acc.2 acc.1 →
    R s (foldl (λ acc sc, match r acc.1 sc.1 sc.2 with Ok (s', f) => (s', acc.2 ++ f) | _ => acc end) acc l').2
        (foldl (λ acc sc, match r acc.1 sc.1 sc.2 with Ok (s', f) => (s', acc.2 ++ f) | _ => acc end) acc l').1) as H.
  { induction l' as [|x l' IH]; intros acc Hin Ha; cbn [foldl]; [done|]. apply IH; [intros; apply Hin; by apply elem_of_list_further|].
    destruct (r acc.1 x.1 x.2) as [[s2 f]| |] eqn:E; [|done..]. cbn. eapply R_trans; [exact Ha|].
    eapply Hr; [|exact E]. apply Hin. apply elem_of_list_here. }
  apply (H l (s, [])); [done|apply R_refl].
Qed.
Lemma run_targets_rel r s txs l : (∀ x s1 s2 f, x ∈ concat (l.*2) → r s1 x.1 x.2 = Ok (s2, f) → R s1 f s2) →
  R s (run_targets r s txs l).2 (run_targets r s txs l).1.
Proof.
  intros Hr. unfold run_targets.
  assert (∀ l' acc, (∀ x, x ∈ l' → x ∈ l) → R s acc.2 acc.1 →
    R s (foldl (λ acc (x : bool * list (N * call)), if x.1 then let '(s', f) := run_calls r acc.1 x.2 in (s', acc.2 ++ f) else acc) acc l').2
        (foldl (λ acc (x : bool * list (N * call)), if x.1 then let '(s', f) := run_calls r acc.1 x.2 in (s', acc.2 ++ f) else acc) acc l').1) as H.
  { induction l' as [|x l' IH]; intros acc Hin Ha; cbn [foldl]; [done|]. apply IH; [intros; apply Hin; by apply elem_of_list_further|].
    destruct x as [[|] cs]; [|done]. cbn [fst snd].
    pose proof (run_calls_rel r acc.1 cs) as Hc. destruct (run_calls r acc.1 cs) as [s2 f] eqn:E. cbn [fst snd] in Hc |- *.
    eapply R_trans; [exact Ha|]. apply Hc. intros x s1 s3 f' Hx. apply Hr. apply elem_of_list_In, in_concat. exists cs. split; [|by apply elem_of_list_In].
    apply elem_of_list_In, elem_of_list_fmap. exists (true, cs). split; [done|]. apply Hin. apply elem_of_list_here. }
  apply (H (take (length txs) l) (s, [])); [|apply R_refl]. intros x Hx. apply elem_of_take in Hx as (i & Hx & _). by eapply elem_of_list_lookup_2.
Qed.

Local Opaque config_typed is64 is256.
Theorem run_rel fuel : ∀ s a c s' f, ok a c → run fuel s a c = Ok (s', f) → R s f s'.
Proof.
  induction fuel as [|fuel IH]; intros s a c s' f Hok; [done|]. cbn [ContractsModel.run].
  destruct (typed c) eqn:Ht; cbn [negb]; [|done].
  assert (∀ s l, (∀ x, x ∈ l → x ∈ inner_calls c) → R s (run_calls (run fuel) s l).2 (run_calls (run fuel) s l).1) as Hcalls.
  { intros s0 l Hl. apply run_calls_rel. intros x s1 s2 f' Hx Hrun. eapply IH; [|exact Hrun]. eapply ok_inner; [exact Hok|by apply Hl]. }
  assert (∀ r e, no_effects r = Ok e → ∃ s1, r = Ok s1 ∧ e = (s1, [])) as Hno.
  { intros r e. destruct r; cbn; [|done..]. intros [= <-]. eauto. }
  destruct c; cbn [typed] in Ht; intros H; repeat (apply andb_prop in Ht as [Ht ?]).
  - apply Hno in H as (? & ? & [= -> ->]). by eapply R_set_next.
  - apply Hno in H as (? & ? & [= -> ->]). by eapply R_schedule.
  - apply Hno in H as (? & ? & [= -> ->]). by eapply R_unschedule.
  - by eapply R_add.
  - apply Hno in H as (? & ? & [= -> ->]). by eapply R_min_fee.
  - by eapply R_fee_deposit.
  - injection H as <- <-. by eapply R_force.
  - apply rbind_ok in H as (s1 & E & H). specialize (Hcalls s1 inner ltac:(done)). destruct (run_calls _ s1 inner) as [s2 g].
    injection H as <- <-. apply (R_trans s [FFeeOut a receiver amount] s1); [|done]. eapply R_fee_withdraw; [by left|done].
  - apply rbind_ok in H as (s1 & E & H). specialize (Hcalls s1 inner ltac:(done)). destruct (run_calls _ s1 inner) as [s2 g].
    injection H as <- <-. apply (R_trans s [FFeeOut a a (fee_of s a)] s1); [|done]. eapply R_fee_withdraw; [by right|done].
  - by eapply R_half.
  - apply rbind_ok in H as (o & E & H). destruct o as [[]|].
    + pose proof (run_targets_rel (run fuel) s txs inner) as Hr. destruct (run_targets _ s txs inner) as [s1 g] eqn:Et.
      apply rbind_ok in H as ([s2 g2] & E2 & H). injection H as <- <-.
      eapply R_cipher; [done..| |exact Et|exact E2].
      apply Hr. intros x s3 s4 f' Hx Hrun. eapply IH; [|exact Hrun]. by eapply ok_inner.
    + by eapply R_cipher_skip.
  - apply rbind_ok in H as ([] & E & H).
    pose proof (run_targets_rel (run fuel) s txs inner) as Hr. destruct (run_targets _ s txs inner) as [s1 g] eqn:Et.
    apply rbind_ok in H as ([s2 g2] & E2 & H). injection H as <- <-.
    eapply R_plain; [done..| |exact Et|exact E2]. apply Hr. intros x s3 s4 f' Hx Hrun. eapply IH; [|exact Hrun]. by eapply ok_inner.
  - by eapply R_skip_empty.
  - by eapply R_skip_cipher.
  - by eapply R_accuse.
  - by eapply R_appeal.
  - apply rbind_ok in H as (e & E & H). apply rbind_ok in H as ([s1 v] & E1 & H). apply rbind_ok in H as ([s2 g] & E2 & H).
    destruct (slash_finish s2 h e) as [s3 g3] eqn:E3. injection H as <- <-.
    unfold pay_out in E2. apply rbind_ok in E2 as (? & _ & E2). apply rbind_ok in E2 as (s4 & E4 & E2).
    specialize (Hcalls s4 inner ltac:(done)). destruct (slashing_receiver s1 =? 0)%N eqn:Er.
    + injection E2 as <- <-. cbn [app]. eapply (R_slash s a h inner e s1 v s4 []); [done..|apply R_refl|exact E3].
    + destruct (run_calls _ s4 inner) as [s5 g5]. injection E2 as <- <-. cbn [app]. eapply R_slash; [done..|exact Hcalls|exact E3].
  - apply Hno in H as (? & ? & [= -> ->]). by eapply R_set_slasher.
  - apply Hno in H as (? & ? & [= -> ->]). by eapply R_set_receiver.
  - apply rbind_ok in H as ([s1 v] & E1 & H). unfold pay_out in H. apply rbind_ok in H as (? & _ & H). apply rbind_ok in H as (s2 & E2 & H).
    specialize (Hcalls s2 inner ltac:(done)). destruct (slashing_receiver s1 =? 0)%N eqn:Er.
    + injection H as <- <-. eapply R_deposit_slash; [exact Hok|done..].
    + destruct (run_calls _ s2 inner) as [s3 g3]. injection H as <- <-.
      apply (R_trans s [FTokensOut account (slashing_receiver s1) v] s2); [|done]. eapply R_deposit_slash; [exact Hok|done..].
  - by eapply R_token.
  - apply Hno in H as (? & ? & [= -> ->]). by eapply R_request.
  - apply rbind_ok in H as ([s1 v] & E1 & H). apply rbind_ok in H as (? & Er & H). apply require_ok in Er.
    unfold pay_out in H. apply rbind_ok in H as (? & _ & H). apply rbind_ok in H as (s2 & E2 & H).
    specialize (Hcalls s2 inner ltac:(done)). destruct (recipient =? 0)%N; [done|].
    destruct (run_calls _ s2 inner) as [s3 g3]. injection H as <- <-.
    apply (R_trans s [FTokensOut a recipient v] s2); [|done]. eapply R_withdraw; [exact Hok|done..].
  - by eapply R_vote.
Qed.

Context (R_mine : ∀ s (n : nat), R s [] (set_block s (block s + Z.of_nat n))).
Notation step := (step keccak ecrecover addr_bytes batcher_address slasher_address deposit_address).
Notation steps := (steps keccak ecrecover addr_bytes batcher_address slasher_address deposit_address).
Definition ok_event (e : event) : Prop := match e with Tx _ a c => ok a c | Mine _ => True end.
Lemma step_rel s e : ok_event e → R s (step s e).2 (step s e).1.
Proof.
  intros Ho. destruct e as [fuel a c|n]; unfold ContractsModel.step; [|apply R_mine].
  destruct (run fuel s a c) as [[s' f]| |] eqn:E; [|apply R_refl..]. by eapply run_rel.
Qed.
Lemma steps_rel s l : Forall ok_event l → R s (steps s l).2 (steps s l).1.
Proof.
  intros Ho. unfold ContractsModel.steps.
  assert (∀ l' acc, Forall ok_event l' → R s acc.2 acc.1 →
    R s (foldl (λ acc e, let '(s', f) := step acc.1 e in (s', acc.2 ++ f)) acc l').2
        (foldl (λ acc e, let '(s', f) := step acc.1 e in (s', acc.2 ++ f)) acc l').1) as H.
  { induction l' as [|x l' IH]; intros acc Hin Ha; cbn [foldl]; [done|]. apply Forall_cons in Hin as [Hx Hin]. apply IH; [done|].
    pose proof (step_rel acc.1 x Hx) as Hr. destruct (step acc.1 x) as [s2 f]. eapply R_trans; [exact Ha|exact Hr]. }
  apply (H l (s, [])); [done|apply R_refl].
Qed.
End Rel.
Lemma steps_app s l1 l2 :
  steps keccak ecrecover addr_bytes batcher_address slasher_address deposit_address s (l1 ++ l2) =
  let '(s1, f1) := steps keccak ecrecover addr_bytes batcher_address slasher_address deposit_address s l1 in
  let '(s2, f2) := steps keccak ecrecover addr_bytes batcher_address slasher_address deposit_address s1 l2 in (s2, f1 ++ f2).
Proof.
  unfold steps. rewrite foldl_app.
  set (F := λ (acc : state * list effect) (e : event), let '(s', f) := step keccak ecrecover addr_bytes batcher_address slasher_address deposit_address acc.1 e in (s', acc.2 ++ f)).
  destruct (foldl F (s, []) l1) as [s1 f1].
  assert (∀ l acc0 s0 f0, foldl F (s0, acc0 ++ f0) l = ((foldl F (s0, f0) l).1, acc0 ++ (foldl F (s0, f0) l).2)) as H.
  { induction l as [|e l IH]; intros acc0 s0 f0; [done|]. cbn [foldl]. unfold F at 2 4 6. cbn [fst snd].
    destruct (step _ _ _ _ _ _ s0 e) as [s' f']. rewrite <-app_assoc. apply IH. }
  specialize (H l2 f1 s1 []). rewrite app_nil_r in H. rewrite H. by destruct (foldl F (s1, []) l2).
Qed.
End Contracts.

(** use the shape lemmas *)
Ltac shapes :=
  intros;
  repeat match goal with
  | H : is64 _ = true |- _ => apply is64_ok in H
  | H : is256 _ = true |- _ => apply is256_ok in H
  | H : set_next _ _ _ = Ok _ |- _ => apply set_next_shape in H as (? & ->)
  | H : schedule _ _ = Ok _ |- _ => apply schedule_shape in H as (? & ->)
  | H : unschedule _ _ _ = Ok _ |- _ => apply unschedule_shape in H as (? & ? & ->)
  | H : add_transaction _ _ _ _ _ _ = Ok _ |- _ => apply add_shape in H as (? & ? & ? & -> & -> & [[= -> -> ->]|(? & ? & ? & ? & [= -> -> ->])])
  | H : set_min_fee _ _ _ = Ok _ |- _ => apply set_min_fee_shape in H as ->
  | H : fee_deposit _ _ _ = Ok _ |- _ => apply fee_deposit_shape in H as (? & ? & ? & -> & ->)
  | H : fee_withdraw_start _ _ _ _ = Ok _ |- _ => apply fee_withdraw_shape in H as (? & ? & ? & ? & ->)
  | H : set_half_steps_call _ _ _ = Ok _ |- _ => apply half_shape in H as (? & ? & -> & ->)
  | H : skip_one _ = Ok _ |- _ => apply skip_one_shape in H as (-> & ? & ->)
  | H : skip_cipher _ _ = Ok _ |- _ => apply skip_cipher_shape in H as (-> & ? & ->)
  | H : skip_empty _ _ = Ok _ |- _ => apply skip_empty_shape in H as (? & -> & ? & ?)
  | H : cipher_finish _ _ _ _ _ = Ok _ |- _ => apply cipher_finish_shape in H as (? & -> & ->)
  | H : plain_finish _ _ _ _ = Ok _ |- _ => apply plain_finish_shape in H as (? & ? & -> & ->)
  | H : accuse _ _ _ _ = Ok _ |- _ => apply accuse_shape in H as (? & ? & ? & ? & -> & ->)
  | H : appeal _ _ _ _ _ _ = Ok _ |- _ => apply appeal_shape in H as (? & ? & -> & ->)
  | H : slash_checks _ _ = Ok _ |- _ => apply slash_checks_shape in H as (? & ? & ? & ? & ->)
  | H : slash_finish _ _ _ = (_, _) |- _ => unfold slash_finish in H; injection H as <- <-
  | H : set_slasher_call _ _ = Ok _ |- _ => apply set_slasher_shape in H as (? & ->)
  | H : set_slashing_receiver_call _ _ _ = Ok _ |- _ => apply set_receiver_shape in H as ->
  | H : tokens_received _ _ _ _ = Ok _ |- _ => apply tokens_shape in H as (? & ? & ? & ? & -> & ->)
  | H : request_withdrawal _ _ = Ok _ |- _ => apply request_shape in H as (? & ? & ? & ->)
  | H : withdraw_start _ _ = Ok (?s1, ?v), H2 : token_move ?s1 ?v = Ok _ |- _ =>
      pose proof (withdraw_shape _ _ _ _ _ H H2) as (? & ? & ? & ? & ? & ? & ? & ->); clear H H2
  | H : deposit_slash_start _ _ _ = Ok (?s1, ?v), H2 : token_move ?s1 ?v = Ok _ |- _ =>
      pose proof (deposit_slash_shape _ _ _ _ _ _ H H2) as (? & ? & ? & ? & ->); clear H H2
  | H : vote _ _ _ _ _ _ = Ok _ |- _ => apply vote_shape in H as (? & ? & ? & ? & -> & ->)
  end.

(** C71: what a keyper gives up as expired can no longer be done, and what was done is given up. *)
From stdpp Require Import list gmap.
From Coq Require Import ZArith NArith Lia.
From Verif Require Import ArithModel PropsArith ContractsModel ContractsProofs PropsConfig PropsBatcher PropsExec PropsSlasher MainModel MainProofs PropsMain DecideModel DecideProofs PropsDecide PropsExecution PropsDefence ExpireModel.
Local Open Scope Z_scope.

Section Expire.
Context (keccak : list N → list N) (ecrecover : list N → Z → Z → Z → option N) (addr_bytes : N → list N).
Context (batcher_address slasher_address deposit_address : N).
Context (owner : N) (hu ap : Z).
Notation run := (run keccak ecrecover addr_bytes batcher_address slasher_address deposit_address).
Notation steps := (steps keccak ecrecover addr_bytes batcher_address slasher_address deposit_address).
Notation genesis := (genesis slasher_address owner hu ap).
Notation state_at := (state_at keccak ecrecover addr_bytes batcher_address slasher_address deposit_address owner hu ap).
Notation sync_main := (sync_main keccak ecrecover addr_bytes batcher_address slasher_address deposit_address owner hu ap).

(** ** What a successful call says about the half steps *)
Lemma steps_half s l : half_steps s ≤ half_steps (steps s l).1.
Proof. apply (receipts_all keccak ecrecover addr_bytes batcher_address slasher_address deposit_address s l). Qed.
Lemma targets_half fuel s txs l s1 f : run_targets (run fuel) s txs l = (s1, f) → half_steps s ≤ half_steps s1.
Proof.
  intros E. pose proof (run_targets_rel (λ s (f : list effect) s', half_steps s ≤ half_steps s') ltac:(cbn; lia) ltac:(cbn; lia) (run fuel) s txs l) as H.
  cbn beta in H. rewrite E in H. apply H. intros x s2 s3 g _ Hr.
  pose proof (steps_half s2 [Tx fuel x.1 x.2]) as Hs. cbn [ContractsModel.steps foldl ContractsModel.step fst snd] in Hs. by rewrite Hr in Hs.
Qed.
Lemma half_2 n b : n / 2 = b → n mod 2 = 0 → n = 2 * b.
Proof. intros. pose proof (Z.div_mod n 2 ltac:(lia)). lia. Qed.
Lemma half_21 n b : n / 2 = b → n mod 2 = 1 → n = 2 * b + 1.
Proof. intros. pose proof (Z.div_mod n 2 ltac:(lia)). lia. Qed.
Lemma exec_cipher_half fuel s a b h txs k inner s' f : run fuel s a (ExecCipher b h txs k inner) = Ok (s', f) →
  half_steps s = 2 * b ∧ 0 ≤ b ∧ 2 * b + 1 < 2 ^ 64 ∧ 2 * b < half_steps s'.
Proof.
  destruct fuel as [|fuel]; [done|]. cbn [ContractsModel.run]. destruct (typed _) eqn:Et; [|done]. cbn [negb]. intros H.
  cbn [typed] in Et. apply andb_true_iff in Et as [Et _]. apply is64_ok in Et. apply rbind_ok in H as (o & E & H).
  assert (half_steps s = 2 * b) as Hs. { unfold cipher_checks in E. inv_do E. by apply half_2. }
  destruct o as [u|].
  - destruct (run_targets _ s txs inner) as [s1 f1] eqn:E1. apply targets_half in E1. apply rbind_ok in H as ([s2 g] & E0 & H). injection H as <- <-.
    apply cipher_finish_shape in E0 as (? & -> & _). cbn [set_half_steps half_steps]. lia.
  - apply skip_one_shape in H as (-> & ? & _). cbn [set_half_steps half_steps]. lia.
Qed.
Lemma exec_plain_half fuel s a b txs inner s' f : run fuel s a (ExecPlain b txs inner) = Ok (s', f) →
  half_steps s = 2 * b + 1 ∧ 0 ≤ b ∧ 2 * b + 2 < 2 ^ 64 ∧ 2 * b + 1 < half_steps s'.
Proof.
  destruct fuel as [|fuel]; [done|]. cbn [ContractsModel.run]. destruct (typed _) eqn:Et; [|done]. cbn [negb]. intros H.
  cbn [typed] in Et. apply is64_ok in Et. apply rbind_ok in H as (o & E & H).
  assert (half_steps s = 2 * b + 1) as Hs. { unfold plain_checks in E. inv_do E. by apply half_21. }
  destruct (run_targets _ s txs inner) as [s1 f1] eqn:E1. apply targets_half in E1. apply rbind_ok in H as ([s2 g] & E0 & H). injection H as <- <-.
  apply plain_finish_shape in E0 as (? & _ & -> & _). cbn [set_half_steps half_steps]. lia.
Qed.
Lemma skip_cipher_half fuel s a b s' f : run fuel s a (SkipCipher b) = Ok (s', f) →
  half_steps s = 2 * b ∧ 0 ≤ b ∧ 2 * b + 1 < 2 ^ 64 ∧ 2 * b < half_steps s'.
Proof.
  destruct fuel as [|fuel]; [done|]. cbn [ContractsModel.run]. destruct (typed _) eqn:Et; [|done]. cbn [negb]. intros H.
  cbn [typed] in Et. apply is64_ok in Et. unfold skip_cipher in H. inv_do H. apply skip_one_shape in H as (-> & ? & _). cbn [set_half_steps half_steps].
  assert (half_steps s = 2 * b) by by apply half_2. lia.
Qed.

(** ** A call to an executed half step fails *)
Lemma passed_fails fuel s sender a inner c r b : call_of a inner = Some c →
  (match a with AExecCipher x _ _ _ | ASkipCipher x => x = b ∧ u64 (2 * b) < half_steps s
   | AExecPlain x _ => x = b ∧ u64 (u64 (2 * b) + 1) < half_steps s | _ => False end) → run fuel s sender c ≠ Ok r.
Proof.
  destruct r as [s' f]. intros Hc Ha Hr. destruct a as [x h txs k|x txs|x|h k|u|x sig]; try done; destruct Ha as [-> Ha]; injection Hc as <-.
  - apply exec_cipher_half in Hr as (? & ? & ? & ?). rewrite u64_id in Ha by (unfold is_u64; lia). lia.
  - apply exec_plain_half in Hr as (? & ? & ? & ?). rewrite (u64_id (2 * b)) in Ha by (unfold is_u64; lia). rewrite u64_id in Ha by (unfold is_u64; lia). lia.
  - apply skip_cipher_half in Hr as (? & ? & ? & ?). rewrite u64_id in Ha by (unfold is_u64; lia). lia.
Qed.
Lemma accuse_ok fuel s sender h k s' f : run fuel s sender (Accuse h k) = Ok (s', f) → accuse s sender h k = Ok (s', f).
Proof. destruct fuel as [|fuel]; [done|]. cbn [ContractsModel.run]. by destruct (typed _). Qed.
Lemma appeal_ok fuel s sender u s' f : run fuel s sender (Appeal u) = Ok (s', f) → appeal keccak ecrecover addr_bytes batcher_address s u = Ok (s', f).
Proof. destruct fuel as [|fuel]; [done|]. cbn [ContractsModel.run]. by destruct (typed _). Qed.
(** accusations and appeals stay *)
Lemma acc_later l0 l h : let s := (steps genesis l0).1 in let s' := (steps s l).1 in
  (a_accused (accusation_of s h) = true → a_accused (accusation_of s' h) = true) ∧
  (a_appealed (accusation_of s h) = true → a_appealed (accusation_of s' h) = true).
Proof.
  intros s s'. destruct (acc_all keccak ecrecover addr_bytes batcher_address slasher_address deposit_address genesis l0) as (_ & _ & H).
  destruct (H (acc_deployed _ owner hu ap 0)) as [Hi _]. fold s in Hi.
  destruct (acc_all keccak ecrecover addr_bytes batcher_address slasher_address deposit_address s l) as (_ & _ & H2). destruct (H2 Hi) as [_ H3].
  destruct (H3 h) as (A1 & A2 & _). fold s' in A1, A2. split; intros Ha; [by apply A1|by apply A2].
Qed.

(** ** C71 *)
Section Settled.
Context (ch : chain) (H0 : ch 0%nat = []) (F : Z) (HF : 0 ≤ F) (heads : list (chain * Z * bool)) (Hs : settled ch F 0 heads).
Notation v := (sync_main (new_view F) heads).
Notation n := (Z.to_nat (current v)).
Notation C54x := (C54_execution_partial keccak ecrecover addr_bytes batcher_address slasher_address deposit_address owner hu ap ch H0 F HF heads Hs).
Notation C54a := (C54_accusations keccak ecrecover addr_bytes batcher_address slasher_address deposit_address owner hu ap ch H0 F HF heads Hs).

(** an action given up as expired fails from then on, whoever sends it and whatever happens on the chain; an appeal against an
    accusation the keyper does not know: at the observed block *)
Theorem C71_expired a inner c l fuel sender r : expired v a = true → call_of a inner = Some c →
  (∀ u, a = AAppeal u → is_Some (v_accusations v !! u_half_step u) ∨ l = []) →
  run fuel (steps (state_at ch n) l).1 sender c ≠ Ok r.
Proof using H0 HF Hs.
  intros He Hc Hap. destruct r as [s' f]. pose proof (steps_half (state_at ch n) l) as Hh. destruct (C54x) as [Hv _].
  destruct a as [b h txs k|b txs|b|h k|u|b sig]; cbn [expired] in He; [..|done].
  - eapply passed_fails; [exact Hc|]. cbn. split; [done|]. rewrite Hv in He. lia.
  - eapply passed_fails; [exact Hc|]. cbn. split; [done|]. rewrite Hv in He. lia.
  - eapply passed_fails; [exact Hc|]. cbn. split; [done|]. rewrite Hv in He. lia.
  - injection Hc as <-. intros Hr. apply accuse_ok, accuse_shape in Hr as (Hr & _). destruct (C54a h) as [Ha _].
    assert (a_accused (accusation_of (state_at ch n) h) = true) as Hx by (apply Ha; destruct (v_accusations _ !! h); [eauto|done]).
    destruct (acc_later (history ch n) l h) as [Hl _]. specialize (Hl Hx). unfold MainModel.state_at in Hr. rewrite Hl in Hr. done.
  - injection Hc as <-. intros Hr. apply appeal_ok, appeal_shape in Hr. cbv zeta in Hr. destruct Hr as (R1 & R2 & _). destruct (C54a (u_half_step u)) as [Ha1 Ha2].
    destruct (acc_later (history ch n) l (u_half_step u)) as [_ Hl]. unfold MainModel.state_at in R1, R2.
    destruct (v_accusations _ !! u_half_step u) as [x|] eqn:Ex.
    + destruct (Ha2 x eq_refl) as (_ & _ & Ha3 & _). unfold MainModel.state_at in Ha3. rewrite Hl in R2 by congruence. done.
    + destruct (Hap u eq_refl) as [[? Hx]| ->]; [by rewrite Ex in Hx|]. cbn [ContractsModel.steps foldl fst] in R1.
      destruct (proj2 Ha1) as [? ?]; [exact R1|done].
Qed.
(** once the keyper has observed the block in which the call succeeded - its own or anyone else's - the action is expired *)
Theorem C71_done a inner c l0 fuel sender s' f l : call_of a inner = Some c → run fuel (steps genesis l0).1 sender c = Ok (s', f) →
  state_at ch n = (steps s' l).1 → expired v a = true.
Proof using H0 HF Hs.
  intros Hc Hr Hn. pose proof (steps_half s' l) as Hh. rewrite <-Hn in Hh. destruct (C54x) as [Hv _].
  assert (∀ h, (a_accused (accusation_of s' h) = true → a_accused (accusation_of (state_at ch n) h) = true) ∧
    (a_appealed (accusation_of s' h) = true → a_appealed (accusation_of (state_at ch n) h) = true)) as Hacc.
  { intros h. rewrite Hn. pose proof (acc_later (l0 ++ [Tx fuel sender c]) l h) as Hl. cbv zeta in Hl. rewrite steps_app in Hl.
    destruct (steps genesis l0) as [s1 f1]. cbn [fst] in Hr. cbn [ContractsModel.steps foldl ContractsModel.step fst snd] in Hl. rewrite Hr in Hl. cbn [fst] in Hl. exact Hl. }
  destruct a as [b h txs k|b txs|b|h k|u|b sig]; cbn [expired call_of] in *; [..|done]; injection Hc as <-.
  - apply exec_cipher_half in Hr as (? & ? & ? & ?). rewrite u64_id by (unfold is_u64; lia). rewrite Hv. lia.
  - apply exec_plain_half in Hr as (? & ? & ? & ?). rewrite (u64_id (2 * b)) by (unfold is_u64; lia). rewrite u64_id by (unfold is_u64; lia). rewrite Hv. lia.
  - apply skip_cipher_half in Hr as (? & ? & ? & ?). rewrite u64_id by (unfold is_u64; lia). rewrite Hv. lia.
  - apply accuse_ok, accuse_shape in Hr as (_ & _ & _ & _ & -> & _). destruct (Hacc h) as [Ha _]. rewrite accusation_insert, Z.eqb_refl in Ha.
    destruct (C54a h) as [Hx _]. destruct (proj2 Hx (Ha eq_refl)) as [x Ex]. by rewrite Ex.
  - apply appeal_ok, appeal_shape in Hr. cbv zeta in Hr. destruct Hr as (_ & _ & -> & _). destruct (Hacc (u_half_step u)) as [Ha1 Ha2].
    rewrite accusation_insert, Z.eqb_refl in Ha1, Ha2. destruct (C54a (u_half_step u)) as [Hx1 Hx2]. destruct (proj2 Hx1 (Ha1 eq_refl)) as [x Ex]. rewrite Ex.
    destruct (Hx2 x Ex) as (_ & _ & Hx3 & _). rewrite Hx3. by apply Ha2.
Qed.
End Settled.

(** ** What the keyper sees only grows *)
Notation synced := (synced keccak ecrecover addr_bytes batcher_address slasher_address deposit_address owner hu ap).
Lemma Z2Nat_inj_le_l x y : x ≤ y → (Z.to_nat x ≤ Z.to_nat y)%nat.
Proof. lia. Qed.
Lemma state_later ch x y : (x ≤ y)%nat → ∃ l, state_at ch y = (steps (state_at ch x) l).1.
Proof.
  intros Hle. induction Hle as [|y Hle [l IH]]; [by exists []|].
  destruct (state_step keccak ecrecover addr_bytes batcher_address slasher_address deposit_address owner hu ap ch y) as [E _].
  exists (l ++ (Mine 1 :: block_events ch (S y))). rewrite E, steps_app, IH. destruct (steps (state_at ch x) l) as [s1 f1]. cbn [fst]. by destruct (steps s1 _).
Qed.
Lemma known_later ch F v1 v2 h : synced ch F v1 → synced ch F v2 → current v1 ≤ current v2 → ∀ m1, v_accusations v1 !! h = Some m1 →
  ∃ m2, v_accusations v2 !! h = Some m2 ∧ (ma_appealed m1 = true → ma_appealed m2 = true).
Proof.
  intros (H0 & HF & hs1 & S1 & E1) (_ & _ & hs2 & S2 & E2) Hle m1 Hm1.
  pose proof (C54_accusations keccak ecrecover addr_bytes batcher_address slasher_address deposit_address owner hu ap ch H0 F HF hs1 S1 h) as A.
  pose proof (C54_accusations keccak ecrecover addr_bytes batcher_address slasher_address deposit_address owner hu ap ch H0 F HF hs2 S2 h) as B.
  rewrite <-E1 in A. rewrite <-E2 in B. clear E1 E2 S1 S2. destruct A as [A1 A2]. destruct B as [B1 B2].
  destruct (A2 m1 Hm1) as (_ & _ & A3 & _). destruct (state_later ch _ _ (Z2Nat_inj_le_l _ _ Hle)) as [l E].
  destruct (acc_later (history ch (Z.to_nat (current v1))) l h) as [C1 C2]. fold (state_at ch (Z.to_nat (current v1))) in C1, C2. rewrite <-E in C1, C2.
  destruct (proj2 B1) as [m2 Hm2]; [apply C1, A1; eauto|]. exists m2. split; [done|]. destruct (B2 m2 Hm2) as (_ & _ & B3 & _). intros Hap. rewrite B3. apply C2. congruence.
Qed.
(** an action does not come back to life as the keyper follows the chain *)
Theorem C71_stays ch F v1 v2 a : synced ch F v1 → synced ch F v2 → current v1 ≤ current v2 → expired v1 a = true →
  (∀ u, a = AAppeal u → is_Some (v_accusations v1 !! u_half_step u)) → expired v2 a = true.
Proof.
  intros Hs1 Hs2 Hle He Hk.
  assert (v_half_steps v1 ≤ v_half_steps v2) as Hh.
  { pose proof Hs1 as (H0 & HF & hs1 & S1 & E1). pose proof Hs2 as (_ & _ & hs2 & S2 & E2).
    destruct (C54_execution_partial keccak ecrecover addr_bytes batcher_address slasher_address deposit_address owner hu ap ch H0 F HF hs1 S1) as [A1 _].
    destruct (C54_execution_partial keccak ecrecover addr_bytes batcher_address slasher_address deposit_address owner hu ap ch H0 F HF hs2 S2) as [A2 _].
    rewrite <-E1 in A1. rewrite <-E2 in A2. destruct (state_later ch _ _ (Z2Nat_inj_le_l _ _ Hle)) as [l E]. rewrite A1, A2, E. apply steps_half. }
  destruct a as [b h txs k|b txs|b|h k|u|b sig]; cbn [expired] in *; [lia|lia|lia| | |done].
  - destruct (v_accusations v1 !! h) as [m|] eqn:Em; [|done]. by destruct (known_later ch F v1 v2 h Hs1 Hs2 Hle m Em) as (m2 & -> & _).
  - destruct (Hk u eq_refl) as [m Em]. rewrite Em in He. destruct (known_later ch F v1 v2 (u_half_step u) Hs1 Hs2 Hle m Em) as (m2 & -> & Hm). auto.
Qed.
(** the keyper appeals only against accusations it knows, and it keeps knowing them: its own appeals expire only when appealed *)
Theorem C71_own_appeal me sign staggering order ch F l i s al acts u v2 : (∀ A (l : list A), order A l ≡ₚ l) →
  decisions keccak ecrecover addr_bytes batcher_address me sign staggering order new_x (l ++ [i]) = Some (s, al ++ [acts]) → AAppeal u ∈ acts →
  synced ch F (i_view i) → synced ch F v2 → current (i_view i) ≤ current v2 →
  expired (i_view i) (AAppeal u) = false ∧ ∃ m, v_accusations v2 !! u_half_step u = Some m ∧ (expired v2 (AAppeal u) = true ↔ ma_appealed m = true).
Proof.
  intros Hord H Ha Hs1 Hs2 Hle.
  assert (∃ m, v_accusations (i_view i) !! u_half_step u = Some m ∧ ma_appealed m = false) as (m & Em & Hm).
  { apply decisions_last in H as (s1 & D1 & D2 & Hok); [|done]. apply decision_inv in D2 as (t1 & a1 & t2 & t3 & a3 & t4 & a4 & a5 & E1 & E2 & E3 & E4 & E5 & ->).
    rewrite !elem_of_app in Ha. destruct Ha as [Ha|[Ha|[Ha|Ha]]].
    - eapply on_keys_ok with (l := l ++ [i]) in E1 as (_ & _ & _ & _ & K & _); [|set_solver|done|done]. by destruct (K _ Ha) as (? & ? & ?).
    - apply execute_batch_spec in E3 as (K & _). apply elem_of_list_lookup in Ha as [k Hk]. by destruct (K k _ Hk) as (c & d & e & _ & _ & _ & [[? _]|(_ & _ & [[? _]|(_ & _ & ? & ? & _ & _ & ? & _)])]).
    - apply maybe_appeal_spec in E4 as (_ & _ & _ & M); [|done]. destruct (M _ Ha) as (h & m & s2 & M1 & M2 & _).
      assert (ma_half_step m = h) as <-.
      { destruct Hs1 as (H0 & HF & hs1 & S1 & Ev). rewrite Ev in M1.
        by destruct (C54_accusations keccak ecrecover addr_bytes batcher_address slasher_address deposit_address owner hu ap ch H0 F HF hs1 S1 h) as [_ A]; apply A. }
      unfold appeal_one in M2. destruct (ma_appealed m) eqn:Hm; [done|]. exists m. split; [|done].
      destruct (bool_decide _); [done|]. destruct (v_receipts _ !! _); [|done]. destruct (xbatches s2 !! _); [|done]. destruct (negb _); [done|].
      inv_bind M2. destruct a as [[sigs idx]|]; [|done]. inv_bind M2. injection M2 as <-. done.
    - apply maybe_accuse_spec in E5 as (_ & _ & _ & _ & K). destruct (K _ Ha) as (h & la & _ & K1 & K2).
      unshelve epose proof (accuse_one_accuses _ _ _ _ _ _ K1 K2) as (_ & _ & ? & ? & ? & _ & _ & _ & _ & _ & ?). discriminate. }
  split; [cbn [expired]; by rewrite Em|]. destruct (known_later ch F _ v2 (u_half_step u) Hs1 Hs2 Hle m Em) as (m2 & E2 & _). exists m2. split; [done|]. cbn [expired]. by rewrite E2.
Qed.

(** ** The errors after which a keyper does not try again *)
(** "already accused" and "cannot accuse empty batch" (accuse), "wrong signer" (appeal, of a batch whose config is fixed) *)
Definition refused (s : state) (a : action) : Prop :=
  match a with
  | AAccuse h k => a_accused (accusation_of s h) = true ∨ ∃ r, receipts s !! h = Some r ∧ r_cipher_hash r = zero32
  | AAppeal u => ∃ r i c j x sig k, receipts s !! u_half_step u = Some r ∧
      config_for (scheduled (cc s)) (u_half_step u / 2) i c ∧ 0 < span c ∧ open_block c (u_half_step u / 2) ≤ block s ∧
      u_indices u !! j = Some x ∧ u_signatures u !! j = Some sig ∧ keypers c !! Z.to_nat x = Some k ∧
      sol_recover ecrecover (keccak (signed_bytes addr_bytes batcher_address (r_half_step r / 2) (r_cipher_hash r) (r_batch_hash r))) sig ≠ Some k
  | _ => False
  end.
Theorem C71_refused_for_good l1 l2 a inner c fuel sender r : 0 ≤ hu → let s1 := (steps genesis l1).1 in let s2 := (steps s1 l2).1 in
  refused s1 a → call_of a inner = Some c → 0 ≤ block s1 → block s2 < 2 ^ 64 → run fuel s2 sender c ≠ Ok r.
Proof.
  intros Hhu s1 s2 Hrf Hc Hb1 Hb2 Hr. destruct r as [s' f]. destruct a as [b h txs k|b txs|b|h k|u|b sig]; try done; injection Hc as <-; cbn [refused] in Hrf.
  - apply accuse_ok, accuse_shape in Hr as (R1 & _ & _ & R2 & _). destruct Hrf as [Ha|(r & E1 & E2)].
    + destruct (acc_later l1 l2 h) as [Hl _]. specialize (Hl Ha). fold s1 in Hl. fold s2 in Hl. by rewrite Hl in R1.
    + destruct (C50_receipts_final keccak ecrecover addr_bytes batcher_address slasher_address deposit_address owner hu ap 0 l1 l2 h r) as [_ Hf].
      destruct (Hf E1) as [_ E3]. change (receipts s2 !! h = Some r) in E3. unfold receipt_of in R2. rewrite E3 in R2. done.
  - destruct Hrf as (r & i & c & j & x & sig & k & E1 & E2 & E3 & E4 & E5 & E6 & E7 & E8).
    destruct (C50_receipts_final keccak ecrecover addr_bytes batcher_address slasher_address deposit_address owner hu ap 0 l1 l2 (u_half_step u) r) as [_ Hf].
    destruct (Hf E1) as [_ R]. change (receipts s2 !! u_half_step u = Some r) in R.
    pose proof (C47_config_fixed keccak ecrecover addr_bytes batcher_address slasher_address deposit_address owner hu ap 0 l1 l2 (u_half_step u / 2) i c Hhu Hb1 Hb2 E2 E3 E4) as Hcf.
    change (config_for (scheduled (cc s2)) (u_half_step u / 2) i c) in Hcf.
    destruct fuel as [|fuel]; [done|]. assert (typed (Appeal u) = true) as Ht by (cbn [ContractsModel.run] in Hr; by destruct (typed _)).
    cbn [typed] in Ht. apply andb_true_iff in Ht as [Ht1 Ht2].
    pose proof (C50_appeal_iff keccak ecrecover addr_bytes batcher_address slasher_address deposit_address owner hu ap 0 (l1 ++ l2) sender u fuel) as Hiff. cbv zeta in Hiff.
    rewrite steps_app in Hiff. subst s2 s1. unfold MainModel.genesis in *. destruct (steps (deployed slasher_address owner hu ap 0) l1) as [t1 g1]. cbn [fst] in *. destruct (steps t1 l2) as [t2 g2]. cbn [fst] in *.
    destruct (proj1 (Hiff Ht1 Ht2)) as (_ & _ & i' & c' & I1 & I2 & _ & _ & _ & I3); [eauto|].
    assert (config_index t2 (u_half_step u / 2) = Ok i) as I1' by (apply config_index_iff; eauto). rewrite I1 in I1'. injection I1' as ->.
    destruct Hcf as (Hcf & _). rewrite I2 in Hcf. injection Hcf as ->. destruct (I3 j x sig E5 E6) as (k' & K1 & K2). rewrite E7 in K1. injection K1 as <-.
    unfold receipt_of in K2. rewrite R in K2. cbn [default] in K2. done.
Qed.
End Expire.

(** ** Witnesses and a finding *)
(** keyper 7 executes batch 1 in block 32 and is accused by keyper 8; then (second chain) it appeals, all in the same block *)
Definition xexec8 : list (nat * N * call) := xexec7 ++ [(1%nat, 7%N, Appeal good_appeal)].
Definition given_up (exec : list (nat * N * call)) (heads : list Z) : list bool :=
  expired (xview exec heads) <$> [AExecCipher 1 xhash [[5]%N] 0; ASkipCipher 1; AExecPlain 1 []; AAccuse 2 1; AAppeal good_appeal; ASignature 1 []].
Example C71_witness : given_up [] [30; 33] = [false; false; false; false; true; false] ∧ given_up xexec7 [30; 33] = [true; true; false; true; false; false] ∧
  given_up xexec8 [30; 33] = [true; true; false; true; true; false] ∧
  xchain xexec8 0%nat = [] ∧ settled (xchain xexec8) 0 0 ((λ h, (xchain xexec8, h, true)) <$> [30; 33]).
Proof. split_and!; [vm_compute; reflexivity..|]. apply settled_same; [lia| | |]; [intros x Hx; repeat (apply elem_of_cons in Hx as [->|Hx]; [done|]); by apply elem_of_nil in Hx|repeat constructor; cbn; lia|repeat constructor; cbn; lia]. Qed.
(** [C71_refused_for_good] applies to a second accusation, and to an appeal whose first signature is keyper 8's *)
Definition bad_appeal : authorization := mkAuth 2 (u_batch_hash good_appeal) [0; 1] (rev (u_signatures good_appeal)).
Example C71_refused_witness : let s := wstate (xchain xexec7) 33 in
  refused (λ x, x) (λ _ _ r _, Some (Z.to_N r)) (λ _, [1]%N) 1 s (AAccuse 2 0) ∧ refused (λ x, x) (λ _ _ r _, Some (Z.to_N r)) (λ _, [1]%N) 1 s (AAppeal bad_appeal) ∧
  0 ≤ block s < 2 ^ 64.
Proof.
  split; [left; vm_compute; reflexivity|]. split; [|vm_compute; split; congruence].
  exists (receipt_of (wstate (xchain xexec7) 33) 2), 1%nat, wcfg, 0%nat, 0, (default [] (u_signatures bad_appeal !! 0%nat)), 7%N.
  assert (scheduled (cc (wstate (xchain xexec7) 33)) = [zero_config; wcfg]) as Hcs by (vm_compute; reflexivity).
  split; [vm_compute; reflexivity|]. split.
  { rewrite Hcs. split; [done|]. split; [vm_compute; congruence|]. intros [|[|[|j]]] c' Hj Hc; by (lia || done). }
  split; [vm_compute; reflexivity|]. split; [vm_compute; congruence|]. split_and!; [vm_compute; reflexivity..|]. vm_compute. congruence.
Qed.
(** an appeal against an accusation that the keyper has not seen (yet) counts as expired, although it is possible later *)
Theorem C71_unseen_refuted : let exec := [(2%nat, 7%N, ExecCipher 1 xhash [[5]%N] 0 [])] in
  expired (xview exec [30; 33]) (AAppeal good_appeal) = true ∧
  ∃ r, wrun 1 (wsteps (wstate (xchain exec) 33) [Tx 1 8 (Accuse 2 1)]).1 7 (Appeal good_appeal) = Ok r.
Proof. split; [vm_compute; reflexivity|]. eexists. vm_compute. reflexivity. Qed.

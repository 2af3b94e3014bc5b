(** Properties C01-C16 of the shuttermint ABCI application.  Vocabulary: AppSpec.v.  Model: AppModel.v.
    The [Example]s show that the hypotheses are met by concrete runs ([observe_history] turns an
    [observe] equation into a history). *)
From stdpp Require Import gmap list sorting.
From Coq Require Import NArith ZArith Lia.
From Verif Require Import AppModel AppSpec AppSteps VotingProofs AppInv AppProofs1 AppProofs2 AppProofs3
  PowerProofs AppProofs4 AppProofs5 AppWitness.

Definition codes (tr : trace) : list N := rsp_code <$> tr.*2.

(** ** C01 Replay protection: of two deliveries with the same signer and nonce, at any two points of an
    execution, one is rejected without any effect. *)
Theorem C01_replay_rejected O s tx1 ord1 r1 s1 tr s2 tx2 ord2 r2 s3 a m1 m2 :
  step O s (CDeliverTx tx1 ord1) = Some (s1, r1) → exec O s1 tr s2 →
  step O s2 (CDeliverTx tx2 ord2) = Some (s3, r2) →
  decode_tx O tx1 = Some (a, m1) → decode_tx O tx2 = Some (a, m2) → msg_nonce m1 = msg_nonce m2 →
  rejected s r1 s1 ∨ rejected s2 r2 s3.
Proof. exact (replay_rejected O s tx1 ord1 r1 s1 tr s2 tx2 ord2 r2 s3 a m1 m2). Qed.

(** Even a failed execution consumes the nonce: whenever a delivery has any effect, all later ones with
    the same signer and nonce are rejected. *)
Theorem C01_nonce_consumed O s tx1 ord1 r1 s1 tr s2 tx2 ord2 r2 s3 a m1 m2 :
  step O s (CDeliverTx tx1 ord1) = Some (s1, r1) → exec O s1 tr s2 →
  step O s2 (CDeliverTx tx2 ord2) = Some (s3, r2) →
  decode_tx O tx1 = Some (a, m1) → decode_tx O tx2 = Some (a, m2) → msg_nonce m1 = msg_nonce m2 →
  s1 ≠ s ∨ rsp_code r1 = 0%N → rejected s2 r2 s3.
Proof.
  intros H1 He H2 D1 D2 Hn Hor.
  destruct (replay_rejected O s tx1 ord1 r1 s1 tr s2 tx2 ord2 r2 s3 a m1 m2 H1 He H2 D1 D2 Hn) as [(E & C & _)|]; [|done].
  destruct Hor as [|C']; [done|]. by rewrite C in C'.
Qed.

Example C01_witness : observe (table_oracles w1_msgs) false
  ([genesis [1; 2; 3]%N 2; tx 0; CEndBlock 1; CCommit; tx 0; tx 1; tx 0])
  (λ tr s, bool_decide (codes tr = [0; 0; 0; 0; 1; 0; 1]%N)) = true.
Proof. vm_compute. reflexivity. Qed.

(** ** C02 Transactions that do not decode or are for another chain are rejected, by DeliverTx and CheckTx. *)
Theorem C02_foreign_rejected O s tx ord :
  (decode_tx O tx = None ∨ ∃ a m, decode_tx O tx = Some (a, m) ∧ msg_chain_id m ≠ chain_id s) →
  (∃ r s', step O s (CDeliverTx tx ord) = Some (s', r) ∧ rejected s r s') ∧
  (∃ r s', step O s (CCheckTx tx) = Some (s', r) ∧ rejected s r s').
Proof. exact (foreign_rejected O s tx ord). Qed.

(** the chain id checked is the one given to InitChain *)
Theorem C02_chain_id O dev ks t vs cid s0 r0 tr s : NoDup vs.*1 →
  step O (new_app dev) (CInitChain ks t vs cid) = Some (s0, r0) → exec O s0 tr s → Forall not_init tr.*1 →
  chain_id s = cid.
Proof.
  intros Hnd H0 He Hni. destruct (genesis_validators _ _ _ _ _ _ _ _ Hnd H0) as (_ & _ & Hc & _).
  induction He as [|s0 tr s1 c r s2 He IH Hv Hs]; [done|].
  rewrite fmap_app in Hni. apply Forall_app in Hni as [Hni Hc']. apply Forall_inv in Hc'. cbn in Hc'.
  rewrite <-IH by done. destruct c as [ks' t' vs' cid'|tx|tx ord|h|]; [done| | | |].
  - cbn [step] in Hs. injection Hs as H. unfold check_tx in H. repeat case_match; by simplify_eq.
  - cbn [step] in Hs. apply deliver_tx_cases in Hs as [[-> ->]|(a & m & D & _ & _ & Hm)]; [done|]. by destruct Hm.
  - cbn [step] in Hs. unfold end_block in Hs. destruct (end_block_flags s1) as [s3|] eqn:E; cbn in Hs; [|done]. simplify_eq.
    by apply end_block_flags_spec in E as (pre & l & l' & _ & _ & _ & [->|(-> & _)]).
  - cbn [step] in Hs. by injection Hs as <- <-.
Qed.

Example C02_witness : observe (table_oracles w1_msgs) false
  ([CInitChain [1; 2; 3]%N 2 [(key32 200, 10%Z)] [98]%N; tx 0; CDeliverTx [1; 2; 3]%N id; CCheckTx [0]%N])
  (λ tr s, bool_decide (codes tr = [0; 1; 1; 1]%N)) = true.
Proof. vm_compute. reflexivity. Qed.

(** ** C03 The config history *)
Theorem C03_config_history O tr s : history O tr s →
  configs s ≠ [] ∧
  (∀ i j ci cj, i < j → configs s !! i = Some ci → configs s !! j = Some cj →
     (cf_index ci < cf_index cj)%N ∧ (cf_start ci ≤ cf_start cj)%N) ∧
  (∀ b, ∃ c, get_config s b = Some c ∧ responsible (configs s) b c).
Proof. exact (config_history O tr s). Qed.

Theorem C03_configs_append_only O tr0 s tr s' :
  history O tr0 s → exec O s tr s' → configs s ≠ [zero_config] →
  ∃ old new, configs s' = old ++ new ∧ Forall2 later_version (configs s) old.
Proof. exact (configs_append_only O tr0 s tr s'). Qed.

(** after InitChain no call panics *)
Theorem C03_no_panic O tr s c : history O tr s → valid_call c →
  match c with CInitChain _ _ _ _ => True | _ => is_Some (step O s c) end.
Proof. exact (no_panic O tr s c). Qed.

Example C03_witness : observe (table_oracles w1_msgs) false w1
  (λ tr s, bool_decide (get_config s 9 = Some (genesis_config [1; 2; 3]%N 2)) &&
           bool_decide (get_config s 10 = Some (cfg 10 [1; 2; 3]%N 2 1 true true))) = true.
Proof. vm_compute. reflexivity. Qed.

(** ** C04 A config is accepted only with threshold votes *)
Theorem C04_config_needs_votes O tr s c r s' bc l :
  history O tr s → valid_call c → step O s c = Some (s', r) →
  EvBatchConfig bc ∈ rsp_events r → last_config s = Some l → (cf_threshold l < 2 ^ 63)%N →
  configs s' = configs s ++ [bc] ∧
  ∃ tr1 tr2 vs, tr = tr1 ++ tr2 ∧ ¬ announces_config tr2 ∧ NoDup vs ∧
    (cf_threshold l ≤ N.of_nat (length vs))%N ∧
    ∀ a, a ∈ vs → a ∈ cf_keypers l ∧
      ∃ cl rr, (cl, rr) ∈ tr2 ++ [(c, r)] ∧ votes_config O cl a bc ∧ rsp_code rr = 0%N.
Proof. exact (config_needs_votes O tr s c r s' bc l). Qed.

(** every new config is announced *)
Theorem C04_configs_announced O s c s' r : step O s c = Some (s', r) → not_init c →
  length (configs s') ≠ length (configs s) →
  ∃ bc, configs s' = configs s ++ [bc] ∧ EvBatchConfig bc ∈ rsp_events r.
Proof.
  intros Hs Hni Hlen. pose proof (step_configs_exact _ _ _ _ _ Hs) as [E|[(h & ->)|[H|H]]]; [congruence| |done|].
  - apply end_block_form in Hs as (s3 & Hf & _ & _ & _ & E2 & _).
    apply end_block_flags_exact in Hf as (pre & l & l' & E & E' & _). exfalso. apply Hlen.
    by rewrite E2, E, E', !app_length.
  - exfalso. destruct c as [|tx|tx ord|h|]; [done| | | |].
    + apply step_configs in Hs as [(? & ? & ? & E & _ & E')|[E|[(?&?&?&?&?&?&?&? & _)|(?&?&?&?&?&? & _)]]]; try done.
      * apply Hlen. by rewrite E, E', !app_length. * apply Hlen. by rewrite E.
    + apply step_configs in Hs as [(? & ? & ? & E & _ & E')|[E|[(?&?&?&?&?&?&?&?&?&?&?&?&?&E&?)|(?&?&?&?&?&? & _)]]]; try done.
      * apply Hlen. by rewrite E, E', !app_length. * apply Hlen. by rewrite E.
      * destruct H as (ks & t & H). rewrite H in E. destruct (configs s) as [|y [|z l]] eqn:Ec; cbn in E; try done.
        unfold last_config in *. rewrite Ec in *. done.
    + apply step_configs in Hs as [(? & ? & ? & E & _ & E')|[E|[(?&?&?&?&?&?&?&? & _)|(?&?&?&?&?&? & _)]]]; try done.
      * apply Hlen. by rewrite E, E', !app_length. * apply Hlen. by rewrite E.
    + apply step_configs in Hs as [(? & ? & ? & E & _ & E')|[E|[(?&?&?&?&?&?&?&? & _)|(?&?&?&?&?&? & _)]]]; try done.
      * apply Hlen. by rewrite E, E', !app_length. * apply Hlen. by rewrite E.
Qed.

(** a keyper's second vote in the same round is refused *)
Theorem C04_second_vote_rejected O tr0 s0 c1 r1 s1 tr s2 c2 r2 s3 a bc1 bc2 l1 l2 :
  history O tr0 s0 → valid_call c1 → step O s0 c1 = Some (s1, r1) → exec O s1 tr s2 →
  ¬ announces_config ((c1, r1) :: tr) → step O s2 c2 = Some (s3, r2) →
  votes_config O c1 a bc1 → rsp_code r1 = 0%N → last_config s0 = Some l1 → l1 ≠ bc1 →
  votes_config O c2 a bc2 → last_config s2 = Some l2 → l2 ≠ bc2 →
  rsp_code r2 = 1%N ∧ configs s3 = configs s2 ∧ config_voting s3 = config_voting s2.
Proof. exact (second_vote_rejected O tr0 s0 c1 r1 s1 tr s2 c2 r2 s3 a bc1 bc2 l1 l2). Qed.

Example C04_witness : observe (table_oracles w1_msgs) false ([genesis [1; 2; 3]%N 2; tx 0; tx 1])
  (λ tr s, bool_decide (length (events_of tr) = 2) && bool_decide (length (configs s) = 2)) = true.
Proof. vm_compute. reflexivity. Qed.

(** ** C05 Independence of map iteration order *)
Theorem C05_deterministic O tr0 s tr1 s1 tr2 s2 : history O tr0 s →
  exec O s tr1 s1 → exec O s tr2 s2 → Forall2 same_call tr1.*1 tr2.*1 → s1 = s2 ∧ tr1.*2 = tr2.*2.
Proof. intros H%history_Inv. by apply exec_deterministic. Qed.

Theorem C05_order_independent O tr s tx ord1 ord2 : history O tr s → valid_order ord1 → valid_order ord2 →
  step O s (CDeliverTx tx ord1) = step O s (CDeliverTx tx ord2).
Proof. intros H%history_Inv. by apply deliver_order_indep. Qed.

Example C05_witness : valid_order (@rev nat).
Proof. intros l. symmetry. apply Permutation_rev. Qed.

(** ** C06 Eon restarts *)
Theorem C06_eon_start_votes O dev tr s c r s' a b e b' :
  exec O (new_app dev) tr s → valid_call c → step O s c = Some (s', r) →
  delivers O c a (MEonStartVote b) → EvEonStarted e b' ∈ rsp_events r →
  b' = b ∧ ∃ cfg vs, responsible (configs s) b cfg ∧ NoDup vs ∧ a ∈ vs ∧
    ((cf_threshold cfg < 2 ^ 63)%N → (cf_threshold cfg ≤ N.of_nat (length vs))%N) ∧
    (∀ x, x ∈ vs → x ∈ cf_keypers cfg ∧
       (x = a ∨ standing_vote O x (cf_index cfg) b (new_app dev) tr s)) ∧
    eon_votings s' !! cf_index cfg = None.
Proof. exact (eon_start_votes O dev tr s c r s' a b e b'). Qed.

Example C06_witness : observe (table_oracles w1_msgs) false w1
  (λ tr s, existsb (λ e, match e with EvEonStarted e b => (e =? 2)%N && (b =? 12)%N | _ => false end) (events_of tr)) = true.
Proof. vm_compute. reflexivity. Qed.

(** ** C07 Eons are numbered 1, 2, 3, ... and key generation messages are only accepted for them *)
Theorem C07_eons_consecutive O tr s : history O tr s → (N.of_nat (length (eons_of tr)) < 2 ^ 64)%N →
  eons_of tr = N.of_nat <$> seq 1 (length (eons_of tr)).
Proof. exact (eons_consecutive O tr s). Qed.

Theorem C07_only_announced O tr s c r s' e n :
  history O tr s → valid_call c → step O s c = Some (s', r) →
  (N.of_nat (length (eons_of tr)) < 2 ^ 64)%N →
  e ∈ rsp_events r → event_eon e = Some n → n ∈ eons_of tr.
Proof. exact (dkg_only_announced O tr s c r s' e n). Qed.

Example C07_witness : observe (table_oracles w1_msgs) false w1
  (λ tr s, bool_decide (eons_of tr = [1; 2]%N)) = true.
Proof. vm_compute. reflexivity. Qed.

(** ** C08 Key generation messages *)
Theorem C08_unique O tr s : history O tr s → (N.of_nat (length (eons_of tr)) + 1 < 2 ^ 64)%N →
  NoDup (commitments_of tr) ∧ NoDup (accusations_of tr) ∧ NoDup (apologies_of tr) ∧ NoDup (evals_of tr).
Proof. exact (dkg_unique O tr s). Qed.

Theorem C08_members O tr s c r s' e n a rs :
  history O tr s → valid_call c → step O s c = Some (s', r) →
  e ∈ rsp_events r → event_parties e = Some (n, a, rs) →
  ∃ cfg, eon_config s n cfg ∧ a ∈ cf_keypers cfg ∧ ∀ b, b ∈ rs → b ∈ cf_keypers cfg ∧ b ≠ a.
Proof. exact (dkg_members O tr s c r s' e n a rs). Qed.

Theorem C08_eon_config_fixed O tr s tr' s' n c1 c2 :
  history O tr s → exec O s tr' s' → (N.of_nat (length (eons_of (tr ++ tr'))) + 1 < 2 ^ 64)%N →
  eon_config s n c1 → eon_config s' n c2 → same_config c1 c2.
Proof. exact (eon_config_fixed O tr s tr' s' n c1 c2). Qed.

Example C08_witness : observe (table_oracles w1_msgs) false w1
  (λ tr s, bool_decide (commitments_of tr = [(1, 1)]%N) && bool_decide (accusations_of tr = [(1, 2)]%N) &&
           bool_decide (apologies_of tr = [(1, 1)]%N) && bool_decide (evals_of tr = [(1, 1, 2); (1, 1, 3)]%N)) = true.
Proof. vm_compute. reflexivity. Qed.

(** ** C09 Decryption signatures *)
Theorem C09_unique O tr s : history O tr s → NoDup (signatures_of tr).
Proof. intros H. by destruct (decryption_signatures O tr s H). Qed.

Theorem C09_config O dev tr s b a : exec O (new_app dev) tr s → (b, a) ∈ signatures_of tr →
  ∃ tr1 c r tr2 s1 a0 cfg, tr = tr1 ++ (c, r) :: tr2 ∧ exec O (new_app dev) tr1 s1 ∧
    (∀ a', (b, a') ∉ signatures_of tr1) ∧ (b, a0) ∈ signatures_of [(c, r)] ∧
    responsible (configs s1) b cfg ∧ ∀ a', (b, a') ∈ signatures_of tr → a' ∈ cf_keypers cfg.
Proof. exact (signature_config O dev tr s b a). Qed.

Example C09_witness : observe (table_oracles w1_msgs) false w1
  (λ tr s, bool_decide (signatures_of tr = [(12, 1); (12, 3)]%N)) = true.
Proof. vm_compute. reflexivity. Qed.

(** ** C10 Check-in *)
Theorem C10_key_fixed O s tr s' a k : exec O s tr s' → identities s !! a = Some k → identities s' !! a = Some k.
Proof. exact (identities_mono O s tr s' a k). Qed.

Theorem C10_once_by_keypers O tr s : history O tr s →
  NoDup (checkins_of tr) ∧ (∀ a, a ∈ checkins_of tr ↔ is_Some (identities s !! a)) ∧
  ∀ a k, identities s !! a = Some k →
    length k = 32 ∧ (∃ c, c ∈ configs s ∧ a ∈ cf_keypers c) ∧
    ∃ cl rr ek, (cl, rr) ∈ tr ∧ delivers O cl a (MCheckIn k ek) ∧ rsp_code rr = 0%N.
Proof. exact (identities_sound O tr s). Qed.

Example C10_witness : observe (table_oracles w1_msgs) false w1
  (λ tr s, bool_decide (checkins_of tr = [1; 2]%N) && bool_decide (identities s !! 1%N = Some (key32 101))) = true.
Proof. vm_compute. reflexivity. Qed.

(** ** C11 Validator updates *)
Theorem C11_diff_exact old new : (∀ k, new !! k ≠ Some 0%Z) →
  apply_updates old (validator_updates (diff_powermaps old new)) = new.
Proof. exact (diff_apply old new). Qed.

Theorem C11_diff_minimal old new k p : (∀ k, old !! k ≠ Some 0%Z) → (∀ k, new !! k ≠ Some 0%Z) →
  (k, p) ∈ validator_updates (diff_powermaps old new) →
  power old k ≠ p ∧ power new k = p ∧ (p = 0%Z → is_Some (old !! k)).
Proof. exact (diff_no_noop old new k p). Qed.

(** the updates are strictly sorted, and any sorted arrangement of the map's entries is this list: neither
    the map iteration order nor the sorting algorithm matters *)
Theorem C11_sorted_canonical pm :
  StronglySorted (λ u v, bytes_lt u.1 v.1) (validator_updates pm) ∧
  ∀ l, l ≡ₚ map_to_list pm → StronglySorted (λ u v, bytes_lt u.1 v.1) l → l = validator_updates pm.
Proof. split; [apply validator_updates_sorted|]. intros l. apply validator_updates_canonical. Qed.

(** over a whole run of the chain *)
Theorem C11_end_block O ks t vs cid r0 s0 tr s h s' r :
  NoDup vs.*1 → (∀ k p, (k, p) ∈ vs → (0 < p)%Z) →
  step O (new_app false) (CInitChain ks t vs cid) = Some (s0, r0) →
  exec O s0 tr s → Forall not_init tr.*1 → step O s (CEndBlock h) = Some (s', r) →
  tendermint_validators (list_to_map vs) tr = validators s ∧
  apply_updates (validators s) (rsp_updates r) = validators s' ∧
  StronglySorted (λ u v, bytes_lt u.1 v.1) (rsp_updates r) ∧
  (∀ k p, (k, p) ∈ rsp_updates r →
     power (validators s) k ≠ p ∧ power (validators s') k = p ∧ (p = 0%Z → is_Some (validators s !! k))).
Proof. intros. by eapply end_block_updates. Qed.

Example C11_witness : observe (table_oracles w1_msgs) false w1
  (λ tr s,
    bool_decide (rsp_updates <$> tr.*2 !! 12 =
      Some [(key32 101, 10%Z); (key32 102, 10%Z); (key32 200, 0%Z); (non_existent_validator, 10%Z)])) = true.
Proof. vm_compute. reflexivity. Qed.

(** ** C12 The validator set is that of the newest active config *)
Theorem C12_validators_backed O dev ks t vs cid s0 r0 tr s h s' r :
  NoDup vs.*1 → step O (new_app dev) (CInitChain ks t vs cid) = Some (s0, r0) →
  exec O s0 tr s → Forall not_init tr.*1 → step O s (CEndBlock h) = Some (s', r) →
  (Forall (λ c, ¬ active c) (configs s') ∧ validators s' = list_to_map vs) ∨
  (∃ c, newest_active (configs s') c ∧
     (∀ k, power (validators s') k = 10 * keypers_with_key (identities s') (cf_keypers c) k)%Z ∧
     total_power (validators s') = (10 * Z.of_nat (length (cf_keypers c)))%Z).
Proof. exact (validators_backed O dev ks t vs cid s0 r0 tr s h s' r). Qed.

(** "active" implies threshold check-ins provided no accepted config message came with its flags set.
    Missing for the full C12: the proviso, which the code does not enforce (see the refutation). *)
Theorem C12_checked_in_partial O tr s : history O tr s →
  (∀ c, EvBatchConfig c ∈ events_of tr → cf_started c = false ∧ cf_vupdated c = false) →
  ∀ c, c ∈ configs s → cf_vupdated c = true →
    cf_started c = true ∧ (cf_threshold c ≤ N.of_nat (length (checked_in s c)))%N.
Proof. exact (validators_checked_in O tr s). Qed.

Theorem C12_checked_in_refuted : ¬ ∀ O tr s, history O tr s →
  ∀ c, c ∈ configs s → active c → (cf_threshold c ≤ N.of_nat (length (checked_in s c)))%N.
Proof.
  intros H. destruct (w12_history) as (tr & s & _ & Hh & _ & Hc).
  apply andb_true_iff in Hc as [[Hc _]%andb_true_iff Hid].
  apply bool_decide_eq_true in Hc, Hid.
  specialize (H _ _ _ Hh (cfg 10 [1; 2; 3]%N 2 1 true true)). rewrite Hc in H.
  specialize (H ltac:(set_solver) ltac:(done)). unfold checked_in in H. rewrite Hid in H. vm_compute in H. by apply H.
Qed.

Example C12_witness : observe (table_oracles w1_msgs) false w1
  (λ tr s, bool_decide (validators s = {[ key32 101 := 10%Z; key32 102 := 10%Z; non_existent_validator := 10%Z ]}) &&
    bool_decide (configs s = [genesis_config [1; 2; 3]%N 2; cfg 10 [1; 2; 3]%N 2 1 true true])) = true.
Proof. vm_compute. reflexivity. Qed.

(** ** C13 Mempool rate limiting *)
Theorem C13_mempool_limit O tr1 s1 tr2 s2 a : history O tr1 s1 → exec O s1 tr2 s2 →
  (∀ c r, (c, r) ∈ tr2 → ¬ resets c) →
  length (mempool_of O a tr2) ≤ 10 ∧ NoDup (mempool_of O a tr2).
Proof. exact (mempool_limit O tr1 s1 tr2 s2 a). Qed.

Theorem C13_mempool_admission O tr s tx r s' a m : history O tr s → step O s (CCheckTx tx) = Some (s', r) →
  decode_tx O tx = Some (a, m) → rsp_code r = 0%N →
  ((∃ c, c ∈ configs s ∧ a ∈ cf_keypers c) ∨ ∀ c b, c ∈ configs s → b ∉ cf_keypers c) ∧
  (∀ c1 r1 tx1 ord1 m1 tr1 tr2 s1 s1', tr = tr1 ++ (c1, r1) :: tr2 → (∃ dev, exec O (new_app dev) tr1 s1 ∧ exec O s1' tr2 s) →
     step O s1 c1 = Some (s1', r1) → c1 = CDeliverTx tx1 ord1 → decode_tx O tx1 = Some (a, m1) →
     msg_nonce m1 = msg_nonce m → rejected s1 r1 s1').
Proof. exact (mempool_admission O tr s tx r s' a m). Qed.

Definition w13_msgs : list (address * payload) := (λ i, (1%N, MEonStartVote (N.of_nat i))) <$> seq 0 12.
Example C13_witness : observe (table_oracles w13_msgs) false
  (genesis [1; 2; 3]%N 2 :: ((λ i, CCheckTx [N.of_nat i]) <$> seq 0 12) ++ [CCommit; CCheckTx [11]%N])
  (λ tr s, bool_decide (codes tr = [0; 0; 0; 0; 0; 0; 0; 0; 0; 0; 0; 1; 1; 0; 0]%N)) = true.
Proof. vm_compute. reflexivity. Qed.

(** ** C14 Thresholds of accepted configs.  Missing for the full C14: the proviso threshold < 2^63, which
    the code does not enforce. *)
Theorem C14_threshold_reachable_partial O tr s c : history O tr s → c ∈ configs s → configs s ≠ [zero_config] →
  cf_keypers c ≠ [] ∧ (1 ≤ cf_threshold c)%N ∧
  ((cf_threshold c < 2 ^ 63)%N → (cf_threshold c ≤ N.of_nat (length (cf_keypers c)))%N).
Proof. exact (threshold_reachable O tr s c). Qed.

Theorem C14_announced_partial O s c s' r bc : step O s c = Some (s', r) → EvBatchConfig bc ∈ rsp_events r →
  NoDup (cf_keypers bc) ∧ cf_keypers bc ≠ [] ∧ (1 ≤ cf_threshold bc)%N ∧
  ((cf_threshold bc < 2 ^ 63)%N → (cf_threshold bc ≤ N.of_nat (length (cf_keypers bc)))%N).
Proof. exact (announced_valid O s c s' r bc). Qed.

Theorem C14_threshold_refuted : ¬ ∀ O tr s c, history O tr s → c ∈ configs s → configs s ≠ [zero_config] →
  (cf_threshold c ≤ N.of_nat (length (cf_keypers c)))%N.
Proof.
  intros H. destruct (w14_history) as (tr & s & _ & Hh & _ & Hc).
  apply bool_decide_eq_true in Hc. specialize (H _ _ _ (cfg 10 [1; 2; 3]%N (2 ^ 63) 1 false false) Hh). rewrite Hc in H.
  specialize (H ltac:(set_solver) ltac:(done)). cbn in H. lia.
Qed.

(** consequence: after such a config a single keyper replaces the configuration on its own *)
Theorem C14_single_keyper_takeover : ∃ O tr s c r s' bc l,
  history O tr s ∧ valid_call c ∧ step O s c = Some (s', r) ∧ last_config s = Some l ∧
  cf_keypers l = [1; 2; 3]%N ∧ cf_threshold l = (2 ^ 63)%N ∧ configs s' = configs s ++ [bc] ∧
  EvBatchConfig bc ∈ rsp_events r ∧ cf_keypers bc = [3]%N ∧
  (∀ x, x ≠ 3%N → ¬ ∃ cl rr, (cl, rr) ∈ tr ++ [(c, r)] ∧ votes_config O cl x bc).
Proof.
  destruct w14_pre_history as (tr & s & He & Hh & Htr & Hc).
  unfold w14_pre_check in Hc. apply andb_true_iff in Hc as [Hc Hs]. apply bool_decide_eq_true in Hc.
  destruct (step (table_oracles w14_msgs) s (tx 2)) as [[s' r]|] eqn:E; [|discriminate Hs].
  apply andb_true_iff in Hs as [Hcs Hev]. apply bool_decide_eq_true in Hcs.
  exists (table_oracles w14_msgs), tr, s, (tx 2), r, s', (cfg 10 [3]%N 1 2 false false), (cfg 10 [1; 2; 3]%N (2 ^ 63) 1 false false).
  split; [exact Hh|]. split; [exact id_order|]. split; [exact E|]. split; [unfold last_config; by rewrite Hc|].
  split; [reflexivity|]. split; [reflexivity|]. split; [exact Hcs|]. split.
  { destruct (rsp_events r) as [|[c| | | | | | | |] l]; try discriminate Hev. apply bool_decide_eq_true in Hev. subst c. apply elem_of_list_here. }
  split; [reflexivity|]. intros x Hx (cl & rr & _ & Hv). apply Hx. exact (w14_voter cl x Hv).
Qed.

(** ** C15 Starting a config.  Missing for the full C15: the proviso that no config was announced since the
    votes were last empty; the code does not clear the votes when a config is added. *)
Theorem C15_started_needs_votes_partial O tr0 s0 tr s h s' r p l l' :
  history O tr0 s0 → configs s0 ≠ [zero_config] → started_votes s0 = ∅ →
  exec O s0 tr s → ¬ announces_config tr →
  step O s (CEndBlock h) = Some (s', r) →
  last_two s p l → last_two s' p l' → cf_started l = false → cf_started l' = true →
  ∃ vs, NoDup vs ∧ (cf_threshold p ≤ N.of_nat (length vs))%N ∧
    ∀ x, x ∈ vs → x ∈ cf_keypers p ∧
      ∃ cl rr, (cl, rr) ∈ tr ∧ delivers O cl x (MBatchConfigStarted (cf_index l)) ∧ rsp_code rr = 0%N.
Proof. exact (started_needs_votes O tr0 s0 tr s h s' r p l l'). Qed.

Theorem C15_started_needs_votes_refuted : ¬ ∀ O tr s h s' r p l l', history O tr s →
  step O s (CEndBlock h) = Some (s', r) →
  last_two s p l → last_two s' p l' → cf_started l = false → cf_started l' = true →
  ∃ vs, NoDup vs ∧ (cf_threshold p ≤ N.of_nat (length vs))%N ∧
    ∀ x, x ∈ vs → ∃ cl rr, (cl, rr) ∈ tr ∧ delivers O cl x (MBatchConfigStarted (cf_index l)).
Proof.
  intros H. destruct (w15_history) as (tr & s & He & Hh & Htr & Hc).
  unfold w15_pre_check in Hc. apply andb_true_iff in Hc as [Hc Hs].
  destruct (step (table_oracles w15_msgs) s (CEndBlock 1)) as [[s' r]|] eqn:E; [|done].
  apply bool_decide_eq_true in Hc, Hs.
  destruct (H _ tr s 1%Z s' r (cfg 10 [1; 2; 3]%N 2 1 false false) (cfg 20 [1; 2; 3]%N 2 2 false false) (cfg 20 [1; 2; 3]%N 2 2 true false) Hh E)
    as (vs & _ & Hlen & Hvs); [by eexists [_]|by eexists [_]|done|done|].
  destruct vs as [|x vs]; [cbn in Hlen; lia|]. destruct (Hvs x) as (cl & rr & _ & (tx0 & ord0 & m & _ & D & Hp)); [set_solver|].
  cbn in D, Hp. destruct tx0 as [|i [|? ?]]; try done. destruct (w15_msgs !! N.to_nat i) as [[a p]|] eqn:El; [|done].
  injection D as -> <-. cbn in Hp. subst p. apply elem_of_list_lookup_2 in El.
  repeat (apply elem_of_cons in El as [El|El]; [done|]). by apply elem_of_nil in El.
Qed.

Example C15_witness : observe (table_oracles w1_msgs) false w1
  (λ tr s, bool_decide (configs s = [genesis_config [1; 2; 3]%N 2; cfg 10 [1; 2; 3]%N 2 1 true true])) = true.
Proof. vm_compute. reflexivity. Qed.

(** ** C16 Progress of config voting.  Missing for the full C16: voters cannot change their vote, so the
    claim holds only while enough keypers have not voted for something else. *)
Theorem C16_config_progress_partial O tr s l m bc yes vs txs :
  history O tr s → configs s ≠ [zero_config] → last_config s = Some l → (cf_threshold l < 2 ^ 63)%N →
  config_from_message m = Some bc → acceptable_after l bc →
  NoDup (yes ++ vs) →
  (∀ a, a ∈ yes → config_vote s a = Some bc) →
  (∀ a, a ∈ vs → a ∈ cf_keypers l ∧ vt_votes (config_voting s) !! a = None) →
  (cf_threshold l ≤ N.of_nat (length (yes ++ vs)))%N →
  Forall2 (fresh_vote O m s) vs txs →
  ∃ txs1 txs2 tr' s', txs = txs1 ++ txs2 ∧ exec O s tr' s' ∧ tr'.*1 = (λ tx, CDeliverTx tx id) <$> txs1 ∧
    EvBatchConfig bc ∈ events_of tr' ∧ last_config s' = Some bc.
Proof. exact (config_progress O tr s l m bc yes vs txs). Qed.

(** once every keyper has voted without reaching the threshold, no continuation whatsoever (any
    transactions, any signers) ever adds a config *)
Theorem C16_stuck O0 O tr0 s l tr s' : history O0 tr0 s → last_config s = Some l → configs s ≠ [zero_config] →
  (∀ a, a ∈ cf_keypers l → is_Some (vt_votes (config_voting s) !! a)) →
  exec O s tr s' → ¬ announces_config tr.
Proof. exact (config_voting_stuck O0 O tr0 s l tr s'). Qed.

Theorem C16_config_progress_refuted : ∃ O tr s, history O tr s ∧ configs s ≠ [zero_config] ∧
  Forall (λ p, rsp_code p.2 = 0%N) tr ∧
  ∀ O' tr' s', exec O' s tr' s' → ¬ announces_config tr'.
Proof.
  destruct (w16_history) as (tr & s & He & Hh & Htr & Hc).
  unfold w16_check in Hc. apply andb_true_iff in Hc as [[Hcf Hv]%andb_true_iff Hok].
  apply bool_decide_eq_true in Hcf, Hok. exists (table_oracles w16_msgs), tr, s.
  split; [done|]. split; [by rewrite Hcf|]. split; [done|]. intros O' tr' s' He'.
  eapply (C16_stuck (table_oracles w16_msgs) O' tr s (genesis_config [1; 2]%N 2)); [done| | | |exact He'].
  - unfold last_config. by rewrite Hcf.
  - by rewrite Hcf.
  - intros a Ha. rewrite forallb_forall in Hv. specialize (Hv a ltac:(by apply elem_of_list_In)).
    by apply bool_decide_eq_true in Hv.
Qed.

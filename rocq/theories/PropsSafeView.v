(** C62 (continued): the keyper's view of the main chain. *)
From stdpp Require Import list gmap sorting.
From Coq Require Import ZArith NArith Lia.
From Verif Require Import CryptoModel EncodingModel AppModel ObserveModel SyncModel SyncProofs DecideModel KeyperModel KeyperSpec KeyperDkgProofs KeyperStepProofs KeyperHistProofs KeyperRunProofs KeyperSystem EventsModel EventsSpec EventsProofs PropsChain PropsSafe
  ArithModel ContractsModel ContractsProofs PropsConfig PropsBatcher PropsExec PropsSlasher MainModel MainProofs PropsMain SafeProofs SafeDecide.
Local Open Scope Z_scope.
Section View.
Context (keccak : list N → list N) (ecrecover : list N → Z → Z → Z → option N) (addr_bytes : N → list N).
Context (batcher_address slasher_address deposit_address : N).
Context (owner : N) (hu ap : Z).
Notation state_at := (state_at keccak ecrecover addr_bytes batcher_address slasher_address deposit_address owner hu ap).
Notation sync_main := (sync_main keccak ecrecover addr_bytes batcher_address slasher_address deposit_address owner hu ap).
Notation append_only := (append_only keccak ecrecover addr_bytes batcher_address slasher_address deposit_address owner hu ap).
Lemma dedup_length l : ∀ seen, (length (dedup_loop seen l) ≤ length l)%nat.
Proof. induction l as [|a l IH]; intros seen; cbn [dedup_loop]; [done|]. destruct (bool_decide _); cbn [length]; [specialize (IH seen)|specialize (IH (a :: seen))]; lia. Qed.
(** After a first successful synchronisation with a main chain on which no config was withdrawn, the keyper's view is as C62_no_crash_partial needs it: the configs are usable, accusations
    are about batches of active configs, and active configs have keypers if they do so on the chain. *)
Theorem C62_view (ch : chain) F heads c latest sy : let v := sync_main (new_view F) heads in let n := Z.to_nat (current v) in
  0 ≤ F → 0 ≤ hu → ch 0%nat = [] → PropsMain.settled ch F 0 heads → append_only ch → last heads = Some (c, latest, sy) → 0 < latest → calm_history (history ch n) →
  usable v ∧ (∀ h a, v_accusations v !! h = Some a → 0 ≤ ma_half_step a ∧ active_for v (ma_half_step a / 2)) ∧
  ((∀ c, c ∈ scheduled (cc (state_at ch n)) → 0 < span c → keypers c ≠ []) → staffed v).
Proof.
  intros v n HF Hh H0 Hs Hao Hlast Hpos Hcalm.
  pose proof (final_ok keccak ecrecover addr_bytes batcher_address slasher_address deposit_address owner hu ap ch H0 F HF heads Hs) as [K1 K2 K3 K4 K5 K6 K7]. fold v in K1, K2, K3, K4, K5, K6, K7. fold n in K3, K4, K5, K6, K7.
  pose proof (C54_configs_partial keccak ecrecover addr_bytes batcher_address slasher_address deposit_address owner hu ap ch H0 F HF heads Hs c latest sy Hao Hlast Hpos) as Hc. fold v in Hc. fold n in Hc.
  pose proof (C47_well_formed keccak ecrecover addr_bytes batcher_address slasher_address deposit_address owner hu ap 0 (history ch n) Hh) as (W1 & W2 & _ & _).
  change (steps _ _ _ _ _ _ _ _).1 with (state_at ch n) in W1, W2.
  pose proof (rec_inv_at keccak ecrecover addr_bytes batcher_address slasher_address deposit_address owner hu ap ch n) as [R1 R2].
  rewrite Forall_forall in W2. split_and!.
  - split; [| |lia|lia].
    + rewrite Hc. destruct (scheduled _) as [|c0 rest]; [done|]. injection W1 as ->. exists (read_config zero_config), (read_config <$> rest). done.
    + intros c' Hin. rewrite Hc in Hin. apply elem_of_list_fmap in Hin as (c0 & -> & Hin). apply W2, config_typed_ok in Hin. cbn. lia.
  - intros h a Ha. specialize (K7 h). rewrite Ha in K7. destruct K7 as (A1 & _ & _ & _ & ->).
    destruct (logs_all keccak ecrecover addr_bytes batcher_address slasher_address deposit_address (deployed slasher_address owner hu ap 0) (history ch n)) as [_ L1].
    specialize (L1 ltac:(apply acc_deployed) [] ltac:(apply logged_deployed)). 
    change (steps _ _ _ _ _ _ _ _).1 with (state_at ch n) in L1. destruct (g_accused _ _ _ L1 h A1) as (_ & r & x & R3 & _). destruct (R2 h r R3) as [? _]. split; [lia|].
    destruct (g_receipt _ _ _ L1 h r R3) as (_ & _ & txs & T1 & _). rewrite app_nil_l in T1.
    pose proof (C49_justified keccak ecrecover addr_bytes batcher_address slasher_address deposit_address owner hu ap 0 (history ch n) Hh ltac:(lia) Hcalm) as J.
    destruct (block_at keccak ecrecover addr_bytes batcher_address slasher_address deposit_address owner hu ap ch n) as [Hb _].
    unfold MainModel.state_at, genesis in *. destruct (steps _ _ _ _ _ _ _ _) as [s f]. cbn [fst snd] in *. destruct J as [J _]; [rewrite Hb; unfold n; lia|].
    destruct (J _ _ _ _ T1) as (_ & c1 & ((i & O1 & O2 & O3) & O4 & _) & _). exists i, (read_config c1). rewrite Hc. split_and!; [by rewrite list_lookup_fmap, O1|done|done|].
    intros j c2 Hlt. rewrite list_lookup_fmap. intros (c3 & E & ->)%fmap_Some. exact (O3 j c3 Hlt E).
  - intros Hk c1 Hin Hsp. rewrite Hc in Hin. apply elem_of_list_fmap in Hin as (c0 & -> & Hin). pose proof (Hk c0 Hin Hsp) as Hne. apply W2 in Hin. unfold config_typed in Hin. apply andb_true_iff in Hin as [_ Hlen%Z.ltb_lt]. revert Hne.
    cbn [keypers read_config]. unfold dedup_addresses. pose proof (dedup_length (keypers c0) []) as Hd. destruct (keypers c0) as [|k ks]; [done|]. intros _. revert Hd. cbn [dedup_loop].
    rewrite bool_decide_false by apply not_elem_of_nil. cbn [length]. cbn [length] in Hlen. lia.
Qed.

(** Both chains: whatever was sent to shuttermint and to the contracts, the keyper's decisions do not panic.  Partial: thresholds on shuttermint below 2^63; no config was withdrawn on
    the main chain (C54_configs_refuted), active ones have keypers, and executed transactions do not call the executor contract back (C49); and decryption signatures are on shuttermint
    only for batches of which the keyper's main chain node knows the config (C62_refuted). *)
Theorem C62_both_chains_partial (kec : bytes → bytes) {P : pairing} {PK : Type} (pk_bytes : PK → bytes) (pk_parse decompress : bytes → option PK) (compress : PK → bytes)
  (g2_bytes : G2 P → bytes) (g2_parse : bytes → option (G2 P)) (g1_bytes : G1 P → bytes) (g1_parse : bytes → option (G1 P))
  (pb_bytes : message → bytes) (pb_parse : bytes → option message) (sha3 : bytes → bytes) (sig_signer : bytes → bytes → option N) plen epoch_point
  (sm : nat → list (list abci)) (ch : chain) F (p : keyper_params P) y es o (l : list (kinput P PK)) :
  let read := make_event kec P PK pk_parse g2_parse g1_parse in
  codecs P PK pk_bytes g2_bytes g1_bytes pk_parse decompress compress g2_parse g1_parse pb_bytes pb_parse sig_signer →
  produced kec pk_bytes pk_parse decompress g2_bytes g2_parse g1_bytes g1_parse pb_parse sha3 sig_signer sm →
  (∀ m c, BatchConfig c ∈ published read sm m → (sc_threshold c < 2 ^ 63)%N) →
  0 ≤ F → 0 ≤ hu → ch 0%nat = [] → append_only ch → (∀ n, calm_history (history ch n)) → (∀ n c, c ∈ scheduled (cc (state_at ch n)) → 0 < span c → keypers c ≠ []) →
  (∀ A (l : list A), Permutation (kp_order p A l) l) → SyncModel.history read sm y es o → crash_after_decision read sm es → Forall2 (matches (kp_me p)) l o →
  (∀ i, i ∈ l → (∃ heads c latest sy, in_view i = sync_main (new_view F) heads ∧ PropsMain.settled ch F 0 heads ∧ last heads = Some (c, latest, sy) ∧ 0 < latest) ∧
     ∀ b, is_Some (ObserveModel.batches (in_shutter i) !! b) → active_for (in_view i) (Z.of_N b)) →
  ∃ s acts, decisions_of plen epoch_point p new_kstate l = Some (s, acts).
Proof.
  intros read Hok Hp Hth HF Hh H0 Hao Hcalm Hst Hord Hy Hc HF2 Hl. eapply C62_no_crash_partial; [exact Hok|exact Hp|exact Hth|exact Hord|exact Hy|exact Hc|exact HF2|].
  apply Forall_forall. intros i Hi. destruct (Hl i Hi) as [(heads & c & latest & sy & Ev & Hs & Hlast & Hpos) Hsg].
  destruct (C62_view ch F heads c latest sy HF Hh H0 Hs Hao Hlast Hpos (Hcalm _)) as (V1 & V2 & V3). split; rewrite ?Ev; [exact V1|exact (V3 (Hst _))|rewrite <-Ev; exact Hsg|exact V2].
Qed.
End View.

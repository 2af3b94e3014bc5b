{
 "claims": [
  {
   "property": "C01",
   "status": "proved",
   "theorems": [
    "C01_replay_rejected",
    "C01_nonce_consumed"
   ],
   "note": ""
  },
  {
   "property": "C02",
   "status": "proved",
   "theorems": [
    "C02_foreign_rejected",
    "C02_chain_id"
   ],
   "note": "decoding itself (base64, ECDSA recovery, protobuf) is an oracle"
  },
  {
   "property": "C03",
   "status": "proved",
   "theorems": [
    "C03_config_history",
    "C03_configs_append_only",
    "C03_no_panic"
   ],
   "note": ""
  },
  {
   "property": "C04",
   "status": "proved",
   "theorems": [
    "C04_config_needs_votes",
    "C04_configs_announced",
    "C04_second_vote_rejected"
   ],
   "note": ""
  },
  {
   "property": "C05",
   "status": "proved",
   "theorems": [
    "C05_deterministic",
    "C05_order_independent"
   ],
   "note": ""
  },
  {
   "property": "C06",
   "status": "proved",
   "theorems": [
    "C06_eon_start_votes"
   ],
   "note": ""
  },
  {
   "property": "C07",
   "status": "proved",
   "theorems": [
    "C07_eons_consecutive",
    "C07_only_announced"
   ],
   "note": ""
  },
  {
   "property": "C08",
   "status": "proved",
   "theorems": [
    "C08_unique",
    "C08_members",
    "C08_eon_config_fixed"
   ],
   "note": ""
  },
  {
   "property": "C09",
   "status": "proved",
   "theorems": [
    "C09_unique",
    "C09_config"
   ],
   "note": ""
  },
  {
   "property": "C10",
   "status": "proved",
   "theorems": [
    "C10_key_fixed",
    "C10_once_by_keypers"
   ],
   "note": ""
  },
  {
   "property": "C11",
   "status": "proved",
   "theorems": [
    "C11_diff_exact",
    "C11_diff_minimal",
    "C11_sorted_canonical",
    "C11_end_block"
   ],
   "note": ""
  },
  {
   "property": "C12",
   "status": "partial",
   "theorems": [
    "C12_validators_backed",
    "C12_checked_in_partial",
    "C12_checked_in_refuted"
   ],
   "note": "the check-in half of the claim is false of the code when an accepted config message carries Started/ValidatorsUpdated = true (refuted by a run); proved for chains where accepted configs have the flags unset"
  },
  {
   "property": "C13",
   "status": "proved",
   "theorems": [
    "C13_mempool_limit",
    "C13_mempool_admission"
   ],
   "note": ""
  },
  {
   "property": "C14",
   "status": "partial",
   "theorems": [
    "C14_threshold_reachable_partial",
    "C14_announced_partial",
    "C14_threshold_refuted",
    "C14_single_keyper_takeover"
   ],
   "note": "false for thresholds >= 2^63 (uint64 to int conversion); proved below"
  },
  {
   "property": "C15",
   "status": "partial",
   "theorems": [
    "C15_started_needs_votes_partial",
    "C15_started_needs_votes_refuted"
   ],
   "note": "false of the code: StartedVotes is not cleared when a config is added; proved when no config was announced in between"
  },
  {
   "property": "C16",
   "status": "partial",
   "theorems": [
    "C16_config_progress_partial",
    "C16_stuck",
    "C16_config_progress_refuted"
   ],
   "note": "false of the code: votes cannot be changed, a split vote blocks forever; progress proved while enough keypers are uncommitted"
  },
  {
   "property": "C17",
   "status": "proved",
   "theorems": [
    "C17_crash_safe",
    "C17_crash_safe_mid_block",
    "C17_recovers"
   ],
   "note": "the gob codec is abstract: theorems assume decoding inverts encoding"
  },
  {
   "property": "C18",
   "status": "proved",
   "theorems": [
    "C18_added_once",
    "C18_no_panic",
    "C18_complete",
    "C18_recover"
   ],
   "note": "all interleavings and crash points"
  },
  {
   "property": "C19",
   "status": "partial",
   "theorems": [
    "C19_removal_partial",
    "C19_not_lost",
    "C19_shutdown_loses",
    "C19_refuted"
   ],
   "note": "false of the code: a shutdown or RPC error while waiting removes an in-flight transaction, and a message rejected by CheckTx is removed; everything else proved"
  },
  {
   "property": "C20",
   "status": "partial",
   "theorems": [
    "C20_getter",
    "C20_partial",
    "C20_batches",
    "C20_rest",
    "C20_refuted"
   ],
   "note": "false of the code for epoch secret key shares, which ApplyFilter drops; proved for everything else"
  },
  {
   "property": "C21",
   "status": "proved",
   "theorems": [
    "C21_by_number",
    "C21_by_batch",
    "C21_started",
    "C21_stale",
    "C21_event"
   ],
   "note": ""
  },
  {
   "property": "C22",
   "status": "proved",
   "theorems": [
    "C22_phases",
    "C22_monotone"
   ],
   "note": "for sums below 2^63"
  },
  {
   "property": "C23",
   "status": "proved",
   "theorems": [
    "C23_delay",
    "C23_distinct",
    "C23_turn",
    "C23_half_steps"
   ],
   "note": "for half steps at least one keyper set below 2^64"
  },
  {
   "property": "C24",
   "status": "proved",
   "theorems": [
    "C24_batch_of_block",
    "C24_tile",
    "C24_unique",
    "C24_before",
    "C24_config_for_batch",
    "C24_active_config",
    "C24_next_batch"
   ],
   "note": "wrapping uint64 arithmetic, hypotheses exclude overflow"
  },
  {
   "property": "C25",
   "status": "partial",
   "theorems": [
    "C25_roundtrip",
    "C25_exact",
    "C25_read",
    "C25_distinct",
    "C25_delivered",
    "C25_empty_refuted"
   ],
   "note": "every event the app emits is read back as what it says, except a commitment without coefficients, which is published but cannot be read (C25_empty_refuted); codecs are arbitrary functions that satisfy round trip laws"
  },
  {
   "property": "C26",
   "status": "proved",
   "theorems": [
    "C26_epoch_key",
    "C26_key_stays",
    "C26_honest_share",
    "C26_no_panic"
   ],
   "note": "for every sequence of shares after any key generation history of PureDKG that yields a result"
  },
  {
   "property": "C27",
   "status": "partial",
   "theorems": [
    "C27_well_formed",
    "C27_deterministic",
    "C27_accepted_partial",
    "C27_one_spoils",
    "C27_accepted_refuted"
   ],
   "note": "proved in full but for acceptance by the contract, which needs every included signature to be canonical: false otherwise (a keyper that publishes a high-s signature spoils every appeal)"
  },
  {
   "property": "C28",
   "status": "proved",
   "theorems": [
    "C28_batch_hash",
    "C28_signed_hash",
    "C28_binding"
   ],
   "note": "binding up to a collision of the hash, which is exhibited"
  },
  {
   "property": "C29",
   "status": "proved",
   "theorems": [
    "C29_field"
   ],
   "note": "the order is proved prime by a Pocklington certificate checked in the kernel"
  },
  {
   "property": "C30",
   "status": "proved",
   "theorems": [
    "C30_commitment_unique",
    "C30_verify_poly_eval",
    "C30_honest",
    "C30_valid_eval",
    "C30_new_polynomial",
    "C30_random_polynomial"
   ],
   "note": "for every prime-order bilinear group (record of laws); the check is an equivalence"
  },
  {
   "property": "C31",
   "status": "proved",
   "theorems": [
    "C31_agreement",
    "C31_keys",
    "C31_usable",
    "C31_only_finalized"
   ],
   "note": "for every history of calls of PureDKG; private evaluations may differ between the keypers"
  },
  {
   "property": "C32",
   "status": "proved",
   "theorems": [
    "C32_honest_not_corrupt",
    "C32_no_invalid_share",
    "C32_recorded_once",
    "C32_recorded_valid",
    "C32_honest_finish"
   ],
   "note": "honest = messages authentic and in time (spec in DkgSpec.v)"
  },
  {
   "property": "C33",
   "status": "proved",
   "theorems": [
    "C33_reconstruct",
    "C33_refused",
    "C33_public_keys",
    "C33_secret_key_share"
   ],
   "note": ""
  },
  {
   "property": "C34",
   "status": "proved",
   "theorems": [
    "C34_decrypt",
    "C34_end_to_end",
    "C34_shape"
   ],
   "note": "for every pairing and every hash; end to end from the distributed key generation to decryption"
  },
  {
   "property": "C35",
   "status": "partial",
   "theorems": [
    "C35_partial",
    "C35_refuted"
   ],
   "note": "false of the code: only the last padding byte is checked, and a ciphertext without blocks decrypts to the empty message; proved for C1, C2, number of blocks, message bytes and last byte"
  },
  {
   "property": "C36",
   "status": "proved",
   "theorems": [
    "C36_roundtrip",
    "C36_blocks",
    "C36_pkcs7",
    "C36_injective",
    "C36_unpad"
   ],
   "note": ""
  },
  {
   "property": "C37",
   "status": "partial",
   "theorems": [
    "C37_share_roundtrip",
    "C37_hex_accepted",
    "C37_share_accepted",
    "C37_share_refuted",
    "C37_point_roundtrip",
    "C37_point_partial",
    "C37_point_refuted",
    "C37_message_roundtrip",
    "C37_message_accepted",
    "C37_message_partial",
    "C37_message_refuted",
    "C37_message_marshal_panic",
    "C37_version_current",
    "C37_version_old",
    "C37_version_other",
    "C37_hex_form",
    "C37_gammas",
    "C37_gob_gammas",
    "C37_gob_gammas_refuted",
    "C37_hex",
    "C37_block_text",
    "C37_message_text",
    "C37_block_text_refuted",
    "C37_identify_version"
   ],
   "note": "round trips and the exact acceptance of commitments are proved; canonicity and rejection are false of the code for messages, keys, gob commitments and block text (refuted), true when the point bytes are a compressed point"
  },
  {
   "property": "C38",
   "status": "proved",
   "theorems": [
    "C38_permutation",
    "C38_positions",
    "C38_swaps_in_range",
    "C38_memory"
   ],
   "note": "for every random number generator"
  },
  {
   "property": "C39",
   "status": "partial",
   "theorems": [
    "C39_partial",
    "C39_no_spare_capacity",
    "C39_refuted"
   ],
   "note": "false of the code: append writes the padding into the spare capacity of the caller's slice; proved for everything else and for slices without spare capacity"
  },
  {
   "property": "C40",
   "status": "proved",
   "theorems": [
    "C40_secrecy"
   ],
   "note": "any t-1 shares are consistent with every secret"
  },
  {
   "property": "C41",
   "status": "proved",
   "theorems": [
    "C41_block_key",
    "C41_blocks",
    "C41_inputs_distinct",
    "C41_tags"
   ],
   "note": ""
  },
  {
   "property": "C42",
   "status": "proved",
   "theorems": [
    "C42_accepts",
    "C42_rejects"
   ],
   "note": "rejection up to an explicit hash collision"
  },
  {
   "property": "C43",
   "status": "proved",
   "theorems": [
    "C43_message_order",
    "C43_tx_order"
   ],
   "note": ""
  },
  {
   "property": "C44",
   "status": "proved",
   "theorems": [
    "C44_sent_once_per_run",
    "C44_recorded_not_resent",
    "C44_sent_twice",
    "C44_refuted"
   ],
   "note": "exactly-once over crashes is refuted: crash between sending and storing the hash"
  },
  {
   "property": "C45",
   "status": "partial",
   "theorems": [
    "C45_no_skip_partial",
    "C45_dkg_partial",
    "C45_progress",
    "C45_refuted"
   ],
   "note": "false of the code when decisions are skipped (key shares) or on a restart before the first decision; proved in all other cases"
  },
  {
   "property": "C46",
   "status": "proved",
   "theorems": [
    "C46_fetch",
    "C46_only"
   ],
   "note": ""
  },
  {
   "property": "C47",
   "status": "partial",
   "theorems": [
    "C47_well_formed",
    "C47_total",
    "C47_notice",
    "C47_schedule_notice",
    "C47_config_fixed",
    "C47_seamless",
    "C47_ends_increase_partial",
    "C47_go_agrees",
    "C47_unschedule",
    "C47_unschedule_all_partial",
    "C47_ends_increase_refuted",
    "C47_unschedule_all_refuted"
   ],
   "note": "everything but the order of batch ends, which is false after an inactive config (C47_ends_increase_refuted): proved when no config is inactive"
  },
  {
   "property": "C48",
   "status": "proved",
   "theorems": [
    "C48_hash_chain",
    "C48_accept_iff",
    "C48_closed",
    "C48_fee_overflow_blocks",
    "C48_chain_injective"
   ],
   "note": "finding: fees of a receiver are capped at 2^64 wei, after which paying transactions are rejected"
  },
  {
   "property": "C49",
   "status": "partial",
   "theorems": [
    "C49_receipts",
    "C49_in_order",
    "C49_justified",
    "C49_plain_content",
    "C49_progress",
    "C49_cipher_iff",
    "C49_reentrancy_refuted"
   ],
   "note": "proved for histories in which executed transactions do not call the executor back; false otherwise (C49_reentrancy_refuted)"
  },
  {
   "property": "C50",
   "status": "proved",
   "theorems": [
    "C50_receipts_final",
    "C50_accusation_final",
    "C50_appealed_safe",
    "C50_appeal_period",
    "C50_slash_conditions",
    "C50_appeal_iff",
    "C50_accuse_iff",
    "C50_slash_cause",
    "C50_defence",
    "C50_threshold_zero"
   ],
   "note": "finding: threshold 0 lets anyone appeal"
  },
  {
   "property": "C51",
   "status": "proved",
   "theorems": [
    "C51_ledger",
    "C51_slashed_forever",
    "C51_withdraw",
    "C51_delay",
    "C51_delay_overflow_locks",
    "C51_anyone_sets_slasher",
    "C51_slasher_fixed"
   ],
   "note": "findings: a huge delay locks the deposit, anyone may set the slasher of a contract deployed without one"
  },
  {
   "property": "C52",
   "status": "proved",
   "theorems": [
    "C52_books",
    "C52_withdraw"
   ],
   "note": ""
  },
  {
   "property": "C53",
   "status": "proved",
   "theorems": [
    "C53_counts",
    "C53_best_key",
    "C53_who"
   ],
   "note": ""
  },
  {
   "property": "C54",
   "status": "partial",
   "theorems": [
    "C54_height",
    "C54_batches",
    "C54_execution_partial",
    "C54_accusations",
    "C54_configs_partial",
    "C54_configs_refuted",
    "C54_receipt0_refuted",
    "C54_duplicate_keypers",
    "C54_head_goes_back"
   ],
   "note": "proved in full for batches, half steps, accusations; the receipt of half step 0 and the configs only under a restriction: false otherwise (empty receipts overwrite half step 0; unscheduled configs are kept and their replacements never read)"
  },
  {
   "property": "C55",
   "status": "partial",
   "theorems": [
    "C55_not_early",
    "C55_once",
    "C55_released",
    "C55_lost",
    "C55_closed_partial",
    "C55_once_partial",
    "C55_closed_refuted",
    "C55_lost_refuted"
   ],
   "note": "release time, exactly-once and first-decision release are proved for all sequences of views in which the running batch does not go back; that the batch can no longer change is proved for main chains with active configs that are never unscheduled, and is false otherwise (C55_closed_refuted); a share can be lost for ever (C55_lost_refuted)"
  },
  {
   "property": "C56",
   "status": "partial",
   "theorems": [
    "C56_order",
    "C56_cipher",
    "C56_plain",
    "C56_skip",
    "C56_waits",
    "C56_cipher_accepted",
    "C56_plain_accepted",
    "C56_content_partial",
    "C56_content_refuted"
   ],
   "note": "order, time slots, waiting and acceptance proved in full; that the content is that of the chain is proved if the key is found when the view has got past the end of the batch, and is false otherwise (a lagging node executes an empty batch)"
  },
  {
   "property": "C57",
   "status": "partial",
   "theorems": [
    "C57_accuse_why",
    "C57_accuse_once",
    "C57_accuse_guilty_partial",
    "C57_defends",
    "C57_missed_refuted",
    "C57_false_accusation_refuted"
   ],
   "note": "that the accused is guilty with respect to the chain needs the key to be found when the view has got past the end of the batch, and is false otherwise; a wrong execution seen before the key is found is never accused"
  },
  {
   "property": "C58",
   "status": "partial",
   "theorems": [
    "C58_generated",
    "C58_agreement_partial",
    "C58_refuted"
   ],
   "note": "what a keyper holds is the result the protocol defines from the chain and a config for the eon's first batch; agreement is proved for eons whose config is not replaced after the start, for all schedules, crashes and restarts; false otherwise: startDKG looks the config up when the keyper decides (C58_refuted)"
  },
  {
   "property": "C59",
   "status": "proved",
   "theorems": [
    "C59_timely",
    "C59_participation",
    "C59_votes"
   ],
   "note": ""
  },
  {
   "property": "C60",
   "status": "proved",
   "theorems": [
    "C60_sound",
    "C60_agreement",
    "C60_complete",
    "C60_honest_share",
    "C60_honest_accepted",
    "C60_enough"
   ],
   "note": "agreement and acceptance for settled eons; completeness for runs that skip no decision (a skipped decision loses shares: C45)"
  },
  {
   "property": "C61",
   "status": "partial",
   "theorems": [
    "C61_check_in_once",
    "C61_check_in_when",
    "C61_votes_once",
    "C61_votes_when",
    "C61_votes_agree_partial"
   ],
   "note": "exact conditions proved; agreement of the votes of different keypers for main chains on which no config is unscheduled"
  },
  {
   "property": "C62",
   "status": "partial",
   "theorems": [
    "C62_no_crash_partial",
    "C62_view",
    "C62_both_chains_partial",
    "C62_refuted"
   ],
   "note": "no decision panics for any content of the app's chain and of the contracts, if thresholds are below 2^63, no config is withdrawn, active configs have keypers and decryption signatures are only for batches whose config the keyper's main chain node knows; without the latter, C62_refuted: a keyper whose node lags panics"
  },
  {
   "property": "C63",
   "status": "proved",
   "theorems": [
    "C63_key_generation"
   ],
   "note": ""
  },
  {
   "property": "C64",
   "status": "proved",
   "theorems": [
    "C64_transaction"
   ],
   "note": "codecs (protobuf, base64, ECDSA) are arbitrary functions that satisfy round trip laws"
  },
  {
   "property": "C65",
   "status": "proved",
   "theorems": [
    "C65_well_formed",
    "C65_config",
    "C65_message"
   ],
   "note": "for histories with fewer than 2^64 eons"
  },
  {
   "property": "C66",
   "status": "partial",
   "theorems": [
    "C66_key_generation",
    "C66_authentic",
    "C66_agreement_partial"
   ],
   "note": "key generation and authenticity proved; agreement of arbitrary key holders needs an eon whose config is not replaced after its start (C58_refuted)"
  },
  {
   "property": "C67",
   "status": "proved",
   "theorems": [
    "C67_verify",
    "C67_all_keys",
    "C67_random",
    "C67_aggregate",
    "C67_aggregate_valid",
    "C67_order",
    "C67_secret",
    "C67_secret_rejects",
    "C67_points"
   ],
   "note": "group and pairing laws of bn256 and its canonical point encoding are the record the theorems quantify over; the value left behind by a failed Unmarshal of a point is not modelled"
  },
  {
   "property": "C68",
   "status": "partial",
   "theorems": [
    "C68_other_key_partial",
    "C68_other_message_partial",
    "C68_forgery",
    "C68_zero_hash",
    "C68_rogue_key",
    "C68_refuted"
   ],
   "note": "only replay is excluded: a signature itself is not accepted for another key or message. The full claim is false: hashToG2 has a known discrete logarithm (C68_forgery) and aggregation is open to rogue keys (C68_rogue_key)"
  },
  {
   "property": "C69",
   "status": "partial",
   "theorems": [
    "C69_seal",
    "C69_open",
    "C69_unambiguous",
    "C69_separate",
    "C69_all",
    "C69_zero_key",
    "C69_executed_partial",
    "C69_messages_partial",
    "C69_agreement_partial"
   ],
   "note": "end to end from Encrypt to the keypers' decision to execute. Missing, because the code falsifies it: shares that are released before the end of the batch (C55_closed_refuted), and a batch key of an eon that is not the batch's (C56_content_refuted): the theorems are about the eon for which the keyper got the key. That an accepted transaction reaches the executor contract is C52/C56."
  },
  {
   "property": "C70",
   "status": "proved",
   "theorems": [
    "C70_accepts_iff",
    "C70_accepted",
    "C70_key_generation"
   ],
   "note": "tendermint calls InitChain once and first (launched), fewer than 2^64 eons; C70_accepted and C70_key_generation: no config that applies to the eon is announced after the eon (settled, as in C66), and commitments and keyper sets are smaller than 2^63"
  },
  {
   "property": "C71",
   "status": "proved",
   "theorems": [
    "C71_expired",
    "C71_done",
    "C71_stays",
    "C71_own_appeal",
    "C71_refused_for_good",
    "C71_unseen_refuted"
   ],
   "note": "the keyper follows the settled chain at its follow distance (settled, as in C54). An appeal against an accusation the keyper has not seen counts as expired although it may become possible (C71_unseen_refuted); keypers never decide on one (C71_own_appeal). C71_refused_for_good: for wrong signer, of a batch whose config is fixed (C47)"
  },
  {
   "property": "C72",
   "status": "partial",
   "theorems": [
    "C72_set_next",
    "C72_setter",
    "C72_chosen",
    "C72_schedule_iff",
    "C72_accepted_partial",
    "C72_commands_partial",
    "C72_future_config_refuted",
    "C72_long_batches_refuted",
    "C72_duplicates_refuted"
   ],
   "note": "numbers below 2^64, the last scheduled config starts before the aim. Partial because the code falsifies the full claim: a last config that starts later makes set-next choose a start that is never accepted (C72_future_config_refuted); batches longer than the notice can make the chosen start too early from the beginning (C72_long_batches_refuted); a next config that lists a keyper twice is reported without duplicates, so too few keypers are removed (C72_duplicates_refuted)"
  },
  {
   "property": "C73",
   "status": "proved",
   "theorems": [
    "C73_start_vote_iff",
    "C73_started",
    "C73_takes_over",
    "C73_bootstrap",
    "C73_bootstrap_too_early"
   ],
   "note": "no further config is announced in between (votes for starting one config count for the next as well, C15_started_needs_votes_refuted); initial validators have positive power; not in dev mode, in which the app never changes validators"
  },
  {
   "property": "C74",
   "status": "partial",
   "theorems": [
    "C74_no_appeal",
    "C74_anyone_slashes",
    "C74_costs",
    "C74_costs_refuted",
    "C74_no_deposit_refuted"
   ],
   "note": "that nobody can appeal and anyone can slash is proved in full; that the slash takes the deposit needs that it was there, with a withdrawal delay longer than the appeal period: the contracts require neither (refuted). Also assumed: the deployed slasher is set in the deposit contract and the slashing receiver is not the deposit contract itself"
  },
  {
   "property": "C75",
   "status": "proved",
   "theorems": [
    "C75_threshold",
    "C75_quorums",
    "C75_third_away",
    "C75_three_refuted",
    "C75_funded",
    "C75_enough",
    "C75_fund_mined",
    "C75_twice_refuted",
    "C75_drained",
    "C75_drain_stale",
    "C75_drain_iff"
   ],
   "note": "transfers to accounts without code; no reorganisations; the exceptions in the statement are the refuted theorems"
  },
  {
   "property": "C76",
   "status": "proved",
   "theorems": [
    "C76_roundtrip",
    "C76_batch",
    "C76_traced",
    "C76_only_executor",
    "C76_wrong_selector",
    "C76_malleable_refuted"
   ],
   "note": "calls whose encoding is shorter than 2^64 bytes; out of gas is an arbitrary predicate of the state and the call"
  },
  {
   "property": "C77",
   "status": "proved",
   "theorems": [
    "C77_executes",
    "C77_in_batch",
    "C77_once",
    "C77_authentic",
    "C77_nonces",
    "C77_signed",
    "C77_nobody_else",
    "C77_replay_refuted",
    "C77_zero_refuted",
    "C77_default_config_refuted"
   ],
   "note": "Keccak-256 and ecrecover are parameters; the limits named in the statement are the refuted theorems"
  },
  {
   "property": "C78",
   "status": "proved",
   "theorems": [
    "C78_exact",
    "C78_error",
    "C78_at_least",
    "C78_monotone",
    "C78_default",
    "C78_accepted",
    "C78_nan_refuted",
    "C78_inf_refuted"
   ],
   "note": "finite float64 values as m / 2^d; the 32 bit exponent of big.Float is taken to suffice"
  },
  {
   "property": "C79",
   "status": "partial",
   "theorems": [
    "C79_config",
    "C79_config_total",
    "C79_batch",
    "C79_right_config",
    "C79_up_to_date",
    "C79_accepted",
    "C79_rejected",
    "C79_same_span",
    "C79_same_digits",
    "C79_fewer_digits",
    "C79_more_digits",
    "C79_key_partial",
    "C79_key_refuted",
    "C79_enough_refuted",
    "C79_eon_refuted",
    "C79_stale_refuted"
   ],
   "note": "the key: only for thresholds below ten, where the code is right; BigNumber and JavaScript numbers are integers"
  },
  {
   "property": "C80",
   "status": "partial",
   "theorems": [
    "C80_delivered",
    "C80_permanent",
    "C80_end_to_end_partial"
   ],
   "note": "the end-to-end statement is partial as C69 is: shares released after the end of the batch, one eon key; the executor's call of the target is modelled in TargetModel, not in the state of ContractsModel"
  },
  {
   "property": "C81",
   "status": "proved",
   "theorems": [
    "C81_numbers",
    "C81_form",
    "C81_round_trip",
    "C81_unambiguous",
    "C81_typed",
    "C81_unknown_before",
    "C81_unknown_behind",
    "C81_unknown_payload",
    "C81_codecs"
   ],
   "note": "the library google.golang.org/protobuf is not in /repo: its wire format is modelled"
  },
  {
   "property": "C82",
   "status": "proved",
   "theorems": [
    "C82_round_trip",
    "C82_address",
    "C82_addresses",
    "C82_key",
    "C82_seed",
    "C82_valid",
    "C82_path_refuted",
    "C82_quote_refuted",
    "C82_number_refuted",
    "C82_injection_refuted"
   ],
   "note": "the TOML library is not in /repo: the part of TOML keyper files use is modelled; printing and parsing of the float64 multiplier are parameters that are assumed to round trip; missing entries and viper conversions are not modelled"
  },
  {
   "property": "C83",
   "status": "proved",
   "theorems": [
    "C83_wired",
    "C83_distinct",
    "C83_reported",
    "C83_disturbed",
    "C83_front_run"
   ],
   "note": "constructors are what they are given, and the deposit contract's slasher; the JSON file of addresses and the output are left out"
  }
 ]
}
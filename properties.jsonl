{"id": "C01", "title": "Replay protection", "statement": "Over the whole life of a shuttermint chain, a signed message with a given (signer, random nonce) has its content executed at most once; every later delivery of a transaction with the same signer and nonce is answered with an error code, emits no events and changes no state, no matter how blocks, commits and other transactions are interleaved.", "quantifier": "all histories of DeliverTx/CheckTx/EndBlock/Commit/InitChain calls and all transactions", "why_tests_cant": "a test replays one message at one distance; the claim is about every history", "anchors": ["shuttermint/app/app.go: DeliverTx", "shuttermint/app/noncetracker.go: Check, Add"]}
{"id": "C02", "title": "Transactions for another chain or that cannot be decoded have no effect", "statement": "A transaction that does not decode, or whose chain id differs from the one given to InitChain, is answered with code 1, emits no events and leaves the application state (including nonces) untouched, in DeliverTx and in CheckTx.", "quantifier": "all states and all transaction byte strings", "why_tests_cant": "inputs are unbounded", "anchors": ["shuttermint/app/app.go: DeliverTx, CheckTx, decodeTx"]}
{"id": "C03", "title": "Batch configs form an append-only, ordered history", "statement": "In every reachable state the list of batch configs is non-empty, config indices strictly increase, start batch indices never decrease, an already accepted config never disappears and never changes except for its started / validators-updated flags; consequently looking up the config of any batch index always succeeds and yields the last config whose start index is not larger.", "quantifier": "all histories of ABCI calls, all batch indices", "why_tests_cant": "must hold for every history, the lookup panics otherwise", "anchors": ["shuttermint/app/app.go: addConfig, checkConfig, getConfig, LastConfig, EndBlock"]}
{"id": "C04", "title": "A batch config is accepted only with threshold votes", "statement": "Whenever a batch config gets added to the chain, at least `threshold` distinct keypers of the previously last config have each delivered a BatchConfig message carrying exactly this config since the previous config was added, and each keyper counts for at most one config.", "quantifier": "all histories of delivered transactions, all configs with threshold below 2^63", "why_tests_cant": "needs all interleavings of votes, duplicates, competing candidates", "anchors": ["shuttermint/app/app.go: deliverBatchConfig", "shuttermint/app/configvoting.go: AddVote, Outcome", "shuttermint/app/voting.go: OutcomeIndex"]}
{"id": "C05", "title": "Voting outcome does not depend on map iteration order", "statement": "Although the vote counter iterates Go maps in random order, the response to every message and the resulting state are the same for every iteration order, in every reachable state, so all validators compute the same state. The winning candidate is always the one just voted for.", "quantifier": "all reachable states, all iteration orders of the vote map", "why_tests_cant": "Go randomises map iteration; a test sees a few orders, a divergence would halt the chain", "anchors": ["shuttermint/app/voting.go: OutcomeIndex", "shuttermint/app/eonvoting.go", "shuttermint/app/configvoting.go", "shuttermint/app/app.go: deliverBatchConfig, maybeStartEon"]}
{"id": "C06", "title": "An eon restart needs threshold votes for the same batch index", "statement": "An EonStartVote message starts a new eon only if at least `threshold` distinct keypers of the config responsible for that batch index currently vote for exactly the batch index announced in the EonStarted event; after that the votes for this config are cleared.", "quantifier": "all histories of delivered transactions", "why_tests_cant": "votes may be changed, interleaved across configs and batch indices", "anchors": ["shuttermint/app/app.go: deliverEonStartVoteMsg, countEonStartVote, maybeStartEon", "shuttermint/app/eonvoting.go"]}
{"id": "C07", "title": "Eon numbers are assigned consecutively", "statement": "The eons announced in EonStarted events over the life of a chain are 1, 2, 3, ... in order, without gaps or repetitions, and key generation messages are accepted only for announced eons.", "quantifier": "all histories (up to 2^64 eons)", "why_tests_cant": "global history property", "anchors": ["shuttermint/app/app.go: StartDKG, deliverBatchConfig, maybeStartEon"]}
{"id": "C08", "title": "Key generation messages are unique per keyper", "statement": "For every eon, the chain publishes at most one poly commitment, one accusation and one apology message per sender and at most one poly evaluation per (sender, receiver) pair; sender and all referenced parties are keypers of the eon's config and the sender is never among the referenced parties.", "quantifier": "all histories of delivered transactions", "why_tests_cant": "depends on all message orders, duplicates within one message and across messages", "anchors": ["shuttermint/app/dkg.go", "shuttermint/app/messages.go", "shuttermint/app/app.go: handlePolyEvalMsg, handlePolyCommitmentMsg, handleAccusationMsg, handleApologyMsg"]}
{"id": "C09", "title": "One decryption signature per keyper and batch", "statement": "For every batch index, the chain publishes at most one decryption signature per keyper, only by keypers of the config that was responsible when the first signature arrived.", "quantifier": "all histories of delivered transactions", "why_tests_cant": "history property", "anchors": ["shuttermint/app/app.go: deliverDecryptionSignature, getBatchState", "shuttermint/app/batch_state.go"]}
{"id": "C10", "title": "Check-in is one-shot", "statement": "A keyper can register its validator key at most once; once registered the key never changes; only addresses that are keyper in some config are ever registered.", "quantifier": "all histories", "why_tests_cant": "history property", "anchors": ["shuttermint/app/app.go: deliverCheckIn, isKeyper"]}
{"id": "C11", "title": "Validator updates are an exact, deterministic diff", "statement": "At the end of every block, applying the announced validator updates to the previous validator set yields exactly the new validator set; the updates are strictly sorted by public key (so at most one per key, same on every node whatever the map iteration order), remove only existing validators and never contain no-ops.", "quantifier": "all pairs of power maps, all map iteration orders, all histories", "why_tests_cant": "wrong diffs halt tendermint; space of maps is unbounded", "anchors": ["shuttermint/app/powermap.go: DiffPowermaps, ValidatorUpdates, SortValidators", "shuttermint/app/app.go: EndBlock"]}
{"id": "C12", "title": "Validator set is backed by a started config", "statement": "After every EndBlock the validator set is either the genesis set or gives every keyper of the newest config that is started and has at least threshold checked-in keypers voting power 10 under its registered key (power of keypers that did not check in going to the placeholder key), so total power is 10 times the number of keypers.", "quantifier": "all histories", "why_tests_cant": "history property", "anchors": ["shuttermint/app/app.go: CurrentValidators, makePowermap, EndBlock, countCheckedInKeypers"]}
{"id": "C13", "title": "Mempool rate limiting", "statement": "Between two commits CheckTx accepts at most ten transactions per sender, only from known keypers (once there are any), and never two with the same nonce nor one that was already executed.", "quantifier": "all sequences of CheckTx calls interleaved with DeliverTx", "why_tests_cant": "all orders", "anchors": ["shuttermint/app/app.go: CheckTx", "shuttermint/app/checktx.go: AddTx, Reset, SetMembers"]}
{"id": "C14", "title": "Accepted configs have a reachable threshold", "statement": "Every config accepted by the chain satisfies 1 <= threshold <= number of keypers.", "quantifier": "all BatchConfig messages", "why_tests_cant": "the uint64 to int conversion is only wrong for inputs above 2^63 that no test tries", "anchors": ["shuttermint/keyper/shutterevents/batchconfig.go: EnsureValid", "shuttermint/app/app.go: checkConfig"]}
{"id": "C15", "title": "Starting a config needs threshold votes for that config", "statement": "A config becomes started at the end of a block only if at least `threshold` (of the previous config) distinct keypers of the previous config have sent BatchConfigStarted with this config's index.", "quantifier": "all histories", "why_tests_cant": "requires interleaving config changes with started votes", "anchors": ["shuttermint/app/app.go: deliverBatchConfigStarted, EndBlock, addConfig"]}
{"id": "C16", "title": "Config voting can always make progress", "statement": "As long as there are at least threshold honest keypers, a new config can eventually be voted in from any reachable state.", "quantifier": "all reachable states and all continuations", "why_tests_cant": "absence of progress over all continuations is not testable", "anchors": ["shuttermint/app/configvoting.go: AddVote", "shuttermint/app/app.go: deliverBatchConfig"]}
{"id": "C17", "title": "App state persistence is crash safe", "statement": "If the node crashes at any point, including in the middle of persisting, then reloading the state file and letting tendermint replay the blocks after the height reported by Info yields the same state as a node that never crashed.", "quantifier": "all histories of blocks, all crash points", "why_tests_cant": "crash points cannot be enumerated by tests", "anchors": ["shuttermint/app/app.go: PersistToDisk, LoadShutterAppFromFile, Info, Commit"]}
{"id": "C18", "title": "Keyper actions survive crashes exactly once", "statement": "Every action produced by the keyper's decision function is added to the pending action list exactly once, in order, with consecutive ids, for a crash at any point of decide / save state / add actions / save pending; adding actions never panics.", "quantifier": "all sequences of steps and crash points", "why_tests_cant": "crash points", "anchors": ["shuttermint/keyper/keyper.go: runOneStep, saveState, LoadState", "shuttermint/keyper/fx/pending.go: AddActions, save, Load, RemoveAction"]}
{"id": "C19", "title": "A pending action is forgotten only when done or expired", "statement": "An action leaves the list of pending actions only after it has been executed, has expired or has failed for a non-retriable reason; in particular shutting the keyper down while a main chain transaction is in flight does not lose it.", "quantifier": "all schedules of the worker goroutines and the shutdown", "why_tests_cant": "schedule", "anchors": ["shuttermint/keyper/fx/runenv.go: handleAction, handleInFlightTXs, scheduleAction", "shuttermint/keyper/fx/pending.go: RemoveAction"]}
{"id": "C20", "title": "State filtering never drops events that are still needed", "statement": "Advancing the keyper's sync height and filtering the observed shuttermint state keeps exactly the events with height at or above the sync height, in order: every getter returns the same events (from its height on) before and after filtering, for every kind of event.", "quantifier": "all event histories with non-decreasing heights, all filters", "why_tests_cant": "depends on binary search over arbitrary histories", "anchors": ["shuttermint/keyper/observe/shutter.go: ApplyFilter, Eon.ApplyFilter, Get*"]}
{"id": "C21", "title": "Eon lookup", "statement": "Looking up an eon by number or by batch index in the observed state returns the entry with that number, respectively the latest eon whose start batch index is not larger, for every observed list of eons.", "quantifier": "all eon lists sorted by eon number", "why_tests_cant": "binary search over arbitrary lists", "anchors": ["shuttermint/keyper/observe/shutter.go: searchEon, FindEon, FindEonByBatchIndex"]}
{"id": "C22", "title": "DKG phases partition time", "statement": "For positive phase lengths every block height from the eon start on belongs to exactly one phase, phases advance monotonically dealing, accusing, apologizing, finalized and each phase lasts exactly its configured length.", "quantifier": "all heights and phase lengths", "why_tests_cant": "arithmetic over all int64", "anchors": ["shuttermint/keyper/decide.go: PhaseLength, getPhaseAtHeight"]}
{"id": "C23", "title": "Execution stagger", "statement": "The delay before a keyper executes a half step never exceeds half of the execution timeout, distinct keypers of the same config get distinct slots for the same half step, slot 0 has no delay, and every keyper is eventually first.", "quantifier": "all configs, half steps and keyper indices", "why_tests_cant": "arithmetic over all uint64", "anchors": ["shuttermint/keyper/decide.go: executionDelay, getNumHalfStepsToExecute, executionTimeoutReachedOrInactive"]}
{"id": "C24", "title": "Batch/block arithmetic is consistent", "statement": "For an active config, a block lies between the start and end block of exactly one batch index and BatchIndex(block) computes it; batches tile the block line without gaps or overlaps; config lookup by batch index returns the last config whose start index is not larger.", "quantifier": "all uint64 configs and blocks without overflow", "why_tests_cant": "arithmetic over all uint64", "anchors": ["shuttermint/contract/config.go: BatchStartBlock, BatchEndBlock, BatchIndex, NextBatchIndex", "shuttermint/keyper/observe/mainchain.go: ConfigIndexForBatchIndex, ActiveConfigIndex"]}
{"id": "C25", "title": "Events published by the chain decode to what was sent", "statement": "For every key generation / config / signature / key share event the app emits, decoding its attributes yields the same event (up to fields documented as not transmitted).", "quantifier": "all event values", "why_tests_cant": "round trip over all values including empty lists", "anchors": ["shuttermint/keyper/shutterevents/events.go", "shuttermint/keyper/shutterevents/marshal.go"]}
{"id": "C26", "title": "Epoch key generation returns the right key from any threshold of valid shares", "statement": "Whatever the order, duplication and validity of incoming epoch secret key shares, the epoch secret key is produced exactly when threshold shares from distinct keypers that verify against their public key shares have been handled, it equals the unique correct epoch secret key, and it never changes afterwards.", "quantifier": "all sequences of share messages from arbitrary (also malicious) senders", "why_tests_cant": "adversarial orders and values", "anchors": ["shuttermint/keyper/epochkg/epochkg.go: HandleEpochSecretKeyShare", "shlib/shcrypto/keys.go: VerifyEpochSecretKeyShare, ComputeEpochSecretKey"]}
{"id": "C27", "title": "Signature lists for on-chain appeals are well formed", "statement": "The authorization a keyper submits with an appeal names strictly increasing indices of keypers of the batch's config, as many as the contract requires at least, each with a signature that was published by that keyper and verifies against the hash of the batch it decrypted and that was executed; the result does not depend on the iteration order of maps; and the contract accepts it while the accusation is open.", "quantifier": "all histories of decisions, published signatures, map orders and contract states", "why_tests_cant": "all subsets and orders", "anchors": ["shuttermint/keyper/decide.go: getSortedDecryptionSignaturesWithIndices, syncBatch, AddSignature", "contracts/contracts/KeyperSlasher.sol: verifySignatures"]}
{"id": "C28", "title": "Keyper and contract agree on the batch hash", "statement": "The hash a keyper signs over the transactions of a batch is the one the batcher and executor contracts accumulate and the slasher checks, for every list of transactions; a signature speaks for one batch index, one list of encrypted and one list of decrypted transactions only.", "quantifier": "all transaction lists", "why_tests_cant": "all lengths", "anchors": ["shuttermint/keyper/decide.go: transactionsHash, computeDecryptionSignatureHash", "contracts/contracts/BatcherContract.sol", "contracts/contracts/ExecutorContract.sol"]}
{"id": "C29", "title": "The scalar field is a field", "statement": "The group order used for secret sharing is prime and the library's inversion returns the multiplicative inverse of every non-zero residue.", "quantifier": "all residues modulo the 255-bit order", "why_tests_cant": "2^255 values", "anchors": ["shlib/shcrypto/feldman.go: order", "shlib/shcrypto/keys.go: invert"]}
{"id": "C30", "title": "Verifiable secret sharing is sound and complete", "statement": "VerifyPolyEval accepts a value for keyper i against commitments of the right degree if and only if the value is the evaluation at i+1 of the polynomial committed to.", "quantifier": "all commitments, thresholds, keypers and values", "why_tests_cant": "cryptographic size domain", "anchors": ["shlib/shcrypto/feldman.go: Eval, EvalForKeyper, Gammas, Pi, VerifyPolyEval"]}
{"id": "C31", "title": "Key generation agreement", "statement": "All keypers that saw the same broadcast commitments, accusations and apologies and finalise successfully obtain the same eon public key, the same public key shares and the same set of participants; each one's secret key share matches its public key share; at least threshold participants contribute.", "quantifier": "all numbers of keypers and thresholds, all adversarial messages, all private evaluations", "why_tests_cant": "adversarial", "anchors": ["shlib/puredkg/puredkg.go: ComputeResult, isCorrupt, Handle*"]}
{"id": "C32", "title": "An honest dealer is never excluded and a cheating dealer never gets an invalid share accepted", "statement": "In an execution of the key generation an honest keyper that answers all accusations is never treated as corrupt, and if finalisation succeeds every non-corrupt dealer's evaluation used verifies against its commitment.", "quantifier": "all adversarial message sequences in phases", "why_tests_cant": "adversarial", "anchors": ["shlib/puredkg/puredkg.go: StartPhase2Accusing, StartPhase3Apologizing, isCorrupt, ComputeResult"]}
{"id": "C33", "title": "Any threshold of key shares reconstructs the epoch key", "statement": "For every polynomial of degree below the threshold, every epoch and every list of exactly threshold distinct keypers, combining their epoch secret key shares yields the epoch point multiplied by the eon secret; combining a different number of shares is refused.", "quantifier": "all polynomials, subsets, thresholds", "why_tests_cant": "combinatorially many subsets over a 255-bit field", "anchors": ["shlib/shcrypto/keys.go: ComputeEpochSecretKey, lagrangeCoefficient, ComputeEpochSecretKeyShare"]}
{"id": "C34", "title": "Decryption inverts encryption", "statement": "For every message, random sigma, epoch and eon key, decrypting the encrypted message with the matching epoch secret key returns the message.", "quantifier": "all messages and keys", "why_tests_cant": "unbounded messages", "anchors": ["shlib/shcrypto/encryption.go: Encrypt, Decrypt, PadMessage, UnpadMessage"]}
{"id": "C35", "title": "Ciphertexts are not malleable", "statement": "A ciphertext that decrypts successfully is the one Encrypt would produce for the decrypted message, so a changed ciphertext is rejected.", "quantifier": "all ciphertexts", "why_tests_cant": "all ciphertexts", "anchors": ["shlib/shcrypto/encryption.go: Decrypt, DecryptBlocks, UnpadMessage"]}
{"id": "C36", "title": "Padding round trip", "statement": "Padding then unpadding returns the message, padded length is a positive multiple of the block size and the padding is injective.", "quantifier": "all byte strings", "why_tests_cant": "unbounded lengths", "anchors": ["shlib/shcrypto/encryption.go: PadMessage, UnpadMessage"]}
{"id": "C37", "title": "Serialisation round trips and rejects malformed input", "statement": "Unmarshal inverts Marshal for encrypted messages, secret key shares and commitments, every accepted byte string of an encrypted message or key share re-marshals to the same bytes, and inputs of wrong length, version or out of range are rejected without panic.", "quantifier": "all values and all byte strings", "why_tests_cant": "unbounded", "anchors": ["shlib/shcrypto/encoding.go", "shlib/shcrypto/version.go: IdentifyVersion"]}
{"id": "C38", "title": "Shuffle is a permutation", "statement": "Shuffling transactions with an epoch key returns a permutation of the input, is determined by the key and the length alone, and leaves the input slice unchanged.", "quantifier": "all transaction lists and keys", "why_tests_cant": "unbounded", "anchors": ["shlib/shcrypto/shuffle.go"]}
{"id": "C39", "title": "Encrypting does not modify the caller's memory", "statement": "Encrypt and PadMessage never change bytes reachable through the caller's slice or any slice sharing its backing array.", "quantifier": "all slices including those with spare capacity", "why_tests_cant": "aliasing depends on capacity, not on value", "anchors": ["shlib/shcrypto/encryption.go: PadMessage"]}
{"id": "C40", "title": "Fewer shares than the threshold reveal nothing", "statement": "For every polynomial with threshold many coefficients, every set of fewer than threshold keypers and every candidate secret there is a polynomial of the same size that gives the same evaluations to these keypers and has the candidate as its secret: the evaluations of fewer than threshold keypers are consistent with every secret.", "quantifier": "all polynomials, thresholds, sets of keypers and secrets", "why_tests_cant": "It is a statement about all alternative secrets in a 255-bit field and all subsets of keypers.", "anchors": ["shlib/shcrypto/feldman.go:RandomPolynomial", "shlib/shcrypto/feldman.go:EvalForKeyper"]}
{"id": "C41", "title": "Keystream blocks never share a hash input", "statement": "The key of every block of every message is the hash of a distinct input: two blocks (of one or of two messages) use the same hash input only if they have the same block number and the messages use the same sigma, and none of the inputs is used for the other hash functions.", "quantifier": "all sigmas and all block numbers below 2^64", "why_tests_cant": "an overlap of inputs could occur for any pair of block numbers; tests try a few", "anchors": ["shlib/shcrypto/encryption.go: computeBlockKey, Uint64toBytes", "shlib/shcrypto/hash.go"]}
{"id": "C42", "title": "Epoch secret key verification", "statement": "VerifyEpochSecretKey accepts the epoch secret key that belongs to the eon public key and the epoch, for every message and randomness, and accepts another key only if the hash functions collide on the values it computes (or the derived scalar is zero).", "quantifier": "all keys, epochs, messages and sigmas", "why_tests_cant": "ranges over all keys and messages", "anchors": ["shlib/shcrypto/keys.go: VerifyEpochSecretKeyDeterministic"]}
{"id": "C43", "title": "Actions are carried out in the order they were decided", "statement": "A message is sent to shuttermint only while its action is pending and only after every message decided earlier has left the list of pending actions; a main chain transaction is sent only after every transaction decided earlier has been sent and its hash stored, or has left the list; across all crashes and restarts.", "quantifier": "all schedules of main loop, workers, external answers, shutdowns and crashes", "why_tests_cant": "ranges over all interleavings and crash points", "anchors": ["shuttermint/keyper/fx/runenv.go: handleActions, scheduleAction, Load, StartBackgroundTasks", "shuttermint/keyper/fx/pending.go: SortedIDs"]}
{"id": "C44", "title": "Main chain transactions are not sent twice", "statement": "A main chain transaction is sent at most once between two restarts, and never again after its hash was stored or its action was removed; it is sent twice only if the process was restarted in between, before the hash was stored.", "quantifier": "all schedules and crash points", "why_tests_cant": "ranges over all interleavings and crash points", "anchors": ["shuttermint/keyper/fx/runenv.go: sendMainChainTX, scheduleAction", "shuttermint/keyper/fx/pending.go: SetMainChainTXHash"]}
{"id": "C45", "title": "Decisions see every published event exactly once", "statement": "Every event that shuttermint publishes below the height the keyper has processed (its sync height) was offered to the keyper's decisions exactly once and in chain order, however fetching, filtering of old data, main chain updates, saving of the state and crashes interleave.", "quantifier": "all chains, all schedules of the observer and main loop, all crash points and restarts", "why_tests_cant": "ranges over all interleavings of observer goroutines, filters and crashes; a lost event shows up only in particular schedules", "anchors": ["shuttermint/keyper/keyper.go: syncOnce, LoadState, runOneStep", "shuttermint/keyper/observe/shutter.go: SyncShutter, ApplyFilter", "shuttermint/keyper/decide.go: Decide"]}
{"id": "C46", "title": "Fetching events is complete", "statement": "Synchronising the view of shuttermint to a height not below the current one applies exactly the events of the blocks in between, each once and in chain order, however many query windows and result pages that takes, and does not run into the internal-error exits.", "quantifier": "all chains, all current and target heights, all numbers of transactions per block", "why_tests_cant": "ranges over unbounded chains and all alignments of blocks with windows of 500 blocks and pages of 100 results", "anchors": ["shuttermint/keyper/observe/shutter.go: fetchAndApplyEvents, SyncToHeight"]}
{"id": "C47", "title": "The config contract keeps a well-formed, agreed schedule", "statement": "Every batch index has exactly one config, consecutive configs fit together without gap or overlap of batches, a config is only added or removed with at least the heads-up notice, the config of a batch never changes once transactions for it are accepted, the keypers' Go code computes the same config and boundaries as the contract, and batches end in the order of their numbers.", "quantifier": "all histories of calls by anyone, blocks mined between them, and nested calls", "why_tests_cant": "any sequence of schedule/unschedule calls at any block; overflow at any value", "anchors": ["contracts/contracts/ConfigContract.sol: scheduleNextConfig, unscheduleConfigs, configIndexForBatchIndex, batchBoundaryBlocks", "shuttermint/contract/config.go"]}
{"id": "C48", "title": "The batcher records exactly the accepted transactions", "statement": "A transaction is accepted exactly if its batch is open, active, large enough and the fee is paid; the hash of a batch is the hash chain over the accepted transactions in order and its size is their total size; after the end block nothing is added; equal hashes mean equal transactions unless keccak collides.", "quantifier": "all histories of calls by anyone", "why_tests_cant": "unbounded histories and all transactions", "anchors": ["contracts/contracts/BatcherContract.sol: addTransaction", "contracts/contracts/FeeBankContract.sol: deposit"]}
{"id": "C49", "title": "The executor executes every half step once, in order, and only what was batched", "statement": "Half steps are executed or skipped one after the other and none twice; a cipher half step is executed only by a keyper of its config, between the end and the timeout of the batch, for the recorded batch hash; a cipher half step is skipped only after the timeout or if the batch is empty; the plain transactions executed are those accepted for the batch; after the timeout anyone can advance; receipts are exactly those of executed cipher half steps.", "quantifier": "all histories of calls by anyone, including calls made by executed transactions", "why_tests_cant": "interleavings and reentrant calls are unbounded", "anchors": ["contracts/contracts/ExecutorContract.sol"]}
{"id": "C50", "title": "Slashing needs an unanswered accusation", "statement": "Receipts and accusations never change after they are made; an accusation needs a keyper and a non-empty executed cipher batch; an appeal succeeds exactly with valid signatures of at least threshold distinct keypers on the receipt; nobody is slashed before the appeal period ends or after a successful appeal; a slashed deposit implies an executed, accused and unappealed half step of that keyper.", "quantifier": "all histories of calls by anyone, including reentrant calls", "why_tests_cant": "any order of accusations, appeals, slashes and blocks", "anchors": ["contracts/contracts/KeyperSlasher.sol", "contracts/contracts/DepositContract.sol: slash"]}
{"id": "C51", "title": "Deposits are conserved and withdrawn only after the delay", "statement": "The tokens of the deposit contract are at least the sum of the recorded deposits, each account's ledger equals what it sent minus what left, a withdrawal needs a request and the full delay after it, a slashed account stays slashed and can deposit no more, and only the slasher set first can slash.", "quantifier": "all histories of calls by anyone, including token hooks that call back", "why_tests_cant": "reentrancy and arithmetic at any amounts", "anchors": ["contracts/contracts/DepositContract.sol"]}
{"id": "C52", "title": "Fees are conserved", "statement": "The fee bank holds at least the sum of the recorded fees, every account's record is what it was credited minus what it withdrew, and a withdrawal takes at most the record of its sender.", "quantifier": "all histories of calls by anyone, including receivers that call back", "why_tests_cant": "reentrancy", "anchors": ["contracts/contracts/FeeBankContract.sol"]}
{"id": "C53", "title": "The key broadcast contract counts votes honestly", "statement": "Each keyper votes at most once per batch and only with its own index of an active config, the recorded vote counts are the numbers of votes cast, and the best key is one that was voted for and has the most votes.", "quantifier": "all histories of calls by anyone", "why_tests_cant": "all orders of votes", "anchors": ["contracts/contracts/KeyBroadcastContract.sol"]}
{"id": "C54", "title": "The keyper's picture of the main chain is the main chain", "statement": "Whatever forks the Ethereum node reports and whenever new heads arrive, the transactions, batch hashes, executed half steps, receipts, accusations, appeals and configs a keyper works with are those of the contracts at the block `follow distance` below the head; nothing is lost, duplicated or taken from an abandoned fork.", "quantifier": "all chains of contract calls, forks shallower than the follow distance, and sequences of heads", "why_tests_cant": "all fork and polling schedules", "anchors": ["shuttermint/keyper/observe/mainchain.go: SyncToHead, syncConfigs, syncBatches, syncExecutionState, syncSlashings", "shuttermint/contract/config.go: GetConfigByIndex"]}
{"id": "C55", "title": "Key shares are released only for closed batches, once", "statement": "A keyper submits its share of a batch's decryption key only when the batch is over in the main chain block it has followed to, its execution has not timed out, it is a keyper of the batch's config and it holds the eon's key; from then on the transactions of the batch can no longer change, so nobody can see the key while the batch is open. Shares are submitted batch after batch, none twice, and at the first decision that finds the batch over; a share not submitted then is never submitted.", "quantifier": "all sequences of views of both chains and decisions", "why_tests_cant": "the moment of release depends on the schedule of two chains, restarts and configs", "anchors": ["shuttermint/keyper/decide.go: maybeSendEpochSecretKeyShare, sendEpochSecretKeyShare", "shuttermint/keyper/observe/mainchain.go"]}
{"id": "C56", "title": "Keypers execute the right batches at the right time, once", "statement": "The half steps a keyper submits for execution are consecutive from the one the chain is at, at most ten per decision, and none is submitted twice; nothing more is submitted before the chain has got past them. A cipher batch is submitted only in the keyper's time slot and before the timeout, a skip only after the timeout; what is submitted are the decryptions of the transactions of the batch as on the chain, with enough valid decryption signatures unless the batch is empty; the contract accepts it if it is still at this half step.", "quantifier": "all sequences of views of the chain, keys, signatures and decisions", "why_tests_cant": "all schedules of main chain and shuttermint events", "anchors": ["shuttermint/keyper/decide.go: maybeExecuteBatch, maybeExecuteHalfStep, maybeExecuteCipherBatch, maybeExecutePlainBatch, executionDelay"]}
{"id": "C57", "title": "Keypers accuse the guilty and defend themselves", "statement": "A keyper accuses the executor of a cipher half step only if the executed batch is not the decryption it found, nobody accused before, and at most once; a keyper that executed a batch and is accused submits an appeal with enough signatures as soon as it sees the accusation.", "quantifier": "all sequences of views of the chain, keys, signatures and decisions", "why_tests_cant": "all schedules of main chain and shuttermint events", "anchors": ["shuttermint/keyper/decide.go: maybeAccuse, maybeAppeal, syncPendingAppeals"]}
{"id": "C58", "title": "All keypers that hold an eon's key hold the same key", "statement": "Whatever the times at which two keypers follow the shuttermint chain, make decisions, crash and restart: if both hold the result of an eon's key generation, they hold the same eon public key, the same public key shares, the same threshold, and secret shares that match; and that result is the one the DKG protocol defines from the commitments, evaluations, accusations and apologies on the chain.", "quantifier": "all chains, all schedules of synchronisation, decisions, crashes", "why_tests_cant": "any number of keypers, all interleavings and histories", "anchors": ["shuttermint/keyper/decide.go: startDKG, handleDKGs, syncDKGWithEon, startPhase*", "shlib/puredkg"]}
{"id": "C59", "title": "Keypers take part in every key generation, in time", "statement": "Each DKG message a keyper submits belongs to an eon that has started, for which it is a keyper, and to the phase of the block it follows to; a keyper that decides at least once in a phase submits the message due in it (commitment and evaluations for all others in the dealing phase, accusations, apologies); it votes to restart an eon exactly when its key generation has failed, and announces the eon key exactly when it has succeeded, once per eon.", "quantifier": "all chains, schedules of decisions, crash points", "why_tests_cant": "all schedules relative to the phase boundaries", "anchors": ["shuttermint/keyper/decide.go: startPhase1Dealing, startPhase2Accusing, startPhase3Apologizing, dkgFinalize, maybeSendEonStartVote"]}
{"id": "C60", "title": "Decryption keys are right, unique, and found with enough shares", "statement": "If a keyper holds a decryption key for an epoch of an eon, it satisfies the pairing equation with the eon's public key; any two keypers that hold the same eon key hold the same key for the same epoch; and a keyper that has followed the chain until threshold many keypers have published a valid share holds the key. A share an honest keyper publishes is valid for every keyper with the same config for the eon.", "quantifier": "all chains incl. arbitrary invalid shares by other keypers, all schedules", "why_tests_cant": "all subsets of share senders, all orders, any number of keypers", "anchors": ["shuttermint/keyper/decide.go: handleEpochKG, syncEKGs", "shuttermint/keyper/epochkg/epochkg.go"]}
{"id": "C61", "title": "Check-ins and config votes are sent once, and are right", "statement": "A keyper checks in at most once, exactly when it is a keyper of some config, follows both chains, and the chain does not have its check-in. It votes for batch configs in the order of their indices, for each at most once, exactly when the config is the next one that shuttermint does not have and the main chain has it; the vote carries the main chain's config, so the votes of all keypers agree.", "quantifier": "all sequences of views of both chains and decisions", "why_tests_cant": "all schedules of two chains and decisions", "anchors": ["shuttermint/keyper/decide.go: maybeSendCheckIn, shouldSendCheckIn, maybeSendBatchConfig, sendBatchConfig"]}
{"id": "C62", "title": "What is on the chains does not crash a keyper", "statement": "Whatever transactions anyone sends to the shuttermint chain and to the contracts, every decision of a keyper ends with a new state and actions; it does not panic, however often the keyper is restarted. (Open where the keyper's main chain node lags behind: a decryption signature for a batch whose config it does not know makes it panic.)", "quantifier": "all histories of both chains, all schedules of synchronisations, decisions and restarts", "why_tests_cant": "every chain content that arbitrary keypers can produce, at every moment of the keyper's life", "anchors": ["shuttermint/keyper/decide.go", "shuttermint/keyper/epochkg/epochkg.go", "shlib/puredkg/puredkg.go", "shuttermint/keyper/observe/mainchain.go", "shuttermint/contract/config.go"]}
{"id": "C63", "title": "A key generation with enough honest keypers succeeds", "statement": "If all keypers of an eon's config that take part do so honestly (decide in each phase, and their messages are included in the phase in which they were submitted), and at least threshold many do so, then each of them finishes the key generation of the eon successfully, no matter what the others publish.", "quantifier": "all chains with arbitrary messages of the dishonest keypers, all schedules of the honest ones", "why_tests_cant": "any number of keypers and any behaviour of the dishonest ones", "anchors": ["shuttermint/keyper/decide.go", "shlib/puredkg/puredkg.go"]}
{"id": "C64", "title": "The app sees the messages keypers send, from the keypers that signed them", "statement": "A transaction made from a message and a keyper's signing key is decoded by the app to that message with that keyper as the sender; each kind of message the keyper submits carries exactly the data of the action it was made from (eon, receivers, evaluations, points, config).", "quantifier": "all messages, all signing keys, all codecs that satisfy their round trip laws", "why_tests_cant": "all payloads, including empty lists and numbers of any size", "anchors": ["shuttermint/keyper/fx/messagesender.go", "shuttermint/shmsg/shmsg.go: Add22SignMessage, GetSigner, GetMessage", "shuttermint/app/app.go: decodeTx"]}
{"id": "C65", "title": "Every chain the app produces is well-formed for the keypers", "statement": "On any chain that the app produced from any transactions, as keypers read it: eons announced have increasing numbers; every event carries the height of its block; configs have different keypers, at least one, and a positive threshold (at most their number unless it is 2^63 or more); each message of the key generation names each receiver, accused or accuser once and carries one evaluation for each.", "quantifier": "all sequences of blocks and transactions, by anyone", "why_tests_cant": "all histories of arbitrary transactions", "anchors": ["shuttermint/app/messages.go", "shuttermint/app/app.go", "shuttermint/keyper/observe/shutter.go: fetchAndApplyEvents", "shuttermint/keyper/shutterevents/events.go"]}
{"id": "C66", "title": "Keypers and app together generate keys", "statement": "In the whole system of app, chain and keypers: if at least threshold many keypers of an eon's config decide in each phase and their transactions are accepted in the phase they were sent in, each of them gets the key of the eon and it is the same for all, whatever else is sent to the chain by anyone; and every message on the chain in a keyper's name was signed by that keyper.", "quantifier": "all transactions by anyone, all schedules of blocks, keypers and decisions", "why_tests_cant": "any number of keypers, any behaviour of the others, all interleavings", "anchors": ["shuttermint/app/app.go", "shuttermint/app/messages.go", "shuttermint/keyper/decide.go", "shuttermint/keyper/keyper.go", "shlib/puredkg/puredkg.go"]}
{"id": "C67", "title": "BLS signatures verify exactly what was signed", "statement": "For every public key and message there is exactly one signature that Verify accepts, the one Sign makes with the key's secret; the aggregate of signatures on one message is the one signature accepted for the aggregate of the signers' keys, in any order and grouping; a secret key below the group order has exactly one encoding, of 32 bytes, every other input is rejected and never leaves a corrupt key behind; public keys and signatures are accepted exactly in their canonical encoding.", "quantifier": "all secret keys, messages, signatures, sets of signers and byte strings, for every pairing of groups of the bn256 order", "why_tests_cant": "tests sign with a few random keys; rejection of all other signatures ranges over the whole group", "anchors": ["shlib/shcrypto/shbls/shbls.go: SecretToPublicKey, Sign, Verify, AggregateSignatures, AggregatePublicKeys, RandomKeyPair, hashToG2", "shlib/shcrypto/shbls/encoding.go: Marshal, Unmarshal"]}
{"id": "C68", "title": "BLS signatures need the secret key", "statement": "Nobody can make a signature on a message for a public key, or for an aggregate of public keys, without the secret keys of all of them.", "quantifier": "all messages, keys and sets of signatures seen before", "why_tests_cant": "it is about what an adversary can compute from any set of observed signatures", "anchors": ["shlib/shcrypto/shbls/shbls.go: SecretToPublicKey, Sign, Verify, AggregateSignatures, AggregatePublicKeys, RandomKeyPair, hashToG2", "shlib/shcrypto/shbls/encoding.go: Marshal, Unmarshal"]}
{"id": "C69", "title": "What users encrypt is what keypers execute", "statement": "If users encrypt messages for a batch with the public key of its eon and send them to the batcher contract, then the keypers that execute the batch execute every one of these messages exactly as the users wrote them, whatever else is sent to the batch, and every keyper executes the same transactions in the same order. The key for one batch is not the key for another, unless the hash to the curve sends two different strings to one point.", "quantifier": "all messages, randomness, other transactions in the batch (also malformed ones), main chain and shuttermint histories, keypers and schedules", "why_tests_cant": "it is an end-to-end property of encryption, encoding, both chains, distributed key generation, threshold decryption and the decisions of every keyper in every interleaving", "anchors": ["shlib/shcrypto/encryption.go: Encrypt, Decrypt", "shlib/shcrypto/encoding.go: Marshal, Unmarshal", "shuttermint/keyper/observe/mainchain.go: DecryptTransactions", "shuttermint/keyper/epochkg/epochkg.go: HandleEpochSecretKeyShare", "shuttermint/keyper/decide.go: syncKeyShares, maybeExecuteCipherBatch"]}
{"id": "C70", "title": "The app accepts what honest keypers send", "statement": "The app accepts a message of the distributed key generation if and only if it is for its chain, has a nonce its sender has not used, is about an eon that has been announced, comes from a keyper of the config of that eon, and is well-formed, about other keypers of the config and the first of its kind. Every message of the key generation that a keyper decides to submit meets these conditions in any block after the one that announced the eon, whatever others send. So if at least a threshold of keypers make a decision in every phase and their transactions get into blocks of that phase, all of them end up with the same eon key.", "quantifier": "all transactions, histories of the app, contents of the chain, keypers, schedules of decisions, with any behaviour of the other keypers", "why_tests_cant": "the app's checks and the keypers' decisions are made in different processes at different times from different views; that they never contradict each other is a property of every interleaving", "anchors": ["shuttermint/app/app.go: DeliverTx, deliverMessage, handlePolyCommitmentMsg, handlePolyEvalMsg, handleAccusationMsg, handleApologyMsg", "shuttermint/app/dkg.go: RegisterPolyCommitmentMsg, RegisterPolyEvalMsg, RegisterAccusationMsg, RegisterApologyMsg", "shuttermint/app/messages.go: ParsePolyCommitmentMsg, ParsePolyEvalMsg, ParseAccusationMsg, ParseApologyMsg", "shuttermint/keyper/decide.go: startPhase1Dealing, startPhase2Accusing, startPhase3Apologizing, maybeSendPolyEvals"]}
{"id": "C71", "title": "What a keyper gives up cannot be done any more", "statement": "A keyper drops a pending main chain transaction (execution or skipping of a batch, accusation, appeal) as expired, according to its view of the chain, only if from then on the contracts reject that transaction from any sender, whatever else happens on the chain. Conversely, as soon as the keyper sees the block in which the transaction, or the same one from someone else, succeeded, it drops it. A dropped transaction does not become valid or unexpired later, and an appeal the keyper decided on is dropped only because the accusation was appealed. The errors after which the keyper does not try again (already accused, empty batch, wrong signer in an appeal) are final.", "quantifier": "all chains (sequences of blocks with any transactions of anyone), reorganisations up to the follow distance, keyper views, actions, later histories and senders", "why_tests_cant": "the keyper judges from an old, filtered copy of the chain; that its judgement holds of every future of the real chain is a property of all histories of the contracts", "anchors": ["shuttermint/keyper/fx/actions.go: IsExpired, SendTX", "shuttermint/keyper/fx/runenv.go: handleActions, waitMined", "shuttermint/keyper/observe/mainchain.go: MainChain", "contracts/contracts/ExecutorContract.sol: executeCipherBatch, executePlainBatch, skipCipherExecution", "contracts/contracts/KeyperSlasher.sol: accuse, appeal"]}
{"id": "C72", "title": "The config commands schedule what the operator asked for", "statement": "`config set-next` with a config file makes the next config of the contract exactly the config of the file, whatever was left there before and whatever everybody but the owner does in between, and changes nothing else. If the file leaves the start open, the start it chooses is where a batch of the last scheduled config ends, at least 20 blocks beyond the notice and at most one batch later. `config schedule` afterwards schedules exactly this config if and only if it is mined early enough for the notice and the length of the running batches, and otherwise changes nothing; with batches no longer than the notice, 19 blocks are enough.", "quantifier": "all config files, histories of the contracts before, all transactions of others between the operator's transactions, and the blocks in which these are mined", "why_tests_cant": "the command sends up to 14 transactions computed from one look at the chain, and others act in between; that start block and start batch always fit the last config is arithmetic over all configs and block numbers", "anchors": ["shuttermint/cmd/config/setnext.go: setNext, chooseStartBlockAndBatch", "shuttermint/cmd/config/schedule.go", "shuttermint/contract/config.go: SetNextBatchConfig, GetNextConfig, UnmarshalJSON", "contracts/contracts/ConfigContract.sol: the setters of the next config, scheduleNextConfig"]}
{"id": "C73", "title": "Bootstrapping starts the chain, and started configs take over", "statement": "A vote for starting the last accepted config counts if and only if it names that config and comes from a keyper of the config before it. As soon as a threshold of them voted, the config is started at the next end of a block, and as soon as also a threshold of its own keypers have checked in, the validators of the chain are exactly its keypers, each with the key he checked in with, until a further config is announced - whatever anybody else sends in between. In particular, on a chain whose genesis config has threshold 1, the two transactions of `bootstrap` of a genesis keyper announce the config, start a key generation for it (unless the current one is already for the same keypers and threshold) and start the config. Before a config is announced, votes for starting one are rejected.", "quantifier": "all genesis configs, histories, message orders, senders, blocks and votes", "why_tests_cant": "the votes, the check-ins and other transactions are interleaved arbitrarily over many blocks; that none is lost and none of the rest disturbs them is a property of all histories", "anchors": ["shuttermint/app/app.go: deliverBatchConfigStarted, EndBlock, CurrentValidators, deliverBatchConfig, ShouldStartDKG", "shuttermint/app/powermap.go: MakePowermap", "shuttermint/cmd/bootstrap.go: bootstrap"]}
{"id": "C74", "title": "Executing what the keypers did not sign costs the deposit", "statement": "If fewer than threshold keypers of a batch's config signed what an executor executed for it, then once he is accused no appeal ever succeeds, whoever tries whatever. As soon as the appeal period is over, anyone can slash him, unless that has happened; if he had not asked for his deposit when he was accused and its withdrawal delay is long enough, the deposit is still there, and the slash moves all of it to the slashing receiver for good. The contracts do not make sure that it is there: a delay shorter than the appeal period is accepted, and so is an executor without a deposit.", "quantifier": "all histories before the accusation and after it, all callers, nested calls, authorizations, signatures and sets of signers", "why_tests_cant": "that no sequence of calls ends the accusation or frees the deposit, reentrant calls included, is a property of all histories of five contracts together", "anchors": ["contracts/contracts/KeyperSlasher.sol: accuse, appeal, verifyAuthorization, slash", "contracts/contracts/DepositContract.sol: slash, requestWithdrawal, withdraw, _deposit", "contracts/contracts/ExecutorContract.sol: executeCipherBatch, getReceipt", "contracts/contracts/ConfigContract.sol: configForBatchIndex"]}
{"id": "C75", "title": "Preparing a keyper set: threshold, funding, draining", "statement": "`prepare configs` sets the least threshold that is at least two thirds of the keypers: any two quorums share at least a third of them, and a quorum exists as long as at most a third is away (with the default of three keypers, however, one that signs twice makes two quorums that share nobody else). `prepare fund`: a listed address ends with what it had when the command looked, plus the top-up, plus what other transactions brought or took; so a keyper that sends nothing has at least half an ether then, and a whole one if he had less than half (but an address listed twice is topped up twice). If the owner sends nothing else and can pay for everything, the next transaction of the command can always be included. `prepare unfund`: an account is drained iff it has more than the fee; if it sends nothing meanwhile the transaction can be included, leaves exactly what came in since and gives the receiver the rest without the fee; if it sends anything meanwhile - the keyper still runs - the transaction is never valid.", "quantifier": "all numbers of keypers and quorums, all balances, gas prices and address lists, all interleavings with any other transactions", "why_tests_cant": "other accounts' transactions are mined between the command's queries and its transactions, in any number and order", "anchors": ["shuttermint/cmd/prepare/configs.go: twothirds, generateConfigJSON", "shuttermint/cmd/prepare/fund.go: determineFundings, fundAddresses", "shuttermint/cmd/prepare/unfund.go: Drain", "shuttermint/medley/txbatch/txbatch.go: Add, InitTransactOpts"]}
{"id": "C76", "title": "A batch's transactions are the users' calls", "statement": "If the users of a batch encode their calls (receiver, data) for the target proxy, executing the batch makes exactly these calls, in order, with the proxy as sender; a call that fails or runs out of gas is undone, and its index and only such indices are reported. Whatever else is in a batch, at most one call per transaction is made, with data contained in that transaction. Nobody but the executor gets the proxy to call anyone, and with another function selector in the config nothing is executed. (Different transactions can make the same call: bytes can be appended.)", "quantifier": "all batches of transactions of any bytes, all receivers' code and all states of the chain", "why_tests_cant": "a decoder over all byte strings and arbitrary other contracts' behaviour", "anchors": ["contracts/contracts/TargetProxyContract.sol: executeTransaction", "contracts/contracts/ExecutorContract.sol: executeTransactions"]}
{"id": "C77", "title": "A message is executed once, and only with its sender's signature", "statement": "A message that the example application encodes and puts into a batch whose target is the proxy of the deployment is executed by the test target contract iff its nonce was not used before and the gas suffices; otherwise nothing changes. In every history of calls by anyone, each nonce of a sender is executed at most once, each executed message came through the proxy with its sender's signature of this message and nonce, and if a sender signs nothing but a set of messages, nothing else appears with his address, unless Keccak-256 has a collision. (The signature is not for one deployment: the message can be executed at others too; the zero address needs no signature; and with the config `prepare configs` writes, whose target is the test target contract instead of the proxy, nothing is ever executed.)", "quantifier": "all messages, nonces, signers, histories of calls by anyone, states of the rest of the chain", "why_tests_cant": "replay protection is a property of all histories; the decoder accepts many encodings of a payload", "anchors": ["contracts/contracts/TestTargetContract.sol: executeTransaction, isNonceUsed", "contracts/contracts/TargetProxyContract.sol: executeTransaction", "contracts/contracts/ExecutorContract.sol: executeTransactions", "example/src/utils.js: encodeTargetContractData, encodeTargetContractCall, encodeProxyContractData, encodeMessage", "shuttermint/cmd/prepare/configs.go: generateConfigJSON", "shuttermint/cmd/deploy/deploy.go"]}
{"id": "C78", "title": "The gas price multiplier", "statement": "The adjusted gas price is the price times the multiplier rounded down, exactly as long as the product needs no more than 64 bits; always it is not negative and off by less than one wei and 2^-64 of itself. A multiplier of at least one never lowers the price, prices below 2^64 wei keep their order, the default is one and a half times the price. Multipliers below zero are rejected (but a nan ends the keyper with a panic, and inf is accepted and leaves the price to the ethereum library).", "quantifier": "all gas prices and all float64 multipliers", "why_tests_cant": "floating point rounding over all inputs", "anchors": ["shuttermint/keyper/gaspricer/gaspricer.go: SetMultiplier, Adjust", "shuttermint/contract/caller.go", "shuttermint/cmd/prepare/fund.go: fundAddresses"]}
{"id": "C79", "title": "The example app picks the key and the batch", "statement": "The config the example app reads is the last one that has started, it always finds one, and it stays the current one as long as no config starts, whatever is scheduled and unscheduled meanwhile. The batch it computes for a block is the one whose last span contains the block, and the contracts use the same config for it. A transaction sent from an up to date page and mined at most three blocks after it was sent is accepted if it fits, no fee is required and batches span at least three blocks; if a fee is required or it comes a whole span later it is rejected. The key it encrypts with is one a threshold of keypers voted for and no key has more votes, if the threshold is below ten; for larger thresholds this is false, as the app compares the numbers as strings (\"2\" >= \"10\"). The key is always the one for the batches from 0 on, also after the keypers have voted for a newer one, and a page from before a config with shorter batches starts picks batches that are over.", "quantifier": "all histories of the contracts, page loads, block estimates, transactions and numbers of votes", "why_tests_cant": "the configs, the votes and the time between loading the page, sending and mining are arbitrary", "anchors": ["example/src/utils.js: getConfigIndexAtBlock, getConfigAtBlock, getBatchIndexAtBlock", "example/src/App.vue: getKeyAndConfig", "example/src/components/SubmitForm.vue: sendTransaction, expectedInclusionDelay", "example/src/blocknumber.js: getBlockNumber", "contracts/contracts/BatcherContract.sol: addTransaction", "contracts/contracts/KeyBroadcastContract.sol: getBestKey, getBestKeyNumVotes"]}
{"id": "C80", "title": "A message is delivered exactly once", "statement": "A message that is in a batch the executor contract executes ends up in the target contract's log exactly once, and no other message of the sender has its nonce, whatever the rest of the batch is, however often the transaction is repeated in this or other batches and whatever else happens on the chain, if the sender signs nothing but messages with different nonces, gas suffices and hashes do not collide. Messages never disappear from the log. So a message the user sealed for a batch with the public key of its eon is delivered once a keyper that has decrypted the batch gets it executed.", "quantifier": "all messages, all other transactions, all histories of the chain, all behaviours of other contracts that cannot write to the target's state, all runs of the keyper", "why_tests_cant": "others can repeat the transaction or put anything else in front of it; the composition crosses encryption, shuttermint, keyper and two contracts", "anchors": ["contracts/contracts/TestTargetContract.sol: executeTransaction", "contracts/contracts/TargetProxyContract.sol: executeTransaction", "contracts/contracts/ExecutorContract.sol: executeTransactions", "example/src/utils.js: encodeMessage", "shuttermint/keyper/decide.go: executeCipherBatch", "shlib/shcrypto/encryption.go: Encrypt"]}
{"id": "C81", "title": "The bytes of a shuttermint message", "statement": "A shuttermint message is written as protobuf prescribes: payload, chain id and nonce as fields 1 to 3, numbers as varints, default values left out. Every message whose fields have the Go types is read back as it was written, and no two messages have the same bytes, so that what is signed is one message. Whatever bytes are read, the fields have their types, and numbers that do not fit in 64 bits are an error. Fields of later versions are ignored before and behind the known ones, and a kind of message that is not known is read as one of no known kind.", "quantifier": "all messages, with lists and byte strings of every length, and all byte strings that are read", "why_tests_cant": "round trips and unambiguity over all messages; parsing of arbitrary bytes", "anchors": ["shuttermint/shmsg/shmsg.proto", "shuttermint/shmsg/encode.go:SignMessage", "shuttermint/shmsg/encode.go:GetMessage", "shuttermint/shmsg/extend_test.go"]}
{"id": "C82", "title": "The keyper's configuration file", "statement": "A keyper configuration that is written to a file is the configuration that is read from it, if its keys are keys of the curve, its seed has 32 bytes, its numbers are below 2^63 and its paths and server addresses contain no quotes, backslashes or control characters. An address is only accepted with its checksum, so every address has exactly one accepted spelling; whatever file is accepted, its signing and encryption keys are numbers from 1 to the curve's order, written with 64 digits, and the seed has 32 bytes. (Values are not escaped when they are written: a path with backslashes is read as another path, a quote makes the file unreadable or adds entries.)", "quantifier": "all configurations and all files", "why_tests_cant": "a round trip through a text format over all values; acceptance over all files", "anchors": ["shuttermint/keyper/config.go:WriteTOML", "shuttermint/keyper/config.go:Unmarshal", "shuttermint/keyper/config.go:stringToAddress", "shuttermint/keyper/config.go:stringToEcdsaPrivateKey", "shuttermint/keyper/config.go:stringToEd25519PrivateKey"]}
{"id": "C83", "title": "Deployment of the contracts", "statement": "If the deploy command reports success, then at the ten addresses it announces there are the ten contracts of this run, each was given the announced addresses of the contracts it refers to, the addresses are distinct, the deposit contract's slasher is the announced KeyperSlasher, and nothing done later, by anybody, changes this. Success is reported exactly if the node accepted the ten transactions and all of them succeeded. If another transaction of the deployer's key takes one of the ten nonces, success is never reported. Anybody who calls setSlasher on the new deposit contract before the KeyperSlasher is created makes the deployment fail and remains that contract's slasher.", "quantifier": "all histories of the chain: the deployer's transactions interleaved with anything others do, with and without enough gas, and all patterns of refused transactions", "why_tests_cant": "a claim about all interleavings with transactions of others", "anchors": ["shuttermint/cmd/deploy/deploy.go:batchContractDeployments", "shuttermint/cmd/deploy/deploy.go:deploy", "shuttermint/medley/txbatch/txbatch.go:WaitMined", "shuttermint/medley/txbatch/txbatch.go:Add", "contracts/contracts/DepositContract.sol:setSlasher", "contracts/contracts/KeyperSlasher.sol:constructor"]}

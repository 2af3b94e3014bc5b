# Design: a Rocq model of shutter-network/shutter

Layout (everything under `rocq/theories/`, logical name `Verif`):

* `*Model.v`   executable Gallina models; every definition cites file and lines in `/repo`.
* `*Spec.v`    small, model-independent specifications used by the statements.
* `*Proofs.v`  lemmas.
* `Props*.v`   only the property theorems (`exact lemma`), non-vacuity `Example`s and `Print Assumptions`.

Reading conventions

* A method mutating its receiver becomes a function returning the new value; `error` becomes an
  option / sum value; a Go panic or `log.Fatalf` becomes an explicit `None`/`Panic` outcome.
* Go maps become std++ `gmap`s; where the Go code *iterates* a map, the model takes the iteration
  order as an explicit argument constrained only to be a permutation of the map's entries, so
  theorems quantify over all orders.
* `uint64` / `int64` are `N`/`Z`; wrap-around is written into the model where the code can reach it
  (`int(threshold)`, `EONCounter++`, `uint64` subtraction in the execution timeout, …).
* External calls (ECDSA recovery, protobuf/base64 decoding, keccak, hash-to-curve, ECIES, ethereum
  node, tendermint, file system) are section variables or explicit oracle inputs; theorems quantify
  over them. Group arithmetic (blst BLS12-381, bn256) is a record of operations with the group and
  pairing laws as fields; theorems quantify over every such record and a concrete instance
  (Z/q with e(a,b)=ab) is built to show the record is inhabited.

Version note: `shuttermint/go.mod` pins `shlib v0.1.12` (bn256), `/repo/shlib` is the BLS12-381
rewrite. Both implement the same scheme. We model `/repo/shlib` for the crypto library and use the
same abstract group for the places where shuttermint calls it.

## Plan per property (written before the proofs)

| id | model | proof |
|----|-------|-------|
| C01–C16 | `AppModel.v`: complete ABCI app as `step : app -> call -> outcome (app * response)`; histories are folds over arbitrary call lists, vote-count order an explicit oracle | invariants by induction over histories with ghost traces of the calls themselves; C14, C15, C16 are expected to be false of the code: refutation by witness plus the strongest true variant |
| C17 | `PersistModel.v`: two-file disk (`gob`, `gob.tmp`), crash at every atomic file operation | induction over crash schedules, determinism of the app |
| C18, C19 | `PendingModel.v`: disk + memory of the keyper loop, crash at any micro step | invariant linking action counter, saved actions and pending list; C19 refuted by a schedule |
| C20, C21 | `ObserveModel.v`: Eon records, `sort.Search` as in Go's loop | correctness of binary search, then list algebra; C20 expected to fail for epoch secret key shares |
| C22–C24 | `ArithModel.v` | `lia`/`nia` over Z with explicit no-overflow guards |
| C25 | `EventsModel.v`: attribute encoders/decoders at byte level | round trips |
| C26 | `EpochModel.v` over the abstract group | invariant over message sequences + Lagrange |
| C27, C28 | `DecideModel.v` + `ContractsModel.v` | list induction |
| C29 | `Fq.v`, `Pocklington.v` | Pocklington certificate checked by the kernel (`vm_compute`) |
| C30, C33 | `CryptoModel.v`, `Poly.v` | polynomial root counting in Z/q |
| C31, C32 | `DkgModel.v` | invariants over phases and message handlers |
| C34–C36, C39 | `EncModel.v`; `EncMemModel.v` over slices with backing arrays (`GoHeap.v`) for C38, C39 | list algebra, bilinearity; C35 and C39 expected to be refuted |
| C37 | `EncodingModel.v` | list algebra, abstract point compression |
| C38 | `EncMemModel.v`: Fisher–Yates driven by an arbitrary RNG oracle | permutation induction |
| C40 | `CryptoModel.v` (polynomials) | for any t shares and any two secrets there is exactly one polynomial for each: interpolation |
| C41 | `EncModel.v` with the hash as an oracle | injectivity of the hash inputs (length tags, counters) |
| C42 | `CryptoModel.v` over the abstract pairing | bilinearity and non-degeneracy |
| C43, C44 | `PendingModel.v`: all schedules of the action handlers, with crashes | invariant over the trace of effects; C44 exactly-once is refuted by a crash schedule, the once-per-run form is proved |
| C45, C46 | `SyncModel.v`: sync loop, decision, persistence with the three state files | induction over runs; C45 refuted by the run in which a decision is skipped |
| C47 | `ContractsModel.v` (ConfigContract) against `ArithModel.v` (Go mirror) | invariant over all transactions; two sub-claims refuted |
| C48–C53 | `ContractsModel.v`: all contracts as one transition system, messages with sender/value/block, reentrant calls explicit | invariants by induction over histories; C49 refuted for re-entrant targets |
| C54 | `MainModel.v`: one `SyncToHead` against an arbitrary contract state history | simulation between the keyper's copy and the contracts' state |
| C55 | `DecideModel.v` inside `KeyperModel.v` runs | invariant on `NextEpochSecretShare`; two sub-claims refuted |
| C56, C57 | `DecideModel.v` | case analysis of one decision, induction over runs, composition with `ContractsModel.v` for "the contract accepts it" |
| C58–C60, C63 | `KeyperModel.v`: a set of keypers, each run driven by the same chain content with its own decision heights and randomness (`KeyperSystem.v`) | per-keyper invariants (`Keyper*Proofs.v`) composed with `DkgProofs.v` and `PropsEpoch.v` |
| C61 | `KeyperModel.v` | invariants over runs |
| C64 | `EventsModel.v`: message constructors, transaction envelope | round trip laws of the codecs as hypotheses (`EventsSpec.v: codecs`, inhabited in `EventsWitness.v`) |
| C65, C66 | the app's history (`AppModel.v`), published by `make_abci`, read by `make_event`, fed to `SyncModel.v`/`KeyperModel.v` | invariants of the app give the hypotheses of C58–C63; `FullWitness.v` runs the whole system |
| C62 | `KeyperModel.v`, `DecideModel.v`, `MainModel.v`: `None` is a Go panic | no decision returns `None` for any chain content the app can produce (`SafeProofs.v`, `SafeDecide.v`: each part is total on states in which slices have the lengths their indices need; C65 gives the shape of the events; C47, C49, C54 give the shape of the main chain view) |
| C69 | `OpenModel.v`: a user's `Encrypt`+`Marshal`, `DecryptTransactions`; plugged into `KeyperModel.v` as the decryption of batches | runs of `KeyperModel` project to runs of `DecideModel` (`OpenProofs.v`), so C56 gives the transactions, C60 the key, C34/C37/C38 the contents; `OpenWitness.v` runs two keypers from the users' transactions to their execution |
| C70 | the app's deliver path (`AppModel.v`), and the keypers (`KeyperModel.v`) on the chain it produces | the app's DKG bookkeeping equals what it has published (`AcceptApp.v: app_log_history`, induction over histories), the config in it is the one the keypers take (`AcceptChain.v: config_link`), C59 says what keypers submit; `AcceptWitness.v` instantiates all three theorems with the run of `FullWitness.v`. Hypotheses: InitChain is called once and first, the transaction is in a block after the eon's start block, no later config applies to the eon |
| C71 | `IsExpired` and `SendTX` of the actions (`ExpireModel.v`) over the keyper's view (`MainModel.v`) and the contracts (`ContractsModel.v`) | C54: the view equals the chain at the observed block; half steps, receipts, accusations and appeals only grow over any history (C50's relations); a successful call implies the half step it was for, and moves past it. Also: when a keyper has not seen an accusation, an appeal counts as expired although it can become possible later (`C71_unseen_refuted`), but keypers only decide on appeals against accusations they know |
| C72 | the commands `config set-next` and `schedule`, `SetNextBatchConfig` and the setters (`CommandModel.v`), over the contracts (`ContractsModel.v`) | what others do keeps the config contract (a relation over all histories); every setter is an allowed change (C72_setter); division gives the end of a batch after the aim, and scheduleNextConfig accepts it iff block + max(notice, span) < start (C72_schedule_iff). Refuted by the code: last config beyond the aim, batches longer than the notice, keypers listed twice |
| C73 | the app (`AppModel.v`) and the two transactions of `cmd/bootstrap.go` | induction over quiet executions (no config announced): the last two configs stay and every accepted vote stays recorded until the config is started; the end of the block starts it and, with C12, its keypers become the validators; bootstrapping: with threshold 1 no vote is pending (invariant), so C16 gives the announcement |
| C74 | the contracts (`ContractsModel.v`) | a relation over all nested calls: while the batch's config stays (C47) and the receipt is final (C50), an appeal needs threshold different positions of the config among the signers; a slashed accusation means a slashed deposit (invariant); with C50, C51 the accusation and the deposit stay; refuted without the condition on the delay |
| C75 | `PrepareModel.v`: twothirds, determineFundings, the transactions of fund and Drain, over accounts with balance and nonce | `PropsPrepare.v`: a history is any list of valid transactions in which the command's are marked; balances and nonces are sums over it, by induction; gas, receivers with code and reorganisations are not modelled |
| C76, C77 | `TargetModel.v`: the ABI coder on bytes, TargetProxyContract, TestTargetContract, the executor's loop, the example application's encoder; other contracts are an arbitrary function on the chain's state | `PropsTarget.v`: decode∘encode = id on bytes; induction over batches and histories. Gas is an arbitrary predicate; Keccak-256 and ecrecover are parameters |
| C78 | `GasModel.v`: SetMultiplier, Adjust with math/big's Float on integers (m / 2^d, rounding to nearest even at the larger of 64 and the price's bits) | `PropsGas.v`: a specification of the rounding, its error and its monotonicity |
| C79 | `ExampleModel.v` (example/src: utils.js, App.vue, SubmitForm.vue, blocknumber.js; BigNumber's comparison of strings); proved in `PropsExample.v` by induction over the config list and the contract histories of C47, C48 and C53. Refuted: thresholds of ten and more, the eon of the key, pages out of date |
| C80 | C77's chain with any further happenings (`TargetModel.v`), and C69's system | `PropsDelivery.v`: an invariant of the target's state over all histories; composed with C69 for the way from the user to the log (partial as C69) |
| C81 | `ProtoModel.v` (shmsg.proto in proto3's wire format, as the Go library reads and writes it) | `PropsProto.v`: induction over field lists and varints; `C81_codecs` discharges the protobuf part of `EventsSpec.codecs` |
| C82 | `ConfigFileModel.v` (keyper/config.go; the TOML its template writes, on characters) | `PropsConfigFile.v`: induction over lines and characters; the unescaped values refuted by examples |
| C83 | `DeployModel.v` (cmd/deploy/deploy.go, medley/txbatch; creation of contracts and setSlasher among others' actions) | `PropsDeploy.v`: an invariant of all histories (a receipt with status 1 means the contract is there), what never changes, and the receipts written only at the account's nonce |
| C67, C68 | `BlsModel.v`: `shbls` above arbitrary groups of the bn256 order (proved prime in `BnField.v`) | pairing check reduced to discrete logarithms (`BlsProofs.v`); unforgeability is refuted, only replay to another key or message is excluded |

No property of the list is inexpressible; what stays outside the model is listed below.

## Files

| models | Go / Solidity source modelled |
|--------|-------------------------------|
| `AppModel.v` | `shuttermint/app/{app,messages,dkg,configvoting,eonvoting,voting,powermap,checktx,noncetracker,batch_state,types}.go`, `keyper/shutterevents/batchconfig.go` (EnsureValid), `cmd/init.go` (genesis) |
| `PersistModel.v` | `app/app.go`: PersistToDisk, LoadShutterAppFromFile, Info, Commit |
| `CryptoModel.v`, `Fq.v`, `Pocklington.v`, `Poly.v` | `shlib/shcrypto/{feldman,keys}.go` |
| `DkgModel.v` | `shlib/puredkg/puredkg.go` |
| `EpochModel.v` | `keyper/epochkg/epochkg.go` |
| `EncModel.v`, `EncMemModel.v`, `GoHeap.v` | `shlib/shcrypto/{encryption,hash,shuffle}.go` |
| `EncodingModel.v` | `shlib/shcrypto/{encoding,version}.go`, gob methods of `feldman.go` |
| `EventsModel.v` | `keyper/shutterevents/{marshal,events,helpers}.go`, `keyper/fx/messagesender.go`, `shmsg/{shmsg,messages}.go`, `app/app.go` decodeTx (C25, C64) |
| `ObserveModel.v` | `keyper/observe/shutter.go` |
| `SyncModel.v` | `keyper/keyper.go` (sync, runOneStep, LoadState) at the level of events seen by decisions |
| `MainModel.v` | `keyper/observe/mainchain.go`, `medley.DedupAddresses` |
| `ArithModel.v` | `contract/config.go`, the arithmetic of `decide.go`, `mainchain.go`, `puredkg.go` |
| `DecideModel.v` | `keyper/decide.go` main-chain half (shares, batches, execution, accusations, appeals), `contract/signatures.go` |
| `ExpireModel.v` | `fx/actions.go` (SendTX, IsExpired of the main chain actions) |
| `CommandModel.v` | `cmd/config/setnext.go`, `cmd/config/schedule.go`, `contract/config.go` (SetNextBatchConfig), the setters of `ConfigContract.sol` one by one |
| `KeyperModel.v` | `keyper/decide.go` shuttermint half (check-in, config votes, DKG, EKG) and `Decide` itself |
| `PendingModel.v` | `keyper/keyper.go`, `fx/{runenv,pending,actions,messagesender}.go` |
| `ProtoModel.v` | `shmsg/shmsg.proto`, `proto.Marshal`/`Unmarshal` in `shmsg/encode.go` |
| `ConfigFileModel.v` | `keyper/config.go` |
| `DeployModel.v` | cmd/deploy/deploy.go, medley/txbatch/txbatch.go, DepositContract.setSlasher, the constructors' arguments |
| `GasModel.v` | `keyper/gaspricer/gaspricer.go` |
| `PrepareModel.v` | `cmd/prepare` (key sets, funding, draining) |
| `TargetModel.v`, `ExampleModel.v` | `TargetProxyContract.sol`, `TestTargetContract.sol`, the executor's calls of them; `example/src` |
| `BlsModel.v`, `BnField.v` | `shlib/shcrypto/shbls/{shbls,encoding}.go` |
| `OpenModel.v` | `keyper/observe/mainchain.go:394-413`, `keyper/epochkg/epochkg.go:55-60` (epoch id of a batch), the user's side of `shcrypto/{encryption,encoding}.go` |
| `ContractsModel.v` | `contracts/contracts/*.sol` except mocks and ERC777 |

`*Spec.v`, `KeyperSystem.v`, `DkgExact.v` hold the vocabulary of the statements; `*Proofs.v`, `AppSteps.v`, `AppInv.v` lemmas;
`Props*.v` the theorems listed in `MANIFEST.json`; `*Witness.v` / `*Refuted.v` concrete runs that meet hypotheses or refute claims.

## Trusted base

* The kernel of Coq 8.16.1, including its `vm_compute` conversion (used for concrete runs and the Pocklington certificate);
  `coqchk` is run over all compiled files by `vcheck`.
* `Print Assumptions` of **every** theorem in `MANIFEST.json` answers "Closed under the global context": no axiom is used, not even
  one of the standard library. (The loaded environment contains the ssreflect `Under_rel` parameters because mathcomp/std++ load them; no theorem here
  depends on them.)
* The reading of Go and Solidity fixed by the models. Each definition cites what it models and says what it drops. In particular:
  - Randomness is an explicit argument (polynomials, sigma); theorems quantify over it, or state how it enters.
  - The hash functions (keccak256, hash to curve, `crypto.Keccak256`), ECDSA sign/recover, point (de)compression and ECIES are
    section variables with only the hypotheses shown in the statement (e.g. collision freedom where an English claim needs it).
  - Pairing groups are an arbitrary instance of a record of group/pairing laws (`CryptoModel.v`); an instance is exhibited.
  - tendermint delivers the calls BeginBlock/DeliverTx/EndBlock/Commit in some order; consensus itself, p2p, RPC transport and
    block production are outside. Theorems about the app quantify over all call lists.
  - The ethereum node answers contract reads with the state of some block (`MainModel.v`); RPC failures appear as "the step does not happen"
    or explicit error outcomes.
  - File writes are atomic at rename granularity (`PersistModel.v`, `PendingModel.v`); fsync ordering bugs of the OS are outside.
  - gas, block gas limits and out-of-gas in contracts are outside; ERC777 is modelled by its effect on balances plus hooks.
* Not modelled: ECDSA (`shmsg/*` is modelled above arbitrary codecs that satisfy `EventsSpec.codecs`; the protobuf part of these is proved of `ProtoModel.v`, C81; the source of the protobuf library is not in /repo; base64 decoding is lenient in Go, which only adds transactions), `cmd/*` apart from the genesis rules, `config set-next`/`schedule` and what `bootstrap` sends, `shcryptowasm`,
  `sandbox`, `contract/{caller,binding,erc1820}`, `medley/{revert,txbatch,checksum}`, blst/bn256 arithmetic, logging, statistics, the CLI.

## Findings (places where the code does not satisfy the natural claim)

Each is backed by a theorem ending in `_refuted` (or named) or follows from reading while modelling.

* C12 `C12_checked_in_refuted`: `started`/`validatorsUpdated` flags are taken from the voted message, so a config can take over the validator set without check-ins.
* C14 `C14_threshold_refuted`, `C14_single_keyper_takeover`: a threshold ≥ 2^63 is accepted (`int(threshold)` goes negative); one keyper then decides alone.
* C15 `C15_started_needs_votes_refuted`: `StartedVotes` is not cleared when a config is added; old votes count for the new config.
* C16 `C16_stuck`, `C16_config_progress_refuted`: a split vote blocks config voting forever (one vote per keyper, never cleared).
* C19 `C19_refuted`, `C19_shutdown_loses`: an action is removed when waiting for its receipt fails or is cancelled; `SendMessage` ignores a CheckTx rejection.
* C20 `C20_refuted`: `Eon.ApplyFilter` does not shift `EpochSecretKeyShares`.
* C25 `C25_empty_refuted`: a commitment without coefficients is accepted and published, but no keyper can read the event.
* C27 `C27_accepted_refuted`: a high-s signature passes the Go check and makes the on-chain appeal revert.
* C35, C37, C39 `*_refuted`: malleable padding bytes; non-canonical encodings accepted, `EncryptedMessage.Marshal` panics, gob decoding of Gammas; `PadMessage` appends into the caller's spare capacity.
* C44 `C44_refuted`: a main chain transaction is sent again after a crash between sending and storing the hash.
* C45 `C45_refuted`: events are lost to a decision when it is skipped and the filter advances; `LoadState`'s "Fixing SyncHeight" path.
* C47 `C47_ends_increase_refuted`, `C47_unschedule_all_refuted`: non-monotone starts after an inactive config; `unscheduleConfigs` leaves later-starting configs.
* C48 `C48_fee_overflow_blocks`: a 2^64-wei cap in the fee bank blocks `addTransaction` for that batch's fee receiver.
* C49 `C49_reentrancy_refuted`: `executePlainBatch` re-entered executes a batch twice and the following cipher half step is lost.
* C50 `C50_threshold_zero`: with threshold 0 anyone appeals. C51 `C51_delay_overflow_locks`, `C51_anyone_sets_slasher`.
* C54 `C54_*_refuted`, `C54_duplicate_keypers`, `C54_head_goes_back`: unscheduled configs are kept by the keyper and replacements never read; half step 0 can be overwritten by a zero receipt; duplicate keypers are removed in Go but not on chain; a head going back duplicates transactions.
* C55 `C55_lost_refuted`, `C55_closed_refuted`: shares are lost if the eon is not ready when the counter advances; released before the batch closes when config starts are not monotone.
* C56 `C56_content_refuted`: a batch can be executed with content of another eon's key; `C56_waits`: `PendingHalfStep` is stuck if its transaction fails.
* C57 `C57_missed_refuted`, `C57_false_accusation_refuted`.
* C58 `C58_refuted`: `startDKG` looks the config up at decision time; two honest keypers generate different eon keys when a config for the same batches is accepted right after the eon start.
* C62_refuted: a keyper stores the key of a batch although its main chain node does not know an active config for it yet (`decide.go:664-668` only skips sending the signature); as soon as anybody's decryption signature for that batch is on shuttermint,
  `syncBatch` panics with "config is not active". It takes honest keypers and one lagging main chain node (`SafeWitness.v`: keyper 8 is up to date and honest, keyper 7 panics).
* C68 `C68_forgery`: `shbls.hashToG2` has a known discrete logarithm, so one signature of a key on any message gives everyone its signatures on all messages;
  `C68_rogue_key`: aggregate keys do not show who signed (no proof of possession). The package is exported by `shlib` and not used elsewhere in the repository.
* C69 `C69_zero_key`: an eon public key of the wrong length is decoded as the zero point without an error (C37_point_refuted), and what is encrypted for it can be read by everyone with the zero key.
  The WebAssembly front ends (`shcryptowasm`) call `ComputeEpochID` with an integer although it takes bytes, so they do not compile at this commit.
* C82 `C82_path_refuted`, `C82_quote_refuted`, `C82_number_refuted`, `C82_injection_refuted`: the configuration file's template does not escape values, and numbers from 2^63 cannot be read back.
* C83 `C83_front_run`: DepositContract.setSlasher is open to everybody until it is set: whoever calls it between the creation of the deposit contract and of the KeyperSlasher makes `deploy` fail and becomes that contract's slasher for good.
* C78 `C78_nan_refuted`, `C78_inf_refuted`: a gas price multiplier nan ends the keyper with a panic, inf is accepted. C79: `getBestKey` compares BigNumbers with `>=`, i.e. as strings, so thresholds from ten are
  compared wrongly, and always takes the key with index 0 (`C79_key_refuted`, `C79_enough_refuted`, `C79_eon_refuted`, `C79_stale_refuted`).
* Not stated as theorems: genesis keypers are not checked for duplicates; `Gammas.GobDecode` tests `p == nil` ineffectively; `PureDKG.StartPhase1Dealing` panics if an eval "from self" was handled while off;
  `ComputeEpochSecretKey`'s error path stores a nil key; `sendMainChainTX` dereferences `auth` before checking `err`; `fetchAndApplyEvents` panics if the node's height goes back; an active config with zero keypers makes keypers divide by zero
  (`executionDelay`); after `filterBatchIndex` signature index mismatches lose signatures; `key.length >= 0` is always true in `KeyBroadcastContract.vote`; `slashingReceiver` = deposit contract makes `slash` revert; a rejected check-in is never re-sent (C61);
  the app lets any keyper publish key shares for eons that have not started; the genesis config is never announced as an event.

## Testing the theorems against wrong programs

`/verif/seeded/LOG.jsonl` has one line per mutant of the model: definition, edit, claim it breaks, theorems that failed, theorems tightened.

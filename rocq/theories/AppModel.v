(** Model of the shuttermint ABCI application, /repo/shuttermint/app.

    Reading conventions: a Go method mutating its receiver is a function returning the new value.
    A panic or log.Fatalf is [None].  Log texts are dropped from responses.  Go maps are [gmap]s;
    where the code iterates a map, the iteration order is an explicit argument. *)
From stdpp Require Import gmap list sorting.
From Coq Require Import NArith ZArith.
From RecordUpdate Require Import RecordUpdate.

(** Simplification: a byte is an [N]; byte strings are lists of [N]. *)
Definition bytes := list N.

(** common.Address is a 20-byte array; the model uses its big-endian value. *)
Definition address := N.

(** common.BytesToAddress for a 20-byte slice (go-ethereum), used in messages.go:24 and
    batchconfig.go:49. *)
Definition bytes_to_address (b : bytes) : address :=
  foldl (λ acc x, (acc * 256 + x)%N) 0%N b.

(** Go's conversion int(x) of a uint64 x on a 64-bit platform, used in batchconfig.go:35,
    app.go:362 and app.go:498. *)
Definition int_of_uint64 (n : N) : Z :=
  if (n <? 2 ^ 63)%N then Z.of_N n else (Z.of_N n - 2 ^ 64)%Z.

(** Truncation to uint64 (Go arithmetic on uint64 wraps around). *)
Definition u64 (n : N) : N := (n mod 2 ^ 64)%N.
Global Arguments u64 : simpl never.
Global Arguments int_of_uint64 : simpl never.

(** * Types *)

(** shutterevents/events.go BatchConfig struct (fields), used by batchconfig.go. *)
Record config := mkConfig {
  cf_start : N;                (* StartBatchIndex *)
  cf_keypers : list address;   (* Keypers *)
  cf_threshold : N;            (* Threshold, uint64 *)
  cf_contract : address;       (* ConfigContractAddress *)
  cf_index : N;                (* ConfigIndex *)
  cf_started : bool;           (* Started *)
  cf_vupdated : bool           (* ValidatorsUpdated *)
}.
Global Instance eta_config : Settable _ :=
  settable! mkConfig <cf_start; cf_keypers; cf_threshold; cf_contract; cf_index; cf_started; cf_vupdated>.

(** reflect.DeepEqual on BatchConfig values (app.go:337, configvoting.go:27).  Simplification: nil
    and empty keyper slices are identified (both are produced from "no keypers" only). *)
Global Instance config_eq_dec : EqDecision config.
Proof. solve_decision. Defined.

(** shmsg.proto BatchConfig message. *)
Record raw_config := mkRawConfig {
  rc_start : N; rc_keypers : list bytes; rc_threshold : N; rc_contract : bytes;
  rc_index : N; rc_started : bool; rc_vupdated : bool
}.

(** shmsg.proto Message (the oneof payload).  [MOther] is an unset or unknown payload. *)
Inductive payload :=
| MBatchConfig (m : raw_config)
| MBatchConfigStarted (index : N)
| MCheckIn (validator_key encryption_key : bytes)
| MEonStartVote (start : N)
| MDecryptionSignature (batch : N) (signature : bytes)
| MPolyEval (eon : N) (receivers evals : list bytes)
| MPolyCommitment (eon : N) (gammas : list bytes)
| MAccusation (eon : N) (accused : list bytes)
| MApology (eon : N) (accusers evals : list bytes)
| MEpochSecretKeyShare (eon epoch : N) (share : bytes)
| MOther.

(** shmsg.proto MessageWithNonce. *)
Record message := mkMessage { msg_payload : payload; msg_chain_id : bytes; msg_nonce : N }.

(** Events emitted by the app (shutterevents/events.go; attribute encoding is in EventsModel.v). *)
Inductive event :=
| EvBatchConfig (c : config)
| EvEonStarted (eon batch : N)
| EvCheckIn (sender : address) (encryption_key : bytes)
| EvDecryptionSignature (batch : N) (sender : address) (signature : bytes)
| EvPolyEval (sender : address) (eon : N) (receivers : list address) (evals : list bytes)
| EvPolyCommitment (sender : address) (eon : N) (gammas : list bytes)
| EvAccusation (sender : address) (eon : N) (accused : list address)
| EvApology (sender : address) (eon : N) (accusers : list address) (evals : list N)
| EvEpochSecretKeyShare (sender : address) (eon epoch : N) (share : bytes).

(** abcitypes.ValidatorUpdate restricted to ed25519 keys: (key, power). *)
Definition vupdate : Type := bytes * Z.

(** abcitypes.Response{DeliverTx,CheckTx,EndBlock,...}: code, events, validator updates. *)
Record response := mkResponse { rsp_code : N; rsp_events : list event; rsp_updates : list vupdate }.

(** app.go:312-318 makeErrorResponse *)
Definition error_response : response := mkResponse 1 [] [].
(** responses with Code 0 *)
Definition ok_response (evs : list event) : response := mkResponse 0 evs [].

(** types.go:41-56 Voting, ConfigVoting, EonStartVoting.  Go's Voting.Votes maps addresses to
    candidate indices. *)
Record voting (A : Type) := mkVoting { vt_votes : gmap address nat; vt_cands : list A }.
Arguments mkVoting {A}. Arguments vt_votes {A}. Arguments vt_cands {A}.

(** types.go:58-69 BatchState.  Simplification: Go stores a pointer to the config; the model stores
    the value (the flags, which may change through the pointer, are never read through it). *)
Record batch_state := mkBatchState { bs_config : config; bs_sigs : list (address * bytes) }.

(** types.go:129-138 DKGInstance.  The maps to struct{} are sets. *)
Record dkg_instance := mkDkg {
  dkg_config : config;
  dkg_eon : N;
  dkg_evals : gset (address * address);
  dkg_commitments : gset address;
  dkg_accusations : gset address;
  dkg_apologies : gset address
}.
Global Instance eta_dkg : Settable _ :=
  settable! mkDkg <dkg_config; dkg_eon; dkg_evals; dkg_commitments; dkg_accusations; dkg_apologies>.

(** types.go:94-123 ShutterApp, CheckTxState and NonceTracker.  Gobpath and LastSaved are in
    PersistModel.v. *)
Record app := mkApp {
  configs : list config;
  batch_states : gmap N batch_state;
  dkg_map : gmap N dkg_instance;
  config_voting : voting config;
  eon_votings : gmap N (voting N);
  last_height : Z;
  identities : gmap address bytes;
  started_votes : gset address;
  validators : gmap bytes Z;
  eon_counter : N;
  dev_mode : bool;
  ck_members : gset address;
  ck_counts : gmap address nat;
  ck_nonces : gset (address * N);
  nonces : gset (address * N);
  chain_id : bytes
}.
Global Instance eta_app : Settable _ :=
  settable! mkApp <configs; batch_states; dkg_map; config_voting; eon_votings; last_height;
    identities; started_votes; validators; eon_counter; dev_mode; ck_members; ck_counts; ck_nonces;
    nonces; chain_id>.

(** External decoders.
    [decode_tx]: app.go:275-292 (base64, ECDSA signer recovery, protobuf).
    [decompress_pubkey]: crypto.DecompressPubkey (app.go:413), result as canonical bytes.
    [g2_unmarshal]: bn256.G2 Unmarshal (messages.go:58), point as its canonical encoding.
    [share_decode]: EpochSecretKeyShare.GobDecode (messages.go:132). *)
Record oracles := mkOracles {
  decode_tx : bytes → option (address * message);
  decompress_pubkey : bytes → option bytes;
  g2_unmarshal : bytes → option bytes;
  share_decode : bytes → option bytes
}.

(** * Voting *)

(** voting.go:8-12, configvoting.go:11-16, eonvoting.go:6-12 *)
Definition new_voting {A} : voting A := mkVoting ∅ [].

(** voting.go:21-25: number of votes for candidate [i] *)
Definition num_votes (votes : gmap address nat) (i : nat) : nat :=
  length (filter (λ p, p.2 = i) (map_to_list votes)).

(** the keys of the numVotes map of voting.go:21-25, each once *)
Definition voted_indices (votes : gmap address nat) : list nat :=
  remove_dups (map_to_list votes).*2.

(** An iteration order of a Go map: any permutation of its keys. *)
Definition order := list nat → list nat.

(** voting.go:20-32 OutcomeIndex; [ord] is the order in which numVotes is iterated. *)
Definition outcome_index (ord : order) (votes : gmap address nat) (required : Z) : option nat :=
  List.find (λ i, Z.leb required (Z.of_nat (num_votes votes i))) (ord (voted_indices votes)).

(** voting.go:15-17 AddVoteForIndex *)
Definition add_vote_for_index {A} (v : voting A) (sender : address) (i : nat) : voting A :=
  mkVoting (<[sender := i]> (vt_votes v)) (vt_cands v).

(** position of the first candidate equal to [c] (loops in configvoting.go:26-31, eonvoting.go:16-21) *)
Fixpoint cand_index {A} `{EqDecision A} (cands : list A) (c : A) : option nat :=
  match cands with
  | [] => None
  | x :: xs => if bool_decide (x = c) then Some 0 else S <$> cand_index xs c
  end.

(** the common tail of configvoting.go:26-35 and eonvoting.go:16-24 *)
Definition add_vote {A} `{EqDecision A} (v : voting A) (sender : address) (c : A) : voting A :=
  match cand_index (vt_cands v) c with
  | Some i => add_vote_for_index v sender i
  | None => add_vote_for_index (mkVoting (vt_votes v) (vt_cands v ++ [c])) sender (length (vt_cands v))
  end.

(** configvoting.go:20-36 ConfigVoting.AddVote; [None] is the "already voted" error *)
Definition config_add_vote (v : voting config) (sender : address) (c : config) : option (voting config) :=
  match vt_votes v !! sender with
  | Some _ => None
  | None => Some (add_vote v sender c)
  end.

(** configvoting.go:39-45 and eonvoting.go:28-34 Outcome *)
Definition outcome {A} (ord : order) (v : voting A) (required : Z) : option A :=
  match outcome_index ord (vt_votes v) required with
  | Some i => vt_cands v !! i
  | None => None
  end.

(** * Batch configs *)

(** batchconfig.go:12-25 KeyperIndex / IsKeyper *)
Definition is_keyper (c : config) (a : address) : bool := bool_decide (a ∈ cf_keypers c).

(** batchconfig.go:28-40 EnsureValid *)
Definition ensure_valid (c : config) : bool :=
  negb (Nat.eqb (length (cf_keypers c)) 0)
  && negb (N.eqb (cf_threshold c) 0)
  && negb (Z.ltb (Z.of_nat (length (cf_keypers c))) (int_of_uint64 (cf_threshold c))).

(** medley.go:94-103 EnsureUniqueAddresses *)
Definition unique_addresses (l : list address) : bool := bool_decide (NoDup l).

(** messages.go:15-25 validateAddress *)
Definition validate_address (b : bytes) : option address :=
  if Nat.eqb (length b) 20 then Some (bytes_to_address b) else None.

(** batchconfig.go:43-75 BatchConfigFromMessage *)
Definition config_from_message (m : raw_config) : option config :=
  ks ← mapM validate_address (rc_keypers m);
  if unique_addresses ks then
    cc ← validate_address (rc_contract m);
    Some (mkConfig (rc_start m) ks (rc_threshold m) cc (rc_index m) (rc_started m) (rc_vupdated m))
  else None.

(** app.go:719-724 LastConfig ([None]: panic) *)
Definition last_config (s : app) : option config := last (configs s).

(** app.go:113-120 getConfig ([None]: panic) *)
Definition get_config (s : app) (batch : N) : option config :=
  List.find (λ c, N.leb (cf_start c) batch) (rev (configs s)).

(** app.go:123-144 checkConfig against the last config [l] *)
Definition check_config (l c : config) : bool :=
  ensure_valid c && negb (N.ltb (cf_start c) (cf_start l)) && negb (N.leb (cf_index c) (cf_index l)).

(** app.go:159-167 updateCheckTxMembers, checktx.go:27-32 SetMembers *)
Definition update_members (s : app) : app :=
  s <| ck_members := list_to_set (concat (cf_keypers <$> configs s)) |>.

(** app.go:146-155 addConfig ([None] = error) *)
Definition add_config (s : app) (l c : config) : option app :=
  if check_config l c then Some (update_members (s <| configs := configs s ++ [c] |>)) else None.

(** * DKG instances *)

(** dkg.go:9-18 NewDKGInstance *)
Definition new_dkg (c : config) (eon : N) : dkg_instance := mkDkg c eon ∅ ∅ ∅ ∅.

(** app.go:711-716 StartDKG; EONCounter is a uint64 *)
Definition start_dkg (s : app) (c : config) : app * N :=
  let eon := u64 (eon_counter s + 1) in
  (s <| eon_counter := eon |> <| dkg_map := <[eon := new_dkg c eon]> (dkg_map s) |>, eon).

(** app.go:699-709 ShouldStartDKG *)
Definition should_start_dkg (s : app) (c : config) : bool :=
  match dkg_map s !! eon_counter s with
  | None => true
  | Some d =>
      if negb (N.eqb (cf_threshold (dkg_config d)) (cf_threshold c)) then true
      else negb (bool_decide (cf_keypers (dkg_config d) = cf_keypers c))
  end.

(** dkg.go:23-51 RegisterPolyEvalMsg *)
Definition register_poly_eval (d : dkg_instance) (sender : address) (eon : N) (receivers : list address)
  : option dkg_instance :=
  if negb (N.eqb eon (dkg_eon d)) then None
  else if negb (is_keyper (dkg_config d) sender) then None
  else if forallb (λ r, is_keyper (dkg_config d) r && negb (N.eqb r sender)
                        && negb (bool_decide ((sender, r) ∈ dkg_evals d))) receivers
  then Some (d <| dkg_evals := foldl (λ acc r, acc ∪ {[ (sender, r) ]}) (dkg_evals d) receivers |>)
  else None.

(** dkg.go:54-68 RegisterPolyCommitmentMsg *)
Definition register_commitment (d : dkg_instance) (sender : address) (eon : N) : option dkg_instance :=
  if negb (N.eqb eon (dkg_eon d)) then None
  else if negb (is_keyper (dkg_config d) sender) then None
  else if bool_decide (sender ∈ dkg_commitments d) then None
  else Some (d <| dkg_commitments := dkg_commitments d ∪ {[ sender ]} |>).

(** dkg.go:71-93 RegisterAccusationMsg *)
Definition register_accusation (d : dkg_instance) (sender : address) (eon : N) (accused : list address)
  : option dkg_instance :=
  if negb (N.eqb eon (dkg_eon d)) then None
  else if negb (is_keyper (dkg_config d) sender) then None
  else if negb (forallb (λ r, is_keyper (dkg_config d) r && negb (N.eqb sender r)) accused) then None
  else if bool_decide (sender ∈ dkg_accusations d) then None
  else Some (d <| dkg_accusations := dkg_accusations d ∪ {[ sender ]} |>).

(** dkg.go:96-118 RegisterApologyMsg *)
Definition register_apology (d : dkg_instance) (sender : address) (eon : N) (accusers : list address)
  : option dkg_instance :=
  if negb (N.eqb eon (dkg_eon d)) then None
  else if negb (is_keyper (dkg_config d) sender) then None
  else if negb (forallb (λ r, is_keyper (dkg_config d) r && negb (N.eqb sender r)) accusers) then None
  else if bool_decide (sender ∈ dkg_apologies d) then None
  else Some (d <| dkg_apologies := dkg_apologies d ∪ {[ sender ]} |>).

(** * Message handlers: each returns the new state and the response, [None] = panic *)

Section App.
Context (O : oracles).

(** app.go:331-385 deliverBatchConfig *)
Definition deliver_batch_config (ord : order) (s : app) (m : raw_config) (sender : address)
  : option (app * response) :=
  match config_from_message m with
  | None => Some (s, error_response)
  | Some bc =>
    l ← last_config s;
    if bool_decide (l = bc) then Some (s, ok_response [])
    else if negb (check_config l bc) then Some (s, error_response)
    else if negb (is_keyper l sender) then Some (s, error_response)
    else match config_add_vote (config_voting s) sender bc with
    | None => Some (s, error_response)
    | Some v =>
      let s1 := s <| config_voting := v |> in
      match outcome ord v (int_of_uint64 (cf_threshold l)) with
      | None => Some (s1, ok_response [])
      | Some _ =>
        let s2 := s1 <| config_voting := new_voting |> in
        match add_config s2 l bc with
        | None => Some (s2, error_response)
        | Some s3 =>
          if should_start_dkg s3 bc then
            let '(s4, eon) := start_dkg s3 bc in
            l4 ← last_config s4;
            Some (s4, ok_response [EvBatchConfig bc; EvEonStarted eon (cf_start l4)])
          else Some (s3, ok_response [EvBatchConfig bc])
        end
      end
    end
  end.

(** app.go:388-396 isKeyper *)
Definition is_keyper_any (s : app) (a : address) : bool := existsb (λ c, is_keyper c a) (configs s).

(** app.go:398-430 deliverCheckIn; types.go:86-91 NewValidatorPubkey *)
Definition deliver_check_in (s : app) (vkey ekey : bytes) (sender : address) : option (app * response) :=
  match identities s !! sender with
  | Some _ => Some (s, error_response)
  | None =>
    if negb (is_keyper_any s sender) then Some (s, error_response)
    else if negb (Nat.eqb (length vkey) 32) then Some (s, error_response)
    else match decompress_pubkey O ekey with
    | None => Some (s, error_response)
    | Some k => Some (s <| identities := <[sender := vkey]> (identities s) |>,
                      ok_response [EvCheckIn sender k])
    end
  end.

(** app.go:432-456 deliverBatchConfigStarted *)
Definition deliver_config_started (s : app) (index : N) (sender : address) : option (app * response) :=
  l ← last_config s;
  if negb (N.eqb index (cf_index l)) then Some (s, error_response)
  else if Nat.leb (length (configs s)) 1 then Some (s, error_response)
  else
    p ← configs s !! (length (configs s) - 2);
    if negb (is_keyper p sender) then Some (s, error_response)
    else Some (if negb (cf_started l)
               then s <| started_votes := started_votes s ∪ {[ sender ]} |> else s,
               ok_response []).

(** app.go:483-490 countEonStartVote *)
Definition count_eon_start_vote (s : app) (sender : address) (c : config) (start : N) : app :=
  let v := default new_voting (eon_votings s !! cf_index c) in
  s <| eon_votings := <[cf_index c := add_vote v sender start]> (eon_votings s) |>.

(** app.go:492-507 maybeStartEon: new state and (eon, start batch index) if started *)
Definition maybe_start_eon (ord : order) (s : app) (c : config) : app * option (N * N) :=
  match eon_votings s !! cf_index c with
  | None => (s, None)
  | Some v =>
    match outcome ord v (int_of_uint64 (cf_threshold c)) with
    | None => (s, None)
    | Some start =>
      let s1 := s <| eon_votings := delete (cf_index c) (eon_votings s) |> in
      let '(s2, eon) := start_dkg s1 c in
      (s2, Some (eon, start))
    end
  end.

(** app.go:458-481 deliverEonStartVoteMsg *)
Definition deliver_eon_start_vote (ord : order) (s : app) (start : N) (sender : address)
  : option (app * response) :=
  c ← get_config s start;
  if negb (is_keyper c sender) then Some (s, error_response)
  else
    let s1 := count_eon_start_vote s sender c start in
    match maybe_start_eon ord s1 c with
    | (s2, None) => Some (s2, ok_response [])
    | (s2, Some (eon, b)) => Some (s2, ok_response [EvEonStarted eon b])
    end.

(** app.go:170-178 getBatchState *)
Definition get_batch_state (s : app) (batch : N) : option batch_state :=
  match batch_states s !! batch with
  | Some bs => Some bs
  | None => c ← get_config s batch; Some (mkBatchState c [])
  end.

(** batch_state.go:6-20 AddDecryptionSignature *)
Definition add_decryption_signature (bs : batch_state) (sender : address) (sig : bytes)
  : option batch_state :=
  if negb (is_keyper (bs_config bs) sender) then None
  else if existsb (λ p, N.eqb p.1 sender) (bs_sigs bs) then None
  else Some (mkBatchState (bs_config bs) (bs_sigs bs ++ [(sender, sig)])).

(** app.go:509-528 deliverDecryptionSignature *)
Definition deliver_decryption_signature (s : app) (batch : N) (sig : bytes) (sender : address)
  : option (app * response) :=
  bs ← get_batch_state s batch;
  match add_decryption_signature bs sender sig with
  | None => Some (s, error_response)
  | Some bs' => Some (s <| batch_states := <[batch := bs']> (batch_states s) |>,
                      ok_response [EvDecryptionSignature batch sender sig])
  end.

(** messages.go:33-44, 74-85, 100-113: parse and check a list of addresses *)
Definition parse_addresses (l : list bytes) : option (list address) :=
  as_ ← mapM validate_address l;
  if unique_addresses as_ then Some as_ else None.

(** messages.go:28-52 ParsePolyEvalMsg, app.go:530-557 handlePolyEvalMsg *)
Definition handle_poly_eval (s : app) (eon : N) (receivers evals : list bytes) (sender : address)
  : app * response :=
  if negb (Nat.eqb (length receivers) (length evals)) then (s, error_response)
  else match parse_addresses receivers with
  | None => (s, error_response)
  | Some rs =>
    match dkg_map s !! eon with
    | None => (s, error_response)
    | Some d =>
      match register_poly_eval d sender eon rs with
      | None => (s, error_response)
      | Some d' => (s <| dkg_map := <[eon := d']> (dkg_map s) |>,
                    ok_response [EvPolyEval sender eon rs evals])
      end
    end
  end.

(** messages.go:55-70 ParsePolyCommitmentMsg, app.go:559-586 handlePolyCommitmentMsg *)
Definition handle_poly_commitment (s : app) (eon : N) (gammas : list bytes) (sender : address)
  : app * response :=
  match mapM (g2_unmarshal O) gammas with
  | None => (s, error_response)
  | Some gs =>
    match dkg_map s !! eon with
    | None => (s, error_response)
    | Some d =>
      match register_commitment d sender eon with
      | None => (s, error_response)
      | Some d' => (s <| dkg_map := <[eon := d']> (dkg_map s) |>,
                    ok_response [EvPolyCommitment sender eon gs])
      end
    end
  end.

(** messages.go:73-92 ParseAccusationMsg, app.go:588-615 handleAccusationMsg *)
Definition handle_accusation (s : app) (eon : N) (accused : list bytes) (sender : address)
  : app * response :=
  match parse_addresses accused with
  | None => (s, error_response)
  | Some rs =>
    match dkg_map s !! eon with
    | None => (s, error_response)
    | Some d =>
      match register_accusation d sender eon rs with
      | None => (s, error_response)
      | Some d' => (s <| dkg_map := <[eon := d']> (dkg_map s) |>,
                    ok_response [EvAccusation sender eon rs])
      end
    end
  end.

(** big.Int SetBytes (messages.go:117-118): unsigned big-endian value *)
Definition be_value (b : bytes) : N := foldl (λ acc x, (acc * 256 + x)%N) 0%N b.

(** messages.go:95-128 ParseApologyMsg, app.go:617-644 handleApologyMsg *)
Definition handle_apology (s : app) (eon : N) (accusers evals : list bytes) (sender : address)
  : app * response :=
  if negb (Nat.eqb (length accusers) (length evals)) then (s, error_response)
  else match parse_addresses accusers with
  | None => (s, error_response)
  | Some rs =>
    match dkg_map s !! eon with
    | None => (s, error_response)
    | Some d =>
      match register_apology d sender eon rs with
      | None => (s, error_response)
      | Some d' => (s <| dkg_map := <[eon := d']> (dkg_map s) |>,
                    ok_response [EvApology sender eon rs (be_value <$> evals)])
      end
    end
  end.

(** messages.go:131-143 ParseEpochSecretKeyShareMsg, app.go:646-659 handleEpochSecretKeyShareMsg *)
Definition handle_epoch_share (s : app) (eon epoch : N) (share : bytes) (sender : address)
  : app * response :=
  match share_decode O share with
  | None => (s, error_response)
  | Some sh => (s, ok_response [EvEpochSecretKeyShare sender eon epoch sh])
  end.

(** app.go:661-695 deliverMessage *)
Definition deliver_message (ord : order) (s : app) (p : payload) (sender : address)
  : option (app * response) :=
  match p with
  | MBatchConfig m => deliver_batch_config ord s m sender
  | MBatchConfigStarted i => deliver_config_started s i sender
  | MCheckIn v e => deliver_check_in s v e sender
  | MEonStartVote b => deliver_eon_start_vote ord s b sender
  | MDecryptionSignature b sig => deliver_decryption_signature s b sig sender
  | MPolyEval e rs evs => Some (handle_poly_eval s e rs evs sender)
  | MPolyCommitment e gs => Some (handle_poly_commitment s e gs sender)
  | MAccusation e l => Some (handle_accusation s e l sender)
  | MApology e l evs => Some (handle_apology s e l evs sender)
  | MEpochSecretKeyShare e ep sh => Some (handle_epoch_share s e ep sh sender)
  | MOther => Some (s, error_response)
  end.

(** app.go:294-310 DeliverTx, noncetracker.go:13-29 *)
Definition deliver_tx (ord : order) (s : app) (tx : bytes) : option (app * response) :=
  match decode_tx O tx with
  | None => Some (s, error_response)
  | Some (sender, m) =>
    if negb (bool_decide (msg_chain_id m = chain_id s)) then Some (s, error_response)
    else if bool_decide ((sender, msg_nonce m) ∈ nonces s) then Some (s, error_response)
    else deliver_message ord (s <| nonces := nonces s ∪ {[ (sender, msg_nonce m) ]} |>)
                         (msg_payload m) sender
  end.

(** checktx.go:10 MaxTxsPerBlock *)
Definition max_txs_per_block : nat := 10.

(** app.go:55-70 CheckTx, checktx.go:37-51 AddTx *)
Definition check_tx (s : app) (tx : bytes) : app * response :=
  match decode_tx O tx with
  | None => (s, error_response)
  | Some (sender, m) =>
    if negb (bool_decide (msg_chain_id m = chain_id s)) then (s, error_response)
    else if bool_decide ((sender, msg_nonce m) ∈ nonces s) then (s, error_response)
    else if negb (bool_decide (ck_members s = ∅)) && negb (bool_decide (sender ∈ ck_members s))
    then (s, error_response)
    else if Nat.leb max_txs_per_block (default 0 (ck_counts s !! sender)) then (s, error_response)
    else if bool_decide ((sender, msg_nonce m) ∈ ck_nonces s) then (s, error_response)
    else (s <| ck_counts := <[sender := S (default 0 (ck_counts s !! sender))]> (ck_counts s) |>
            <| ck_nonces := ck_nonces s ∪ {[ (sender, msg_nonce m) ]} |>,
          ok_response [])
  end.

(** * Validators *)

(** powermap.go:13-27 MakePowermap; [None] = error (non-ed25519 key or wrong length).  The int64
    sum is modelled without wrap-around. *)
Definition make_powermap_genesis (vs : list vupdate) : option (gmap bytes Z) :=
  foldl (λ acc v, pm ← acc;
           if Nat.eqb (length v.1) 32
           then Some (<[v.1 := (default 0 (pm !! v.1) + v.2)%Z]> pm) else None) (Some ∅) vs.

(** app.go:42-43 NonExistentValidator: "novalidator" padded with zeros to 32 bytes *)
Definition non_existent_validator : bytes :=
  [110;111;118;97;108;105;100;97;116;111;114;0;0;0;0;0;0;0;0;0;0;0;0;0;0;0;0;0;0;0;0;0]%N.

(** app.go:728-739 makePowermap *)
Definition make_powermap (ids : gmap address bytes) (keypers : list address) : gmap bytes Z :=
  foldl (λ pm k, let pk := default non_existent_validator (ids !! k) in
                 <[pk := (default 0 (pm !! pk) + 10)%Z]> pm) ∅ keypers.

(** app.go:742-749 CurrentValidators *)
Definition current_validators (s : app) : gmap bytes Z :=
  match List.find (λ c, cf_started c && cf_vupdated c) (rev (configs s)) with
  | Some c => make_powermap (identities s) (cf_keypers c)
  | None => validators s
  end.

(** powermap.go:39-58 DiffPowermaps *)
Definition diff_powermaps (old new : gmap bytes Z) : gmap bytes Z :=
  let removed := (λ _, 0%Z) <$> filter (λ p, new !! p.1 = None) old in
  let changed := filter (λ p, default 0%Z (old !! p.1) ≠ p.2) new in
  changed ∪ removed.

(** bytes.Compare(a, b) < 0 (powermap.go:33) *)
Fixpoint bytes_ltb (a b : bytes) : bool :=
  match a, b with
  | [], [] => false
  | [], _ :: _ => true
  | _ :: _, [] => false
  | x :: a', y :: b' => if N.ltb x y then true else if N.ltb y x then false else bytes_ltb a' b'
  end.

(** powermap.go:31-35 SortValidators.  Simplification: sort.Slice is modelled by an insertion sort;
    PropsApp shows that every sorted permutation of the entries is the same list. *)
Fixpoint insert_update (u : vupdate) (l : list vupdate) : list vupdate :=
  match l with
  | [] => [u]
  | v :: l' => if bytes_ltb (v.1) (u.1) then v :: insert_update u l' else u :: l
  end.
Definition sort_updates (l : list vupdate) : list vupdate := foldr insert_update [] l.

(** powermap.go:61-71 ValidatorUpdates *)
Definition validator_updates (pm : gmap bytes Z) : list vupdate := sort_updates (map_to_list pm).

(** app.go:752-761 countCheckedInKeypers *)
Definition count_checked_in (s : app) (keypers : list address) : N :=
  N.of_nat (length (filter (λ k, is_Some (identities s !! k)) keypers)).

(** replace the last element (EndBlock mutates the last config through its pointer) *)
Definition set_last (l : list config) (c : config) : list config := removelast l ++ [c].

(** app.go:763-778, first half of EndBlock: starting the last config / marking validators updated *)
Definition end_block_flags (s : app) : option app :=
  l ← last_config s;
  p ← (if Nat.leb 2 (length (configs s)) then Some <$> configs s !! (length (configs s) - 2)
       else Some None);
  let start := match p with
               | Some cur => N.leb (cf_threshold cur) (N.of_nat (size (started_votes s)))
               | None => false
               end in
  let l1 := if start then l <| cf_started := true |> else l in
  let s1 := if start then s <| started_votes := ∅ |> else s in
  let l2 := if cf_started l1 && negb (cf_vupdated l1)
               && N.leb (cf_threshold l1) (count_checked_in s (cf_keypers l1))
            then l1 <| cf_vupdated := true |> else l1 in
  Some (s1 <| configs := set_last (configs s1) l2 |>).

(** app.go:763-794 EndBlock *)
Definition end_block (s : app) (height : Z) : option (app * response) :=
  s1 ← end_block_flags s;
  let new := current_validators s1 in
  let upd := validator_updates (diff_powermaps (validators s1) new) in
  let s2 := s1 <| validators := new |> <| last_height := height |> in
  Some (s2, mkResponse 0 [] (if dev_mode s2 then [] else upd)).

(** app.go:837-846 Commit (the persisting part is in PersistModel.v), checktx.go:21-24 Reset *)
Definition commit (s : app) : app := s <| ck_counts := ∅ |> <| ck_nonces := ∅ |>.

(** app.go:236-240: the genesis config *)
Definition genesis_config (keypers : list address) (threshold : N) : config :=
  mkConfig 0%N keypers threshold 0%N 0%N false false.

(** app.go:229-267 InitChain; [None] = log.Fatalf.  The genesis app state is given parsed. *)
Definition init_chain (s : app) (keypers : list address) (threshold : N) (vals : list vupdate)
  (cid : bytes) : option app :=
  let bc := genesis_config keypers threshold in
  if negb (ensure_valid bc) then None
  else
    c0 ← configs s !! 0%nat;
    if Nat.eqb (length (configs s)) 1 && Nat.eqb (length (cf_keypers c0)) 0 then
      pm ← make_powermap_genesis vals;
      Some (update_members (s <| validators := pm |> <| configs := [bc] |>
                              <| ck_counts := ∅ |> <| ck_nonces := ∅ |>)
              <| chain_id := cid |>)
    else if bool_decide (bc = c0) then Some (s <| chain_id := cid |>) else None.

(** app.go:73-86 NewShutterApp; DevMode is set by cmd/init.go:190 *)
Definition zero_config : config := mkConfig 0%N [] 0%N 0%N 0%N false false.
Definition new_app (dev : bool) : app :=
  mkApp [zero_config] ∅ ∅ new_voting ∅ 0%Z ∅ ∅ ∅ 0%N dev ∅ ∅ ∅ ∅ [].

(** * ABCI calls and histories *)

Inductive call :=
| CInitChain (keypers : list address) (threshold : N) (vals : list vupdate) (cid : bytes)
| CCheckTx (tx : bytes)
| CDeliverTx (tx : bytes) (ord : order)
| CEndBlock (height : Z)
| CCommit.

(** one ABCI call (app.go:49-70, 217-310, 763-846); [None] = the process dies *)
Definition step (s : app) (c : call) : option (app * response) :=
  match c with
  | CInitChain ks t vs cid => s' ← init_chain s ks t vs cid; Some (s', ok_response [])
  | CCheckTx tx => Some (check_tx s tx)
  | CDeliverTx tx ord => deliver_tx ord s tx
  | CEndBlock h => end_block s h
  | CCommit => Some (commit s, ok_response [])
  end.

End App.

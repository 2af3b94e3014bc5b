(** Specification vocabulary for the ABCI application: executions, histories and what can be
    observed of them.  Nothing here depends on proofs. *)
From stdpp Require Import gmap list sorting.
From Coq Require Import NArith ZArith.
From Verif Require Import AppModel.

(** A Go map may be iterated in any order. *)
Definition valid_order (ord : order) : Prop := ∀ l, ord l ≡ₚ l.
Definition valid_call (c : call) : Prop :=
  match c with CDeliverTx _ ord => valid_order ord | _ => True end.

(** A trace is the list of ABCI calls made together with the responses given. *)
Notation trace := (list (call * response)).

(** [exec O s tr s']: from state [s] the calls in [tr] are answered as recorded, ending in [s']. *)
Inductive exec (O : oracles) : app → trace → app → Prop :=
| exec_nil s : exec O s [] s
| exec_snoc s tr s1 c r s2 :
    exec O s tr s1 → valid_call c → step O s1 c = Some (s2, r) → exec O s (tr ++ [(c, r)]) s2.

(** A history starts with a fresh application (any dev mode flag). *)
Definition history (O : oracles) (tr : trace) (s : app) : Prop := ∃ dev, exec O (new_app dev) tr s.

(** The call is a DeliverTx of a transaction signed by [a] with payload [p]. *)
Definition delivers (O : oracles) (c : call) (a : address) (p : payload) : Prop :=
  ∃ tx ord m, c = CDeliverTx tx ord ∧ decode_tx O tx = Some (a, m) ∧ msg_payload m = p.

(** A rejected call: error code, no events, no validator updates, state unchanged. *)
Definition rejected (s : app) (r : response) (s' : app) : Prop :=
  s' = s ∧ rsp_code r = 1%N ∧ rsp_events r = [] ∧ rsp_updates r = [].

(** All events published, in order. *)
Definition events_of (tr : trace) : list event := concat (rsp_events <$> tr.*2).

(** Eons announced, in order. *)
Definition eons_of (tr : trace) : list N :=
  omap (λ e, match e with EvEonStarted n _ => Some n | _ => None end) (events_of tr).

(** Two configs agree except for the two flags that EndBlock may set. *)
Definition same_config (c d : config) : Prop :=
  cf_start c = cf_start d ∧ cf_keypers c = cf_keypers d ∧ cf_threshold c = cf_threshold d ∧
  cf_contract c = cf_contract d ∧ cf_index c = cf_index d.

(** The call is a DeliverTx by [a] of a BatchConfig message whose content is config [c]. *)
Definition votes_config (O : oracles) (cl : call) (a : address) (c : config) : Prop :=
  ∃ m, delivers O cl a (MBatchConfig m) ∧ config_from_message m = Some c.

(** Some event in the trace announces a new config. *)
Definition announces_config (tr : trace) : Prop := ∃ c, EvBatchConfig c ∈ events_of tr.

(** The power a validator map gives to a key (absent = none). *)
Definition power (pm : gmap bytes Z) (k : bytes) : Z := default 0%Z (pm !! k).

(** Tendermint's treatment of validator updates: power 0 removes the validator, any other power
    sets it; updates are applied in order. *)
Definition apply_update (pm : gmap bytes Z) (u : vupdate) : gmap bytes Z :=
  if Z.eqb u.2 0 then delete u.1 pm else <[u.1 := u.2]> pm.
Definition apply_updates (pm : gmap bytes Z) (us : list vupdate) : gmap bytes Z :=
  foldl apply_update pm us.

(** The same ABCI call as seen by two nodes that iterate their maps in different orders. *)
Definition same_call (c d : call) : Prop :=
  match c, d with
  | CInitChain k1 t1 v1 i1, CInitChain k2 t2 v2 i2 => k1 = k2 ∧ t1 = t2 ∧ v1 = v2 ∧ i1 = i2
  | CCheckTx t1, CCheckTx t2 => t1 = t2
  | CDeliverTx t1 _, CDeliverTx t2 _ => t1 = t2
  | CEndBlock h1, CEndBlock h2 => h1 = h2
  | CCommit, CCommit => True
  | _, _ => False
  end.

(** [c] is the last config in [l] whose start batch index is not larger than [b]. *)
Definition responsible (l : list config) (b : N) (c : config) : Prop :=
  ∃ l1 l2, l = l1 ++ c :: l2 ∧ (cf_start c ≤ b)%N ∧ Forall (λ d, (b < cf_start d)%N) l2.

(** config [d] is a later version of config [c]: same content, flags possibly set *)
Definition later_version (c d : config) : Prop :=
  same_config c d ∧ (cf_started c = true → cf_started d = true) ∧
  (cf_vupdated c = true → cf_vupdated d = true).

(** What has been published about key generation and decryption: (eon, sender) of commitments,
    accusations and apologies; (eon, sender, receiver) of evaluations; (batch, sender) of decryption
    signatures; senders of check-ins. *)
Definition commitments_of (tr : trace) : list (N * address) :=
  omap (λ e, match e with EvPolyCommitment a n _ => Some (n, a) | _ => None end) (events_of tr).
Definition accusations_of (tr : trace) : list (N * address) :=
  omap (λ e, match e with EvAccusation a n _ => Some (n, a) | _ => None end) (events_of tr).
Definition apologies_of (tr : trace) : list (N * address) :=
  omap (λ e, match e with EvApology a n _ _ => Some (n, a) | _ => None end) (events_of tr).
Definition evals_of (tr : trace) : list (N * address * address) :=
  concat ((λ e, match e with EvPolyEval a n rs _ => (λ r, (n, a, r)) <$> rs | _ => [] end) <$> events_of tr).
Definition signatures_of (tr : trace) : list (N * address) :=
  omap (λ e, match e with EvDecryptionSignature b a _ => Some (b, a) | _ => None end) (events_of tr).
Definition checkins_of (tr : trace) : list address :=
  omap (λ e, match e with EvCheckIn a _ => Some a | _ => None end) (events_of tr).

(** The config of eon [n] on the chain: the DKG instance started for it and the config it stems from. *)
Definition eon_config (s : app) (n : N) (c : config) : Prop :=
  ∃ d, dkg_map s !! n = Some d ∧ c ∈ configs s ∧ same_config (dkg_config d) c.

(** [standing_vote O x k b s0 tr s]: in the execution [tr] from [s0] to [s], keyper [x] has cast an
    eon start vote for batch index [b] counted for the config with index [k], has not cast another
    vote counted for that config since, and no eon has been started by votes for that config since. *)
Definition eon_vote_for (O : oracles) (s : app) (c : call) (x : address) (k b : N) : Prop :=
  delivers O c x (MEonStartVote b) ∧ ∃ cfg, get_config s b = Some cfg ∧ cf_index cfg = k.
Inductive standing_vote (O : oracles) (x : address) (k b : N) (s0 : app) : trace → app → Prop :=
| sv_cast tr s c r s' :
    exec O s0 tr s → valid_call c → step O s c = Some (s', r) → rsp_code r = 0%N → rsp_events r = [] →
    eon_vote_for O s c x k b → standing_vote O x k b s0 (tr ++ [(c, r)]) s'
| sv_keep tr s c r s' :
    standing_vote O x k b s0 tr s → valid_call c → step O s c = Some (s', r) →
    (∀ b', rsp_code r = 0%N → eon_vote_for O s c x k b' → b' = b) →
    (∀ y b', eon_vote_for O s c y k b' → ∀ e b'', EvEonStarted e b'' ∉ rsp_events r) →
    standing_vote O x k b s0 (tr ++ [(c, r)]) s'.

(** Nonces of the transactions of [a] accepted into the mempool (CheckTx answered with code 0). *)
Definition mempool_of (O : oracles) (a : address) (tr : trace) : list N :=
  omap (λ p, match p.1 with
             | CCheckTx tx =>
                 match decode_tx O tx with
                 | Some (b, m) => if bool_decide (b = a ∧ rsp_code p.2 = 0%N) then Some (msg_nonce m) else None
                 | None => None
                 end
             | _ => None
             end) tr.

(** calls that reset the mempool bookkeeping *)
Definition resets (c : call) : Prop :=
  match c with CCommit | CInitChain _ _ _ _ => True | _ => False end.

(** number of keypers (with multiplicity) whose registered validator key, or the placeholder if
    there is none, is [k] *)
Definition keypers_with_key (ids : gmap address bytes) (keypers : list address) (k : bytes) : Z :=
  Z.of_nat (length (filter (λ a, default non_existent_validator (ids !! a) = k) keypers)).

(** total voting power *)
Definition total_power (pm : gmap bytes Z) : Z := map_fold (λ _ p acc, (p + acc)%Z) 0%Z pm.

(** strict lexicographic order on byte strings *)
Inductive bytes_lt : bytes → bytes → Prop :=
| blt_nil y b : bytes_lt [] (y :: b)
| blt_head x y a b : (x < y)%N → bytes_lt (x :: a) (y :: b)
| blt_tail x a b : bytes_lt a b → bytes_lt (x :: a) (x :: b).

(** calls other than InitChain *)
Definition not_init (c : call) : Prop := match c with CInitChain _ _ _ _ => False | _ => True end.

(** What tendermint's validator set becomes during a trace: the updates answered to each EndBlock
    are applied, in order. *)
Definition tendermint_validators (pm : gmap bytes Z) (tr : trace) : gmap bytes Z :=
  foldl (λ pm p, match p.1 with CEndBlock _ => apply_updates pm (rsp_updates p.2) | _ => pm end) pm tr.

(** A config that is started and has enough checked-in keypers, as far as the chain is concerned. *)
Definition active (c : config) : Prop := cf_started c = true ∧ cf_vupdated c = true.

(** [c] is the newest active config of [l] *)
Definition newest_active (l : list config) (c : config) : Prop :=
  ∃ l1 l2, l = l1 ++ c :: l2 ∧ active c ∧ Forall (λ d, ¬ active d) l2.

(** the keypers of [c] that have registered a validator key *)
Definition checked_in (s : app) (c : config) : list address :=
  filter (λ a, is_Some (identities s !! a)) (cf_keypers c).

(** the last two configs of a chain: the current one and its successor *)
Definition last_two (s : app) (p l : config) : Prop := ∃ q, configs s = q ++ [p; l].

(** the config keyper [a]'s current vote is for *)
Definition config_vote (s : app) (a : address) : option config :=
  match vt_votes (config_voting s) !! a with Some i => vt_cands (config_voting s) !! i | None => None end.

(** [tx] is a BatchConfig transaction with content [m], signed by [v] for this chain, with a nonce not
    yet used *)
Definition fresh_vote (O : oracles) (m : raw_config) (s : app) (v : address) (tx : bytes) : Prop :=
  ∃ msg, decode_tx O tx = Some (v, msg) ∧ msg_payload msg = MBatchConfig m ∧
         msg_chain_id msg = chain_id s ∧ (v, msg_nonce msg) ∉ nonces s.

(** config [c] may follow config [l] *)
Definition acceptable_after (l c : config) : Prop :=
  cf_keypers c ≠ [] ∧ (1 ≤ cf_threshold c)%N ∧ (cf_threshold c < 2 ^ 63)%N ∧
  (cf_threshold c ≤ N.of_nat (length (cf_keypers c)))%N ∧ (cf_start l ≤ cf_start c)%N ∧ (cf_index l < cf_index c)%N.

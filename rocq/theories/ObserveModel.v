(** Model of the keyper's view of shuttermint: /repo/shuttermint/keyper/observe/shutter.go, and of how the keyper
    feeds it to its decisions (/repo/shuttermint/keyper/keyper.go syncLoop, observe.SyncShutter).
    [B] is the payload of the DKG and key share events, [D] a batch config, [K] an encryption key, [G] a
    decryption signature event.  Heights (int64) are Z, uint64 numbers are N; neither overflows here. *)
From stdpp Require Import list gmap.
From Coq Require Import ZArith NArith Lia.

(** the Go standard library's sort.Search: binary search for the first index in [0,n) where [f] holds *)
Fixpoint search_loop (fuel : nat) (f : nat → bool) (i j : nat) : nat :=
  match fuel with
  | O => i
  | S fuel =>
      if i <? j then
        let h := (i + j) / 2 in
        if f h then search_loop fuel f i h else search_loop fuel f (h + 1) j
      else i
  end.
Definition sort_search (n : nat) (f : nat → bool) : nat := search_loop (n + 1) f 0 n.

(** events: shutterevents/events.go; the height is set by MakeEvent *)
Record eon_event {B : Type} := mkEv { ev_height : Z; ev_eon : N; ev_body : B }.
Arguments eon_event : clear implicits. Arguments mkEv {B}.
(** the five kinds of events stored per eon *)
Inductive kind := Commitment | PolyEval | Accusation | Apology | KeyShare.
Global Instance kind_eq_dec : EqDecision kind.
Proof. solve_decision. Defined.

Section Observe.
Context {B D K G : Type}.
Notation eonev := (eon_event B).
Inductive shutter_event :=
| CheckIn (sender : N) (key : K)
| BatchConfig (bc : D)
| DecryptionSignature (batch_index : N) (sig : G)
| EonStarted (height : Z) (eon : N) (batch_index : N)
| EonEvent (k : kind) (e : eonev).

(** shutter.go:95-104 Eon *)
Record eon := mkEon {
  eon_number : N; start_height : Z; start_batch : N;
  commitments : list eonev; poly_evals : list eonev; accusations : list eonev; apologies : list eonev;
  key_shares : list eonev
}.
Definition events_of (k : kind) (e : eon) : list eonev :=
  match k with
  | Commitment => commitments e | PolyEval => poly_evals e | Accusation => accusations e
  | Apology => apologies e | KeyShare => key_shares e
  end.
Definition add_event (k : kind) (x : eonev) (e : eon) : eon :=
  match k with
  | Commitment => mkEon (eon_number e) (start_height e) (start_batch e) (commitments e ++ [x]) (poly_evals e) (accusations e) (apologies e) (key_shares e)
  | PolyEval => mkEon (eon_number e) (start_height e) (start_batch e) (commitments e) (poly_evals e ++ [x]) (accusations e) (apologies e) (key_shares e)
  | Accusation => mkEon (eon_number e) (start_height e) (start_batch e) (commitments e) (poly_evals e) (accusations e ++ [x]) (apologies e) (key_shares e)
  | Apology => mkEon (eon_number e) (start_height e) (start_batch e) (commitments e) (poly_evals e) (accusations e) (apologies e ++ [x]) (key_shares e)
  | KeyShare => mkEon (eon_number e) (start_height e) (start_batch e) (commitments e) (poly_evals e) (accusations e) (apologies e) (key_shares e ++ [x])
  end.
(** shutter.go:119-177 GetPolyCommitments, GetPolyEvals, GetAccusations, GetApologies,
    GetEpochSecretKeyShares: five copies of the same code *)
Definition from_height (l : list eonev) (sync_height : Z) : list eonev :=
  let idx := sort_search (length l) (λ i, match l !! i with Some x => (sync_height <=? ev_height x)%Z | None => false end) in
  if idx =? length l then [] else drop idx l.
Definition get_events (k : kind) (e : eon) (sync_height : Z) : list eonev := from_height (events_of k e) sync_height.
(** shutter.go:106-117 Eon.ApplyFilter *)
Definition eon_apply_filter (e : eon) (sync_height : Z) : eon :=
  mkEon (eon_number e) (start_height e) (start_batch e)
    ([] ++ get_events Commitment e sync_height) ([] ++ get_events PolyEval e sync_height)
    ([] ++ get_events Accusation e sync_height) ([] ++ get_events Apology e sync_height)
    [].

(** shutter.go:62-85 Shutter; [node_synced] stands for NodeStatus (IsSynced, 524-527), LastCommittedHeight is
    not modelled *)
Record shutter := mkShutter {
  current_block : Z; enc_keys : gmap N K; configs : list D; batches : gmap N (list G); eons : list eon;
  filter_height : Z; filter_batch : N; node_synced : bool
}.
(** shutter.go:88-94 NewShutter; the zero filter *)
Definition new_shutter : shutter := mkShutter (-1) ∅ [] ∅ [] 0 0 true.
Definition with_eons (s : shutter) (es : list eon) : shutter :=
  mkShutter (current_block s) (enc_keys s) (configs s) (batches s) es (filter_height s) (filter_batch s) (node_synced s).

(** shutter.go:184-216 filterSyncHeight, filterBatchIndex, NeedsUpdate (68-70), ApplyFilter *)
Definition apply_filter (s : shutter) (h : Z) (b : N) : shutter :=
  if ((filter_height s <? h)%Z || (filter_batch s <? b)%N)%bool then
    mkShutter (current_block s) (enc_keys s) (configs s) (filter (λ kv, (b ≤ kv.1)%N) (batches s))
      ((λ e, eon_apply_filter e h) <$> eons s) h b (node_synced s)
  else s.

(** shutter.go:238-262 searchEon, FindEonByBatchIndex, FindEon (index instead of pointer) *)
Definition search_eon (s : shutter) (n : N) : nat :=
  sort_search (length (eons s)) (λ i, match eons s !! i with Some e => (n <=? eon_number e)%N | None => false end).
Definition find_eon_index (s : shutter) (n : N) : option nat :=
  let idx := search_eon s n in
  match eons s !! idx with
  | Some e => if (n <? eon_number e)%N then None else Some idx
  | None => None
  end.
Definition find_eon (s : shutter) (n : N) : option eon := find_eon_index s n ≫= λ i, eons s !! i.
Fixpoint find_last (es : list eon) (b : N) (i : nat) : option eon :=
  match i with
  | O => None
  | S i' =>
      match es !! i' with
      | Some e => if (start_batch e <=? b)%N then Some e else find_last es b i'
      | None => None
      end
  end.
Definition find_eon_by_batch_index (s : shutter) (b : N) : option eon := find_last (eons s) b (length (eons s)).

(** shutter.go:264-361 applyEvent; errors are only logged *)
Definition apply_event (s : shutter) (ev : shutter_event) : shutter :=
  match ev with
  | CheckIn sender key =>
      mkShutter (current_block s) (<[sender := key]> (enc_keys s)) (configs s) (batches s) (eons s) (filter_height s) (filter_batch s) (node_synced s)
  | BatchConfig bc =>
      mkShutter (current_block s) (enc_keys s) (configs s ++ [bc]) (batches s) (eons s) (filter_height s) (filter_batch s) (node_synced s)
  | DecryptionSignature b sig =>
      mkShutter (current_block s) (enc_keys s) (configs s) (<[b := default [] (batches s !! b) ++ [sig]]> (batches s)) (eons s)
        (filter_height s) (filter_batch s) (node_synced s)
  | EonStarted h n b =>
      if search_eon s n <? length (eons s) then s
      else with_eons s (eons s ++ [mkEon n h b [] [] [] [] []])
  | EonEvent k e =>
      match find_eon_index s (ev_eon e) with
      | None => s
      | Some i => with_eons s (alter (add_event k e) i (eons s))
      end
  end.
Definition apply_events (s : shutter) (evs : list shutter_event) : shutter := foldl apply_event s evs.

(** shutterevents.MakeEvent decodes a raw event of a transaction, given the transaction's height; shutter.go:218-227
    applyTxEvents skips malformed events *)
Context {R : Type} (make_event : R → Z → option shutter_event).
Definition tx := (Z * list R)%type.
Definition apply_tx_events (s : shutter) (t : tx) : shutter := apply_events s (omap (λ r, make_event r t.1) t.2).

(** The shuttermint chain: the raw events of each transaction of each block.  TxSearch returns the transactions
    of a range of heights in order, in pages of at most 100. *)
Context (chain : nat → list (list R)).
Definition block_txs (h : nat) : list tx := (λ evs, (Z.of_nat h, evs)) <$> chain h.
Definition txs_between (a b : Z) : list tx :=
  mjoin ((λ i, block_txs (Z.to_nat a + i)) <$> seq 0 (Z.to_nat (b - a + 1))).
Definition tx_search (a b : Z) (page : nat) : list tx * nat :=
  (take 100 (drop ((page - 1) * 100) (txs_between a b)), length (txs_between a b)).

(** shutter.go:363-428 fetchAndApplyEvents; [None] is a panic, log.Fatalf or an endless loop *)
Fixpoint fetch_pages (fuel : nat) (s : shutter) (a b : Z) (page total : nat) (first : bool) (last_window : bool) : option (shutter * bool) :=
  match fuel with
  | O => None
  | S fuel =>
      let '(txs, count) := tx_search a b page in
      if (first && (count =? 0) && last_window)%bool then Some (s, true) (* return shutter.ShallowClone() *)
      else
        let s := foldl apply_tx_events s txs in
        let total := total + length txs in
        if count <=? page * 100 then
          if total =? count then Some (s, false) else None
        else fetch_pages fuel s a b (page + 1) total false last_window
  end.
Fixpoint fetch_windows (fuel : nat) (page_fuel : nat) (s : shutter) (cur target : Z) (first : bool) : option shutter :=
  match fuel with
  | O => None
  | S fuel =>
      let height := Z.min (cur + 500) target in
      match fetch_pages page_fuel s (cur + 1) height 1 0 first (height =? target)%Z with
      | None => None
      | Some (s, true) => Some s
      | Some (s, false) => if (height =? target)%Z then Some s else fetch_windows fuel page_fuel s height target false
      end
  end.
Definition fetch_and_apply (fuel page_fuel : nat) (s : shutter) (target : Z) : option shutter :=
  if (target <? current_block s)%Z then None
  else fetch_windows fuel page_fuel s (current_block s) target true.
(** shutter.go:497-522 SyncToHeight *)
Definition sync_to_height (fuel page_fuel : nat) (s : shutter) (target : Z) (synced : bool) : option shutter :=
  match fetch_and_apply fuel page_fuel s target with
  | None => None
  | Some s' => Some (mkShutter target (enc_keys s') (configs s') (batches s') (eons s') (filter_height s') (filter_batch s') synced)
  end.
End Observe.
Arguments shutter_event : clear implicits. Arguments eon : clear implicits. Arguments shutter : clear implicits.

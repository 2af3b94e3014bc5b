(** Model of the keyper's main loop and its action workers: /repo/shuttermint/keyper/keyper.go (runOneStep,
    saveState, LoadState, runActions, run), fx/pending.go, fx/runenv.go and fx/messagesender.go (SendMessage).

    The process is a transition system.  An event is one step of one goroutine, the answer of an external
    system, a shutdown request or a crash.  The two files (state.gob, actions.gob) are replaced atomically
    (temporary file, sync, rename: modelled for the app in PersistModel.v), so a save is one step.
    ActionIDs are unbounded numbers (the code uses uint64). *)
From stdpp Require Import list gmap.
From Coq Require Import NArith Lia.

(** What happens in the external world or to the list of pending actions; the properties speak about
    sequences of these *)
Inductive obs {A : Type} :=
| OCommitted (actions : list A)   (** a decision is saved in state.gob *)
| OAdded (id : N) (a : A)         (** the action enters the list of pending actions *)
| ORemoved (id : N)               (** the action leaves the list *)
| OAttempt (id : N)               (** a message is about to be sent to shuttermint *)
| OExecuted (id : N)              (** shuttermint executed the message *)
| ORefused (id : N)               (** shuttermint executed the message and reported an error *)
| OCheckRejected (id : N)         (** shuttermint's CheckTx rejected the message *)
| OExpired (id : N)               (** the action reported that it is expired *)
| OFailed (id : N)                (** sending failed with a non-retriable error *)
| OTxSent (id : N)                (** the ethereum node accepted the transaction *)
| OTxRecorded (id : N)           (** the hash of the sent transaction is stored in actions.gob *)
| OMined (id : N)                 (** the ethereum node returned a receipt *)
| ORestarted.
Arguments obs : clear implicits.

Section Pending.
Context {S A W : Type}.
(** decide.go: the decision: new state and actions *)
Context (decide : S → W → S * list A).
(** actions.go: *SendShuttermintMessage or a main chain transaction *)
Context (is_message : A → bool).

(** pending.go:20-26 PendingActions; MainChainTXHashes only records which ids have a hash *)
Record pending := mkPending { p_map : gmap N A; p_sent : gset N; p_current : N }.
Definition no_pending : pending := mkPending ∅ ∅ 0.

(** pending.go:57-80 AddActions; [None] = panic.  Also returns startID and endID. *)
Definition add_actions (p : pending) (id : N) (actions : list A) : option (pending * N * N) :=
  if (p_current p <? id)%N then None
  else
    let start := p_current p in
    if (id + N.of_nat (length actions) <=? p_current p)%N then Some (p, start, start)
    else
      let actions' := drop (N.to_nat (p_current p - id)) actions in
      let m := foldl (λ m ia, <[(start + N.of_nat ia.1)%N := ia.2]> m) (p_map p) (imap pair actions') in
      let e := (p_current p + N.of_nat (length actions'))%N in
      Some (mkPending m (p_sent p) e, start, e).
(** pending.go:98-105 RemoveAction *)
Definition remove_action (p : pending) (id : N) : pending :=
  mkPending (delete id (p_map p)) (p_sent p ∖ {[id]}) (p_current p).
(** pending.go:83-88 SetMainChainTXHash *)
Definition set_sent (p : pending) (id : N) : pending := mkPending (p_map p) (p_sent p ∪ {[id]}) (p_current p).

(** keyper.go: State, as far as it matters here, and where the main goroutine is *)
Record state := mkState { st : S; counter : N; actions : list A }.
Inductive pc := Idle | Decided | Saved.
(** the running process: [k_state], [k_pending] are in memory; the two channels read by handleActions, the
    action each of the two workers is handling (and whether its transaction was sent but not yet recorded),
    the transactions being waited for, and whether the context was cancelled *)
Record proc := mkProc {
  k_pc : pc; k_state : state; k_pending : pending;
  q_msg : list N; q_tx : list N;
  w_msg : option N; w_tx : option (N * bool);
  flying : gset N; cancelled : bool
}.
(** the files and the process *)
Record sys := mkSys { f_state : option state; f_pending : option pending; proc_of : proc }.

(** runenv.go:134-156 scheduleAction: the channel for an action.  Simplification: sends to a full channel wait
    in order in the queue. *)
Definition schedule (k : proc) (id : N) : proc :=
  match p_map (k_pending k) !! id with
  | None => k
  | Some a =>
      if is_message a then
        mkProc (k_pc k) (k_state k) (k_pending k) (q_msg k ++ [id]) (q_tx k) (w_msg k) (w_tx k) (flying k) (cancelled k)
      else if bool_decide (id ∈ p_sent (k_pending k)) then
        mkProc (k_pc k) (k_state k) (k_pending k) (q_msg k) (q_tx k) (w_msg k) (w_tx k) (flying k ∪ {[id]}) (cancelled k)
      else
        mkProc (k_pc k) (k_state k) (k_pending k) (q_msg k) (q_tx k ++ [id]) (w_msg k) (w_tx k) (flying k) (cancelled k)
  end.
Definition ids_between (a b : N) : list N := (λ i, (a + N.of_nat i)%N) <$> seq 0 (N.to_nat (b - a)).

(** keyper.go:309-340 LoadState, 247-276 loadRunenv and run; runenv.go:158-172 Load: pending actions are
    scheduled by increasing id (SortedIDs, pending.go:44-55), then the saved actions are run *)
Definition sorted_ids (p : pending) : list N := List.filter (λ id, bool_decide (is_Some (p_map p !! id))) (ids_between 0 (p_current p)).
Definition start (s0 : S) (fs : option state) (fp : option pending) : sys :=
  let s := default (mkState s0 0 []) fs in
  let p := default no_pending fp in
  let k := mkProc (match actions s with [] => Idle | _ => Saved end) s p [] [] None None ∅ false in
  mkSys fs fp (foldl schedule k (sorted_ids p)).

Inductive event :=
| EDecide (w : W)         (** runOneStep: decide *)
| ESave                   (** saveState *)
| ERun                    (** runActions: AddActions, schedule, then counter += len, Actions = nil *)
| ETakeMsg                (** the shuttermint worker receives an id *)
| EMsgRpcError            (** BroadcastTxCommit returned an error (retriable) *)
| EMsgResult (check_ok deliver_ok : bool)  (** BroadcastTxCommit returned; DeliverTx.Code is 0 unless CheckTx passed *)
| EMsgExpired
| ETakeTx                 (** the main chain worker receives an id *)
| ETxError (retriable : bool)
| ETxExpired
| ETxSend                 (** SendTX returned a transaction *)
| ETxRecord               (** SetMainChainTXHash, then the id goes to the in flight workers *)
| EMined (id : N)         (** waitMined got a receipt, then RemoveAction *)
| EWaitError (id : N)     (** waitMined returned because of an error or the cancelled context, then RemoveAction *)
| ECancel                 (** shutdown is requested *)
| ECrash.                 (** the process ends (crash or exit) and is started again *)

Inductive outcome := Disabled | Panic | Step (s : sys) (o : list (obs A)).

Definition with_pending (s : sys) (k : proc) (p : pending) : sys :=
  mkSys (f_state s) (Some p)
    (mkProc (k_pc k) (k_state k) p (q_msg k) (q_tx k) (w_msg k) (w_tx k) (flying k) (cancelled k)).
Definition with_proc (s : sys) (k : proc) : sys := mkSys (f_state s) (f_pending s) k.
Definition set_w_msg (k : proc) (w : option N) : proc :=
  mkProc (k_pc k) (k_state k) (k_pending k) (q_msg k) (q_tx k) w (w_tx k) (flying k) (cancelled k).
Definition set_w_tx (k : proc) (w : option (N * bool)) : proc :=
  mkProc (k_pc k) (k_state k) (k_pending k) (q_msg k) (q_tx k) (w_msg k) w (flying k) (cancelled k).
Definition set_flying (k : proc) (f : gset N) : proc :=
  mkProc (k_pc k) (k_state k) (k_pending k) (q_msg k) (q_tx k) (w_msg k) (w_tx k) f (cancelled k).

Definition step (s0 : S) (s : sys) (e : event) : outcome :=
  let k := proc_of s in
  match e with
  (** keyper.go:392-401 runOneStep *)
  | EDecide w =>
      match k_pc k, cancelled k with
      | Idle, false =>
          match actions (k_state k) with
          | [] =>
              let '(st', acts) := decide (st (k_state k)) w in
              Step (with_proc s (mkProc Decided (mkState st' (counter (k_state k)) acts) (k_pending k) (q_msg k) (q_tx k)
                     (w_msg k) (w_tx k) (flying k) (cancelled k))) []
          | _ => Panic
          end
      | _, _ => Disabled
      end
  (** keyper.go:342-368 saveState *)
  | ESave =>
      match k_pc k with
      | Decided =>
          Step (mkSys (Some (k_state k)) (f_pending s)
                 (mkProc Saved (k_state k) (k_pending k) (q_msg k) (q_tx k) (w_msg k) (w_tx k) (flying k) (cancelled k)))
               [OCommitted (actions (k_state k))]
      | _ => Disabled
      end
  (** keyper.go:370-384 runActions, runenv.go:116-130 RunActions (returns at once without actions) *)
  | ERun =>
      match k_pc k with
      | Saved =>
          let ks := k_state k in
          let done k' := mkProc Idle (mkState (st ks) (counter ks + N.of_nat (length (actions ks))) []) (k_pending k')
                           (q_msg k') (q_tx k') (w_msg k') (w_tx k') (flying k') (cancelled k') in
          match actions ks with
          | [] => Step (with_proc s (done k)) []
          | acts =>
              match add_actions (k_pending k) (counter ks) acts with
              | None => Panic
              | Some (p, a, b) =>
                  let s1 := if (a <? b)%N then with_pending s k p else s in
                  Step (with_proc s1 (done (foldl schedule (proc_of s1) (ids_between a b))))
                    (omap (λ id, OAdded id <$> p_map p !! id) (ids_between a b))
              end
          end
      | _ => Disabled
      end
  (** runenv.go:195-234 handleActions on shuttermintMessages *)
  | ETakeMsg =>
      match w_msg k, q_msg k with
      | None, id :: q =>
          Step (with_proc s (mkProc (k_pc k) (k_state k) (k_pending k) q (q_tx k) (Some id) (w_tx k) (flying k) (cancelled k)))
               [OAttempt id]
      | _, _ => Disabled
      end
  | EMsgRpcError => match w_msg k with Some id => Step s [] | None => Disabled end
  (** messagesender.go:104-126 SendMessage looks at DeliverTx.Code only *)
  | EMsgResult check_ok deliver_ok =>
      match w_msg k with
      | Some id =>
          let deliver_code_zero := if check_ok then deliver_ok else true in
          let s' := with_pending s (set_w_msg k None) (remove_action (k_pending k) id) in
          Step s' ([if check_ok then if deliver_ok then OExecuted id else ORefused id else OCheckRejected id]
                   ++ (if deliver_code_zero then [] else [OFailed id]) ++ [ORemoved id])
      | None => Disabled
      end
  | EMsgExpired =>
      match w_msg k with
      | Some id => Step (with_pending s (set_w_msg k None) (remove_action (k_pending k) id)) [OExpired id; ORemoved id]
      | None => Disabled
      end
  (** runenv.go:195-234 handleActions on mainChainTXs, 63-81 sendMainChainTX *)
  | ETakeTx =>
      match w_tx k, q_tx k with
      | None, id :: q =>
          Step (with_proc s (mkProc (k_pc k) (k_state k) (k_pending k) (q_msg k) q (w_msg k) (Some (id, false)) (flying k) (cancelled k))) []
      | _, _ => Disabled
      end
  | ETxError retriable =>
      match w_tx k with
      | Some (id, false) =>
          if retriable then Step s []
          else Step (with_pending s (set_w_tx k None) (remove_action (k_pending k) id)) [OFailed id; ORemoved id]
      | _ => Disabled
      end
  | ETxExpired =>
      match w_tx k with
      | Some (id, false) => Step (with_pending s (set_w_tx k None) (remove_action (k_pending k) id)) [OExpired id; ORemoved id]
      | _ => Disabled
      end
  | ETxSend =>
      match w_tx k with
      | Some (id, false) => Step (with_proc s (set_w_tx k (Some (id, true)))) [OTxSent id]
      | _ => Disabled
      end
  | ETxRecord =>
      match w_tx k with
      | Some (id, true) => Step (with_pending s (set_flying (set_w_tx k None) (flying k ∪ {[id]})) (set_sent (k_pending k) id)) [OTxRecorded id]
      | _ => Disabled
      end
  (** runenv.go:236-246 handleInFlightTXs, 85-114 waitMined *)
  | EMined id =>
      if bool_decide (id ∈ flying k) then
        Step (with_pending s (set_flying k (flying k ∖ {[id]})) (remove_action (k_pending k) id)) [OMined id; ORemoved id]
      else Disabled
  | EWaitError id =>
      if bool_decide (id ∈ flying k) then
        Step (with_pending s (set_flying k (flying k ∖ {[id]})) (remove_action (k_pending k) id)) [ORemoved id]
      else Disabled
  | ECancel =>
      Step (with_proc s (mkProc (k_pc k) (k_state k) (k_pending k) (q_msg k) (q_tx k) (w_msg k) (w_tx k) (flying k) true)) []
  | ECrash => Step (start s0 (f_state s) (f_pending s)) [ORestarted]
  end.

(** executions from the first start, with everything that was observed *)
Inductive exec (s0 : S) : sys → list (obs A) → Prop :=
| exec_start : exec s0 (start s0 None None) []
| exec_step s o e s' o' : exec s0 s o → step s0 s e = Step s' o' → exec s0 s' (o ++ o').
End Pending.
Arguments pending : clear implicits. Arguments proc : clear implicits. Arguments sys : clear implicits. Arguments event : clear implicits.
Arguments state : clear implicits. Arguments outcome : clear implicits.

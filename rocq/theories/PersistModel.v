(** C17: persisting the application state and recovering from crashes.
    Model of /repo/shuttermint/app/app.go:89-110 (LoadShutterAppFromFile), 190-195 (Info), 798-846
    (PersistToDisk, maybePersistToDisk, Commit), cmd/init.go:188-194 (the initial state file) and of
    tendermint's handshake: on start it asks Info for the last block height, calls InitChain if that is
    0 and then replays the blocks of its store from the next height on. *)
From stdpp Require Import gmap list sorting.
From Coq Require Import NArith ZArith.
From RecordUpdate Require Import RecordUpdate.
From Verif Require Import AppModel AppSpec.

(** the parameters of tendermint's genesis document passed to InitChain *)
Record genesis_doc := mkGenesis {
  g_keypers : list address; g_threshold : N; g_validators : list vupdate; g_chain : bytes
}.

(** A block is the list of its transactions. *)
Definition block := list bytes.

(** The reference: a node that never crashes and never sees CheckTx.  It delivers the transactions of a
    block, then calls EndBlock and Commit. *)
Definition deliver_all (O : oracles) (s : app) (txs : block) : option app :=
  foldl (λ acc tx, match acc with
                   | Some s => match deliver_tx O id s tx with Some (s', _) => Some s' | None => None end
                   | None => None
                   end) (Some s) txs.
Definition run_block (O : oracles) (s : app) (txs : block) : option app :=
  match deliver_all O s txs with
  | Some s1 => match end_block s1 (last_height s + 1) with Some (s2, _) => Some (commit s2) | None => None end
  | None => None
  end.
Definition chain_init (dev : bool) (g : genesis_doc) : option app :=
  init_chain (new_app dev) (g_keypers g) (g_threshold g) (g_validators g) (g_chain g).
Fixpoint run_blocks (O : oracles) (s : app) (bs : list block) : option app :=
  match bs with
  | [] => Some s
  | b :: bs' => match run_block O s b with Some s' => run_blocks O s' bs' | None => None end
  end.
Definition chain_state (O : oracles) (dev : bool) (g : genesis_doc) (bs : list block) : option app :=
  match chain_init dev g with Some s => run_blocks O s bs | None => None end.

(** States that agree on everything but the mempool bookkeeping, which is local to a node and not part
    of the replicated state. *)
Definition forget_mempool (s : app) : app := s <| ck_counts := ∅ |> <| ck_nonces := ∅ |>.
Definition same_state (s t : app) : Prop := forget_mempool s = forget_mempool t.

Section Node.
(** File contents and the gob codec.  Simplification: the codec is abstract; the theorems assume that
    decoding inverts encoding. *)
Context (F : Type) (enc : app → F) (dec : F → option app).
Context (O : oracles) (g : genesis_doc).

(** What the process is doing.  [PCreated], [PWritten], [PSynced]: inside PersistToDisk after os.Create,
    enc.Encode and file.Sync. *)
Inductive phase := Idle | InBlock (rest : block) | Ended | PCreated | PWritten | PSynced.

(** The machine: the two files (content of the temporary file and whether it has been synced; the state
    file and what it was before the last rename, since a rename need not have reached the disk when the
    machine crashes), the process if it is running, and tendermint's block store. *)
Record machine := mkMachine {
  mc_prev : option F;
  mc_gob : option F;
  mc_tmp : option (F * bool);
  mc_proc : option (app * phase);
  mc_store : list block
}.

(** app.go:89-110 LoadShutterAppFromFile *)
Definition load (gob : option F) : option app :=
  match gob with None => Some (new_app false) | Some f => dec f end.

(** tendermint's handshake: InitChain iff Info reports height 0 *)
Definition handshake (s : app) : option app :=
  if Z.eqb (last_height s) 0
  then init_chain s (g_keypers g) (g_threshold g) (g_validators g) (g_chain g) else Some s.

Inductive node_step : machine → machine → Prop :=
| m_start old gob tmp store s s' : load gob = Some s → handshake s = Some s' →
    node_step (mkMachine old gob tmp None store) (mkMachine old gob tmp (Some (s', Idle)) store)
| m_new_block old gob tmp proc store b :   (* consensus decides a block *)
    node_step (mkMachine old gob tmp proc store) (mkMachine old gob tmp proc (store ++ [b]))
| m_begin old gob tmp s store b : store !! Z.to_nat (last_height s) = Some b →
    node_step (mkMachine old gob tmp (Some (s, Idle)) store) (mkMachine old gob tmp (Some (s, InBlock b)) store)
| m_deliver old gob tmp s tx rest store ord s' r : valid_order ord → deliver_tx O ord s tx = Some (s', r) →
    node_step (mkMachine old gob tmp (Some (s, InBlock (tx :: rest))) store)
          (mkMachine old gob tmp (Some (s', InBlock rest)) store)
| m_check old gob tmp s ph tx store s' r : (ph = Idle ∨ ph = Ended ∨ ∃ rest, ph = InBlock rest) →
    check_tx O s tx = (s', r) →
    node_step (mkMachine old gob tmp (Some (s, ph)) store) (mkMachine old gob tmp (Some (s', ph)) store)
| m_end old gob tmp s store s' r : end_block s (last_height s + 1) = Some (s', r) →
    node_step (mkMachine old gob tmp (Some (s, InBlock [])) store) (mkMachine old gob tmp (Some (s', Ended)) store)
| m_commit old gob tmp s store :           (* persisted recently, or os.Create fails *)
    node_step (mkMachine old gob tmp (Some (s, Ended)) store) (mkMachine old gob tmp (Some (commit s, Idle)) store)
| m_create old gob tmp s store f :         (* a fresh, possibly partly written file *)
    node_step (mkMachine old gob tmp (Some (s, Ended)) store)
          (mkMachine old gob (Some (f, false)) (Some (commit s, PCreated)) store)
| m_write old gob tmp s store :
    node_step (mkMachine old gob tmp (Some (s, PCreated)) store)
          (mkMachine old gob (Some (enc s, false)) (Some (s, PWritten)) store)
| m_sync old gob f b s store :
    node_step (mkMachine old gob (Some (f, b)) (Some (s, PWritten)) store)
          (mkMachine old gob (Some (f, true)) (Some (s, PSynced)) store)
| m_rename old gob f b s store :
    node_step (mkMachine old gob (Some (f, b)) (Some (s, PSynced)) store)
          (mkMachine gob (Some f) None (Some (s, Idle)) store)
| m_fail old gob tmp s ph store :          (* encoding, syncing or renaming fails: Commit only logs it *)
    ph = PCreated ∨ ph = PWritten ∨ ph = PSynced →
    node_step (mkMachine old gob tmp (Some (s, ph)) store) (mkMachine old gob tmp (Some (s, Idle)) store)
| m_crash old gob gob' tmp tmp' proc store : (* unsynced data may be lost or damaged, a rename undone *)
    gob' = gob ∨ gob' = old →
    node_step (mkMachine old gob tmp proc store) (mkMachine gob' gob' tmp' None store).

Inductive node_steps : machine → machine → Prop :=
| ms_refl w : node_steps w w
| ms_step w1 w2 w3 : node_steps w1 w2 → node_step w2 w3 → node_steps w1 w3.

(** cmd/init.go: the state file written by the init command (or none at all) *)
Definition initial (dev : bool) (w : machine) : Prop :=
  (mc_gob w = Some (enc (new_app dev)) ∨ mc_gob w = None ∧ dev = false) ∧ mc_prev w = mc_gob w ∧
  mc_proc w = None ∧ mc_store w = [].

End Node.
Arguments mkMachine {F}. Arguments mc_prev {F}. Arguments mc_gob {F}. Arguments mc_tmp {F}. Arguments mc_proc {F}. Arguments mc_store {F}.

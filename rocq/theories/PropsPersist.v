(** Property C17: crash safety of the application state.  Model: PersistModel.v. *)
From stdpp Require Import gmap list sorting.
From Coq Require Import NArith ZArith Lia.
From Verif Require Import AppModel AppSpec AppSteps AppProofs1 PersistModel PersistProofs AppWitness.

(** Whatever happened before (crashes at any point, lost or damaged unsynced files, undone renames, failing
    file operations, CheckTx calls, restarts), a node between two blocks is in the state of a node that
    has executed the first [last_height] blocks without ever crashing. *)
Theorem C17_crash_safe F enc dec O g dev (w w' : machine F) s :
  (∀ s, dec (enc s) = Some s) →
  initial F enc dev w → node_steps F enc dec O g w w' → mc_proc w' = Some (s, Idle) →
  (0 ≤ last_height s ≤ Z.of_nat (length (mc_store w')))%Z ∧
  ∃ t, chain_state O dev g (take (Z.to_nat (last_height s)) (mc_store w')) = Some t ∧ same_state s t.
Proof. intros. by eapply crash_safe. Qed.

(** The same during a block: the state is the one reached by the uninterrupted node after the transactions
    delivered so far. *)
Theorem C17_crash_safe_mid_block F enc dec O g dev (w w' : machine F) s rest :
  (∀ s, dec (enc s) = Some s) →
  initial F enc dev w → node_steps F enc dec O g w w' → mc_proc w' = Some (s, InBlock rest) →
  ∃ n done t0 t, mc_store w' !! n = Some (done ++ rest : block) ∧ last_height s = Z.of_nat n ∧
    chain_state O dev g (take n (mc_store w')) = Some t0 ∧ deliver_all O t0 done = Some t ∧ same_state s t.
Proof.
  intros Hc Hi Hs Hp. destruct (node_steps_inv F enc dec Hc O g dev w w' Hi Hs) as (_ & _ & H). rewrite Hp in H.
  destruct H as (n & pre & t0 & t & ? & ? & ? & ? & ?). exists n, pre, t0, t. done.
Qed.

(** A stopped node can always be started again and catches up with the whole block store, never
    panicking on the way. *)
Theorem C17_recovers F enc dec O g dev (w w' : machine F) :
  (∀ s, dec (enc s) = Some s) → is_Some (chain_init dev g) →
  initial F enc dev w → node_steps F enc dec O g w w' → mc_proc w' = None →
  ∃ w'' s, node_steps F enc dec O g w' w'' ∧ mc_store w'' = mc_store w' ∧ mc_gob w'' = mc_gob w' ∧
    mc_proc w'' = Some (s, Idle) ∧ last_height s = Z.of_nat (length (mc_store w')).
Proof. intros. by eapply recovers. Qed.

(** ** A concrete run: two blocks, the first one persisted, a crash while persisting the second one, a
    restart from the file of height 1 and replay of block 2. *)
Inductive action := AStart | ANew (b : block) | ABegin | ADeliver | AEnd | ACreate | AWrite | ASync | ARename | ACrash.
Definition act (O : oracles) (g : genesis_doc) (w : machine app) (a : action) : option (machine app) :=
  match a, w with
  | AStart, mkMachine old gob tmp None store =>
      match load app Some gob with
      | Some s => match handshake g s with Some s' => Some (mkMachine old gob tmp (Some (s', Idle)) store) | None => None end
      | None => None end
  | ANew b, mkMachine old gob tmp p store => Some (mkMachine old gob tmp p (store ++ [b]))
  | ABegin, mkMachine old gob tmp (Some (s, Idle)) store =>
      match store !! Z.to_nat (last_height s) with
      | Some b => Some (mkMachine old gob tmp (Some (s, InBlock b)) store) | None => None end
  | ADeliver, mkMachine old gob tmp (Some (s, InBlock (tx :: rest))) store =>
      match deliver_tx O id s tx with
      | Some (s', _) => Some (mkMachine old gob tmp (Some (s', InBlock rest)) store) | None => None end
  | AEnd, mkMachine old gob tmp (Some (s, InBlock [])) store =>
      match end_block s (last_height s + 1) with
      | Some (s', _) => Some (mkMachine old gob tmp (Some (s', Ended)) store) | None => None end
  | ACreate, mkMachine old gob tmp (Some (s, Ended)) store =>
      Some (mkMachine old gob (Some (new_app true, false)) (Some (commit s, PCreated)) store)
  | AWrite, mkMachine old gob tmp (Some (s, PCreated)) store =>
      Some (mkMachine old gob (Some (s, false)) (Some (s, PWritten)) store)
  | ASync, mkMachine old gob (Some (f, _)) (Some (s, PWritten)) store =>
      Some (mkMachine old gob (Some (f, true)) (Some (s, PSynced)) store)
  | ARename, mkMachine old gob (Some (f, _)) (Some (s, PSynced)) store =>
      Some (mkMachine gob (Some f) None (Some (s, Idle)) store)
  | ACrash, mkMachine old gob tmp p store => Some (mkMachine gob gob None None store)
  | _, _ => None
  end.
Definition acts (O : oracles) (g : genesis_doc) (w : machine app) (l : list action) : option (machine app) :=
  foldl (λ acc a, match acc with Some w => act O g w a | None => None end) (Some w) l.
Lemma act_step O g w a w' : act O g w a = Some w' → node_step app (λ s, s) Some O g w w'.
Proof.
  intros H. destruct a, w as [old gob tmp [[s [|rest| | | |]]|] store]; cbn in H; repeat (case_match; cbn in H; try done); simplify_eq.
  all: first [by econstructor|by eapply m_deliver; [exact id_order|]|by eapply m_crash; left|idtac].
Qed.
Lemma acts_steps O g w l w' : acts O g w l = Some w' → node_steps app (λ s, s) Some O g w w'.
Proof.
  revert w'. induction l as [|a l IH] using rev_ind; intros w'; unfold acts.
  - intros [= <-]. constructor.
  - rewrite foldl_app. cbn. fold (acts O g w l). destruct (acts O g w l) as [w1|]; [|done].
    intros H%act_step. econstructor; [by apply IH|done].
Qed.

Definition w17_genesis : genesis_doc := mkGenesis [1; 2; 3]%N 2 [(key32 200, 10%Z)] [99]%N.
Definition w17_start : machine app := mkMachine (Some (new_app false)) (Some (new_app false)) None None [].
Definition w17_actions : list action :=
  [AStart; ANew [[0]; [1]]%N; ABegin; ADeliver; ADeliver; AEnd; ACreate; AWrite; ASync; ARename;
   ANew [[2]; [3]]%N; ABegin; ADeliver; ADeliver; AEnd; ACreate; ACrash;
   AStart; ABegin; ADeliver; ADeliver].
Example C17_witness : initial app (λ s, s) false w17_start ∧ is_Some (chain_init false w17_genesis) ∧
  match acts (table_oracles w1_msgs) w17_genesis w17_start w17_actions with
  | Some w => match mc_proc w with
              | Some (s, InBlock []) => bool_decide (length (configs s) = 2) && bool_decide (last_height s = 1%Z)
                  && bool_decide (size (identities s) = 2)
              | _ => false end
  | None => false
  end = true.
Proof. split; [by repeat split; left|]. split; [eexists; vm_compute; reflexivity|]. vm_compute. reflexivity. Qed.

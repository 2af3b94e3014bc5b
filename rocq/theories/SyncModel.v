(** How the observed shuttermint state reaches the keyper's decisions: /repo/shuttermint/keyper/keyper.go (syncOnce,
    syncLoop, runOneStep, saveState, LoadState), decide.go (Decide's use of State.SyncHeight) and
    observe/shutter.go (SyncShutter).  Two goroutines, a channel for shutter states (unbuffered), a channel for filters
    (buffered, 3), and crashes. *)
From stdpp Require Import list gmap.
From Coq Require Import ZArith NArith Lia.
From Verif Require Import ObserveModel.

Section Sync.
Context {B D K G R : Type} (make_event : R → Z → option (shutter_event B D K G)) (chain : nat → list (list R)).
Notation shutter := (shutter B D K G).

Record system := mkSystem {
  g_shutter : shutter;          (** SyncShutter's local variable *)
  g_out : option shutter;       (** newShutter, while SyncShutter waits to send it *)
  filters : list (Z * N);       (** kpr.shutterFilterCh *)
  looping : bool;               (** syncLoop has started, syncOnce is done *)
  have_main : bool; have_shutter : option shutter;   (** syncOnce's local variable world *)
  world : shutter;              (** kpr.world *)
  sync_height : Z;              (** kpr.State.SyncHeight *)
  disk : option (Z * shutter)   (** state.gob: State.SyncHeight and Shutter *)
}.
(** keyper.go:309-340 LoadState, NewKeyper, NewState (zero SyncHeight) *)
Definition boot (d : option (Z * shutter)) : system :=
  match d with
  | None => mkSystem new_shutter None [] false false None new_shutter 0 None
  | Some (h, s) =>
      let h' := if ((h =? 0)%Z && (0 <? current_block s)%Z)%bool then current_block s else h in
      mkSystem s None [] false false None s h' d
  end.

Inductive sync_event :=
| GSync (fuel pages : nat) (target : Z) (synced : bool)  (** SyncShutter: new block, SyncToHead finds [target] *)
| GFilter                                                (** SyncShutter: receive a filter and apply it *)
| MShutter (ok : bool) (half_steps : N)                  (** main goroutine: receive a shutter state *)
| MMain (ok : bool) (half_steps : N)                     (** main goroutine: receive a main chain state *)
| Crash.
(** what a decision saw: the sync height and the shutter state, when Decide did not return early *)
Inductive sync_obs := ODecide (sync_height : Z) (w : shutter).

(** keyper.go:392-401 runOneStep with decide.go:1188-1213 Decide: [ok] = the main chain node is synced and we are a keyper;
    then the state is saved, then the new filter is offered to the channel (keyper.go:232-235) *)
Definition run_one_step (y : system) (w : shutter) (g : shutter) (out : option shutter) (ok : bool) (half_steps : N)
  : system * list sync_obs :=
  let go := (node_synced w && ok)%bool in
  let h := if go then (current_block w + 1)%Z else sync_height y in
  let fs := if length (filters y) <? 3 then filters y ++ [(h, (half_steps / 2)%N)] else filters y in
  (mkSystem g out fs true true (Some w) w h (Some (h, w)), if go then [ODecide (sync_height y) w] else []).
(** syncOnce: stores the first states, does not decide *)
Definition sync_once (y : system) (g : shutter) (out : option shutter) (m : bool) (sh : option shutter) : system :=
  match m, sh with
  | true, Some w => mkSystem g out (filters y) true true (Some w) w (sync_height y) (disk y)
  | _, _ => mkSystem g out (filters y) false m sh (world y) (sync_height y) (disk y)
  end.

Definition sync_step (y : system) (e : sync_event) : option (system * list sync_obs) :=
  match e with
  | GSync fuel pages target synced =>
      match g_out y with
      | Some _ => None
      | None =>
          if (target =? current_block (g_shutter y))%Z then
            Some (mkSystem (g_shutter y) (Some (g_shutter y)) (filters y) (looping y) (have_main y) (have_shutter y)
                    (world y) (sync_height y) (disk y), [])
          else
            match sync_to_height make_event chain fuel pages (g_shutter y) target synced with
            | None => None
            | Some s => Some (mkSystem (g_shutter y) (Some s) (filters y) (looping y) (have_main y) (have_shutter y)
                                (world y) (sync_height y) (disk y), [])
            end
      end
  | GFilter =>
      match g_out y, filters y with
      | None, f :: fs =>
          Some (mkSystem (apply_filter (g_shutter y) f.1 f.2) None fs (looping y) (have_main y) (have_shutter y)
                  (world y) (sync_height y) (disk y), [])
      | _, _ => None
      end
  | MShutter ok half =>
      match g_out y with
      | None => None
      | Some s =>
          if looping y then Some (run_one_step y s s None ok half)
          else Some (sync_once y s None (have_main y) (Some s), [])
      end
  | MMain ok half =>
      if looping y then Some (run_one_step y (world y) (g_shutter y) (g_out y) ok half)
      else Some (sync_once y (g_shutter y) (g_out y) true (have_shutter y), [])
  | Crash => Some (boot (disk y), [])
  end.

(** histories from the very first start: the events that happened and the decisions that were made *)
Inductive history : system → list sync_event → list sync_obs → Prop :=
| history_start : history (boot None) [] []
| history_step y es o e y' o' : history y es o → sync_step y e = Some (y', o') → history y' (es ++ [e]) (o ++ o').

(** decide.go:573-601 syncDKGWithEon and 639-640 syncEKGWithEon: the events of kind [k] a decision
    is given for eon [n] *)
Definition offered (k : kind) (n : N) (o : sync_obs) : list (eon_event B) :=
  match o with
  | ODecide h w => match find_eon w n with Some e => get_events k e h | None => [] end
  end.
End Sync.
Arguments system : clear implicits. Arguments sync_obs : clear implicits.

(** ** Specification: what the chain published, independent of the observer *)
Section Spec.
Context {B D K G R : Type} (make_event : R → Z → option (shutter_event B D K G)) (chain : nat → list (list R)).
(** all well-formed events of the blocks 0, ..., n-1 in order *)
Fixpoint published (n : nat) : list (shutter_event B D K G) :=
  match n with
  | O => []
  | S n => published n ++ omap (λ r, make_event r (Z.of_nat n)) (concat (chain n))
  end.
(** those of one kind for one eon.  What is published for an eon before its start (the app lets anyone publish key shares for an eon
    that has not started: app.go:646-659) reaches nobody. *)
Fixpoint after_start (n : N) (evs : list (shutter_event B D K G)) : list (shutter_event B D K G) :=
  match evs with
  | [] => []
  | EonStarted _ m _ :: evs => if (m =? n)%N then evs else after_start n evs
  | _ :: evs => after_start n evs
  end.
Definition published_for (k : kind) (n : N) (evs : list (shutter_event B D K G)) : list (eon_event B) :=
  omap (λ ev, match ev with
    | EonEvent k' e => if (bool_decide (k = k') && (ev_eon e =? n)%N)%bool then Some e else None
    | _ => None
    end) evs.
Definition of_kind (k : kind) (n : N) (evs : list (shutter_event B D K G)) : list (eon_event B) := published_for k n (after_start n evs).
(** eon numbers increase (what the shuttermint app guarantees, see PropsEvents.v) *)
Definition well_formed (evs : list (shutter_event B D K G)) : Prop :=
  ∀ before ev after, evs = before ++ ev :: after →
    match ev with
    | EonStarted _ n _ => ∀ h m b, EonStarted h m b ∈ before → (m < n)%N
    | _ => True
    end.
(** a transaction's events carry its height *)
Definition heights_ok : Prop := ∀ r h k e, make_event r h = Some (EonEvent k e) → ev_height e = h.
End Spec.

(** Vocabulary for the properties of the keyper's action handling, in terms of observations only. *)
From stdpp Require Import list.
From Coq Require Import NArith.
From Verif Require Import PendingModel.

Section Spec.
Context {A : Type}.
(** all actions of the decisions saved so far, in order *)
Fixpoint committed (o : list (obs A)) : list A :=
  match o with
  | [] => []
  | OCommitted l :: o' => l ++ committed o'
  | _ :: o' => committed o'
  end.
(** the actions added to the pending actions, in order, with their ids *)
Fixpoint added (o : list (obs A)) : list (N * A) :=
  match o with
  | [] => []
  | OAdded id a :: o' => (id, a) :: added o'
  | _ :: o' => added o'
  end.
(** number the elements of a list from 0 *)
Definition numbered (l : list A) : list (N * A) := imap (λ i a, (N.of_nat i, a)) l.
(** what was observed since the process was last started *)
Definition after_last_restart (o : list (obs A)) : list (obs A) :=
  foldl (λ acc x, match x with ORestarted => [] | _ => acc ++ [x] end) [] o.
(** the ids of the main chain transactions sent *)
Fixpoint tx_sent (o : list (obs A)) : list N :=
  match o with
  | [] => []
  | OTxSent id :: o' => id :: tx_sent o'
  | _ :: o' => tx_sent o'
  end.
(** the action with this id was dealt with: shuttermint answered to the message, or the action expired, or
    sending it failed for good; for main chain transactions [mined] is what has to happen *)
Definition message_settled (id : N) (o : list (obs A)) : Prop :=
  OExecuted id ∈ o ∨ ORefused id ∈ o ∨ OExpired id ∈ o.
Definition tx_settled (id : N) (o : list (obs A)) : Prop :=
  OMined id ∈ o ∨ OFailed id ∈ o ∨ OExpired id ∈ o.
End Spec.

(** Specification vocabulary for the distributed key generation. *)
From stdpp Require Import list gmap.
From Coq Require Import ZArith NArith.
From Verif Require Import CryptoModel DkgModel.

Section Spec.
Context {P : pairing}.

(** What all keypers see: the phase changes and the broadcast messages, but not the evaluations (sent
    to one keyper) and not the randomness. *)
Inductive public :=
  | PStart1 | PStart2 | PStart3 | PFinalize
  | PCommitment (m : commitment_msg P) | PAccusation (m : accusation_msg) | PApology (m : apology_msg).
Definition public_of (c : call P) : option public :=
  match c with
  | CStart1 _ => Some PStart1 | CStart2 => Some PStart2 | CStart3 => Some PStart3 | CFinalize => Some PFinalize
  | CCommitment m => Some (PCommitment m) | CAccusation m => Some (PAccusation m) | CApology m => Some (PApology m)
  | CEval _ => None
  end.
Definition broadcasts (cs : list (call P)) : list public := omap public_of cs.

(** A complete execution of one keyper: the calls before each phase change. *)
Record execution := mkExecution {
  ex_off : list (call P); ex_rnd : nat → Z; ex_dealing : list (call P);
  ex_accusing : list (call P); ex_apologizing : list (call P)
}.
Definition until_start1 (e : execution) := ex_off e.
Definition until_start2 (e : execution) := until_start1 e ++ CStart1 (ex_rnd e) :: ex_dealing e.
Definition until_start3 (e : execution) := until_start2 e ++ CStart2 :: ex_accusing e.
Definition until_finalize (e : execution) := until_start3 e ++ CStart3 :: ex_apologizing e.
Definition all_calls (e : execution) := until_finalize e ++ [CFinalize].

Section Sent.
Context (eon n t k : N) (e : execution).
(** the messages keyper [k] sends in the execution [e] *)
Definition sent_commitment : option (commitment_msg P) :=
  match run (new_dkg P eon n t k) (until_start1 e) with
  | Some s => match start_phase1 s (ex_rnd e) with Some (_, Some (m, _)) => Some m | _ => None end
  | None => None
  end.
Definition sent_accusations : list accusation_msg :=
  match run (new_dkg P eon n t k) (until_start2 e) with
  | Some s => match start_phase2 s with Some (_, ms) => ms | None => [] end
  | None => []
  end.
Definition sent_apologies : list apology_msg :=
  match run (new_dkg P eon n t k) (until_start3 e) with
  | Some s => match start_phase3 s with Some (_, ms) => ms | None => [] end
  | None => []
  end.

(** Keyper [k] is honest and its messages reach the chain in time: the commitments and apologies that
    appear under its name are the ones it sent, and what it sent appears before the phase ends. *)
Record honest := mkHonest {
  h_commitment : ∃ m, sent_commitment = Some m ∧ CCommitment m ∈ until_start2 e;
  h_commitment_authentic : ∀ m, CCommitment m ∈ all_calls e → cm_eon m = eon → cm_sender m = k → sent_commitment = Some m;
  h_accusations : ∀ m, m ∈ sent_accusations → CAccusation m ∈ until_start3 e;
  h_apologies : ∀ m, m ∈ sent_apologies → CApology m ∈ until_finalize e;
  h_apologies_authentic : ∀ m, CApology m ∈ all_calls e → pm_eon m = eon → pm_accused m = k → m ∈ sent_apologies
}.
End Sent.
End Spec.
Arguments execution : clear implicits. Arguments public : clear implicits.

(** Model of fx/actions.go: the main chain transaction of each action, and when an action is given up (IsExpired).
    All numbers are uint64: [u64] wraps.  The state of the world is the keyper's main chain view (MainModel).
    Simplified: gas limits and the signer are left out; SendShuttermintMessage and EonKeyBroadcast (whose IsExpired is constantly false)
    appear only as [ASignature]. *)
From stdpp Require Import list gmap.
From Coq Require Import ZArith NArith.
From Verif Require Import ArithModel ContractsModel MainModel DecideModel.
Local Open Scope Z_scope.

(** actions.go:90-192 SendTX of ExecuteCipherBatch, ExecutePlainBatch, SkipCipherBatch, Accuse and Appeal: the call to the contract.
    [inner]: what the target contract does during the execution. *)
Definition call_of (a : action) (inner : list (bool * list (N * call))) : option call :=
  match a with
  | AExecCipher b h txs k => Some (ExecCipher b h txs k inner)
  | AExecPlain b txs => Some (ExecPlain b txs inner)
  | ASkipCipher b => Some (SkipCipher b)
  | AAccuse h k => Some (Accuse h k)
  | AAppeal u => Some (Appeal u)
  | ASignature _ _ => None
  end.
(** actions.go:72-74 (never), 100-103, 125-128, 144-147, 187-190, 209-215 IsExpired *)
Definition expired (v : view) (a : action) : bool :=
  match a with
  | AExecCipher b _ _ _ => u64 (2 * b) <? v_half_steps v
  | AExecPlain b _ => u64 (u64 (2 * b) + 1) <? v_half_steps v
  | ASkipCipher b => u64 (2 * b) <? v_half_steps v
  | AAccuse h _ => match v_accusations v !! h with Some _ => true | None => false end
  | AAppeal u => match v_accusations v !! u_half_step u with Some a => ma_appealed a | None => true end
  | ASignature _ _ => false
  end.

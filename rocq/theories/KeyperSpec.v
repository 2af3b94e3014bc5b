(** Specification vocabulary for the keyper's decisions: the transcript of an eon's key generation as it is determined by the
    chain alone. *)
From stdpp Require Import list gmap.
From Coq Require Import ZArith NArith.
From Verif Require Import EncModel CryptoModel DkgModel DkgSpec ObserveModel ArithModel KeyperModel.

Section Spec.
Context {P : pairing}.
Notation eonev := (eon_event (body P)).
Implicit Types (e : eonev).
(** the key generation messages of one event, as seen by a keyper set; senders and receivers who are not keypers are ignored *)
Definition commitment_public (keypers : list N) e : list (public P) :=
  match ev_body e with
  | BCommitment sender gs => option_list (i ← find_address keypers sender; Some (PCommitment (mkCommitmentMsg (ev_eon e) i gs)))
  | _ => []
  end.
Definition accusation_public (keypers : list N) e : list (public P) :=
  match ev_body e with
  | BAccusation sender accused =>
      omap (λ a, i ← find_address keypers sender; j ← find_address keypers a; Some (PAccusation (mkAccusationMsg (ev_eon e) i j))) accused
  | _ => []
  end.
Definition apology_public (keypers : list N) e : list (public P) :=
  match ev_body e with
  | BApology sender accusers evals =>
      omap (λ av, i ← find_address keypers sender; j ← find_address keypers av.1; Some (PApology (mkApologyMsg (ev_eon e) j i av.2)))
        (zip accusers evals)
  | _ => []
  end.
(** the evaluations in one event that the keyper with index [idx] can decrypt *)
Definition evals_for (decrypt : list N → option (list N)) (keypers : list N) (idx : N) e : list eval_msg :=
  match ev_body e with
  | BPolyEval sender receivers evals =>
      match find_address keypers sender with
      | Some i =>
          if (i =? idx)%N then []
          else omap (λ rv, j ← find_address keypers rv.1; if (j =? idx)%N then b ← decrypt rv.2; Some (mkEvalMsg (ev_eon e) i idx (EncModel.be_value b)) else None)
                 (zip receivers evals)
      | None => []
      end
  | _ => []
  end.
(** the evaluations among the calls *)
Definition received (cs : list (call P)) : list eval_msg := omap (λ c, match c with CEval m => Some m | _ => None end) cs.
(** what a keyper submitted for the key generation of eon [n], in order *)
Definition commitments_sent (n : N) (acts : list (kaction P)) : list (list (G2 P)) :=
  acts ≫= λ a, match a with KCommitment m gs => if (m =? n)%N then [gs] else [] | _ => [] end.
Definition evals_sent (n : N) (acts : list (kaction P)) : list (N * list N) :=
  acts ≫= λ a, match a with KPolyEval m rs es => if (m =? n)%N then zip rs es else [] | _ => [] end.
Definition accusations_sent (n : N) (acts : list (kaction P)) : list (list N) :=
  acts ≫= λ a, match a with KAccusation m l => if (m =? n)%N then [l] else [] | _ => [] end.
Definition apologies_sent (n : N) (acts : list (kaction P)) : list (list N * list Z) :=
  acts ≫= λ a, match a with KApology m l vs => if (m =? n)%N then [(l, vs)] else [] | _ => [] end.
(** the votes for restarting the key generation (by start batch), and the eon keys broadcast: keyper index, start batch, key *)
Definition restart_votes (acts : list (kaction P)) : list N := acts ≫= λ a, match a with KEonStartVote b => [b] | _ => [] end.
Definition eon_keys (acts : list (kaction P)) : list (N * N * G2 P) := acts ≫= λ a, match a with KEonKey j b key => [(j, b, key)] | _ => [] end.
(** the events published in phase [p] of an eon that started at height [start] *)
Definition in_phase (plen : phase_length) (start : Z) (p : nat) (l : list eonev) : list eonev :=
  List.filter (λ e, phase_at plen (ev_height e) start =? p) l.
(** all of the key generation: commitments published in the dealing phase, accusations in the accusing phase, apologies in the
    apologizing phase, in the order of the chain *)
Definition transcript (plen : phase_length) (start : Z) (keypers : list N) (cs accs aps : list eonev) : list (public P) :=
  [PStart1] ++ (in_phase plen start dealing cs ≫= commitment_public keypers) ++
  [PStart2] ++ (in_phase plen start accusing accs ≫= accusation_public keypers) ++
  [PStart3] ++ (in_phase plen start apologizing aps ≫= apology_public keypers) ++ [PFinalize].
End Spec.

(** Model of /repo/shlib/puredkg/puredkg.go.

    uint64 values (eon, keyper indices, numbers) are [N].  The maps Accusations and Apologies are a
    finite set and a finite map; where the code iterates over a map, its order is left open (see
    [start_phase3]) or irrelevant.  [None] results are panics, [inr] results errors. *)
From stdpp Require Import list gmap.
From Coq Require Import ZArith NArith Lia.
From Verif Require Import Fq CryptoModel.

(** puredkg.go:15-27 Phase: Off, Dealing, Accusing, Apologizing, Finalized *)
Definition off : nat := 0. Definition dealing : nat := 1. Definition accusing : nat := 2.
Definition apologizing : nat := 3. Definition finalized : nat := 4.

(** the conversion int(x) of a uint64 *)
Definition int_of (n : N) : Z := if (n <? 2 ^ 63)%N then Z.of_N n else (Z.of_N n - 2 ^ 64)%Z.

Section Dkg.
Context (P : pairing).
Notation G2 := (G2 P).

(** puredkg.go:42-68 the messages *)
Record commitment_msg := mkCommitmentMsg { cm_eon : N; cm_sender : N; cm_gammas : list G2 }.
Record eval_msg := mkEvalMsg { em_eon : N; em_sender : N; em_receiver : N; em_eval : Z }.
Record accusation_msg := mkAccusationMsg { am_eon : N; am_accuser : N; am_accused : N }.
Record apology_msg := mkApologyMsg { pm_eon : N; pm_accuser : N; pm_accused : N; pm_eval : Z }.

(** puredkg.go:74-86 PureDKG *)
Record dkg := mkDkg {
  d_phase : nat; d_eon : N; d_num : N; d_threshold : N; d_keyper : N;
  d_poly : option (list Z);
  d_commitments : list (option (list G2));
  d_evals : list (option Z);
  d_accusations : gset (N * N);
  d_apologies : gmap (N * N) Z
}.

(** puredkg.go:88-100 NewPureDKG *)
Definition new_dkg (eon num threshold keyper : N) : dkg :=
  mkDkg off eon num threshold keyper None (replicate (N.to_nat num) None) (replicate (N.to_nat num) None) ∅ ∅.

Definition set_phase_to (s : dkg) (p : nat) : dkg :=
  mkDkg p (d_eon s) (d_num s) (d_threshold s) (d_keyper s) (d_poly s) (d_commitments s) (d_evals s) (d_accusations s) (d_apologies s).
Definition set_poly (s : dkg) (p : list Z) : dkg :=
  mkDkg (d_phase s) (d_eon s) (d_num s) (d_threshold s) (d_keyper s) (Some p) (d_commitments s) (d_evals s) (d_accusations s) (d_apologies s).
Definition set_commitments (s : dkg) c : dkg :=
  mkDkg (d_phase s) (d_eon s) (d_num s) (d_threshold s) (d_keyper s) (d_poly s) c (d_evals s) (d_accusations s) (d_apologies s).
Definition set_evals (s : dkg) e : dkg :=
  mkDkg (d_phase s) (d_eon s) (d_num s) (d_threshold s) (d_keyper s) (d_poly s) (d_commitments s) e (d_accusations s) (d_apologies s).
Definition set_accusations (s : dkg) a : dkg :=
  mkDkg (d_phase s) (d_eon s) (d_num s) (d_threshold s) (d_keyper s) (d_poly s) (d_commitments s) (d_evals s) a (d_apologies s).
Definition set_apologies (s : dkg) a : dkg :=
  mkDkg (d_phase s) (d_eon s) (d_num s) (d_threshold s) (d_keyper s) (d_poly s) (d_commitments s) (d_evals s) (d_accusations s) a.

(** puredkg.go:102-107 setPhase; [None] = panic *)
Definition set_phase (s : dkg) (p : nat) : option dkg :=
  if negb (Nat.eqb p (d_phase s + 1)) then None else Some (set_phase_to s p).

(** puredkg.go:109-131 checkPhase, checkEon, checkEonAndPhase *)
Definition check_eon_and_phase (s : dkg) (eon : N) (max_phase : nat) : bool :=
  (d_eon s =? eon)%N && negb (Nat.ltb max_phase (d_phase s)).

Inductive outcome := Done (s : dkg) | Error | Panic.

(** puredkg.go:344-361 HandlePolyCommitmentMsg *)
Definition handle_commitment (s : dkg) (m : commitment_msg) : outcome :=
  if negb (check_eon_and_phase s (cm_eon m) dealing) then Error
  else match d_commitments s !! N.to_nat (cm_sender m) with
       | None => Panic
       | Some (Some _) => Error
       | Some None =>
           if negb (degree (cm_gammas m) =? degree_from_threshold (Z.of_N (d_threshold s)))%Z then Error
           else Done (set_commitments s (<[N.to_nat (cm_sender m) := Some (cm_gammas m)]> (d_commitments s)))
       end.

(** puredkg.go:364-380 HandlePolyEvalMsg *)
Definition handle_eval (s : dkg) (m : eval_msg) : outcome :=
  if negb (check_eon_and_phase s (em_eon m) dealing) then Error
  else if negb (em_receiver m =? d_keyper s)%N then Error
  else match d_evals s !! N.to_nat (em_sender m) with
       | None => Panic
       | Some (Some _) => Error
       | Some None =>
           if negb (valid_eval (em_eval m)) then Error
           else Done (set_evals s (<[N.to_nat (em_sender m) := Some (em_eval m)]> (d_evals s)))
       end.

(** puredkg.go:383-394 HandleAccusationMsg *)
Definition handle_accusation (s : dkg) (m : accusation_msg) : outcome :=
  if negb (check_eon_and_phase s (am_eon m) accusing) then Error
  else if bool_decide ((am_accuser m, am_accused m) ∈ d_accusations s) then Error
  else Done (set_accusations s ({[ (am_accuser m, am_accused m) ]} ∪ d_accusations s)).

(** puredkg.go:397-411 HandleApologyMsg *)
Definition handle_apology (s : dkg) (m : apology_msg) : outcome :=
  if negb (check_eon_and_phase s (pm_eon m) apologizing) then Error
  else if bool_decide (is_Some (d_apologies s !! (pm_accuser m, pm_accused m))) then Error
  else if negb (valid_eval (pm_eval m)) then Error
  else Done (set_apologies s (<[(pm_accuser m, pm_accused m) := pm_eval m]> (d_apologies s))).

(** the loop of puredkg.go:151-167; the result is the state and the evaluations for other keypers *)
Fixpoint deal_evals (s : dkg) (p : list Z) (receivers : list nat) : option (dkg * list eval_msg) :=
  match receivers with
  | [] => Some (s, [])
  | r :: rs =>
      match eval_for_keyper p (int_of (N.of_nat r)) with
      | None => None
      | Some v =>
          let m := mkEvalMsg (d_eon s) (d_keyper s) (N.of_nat r) v in
          if (N.of_nat r =? d_keyper s)%N then
            match handle_eval s m with
            | Done s' => deal_evals s' p rs
            | _ => None
            end
          else match deal_evals s p rs with
               | Some (s', ms) => Some (s', m :: ms)
               | None => None
               end
      end
  end.

(** puredkg.go:133-170 StartPhase1Dealing; [rnd] is the randomness.  The messages are [None] if an error
    is returned. *)
Definition start_phase1 (s : dkg) (rnd : nat → Z) : option (dkg * option (commitment_msg * list eval_msg)) :=
  match set_phase s dealing with
  | None => None
  | Some s1 =>
      match random_polynomial rnd (degree_from_threshold (Z.of_N (d_threshold s1))) with
      | None => Some (s1, None)
      | Some p =>
          let s2 := set_poly s1 p in
          match deal_evals s2 p (seq 0 (N.to_nat (d_num s2))) with
          | None => None
          | Some (s3, ms) => Some (s3, Some (mkCommitmentMsg (d_eon s2) (d_keyper s2) (gammas P p), ms))
          end
      end
  end.

(** puredkg.go:172-191 StartPhase2Accusing *)
Definition accuse (s : dkg) (dealer : nat) : bool :=
  negb (N.of_nat dealer =? d_keyper s)%N &&
  match d_evals s !! dealer, d_commitments s !! dealer with
  | Some (Some v), Some (Some c) => negb (verify_poly_eval (int_of (d_keyper s)) v c (Z.of_N (d_threshold s)))
  | _, _ => true
  end.
Definition start_phase2 (s : dkg) : option (dkg * list accusation_msg) :=
  match set_phase s accusing with
  | None => None
  | Some s1 => Some (s1, (λ dealer, mkAccusationMsg (d_eon s1) (d_keyper s1) (N.of_nat dealer)) <$>
                           List.filter (accuse s1) (seq 0 (N.to_nat (d_num s1))))
  end.

(** puredkg.go:193-207 StartPhase3Apologizing.  Simplification: the apologies are listed in the order of
    [elements], Go's order is unspecified.  [None]: phase panic, or evaluation of a missing polynomial. *)
Definition apologize (s : dkg) (key : N * N) : option apology_msg :=
  match d_poly s with
  | None => None
  | Some p => match eval_for_keyper p (int_of key.1) with
              | None => None
              | Some v => Some (mkApologyMsg (d_eon s) key.1 key.2 v)
              end
  end.
Definition start_phase3 (s : dkg) : option (dkg * list apology_msg) :=
  match set_phase s apologizing with
  | None => None
  | Some s1 =>
      match mapM (apologize s1) (List.filter (λ key, key.2 =? d_keyper s1)%N (elements (d_accusations s1))) with
      | None => None
      | Some ms => Some (s1, ms)
      end
  end.

(** puredkg.go:209-211 Finalize *)
Definition finalize (s : dkg) : option dkg := set_phase s finalized.

(** puredkg.go:300-330 isCorrupt *)
Definition is_corrupt (s : dkg) (dealer : nat) : bool :=
  match d_commitments s !! dealer with
  | Some (Some c) =>
      existsb (λ ke, (ke.1.2 =? N.of_nat dealer)%N && negb (verify_poly_eval (int_of ke.1.1) ke.2 c (Z.of_N (d_threshold s))))
        (map_to_list (d_apologies s)) ||
      existsb (λ key, (key.2 =? N.of_nat dealer)%N && negb (bool_decide (is_Some (d_apologies s !! key))))
        (elements (d_accusations s))
  | _ => true
  end.

(** puredkg.go:334-341 polyEval *)
Definition poly_eval (s : dkg) (dealer : nat) : option Z :=
  match d_apologies s !! (d_keyper s, N.of_nat dealer) with
  | Some v => Some v
  | None => match d_evals s !! dealer with Some v => v | None => None end
  end.

(** puredkg.go:29-37 Result *)
Record result := mkResult {
  r_eon : N; r_num : N; r_threshold : N; r_keyper : N;
  r_sk : Z; r_pk : G2; r_pkshares : list G2
}.

(** one iteration of the loop of puredkg.go:253-275: does the dealer participate, and what is used;
    [None] = error *)
Definition contribution (s : dkg) (dealer : nat) : option (bool * list G2 * Z) :=
  if negb (is_corrupt s dealer) then
    match d_commitments s !! dealer, poly_eval s dealer with
    | Some (Some c), Some v =>
        if verify_poly_eval (int_of (d_keyper s)) v c (Z.of_N (d_threshold s)) then Some (true, c, v) else None
    | _, _ => None
    end
  else Some (false, zero_gammas P (degree_from_threshold (Z.of_N (d_threshold s))), 0%Z).

(** puredkg.go:245-296 ComputeResult; [None] = error *)
Definition compute_result (s : dkg) : option result :=
  if Nat.ltb (d_phase s) finalized then None
  else match mapM (contribution s) (seq 0 (N.to_nat (d_num s))) with
       | None => None
       | Some cs =>
           let participants := length (List.filter (λ c, c.1.1) cs) in
           if (N.of_nat participants <? d_threshold s)%N then None
           else
             let commitments := (λ c, c.1.2) <$> cs in
             let evals := (λ c, c.2) <$> cs in
             Some (mkResult (d_eon s) (d_num s) (d_threshold s) (d_keyper s)
                     (eon_secret_key_share evals) (eon_public_key commitments)
                     ((λ i, eon_public_key_share (int_of (N.of_nat i)) commitments) <$> seq 0 (N.to_nat (d_num s))))
       end.

(** * Histories of calls *)
Inductive call :=
  | CStart1 (rnd : nat → Z) | CStart2 | CStart3 | CFinalize
  | CCommitment (m : commitment_msg) | CEval (m : eval_msg)
  | CAccusation (m : accusation_msg) | CApology (m : apology_msg).
Definition keep (s : dkg) (o : outcome) : option dkg :=
  match o with Done s' => Some s' | Error => Some s | Panic => None end.
Definition do_call (s : dkg) (c : call) : option dkg :=
  match c with
  | CStart1 rnd => match start_phase1 s rnd with Some (s', _) => Some s' | None => None end
  | CStart2 => match start_phase2 s with Some (s', _) => Some s' | None => None end
  | CStart3 => match start_phase3 s with Some (s', _) => Some s' | None => None end
  | CFinalize => finalize s
  | CCommitment m => keep s (handle_commitment s m)
  | CEval m => keep s (handle_eval s m)
  | CAccusation m => keep s (handle_accusation s m)
  | CApology m => keep s (handle_apology s m)
  end.
Fixpoint run (s : dkg) (cs : list call) : option dkg :=
  match cs with [] => Some s | c :: cs' => match do_call s c with Some s' => run s' cs' | None => None end end.
End Dkg.
Arguments mkCommitmentMsg {P}. Arguments cm_eon {P}. Arguments cm_sender {P}. Arguments cm_gammas {P}.
Arguments d_phase {P}. Arguments d_eon {P}. Arguments d_num {P}. Arguments d_threshold {P}. Arguments d_keyper {P}.
Arguments d_poly {P}. Arguments d_commitments {P}. Arguments d_evals {P}. Arguments d_accusations {P}. Arguments d_apologies {P}.
Arguments set_phase {P}. Arguments check_eon_and_phase {P}. Arguments handle_commitment {P}. Arguments handle_eval {P}.
Arguments handle_accusation {P}. Arguments handle_apology {P}. Arguments deal_evals {P}. Arguments start_phase1 {P}.
Arguments accuse {P}. Arguments start_phase2 {P}. Arguments apologize {P}. Arguments start_phase3 {P}. Arguments finalize {P}.
Arguments is_corrupt {P}. Arguments poly_eval {P}. Arguments contribution {P}. Arguments compute_result {P}.
Arguments CStart1 {P}. Arguments CStart2 {P}. Arguments CStart3 {P}. Arguments CFinalize {P}. Arguments CCommitment {P}.
Arguments CEval {P}. Arguments CAccusation {P}. Arguments CApology {P}. Arguments do_call {P}. Arguments run {P}.
Arguments r_eon {P}. Arguments r_num {P}. Arguments r_threshold {P}. Arguments r_keyper {P}. Arguments r_sk {P}.
Arguments r_pk {P}. Arguments r_pkshares {P}. Arguments Done {P}. Arguments Error {P}. Arguments Panic {P}. Arguments keep {P}.
Arguments set_phase_to {P}. Arguments set_poly {P}. Arguments set_commitments {P}. Arguments set_evals {P}.
Arguments set_accusations {P}. Arguments set_apologies {P}.

(** The keyper's decisions as a whole: /repo/shuttermint/keyper/decide.go.  The second half (decryption, execution, appeals) is
    [DecideModel]; here are check-in, batch config votes, the DKG processes, the epoch key generation, and Decide itself.

    Inputs of a decision: State.SyncHeight and the shuttermint view ([ObserveModel.shutter]) it is made from, the main chain view
    ([MainModel.view]), and randomness.  [None] = panic or log.Fatalf.  Log output is not modelled. *)
From stdpp Require Import list gmap.
From Coq Require Import ZArith NArith Lia.
From Verif Require Import Fq CryptoModel DkgModel EpochModel ObserveModel ArithModel MainModel DecideModel EncodingModel.

(** medley/medley.go:60-69 FindAddressIndex *)
Fixpoint find_address_from (i : N) (l : list N) (a : N) : option N :=
  match l with [] => None | x :: l => if (x =? a)%N then Some i else find_address_from (i + 1) l a end.
Definition find_address (l : list N) (a : N) : option N := find_address_from 0 l a.
(** loops that stop at a panic *)
Fixpoint each {A S} (f : S → A → option S) (s : S) (l : list A) : option S :=
  match l with [] => Some s | x :: l => s' ← f s x; each f s' l end.
(** loops that collect actions *)
Fixpoint collect {A S O} (f : S → A → option (S * list O)) (s : S) (l : list A) : option (S * list O) :=
  match l with
  | [] => Some (s, [])
  | x :: l => '(s1, a1) ← f s x; '(s2, a2) ← collect f s1 l; Some (s2, a1 ++ a2)
  end.

(** shutterevents/events.go BatchConfig, the fields used *)
Record sconfig := mkSConfig { sc_index : N; sc_start : N; sc_keypers : list N; sc_threshold : N }.

Section Keyper.
Context (P : pairing) (K : Type).
Notation G1 := (G1 P). Notation G2 := (G2 P).
Notation bytes := (list N).
(** what the DKG and key share events of an eon carry besides height and eon *)
Inductive body :=
| BCommitment (sender : N) (gammas : list G2)
| BPolyEval (sender : N) (receivers : list N) (evals : list bytes)
| BAccusation (sender : N) (accused : list N)
| BApology (sender : N) (accusers : list N) (evals : list Z)
| BKeyShare (sender : N) (epoch : N) (share : G1).
Notation eonev := (eon_event body).
Notation eon := (ObserveModel.eon body).
Notation shutter := (ObserveModel.shutter body sconfig K (N * bytes)).

(** decide.go:65-74 DKG *)
Record kdkg := mkKDkg {
  k_eon : N; k_start_batch : N; k_keypers : list N; k_pure : dkg P; k_outgoing : list eval_msg; k_plen : phase_length
}.
Definition set_pure (k : kdkg) (p : dkg P) : kdkg := mkKDkg (k_eon k) (k_start_batch k) (k_keypers k) p (k_outgoing k) (k_plen k).
Definition set_outgoing (k : kdkg) (l : list eval_msg) : kdkg := mkKDkg (k_eon k) (k_start_batch k) (k_keypers k) (k_pure k) l (k_plen k).
(** decide.go:76-81 EKG *)
Record kekg := mkKEkg { g_eon : N; g_keypers : list N; g_epochkg : epochkg P }.

(** what is submitted: SendShuttermintMessage with these messages, EonKeyBroadcast, and DecideModel's actions *)
Inductive kaction :=
| KCheckIn
| KBatchConfig (index : N) (c : config)
| KCommitment (eon : N) (gammas : list G2)
| KPolyEval (eon : N) (receivers : list N) (evals : list bytes)
| KAccusation (eon : N) (accused : list N)
| KApology (eon : N) (accusers : list N) (evals : list Z)
| KEonStartVote (batch : N)
| KKeyShare (eon epoch : N) (share : G1)
| KEonKey (keyper : N) (start_batch : N) (key : G2)
| KAction (a : action).

(** decide.go:246-267 State; the fields of [xstate] are DecideModel's, Actions and ActionCounter belong to PendingModel, SyncHeight to
    SyncModel *)
Record kstate := mkKState {
  k_checked_in : bool; k_last_config : N; k_last_eon : N; k_dkgs : list kdkg; k_ekgs : list kekg; k_next_share : Z; k_x : xstate
}.
(** decide.go:269-275 NewState *)
Definition new_kstate : kstate := mkKState false 0 0 [] [] 0 new_x.

Record kinput := mkKInput {
  in_height : Z;              (** State.SyncHeight *)
  in_shutter : shutter; in_view : view;
  in_rnd : N → nat → Z;      (** the randomness for the polynomial of an eon *)
  in_enc : K → bytes → bytes (** ecies encryption to a keyper, with this decision's randomness *)
}.

(** ecies decryption with our encryption key; [None] = error *)
Context (ecies_decrypt : bytes → option bytes).
(** Config.DKGPhaseLength, our address *)
Context (plen : phase_length) (me : N).
(** the hash of an epoch to G1; DecryptTransactions (observe/mainchain.go:394-413) with an epoch secret key *)
Context (epoch_point : N → G1) (decrypt_batch : G1 → list bytes → list bytes).
(** see DecideModel *)
Context (keccak : bytes → bytes) (ecrecover : bytes → Z → Z → Z → option N) (addr_bytes : N → bytes) (batcher_address : N)
  (sign : bytes → bytes) (staggering : Z) (order : ∀ A, list A → list A).

(** ** DKG events *)
(** errors of puredkg are logged *)
Definition keep_going (k : kdkg) (o : outcome P) : option kdkg :=
  match o with Done p => Some (set_pure k p) | Error => Some k | Panic => None end.
(** decide.go:111-131 syncCommitments, the loop's body; [start]: eon.StartHeight *)
Definition sync_commitment (start : Z) (k : kdkg) (e : eonev) : option kdkg :=
  match ev_body e with
  | BCommitment sender gs =>
      if negb (phase_at (k_plen k) (ev_height e) start =? dealing) then Some k
      else match find_address (k_keypers k) sender with
           | None => Some k
           | Some i => keep_going k (handle_commitment (k_pure k) (mkCommitmentMsg (ev_eon e) i gs))
           end
  | _ => None
  end.
(** decide.go:133-179 syncPolyEvals: one receiver of an event; big.Int.SetBytes *)
Definition sync_poly_eval_to (e : eonev) (sender : N) (k : kdkg) (r : N * option bytes) : option kdkg :=
  match find_address (k_keypers k) r.1 with
  | None => Some k
  | Some i =>
      if negb (i =? d_keyper (k_pure k))%N then Some k
      else
        encrypted ← r.2;
        match ecies_decrypt encrypted with
        | None => Some k
        | Some b => keep_going k (handle_eval (k_pure k) (mkEvalMsg (ev_eon e) sender (d_keyper (k_pure k)) (EncModel.be_value b)))
        end
  end.
(** the j-th element of a list, or an index out of range *)
Definition with_index {A B} (l : list A) (m : list B) : list (A * option B) := imap (λ j x, (x, m !! j)) l.
Definition sync_poly_eval (start : Z) (k : kdkg) (e : eonev) : option kdkg :=
  match ev_body e with
  | BPolyEval sender receivers evals =>
      if negb (phase_at (k_plen k) (ev_height e) start =? dealing) then Some k
      else match find_address (k_keypers k) sender with
           | None => Some k
           | Some i => if (i =? d_keyper (k_pure k))%N then Some k else each (sync_poly_eval_to e i) k (with_index receivers evals)
           end
  | _ => None
  end.
(** decide.go:181-211 syncAccusations *)
Definition sync_accusation_of (sender : N) (k : kdkg) (accused : N) : option kdkg :=
  match find_address (k_keypers k) accused with
  | None => Some k
  | Some j => keep_going k (handle_accusation (k_pure k) (mkAccusationMsg (k_eon k) sender j))
  end.
Definition sync_accusation (start : Z) (k : kdkg) (e : eonev) : option kdkg :=
  match ev_body e with
  | BAccusation sender accused =>
      if negb (phase_at (k_plen k) (ev_height e) start =? accusing) then Some k
      else match find_address (k_keypers k) sender with
           | None => Some k
           | Some i => each (sync_accusation_of i) k accused
           end
  | _ => None
  end.
(** decide.go:213-244 syncApologies *)
Definition sync_apology_to (sender : N) (k : kdkg) (r : N * option Z) : option kdkg :=
  match find_address (k_keypers k) r.1 with
  | None => Some k
  | Some j => v ← r.2; keep_going k (handle_apology (k_pure k) (mkApologyMsg (k_eon k) j sender v))
  end.
Definition sync_apology (start : Z) (k : kdkg) (e : eonev) : option kdkg :=
  match ev_body e with
  | BApology sender accusers evals =>
      if negb (phase_at (k_plen k) (ev_height e) start =? apologizing) then Some k
      else match find_address (k_keypers k) sender with
           | None => Some k
           | Some i => each (sync_apology_to i) k (with_index accusers evals)
           end
  | _ => None
  end.

(** ** DKG phases *)
(** decide.go:499-512 startPhase1Dealing *)
Definition start_dealing (i : kinput) (k : kdkg) (next : nat) : option (kdkg * list kaction) :=
  '(p, o) ← start_phase1 (k_pure k) (in_rnd i (k_eon k));
  match (o : option (commitment_msg P * list eval_msg)) with
  | None => None
  | Some (c, evals) =>
      if negb (next =? dealing) then Some (set_pure k p, [])
      else Some (set_outgoing (set_pure k p) evals, [KCommitment (k_eon k) (cm_gammas c)])
  end.
(** decide.go:103-109 newAccusation, 514-527 startPhase2Accusing; an index out of range panics *)
Definition start_accusing (k : kdkg) (next : nat) : option (kdkg * list kaction) :=
  '(p, l) ← start_phase2 (k_pure k);
  if negb (next =? accusing) then Some (set_pure k p, [])
  else
    match (l : list accusation_msg) with
    | [] => Some (set_pure k p, [])
    | _ => accused ← mapM (λ a, k_keypers k !! N.to_nat (am_accused a)) l; Some (set_pure k p, [KAccusation (k_eon k) accused])
    end.
(** decide.go:91-101 newApology, 529-541 startPhase3Apologizing *)
Definition start_apologizing (k : kdkg) (next : nat) : option (kdkg * list kaction) :=
  '(p, l) ← start_phase3 (k_pure k);
  if negb (next =? apologizing) then Some (set_pure k p, [])
  else
    match (l : list apology_msg) with
    | [] => Some (set_pure k p, [])
    | _ => accusers ← mapM (λ a, k_keypers k !! N.to_nat (pm_accuser a)) l; Some (set_pure k p, [KApology (k_eon k) accusers (pm_eval <$> l)])
    end.
(** decide.go:543-571 dkgFinalize, broadcastEonPublicKey *)
Definition dkg_finalize (k : kdkg) : option (kdkg * option kekg * list kaction) :=
  p ← finalize (k_pure k);
  match compute_result p with
  | None => Some (set_pure k p, None, [KEonStartVote (k_start_batch k)])
  | Some r => Some (set_pure k p, Some (mkKEkg (k_eon k) (k_keypers k) (new_epochkg r)), [KEonKey (r_keyper r) (k_start_batch k) (r_pk r)])
  end.
(** decide.go:573-601 syncDKGWithEon *)
Definition sync_dkg (i : kinput) (k : kdkg) (e : eon) : option (kdkg * option kekg * list kaction) :=
  let h := in_height i in
  let next := phase_at plen (current_block (in_shutter i) + 1) (start_height e) in
  '(k, a1) ← (if (d_phase (k_pure k) =? off) && (dealing <=? next) then start_dealing i k next else Some (k, []));
  k ← each (sync_commitment (start_height e)) k (get_events Commitment e h);
  k ← each (sync_poly_eval (start_height e)) k (get_events PolyEval e h);
  '(k, a2) ← (if (d_phase (k_pure k) =? dealing) && (accusing <=? next) then start_accusing k next else Some (k, []));
  k ← each (sync_accusation (start_height e)) k (get_events Accusation e h);
  '(k, a3) ← (if (d_phase (k_pure k) =? accusing) && (apologizing <=? next) then start_apologizing k next else Some (k, []));
  k ← each (sync_apology (start_height e)) k (get_events Apology e h);
  '(k, g, a4) ← (if (d_phase (k_pure k) =? apologizing) && (finalized <=? next) then dkg_finalize k else Some (k, None, []));
  Some (k, g, a1 ++ a2 ++ a3 ++ a4).
(** decide.go:456-497 sendPolyEvals; an index out of range panics; big.Int.Bytes *)
Definition send_poly_evals (i : kinput) (k : kdkg) : option (kdkg * list kaction) :=
  match k_outgoing k with
  | [] => Some (k, [])
  | out =>
      if dealing <? d_phase (k_pure k) then Some (set_outgoing k [], [])
      else
        l ← mapM (λ m, a ← k_keypers k !! N.to_nat (em_receiver m); Some (m, (a : N), enc_keys (in_shutter i) !! a)) out;
        let ready := omap (λ x, match x with (m, a, Some key) => Some (a, in_enc i key (big_bytes (em_eval m))) | _ => None end) l in
        let still := omap (λ x, match x with (m, _, None) => Some m | _ => None end) l in
        match ready with
        | [] => Some (k, [])
        | _ => Some (set_outgoing k still, [KPolyEval (k_eon k) ready.*1 ready.*2])
        end
  end.
(** decide.go:86-89 IsFinalized; Pure is not nil *)
Definition is_finalized (k : kdkg) : bool := d_phase (k_pure k) =? finalized.
(** decide.go:603-616 handleDKGs: the DKGs, the new EKGs, the actions *)
Fixpoint handle_dkgs (i : kinput) (ks : list kdkg) : option (list kdkg * list kekg * list kaction) :=
  match ks with
  | [] => Some ([], [], [])
  | k :: ks =>
      if is_finalized k then '(ks', gs, acts) ← handle_dkgs i ks; Some (k :: ks', gs, acts)
      else
        e ← find_eon (in_shutter i) (k_eon k);
        '(k1, g, a1) ← sync_dkg i k e;
        '(k2, a2) ← send_poly_evals i k1;
        '(ks', gs, a3) ← handle_dkgs i ks;
        Some (k2 :: ks', option_list g ++ gs, a1 ++ a2 ++ a3)
  end.

(** ** Starting DKGs *)
(** observe/shutter.go:455-462 FindBatchConfigByBatchIndex; the zero BatchConfig if there is none *)
Fixpoint last_config_for (cs : list sconfig) (n : nat) (b : N) : sconfig :=
  match n with
  | O => mkSConfig 0 0 [] 0
  | S n => match cs !! n with
           | Some c => if (sc_start c <=? b)%N then c else last_config_for cs n b
           | None => mkSConfig 0 0 [] 0
           end
  end.
Definition config_by_batch (w : shutter) (b : N) : sconfig := last_config_for (configs w) (length (configs w)) b.
(** observe/shutter.go:446-453 FindBatchConfigByConfigIndex; shutterevents BatchConfig.IsKeyper *)
Definition config_by_index (w : shutter) (n : N) : option sconfig := List.find (λ c, sc_index c =? n)%N (configs w).
Definition sc_is_keyper (c : sconfig) (a : N) : bool := existsb (N.eqb a) (sc_keypers c).
(** observe/shutter.go:436-444 IsKeyper *)
Definition shutter_is_keyper (w : shutter) (a : N) : bool := existsb (λ c, sc_is_keyper c a) (configs w).
(** decide.go:388-404 startDKG *)
Definition start_dkg (w : shutter) (e : eon) : option kdkg :=
  let c := config_by_batch w (ObserveModel.start_batch e) in
  i ← find_address (sc_keypers c) me;
  Some (mkKDkg (eon_number e) (ObserveModel.start_batch e) (sc_keypers c)
    (new_dkg P (eon_number e) (N.of_nat (length (sc_keypers c))) (sc_threshold c) i) [] plen).
(** decide.go:406-416 maybeStartDKG *)
Fixpoint start_dkgs (w : shutter) (es : list eon) (last : N) : N * list kdkg :=
  match es with
  | [] => (last, [])
  | e :: es =>
      if (last <? eon_number e)%N
      then let '(last', l) := start_dkgs w es (eon_number e) in (last', option_list (start_dkg w e) ++ l)
      else start_dkgs w es last
  end.

(** ** Epoch keys *)
(** decide.go:639-671 syncEKGWithEon, the loop's body: the completed key goes to decryptTransactions *)
Definition sync_share (g : kekg) (e : eonev) : option (kekg * list (Z * (list bytes → list bytes))) :=
  match ev_body e with
  | BKeyShare sender epoch share =>
      match find_address (g_keypers g) sender with
      | None => Some (g, [])
      | Some i =>
          match ek_keys (g_epochkg g) !! epoch with
          | Some _ => Some (g, [])
          | None =>
              '(s, err) ← handle_share epoch_point (g_epochkg g) (mkEpochShare (ev_eon e) epoch i share);
              Some (mkKEkg (g_eon g) (g_keypers g) s,
                if (err : bool) then [] else match ek_keys s !! epoch with Some (Some key) => [(Z.of_N epoch, decrypt_batch key)] | _ => [] end)
          end
      end
  | _ => None
  end.
(** decide.go:776-784 syncEKGs *)
Fixpoint sync_ekgs (i : kinput) (gs : list kekg) : option (list kekg * list (Z * (list bytes → list bytes))) :=
  match gs with
  | [] => Some ([], [])
  | g :: gs =>
      e ← find_eon (in_shutter i) (g_eon g);
      '(g', k1) ← collect sync_share g (get_events KeyShare e (in_height i));
      '(gs', k2) ← sync_ekgs i gs;
      Some (g' :: gs', k1 ++ k2)
  end.
(** decide.go:310-317 FindEKGByEon, 618-637 publishEpochSecretKeyShare, 825-833 sendEpochSecretKeyShare *)
Definition find_ekg (gs : list kekg) (n : N) : option kekg := List.find (λ g, g_eon g =? n)%N gs.
Definition publish_share (w : shutter) (gs : list kekg) (b : Z) : list kaction :=
  if negb (sc_is_keyper (config_by_batch w (Z.to_N b)) me) then []
  else match find_eon_by_batch_index w (Z.to_N b) with
       | None => []
       | Some e =>
           match find_ekg gs (eon_number e) with
           | None => []
           | Some g =>
               match ek_keys (g_epochkg g) !! Z.to_N b with
               | Some _ => []
               | None => [KKeyShare (ek_eon (g_epochkg g)) (Z.to_N b) (my_epoch_share epoch_point (g_epochkg g) (Z.to_N b))]
               end
           end
       end.
(** decide.go:786-807 publishEpochSecretKeyShares: the next share, the actions *)
Definition publish_shares (i : kinput) (gs : list kekg) (next : Z) : option (Z * list kaction) :=
  let v := in_view i in
  n ← active_config_index (v_configs v) (current v);
  c ← v_configs v !! n;
  match config_by_index (in_shutter i) (N.of_nat n) with
  | None => Some (next, [])
  | Some _ =>
      b ← batch_index c (current v);
      l ← mapM (λ b, t ← timed_out_or_inactive v b; Some (if (t : bool) then [] else publish_share (in_shutter i) gs b)) (seqZ next (b - next));
      Some (b, mjoin l)
  end.

(** ** Check-in and batch configs *)
(** decide.go:335-356 shouldSendCheckIn, maybeSendCheckIn *)
Definition check_in (s : kstate) (w : shutter) : kstate * list kaction :=
  if k_checked_in s then (s, [])
  else if bool_decide (is_Some (enc_keys w !! me)) then (s, [])
  else if shutter_is_keyper w me then (mkKState true (k_last_config s) (k_last_eon s) (k_dkgs s) (k_ekgs s) (k_next_share s) (k_x s), [KCheckIn])
  else (s, []).
(** decide.go:371-386 maybeSendBatchConfig *)
Definition send_config (s : kstate) (w : shutter) (v : view) : kstate * list kaction :=
  match last (configs w) with
  | None => (s, [])
  | Some c =>
      let n := Z.to_N (u64 (1 + Z.of_N (sc_index c))) in
      if (n <=? k_last_config s)%N then (s, [])
      else match v_configs v !! N.to_nat n with
           | None => (s, [])
           | Some c => (mkKState (k_checked_in s) n (k_last_eon s) (k_dkgs s) (k_ekgs s) (k_next_share s) (k_x s), [KBatchConfig n c])
           end
  end.

(** ** Decide *)
Definition sigs_of (w : shutter) : gmap Z (list (N * bytes)) := kmap Z.of_N (batches w).
(** decide.go:1189-1213 Decide; that State.SyncHeight is set is part of SyncModel *)
Definition decide_step (s : kstate) (i : kinput) : option (kstate * list kaction) :=
  let w := in_shutter i in let v := in_view i in
  if negb (node_synced w) then Some (s, [])
  else if negb (v_synced v) then Some (s, [])
  else if negb (shutter_is_keyper w me) then Some (s, [])
  else
    let '(s, a1) := check_in s w in
    let '(s, a2) := send_config s w v in
    let '(last_eon, new) := start_dkgs w (eons w) (k_last_eon s) in
    '(dkgs, ekgs, a3) ← handle_dkgs i (k_dkgs s ++ new);
    '(ekgs, keys) ← sync_ekgs i (k_ekgs s ++ ekgs);
    '(x1, a4) ← on_keys keccak ecrecover addr_bytes batcher_address sign v (sigs_of w) (k_x s) keys;
    '(next, a5) ← publish_shares i ekgs (k_next_share s);
    x2 ← handle_signatures ecrecover v (sigs_of w) x1;
    '(x3, a6) ← execute_batch me staggering v x2;
    '(x4, a7) ← maybe_appeal order v x3;
    '(x5, a8) ← maybe_accuse me v x4;
    Some (mkKState (k_checked_in s) (k_last_config s) last_eon dkgs ekgs next x5,
      a1 ++ a2 ++ a3 ++ (KAction <$> a4) ++ a5 ++ (KAction <$> (a6 ++ a7 ++ a8))).
(** a sequence of decisions, and what is submitted in each *)
Fixpoint decide_all (s : kstate) (l : list kinput) : option (kstate * list (list kaction)) :=
  match l with
  | [] => Some (s, [])
  | i :: l => '(s1, a) ← decide_step s i; '(s2, al) ← decide_all s1 l; Some (s2, a :: al)
  end.
End Keyper.
Arguments BCommitment {P}. Arguments BPolyEval {P}. Arguments BAccusation {P}. Arguments BApology {P}. Arguments BKeyShare {P}.
Arguments mkKDkg {P}. Arguments k_eon {P}. Arguments k_start_batch {P}. Arguments k_keypers {P}. Arguments k_pure {P}.
Arguments k_outgoing {P}. Arguments k_plen {P}. Arguments set_pure {P}. Arguments set_outgoing {P}.
Arguments mkKEkg {P}. Arguments g_eon {P}. Arguments g_keypers {P}. Arguments g_epochkg {P}.
Arguments KCheckIn {P}. Arguments KBatchConfig {P}. Arguments KCommitment {P}. Arguments KPolyEval {P}. Arguments KAccusation {P}.
Arguments KApology {P}. Arguments KEonStartVote {P}. Arguments KKeyShare {P}. Arguments KEonKey {P}. Arguments KAction {P}.
Arguments mkKState {P}. Arguments k_checked_in {P}. Arguments k_last_config {P}. Arguments k_last_eon {P}. Arguments k_dkgs {P}.
Arguments k_ekgs {P}. Arguments k_next_share {P}. Arguments k_x {P}. Arguments new_kstate {P}.
Arguments mkKInput {P K}. Arguments in_height {P K}. Arguments in_shutter {P K}. Arguments in_view {P K}. Arguments in_rnd {P K}. Arguments in_enc {P K}.
Arguments keep_going {P}. Arguments sync_commitment {P}. Arguments sync_poly_eval_to {P}. Arguments sync_poly_eval {P}.
Arguments sync_accusation_of {P}. Arguments sync_accusation {P}. Arguments sync_apology_to {P}. Arguments sync_apology {P}.
Arguments start_dealing {P K}. Arguments start_accusing {P}. Arguments start_apologizing {P}. Arguments dkg_finalize {P}.
Arguments sync_dkg {P K}. Arguments send_poly_evals {P K}. Arguments is_finalized {P}. Arguments handle_dkgs {P K}.
Arguments config_by_batch {P K}. Arguments config_by_index {P K}. Arguments shutter_is_keyper {P K}. Arguments start_dkg {P K}. Arguments start_dkgs {P K}.
Arguments sync_share {P}. Arguments sync_ekgs {P K}. Arguments find_ekg {P}. Arguments publish_share {P K}. Arguments publish_shares {P K}.
Arguments check_in {P K}. Arguments send_config {P K}. Arguments sigs_of {P K}. Arguments decide_step {P K}. Arguments decide_all {P K}.

(** A concrete run of the whole system: two keypers, the app, their transactions, until both hold the key of the first eon (C65, C66). *)
From stdpp Require Import list gmap strings.
From Coq Require Import ZArith NArith Lia.
From Verif Require Import Fq CryptoModel CryptoSpec PropsCrypto DkgModel DkgSpec EpochModel ObserveModel ObserveProofs SyncModel SyncProofs ArithModel ContractsModel MainModel MainProofs PropsMain
  DecideModel EncModel EncodingModel KeyperModel KeyperSpec KeyperRunProofs KeyperActionProofs KeyperSystem PropsKeyper PropsKeyperDkg PropsKeyperLive KeyperWitness
  AppModel AppSpec AppSteps AppWitness EventsModel EventsSpec EventsProofs PropsEvents PropsChain PropsFull EventsWitness.
Local Open Scope Z_scope.

Definition no_hash (_ : bytes) : bytes := replicate 32 0%N.
Notation fO := (chain_oracles FP N x_pk x_point x_point x_pk_parse x_pk_parse x_point_parse x_point_parse x_pb_parse (λ x, x) x_signer).
Notation fread := (make_event no_hash FP N x_pk_parse x_point_parse x_point_parse).
Definition ftx (a : N) (nonce : N) (p : payload) : call := CDeliverTx (make_tx x_pb (λ x, x) (x_sign a) (mkMessage p [99]%N nonce)) id.
Definition fblock (txs : list call) : list call := txs ++ [CEndBlock 0; CCommit].
Definition fcalls : list call :=
  [genesis [7; 8] 2]%N ++
  (* 1: both vote for the config; the app starts eon 1 *)
  fblock [ftx 7 1 (raw 0 [7; 8] 2 1 false false); ftx 8 1 (raw 0 [7; 8] 2 1 false false)]%N ++
  (* 2: check-ins *)
  fblock [ftx 7 2 (m_check_in N (key32 7) x_pk 70); ftx 8 2 (m_check_in N (key32 8) x_pk 80)]%N ++
  fblock [] ++ fblock [] ++
  (* 5: dealing; a stranger's accusation and the commitment of keyper 8 a second time are rejected *)
  fblock [ftx 7 3 (m_commitment FP x_point 1 (gammas FP [5; 7]%Z)); ftx 8 3 (m_commitment FP x_point 1 (gammas FP [11; 13]%Z)); ftx 7 4 (m_poly_eval 1 [8] [[19]]); ftx 8 4 (m_poly_eval 1 [7] [[24]]);
    ftx 9 1 (m_accusation 1 [7]); ftx 8 5 (m_commitment FP x_point 1 (gammas FP [11; 13]%Z))]%N.
Definition frun : list (call * response) := match run fO (new_app false) fcalls with Some (tr, _) => tr | None => [] end.
Definition fchain (n : nat) : list (list abci) := (λ evs : list AppModel.event, make_abci no_hash <$> evs) <$> block_at frun n.

(** ** The chain *)
Notation fproduced := (@produced no_hash FP N x_pk x_pk_parse x_pk_parse x_point x_point_parse x_point x_point_parse x_pb_parse (λ x, x) x_signer).
Notation fproduced_by := (@produced_by no_hash FP N x_pk x_pk_parse x_pk_parse x_point x_point_parse x_point x_point_parse x_pb_parse (λ x, x) x_signer).
Lemma f_history : ∃ s, AppSpec.history fO frun s ∧ (N.of_nat (length (eons_of frun)) < 2 ^ 64)%N.
Proof.
  assert (H : match run fO (new_app false) fcalls with Some (tr, _) => bool_decide (length (eons_of tr) = 1%nat) | None => false end = true) by (vm_compute; reflexivity).
  unfold frun. destruct (run fO (new_app false) fcalls) as [[tr s]|] eqn:E; [|discriminate H]. apply bool_decide_eq_true in H. exists s. rewrite H. split; [|done]. exists false.
  apply (run_exec fO (new_app false) fcalls tr s); [|exact E]. unfold fcalls, fblock, genesis, ftx. repeat (apply Forall_app; split); repeat (apply Forall_cons; split; [try exact I; try exact id_order|]); try apply Forall_nil_2.
Qed.
Lemma f_produced_by m : fproduced_by fchain m frun.
Proof. destruct f_history as (s & H1 & H2). exists s. split; [exact H1|]. split; [exact H2|]. intros n _. reflexivity. Qed.
Example C65_witness : fproduced fchain ∧ ∃ c k e, BatchConfig c ∈ published fread fchain 8 ∧ EonEvent k e ∈ published fread fchain 8.
Proof.
  split.
  - intros m. exists frun. destruct f_history as (s & H1 & H2). exists s. split; [exact H1|]. split; [exact H2|]. intros n _. reflexivity.
  - exists (mkSConfig 1 0 [7; 8]%N 2), PolyEval, (mkEv 5 1%N (BPolyEval 7%N [8]%N [[19]%N])).
    set (want := Some (BatchConfig (mkSConfig 1 0 [7; 8]%N 2), EonEvent PolyEval (mkEv 5 1%N (BPolyEval 7%N [8]%N [[19]%N]))) : option (wevent * wevent)).
    assert (H : match published fread fchain 8 with [a; _; _; _; _; _; b; _] => Some (a, b) | _ => None end = want) by (vm_cast_no_check (eq_refl want)).
    unfold want in H. clear want.
    destruct (published fread fchain 8) as [|a1 [|a2 [|a3 [|a4 [|a5 [|a6 [|a7 [|a8 [|]]]]]]]]]; try discriminate H. injection H as -> ->. split; [by left|]. do 6 right. by left.
Qed.

(** ** The keypers *)
Notation fobs := (sync_obs (body FP) sconfig N (N * list N)).
Fixpoint freplay (y : SyncModel.system (body FP) sconfig N (N * list N)) (es : list sync_event) : option (SyncModel.system (body FP) sconfig N (N * list N) * list fobs) :=
  match es with
  | [] => Some (y, [])
  | e :: es => '(y1, o1) ← sync_step fread fchain y e; '(y2, o2) ← freplay y1 es; Some (y2, o1 ++ o2)
  end.
Lemma freplay_history y es0 o0 es y' o : SyncModel.history fread fchain y es0 o0 → freplay y es = Some (y', o) → SyncModel.history fread fchain y' (es0 ++ es) (o0 ++ o).
Proof.
  revert y es0 o0 o. induction es as [|e es IH]; intros y es0 o0 o Hh; cbn [freplay]; [intros [= <- <-]; by rewrite !app_nil_r|].
  intros ([y1 o1] & E1 & E)%bind_Some. apply bind_Some in E as ([y2 o2] & E2 & E). injection E as <- <-.
  specialize (IH y1 (es0 ++ [e]) (o0 ++ o1) o2). rewrite <-!(assoc_L (++)) in IH. apply IH; [|done]. by econstructor.
Qed.
(** the shuttermint blocks and the main chain blocks that the decisions see *)
Definition fhs : list (Z * Z) := [(1, 5); (4, 6); (14, 8); (24, 9); (33, 15)].
Definition fsteps : list sync_event := [GSync 10 10 0 true; MShutter true 0; MMain true 0] ++ (fhs.*1 ≫= λ h, [GSync 10 10 h true; MShutter true 0]).
Definition fobserved : list fobs := match freplay (boot None) fsteps with Some (_, o) => o | None => [] end.
Definition finputs (a : N) : list (kinput FP N) := zip_with (input_of kchain a) fobserved fhs.*2.
Definition fend (a : N) : kstate FP * list (list (kaction FP)) := default (new_kstate, []) (wrun (wpar a) new_kstate (finputs a)).
Definition fks (a : N) : kstate FP := (fend a).1. Definition facts (a : N) : list (list (kaction FP)) := (fend a).2.
Lemma f_decisions a : a ∈ [7; 8]%N → wrun (wpar a) new_kstate (finputs a) = Some (fks a, facts a).
Proof.
  intros Ha. assert (Hs : match wrun (wpar a) new_kstate (finputs a) with Some _ => true | None => false end = true).
  { rewrite !elem_of_cons, elem_of_nil in Ha. destruct Ha as [->|[->|[]]]; vm_cast_no_check (eq_refl true). }
  unfold fks, facts, fend. destruct (wrun _ _ _) as [[? ?]|]; done.
Qed.
Lemma f_sync : ∃ y, SyncModel.history fread fchain y fsteps fobserved ∧ sync_height y = 34.
Proof.
  assert (match freplay (boot None) fsteps with Some (y, _) => sync_height y =? 34 | None => false end = true) as H by (vm_cast_no_check (eq_refl true)).
  unfold fobserved. destruct (freplay _ _) as [[y o]|] eqn:E; [|done]. exists y. split; [|by apply Z.eqb_eq]. exact (freplay_history (boot None) [] [] _ y o (history_start _ _) E).
Qed.
Lemma f_matches a : a ∈ [7; 8]%N → Forall2 (matches (kp_me (wpar a))) (finputs a) fobserved.
Proof. intros Ha. apply (inputs_match a _ _ Ha); vm_cast_no_check (eq_refl true). Qed.
Lemma f_no_crash : Crash ∉ fsteps.
Proof. vm_compute. intros H. repeat (apply elem_of_cons in H as [H|H]; [discriminate H|]). by apply elem_of_nil in H. Qed.
Lemma f_run a : a ∈ [7; 8]%N → keyper_run fread fchain wplen wpoint (wpar a) 34 (finputs a) (fks a) (facts a).
Proof.
  intros Ha. split; [|exact (f_decisions a Ha)]. destruct f_sync as (y & H1 & H2). exists y, fsteps, fobserved. split; [exact H1|]. split; [|split; [exact H2|exact (f_matches a Ha)]].
  intros es1 es2 E. exfalso. apply f_no_crash. rewrite E. apply elem_of_app. right. by left.
Qed.
Definition fsent (a : N) : list (list (kaction FP)) :=
  if (a =? 7)%N then [[KCheckIn; KCommitment 1 (gammas FP [5; 7])]; [KPolyEval 1 [8]%N [[19]%N]]; []; []; [KEonKey 0 0 (toF 16 : G2 FP)]]
  else [[KCheckIn; KCommitment 1 (gammas FP [11; 13])]; [KPolyEval 1 [7]%N [[24]%N]]; []; []; [KEonKey 1 0 (toF 16 : G2 FP)]].
Lemma f_submitted a : a ∈ [7; 8]%N → facts a = fsent a.
Proof. intros Ha. rewrite !elem_of_cons, elem_of_nil in Ha. destruct Ha as [->|[->|[]]]; [vm_cast_no_check (eq_refl (fsent 7))|vm_cast_no_check (eq_refl (fsent 8))]. Qed.
Lemma f_blocks a : a ∈ [7; 8]%N → (λ i, next_block i) <$> finputs a = [2; 5; 15; 25; 34]%nat.
Proof. intros Ha. rewrite !elem_of_cons, elem_of_nil in Ha. destruct Ha as [->|[->|[]]]; vm_cast_no_check (eq_refl [2; 5; 15; 25; 34]%nat). Qed.
(** the events of the chain *)
Definition fevents : list wevent :=
  [BatchConfig (mkSConfig 1 0 [7; 8]%N 2); EonStarted 1 1%N 0%N; CheckIn 7%N 70%N; CheckIn 8%N 80%N;
   EonEvent Commitment (mkEv 5 1%N (BCommitment 7%N (gammas FP [5; 7]))); EonEvent Commitment (mkEv 5 1%N (BCommitment 8%N (gammas FP [11; 13])));
   EonEvent PolyEval (mkEv 5 1%N (BPolyEval 7%N [8]%N [[19]%N])); EonEvent PolyEval (mkEv 5 1%N (BPolyEval 8%N [7]%N [[24]%N]))].
Notation fpub := (published fread fchain).
Lemma f_events : fpub 6%nat = fevents.
Proof. vm_cast_no_check (eq_refl fevents). Qed.
Lemma f_empty n : (6 ≤ n)%nat → fchain n = [].
Proof.
  intros Hn. assert (length (blocks frun []) = 5%nat) as Hl by (vm_cast_no_check (eq_refl 5%nat)). unfold fchain, block_at. destruct n as [|n]; [lia|].
  rewrite lookup_ge_None_2 by lia. reflexivity.
Qed.
Lemma f_late m : (6 ≤ m)%nat → fpub m = fevents.
Proof.
  intros H. replace m with (6 + (m - 6))%nat by lia. generalize (m - 6)%nat as x. clear. induction x as [|x IH]; [rewrite Nat.add_0_r; exact f_events|].
  rewrite Nat.add_succ_r. cbn [published]. rewrite IH, f_empty by lia. cbn [concat omap list_omap]. apply app_nil_r.
Qed.
Lemma f_prefix m : ∃ l, fevents = fpub m ++ l.
Proof.
  destruct (decide (6 ≤ m)%nat) as [H|H]; [exists []; rewrite (f_late m H); by rewrite app_nil_r|]. rewrite <-f_events.
  apply (published_app fread fchain (@PropsChain.heights no_hash FP N x_pk_parse x_point_parse x_point_parse)). lia.
Qed.
Local Opaque frun fks facts finputs fobserved fend fchain.
Notation fheights := (@PropsChain.heights no_hash FP N x_pk_parse x_point_parse x_point_parse).
Lemma f_app (a b : nat) : (a ≤ b)%nat → ∃ evs, fpub b = fpub a ++ evs.
Proof. exact (published_app fread fchain fheights a b). Qed.
Lemma f_elem m ev : ev ∈ fpub m → ev ∈ fevents.
Proof. intros H. destruct (f_prefix m) as [l ->]. apply elem_of_app. by left. Qed.
Lemma f_settled : KeyperSystem.settled fread fchain 1.
Proof.
  intros m pre st b post c E Hc. exfalso. destruct (f_prefix m) as [l El0]. assert (fevents = (pre ++ EonStarted st 1%N b :: post) ++ l) as El by (rewrite <-E; exact El0). clear E El0 m. rewrite <-(assoc_L (++)) in El. unfold fevents in El.
  destruct pre as [|? pre]; [discriminate El|]. injection El as _ El. destruct pre as [|? pre].
  - injection El as _ _ El. assert (BatchConfig c ∈ post ++ l) as Hin by (apply elem_of_app; by left). rewrite <-El in Hin. repeat (apply elem_of_cons in Hin as [Hin|Hin]; [discriminate Hin|]). by apply elem_of_nil in Hin.
  - injection El as _ El. assert (EonStarted st 1%N b ∈ pre ++ EonStarted st 1%N b :: post ++ l) as Hin by (apply elem_of_app; right; by left). rewrite <-El in Hin.
    repeat (apply elem_of_cons in Hin as [Hin|Hin]; [discriminate Hin|]). by apply elem_of_nil in Hin.
Qed.
Lemma f_started m : KeyperSystem.started fread fchain m 1 1 0 ↔ (2 ≤ m)%nat.
Proof.
  assert (E2 : fpub 2%nat = [BatchConfig (mkSConfig 1 0 [7; 8]%N 2); EonStarted 1 1%N 0%N]) by (vm_cast_no_check (eq_refl ([BatchConfig (mkSConfig 1 0 [7; 8]%N 2); EonStarted 1 1%N 0%N] : list wevent))).
  assert (E1 : fpub 1%nat = []) by (vm_cast_no_check (eq_refl ([] : list wevent))). split.
  - intros H. destruct (decide (2 ≤ m)%nat) as [|Hn]; [done|exfalso]. change (EonStarted 1 1%N 0%N ∈ fpub m) in H. destruct (f_app m 1 ltac:(lia)) as (evs & E). rewrite E1 in E.
    symmetry in E. apply app_nil in E as [E _]. rewrite E in H. by apply elem_of_nil in H.
  - intros Hm. change (EonStarted 1 1%N 0%N ∈ fpub m). destruct (f_app 2 m Hm) as (evs & ->). rewrite E2. apply elem_of_app. left. right. by left.
Qed.
Lemma f_config m : KeyperSystem.started fread fchain m 1 1 0 → KeyperSystem.config_at fread fchain m 0 (mkSConfig 1 0 [7; 8]%N 2).
Proof.
  intros Hm%f_started. destruct (f_app 2 m Hm) as (evs & E).
  assert (E2 : fpub 2%nat = [BatchConfig (mkSConfig 1 0 [7; 8]%N 2); EonStarted 1 1%N 0%N]) by (vm_cast_no_check (eq_refl ([BatchConfig (mkSConfig 1 0 [7; 8]%N 2); EonStarted 1 1%N 0%N] : list wevent))).
  rewrite E2 in E. exists [], (EonStarted 1 1%N 0%N :: evs). split; [exact E|]. split; [done|]. intros c' Hc'. exfalso.
  destruct (f_prefix m) as [l El]. rewrite E in El. unfold fevents in El. injection El as El. apply elem_of_cons in Hc' as [Hc'|Hc']; [discriminate Hc'|].
  assert (BatchConfig c' ∈ evs ++ l) as H3 by (apply elem_of_app; by left). rewrite <-El in H3. repeat (apply elem_of_cons in H3 as [H3|H3]; [discriminate H3|]). by apply elem_of_nil in H3.
Qed.
Lemma f_sized : KeyperSystem.sized fread fchain.
Proof.
  intros m e sender gs H E. apply f_elem in H. unfold fevents in H. repeat (apply elem_of_cons in H as [H|H]; [try discriminate H; injection H as ->; cbn [ev_body] in E; injection E as _ <-; vm_compute; reflexivity|]). by apply elem_of_nil in H.
Qed.
Lemma f_lengths m c : BatchConfig c ∈ fpub m → Z.of_nat (length (sc_keypers c)) < 2 ^ 63.
Proof. intros H. apply f_elem in H. unfold fevents in H. repeat (apply elem_of_cons in H as [H|H]; [try discriminate H; injection H as ->; reflexivity|]). by apply elem_of_nil in H. Qed.
Lemma f_decided a n ph : a ∈ [7; 8]%N → n ∈ (λ i, next_block i) <$> finputs a → (2 ≤ n)%nat → phase_at wplen (Z.of_nat n) 1 = ph → KeyperSystem.decided_in fread fchain wplen (finputs a) 1 ph.
Proof. intros Ha (i & -> & Hi)%elem_of_list_fmap Hn Hp. exists i, 1, 0%N. split; [exact Hi|]. split; [by apply f_started|exact Hp]. Qed.
(** the transactions, decoded, with the response codes *)
Notation fparse := (parse_tx x_pb_parse (λ x, x) x_signer).
Definition ftxs : list (option (N * payload) * N) := (λ x : bytes * response, ((λ y, (y.1, msg_payload y.2)) <$> fparse x.1, rsp_code x.2)) <$> concat (tx_blocks frun []).
Definition fwant : list (option (N * payload) * N) :=
  [(Some (7%N, raw 0 [7; 8]%N 2 1 false false), 0%N); (Some (8%N, raw 0 [7; 8]%N 2 1 false false), 0%N); (Some (7%N, m_check_in N (key32 7) x_pk 70%N), 0%N); (Some (8%N, m_check_in N (key32 8) x_pk 80%N), 0%N);
   (Some (7%N, m_commitment FP x_point 1 (gammas FP [5; 7])), 0%N); (Some (8%N, m_commitment FP x_point 1 (gammas FP [11; 13])), 0%N); (Some (7%N, m_poly_eval 1 [8]%N [[19]%N]), 0%N); (Some (8%N, m_poly_eval 1 [7]%N [[24]%N]), 0%N);
   (Some (9%N, m_accusation 1 [7]%N), 1%N); (Some (8%N, m_commitment FP x_point 1 (gammas FP [11; 13])), 1%N)].
Lemma f_txs : ftxs = fwant.
Proof. vm_cast_no_check (eq_refl fwant). Qed.

Lemma txs_at_elem tr h x : x ∈ txs_at tr h → x ∈ concat (tx_blocks tr []).
Proof.
  intros H. destruct h as [|h]; [by apply elem_of_nil in H|]. cbn [txs_at] in H. destruct (tx_blocks tr [] !! h) as [b|] eqn:E; [|by apply elem_of_nil in H]. cbn [default from_option id] in H.
  apply elem_of_list_In, in_concat. exists b. split; apply elem_of_list_In; [by eapply elem_of_list_lookup_2|exact H].
Qed.
Lemma f_tx_cases h tx r : (tx, r) ∈ txs_at frun h → ((λ y, (y.1, msg_payload y.2)) <$> fparse tx, rsp_code r) ∈ fwant.
Proof. intros H%txs_at_elem. rewrite <-f_txs. unfold ftxs. apply elem_of_list_fmap. exists (tx, r). split; [reflexivity|exact H]. Qed.
Definition find_tx (h j : nat) : option (option (N * payload) * N) := (λ x : bytes * response, ((λ y, (y.1, msg_payload y.2)) <$> fparse x.1, rsp_code x.2)) <$> (txs_at frun h !! j).
Lemma find_tx_is h j a p : find_tx h j = Some (Some (a, p), 0%N) → ∃ tx msg r, (tx, r) ∈ txs_at frun h ∧ fparse tx = Some (a, msg) ∧ msg_payload msg = p ∧ rsp_code r = 0%N.
Proof.
  unfold find_tx. intros ([tx r] & Hin & E)%fmap_Some. apply pair_equal_spec in E as [E1 E2]. cbn [fst snd] in E1, E2. symmetry in E1. apply fmap_Some in E1 as ([a' msg] & E1 & E3). cbn [fst snd] in E3. injection E3 as -> ->.
  exists tx, msg, r. split; [by eapply elem_of_list_lookup_2|]. done.
Qed.
Lemma f_dealt : find_tx 5 0 = Some (Some (7%N, m_commitment FP x_point 1 (gammas FP [5; 7])), 0%N) ∧ find_tx 5 1 = Some (Some (8%N, m_commitment FP x_point 1 (gammas FP [11; 13])), 0%N).
Proof.
  split; [vm_cast_no_check (eq_refl (Some (Some (7%N, m_commitment FP x_point 1 (gammas FP [5; 7])), 0%N)))|vm_cast_no_check (eq_refl (Some (Some (8%N, m_commitment FP x_point 1 (gammas FP [11; 13])), 0%N)))].
Qed.
Lemma through_from (tr : trace) (a r : N) (gs : list (G2 FP)) (e : bytes) (key : G2 FP) (j : N) :
  (∃ tx msg rs, (tx, rs) ∈ txs_at tr 5 ∧ fparse tx = Some (a, msg) ∧ msg_payload msg = m_commitment FP x_point 1 gs ∧ rsp_code rs = 0%N) →
  (∀ h tx msg rs, (tx, rs) ∈ txs_at tr h → fparse tx = Some (a, msg) → rsp_code rs = 0%N →
    match msg_payload msg with MPolyCommitment _ _ => msg_payload msg = m_commitment FP x_point 1 gs | MApology _ _ _ => False | _ => True end) →
  got_through x_point x_pb_parse (λ x, x) x_signer (P:=FP) wplen tr 34 1 1 a [KCheckIn; KCommitment 1 gs; KPolyEval 1 [r] [e]; KEonKey j 0 key].
Proof.
  intros (tx & msg & rs & H1 & H2 & H3 & H4) Honly. split.
  - intros x ph p Hx Hph Hne Hs. rewrite !elem_of_cons, elem_of_nil in Hx. destruct Hx as [->|[->|[->|[->|[]]]]]; try discriminate Hph.
    + cbn in Hph. injection Hph as <-. cbn [sent] in Hs. injection Hs as <-. exists 5%nat, tx, msg, rs. split; [lia|]. split; [reflexivity|]. split; [exact H1|]. split; [exact H2|]. split; [exact H3|exact H4].
    + by destruct (Hne [r] [e]).
  - intros h tx' msg' rs' Htx Hd Hc. specialize (Honly h tx' msg' rs' Htx Hd Hc). destruct (msg_payload msg'); try exact I; [|by destruct Honly].
    intros _. exists (KCommitment 1 gs). split; [right; left|]. cbn [sent]. by rewrite Honly.
Qed.
Lemma f_joined : mjoin (fsent 7) = [KCheckIn; KCommitment 1 (gammas FP [5; 7]); KPolyEval 1 [8]%N [[19]%N]; KEonKey 0 0 (toF 16 : G2 FP)] ∧
  mjoin (fsent 8) = [KCheckIn; KCommitment 1 (gammas FP [11; 13]); KPolyEval 1 [7]%N [[24]%N]; KEonKey 1 0 (toF 16 : G2 FP)].
Proof. split; reflexivity. Qed.
(** what was accepted from [a], apart from the commitment *)
Definition ok_tx (a : N) (c : payload) (x : option (N * payload) * N) : Prop :=
  ∀ p, x = (Some (a, p), 0%N) → match p with MPolyCommitment _ _ => p = c | MApology _ _ _ => False | _ => True end.
Lemma f_ok : Forall (ok_tx 7 (m_commitment FP x_point 1 (gammas FP [5; 7]))) fwant ∧ Forall (ok_tx 8 (m_commitment FP x_point 1 (gammas FP [11; 13]))) fwant.
Proof.
  unfold fwant. generalize (gammas FP [5; 7]) (gammas FP [11; 13]). intros g1 g2.
  split; repeat (apply Forall_cons; split; [intros p E; try discriminate E; injection E as <-; first [reflexivity|exact I]|]); apply Forall_nil_2.
Qed.
Lemma f_through a : a ∈ [7; 8]%N → got_through x_point x_pb_parse (λ x, x) x_signer (P:=FP) wplen frun 34 1 1 a (mjoin (facts a)).
Proof.
  intros Ha. rewrite (f_submitted a Ha). rewrite !elem_of_cons, elem_of_nil in Ha. destruct f_joined as [J7 J8]. destruct f_dealt as [F7 F8]. destruct f_ok as [O7 O8]. rewrite Forall_forall in O7, O8.
  destruct Ha as [->|[->|[]]]; [rewrite J7|rewrite J8]; apply through_from; try (eapply find_tx_is; eassumption).
  - intros h tx msg r Htx Hd Hc. apply f_tx_cases in Htx. rewrite Hd, Hc in Htx. exact (O7 _ Htx (msg_payload msg) eq_refl).
  - intros h tx msg r Htx Hd Hc. apply f_tx_cases in Htx. rewrite Hd, Hc in Htx. exact (O8 _ Htx (msg_payload msg) eq_refl).
Qed.
(** ** C66 *)
Notation fpart := (@does_its_part no_hash FP N x_pk x_pk_parse x_pk_parse x_point x_point_parse x_point x_point_parse x_pb_parse (λ x, x) x_signer wplen wpoint fchain).
Lemma f_part a : a ∈ [7; 8]%N → fpart 1 1 0%N (wpar a) 34 (finputs a) (fks a) (facts a) frun.
Proof.
  intros Ha. split; [exact (f_run a Ha)| | | | |reflexivity|exact (f_produced_by 34)|exact (f_through a Ha)].
  - apply f_started. lia.
  - apply (f_decided a 5); [exact Ha| |lia|reflexivity]. rewrite (f_blocks a Ha). right. left.
  - apply (f_decided a 15); [exact Ha| |lia|reflexivity]. rewrite (f_blocks a Ha). do 2 right. left.
  - apply (f_decided a 25); [exact Ha| |lia|reflexivity]. rewrite (f_blocks a Ha). do 3 right. left.
Qed.
Example C66_witness : ∀ a, a ∈ [7; 8]%N → fpart 1 1 0%N (wpar a) 34 (finputs a) (fks a) (facts a) frun ∧ ∃ g, g ∈ k_ekgs (fks a) ∧ g_eon g = 1%N ∧ g_keypers g = [7; 8]%N.
Proof.
  intros a Ha. split; [exact (f_part a Ha)|].
  destruct (@C66_key_generation no_hash FP N x_pk x_pk_parse x_pk_parse x_pk x_point x_point_parse x_point x_point_parse x_pb x_pb_parse (λ x, x) x_signer C25_witness wplen wpoint fchain 1 1 0%N (mkSConfig 1 0 [7; 8]%N 2)
    ((λ a, (wpar a, 34%nat, finputs a, fks a, facts a, frun)) <$> [7; 8]%N)) as [H _]; [exact (proj1 C65_witness)|exact f_settled|exact f_config|exact f_sized|exact f_lengths| | | |].
  - cbn [fmap list_fmap fst wpar kp_me]. apply NoDup_cons. split; [|apply NoDup_singleton]. rewrite elem_of_list_singleton. done.
  - reflexivity.
  - intros p m l s acts tr (x & E & Hx)%elem_of_list_fmap. apply pair_equal_spec in E as [E E6]. apply pair_equal_spec in E as [E E5]. apply pair_equal_spec in E as [E E4]. apply pair_equal_spec in E as [E E3]. apply pair_equal_spec in E as [E1 E2].
    rewrite E1, E2, E3, E4, E5, E6. split; [|exact (f_part x Hx)]. cbn [wpar kp_me sc_keypers]. exact Hx.
  - apply (H (wpar a) 34%nat (finputs a) _ (facts a) frun). apply elem_of_list_fmap. exists a. split; [reflexivity|exact Ha].
Qed.
(** ** C25: an empty commitment is accepted and published, but keypers cannot read it *)
Definition ecalls : list call :=
  [genesis [7; 8] 2]%N ++ fblock [ftx 7 1 (raw 0 [7; 8] 2 1 false false); ftx 8 1 (raw 0 [7; 8] 2 1 false false)]%N ++ fblock [ftx 7 2 (m_commitment FP x_point 1 [])]%N.
Definition ends_empty (tr : trace) : bool := match last (AppSpec.events_of tr) with Some (EvPolyCommitment 7%N 1%N []) => true | _ => false end.
Lemma ends_empty_elem tr : ends_empty tr = true → EvPolyCommitment 7%N 1%N [] ∈ AppSpec.events_of tr.
Proof.
  unfold ends_empty. intros H. destruct (last (AppSpec.events_of tr)) as [e|] eqn:El; [|discriminate H]. destruct e as [| | | | |a n gs| | |]; try discriminate H.
  repeat (match type of H with context [match ?x with _ => _ end] => destruct x; try discriminate H end).
  apply last_Some in El as [l' ->]. apply elem_of_app. right. left.
Qed.
Lemma empty_unread a n h : is_address a → is_u64 n → fread (make_abci no_hash (EvPolyCommitment a n [])) h = None.
Proof.
  intros Ha Hn. match goal with |- ?x = None => destruct x as [ev|] eqn:Er; [exfalso|reflexivity] end.
  apply (@C25_exact no_hash FP N x_pk x_pk_parse x_pk_parse x_pk x_point x_point_parse x_point x_point_parse x_pb x_pb_parse x_signer C25_witness) in Er as [_ Hne]; [|split; [exact Ha|split; [exact Hn|exists []; reflexivity]]].
  apply Hne. by exists a, n.
Qed.
Theorem C25_empty_refuted : ∃ tr s e, AppSpec.history fO tr s ∧ e ∈ AppSpec.events_of tr ∧ ∀ h, fread (make_abci no_hash e) h = None.
Proof.
  assert (H : match run fO (new_app false) ecalls with Some (tr, _) => ends_empty tr | None => false end = true) by (vm_compute; reflexivity).
  destruct (run fO (new_app false) ecalls) as [[tr s]|] eqn:E; [|discriminate H].
  exists tr, s, (EvPolyCommitment 7%N 1%N []). split; [|split].
  - exists false. apply (run_exec fO (new_app false) ecalls tr s); [|exact E]. unfold ecalls, fblock, genesis, ftx. repeat (apply Forall_app; split); repeat (apply Forall_cons; split; [try exact I; try exact id_order|]); try apply Forall_nil_2.
  - exact (ends_empty_elem tr H).
  - intros h. apply empty_unread; reflexivity.
Qed.

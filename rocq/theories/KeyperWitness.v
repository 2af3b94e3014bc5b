(** A concrete run of two keypers from the first start to the key of the first batch: witnesses for the hypotheses of C55 and C58 to C63. *)
From stdpp Require Import list gmap.
From Coq Require Import ZArith NArith Lia Sorted.
From Verif Require Import Fq CryptoModel CryptoSpec PropsCrypto DkgModel DkgSpec DkgProofs PropsDkg EpochModel PropsEpoch ObserveModel ObserveProofs SyncModel SyncProofs ArithModel ContractsModel ContractsProofs PropsConfig MainModel MainProofs PropsMain
  DecideModel EncodingModel KeyperModel KeyperSpec KeyperDkgProofs DkgExact KeyperStepProofs KeyperHistProofs KeyperRunProofs KeyperLogProofs KeyperActionProofs KeyperSystem PropsKeyper PropsKeyperDkg PropsKeyperLive PropsExecution PropsShares.
Local Open Scope Z_scope.

Notation FP := fq_pairing.
Notation wevent := (shutter_event (body FP) sconfig N (N * list N)).
Notation wobs := (sync_obs (body FP) sconfig N (N * list N)).
(** events are read as they are; DKG events get the height of their block *)
Definition wmake (r : wevent) (h : Z) : option wevent := match r with EonEvent k e => Some (EonEvent k (mkEv h (ev_eon e) (ev_body e))) | _ => Some r end.
Definition wc0 : sconfig := mkSConfig 0 0 [7; 8]%N 2.
Definition wc1 : sconfig := mkSConfig 1 0 [7; 8]%N 2.
Definition dev (k : kind) (b : body FP) : wevent := EonEvent k (mkEv 0 1 b).
(** block 0: the initial config; 1: the config of the main chain; 2: check-ins; 3: eon 1 starts; 5: dealing; 37: shares of the key of batch 0 *)
Definition wblocks : nat → list (list wevent) := λ n, match n with
  | 0 => [[BatchConfig wc0]] | 1 => [[BatchConfig wc1]] | 2 => [[CheckIn 7 70]; [CheckIn 8 80]]%N | 3 => [[EonStarted 3%Z 1%N 0%N]]
  | 5 => [[dev Commitment (BCommitment 7%N (gammas FP [5; 7]%Z))]; [dev Commitment (BCommitment 8%N (gammas FP [11; 13]%Z))]; [dev PolyEval (BPolyEval 7%N [8]%N [[19]%N])]; [dev PolyEval (BPolyEval 8%N [7]%N [[24]%N])]]
  | 37 => [[dev KeyShare (BKeyShare 7%N 0%N (toF 72%Z : G1 FP))]; [dev KeyShare (BKeyShare 8%N 0%N (toF 112%Z : G1 FP))]]
  | _ => [] end%nat.
Definition wplen : phase_length := constant_phase_length 10.
Definition wpoint (ep : N) : G1 FP := toF (Z.of_N ep + 2).
(** the main chain *)
Definition kcfg := mkConfig 0 10 [7; 8]%N 2 10 1000 100 1000 0 1 1 100.
Definition kchain : MainModel.chain := λ n, match n with 1 => [(1, 9%N, SetNext kcfg); (1, 9%N, ContractsModel.Schedule)] | 11 => [(1, 4%N, AddTx 0 Cipher [1; 2]%N 0)] | _ => [] end%nat.
Definition mview (ch : MainModel.chain) (n : Z) : view := wsync (new_view 2) [(ch, n + 2, true)].
Notation kview := (mview kchain).
(** the keypers 7 and 8; encryption and signatures are the identity *)
Definition wpar (a : N) : keyper_params FP := mkParams a Some (λ _ l, l) (λ x, x) (λ _ _ r _, Some (Z.to_N r)) (λ _, [1]%N) 1 (λ x, x) 5 (λ _ l, l).
Definition wpoly (a : N) : list Z := if (a =? 7)%N then [5; 7] else [11; 13].
(** both nodes are asked at the same heights *)
Definition wsteps_at (hs : list Z) : list sync_event :=
  [GSync 10 10 0 true; MShutter true 0; MMain true 0] ++ (hs ≫= λ h, [GSync 10 10 h true; MShutter true 0]).
Fixpoint replay (blocks : nat → list (list wevent)) (y : SyncModel.system (body FP) sconfig N (N * list N)) (es : list sync_event) : option (SyncModel.system (body FP) sconfig N (N * list N) * list wobs) :=
  match es with
  | [] => Some (y, [])
  | e :: es => '(y1, o1) ← sync_step wmake blocks y e; '(y2, o2) ← replay blocks y1 es; Some (y2, o1 ++ o2)
  end.
Lemma replay_history blocks y es0 o0 es y' o : SyncModel.history wmake blocks y es0 o0 → replay blocks y es = Some (y', o) → SyncModel.history wmake blocks y' (es0 ++ es) (o0 ++ o).
Proof.
  revert y es0 o0 o. induction es as [|e es IH]; intros y es0 o0 o Hh; cbn [replay]; [intros [= <- <-]; by rewrite !app_nil_r|].
  intros ([y1 o1] & E1 & E)%bind_Some. apply bind_Some in E as ([y2 o2] & E2 & E). injection E as <- <-.
  specialize (IH y1 (es0 ++ [e]) (o0 ++ o1) o2). rewrite <-!(assoc_L (++)) in IH. apply IH; [|done]. by econstructor.
Qed.
Definition whs : list (Z * Z) := [(0, 5); (1, 5); (4, 6); (6, 7); (14, 8); (24, 9); (33, 15); (35, 25); (38, 26)].
Definition obs_at (blocks : nat → list (list wevent)) (hs : list (Z * Z)) : list wobs := match replay blocks (boot None) (wsteps_at hs.*1) with Some (_, o) => o | None => [] end.
Notation wobs_at := (obs_at wblocks).
Definition input_of (mch : MainModel.chain) (a : N) (o : wobs) (n : Z) : kinput FP N :=
  match o with ODecide h w => mkKInput h w (mview mch n) (λ _ j, nth j (wpoly a) 0) (λ _ x, x) end.
Notation winput := (input_of kchain).
Definition winputs (a : N) (hs : list (Z * Z)) : list (kinput FP N) := zip_with (winput a) (wobs_at hs) hs.*2.
Notation wrun := (decisions_of (K:=N) wplen wpoint).
Definition wend (a : N) : kstate FP * list (list (kaction FP)) := default (new_kstate, []) (wrun (wpar a) new_kstate (winputs a whs)).
Definition wks (a : N) : kstate FP := (wend a).1. Definition wacts (a : N) : list (list (kaction FP)) := (wend a).2.

(** ** The chain *)
Notation wpub := (published wmake wblocks).
Lemma w_heights : heights_ok wmake.
Proof. intros r h k e H. destruct r; [done..|]. cbn in H. by injection H as <- <-. Qed.
Lemma w_late m : (38 ≤ m)%nat → wpub m = wpub 38%nat.
Proof.
  intros H. replace m with (38 + (m - 38))%nat by lia. generalize (m - 38)%nat as x. clear. induction x as [|x IH]; [by rewrite Nat.add_0_r|].
  rewrite Nat.add_succ_r. cbn [published]. rewrite IH. assert (wblocks (38 + x) = []) as -> by done. cbn [concat omap list_omap]. apply app_nil_r.
Qed.
Lemma w_prefix m : ∃ l, wpub 38%nat = wpub m ++ l.
Proof.
  destruct (decide (38 ≤ m)%nat) as [H|H]; [exists []; rewrite (w_late m H); by rewrite app_nil_r|]. apply (published_app wmake wblocks w_heights). lia.
Qed.
Lemma w_elem m ev : ev ∈ wpub m → ev ∈ wpub 38%nat.
Proof. intros H. destruct (w_prefix m) as [l ->]. apply elem_of_app. by left. Qed.
(** all events, in order *)
Lemma w_events : wpub 38%nat = [BatchConfig wc0; BatchConfig wc1; CheckIn 7%N 70%N; CheckIn 8%N 80%N; EonStarted 3 1%N 0%N;
  EonEvent Commitment (mkEv 5 1%N (BCommitment 7%N (gammas FP [5; 7]))); EonEvent Commitment (mkEv 5 1%N (BCommitment 8%N (gammas FP [11; 13])));
  EonEvent PolyEval (mkEv 5 1%N (BPolyEval 7%N [8]%N [[19]%N])); EonEvent PolyEval (mkEv 5 1%N (BPolyEval 8%N [7]%N [[24]%N]));
  EonEvent KeyShare (mkEv 37 1%N (BKeyShare 7%N 0%N (toF 72 : G1 FP))); EonEvent KeyShare (mkEv 37 1%N (BKeyShare 8%N 0%N (toF 112 : G1 FP)))].
Proof. reflexivity. Qed.
Lemma well_formed_prefix (l1 l2 : list wevent) : SyncModel.well_formed (l1 ++ l2) → SyncModel.well_formed l1.
Proof. intros H before ev after ->. apply (H before ev (after ++ l2)). by rewrite <-(assoc_L (++)). Qed.
Lemma well_formed_snoc (l : list wevent) ev : SyncModel.well_formed l → match ev with EonStarted _ n _ => ∀ h m b, EonStarted h m b ∈ l → (m < n)%N | EonEvent _ e => ∃ h b, EonStarted h (ev_eon e) b ∈ l | _ => True end → SyncModel.well_formed (l ++ [ev]).
Proof.
  intros H Hev before x after E. destruct after as [|y after] using rev_ind.
  - apply app_inj_tail in E as [-> ->]. destruct x; done.
  - rewrite app_comm_cons, (assoc_L (++)) in E. apply app_inj_tail in E as [-> _]. by apply (H before x after).
Qed.
Lemma w_wf m : SyncModel.well_formed (wpub m).
Proof.
  destruct (w_prefix m) as [l E]. apply (well_formed_prefix _ l). rewrite <-E, w_events. clear E l m.
  assert (H0 : SyncModel.well_formed ([] : list wevent)) by (by intros [|? ?] ? ?).
  assert (H1 := well_formed_snoc _ (BatchConfig wc0) H0 I). assert (H2 := well_formed_snoc _ (BatchConfig wc1) H1 I). assert (H3 := well_formed_snoc _ (CheckIn 7%N 70%N) H2 I). assert (H4 := well_formed_snoc _ (CheckIn 8%N 80%N) H3 I).
  assert (H5 : SyncModel.well_formed (((([] ++ [BatchConfig wc0]) ++ [BatchConfig wc1]) ++ [CheckIn 7%N 70%N]) ++ [CheckIn 8%N 80%N] ++ [EonStarted 3 1%N 0%N : wevent])).
  { rewrite (assoc_L (++)). apply well_formed_snoc; [done|]. intros h m b. cbn [app]. rewrite !elem_of_cons, elem_of_nil. naive_solver. }
  cbn [app] in H5. clear H0 H1 H2 H3 H4.
  match type of H5 with SyncModel.well_formed ?l => set (pre := l) in * end. assert (Hin : EonStarted 3 1%N 0%N ∈ pre) by (unfold pre; rewrite !elem_of_cons; naive_solver).
  match goal with |- SyncModel.well_formed ?l => change l with (pre ++ drop 5 l) end. cbn [drop].
  assert (∀ q l, SyncModel.well_formed (q ++ []) → EonStarted 3 1%N 0%N ∈ q → Forall (λ ev : wevent, match ev with EonEvent _ e => ev_eon e = 1%N | _ => False end) l → SyncModel.well_formed (q ++ l)) as G.
  { intros q l. revert q. induction l as [|ev l IH]; intros q Hq Hi Hl; [done|]. inversion_clear Hl as [|? ? Hev Hl']. change (q ++ ev :: l) with (q ++ [ev] ++ l). rewrite (assoc_L (++)). apply IH; [|apply elem_of_app; by left|done].
    rewrite app_nil_r in Hq |- *. apply well_formed_snoc; [done|]. destruct ev; try done. exists 3, 0%N. by rewrite Hev. }
  apply G; [by rewrite app_nil_r|done|]. repeat constructor.
Qed.
Lemma w_settled n : KeyperSystem.settled wmake wblocks n.
Proof.
  intros m pre st b post c E Hc. exfalso. destruct (w_prefix m) as [l El]. rewrite E, w_events in El. clear E m.
  do 5 (destruct pre as [|? pre]; [discriminate El || (injection El as _ _ _ El; subst; assert (BatchConfig c ∈ post ++ l) as Hin by (apply elem_of_app; by left); rewrite <-El in Hin; rewrite !elem_of_cons, elem_of_nil in Hin; naive_solver)|injection El as _ El]).
  assert (EonStarted st n b ∈ pre ++ EonStarted st n b :: post ++ l) as Hin by (apply elem_of_app; right; by left). change (?x ++ ?y :: ?z ++ ?w) with (x ++ (y :: z) ++ w) in Hin. rewrite (assoc_L (++)), <-El in Hin. rewrite !elem_of_cons, elem_of_nil in Hin. naive_solver.
Qed.
Lemma w_sized : KeyperSystem.sized wmake wblocks.
Proof.
  intros m e sender gs H E. apply w_elem in H. rewrite w_events in H. rewrite !elem_of_cons, elem_of_nil in H.
  destruct H as [H|[H|[H|[H|[H|[H|[H|[H|[H|[H|[H|[]]]]]]]]]]]]; try discriminate H; injection H as ->; cbn [ev_body] in E; injection E as _ <-; vm_compute; done.
Qed.
Lemma w_sized_configs : PropsKeyperDkg.sized_configs wmake wblocks.
Proof.
  intros m c H. apply w_elem in H. rewrite w_events in H. rewrite !elem_of_cons, elem_of_nil in H.
  destruct H as [H|[H|[H|[H|[H|[H|[H|[H|[H|[H|[H|[]]]]]]]]]]]]; try discriminate H; injection H as ->; done.
Qed.

(** ** The runs *)
Lemma w_decisions a : a ∈ [7; 8]%N → wrun (wpar a) new_kstate (winputs a whs) = Some (wks a, wacts a).
Proof.
  intros Ha. assert (Hs : match wrun (wpar a) new_kstate (winputs a whs) with Some _ => true | None => false end = true).
  { rewrite !elem_of_cons, elem_of_nil in Ha. destruct Ha as [->|[->|[]]]; vm_compute; reflexivity. }
  unfold wks, wacts, wend. destruct (wrun _ _ _) as [[? ?]|]; done.
Qed.
Lemma w_history : ∃ y, SyncModel.history wmake wblocks y (wsteps_at whs.*1) (wobs_at whs) ∧ sync_height y = 39.
Proof.
  assert (match replay wblocks (boot None) (wsteps_at whs.*1) with Some (y, _) => sync_height y =? 39 | None => false end = true) as H by (vm_compute; reflexivity).
  unfold obs_at. destruct (replay _ _ _) as [[y o]|] eqn:E; [|done]. exists y. split; [|by apply Z.eqb_eq]. exact (replay_history wblocks (boot None) [] [] _ y o (history_start _ _) E).
Qed.
Definition both_ready (o : wobs) (n : Z) : bool := match o with ODecide h w => v_synced (kview n) && shutter_is_keyper w 7 && shutter_is_keyper w 8 end.
Lemma inputs_match a (os : list wobs) (ns : list Z) : a ∈ [7; 8]%N → (length os =? length ns)%nat = true → forallb (λ x, both_ready x.1 x.2) (zip os ns) = true →
  Forall2 (matches (kp_me (wpar a))) (zip_with (winput a) os ns) os.
Proof.
  intros Ha. revert ns. induction os as [|[h w] os IH]; intros [|n ns] Hl Hall; cbn [zip_with]; [constructor|done|done|]. cbn [zip zip_with forallb fst snd] in Hall. apply andb_true_iff in Hall as [H1 H2].
  constructor; [|by apply IH]. clear IH H2 Hl. unfold both_ready in H1. apply andb_true_iff in H1 as [[H1 H2]%andb_true_iff H3]. split; [done|]. split; [done|].
  rewrite !elem_of_cons, elem_of_nil in Ha. destruct Ha as [->|[->|[]]]; done.
Qed.
Lemma w_matches a : a ∈ [7; 8]%N → Forall2 (matches (kp_me (wpar a))) (winputs a whs) (wobs_at whs).
Proof. intros Ha. apply (inputs_match a _ _ Ha); vm_compute; reflexivity. Qed.
Lemma w_no_crash : Forall no_skip (wsteps_at whs.*1) ∧ Crash ∉ wsteps_at whs.*1.
Proof. split; [repeat constructor|]. vm_compute. intros H. repeat (apply elem_of_cons in H as [H|H]; [discriminate H|]). by apply elem_of_nil in H. Qed.
Lemma w_keyper_run a : a ∈ [7; 8]%N → keyper_run wmake wblocks wplen wpoint (wpar a) 39 (winputs a whs) (wks a) (wacts a).
Proof.
  intros Ha. split; [|by apply w_decisions]. destruct w_history as (y & H1 & H2). exists y, (wsteps_at whs.*1), (wobs_at whs). split; [done|]. split; [|split; [done|by apply w_matches]].
  intros es1 es2 E. exfalso. apply (proj2 w_no_crash). rewrite E. apply elem_of_app. right. by left.
Qed.
Lemma w_keyper_run_no_skip a : a ∈ [7; 8]%N → keyper_run_no_skip wmake wblocks wplen wpoint (wpar a) 39 (winputs a whs) (wks a) (wacts a).
Proof.
  intros Ha. split; [|by apply w_decisions]. destruct w_history as (y & H1 & H2). exists y, (wsteps_at whs.*1), (wobs_at whs). split; [done|]. split; [apply w_no_crash|]. split; [done|by apply w_matches].
Qed.
(** what they have submitted: check-in, the vote for the config of the main chain, commitment and evaluation, the eon key, the share of batch 0's key;
    then a signature for the decrypted batch *)
Lemma w_submitted7 : take 8 (wacts 7) = [[KCheckIn; KBatchConfig 1 kcfg]; []; [KCommitment 1 (gammas FP [5; 7]); KPolyEval 1 [8]%N [[19]%N]]; []; []; []; [KEonKey 0 0 (toF 16 : G2 FP)]; [KKeyShare 1 0 (toF 72 : G1 FP)]].
Proof. vm_cast_no_check (eq_refl (take 8 (wacts 7))). Qed.
Lemma w_submitted8 : take 8 (wacts 8) = [[KCheckIn; KBatchConfig 1 kcfg]; []; [KCommitment 1 (gammas FP [11; 13]); KPolyEval 1 [7]%N [[24]%N]]; []; []; []; [KEonKey 1 0 (toF 16 : G2 FP)]; [KKeyShare 1 0 (toF 112 : G1 FP)]].
Proof. vm_cast_no_check (eq_refl (take 8 (wacts 8))). Qed.
Definition is_signature (l : list (list (kaction FP))) : bool := match l with [[KAction (ASignature 0 _)]] => true | _ => false end.
Lemma w_last : is_signature (drop 8 (wacts 7)) = true ∧ is_signature (drop 8 (wacts 8)) = true.
Proof. split; [vm_cast_no_check (eq_refl true)|vm_cast_no_check (eq_refl true)]. Qed.
(** what they hold *)
Lemma w_ekgs a : a ∈ [7; 8]%N → ∃ g, k_ekgs (wks a) = [g] ∧ g_eon g = 1%N ∧ g_keypers g = [7; 8]%N ∧ ek_pk (g_epochkg g) = (toF 16 : G2 FP) ∧ ek_pkshares (g_epochkg g) = [toF 36; toF 56 : G2 FP] ∧
  ek_threshold (g_epochkg g) = 2%N ∧ ek_keys (g_epochkg g) !! 0%N = Some (Some (toF 32 : G1 FP)).
Proof.
  intros Ha. assert (H : (λ g, (g_eon g, g_keypers g, ek_pk (g_epochkg g), ek_pkshares (g_epochkg g), ek_threshold (g_epochkg g), (λ o : option (G1 FP), (λ x : G1 FP, ofF x) <$> o) <$> (ek_keys (g_epochkg g) !! 0%N))) <$> k_ekgs (wks a) =
    [(1%N, [7; 8]%N, toF 16 : G2 FP, [toF 36; toF 56 : G2 FP], 2%N, Some (Some 32))]).
  { rewrite !elem_of_cons, elem_of_nil in Ha. destruct Ha as [->|[->|[]]]; vm_cast_no_check (eq_refl [(1%N, [7; 8]%N, toF 16 : G2 FP, [toF 36; toF 56 : G2 FP], 2%N, Some (Some 32))]). }
  destruct (k_ekgs (wks a)) as [|g [|]]; [done| |done]. cbn [fmap list_fmap] in H. exists g. split; [done|]. apply (f_equal head) in H. cbn [head] in H. apply (inj Some) in H.
  apply pair_equal_spec in H as [H H6]. apply pair_equal_spec in H as [H H5]. apply pair_equal_spec in H as [H H4]. apply pair_equal_spec in H as [H H3]. apply pair_equal_spec in H as [H1 H2].
  split; [done|]. split; [done|]. split; [done|]. split; [done|]. split; [done|]. apply fmap_Some in H6 as (o & -> & Eo). symmetry in Eo. apply fmap_Some in Eo as (x & -> & Ex). f_equal. f_equal.
  apply Fq_eq. rewrite ofF_toF. symmetry. rewrite <-Ex. reflexivity.
Qed.
Lemma in78 : 7%N ∈ [7; 8]%N ∧ 8%N ∈ [7; 8]%N.
Proof. split; [left|right; left]. Qed.

Lemma w_blocks a : a ∈ [7; 8]%N → (λ i, next_block i) <$> winputs a whs = [1; 2; 5; 7; 15; 25; 34; 36; 39]%nat.
Proof. intros Ha. rewrite !elem_of_cons, elem_of_nil in Ha. destruct Ha as [->|[->|[]]]; vm_compute; reflexivity. Qed.
Local Opaque wks wacts winputs obs_at wend.
Lemma w_started m : (4 ≤ m)%nat → KeyperSystem.started wmake wblocks m 1 3 0.
Proof.
  intros Hm. unfold KeyperSystem.started. destruct (published_app wmake wblocks w_heights 4 m Hm) as (evs & ->). apply elem_of_app. left.
  change (EonStarted 3 1%N 0%N ∈ ([BatchConfig wc0; BatchConfig wc1; CheckIn 7%N 70%N; CheckIn 8%N 80%N; EonStarted 3 1%N 0%N] : list wevent)). do 4 right. left.
Qed.
(** ** C58, C60: the keypers hold the same key of eon 1, and the key of batch 0 *)
Example C58_witness : ∃ g7 g8, keyper_run wmake wblocks wplen wpoint (wpar 7) 39 (winputs 7 whs) (wks 7) (wacts 7) ∧ keyper_run wmake wblocks wplen wpoint (wpar 8) 39 (winputs 8 whs) (wks 8) (wacts 8) ∧
  g7 ∈ k_ekgs (wks 7) ∧ g8 ∈ k_ekgs (wks 8) ∧ g_eon g7 = 1%N ∧ g_eon g8 = 1%N ∧ KeyperSystem.settled wmake wblocks 1 ∧ (∀ m, SyncModel.well_formed (wpub m)) ∧ heights_ok wmake ∧
  (∃ st b c idx r, holds wmake wblocks wplen (wpar 7) 39 g7 st b c idx r) ∧ ek_pk (g_epochkg g7) = (toF 16 : G2 FP) ∧ ek_pk (g_epochkg g7) = ek_pk (g_epochkg g8).
Proof.
  destruct in78 as [I7 I8]. destruct (w_ekgs 7 I7) as (g7 & E7 & N7 & K7 & P7 & S7 & T7 & Y7). destruct (w_ekgs 8 I8) as (g8 & E8 & N8 & K8 & P8 & S8 & T8 & Y8). exists g7, g8.
  assert (H7 : g7 ∈ k_ekgs (wks 7)) by (rewrite E7; by left). assert (H8 : g8 ∈ k_ekgs (wks 8)) by (rewrite E8; by left).
  pose proof (w_keyper_run 7 I7) as R7. pose proof (w_keyper_run 8 I8) as R8.
  split; [exact R7|]. split; [exact R8|]. split; [exact H7|]. split; [exact H8|]. split; [exact N7|]. split; [exact N8|]. split; [exact (w_settled 1)|]. split; [exact w_wf|]. split; [exact w_heights|].
  split; [exact (C58_generated wmake wblocks wplen wpoint w_wf w_heights _ _ _ _ _ _ R7 H7)|]. split; [exact P7|].
  apply (C58_agreement_partial wmake wblocks wplen wpoint w_wf w_heights _ _ _ _ _ _ _ _ _ _ _ _ R7 R8 H7 H8); [congruence|apply w_settled].
Qed.
Example C60_witness : ∃ g, g ∈ k_ekgs (wks 7) ∧ KeyperSystem.sized wmake wblocks ∧ (Z.of_nat (length (g_keypers g)) < 2 ^ 63) ∧ (0 < ek_threshold (g_epochkg g) < 2 ^ 63)%N ∧
  keyper_run_no_skip wmake wblocks wplen wpoint (wpar 7) 39 (winputs 7 whs) (wks 7) (wacts 7) ∧ KeyperSystem.started wmake wblocks 39 (g_eon g) 3 0 ∧
  (2 ≤ size (valid_senders wpoint (ek_pkshares (g_epochkg g)) 0 (final_shares_on_chain wmake wblocks wplen 39 (g_eon g) 3 (g_keypers g))))%nat ∧
  ek_keys (g_epochkg g) !! 0%N = Some (Some (toF 32 : G1 FP)) ∧ pair ggen (toF 32 : G1 FP) = pair (ek_pk (g_epochkg g)) (wpoint 0).
Proof.
  destruct in78 as [I7 I8]. destruct (w_ekgs 7 I7) as (g7 & E7 & N7 & K7 & P7 & S7 & T7 & Y7). exists g7. assert (H7 : g7 ∈ k_ekgs (wks 7)) by (rewrite E7; by left).
  pose proof (w_keyper_run_no_skip 7 I7) as R7. split; [exact H7|]. split; [exact w_sized|]. split; [rewrite K7; reflexivity|]. split; [rewrite T7; split; reflexivity|]. split; [exact R7|].
  assert (Hst : KeyperSystem.started wmake wblocks 39 (g_eon g7) 3 0). { rewrite N7. apply w_started. lia. }
  split; [exact Hst|].
  assert (Hsz : (2 ≤ size (valid_senders wpoint (ek_pkshares (g_epochkg g7)) 0 (final_shares_on_chain wmake wblocks wplen 39 (g_eon g7) 3 (g_keypers g7))))%nat).
  { rewrite S7, N7, K7. apply Nat.leb_le. vm_cast_no_check (eq_refl true). }
  split; [exact Hsz|]. split; [exact Y7|].
  destruct (C60_complete wmake wblocks wplen wpoint w_wf w_heights _ _ _ _ _ _ _ _ 0%N R7 H7 w_sized ltac:(rewrite K7; reflexivity) ltac:(rewrite T7; split; reflexivity) Hst) as (k & Hk & Hp); [rewrite T7; exact Hsz|]. rewrite Y7 in Hk. injection Hk as <-. exact Hp.
Qed.

(** ** C63: both did their part *)
Lemma w_decided a n ph : a ∈ [7; 8]%N → n ∈ (λ i, next_block i) <$> winputs a whs → (4 ≤ n ≤ 39)%nat → phase_at wplen (Z.of_nat n) 3 = ph → KeyperSystem.decided_in wmake wblocks wplen (winputs a whs) 1 ph.
Proof.
  intros Ha (i & -> & Hi)%elem_of_list_fmap Hn Hp. exists i, 3, 0%N. split; [exact Hi|]. split; [|exact Hp]. apply w_started. lia.
Qed.
Lemma w_join a : wacts a = take 8 (wacts a) ++ drop 8 (wacts a).
Proof. symmetry. apply take_drop. Qed.
Lemma w_signature l : is_signature l = true → ∃ t, l = [[KAction (ASignature 0 t)]].
Proof. unfold is_signature. intros H. repeat (match type of H with context [match ?x with _ => _ end] => destruct x; try discriminate H end). by eexists. Qed.
Definition we7 : eon_event (body FP) := mkEv 5 1%N (BCommitment 7%N (gammas FP [5; 7])).
Definition we8 : eon_event (body FP) := mkEv 5 1%N (BCommitment 8%N (gammas FP [11; 13])).
Lemma w_kinds : of_kind Commitment 1 (wpub 39%nat) = [we7; we8] ∧ in_phase wplen 3 dealing (of_kind Commitment 1 (wpub 39%nat)) = [we7; we8] ∧ of_kind Apology 1 (wpub 39%nat) = [].
Proof. rewrite (w_late 39) by lia. rewrite w_events. repeat split; reflexivity. Qed.
Lemma w_sent7 t : commitments_sent 1 (mjoin (take 8 (wacts 7) ++ [[KAction (ASignature 0 t)]])) = [gammas FP [5; 7]] ∧ accusations_sent 1 (mjoin (take 8 (wacts 7) ++ [[KAction (ASignature 0 t)]])) = [] ∧
  apologies_sent 1 (mjoin (take 8 (wacts 7) ++ [[KAction (ASignature 0 t)]])) = [].
Proof. rewrite w_submitted7. repeat split; reflexivity. Qed.
Lemma w_sent8 t : commitments_sent 1 (mjoin (take 8 (wacts 8) ++ [[KAction (ASignature 0 t)]])) = [gammas FP [11; 13]] ∧ accusations_sent 1 (mjoin (take 8 (wacts 8) ++ [[KAction (ASignature 0 t)]])) = [] ∧
  apologies_sent 1 (mjoin (take 8 (wacts 8) ++ [[KAction (ASignature 0 t)]])) = [].
Proof. rewrite w_submitted8. repeat split; reflexivity. Qed.
Lemma w_part a : a ∈ [7; 8]%N → did_its_part wmake wblocks wplen wpoint 1 3 0 (wpar a) 39 (winputs a whs) (wks a) (wacts a).
Proof.
  intros Ha. split; [exact (w_keyper_run a Ha)| | | | |reflexivity|].
  - apply w_started. lia.
  - apply (w_decided a 5); [exact Ha| |lia|reflexivity]. rewrite (w_blocks a Ha). do 2 right. left.
  - apply (w_decided a 15); [exact Ha| |lia|reflexivity]. rewrite (w_blocks a Ha). do 4 right. left.
  - apply (w_decided a 25); [exact Ha| |lia|reflexivity]. rewrite (w_blocks a Ha). do 5 right. left.
  - rewrite !elem_of_cons, elem_of_nil in Ha. cbn [wpar kp_me]. assert (wpub 39 = wpub 38) as Ep by (apply w_late; lia).
    destruct (w_signature _ (proj1 w_last)) as [t7 E7]. destruct (w_signature _ (proj2 w_last)) as [t8 E8].
    destruct w_kinds as (K1 & K2 & K3).
    destruct Ha as [->|[->|[]]]; [rewrite (w_join 7), E7; destruct (w_sent7 t7) as (S1 & S2 & S3)|rewrite (w_join 8), E8; destruct (w_sent8 t8) as (S1 & S2 & S3)];
      split; rewrite ?S1, ?S2, ?S3, ?K1, ?K2, ?K3; clear E7 E8 S1 S2 S3 K1 K2 K3.
    + intros gs ->%elem_of_list_singleton. exists we7. split; [left|reflexivity].
    + intros l Hl. by apply elem_of_nil in Hl.
    + intros l vs Hl. by apply elem_of_nil in Hl.
    + intros e gs [->|[->|Hl%elem_of_nil]%elem_of_cons]%elem_of_cons E; [|discriminate E|done]. cbn [ev_body we7] in E. injection E as <-. left.
    + intros e l vs Hl. by apply elem_of_nil in Hl.
    + intros gs ->%elem_of_list_singleton. exists we8. split; [right; left|reflexivity].
    + intros l Hl. by apply elem_of_nil in Hl.
    + intros l vs Hl. by apply elem_of_nil in Hl.
    + intros e gs [->|[->|Hl%elem_of_nil]%elem_of_cons]%elem_of_cons E; [discriminate E| |done]. cbn [ev_body we8] in E. injection E as <-. left.
    + intros e l vs Hl. by apply elem_of_nil in Hl.
Qed.
Lemma w_config m : KeyperSystem.started wmake wblocks m 1 3 0 → KeyperSystem.config_at wmake wblocks m 0 wc1.
Proof.
  intros H. assert (Hm : (4 ≤ m)%nat). { destruct (decide (4 ≤ m)%nat) as [|Hn]; [done|exfalso]. unfold KeyperSystem.started in H. destruct (published_app wmake wblocks w_heights m 3 ltac:(lia)) as (evs & E).
    assert (EonStarted 3 1%N 0%N ∈ published wmake wblocks 3) as H3 by (rewrite E; apply elem_of_app; by left). clear E. change (published wmake wblocks 3) with ([BatchConfig wc0; BatchConfig wc1; CheckIn 7%N 70%N; CheckIn 8%N 80%N] : list wevent) in H3.
    repeat (apply elem_of_cons in H3 as [H3|H3]; [discriminate H3|]). by apply elem_of_nil in H3. }
  destruct (published_app wmake wblocks w_heights 2 m ltac:(lia)) as (evs & E). exists [BatchConfig wc0], evs. split; [exact E|]. split; [done|]. intros c' Hc'. exfalso.
  destruct (w_prefix m) as [l El]. rewrite E in El. rewrite w_events in El. change (published wmake wblocks 2) with ([BatchConfig wc0; BatchConfig wc1] : list wevent) in El. cbn [app] in El. injection El as El.
  assert (BatchConfig c' ∈ evs ++ l) as H3 by (apply elem_of_app; by left). rewrite <-El in H3. repeat (apply elem_of_cons in H3 as [H3|H3]; [discriminate H3|]). by apply elem_of_nil in H3.
Qed.
Example C63_witness : ∀ a, a ∈ [7; 8]%N → did_its_part wmake wblocks wplen wpoint 1 3 0 (wpar a) 39 (winputs a whs) (wks a) (wacts a) ∧ ∃ g, g ∈ k_ekgs (wks a) ∧ g_eon g = 1%N ∧ g_keypers g = sc_keypers wc1.
Proof.
  intros a Ha. split; [exact (w_part a Ha)|]. destruct in78 as [I7 I8].
  destruct (C63_key_generation wmake wblocks wplen wpoint w_wf w_heights 1 3 0 wc1 ((λ a, (wpar a, 39%nat, winputs a whs, wks a, wacts a)) <$> [7; 8]%N)) as [H _]; [done|exact (w_settled 1)|exact w_config|exact w_sized_configs| | | | |].
  - cbn. apply NoDup_cons. split; [|apply NoDup_singleton]. rewrite elem_of_list_singleton. done.
  - cbn. apply NoDup_cons. split; [|apply NoDup_singleton]. rewrite elem_of_list_singleton. done.
  - reflexivity.
  - intros p m l s acts (x & E & Hx)%elem_of_list_fmap. apply pair_equal_spec in E as [E E5]. apply pair_equal_spec in E as [E E4]. apply pair_equal_spec in E as [E E3]. apply pair_equal_spec in E as [E1 E2].
    rewrite E1, E2, E3, E4, E5. split; [|exact (w_part x Hx)]. cbn [wpar kp_me wc1 sc_keypers]. exact Hx.
  - apply (H (wpar a) 39%nat (winputs a whs) _ (wacts a)). apply elem_of_list_fmap. exists a. split; [reflexivity|exact Ha].
Qed.
(** ** C59 *)
Example C59_witness : ∃ poly, participates wmake wblocks wplen (wpar 7) 39 (winputs 7 whs) (mjoin (wacts 7)) 1 3 wc1 0 poly ∧ commitments_sent 1 (mjoin (wacts 7)) = [gammas FP [5; 7]].
Proof.
  destruct in78 as [I7 _]. destruct (C59_participation wmake wblocks wplen wpoint w_wf w_heights (wpar 7) 39 (winputs 7 whs) (wks 7) (wacts 7) 1 3 0 (w_keyper_run 7 I7)) as (x & X1 & X2 & X3); [done|apply w_started; lia|exact w_sized|exact w_sized_configs|].
  pose proof (w_config x X2) as Hc. destruct X3 as [[X3 _]|(c & idx & poly & C1 & C2 & C3)]; [exfalso; apply (X3 wc1 Hc); left|].
  assert (c = wc1) as ->.
  { destruct C1 as (pre & post & E & Hle & Hlater). destruct Hc as (pre' & post' & E' & Hle' & Hlater'). rewrite E in E'. clear -E' Hlater Hlater' Hle Hle'. revert pre' E'. induction pre as [|z pre IH]; intros [|z' pre'] E'; cbn [app] in E'.
    - by injection E' as ->.
    - injection E' as _ E'. assert (BatchConfig wc1 ∈ post) as Hin by (rewrite E'; apply elem_of_app; right; by left). specialize (Hlater wc1 Hin). cbn in Hlater, Hle'. lia.
    - injection E' as _ E'. assert (BatchConfig c ∈ post') as Hin by (rewrite <-E'; apply elem_of_app; right; by left). specialize (Hlater' c Hin). lia.
    - injection E' as _ E'. by apply (IH pre'). }
  cbn [wc1 sc_keypers wpar kp_me] in C2. injection C2 as <-. exists poly. split; [exact C3|].
  destruct (w_signature _ (proj1 w_last)) as [t7 E7]. rewrite (w_join 7), E7. exact (proj1 (w_sent7 t7)).
Qed.

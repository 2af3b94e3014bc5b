(** C62: concrete runs. *)
From stdpp Require Import list gmap strings.
From Coq Require Import ZArith NArith Lia.
From Verif Require Import Fq CryptoModel CryptoSpec PropsCrypto DkgModel DkgSpec EpochModel ObserveModel ObserveProofs SyncModel SyncProofs ArithModel ContractsModel MainModel MainProofs PropsMain
  DecideModel EncModel EncodingModel KeyperModel KeyperSpec KeyperRunProofs KeyperActionProofs KeyperSystem PropsKeyper PropsKeyperDkg PropsKeyperLive KeyperWitness
  AppModel AppSpec AppSteps AppWitness EventsModel EventsSpec EventsProofs PropsEvents PropsChain PropsFull EventsWitness FullWitness SafeProofs SafeDecide PropsSafe PropsSafeView.
Local Open Scope Z_scope.

(** a run with threshold 1: the key generation, then keyper 8's key share of batch 0, and its decryption signature *)
Definition gsig : bytes := ([25; 100; 101; 99; 116; 120; 1; 0; 0; 0; 0; 0; 0; 0; 0; 1; 2] ++ replicate 32 0 ++ [1; 2] ++ replicate 32 0)%N.
Definition gcalls : list call :=
  [genesis [7; 8] 1]%N ++
  fblock [ftx 7 1 (raw 0 [7; 8] 1 1 false false)]%N ++
  fblock [ftx 7 2 (m_check_in N (key32 7) x_pk 70); ftx 8 2 (m_check_in N (key32 8) x_pk 80)]%N ++
  fblock [] ++ fblock [] ++
  fblock [ftx 7 3 (m_commitment FP x_point 1 (gammas FP [5]%Z)); ftx 8 3 (m_commitment FP x_point 1 (gammas FP [11]%Z)); ftx 7 4 (m_poly_eval 1 [8] [[5]]); ftx 8 4 (m_poly_eval 1 [7] [[11]])]%N ++
  concat (replicate 29 (fblock [])) ++
  fblock [ftx 8 5 (m_share FP x_point 1 0 (toF 32%Z : G1 FP))]%N ++
  fblock [ftx 8 6 (m_signature 0 gsig)]%N.
Definition grun : list (call * response) := match run fO (new_app false) gcalls with Some (tr, _) => tr | None => [] end.
Definition gchain (n : nat) : list (list abci) := (λ evs : list AppModel.event, make_abci no_hash <$> evs) <$> block_at grun n.
Fixpoint greplay (y : SyncModel.system (body FP) sconfig N (N * list N)) (es : list sync_event) : option (SyncModel.system (body FP) sconfig N (N * list N) * list fobs) :=
  match es with
  | [] => Some (y, [])
  | e :: es => '(y1, o1) ← sync_step fread gchain y e; '(y2, o2) ← greplay y1 es; Some (y2, o1 ++ o2)
  end.
Definition ghs : list (Z * Z) := [(1, 5); (4, 6); (14, 8); (24, 9); (33, 15); (34, 25); (35, 25); (36, 26)].
Definition gsteps : list sync_event := [GSync 10 10 0 true; MShutter true 0; MMain true 0] ++ (ghs.*1 ≫= λ h, [GSync 10 10 h true; MShutter true 0]).
Definition gobserved : list fobs := match greplay (boot None) gsteps with Some (_, o) => o | None => [] end.
Definition ginputs (a : N) (ns : list Z) : list (kinput FP N) := zip_with (input_of kchain a) gobserved ns.

(** ** The chain *)
Lemma g_history : ∃ s, AppSpec.history fO grun s ∧ (N.of_nat (length (eons_of grun)) < 2 ^ 64)%N.
Proof.
  assert (H : match run fO (new_app false) gcalls with Some (tr, _) => bool_decide (length (eons_of tr) = 1%nat) | None => false end = true) by (vm_compute; reflexivity).
  unfold grun. destruct (run fO (new_app false) gcalls) as [[tr s]|] eqn:E; [|discriminate H]. apply bool_decide_eq_true in H. exists s. rewrite H. split; [|done]. exists false.
  apply (run_exec fO (new_app false) gcalls tr s); [|exact E]. unfold gcalls, fblock, genesis, ftx. cbn [replicate concat]. repeat (apply Forall_app; split); repeat (apply Forall_cons; split; [try exact I; try exact id_order|]); try apply Forall_nil_2.
Qed.
Lemma g_produced : fproduced gchain.
Proof. intros m. exists grun. destruct g_history as (s & H1 & H2). exists s. split; [exact H1|]. split; [exact H2|]. intros n _. reflexivity. Qed.
Lemma greplay_history y es0 o0 es y' o : SyncModel.history fread gchain y es0 o0 → greplay y es = Some (y', o) → SyncModel.history fread gchain y' (es0 ++ es) (o0 ++ o).
Proof.
  revert y es0 o0 o. induction es as [|e es IH]; intros y es0 o0 o Hh; cbn [greplay]; [intros [= <- <-]; by rewrite !app_nil_r|].
  intros ([y1 o1] & E1 & E)%bind_Some. apply bind_Some in E as ([y2 o2] & E2 & E). injection E as <- <-.
  specialize (IH y1 (es0 ++ [e]) (o0 ++ o1) o2). rewrite <-!(assoc_L (++)) in IH. apply IH; [|done]. by econstructor.
Qed.
Lemma g_sync : ∃ y, SyncModel.history fread gchain y gsteps gobserved.
Proof.
  assert (match greplay (boot None) gsteps with Some _ => true | None => false end = true) as H by (vm_cast_no_check (eq_refl true)).
  unfold gobserved. destruct (greplay _ _) as [[y o]|] eqn:E; [|done]. exists y. exact (greplay_history (boot None) [] [] _ y o (history_start _ _) E).
Qed.
Lemma g_no_crash : crash_after_decision fread gchain gsteps.
Proof.
  assert (Crash ∉ gsteps) as Hn. { vm_compute. intros H. repeat (apply elem_of_cons in H as [H|H]; [discriminate H|]). by apply elem_of_nil in H. }
  intros es1 es2 E. exfalso. apply Hn. rewrite E. apply elem_of_app. right. by left.
Qed.
Definition gready (a : N) (o : wobs) (n : Z) : bool := match o with ODecide h w => v_synced (kview n) && shutter_is_keyper w a end.
Lemma ready_matches a (os : list wobs) (ns : list Z) : (length os =? length ns)%nat = true → forallb (λ x, gready a x.1 x.2) (zip os ns) = true → Forall2 (matches a) (zip_with (winput a) os ns) os.
Proof.
  revert ns. induction os as [|[h w] os IH]; intros [|n ns] Hl Hall; cbn [zip_with]; [constructor|done|done|]. cbn [zip zip_with forallb fst snd] in Hall. apply andb_true_iff in Hall as [H1 H2].
  constructor; [|by apply IH]. clear IH H2 Hl. unfold gready in H1. apply andb_true_iff in H1 as [H1 H2]. split; [done|]. done.
Qed.
(** the views: up to date, or at block 0 *)
Definition late : list Z := replicate 8 0.
Lemma g_matches a ns : a ∈ [7; 8]%N → ns ∈ [ghs.*2; late] → Forall2 (matches (kp_me (wpar a))) (ginputs a ns) gobserved.
Proof.
  intros Ha Hn. change (kp_me (wpar a)) with a. rewrite !elem_of_cons, elem_of_nil in Ha. rewrite !elem_of_cons, elem_of_nil in Hn.
  destruct Ha as [->|[->|[]]], Hn as [->|[->|[]]]; apply ready_matches; vm_cast_no_check (eq_refl true).
Qed.
Lemma g_app (a b : nat) : (a ≤ b)%nat → ∃ evs, published fread gchain b = published fread gchain a ++ evs.
Proof. exact (published_app fread gchain fheights a b). Qed.
Definition thresholds (l : list wevent) : list N := omap (λ e, match e with BatchConfig c => Some (sc_threshold c) | _ => None end) l.
Lemma g_empty n : (38 ≤ n)%nat → gchain n = [].
Proof.
  intros Hn. assert (length (blocks grun []) = 36%nat) as Hl by (vm_cast_no_check (eq_refl 36%nat)). unfold gchain, block_at. destruct n as [|n]; [lia|].
  rewrite lookup_ge_None_2 by lia. reflexivity.
Qed.
Lemma g_late x : published fread gchain (38 + x)%nat = published fread gchain 38%nat.
Proof. induction x as [|x IH]; [reflexivity|]. rewrite Nat.add_succ_r. cbn [published]. rewrite IH, g_empty by lia. cbn [concat omap list_omap]. apply app_nil_r. Qed.
Lemma g_thresholds m c : BatchConfig c ∈ published fread gchain m → (sc_threshold c < 2 ^ 63)%N.
Proof.
  intros H. assert (thresholds (published fread gchain 38%nat) = [1]%N) as E by (vm_cast_no_check (eq_refl [1]%N)).
  assert (BatchConfig c ∈ published fread gchain 38%nat) as Hin.
  { destruct (decide (38 ≤ m)%nat) as [Hm|Hm].
    - replace m with (38 + (m - 38))%nat in H by lia. by rewrite g_late in H.
    - destruct (g_app m 38 ltac:(lia)) as [l ->]. apply elem_of_app. by left. }
  revert E Hin. generalize (published fread gchain 38%nat). clear. intros l E Hin. assert (sc_threshold c ∈ thresholds l) as Ht. { apply elem_of_list_omap. by exists (BatchConfig c). }
  rewrite E in Ht. apply elem_of_list_singleton in Ht as ->. done.
Qed.
(** ** C62: an ordinary run *)
Lemma kview_ordinary (i : kinput FP N) : v_configs (in_view i) = [ContractsModel.zero_config; kcfg] → 0 ≤ current (in_view i) → 0 ≤ v_half_steps (in_view i) → v_accusations (in_view i) = ∅ → ordinary i.
Proof.
  intros Ec H1 H2 Ha. split.
  - split; [|..]; [rewrite Ec; by eexists _, _| |done|done]. intros c. rewrite Ec, !elem_of_cons, elem_of_nil. intros [->|[->|[]]]; done.
  - intros c. rewrite Ec, !elem_of_cons, elem_of_nil. intros [->|[->|[]]]; done.
  - intros b _. exists 1%nat, kcfg. rewrite Ec. split_and!; [done|cbn; lia|done|]. intros [|[|j]] c' Hj; [lia|lia|done].
  - intros h a. by rewrite Ha, lookup_empty.
Qed.
Lemma g_views n : n ∈ ghs.*2 → v_configs (kview n) = [ContractsModel.zero_config; kcfg] ∧ 0 ≤ current (kview n) ∧ 0 ≤ v_half_steps (kview n) ∧ v_accusations (kview n) = ∅.
Proof. unfold ghs. cbn [fmap list_fmap snd]. rewrite !elem_of_cons, elem_of_nil. intros H. repeat destruct H as [->|H]; try done; vm_compute; repeat split; try discriminate. Qed.
Lemma zip_ordinary a (os : list wobs) ns : (∀ n, n ∈ ns → n ∈ ghs.*2) → Forall ordinary (zip_with (winput a) os ns).
Proof.
  revert ns. induction os as [|[h w] os IH]; intros [|n ns] Hn; cbn [zip_with]; [by constructor..|]. constructor; [|apply IH; intros x Hx; apply Hn; by right].
  destruct (g_views n) as (V1 & V2 & V3 & V4); [apply Hn; by left|]. by apply kview_ordinary.
Qed.
(** keyper 8's actions: those whose messages are on the chain *)
Definition gacts : list (list (kaction FP)) :=
  [[KCheckIn; KCommitment 1 (gammas FP [11])]; [KPolyEval 1 [7]%N [[11]%N]]; []; []; [KEonKey 1 0 (toF 16 : G2 FP)]; [KKeyShare 1 0 (toF 32 : G1 FP)]; [KAction (ASignature 0 gsig)]; []].
Lemma g_acts : match wrun (wpar 8) new_kstate (ginputs 8 ghs.*2) with Some (_, l) => Some l | None => None end = Some gacts.
Proof. vm_cast_no_check (eq_refl (Some gacts)). Qed.
Local Opaque grun gchain gobserved.
Lemma g_order a : ∀ A (l : list A), Permutation (kp_order (wpar a) A l) l.
Proof. reflexivity. Qed.
(** keyper 8 runs and decides as C62_no_crash_partial assumes; it generates the key, publishes its key share and its signature, and sees them on the chain *)
Example C62_witness : fproduced gchain ∧ (∀ m c, BatchConfig c ∈ published fread gchain m → (sc_threshold c < 2 ^ 63)%N) ∧
  (∃ y, SyncModel.history fread gchain y gsteps gobserved) ∧ crash_after_decision fread gchain gsteps ∧ Forall2 (matches (kp_me (wpar 8))) (ginputs 8 ghs.*2) gobserved ∧
  Forall ordinary (ginputs 8 ghs.*2) ∧ match wrun (wpar 8) new_kstate (ginputs 8 ghs.*2) with Some (_, l) => Some l | None => None end = Some gacts.
Proof.
  split; [exact g_produced|]. split; [exact g_thresholds|]. split; [exact g_sync|]. split; [exact g_no_crash|]. split; [apply g_matches; [right; left|left]|]. split; [|exact g_acts].
  exact (zip_ordinary 8 gobserved ghs.*2 (λ n H, H)).
Qed.
(** ** C62, finding *)
Lemma late_view i a : i ∈ ginputs a late → in_view i = kview 0.
Proof.
  unfold ginputs, late. generalize gobserved, 8%nat. intros os n. revert n. induction os as [|[h w] os IH]; intros [|n] H; cbn [replicate zip_with] in H; try by apply elem_of_nil in H.
  apply elem_of_cons in H as [->|H]; [done|by eapply IH].
Qed.
Lemma view0 : v_configs (kview 0) = [ContractsModel.zero_config] ∧ current (kview 0) = 0 ∧ v_half_steps (kview 0) = 0 ∧ v_accusations (kview 0) = ∅.
Proof. vm_compute. repeat split; reflexivity. Qed.
(** If the main chain node of keyper 7 lags behind so that it does not know the config of batch 0 yet, the key share and the decryption signature of keyper 8 (an honest keyper, whose
    node is up to date, see C62_witness) make keyper 7 panic: "config is not active".  Nothing but the bound on [or_signed] is missing for C62_no_crash_partial. *)
Theorem C62_refuted : ∃ (p : keyper_params FP) chain y es o l, fproduced chain ∧ (∀ m c, BatchConfig c ∈ published fread chain m → (sc_threshold c < 2 ^ 63)%N) ∧
  (∀ A (l : list A), Permutation (kp_order p A l) l) ∧ SyncModel.history fread chain y es o ∧ crash_after_decision fread chain es ∧ Forall2 (matches (kp_me p)) l o ∧
  (∀ i, i ∈ l → in_view i = wsync (new_view 2) [(kchain, 2, true)] ∧ usable (in_view i) ∧ staffed (in_view i) ∧ v_accusations (in_view i) = ∅) ∧ PropsMain.settled kchain 2 0 [(kchain, 2, true)] ∧
  decisions_of wplen wpoint p new_kstate l = None.
Proof.
  destruct g_sync as [y Hy]. exists (wpar 7), gchain, y, gsteps, gobserved, (ginputs 7 late). split; [exact g_produced|]. split; [exact g_thresholds|]. split; [exact (g_order 7)|]. split; [exact Hy|].
  split; [exact g_no_crash|]. split; [apply g_matches; [left|right; left]|]. split; [|split].
  - intros i Hi%late_view. rewrite Hi. split; [reflexivity|]. destruct view0 as (V1 & V2 & V3 & V4). split_and!; [|intros c|exact V4].
    + split; [rewrite V1; by eexists _, _|intros c|rewrite V2; done|rewrite V3; done]. rewrite V1, elem_of_list_singleton. by intros ->.
    + rewrite V1, elem_of_list_singleton. by intros ->.
  - split; [lia|]. split; [|exact I]. intros n Hn. reflexivity.
  - vm_cast_no_check (eq_refl (None : option (kstate FP * list (list (kaction FP))))).
Qed.
Lemma wchain_scheduled m : (0 < m)%nat → scheduled (cc (wstate wchain m)) = [ContractsModel.zero_config; wcfg].
Proof.
  intros Hpos. destruct (decide (m ≤ 30)%nat) as [Hle|Hgt].
  - assert ((λ m, scheduled (cc (wstate wchain m))) <$> seq 1 30 = replicate 30 [ContractsModel.zero_config; wcfg]) as Hall by (vm_compute; reflexivity).
    apply (f_equal (λ l, l !! (m - 1)%nat)) in Hall. rewrite list_lookup_fmap, lookup_seq_lt in Hall by lia. rewrite lookup_replicate_2 in Hall by lia.
    apply (inj Some) in Hall. by replace (1 + (m - 1))%nat with m in Hall by lia.
  - replace m with (30 + (m - 30))%nat by lia. induction (m - 30)%nat as [|k IH]; [vm_compute; done|].
    rewrite Nat.add_succ_r. rewrite quiet_block by (by destruct k). exact IH.
Qed.
Lemma wchain_flat m : Forall (λ x : nat * N * ContractsModel.call, ContractsProofs.inner_calls x.2 = []) (wchain m).
Proof. unfold wchain. do 31 (destruct m as [|m]; [repeat constructor|]). constructor. Qed.
(** the hypotheses of C62_view and C62_both_chains_partial about the main chain: the chain of C54_witness, on which a keyper is accused *)
Example C62_view_witness : wchain 0%nat = [] ∧ PropsMain.settled wchain 2 0 wheads ∧ last wheads = Some (wchain, 40, true) ∧
  append_only (λ x, x) (λ _ _ r _, Some (Z.to_N r)) (λ _, [1]%N) 1 2 3 9 5 10 wchain ∧ (∀ n, PropsExec.calm_history (MainModel.history wchain n)) ∧
  (∀ n c, c ∈ scheduled (cc (wstate wchain n)) → 0 < span c → keypers c ≠ []) ∧ is_Some (v_accusations (wsync (new_view 2) wheads) !! 0).
Proof.
  destruct C54_witness as (H1 & H2 & H3 & _ & _ & H4). split; [exact H1|]. split; [exact H2|]. split; [exact H3|]. split; [exact wchain_append_only|]. split; [|split].
  - intros n. apply Forall_forall. intros [fuel a c|k] Hin; [|exact I].
    assert (∃ m, (fuel, a, c) ∈ wchain m) as [m Hm].
    { unfold MainModel.history, history_before in Hin. apply elem_of_app in Hin as [Hin|Hin].
      - apply elem_of_list_join in Hin as (l & Hl & Hm). apply elem_of_list_fmap in Hm as (m & -> & _). exists m. apply elem_of_app in Hl as [Hl|Hl]; [|by apply elem_of_list_singleton in Hl].
        apply elem_of_list_fmap in Hl as ([[f' a'] c'] & E & Hl). injection E as -> -> ->. exact Hl.
      - exists n. apply elem_of_list_fmap in Hin as ([[f' a'] c'] & E & Hl). injection E as -> -> ->. exact Hl. }
    assert (ContractsProofs.inner_calls c = []) as Hc.
    { pose proof (wchain_flat m) as HF. rewrite Forall_forall in HF. exact (HF _ Hm). }
    apply PropsExec.calm_intro; rewrite Hc; intros _ x Hx; destruct (not_elem_of_nil x Hx).
  - intros n c Hin Hs. destruct (wchain_append_only n (n + 1)%nat ltac:(lia)) as [l E].
    assert (scheduled (cc (wstate wchain (n + 1))) = [ContractsModel.zero_config; wcfg]) as E2 by (apply wchain_scheduled; lia).
    assert (c ∈ [ContractsModel.zero_config; wcfg]) as Hc. { rewrite <-E2, E. apply elem_of_app. by left. }
    rewrite !elem_of_cons, elem_of_nil in Hc. destruct Hc as [->|[->|[]]]; [by cbn in Hs|done].
  - destruct (v_accusations _ !! 0); [eauto|discriminate H4].
Qed.

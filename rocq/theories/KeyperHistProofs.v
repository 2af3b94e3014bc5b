(** The key generation over a whole history of decisions. *)
From stdpp Require Import list gmap.
From Coq Require Import ZArith NArith Lia.
From Verif Require Import Fq CryptoModel DkgModel DkgSpec DkgProofs EpochModel ObserveModel ObserveProofs SyncModel SyncProofs ArithModel MainModel DecideModel EncodingModel
  KeyperModel KeyperSpec KeyperDkgProofs KeyperStepProofs.

(** ** Eon starts *)
Section Infos.
Context {B D K G : Type}.
Notation event := (shutter_event B D K G).
Implicit Types (evs : list event).
Lemma eon_infos_elem evs m h b : (m, h, b) ∈ eon_infos evs ↔ EonStarted h m b ∈ evs.
Proof.
  unfold eon_infos. rewrite elem_of_list_omap. split.
  - intros ([] & Hin & E); try done. by injection E as -> -> ->.
  - intros H. by exists (EonStarted h m b).
Qed.
Lemma eon_infos_unique evs m h b h' b' : well_formed evs → (m, h, b) ∈ eon_infos evs → (m, h', b') ∈ eon_infos evs → h = h' ∧ b = b'.
Proof.
  rewrite !eon_infos_elem. intros Hw H1 H2. apply elem_of_list_lookup in H1 as (i & Hi). apply elem_of_list_lookup in H2 as (j & Hj).
  assert (∀ i j h b h' b', i < j → evs !! i = Some (EonStarted h m b) → evs !! j = Some (EonStarted h' m b') → False) as Hlt.
  { clear -Hw. intros i j h b h' b' Hij Hi Hj. pose proof (take_drop_middle _ _ _ Hj) as E. symmetry in E. specialize (Hw _ _ _ E h m b).
    cbn in Hw. assert (m < m)%N; [|lia]. apply Hw. apply elem_of_list_lookup. exists i. by rewrite lookup_take. }
  destruct (Nat.lt_trichotomy i j) as [?|[->|?]].
  - by destruct (Hlt i j h b h' b').
  - rewrite Hi in Hj. by injection Hj as -> ->.
  - by destruct (Hlt j i h' b' h b).
Qed.
End Infos.

Section Hist.
Context {P : pairing} {K R : Type}.
Notation sig := (N * list N)%type.
Notation shutter := (ObserveModel.shutter (body P) sconfig K sig).
Notation obs := (sync_obs (body P) sconfig K sig).
Context (make_event : R → Z → option (shutter_event (body P) sconfig K sig)) (chain : nat → list (list R)).
Notation Pub := (published make_event chain).
Context (ecies_decrypt : list N → option (list N)) (plen : phase_length) (me : N).
Context (Hwf : ∀ m, well_formed (Pub m)) (Hho : heights_ok make_event).
Implicit Types (w : shutter) (k : kdkg P) (i : kinput P K) (x : execution P).
Notation ks := (λ k : kind, k ≠ KeyShare).
Notation good := (good make_event chain).
Notation seen := (@seen_blocks (body P) sconfig K sig).

(** the decisions of a history: each is made from a good view, starting where the last one ended *)
Inductive decisions (kds : kind → Prop) : list obs → Z → Prop :=
| decisions_nil : decisions kds [] 0
| decisions_snoc o H w : decisions kds o H → good kds H w → node_synced w = true → (0 ≤ H)%Z →
    decisions kds (o ++ [ODecide H w]) (current_block w + 1).

Lemma history_decisions_gen (kds : kind → Prop) y es o : SyncModel.history make_event chain y es o →
  (∀ y0 es1 es2 o0, es = es1 ++ es2 → SyncModel.history make_event chain y0 es1 o0 → inv make_event chain kds y0 o0) → decisions kds o (sync_height y).
Proof.
  intros Hh. induction Hh as [|y es o e y' o' Hh IH Hs]; intros Hall; [constructor|].
  assert (decisions kds o (sync_height y)) as Hd.
  { apply IH. intros y0 es1 es2 o0 -> Hh0. apply (Hall y0 es1 (es2 ++ [e])); [by rewrite <-(assoc_L (++))|done]. }
  assert (inv make_event chain kds y o) as Hi by (by apply (Hall y es [e])).
  assert (inv make_event chain kds y' (o ++ o')) as Hi'.
  { apply (Hall y' (es ++ [e]) []); [by rewrite app_nil_r|]. by econstructor. }
  pose proof (i_pos _ _ _ _ _ Hi) as Hpos.
  assert (∀ w ok half g out, good kds (sync_height y) w → (y', o') = run_one_step y w g out ok half → decisions kds (o ++ o') (sync_height y')) as Hrun.
  { intros w ok half g out Hw E. unfold run_one_step in E. injection E as -> ->. cbn [sync_height].
    destruct (node_synced w && ok)%bool eqn:Eok; [|by rewrite app_nil_r]. apply andb_true_iff in Eok as [En _].
    by constructor. }
  destruct e as [fuel pf target synced| |ok half|ok half|]; cbn [sync_step] in Hs.
  - destruct (g_out y); [done|]. destruct (_ =? _)%Z; [|destruct (sync_to_height _ _ _ _ _ _ _); [|done]]; injection Hs as <- <-; by rewrite app_nil_r.
  - destruct (g_out y); [done|]. destruct (filters y); [done|]. injection Hs as <- <-. by rewrite app_nil_r.
  - destruct (g_out y) as [s|] eqn:Eo; [|done]. destruct (looping y).
    + apply (inj Some) in Hs. eapply Hrun; [|symmetry; exact Hs]. by apply (i_out _ _ _ _ _ Hi).
    + injection Hs as <- <-. rewrite app_nil_r. unfold sync_once. by destruct (have_main y).
  - destruct (looping y).
    + apply (inj Some) in Hs. eapply Hrun; [|symmetry; exact Hs]. apply (i_world _ _ _ _ _ Hi).
    + injection Hs as <- <-. rewrite app_nil_r. unfold sync_once. by destruct (have_shutter y).
  - pose proof (i_disk _ _ _ _ _ Hi') as Hd'. pose proof (i_disk _ _ _ _ _ Hi) as Hdisk. injection Hs as <- <-. rewrite app_nil_r.
    destruct (disk y) as [[h s]|] eqn:Ed; cbn [boot sync_height] in *; [|by rewrite Hdisk in Hd].
    destruct Hdisk as [-> _]. cbn [disk] in Hd'. destruct Hd' as [<- _]. done.
Qed.
Lemma history_decisions y es o : SyncModel.history make_event chain y es o → crash_after_decision make_event chain es → decisions ks o (sync_height y).
Proof.
  intros Hh Hc. apply (history_decisions_gen ks y es o Hh). intros y0 es1 es2 o0 -> Hh0. apply (inv_crash make_event chain Hwf Hho) with (es := es1); [done|].
  intros es3 es4 ->. apply (Hc es3 (es4 ++ es2)). by rewrite <-(assoc_L (++)).
Qed.
Lemma history_decisions_no_skip y es o : SyncModel.history make_event chain y es o → Forall no_skip es → decisions (λ _, True) o (sync_height y).
Proof.
  intros Hh Hn. apply (history_decisions_gen _ y es o Hh). intros y0 es1 es2 o0 -> Hh0. apply (inv_no_skip make_event chain Hwf Hho) with (es := es1); [done|].
  by apply Forall_app in Hn as [? _].
Qed.

(** a good view: its eons, configs and keys are those of the chain *)
Lemma good_infos kds H w : good kds H w → eon_info <$> eons w = eon_infos (Pub (seen w)).
Proof. intros (_ & _ & Hr). apply Hr. Qed.
Lemma good_configs kds H w : good kds H w → configs w = config_list (Pub (seen w)).
Proof. intros (_ & _ & Hr). apply Hr. Qed.
Lemma good_find kds H w m e : good kds H w → find_eon w m = Some e → eon_info e ∈ eon_infos (Pub (seen w)) ∧ eon_number e = m.
Proof.
  intros Hg Hf. pose proof Hg as (_ & _ & Hr). pose proof (repr_sorted _ _ _ _ _ (Hwf _) Hr) as HS.
  apply find_eon_spec in Hf as [He Hm]; [|done]. split; [|done]. rewrite <-(good_infos _ _ _ Hg). by apply elem_of_list_fmap_1.
Qed.
Lemma good_events (kds : kind → Prop) H w m e kd : good kds H w → kds kd → find_eon w m = Some e →
  get_events kd e H = since H (of_kind kd m (Pub (seen w))).
Proof. intros Hg Hk Hf. pose proof (good_offered make_event chain Hwf kds H w kd m Hg Hk) as E. cbn [offered] in E. by rewrite Hf in E. Qed.
Lemma infos_mono a b : a ≤ b → ∀ z, z ∈ eon_infos (Pub a) → z ∈ eon_infos (Pub b).
Proof.
  intros Hab z Hz. destruct (published_prefix make_event chain Hho a (b - a)) as (evs & E & _). replace (a + (b - a)) with b in E by lia.
  rewrite E. unfold eon_infos in *. rewrite omap_app'. apply elem_of_app. by left.
Qed.
Lemma in_phase_step p st kd m (a b : nat) : a ≤ b →
  in_phase plen st p (of_kind kd m (Pub b)) = in_phase plen st p (of_kind kd m (Pub a)) ++ in_phase plen st p (since (Z.of_nat a) (of_kind kd m (Pub b))).
Proof.
  intros Hab. rewrite (of_kind_split make_event chain Hho kd m a b Hab) at 1. unfold in_phase. by rewrite List.filter_app.
Qed.
Lemma since_height h (l : list (eon_event (body P))) e : e ∈ since h l → (h ≤ ev_height e)%Z.
Proof. unfold since. by intros [? _]%elem_of_list_filter. Qed.
Lemma in_phase_none p st (l : list (eon_event (body P))) : Forall (λ e, phase_at plen (ev_height e) st ≠ p) l → in_phase plen st p l = [].
Proof.
  unfold in_phase. induction 1 as [|e l He HF IH]; [done|]. cbn. by destruct (Nat.eqb_spec (phase_at plen (ev_height e) st) p).
Qed.
Lemma in_phase_later p st kd m (a b : nat) : a ≤ b → p < phase_at plen (Z.of_nat a) st →
  in_phase plen st p (of_kind kd m (Pub b)) = in_phase plen st p (of_kind kd m (Pub a)).
Proof.
  intros Hab Hp. rewrite (in_phase_step p st kd m a b Hab). rewrite (in_phase_none _ _ (since _ _)); [by rewrite app_nil_r|].
  apply Forall_forall. intros e He%since_height. pose proof (phase_mono plen _ _ st He). lia.
Qed.

(** the config a DKG is started with *)
Definition config_for (b : N) (c : sconfig) (a : nat) : Prop := c = last_config_for (config_list (Pub a)) (length (config_list (Pub a))) b.

(** [k] has seen the first [H] blocks, the eon is among the first [Hs] *)
Record dkg_at (H Hs : nat) (q : nat) k (st : Z) (c : sconfig) (idx : N) x : Prop := {
  da_info : (k_eon k, st, k_start_batch k) ∈ eon_infos (Pub Hs);
  da_plen : k_plen k = plen;
  da_keypers : k_keypers k = sc_keypers c;
  da_idx : find_address (sc_keypers c) me = Some idx;
  da_running : running (k_eon k) (N.of_nat (length (sc_keypers c))) (sc_threshold c) idx q x (k_pure k);
  da_dealing : broadcasts (ex_dealing x) = in_phase plen st dealing (of_kind Commitment (k_eon k) (Pub H)) ≫= commitment_public (sc_keypers c);
  da_accusing : broadcasts (ex_accusing x) = in_phase plen st accusing (of_kind Accusation (k_eon k) (Pub H)) ≫= accusation_public (sc_keypers c);
  da_apologizing : broadcasts (ex_apologizing x) = in_phase plen st apologizing (of_kind Apology (k_eon k) (Pub H)) ≫= apology_public (sc_keypers c);
  da_config : ∃ a, a ≤ Hs ∧ (k_eon k, st, k_start_batch k) ∈ eon_infos (Pub a) ∧ config_for (k_start_batch k) c a;
  da_evals : received (ex_dealing x) = in_phase plen st dealing (of_kind PolyEval (k_eon k) (Pub H)) ≫= evals_for ecies_decrypt (sc_keypers c) idx
}.
Definition dkg_ok (H : nat) k : Prop := ∃ st c idx x, dkg_at H H (phase_at plen (Z.of_nat H) st) k st c idx x.
(** ready for the decision that sees the blocks from [H] to [Hs] *)
Definition dkg_ready (H Hs : nat) k : Prop := ∃ q st c idx x,
  (q = phase_at plen (Z.of_nat H) st ∨ q = 0 ∧ ∀ kd, of_kind kd (k_eon k) (Pub H) = []) ∧ dkg_at H Hs q k st c idx x.
Lemma ok_ready H Hs k : H ≤ Hs → dkg_ok H k → dkg_ready H Hs k.
Proof.
  intros HH (st & c & idx & x & [D1 D2 D3 D4 D5 D6 D7 D8 (a & D9 & D10 & D11) D12]).
  exists (phase_at plen (Z.of_nat H) st), st, c, idx, x. split; [by left|]. split; try done; [by eapply infos_mono|exists a; split; [lia|done]].
Qed.
(** a result: from a finished DKG *)
Definition ekg_from (H : nat) (g : kekg P) (r : result P) : Prop :=
  ∃ k st c idx x, dkg_at H H 4 k st c idx x ∧ phase_at plen (Z.of_nat H) st = 4 ∧ compute_result (k_pure k) = Some r ∧
    g_eon g = k_eon k ∧ g_keypers g = k_keypers k.

(** a new EKG; no key share published so far is in the finalized phase *)
Definition ekg_new (H Hs : nat) (g : kekg P) : Prop := ∃ r, ekg_from Hs g r ∧ g_epochkg g = new_epochkg r ∧
  ∀ st b ev, (g_eon g, st, b) ∈ eon_infos (Pub Hs) → ev ∈ of_kind KeyShare (g_eon g) (Pub H) → (phase_at plen (ev_height ev) st < 4)%nat.

Lemma bind_app {A C} (f : A → list C) l l' : (l ++ l') ≫= f = (l ≫= f) ++ (l' ≫= f).
Proof. induction l as [|a l IH]; [done|]. cbn [app]. change ((?x :: ?y) ≫= f) with (f x ++ (y ≫= f)). rewrite IH. by rewrite (assoc_L (++)). Qed.

(** one DKG, one decision: with the actions and the execution afterwards *)
Definition dkg_step (H Hs : nat) i k (q : nat) (st : Z) (c : sconfig) (idx : N) x k' g acts x' : Prop :=
  let next := phase_at plen (Z.of_nat Hs) st in let num := N.of_nat (length (sc_keypers c)) in let t := sc_threshold c in
  dkg_at Hs Hs next k' st c idx x' ∧ frame k k' ∧
  (1 ≤ q → ex_rnd x' = ex_rnd x ∧ k_outgoing k' = k_outgoing k) ∧ (2 ≤ q → ex_dealing x' = ex_dealing x) ∧ (3 ≤ q → ex_accusing x' = ex_accusing x) ∧
  (q = 0 → 1 ≤ next → ex_rnd x' = in_rnd i (k_eon k) ∧ ∃ cm evals p, start_phase1 (new_dkg P (k_eon k) num t idx) (ex_rnd x') = Some (p, Some (cm, evals)) ∧
     k_outgoing k' = if next =? 1 then evals else k_outgoing k) ∧
  (next = 0 → k_outgoing k' = k_outgoing k) ∧
  ∃ a1 a2 a3 a4, acts = a1 ++ a2 ++ a3 ++ a4 ∧ a1_ok (k_eon k) num t idx k q next x' a1 ∧ a2_ok (k_eon k) num t idx k q next x' a2 ∧
    a3_ok (k_eon k) num t idx k q next x' a3 ∧ a4_ok k q next (k_pure k') g a4.
Lemma dkg_decision_full (kds : kind → Prop) i k e k' g acts q st c idx x : (∀ kd, kd ≠ KeyShare → kds kd) →
  good kds (in_height i) (in_shutter i) → (0 ≤ in_height i)%Z →
  let H := Z.to_nat (in_height i) in let Hs := seen (in_shutter i) in
  (q = phase_at plen (Z.of_nat H) st ∨ q = 0 ∧ ∀ kd, of_kind kd (k_eon k) (Pub H) = []) → dkg_at H Hs q k st c idx x →
  find_eon (in_shutter i) (k_eon k) = Some e → sync_dkg ecies_decrypt plen i k e = Some (k', g, acts) →
  ∃ x', dkg_step H Hs i k q st c idx x k' g acts x'.
Proof.
  intros Hkds Hg Hpos H Hs Hq0 [D1 D2 D3 D4 D5 D6 D7 D8 (a & D9 & D10 & D11) D12] Hf Hsync.
  destruct (good_find _ _ _ _ _ Hg Hf) as [Hin Hnum]. unfold eon_info in Hin. rewrite Hnum in Hin.
  destruct (eon_infos_unique _ _ _ _ _ _ (Hwf _) D1 Hin) as [Est Esb].
  destruct (Hg) as (Hg1 & Hg2 & _). assert (HH : (H ≤ Hs)%nat) by (unfold H, Hs, seen_blocks; lia).
  assert (Hcur : (current_block (in_shutter i) + 1)%Z = Z.of_nat Hs) by (unfold Hs, seen_blocks; lia).
  assert (HHz : Z.of_nat H = in_height i) by (unfold H; lia).
  assert (HHz' : in_height i = Z.of_nat H) by (unfold H; lia).
  assert (Hq : (q ≤ phase_at plen (Z.of_nat H) st)%nat) by (destruct Hq0 as [->|[-> _]]; lia).
  assert (Hle : (q ≤ phase_at plen (Z.of_nat Hs) st)%nat) by (pose proof (phase_mono plen (Z.of_nat H) (Z.of_nat Hs) st ltac:(lia)); lia).
  assert (Hev : ∀ kd, kd ≠ KeyShare → get_events kd e (in_height i) = since (Z.of_nat H) (of_kind kd (k_eon k) (Pub Hs))).
  { intros kd Hkd. rewrite (good_events kds _ _ _ _ kd Hg (Hkds kd Hkd) Hf). by rewrite HHz. }
  assert (Hph : ∀ kd ev, kd ≠ KeyShare → ev ∈ get_events kd e (in_height i) →
     (q ≤ phase_at plen (ev_height ev) (start_height e) ≤ phase_at plen (current_block (in_shutter i) + 1) (start_height e))%nat).
  { intros kd ev Hkd Hin'. rewrite Hev in Hin' by done. rewrite Hcur, <-Est. split.
    - apply since_height in Hin'. pose proof (phase_mono plen _ _ st Hin'). lia.
    - apply phase_mono. unfold since in Hin'. apply elem_of_list_filter in Hin' as [_ Hin'].
      apply of_kind_elem in Hin' as [Hin' _]. destruct (published_prefix make_event chain Hho 0 Hs) as (evs & Epub & Hh). cbn in Epub.
      rewrite Epub in Hin'. specialize (Hh _ _ Hin'). lia. }
  assert (Hno : ∀ (kd : kind) (p : nat), kd ≠ KeyShare → p < q → Forall (λ ev, phase_at plen (ev_height ev) (start_height e) ≠ p) (get_events kd e (in_height i))).
  { intros kd p Hkd Hp. apply Forall_forall. intros ev Hin'. specialize (Hph kd ev Hkd Hin'). lia. }
  destruct (sync_dkg_step _ _ _ _ _ _ _ _ _ _ _ _ _ _ Hsync D2 D5) as (x' & a1 & a2 & a3 & a4 & R' & (F1 & F2 & F3 & F4) & O1 & O2 & O3 & X1 & X2 & X3 & Eacts & A1 & A2 & A3 & A4).
  { rewrite Hcur, <-Est. done. }
  { exact Hph. }
  assert (X1' : 2 ≤ q → ex_dealing x' = ex_dealing x).
  { intros Hq2. rewrite X1, commitment_calls_phase, eval_calls_phase by (apply Hno; [done|unfold dealing; lia]). by rewrite !app_nil_r. }
  assert (X2' : 3 ≤ q → ex_accusing x' = ex_accusing x).
  { intros Hq2. rewrite X2, accusation_calls_phase by (apply Hno; [done|unfold accusing; lia]). by rewrite app_nil_r. }
  clear Hno. rewrite Hcur in R', O2, O3, A1, A2, A3, A4. rewrite <-Est in R', X1, X2, X3, O2, O3, A1, A2, A3, A4. rewrite !Hev, D3 in X1 by done. rewrite Hev, D3 in X2 by done. rewrite Hev, D3 in X3 by done.
  assert (Hforall : ∀ kd, Forall (λ e0 : eon_event (body P), ev_eon e0 = k_eon k) (since (Z.of_nat H) (of_kind kd (k_eon k) (Pub Hs)))).
  { intros kd. apply Forall_forall. intros e0 He0. unfold since in He0. apply elem_of_list_filter in He0 as [_ He0]. by apply of_kind_elem in He0 as [_ ?]. }
  exists x'. split.
  { split.
    - rewrite F1, F2. done.
    - by rewrite F4.
    - by rewrite F3.
    - done.
    - rewrite F1. done.
    - rewrite X1, !broadcasts_app, commitment_calls_public, eval_calls_public, app_nil_r, D6, F1, (in_phase_step _ _ _ _ H Hs HH), bind_app. done.
    - rewrite X2, !broadcasts_app, accusation_calls_public, D7, F1, (in_phase_step _ _ _ _ H Hs HH), bind_app by done. done.
    - rewrite X3, !broadcasts_app, apology_calls_public, D8, F1, (in_phase_step _ _ _ _ H Hs HH), bind_app by done. done.
    - rewrite F1, F2. exists a. done.
    - rewrite X1, !received_app, commitment_calls_received, eval_calls_received, D12, F1, (in_phase_step _ _ _ _ H Hs HH), bind_app. done. }
  split; [by split_and!|]. split; [done|]. split; [done|]. split; [done|]. split; [done|]. split; [done|].
  exists a1, a2, a3, a4. done.
Qed.
Lemma dkg_decision (kds : kind → Prop) i k e k' g acts : (∀ kd, kd ≠ KeyShare → kds kd) →
  good kds (in_height i) (in_shutter i) → (0 ≤ in_height i)%Z →
  let H := Z.to_nat (in_height i) in let Hs := seen (in_shutter i) in
  dkg_ready H Hs k → find_eon (in_shutter i) (k_eon k) = Some e → sync_dkg ecies_decrypt plen i k e = Some (k', g, acts) →
  dkg_ok Hs k' ∧ k_eon k' = k_eon k ∧ ∀ g', g = Some g' → ekg_new H Hs g'.
Proof.
  intros Hkds Hg Hpos H Hs (q & st & c & idx & x & Hq0 & Hat) Hf Hsync.
  destruct (dkg_decision_full _ _ _ _ _ _ _ _ _ _ _ _ Hkds Hg Hpos Hq0 Hat Hf Hsync) as (x' & Hok & (F1 & F2 & F3 & F4) & _ & _ & _ & _ & _ & a1 & a2 & a3 & a4 & _ & _ & _ & _ & A4).
  destruct Hat as [D1 D2 D3 D4 D5 D6 D7 D8 D9 D10].
  split; [by exists st, c, idx, x'|]. split; [done|].
  intros g' ->. unfold a4_ok in A4. destruct (_ && _) eqn:Eq in A4; [|by destruct A4]. apply andb_true_iff in Eq as [E3 E4]. apply Nat.eqb_eq in E4.
  apply Nat.ltb_lt in E3.
  destruct (compute_result (k_pure k')) as [r|] eqn:Er; [|by destruct A4]. destruct A4 as [[= ->] _]. exists r. cbn [g_epochkg g_eon]. split; [|split; [done|]].
  2:{ intros st' b ev Hi Hev'. destruct (eon_infos_unique _ _ _ _ _ _ (Hwf _) D1 Hi) as [<- _].
      destruct Hq0 as [->|[_ Hnil]]; [|rewrite Hnil in Hev'; by apply elem_of_nil in Hev'].
      apply of_kind_elem in Hev' as [Hev' _]. destruct (published_prefix make_event chain Hho 0 H) as (evs & Epub & Hh). cbn in Epub.
      rewrite Epub in Hev'. specialize (Hh _ _ Hev'). pose proof (phase_mono plen (ev_height ev) (Z.of_nat H) st ltac:(lia)). lia. }
  unfold H, Hs in *. rewrite E4 in Hok. exists k', st, c, idx, x'. split; [done|]. split; [done|]. split; [done|]. cbn. by rewrite F1, F3.
Qed.

Lemma dkg_at_frame H Hs q k k' st c idx x : frame k k' → k_pure k' = k_pure k → dkg_at H Hs q k st c idx x → dkg_at H Hs q k' st c idx x.
Proof.
  intros (F1 & F2 & F3 & F4) Ep [D1 D2 D3 D4 D5 D6 D7 D8 D9 D10].
  split; rewrite ?F1, ?F2, ?F3, ?F4, ?Ep; done.
Qed.
Lemma finished_ok H Hs k : H ≤ Hs → is_finalized k = true → dkg_ready H Hs k → dkg_ok Hs k.
Proof.
  intros HH Hf (q & st & c & idx & x & Hq0 & [D1 D2 D3 D4 D5 D6 D7 D8 D9 D10]).
  assert (Hq : (q ≤ phase_at plen (Z.of_nat H) st)%nat) by (destruct Hq0 as [->|[-> _]]; lia). clear Hq0.
  unfold is_finalized in Hf. apply Nat.eqb_eq in Hf. rewrite (ru_phase _ _ _ _ _ _ _ D5) in Hf. unfold finalized in Hf. subst q.
  pose proof (phase_mono plen (Z.of_nat H) (Z.of_nat Hs) st ltac:(lia)) as Hm. pose proof (phase_le_4 plen (Z.of_nat Hs) st).
  exists st, c, idx, x. split; try done.
  - by replace (phase_at plen (Z.of_nat Hs) st) with 4 by lia.
  - rewrite D6. f_equal. symmetry. apply in_phase_later; [done|]. unfold dealing. lia.
  - rewrite D7. f_equal. symmetry. apply in_phase_later; [done|]. unfold accusing. lia.
  - rewrite D8. f_equal. symmetry. apply in_phase_later; [done|]. unfold apologizing. lia.
  - rewrite D10. f_equal. symmetry. apply in_phase_later; [done|]. unfold dealing. lia.
Qed.
Lemma send_evals_frame i k k' acts : send_poly_evals i k = Some (k', acts) → frame k k' ∧ k_pure k' = k_pure k.
Proof.
  unfold send_poly_evals. destruct (k_outgoing k) as [|m l]; [by intros [= <- _]|]. destruct (_ <? _); [by intros [= <- _]|].
  intros (l' & _ & E)%bind_Some. cbv zeta in E. by destruct (omap _ l') in E; injection E as <- _.
Qed.
Lemma dkgs_decision (kds : kind → Prop) i l l' gs acts : (∀ kd, kd ≠ KeyShare → kds kd) →
  good kds (in_height i) (in_shutter i) → (0 ≤ in_height i)%Z →
  let H := Z.to_nat (in_height i) in let Hs := seen (in_shutter i) in
  Forall (dkg_ready H Hs) l → handle_dkgs ecies_decrypt plen i l = Some (l', gs, acts) →
  Forall (dkg_ok Hs) l' ∧ k_eon <$> l' = k_eon <$> l ∧ Forall (ekg_new H Hs) gs.
Proof.
  intros Hkds Hg Hpos H Hs. destruct (Hg) as (Hg1 & Hg2 & _). assert (HH : (H ≤ Hs)%nat) by (unfold H, Hs, seen_blocks; lia).
  revert l' gs acts. induction l as [|k l IH]; intros l' gs acts HF; cbn [handle_dkgs]; [by intros [= <- <- <-]|].
  apply Forall_cons in HF as [Hk HF]. destruct (is_finalized k) eqn:Ef.
  - intros ([[l1 gs1] acts1] & E1 & [= <- <- <-])%bind_Some. destruct (IH _ _ _ HF E1) as (I1 & I2 & I3).
    split; [|by cbn; rewrite I2]. constructor; [|done]. by apply (finished_ok H).
  - intros (e & Ee & E)%bind_Some. apply bind_Some in E as ([[k1 g1] a1] & E1 & E). apply bind_Some in E as ([k2 a2] & E2 & E).
    apply bind_Some in E as ([[l1 gs1] a3] & E3 & [= <- <- <-]). destruct (IH _ _ _ HF E3) as (I1 & I2 & I3).
    destruct (dkg_decision _ _ _ _ _ _ _ Hkds Hg Hpos Hk Ee E1) as ((st & c & idx & x & Hat) & Hn & Hr).
    destruct (send_evals_frame _ _ _ _ E2) as [F Ep]. split.
    + constructor; [|done]. exists st, c, idx, x. by eapply dkg_at_frame.
    + split.
      * cbn. destruct F as (-> & _). by rewrite Hn, I2.
      * apply Forall_app. split; [|done]. destruct g1 as [g1|]; cbn; [|done]. constructor; [|done]. by apply Hr.
Qed.

(** new DKGs *)
Lemma start_dkgs_spec w (es : list (ObserveModel.eon (body P))) last last' l : start_dkgs plen me w es last = (last', l) →
  (last ≤ last')%N ∧ (∀ e, e ∈ es → (eon_number e ≤ last')%N) ∧
  (last' = last ∨ ∃ e, e ∈ es ∧ eon_number e = last') ∧
  ∀ k, k ∈ l → ∃ e, e ∈ es ∧ (last < eon_number e)%N ∧ start_dkg plen me w e = Some k.
Proof.
  revert last l. induction es as [|e es IH]; intros last l; cbn [start_dkgs].
  - intros [= <- <-]. split; [lia|]. split; [by intros e ?%elem_of_nil|]. split; [by left|]. by intros k ?%elem_of_nil.
  - destruct (N.ltb_spec last (eon_number e)) as [Hlt|Hge].
    + destruct (start_dkgs plen me w es (eon_number e)) as [last1 l1] eqn:E1. intros [= <- <-].
      destruct (IH _ _ E1) as (I1 & I2 & I3 & I4). split; [lia|]. split; [|split].
      * intros e' [->|He']%elem_of_cons; [lia|by apply I2].
      * right. destruct I3 as [->|(e' & ? & ?)]; [exists e; split; [by left|done]|exists e'; split; [by right|done]].
      * intros k [Hk|Hk]%elem_of_app.
        -- destruct (start_dkg plen me w e) as [k'|] eqn:Ek; [|by apply elem_of_nil in Hk]. apply elem_of_list_singleton in Hk as ->.
           exists e. split; [by left|]. done.
        -- destruct (I4 k Hk) as (e' & ? & ? & ?). exists e'. split; [by right|]. split; [lia|done].
    + intros E1. destruct (IH _ _ E1) as (I1 & I2 & I3 & I4). split; [done|]. split; [|split].
      * intros e' [->|He']%elem_of_cons; [lia|by apply I2].
      * destruct I3 as [->|(e' & ? & ?)]; [by left|right; exists e'; split; [by right|done]].
      * intros k Hk. destruct (I4 k Hk) as (e' & ? & ? & ?). exists e'. split; [by right|done].
Qed.
Lemma new_ready (kds : kind → Prop) i e k : good kds (in_height i) (in_shutter i) → (0 ≤ in_height i)%Z →
  let H := Z.to_nat (in_height i) in let Hs := seen (in_shutter i) in
  (∀ m h b, (m, h, b) ∈ eon_infos (Pub H) → m ≠ eon_number e) → e ∈ eons (in_shutter i) → start_dkg plen me (in_shutter i) e = Some k → dkg_ready H Hs k.
Proof.
  intros Hg Hpos H Hs Hnew He Hk. unfold start_dkg in Hk. apply bind_Some in Hk as (idx & Ei & [= <-]).
  assert ((eon_number e, start_height e, ObserveModel.start_batch e) ∈ eon_infos (Pub Hs)) as Hin.
  { unfold Hs. rewrite <-(good_infos _ _ _ Hg). apply elem_of_list_fmap. by exists e. }
  assert (∀ kd, of_kind kd (eon_number e) (Pub H) = []) as Hnil.
  { intros kd. apply of_kind_unstarted. intros (h & b & Hs')%starts_elem. apply eon_infos_elem in Hs'. by apply Hnew in Hs'. }
  exists 0, (start_height e), (config_by_batch (in_shutter i) (ObserveModel.start_batch e)), idx, (mkExecution [] (λ _, 0%Z) [] [] []).
  split; [by right|]. split; cbn [k_eon k_start_batch k_plen k_keypers k_pure ex_dealing ex_accusing ex_apologizing]; try done.
  - by rewrite Hnil.
  - by rewrite Hnil.
  - by rewrite Hnil.
  - exists Hs. split; [done|]. split; [done|]. unfold config_for, config_by_batch. by rewrite (good_configs _ _ _ Hg).
  - by rewrite Hnil.
Qed.
End Hist.

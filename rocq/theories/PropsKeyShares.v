(** C60, continued: the shares that an honest keyper releases are good ones, and enough of them give everyone the key. *)
From stdpp Require Import list gmap sets.
From Coq Require Import ZArith NArith Lia.
From Verif Require Import Fq CryptoModel CryptoSpec CryptoProofs PropsCrypto DkgModel DkgSpec DkgProofs PropsDkg EpochModel PropsEpoch ObserveModel ObserveProofs SyncModel SyncProofs ArithModel MainModel MainProofs
  DecideModel EncodingModel KeyperModel KeyperSpec KeyperDkgProofs KeyperStepProofs KeyperHistProofs KeyperRunProofs KeyperLogProofs KeyperActionProofs KeyperSystem PropsKeyper PropsKeyperDkg PropsExecution PropsShares.

Section Shares.
Context {P : pairing} {K R : Type}.
Notation sig := (N * list N)%type.
Notation shutter := (ObserveModel.shutter (body P) sconfig K sig).
Context (make_event : R → Z → option (shutter_event (body P) sconfig K sig)) (chain : nat → list (list R)).
Notation Pub := (published make_event chain).
Context (plen : phase_length) (epoch_point : N → G1 P).
Context (Hwf : ∀ m, SyncModel.well_formed (Pub m)) (Hho : heights_ok make_event).
Notation keyper_run := (keyper_run make_event chain plen epoch_point).
Notation keyper_run_no_skip := (keyper_run_no_skip make_event chain plen epoch_point).
Notation started := (KeyperSystem.started make_event chain).
Notation settled := (KeyperSystem.settled make_event chain).
Notation sized := (KeyperSystem.sized make_event chain).
Notation sized_configs := (PropsKeyperDkg.sized_configs make_event chain).
Notation decisions_of := (KeyperSystem.decisions_of (K:=K) plen epoch_point).
Notation step_of := (PropsShares.step_of (K:=K) plen epoch_point).
Implicit Types (p : keyper_params P) (g : kekg P).

(** what never changes about a key *)
Definition same_key g g' : Prop := g_eon g' = g_eon g ∧ g_keypers g' = g_keypers g ∧ ek_eon (g_epochkg g') = ek_eon (g_epochkg g) ∧ ek_sk (g_epochkg g') = ek_sk (g_epochkg g).
Lemma step_keeps p s i s' a g : step_of p s i = Some (s', a) → g ∈ k_ekgs s → ∃ g', g' ∈ k_ekgs s' ∧ same_key g g'.
Proof using.
  clear. intros E Hg.
  destruct (node_synced (in_shutter i)) eqn:Hn; [|unfold PropsShares.step_of, decide_step in E; rewrite Hn in E; injection E as <- _; by exists g].
  destruct (v_synced (in_view i)) eqn:Hv; [|unfold PropsShares.step_of, decide_step in E; rewrite Hn, Hv in E; injection E as <- _; by exists g].
  destruct (shutter_is_keyper (in_shutter i) (kp_me p)) eqn:Hk; [|unfold PropsShares.step_of, decide_step in E; rewrite Hn, Hv, Hk in E; injection E as <- _; by exists g].
  destruct (decide_parts _ _ _ _ _ _ _ _ _ _ _ _ _ _ _ _ Hn Hv Hk E) as (a12 & lst & new & ekgs1 & a3 & keys & a4 & a5 & a678 & _ & _ & E3 & _).
  apply sync_ekgs_static in E3. assert (Hin : g ∈ k_ekgs s ++ ekgs1) by (apply elem_of_app; by left). apply elem_of_list_lookup in Hin as (j & Hj).
  destruct (Forall2_lookup_l _ _ _ _ _ E3 Hj) as (g' & Hj' & Q1 & Q2 & ms & Q3). exists g'. split; [by eapply elem_of_list_lookup_2|].
  apply handle_shares_static in Q3 as (Q3 & _ & _ & _ & Q4 & _). done.
Qed.
Lemma same_key_trans g1 g2 g3 : same_key g1 g2 → same_key g2 g3 → same_key g1 g3.
Proof using. unfold same_key. intros (-> & -> & -> & ->) (-> & -> & -> & ->). done. Qed.
Lemma sent_from p l s acts n ep sh : decisions_of p new_kstate l = Some (s, acts) → KKeyShare n ep sh ∈ mjoin acts →
  ∃ g, g ∈ k_ekgs s ∧ n = ek_eon (g_epochkg g) ∧ sh = my_epoch_share epoch_point (g_epochkg g) ep.
Proof using.
  clear. revert s acts. induction l as [|i l IH] using rev_ind; intros s acts E Hin; [injection E as _ <-; by apply elem_of_nil in Hin|].
  apply decisions_snoc in E as (s1 & acts1 & a & E1 & E2 & ->). rewrite mjoin_app in Hin. apply elem_of_app in Hin as [Hin|Hin].
  - destruct (IH _ _ E1 Hin) as (g & Hg & -> & ->). destruct (step_keeps _ _ _ _ _ _ E2 Hg) as (g' & Hg' & _ & _ & S3 & S4). exists g'. split; [done|]. split; [done|].
    unfold my_epoch_share. by rewrite S4.
  - cbn in Hin. rewrite app_nil_r in Hin. destruct (step_share _ _ _ _ _ _ _ _ _ _ E2 Hin) as (r & c & b & x & _ & _ & _ & _ & _ & _ & _ & _ & e & g & _ & Hf & -> & ->).
    exists g. split; [|done]. unfold find_ekg in Hf. apply find_some in Hf as [Hf _]. by apply elem_of_list_In.
Qed.

(** A share that a keyper submits is one of the key it holds for the eon, and it is valid under the keyper's own public key share. *)
Theorem C60_honest_share p m l s acts n ep sh : keyper_run p m l s acts → KKeyShare n ep sh ∈ mjoin acts → sized → sized_configs →
  ∃ g idx pk, g ∈ k_ekgs s ∧ g_eon g = n ∧ find_address (g_keypers g) (kp_me p) = Some idx ∧ ek_pkshares (g_epochkg g) !! N.to_nat idx = Some pk ∧ pair ggen sh = pair pk (epoch_point ep).
Proof using Hwf Hho.
  intros Hrun Hin Hs Hn. destruct (sent_from _ _ _ _ _ _ _ (kr_run _ _ _ _ _ _ _ _ _ Hrun) Hin) as (g & Hg & -> & ->).
  destruct (run_facts make_event chain plen epoch_point Hwf Hho _ _ _ _ _ Hrun) as ([_ _ I] & _). rewrite Forall_forall in I. specialize (I g Hg).
  apply ekg_holds in I as (st & b & c & idx & r & _ & ms & [_ (a & _ & _ & (pre & post & Ea & _)) K1 K2 [(cs & d & A1 & A2 & _ & A4) _] (T & _ & Q & U & V)] & _ & _ & _ & M1 & _); [|done..].
  assert (idx < N.of_nat (length (sc_keypers c)))%N as Hlt. { apply find_address_lookup in K2. apply lookup_lt_Some in K2. lia. }
  pose proof (run_frame _ _ _ A1) as (F1 & F2 & F3 & F4 & _). cbn in F1, F2, F3, F4.
  assert (Et : r_threshold r = sc_threshold c ∧ r_eon r = g_eon g). { clear -A2 F1 F3. apply compute_result_inv in A2 as (_ & ? & _ & _ & ->). done. }
  destruct Et as [Et Ee]. destruct (Hn a c) as [Ht Hn1]. { rewrite Ea. apply elem_of_app. right. by left. }
  destruct (C31_keys (g_eon g) (N.of_nat (length (sc_keypers c))) (sc_threshold c) idx cs d r Ht ltac:(lia) Hlt (A4 Hs) A1 A2) as (ps & _ & _ & _ & _ & Hpks & _ & Hsk & _).
  exists g, idx, (gsmul (sum_poly ps (Z.of_N idx + 1)) ggen). split; [done|]. apply handle_shares_static in M1 as (M1 & _). split; [rewrite M1; cbn; congruence|]. split; [congruence|].
  split. { rewrite V, Hpks, list_lookup_fmap, lookup_seq_lt by lia. cbn. by rewrite N_nat_Z. }
  unfold my_epoch_share, epoch_secret_key_share. rewrite Q. rewrite pair_smul_r, pair_smul_l. rewrite <-(gsmul_mod _ (r_sk r)), <-(gsmul_mod _ (sum_poly ps _)). by rewrite Hsk.
Qed.
(** ... so every keyper that holds a key for this eon accepts it. *)
Theorem C60_honest_accepted p m l s acts n ep sh p' m' l' s' acts' g' : keyper_run p m l s acts → KKeyShare n ep sh ∈ mjoin acts → sized → sized_configs →
  keyper_run p' m' l' s' acts' → g' ∈ k_ekgs s' → g_eon g' = n → settled n →
  ∃ idx, find_address (g_keypers g') (kp_me p) = Some idx ∧ ∀ eon, valid_share epoch_point (ek_pkshares (g_epochkg g')) ep (mkEpochShare eon ep idx sh) = true.
Proof using Hwf Hho.
  intros Hrun Hin Hs Hn Hrun' Hg' En Hset. destruct (C60_honest_share _ _ _ _ _ _ _ _ Hrun Hin Hs Hn) as (g & idx & pk & Hg & E & Hi & Hpk & Hv).
  destruct (C58_agreement_partial make_event chain plen epoch_point Hwf Hho _ _ _ _ _ _ _ _ _ _ g g' Hrun Hrun' Hg Hg' ltac:(congruence) ltac:(by rewrite E)) as (Q1 & _ & Q2 & _).
  exists idx. rewrite <-Q1, <-Q2. split; [done|]. intros eon. unfold valid_share. cbn [es_epoch es_sender es_share]. rewrite N.eqb_refl, Hpk. cbn [andb]. by apply bool_decide_eq_true.
Qed.
(** If a threshold of keypers have submitted their shares of an epoch's key, and these are on the chain after the eon's start (in the finalized phase of the eon), then a keyper that
    holds a key for the eon, has followed the chain to there and skipped no decision holds the key of the epoch; whatever else is on the chain. *)
Theorem C60_enough n ep st b (hs : list (keyper_params P * nat * list (kinput P K) * kstate P * list (list (kaction P)) * G1 P)) p m l s acts g :
  sized → sized_configs → settled n → started m n st b →
  keyper_run p m l s acts → keyper_run_no_skip p m l s acts → g ∈ k_ekgs s → g_eon g = n → (Z.of_nat (length (g_keypers g)) < 2 ^ 63)%Z → (0 < ek_threshold (g_epochkg g) < 2 ^ 63)%N →
  NoDup ((λ h, kp_me h.1.1.1.1.1) <$> hs) → (ek_threshold (g_epochkg g) ≤ N.of_nat (length hs))%N →
  (∀ p' m' l' s' acts' sh, (p', m', l', s', acts', sh) ∈ hs → keyper_run p' m' l' s' acts' ∧ KKeyShare n ep sh ∈ mjoin acts' ∧
    ∃ e, e ∈ of_kind KeyShare n (Pub m) ∧ ev_body e = BKeyShare (kp_me p') ep sh ∧ phase_at plen (ev_height e) st = finalized) →
  ∃ k, ek_keys (g_epochkg g) !! ep = Some (Some k) ∧ pair ggen k = pair (ek_pk (g_epochkg g)) (epoch_point ep).
Proof using Hwf Hho.
  intros Hs Hsc Hset Hst R1 R2 Hg En Hn Ht Hnd Hlen Hall. apply (C60_complete make_event chain plen epoch_point Hwf Hho p m l s acts g st b ep R2 Hg Hs Hn Ht); [by rewrite En|].
  set (V := valid_senders _ _ _ _).
  assert (Hin : ∀ h, h ∈ hs → ∃ idx, find_address (g_keypers g) (kp_me h.1.1.1.1.1) = Some idx ∧ idx ∈ V).
  { intros [[[[[p' m'] l'] s'] acts'] sh] Hh. destruct (Hall _ _ _ _ _ _ Hh) as (Hr & Hsh & e & He & Eb & Eph). cbn [fst]. assert (Ee : ev_eon e = n) by (by apply of_kind_elem in He as [_ ?]).
    destruct (C60_honest_accepted _ _ _ _ _ _ _ _ _ _ _ _ _ _ Hr Hsh Hs Hsc R1 Hg En Hset) as (idx & Hi & Hv). exists idx. split; [done|].
    unfold V, valid_senders. apply elem_of_list_to_set, elem_of_list_fmap. exists (mkEpochShare n ep idx sh). split; [done|]. apply elem_of_list_In, filter_In. split; [|apply Hv].
    apply elem_of_list_In. unfold final_shares_on_chain. apply elem_of_list_omap. exists e. split.
    - unfold in_phase. apply elem_of_list_In, filter_In. split; [|by apply Nat.eqb_eq]. apply elem_of_list_In. by rewrite En.
    - unfold share_msg. rewrite Eb, Hi. cbn. by rewrite Ee. }
  clearbody V. clear Hall. transitivity (length hs); [lia|].
  assert (∃ idxs : list N, Forall2 (λ h i, find_address (g_keypers g) (kp_me h.1.1.1.1.1) = Some i ∧ i ∈ V) hs idxs) as (idxs & HF).
  { clear -Hin. induction hs as [|h hs IH]; [exists []; constructor|]. destruct (Hin h ltac:(by left)) as (i & Hi). destruct IH as (idxs & HF); [intros h' Hh'; apply Hin; by right|]. exists (i :: idxs). by constructor. }
  assert (Hd : NoDup idxs).
  { apply NoDup_alt. intros i j x Hi Hj. destruct (Forall2_lookup_r _ _ _ _ _ HF Hi) as (h1 & A1 & B1 & _). destruct (Forall2_lookup_r _ _ _ _ _ HF Hj) as (h2 & A2 & B2 & _).
    apply find_address_lookup in B1, B2. rewrite B1 in B2. injection B2 as E. rewrite NoDup_alt in Hnd. apply (Hnd i j (kp_me h1.1.1.1.1.1)); rewrite list_lookup_fmap; [by rewrite A1|]. rewrite A2. cbn. by rewrite E. }
  rewrite (Forall2_length _ _ _ HF). assert (size (list_to_set idxs : gset N) = length idxs) as <- by (by apply size_list_to_set). apply subseteq_size. intros x Hx%elem_of_list_to_set. apply elem_of_list_lookup in Hx as (j & Hj).
  by destruct (Forall2_lookup_r _ _ _ _ _ HF Hj) as (h & _ & _ & ?).
Qed.
End Shares.

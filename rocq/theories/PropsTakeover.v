(** C73: a config that was accepted takes over when it is started and its keypers have checked in; bootstrapping.
    Vocabulary: AppSpec.v.  Model: AppModel.v. *)
From stdpp Require Import gmap list sorting.
From Coq Require Import NArith ZArith Lia.
From Verif Require Import AppModel AppSpec AppSteps VotingProofs AppInv AppProofs1 AppProofs2 AppProofs3 PowerProofs AppProofs4 AppProofs5 AppWitness.

(** ** Specification *)
(** during [tr], the chain accepted a transaction in which [x] votes for starting config [i] *)
Definition voted_start (O : oracles) (tr : trace) (i : N) (x : address) : Prop :=
  ∃ cl rr, (cl, rr) ∈ tr ∧ delivers O cl x (MBatchConfigStarted i) ∧ rsp_code rr = 0%N.
(** [tx] is a transaction with payload [p], signed by [a] for this chain, with a nonce not yet used *)
Definition fresh_tx (O : oracles) (p : payload) (s : app) (a : address) (tx : bytes) : Prop :=
  ∃ msg, decode_tx O tx = Some (a, msg) ∧ msg_payload msg = p ∧ msg_chain_id msg = chain_id s ∧ (a, msg_nonce msg) ∉ nonces s.

(** ** Proofs *)
Lemma quiet_snoc tr c r : ¬ announces_config (tr ++ [(c, r)]) → ¬ announces_config tr ∧ ∀ bc, EvBatchConfig bc ∉ rsp_events r.
Proof.
  intros H. split; [intros [bc Hb]|intros bc Hb]; apply H; exists bc; rewrite events_of_app; [set_solver|]. rewrite events_of_one. set_solver.
Qed.
Lemma not_init_snoc (tr : trace) c r : Forall not_init (tr ++ [(c, r)]).*1 ↔ Forall not_init tr.*1 ∧ not_init c.
Proof. rewrite fmap_app, Forall_app. change ([(c, r)].*1) with [c]. by rewrite Forall_singleton. Qed.
Lemma step_quiet O s c s' r pre l : step O s c = Some (s', r) → not_init c → (∀ bc, EvBatchConfig bc ∉ rsp_events r) → configs s = pre ++ [l] →
  ∃ l', configs s' = pre ++ [l'] ∧ evolves l l'.
Proof.
  intros Hs Hc Hq E. apply step_configs in Hs as [(pre1 & l1 & l2 & E1 & He & E2)|[E1|[H|H]]].
  - rewrite E in E1. apply last_snoc_inj in E1 as [<- <-]. by exists l2.
  - exists l. rewrite E1. split; [done|apply evolves_refl].
  - destruct H as (_ & _ & _ & _ & _ & bc & _ & _ & _ & _ & _ & _ & _ & _ & Hb). by apply Hq in Hb.
  - destruct H as (ks & t & vs & cid & _ & -> & _). done.
Qed.
Lemma quiet_configs O s tr s' pre l : exec O s tr s' → Forall not_init tr.*1 → ¬ announces_config tr → configs s = pre ++ [l] →
  ∃ l', configs s' = pre ++ [l'] ∧ evolves l l'.
Proof.
  intros He. induction He as [|s tr s1 c r s2 He IH Hv Hs]; intros Hn Hq E; [exists l; split; [done|apply evolves_refl]|].
  apply not_init_snoc in Hn as [Hn Hc]. apply quiet_snoc in Hq as [Hq Hr]. destruct (IH Hn Hq E) as (l1 & E1 & V1).
  destruct (step_quiet _ _ _ _ _ _ _ Hs Hc Hr E1) as (l2 & E2 & V2). exists l2. split; [done|by eapply evolves_trans].
Qed.
Lemma end_block_takes s s1 q p l : configs s = q ++ [p; l] → end_block_flags s = Some s1 →
  cf_started l = true ∨ (cf_threshold p ≤ N.of_nat (size (started_votes s)))%N →
  ∃ l', configs s1 = q ++ [p; l'] ∧ same_config l l' ∧ cf_started l' = true ∧ ((cf_threshold l ≤ count_checked_in s (cf_keypers l))%N → cf_vupdated l' = true).
Proof.
  intros E H Hst. unfold end_block_flags in H. assert (E' : configs s = (q ++ [p]) ++ [l]) by (by rewrite E, <-app_assoc).
  assert (Hl : last_config s = Some l) by (unfold last_config; rewrite E'; apply last_snoc). rewrite Hl in H. cbn [mbind option_bind] in H.
  assert (Hlen : (2 <=? length (configs s)) = true) by (rewrite E, app_length; apply Nat.leb_le; cbn; lia). rewrite Hlen in H.
  assert (Hp : configs s !! (length (configs s) - 2) = Some p).
  { rewrite E, app_length. cbn [length]. replace (length q + 2 - 2) with (length q) by lia. rewrite lookup_app_r, Nat.sub_diag by done. done. }
  rewrite Hp in H. cbn [mbind option_bind fmap option_fmap option_map] in H. injection H as <-.
  match goal with |- context [set_last _ ?x] => set (l' := x) end. exists l'. cbn.
  assert (Hset : ∀ cs, cs = configs s → set_last cs l' = q ++ [p; l']).
  { intros cs ->. unfold set_last. rewrite E', removelast_last. by rewrite <-app_assoc. }
  split; [apply Hset; by destruct (_ <=? _)%N|].
  unfold l'. destruct (N.leb_spec (cf_threshold p) (N.of_nat (size (started_votes s)))) as [Hle|Hgt].
  - destruct (_ && _ && _)%bool eqn:Hb; cbn in *; [done|]. split; [done|]. split; [done|]. intros Hc. apply N.leb_le in Hc. rewrite Hc in Hb. by destruct (cf_vupdated l).
  - destruct Hst as [Hst|]; [|lia]. destruct (_ && _ && _)%bool eqn:Hb; cbn in *; [done|]. split; [done|]. split; [done|]. intros Hc. apply N.leb_le in Hc.
    rewrite Hst, Hc in Hb. by destruct (cf_vupdated l).
Qed.

(** the votes are counted until the config is started *)
Lemma step_start_votes O s c s' r q pv l : step O s c = Some (s', r) → not_init c → configs s = q ++ [pv; l] → (∀ bc, EvBatchConfig bc ∉ rsp_events r) →
  ∃ l', configs s' = q ++ [pv; l'] ∧ evolves l l' ∧ (cf_started l' = true ∨
    started_votes s ⊆ started_votes s' ∧ ∀ x, delivers O c x (MBatchConfigStarted (cf_index l)) → rsp_code r = 0%N → x ∈ started_votes s').
Proof.
  intros Hs Hc E Hq. assert (E' : configs s = (q ++ [pv]) ++ [l]) by (by rewrite E, <-app_assoc).
  destruct (step_quiet _ _ _ _ _ _ _ Hs Hc Hq E') as (l' & E2 & Hev). exists l'. split; [by rewrite E2, <-app_assoc|]. split; [done|].
  destruct c as [ks t vs cid|tx|tx ord|h|]; [done| | | |].
  - right. cbn [step] in Hs. injection Hs as H. unfold check_tx in H. split; [repeat case_match; by simplify_eq|]. intros x (tx' & ord & m & ? & _). done.
  - cbn [step] in Hs. apply deliver_tx_cases in Hs as [[-> ->]|(a & m & D & _ & _ & Hm)].
    { right. split; [done|]. intros x _ ?. done. }
    assert (Hdel : ∀ x pl, delivers O (CDeliverTx tx ord) x pl → x = a ∧ msg_payload m = pl).
    { intros x pl (tx' & ord' & m' & [= <- <-] & D' & Hp). rewrite D in D'. by simplify_eq. }
    remember (msg_payload m) as pl eqn:Hpl. destruct_mstep Hm.
    all: try (right; split; [done|]; intros x Hx Hcode; apply Hdel in Hx as [_ Hx]; try discriminate Hx; try discriminate Hcode; fail).
    + left. cbn in Hl. unfold last_config in Hl. cbn in Hl, E2. rewrite E', last_snoc in Hl. injection Hl as <-. rewrite E' in E2. apply last_snoc_inj in E2 as [_ <-]. done.
    + right. cbn. split; [set_solver|]. intros x Hx _. apply Hdel in Hx as [-> _]. set_solver.
  - pose proof Hs as Hs'. apply end_block_form in Hs as (s3 & Hf & _ & _ & _ & E3 & _ & Hsv & _).
    apply end_block_flags_spec in Hf as (pre & l0 & l1 & Ea & _ & _ & [->|(-> & Hst & _)]); cbn in Hsv, E3.
    + right. rewrite Hsv. split; [done|]. intros x (tx' & ord & m & ? & _). done.
    + left. rewrite E2 in E3. by apply last_snoc_inj in E3 as [_ ->].
  - right. cbn [step] in Hs. injection Hs as <- <-. split; [done|]. intros x (tx' & ord & m & ? & _). done.
Qed.
Lemma start_votes O s tr s' q p l : exec O s tr s' → Forall not_init tr.*1 → ¬ announces_config tr → configs s = q ++ [p; l] →
  ∃ l', configs s' = q ++ [p; l'] ∧ evolves l l' ∧ (cf_started l' = true ∨ ∀ x, voted_start O tr (cf_index l) x → x ∈ started_votes s').
Proof.
  intros He. induction He as [|s tr s1 c r s2 He IH Hv Hs]; intros Hn Hq E.
  { exists l. split; [done|]. split; [apply evolves_refl|]. right. intros x (cl & rr & Hx & _). by apply elem_of_nil in Hx. }
  apply not_init_snoc in Hn as [Hn Hc]. apply quiet_snoc in Hq as [Hq Hr]. destruct (IH Hn Hq E) as (l1 & E1 & V1 & H1).
  destruct (step_start_votes _ _ _ _ _ _ _ _ Hs Hc E1 Hr) as (l2 & E2 & V2 & H2). exists l2. split; [done|]. split; [by eapply evolves_trans|].
  destruct H1 as [H1|H1]; [left; by apply V2|]. destruct H2 as [H2|[H2 H3]]; [by left|]. right.
  intros x (cl & rr & Hx & Hd & Hcode). apply elem_of_app in Hx as [Hx|Hx%elem_of_list_singleton].
  - apply H2, H1. by exists cl, rr.
  - injection Hx as -> ->. apply H3; [|done]. destruct V1 as [(_ & _ & _ & _ & <-) _]. done.
Qed.
Lemma voters_size (X : gset address) vs : NoDup vs → (∀ x, x ∈ vs → x ∈ X) → length vs ≤ size X.
Proof.
  intros Hn H. rewrite <-(size_list_to_set (C := gset address) vs) by done. apply subseteq_size. intros x Hx%elem_of_list_to_set. by apply H.
Qed.

(** ** C73 *)
(** which votes for starting a config count *)
Theorem C73_start_vote_iff O s p l a i tx ord s' r : last_two s p l → fresh_tx O (MBatchConfigStarted i) s a tx → step O s (CDeliverTx tx ord) = Some (s', r) →
  rsp_code r = 0%N ↔ i = cf_index l ∧ a ∈ cf_keypers p.
Proof.
  intros [q E] (m & D & Hp & Hid & Hn) Hs. cbn [step] in Hs. unfold deliver_tx in Hs. rewrite D in Hs.
  rewrite bool_decide_eq_true_2 in Hs by done. cbn [negb] in Hs. rewrite bool_decide_eq_false_2 in Hs by done. rewrite Hp in Hs.
  cbn [deliver_message] in Hs. fold (with_nonce s a m) in Hs. unfold deliver_config_started in Hs. rewrite with_nonce_last in Hs.
  assert (E' : configs s = (q ++ [p]) ++ [l]) by (by rewrite E, <-app_assoc).
  assert (Hl : last_config s = Some l) by (unfold last_config; rewrite E'; apply last_snoc). rewrite Hl in Hs. cbn [mbind option_bind] in Hs.
  change (configs (with_nonce s a m)) with (configs s) in Hs.
  assert (Hlen : (length (configs s) <=? 1) = false) by (rewrite E, app_length; apply Nat.leb_gt; cbn; lia). rewrite Hlen in Hs.
  assert (Hpp : configs s !! (length (configs s) - 2) = Some p).
  { rewrite E, app_length. cbn [length]. replace (length q + 2 - 2) with (length q) by lia. rewrite lookup_app_r, Nat.sub_diag by done. done. }
  rewrite Hpp in Hs. cbn [mbind option_bind] in Hs. destruct (N.eqb_spec i (cf_index l)) as [->|Hi]; cbn [negb] in Hs.
  - destruct (is_keyper p a) eqn:Hk; cbn [negb] in Hs; injection Hs as <- <-; cbn.
    + apply is_keyper_true in Hk. done.
    + split; [done|]. intros [_ Hk']. apply is_keyper_true in Hk'. congruence.
  - injection Hs as <- <-. cbn. split; [done|]. by intros [? _].
Qed.

(** with enough votes for starting the last config, it is started at the next end of a block *)
Theorem C73_started O s0 p l tr s h s' r vs : last_two s0 p l → exec O s0 tr s → Forall not_init tr.*1 → ¬ announces_config tr →
  NoDup vs → (∀ x, x ∈ vs → voted_start O tr (cf_index l) x) → (cf_threshold p ≤ N.of_nat (length vs))%N → step O s (CEndBlock h) = Some (s', r) →
  ∃ l', last_two s' p l' ∧ same_config l l' ∧ cf_started l' = true.
Proof.
  intros [q E] He Hn Hq Hnd Hvs Hlen Hs. destruct (start_votes _ _ _ _ _ _ _ He Hn Hq E) as (l1 & E1 & V1 & H1).
  apply end_block_form in Hs as (s3 & Hf & _ & _ & _ & E3 & _).
  destruct (end_block_takes _ _ _ _ _ E1 Hf) as (l2 & E2 & V2 & Hst & _).
  { destruct H1 as [H1|H1]; [by left|right]. pose proof (voters_size (started_votes s) vs Hnd ltac:(auto)). lia. }
  exists l2. split; [exists q; congruence|]. split; [|done]. eapply same_config_trans; [apply V1|done].
Qed.

(** ... and if enough of its keypers have checked in, the validators are from then on its keypers, each with the key he checked in with *)
Theorem C73_takes_over O ks t vals cid g0 r0 trA s0 p l tr s h s' r vs cs : NoDup vals.*1 → (∀ k w, (k, w) ∈ vals → (0 < w)%Z) → step O (new_app false) (CInitChain ks t vals cid) = Some (g0, r0) →
  exec O g0 trA s0 → Forall not_init trA.*1 → last_two s0 p l → exec O s0 tr s → Forall not_init tr.*1 → ¬ announces_config tr →
  NoDup vs → (∀ x, x ∈ vs → voted_start O tr (cf_index l) x) → (cf_threshold p ≤ N.of_nat (length vs))%N →
  NoDup cs → (∀ x, x ∈ cs → x ∈ cf_keypers l ∧ x ∈ checkins_of (trA ++ tr)) → (cf_threshold l ≤ N.of_nat (length cs))%N →
  step O s (CEndBlock h) = Some (s', r) →
  ∀ k, power (tendermint_validators (list_to_map vals) (trA ++ tr ++ [(CEndBlock h, r)])) k = (10 * keypers_with_key (identities s') (cf_keypers l) k)%Z.
Proof.
  intros Hnv Hpos H0 HeA HnA [q E] He Hn Hq Hvn Hvs Hvl Hcn Hcs Hcl Hs k.
  destruct (genesis_validators _ _ _ _ _ _ _ _ Hnv H0) as (Hg & _ & _ & _ & Hdev).
  assert (HeT : exec O g0 (trA ++ tr) s) by (eapply exec_app; eauto).
  assert (HnT : Forall not_init (trA ++ tr).*1) by (rewrite fmap_app; by apply Forall_app).
  assert (HeF : exec O g0 (trA ++ tr ++ [(CEndBlock h, r)]) s') by (rewrite app_assoc; eapply exec_snoc; eauto; done).
  assert (HnF : Forall not_init (trA ++ tr ++ [(CEndBlock h, r)]).*1) by (rewrite app_assoc; apply not_init_snoc; done).
  destruct (validators_tracked _ _ _ _ HeF HnF Hdev) as (Ht & _ & _).
  { rewrite Hg. by apply list_to_map_no_zero. }
  rewrite <-Hg, <-Ht.
  destruct (start_votes _ _ _ _ _ _ _ He Hn Hq E) as (l1 & E1 & V1 & H1).
  pose proof (end_block_form _ _ _ _ _ Hs) as (s3 & Hf & _ & _ & _ & E3 & _).
  destruct (end_block_takes _ _ _ _ _ E1 Hf) as (l2 & E2 & V2 & Hst & Hup).
  { destruct H1 as [H1|H1]; [by left|right]. pose proof (voters_size (started_votes s) vs Hvn ltac:(auto)). lia. }
  assert (Hact : active l2).
  { split; [done|]. apply Hup. destruct V1 as [(_ & Ek & Eth & _) _]. rewrite <-Eth, <-Ek. etrans; [exact Hcl|].
    unfold count_checked_in. assert (length cs ≤ length (filter (λ a, is_Some (identities s !! a)) (cf_keypers l))); [|lia].
    apply submseteq_length, NoDup_submseteq; [done|]. intros x Hx. destruct (Hcs x Hx) as [Hx1 Hx2]. apply elem_of_list_filter. split; [|done].
    assert (Hh : history O ([(CInitChain ks t vals cid, r0)] ++ (trA ++ tr)) s).
    { exists false. eapply exec_app; [|exact HeT]. by eapply exec_one. }
    destruct (identities_sound _ _ _ Hh) as (_ & Hi & _). apply Hi. unfold checkins_of. rewrite events_of_app, omap_app. apply elem_of_app. by right. }
  destruct (validators_backed _ _ _ _ _ _ _ _ _ _ _ _ _ Hnv H0 HeT HnT Hs) as [[Hno _]|(c & Hc & Hp & _)].
  - exfalso. rewrite E3, E2 in Hno. rewrite Forall_forall in Hno. apply (Hno l2); [set_solver|done].
  - rewrite E3, E2 in Hc. assert (c = l2) as ->.
    { destruct Hc as (a & b & Eab & _ & Hb). destruct b as [|y b _] using rev_ind.
      - change (q ++ [p; l2]) with (q ++ [p] ++ [l2]) in Eab. rewrite app_assoc in Eab. by apply last_snoc_inj in Eab as [_ <-].
      - exfalso. change (q ++ [p; l2]) with (q ++ [p] ++ [l2]) in Eab. rewrite app_assoc in Eab.
        change (a ++ c :: b ++ [y]) with (a ++ (c :: b) ++ [y]) in Eab. rewrite app_assoc in Eab. apply last_snoc_inj in Eab as [_ <-].
        apply Forall_app in Hb as [_ Hb]. by apply Forall_inv in Hb. }
    rewrite Hp. destruct V1 as [(_ & Ek & _) _], V2 as (_ & Ek2 & _). by rewrite Ek, Ek2.
Qed.

(** ** Bootstrapping *)
(** on a chain whose genesis config has threshold 1 and on which no config has been announced yet, the two transactions of bootstrap of a
    genesis keyper announce the config, start a key generation for it unless the current one is for the same keypers and threshold, and
    start the config, whatever else is in between as long as no further config is announced *)
Theorem C73_bootstrap O dev ks vals cid g0 r0 trA s0 m bc a tx1 ord1 s1 r1 trB s2 tx2 ord2 s3 r2 trC s4 h s5 r5 : NoDup vals.*1 →
  step O (new_app dev) (CInitChain ks 1 vals cid) = Some (g0, r0) → exec O g0 trA s0 → Forall not_init trA.*1 → ¬ announces_config trA →
  a ∈ ks → config_from_message m = Some bc → acceptable_after (genesis_config ks 1) bc →
  fresh_tx O (MBatchConfig m) s0 a tx1 → valid_order ord1 → step O s0 (CDeliverTx tx1 ord1) = Some (s1, r1) →
  exec O s1 trB s2 → Forall not_init trB.*1 → ¬ announces_config trB →
  fresh_tx O (MBatchConfigStarted (cf_index bc)) s2 a tx2 → valid_order ord2 → step O s2 (CDeliverTx tx2 ord2) = Some (s3, r2) →
  exec O s3 trC s4 → Forall not_init trC.*1 → ¬ announces_config trC → step O s4 (CEndBlock h) = Some (s5, r5) →
  (rsp_code r1 = 0%N ∧ EvBatchConfig bc ∈ rsp_events r1 ∧
    ((∃ eon, EvEonStarted eon (cf_start bc) ∈ rsp_events r1) ∨
     (∃ d, dkg_map s0 !! eon_counter s0 = Some d ∧ cf_keypers (dkg_config d) = cf_keypers bc ∧ cf_threshold (dkg_config d) = cf_threshold bc))) ∧
  rsp_code r2 = 0%N ∧ (∃ p l, last_two s5 p l ∧ same_config bc l ∧ cf_started l = true ∧ same_config (genesis_config ks 1) p).
Proof.
  intros Hnv H0 HeA HnA HqA Ha Hm Hok Hf1 Ho1 Hs1 HeB HnB HqB Hf2 Ho2 Hs2 HeC HnC HqC Hs5.
  destruct (genesis_validators _ _ _ _ _ _ _ _ Hnv H0) as (_ & Hcf0 & _ & _ & _).
  assert (Hne0 : configs g0 ≠ [zero_config]) by (rewrite Hcf0; intros [= ->]; set_solver).
  destruct (quiet_configs _ _ _ _ [] (genesis_config ks 1) HeA HnA HqA Hcf0) as (g & Eg & Vg). rewrite app_nil_l in Eg.
  assert (Hh : history O ([(CInitChain ks 1 vals cid, r0)] ++ trA) s0).
  { exists dev. eapply exec_app; [|exact HeA]. by eapply exec_one. }
  pose proof (history_Inv _ _ _ Hh) as HI.
  assert (Hl : last_config s0 = Some g) by (unfold last_config; by rewrite Eg).
  pose proof Vg as ((G1 & G2 & G3 & _ & G5) & _). cbn in G1, G2, G3, G5.
  assert (Hthr : (cf_threshold g < 2 ^ 63)%N) by (rewrite <-G3; done).
  assert (Hvote : vt_votes (config_voting s0) !! a = None).
  { destruct (vt_votes (config_voting s0) !! a) as [i|] eqn:Hi; [exfalso|done].
    destruct (inv_cv_wf s0 HI) as [_ Hw]. destruct (Hw a i Hi) as [c Hc]. destruct (inv_cv s0 HI g Hl) as [Hnw _]. rewrite int_of_uint64_small, <-G3 in Hnw by done.
    pose proof (supporters_bound (config_voting s0) c _ [a] (inv_cv_wf s0 HI) Hnw) as Hb. cbn in Hb. enough (1 < 1)%Z by lia. apply Hb; [by apply NoDup_singleton|done|].
    intros b Hb'%elem_of_list_singleton. subst. by exists i. }
  assert (Hne : configs s0 ≠ [zero_config]).
  { rewrite Eg. intros [= ->]. cbn in G2. subst ks. set_solver. }
  destruct (config_progress O _ s0 g m bc [] [a] [tx1] Hh Hne Hl Hthr Hm) as (txs1 & txs2 & tr' & s' & Etx & He' & Htr & Hev & Hl').
  { destruct Hok as (? & ? & ? & ? & ? & ?). cbn in *. split_and!; try done; [by rewrite <-G1|by rewrite <-G5]. }
  { by apply NoDup_singleton. }
  { intros ? []%elem_of_nil. }
  { intros b ->%elem_of_list_singleton. split; [by rewrite <-G2|done]. }
  { rewrite <-G3. done. }
  { by constructor. }
  destruct txs1 as [|tx txs1].
  { exfalso. destruct tr'; [|done]. by apply elem_of_nil in Hev. }
  injection Etx as <- Etx. symmetry in Etx. apply app_eq_nil in Etx as [-> ->]. cbn in Htr.
  destruct tr' as [|[c1 r1'] [|]]; [done| |done]. injection Htr as ->.
  apply (exec_snoc_inv O s0 [] _ _ s') in He' as (s0' & He0 & _ & He'). apply exec_nil_inv in He0 as ->.
  rewrite (step_order_indep O s0 (CDeliverTx tx1 id) (CDeliverTx tx1 ord1) HI) in He'; [|intros x; done|done|done].
  rewrite Hs1 in He'. injection He' as <- <-. rewrite events_of_one in Hev.
  assert (Hc1 : configs s1 = [g; bc] ∧ rsp_code r1 = 0%N ∧ ((∃ eon, EvEonStarted eon (cf_start bc) ∈ rsp_events r1) ∨
     (∃ d, dkg_map s0 !! eon_counter s0 = Some d ∧ cf_keypers (dkg_config d) = cf_keypers bc ∧ cf_threshold (dkg_config d) = cf_threshold bc))).
  { destruct Hf1 as (msg & D & Hp & _). pose proof Hs1 as Hs1'. cbn [step] in Hs1'. apply deliver_tx_cases in Hs1' as [[-> ->]|(b & m1 & D' & _ & _ & Hms)].
    { by apply elem_of_nil in Hev. }
    rewrite D in D'. injection D' as <- <-. rewrite Hp in Hms. inversion Hms; subst; cbn in Hev; try (by apply elem_of_nil in Hev).
    - assert (bc0 = bc) as -> by congruence. cbn. rewrite Eg. split; [done|]. split; [done|]. right.
      match goal with H : should_start_dkg _ bc = false |- _ => unfold should_start_dkg in H; cbn in H; destruct (dkg_map s0 !! eon_counter s0) as [d|]; [|done];
        exists d; split; [done|]; destruct (N.eqb_spec (cf_threshold (dkg_config d)) (cf_threshold bc)); [|done]; cbn in H; case_bool_decide; done end.
    - assert (bc0 = bc) as -> by congruence. cbn. rewrite Eg. split; [done|]. split; [done|]. left. exists (u64 (eon_counter s0 + 1)). apply elem_of_cons. right. by apply elem_of_list_singleton. }
  destruct Hc1 as (Hc1 & Hcode1 & Hdkg). split; [done|].
  destruct (quiet_configs _ _ _ _ [g] bc HeB HnB HqB Hc1) as (l2 & E2 & V2). change ([g] ++ [l2]) with [g; l2] in E2.
  assert (HL2 : last_two s2 g l2) by (by exists []).
  assert (Hi2 : cf_index bc = cf_index l2) by (destruct V2 as [(_ & _ & _ & _ & ->) _]; done).
  assert (Hcode2 : rsp_code r2 = 0%N).
  { apply (C73_start_vote_iff O s2 g l2 a _ tx2 ord2 s3 r2 HL2 Hf2 Hs2). split; [done|]. by rewrite <-G2. }
  split; [done|].
  assert (Hq2 : ∀ b, EvBatchConfig b ∉ rsp_events r2).
  { intros b Hb. destruct Hf2 as (msg & D & Hp & _). cbn [step] in Hs2. apply deliver_tx_cases in Hs2 as [[-> ->]|(b' & m1 & D' & _ & _ & Hms)]; [by apply elem_of_nil in Hb|].
    rewrite D in D'. injection D' as <- <-. rewrite Hp in Hms. inversion Hms; subst; by apply elem_of_nil in Hb. }
  assert (HeT : exec O s2 ([(CDeliverTx tx2 ord2, r2)] ++ trC) s4) by (eapply exec_app; [by eapply exec_one|done]).
  destruct (C73_started O s2 g l2 ([(CDeliverTx tx2 ord2, r2)] ++ trC) s4 h s5 r5 [a] HL2 HeT) as (l5 & HL5 & V5 & Hst).
  - by constructor.
  - intros [b Hb]. rewrite events_of_app, events_of_one in Hb. apply elem_of_app in Hb as [Hb|Hb]; [by apply Hq2 in Hb|]. apply HqC. by exists b.
  - by apply NoDup_singleton.
  - intros x ->%elem_of_list_singleton. exists (CDeliverTx tx2 ord2), r2. split; [set_solver|]. split; [|done].
    destruct Hf2 as (msg & D & Hp & _). exists tx2, ord2, msg. rewrite <-Hi2. done.
  - rewrite <-G3. done.
  - done.
  - exists g, l5. split; [done|]. split; [eapply same_config_trans; [apply V2|done]|]. split; [done|apply Vg].
Qed.
(** as long as no config has been announced, votes for starting one are rejected: with a higher genesis threshold, bootstrap's second
    transaction fails unless other keypers voted before *)
Theorem C73_bootstrap_too_early O dev ks t vals cid g0 r0 trA s0 i a tx ord s1 r1 : NoDup vals.*1 → step O (new_app dev) (CInitChain ks t vals cid) = Some (g0, r0) →
  exec O g0 trA s0 → Forall not_init trA.*1 → ¬ announces_config trA → fresh_tx O (MBatchConfigStarted i) s0 a tx → step O s0 (CDeliverTx tx ord) = Some (s1, r1) →
  rsp_code r1 = 1%N.
Proof.
  intros Hnv H0 HeA HnA HqA (m & D & Hp & _) Hs. destruct (genesis_validators _ _ _ _ _ _ _ _ Hnv H0) as (_ & Hcf0 & _ & _ & _).
  destruct (quiet_configs _ _ _ _ [] (genesis_config ks t) HeA HnA HqA Hcf0) as (g & Eg & _). rewrite app_nil_l in Eg.
  cbn [step] in Hs. apply deliver_tx_cases in Hs as [[-> ->]|(b & m1 & D' & _ & _ & Hms)]; [done|].
  rewrite D in D'. injection D' as <- <-. rewrite Hp in Hms. inversion Hms; subst; [done|..]; exfalso.
  all: match goal with H : 2 ≤ length (configs _) |- _ => cbn in H; rewrite Eg in H; cbn in H; lia end.
Qed.

(** ** Witness: keyper 1 bootstraps the config of 4, 5 and 6 while 4 and 5 check in *)
Definition w73_msgs : list (address * payload) :=
  [(2, MCheckIn (key32 102) [52]); (1, raw 10 [4; 5; 6] 2 1 false false); (4, MCheckIn (key32 104) [54]); (1, MBatchConfigStarted 1); (5, MCheckIn (key32 105) [55]);
   (7, MBatchConfigStarted 1)]%N.
Definition w73_O : oracles := table_oracles w73_msgs.
Definition quietb (tr : trace) : bool := forallb (λ e, match e with EvBatchConfig _ => false | _ => true end) (events_of tr).
Lemma quietb_ok tr : quietb tr = true → ¬ announces_config tr.
Proof. intros H [c Hc]. unfold quietb in H. rewrite forallb_forall in H. specialize (H _ (proj1 (elem_of_list_In _ _) Hc)). done. Qed.
Definition w73_config : config := cfg 10 [4; 5; 6]%N 2 1 false false.
Definition fresh_b (i : N) (s : app) (a : address) (p : payload) : bool :=
  match decode_tx w73_O [i] with Some (b, m) => bool_decide (b = a) && bool_decide (msg_chain_id m = chain_id s) && bool_decide ((a, msg_nonce m) ∉ nonces s) | None => false end.
Lemma fresh_b_ok i s a p : fresh_b i s a p = true → snd <$> w73_msgs !! N.to_nat i = Some p → fresh_tx w73_O p s a [i].
Proof.
  unfold fresh_b. intros H Hp. destruct (decode_tx w73_O [i]) as [[b m]|] eqn:D; [|done]. apply andb_true_iff in H as [[H1 H2]%andb_true_iff H3].
  apply bool_decide_eq_true in H1, H2, H3. subst b. exists m. split; [done|]. split; [|done].
  unfold w73_O, table_oracles in D. cbn [decode_tx] in D. destruct (w73_msgs !! N.to_nat i) as [[b q]|]; [|done]. cbn in Hp. injection D as <- <-. cbn. congruence.
Qed.
Definition w73_genesis : call := CInitChain [1; 2]%N 1 [(key32 200, 10%Z)] [99]%N.
Definition w73_raw : raw_config := mkRawConfig 10 (addr20 <$> [4; 5; 6]%N) 2 (addr20 77) 1 false false.
Definition w73_check : bool :=
  match step w73_O (new_app false) w73_genesis with None => false | Some (g0, r0) =>
  match run w73_O g0 [CEndBlock 1; CCommit; tx 0] with None => false | Some (trA, s0) =>
  match step w73_O s0 (tx 1) with None => false | Some (s1, r1) =>
  match run w73_O s1 [tx 2; CCheckTx [3]%N] with None => false | Some (trB, s2) =>
  match step w73_O s2 (tx 3) with None => false | Some (s3, r2) =>
  match run w73_O s3 [tx 4; tx 5] with None => false | Some (trC, s4) =>
  match step w73_O s4 (CEndBlock 2) with None => false | Some (s5, r5) =>
    quietb trA && quietb trB && quietb trC && fresh_b 1 s0 1%N (MBatchConfig w73_raw) && fresh_b 3 s2 1%N (MBatchConfigStarted 1) &&
    bool_decide (configs s1 = [genesis_config [1; 2]%N 1; w73_config]) && bool_decide (rsp_code r2 = 0%N) &&
    bool_decide (4%N ∈ checkins_of (trB ++ [(tx 3, r2)] ++ trC)) && bool_decide (5%N ∈ checkins_of (trB ++ [(tx 3, r2)] ++ trC)) &&
    bool_decide (tendermint_validators (list_to_map [(key32 200, 10%Z)]) (trA ++ [(tx 1, r1)] ++ (trB ++ [(tx 3, r2)] ++ trC) ++ [(CEndBlock 2, r5)]) =
      {[ key32 104 := 10%Z; key32 105 := 10%Z; non_existent_validator := 10%Z ]})
  end end end end end end end.
Lemma w73_ok : ltac:(let t := eval unfold w73_check in (w73_check = true) in exact t).
Proof. vm_compute. reflexivity. Qed.
Example C73_witness : ∃ g0 r0 trA s0 s1 r1 trB s2 s3 r2 trC s4 s5 r5 m,
  step w73_O (new_app false) w73_genesis = Some (g0, r0) ∧ exec w73_O g0 trA s0 ∧ Forall not_init trA.*1 ∧ ¬ announces_config trA ∧
  config_from_message m = Some w73_config ∧ acceptable_after (genesis_config [1; 2]%N 1) w73_config ∧
  fresh_tx w73_O (MBatchConfig m) s0 1%N [1%N] ∧ step w73_O s0 (tx 1) = Some (s1, r1) ∧ exec w73_O s1 trB s2 ∧ Forall not_init trB.*1 ∧ ¬ announces_config trB ∧
  fresh_tx w73_O (MBatchConfigStarted 1) s2 1%N [3%N] ∧ step w73_O s2 (tx 3) = Some (s3, r2) ∧ exec w73_O s3 trC s4 ∧ Forall not_init trC.*1 ∧ ¬ announces_config trC ∧
  step w73_O s4 (CEndBlock 2) = Some (s5, r5) ∧
  (* and for C73_takes_over *)
  last_two s1 (genesis_config [1; 2]%N 1) w73_config ∧ voted_start w73_O ([(tx 3, r2)]) 1 1%N ∧
  (∀ x, x ∈ [4; 5]%N → x ∈ cf_keypers w73_config ∧ x ∈ checkins_of (trB ++ [(tx 3, r2)] ++ trC)) ∧
  tendermint_validators (list_to_map [(key32 200, 10%Z)]) (trA ++ [(tx 1, r1)] ++ (trB ++ [(tx 3, r2)] ++ trC) ++ [(CEndBlock 2, r5)]) =
    {[ key32 104 := 10%Z; key32 105 := 10%Z; non_existent_validator := 10%Z ]}.
Proof.
  pose proof w73_ok as H.
  destruct (step w73_O (new_app false) w73_genesis) as [[g0 r0]|]; [|discriminate H].
  destruct (run w73_O g0 _) as [[trA s0]|] eqn:EA; [|discriminate H]. apply run_exec in EA as [EA CA]; [|by valid_calls].
  destruct (step w73_O s0 _) as [[s1 r1]|] eqn:E1; [|discriminate H].
  destruct (run w73_O s1 _) as [[trB s2]|] eqn:EB; [|discriminate H]. apply run_exec in EB as [EB CB]; [|by valid_calls].
  destruct (step w73_O s2 _) as [[s3 r2]|] eqn:E2; [|discriminate H].
  destruct (run w73_O s3 _) as [[trC s4]|] eqn:EC; [|discriminate H]. apply run_exec in EC as [EC CC]; [|by valid_calls].
  destruct (step w73_O s4 _) as [[s5 r5]|] eqn:E5; [|discriminate H].
  repeat match goal with H : (_ && _)%bool = true |- _ => apply andb_true_iff in H as [? ?] end.
  repeat match goal with H : bool_decide _ = true |- _ => apply bool_decide_eq_true in H end.
  repeat match goal with H : quietb _ = true |- _ => apply quietb_ok in H end.
  exists g0, r0, trA, s0, s1, r1, trB, s2, s3, r2, trC, s4, s5, r5, w73_raw.
  split; [done|]. split; [done|]. split; [rewrite CA; by repeat constructor|]. split; [done|].
  split; [vm_compute; reflexivity|]. split; [unfold acceptable_after; cbn; split_and!; done|].
  split; [by apply fresh_b_ok|]. split; [done|]. split; [done|]. split; [rewrite CB; by repeat constructor|]. split; [done|].
  split; [by apply fresh_b_ok|]. split; [done|]. split; [done|]. split; [rewrite CC; by repeat constructor|]. split; [done|].
  split; [done|]. split; [by exists []|]. split.
  { exists (tx 3), r2. split; [apply elem_of_list_here|]. split; [|done]. exists [3]%N, id, (mkMessage (MBatchConfigStarted 1) [99]%N 3). done. }
  split; [|done]. intros x Hx. apply elem_of_cons in Hx as [->|Hx]; [split; [set_solver|done]|]. apply elem_of_list_singleton in Hx as ->. split; [set_solver|done].
Qed.

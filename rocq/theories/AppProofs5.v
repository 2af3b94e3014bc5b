(** C14, C15, C16: thresholds, starting configs, progress of config voting. *)
From stdpp Require Import gmap list sorting.
From Coq Require Import NArith ZArith Lia.
From RecordUpdate Require Import RecordUpdate.
From Verif Require Import AppModel AppSpec AppSteps VotingProofs AppInv AppProofs1 AppProofs2 AppProofs3 PowerProofs AppProofs4.

(** ** C14 *)
Lemma ensure_valid_bounds c : ensure_valid c = true →
  cf_keypers c ≠ [] ∧ (1 ≤ cf_threshold c)%N ∧
  ((cf_threshold c < 2 ^ 63)%N → (cf_threshold c ≤ N.of_nat (length (cf_keypers c)))%N).
Proof.
  intros H. split; [by apply ensure_valid_keypers|]. unfold ensure_valid in H.
  apply andb_true_iff in H as [[_ H2]%andb_true_iff H3]. apply negb_true_iff in H2, H3.
  apply N.eqb_neq in H2. apply Z.ltb_ge in H3. split; [lia|]. intros Hlt.
  rewrite int_of_uint64_small in H3 by done. lia.
Qed.

Lemma config_from_message_NoDup m c : config_from_message m = Some c → NoDup (cf_keypers c).
Proof.
  unfold config_from_message. destruct (mapM validate_address (rc_keypers m)) as [ks|]; cbn; [|done].
  unfold unique_addresses. case_bool_decide; [|done]. destruct (validate_address (rc_contract m)); cbn; [|done].
  by intros [= <-].
Qed.

Lemma threshold_reachable O tr s c : history O tr s → c ∈ configs s → configs s ≠ [zero_config] →
  cf_keypers c ≠ [] ∧ (1 ≤ cf_threshold c)%N ∧
  ((cf_threshold c < 2 ^ 63)%N → (cf_threshold c ≤ N.of_nat (length (cf_keypers c)))%N).
Proof.
  intros HI%history_Inv Hc Hne. apply ensure_valid_bounds. destruct (inv_valid s HI) as [|H]; [done|]. by apply H.
Qed.

Lemma announced_valid O s c s' r bc : step O s c = Some (s', r) → EvBatchConfig bc ∈ rsp_events r →
  NoDup (cf_keypers bc) ∧ cf_keypers bc ≠ [] ∧ (1 ≤ cf_threshold bc)%N ∧
  ((cf_threshold bc < 2 ^ 63)%N → (cf_threshold bc ≤ N.of_nat (length (cf_keypers bc)))%N).
Proof.
  intros Hs Hev. apply step_not_delivered in Hs as [(_ & E & _)|(tx & ord & a & m & -> & D & Hm)].
  { rewrite E in Hev. by apply elem_of_nil in Hev. }
  remember (msg_payload m) as pl. destruct_mstep Hm; cbn in Hev.
  all: try (by apply elem_of_nil in Hev).
  all: try (apply elem_of_list_singleton in Hev; try done).
  - injection Hev as ->. split; [by eapply config_from_message_NoDup|]. apply ensure_valid_bounds. by eapply check_config_valid.
  - apply elem_of_cons in Hev as [Hev|Hev]; [|apply elem_of_list_singleton in Hev; done].
    injection Hev as ->. split; [by eapply config_from_message_NoDup|]. apply ensure_valid_bounds. by eapply check_config_valid.
Qed.

(** ** C15 *)
Lemma last_snoc_inj {A} (p q : list A) x y : p ++ [x] = q ++ [y] → p = q ∧ x = y.
Proof. apply app_inj_tail. Qed.

(** keypers and index of the last two configs do not change without an announcement *)
Lemma started_votes_recorded O s0 tr s : Inv s0 → configs s0 ≠ [zero_config] → started_votes s0 = ∅ →
  exec O s0 tr s → ¬ announces_config tr →
  ∀ x, x ∈ started_votes s → ∃ p l cl rr, last_two s p l ∧ x ∈ cf_keypers p ∧
     (cl, rr) ∈ tr ∧ delivers O cl x (MBatchConfigStarted (cf_index l)) ∧ rsp_code rr = 0%N.
Proof.
  intros HI Hne Hemp He. induction He as [|s0 tr s1 c r s2 He IH Hv Hs]; intros Hna x Hx.
  { rewrite Hemp in Hx. set_solver. }
  assert (Hna1 : ¬ announces_config tr).
  { intros [c' Hc']. apply Hna. exists c'. rewrite events_of_app. set_solver. }
  specialize (IH HI Hne Hemp Hna1). pose proof (exec_Inv _ _ _ _ HI He) as HI1.
  assert (Hne1 : configs s1 ≠ [zero_config]).
  { clear -HI Hne He. induction He as [|s0 tr s1 c r s2 He IH Hv Hs]; [done|].
    eapply not_virgin_step; [by eapply exec_Inv|by apply IH|exact Hs]. }
  assert (Hkeep : ∀ y, y ∈ started_votes s1 → configs s2 = configs s1 ∨ (∃ pre l l', configs s1 = pre ++ [l] ∧ configs s2 = pre ++ [l'] ∧ same_config l l') →
     ∃ p l cl rr, last_two s2 p l ∧ y ∈ cf_keypers p ∧
     (cl, rr) ∈ tr ++ [(c, r)] ∧ delivers O cl y (MBatchConfigStarted (cf_index l)) ∧ rsp_code rr = 0%N).
  { intros y Hy Hcf. destruct (IH y Hy) as (p & l & cl & rr & [q Hq] & Hk & Hin & Hd & Hc).
    destruct Hcf as [E|(pre & l1 & l2 & E1 & E2 & Hsame)].
    - exists p, l, cl, rr. split; [exists q; congruence|]. split; [done|]. split; [set_solver|done].
    - rewrite Hq in E1. change (q ++ [p; l]) with (q ++ [p] ++ [l]) in E1. rewrite app_assoc in E1.
      apply last_snoc_inj in E1 as [<- <-]. exists p, l2, cl, rr. split.
      { exists q. rewrite E2. by rewrite <-app_assoc. }
      destruct Hsame as (_ & _ & _ & _ & <-). split; [done|]. split; [set_solver|done]. }
  destruct c as [ks t vs cid|tx|tx ord|h|].
  - assert (configs s2 = configs s1 ∧ started_votes s2 = started_votes s1) as [Hcs Hsv].
    { cbn [step] in Hs. destruct (init_chain s1 ks t vs cid) as [s3|] eqn:E; cbn in Hs; simplify_eq. unfold init_chain in E.
      destruct (ensure_valid (genesis_config ks t)) eqn:Hev; cbn [negb] in E; [|done].
      destruct (configs s1 !! 0) as [c0|] eqn:H0; cbn [mbind option_bind] in E; [|done]. destruct (_ && _)%bool eqn:Hb.
      - exfalso. apply andb_true_iff in Hb as [_ Hb]. apply Nat.eqb_eq in Hb.
        destruct (inv_valid s1 HI1) as [|Hall]; [done|].
        apply (ensure_valid_keypers c0); [apply Hall; by eapply elem_of_list_lookup_2|].
        by destruct (cf_keypers c0).
      - case_bool_decide; simplify_eq. done. }
    rewrite Hsv in Hx. apply Hkeep; [done|by left].
  - assert (configs s2 = configs s1 ∧ started_votes s2 = started_votes s1) as [Hcs Hsv].
    { cbn [step] in Hs. injection Hs as H. unfold check_tx in H. repeat case_match; by simplify_eq. }
    rewrite Hsv in Hx. apply Hkeep; [done|by left].
  - pose proof Hs as Hs'. cbn [step] in Hs'. apply deliver_tx_cases in Hs' as [[-> ->]|(a & m & D & _ & _ & Hm)].
    { apply Hkeep; [done|by left]. }
    remember (msg_payload m) as pl eqn:Hpl.
    clear Hne. destruct_mstep Hm; cbn in Hx; try (apply Hkeep; [done|by left]).
    + exfalso. apply Hna. exists bc0. rewrite events_of_app, events_of_one. cbn. set_solver.
    + exfalso. apply Hna. exists bc0. rewrite events_of_app, events_of_one. cbn. set_solver.
    + apply elem_of_union in Hx as [Hx|Hx]; [apply Hkeep; [done|by left]|].
      apply elem_of_singleton in Hx as ->. cbn in Hl, Hlen, Hp.
      change (last_config s1 = Some l0) in Hl.
      apply last_config_split in Hl as [pre Hpre].
      exists p, l0, (CDeliverTx tx ord), (ok_response []). split.
      { change (last_two s1 p l0). exists (removelast pre).
        rewrite Hpre in Hlen, Hp |- *. rewrite app_length in Hlen, Hp. cbn [length] in Hlen, Hp.
        destruct pre as [|y q _] using rev_ind; [cbn in Hlen; lia|]. rewrite removelast_last.
        rewrite app_length in Hp. cbn [length] in Hp. replace (length q + 1 + 1 - 2) with (length q) in Hp by lia.
        rewrite <-app_assoc, lookup_app_r, Nat.sub_diag in Hp by done. cbn in Hp. simplify_eq.
        by rewrite <-app_assoc. }
      split; [done|]. split; [set_solver|]. split; [|done]. exists tx, ord, m. by subst.
  - pose proof Hs as Hs'.
    apply end_block_form in Hs as (s3 & Hf & _ & _ & _ & E2 & _ & Hsv & _).
    pose proof Hf as Hf'. apply end_block_flags_exact in Hf' as (pre & l & l' & E & E' & _ & Hsc & _).
    assert (Hx1 : x ∈ started_votes s1).
    { rewrite Hsv in Hx. apply end_block_flags_spec in Hf as (? & ? & ? & _ & _ & _ & [->|(-> & _)]); [done|]. cbn in Hx. set_solver. }
    apply Hkeep; [done|]. right. exists pre, l, l'. rewrite E2. done.
  - cbn [step] in Hs. injection Hs as <- <-. apply Hkeep; [done|by left].
Qed.

Lemma started_needs_votes O tr0 s0 tr s h s' r p l l' :
  history O tr0 s0 → configs s0 ≠ [zero_config] → started_votes s0 = ∅ →
  exec O s0 tr s → ¬ announces_config tr →
  step O s (CEndBlock h) = Some (s', r) →
  last_two s p l → last_two s' p l' → cf_started l = false → cf_started l' = true →
  ∃ vs, NoDup vs ∧ (cf_threshold p ≤ N.of_nat (length vs))%N ∧
    ∀ x, x ∈ vs → x ∈ cf_keypers p ∧
      ∃ cl rr, (cl, rr) ∈ tr ∧ delivers O cl x (MBatchConfigStarted (cf_index l)) ∧ rsp_code rr = 0%N.
Proof.
  intros HI%history_Inv Hne Hemp He Hna Hs [q Hq] [q' Hq'] Hf Ht.
  pose proof (started_votes_recorded _ _ _ _ HI Hne Hemp He Hna) as Hrec.
  apply end_block_form in Hs as (s3 & Hfl & _ & _ & _ & E2 & _).
  apply end_block_flags_exact in Hfl as (pre & l0 & l1 & E & E' & _ & _ & Hst & _).
  assert (pre = q ++ [p] ∧ l0 = l) as [-> ->].
  { rewrite Hq in E. change (q ++ [p; l]) with (q ++ [p] ++ [l]) in E. rewrite app_assoc in E.
    by apply last_snoc_inj in E as [<- <-]. }
  assert (l1 = l') as ->.
  { rewrite E2, E' in Hq'. change (q' ++ [p; l']) with (q' ++ [p] ++ [l']) in Hq'. rewrite (app_assoc q') in Hq'.
    by apply last_snoc_inj in Hq' as [_ ->]. }
  destruct (Hst Ht) as [|(q1 & p1 & Hq1 & Hle)]; [congruence|].
  apply last_snoc_inj in Hq1 as [_ <-].
  exists (elements (started_votes s)). split; [apply NoDup_elements|]. split; [exact Hle|].
  intros x Hx%elem_of_elements. destruct (Hrec x Hx) as (p2 & l2 & cl & rr & [q2 Hq2] & Hk & Hin & Hd & Hc).
  rewrite Hq in Hq2. change (q ++ [p; l]) with (q ++ [p] ++ [l]) in Hq2.
  change (q2 ++ [p2; l2]) with (q2 ++ [p2] ++ [l2]) in Hq2. rewrite !app_assoc in Hq2.
  apply last_snoc_inj in Hq2 as [Hq2 <-]. apply last_snoc_inj in Hq2 as [_ <-]. eauto 10.
Qed.

(** ** C16 *)
Lemma config_voting_stuck O0 O tr0 s l tr s' : history O0 tr0 s → last_config s = Some l →
  configs s ≠ [zero_config] →
  (∀ a, a ∈ cf_keypers l → is_Some (vt_votes (config_voting s) !! a)) →
  exec O s tr s' → ¬ announces_config tr.
Proof.
  intros HI%history_Inv Hl Hne Hall He.
  enough (configs s' ≠ [zero_config] ∧ config_voting s' = config_voting s ∧
    (∃ l', last_config s' = Some l' ∧ cf_keypers l' = cf_keypers l) ∧ ¬ announces_config tr) by tauto.
  induction He as [s|s tr s1 c r s2 He IH Hv Hs].
  { split; [done|]. split; [done|]. split; [eauto|]. intros [c Hc]. by apply elem_of_nil in Hc. }
  destruct IH as (Hne1 & Hcv & (l1 & Hl1 & Hk1) & Hna); [done..|].
  pose proof (exec_Inv _ _ _ _ HI He) as HI1.
  split; [by eapply not_virgin_step|].
  assert (Hstay : (∃ l', last_config s2 = Some l' ∧ cf_keypers l' = cf_keypers l) ∨ ∃ bc, EvBatchConfig bc ∈ rsp_events r).
  { pose proof (step_configs _ _ _ _ _ Hs) as [(pre & la & lb & E & [(_ & Hk & _) _] & E')|[E|[H|H]]].
    - left. exists lb. unfold last_config in *. rewrite E, last_snoc in Hl1. simplify_eq. rewrite E', last_snoc. split; [done|congruence].
    - left. exists l1. unfold last_config. by rewrite E.
    - right. destruct H as (tx & ord & a & m & rc & bc & l2 & _ & _ & _ & _ & _ & _ & _ & H). eauto.
    - exfalso. destruct H as (ks & t & vs & cid & c0 & _ & E & Hk & _).
      destruct (inv_valid s1 HI1) as [|Hv1]; [done|]. apply (ensure_valid_keypers c0); [|done]. apply Hv1. rewrite E. set_solver. }
  enough (config_voting s2 = config_voting s ∧ ∀ bc, EvBatchConfig bc ∉ rsp_events r) as [Hcv2 Hno].
  { split; [done|]. split.
    - destruct Hstay as [|[bc Hbc]]; [done|]. by destruct (Hno bc).
    - intros [?|[bc Hbc]]%announces_snoc; [done|]. by destruct (Hno bc). }
  apply step_deliver_cases in Hs as [(Hev & Hcv' & _)|(tx & ord & a & m & -> & D & Hm)].
  { split; [congruence|]. intros bc. rewrite Hev. by intros ?%elem_of_nil. }
  assert (Hcontra : ∀ l0, last_config s1 = Some l0 → a ∈ cf_keypers l0 → vt_votes (config_voting s1) !! a = None → False).
  { intros l0 Hl0 Ha Hnone. simplify_eq. rewrite Hk1 in Ha. apply Hall in Ha. rewrite Hcv in Hnone. rewrite Hnone in Ha. by destruct Ha. }
  remember (msg_payload m) as pl eqn:Hpl.
  clear Hl Hne. destruct_mstep Hm; try (split; [exact Hcv|]; intros bc; cbn; set_solver).
  - exfalso. exact (Hcontra _ Hl Hk Hvt).
  - exfalso. exact (Hcontra _ Hl Hk Hvt).
  - exfalso. exact (Hcontra _ Hl Hk Hvt).
Qed.

(** progress: the keypers that have not voted and those that support [bc] suffice *)
Lemma supporters_bound (v : voting config) bc req yes : voting_wf v → no_winner (vt_votes v) req → NoDup yes → yes ≠ [] →
  (∀ a, a ∈ yes → stands v a bc) → (Z.of_nat (length yes) < req)%Z.
Proof.
  intros [Hnd _] Hnw Hy Hne Hst.
  destruct yes as [|a0 yes]; [done|]. destruct (Hst a0) as (i & Hi & Hc); [set_solver|].
  assert (Hsub : ∀ a, a ∈ a0 :: yes → a ∈ voters (vt_votes v) i).
  { intros a Ha. apply elem_of_voters. destruct (Hst a Ha) as (j & Hj & Hcj).
    by rewrite (NoDup_lookup _ _ _ _ Hnd Hc Hcj). }
  pose proof (submseteq_length _ _ (NoDup_submseteq _ _ Hy Hsub)) as Hlen.
  rewrite voters_length in Hlen. specialize (Hnw i a0 Hi). lia.
Qed.

Lemma stands_add_vote_mono {A} `{EqDecision A} (v : voting A) a c b d : b ≠ a → stands v b d → stands (add_vote v a c) b d.
Proof.
  intros Hne (i & Hi & Hd). destruct (add_vote_spec v a c) as (j & Hv & _ & Hcs).
  exists i. rewrite Hv, lookup_insert_ne by done. split; [done|].
  destruct Hcs as [->|[_ ->]]; [done|]. by apply lookup_app_l_Some.
Qed.

Lemma config_progress_inv O l m bc vs : 
  config_from_message m = Some bc → check_config l bc = true → (cf_threshold l < 2 ^ 63)%N →
  ∀ txs s yes, Inv s → last_config s = Some l → ensure_valid l = true →
  Forall2 (fresh_vote O m s) vs txs → NoDup vs →
  (∀ a, a ∈ vs → a ∈ cf_keypers l ∧ vt_votes (config_voting s) !! a = None) →
  NoDup yes → (∀ a, a ∈ yes → stands (config_voting s) a bc) →
  (cf_threshold l ≤ N.of_nat (length yes + length vs))%N →
  ∃ txs1 txs2 tr s', txs = txs1 ++ txs2 ∧ exec O s tr s' ∧ tr.*1 = (λ tx, CDeliverTx tx id) <$> txs1 ∧
    EvBatchConfig bc ∈ events_of tr ∧ last_config s' = Some bc.
Proof.
  intros Hm Hck Hthr. induction vs as [|a vs IH]; intros txs s yes HI Hl Hval HF Hnd Hvs Hny Hyes Hlen.
  - exfalso. rewrite Nat.add_0_r in Hlen. destruct (ensure_valid_bounds l Hval) as (_ & Hge & _).
    destruct (inv_cv s HI l Hl) as [Hnw _]. rewrite int_of_uint64_small in Hnw by done.
    assert (Hne : yes ≠ []). { intros ->. cbn in Hlen. lia. }
    pose proof (supporters_bound _ bc _ yes (inv_cv_wf s HI) Hnw Hny Hne Hyes). lia.
  - apply Forall2_cons_inv_l in HF as (tx & txs' & (msg & D & Hp & Hc & Hn) & HF & ->).
    apply NoDup_cons in Hnd as [Hna Hnd]. destruct (Hvs a) as [Hak Havote]; [set_solver|].
    destruct (inv_cv s HI l Hl) as [Hnw _].
    assert (Hne : l ≠ bc).
    { intros ->. unfold check_config in Hck. apply andb_true_iff in Hck as [_ Hck]. by rewrite N.leb_refl in Hck. }
    set (s1 := with_nonce s a msg).
    assert (Hord : valid_order id) by (intros x; done).
    assert (Hstep : step O s (CDeliverTx tx id) = deliver_batch_config id s1 m a).
    { cbn [step]. unfold deliver_tx. rewrite D, Hp, Hc. rewrite bool_decide_eq_true_2 by done. cbn [negb].
      rewrite bool_decide_eq_false_2 by done. done. }
    unfold deliver_batch_config in Hstep. rewrite Hm in Hstep.
    change (last_config s1) with (last_config s) in Hstep. rewrite Hl in Hstep. cbn [mbind option_bind] in Hstep.
    rewrite bool_decide_eq_false_2, Hck in Hstep by done. cbn [negb] in Hstep.
    unfold is_keyper in Hstep at 1. rewrite bool_decide_eq_true_2 in Hstep by done. cbn [negb] in Hstep.
    change (config_voting s1) with (config_voting s) in Hstep.
    unfold config_add_vote in Hstep. rewrite Havote in Hstep.
    destruct (outcome id (add_vote (config_voting s) a bc) (int_of_uint64 (cf_threshold l))) as [w|] eqn:Hout.
    + unfold add_config in Hstep. rewrite Hck in Hstep.
      destruct (should_start_dkg _ bc).
      * cbn [start_dkg] in Hstep. unfold last_config in Hstep. cbn in Hstep. rewrite last_snoc in Hstep.
        cbn [mbind option_bind] in Hstep.
        eexists [tx], txs', [(CDeliverTx tx id, _)], _. split; [done|]. split.
        { eapply exec_one; [done|exact Hstep]. }
        split; [done|]. split; [rewrite events_of_one; cbn; set_solver|].
        unfold last_config. cbn. apply last_snoc.
      * eexists [tx], txs', [(CDeliverTx tx id, _)], _. split; [done|]. split.
        { eapply exec_one; [done|exact Hstep]. }
        split; [done|]. split; [rewrite events_of_one; cbn; set_solver|].
        unfold last_config. cbn. apply last_snoc.
    + match type of Hstep with _ = Some (?x, ?y) => set (s2 := x) in Hstep end.
      assert (HI2 : Inv s2). { eapply (step_Inv O s (CDeliverTx tx id)); [exact Hord|done|exact Hstep]. }
      destruct (IH txs' s2 (a :: yes)) as (txs1 & txs2 & tr & s' & -> & He & Htr & Hev & Hl'); [done|done|done| |done| | | | |].
      * apply Forall2_same_length_lookup. apply Forall2_same_length_lookup in HF as [HFl HF]. split; [done|].
        intros i b tx' Hb Ht. destruct (HF i b tx' Hb Ht) as (msg' & D' & Hp' & Hc' & Hn').
        apply elem_of_list_lookup_2 in Hb.
        exists msg'. split_and!; try done. cbn. rewrite not_elem_of_union, not_elem_of_singleton. split; [done|].
        intros [= -> _]. done.
      * intros b Hb. destruct (Hvs b) as [? Hbv]; [set_solver|]. split; [done|]. cbn.
        destruct (add_vote_spec (config_voting s) a bc) as (i & -> & _). rewrite lookup_insert_ne; [done|]. intros ->. done.
      * apply NoDup_cons. split; [|done]. intros Ha. destruct (Hyes a Ha) as (i & Hi & _). congruence.
      * intros b [->|Hb]%elem_of_cons; [apply stands_add_vote_same|]. apply stands_add_vote_mono; [|by apply Hyes].
        intros ->. destruct (Hyes a Hb) as (i & Hi & _). congruence.
      * cbn [length] in *. lia.
      * exists (tx :: txs1), txs2, ((CDeliverTx tx id, ok_response []) :: tr), s'. split; [done|]. split.
        { change (exec O s ([(CDeliverTx tx id, ok_response [])] ++ tr) s'). eapply exec_app; [by eapply exec_one|done]. }
        split; [cbn; by rewrite Htr|]. split; [|done].
        change ((CDeliverTx tx id, ok_response []) :: tr) with ([(CDeliverTx tx id, ok_response [])] ++ tr).
        rewrite events_of_app. set_solver.
Qed.

Lemma config_vote_stands s a c : config_vote s a = Some c → stands (config_voting s) a c.
Proof. unfold config_vote. destruct (vt_votes (config_voting s) !! a) as [i|] eqn:E; [|done]. by exists i. Qed.

Lemma config_progress O tr s l m bc yes vs txs :
  history O tr s → configs s ≠ [zero_config] → last_config s = Some l → (cf_threshold l < 2 ^ 63)%N →
  config_from_message m = Some bc → acceptable_after l bc →
  NoDup (yes ++ vs) →
  (∀ a, a ∈ yes → config_vote s a = Some bc) →
  (∀ a, a ∈ vs → a ∈ cf_keypers l ∧ vt_votes (config_voting s) !! a = None) →
  (cf_threshold l ≤ N.of_nat (length (yes ++ vs)))%N →
  Forall2 (fresh_vote O m s) vs txs →
  ∃ txs1 txs2 tr' s', txs = txs1 ++ txs2 ∧ exec O s tr' s' ∧ tr'.*1 = (λ tx, CDeliverTx tx id) <$> txs1 ∧
    EvBatchConfig bc ∈ events_of tr' ∧ last_config s' = Some bc.
Proof.
  intros HI%history_Inv Hne Hl Hthr Hm (Hk & H1 & H2 & H3 & H4 & H5) Hnd Hyes Hvs Hlen HF.
  apply NoDup_app in Hnd as (Hn1 & Hdis & Hn2).
  refine (config_progress_inv O l m bc vs Hm _ Hthr txs s yes _ _ _ _ _ _ _ _ _); try done.
  - unfold check_config, ensure_valid. repeat (apply andb_true_iff; split).
    + apply negb_true_iff, Nat.eqb_neq. by intros E%length_zero_iff_nil.
    + apply negb_true_iff, N.eqb_neq. lia.
    + apply negb_true_iff, Z.ltb_ge. rewrite int_of_uint64_small by done. lia.
    + apply negb_true_iff, N.ltb_ge. exact H4.
    + apply negb_true_iff, N.leb_gt. exact H5.
  - destruct (inv_valid s HI) as [|Hall]; [done|]. apply Hall. apply last_config_split in Hl as [pre ->]. set_solver.
  - intros a Ha. apply config_vote_stands. by apply Hyes.
  - by rewrite app_length in Hlen.
Qed.

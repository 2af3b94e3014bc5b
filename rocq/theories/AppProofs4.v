(** C11, C12, C14, C15, C16: validators, thresholds, starting configs, progress. *)
From stdpp Require Import gmap list sorting.
From Coq Require Import NArith ZArith Lia.
From RecordUpdate Require Import RecordUpdate.
From Verif Require Import AppModel AppSpec AppSteps VotingProofs AppInv AppProofs1 AppProofs2 AppProofs3 PowerProofs.

(** ** EndBlock *)
Lemma end_block_form O s h s' r : step O s (CEndBlock h) = Some (s', r) →
  ∃ s1, end_block_flags s = Some s1 ∧ validators s1 = validators s ∧ identities s1 = identities s ∧
    dev_mode s1 = dev_mode s ∧ configs s' = configs s1 ∧ identities s' = identities s ∧
    started_votes s' = started_votes s1 ∧
    validators s' = current_validators s1 ∧ dev_mode s' = dev_mode s ∧ rsp_code r = 0%N ∧
    rsp_updates r = if dev_mode s then [] else validator_updates (diff_powermaps (validators s) (validators s')).
Proof.
  cbn [step]. unfold end_block. destruct (end_block_flags s) as [s1|] eqn:E; cbn [mbind option_bind]; [|done].
  intros H. injection H as <- <-. exists s1. cbn.
  apply end_block_flags_spec in E as (pre & l & l' & _ & _ & _ & [->|(-> & _)]); cbn; split_and!; done.
Qed.

Lemma current_validators_spec s :
  (∃ c, newest_active (configs s) c ∧ current_validators s = make_powermap (identities s) (cf_keypers c)) ∨
  (Forall (λ c, ¬ active c) (configs s) ∧ current_validators s = validators s).
Proof.
  unfold current_validators. destruct (List.find _ _) as [c|] eqn:E.
  - left. exists c. split; [|done]. apply find_rev_Some in E as (l1 & l2 & -> & Hc & HF).
    exists l1, l2. split; [done|]. split; [by apply andb_true_iff in Hc|].
    eapply Forall_impl; [exact HF|]. intros d Hd [H1 H2]. cbn beta in Hd. by rewrite H1, H2 in Hd.
  - right. split; [|done]. apply find_rev_None in E. eapply Forall_impl; [exact E|].
    intros d Hd [H1 H2]. cbn beta in Hd. by rewrite H1, H2 in Hd.
Qed.

Lemma current_validators_no_zero s : no_zero (validators s) → no_zero (current_validators s).
Proof.
  intros H. destruct (current_validators_spec s) as [(c & _ & ->)|[_ ->]]; [apply make_powermap_no_zero|done].
Qed.

Lemma step_validators O s c s' r : step O s c = Some (s', r) → not_init c →
  (∀ h, c ≠ CEndBlock h) → validators s' = validators s ∧ rsp_updates r = [].
Proof.
  intros H Hni Hne. destruct c as [ks t vs cid|tx|tx ord|h|]; cbn [step] in H; try done.
  - injection H as H. unfold check_tx in H. repeat case_match; by simplify_eq.
  - apply deliver_tx_cases in H as [[-> ->]|(a & m & D & _ & _ & Hm)]; [done|].
    by destruct Hm.
  - by destruct (Hne h).
  - by injection H as <- <-.
Qed.
Lemma step_dev_mode O s c s' r : step O s c = Some (s', r) → dev_mode s' = dev_mode s.
Proof.
  intros H. destruct c as [ks t vs cid|tx|tx ord|h|].
  - cbn [step] in H. destruct (init_chain s ks t vs cid) as [s1|] eqn:E; cbn in H; simplify_eq. unfold init_chain in E.
    destruct (ensure_valid (genesis_config ks t)) eqn:Hev; cbn [negb] in E; [|done].
    destruct (configs s !! 0) as [c0|] eqn:H0; cbn in E; [|done]. destruct (_ && _)%bool eqn:Hb.
    + destruct (make_powermap_genesis vs) as [pm|]; cbn in E; [|done]. by simplify_eq.
    + case_bool_decide; by simplify_eq.
  - cbn [step] in H. injection H as H. unfold check_tx in H. repeat case_match; by simplify_eq.
  - cbn [step] in H. apply deliver_tx_cases in H as [[-> ->]|(a & m & D & _ & _ & Hm)]; [done|]. by destruct Hm.
  - by apply end_block_form in H as (s1 & _ & _ & _ & _ & _ & _ & _ & _ & ? & _).
  - cbn [step] in H. by injection H as <- <-.
Qed.

Lemma genesis_validators O dev ks t vs cid s r : NoDup vs.*1 →
  step O (new_app dev) (CInitChain ks t vs cid) = Some (s, r) →
  validators s = list_to_map vs ∧ configs s = [genesis_config ks t] ∧ chain_id s = cid ∧
  ensure_valid (genesis_config ks t) = true ∧ dev_mode s = dev.
Proof.
  intros Hnd H. cbn [step] in H. destruct (init_chain _ ks t vs cid) as [s1|] eqn:E; cbn in H; simplify_eq.
  unfold init_chain in E. destruct (ensure_valid (genesis_config ks t)) eqn:Hev; cbn [negb] in E; [|done].
  cbn in E. destruct (make_powermap_genesis vs) as [pm|] eqn:Epm; cbn in E; [|done]. simplify_eq. cbn.
  apply make_powermap_genesis_Some in Epm; [|done]. by subst.
Qed.

(** C11: over a whole chain run tendermint's validator set is the application's *)
Lemma validators_tracked O s0 tr s : exec O s0 tr s → Forall not_init tr.*1 → dev_mode s0 = false →
  no_zero (validators s0) →
  validators s = tendermint_validators (validators s0) tr ∧ no_zero (validators s) ∧ dev_mode s = false.
Proof.
  intros He. induction He as [|s0 tr s1 c r s2 He IH Hv Hs]; intros Hni Hdev Hnz; [done|].
  rewrite fmap_app in Hni. apply Forall_app in Hni as [Hni Hc]. apply Forall_inv in Hc. cbn in Hc.
  destruct IH as (IH1 & IH2 & IH3); [done..|].
  unfold tendermint_validators. rewrite foldl_app. fold (tendermint_validators (validators s0) tr). cbn [foldl].
  rewrite <-IH1. pose proof (step_dev_mode _ _ _ _ _ Hs) as Hd. rewrite Hd.
  destruct c as [ks t vs cid|tx|tx ord|h|]; [done| | | |]; cbn [fst snd].
  1,2,4: apply step_validators in Hs as [-> _]; done.
  apply end_block_form in Hs as (s3 & _ & Hval & _ & _ & _ & _ & _ & Hv' & _ & _ & ->).
  assert (Hz : no_zero (validators s2)). { rewrite Hv'. apply current_validators_no_zero. by rewrite Hval. }
  rewrite IH3. split; [|done]. by rewrite diff_apply.
Qed.

Lemma end_block_updates O tr0 ks t vs cid r0 s0 tr s h s' r :
  NoDup vs.*1 → (∀ k p, (k, p) ∈ vs → (0 < p)%Z) →
  step O (new_app false) (CInitChain ks t vs cid) = Some (s0, r0) → tr0 = tr →
  exec O s0 tr s → Forall not_init tr.*1 → step O s (CEndBlock h) = Some (s', r) →
  tendermint_validators (list_to_map vs) tr = validators s ∧
  apply_updates (validators s) (rsp_updates r) = validators s' ∧
  StronglySorted (λ u v, bytes_lt u.1 v.1) (rsp_updates r) ∧
  (∀ k p, (k, p) ∈ rsp_updates r →
     power (validators s) k ≠ p ∧ power (validators s') k = p ∧ (p = 0%Z → is_Some (validators s !! k))).
Proof.
  intros Hnd Hpos H0 _ He Hni Hs.
  destruct (genesis_validators _ _ _ _ _ _ _ _ Hnd H0) as (Hg & _ & _ & _ & Hd).
  destruct (validators_tracked _ _ _ _ He Hni Hd) as (Ht & Hz & Hdev).
  { rewrite Hg. by apply list_to_map_no_zero. }
  rewrite <-Hg. split; [done|].
  apply end_block_form in Hs as (s3 & _ & Hval & _ & _ & _ & _ & _ & Hv' & _ & _ & ->).
  assert (Hz' : no_zero (validators s')). { rewrite Hv'. apply current_validators_no_zero. by rewrite Hval. }
  rewrite Hdev. split; [by apply diff_apply|]. split; [apply validator_updates_sorted|].
  intros k p. by apply diff_no_noop.
Qed.

(** ** C12 *)
Definition some_active (s : app) : Prop := ∃ c, c ∈ configs s ∧ active c.

Lemma evolves_active c d : evolves c d → active c → active d.
Proof. intros (_ & H1 & H2) [? ?]. split; auto. Qed.

Lemma step_some_active O s c s' r : Inv s → configs s ≠ [zero_config] → step O s c = Some (s', r) →
  some_active s → some_active s'.
Proof.
  intros HI Hne Hs (cfg & Hin & Ha).
  destruct (configs_append_only_step _ _ _ _ _ HI Hne Hs) as (old & new & E & HF).
  apply elem_of_list_lookup in Hin as [i Hi]. destruct (Forall2_lookup_l _ _ _ _ _ HF Hi) as (d & Hd & Hev).
  exists d. split; [|by eapply evolves_active]. rewrite E. apply elem_of_app. left. by eapply elem_of_list_lookup_2.
Qed.

Lemma validators_before_active O s0 tr s : Inv s0 → configs s0 ≠ [zero_config] → exec O s0 tr s →
  Forall not_init tr.*1 → ¬ some_active s → validators s = validators s0.
Proof.
  intros HI Hne He. induction He as [|s0 tr s1 c r s2 He IH Hv Hs]; intros Hni Hna; [done|].
  rewrite fmap_app in Hni. apply Forall_app in Hni as [Hni Hc]. apply Forall_inv in Hc. cbn in Hc.
  pose proof (exec_Inv _ _ _ _ HI He) as HI1.
  assert (Hne1 : configs s1 ≠ [zero_config]).
  { clear -HI Hne He. induction He as [|s0 tr s1 c r s2 He IH Hv Hs]; [done|].
    eapply not_virgin_step; [by eapply exec_Inv|by apply IH|exact Hs]. }
  rewrite <-IH; [|done..|intros Ha; apply Hna; by eapply step_some_active].
  destruct c as [ks t vs cid|tx|tx ord|h|]; [done| | | |].
  1,2,4: by apply step_validators in Hs as [-> _].
  apply end_block_form in Hs as (s3 & _ & Hval & _ & _ & Hcf & _ & _ & Hv' & _).
  rewrite Hv'. destruct (current_validators_spec s3) as [(cfg & (l1 & l2 & E & Ha & _) & _)|[_ ->]]; [|done].
  exfalso. apply Hna. exists cfg. split; [|done]. rewrite Hcf, E. set_solver.
Qed.

Lemma validators_backed O dev ks t vs cid s0 r0 tr s h s' r :
  NoDup vs.*1 → step O (new_app dev) (CInitChain ks t vs cid) = Some (s0, r0) →
  exec O s0 tr s → Forall not_init tr.*1 → step O s (CEndBlock h) = Some (s', r) →
  (Forall (λ c, ¬ active c) (configs s') ∧ validators s' = list_to_map vs) ∨
  (∃ c, newest_active (configs s') c ∧
     (∀ k, power (validators s') k = 10 * keypers_with_key (identities s') (cf_keypers c) k)%Z ∧
     total_power (validators s') = (10 * Z.of_nat (length (cf_keypers c)))%Z).
Proof.
  intros Hnd H0 He Hni Hs.
  destruct (genesis_validators _ _ _ _ _ _ _ _ Hnd H0) as (Hg & Hcf0 & _ & Hval0 & _).
  assert (HI0 : Inv s0). { eapply (step_Inv O (new_app dev)); [|apply Inv_new_app|exact H0]. done. }
  assert (Hne0 : configs s0 ≠ [zero_config]).
  { rewrite Hcf0. intros E. injection E as E1 E2. subst ks. done. }
  pose proof (end_block_form _ _ _ _ _ Hs) as (s3 & _ & Hval & Hid & _ & Hcf & Hid' & _ & Hv' & _).
  destruct (current_validators_spec s3) as [(cfg & Hna & E)|[Hna E]].
  - right. exists cfg. rewrite Hcf, Hv', E, Hid, Hid'. split; [done|]. split; [intros k; apply make_powermap_power|apply make_powermap_total].
  - left. rewrite Hcf. split; [done|]. rewrite <-Hg.
    apply (validators_before_active O s0 (tr ++ [(CEndBlock h, r)]) s'); [done|done| | |].
    + eapply exec_snoc; [exact He|done|exact Hs].
    + rewrite fmap_app. apply Forall_app. split; [done|]. by apply Forall_singleton.
    + intros (c & Hc & Ha). rewrite Hcf in Hc. rewrite Forall_forall in Hna. by apply (Hna c).
Qed.

(** precise effect of EndBlock on the flags of the last config *)
Lemma end_block_flags_exact s s1 : end_block_flags s = Some s1 →
  ∃ pre l l', configs s = pre ++ [l] ∧ configs s1 = pre ++ [l'] ∧ identities s1 = identities s ∧
    same_config l l' ∧
    (cf_started l' = true → cf_started l = true ∨
       ∃ q p, pre = q ++ [p] ∧ (cf_threshold p ≤ N.of_nat (size (started_votes s)))%N) ∧
    (cf_vupdated l' = true → cf_vupdated l = true ∨
       cf_started l' = true ∧ (cf_threshold l ≤ count_checked_in s (cf_keypers l))%N) ∧
    (cf_started l = true → cf_started l' = true).
Proof.
  unfold end_block_flags. intros H.
  destruct (last_config s) as [l|] eqn:Hl; cbn [mbind option_bind] in H; [|done].
  destruct (set_last_last (configs s) l l Hl) as [_ Hpre].
  set (pre := removelast (configs s)) in *.
  destruct (2 <=? length (configs s)) eqn:Hlen.
  - destruct (configs s !! (length (configs s) - 2)) as [p|] eqn:Hp; cbn [mbind option_bind fmap option_fmap option_map] in H; [|done].
    assert (Hq : ∃ q, pre = q ++ [p]).
    { rewrite Hpre in Hp, Hlen. rewrite app_length in Hp, Hlen. cbn [length] in *.
      destruct pre as [|x q] using rev_ind; [done|]. exists q. do 2 f_equal.
      rewrite app_length in Hp. cbn [length] in Hp.
      replace (length q + 1 + 1 - 2) with (length q) in Hp by lia.
      rewrite <-app_assoc, lookup_app_r, Nat.sub_diag in Hp by done. cbn in Hp. congruence. }
    destruct Hq as [q Hq].
    injection H as <-.
    match goal with |- context [set_last _ ?x] => set (l' := x) end.
    exists pre, l, l'. split; [done|].
    destruct (N.leb_spec (cf_threshold p) (N.of_nat (size (started_votes s)))) as [Hle|Hlt].
    + cbn. split; [done|]. split; [done|].
      unfold l'. destruct (_ && _ && _)%bool eqn:Hb; cbn.
      * apply andb_true_iff in Hb as [[Hb1 Hb2]%andb_true_iff Hb3]. apply N.leb_le in Hb3. cbn in Hb3.
        split; [done|]. split; [right; eauto|]. split; [|done]. right. split; [done|exact Hb3].
      * split; [done|]. split; [right; eauto|]. split; [by left|done].
    + cbn. split; [done|]. split; [done|].
      unfold l'. destruct (_ && _ && _)%bool eqn:Hb; cbn.
      * apply andb_true_iff in Hb as [[Hb1 Hb2]%andb_true_iff Hb3]. apply N.leb_le in Hb3.
        split; [done|]. split; [by left|]. split; [by right|done].
      * split; [done|]. split; [by left|]. split; [by left|done].
  - cbn [mbind option_bind] in H. injection H as <-.
    match goal with |- context [set_last _ ?x] => set (l' := x) end.
    exists pre, l, l'. split; [done|]. cbn. split; [done|]. split; [done|].
    unfold l'. destruct (_ && _ && _)%bool eqn:Hb; cbn.
    + apply andb_true_iff in Hb as [[Hb1 Hb2]%andb_true_iff Hb3]. apply N.leb_le in Hb3.
      split; [done|]. split; [by left|]. split; [by right|done].
    + split; [done|]. split; [by left|]. split; [by left|done].
Qed.

Lemma step_configs_exact O s c s' r : step O s c = Some (s', r) →
  configs s' = configs s ∨ (∃ h, c = CEndBlock h) ∨
  (∃ bc, configs s' = configs s ++ [bc] ∧ EvBatchConfig bc ∈ rsp_events r) ∨
  (∃ ks t, configs s' = [genesis_config ks t]).
Proof.
  intros H. destruct c as [ks t vs cid|tx|tx ord|h|].
  - cbn [step] in H. destruct (init_chain s ks t vs cid) as [s1|] eqn:E; cbn in H; simplify_eq. unfold init_chain in E.
    destruct (ensure_valid (genesis_config ks t)) eqn:Hev; cbn [negb] in E; [|done].
    destruct (configs s !! 0) as [c0|] eqn:H0; cbn in E; [|done]. destruct (_ && _)%bool eqn:Hb.
    + destruct (make_powermap_genesis vs) as [pm|]; cbn in E; [|done]. simplify_eq. right; right; right. by exists ks, t.
    + case_bool_decide; simplify_eq. by left.
  - cbn [step] in H. injection H as H. unfold check_tx in H. left. repeat case_match; by simplify_eq.
  - cbn [step] in H. apply deliver_tx_cases in H as [[-> ->]|(a & m & D & _ & _ & Hm)]; [by left|].
    remember (msg_payload m) as pl. destruct_mstep Hm; try (by left).
    all: right; right; left; exists bc0; cbn; split; [done|set_solver].
  - right; left. eauto.
  - cbn [step] in H. left. by injection H as <- <-.
Qed.

Definition checkin_ok (s : app) : Prop := ∀ c, c ∈ configs s → cf_vupdated c = true →
  cf_started c = true ∧ (cf_threshold c ≤ N.of_nat (length (checked_in s c)))%N.

Lemma checked_in_mono s s' c d : (∀ a, is_Some (identities s !! a) → is_Some (identities s' !! a)) →
  cf_keypers c = cf_keypers d → length (checked_in s c) ≤ length (checked_in s' d).
Proof.
  intros H E. unfold checked_in. rewrite <-E. clear E. induction (cf_keypers c) as [|a l IH]; [done|].
  rewrite !filter_cons. destruct (decide (is_Some (identities s !! a))) as [Hs|].
  - rewrite decide_True by auto. cbn [length]. lia.
  - destruct (decide _); cbn [length]; lia.
Qed.

Lemma validators_checked_in O tr s : history O tr s →
  (∀ c, EvBatchConfig c ∈ events_of tr → cf_started c = false ∧ cf_vupdated c = false) →
  ∀ c, c ∈ configs s → cf_vupdated c = true →
    cf_started c = true ∧ (cf_threshold c ≤ N.of_nat (length (checked_in s c)))%N.
Proof.
  intros [dev H]. fold (checkin_ok s). remember (new_app dev) as s0 eqn:E0.
  induction H as [|s0 tr s1 c r s2 He IH Hv Hs]; intros Hflags.
  - subst. intros c Hc. apply elem_of_list_singleton in Hc as ->. done.
  - specialize (IH E0).
    assert (IH' : checkin_ok s1).
    { apply IH. intros c' Hc'. apply Hflags. rewrite events_of_app. set_solver. }
    clear IH.
    assert (Hmono : ∀ a, is_Some (identities s1 !! a) → is_Some (identities s2 !! a)).
    { intros a [k Hk]. exists k. eapply identities_mono; [by eapply exec_one|done]. }
    assert (Hkeep : ∀ cf cf', cf ∈ configs s1 → same_config cf cf' → cf_vupdated cf = true →
       (cf_threshold cf' ≤ N.of_nat (length (checked_in s2 cf')))%N).
    { intros cf cf' Hin (_ & Hk & Ht & _) Hvu. destruct (IH' cf Hin Hvu) as [_ Hle]. rewrite <-Ht.
      pose proof (checked_in_mono s1 s2 cf cf' Hmono Hk). lia. }
    assert (Hsame : configs s2 = configs s1 → checkin_ok s2).
    { intros E cf Hin Hvu. rewrite E in Hin. split; [by apply IH'|]. eapply Hkeep; [done|apply same_config_refl|done]. }
    pose proof (step_configs_exact _ _ _ _ _ Hs) as [E|[(h & ->)|[(bc & E & Hin)|(ks & t & E)]]].
    + by apply Hsame.
    + apply end_block_form in Hs as (s3 & Hf & _ & _ & _ & E2 & Hid & _).
      apply end_block_flags_exact in Hf as (pre & l & l' & E & E' & _ & Hsc & Hst & Hvu & Hstm).
      intros cf Hin Hvt. rewrite E2, E' in Hin. apply elem_of_app in Hin as [Hin| ->%elem_of_list_singleton].
      * split; [apply IH'; [rewrite E; set_solver|done]|]. apply (Hkeep cf); [rewrite E; set_solver|apply same_config_refl|done].
      * assert (Hl : l ∈ configs s1) by (rewrite E; set_solver).
        destruct (Hvu Hvt) as [Hvl|[Hsl Hcnt]].
        { split; [|by eapply Hkeep]. destruct (IH' l Hl Hvl) as [Hs1 _]. by apply Hstm. }
        { split; [done|]. destruct Hsc as (_ & Hk & Ht & _). rewrite <-Ht. unfold checked_in. rewrite <-Hk.
          by rewrite Hid. }
    + assert (Hf : cf_vupdated bc = false).
      { apply Hflags. rewrite events_of_app, events_of_one. set_solver. }
      intros cf Hin' Hvu. rewrite E in Hin'. apply elem_of_app in Hin' as [Hin'| ->%elem_of_list_singleton]; [|congruence].
      split; [by apply IH'|]. eapply Hkeep; [done|apply same_config_refl|done].
    + intros cf Hin Hvu. rewrite E in Hin. by apply elem_of_list_singleton in Hin as ->.
Qed.

(** C01, C02, C03, C05: replay protection, foreign transactions, config history, determinism. *)
From stdpp Require Import gmap list sorting.
From Coq Require Import NArith ZArith Lia.
From RecordUpdate Require Import RecordUpdate.
From Verif Require Import AppModel AppSpec AppSteps VotingProofs AppInv.

Lemma error_rejected s : rejected s error_response s.
Proof. done. Qed.

Lemma mstep_nonces O ord s a p s' r : mstep O ord s a p s' r → nonces s' = nonces s.
Proof. by destruct 1. Qed.

Lemma end_block_flags_nonces s s' : end_block_flags s = Some s' → nonces s' = nonces s.
Proof. by intros (pre & l & l' & _ & _ & _ & [->|(-> & _)])%end_block_flags_spec. Qed.

Lemma init_chain_nonces s ks t vs cid s' : init_chain s ks t vs cid = Some s' → nonces s' = nonces s.
Proof.
  unfold init_chain. intros H. destruct (ensure_valid _); cbn [negb] in H; [|done].
  destruct (configs s !! 0); cbn in H; [|done].
  destruct (_ && _)%bool; [destruct (make_powermap_genesis vs); cbn in H; by simplify_eq|].
  case_bool_decide; by simplify_eq.
Qed.

Lemma step_nonces O s c s' r : step O s c = Some (s', r) → nonces s ⊆ nonces s'.
Proof.
  intros H. destruct c as [ks t vs cid|tx|tx ord|h|]; cbn [step] in H.
  - destruct (init_chain s ks t vs cid) as [s1|] eqn:E; cbn in H; simplify_eq.
    by rewrite (init_chain_nonces _ _ _ _ _ _ E).
  - injection H as H. unfold check_tx in H. repeat case_match; by simplify_eq.
  - apply deliver_tx_cases in H as [[-> _]|(a & m & _ & _ & _ & Hm)]; [done|].
    rewrite (mstep_nonces _ _ _ _ _ _ _ Hm). cbn. set_solver.
  - unfold end_block in H. destruct (end_block_flags s) as [s1|] eqn:E; cbn in H; [|done]. simplify_eq.
    cbn. by rewrite (end_block_flags_nonces _ _ E).
  - by injection H as <- <-.
Qed.

Lemma exec_nonces O s tr s' : exec O s tr s' → nonces s ⊆ nonces s'.
Proof.
  induction 1 as [|s tr s1 c r s2 H IH Hv Hs]; [done|].
  etrans; [exact IH|]. by eapply step_nonces.
Qed.

(** C01 *)
Lemma replay_rejected O s tx1 ord1 r1 s1 tr s2 tx2 ord2 r2 s3 a m1 m2 :
  step O s (CDeliverTx tx1 ord1) = Some (s1, r1) → exec O s1 tr s2 →
  step O s2 (CDeliverTx tx2 ord2) = Some (s3, r2) →
  decode_tx O tx1 = Some (a, m1) → decode_tx O tx2 = Some (a, m2) → msg_nonce m1 = msg_nonce m2 →
  rejected s r1 s1 ∨ rejected s2 r2 s3.
Proof.
  intros H1 He H2 D1 D2 Hn. cbn [step] in *.
  apply deliver_tx_cases in H1 as [[-> ->]|(a' & m & D & _ & _ & Hm)]; [by left|].
  rewrite D1 in D. injection D as <- <-. right.
  assert (Hin : (a, msg_nonce m2) ∈ nonces s2).
  { apply (exec_nonces _ _ _ _ He). rewrite (mstep_nonces _ _ _ _ _ _ _ Hm). cbn. rewrite Hn. set_solver. }
  apply deliver_tx_cases in H2 as [[-> ->]|(a' & m & D & _ & Hnot & _)]; [done|].
  rewrite D2 in D. injection D as <- <-. done.
Qed.

(** C02 *)
Lemma foreign_rejected O s tx ord :
  (decode_tx O tx = None ∨ ∃ a m, decode_tx O tx = Some (a, m) ∧ msg_chain_id m ≠ chain_id s) →
  (∃ r s', step O s (CDeliverTx tx ord) = Some (s', r) ∧ rejected s r s') ∧
  (∃ r s', step O s (CCheckTx tx) = Some (s', r) ∧ rejected s r s').
Proof.
  intros H. cbn [step]. unfold deliver_tx, check_tx.
  destruct H as [->|(a & m & -> & Hne)].
  - split; eexists _, _; (split; [done|apply error_rejected]).
  - rewrite bool_decide_eq_false_2 by done. cbn. split; eexists _, _; (split; [done|apply error_rejected]).
Qed.

(** C03 *)
Lemma config_history O tr s : history O tr s →
  configs s ≠ [] ∧
  (∀ i j ci cj, i < j → configs s !! i = Some ci → configs s !! j = Some cj →
     (cf_index ci < cf_index cj)%N ∧ (cf_start ci ≤ cf_start cj)%N) ∧
  (∀ b, ∃ c, get_config s b = Some c ∧ responsible (configs s) b c).
Proof.
  intros H%history_Inv. destruct (inv_configs s H) as [[c0 [H0 _]] Hord]. split_and!.
  - intros E. by rewrite E in H0.
  - done.
  - intros b. destruct (get_config_total s b H) as [c Hc]. exists c. split; [done|].
    by apply get_config_spec.
Qed.

(** how one step changes the configs *)
Lemma step_configs O s c s' r : step O s c = Some (s', r) →
  (∃ pre l l', configs s = pre ++ [l] ∧ evolves l l' ∧ configs s' = pre ++ [l']) ∨
  configs s' = configs s ∨
  (∃ tx ord a m rc bc l, c = CDeliverTx tx ord ∧ decode_tx O tx = Some (a, m) ∧
     msg_payload m = MBatchConfig rc ∧ config_from_message rc = Some bc ∧
     last_config s = Some l ∧ check_config l bc = true ∧ configs s' = configs s ++ [bc] ∧
     (EvBatchConfig bc ∈ rsp_events r)) ∨
  (∃ ks t vs cid c0, c = CInitChain ks t vs cid ∧ configs s = [c0] ∧ cf_keypers c0 = [] ∧
     configs s' = [genesis_config ks t] ∧ ensure_valid (genesis_config ks t) = true).
Proof.
  intros H. destruct c as [ks t vs cid|tx|tx ord|h|]; cbn [step] in H.
  - destruct (init_chain s ks t vs cid) as [s1|] eqn:E; cbn in H; simplify_eq. unfold init_chain in E.
    destruct (ensure_valid (genesis_config ks t)) eqn:Hev; cbn [negb] in E; [|done].
    destruct (configs s !! 0) as [c0|] eqn:H0; cbn in E; [|done].
    destruct (_ && _)%bool eqn:Hb.
    + destruct (make_powermap_genesis vs) as [pm|]; cbn in E; [|done]. simplify_eq.
      apply andb_true_iff in Hb as [Hb1 Hb2]. apply Nat.eqb_eq in Hb1, Hb2.
      right; right; right. exists ks, t, vs, cid, c0. split_and!; try done.
      * destruct (configs s) as [|x [|y l]]; simplify_eq/=. done.
      * by apply nil_length_inv.
    + case_bool_decide; simplify_eq. by right; left.
  - right; left. injection H as H. unfold check_tx in H. repeat case_match; by simplify_eq.
  - apply deliver_tx_cases in H as [[-> _]|(a & m & D & _ & _ & Hm)]; [by right; left|].
    remember (msg_payload m) as p eqn:Hp. destruct Hm; try (by right; left).
    + right; right; left. exists tx, ord, a, m, m0, bc, l. cbn. split_and!; try done. set_solver.
    + right; right; left. exists tx, ord, a, m, m0, bc, l. cbn. split_and!; try done. set_solver.
  - unfold end_block in H. destruct (end_block_flags s) as [s1|] eqn:E; cbn in H; [|done]. simplify_eq.
    apply end_block_flags_spec in E as (pre & l & l' & Hc & He & Hf & [->|(-> & _)]); left;
      exists pre, l, l'; done.
  - right; left. by injection H as <- <-.
Qed.

Lemma Forall2_evolves_refl l : Forall2 evolves l l.
Proof. apply Forall2_same_length_lookup_2; [done|]. intros i x y -> ?. simplify_eq. apply evolves_refl. Qed.

Lemma configs_append_only_step O s c s' r : Inv s → configs s ≠ [zero_config] →
  step O s c = Some (s', r) →
  ∃ old new, configs s' = old ++ new ∧ Forall2 evolves (configs s) old.
Proof.
  intros HI Hne H. apply step_configs in H as [(pre & l & l' & E & He & E')|[E|[H|H]]].
  - exists (pre ++ [l']), []. rewrite app_nil_r. split; [done|]. rewrite E.
    apply Forall2_app; [apply Forall2_evolves_refl|by constructor].
  - exists (configs s), []. rewrite app_nil_r. split; [done|]. apply Forall2_evolves_refl.
  - destruct H as (_&_&_&_&_&bc&_&_&_&_&_&_&_&E&_). exists (configs s), [bc]. split; [done|].
    apply Forall2_evolves_refl.
  - destruct H as (ks & t & vs & cid & c0 & _ & E & Hk & _). exfalso.
    destruct (inv_valid s HI) as [|Hall]; [done|].
    apply (ensure_valid_keypers c0); [|done]. apply Hall. rewrite E. set_solver.
Qed.

Lemma not_virgin_step O s c s' r : Inv s → configs s ≠ [zero_config] →
  step O s c = Some (s', r) → configs s' ≠ [zero_config].
Proof.
  intros HI Hne H. destruct (inv_valid s HI) as [|Hall]; [done|].
  destruct (configs_append_only_step _ _ _ _ _ HI Hne H) as (old & new & E & HF). rewrite E.
  intros Hz. destruct (inv_configs s HI) as [[c0 [H0 _]] _].
  destruct (configs s) as [|c1 l]; [done|]. apply Forall2_cons_inv_l in HF as (d & old' & Hd & _ & ->).
  simpl in Hz. injection Hz as -> _. apply (ensure_valid_keypers c1); [apply Hall; set_solver|].
  destruct Hd as [(_ & -> & _) _]. done.
Qed.

Lemma configs_append_only O tr0 s tr s' :
  history O tr0 s → exec O s tr s' → configs s ≠ [zero_config] →
  ∃ old new, configs s' = old ++ new ∧ Forall2 later_version (configs s) old.
Proof.
  intros HI%history_Inv He Hne. fold evolves.
  enough (configs s' ≠ [zero_config] ∧ ∃ old new, configs s' = old ++ new ∧ Forall2 evolves (configs s) old) by naive_solver.
  induction He as [|s tr s1 c r s2 He IH Hv Hs].
  - split; [done|]. exists (configs s), []. rewrite app_nil_r. split; [done|]. apply Forall2_evolves_refl.
  - destruct (IH HI Hne) as (Hne1 & old1 & new1 & E1 & F1).
    pose proof (exec_Inv _ _ _ _ HI He) as HI1.
    split; [by eapply not_virgin_step|].
    destruct (configs_append_only_step _ _ _ _ _ HI1 Hne1 Hs) as (old2 & new2 & E2 & F2).
    rewrite E1 in F2. apply Forall2_app_inv_l in F2 as (o1 & o2 & F21 & F22 & ->).
    exists o1, (o2 ++ new2). split; [by rewrite E2, app_assoc|].
    eapply Forall2_transitive; [|exact F1|exact F21]. intros x y z; apply evolves_trans.
Qed.

(** no call but InitChain (which refuses a bad genesis) can kill the process *)
Lemma no_panic O tr s c : history O tr s → valid_call c →
  match c with CInitChain _ _ _ _ => True | _ => is_Some (step O s c) end.
Proof.
  intros HI%history_Inv Hv. destruct c as [ks t vs cid|tx|tx ord|h|]; cbn [step]; try done.
  - unfold deliver_tx. destruct (decode_tx O tx) as [[a m]|]; [|done].
    destruct (negb _); [done|]. case_bool_decide; [done|].
    set (s0 := s <| nonces := _ |>). assert (HI0 : Inv s0) by by eapply Inv_ext.
    clearbody s0. clear dependent s.
    destruct (msg_payload m) as [rc|i|v e|b|b sig| | | | | |]; cbn [deliver_message]; try done.
    + unfold deliver_batch_config. destruct (config_from_message rc); [|done].
      destruct (last_config_total s0 HI0) as [l Hl]. rewrite Hl. cbn [mbind option_bind].
      repeat (case_match; [done|]). 
      destruct (config_add_vote _ _ _); [|done]. destruct (outcome _ _ _); [|done].
      unfold add_config. destruct (check_config l c); [|done].
      destruct (should_start_dkg _ _); [|done]. cbn [start_dkg].
      match goal with |- context [last_config ?x] =>
        assert (Hl4 : last_config x = Some c) by exact (last_snoc c (configs s0)); rewrite Hl4 end. done.
    + unfold deliver_config_started. destruct (last_config_total s0 HI0) as [l Hl]. rewrite Hl. cbn [mbind option_bind].
      case_match; [done|]. destruct (Nat.leb_spec (length (configs s0)) 1); [done|].
      destruct (lookup_lt_is_Some_2 (configs s0) (length (configs s0) - 2)) as [p Hp]; [lia|].
      rewrite Hp. cbn [mbind option_bind]. by case_match.
    + unfold deliver_check_in. by repeat case_match.
    + unfold deliver_eon_start_vote. destruct (get_config_total s0 b HI0) as [c Hc]. rewrite Hc. cbn [mbind option_bind].
      case_match; [done|]. destruct (maybe_start_eon _ _ _) as [? [[? ?]|]]; done.
    + unfold deliver_decryption_signature, get_batch_state.
      destruct (get_config_total s0 b HI0) as [c Hc]. rewrite Hc.
      destruct (batch_states s0 !! b); cbn [mbind option_bind]; by case_match.
  - unfold end_block, end_block_flags. destruct (last_config_total s HI) as [l Hl]. rewrite Hl. cbn [mbind option_bind].
    destruct (Nat.leb_spec 2 (length (configs s))); [|done].
    destruct (lookup_lt_is_Some_2 (configs s) (length (configs s) - 2)) as [p Hp]; [lia|].
    rewrite Hp. done.
Qed.

(** C05 *)
Lemma deliver_order_indep O s tx ord1 ord2 : Inv s → valid_order ord1 → valid_order ord2 →
  step O s (CDeliverTx tx ord1) = step O s (CDeliverTx tx ord2).
Proof.
  intros HI H1 H2. cbn [step]. unfold deliver_tx. destruct (decode_tx O tx) as [[a m]|]; [|done].
  destruct (negb _); [done|]. case_bool_decide; [done|].
  set (s0 := s <| nonces := _ |>). assert (HI0 : Inv s0) by by eapply Inv_ext.
  clearbody s0. clear dependent s.
  destruct (msg_payload m) as [rc|i|v e|b|b sig| | | | | |]; cbn [deliver_message]; try done.
  - unfold deliver_batch_config. destruct (config_from_message rc); [|done].
    destruct (last_config s0) as [l|] eqn:Hl; cbn [mbind option_bind]; [|done].
    case_match; [done|]. case_match; [done|]. case_match; [done|].
    unfold config_add_vote. destruct (vt_votes (config_voting s0) !! a) eqn:Hv; [done|].
    destruct (inv_cv s0 HI0 l Hl) as [Hnw _].
    by rewrite (outcome_order_indep ord1 ord2 _ _ _ _ H1 H2 Hnw).
  - unfold deliver_eon_start_vote. destruct (get_config s0 b) as [c|] eqn:Hc; cbn [mbind option_bind]; [|done].
    case_match; [done|]. unfold maybe_start_eon, count_eon_start_vote. cbn. rewrite lookup_insert.
    assert (Hnw : no_winner (vt_votes (default new_voting (eon_votings s0 !! cf_index c))) (int_of_uint64 (cf_threshold c))).
    { destruct (eon_votings s0 !! cf_index c) as [v|] eqn:E; simpl; [|apply no_winner_empty].
      apply (inv_ev s0 HI0) in E as [_ (c' & Hc' & Hi & Hnw & _)].
      rewrite (cfg_index_inj s0 c c' HI0); [done|by eapply get_config_elem|done|done]. }
    by rewrite (outcome_order_indep ord1 ord2 _ _ _ _ H1 H2 Hnw).
Qed.

Lemma step_order_indep O s c d : Inv s → valid_call c → valid_call d → same_call c d → step O s c = step O s d.
Proof.
  intros HI Hc Hd Hs. destruct c, d; simpl in Hs; try done.
  - by destruct Hs as (-> & -> & -> & ->).
  - by subst.
  - subst. by apply deliver_order_indep.
  - by subst.
Qed.

Lemma exec_deterministic O s tr1 s1 tr2 s2 :
  Inv s → exec O s tr1 s1 → exec O s tr2 s2 → Forall2 same_call tr1.*1 tr2.*1 →
  s1 = s2 ∧ tr1.*2 = tr2.*2.
Proof.
  intros HI H1. revert tr2 s2. induction H1 as [|s tr sm c r s1 He IH Hv Hs]; intros tr2 s2 H2 HF.
  - simpl in HF. apply Forall2_nil_inv_l in HF. destruct tr2; [|done].
    by apply exec_nil_inv in H2 as ->.
  - rewrite fmap_app in HF. apply Forall2_app_inv_l in HF as (k1 & k2 & F1 & F2 & Heq).
    apply Forall2_cons_inv_l in F2 as (d & k3 & Hsame & F3 & ->). apply Forall2_nil_inv_l in F3 as ->.
    destruct tr2 as [|[d' r'] tr2 _] using rev_ind; [by destruct k1|].
    rewrite fmap_app in Heq. simpl in Heq. apply app_inj_tail in Heq as [<- <-].
    apply exec_snoc_inv in H2 as (sm' & He' & Hv' & Hs').
    destruct (IH HI _ _ He' F1) as [<- Hr].
    rewrite (step_order_indep O sm c d') in Hs; [|by eapply exec_Inv|done..].
    rewrite Hs in Hs'. simplify_eq. split; [done|]. by rewrite !fmap_app, Hr.
Qed.

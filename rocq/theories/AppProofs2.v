(** C04, C06, C07, C08, C09, C10: votes, eons and key generation messages over histories. *)
From stdpp Require Import gmap list sorting.
From Coq Require Import NArith ZArith Lia.
From RecordUpdate Require Import RecordUpdate.
From Verif Require Import AppModel AppSpec AppSteps VotingProofs AppInv AppProofs1.

Ltac destruct_mstep H :=
  destruct H as [p|rc bc0 Hrc Hl|rc bc0 l0 Hrc Hl Hne Hck Hk Hvt Hout|rc bc0 l0 w Hrc Hl Hne Hck Hk Hvt Hout Hsd
   |rc bc0 l0 w eon Hrc Hl Hne Hck Hk Hvt Hout Hsd Heon|vk ek k Hi Hk Hlen Hd|i l0 p Hl Hi Hlen Hp Hk Hst
   |i l0 p Hl Hi Hlen Hp Hk Hst|b cfg v Hgc Hk Hvt Hout|b cfg v w eon Hgc Hk Hvt Hout Heon|b sig bs bs' Hb Hadd
   |eon rs0 evs as_ d d' Hlen Hp Hd Hr|eon gs gs' d d' Hg Hd Hr|eon rs0 as_ d d' Hp Hd Hr
   |eon rs0 evs as_ d d' Hlen Hp Hd Hr|eon ep sh sh' Hsh].

Lemma int_of_uint64_small n : (n < 2 ^ 63)%N → int_of_uint64 n = Z.of_N n.
Proof. intros H. unfold int_of_uint64. apply N.ltb_lt in H. by rewrite H. Qed.

Lemma with_nonce_last s a m : last_config (with_nonce s a m) = last_config s.
Proof. done. Qed.

(** steps other than DeliverTx publish nothing and touch little *)
Lemma other_step O s c s' r : step O s c = Some (s', r) → (∀ tx ord, c ≠ CDeliverTx tx ord) →
  rsp_events r = [] ∧ config_voting s' = config_voting s ∧ eon_votings s' = eon_votings s ∧
  eon_counter s' = eon_counter s ∧ dkg_map s' = dkg_map s ∧ batch_states s' = batch_states s ∧
  identities s' = identities s.
Proof.
  intros H Hnd. destruct c as [ks t vs cid|tx|tx ord|h|]; cbn [step] in H.
  - destruct (init_chain s ks t vs cid) as [s1|] eqn:E; cbn in H; simplify_eq. unfold init_chain in E.
    destruct (ensure_valid (genesis_config ks t)) eqn:Hev; cbn [negb] in E; [|done].
    destruct (configs s !! 0) as [c0|] eqn:H0; cbn in E; [|done].
    destruct (_ && _)%bool eqn:Hb.
    + destruct (make_powermap_genesis vs) as [pm|]; cbn in E; [|done]. by simplify_eq.
    + case_bool_decide; by simplify_eq.
  - injection H as H. unfold check_tx in H. repeat case_match; by simplify_eq.
  - by destruct (Hnd tx ord).
  - unfold end_block in H. destruct (end_block_flags s) as [s1|] eqn:E; cbn in H; [|done]. simplify_eq.
    apply end_block_flags_spec in E as (pre & l & l' & Hc & He & Hf & [->|(-> & _)]); done.
  - by injection H as <- <-.
Qed.

Lemma step_deliver_cases O s c s' r : step O s c = Some (s', r) →
  (rsp_events r = [] ∧ config_voting s' = config_voting s ∧ eon_votings s' = eon_votings s ∧
   eon_counter s' = eon_counter s ∧ dkg_map s' = dkg_map s ∧ batch_states s' = batch_states s ∧
   identities s' = identities s) ∨
  (∃ tx ord a m, c = CDeliverTx tx ord ∧ decode_tx O tx = Some (a, m) ∧
     mstep O ord (with_nonce s a m) a (msg_payload m) s' r).
Proof.
  intros H. destruct c as [ks t vs cid|tx|tx ord|h|].
  1,2,4,5: left; eapply other_step; [exact H|done].
  cbn [step] in H. apply deliver_tx_cases in H as [[-> ->]|(a & m & D & _ & _ & Hm)]; [by left|].
  right. exists tx, ord, a, m. done.
Qed.

(** ** C04 *)
Definition votes_recorded (O : oracles) (tr : trace) (s : app) : Prop :=
  ∃ tr1 tr2, tr = tr1 ++ tr2 ∧ ¬ announces_config tr2 ∧
    ∀ a bc, stands (config_voting s) a bc →
      ∃ cl rr, (cl, rr) ∈ tr2 ∧ votes_config O cl a bc ∧ rsp_code rr = 0%N.

Lemma announces_snoc tr c r : announces_config (tr ++ [(c, r)]) →
  announces_config tr ∨ ∃ bc, EvBatchConfig bc ∈ rsp_events r.
Proof.
  intros [bc H]. rewrite events_of_app, events_of_one in H. apply elem_of_app in H as [H|H].
  - left. by exists bc.
  - right. by exists bc.
Qed.

Lemma votes_recorded_keep O tr s c r s' :
  votes_recorded O tr s → (∀ bc, EvBatchConfig bc ∉ rsp_events r) →
  config_voting s' = config_voting s → votes_recorded O (tr ++ [(c, r)]) s'.
Proof.
  intros (tr1 & tr2 & -> & Hna & H) Hev Heq. exists tr1, (tr2 ++ [(c, r)]). split; [by rewrite app_assoc|].
  split. { intros [?|[bc ?]]%announces_snoc; [done|]. by eapply Hev. }
  intros a bc. rewrite Heq. intros Hst. destruct (H a bc Hst) as (cl & rr & Hin & ?). exists cl, rr. set_solver.
Qed.

Lemma history_votes_recorded O tr s : history O tr s → votes_recorded O tr s.
Proof.
  intros [dev H]. remember (new_app dev) as s0 eqn:E0. induction H as [|s0 tr s1 c r s2 He IH Hv Hs].
  - subst. exists [], []. split; [done|]. split.
    + intros [c Hc]. by apply elem_of_nil in Hc.
    + intros a bc (i & Hi & _). cbn in Hi. by rewrite lookup_empty in Hi.
  - specialize (IH E0). assert (HI : Inv s1). { eapply exec_Inv; [|exact He]. subst. apply Inv_new_app. }
    apply step_deliver_cases in Hs as [(Hev & Hcv & _)|(tx & ord & a & m & -> & D & Hm)].
    { eapply votes_recorded_keep; [done| |done]. rewrite Hev. by intros bc ?%elem_of_nil. }
    remember (msg_payload m) as pl eqn:Hpl. destruct_mstep Hm;
      try (eapply votes_recorded_keep; [exact IH|cbn; set_solver|done]).
    + destruct IH as (tr1 & tr2 & -> & Hna & H). exists tr1. eexists. rewrite <-app_assoc. split; [done|].
      split. { intros [?|[bc' ?]]%announces_snoc; [done|]. cbn in *. set_solver. }
      intros b bc' Hst. cbn in Hst. apply stands_add_vote_inv in Hst as [[-> ->]|[Hne' Hst]];
        [|..|apply (inv_cv_wf s1 HI)].
      * eexists _, _. split; [apply elem_of_app; right; by apply elem_of_list_singleton|].
        split; [|done]. exists rc. split; [|done]. eexists _, _, m. done.
      * destruct (H b bc' Hst) as (cl & rr & Hin & ?). exists cl, rr. set_solver.
    + eexists (tr ++ [_]), []. rewrite app_nil_r.
      split; [done|]. split. { intros [c Hc]. by apply elem_of_nil in Hc. }
      intros b bc' (j & Hj & _). cbn in Hj. by rewrite lookup_empty in Hj.
    + eexists (tr ++ [_]), []. rewrite app_nil_r.
      split; [done|]. split. { intros [c Hc]. by apply elem_of_nil in Hc. }
      intros b bc' (j & Hj & _). cbn in Hj. by rewrite lookup_empty in Hj.
Qed.

Lemma config_needs_votes O tr s c r s' bc l :
  history O tr s → valid_call c → step O s c = Some (s', r) →
  EvBatchConfig bc ∈ rsp_events r → last_config s = Some l → (cf_threshold l < 2 ^ 63)%N →
  configs s' = configs s ++ [bc] ∧
  ∃ tr1 tr2 vs, tr = tr1 ++ tr2 ∧ ¬ announces_config tr2 ∧ NoDup vs ∧
    (cf_threshold l ≤ N.of_nat (length vs))%N ∧
    ∀ a, a ∈ vs → a ∈ cf_keypers l ∧
      ∃ cl rr, (cl, rr) ∈ tr2 ++ [(c, r)] ∧ votes_config O cl a bc ∧ rsp_code rr = 0%N.
Proof.
  intros Hh Hv Hs Hev Hlast Hthr. pose proof (history_Inv _ _ _ Hh) as HI.
  destruct (history_votes_recorded _ _ _ Hh) as (tr1 & tr2 & Htr & Hna & Hrec).
  assert (Hcore : ∃ tx ord a m rc w, c = CDeliverTx tx ord ∧ decode_tx O tx = Some (a, m) ∧
     msg_payload m = MBatchConfig rc ∧ config_from_message rc = Some bc ∧ a ∈ cf_keypers l ∧
     configs s' = configs s ++ [bc] ∧ rsp_code r = 0%N ∧
     outcome ord (add_vote (config_voting s) a bc) (int_of_uint64 (cf_threshold l)) = Some w).
  { apply step_deliver_cases in Hs as [(Hev' & _)|(tx & ord & a & m & -> & D & Hm)].
    { rewrite Hev' in Hev. by apply elem_of_nil in Hev. }
    remember (msg_payload m) as pl eqn:Hpl. destruct_mstep Hm; cbn in Hev;
      try (by apply elem_of_nil in Hev); try (by apply elem_of_list_singleton in Hev).
    - rewrite with_nonce_last, Hlast in Hl. apply elem_of_list_singleton in Hev. simplify_eq.
      exists tx, ord, a, m, rc, w. done.
    - rewrite with_nonce_last, Hlast in Hl. apply elem_of_cons in Hev as [Hev|Hev%elem_of_list_singleton]; simplify_eq.
      exists tx, ord, a, m, rc, w. done. }
  destruct Hcore as (tx & ord & a & m & rc & w & -> & D & Hpl & Hrc & Hk & Hcf & Hcode & Hout).
  split; [done|].
  destruct (inv_cv s HI l Hlast) as [Hnw Hks].
  apply outcome_add_vote_winner in Hout as [-> (vs & Hnd & Hain & Hreq & Hst)]; [|done|apply HI|done].
  exists tr1, tr2, vs. split; [done|]. split; [done|]. split; [done|].
  rewrite int_of_uint64_small in Hreq by done. split; [lia|].
  intros b Hb. apply Hst in Hb. apply stands_add_vote_inv in Hb as [[-> _]|[Hne Hb]]; [| |apply HI].
  - split; [done|]. eexists _, _. split; [apply elem_of_app; right; by apply elem_of_list_singleton|].
    split; [|done]. exists rc. split; [|done]. eexists _, _, m. done.
  - split; [destruct Hb as (i & Hi & _); eauto|].
    destruct (Hrec b bc Hb) as (cl & rr & Hin & ?). exists cl, rr. set_solver.
Qed.

(** each keyper has only one vote between two config changes *)
Lemma second_vote_rejected O tr0 s0 c1 r1 s1 tr s2 c2 r2 s3 a bc1 bc2 l1 l2 :
  history O tr0 s0 → valid_call c1 → step O s0 c1 = Some (s1, r1) → exec O s1 tr s2 →
  ¬ announces_config ((c1, r1) :: tr) → step O s2 c2 = Some (s3, r2) →
  votes_config O c1 a bc1 → rsp_code r1 = 0%N → last_config s0 = Some l1 → l1 ≠ bc1 →
  votes_config O c2 a bc2 → last_config s2 = Some l2 → l2 ≠ bc2 →
  rsp_code r2 = 1%N ∧ configs s3 = configs s2 ∧ config_voting s3 = config_voting s2.
Proof.
  intros Hh Hv1 Hs1 He Hna Hs2 V1 Hr1 Hl1 Hne1 V2 Hl2 Hne2.
  pose proof (history_Inv _ _ _ Hh) as HI0.
  assert (Hna1 : ∀ bc, EvBatchConfig bc ∉ rsp_events r1).
  { intros bc Hin. apply Hna. exists bc. change ((c1, r1) :: tr) with ([(c1, r1)] ++ tr).
    rewrite events_of_app, events_of_one. set_solver. }
  assert (Hna2 : ¬ announces_config tr).
  { intros [bc Hin]. apply Hna. exists bc. change ((c1, r1) :: tr) with ([(c1, r1)] ++ tr).
    rewrite events_of_app. set_solver. }
  assert (Hvoted : is_Some (vt_votes (config_voting s1) !! a)).
  { destruct V1 as (rc1 & (tx & ord & m & -> & D & Hp) & Hrc1).
    cbn [step] in Hs1. apply deliver_tx_cases in Hs1 as [[_ ->]|(a' & m' & D' & _ & _ & Hm)]; [done|].
    rewrite D in D'. injection D' as <- <-. rewrite Hp in Hm.
    inversion Hm; subst; cbn in Hr1; try done; simplify_eq.
    - rewrite with_nonce_last in *. simplify_eq.
    - cbn. destruct (add_vote_spec (config_voting s0) a bc1) as (i & -> & _). rewrite lookup_insert. eauto.
    - destruct (Hna1 bc1). cbn. set_solver.
    - destruct (Hna1 bc1). cbn. set_solver. }
  assert (Hkeep : is_Some (vt_votes (config_voting s2) !! a)).
  { clear -He Hna2 Hvoted. induction He as [|s tr s1 c r s2 He IH Hv Hs]; [done|].
    assert (Hna : ¬ announces_config tr).
    { intros [bc Hin]. apply Hna2. exists bc. rewrite events_of_app. set_solver. }
    specialize (IH Hna Hvoted).
    apply step_deliver_cases in Hs as [(_ & -> & _)|(tx & ord & y & m & -> & D & Hm)]; [done|].
    remember (msg_payload m) as pl eqn:Hpl. destruct_mstep Hm; try exact IH.
    - cbn. destruct (add_vote_spec (config_voting s1) y bc0) as (i & -> & _).
      destruct (decide (a = y)) as [->|]; [rewrite lookup_insert; eauto|]. by rewrite lookup_insert_ne.
    - destruct Hna2. exists bc0. rewrite events_of_app, events_of_one. cbn. set_solver.
    - destruct Hna2. exists bc0. rewrite events_of_app, events_of_one. cbn. set_solver. }
  destruct V2 as (rc2 & (tx & ord & m & -> & D & Hp) & Hrc2).
  cbn [step] in Hs2. apply deliver_tx_cases in Hs2 as [[-> ->]|(a' & m' & D' & _ & _ & Hm)]; [done|].
  rewrite D in D'. injection D' as <- <-. rewrite Hp in Hm. destruct Hkeep as [i Hi].
  inversion Hm; subst; rewrite ?with_nonce_last in *; cbn in *; simplify_eq; done.
Qed.

(** ** C07 *)
Definition eons_ok (tr : trace) (s : app) : Prop :=
  (N.of_nat (length (eons_of tr)) < 2 ^ 64)%N →
  eons_of tr = N.of_nat <$> seq 1 (length (eons_of tr)) ∧
  eon_counter s = N.of_nat (length (eons_of tr)) ∧
  ∀ e, is_Some (dkg_map s !! e) ↔ e ∈ eons_of tr.

Lemma u64_small n : (n < 2 ^ 64)%N → u64 n = n.
Proof. intros H. unfold u64. by apply N.mod_small. Qed.

Lemma eons_of_snoc tr c r :
  eons_of (tr ++ [(c, r)]) = eons_of tr ++ omap (λ e, match e with EvEonStarted n _ => Some n | _ => None end) (rsp_events r).
Proof. rewrite eons_of_app. unfold eons_of at 2. by rewrite events_of_one. Qed.

Lemma eons_ok_keep tr s c r s' :
  eons_ok tr s → omap (λ e, match e with EvEonStarted n _ => Some n | _ => None end) (rsp_events r) = [] →
  eon_counter s' = eon_counter s → (∀ e, is_Some (dkg_map s' !! e) ↔ is_Some (dkg_map s !! e)) →
  eons_ok (tr ++ [(c, r)]) s'.
Proof.
  intros H Hev Hc Hd. unfold eons_ok. rewrite eons_of_snoc, Hev, app_nil_r. intros Hlt.
  destruct (H Hlt) as (H1 & H2 & H3). rewrite Hc. split_and!; try done. intros e. by rewrite Hd.
Qed.

Lemma eons_ok_start tr s c r s' eon :
  eons_ok tr s → omap (λ e, match e with EvEonStarted n _ => Some n | _ => None end) (rsp_events r) = [eon] →
  eon = u64 (eon_counter s + 1) → eon_counter s' = eon →
  (∀ e, is_Some (dkg_map s' !! e) ↔ e = eon ∨ is_Some (dkg_map s !! e)) →
  eons_ok (tr ++ [(c, r)]) s'.
Proof.
  intros H Hev He Hc Hd. unfold eons_ok. rewrite eons_of_snoc, Hev, app_length. simpl. intros Hlt.
  destruct H as (H1 & H2 & H3); [lia|].
  assert (He' : eon = N.of_nat (length (eons_of tr) + 1)).
  { rewrite He, H2, u64_small by lia. lia. }
  split_and!.
  - rewrite seq_app, fmap_app, <-H1, He'. simpl. do 2 f_equal. lia.
  - by rewrite Hc, He'.
  - intros e. rewrite Hd, H3, elem_of_app, elem_of_list_singleton. tauto.
Qed.

Lemma is_Some_insert_upd {A} (m : gmap N A) k d x e : m !! k = Some d →
  is_Some (<[k := x]> m !! e) ↔ is_Some (m !! e).
Proof.
  intros H. destruct (decide (e = k)) as [->|].
  - rewrite lookup_insert, H. split; eauto.
  - by rewrite lookup_insert_ne.
Qed.
Lemma is_Some_insert_new {A} (m : gmap N A) k x e :
  is_Some (<[k := x]> m !! e) ↔ e = k ∨ is_Some (m !! e).
Proof.
  destruct (decide (e = k)) as [->|].
  - rewrite lookup_insert. split; eauto.
  - rewrite lookup_insert_ne by done. split; [by right|]. by intros [?|?].
Qed.

Lemma history_eons_ok O tr s : history O tr s → eons_ok tr s.
Proof.
  intros [dev H]. remember (new_app dev) as s0 eqn:E0. induction H as [|s0 tr s1 c r s2 He IH Hv Hs].
  - subst. intros _. cbn. split_and!; try done. intros e. rewrite lookup_empty. split.
    + by intros [? ?].
    + by intros ?%elem_of_nil.
  - specialize (IH E0).
    apply step_deliver_cases in Hs as [(Hev & Hcv & _ & Hec & Hdm & _)|(tx & ord & a & m & -> & D & Hm)].
    { eapply eons_ok_keep; [done|by rewrite Hev|done|by rewrite Hdm]. }
    remember (msg_payload m) as pl eqn:Hpl. destruct_mstep Hm;
      try (eapply eons_ok_keep; [exact IH|done|done|done]);
      try (eapply eons_ok_start; [exact IH|cbn; reflexivity|done|done|intros e; apply is_Some_insert_new]);
      try (eapply eons_ok_keep; [exact IH|done|done|intros e; by eapply is_Some_insert_upd]).
Qed.

Lemma eons_consecutive O tr s : history O tr s → (N.of_nat (length (eons_of tr)) < 2 ^ 64)%N →
  eons_of tr = N.of_nat <$> seq 1 (length (eons_of tr)).
Proof. intros H Hlt. by destruct (history_eons_ok _ _ _ H Hlt). Qed.

(** ** C08 *)
Definition event_eon (e : event) : option N :=
  match e with
  | EvPolyEval _ n _ _ | EvPolyCommitment _ n _ | EvAccusation _ n _ | EvApology _ n _ _ => Some n
  | _ => None
  end.

Lemma dkg_only_announced O tr s c r s' e n :
  history O tr s → valid_call c → step O s c = Some (s', r) →
  (N.of_nat (length (eons_of tr)) < 2 ^ 64)%N →
  e ∈ rsp_events r → event_eon e = Some n → n ∈ eons_of tr.
Proof.
  intros Hh Hv Hs Hlt He Hn. destruct (history_eons_ok _ _ _ Hh Hlt) as (_ & _ & H3). apply H3.
  apply step_deliver_cases in Hs as [(Hev & _)|(tx & ord & a & m & -> & D & Hm)].
  { rewrite Hev in He. by apply elem_of_nil in He. }
  remember (msg_payload m) as pl eqn:Hpl. destruct_mstep Hm; cbn in He;
    try (by apply elem_of_nil in He); repeat (apply elem_of_cons in He as [->|He]); try (by apply elem_of_nil in He);
    try done; simplify_eq/=; eauto.
Qed.

Record dkg_log (tr : trace) (s : app) : Prop := mkDkgLog {
  dl_commit_nodup : NoDup (commitments_of tr);
  dl_accuse_nodup : NoDup (accusations_of tr);
  dl_apology_nodup : NoDup (apologies_of tr);
  dl_eval_nodup : NoDup (evals_of tr);
  dl_commit : ∀ n a, (n, a) ∈ commitments_of tr → ∃ d, dkg_map s !! n = Some d ∧ a ∈ dkg_commitments d;
  dl_accuse : ∀ n a, (n, a) ∈ accusations_of tr → ∃ d, dkg_map s !! n = Some d ∧ a ∈ dkg_accusations d;
  dl_apology : ∀ n a, (n, a) ∈ apologies_of tr → ∃ d, dkg_map s !! n = Some d ∧ a ∈ dkg_apologies d;
  dl_eval : ∀ n a b, (n, a, b) ∈ evals_of tr → ∃ d, dkg_map s !! n = Some d ∧ (a, b) ∈ dkg_evals d
}.

Definition ev_commit (e : event) := match e with EvPolyCommitment a n _ => Some (n, a) | _ => None end.
Definition ev_accuse (e : event) := match e with EvAccusation a n _ => Some (n, a) | _ => None end.
Definition ev_apology (e : event) := match e with EvApology a n _ _ => Some (n, a) | _ => None end.
Definition ev_evals (e : event) : list (N * address * address) :=
  match e with EvPolyEval a n rs _ => (λ r, (n, a, r)) <$> rs | _ => [] end.

Lemma commitments_snoc tr c r : commitments_of (tr ++ [(c, r)]) = commitments_of tr ++ omap ev_commit (rsp_events r).
Proof. unfold commitments_of. by rewrite events_of_app, events_of_one, omap_app. Qed.
Lemma accusations_snoc tr c r : accusations_of (tr ++ [(c, r)]) = accusations_of tr ++ omap ev_accuse (rsp_events r).
Proof. unfold accusations_of. by rewrite events_of_app, events_of_one, omap_app. Qed.
Lemma apologies_snoc tr c r : apologies_of (tr ++ [(c, r)]) = apologies_of tr ++ omap ev_apology (rsp_events r).
Proof. unfold apologies_of. by rewrite events_of_app, events_of_one, omap_app. Qed.
Lemma evals_snoc tr c r : evals_of (tr ++ [(c, r)]) = evals_of tr ++ concat (ev_evals <$> rsp_events r).
Proof. unfold evals_of. by rewrite events_of_app, events_of_one, fmap_app, concat_app. Qed.

(** existing DKG instances only grow *)
Definition dkg_grows (s s' : app) : Prop :=
  ∀ n d, dkg_map s !! n = Some d → ∃ d', dkg_map s' !! n = Some d' ∧ dkg_config d' = dkg_config d ∧
    dkg_commitments d ⊆ dkg_commitments d' ∧ dkg_accusations d ⊆ dkg_accusations d' ∧
    dkg_apologies d ⊆ dkg_apologies d' ∧ dkg_evals d ⊆ dkg_evals d'.

Lemma dkg_grows_same s s' : dkg_map s' = dkg_map s → dkg_grows s s'.
Proof. intros E n d. rewrite E. intros. exists d. done. Qed.

Lemma NoDup_snoc_new {A} (l : list A) x : NoDup l → x ∉ l → NoDup (l ++ [x]).
Proof.
  intros Hl Hx. apply NoDup_app. split_and!; [done| |apply NoDup_singleton].
  by intros y Hy ->%elem_of_list_singleton.
Qed.

Lemma dkg_log_keep tr s c r s' : dkg_log tr s → dkg_grows s s' →
  omap ev_commit (rsp_events r) = [] → omap ev_accuse (rsp_events r) = [] →
  omap ev_apology (rsp_events r) = [] → concat (ev_evals <$> rsp_events r) = [] →
  dkg_log (tr ++ [(c, r)]) s'.
Proof.
  intros [] Hg E1 E2 E3 E4.
  split; rewrite ?commitments_snoc, ?accusations_snoc, ?apologies_snoc, ?evals_snoc, ?E1, ?E2, ?E3, ?E4, ?app_nil_r;
    try done; intros n a.
  - intros (d & Hd & ?)%dl_commit0. apply Hg in Hd as (d' & ? & ?). exists d'. set_solver.
  - intros (d & Hd & ?)%dl_accuse0. apply Hg in Hd as (d' & ? & ?). exists d'. set_solver.
  - intros (d & Hd & ?)%dl_apology0. apply Hg in Hd as (d' & ? & ?). exists d'. set_solver.
  - intros b (d & Hd & ?)%dl_eval0. apply Hg in Hd as (d' & ? & ?). exists d'. set_solver.
Qed.

Lemma register_commitment_spec d a n d' : register_commitment d a n = Some d' →
  n = dkg_eon d ∧ a ∈ cf_keypers (dkg_config d) ∧ a ∉ dkg_commitments d ∧
  d' = d <| dkg_commitments := dkg_commitments d ∪ {[ a ]} |>.
Proof.
  unfold register_commitment. intros H.
  destruct (N.eqb_spec n (dkg_eon d)); cbn in H; [|done].
  destruct (is_keyper (dkg_config d) a) eqn:Hk; cbn in H; [|done]. apply is_keyper_true in Hk.
  case_bool_decide; simplify_eq. done.
Qed.
Lemma forallb_keypers c a l :
  forallb (λ r, is_keyper c r && negb (N.eqb a r)) l = true → ∀ r, r ∈ l → r ∈ cf_keypers c ∧ r ≠ a.
Proof.
  intros H r Hr. rewrite forallb_forall in H. apply elem_of_list_In, H in Hr.
  apply andb_true_iff in Hr as [Hk Hne]. apply is_keyper_true in Hk.
  apply negb_true_iff, N.eqb_neq in Hne. split; [done|by apply not_eq_sym].
Qed.
Lemma register_accusation_spec d a n l d' : register_accusation d a n l = Some d' →
  n = dkg_eon d ∧ a ∈ cf_keypers (dkg_config d) ∧ a ∉ dkg_accusations d ∧
  (∀ r, r ∈ l → r ∈ cf_keypers (dkg_config d) ∧ r ≠ a) ∧
  d' = d <| dkg_accusations := dkg_accusations d ∪ {[ a ]} |>.
Proof.
  unfold register_accusation. intros H.
  destruct (N.eqb_spec n (dkg_eon d)); cbn in H; [|done].
  destruct (is_keyper (dkg_config d) a) eqn:Hk; cbn in H; [|done]. apply is_keyper_true in Hk.
  destruct (forallb _ l) eqn:Hf; cbn in H; [|done].
  case_bool_decide; simplify_eq. split_and!; try done. by apply forallb_keypers.
Qed.
Lemma register_apology_spec d a n l d' : register_apology d a n l = Some d' →
  n = dkg_eon d ∧ a ∈ cf_keypers (dkg_config d) ∧ a ∉ dkg_apologies d ∧
  (∀ r, r ∈ l → r ∈ cf_keypers (dkg_config d) ∧ r ≠ a) ∧
  d' = d <| dkg_apologies := dkg_apologies d ∪ {[ a ]} |>.
Proof.
  unfold register_apology. intros H.
  destruct (N.eqb_spec n (dkg_eon d)); cbn in H; [|done].
  destruct (is_keyper (dkg_config d) a) eqn:Hk; cbn in H; [|done]. apply is_keyper_true in Hk.
  destruct (forallb _ l) eqn:Hf; cbn in H; [|done].
  case_bool_decide; simplify_eq. split_and!; try done. by apply forallb_keypers.
Qed.
Lemma elem_of_fold_pairs (a : address) (l : list address) (X : gset (address * address)) (p : address * address) :
  p ∈ foldl (λ acc r, acc ∪ {[ (a, r) ]}) X l ↔ p ∈ X ∨ ∃ r, r ∈ l ∧ p = (a, r).
Proof.
  revert X. induction l as [|x l IH]; intros X; simpl.
  - split; [by left|]. by intros [?|(r & ?%elem_of_nil & _)].
  - rewrite IH, elem_of_union, elem_of_singleton. split.
    + intros [[?| ->]|(r & ? & ->)]; [by left|right; exists x; set_solver|right; exists r; set_solver].
    + intros [?|(r & [->|Hr]%elem_of_cons & ->)]; [by left; left|by left; right|right; eauto].
Qed.
Lemma register_poly_eval_spec d a n l d' : register_poly_eval d a n l = Some d' →
  n = dkg_eon d ∧ a ∈ cf_keypers (dkg_config d) ∧
  (∀ r, r ∈ l → r ∈ cf_keypers (dkg_config d) ∧ r ≠ a ∧ (a, r) ∉ dkg_evals d) ∧
  (∀ p, p ∈ dkg_evals d' ↔ p ∈ dkg_evals d ∨ ∃ r, r ∈ l ∧ p = (a, r)) ∧
  d' = d <| dkg_evals := dkg_evals d' |>.
Proof.
  unfold register_poly_eval. intros H.
  destruct (N.eqb_spec n (dkg_eon d)); cbn in H; [|done].
  destruct (is_keyper (dkg_config d) a) eqn:Hk; cbn in H; [|done]. apply is_keyper_true in Hk.
  destruct (forallb _ l) eqn:Hf; cbn in H; [|done]. simplify_eq. split_and!; try done.
  - intros r Hr. rewrite forallb_forall in Hf. apply elem_of_list_In, Hf in Hr.
    apply andb_true_iff in Hr as [[Hk' Hne]%andb_true_iff Hnot]. apply is_keyper_true in Hk'.
    apply negb_true_iff, N.eqb_neq in Hne. apply negb_true_iff, bool_decide_eq_false in Hnot. done.
  - intros p. cbn. apply elem_of_fold_pairs.
Qed.
Lemma parse_addresses_NoDup l as_ : parse_addresses l = Some as_ → NoDup as_.
Proof.
  unfold parse_addresses. destruct (mapM validate_address l); cbn; [|done].
  unfold unique_addresses. case_bool_decide; intros; by simplify_eq.
Qed.

Lemma dkg_grows_insert s s' n d d' : dkg_map s !! n = Some d → dkg_map s' = <[n := d']> (dkg_map s) →
  dkg_config d' = dkg_config d → dkg_commitments d ⊆ dkg_commitments d' → dkg_accusations d ⊆ dkg_accusations d' →
  dkg_apologies d ⊆ dkg_apologies d' → dkg_evals d ⊆ dkg_evals d' → dkg_grows s s'.
Proof.
  intros Hd E ????? k d0 Hk. rewrite E. destruct (decide (k = n)) as [->|].
  - rewrite lookup_insert. simplify_eq. eexists. done.
  - rewrite lookup_insert_ne by done. eexists. done.
Qed.

Lemma mstep_dkg_grows O ord s a p s' r : mstep O ord s a p s' r →
  (dkg_map s !! u64 (eon_counter s + 1) = None) → dkg_grows s s'.
Proof.
  intros Hm Hnew. destruct_mstep Hm; try (by apply dkg_grows_same).
  - intros n d Hd. cbn. rewrite lookup_insert_ne by (intros Heq; subst n; subst eon; by rewrite Hnew in Hd). eexists; done.
  - intros n d Hd. cbn. rewrite lookup_insert_ne by (intros Heq; subst n; subst eon; by rewrite Hnew in Hd). eexists; done.
  - apply register_poly_eval_spec in Hr as (-> & _ & _ & Hev & E). rewrite E.
    eapply dkg_grows_insert; [exact Hd|done|done|done|done|done|]. cbn. intros p Hin. apply Hev. by left.
  - apply register_commitment_spec in Hr as (-> & _ & _ & ->).
    eapply dkg_grows_insert; [exact Hd|done|done|cbn; set_solver|done|done|done].
  - apply register_accusation_spec in Hr as (-> & _ & _ & _ & ->).
    eapply dkg_grows_insert; [exact Hd|done|done|done|cbn; set_solver|done|done].
  - apply register_apology_spec in Hr as (-> & _ & _ & _ & ->).
    eapply dkg_grows_insert; [exact Hd|done|done|done|done|cbn; set_solver|done].
Qed.

Lemma eons_of_length_snoc tr c r : length (eons_of tr) ≤ length (eons_of (tr ++ [(c, r)])).
Proof. rewrite eons_of_app, app_length. lia. Qed.

Lemma new_eon_fresh tr s : eons_ok tr s → (N.of_nat (length (eons_of tr)) + 1 < 2 ^ 64)%N →
  dkg_map s !! u64 (eon_counter s + 1) = None.
Proof.
  intros H Hlt. destruct H as (H1 & H2 & H3); [lia|]. apply eq_None_not_Some. rewrite H3, H2, u64_small by lia.
  rewrite H1. intros (i & Hi & Hin)%elem_of_list_fmap. apply elem_of_seq in Hin. rewrite fmap_length, seq_length in *. lia.
Qed.

Lemma history_dkg_log O tr s : history O tr s → (N.of_nat (length (eons_of tr)) + 1 < 2 ^ 64)%N → dkg_log tr s.
Proof.
  intros [dev H]. remember (new_app dev) as s0 eqn:E0. induction H as [|s0 tr s1 c r s2 He IH Hv Hs]; intros Hlt.
  - split; unfold commitments_of, accusations_of, apologies_of, evals_of; cbn; try constructor; intros; by set_solver.
  - assert (Hlt' : (N.of_nat (length (eons_of tr)) + 1 < 2 ^ 64)%N).
    { pose proof (eons_of_length_snoc tr c r). lia. }
    specialize (IH E0 Hlt').
    assert (Hh : history O tr s1) by (exists dev; by subst).
    pose proof (new_eon_fresh tr s1 (history_eons_ok _ _ _ Hh) Hlt') as Hfresh.
    pose proof (history_Inv _ _ _ Hh) as HI.
    apply step_deliver_cases in Hs as [(Hev & _ & _ & _ & Hdm & _)|(tx & ord & a & m & -> & D & Hm)].
    { apply (dkg_log_keep tr s1); [done|by apply dkg_grows_same|rewrite Hev; done..]. }
    pose proof (mstep_dkg_grows _ _ _ _ _ _ _ Hm Hfresh) as Hgrow.
    change (dkg_grows s1 s2) in Hgrow.
    remember (msg_payload m) as pl eqn:Hpl.
    destruct_mstep Hm; try (apply (dkg_log_keep tr s1); [done|exact Hgrow|done..]).
    + apply register_poly_eval_spec in Hr as (-> & Hk & Hrs & Hev & E). cbn in Hd.
      apply parse_addresses_NoDup in Hp.
      destruct IH. split; rewrite ?commitments_snoc, ?accusations_snoc, ?apologies_snoc, ?evals_snoc; cbn;
        rewrite ?app_nil_r; try done.
      * apply NoDup_app. split_and!; [done| |].
        { intros [[n b] x] Hin (y & ? & Hy)%elem_of_list_fmap. simplify_eq.
          apply dl_eval0 in Hin as (d1 & Hd1 & Hx). simplify_eq. by apply Hrs in Hy as (_ & _ & ?). }
        { apply NoDup_fmap_2; [|done]. by intros ??[=]. }
      * intros n b (d1 & Hd1 & ?)%dl_commit0. apply Hgrow in Hd1 as (d2 & Hd2 & ?). cbn in Hd2. exists d2. set_solver.
      * intros n b (d1 & Hd1 & ?)%dl_accuse0. apply Hgrow in Hd1 as (d2 & Hd2 & ?). cbn in Hd2. exists d2. set_solver.
      * intros n b (d1 & Hd1 & ?)%dl_apology0. apply Hgrow in Hd1 as (d2 & Hd2 & ?). cbn in Hd2. exists d2. set_solver.
      * intros n b x. rewrite elem_of_app. intros [(d1 & Hd1 & ?)%dl_eval0|(y & ? & Hy)%elem_of_list_fmap].
        { apply Hgrow in Hd1 as (d2 & Hd2 & ?). cbn in Hd2. exists d2. set_solver. }
        { simplify_eq. exists d'. rewrite lookup_insert. split; [done|]. apply Hev. right. eauto. }
    + apply register_commitment_spec in Hr as (-> & Hk & Hnew & ->). cbn in Hd.
      destruct IH. split; rewrite ?commitments_snoc, ?accusations_snoc, ?apologies_snoc, ?evals_snoc; cbn;
        rewrite ?app_nil_r; try done.
      * apply NoDup_snoc_new; [done|]. intros (d1 & Hd1 & Hx)%dl_commit0. simplify_eq. done.
      * intros n b. rewrite elem_of_app, elem_of_list_singleton. intros [(d1 & Hd1 & ?)%dl_commit0|?].
        { apply Hgrow in Hd1 as (d2 & Hd2 & ?). cbn in Hd2. exists d2. set_solver. }
        { simplify_eq. rewrite lookup_insert. eexists. split; [done|]. cbn. set_solver. }
      * intros n b (d1 & Hd1 & ?)%dl_accuse0. apply Hgrow in Hd1 as (d2 & Hd2 & ?). cbn in Hd2. exists d2. set_solver.
      * intros n b (d1 & Hd1 & ?)%dl_apology0. apply Hgrow in Hd1 as (d2 & Hd2 & ?). cbn in Hd2. exists d2. set_solver.
      * intros n b x (d1 & Hd1 & ?)%dl_eval0. apply Hgrow in Hd1 as (d2 & Hd2 & ?). cbn in Hd2. exists d2. set_solver.
    + apply register_accusation_spec in Hr as (-> & Hk & Hnew & Hrs & ->). cbn in Hd.
      destruct IH. split; rewrite ?commitments_snoc, ?accusations_snoc, ?apologies_snoc, ?evals_snoc; cbn;
        rewrite ?app_nil_r; try done.
      * apply NoDup_snoc_new; [done|]. intros (d1 & Hd1 & Hx)%dl_accuse0. simplify_eq. done.
      * intros n b (d1 & Hd1 & ?)%dl_commit0. apply Hgrow in Hd1 as (d2 & Hd2 & ?). cbn in Hd2. exists d2. set_solver.
      * intros n b. rewrite elem_of_app, elem_of_list_singleton. intros [(d1 & Hd1 & ?)%dl_accuse0|?].
        { apply Hgrow in Hd1 as (d2 & Hd2 & ?). cbn in Hd2. exists d2. set_solver. }
        { simplify_eq. rewrite lookup_insert. eexists. split; [done|]. cbn. set_solver. }
      * intros n b (d1 & Hd1 & ?)%dl_apology0. apply Hgrow in Hd1 as (d2 & Hd2 & ?). cbn in Hd2. exists d2. set_solver.
      * intros n b x (d1 & Hd1 & ?)%dl_eval0. apply Hgrow in Hd1 as (d2 & Hd2 & ?). cbn in Hd2. exists d2. set_solver.
    + apply register_apology_spec in Hr as (-> & Hk & Hnew & Hrs & ->). cbn in Hd.
      destruct IH. split; rewrite ?commitments_snoc, ?accusations_snoc, ?apologies_snoc, ?evals_snoc; cbn;
        rewrite ?app_nil_r; try done.
      * apply NoDup_snoc_new; [done|]. intros (d1 & Hd1 & Hx)%dl_apology0. simplify_eq. done.
      * intros n b (d1 & Hd1 & ?)%dl_commit0. apply Hgrow in Hd1 as (d2 & Hd2 & ?). cbn in Hd2. exists d2. set_solver.
      * intros n b (d1 & Hd1 & ?)%dl_accuse0. apply Hgrow in Hd1 as (d2 & Hd2 & ?). cbn in Hd2. exists d2. set_solver.
      * intros n b. rewrite elem_of_app, elem_of_list_singleton. intros [(d1 & Hd1 & ?)%dl_apology0|?].
        { apply Hgrow in Hd1 as (d2 & Hd2 & ?). cbn in Hd2. exists d2. set_solver. }
        { simplify_eq. rewrite lookup_insert. eexists. split; [done|]. cbn. set_solver. }
      * intros n b x (d1 & Hd1 & ?)%dl_eval0. apply Hgrow in Hd1 as (d2 & Hd2 & ?). cbn in Hd2. exists d2. set_solver.
Qed.

Lemma dkg_unique O tr s : history O tr s → (N.of_nat (length (eons_of tr)) + 1 < 2 ^ 64)%N →
  NoDup (commitments_of tr) ∧ NoDup (accusations_of tr) ∧ NoDup (apologies_of tr) ∧ NoDup (evals_of tr).
Proof. intros H Hlt. by destruct (history_dkg_log _ _ _ H Hlt). Qed.

(** parties of a published key generation message *)
Definition event_parties (e : event) : option (N * address * list address) :=
  match e with
  | EvPolyEval a n rs _ => Some (n, a, rs)
  | EvPolyCommitment a n _ => Some (n, a, [])
  | EvAccusation a n rs => Some (n, a, rs)
  | EvApology a n rs _ => Some (n, a, rs)
  | _ => None
  end.

Lemma dkg_members O tr s c r s' e n a rs :
  history O tr s → valid_call c → step O s c = Some (s', r) →
  e ∈ rsp_events r → event_parties e = Some (n, a, rs) →
  ∃ cfg, eon_config s n cfg ∧ a ∈ cf_keypers cfg ∧ ∀ b, b ∈ rs → b ∈ cf_keypers cfg ∧ b ≠ a.
Proof.
  intros Hh Hv Hs He Hn. pose proof (history_Inv _ _ _ Hh) as HI.
  apply step_deliver_cases in Hs as [(Hev & _)|(tx & ord & x & m & -> & D & Hm)].
  { rewrite Hev in He. by apply elem_of_nil in He. }
  assert (Hd : ∃ d, dkg_map s !! n = Some d ∧ a ∈ cf_keypers (dkg_config d) ∧
               ∀ b, b ∈ rs → b ∈ cf_keypers (dkg_config d) ∧ b ≠ a).
  { remember (msg_payload m) as pl eqn:Hpl. destruct_mstep Hm; cbn in He;
      repeat (apply elem_of_cons in He as [->|He]); try (by apply elem_of_nil in He); cbn in Hn; simplify_eq.
    - apply register_poly_eval_spec in Hr as (-> & Hk & Hrs & _). exists d. split_and!; try done.
      intros b Hb. apply Hrs in Hb. tauto.
    - apply register_commitment_spec in Hr as (-> & Hk & _). exists d. split_and!; try done.
      by intros b ?%elem_of_nil.
    - apply register_accusation_spec in Hr as (-> & Hk & _ & Hrs & _). eauto.
    - apply register_apology_spec in Hr as (-> & Hk & _ & Hrs & _). eauto. }
  destruct Hd as (d & Hd & Ha & Hrs). destruct (inv_dkg s HI n d Hd) as [_ (cfg & Hin & Hsame)].
  exists cfg. split; [by exists d|]. destruct Hsame as (_ & Hks & _). rewrite <-Hks. done.
Qed.

(** the config of an eon is fixed *)
Lemma eon_config_fixed O tr s tr' s' n c1 c2 :
  history O tr s → exec O s tr' s' → (N.of_nat (length (eons_of (tr ++ tr'))) + 1 < 2 ^ 64)%N →
  eon_config s n c1 → eon_config s' n c2 → same_config c1 c2.
Proof.
  intros Hh He Hlt (d1 & Hd1 & _ & H1) (d2 & Hd2 & _ & H2).
  assert (Hg : ∃ d2, dkg_map s' !! n = Some d2 ∧ dkg_config d2 = dkg_config d1).
  { clear d2 Hd2 H2. induction He as [|s tr' s1 c r s2 He IH Hv Hs]; [eauto|].
    rewrite app_assoc in Hlt. pose proof (eons_of_length_snoc (tr ++ tr') c r).
    destruct IH as (d2 & Hd2 & Hc2); [done|lia|done|].
    assert (Hh1 : history O (tr ++ tr') s1).
    { destruct Hh as [dev Hh]. exists dev. by eapply exec_app. }
    pose proof (new_eon_fresh _ _ (history_eons_ok _ _ _ Hh1) ltac:(lia)) as Hfresh.
    apply step_deliver_cases in Hs as [(_ & _ & _ & _ & -> & _)|(tx & ord & a & m & -> & D & Hm)]; [eauto|].
    pose proof (mstep_dkg_grows _ _ _ _ _ _ _ Hm Hfresh n d2 Hd2) as (d3 & ? & Hc & _). exists d3.
    split; [done|congruence]. }
  destruct Hg as (d & Hd & Hc). simplify_eq. unfold same_config in *. rewrite Hc in H2. intuition congruence.
Qed.

(** C06, C09, C10, C13: eon start votes, decryption signatures, check-ins, mempool limits. *)
From stdpp Require Import gmap list sorting.
From Coq Require Import NArith ZArith Lia.
From RecordUpdate Require Import RecordUpdate.
From Verif Require Import AppModel AppSpec AppSteps VotingProofs AppInv AppProofs1 AppProofs2.

(** ** C06 *)
Lemma delivers_inv O tx ord a m b p : decode_tx O tx = Some (a, m) →
  delivers O (CDeliverTx tx ord) b p → b = a ∧ p = msg_payload m.
Proof. intros D (tx' & ord' & m' & ? & D' & ?). simplify_eq. done. Qed.

Lemma step_not_delivered O s c s' r : step O s c = Some (s', r) →
  (∀ a p, delivers O c a p → rsp_code r = 1%N ∧ rsp_events r = [] ∧ s' = s) ∧ rsp_events r = [] ∧
     eon_votings s' = eon_votings s ∧ batch_states s' = batch_states s ∧ identities s' = identities s ∨
  (∃ tx ord a m, c = CDeliverTx tx ord ∧ decode_tx O tx = Some (a, m) ∧
     mstep O ord (with_nonce s a m) a (msg_payload m) s' r).
Proof.
  intros H. destruct c as [ks t vs cid|tx|tx ord|h|].
  1,2,4,5: left; apply other_step in H as (?&?&?&?&?&?&?); [|done]; split; [|done];
    intros a p (?&?&?&?&_); done.
  cbn [step] in H. apply deliver_tx_cases in H as [[-> ->]|(a & m & D & _ & _ & Hm)]; [by left|].
  right. exists tx, ord, a, m. done.
Qed.

Lemma eon_votes_standing O s0 tr s : Inv s0 → eon_votings s0 = ∅ → exec O s0 tr s →
  ∀ k v x b, eon_votings s !! k = Some v → stands v x b → standing_vote O x k b s0 tr s.
Proof.
  intros HI0 Hemp He. induction He as [s0|s0 tr s1 c r s2 He IH Hv Hs].
  { intros k v x b. by rewrite Hemp, lookup_empty. }
  specialize (IH HI0 Hemp). pose proof (exec_Inv _ _ _ _ HI0 He) as HI1.
  intros k v x b Hk Hst.
  pose proof Hs as Hs'. apply step_not_delivered in Hs' as [(Hnd & Hev & Heq & _)|(tx & ord & a & m & -> & D & Hm)].
  { eapply sv_keep; [eapply IH; [by rewrite <-Heq|done]|done|exact Hs| |].
    - intros b' Hc [Hd _]. apply Hnd in Hd as [? _]. by rewrite Hc in *.
    - intros y b' _ e b''. rewrite Hev. by intros ?%elem_of_nil. }
  assert (Hother : (∀ b', msg_payload m ≠ MEonStartVote b') → eon_votings s2 = eon_votings s1 →
    standing_vote O x k b s0 (tr ++ [(CDeliverTx tx ord, r)]) s2).
  { intros Hpl Heq. eapply sv_keep; [eapply IH; [by rewrite <-Heq|done]|done|exact Hs| |].
    - intros b' _ [Hd _]. apply (delivers_inv _ _ _ _ _ _ _ D) in Hd as [_ ?]. by destruct (Hpl b').
    - intros y b' [Hd _]. apply (delivers_inv _ _ _ _ _ _ _ D) in Hd as [_ ?]. by destruct (Hpl b'). }
  remember (msg_payload m) as pl eqn:Hpl.
  inversion Hm as [p Hp|rc bc0 Hrc Hl|rc bc0 l0 Hrc Hl Hne Hck Hk' Hvt Hout|rc bc0 l0 w Hrc Hl Hne Hck Hk' Hvt Hout Hsd
   |rc bc0 l0 w eon Hrc Hl Hne Hck Hk' Hvt Hout Hsd Heon|vk ek k0 Hi Hk' Hlen Hd|i l0 p Hl Hi Hlen Hp Hk' Hst'
   |i l0 p Hl Hi Hlen Hp Hk' Hst'|b0 cfg v0 Hgc Hk' Hvt Hout|b0 cfg v0 w eon Hgc Hk' Hvt Hout Heon|b0 sig bs bs' Hb Hadd
   |eon rs0 evs as_ d d' Hlen Hp Hd Hr|eon gs gs' d d' Hg Hd Hr|eon rs0 as_ d d' Hp Hd Hr
   |eon rs0 evs as_ d d' Hlen Hp Hd Hr|eon ep sh sh' Hsh]; subst.
  1: { eapply sv_keep; [eapply IH; eauto|done|exact Hs|cbn; done|]. intros ?? _ ??. cbn. by intros ?%elem_of_nil. }
  1-7,10-15: apply Hother; [intros b'; congruence|done].
  - cbn in Hk. change (get_config s1 b0 = Some cfg) in Hgc.
    assert (Hfor : ∀ y k' b', eon_vote_for O s1 (CDeliverTx tx ord) y k' b' → y = a ∧ k' = cf_index cfg ∧ b' = b0).
    { intros y k' b' [Hd (cfg' & Hg' & Hi')]. apply (delivers_inv _ _ _ _ _ _ _ D) in Hd as [-> ?].
      simplify_eq. split_and!; congruence. }
    set (v1 := default new_voting (eon_votings s1 !! cf_index cfg)) in *.
    assert (Hwf1 : voting_wf v1).
    { unfold v1. destruct (eon_votings s1 !! cf_index cfg) as [v1'|] eqn:E; simpl; [|apply new_voting_wf].
      by apply (inv_ev s1 HI1) in E as [? _]. }
    destruct (decide (k = cf_index cfg)) as [->|Hkne].
    + rewrite lookup_insert in Hk. injection Hk as <-.
      apply stands_add_vote_inv in Hst as [[-> ->]|[Hne Hst]]; [| |done].
      * eapply sv_cast; [exact He|exact Hv|exact Hs|done|done|]. split.
        { exists tx, ord, m. done. } { exists cfg. done. }
      * eapply sv_keep; [eapply (IH (cf_index cfg) v1); [|exact Hst]|done|exact Hs| |].
        { unfold v1 in *. destruct (eon_votings s1 !! cf_index cfg) eqn:E; [done|].
          destruct Hst as (j & Hj & _). simpl in Hj. by rewrite lookup_empty in Hj. }
        { intros b' _ Hf. apply Hfor in Hf as [? _]. done. }
        { intros y b' _ e b''. cbn. by intros ?%elem_of_nil. }
    + rewrite lookup_insert_ne in Hk by done.
      eapply sv_keep; [eapply IH; eauto|done|exact Hs| |].
      { intros b' _ Hf. by apply Hfor in Hf as (_ & ? & _). }
      { intros y b' _ e b''. cbn. by intros ?%elem_of_nil. }
  - cbn in Hk. change (get_config s1 b0 = Some cfg) in Hgc.
    assert (Hfor : ∀ y k' b', eon_vote_for O s1 (CDeliverTx tx ord) y k' b' → y = a ∧ k' = cf_index cfg ∧ b' = b0).
    { intros y k' b' [Hd (cfg' & Hg' & Hi')]. apply (delivers_inv _ _ _ _ _ _ _ D) in Hd as [-> ?].
      simplify_eq. split_and!; congruence. }
    destruct (decide (k = cf_index cfg)) as [->|Hkne]; [by rewrite lookup_delete in Hk|].
    rewrite lookup_delete_ne in Hk by done.
    eapply sv_keep; [eapply IH; eauto|done|exact Hs| |].
    { intros b' _ Hf. by apply Hfor in Hf as (_ & ? & _). }
    { intros y b' Hf. by apply Hfor in Hf as (_ & ? & _). }
Qed.

Lemma eon_start_votes O dev tr s c r s' a b e b' :
  exec O (new_app dev) tr s → valid_call c → step O s c = Some (s', r) →
  delivers O c a (MEonStartVote b) → EvEonStarted e b' ∈ rsp_events r →
  b' = b ∧ ∃ cfg vs, responsible (configs s) b cfg ∧ NoDup vs ∧ a ∈ vs ∧
    ((cf_threshold cfg < 2 ^ 63)%N → (cf_threshold cfg ≤ N.of_nat (length vs))%N) ∧
    (∀ x, x ∈ vs → x ∈ cf_keypers cfg ∧
       (x = a ∨ standing_vote O x (cf_index cfg) b (new_app dev) tr s)) ∧
    eon_votings s' !! cf_index cfg = None.
Proof.
  intros He Hv Hs Hdel Hev.
  pose proof (exec_Inv _ _ _ _ (Inv_new_app dev) He) as HI.
  pose proof Hs as Hs'.
  apply step_not_delivered in Hs' as [(_ & Hev' & _)|(tx & ord & a' & m & -> & D & Hm)].
  { rewrite Hev' in Hev. by apply elem_of_nil in Hev. }
  apply (delivers_inv _ _ _ _ _ _ _ D) in Hdel as [-> Hpl].
  rewrite <-Hpl in Hm.
  inversion Hm as [| | | | | | | | |b0 cfg v0 w eon Hgc Hk' Hvt Hout Heon| | | | | |]; subst; cbn in Hev;
    try (by apply elem_of_nil in Hev).
  apply elem_of_list_singleton in Hev. simplify_eq.
  change (get_config s b = Some cfg) in Hgc. cbn in Hout.
  set (v1 := default new_voting (eon_votings s !! cf_index cfg)) in *.
  pose proof (get_config_elem _ _ _ Hgc) as Hin.
  assert (Hv1 : voting_wf v1 ∧ no_winner (vt_votes v1) (int_of_uint64 (cf_threshold cfg)) ∧
                ∀ b i, vt_votes v1 !! b = Some i → b ∈ cf_keypers cfg).
  { unfold v1. destruct (eon_votings s !! cf_index cfg) as [v1'|] eqn:E; simpl.
    - apply (inv_ev s HI) in E as [? (c' & Hc' & Heq & Hnw & Hk'')]. split; [done|].
      rewrite (cfg_index_inj s cfg c' HI Hin Hc' (eq_sym Heq)). done.
    - split; [apply new_voting_wf|]. split; [apply no_winner_empty|]. intros b' i H. by rewrite lookup_empty in H. }
  destruct Hv1 as (Hwf & Hnw & Hks).
  apply outcome_add_vote_winner in Hout as [-> (vs & Hnd & Hain & Hreq & Hst)]; [|exact Hv|done|done].
  split; [done|]. exists cfg, vs. split_and!; try done.
  - by apply get_config_spec.
  - intros Hlt. rewrite int_of_uint64_small in Hreq by done. lia.
  - intros x Hx. apply Hst in Hx. apply stands_add_vote_inv in Hx as [[-> _]|[Hne Hx]]; [by split; [|left]| |done].
    split; [destruct Hx as (i & Hi & _); eauto|]. right.
    eapply (eon_votes_standing O (new_app dev) tr s (Inv_new_app dev) eq_refl He (cf_index cfg) v1); [|done].
    unfold v1 in *. destruct (eon_votings s !! cf_index cfg) eqn:E; [done|].
    destruct Hx as (j & Hj & _). simpl in Hj. by rewrite lookup_empty in Hj.
  - cbn. apply lookup_delete.
Qed.

(** ** C09 *)
Definition ev_sig (e : event) := match e with EvDecryptionSignature b a _ => Some (b, a) | _ => None end.
Lemma signatures_snoc tr c r : signatures_of (tr ++ [(c, r)]) = signatures_of tr ++ omap ev_sig (rsp_events r).
Proof. unfold signatures_of. by rewrite events_of_app, events_of_one, omap_app. Qed.

Record sig_log (tr : trace) (s : app) : Prop := mkSigLog {
  sl_nodup : NoDup (signatures_of tr);
  sl_in : ∀ b a, (b, a) ∈ signatures_of tr → ∃ bs, batch_states s !! b = Some bs ∧ a ∈ (bs_sigs bs).*1;
  sl_cfg : ∀ b bs, batch_states s !! b = Some bs →
     (∀ a, a ∈ (bs_sigs bs).*1 → a ∈ cf_keypers (bs_config bs)) ∧
     ∃ c, c ∈ configs s ∧ same_config (bs_config bs) c ∧ (cf_start c ≤ b)%N
}.

Lemma step_configs_elem O s c s' r cfg : Inv s → step O s c = Some (s', r) → cfg ∈ configs s →
  (∃ a, a ∈ cf_keypers cfg) → ∃ cfg', cfg' ∈ configs s' ∧ evolves cfg cfg'.
Proof.
  intros HI Hs Hin [a Ha].
  assert (Hne : configs s ≠ [zero_config]).
  { intros Hz. rewrite Hz in Hin. apply elem_of_list_singleton in Hin as ->. by apply elem_of_nil in Ha. }
  destruct (configs_append_only_step _ _ _ _ _ HI Hne Hs) as (old & new & E & HF).
  apply elem_of_list_lookup in Hin as [i Hi]. destruct (Forall2_lookup_l _ _ _ _ _ HF Hi) as (d & Hd & Hev).
  exists d. split; [|done]. rewrite E. apply elem_of_app. left. by eapply elem_of_list_lookup_2.
Qed.

Lemma sig_log_keep O tr s c r s' : Inv s → step O s c = Some (s', r) → sig_log tr s →
  omap ev_sig (rsp_events r) = [] → batch_states s' = batch_states s →
  (∀ b bs, batch_states s !! b = Some bs → (bs_sigs bs).*1 ≠ []) →
  sig_log (tr ++ [(c, r)]) s'.
Proof.
  intros HI Hs [] Hev Hbs Hne. split; rewrite ?signatures_snoc, ?Hev, ?app_nil_r, ?Hbs; try done.
  intros b bs Hb. destruct (sl_cfg0 b bs Hb) as [Hk (cfg & Hin & Hsame & Hst)]. split; [done|].
  destruct ((bs_sigs bs).*1) as [|a l] eqn:E; [by destruct (Hne b bs Hb)|].
  assert (Ha : a ∈ cf_keypers cfg). { destruct Hsame as (_ & <- & _). apply Hk. set_solver. }
  destruct (step_configs_elem _ _ _ _ _ cfg HI Hs Hin (ex_intro _ a Ha)) as (cfg' & Hin' & [Hs' _]).
  exists cfg'. split; [done|]. split; [by eapply same_config_trans|]. by destruct Hs' as (<- & _).
Qed.

Lemma add_decryption_signature_spec bs a sig bs' : add_decryption_signature bs a sig = Some bs' →
  a ∈ cf_keypers (bs_config bs) ∧ a ∉ (bs_sigs bs).*1 ∧ bs_config bs' = bs_config bs ∧
  (bs_sigs bs').*1 = (bs_sigs bs).*1 ++ [a].
Proof.
  unfold add_decryption_signature. destruct (is_keyper (bs_config bs) a) eqn:Hk; cbn; [|done].
  apply is_keyper_true in Hk. destruct (existsb _ _) eqn:Hex; [done|]. intros; simplify_eq. cbn.
  split_and!; try done.
  - intros ([b sg] & -> & Hin)%elem_of_list_fmap.
    apply not_true_iff_false in Hex. apply Hex.
    apply existsb_exists. exists (b, sg). split; [by apply elem_of_list_In|]. cbn. apply N.eqb_refl.
  - by rewrite fmap_app.
Qed.

Lemma history_sig_log O tr s : history O tr s → sig_log tr s ∧
  ∀ b bs, batch_states s !! b = Some bs → (bs_sigs bs).*1 ≠ [].
Proof.
  intros [dev H]. remember (new_app dev) as s0 eqn:E0. induction H as [|s0 tr s1 c r s2 He IH Hv Hs].
  - subst. split; [split|].
    + apply NoDup_nil_2.
    + by intros b a ?%elem_of_nil.
    + intros b bs Hb. cbn in Hb. by rewrite lookup_empty in Hb.
    + intros b bs Hb. cbn in Hb. by rewrite lookup_empty in Hb.
  - destruct (IH E0) as [IHl IHn].
    assert (Hh : history O tr s1) by (exists dev; by subst).
    pose proof (history_Inv _ _ _ Hh) as HI.
    pose proof Hs as Hs'.
    apply step_not_delivered in Hs' as [(_ & Hev & _ & Hbs & _)|(tx & ord & a & m & -> & D & Hm)].
    { split; [|by rewrite Hbs]. eapply sig_log_keep; [exact HI|exact Hs|done|by rewrite Hev|done|done]. }
    remember (msg_payload m) as pl eqn:Hpl.
    destruct_mstep Hm; try (split; [eapply sig_log_keep; [exact HI|exact Hs|done..]|done]).
    apply add_decryption_signature_spec in Hadd as (Ha & Hnew & Hcfg & Hsig).
    assert (Hbs : (batch_states s1 !! b = Some bs) ∨
      (batch_states s1 !! b = None ∧ bs_sigs bs = [] ∧ get_config s1 b = Some (bs_config bs))).
    { change (get_batch_state s1 b = Some bs) in Hb. unfold get_batch_state in Hb.
      destruct (batch_states s1 !! b); [left; congruence|].
      right. destruct (get_config s1 b); cbn [mbind option_bind] in Hb; [|done]. injection Hb as <-. done. }
    destruct IHl. split; [split|]; cbn.
    + rewrite signatures_snoc. cbn. apply NoDup_snoc_new; [done|]. intros (bs1 & Hb1 & Hin)%sl_in0.
      destruct Hbs as [Hbs|(Hbs & _)]; simplify_eq. by apply Hnew.
    + intros b1 a1. rewrite signatures_snoc. cbn. rewrite elem_of_app, elem_of_list_singleton.
      intros [(bs1 & Hb1 & Hin)%sl_in0|?].
      * destruct (decide (b1 = b)) as [->|].
        { rewrite lookup_insert. exists bs'. split; [done|]. rewrite Hsig.
          destruct Hbs as [Hbs|(Hbs & _)]; simplify_eq. set_solver. }
        { rewrite lookup_insert_ne by done. eauto. }
      * simplify_eq. rewrite lookup_insert. exists bs'. split; [done|]. rewrite Hsig. set_solver.
    + intros b1 bs1. destruct (decide (b1 = b)) as [->|].
      * rewrite lookup_insert. intros; simplify_eq. rewrite Hsig, Hcfg. split.
        { intros x [Hx| ->%elem_of_list_singleton]%elem_of_app; [|done].
          destruct Hbs as [Hbs|(_ & Hbs & _)]; [by eapply sl_cfg0|]. rewrite Hbs in Hx. by apply elem_of_nil in Hx. }
        { destruct Hbs as [Hbs|(_ & _ & Hg)]; [by eapply sl_cfg0|].
          exists (bs_config bs). split; [by eapply get_config_elem|]. split; [apply same_config_refl|].
          by apply get_config_spec in Hg as (? & ? & _ & ? & _). }
      * rewrite lookup_insert_ne by done. apply sl_cfg0.
    + intros b1 bs1. destruct (decide (b1 = b)) as [->|].
      * rewrite lookup_insert. intros; simplify_eq. rewrite Hsig. by destruct ((bs_sigs bs).*1).
      * rewrite lookup_insert_ne by done. apply IHn.
Qed.

Lemma decryption_signatures O tr s : history O tr s →
  NoDup (signatures_of tr) ∧
  ∀ b, ∃ cfg, cfg ∈ configs s ∧ (cf_start cfg ≤ b)%N ∧
    ∀ a, (b, a) ∈ signatures_of tr → a ∈ cf_keypers cfg.
Proof.
  intros H. destruct (history_sig_log _ _ _ H) as [[] _]. split; [done|]. intros b.
  destruct (batch_states s !! b) as [bs|] eqn:E.
  - destruct (sl_cfg0 b bs E) as [Hk (cfg & Hin & (_ & Hks & _) & Hst)]. exists cfg. split_and!; try done.
    intros a (bs1 & Hb1 & Ha)%sl_in0. simplify_eq. rewrite <-Hks. by apply Hk.
  - destruct (get_config_total s b (history_Inv _ _ _ H)) as [c Hc]. exists c.
    split; [by eapply get_config_elem|]. apply get_config_spec in Hc as (_ & _ & _ & ? & _). split; [done|].
    intros a (bs1 & Hb1 & Ha)%sl_in0. simplify_eq.
Qed.

(** ** C10 *)
Definition ev_checkin (e : event) := match e with EvCheckIn a _ => Some a | _ => None end.
Lemma checkins_snoc tr c r : checkins_of (tr ++ [(c, r)]) = checkins_of tr ++ omap ev_checkin (rsp_events r).
Proof. unfold checkins_of. by rewrite events_of_app, events_of_one, omap_app. Qed.

Lemma step_identities O s c s' r : step O s c = Some (s', r) →
  (identities s' = identities s ∧ omap ev_checkin (rsp_events r) = []) ∨
  (∃ a k ek, delivers O c a (MCheckIn k ek) ∧ rsp_code r = 0%N ∧ identities s !! a = None ∧
     length k = 32 ∧ is_keyper_any s a = true ∧
     omap ev_checkin (rsp_events r) = [a] ∧ identities s' = <[a := k]> (identities s)).
Proof.
  intros Hs. apply step_not_delivered in Hs as [(_ & Hev & _ & _ & Hid)|(tx & ord & a & m & -> & D & Hm)].
  { left. by rewrite Hev. }
  remember (msg_payload m) as pl eqn:Hpl. destruct_mstep Hm; try (by left).
  right. exists a, vk, ek. cbn. split_and!; try done. exists tx, ord, m. done.
Qed.

Lemma identities_mono O s tr s' a k : exec O s tr s' → identities s !! a = Some k → identities s' !! a = Some k.
Proof.
  induction 1 as [|s tr s1 c r s2 He IH Hv Hs]; [done|]. intros H. specialize (IH H).
  apply step_identities in Hs as [[-> _]|(b & k' & ek & _ & _ & Hn & _ & _ & _ & ->)]; [done|].
  rewrite lookup_insert_ne by congruence. done.
Qed.

Lemma identities_sound O tr s : history O tr s →
  NoDup (checkins_of tr) ∧ (∀ a, a ∈ checkins_of tr ↔ is_Some (identities s !! a)) ∧
  ∀ a k, identities s !! a = Some k →
    length k = 32 ∧
    (∃ c, c ∈ configs s ∧ a ∈ cf_keypers c) ∧
    ∃ cl rr ek, (cl, rr) ∈ tr ∧ delivers O cl a (MCheckIn k ek) ∧ rsp_code rr = 0%N.
Proof.
  intros [dev H]. remember (new_app dev) as s0 eqn:E0. induction H as [|s0 tr s1 c r s2 He IH Hv Hs].
  - subst. split; [apply NoDup_nil_2|]. split.
    + intros a. cbn. rewrite lookup_empty. split; [by intros ?%elem_of_nil|by intros [? ?]].
    + intros a k. cbn. by rewrite lookup_empty.
  - destruct (IH E0) as (IH1 & IH2 & IH3).
    assert (HI : Inv s1). { eapply exec_Inv; [|exact He]. subst. apply Inv_new_app. }
    rewrite checkins_snoc.
    assert (Hold : ∀ a k, identities s1 !! a = Some k → length k = 32 ∧
      (∃ c0, c0 ∈ configs s2 ∧ a ∈ cf_keypers c0) ∧
      ∃ cl rr ek, (cl, rr) ∈ tr ++ [(c, r)] ∧ delivers O cl a (MCheckIn k ek) ∧ rsp_code rr = 0%N).
    { intros a k Hk. destruct (IH3 a k Hk) as (Hlen & (cfg & Hin & Ha) & (cl & rr & ek & Hin' & ?)).
      split; [done|]. split.
      - destruct (step_configs_elem _ _ _ _ _ cfg HI Hs Hin (ex_intro _ a Ha)) as (cfg' & Hc' & [(_ & Hks & _) _]).
        exists cfg'. by rewrite <-Hks.
      - exists cl, rr, ek. split; [set_solver|done]. }
    pose proof Hs as Hs'.
    apply step_identities in Hs' as [[Hid Hev]|(b & k' & ek & Hd & Hc & Hn & Hlen & Hk & Hev & Hid)].
    + rewrite Hev, app_nil_r, Hid. done.
    + rewrite Hev, Hid. split_and!.
      * apply NoDup_snoc_new; [done|]. rewrite IH2. rewrite Hn. by intros [? ?].
      * intros a. rewrite elem_of_app, elem_of_list_singleton, IH2.
        destruct (decide (a = b)) as [->|].
        { rewrite lookup_insert. split; eauto. } { rewrite lookup_insert_ne by done. tauto. }
      * intros a k. destruct (decide (a = b)) as [->|].
        { rewrite lookup_insert. intros; simplify_eq. split; [done|]. split.
          - apply existsb_exists in Hk as (cfg & Hin & Ha). apply elem_of_list_In in Hin. apply is_keyper_true in Ha.
            destruct (step_configs_elem _ _ _ _ _ cfg HI Hs Hin (ex_intro _ b Ha)) as (cfg' & Hc' & [(_ & Hks & _) _]).
            exists cfg'. by rewrite <-Hks.
          - exists c, r, ek. split; [set_solver|done]. }
        { rewrite lookup_insert_ne by done. apply Hold. }
Qed.

(** ** C13 *)
Lemma mempool_snoc O a tr c r : mempool_of O a (tr ++ [(c, r)]) = mempool_of O a tr ++ mempool_of O a [(c, r)].
Proof. unfold mempool_of. by rewrite omap_app. Qed.

Lemma mstep_ck O ord s a p s' r : mstep O ord s a p s' r → ck_counts s' = ck_counts s ∧ ck_nonces s' = ck_nonces s.
Proof. by destruct 1. Qed.

(** effect of one call on the mempool bookkeeping *)
Lemma step_mempool O s c s' r a : step O s c = Some (s', r) →
  (resets c ∧ (ck_counts s' = ∅ ∧ ck_nonces s' = ∅ ∨ ck_counts s' = ck_counts s ∧ ck_nonces s' = ck_nonces s) ∧ mempool_of O a [(c, r)] = []) ∨
  (¬ resets c ∧ ck_counts s' !! a = ck_counts s !! a ∧ ck_nonces s ⊆ ck_nonces s' ∧ mempool_of O a [(c, r)] = []) ∨
  (∃ tx m, c = CCheckTx tx ∧ decode_tx O tx = Some (a, m) ∧ mempool_of O a [(c, r)] = [msg_nonce m] ∧
     default 0 (ck_counts s !! a) < 10 ∧ (a, msg_nonce m) ∉ ck_nonces s ∧ (a, msg_nonce m) ∉ nonces s ∧
     (ck_members s = ∅ ∨ a ∈ ck_members s) ∧ rsp_code r = 0%N ∧
     ck_counts s' !! a = Some (S (default 0 (ck_counts s !! a))) ∧
     ck_nonces s' = ck_nonces s ∪ {[ (a, msg_nonce m) ]}).
Proof.
  intros H. destruct c as [ks t vs cid|tx|tx ord|h|]; cbn [step] in H.
  - left. destruct (init_chain s ks t vs cid) as [s1|] eqn:E; cbn in H; simplify_eq. unfold init_chain in E.
    destruct (ensure_valid (genesis_config ks t)) eqn:Hev; cbn [negb] in E; [|done].
    destruct (configs s !! 0) as [c0|] eqn:H0; cbn in E; [|done].
    split; [done|]. split; [|done]. destruct (_ && _)%bool eqn:Hb.
    + destruct (make_powermap_genesis vs) as [pm|]; cbn in E; [|done]. simplify_eq. by left.
    + case_bool_decide; simplify_eq. by right.
  - injection H as H. unfold check_tx in H.
    destruct (decode_tx O tx) as [[b m]|] eqn:D.
    2: { simplify_eq. right; left. cbn. unfold mempool_of. cbn. rewrite D. split_and!; try done. tauto. }
    assert (Herr : (s, error_response) = (s', r) → ¬ resets (CCheckTx tx) ∧ ck_counts s' !! a = ck_counts s !! a ∧
        ck_nonces s ⊆ ck_nonces s' ∧ mempool_of O a [(CCheckTx tx, r)] = []).
    { intros; simplify_eq. unfold mempool_of. cbn. rewrite D. cbn. split_and!; try done; [tauto|].
      rewrite bool_decide_eq_false_2; [done|]. by intros [_ ?]. }
    destruct (negb (bool_decide (msg_chain_id m = chain_id s))); [by right; left; apply Herr|].
    case_bool_decide as Hn; [by right; left; apply Herr|].
    destruct (negb (bool_decide (ck_members s = ∅)) && negb (bool_decide (b ∈ ck_members s)))%bool eqn:Hmem;
      [by right; left; apply Herr|].
    destruct (Nat.leb_spec max_txs_per_block (default 0 (ck_counts s !! b))) as [|Hlt]; [by right; left; apply Herr|].
    case_bool_decide as Hcn; [by right; left; apply Herr|]. simplify_eq.
    destruct (decide (b = a)) as [->|Hne].
    + right; right. exists tx, m. unfold mempool_of. cbn. rewrite D. cbn.
      rewrite lookup_insert, bool_decide_eq_true_2 by done. split_and!; try done.
      apply andb_false_iff in Hmem as [Hmem|Hmem]; apply negb_false_iff, bool_decide_eq_true in Hmem; [by left|by right].
    + right; left. unfold mempool_of. cbn. rewrite D. cbn.
      rewrite lookup_insert_ne by done. split_and!; try done; [tauto|set_solver|].
      rewrite bool_decide_eq_false_2; [done|]. by intros [? _].
  - right; left. apply deliver_tx_cases in H as [[-> ->]|(b & m & D & _ & _ & Hm)].
    + split_and!; try done. cbn. tauto.
    + apply mstep_ck in Hm as [-> ->]. split_and!; try done. cbn. tauto.
  - right; left. unfold end_block in H. destruct (end_block_flags s) as [s1|] eqn:E; cbn in H; [|done]. simplify_eq.
    apply end_block_flags_spec in E as (pre & l & l' & Hc & He & Hf & [->|(-> & _)]); split_and!; try done; cbn; tauto.
  - left. injection H as <- <-. split; [done|]. split; [by left|done].
Qed.

Lemma mempool_limit O tr1 s1 tr2 s2 a : history O tr1 s1 → exec O s1 tr2 s2 →
  (∀ c r, (c, r) ∈ tr2 → ¬ resets c) →
  length (mempool_of O a tr2) ≤ 10 ∧ NoDup (mempool_of O a tr2).
Proof.
  intros Hh He Hnr.
  assert (Hb : ∀ tr s, history O tr s → default 0 (ck_counts s !! a) ≤ 10).
  { clear. intros tr s [dev H]. remember (new_app dev) as s0 eqn:E0. induction H as [|s0 tr s1 c r s2 He IH Hv Hs].
    - subst. cbn. rewrite lookup_empty. cbn. lia.
    - specialize (IH E0). apply (step_mempool O _ _ _ _ a) in Hs as [(_ & [[-> _]|[-> _]] & _)|[(_ & -> & _)|H]].
      + rewrite lookup_empty. cbn. lia.
      + done.
      + done.
      + destruct H as (tx & m & _ & _ & _ & Hlt & _ & _ & _ & _ & -> & _). cbn. lia. }
  enough (Hmain : default 0 (ck_counts s2 !! a) = default 0 (ck_counts s1 !! a) + length (mempool_of O a tr2) ∧
    NoDup (mempool_of O a tr2) ∧ (∀ n, n ∈ mempool_of O a tr2 → (a, n) ∈ ck_nonces s2)).
  { destruct Hmain as (Hc & Hnd & _). split; [|done].
    assert (history O (tr1 ++ tr2) s2) as Hh2%Hb. { destruct Hh as [dev Hh]. exists dev. by eapply exec_app. }
    lia. }
  induction He as [s1|s1 tr2 sm c r s2 He IH Hv Hs].
  - cbn. split; [lia|]. split; [apply NoDup_nil_2|]. by intros n ?%elem_of_nil.
  - destruct IH as (IH1 & IH2 & IH3); [done|intros c' r' Hin; apply (Hnr c' r'); set_solver|].
    rewrite mempool_snoc, app_length.
    apply (step_mempool O _ _ _ _ a) in Hs as [(Hr & _)|[(_ & Hc & Hsub & ->)|H]].
    + exfalso. eapply (Hnr c r); [set_solver|done].
    + rewrite app_nil_r, Hc. cbn. split; [lia|]. split; [done|]. intros n Hn. apply Hsub. by apply IH3.
    + destruct H as (tx & m & _ & _ & -> & Hlt & Hcn & _ & _ & _ & -> & ->). cbn. split; [lia|].
      split.
      * apply NoDup_snoc_new; [done|]. intros Hin. by apply IH3 in Hin.
      * intros n. rewrite elem_of_app, elem_of_list_singleton. intros [Hin| ->]; [apply IH3 in Hin|]; set_solver.
Qed.

(** members are exactly the keypers of all configs *)
Lemma history_members O tr s : history O tr s → ck_members s = list_to_set (concat (cf_keypers <$> configs s)).
Proof.
  intros [dev H]. remember (new_app dev) as s0 eqn:E0. induction H as [|s0 tr s1 c r s2 He IH Hv Hs].
  - by subst.
  - specialize (IH E0). destruct c as [ks t vs cid|tx|tx ord|h|]; cbn [step] in Hs.
    + destruct (init_chain s1 ks t vs cid) as [s3|] eqn:E; cbn in Hs; simplify_eq. unfold init_chain in E.
      destruct (ensure_valid (genesis_config ks t)) eqn:Hev; cbn [negb] in E; [|done].
      destruct (configs s1 !! 0) as [c0|] eqn:H0; cbn in E; [|done].
      destruct (_ && _)%bool eqn:Hb.
      * destruct (make_powermap_genesis vs) as [pm|]; cbn in E; [|done]. by simplify_eq.
      * case_bool_decide; by simplify_eq.
    + injection Hs as H. unfold check_tx in H. repeat case_match; by simplify_eq.
    + apply deliver_tx_cases in Hs as [[-> ->]|(b & m & D & _ & _ & Hm)]; [done|].
      remember (msg_payload m) as pl. by destruct Hm.
    + unfold end_block in Hs. destruct (end_block_flags s1) as [s3|] eqn:E; cbn in Hs; [|done]. simplify_eq.
      apply end_block_flags_spec in E as (pre & l & l' & Hc & [(_ & Hk & _) _] & Hf & [->|(-> & _)]); cbn;
        rewrite IH, Hc, !fmap_app; cbn; by rewrite Hk.
    + by injection Hs as <- <-.
Qed.

Lemma mempool_admission O tr s tx r s' a m : history O tr s → step O s (CCheckTx tx) = Some (s', r) →
  decode_tx O tx = Some (a, m) → rsp_code r = 0%N →
  ((∃ c, c ∈ configs s ∧ a ∈ cf_keypers c) ∨ ∀ c b, c ∈ configs s → b ∉ cf_keypers c) ∧
  (∀ c1 r1 tx1 ord1 m1 tr1 tr2 s1 s1', tr = tr1 ++ (c1, r1) :: tr2 → (∃ dev, exec O (new_app dev) tr1 s1 ∧ exec O s1' tr2 s) →
     step O s1 c1 = Some (s1', r1) → c1 = CDeliverTx tx1 ord1 → decode_tx O tx1 = Some (a, m1) →
     msg_nonce m1 = msg_nonce m → rejected s1 r1 s1').
Proof.
  intros Hh Hs D Hr. pose proof (history_members _ _ _ Hh) as Hmem.
  pose proof Hs as Hs'. apply (step_mempool O _ _ _ _ a) in Hs' as [(Hre & _)|[(_ & _ & _ & Hno)|H]].
  - done.
  - unfold mempool_of in Hno. cbn in Hno. rewrite D in Hno. cbn in Hno.
    rewrite bool_decide_eq_true_2 in Hno by done. done.
  - destruct H as (tx' & m' & ? & D' & _ & Hlt & Hcn & Hn & Hms & _). simplify_eq. split.
    + destruct Hms as [Hms|Hms]; rewrite Hmem in Hms.
      * right. intros c b Hc Hb. assert (b ∈ (list_to_set (concat (cf_keypers <$> configs s)) : gset address)) as Hin.
        { apply elem_of_list_to_set, elem_of_list_In, in_concat. exists (cf_keypers c).
          split; apply elem_of_list_In; [apply elem_of_list_fmap; eauto|done]. }
        rewrite Hms in Hin. set_solver.
      * left. apply elem_of_list_to_set, elem_of_list_In, in_concat in Hms as (l & Hl & Ha).
        apply elem_of_list_In, elem_of_list_fmap in Hl as (c & -> & Hc). exists c. split; [done|]. by apply elem_of_list_In.
    + intros c1 r1 tx1 ord1 m1 tr1 tr2 s1 s1' _ (dev & _ & He2) Hst -> D1 Hnn.
      cbn [step] in Hst. apply deliver_tx_cases in Hst as [[-> ->]|(b & mm & D2 & _ & _ & Hm)]; [done|].
      simplify_eq. exfalso. apply Hn. apply (exec_nonces _ _ _ _ He2).
      rewrite (mstep_nonces _ _ _ _ _ _ _ Hm). cbn. rewrite Hnn. set_solver.
Qed.

(** C09, sharper: the config is the one responsible when the first signature arrived *)
Lemma first_signature O dev tr s : exec O (new_app dev) tr s →
  ∀ b bs, batch_states s !! b = Some bs →
  ∃ tr1 c r tr2 s1 a0, tr = tr1 ++ (c, r) :: tr2 ∧ exec O (new_app dev) tr1 s1 ∧
    (∀ a, (b, a) ∉ signatures_of tr1) ∧ (b, a0) ∈ signatures_of [(c, r)] ∧
    responsible (configs s1) b (bs_config bs).
Proof.
  intros H. remember (new_app dev) as s0 eqn:E0. induction H as [|s0 tr s1 c r s2 He IH Hv Hs]; intros b bs Hb.
  - subst. cbn in Hb. by rewrite lookup_empty in Hb.
  - specialize (IH E0).
    assert (Hkeep : ∀ bs1, batch_states s1 !! b = Some bs1 → bs_config bs1 = bs_config bs →
      ∃ tr1 c1 r1 tr2 s3 a0, tr ++ [(c, r)] = tr1 ++ (c1, r1) :: tr2 ∧ exec O s0 tr1 s3 ∧
       (∀ a, (b, a) ∉ signatures_of tr1) ∧ (b, a0) ∈ signatures_of [(c1, r1)] ∧ responsible (configs s3) b (bs_config bs)).
    { intros bs1 Hb1 Heq. destruct (IH b bs1 Hb1) as (tr1 & c1 & r1 & tr2 & s3 & a0 & -> & He3 & Hno & Hin & Hres).
      exists tr1, c1, r1, (tr2 ++ [(c, r)]), s3, a0. split; [by rewrite <-app_assoc|]. rewrite <-Heq. done. }
    pose proof Hs as Hs'.
    apply step_not_delivered in Hs' as [(_ & _ & _ & Hbs & _)|(tx & ord & a & m & -> & D & Hm)].
    { rewrite Hbs in Hb. by eapply Hkeep. }
    remember (msg_payload m) as pl eqn:Hpl.
    inversion Hm as [| | | | | | | | | |b1 sig bs1 bs' Hgb Hadd| | | | |]; subst; cbn in Hb; try (by eapply Hkeep).
    apply add_decryption_signature_spec in Hadd as (Ha & Hnew & Hcfg & Hsig).
    destruct (decide (b = b1)) as [->|Hne]; [|rewrite lookup_insert_ne in Hb by done; by eapply Hkeep].
    rewrite lookup_insert in Hb. injection Hb as <-.
    change (get_batch_state s1 b1 = Some bs1) in Hgb. unfold get_batch_state in Hgb.
    destruct (batch_states s1 !! b1) as [bs2|] eqn:E2.
    + injection Hgb as ->. by eapply Hkeep.
    + destruct (get_config s1 b1) as [cfg|] eqn:Eg; cbn [mbind option_bind] in Hgb; [|done]. injection Hgb as <-.
      eexists tr, _, _, [], s1, a. split; [done|]. split; [done|]. split; [|split].
      * intros a' Hin. assert (Hh : history O tr s1) by (by exists dev).
        destruct (history_sig_log _ _ _ Hh) as [[_ Hl _] _]. apply Hl in Hin as (? & ? & _). congruence.
      * cbn. set_solver.
      * rewrite Hcfg. cbn. by apply get_config_spec in Eg.
Qed.

Lemma signature_config O dev tr s b a : exec O (new_app dev) tr s → (b, a) ∈ signatures_of tr →
  ∃ tr1 c r tr2 s1 a0 cfg, tr = tr1 ++ (c, r) :: tr2 ∧ exec O (new_app dev) tr1 s1 ∧
    (∀ a', (b, a') ∉ signatures_of tr1) ∧ (b, a0) ∈ signatures_of [(c, r)] ∧
    responsible (configs s1) b cfg ∧ ∀ a', (b, a') ∈ signatures_of tr → a' ∈ cf_keypers cfg.
Proof.
  intros He Hin. assert (Hh : history O tr s) by (by exists dev).
  destruct (history_sig_log _ _ _ Hh) as [[_ Hl Hc] _].
  destruct (Hl _ _ Hin) as (bs & Hb & _).
  destruct (first_signature _ _ _ _ He b bs Hb) as (tr1 & c & r & tr2 & s1 & a0 & -> & He1 & Hno & Ha0 & Hres).
  exists tr1, c, r, tr2, s1, a0, (bs_config bs). split_and!; try done.
  intros a' (bs' & Hb' & Ha')%Hl. simplify_eq. by apply (Hc b bs Hb).
Qed.

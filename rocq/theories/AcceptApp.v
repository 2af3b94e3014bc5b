(** C70, application side: when the app accepts the messages of the key generation, in terms of what it has published. *)
From stdpp Require Import gmap list sorting.
From Coq Require Import NArith ZArith Lia.
From RecordUpdate Require Import RecordUpdate.
From Verif Require Import AppModel AppSpec AppSteps VotingProofs AppInv AppProofs1 AppProofs2 AppProofs3 AppProofs4.

(** ** Specification *)
(** tendermint calls InitChain once, before everything else; [g] is the genesis config *)
Definition launched (cid : bytes) (g : config) (tr : trace) : Prop :=
  ∃ ks t vs r0 tr', tr = (CInitChain ks t vs cid, r0) :: tr' ∧ Forall not_init tr'.*1 ∧ g = genesis_config ks t.
(** the configs announced, in order *)
Definition announced (evs : list event) : list config := omap (λ e, match e with EvBatchConfig c => Some c | _ => None end) evs.
(** [c] is the config of eon [n]: the newest of the configs there were when the eon was announced whose start batch index is not larger than the eon's *)
Definition config_of (g : config) (evs : list event) (n : N) (c : config) : Prop :=
  ∃ evs1 b evs2, evs = evs1 ++ EvEonStarted n b :: evs2 ∧ responsible (g :: announced evs1) b c.
(** a transaction of [a] for this chain with nonce [k] was delivered before *)
Definition used (O : oracles) (cid : bytes) (tr : trace) (a : address) (k : N) : Prop :=
  ∃ tx ord r m, (CDeliverTx tx ord, r) ∈ tr ∧ decode_tx O tx = Some (a, m) ∧ msg_chain_id m = cid ∧ msg_nonce m = k.
(** the message of the key generation is well-formed, about members of [c] other than its sender, and the first of its kind *)
Definition in_order (O : oracles) (tr : trace) (c : config) (a : address) (p : payload) : Prop :=
  let others rs := ∃ l, Forall2 (λ b x, length b = 20 ∧ x = bytes_to_address b) rs l ∧ NoDup l ∧ Forall (λ x, x ∈ cf_keypers c ∧ x ≠ a) l in
  match p with
  | MPolyCommitment n gs => Forall (λ b, g2_unmarshal O b ≠ None) gs ∧ (n, a) ∉ commitments_of tr
  | MPolyEval n rs es => length rs = length es ∧ others rs ∧ ∀ b, b ∈ rs → (n, a, bytes_to_address b) ∉ evals_of tr
  | MAccusation n rs => others rs ∧ (n, a) ∉ accusations_of tr
  | MApology n rs es => length rs = length es ∧ others rs ∧ (n, a) ∉ apologies_of tr
  | _ => False
  end.
Definition dkg_eon_of (p : payload) : option N :=
  match p with MPolyCommitment n _ | MPolyEval n _ _ | MAccusation n _ | MApology n _ _ => Some n | _ => None end.

(** ** Proofs *)
Lemma announced_app l1 l2 : announced (l1 ++ l2) = announced l1 ++ announced l2.
Proof. apply omap_app. Qed.
Lemma Forall2_snoc {A B} (R : A → B → Prop) l k x y : Forall2 R l k → R x y → Forall2 R (l ++ [x]) (k ++ [y]).
Proof. intros. apply Forall2_app; [done|]. by constructor. Qed.
Lemma same_config_sym c d : same_config c d → same_config d c.
Proof. unfold same_config. intuition. Qed.

(** what a step does to the configs *)
Lemma step_configs_log O s c s' r : step O s c = Some (s', r) → not_init c →
  (configs s' = configs s ∧ announced (rsp_events r) = []) ∨
  (∃ pre l l', configs s = pre ++ [l] ∧ configs s' = pre ++ [l'] ∧ same_config l l' ∧ announced (rsp_events r) = []) ∨
  ∃ bc, configs s' = configs s ++ [bc] ∧ announced (rsp_events r) = [bc].
Proof.
  intros H Hni. destruct c as [ks t vs cid|tx|tx ord|h|]; [done| | | |].
  - cbn [step] in H. injection H as H. left. unfold check_tx in H. repeat case_match; by simplify_eq.
  - cbn [step] in H. apply deliver_tx_cases in H as [[-> ->]|(a & m & D & _ & _ & Hm)]; [by left|].
    remember (msg_payload m) as pl. destruct_mstep Hm; try (left; split; reflexivity); right; right; by exists bc0.
  - pose proof (other_step _ _ _ _ _ H ltac:(done)) as [Hev _]. apply end_block_form in H as (s1 & E & _ & _ & _ & Hc & _).
    apply end_block_flags_exact in E as (pre & l & l' & H1 & H2 & _ & Hs & _). right; left. exists pre, l, l'. rewrite Hc, Hev. done.
  - cbn [step] in H. injection H as <- <-. by left.
Qed.
Lemma step_chain_id O s c s' r : step O s c = Some (s', r) → not_init c → chain_id s' = chain_id s.
Proof.
  intros H Hni. destruct c as [ks t vs cid|tx|tx ord|h|]; [done| | | |]; cbn [step] in H.
  - injection H as H. unfold check_tx in H. repeat case_match; by simplify_eq.
  - apply deliver_tx_cases in H as [[-> ->]|(a & m & D & _ & _ & Hm)]; [done|]. remember (msg_payload m) as pl. destruct_mstep Hm; done.
  - unfold end_block in H. destruct (end_block_flags s) as [s1|] eqn:E; cbn in H; [|done]. simplify_eq.
    apply end_block_flags_spec in E as (pre & l & l' & Hc & He & Hf & [->|(-> & _)]); done.
  - by injection H as <- <-.
Qed.
Lemma mstep_nonces O ord s a p s' r : mstep O ord s a p s' r → nonces s' = nonces s.
Proof. intros Hm. destruct_mstep Hm; done. Qed.
Lemma step_nonces O s c s' r : step O s c = Some (s', r) → not_init c → ∀ a k,
  (a, k) ∈ nonces s' ↔ (a, k) ∈ nonces s ∨ ∃ tx ord m, c = CDeliverTx tx ord ∧ decode_tx O tx = Some (a, m) ∧ msg_chain_id m = chain_id s ∧ msg_nonce m = k.
Proof.
  intros H Hni a k. destruct c as [ks t vs cid|tx|tx ord|h|]; [done| | | |].
  - cbn [step] in H. injection H as H. assert (nonces s' = nonces s) as -> by (unfold check_tx in H; repeat case_match; by simplify_eq).
    split; [by left|]. intros [?|(?&?&?&?&_)]; done.
  - cbn [step] in H. unfold deliver_tx in H. destruct (decode_tx O tx) as [[a' m]|] eqn:D.
    2:{ injection H as <- <-. split; [by left|]. intros [?|(? & ? & ? & [= -> ->] & D' & _)]; [done|by rewrite D in D']. }
    destruct (bool_decide (msg_chain_id m = chain_id s)) eqn:Hc; cbn in H.
    2:{ apply bool_decide_eq_false in Hc. injection H as <- <-. split; [by left|]. intros [?|(? & ? & ? & [= -> ->] & D' & Hc' & _)]; [done|rewrite D in D'; by simplify_eq]. }
    apply bool_decide_eq_true in Hc. case_bool_decide as Hn.
    { injection H as <- <-. split; [by left|]. intros [?|(? & ? & ? & [= -> ->] & D' & Hc' & <-)]; [done|rewrite D in D'; by simplify_eq]. }
    apply deliver_message_mstep in H. apply mstep_nonces in H. rewrite H. cbn. rewrite elem_of_union, elem_of_singleton. split.
    + intros [?|[= -> ->]]; [by left|right]. by eexists _, _, _.
    + intros [?|(? & ? & ? & [= -> ->] & D' & Hc' & <-)]; [by left|]. rewrite D in D'. simplify_eq. by right.
  - cbn [step] in H. unfold end_block in H. destruct (end_block_flags s) as [s1|] eqn:E; cbn in H; [|done]. simplify_eq.
    assert (nonces s1 = nonces s) as E1. { apply end_block_flags_spec in E as (pre & l & l' & Hc & He & Hf & [->|(-> & _)]); done. }
    cbn. rewrite E1. split; [by left|]. intros [?|(?&?&?&?&_)]; done.
  - cbn [step] in H. injection H as <- <-. split; [by left|]. intros [?|(?&?&?&?&_)]; done.
Qed.

Lemma responsible_same l k b c : Forall2 same_config l k → responsible k b c → ∃ c', responsible l b c' ∧ same_config c' c.
Proof.
  intros HF (k1 & k2 & -> & Hle & Hall). apply Forall2_app_inv_r in HF as (l1 & l2' & H1 & H2 & ->). apply Forall2_cons_inv_r in H2 as (c' & l2 & Hc & H2 & ->).
  exists c'. split; [|done]. exists l1, l2. split; [done|]. destruct Hc as (Es & _). split; [by rewrite Es|].
  clear -H2 Hall. induction H2 as [|x y l k Hxy _ IH]; [constructor|]. apply Forall_cons in Hall as [Hy Hall]. constructor; [|by apply IH]. destruct Hxy as (-> & _). done.
Qed.
Lemma responsible_unique (l : list config) b c c' : responsible l b c → responsible l b c' → c = c'.
Proof.
  intros (p & q & E1 & E2 & E3) (p' & q' & F1 & F2 & F3). rewrite Forall_forall in E3, F3. rewrite E1 in F1. clear E1 l. revert p' F1. induction p as [|x p IH]; intros [|y p'] F1; cbn in F1.
  - by injection F1 as -> _.
  - injection F1 as <- ->. exfalso. specialize (E3 c' ltac:(apply elem_of_app; right; by left)). cbn in E3. lia.
  - injection F1 as -> <-. exfalso. specialize (F3 c ltac:(apply elem_of_app; right; by left)). cbn in F3. lia.
  - injection F1 as _ F1. by eapply IH.
Qed.

(** The state of the app, in terms of what it has published. *)
Record app_log (O : oracles) (cid : bytes) (g : config) (tr : trace) (s : app) : Prop := mkAppLog {
  al_chain : chain_id s = cid;
  al_nonces : ∀ a k, (a, k) ∈ nonces s ↔ used O cid tr a k;
  al_configs : Forall2 same_config (g :: announced (events_of tr)) (configs s);
  al_eons : ∀ evs1 n b evs2, events_of tr = evs1 ++ EvEonStarted n b :: evs2 →
    ∃ d c, dkg_map s !! n = Some d ∧ responsible (g :: announced evs1) b c ∧ same_config c (dkg_config d);
  al_commit : ∀ n d a, dkg_map s !! n = Some d → a ∈ dkg_commitments d → (n, a) ∈ commitments_of tr;
  al_accuse : ∀ n d a, dkg_map s !! n = Some d → a ∈ dkg_accusations d → (n, a) ∈ accusations_of tr;
  al_apology : ∀ n d a, dkg_map s !! n = Some d → a ∈ dkg_apologies d → (n, a) ∈ apologies_of tr;
  al_eval : ∀ n d a b, dkg_map s !! n = Some d → (a, b) ∈ dkg_evals d → (n, a, b) ∈ evals_of tr
}.

Lemma launched_snoc cid g tr x : launched cid g (tr ++ [x]) → tr = [] ∨ launched cid g tr ∧ not_init x.1.
Proof.
  intros (ks & t & vs & r0 & tr' & E & Hni & Eg). destruct tr as [|y tr]; [by left|right]. cbn in E. injection E as -> <-.
  rewrite fmap_app, Forall_app in Hni. destruct Hni as [Hni Hx]. split; [|by apply Forall_inv in Hx]. by exists ks, t, vs, r0, tr.
Qed.
Lemma eon_event_split (l1 l2 evs1 evs2 : list event) e : l1 ++ l2 = evs1 ++ e :: evs2 →
  (∃ q, l1 = evs1 ++ e :: q ∧ evs2 = q ++ l2) ∨ ∃ q, l2 = q ++ e :: evs2 ∧ evs1 = l1 ++ q.
Proof.
  intros E. apply app_eq_inv in E as [(k & -> & E)|(k & -> & E)].
  - destruct k as [|y k]; cbn in E.
    + right. exists []. by rewrite E, !app_nil_r.
    + injection E as <- E. left. by exists k.
  - right. by exists k.
Qed.

(** existing key generations only grow *)
Lemma step_dkg_grows O tr s1 c r s : history O tr s1 → (N.of_nat (length (eons_of (tr ++ [(c, r)]))) < 2 ^ 64)%N → step O s1 c = Some (s, r) → dkg_grows s1 s.
Proof.
  intros Hh1 Hlt Hs. assert (Hlt1 : (N.of_nat (length (eons_of tr)) < 2 ^ 64)%N) by (rewrite eons_of_app, app_length in Hlt; lia).
  pose proof (history_eons_ok _ _ _ Hh1 Hlt1) as (Ee & Ec & Ed).
  assert (Hfresh : ∀ n b, EvEonStarted n b ∈ rsp_events r → n = u64 (eon_counter s1 + 1) → dkg_map s1 !! n = None).
  { intros n b Hin ->. destruct (dkg_map s1 !! _) eqn:E; [|done]. exfalso. assert (u64 (eon_counter s1 + 1) ∈ eons_of tr) as Hin' by (apply Ed; by eexists).
    assert (length (eons_of (tr ++ [(c, r)])) = length (eons_of tr) + length (omap (λ e, match e with EvEonStarted n _ => Some n | _ => None end) (rsp_events r))) as El by (by rewrite eons_of_snoc, app_length).
    assert (0 < length (omap (λ e, match e with EvEonStarted n _ => Some n | _ => None end) (rsp_events r))) as Hp.
    { assert (u64 (eon_counter s1 + 1) ∈ omap (λ e, match e with EvEonStarted n _ => Some n | _ => None end) (rsp_events r)) as Hx by (apply elem_of_list_omap; by eexists).
      destruct (omap _ _); [by apply elem_of_nil in Hx|cbn; lia]. }
    rewrite u64_small in Hin' by lia. rewrite Ee in Hin'. apply elem_of_list_fmap in Hin' as (k & Ek & Hk%elem_of_seq). lia. }
  pose proof Hs as Hs'. apply step_deliver_cases in Hs' as [(_ & _ & _ & _ & Hdm & _)|(tx & ord & a & m & -> & D & Hm)]; [by apply dkg_grows_same|].
        destruct (dkg_map s1 !! u64 (eon_counter s1 + 1)) as [dn|] eqn:En; [|by eapply (mstep_dkg_grows O ord (with_nonce s1 a m))].
        remember (msg_payload m) as pl. pose proof Hm as Hm'. destruct_mstep Hm'; try (eapply (dkg_grows_same s1); done).
        - exfalso. cbn in Heon. rewrite <-Heon in En. rewrite (Hfresh eon (cf_start bc0)) in En; [done|cbn; right; by left|done].
        - exfalso. cbn in Heon. rewrite <-Heon in En. rewrite (Hfresh eon w) in En; [done|cbn; by left|done].
        - apply register_poly_eval_spec in Hr as (-> & _ & _ & Hev & E'). rewrite E'.
          eapply dkg_grows_insert; [exact Hd|done|done|done|done|done|]. cbn. intros p Hin. apply Hev. by left.
        - apply register_commitment_spec in Hr as (-> & _ & _ & ->). eapply dkg_grows_insert; [exact Hd|done|done|set_solver|done|done|done].
        - apply register_accusation_spec in Hr as (-> & _ & _ & _ & ->). eapply dkg_grows_insert; [exact Hd|done|done|done|set_solver|done|done].
        - apply register_apology_spec in Hr as (-> & _ & _ & _ & ->). eapply dkg_grows_insert; [exact Hd|done|done|done|done|set_solver|done].
Qed.
Lemma eon_log O tr s : history O tr s → (N.of_nat (length (eons_of tr)) < 2 ^ 64)%N →
  (∀ n a, (n, a) ∈ commitments_of tr → ∃ d, dkg_map s !! n = Some d ∧ a ∈ dkg_commitments d) ∧
  (∀ n a, (n, a) ∈ accusations_of tr → ∃ d, dkg_map s !! n = Some d ∧ a ∈ dkg_accusations d) ∧
  (∀ n a, (n, a) ∈ apologies_of tr → ∃ d, dkg_map s !! n = Some d ∧ a ∈ dkg_apologies d) ∧
  (∀ n a b, (n, a, b) ∈ evals_of tr → ∃ d, dkg_map s !! n = Some d ∧ (a, b) ∈ dkg_evals d).
Proof.
  revert s. induction tr as [|[c r] tr IH] using rev_ind; intros s Hh Hlt.
  { unfold commitments_of, accusations_of, apologies_of, evals_of. cbn. set_solver. }
  destruct Hh as [dev He]. apply exec_snoc_inv in He as (s1 & He & Hv & Hs). assert (Hh1 : history O tr s1) by (by exists dev).
  pose proof (step_dkg_grows O tr s1 c r s Hh1 Hlt Hs) as Hgr. destruct (IH s1 Hh1) as (I1 & I2 & I3 & I4); [rewrite eons_of_app, app_length in Hlt; lia|].
  rewrite commitments_snoc, accusations_snoc, apologies_snoc, evals_snoc. split_and!.
  - intros n a [Hin|Hin]%elem_of_app. { destruct (I1 _ _ Hin) as (d & Hd & Ha). destruct (Hgr _ _ Hd) as (d' & Hd' & _ & H1 & H2 & H3 & H4). exists d'. set_solver. }
    apply elem_of_list_omap in Hin as (e & Hin & Ee). destruct e; try discriminate Ee. injection Ee as -> ->.
    apply step_deliver_cases in Hs as [(Hev & _)|(tx & ord & a0 & m & -> & D & Hm)]; [rewrite Hev in Hin; by apply elem_of_nil in Hin|].
    remember (msg_payload m) as pl eqn:Epl. destruct_mstep Hm; cbn in Hin; repeat (apply elem_of_cons in Hin as [Hin|Hin]); try discriminate Hin; try (by apply elem_of_nil in Hin).
    injection Hin as -> -> ->. apply register_commitment_spec in Hr as (-> & _ & _ & ->). cbn. rewrite lookup_insert. eexists. split; [done|]. cbn. set_solver.
  - intros n a [Hin|Hin]%elem_of_app. { destruct (I2 _ _ Hin) as (d & Hd & Ha). destruct (Hgr _ _ Hd) as (d' & Hd' & _ & H1 & H2 & H3 & H4). exists d'. set_solver. }
    apply elem_of_list_omap in Hin as (e & Hin & Ee). destruct e; try discriminate Ee. injection Ee as -> ->.
    apply step_deliver_cases in Hs as [(Hev & _)|(tx & ord & a0 & m & -> & D & Hm)]; [rewrite Hev in Hin; by apply elem_of_nil in Hin|].
    remember (msg_payload m) as pl eqn:Epl. destruct_mstep Hm; cbn in Hin; repeat (apply elem_of_cons in Hin as [Hin|Hin]); try discriminate Hin; try (by apply elem_of_nil in Hin).
    injection Hin as -> -> ->. apply register_accusation_spec in Hr as (-> & _ & _ & _ & ->). cbn. rewrite lookup_insert. eexists. split; [done|]. cbn. set_solver.
  - intros n a [Hin|Hin]%elem_of_app. { destruct (I3 _ _ Hin) as (d & Hd & Ha). destruct (Hgr _ _ Hd) as (d' & Hd' & _ & H1 & H2 & H3 & H4). exists d'. set_solver. }
    apply elem_of_list_omap in Hin as (e & Hin & Ee). destruct e; try discriminate Ee. injection Ee as -> ->.
    apply step_deliver_cases in Hs as [(Hev & _)|(tx & ord & a0 & m & -> & D & Hm)]; [rewrite Hev in Hin; by apply elem_of_nil in Hin|].
    remember (msg_payload m) as pl eqn:Epl. destruct_mstep Hm; cbn in Hin; repeat (apply elem_of_cons in Hin as [Hin|Hin]); try discriminate Hin; try (by apply elem_of_nil in Hin).
    injection Hin as -> -> -> ->. apply register_apology_spec in Hr as (-> & _ & _ & _ & ->). cbn. rewrite lookup_insert. eexists. split; [done|]. cbn. set_solver.
  - intros n a bb [Hin|Hin]%elem_of_app. { destruct (I4 _ _ _ Hin) as (d & Hd & Ha). destruct (Hgr _ _ Hd) as (d' & Hd' & _ & H1 & H2 & H3 & H4). exists d'. set_solver. }
    apply elem_of_list_In, in_concat in Hin as (l & Hl1%elem_of_list_In & Hin%elem_of_list_In). apply elem_of_list_fmap in Hl1 as (e & -> & Hl1).
    apply step_deliver_cases in Hs as [(Hev & _)|(tx & ord & a0 & m & -> & D & Hm)]; [rewrite Hev in Hl1; by apply elem_of_nil in Hl1|].
    remember (msg_payload m) as pl eqn:Epl. destruct_mstep Hm; cbn in Hl1; repeat (apply elem_of_cons in Hl1 as [->|Hl1]); try (by apply elem_of_nil in Hl1); cbn in Hin; try (by apply elem_of_nil in Hin).
    apply elem_of_list_fmap in Hin as (x & [= -> -> ->] & Hx). apply register_poly_eval_spec in Hr as (-> & _ & _ & Hev & _). cbn. rewrite lookup_insert. eexists. split; [done|]. apply Hev. right. by exists x.
Qed.

Lemma app_log_history O cid g tr s : history O tr s → launched cid g tr → (N.of_nat (length (eons_of tr)) < 2 ^ 64)%N → app_log O cid g tr s.
Proof.
  revert s. induction tr as [|[c r] tr IH] using rev_ind; intros s Hh Hlau Hlt.
  { by destruct Hlau as (? & ? & ? & ? & ? & ? & _). }
  pose proof Hh as Hh0. destruct Hh as [dev He]. apply exec_snoc_inv in He as (s1 & He & Hv & Hs).
  pose proof Hlau as Hlau0. apply launched_snoc in Hlau as [->|[Hlau Hni]].
  { destruct Hlau0 as (ks & t & vs & r0 & tr' & E & Hni & ->). cbn in E. injection E as -> <- <-. apply exec_nil_inv in He as ->.
    cbn [step] in Hs. unfold init_chain in Hs. destruct (ensure_valid (genesis_config ks t)); cbn [negb] in Hs; [|done]. cbn in Hs.
    destruct (make_powermap_genesis vs) as [pm|]; cbn in Hs; [|done]. injection Hs as <- <-. constructor; cbn.
    - done.
    - intros a k. split; [set_solver|]. intros (tx & ord & r1 & m & Hin & _). by apply elem_of_list_singleton in Hin.
    - constructor; [by unfold same_config|constructor].
    - intros [] ???; discriminate.
    - intros n d a Hd. by rewrite lookup_empty in Hd.
    - intros n d a Hd. by rewrite lookup_empty in Hd.
    - intros n d a Hd. by rewrite lookup_empty in Hd.
    - intros n d a b Hd. by rewrite lookup_empty in Hd. }
  assert (Hh1 : history O tr s1) by (by exists dev). assert (Hlt1 : (N.of_nat (length (eons_of tr)) < 2 ^ 64)%N).
  { rewrite eons_of_app, app_length in Hlt. lia. }
  destruct (IH s1 Hh1 Hlau Hlt1) as [I1 I2 I3 I4 I5 I6 I7 I8]. cbn [fst] in Hni.
  constructor.
  - rewrite (step_chain_id _ _ _ _ _ Hs Hni). done.
  - intros a k. rewrite (step_nonces _ _ _ _ _ Hs Hni), I2, I1. split.
    + intros [(tx & ord & r1 & m & Hin & D & Hc & Hk)|(tx & ord & m & -> & D & Hc & Hk)].
      * exists tx, ord, r1, m. split_and!; try done. apply elem_of_app. by left.
      * exists tx, ord, r, m. split_and!; try done. apply elem_of_app. right. by left.
    + intros (tx & ord & r1 & m & Hin & D & Hc & Hk). apply elem_of_app in Hin as [Hin|Hin].
      * left. by exists tx, ord, r1, m.
      * apply elem_of_list_singleton in Hin. injection Hin as <- <-. right. by exists tx, ord, m.
  - rewrite events_of_app, events_of_one, announced_app. destruct (step_configs_log _ _ _ _ _ Hs Hni) as [(-> & ->)|[(pre & l & l' & E1 & E2 & Hsc & ->)|(bc & -> & ->)]].
    + by rewrite app_nil_r.
    + rewrite app_nil_r, E2. rewrite E1 in I3. apply Forall2_app_inv_r in I3 as (x1 & x2 & H1 & H2 & ->). apply Forall2_app; [done|].
      apply Forall2_cons_inv_r in H2 as (x & x3 & Hx & H3 & ->). apply Forall2_nil_inv_r in H3 as ->. constructor; [by eapply same_config_trans|constructor].
    + change (g :: announced (events_of tr) ++ [bc]) with ((g :: announced (events_of tr)) ++ [bc]). apply Forall2_snoc; [done|by unfold same_config].
  - intros evs1 n bb evs2 E. rewrite events_of_app, events_of_one in E. apply eon_event_split in E as [(q & E & _)|(q & E & ->)].
    + destruct (I4 _ _ _ _ E) as (dd & cf & HD & HR & Hsc).
      pose proof (step_dkg_grows O tr s1 c r s Hh1 Hlt Hs) as Hg.
      destruct (Hg n dd HD) as (d' & Hd' & Ecf & _). exists d', cf. split; [done|]. split; [done|]. by rewrite Ecf.
    + pose proof Hs as Hs'. apply step_deliver_cases in Hs' as [(Hev & _)|(tx & ord & a & m & -> & D & Hm)]; [rewrite Hev in E; by destruct q|].
      remember (msg_payload m) as pl eqn:Epl. pose proof Hm as Hm'. destruct_mstep Hm'; cbn [ok_response error_response rsp_events] in E; try (by destruct q as [|? [|? [|]]]).
      * destruct q as [|e1 [|e2 [|]]]; try discriminate E. cbn in E. injection E as <- <- <-. cbn in Heon |- *. exists (new_dkg bc0 eon), bc0.
        rewrite lookup_insert. split; [done|]. split; [|by unfold same_config]. rewrite announced_app. cbn.
        exists (g :: announced (events_of tr)), []. split; [done|]. split; [lia|constructor].
      * destruct q as [|e1 [|]]; try discriminate E. cbn in E. injection E as <- <- <-. rewrite app_nil_r. cbn in Heon |- *.
        assert (w = b) as ->.
        { destruct (eon_start_votes O dev tr s1 (CDeliverTx tx ord) (ok_response [EvEonStarted eon w]) _ a b eon w He Hv Hs) as [? _]; [|cbn; by left|done]. exists tx, ord, m. done. }
        change (get_config s1 b = Some cfg) in Hgc. apply get_config_spec in Hgc. destruct (responsible_same _ _ b cfg I3 Hgc) as (c' & Hr & Hsc).
        exists (new_dkg cfg eon), c'. by rewrite lookup_insert.
  - rewrite commitments_snoc. intros n dd a HD Ha. apply elem_of_app.
    pose proof Hs as Hs'. apply step_deliver_cases in Hs' as [(_ & _ & _ & _ & Hdm & _)|(tx & ord & a0 & m & -> & D & Hm)]; [left; rewrite Hdm in HD; by eapply I5|].
    remember (msg_payload m) as pl eqn:Epl. destruct_mstep Hm; cbn in HD; try (left; by eapply I5);
      (apply lookup_insert_Some in HD as [[<- <-]|[_ HD]]; [|left; by eapply I5]).
    + done.
    + done.
    + apply register_poly_eval_spec in Hr as (-> & _ & _ & Hev & E'). rewrite E' in Ha. cbn in Ha. left. by eapply I5.
    + apply register_commitment_spec in Hr as (-> & _ & _ & ->). cbn in Ha. apply elem_of_union in Ha as [Ha| ->%elem_of_singleton]; [left; by eapply I5|]. right. cbn. by left.
    + apply register_accusation_spec in Hr as (-> & _ & _ & _ & ->). left. by eapply I5.
    + apply register_apology_spec in Hr as (-> & _ & _ & _ & ->). left. by eapply I5.
  - rewrite accusations_snoc. intros n dd a HD Ha. apply elem_of_app.
    pose proof Hs as Hs'. apply step_deliver_cases in Hs' as [(_ & _ & _ & _ & Hdm & _)|(tx & ord & a0 & m & -> & D & Hm)]; [left; rewrite Hdm in HD; by eapply I6|].
    remember (msg_payload m) as pl eqn:Epl. destruct_mstep Hm; cbn in HD; try (left; by eapply I6);
      (apply lookup_insert_Some in HD as [[<- <-]|[_ HD]]; [|left; by eapply I6]).
    + done.
    + done.
    + apply register_poly_eval_spec in Hr as (-> & _ & _ & Hev & E'). rewrite E' in Ha. cbn in Ha. left. by eapply I6.
    + apply register_commitment_spec in Hr as (-> & _ & _ & ->). left. by eapply I6.
    + apply register_accusation_spec in Hr as (-> & _ & _ & _ & ->). cbn in Ha. apply elem_of_union in Ha as [Ha| ->%elem_of_singleton]; [left; by eapply I6|]. right. cbn. by left.
    + apply register_apology_spec in Hr as (-> & _ & _ & _ & ->). left. by eapply I6.
  - rewrite apologies_snoc. intros n dd a HD Ha. apply elem_of_app.
    pose proof Hs as Hs'. apply step_deliver_cases in Hs' as [(_ & _ & _ & _ & Hdm & _)|(tx & ord & a0 & m & -> & D & Hm)]; [left; rewrite Hdm in HD; by eapply I7|].
    remember (msg_payload m) as pl eqn:Epl. destruct_mstep Hm; cbn in HD; try (left; by eapply I7);
      (apply lookup_insert_Some in HD as [[<- <-]|[_ HD]]; [|left; by eapply I7]).
    + done.
    + done.
    + apply register_poly_eval_spec in Hr as (-> & _ & _ & Hev & E'). rewrite E' in Ha. cbn in Ha. left. by eapply I7.
    + apply register_commitment_spec in Hr as (-> & _ & _ & ->). left. by eapply I7.
    + apply register_accusation_spec in Hr as (-> & _ & _ & _ & ->). left. by eapply I7.
    + apply register_apology_spec in Hr as (-> & _ & _ & _ & ->). cbn in Ha. apply elem_of_union in Ha as [Ha| ->%elem_of_singleton]; [left; by eapply I7|]. right. cbn. by left.
  - rewrite evals_snoc. intros n dd a bb HD Ha. apply elem_of_app.
    pose proof Hs as Hs'. apply step_deliver_cases in Hs' as [(_ & _ & _ & _ & Hdm & _)|(tx & ord & a0 & m & -> & D & Hm)]; [left; rewrite Hdm in HD; by eapply I8|].
    remember (msg_payload m) as pl eqn:Epl. destruct_mstep Hm; cbn in HD; try (left; by eapply I8);
      (apply lookup_insert_Some in HD as [[<- <-]|[_ HD]]; [|left; by eapply I8]).
    + done.
    + done.
    + apply register_poly_eval_spec in Hr as (-> & _ & _ & Hev & E'). apply Hev in Ha as [Ha|(x & Hx & [= -> ->])]; [left; by eapply I8|].
      right. cbn. rewrite app_nil_r. apply elem_of_list_fmap. by exists x.
    + apply register_commitment_spec in Hr as (-> & _ & _ & ->). left. by eapply I8.
    + apply register_accusation_spec in Hr as (-> & _ & _ & _ & ->). left. by eapply I8.
    + apply register_apology_spec in Hr as (-> & _ & _ & _ & ->). left. by eapply I8.
Qed.

Lemma parse_addresses_Some l as_ : parse_addresses l = Some as_ ↔ Forall2 (λ b x, length b = 20 ∧ x = bytes_to_address b) l as_ ∧ NoDup as_.
Proof.
  unfold parse_addresses. assert (Hm : ∀ k, mapM validate_address l = Some k ↔ Forall2 (λ b x, length b = 20 ∧ x = bytes_to_address b) l k).
  { intros k. rewrite mapM_Some. split; intros HF; (eapply Forall2_impl; [exact HF|]); intros b x; cbn; unfold validate_address.
    - destruct (Nat.eqb_spec (length b) 20); [|done]. by intros [= <-].
    - intros [-> ->]. done. }
  destruct (mapM validate_address l) as [k|] eqn:E; cbn.
  - unfold unique_addresses. case_bool_decide as Hnd.
    + split.
      * intros [= ->]. split; [by apply Hm|done].
      * intros [HF _]. apply Hm in HF. by injection HF as ->.
    + split; [done|]. intros [HF Hn]. apply Hm in HF. by injection HF as ->.
  - split; [done|]. intros [HF _]. apply Hm in HF. done.
Qed.
Lemma is_keyper_bool c a : is_keyper c a = true ↔ a ∈ cf_keypers c.
Proof. unfold is_keyper. apply bool_decide_eq_true. Qed.
Lemma register_commitment_ok d a n : dkg_eon d = n → a ∈ cf_keypers (dkg_config d) → a ∉ dkg_commitments d → register_commitment d a n ≠ None.
Proof. intros <- Ha Hn. unfold register_commitment. rewrite N.eqb_refl. apply is_keyper_bool in Ha. rewrite Ha. cbn. by rewrite bool_decide_eq_false_2. Qed.
Lemma others_bool c a l : forallb (λ r, is_keyper c r && negb (N.eqb a r)) l = true ↔ Forall (λ x, x ∈ cf_keypers c ∧ x ≠ a) l.
Proof.
  rewrite forallb_forall, Forall_forall. split; intros H x Hx.
  - apply elem_of_list_In in Hx. specialize (H x Hx). apply andb_true_iff in H as [H1 H2]. apply is_keyper_bool in H1. apply negb_true_iff, N.eqb_neq in H2. done.
  - apply elem_of_list_In in Hx. destruct (H x Hx) as [H1 H2]. apply andb_true_iff. split; [by apply is_keyper_bool|]. by apply negb_true_iff, N.eqb_neq.
Qed.
Lemma register_accusation_ok d a n l : dkg_eon d = n → a ∈ cf_keypers (dkg_config d) → a ∉ dkg_accusations d → Forall (λ x, x ∈ cf_keypers (dkg_config d) ∧ x ≠ a) l → register_accusation d a n l ≠ None.
Proof. intros <- Ha Hn Hl. unfold register_accusation. rewrite N.eqb_refl. apply is_keyper_bool in Ha. rewrite Ha. apply others_bool in Hl. rewrite Hl. cbn. by rewrite bool_decide_eq_false_2. Qed.
Lemma register_apology_ok d a n l : dkg_eon d = n → a ∈ cf_keypers (dkg_config d) → a ∉ dkg_apologies d → Forall (λ x, x ∈ cf_keypers (dkg_config d) ∧ x ≠ a) l → register_apology d a n l ≠ None.
Proof. intros <- Ha Hn Hl. unfold register_apology. rewrite N.eqb_refl. apply is_keyper_bool in Ha. rewrite Ha. apply others_bool in Hl. rewrite Hl. cbn. by rewrite bool_decide_eq_false_2. Qed.
Lemma register_poly_eval_ok d a n l : dkg_eon d = n → a ∈ cf_keypers (dkg_config d) → Forall (λ x, (x ∈ cf_keypers (dkg_config d) ∧ x ≠ a) ∧ (a, x) ∉ dkg_evals d) l → register_poly_eval d a n l ≠ None.
Proof.
  intros <- Ha Hl. unfold register_poly_eval. rewrite N.eqb_refl. apply is_keyper_bool in Ha. rewrite Ha. cbn [negb].
  assert (forallb (λ r, is_keyper (dkg_config d) r && negb (N.eqb r a) && negb (bool_decide ((a, r) ∈ dkg_evals d))) l = true) as ->; [|done].
  apply forallb_forall. intros x Hx%elem_of_list_In. rewrite Forall_forall in Hl. destruct (Hl x Hx) as [[H1 H2] H3]. apply is_keyper_bool in H1. rewrite H1.
  apply N.eqb_neq in H2. rewrite H2. by rewrite bool_decide_eq_false_2.
Qed.

Lemma config_of_dkg O cid g tr s n c : app_log O cid g tr s → config_of g (events_of tr) n c → ∃ d, dkg_map s !! n = Some d ∧ cf_keypers (dkg_config d) = cf_keypers c.
Proof.
  intros HL (evs1 & b & evs2 & E & Hr). destruct (al_eons _ _ _ _ _ HL _ _ _ _ E) as (d & c' & Hd & Hr' & Hsc). exists d. split; [done|].
  rewrite (responsible_unique _ _ _ _ Hr Hr'). by destruct Hsc as (_ & ? & _).
Qed.
Lemma dkg_config_of O cid g tr s n d : history O tr s → (N.of_nat (length (eons_of tr)) < 2 ^ 64)%N → app_log O cid g tr s → dkg_map s !! n = Some d →
  ∃ c, config_of g (events_of tr) n c ∧ cf_keypers (dkg_config d) = cf_keypers c.
Proof.
  intros Hh Hlt HL Hd. destruct (history_eons_ok _ _ _ Hh Hlt) as (_ & _ & He). assert (n ∈ eons_of tr) as Hin by (apply He; by eexists).
  unfold eons_of in Hin. apply elem_of_list_omap in Hin as (e & Hin & Ee). destruct e; try discriminate Ee. injection Ee as ->. apply elem_of_list_split in Hin as (evs1 & evs2 & E).
  destruct (al_eons _ _ _ _ _ HL _ _ _ _ E) as (d' & c' & Hd' & Hr' & Hsc). rewrite Hd in Hd'. injection Hd' as <-. exists c'. split; [by eexists _, _, _|]. by destruct Hsc as (_ & ? & _).
Qed.

(** The app accepts a message of the key generation if and only if it is for this chain with a nonce its sender has not used before, the eon has been
    announced, the sender is a keyper of the eon's config, and the message is in order. *)
Theorem C70_accepts_iff O cid g tr s tx ord s' r a m n : history O tr s → launched cid g tr → (N.of_nat (length (eons_of tr)) < 2 ^ 64)%N →
  step O s (CDeliverTx tx ord) = Some (s', r) → decode_tx O tx = Some (a, m) → dkg_eon_of (msg_payload m) = Some n →
  rsp_code r = 0%N ↔ msg_chain_id m = cid ∧ ¬ used O cid tr a (msg_nonce m) ∧
    ∃ c, config_of g (events_of tr) n c ∧ a ∈ cf_keypers c ∧ in_order O tr c a (msg_payload m).
Proof.
  intros Hh Hl Hlt Hs D Hn. pose proof (app_log_history _ _ _ _ _ Hh Hl Hlt) as HL. pose proof (history_Inv _ _ _ Hh) as HI.
  destruct (eon_log O tr s Hh Hlt) as (L1 & L2 & L3 & L4).
  cbn [step] in Hs. unfold deliver_tx in Hs. rewrite D in Hs. rewrite (al_chain _ _ _ _ _ HL) in Hs.
  destruct (decide (msg_chain_id m = cid)) as [Ec|Ec].
  2:{ rewrite bool_decide_eq_false_2 in Hs by done. cbn in Hs. injection Hs as <- <-. split; [done|]. by intros [? _]. }
  rewrite bool_decide_eq_true_2 in Hs by done. cbn [negb] in Hs.
  destruct (decide ((a, msg_nonce m) ∈ nonces s)) as [En|En].
  { rewrite bool_decide_eq_true_2 in Hs by done. injection Hs as <- <-. split; [done|]. intros (_ & Hu & _). exfalso. apply Hu. by apply (al_nonces _ _ _ _ _ HL). }
  rewrite bool_decide_eq_false_2 in Hs by done. pose proof (λ H, En (proj2 (al_nonces _ _ _ _ _ HL a (msg_nonce m)) H)) as Hu.
  set (s1 := s <| nonces := nonces s ∪ {[(a, msg_nonce m)]} |>) in Hs. assert (Edm : dkg_map s1 = dkg_map s) by done. clearbody s1.
  assert (Hrest : rsp_code r = 0%N ↔ ∃ d, dkg_map s !! n = Some d ∧ a ∈ cf_keypers (dkg_config d) ∧ in_order O tr (dkg_config d) a (msg_payload m)).
  { assert (∀ d, dkg_map s !! n = Some d → dkg_eon d = n) as Heon by (intros d Hd; by destruct (inv_dkg _ HI _ _ Hd)).
    destruct (msg_payload m) as [| | | | |n0 rs es|n0 gs|n0 rs|n0 rs es| |] eqn:Epl; cbn [dkg_eon_of] in Hn; try discriminate Hn; injection Hn as ->; cbn [deliver_message] in Hs; injection Hs as Hs.
    - (* evaluations *) unfold handle_poly_eval in Hs. rewrite Edm in Hs. destruct (Nat.eqb_spec (length rs) (length es)) as [El|El]; cbn in Hs.
      2:{ injection Hs as <- <-. split; [done|]. intros (d & _ & _ & H & _). done. }
      destruct (parse_addresses rs) as [l|] eqn:Ep.
      2:{ injection Hs as <- <-. split; [done|]. intros (d & _ & _ & _ & (l & H1 & H2 & _) & _). assert (parse_addresses rs = Some l) by (by apply parse_addresses_Some). congruence. }
      destruct (dkg_map s !! n) as [d|] eqn:Ed. 2:{ injection Hs as <- <-. split; [done|]. by intros (d & ? & _). }
      apply parse_addresses_Some in Ep as [HF Hnd]. destruct (register_poly_eval d a n l) as [d'|] eqn:Er; injection Hs as <- <-.
      + split; [|done]. intros _. exists d. split; [done|]. apply register_poly_eval_spec in Er as (_ & Ha & Hall & _). split; [done|]. split; [done|]. split.
        * exists l. split; [done|]. split; [done|]. apply Forall_forall. intros x Hx. by destruct (Hall x Hx) as (? & ? & _).
        * intros b Hb Hin. destruct (L4 _ _ _ Hin) as (d2 & Hd2 & Hin2). rewrite Ed in Hd2. injection Hd2 as <-. apply elem_of_list_lookup in Hb as (i & Hb). destruct (Forall2_lookup_l _ _ _ _ _ HF Hb) as (x & Hx & _ & ->).
          apply elem_of_list_lookup_2 in Hx. by destruct (Hall _ Hx) as (_ & _ & ?).
      + split; [done|]. intros (d2 & [= <-] & Ha & _ & (l' & H1 & H2 & H3) & H4). exfalso.
        assert (l' = l) as ->. { assert (parse_addresses rs = Some l') as X1 by (by apply parse_addresses_Some). assert (parse_addresses rs = Some l) as X2 by (by apply parse_addresses_Some). congruence. }
        eapply register_poly_eval_ok; [by apply Heon|exact Ha| |exact Er]. rewrite Forall_forall in H3 |- *. intros x Hx. split; [by apply H3|]. intros Hin.
        apply elem_of_list_lookup in Hx as (i & Hx). destruct (Forall2_lookup_r _ _ _ _ _ HF Hx) as (b & Hb & _ & ->). apply (H4 b); [by eapply elem_of_list_lookup_2|]. by eapply (al_eval _ _ _ _ _ HL).
    - (* commitment *) unfold handle_poly_commitment in Hs. rewrite Edm in Hs. destruct (mapM (g2_unmarshal O) gs) as [gs'|] eqn:Eg.
      2:{ injection Hs as <- <-. split; [done|]. intros (d & _ & _ & H & _). exfalso. apply mapM_None in Eg. apply Exists_exists in Eg as (x & Hx & E). rewrite Forall_forall in H. by apply (H x). }
      assert (Hgs : Forall (λ b, g2_unmarshal O b ≠ None) gs). { apply mapM_Some in Eg. clear -Eg. induction Eg as [|x y l k Hxy _ IH]; constructor; [by rewrite Hxy|done]. }
      destruct (dkg_map s !! n) as [d|] eqn:Ed. 2:{ injection Hs as <- <-. split; [done|]. by intros (d & ? & _). }
      destruct (register_commitment d a n) as [d'|] eqn:Er; injection Hs as <- <-.
      + split; [|done]. intros _. exists d. split; [done|]. apply register_commitment_spec in Er as (_ & Ha & Hna & _). split; [done|]. split; [done|].
        intros Hin. destruct (L1 _ _ Hin) as (d2 & Hd2 & Hin2). rewrite Ed in Hd2. by injection Hd2 as <-.
      + split; [done|]. intros (d2 & [= <-] & Ha & _ & H4). exfalso. eapply register_commitment_ok; [by apply Heon|exact Ha| |exact Er]. intros Hin. apply H4. by eapply (al_commit _ _ _ _ _ HL).
    - (* accusation *) unfold handle_accusation in Hs. rewrite Edm in Hs. destruct (parse_addresses rs) as [l|] eqn:Ep.
      2:{ injection Hs as <- <-. split; [done|]. intros (d & _ & _ & (l & H1 & H2 & _) & _). assert (parse_addresses rs = Some l) by (by apply parse_addresses_Some). congruence. }
      destruct (dkg_map s !! n) as [d|] eqn:Ed. 2:{ injection Hs as <- <-. split; [done|]. by intros (d & ? & _). }
      pose proof Ep as Ep'. apply parse_addresses_Some in Ep as [HF Hnd]. destruct (register_accusation d a n l) as [d'|] eqn:Er; injection Hs as <- <-.
      + split; [|done]. intros _. exists d. split; [done|]. apply register_accusation_spec in Er as (_ & Ha & Hna & Hall & _). split; [done|]. split.
        * exists l. split; [done|]. split; [done|]. by apply Forall_forall.
        * intros Hin. destruct (L2 _ _ Hin) as (d2 & Hd2 & Hin2). rewrite Ed in Hd2. by injection Hd2 as <-.
      + split; [done|]. intros (d2 & [= <-] & Ha & (l' & H1 & H2 & H3) & H4). exfalso. assert (parse_addresses rs = Some l') as X1 by (by apply parse_addresses_Some). rewrite Ep' in X1. injection X1 as <-.
        eapply register_accusation_ok; [by apply Heon|exact Ha| |exact H3|exact Er]. intros Hin. apply H4. by eapply (al_accuse _ _ _ _ _ HL).
    - (* apology *) unfold handle_apology in Hs. rewrite Edm in Hs. destruct (Nat.eqb_spec (length rs) (length es)) as [El|El]; cbn in Hs.
      2:{ injection Hs as <- <-. split; [done|]. intros (d & _ & _ & H & _). done. }
      destruct (parse_addresses rs) as [l|] eqn:Ep.
      2:{ injection Hs as <- <-. split; [done|]. intros (d & _ & _ & _ & (l & H1 & H2 & _) & _). assert (parse_addresses rs = Some l) by (by apply parse_addresses_Some). congruence. }
      destruct (dkg_map s !! n) as [d|] eqn:Ed. 2:{ injection Hs as <- <-. split; [done|]. by intros (d & ? & _). }
      pose proof Ep as Ep'. apply parse_addresses_Some in Ep as [HF Hnd]. destruct (register_apology d a n l) as [d'|] eqn:Er; injection Hs as <- <-.
      + split; [|done]. intros _. exists d. split; [done|]. apply register_apology_spec in Er as (_ & Ha & Hna & Hall & _). split; [done|]. split; [done|]. split.
        * exists l. split; [done|]. split; [done|]. by apply Forall_forall.
        * intros Hin. destruct (L3 _ _ Hin) as (d2 & Hd2 & Hin2). rewrite Ed in Hd2. by injection Hd2 as <-.
      + split; [done|]. intros (d2 & [= <-] & Ha & _ & (l' & H1 & H2 & H3) & H4). exfalso. assert (parse_addresses rs = Some l') as X1 by (by apply parse_addresses_Some). rewrite Ep' in X1. injection X1 as <-.
        eapply register_apology_ok; [by apply Heon|exact Ha| |exact H3|exact Er]. intros Hin. apply H4. by eapply (al_apology _ _ _ _ _ HL). }
  assert (Hext : ∀ c c', cf_keypers c = cf_keypers c' → in_order O tr c a (msg_payload m) → in_order O tr c' a (msg_payload m)).
  { intros c c' E. unfold in_order. by rewrite E. }
  rewrite Hrest. split.
  - intros (d & Hd & Ha & Ho). split; [done|]. split; [done|]. destruct (dkg_config_of _ _ _ _ _ _ _ Hh Hlt HL Hd) as (c & Hc & E). exists c. split; [done|]. rewrite <-E. split; [done|]. by eapply Hext.
  - intros (_ & _ & c & Hc & Ha & Ho). destruct (config_of_dkg _ _ _ _ _ _ _ HL Hc) as (d & Hd & E). exists d. split; [done|]. rewrite E. split; [done|]. by eapply Hext.
Qed.

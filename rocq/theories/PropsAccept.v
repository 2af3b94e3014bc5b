(** C70: the app accepts what honest keypers send.  See AcceptApp.v for C70_accepts_iff: what the app accepts, in terms of what it has published. *)
From stdpp Require Import gmap list strings sorting.
From Coq Require Import ZArith NArith Lia.
From RecordUpdate Require Import RecordUpdate.
From Verif Require Import Fq CryptoModel CryptoSpec CryptoProofs PropsCrypto DkgModel DkgSpec EncModel EncodingModel PropsEncoding AppModel AppSpec AppSteps VotingProofs AppInv AppProofs1 AppProofs2 AppProofs3 AppProofs5 PropsApp
  EpochModel PropsEpoch ObserveModel SyncModel SyncProofs ArithModel MainModel MainProofs DecideModel KeyperModel KeyperSpec KeyperHistProofs KeyperActionProofs KeyperSystem PropsKeyper PropsKeyperDkg PropsKeyperLive
  EventsModel EventsSpec EventsProofs PropsEvents PropsChain PropsFull AcceptApp AcceptKeyper AcceptChain.

(** ** Specification *)
(** a sender's messages of the key generation of which the app takes only the first: commitments, accusations, apologies for the same eon, evaluations for
    the same eon and receiver *)
Definition conflicts (p q : payload) : Prop :=
  match p, q with
  | MPolyCommitment n _, MPolyCommitment n' _ | MAccusation n _, MAccusation n' _ | MApology n _ _, MApology n' _ _ => n = n'
  | MPolyEval n rs _, MPolyEval n' rs' _ => n = n' ∧ ∃ b b', b ∈ rs ∧ b' ∈ rs' ∧ bytes_to_address b = bytes_to_address b'
  | _, _ => False
  end.

Section Accept.
Context (keccak : bytes → bytes) {P : pairing} {PK : Type}
  (pk_bytes : PK → bytes) (pk_parse decompress : bytes → option PK) (compress : PK → bytes)
  (g2_bytes : G2 P → bytes) (g2_parse : bytes → option (G2 P)) (g1_bytes : G1 P → bytes) (g1_parse : bytes → option (G1 P))
  (pb_bytes : message → bytes) (pb_parse : bytes → option message) (sha3 : bytes → bytes) (sig_signer : bytes → bytes → option N).
Notation O := (chain_oracles P PK pk_bytes g2_bytes g1_bytes pk_parse decompress g2_parse g1_parse pb_parse sha3 sig_signer).
Notation publish := (make_abci keccak).
Notation read := (make_event keccak P PK pk_parse g2_parse g1_parse).
Notation says := (says P PK pk_bytes g2_bytes g1_bytes).
Notation produced := (produced keccak pk_bytes pk_parse decompress g2_bytes g2_parse g1_bytes g1_parse pb_parse sha3 sig_signer).
Notation produced_by := (produced_by keccak pk_bytes pk_parse decompress g2_bytes g2_parse g1_bytes g1_parse pb_parse sha3 sig_signer).
Notation parse := (parse_tx pb_parse sha3 sig_signer).
Notation sent := (sent g2_bytes).

(** the [j]-th transaction of block [h] is [tx], which carries [msg] signed by [a] for the chain [cid], with a nonce not used before *)
Definition transaction (tr : trace) (cid : AppModel.bytes) (h j : nat) (a : N) (msg : message) (r : response) : Prop :=
  ∃ tx, txs_at tr h !! j = Some (tx, r) ∧ parse tx = Some (a, msg) ∧ msg_chain_id msg = cid ∧
    ∀ tx' r' msg', (tx', r') ∈ txs_before tr h j → parse tx' = Some (a, msg') → msg_nonce msg' ≠ msg_nonce msg.

Section Keypers.
Context (plen : phase_length).
(** Keyper [a] has submitted [A].  The first transaction with its commitment, its accusation and its apology for eon [n], which started in block [st], is
    in a block of their phase, and correctly made; and [a]'s key signs no other messages of these kinds for eon [n]. *)
Record included (tr : trace) (cid : AppModel.bytes) (m : nat) (n : N) (st : Z) (a : N) (A : list (kaction P)) : Prop := {
  in_phases : ∀ x ph p, x ∈ A → phase_of x = Some (n, ph) → (∀ rs es, x ≠ KPolyEval n rs es) → sent x = Some p →
    ∃ (h j : nat) msg r, (h < m)%nat ∧ (st < Z.of_nat h)%Z ∧ phase_at plen (Z.of_nat h) st = ph ∧ transaction tr cid h j a msg r ∧ msg_payload msg = p ∧
      ∀ tx' r' msg', (tx', r') ∈ txs_before tr h j → parse tx' = Some (a, msg') → msg_payload msg' ≠ p;
  in_only : ∀ (h : nat) tx msg r, (tx, r) ∈ txs_at tr h → parse tx = Some (a, msg) →
    match msg_payload msg with
    | MPolyCommitment n' _ | MAccusation n' _ | MApology n' _ _ => n' = n → ∃ x, x ∈ A ∧ sent x = Some (msg_payload msg)
    | _ => True
    end
}.
End Keypers.

(** ** Proofs *)
Context (Hok : codecs P PK pk_bytes g2_bytes g1_bytes pk_parse decompress compress g2_parse g1_parse pb_bytes pb_parse sig_signer).
Notation typed := (typed_event pk_bytes g2_bytes g1_bytes).

Lemma launched_before cid g tr1 tx ord r tr2 : launched cid g (tr1 ++ (CDeliverTx tx ord, r) :: tr2) → launched cid g tr1.
Proof using.
  intros (ks & t & vs & r0 & tr' & E & Hni & Eg). destruct tr1 as [|y tr1]; [discriminate E|]. cbn in E. injection E as -> <-.
  rewrite fmap_app, Forall_app in Hni. destruct Hni as [Hni _]. by exists ks, t, vs, r0, tr1.
Qed.
(** where an event comes from *)
Lemma event_tx tr s e : AppSpec.history O tr s → e ∈ AppSpec.events_of tr →
  ∃ tx r a msg ord s1 s2, (tx, r) ∈ deliveries tr ∧ e ∈ rsp_events r ∧ parse tx = Some (a, msg) ∧ mstep O ord (with_nonce s1 a msg) a (msg_payload msg) s2 r.
Proof using.
  intros [dev Hex]. revert s Hex. induction tr as [|[c r] tr IH] using rev_ind; intros s Hex Hin; [by apply elem_of_nil in Hin|].
  apply exec_snoc_inv in Hex as (s1 & H1 & Hv & Hs). rewrite events_of_app, events_of_one in Hin. unfold deliveries. rewrite omap_app. apply elem_of_app in Hin as [Hin|Hin].
  - destruct (IH _ H1 Hin) as (tx & r' & a & msg & ord & s2 & s3 & Hd & HH). exists tx, r', a, msg, ord, s2, s3. split; [apply elem_of_app; by left|done].
  - apply step_deliver_cases in Hs as [(Hev & _)|(tx & ord & a & m & -> & D & Hm)]; [rewrite Hev in Hin; by apply elem_of_nil in Hin|].
    exists tx, r, a, m, ord, s1, s. split; [apply elem_of_app; right; cbn; by left|]. split; [done|]. split; [exact D|done].
Qed.
Lemma commitments_txs tr s n a : AppSpec.history O tr s → (n, a) ∈ commitments_of tr →
  ∃ tx r msg gs, (tx, r) ∈ deliveries tr ∧ parse tx = Some (a, msg) ∧ rsp_code r = 0%N ∧ msg_payload msg = MPolyCommitment n gs.
Proof using.
  intros Hh (e & Hin & Ee)%elem_of_list_omap. destruct e; try discriminate Ee. injection Ee as -> ->. destruct (event_tx _ _ _ Hh Hin) as (tx & r & a' & msg & ord & s1 & s2 & Hd & He & Hp & Hm).
  remember (msg_payload msg) as pl eqn:Epl. inversion Hm; subst; cbn in He; repeat (apply elem_of_cons in He as [He|He]); try discriminate He; try (by apply elem_of_nil in He).
  injection He as -> -> ->. eexists _, _, _, _. split_and!; [exact Hd|exact Hp|done|done].
Qed.
Lemma accusations_txs tr s n a : AppSpec.history O tr s → (n, a) ∈ accusations_of tr →
  ∃ tx r msg gs, (tx, r) ∈ deliveries tr ∧ parse tx = Some (a, msg) ∧ rsp_code r = 0%N ∧ msg_payload msg = MAccusation n gs.
Proof using.
  intros Hh (e & Hin & Ee)%elem_of_list_omap. destruct e; try discriminate Ee. injection Ee as -> ->. destruct (event_tx _ _ _ Hh Hin) as (tx & r & a' & msg & ord & s1 & s2 & Hd & He & Hp & Hm).
  remember (msg_payload msg) as pl eqn:Epl. inversion Hm; subst; cbn in He; repeat (apply elem_of_cons in He as [He|He]); try discriminate He; try (by apply elem_of_nil in He).
  injection He as -> -> ->. eexists _, _, _, _. split_and!; [exact Hd|exact Hp|done|done].
Qed.
Lemma apologies_txs tr s n a : AppSpec.history O tr s → (n, a) ∈ apologies_of tr →
  ∃ tx r msg gs es, (tx, r) ∈ deliveries tr ∧ parse tx = Some (a, msg) ∧ rsp_code r = 0%N ∧ msg_payload msg = MApology n gs es.
Proof using.
  intros Hh (e & Hin & Ee)%elem_of_list_omap. destruct e; try discriminate Ee. injection Ee as -> ->. destruct (event_tx _ _ _ Hh Hin) as (tx & r & a' & msg & ord & s1 & s2 & Hd & He & Hp & Hm).
  remember (msg_payload msg) as pl eqn:Epl. inversion Hm; subst; cbn in He; repeat (apply elem_of_cons in He as [He|He]); try discriminate He; try (by apply elem_of_nil in He).
  injection He as -> -> -> ->. eexists _, _, _, _, _. split_and!; [exact Hd|exact Hp|done|done].
Qed.
Lemma evals_txs tr s n a x : AppSpec.history O tr s → (n, a, x) ∈ evals_of tr →
  ∃ tx r msg rs es b, (tx, r) ∈ deliveries tr ∧ parse tx = Some (a, msg) ∧ rsp_code r = 0%N ∧ msg_payload msg = MPolyEval n rs es ∧ b ∈ rs ∧ bytes_to_address b = x.
Proof using.
  intros Hh Hin. apply elem_of_list_In, in_concat in Hin as (l & Hl%elem_of_list_In & Hx%elem_of_list_In). apply elem_of_list_fmap in Hl as (e & -> & Hin).
  destruct e; try (by apply elem_of_nil in Hx). apply elem_of_list_fmap in Hx as (y & [= -> -> ->] & Hy). destruct (event_tx _ _ _ Hh Hin) as (tx & r & a' & msg & ord & s1 & s2 & Hd & He & Hp & Hm).
  remember (msg_payload msg) as pl eqn:Epl. inversion Hm; subst; cbn in He; repeat (apply elem_of_cons in He as [He|He]); try discriminate He; try (by apply elem_of_nil in He).
  injection He as -> -> -> ->. match goal with H : parse_addresses _ = Some _ |- _ => apply parse_addresses_Some in H as [HF _] end.
  apply elem_of_list_lookup in Hy as (i & Hy). destruct (Forall2_lookup_r _ _ _ _ _ HF Hy) as (b & Hb & _ & Eb). apply elem_of_list_lookup_2 in Hb.
  eexists _, _, _, _, _, b. split_and!; [exact Hd|exact Hp|done|done|done|done].
Qed.

Section Generation.
Context (plen : phase_length) (epoch_point : N → G1 P) (chain : nat → list (list abci)).
Notation Pub := (published read chain).
Notation keyper_run := (keyper_run read chain plen epoch_point).
Notation started := (KeyperSystem.started read chain).
Notation config_at := (KeyperSystem.config_at read chain).
Notation settled := (KeyperSystem.settled read chain).
Notation decided_in := (KeyperSystem.decided_in read chain plen).
Notation sized := (KeyperSystem.sized read chain).
Implicit Types (p : keyper_params P).

(** the keyper makes a decision in each phase of eon [n], and what it submits is included in time; [m] is the number of blocks when it has finished, [tr] how
    they came about *)
Record takes_part (n : N) (st : Z) (b : N) p (m : nat) (l : list (kinput P PK)) (s : kstate P) (acts : list (list (kaction P))) (tr : trace) : Prop := {
  tp_run : keyper_run p m l s acts;
  tp_started : started m n st b;
  tp_dealing : decided_in l n dealing; tp_accusing : decided_in l n accusing; tp_apologizing : decided_in l n apologizing;
  tp_over : phase_at plen (Z.of_nat m) st = finalized;
  tp_chain : produced_by chain m tr;
  tp_included : ∃ cid g, launched cid g tr ∧ included plen tr cid m n st (kp_me p) (mjoin acts)
}.

(** nobody accuses itself on the chain *)
Lemma no_self_accusation m e a rs : produced chain → EonEvent Accusation e ∈ Pub m → ev_body e = BAccusation a rs → a ∉ rs.
Proof using Hok.
  intros Hp Hin Eb. destruct (Hp m) as (tr & s & Hh & He & Hc). assert (produced_by chain m tr) as Hpb by (by exists s).
  assert (Hin2 : ∃ h j tx r e0, (h < m)%nat ∧ txs_at tr h !! j = Some (tx, r) ∧ e0 ∈ rsp_events r ∧ read (publish e0) (Z.of_nat h) = Some (EonEvent Accusation e)) by (eapply published_from; [exact Hpb|done]).
  destruct Hin2 as (h & j & tx & r & ev & Hlt & Hj & Hev & Hr).
  destruct (tx_step keccak pk_bytes pk_parse decompress g2_bytes g2_parse g1_bytes g1_parse pb_parse sha3 sig_signer chain m tr h j tx r Hpb Hj) as (tr1 & ord & tr2 & s1 & s2 & rest & E & Hd & H1 & Hv & Hs & Hsz & _).
  assert (typed ev) as Ht.
  { destruct H1 as [dev H1]. destruct (exec_typed pk_bytes pk_parse decompress compress g2_bytes g2_parse g1_bytes g1_parse pb_bytes pb_parse sha3 sig_signer Hok _ _ _ (new_votes_typed dev) H1) as [Hvt _].
    destruct (step_typed pk_bytes pk_parse decompress compress g2_bytes g2_parse g1_bytes g1_parse pb_bytes pb_parse sha3 sig_signer Hok _ _ _ _ Hvt Hs) as [_ HF]. rewrite Forall_forall in HF. by apply HF. }
  apply (C25_exact keccak pk_bytes pk_parse decompress compress g2_bytes g2_parse g1_bytes g1_parse pb_bytes pb_parse sig_signer Hok) in Hr as [Hsay Hne]; [|done].
  inversion Hsay; subst. cbn in Eb. injection Eb as -> ->.
  apply step_deliver_cases in Hs as [(Hno & _)|(tx' & ord' & a' & msg & Heq & D & Hm)]; [rewrite Hno in Hev; by apply elem_of_nil in Hev|].
  remember (msg_payload msg) as pl eqn:Epl. inversion Hm; subst; cbn in Hev; repeat (apply elem_of_cons in Hev as [Hev|Hev]); try discriminate Hev; try (by apply elem_of_nil in Hev).
  injection Hev as -> -> ->. match goal with H : register_accusation _ _ _ _ = Some _ |- _ => apply register_accusation_spec in H as (_ & _ & _ & Hall & _) end.
  intros Hin'. by destruct (Hall _ Hin').
Qed.
Lemma positive_eon m n st b : produced chain → started m n st b → (0 < n)%N.
Proof using Hok.
  intros Hp Hst. destruct (Hp m) as (tr & s & Hh & He & Hc). assert (n ∈ eons_of tr) as Hin.
  { destruct (first_events_prefix pk_bytes pk_parse decompress g2_bytes g2_parse g1_bytes g1_parse pb_parse sha3 sig_signer tr s m Hh) as [rest E]. change (eons_of tr) with (eons_in (AppSpec.events_of tr)). rewrite E, eons_in_app. apply elem_of_app. left.
    erewrite <-readings_eons; [|exact Hok|exact Hh]. rewrite <-published_readings, <-(published_ext keccak pk_parse g2_parse g1_parse _ _ _ Hc).
    apply elem_of_list_omap. by exists (EonStarted st n b). }
  rewrite (C07_eons_consecutive O tr s Hh He) in Hin. apply elem_of_list_fmap in Hin as (k & -> & Hk%elem_of_seq). lia.
Qed.
(** addresses sent and parsed *)
Lemma addresses_sent l : Forall is_address l → Forall2 (λ b x, length b = 20 ∧ x = bytes_to_address b) (address_bytes <$> l) l.
Proof using.
  induction 1 as [|x l Hx _ IH]; [constructor|]. cbn. constructor; [|exact IH]. pose proof (validate_sent x Hx) as Hv. unfold validate_address in Hv.
  destruct (Nat.eqb_spec (length (address_bytes x)) 20); [|done]. by injection Hv.
Qed.
Lemma lookups_others (ks : list N) (me : N) (idx : N) js l : NoDup ks → NoDup js → ks !! N.to_nat idx = Some me → (∀ j : nat, j ∈ js → N.of_nat j ≠ idx) → Forall2 (λ (j : nat) a, ks !! j = Some a) js l →
  NoDup l ∧ Forall (λ x, x ∈ ks ∧ x ≠ me) l.
Proof using.
  intros Hks Hjs Hme Hne HF. induction HF as [|j a js l Hj HF IH]; [split; constructor|]. apply NoDup_cons in Hjs as [Hn Hjs]. destruct IH as [I1 I2]; [done|intros; apply Hne; by right|]. split.
  - constructor; [|done]. intros Hin. apply elem_of_list_lookup in Hin as (i & Hi). destruct (Forall2_lookup_r _ _ _ _ _ HF Hi) as (j' & Hj' & Hk). assert (j = j') as -> by (eapply NoDup_lookup; [exact Hks|exact Hj|exact Hk]). apply Hn. by eapply elem_of_list_lookup_2.
  - constructor; [|done]. split; [by eapply elem_of_list_lookup_2|]. intros ->. apply (Hne j); [by left|]. assert (j = N.to_nat idx) as -> by (eapply NoDup_lookup; [exact Hks|exact Hj|exact Hme]). by rewrite N2Nat.id.
Qed.

(** ** C70 *)
(** A correctly made transaction with a message of the key generation that a keyper has submitted is accepted by the app, if its block is after the one
    that started the eon and the app has not accepted a conflicting message of this keyper before. *)
Theorem C70_accepted cid g m tr p mk l s acts n st b x ph pl (h j : nat) msg r :
  produced chain → produced_by chain m tr → launched cid g tr → settled n → sized → (∀ m c, BatchConfig c ∈ Pub m → (Z.of_nat (length (sc_keypers c)) < 2 ^ 63)%Z) →
  keyper_run p mk l s acts → started mk n st b → (mk ≤ m)%nat → x ∈ mjoin acts → phase_of x = Some (n, ph) → sent x = Some pl →
  transaction tr cid h j (kp_me p) msg r → (h < m)%nat → (st < Z.of_nat h)%Z → msg_payload msg = pl →
  (∀ tx' r' msg', (tx', r') ∈ txs_before tr h j → parse tx' = Some (kp_me p, msg') → rsp_code r' = 0%N → ¬ conflicts pl (msg_payload msg')) →
  rsp_code r = 0%N.
Proof using Hok.
  intros Hp Hpb Hla Hset Hsz Hlen Hrun Hst Hmk Hx Hph Hsent (tx & Htx & Hparse & Hcid & Hnonce) Hhm Hsth Hpl Hconf.
  destruct (C65_well_formed keccak pk_bytes pk_parse decompress compress g2_bytes g2_parse g1_bytes g1_parse pb_bytes pb_parse sha3 sig_signer Hok chain Hp) as [Hho Hwf].
  assert (Hsc : sized_configs read chain).
  { intros m' c' Hin. split; [|by apply (Hlen m')]. by destruct (C65_config keccak pk_bytes pk_parse decompress compress g2_bytes g2_parse g1_bytes g1_parse pb_bytes pb_parse sha3 sig_signer Hok _ _ _ Hp Hin) as (_ & _ & _ & [_ ?] & _). }
  pose proof (positive_eon _ _ _ _ Hp Hst) as Hpos.
  destruct (tx_step keccak pk_bytes pk_parse decompress g2_bytes g2_parse g1_bytes g1_parse pb_parse sha3 sig_signer chain m tr h j tx r Hpb Htx) as (tr1 & ord & tr2 & s1 & s2 & rest & E & Hd & H1 & Hv & Hs & Hlt & Hev).
  assert (Hla1 : launched cid g tr1) by (rewrite E in Hla; by eapply launched_before).
  assert (Heon : dkg_eon_of (msg_payload msg) = Some n).
  { rewrite Hpl. clear -Hsent Hph. destruct x; try discriminate Hsent; cbn in Hsent, Hph; injection Hsent as <-; injection Hph as -> _; reflexivity. }
  apply (C70_accepts_iff O cid g tr1 s1 tx ord s2 r (kp_me p) msg n H1 Hla1 Hlt Hs Hparse Heon). split; [done|]. split.
  { intros (tx' & ord' & r' & msg' & Hin & D & _ & Hk). apply deliveries_elem_2 in Hin. rewrite Hd in Hin. by apply (Hnonce tx' r' msg' Hin D). }
  assert (Hno : ∀ q, conflicts pl q → ∀ tx' r' msg', (tx', r') ∈ deliveries tr1 → parse tx' = Some (kp_me p, msg') → rsp_code r' = 0%N → msg_payload msg' ≠ q).
  { intros q Hq tx' r' msg' Hin Hp' Hc <-. rewrite Hd in Hin. by apply (Hconf tx' r' msg' Hin Hp' Hc). }
  destruct (C59_participation read chain plen epoch_point Hwf Hho p mk l s acts n st b Hrun Hpos Hst Hsz Hsc) as (a & Ha & Hsa & [[_ Hnone]|(c & idx & poly & Hca & Hidx & [Q1 Q2 Q2' Q5 _ Q6 Q3 Q4])]).
  { exfalso. apply (Hnone x Hx). destruct x; try discriminate Hph; injection Hph as -> _; done. }
  assert (Htyp : Forall typed (AppSpec.events_of tr1)) by (by eapply history_typed; [exact Hok|exact H1]).
  assert (Hst' : started m n st b).
  { change (EonStarted st n b ∈ Pub mk) in Hst. change (EonStarted st n b ∈ Pub m). rewrite (published_hevs keccak pk_bytes pk_parse decompress g2_bytes g2_parse g1_bytes g1_parse pb_parse sha3 sig_signer chain m tr mk Hpb Hmk) in Hst.
    rewrite (published_hevs keccak pk_bytes pk_parse decompress g2_bytes g2_parse g1_bytes g1_parse pb_parse sha3 sig_signer chain m tr m Hpb ltac:(done)). destruct (hevs_le tr mk m Hmk) as (more & Em & _). rewrite Em, omap_app. apply elem_of_app. by left. }
  destruct (config_link keccak pk_bytes pk_parse decompress compress g2_bytes g2_parse g1_bytes g1_parse pb_bytes pb_parse sha3 sig_signer Hok chain m tr g n st b a c h rest tr1 Hpb Hwf Hset Hst' ltac:(lia) Hsa Hca Hsth ltac:(lia) Hev Htyp) as (ac & Hcf & Eks).
  pose proof (find_address_lookup _ _ _ Hidx) as Hme.
  exists ac. split; [done|]. rewrite Eks. split; [by eapply elem_of_list_lookup_2|].
  assert (BatchConfig c ∈ Pub a) as Hca' by (by eapply (config_published read chain)).
  destruct (C65_config keccak pk_bytes pk_parse decompress compress g2_bytes g2_parse g1_bytes g1_parse pb_bytes pb_parse sha3 sig_signer Hok _ _ _ Hp Hca') as (Hnd & _ & Had & _ & _).
  assert (Hdec : decided_in l n ph).
  { apply elem_of_list_join in Hx as (al & Hx & Hal). apply elem_of_list_lookup in Hal as (i & Hal).
    destruct (run_facts read chain plen epoch_point Hwf Hho _ _ _ _ _ Hrun) as (_ & _ & HF). destruct (Forall2_lookup_r _ _ _ _ _ HF Hal) as (inp & Hinp & _).
    destruct (C59_timely read chain plen epoch_point Hwf Hho p mk l s acts i inp al x Hrun Hinp Hal Hx) as [Ht _]. destruct (Ht n ph Hph) as (st' & b' & T1 & T2). exists inp, st', b'. split; [by eapply elem_of_list_lookup_2|done]. }
  assert (Hkey : ∀ l', Forall (λ x, x ∈ sc_keypers c ∧ x ≠ kp_me p) l' → Forall is_address l').
  { intros l' HF. rewrite Forall_forall in HF, Had |- *. intros y Hy. apply Had. by destruct (HF y Hy). }
  rewrite Hpl. destruct x as [| |n' gs|n' rs es|n' as_|n' as_ vs| | | |]; try discriminate Hsent; cbn in Hsent; injection Hsent as <-; cbn in Hph; injection Hph as -> <-; cbn [in_order m_commitment m_poly_eval m_accusation m_apology].
  - (* commitment *) split.
    + apply Forall_fmap, Forall_forall. intros g2 _. cbn. by rewrite (proj2 (cd_g2 _ _ _ _ _ _ _ _ _ _ _ _ _ Hok g2)).
    + intros Hin. destruct (commitments_txs _ _ _ _ H1 Hin) as (tx' & r' & msg' & gs' & D1 & D2 & D3 & D4). by apply (Hno (MPolyCommitment n gs') eq_refl tx' r' msg' D1 D2 D3).
  - (* evaluations *)
    pose proof (run_paired read chain plen epoch_point p mk l s acts Hrun _ Hx) as Hlen'. cbn in Hlen'.
    assert (Hpart : ∀ y, y ∈ rs → ∃ e, (y, e) ∈ evals_sent n (mjoin acts)).
    { intros y Hy. apply elem_of_list_lookup in Hy as (i & Hy). destruct (lookup_lt_is_Some_2 es i) as [e He]; [rewrite <-Hlen'; by eapply lookup_lt_Some|]. exists e.
      unfold evals_sent. apply elem_of_list_bind. exists (KPolyEval n rs es). split; [|done]. rewrite N.eqb_refl. apply elem_of_list_lookup. exists i. rewrite lookup_zip_with, Hy. cbn. by rewrite He. }
    assert (Hoth : Forall (λ x, x ∈ sc_keypers c ∧ x ≠ kp_me p) rs).
    { apply Forall_forall. intros y Hy. destruct (Hpart y Hy) as (e & He). destruct (Q5 _ _ He) as (i & key & j' & _ & _ & Hj & Hne & _). split; [by eapply elem_of_list_lookup_2|]. intros ->. apply Hne. assert (j' = N.to_nat idx) as -> by (eapply NoDup_lookup; [exact Hnd|exact Hj|exact Hme]). by rewrite N2Nat.id. }
    assert (Hnd' : NoDup rs).
    { specialize (Q6 Hnd). apply elem_of_list_split in Hx as (A1 & A2 & EA). rewrite EA in Q6. unfold evals_sent in Q6. rewrite bind_app, bind_cons, N.eqb_refl, fmap_app, fmap_app in Q6. apply NoDup_app in Q6 as (_ & _ & Q6). apply NoDup_app in Q6 as (Q6 & _ & _). by rewrite fst_zip in Q6 by lia. }
    split; [by rewrite fmap_length|]. split.
    + exists rs. split; [apply addresses_sent; by apply Hkey|]. rewrite Eks. done.
    + intros b0 Hb0 Hin. destruct (evals_txs _ _ _ _ _ H1 Hin) as (tx' & r' & msg' & rs' & es' & b1 & D1 & D2 & D3 & D4 & D5 & D6).
      refine (Hno (MPolyEval n rs' es') _ tx' r' msg' D1 D2 D3 D4). split; [done|]. by exists b0, b1.
  - (* accusation *)
    destruct (Q3 Hdec) as (js & J1 & J2 & J3 & J4).
    assert (Hin : as_ ∈ accusations_sent n (mjoin acts)) by (unfold accusations_sent; apply elem_of_list_bind; exists (KAccusation n as_); split; [|done]; rewrite N.eqb_refl; by left).
    destruct (decide (js = [])) as [Ej|Ej]; [rewrite J3 in Hin by done; by apply elem_of_nil in Hin|]. destruct (J4 Ej) as (as' & E' & HF). rewrite E' in Hin. apply elem_of_list_singleton in Hin as ->.
    destruct (lookups_others _ _ _ _ _ Hnd J1 Hme ltac:(intros j' Hj'; by destruct (proj1 (J2 j') Hj') as (_ & ? & _)) HF) as [L1 L2]. split.
    + exists as'. split; [apply addresses_sent; by apply Hkey|]. rewrite Eks. done.
    + intros Hin. destruct (accusations_txs _ _ _ _ H1 Hin) as (tx' & r' & msg' & gs' & D1 & D2 & D3 & D4). by apply (Hno (MAccusation n gs') eq_refl tx' r' msg' D1 D2 D3).
  - (* apology *)
    destruct (Q4 Hdec) as (js & J1 & J2 & J3 & J4).
    assert (Hin : (as_, vs) ∈ apologies_sent n (mjoin acts)) by (unfold apologies_sent; apply elem_of_list_bind; exists (KApology n as_ vs); split; [|done]; rewrite N.eqb_refl; by left).
    destruct (decide (js = [])) as [Ej|Ej]; [rewrite J3 in Hin by done; by apply elem_of_nil in Hin|]. destruct (J4 Ej) as (as' & E' & HF). rewrite E' in Hin. apply elem_of_list_singleton in Hin. injection Hin as -> ->.
    assert (Hself : ∀ j' : nat, j' ∈ js → N.of_nat j' ≠ idx).
    { intros j' Hj' <-. apply J2 in Hj'. unfold KeyperSystem.accused_by in Hj'. apply elem_of_list_bind in Hj' as (e & He & Hin). unfold in_phase in Hin. apply elem_of_list_In, filter_In in Hin as [Hin _]. apply elem_of_list_In in Hin.
      apply of_kind_elem in Hin as [Hin _]. unfold accusation_public in He. destruct (ev_body e) as [| |sender accused| |] eqn:Eb; try (by apply elem_of_nil in He).
      apply elem_of_list_omap in He as (y & Hy & Ey). destruct (find_address (sc_keypers c) sender) as [i1|] eqn:F1; [|done]. cbn in Ey. destruct (find_address (sc_keypers c) y) as [i2|] eqn:F2; [|done]. cbn in Ey.
      injection Ey as _ -> ->. pose proof (find_address_inj _ _ _ _ F1 F2) as ->. by apply (no_self_accusation _ _ _ _ Hp Hin Eb). }
    destruct (lookups_others _ _ _ _ _ Hnd J1 Hme Hself HF) as [L1 L2]. split.
    { rewrite !fmap_length. symmetry. by eapply Forall2_length. }
    split.
    + exists as'. split; [apply addresses_sent; by apply Hkey|]. rewrite Eks. done.
    + intros Hin. destruct (apologies_txs _ _ _ _ H1 Hin) as (tx' & r' & msg' & gs' & es' & D1 & D2 & D3 & D4). by apply (Hno (MApology n gs' es') eq_refl tx' r' msg' D1 D2 D3).
Qed.

Lemma txs_before_elem tr h j x : x ∈ txs_before tr h j → ∃ h', x ∈ txs_at tr h'.
Proof using.
  unfold txs_before. intros [Hx|Hx]%elem_of_app.
  - apply elem_of_list_join in Hx as (l & Hx & Hl). apply elem_of_list_fmap in Hl as (h' & -> & _). by exists h'.
  - exists h. apply elem_of_list_lookup in Hx as (i & Hi). apply lookup_take_Some in Hi as [Hi _]. by eapply elem_of_list_lookup_2.
Qed.
(** what is included in time gets through *)
Lemma included_through n st b p m l s acts tr : produced chain → settled n → sized → (∀ m c, BatchConfig c ∈ Pub m → (Z.of_nat (length (sc_keypers c)) < 2 ^ 63)%Z) →
  takes_part n st b p m l s acts tr → does_its_part keccak pk_bytes pk_parse decompress g2_bytes g2_parse g1_bytes g1_parse pb_parse sha3 sig_signer plen epoch_point chain n st b p m l s acts tr.
Proof using Hok.
  intros Hp Hset Hsz Hlen [T1 T2 T3 T4 T5 T6 T7 (cid & g & Hla & [I1 I2])]. constructor; try done. constructor.
  2:{ intros h tx msg r Htx Hpa _. specialize (I2 h tx msg r Htx Hpa). by destruct (msg_payload msg). }
  intros x ph pl Hx Hph Hne Hse. destruct (I1 x ph pl Hx Hph Hne Hse) as (h & j & msg & r & Hh & Hsh & Hphase & Htr & Hpl & Hfirst).
  pose proof Htr as (tx & Htx & Hpa & _). exists h, tx, msg, r. split_and!; try done; [by eapply elem_of_list_lookup_2|].
  eapply (C70_accepted cid g m tr p m l s acts n st b x ph pl h j msg r); try done.
  intros tx' r' msg' Hin Hpa' _ Hco. apply (Hfirst tx' r' msg' Hin Hpa'). destruct (txs_before_elem _ _ _ _ Hin) as (h' & Hin').
  destruct (C65_well_formed keccak pk_bytes pk_parse decompress compress g2_bytes g2_parse g1_bytes g1_parse pb_bytes pb_parse sha3 sig_signer Hok chain Hp) as [Hho Hwf].
  assert (Hsc : sized_configs read chain).
  { intros m' c' Hi. split; [|by apply (Hlen m')]. by destruct (C65_config keccak pk_bytes pk_parse decompress compress g2_bytes g2_parse g1_bytes g1_parse pb_bytes pb_parse sha3 sig_signer Hok _ _ _ Hp Hi) as (_ & _ & _ & [_ ?] & _). }
  destruct (C59_participation read chain plen epoch_point Hwf Hho p m l s acts n st b T1 (positive_eon _ _ _ _ Hp T2) T2 Hsz Hsc) as (a & Ha & Hsa & [[_ Hnone]|(c & idx & poly & Hca & Hidx & [Q1 Q2 Q2' Q5 _ Q6 Q3 Q4])]).
  { exfalso. apply (Hnone x Hx). destruct x; try discriminate Hph; injection Hph as -> _; done. }
  specialize (I2 h' tx' msg' r' Hin' Hpa').
  destruct x as [| |n' gs|n' rs es|n' as_|n' as_ vs| | | |]; try discriminate Hse; cbn in Hse; injection Hse as <-; cbn in Hph; injection Hph as -> <-; try (by destruct (Hne rs es)).
  - (* commitment *) destruct (msg_payload msg') as [| | | | | |n2 gs2| | | |]; cbn in Hco; try done. destruct (I2 (eq_sym Hco)) as (x & Hx' & Hs'). destruct x; try discriminate Hs'. cbn in Hs'. rewrite <-Hco in Hs'. injection Hs' as -> E.
    assert (Hc1 : gs ∈ commitments_sent n (mjoin acts)) by (unfold commitments_sent; apply elem_of_list_bind; exists (KCommitment n gs); split; [|done]; rewrite N.eqb_refl; by left).
    assert (Hc2 : gammas ∈ commitments_sent n (mjoin acts)) by (unfold commitments_sent; apply elem_of_list_bind; exists (KCommitment n gammas); split; [|done]; rewrite N.eqb_refl; by left).
    destruct Q2 as [Q2|(gs' & Q2 & _)]; rewrite Q2 in Hc1, Hc2; [by apply elem_of_nil in Hc1|]. apply elem_of_list_singleton in Hc1 as ->, Hc2 as ->. unfold m_commitment. by rewrite <-Hco, <-E.
  - (* accusation *) destruct (msg_payload msg') as [| | | | | | |n2 rs2| | |]; cbn in Hco; try done. destruct (I2 (eq_sym Hco)) as (x & Hx' & Hs'). destruct x; try discriminate Hs'. cbn in Hs'. rewrite <-Hco in Hs'. injection Hs' as -> E.
    assert (Hc1 : as_ ∈ accusations_sent n (mjoin acts)) by (unfold accusations_sent; apply elem_of_list_bind; exists (KAccusation n as_); split; [|done]; rewrite N.eqb_refl; by left).
    assert (Hc2 : accused ∈ accusations_sent n (mjoin acts)) by (unfold accusations_sent; apply elem_of_list_bind; exists (KAccusation n accused); split; [|done]; rewrite N.eqb_refl; by left).
    destruct (Q3 T4) as (js & _ & _ & J3 & J4). destruct (decide (js = [])) as [Ej|Ej]; [rewrite J3 in Hc1 by done; by apply elem_of_nil in Hc1|]. destruct (J4 Ej) as (as' & E' & _).
    rewrite E' in Hc1, Hc2. apply elem_of_list_singleton in Hc1 as ->, Hc2 as ->. unfold m_accusation. by rewrite <-Hco, <-E.
  - (* apology *) destruct (msg_payload msg') as [| | | | | | | |n2 rs2 es2| |]; cbn in Hco; try done. destruct (I2 (eq_sym Hco)) as (x & Hx' & Hs'). destruct x; try discriminate Hs'. cbn in Hs'. rewrite <-Hco in Hs'. injection Hs' as -> E1 E2.
    assert (Hc1 : (as_, vs) ∈ apologies_sent n (mjoin acts)) by (unfold apologies_sent; apply elem_of_list_bind; exists (KApology n as_ vs); split; [|done]; rewrite N.eqb_refl; by left).
    assert (Hc2 : (accusers, evals) ∈ apologies_sent n (mjoin acts)) by (unfold apologies_sent; apply elem_of_list_bind; exists (KApology n accusers evals); split; [|done]; rewrite N.eqb_refl; by left).
    destruct (Q4 T5) as (js & _ & _ & J3 & J4). destruct (decide (js = [])) as [Ej|Ej]; [rewrite J3 in Hc1 by done; by apply elem_of_nil in Hc1|]. destruct (J4 Ej) as (as' & E' & _).
    rewrite E' in Hc1, Hc2. apply elem_of_list_singleton in Hc1, Hc2. injection Hc1 as -> ->. injection Hc2 as -> ->. unfold m_apology. by rewrite <-Hco, <-E1, <-E2.
Qed.
(** If, for eon [n], at least a threshold of the keypers of its config make a decision in each phase and what they submit is included in time, then all of
    them end up with a key for it, and it is the same for all of them, whatever anyone else sends to the chain. *)
Theorem C70_key_generation n st b c (hs : list (keyper_params P * nat * list (kinput P PK) * kstate P * list (list (kaction P)) * trace)) :
  produced chain → settled n → (∀ m, started m n st b → config_at m b c) → sized →
  (∀ m c, BatchConfig c ∈ Pub m → (Z.of_nat (length (sc_keypers c)) < 2 ^ 63)%Z) →
  NoDup ((λ h, kp_me h.1.1.1.1.1) <$> hs) → (sc_threshold c ≤ N.of_nat (length hs))%N →
  (∀ p m l s acts tr, (p, m, l, s, acts, tr) ∈ hs → kp_me p ∈ sc_keypers c ∧ takes_part n st b p m l s acts tr) →
  (∀ p m l s acts tr, (p, m, l, s, acts, tr) ∈ hs → ∃ g, g ∈ k_ekgs s ∧ g_eon g = n ∧ g_keypers g = sc_keypers c) ∧
  ∀ p1 m1 l1 s1 acts1 tr1 g1 p2 m2 l2 s2 acts2 tr2 g2, (p1, m1, l1, s1, acts1, tr1) ∈ hs → (p2, m2, l2, s2, acts2, tr2) ∈ hs →
    g1 ∈ k_ekgs s1 → g2 ∈ k_ekgs s2 → g_eon g1 = n → g_eon g2 = n → ek_pk (g_epochkg g1) = ek_pk (g_epochkg g2).
Proof using Hok.
  intros Hp Hset Hcfg Hsz Hlen Hnd Hth Hall. eapply (C66_key_generation keccak pk_bytes pk_parse decompress compress g2_bytes g2_parse g1_bytes g1_parse pb_bytes pb_parse sha3 sig_signer Hok plen epoch_point chain n st b c hs); try done.
  intros p m l s acts tr Hin. destruct (Hall _ _ _ _ _ _ Hin) as [H1 H2]. split; [done|]. by apply included_through.
Qed.
End Generation.
End Accept.

(** C70: the transactions before a transaction, and what they have published. *)
From stdpp Require Import gmap list strings sorting.
From Coq Require Import ZArith NArith Lia.
From RecordUpdate Require Import RecordUpdate.
From Verif Require Import Fq CryptoModel CryptoSpec CryptoProofs PropsCrypto DkgModel DkgSpec EncModel EncodingModel PropsEncoding AppModel AppSpec AppSteps VotingProofs AppInv AppProofs1 AppProofs2 AppProofs3 AppProofs5 PropsApp
  EpochModel PropsEpoch ObserveModel SyncModel SyncProofs ArithModel MainModel MainProofs DecideModel KeyperModel KeyperSpec KeyperHistProofs KeyperActionProofs KeyperSystem PropsKeyper PropsKeyperDkg PropsKeyperLive
  EventsModel EventsSpec EventsProofs PropsEvents PropsChain PropsFull AcceptApp.

(** the transactions before the [j]-th one of block [h], with the app's responses *)
Definition txs_before (tr : trace) (h j : nat) : list (AppModel.bytes * response) := mjoin (txs_at tr <$> seq 0 h) ++ take j (txs_at tr h).

(** ** Proofs *)
Definition deliveries (tr : trace) : list (AppModel.bytes * response) := omap (λ p, match p.1 with CDeliverTx tx _ => Some (tx, p.2) | _ => None end) tr.
Lemma deliveries_cons x tr : deliveries (x :: tr) = deliveries [x] ++ deliveries tr.
Proof. unfold deliveries. change (x :: tr) with ([x] ++ tr). apply omap_app. Qed.
Lemma tx_blocks_extend tr cur b : tx_blocks tr cur !! 0 = Some b → ∃ rest, b = cur ++ rest.
Proof.
  revert cur. induction tr as [|[c r1] tr IH]; intros cur Hb; [done|]. destruct c; cbn [tx_blocks] in Hb; try by apply IH.
  - destruct (IH _ Hb) as [rest ->]. rewrite <-(assoc_L (++)). by eexists.
  - cbn in Hb. injection Hb as <-. exists []. by rewrite app_nil_r.
Qed.
Lemma tx_split2 tr cur h b j tx r : tx_blocks tr cur !! h = Some b → b !! j = Some (tx, r) →
  (h = 0%nat ∧ (j < length cur)%nat) ∨
  ∃ tr1 ord tr2, tr = tr1 ++ (CDeliverTx tx ord, r) :: tr2 ∧ cur ++ deliveries tr1 = concat (take h (tx_blocks tr cur)) ++ take j b.
Proof.
  revert cur h. induction tr as [|[c r0] tr IH]; intros cur h Hb Hj; [done|].
  assert (Hskip : deliveries [(c, r0)] = [] → tx_blocks ((c, r0) :: tr) cur = tx_blocks tr cur →
    (h = 0%nat ∧ (j < length cur)%nat) ∨
    ∃ tr1 ord tr2, (c, r0) :: tr = tr1 ++ (CDeliverTx tx ord, r) :: tr2 ∧ cur ++ deliveries tr1 = concat (take h (tx_blocks ((c, r0) :: tr) cur)) ++ take j b).
  { intros He Et. rewrite Et in Hb |- *. destruct (IH cur h Hb Hj) as [?|(tr1 & ord & tr2 & -> & E)]; [by left|]. right.
    exists ((c, r0) :: tr1), ord, tr2. split; [done|]. rewrite deliveries_cons, He. exact E. }
  destruct c as [ks t vs cid|tx0|tx0 ord0|h0|]; try (apply Hskip; reflexivity); clear Hskip; cbn [tx_blocks] in *.
  - destruct (IH (cur ++ [(tx0, r0)]) h Hb Hj) as [[-> Hlt]|(tr1 & ord & tr2 & -> & E)].
    + rewrite app_length in Hlt. cbn in Hlt. destruct (decide (j < length cur)%nat) as [|Hge]; [by left|]. right.
      assert (j = length cur) as -> by lia. destruct (tx_blocks_extend _ _ _ Hb) as [rest ->].
      rewrite <-(assoc_L (++)) in Hj. rewrite lookup_app_r, Nat.sub_diag in Hj by done. cbn in Hj. injection Hj as -> ->.
      exists [], ord0, tr. split; [done|]. cbn [take concat]. rewrite <-(assoc_L (++)), take_app_alt by done. cbn. by rewrite app_nil_r.
    + right. exists ((CDeliverTx tx0 ord0, r0) :: tr1), ord, tr2. split; [done|]. rewrite deliveries_cons, <-E, (assoc_L (++)). done.
  - destruct h as [|h]; cbn [lookup list_lookup] in Hb.
    + injection Hb as <-. left. split; [done|]. by eapply lookup_lt_Some.
    + change (tx_blocks tr [] !! h = Some b) in Hb. destruct (IH [] h Hb Hj) as [[_ Hlt]|(tr1 & ord & tr2 & -> & E)]; [cbn in Hlt; lia|]. right.
      exists ((CEndBlock h0, r0) :: tr1), ord, tr2. split; [done|]. rewrite deliveries_cons. cbn [take concat]. rewrite <-(assoc_L (++)). f_equal. exact E.
Qed.
Lemma txs_seq tr h : mjoin (txs_at tr <$> seq 0 (S h)) = concat (take h (tx_blocks tr [])).
Proof.
  induction h as [|h IH]; [done|]. rewrite seq_S, fmap_app, mjoin_app, IH. cbn [fmap list_fmap mjoin list_join Nat.add]. rewrite app_nil_r. cbn [txs_at].
  destruct (tx_blocks tr [] !! h) as [b|] eqn:E; cbn [default from_option id].
  - erewrite (take_S_r _ _ _ E). rewrite concat_app. cbn. by rewrite app_nil_r.
  - apply lookup_ge_None in E. rewrite !take_ge by lia. by rewrite app_nil_r.
Qed.
Lemma txs_split tr h j tx r : txs_at tr h !! j = Some (tx, r) → ∃ tr1 ord tr2, tr = tr1 ++ (CDeliverTx tx ord, r) :: tr2 ∧ deliveries tr1 = txs_before tr h j.
Proof.
  intros Hj. destruct h as [|h]; [done|]. cbn [txs_at] in Hj. destruct (tx_blocks tr [] !! h) as [b|] eqn:Eb; [|done]. cbn in Hj.
  destruct (tx_split2 tr [] h b j tx r Eb Hj) as [[_ Hn]|(tr1 & ord & tr2 & E & Hev)]; [cbn in Hn; lia|]. exists tr1, ord, tr2. split; [done|].
  unfold txs_before. rewrite txs_seq. cbn [txs_at]. rewrite Eb. exact Hev.
Qed.
Lemma events_deliveries tr : (∀ c r, (c, r) ∈ tr → match c with CDeliverTx _ _ => True | _ => rsp_events r = [] end) →
  AppSpec.events_of tr = concat ((λ x, rsp_events x.2) <$> deliveries tr).
Proof.
  induction tr as [|[c r] tr IH]; intros Hs; [done|]. rewrite deliveries_cons. change ((c, r) :: tr) with ([(c, r)] ++ tr). rewrite events_of_app, events_of_one, fmap_app, concat_app.
  rewrite <-IH by (intros; apply Hs; by right). f_equal. pose proof (Hs c r ltac:(by left)) as Hc. destruct c; cbn; try done. by rewrite app_nil_r.
Qed.
Lemma deliveries_elem tr tx r : (tx, r) ∈ deliveries tr → ∃ ord, (CDeliverTx tx ord, r) ∈ tr.
Proof. intros ([c r'] & Hin & E)%elem_of_list_omap. destruct c; try discriminate E. injection E as -> ->. by eexists. Qed.
Lemma deliveries_elem_2 tr tx ord r : (CDeliverTx tx ord, r) ∈ tr → (tx, r) ∈ deliveries tr.
Proof. intros Hin. apply elem_of_list_omap. by exists (CDeliverTx tx ord, r). Qed.

(** the events with the number of their block *)
Definition hevs (tr : trace) (k : nat) : list (nat * AppModel.event) := mjoin ((λ n, (λ e, (n, e)) <$> concat (block_at tr n)) <$> seq 0 k).
Lemma hevs_S tr k : hevs tr (S k) = hevs tr k ++ ((λ e, (k, e)) <$> concat (block_at tr k)).
Proof. unfold hevs. rewrite seq_S, fmap_app, mjoin_app. cbn. by rewrite app_nil_r. Qed.
Lemma hevs_events tr k : (hevs tr k).*2 = concat ((λ x, rsp_events x.2) <$> mjoin (txs_at tr <$> seq 0 k)).
Proof.
  induction k as [|k IH]; [done|]. rewrite hevs_S, fmap_app, IH, seq_S, fmap_app, mjoin_app, fmap_app, concat_app. f_equal.
  cbn [Nat.add fmap list_fmap mjoin list_join]. rewrite app_nil_r. change (list_fmap _ _ ?f ?l) with (f <$> l). rewrite <-list_fmap_compose, block_at_txs. cbn. rewrite list_fmap_id. done.
Qed.
Lemma hevs_block tr k n e : (n, e) ∈ hevs tr k → (n < k)%nat.
Proof. induction k as [|k IH]; [by intros ?%elem_of_nil|]. rewrite hevs_S. intros [?%IH|(x & [= -> _] & _)%elem_of_list_fmap]%elem_of_app; lia. Qed.
Lemma hevs_le tr k k' : (k ≤ k')%nat → ∃ rest, hevs tr k' = hevs tr k ++ rest ∧ ∀ n e, (n, e) ∈ rest → (k ≤ n)%nat.
Proof.
  induction k' as [|k' IH]; intros Hle.
  - assert (k = 0%nat) as -> by lia. exists []. split; [done|]. by intros ?? ?%elem_of_nil.
  - destruct (decide (k = S k')) as [->|Hne]; [exists []; split; [by rewrite app_nil_r|by intros ?? ?%elem_of_nil]|].
    destruct IH as (rest & E & Hr); [lia|]. rewrite hevs_S, E, <-(assoc_L (++)). eexists. split; [done|]. intros n e [?%Hr|(x & [= -> _] & _)%elem_of_list_fmap]%elem_of_app; lia.
Qed.
Lemma omap_split {A B} (f : A → option B) l pre x post : omap f l = pre ++ x :: post →
  ∃ l1 y l2, l = l1 ++ y :: l2 ∧ f y = Some x ∧ omap f l1 = pre ∧ omap f l2 = post.
Proof.
  revert pre. induction l as [|y l IH]; intros pre E; [by destruct pre|]. cbn in E. destruct (f y) as [z|] eqn:Ef.
  - destruct pre as [|w pre]; cbn in E.
    + injection E as -> <-. by exists [], y, l.
    + injection E as -> E. destruct (IH _ E) as (l1 & y' & l2 & -> & H1 & <- & H3). exists (y :: l1), y', l2. split; [done|]. split; [done|]. split; [|done]. cbn. by rewrite Ef.
  - destruct (IH _ E) as (l1 & y' & l2 & -> & H1 & <- & H3). exists (y :: l1), y', l2. split; [done|]. split; [done|]. split; [|done]. cbn. by rewrite Ef.
Qed.
Lemma split_once {A} (Q : A → Prop) (l1 l2 k1 k2 : list A) x y : l1 ++ x :: l2 = k1 ++ y :: k2 → Q x → Q y →
  (∀ z, z ∈ l1 → ¬ Q z) → (∀ z, z ∈ k1 → ¬ Q z) → l1 = k1 ∧ x = y ∧ l2 = k2.
Proof.
  revert k1. induction l1 as [|z l1 IH]; intros [|w k1] E Hx Hy H1 H2; cbn in E.
  - by injection E as -> ->.
  - injection E as -> _. exfalso. apply (H2 w); [by left|done].
  - injection E as -> _. exfalso. apply (H1 y); [by left|done].
  - injection E as -> E. destruct (IH k1 E Hx Hy) as (-> & -> & ->); [intros ??; apply H1; by right|intros ??; apply H2; by right|done].
Qed.

Section Chain.
Context (keccak : bytes → bytes) {P : pairing} {PK : Type}
  (pk_bytes : PK → bytes) (pk_parse decompress : bytes → option PK) (compress : PK → bytes)
  (g2_bytes : G2 P → bytes) (g2_parse : bytes → option (G2 P)) (g1_bytes : G1 P → bytes) (g1_parse : bytes → option (G1 P))
  (pb_bytes : message → bytes) (pb_parse : bytes → option message) (sha3 : bytes → bytes) (sig_signer : bytes → bytes → option N).
Notation O := (chain_oracles P PK pk_bytes g2_bytes g1_bytes pk_parse decompress g2_parse g1_parse pb_parse sha3 sig_signer).
Notation publish := (make_abci keccak).
Notation read := (make_event keccak P PK pk_parse g2_parse g1_parse).
Notation says := (says P PK pk_bytes g2_bytes g1_bytes).
Notation produced_by := (produced_by keccak pk_bytes pk_parse decompress g2_bytes g2_parse g1_bytes g1_parse pb_parse sha3 sig_signer).
Notation parse := (parse_tx pb_parse sha3 sig_signer).
Context (Hok : codecs P PK pk_bytes g2_bytes g1_bytes pk_parse decompress compress g2_parse g1_parse pb_bytes pb_parse sig_signer).
Notation sevent := (shutter_event (body P) sconfig PK (N * bytes)).
Notation typed := (typed_event pk_bytes g2_bytes g1_bytes).
Notation rd := (λ p : nat * AppModel.event, read (publish p.2) (Z.of_nat p.1)).
Lemma published_hevs chain m tr k : produced_by chain m tr → (k ≤ m)%nat → published read chain k = omap rd (hevs tr k).
Proof using.
  intros (s & _ & _ & Hc) Hk. rewrite (published_ext keccak pk_parse g2_parse g1_parse chain _ k) by (intros n Hn; apply Hc; lia). rewrite published_readings. unfold readings.
  clear. induction k as [|k IH]; [done|]. rewrite hevs_S, omap_app, <-IH, seq_S, fmap_app, mjoin_app. f_equal. cbn. rewrite app_nil_r. by rewrite omap_fmap'.
Qed.
(** a transaction in a block: the history before it *)
Lemma tx_step chain m tr h j tx r : produced_by chain m tr → txs_at tr h !! j = Some (tx, r) →
  ∃ tr1 ord tr2 s1 s2 rest, tr = tr1 ++ (CDeliverTx tx ord, r) :: tr2 ∧ deliveries tr1 = txs_before tr h j ∧ AppSpec.history O tr1 s1 ∧ valid_order ord ∧
    step O s1 (CDeliverTx tx ord) = Some (s2, r) ∧ (N.of_nat (length (eons_of tr1)) < 2 ^ 64)%N ∧ AppSpec.events_of tr1 = (hevs tr h).*2 ++ rest.
Proof using.
  intros (s & [dev Hex] & He & _) Hj. destruct (txs_split _ _ _ _ _ Hj) as (tr1 & ord & tr2 & E & Hd). pose proof Hex as Hex0.
  rewrite E in Hex. apply exec_app_inv in Hex as (s1 & H1 & H2). change ((CDeliverTx tx ord, r) :: tr2) with ([(CDeliverTx tx ord, r)] ++ tr2) in H2.
  apply exec_app_inv in H2 as (s2 & H2 & H3). apply (exec_snoc_inv O s1 []) in H2 as (s1' & Hn & Hv & Hs). apply exec_nil_inv in Hn as ->.
  exists tr1, ord, tr2, s1, s2, (concat ((λ x, rsp_events x.2) <$> take j (txs_at tr h))). split; [done|]. split; [done|]. split; [by exists dev|]. split; [done|]. split; [done|]. split.
  - rewrite E, eons_of_app, app_length in He. lia.
  - rewrite events_deliveries by (eapply exec_silent; exact H1). rewrite Hd. unfold txs_before. by rewrite fmap_app, concat_app, <-hevs_events.
Qed.
Notation scfg c := (mkSConfig (cf_index c) (cf_start c) (cf_keypers c) (cf_threshold c)).
Lemma announced_read (l : list (nat * AppModel.event)) : Forall typed l.*2 →
  omap (λ ev : sevent, match ev with BatchConfig c => Some c | _ => None end) (omap rd l) = (λ c, scfg c) <$> announced l.*2.
Proof using Hok.
  induction l as [|[n e] l IH]; intros Ht; [done|]. cbn in Ht. apply Forall_cons in Ht as [Ht Hl]. specialize (IH Hl).
  change (((n, e) :: l).*2) with (e :: l.*2). cbn [omap list_omap fst snd]. unfold announced. cbn [omap list_omap]. fold (announced l.*2).
  destruct (read (publish e) (Z.of_nat n)) as [ev|] eqn:Er.
  - cbn [omap list_omap]. apply (C25_exact keccak pk_bytes pk_parse decompress compress g2_bytes g2_parse g1_bytes g1_parse pb_bytes pb_parse sig_signer Hok) in Er as [Hsay _]; [|done].
    inversion Hsay; subst; cbn; try exact IH. by rewrite IH.
  - destruct e; try exact IH. exfalso.
    assert (read (publish (EvBatchConfig c)) (Z.of_nat n) = Some (BatchConfig (scfg c))) as X; [|rewrite Er in X; discriminate X].
    eapply C25_roundtrip; [exact Hok|done|constructor|]. by intros (? & ? & ?).
Qed.

Notation started := (KeyperSystem.started read).
Notation config_at := (KeyperSystem.config_at read).
Notation settled := (KeyperSystem.settled read).
(** the app and the keypers agree on the config of an eon *)
Lemma config_link chain m tr g n st b a c h rest tr1 : produced_by chain m tr → (∀ k, well_formed (published read chain k)) → settled chain n →
  started chain m n st b → (a ≤ m)%nat → started chain a n st b → config_at chain a b c → (st < Z.of_nat h)%Z → (h ≤ m)%nat →
  AppSpec.events_of tr1 = (hevs tr h).*2 ++ rest → Forall typed (AppSpec.events_of tr1) →
  ∃ ac, config_of g (AppSpec.events_of tr1) n ac ∧ cf_keypers ac = sc_keypers c.
Proof using Hok.
  intros Hpb Hwf Hset Hst Ha Hsta Hca Hlt Hh Hev Hty.
  assert (Hty1 : Forall typed (hevs tr h).*2) by (rewrite Hev in Hty; by apply Forall_app in Hty as [? _]).
  (* where the eon is announced *)
  assert (∃ pre post, published read chain h = pre ++ EonStarted st n b :: post) as (pre & post & Eh).
  { change (EonStarted st n b ∈ published read chain m) in Hst. rewrite (published_hevs _ _ _ m Hpb) in Hst by done. destruct (hevs_le tr h m Hh) as (more & Em & Hmore). rewrite Em, omap_app in Hst.
    apply elem_of_app in Hst as [Hst|Hst].
    - rewrite <-(published_hevs _ _ _ h Hpb Hh) in Hst. by apply elem_of_list_split in Hst.
    - exfalso. apply elem_of_list_omap in Hst as ([k e] & Hin & Hr). cbn in Hr. specialize (Hmore _ _ Hin). 
      assert (typed e) as Hte.
      { destruct Hpb as (s & Hh0 & _ & _). pose proof (history_typed pk_bytes pk_parse decompress compress g2_bytes g2_parse g1_bytes g1_parse pb_bytes pb_parse sha3 sig_signer Hok tr s Hh0) as Hall.
        rewrite Forall_forall in Hall. apply Hall. destruct (first_events_prefix pk_bytes pk_parse decompress g2_bytes g2_parse g1_bytes g1_parse pb_parse sha3 sig_signer tr s m Hh0) as [rst E0]. rewrite E0.
        apply elem_of_app. left.
        assert (e ∈ (hevs tr m).*2) as He2 by (rewrite Em, fmap_app; apply elem_of_app; right; apply elem_of_list_fmap; by exists (k, e)).
        clear -He2. destruct m as [|m]; [by apply elem_of_nil in He2|]. rewrite hevs_events, txs_seq in He2. rewrite first_events_take.
        pose proof (blocks_tx tr []) as Et. cbn in Et. rewrite Et, <-fmap_take. by rewrite concat_fmap_fmap. }
      apply (C25_exact keccak pk_bytes pk_parse decompress compress g2_bytes g2_parse g1_bytes g1_parse pb_bytes pb_parse sig_signer Hok) in Hr as [Hsay _]; [|done]. inversion Hsay; subst. lia. }
  pose proof Eh as Eh'. rewrite (published_hevs _ _ _ h Hpb Hh) in Eh'. apply omap_split in Eh' as (l1 & [k e] & l2 & El & Hr & Hpre & Hpost).
  assert (Forall typed l1.*2 ∧ typed e) as [Htl Hte].
  { rewrite El, fmap_app in Hty1. apply Forall_app in Hty1 as [? HF]. cbn in HF. by apply Forall_cons in HF as [? _]. }
  cbn in Hr. apply (C25_exact keccak pk_bytes pk_parse decompress compress g2_bytes g2_parse g1_bytes g1_parse pb_bytes pb_parse sig_signer Hok) in Hr as [Hsay _]; [|done]. inversion Hsay; subst.
  (* the keyper's config is the last one before it *)
  assert (∃ c1 c2, omap (λ ev : sevent, match ev with BatchConfig c => Some c | _ => None end) (omap rd l1) = c1 ++ c :: c2 ∧ (sc_start c ≤ b)%N ∧ ∀ d, d ∈ c2 → (b < sc_start d)%N) as (c1 & c2 & Ec & Hle & Hall).
  { destruct (elem_of_list_split _ _ Hsta) as (pa & qa & Ea). change (published read chain a = pa ++ EonStarted (Z.of_nat k) n b :: qa) in Ea. destruct Hca as (p1 & q1 & E1 & Hle & Hq). change (published read chain a = p1 ++ BatchConfig c :: q1) in E1.
    assert (pa = omap rd l1) as ->.
    { (* both are prefixes of the same list *)
      assert (∃ u1 u2, published read chain (max a h) = published read chain a ++ u1 ∧ published read chain (max a h) = published read chain h ++ u2) as (u1 & u2 & U1 & U2).
      { rewrite (published_hevs _ _ _ (max a h) Hpb), (published_hevs _ _ _ a Hpb), (published_hevs _ _ _ h Hpb) by lia.
        destruct (hevs_le tr a (max a h)) as (v1 & V1 & _); [lia|]. destruct (hevs_le tr h (max a h)) as (v2 & V2 & _); [lia|]. exists (omap rd v1), (omap rd v2). split; [by rewrite V1, omap_app|by rewrite V2, omap_app]. }
      pose proof (Hwf (max a h)) as W. rewrite U1, Ea, <-(assoc_L (++)) in U2. rewrite Eh, <-(assoc_L (++)) in U2. cbn in U2.
      rewrite U1, Ea, <-(assoc_L (++)) in W. cbn in W.
      assert (∀ z, z ∈ pa → ¬ (∃ s' b', z = EonStarted s' n b')) as N1.
      { intros z Hz (s' & b' & ->). pose proof (W _ _ _ eq_refl) as W1. cbn in W1. specialize (W1 _ _ _ Hz). lia. }
      assert (∀ z, z ∈ omap rd l1 → ¬ (∃ s' b', z = EonStarted s' n b')) as N2.
      { rewrite U2 in W. intros z Hz (s' & b' & ->). pose proof (W _ _ _ eq_refl) as W1. cbn in W1. specialize (W1 _ _ _ Hz). lia. }
      destruct (split_once (λ z : sevent, ∃ s' b', z = EonStarted s' n b') _ _ _ _ _ _ U2) as (? & _ & _); [by eexists _, _|by eexists _, _|done|done|done]. }
    rewrite E1 in Ea.
    apply app_eq_inv in Ea as [(w & Ew1 & Ew2)|(w & Ew1 & Ew2)].
    - (* the config comes after the announcement, or is it: impossible *)
      exfalso. destruct w as [|x w]; cbn in Ew2; [discriminate Ew2|]. injection Ew2 as <- Ew2.
      assert (BatchConfig c ∈ qa) as Hin by (rewrite Ew2; apply elem_of_app; right; by left).
      assert (published read chain a = omap rd l1 ++ EonStarted (Z.of_nat k) n b :: qa) as Ea'. { rewrite E1, Ew1, <-(assoc_L (++)). cbn. by rewrite Ew2. }
      specialize (Hset a _ _ _ _ c Ea' Hin). lia.
    - destruct w as [|x w]; cbn in Ew2; [discriminate Ew2|]. injection Ew2 as <- Ew2. rewrite Ew1, omap_app. cbn [omap list_omap].
      eexists _, _. split; [reflexivity|]. split; [done|]. intros d (ev & Hin & Ed)%elem_of_list_omap. destruct ev; try discriminate Ed. injection Ed as ->. apply Hq. rewrite Ew2. apply elem_of_app. by left. }
  rewrite announced_read in Ec by done. apply fmap_app_inv in Ec as (d1 & d2 & -> & Ed2 & Ed). symmetry in Ed2. apply fmap_cons_inv in Ed2 as (ac & d3 & -> & -> & ->).
  exists ac. split; [|done]. exists l1.*2, b, (l2.*2 ++ rest). split.
  - rewrite Hev, El, fmap_app, <-(assoc_L (++)). done.
  - rewrite Ed. exists (g :: d1), d3. split; [done|]. split; [done|]. apply Forall_forall. intros d Hd. apply (Hall (scfg d)). apply elem_of_list_fmap. by exists d.
Qed.
End Chain.

(** C65 (continued) and C66: keypers on a chain that the shuttermint app produced from the transactions sent to it. *)
From stdpp Require Import gmap list strings sorting.
From Coq Require Import ZArith NArith Lia.
From RecordUpdate Require Import RecordUpdate.
From Verif Require Import Fq CryptoModel CryptoSpec CryptoProofs PropsCrypto DkgModel DkgSpec EncModel EncodingModel PropsEncoding AppModel AppSpec AppSteps VotingProofs AppInv AppProofs1 AppProofs2 AppProofs3 AppProofs5 PropsApp
  EpochModel PropsEpoch ObserveModel SyncModel SyncProofs ArithModel MainModel MainProofs DecideModel KeyperModel KeyperSpec KeyperHistProofs KeyperActionProofs KeyperSystem PropsKeyper PropsKeyperDkg PropsKeyperLive
  EventsModel EventsSpec EventsProofs PropsEvents PropsChain.

(** ** Specification *)
(** the transactions of the blocks of a history, with the app's responses; [cur]: those of the block being built *)
Fixpoint tx_blocks (tr : trace) (cur : list (AppModel.bytes * response)) : list (list (AppModel.bytes * response)) :=
  match tr with
  | [] => []
  | (CDeliverTx tx _, r) :: tr => tx_blocks tr (cur ++ [(tx, r)])
  | (CEndBlock _, _) :: tr => cur :: tx_blocks tr []
  | _ :: tr => tx_blocks tr cur
  end.
Definition txs_at (tr : trace) (n : nat) : list (AppModel.bytes * response) := match n with O => [] | S n => default [] (tx_blocks tr [] !! n) end.

Section Full.
Context (keccak : bytes → bytes) {P : pairing} {PK : Type}
  (pk_bytes : PK → bytes) (pk_parse decompress : bytes → option PK) (compress : PK → bytes)
  (g2_bytes : G2 P → bytes) (g2_parse : bytes → option (G2 P)) (g1_bytes : G1 P → bytes) (g1_parse : bytes → option (G1 P))
  (pb_bytes : message → bytes) (pb_parse : bytes → option message) (sha3 : bytes → bytes) (sig_signer : bytes → bytes → option N).
Notation O := (chain_oracles P PK pk_bytes g2_bytes g1_bytes pk_parse decompress g2_parse g1_parse pb_parse sha3 sig_signer).
Notation publish := (make_abci keccak).
Notation read := (make_event keccak P PK pk_parse g2_parse g1_parse).
Notation says := (says P PK pk_bytes g2_bytes g1_bytes).
Notation produced := (produced keccak pk_bytes pk_parse decompress g2_bytes g2_parse g1_bytes g1_parse pb_parse sha3 sig_signer).
Notation parse := (parse_tx pb_parse sha3 sig_signer).
(** the first [m] blocks of the chain are those of the history [tr] *)
Definition produced_by (chain : nat → list (list abci)) (m : nat) (tr : trace) : Prop :=
  ∃ s, AppSpec.history O tr s ∧ (N.of_nat (length (eons_of tr)) < 2 ^ 64)%N ∧ ∀ n, (n < m)%nat → chain n = (λ evs : list AppModel.event, publish <$> evs) <$> block_at tr n.

(** the message that announces an action of the key generation *)
Definition sent (a : kaction P) : option payload :=
  match a with
  | KCommitment n gs => Some (m_commitment P g2_bytes n gs)
  | KPolyEval n rs es => Some (m_poly_eval n rs es)
  | KAccusation n l => Some (m_accusation n l)
  | KApology n l vs => Some (m_apology n l vs)
  | _ => None
  end.

Section Keypers.
Context (plen : phase_length).
(** Keyper [a] has submitted [A].  Its commitment, accusation and apology for eon [n], which started in block [st], are accepted by the app in a block
    of their phase; and the app accepts no other messages for the key generation signed by [a]. *)
Record got_through (tr : trace) (m : nat) (n : N) (st : Z) (a : N) (A : list (kaction P)) : Prop := {
  gt_accepted : ∀ x ph p, x ∈ A → phase_of x = Some (n, ph) → (∀ rs es, x ≠ KPolyEval n rs es) → sent x = Some p →
    ∃ (h : nat) tx msg r, (h < m)%nat ∧ phase_at plen (Z.of_nat h) st = ph ∧ (tx, r) ∈ txs_at tr h ∧ parse tx = Some (a, msg) ∧ msg_payload msg = p ∧ rsp_code r = 0%N;
  gt_only : ∀ (h : nat) tx msg r, (tx, r) ∈ txs_at tr h → parse tx = Some (a, msg) → rsp_code r = 0%N →
    match msg_payload msg with
    | MPolyCommitment n' _ | MApology n' _ _ => n' = n → ∃ x, x ∈ A ∧ sent x = Some (msg_payload msg)
    | _ => True
    end
}.
End Keypers.

(** ** Proofs *)
Context (Hok : codecs P PK pk_bytes g2_bytes g1_bytes pk_parse decompress compress g2_parse g1_parse pb_bytes pb_parse sig_signer).
Notation sevent := (shutter_event (body P) sconfig PK (N * bytes)).
Notation typed := (typed_event pk_bytes g2_bytes g1_bytes).
Notation reads h evs := (omap (λ e : AppModel.event, read (publish e) (Z.of_nat h)) evs).

Lemma blocks_tx tr cur : blocks tr ((λ x : AppModel.bytes * response, rsp_events x.2) <$> cur) = (λ b : list (AppModel.bytes * response), (λ x, rsp_events x.2) <$> b) <$> tx_blocks tr cur.
Proof using.
  revert cur. induction tr as [|[c r] tr IH]; intros cur; [done|]. destruct c; cbn [blocks tx_blocks]; try apply IH.
  - rewrite <-IH, fmap_app. done.
  - cbn. f_equal. apply (IH []).
Qed.
Lemma block_at_txs tr n : block_at tr n = (λ x, rsp_events x.2) <$> txs_at tr n.
Proof using. destruct n as [|n]; [done|]. cbn [block_at txs_at]. pose proof (blocks_tx tr []) as E. cbn in E. rewrite E, list_lookup_fmap. by destruct (tx_blocks tr [] !! n). Qed.
(** the events before a transaction *)
Lemma tx_split tr cur h b j tx r : (∀ c r, (c, r) ∈ tr → match c with CDeliverTx _ _ => True | _ => rsp_events r = [] end) →
  tx_blocks tr cur !! h = Some b → b !! j = Some (tx, r) →
  (h = 0%nat ∧ (j < length cur)%nat) ∨
  ∃ tr1 ord tr2, tr = tr1 ++ (CDeliverTx tx ord, r) :: tr2 ∧
    concat ((λ x, rsp_events x.2) <$> cur) ++ AppSpec.events_of tr1 = concat ((λ x, rsp_events x.2) <$> concat (take h (tx_blocks tr cur)) ++ take j b).
Proof using.
  revert cur h. induction tr as [|[c r0] tr IH]; intros cur h Hsil Hb Hj; [done|].
  assert (∀ c r, (c, r) ∈ tr → match c with CDeliverTx _ _ => True | _ => rsp_events r = [] end) as Hsil' by (intros; apply Hsil; by right).
  pose proof (Hsil c r0 ltac:(by left)) as Hc.
  assert (Hskip : rsp_events r0 = [] → tx_blocks ((c, r0) :: tr) cur = tx_blocks tr cur →
    (h = 0%nat ∧ (j < length cur)%nat) ∨
    ∃ tr1 ord tr2, (c, r0) :: tr = tr1 ++ (CDeliverTx tx ord, r) :: tr2 ∧
      concat ((λ x, rsp_events x.2) <$> cur) ++ AppSpec.events_of tr1 = concat ((λ x, rsp_events x.2) <$> concat (take h (tx_blocks ((c, r0) :: tr) cur)) ++ take j b)).
  { intros He Et. rewrite Et in Hb |- *. destruct (IH cur h Hsil' Hb Hj) as [?|(tr1 & ord & tr2 & -> & E)]; [by left|]. right.
    exists ((c, r0) :: tr1), ord, tr2. split; [done|]. rewrite events_of_cons, He. exact E. }
  destruct c as [ks t vs cid|tx0|tx0 ord0|h0|]; try (apply Hskip; [done|reflexivity]); clear Hskip; cbn [tx_blocks] in *.
  - destruct (IH (cur ++ [(tx0, r0)]) h Hsil' Hb Hj) as [[-> Hlt]|(tr1 & ord & tr2 & -> & E)].
    + rewrite app_length in Hlt. cbn in Hlt. destruct (decide (j < length cur)%nat) as [|Hge]; [by left|]. right.
      assert (j = length cur) as -> by lia.
      (* the block starts with cur ++ [(tx0, r0)] *)
      assert (∃ rest, b = (cur ++ [(tx0, r0)]) ++ rest) as [rest ->].
      { clear -Hb. revert Hb. generalize (cur ++ [(tx0, r0)]). clear cur. induction tr as [|[c r1] tr IH]; intros cur Hb; [done|]. destruct c; cbn [tx_blocks] in Hb; try by apply IH.
        - destruct (IH _ Hb) as [rest ->]. rewrite <-(assoc_L (++)). by eexists.
        - cbn in Hb. injection Hb as <-. exists []. by rewrite app_nil_r. }
      rewrite <-(assoc_L (++)) in Hj. rewrite lookup_app_r, Nat.sub_diag in Hj by done. cbn in Hj. injection Hj as -> ->.
      exists [], ord0, tr. split; [done|]. cbn [take concat]. rewrite <-(assoc_L (++)), take_app_alt by done. cbn. rewrite ?app_nil_r. done.
    + right. exists ((CDeliverTx tx0 ord0, r0) :: tr1), ord, tr2. split; [done|]. rewrite events_of_cons, <-E, fmap_app, concat_app. cbn. by rewrite app_nil_r, <-(assoc_L (++)).
  - destruct h as [|h]; cbn [lookup list_lookup] in Hb.
    + injection Hb as <-. left. split; [done|]. by eapply lookup_lt_Some.
    + change (tx_blocks tr [] !! h = Some b) in Hb. destruct (IH [] h Hsil' Hb Hj) as [[_ Hlt]|(tr1 & ord & tr2 & -> & E)]; [cbn in Hlt; lia|]. right.
      exists ((CEndBlock h0, r0) :: tr1), ord, tr2. split; [done|]. rewrite events_of_cons, Hc. cbn [take concat]. rewrite app_nil_l. rewrite fmap_nil in E. change (concat (A:=AppModel.event) []) with (@nil AppModel.event) in E. rewrite app_nil_l in E.
      rewrite <-(assoc_L (++)), fmap_app, concat_app. f_equal. exact E.
Qed.
Notation readings := (readings keccak pk_parse g2_parse g1_parse).
Lemma reads_app h l1 l2 : reads h (l1 ++ l2) = reads h l1 ++ reads h l2.
Proof using. apply omap_app. Qed.
Lemma published_split chain m tr h j tx r : produced_by chain m tr → (h < m)%nat → txs_at tr h !! j = Some (tx, r) →
  ∃ tr1 ord tr2 s1 s2 before after, tr = tr1 ++ (CDeliverTx tx ord, r) :: tr2 ∧ AppSpec.history O tr1 s1 ∧ valid_order ord ∧ step O s1 (CDeliverTx tx ord) = Some (s2, r) ∧
    (N.of_nat (length (eons_of tr1)) < 2 ^ 64)%N ∧ published read chain m = before ++ reads h (rsp_events r) ++ after ∧ eon_numbers before = eons_of tr1.
Proof using Hok.
  intros (s & Hh & He & Hc) Hlt Hj. destruct Hh as [dev Hex]. destruct h as [|h]; [done|]. cbn [txs_at] in Hj.
  destruct (tx_blocks tr [] !! h) as [b|] eqn:Eb; [|done]. cbn in Hj.
  destruct (tx_split tr [] h b j tx r) as [[_ Hn]|(tr1 & ord & tr2 & E & Hev)]; [|done|done|cbn in Hn; lia|].
  { eapply exec_silent. exact Hex. }
  rewrite fmap_nil in Hev. change (concat (A:=AppModel.event) []) with (@nil AppModel.event) in Hev. rewrite app_nil_l in Hev.
  rewrite E in Hex. apply exec_app_inv in Hex as (s1 & H1 & H2). change ((CDeliverTx tx ord, r) :: tr2) with ([(CDeliverTx tx ord, r)] ++ tr2) in H2.
  apply exec_app_inv in H2 as (s2 & H2 & H3). apply (exec_snoc_inv O s1 []) in H2 as (s1' & Hn & Hv & Hs). apply exec_nil_inv in Hn as ->.
  exists tr1, ord, tr2, s1, s2, (readings tr (S h) ++ reads (S h) (concat ((λ x, rsp_events x.2) <$> take j b))).
  set (after1 := reads (S h) (concat ((λ x, rsp_events x.2) <$> drop (S j) b))).
  exists (after1 ++ mjoin ((λ n, reads n (concat (block_at tr n))) <$> seq (S (S h)) (m - S (S h)))).
  split; [done|]. split; [by exists dev|]. split; [done|]. split; [done|]. split.
  { rewrite E, eons_of_app, app_length in He. lia. }
  split.
  - rewrite (published_ext keccak pk_parse g2_parse g1_parse _ _ _ Hc), published_readings. unfold PropsChain.readings.
    replace m with (S h + S (m - S (S h)))%nat at 1 by lia. rewrite seq_app, fmap_app, mjoin_app. cbn [Nat.add]. rewrite <-!(assoc_L (++)). f_equal.
    change (seq (S h) (S (m - S (S h)))) with ([S h] ++ seq (S (S h)) (m - S (S h))). rewrite fmap_app, mjoin_app. rewrite !(assoc_L (++)). f_equal.
    assert (mjoin ((λ n, reads n (concat (block_at tr n))) <$> [S h]) = reads (S h) (concat (block_at tr (S h)))) as -> by (cbn [fmap list_fmap mjoin list_join]; apply app_nil_r).
    rewrite block_at_txs. cbn [txs_at]. rewrite Eb. cbn [default from_option id]. rewrite <-(take_drop_middle b j (tx, r) Hj) at 1.
    rewrite fmap_app, concat_app, reads_app, fmap_cons. cbn [concat]. rewrite reads_app. cbn [snd]. unfold after1. by rewrite (assoc_L (++)).
  - rewrite eon_numbers_app. assert (∃ s, AppSpec.history O tr s) as [s' Hh'].
    { exists s. exists dev. rewrite E. eapply exec_app; [exact H1|]. change ((CDeliverTx tx ord, r) :: tr2) with ([(CDeliverTx tx ord, r)] ++ tr2). eapply exec_app; [|exact H3]. by apply exec_one. }
    erewrite readings_eons by (try exact Hok; exact Hh'). rewrite first_events_take.
    assert (concat (concat (take h (blocks tr []))) = concat ((λ x, rsp_events x.2) <$> concat (take h (tx_blocks tr [])))) as ->.
    { pose proof (blocks_tx tr []) as Et. cbn in Et. rewrite Et, <-fmap_take. by rewrite concat_fmap_fmap. }
    erewrite read_eons; [|exact Hok|].
    + rewrite <-eons_in_app. unfold eons_of, eons_in. rewrite Hev, fmap_app, concat_app. done.
    + pose proof (history_typed pk_bytes pk_parse decompress compress g2_bytes g2_parse g1_bytes g1_parse pb_bytes pb_parse sha3 sig_signer Hok tr1 s1 (ex_intro _ dev H1)) as Ht.
      rewrite Hev, fmap_app, concat_app in Ht. by apply Forall_app in Ht as [_ Ht].
Qed.
Lemma published_from chain m tr ev : produced_by chain m tr → ev ∈ published read chain m →
  ∃ h j tx r e, (h < m)%nat ∧ txs_at tr h !! j = Some (tx, r) ∧ e ∈ rsp_events r ∧ read (publish e) (Z.of_nat h) = Some ev.
Proof using.
  intros (s & Hh & He & Hc). rewrite (published_ext keccak pk_parse g2_parse g1_parse _ _ _ Hc), published_readings. unfold PropsChain.readings.
  intros (l & Hin & Hl)%elem_of_list_join. apply elem_of_list_fmap in Hl as (n & -> & Hn%elem_of_seq). apply elem_of_list_omap in Hin as (e & Hin & Hr).
  rewrite block_at_txs in Hin. apply elem_of_list_In, in_concat in Hin as (l & Hl & Hin). apply elem_of_list_In in Hl, Hin. apply elem_of_list_fmap in Hl as ([tx r] & -> & Hl). apply elem_of_list_lookup in Hl as (j & Hj).
  exists n, j, tx, r, e. split_and!; [lia|done..].
Qed.
(** ** C65 *)
(** on the chain, the keypers of a config are different, there is at least one, and its threshold is positive; it is at most their number, unless it
    is at least 2^63 (see C14_threshold_refuted) *)
Theorem C65_config chain m c : produced chain → BatchConfig c ∈ published read chain m →
  NoDup (sc_keypers c) ∧ sc_keypers c ≠ [] ∧ Forall is_address (sc_keypers c) ∧ (0 < sc_threshold c < 2 ^ 64)%N ∧
  ((sc_threshold c < 2 ^ 63)%N → (sc_threshold c ≤ N.of_nat (length (sc_keypers c)))%N).
Proof using Hok.
  intros Hp Hin. destruct (Hp m) as (tr & s & Hh & He & Hc). assert (produced_by chain m tr) as Hpb by (by exists s).
  destruct (published_from _ _ _ _ Hpb Hin) as (h & j & tx & r & e & Hlt & Hj & Hev & Hr).
  destruct (published_split _ _ _ _ _ _ _ Hpb Hlt Hj) as (tr1 & ord & tr2 & s1 & s2 & before & after & E & H1 & Hv & Hs & _).
  assert (typed e) as Ht.
  { destruct H1 as [dev H1]. destruct (exec_typed pk_bytes pk_parse decompress compress g2_bytes g2_parse g1_bytes g1_parse pb_bytes pb_parse sha3 sig_signer Hok _ _ _ (new_votes_typed dev) H1) as [Hvt _].
    destruct (step_typed pk_bytes pk_parse decompress compress g2_bytes g2_parse g1_bytes g1_parse pb_bytes pb_parse sha3 sig_signer Hok _ _ _ _ Hvt Hs) as [_ HF]. rewrite Forall_forall in HF. by apply HF. }
  apply (C25_exact keccak pk_bytes pk_parse decompress compress g2_bytes g2_parse g1_bytes g1_parse pb_bytes pb_parse sig_signer Hok) in Hr as [Hsay _]; [|done].
  inversion Hsay; subst. cbn in Ht |- *. destruct (announced_valid _ _ _ _ _ _ Hs Hev) as (A1 & A2 & A3 & A4). unfold is_u64 in Ht.
  destruct Ht as (T1 & T2 & T3 & T4). unfold is_u64 in *. split_and!; try done; lia.
Qed.
(** the messages for the key generation and the key shares have the form of their kind, every receiver of an evaluation, every accused and every accuser
    is named once, and there is one evaluation for each of them *)
Theorem C65_message chain m k e : produced chain → EonEvent k e ∈ published read chain m →
  match k, ev_body e with
  | PolyEval, BPolyEval a rs es => is_address a ∧ NoDup rs ∧ Forall is_address rs ∧ length rs = length es
  | Commitment, BCommitment a gs => is_address a ∧ gs ≠ []
  | Accusation, BAccusation a rs => is_address a ∧ NoDup rs ∧ Forall is_address rs
  | Apology, BApology a rs vs => is_address a ∧ NoDup rs ∧ Forall is_address rs ∧ length rs = length vs ∧ Forall (λ v, 0 ≤ v)%Z vs
  | KeyShare, BKeyShare a ep sh => is_address a ∧ is_u64 ep
  | _, _ => False
  end ∧ is_u64 (ev_eon e).
Proof using Hok.
  intros Hp Hin. destruct (Hp m) as (tr & s & Hh & He & Hc). assert (produced_by chain m tr) as Hpb by (by exists s).
  destruct (published_from _ _ _ _ Hpb Hin) as (h & j & tx & r & ev & Hlt & Hj & Hev & Hr).
  destruct (published_split _ _ _ _ _ _ _ Hpb Hlt Hj) as (tr1 & ord & tr2 & s1 & s2 & before & after & E & H1 & Hv & Hs & _).
  assert (typed ev) as Ht.
  { destruct H1 as [dev H1]. destruct (exec_typed pk_bytes pk_parse decompress compress g2_bytes g2_parse g1_bytes g1_parse pb_bytes pb_parse sha3 sig_signer Hok _ _ _ (new_votes_typed dev) H1) as [Hvt _].
    destruct (step_typed pk_bytes pk_parse decompress compress g2_bytes g2_parse g1_bytes g1_parse pb_bytes pb_parse sha3 sig_signer Hok _ _ _ _ Hvt Hs) as [_ HF]. rewrite Forall_forall in HF. by apply HF. }
  apply (C25_exact keccak pk_bytes pk_parse decompress compress g2_bytes g2_parse g1_bytes g1_parse pb_bytes pb_parse sig_signer Hok) in Hr as [Hsay Hne]; [|done].
  assert (∀ l as_, parse_addresses l = Some as_ → NoDup as_ ∧ length as_ = length l) as Hpa.
  { intros l as_ Hl. unfold parse_addresses in Hl. destruct (mapM validate_address l) as [l'|] eqn:Em; [|done]. cbn in Hl. destruct (unique_addresses l') eqn:Eu; [|done]. injection Hl as ->.
    split; [by apply bool_decide_eq_true in Eu|]. symmetry. by eapply mapM_length. }
  apply step_not_delivered in Hs as [(_ & Hno & _)|(tx' & ord' & a & msg & Heq & D & Hm)]; [rewrite Hno in Hev; by apply elem_of_nil in Hev|].
  inversion Hm; subst; cbn [ok_response rsp_events error_response] in Hev; repeat (apply elem_of_cons in Hev as [->|Hev]); try (by apply elem_of_nil in Hev);
    inversion Hsay; subst; cbn [ev_body ev_eon]; cbn in Ht; repeat match goal with H : parse_addresses _ = Some _ |- _ => destruct (Hpa _ _ H) as [? ?]; clear H end;
    destruct_and?; (split; [|done]); split_and?; try done.
  - etransitivity; eassumption.
  - intros ->. apply Hne. by eexists _, _.
  - rewrite !fmap_length. etransitivity; eassumption.
  - apply Forall_fmap, Forall_forall. intros x _. cbn. lia.
Qed.

(** ** C66 *)
Section Generation.
Context (plen : phase_length) (epoch_point : N → G1 P) (chain : nat → list (list abci)).
Notation Pub := (published read chain).
Notation keyper_run := (keyper_run read chain plen epoch_point).
Notation started := (KeyperSystem.started read chain).
Notation config_at := (KeyperSystem.config_at read chain).
Notation settled := (KeyperSystem.settled read chain).
Notation decided_in := (KeyperSystem.decided_in read chain plen).
Notation sized := (KeyperSystem.sized read chain).
Implicit Types (p : keyper_params P).
(** [c]'s keypers [hs], at least a threshold, do their part: each makes a decision in each phase, and what it submits gets through; [m] is the number of
    blocks when the keyper has finished, [tr] how they came about *)
Record does_its_part (n : N) (st : Z) (b : N) p (m : nat) (l : list (kinput P PK)) (s : kstate P) (acts : list (list (kaction P))) (tr : trace) : Prop := {
  di_run : keyper_run p m l s acts;
  di_started : started m n st b;
  di_dealing : decided_in l n dealing; di_accusing : decided_in l n accusing; di_apologizing : decided_in l n apologizing;
  di_over : phase_at plen (Z.of_nat m) st = finalized;
  di_chain : produced_by chain m tr;
  di_through : got_through plen tr m n st (kp_me p) (mjoin acts)
}.

Lemma g2_bytes_inj (gs gs' : list (G2 P)) : g2_bytes <$> gs = g2_bytes <$> gs' → gs = gs'.
Proof using Hok.
  intros E. revert gs' E. induction gs as [|x gs IH]; intros [|y gs'] E; try done. injection E as Exy E. f_equal; [|by apply IH].
  pose proof (proj2 (cd_g2 _ _ _ _ _ _ _ _ _ _ _ _ _ Hok x)) as H1. rewrite Exy, (proj2 (cd_g2 _ _ _ _ _ _ _ _ _ _ _ _ _ Hok y)) in H1. by injection H1.
Qed.
Lemma gammas_sent (gs : list (G2 P)) gs' : mapM (λ b : bytes, g2_bytes <$> g2_parse b) (g2_bytes <$> gs) = Some gs' → gs' = g2_bytes <$> gs.
Proof using Hok. rewrite (mapM_fmap_self (λ b, g2_bytes <$> g2_parse b) g2_bytes gs); [by intros [= <-]|]. intros g. by rewrite (proj2 (cd_g2 _ _ _ _ _ _ _ _ _ _ _ _ _ Hok g)). Qed.
Lemma evals_sent_back (vs : list Z) : Forall (λ v, 0 ≤ v)%Z vs → Z.of_N <$> (AppModel.be_value <$> (big_bytes <$> vs)) = vs.
Proof using.
  intros H. rewrite <-!list_fmap_compose. rewrite <-(list_fmap_id vs) at 2. apply Forall_fmap_ext_1. eapply Forall_impl; [exact H|]. intros x Hx. cbn. rewrite <-be_value_N. by apply be_big_bytes.
Qed.
(** the events of an accepted message of the key generation, after those that start its eon *)
Lemma accepted_published tr m h tx a msg r n : produced_by chain m tr → (h < m)%nat → (tx, r) ∈ txs_at tr h → parse tx = Some (a, msg) → rsp_code r = 0%N →
  match msg_payload msg with MPolyCommitment n' _ | MAccusation n' _ | MApology n' _ _ => n' = n | _ => False end →
  ∃ e, rsp_events r = [e] ∧ typed e ∧ event_eon e = Some n ∧
    match msg_payload msg with
    | MPolyCommitment _ gs => ∃ gs', mapM (λ b : bytes, g2_bytes <$> g2_parse b) gs = Some gs' ∧ e = EvPolyCommitment a n gs'
    | MAccusation _ rs => ∃ rs', parse_addresses rs = Some rs' ∧ e = EvAccusation a n rs'
    | MApology _ rs es => ∃ rs', parse_addresses rs = Some rs' ∧ e = EvApology a n rs' (AppModel.be_value <$> es)
    | _ => False
    end ∧ ∀ k x, read (publish e) (Z.of_nat h) = Some (EonEvent k x) → ev_eon x = n → x ∈ of_kind k n (Pub m).
Proof using Hok.
  intros Hpb Hlt (j & Hj)%elem_of_list_lookup Hd Hcode Hmsg.
  destruct (published_split _ _ _ _ _ _ _ Hpb Hlt Hj) as (tr1 & ord & tr2 & s1 & s2 & before & after & E & H1 & Hv & Hs & Hsz & Epub & Eeons).
  assert (Forall typed (rsp_events r)) as Ht.
  { destruct H1 as [dev H1]. destruct (exec_typed pk_bytes pk_parse decompress compress g2_bytes g2_parse g1_bytes g1_parse pb_bytes pb_parse sha3 sig_signer Hok _ _ _ (new_votes_typed dev) H1) as [Hvt _].
    by destruct (step_typed pk_bytes pk_parse decompress compress g2_bytes g2_parse g1_bytes g1_parse pb_bytes pb_parse sha3 sig_signer Hok _ _ _ _ Hvt Hs) as [_ HF]. }
  pose proof (λ e, dkg_only_announced O tr1 s1 (CDeliverTx tx ord) r s2 e n H1 Hv Hs Hsz) as Hann.
  assert (Hres : ∃ e, rsp_events r = [e] ∧ event_eon e = Some n ∧
    match msg_payload msg with
    | MPolyCommitment _ gs => ∃ gs', mapM (λ b : bytes, g2_bytes <$> g2_parse b) gs = Some gs' ∧ e = EvPolyCommitment a n gs'
    | MAccusation _ rs => ∃ rs', parse_addresses rs = Some rs' ∧ e = EvAccusation a n rs'
    | MApology _ rs es => ∃ rs', parse_addresses rs = Some rs' ∧ e = EvApology a n rs' (AppModel.be_value <$> es)
    | _ => False
    end).
  { apply step_not_delivered in Hs as [(Hrej & _)|(tx' & ord' & a' & msg' & Heq & D & Hm)].
    { destruct (Hrej a (msg_payload msg)) as [Hc _]; [|by rewrite Hc in Hcode]. eexists _, _, _. split; [done|]. split; [exact Hd|done]. }
    injection Heq as <- <-. cbn [chain_oracles decode_tx] in D. rewrite Hd in D. injection D as <- <-.
    destruct (msg_payload msg) eqn:Epl; try done; subst; inversion Hm; subst; try done; eexists; (split; [reflexivity|]); (split; [reflexivity|]); eexists; (split; [eassumption|done]). }
  destruct Hres as (e & Er & Een & Hcase). exists e. split; [done|]. rewrite Er in Ht. split; [by apply Forall_inv in Ht|]. split; [done|]. split; [done|].
  intros k x Hx Hxn. rewrite Epub, Er. assert (n ∈ starts before) as Hst.
  { specialize (Hann e). rewrite Er in Hann. specialize (Hann ltac:(by left) Een). rewrite <-Eeons in Hann. exact Hann. }
  rewrite of_kind_started by done. apply elem_of_app. right. cbn [omap list_omap]. rewrite Hx. rewrite published_for_app. apply elem_of_app. left.
  unfold published_for. cbn [omap list_omap]. rewrite bool_decide_eq_true_2 by done. rewrite Hxn, N.eqb_refl. cbn. by left.
Qed.

Lemma read_is e ev h : typed e → says h e ev → ¬ empty_commitment e → read (publish e) h = Some ev.
Proof using Hok. intros. eapply C25_roundtrip; [exact Hok|done..]. Qed.
(** who signed what is on the chain *)
Lemma signed_by tr m k x : produced_by chain m tr → EonEvent k x ∈ Pub m →
  match k, ev_body x with
  | Commitment, BCommitment a gs => ∃ h tx msg r gs', (tx, r) ∈ txs_at tr h ∧ parse tx = Some (a, msg) ∧ rsp_code r = 0%N ∧ msg_payload msg = MPolyCommitment (ev_eon x) gs' ∧
      mapM (λ b : bytes, g2_bytes <$> g2_parse b) gs' = Some (g2_bytes <$> gs)
  | Apology, BApology a rs vs => ∃ h tx msg r rs' es, (tx, r) ∈ txs_at tr h ∧ parse tx = Some (a, msg) ∧ rsp_code r = 0%N ∧ msg_payload msg = MApology (ev_eon x) rs' es ∧
      parse_addresses rs' = Some rs ∧ vs = Z.of_N <$> (AppModel.be_value <$> es)
  | _, _ => True
  end.
Proof using Hok.
  intros Hpb Hin. destruct (published_from _ _ _ _ Hpb Hin) as (h & j & tx & r & ev & Hlt & Hj & Hev & Hr).
  destruct (published_split _ _ _ _ _ _ _ Hpb Hlt Hj) as (tr1 & ord & tr2 & s1 & s2 & before & after & E & H1 & Hv & Hs & _).
  assert (typed ev) as Ht.
  { destruct H1 as [dev H1]. destruct (exec_typed pk_bytes pk_parse decompress compress g2_bytes g2_parse g1_bytes g1_parse pb_bytes pb_parse sha3 sig_signer Hok _ _ _ (new_votes_typed dev) H1) as [Hvt _].
    destruct (step_typed pk_bytes pk_parse decompress compress g2_bytes g2_parse g1_bytes g1_parse pb_bytes pb_parse sha3 sig_signer Hok _ _ _ _ Hvt Hs) as [_ HF]. rewrite Forall_forall in HF. by apply HF. }
  apply (C25_exact keccak pk_bytes pk_parse decompress compress g2_bytes g2_parse g1_bytes g1_parse pb_bytes pb_parse sig_signer Hok) in Hr as [Hsay Hne]; [|done].
  apply step_not_delivered in Hs as [(_ & Hno & _)|(tx' & ord' & a & msg & Heq & D & Hm)]; [rewrite Hno in Hev; by apply elem_of_nil in Hev|].
  injection Heq as <- <-. cbn [chain_oracles decode_tx] in D. apply elem_of_list_lookup_2 in Hj. remember (msg_payload msg) as pl eqn:Epl.
  inversion Hm; subst; cbn [ok_response rsp_events error_response] in Hev; repeat (apply elem_of_cons in Hev as [->|Hev]); try (by apply elem_of_nil in Hev);
    inversion Hsay; subst; cbn [ev_body ev_eon]; try done.
  - eexists h, tx, msg, _, _. split_and!; [exact Hj|done|done|done|]. eassumption.
  - eexists h, tx, msg, _, _, _. split_and!; [exact Hj|done|done|done|eassumption|done].
Qed.
Lemma got_through_delivered p m l s acts n st b c idx poly tr : produced chain → keyper_run p m l s acts → sized → started m n st b → produced_by chain m tr →
  decided_in l n dealing → decided_in l n accusing → decided_in l n apologizing →
  Forall is_address (sc_keypers c) → (0 < sc_threshold c)%N → participates read chain plen p m l (mjoin acts) n st c idx poly →
  got_through plen tr m n st (kp_me p) (mjoin acts) → delivered read chain plen m n st (kp_me p) (mjoin acts).
Proof using Hok.
  intros Hp Hrun Hsz Hst Hpb D1 D2 D3 Had Hth [Q1 Q2 Q2' _ _ _ Q3 Q4] [G1 G2].
  assert (Hcom : ∀ gs, gs ∈ commitments_sent n (mjoin acts) → gs ≠ []).
  { intros gs Hgs. destruct Q2 as [Q2|(gs' & Q2 & HF)]; rewrite Q2 in Hgs; [by apply elem_of_nil in Hgs|]. apply elem_of_list_singleton in Hgs as ->. intros ->. apply Forall2_length in HF. cbn in HF. lia. }
  assert (Hkey : ∀ js (as_ : list N), Forall2 (λ j a, sc_keypers c !! j = Some a) js as_ → Forall is_address as_).
  { intros js as_ HF. apply Forall_forall. intros a Ha. apply elem_of_list_lookup in Ha as (i & Ha). destruct (Forall2_lookup_r _ _ _ _ _ HF Ha) as (j & _ & Hj). rewrite Forall_forall in Had. apply Had. by eapply elem_of_list_lookup_2. }
  assert (Hacc : ∀ as_, as_ ∈ accusations_sent n (mjoin acts) → Forall is_address as_).
  { intros as_ Ha. destruct (Q3 D2) as (js & _ & _ & A1 & A2). destruct (decide (js = [])) as [Ej|Ej]; [rewrite A1 in Ha by done; by apply elem_of_nil in Ha|].
    destruct (A2 Ej) as (as' & E & HF). rewrite E in Ha. apply elem_of_list_singleton in Ha as ->. by eapply Hkey. }
  assert (Hapo : ∀ as_ vs, (as_, vs) ∈ apologies_sent n (mjoin acts) → Forall is_address as_ ∧ Forall (λ v, 0 ≤ v)%Z vs).
  { intros as_ vs Ha. destruct (Q4 D3) as (js & _ & _ & A1 & A2). destruct (decide (js = [])) as [Ej|Ej]; [rewrite A1 in Ha by done; by apply elem_of_nil in Ha|].
    destruct (A2 Ej) as (as' & E & HF). rewrite E in Ha. apply elem_of_list_singleton in Ha. injection Ha as -> ->. split; [by eapply Hkey|].
    apply Forall_fmap, Forall_forall. intros j _. cbn. apply Z.mod_pos_bound. reflexivity. }
  assert (Hphase : ∀ k e q, e ∈ of_kind k n (Pub m) → phase_at plen (ev_height e) st = q → e ∈ in_phase plen st q (of_kind k n (Pub m))).
  { intros k e q He Hq. unfold in_phase. apply elem_of_list_In, filter_In. split; [by apply elem_of_list_In|]. by apply Nat.eqb_eq. }
  constructor.
  - intros gs Hgs. pose proof (Hcom gs Hgs) as Hne. unfold commitments_sent in Hgs. apply elem_of_list_bind in Hgs as (x & Hx & Hin). destruct x; try (by apply elem_of_nil in Hx).
    destruct (N.eqb_spec eon n) as [->|]; [|by apply elem_of_nil in Hx]. apply elem_of_list_singleton in Hx as ->.
    destruct (G1 _ dealing _ Hin eq_refl ltac:(done) eq_refl) as (h & tx & msg & r & Hlt & Hph & Htx & Hd & Hm & Hcode).
    destruct (accepted_published tr m h tx (kp_me p) msg r n Hpb Hlt Htx Hd Hcode) as (e & Er & Ht & Hen & Hcase & Hpub); [by rewrite Hm|].
    rewrite Hm in Hcase. cbn in Hcase. destruct Hcase as (gs' & Hg & ->). apply gammas_sent in Hg as ->.
    set (x := mkEv (Z.of_nat h) n (BCommitment (kp_me p) gammas) : eon_event (body P)). exists x. split; [|done]. apply Hphase; [|done]. apply Hpub; [|done].
    apply read_is; [done|constructor|]. intros (? & ? & [= _ _ E]). by destruct gammas.
  - intros as_ Hgs. pose proof (Hacc as_ Hgs) as Hne. unfold accusations_sent in Hgs. apply elem_of_list_bind in Hgs as (x & Hx & Hin). destruct x; try (by apply elem_of_nil in Hx).
    destruct (N.eqb_spec eon n) as [->|]; [|by apply elem_of_nil in Hx]. apply elem_of_list_singleton in Hx as ->.
    destruct (G1 _ accusing _ Hin eq_refl ltac:(done) eq_refl) as (h & tx & msg & r & Hlt & Hph & Htx & Hd & Hm & Hcode).
    destruct (accepted_published tr m h tx (kp_me p) msg r n Hpb Hlt Htx Hd Hcode) as (e & Er & Ht & Hen & Hcase & Hpub); [by rewrite Hm|].
    rewrite Hm in Hcase. cbn in Hcase. destruct Hcase as (rs & Hg & ->). apply parse_sent in Hg as ->; [|done].
    set (x := mkEv (Z.of_nat h) n (BAccusation (kp_me p) accused) : eon_event (body P)). exists x. split; [|done]. apply Hphase; [|done]. apply Hpub; [|done].
    apply read_is; [done|constructor|]. by intros (? & ? & ?).
  - intros as_ vs Hgs. pose proof (Hapo as_ vs Hgs) as [Hne Hvs]. unfold apologies_sent in Hgs. apply elem_of_list_bind in Hgs as (x & Hx & Hin). destruct x; try (by apply elem_of_nil in Hx).
    destruct (N.eqb_spec eon n) as [->|]; [|by apply elem_of_nil in Hx]. apply elem_of_list_singleton in Hx. injection Hx as -> ->.
    destruct (G1 _ apologizing _ Hin eq_refl ltac:(done) eq_refl) as (h & tx & msg & r & Hlt & Hph & Htx & Hd & Hm & Hcode).
    destruct (accepted_published tr m h tx (kp_me p) msg r n Hpb Hlt Htx Hd Hcode) as (e & Er & Ht & Hen & Hcase & Hpub); [by rewrite Hm|].
    rewrite Hm in Hcase. cbn in Hcase. destruct Hcase as (rs & Hg & ->). apply parse_sent in Hg as ->; [|done].
    set (x := mkEv (Z.of_nat h) n (BApology (kp_me p) accusers evals) : eon_event (body P)). exists x. split; [|done]. apply Hphase; [|done]. apply Hpub; [|done].
    apply read_is; [done| |by intros (? & ? & ?)]. unfold x. rewrite <-(evals_sent_back evals Hvs) at 2. constructor.
  - intros e gs He Eb. pose proof (of_kind_elem _ _ _ _ He) as [Hin Hn]. pose proof (signed_by tr m _ _ Hpb Hin) as Hsig. rewrite Eb, Hn in Hsig.
    destruct Hsig as (h & tx & msg & r & gs' & Htx & Hd & Hcode & Hm & Hg). specialize (G2 h tx msg r Htx Hd Hcode). rewrite Hm in G2. destruct (G2 eq_refl) as (x & Hx & Hs).
    destruct x; try done; cbn in Hs; try discriminate Hs. injection Hs as -> <-. apply gammas_sent, g2_bytes_inj in Hg as ->.
    unfold commitments_sent. apply elem_of_list_bind. exists (KCommitment n gammas). split; [|done]. rewrite N.eqb_refl. by left.
  - intros e as_ vs He Eb. pose proof (of_kind_elem _ _ _ _ He) as [Hin Hn]. pose proof (signed_by tr m _ _ Hpb Hin) as Hsig. rewrite Eb, Hn in Hsig.
    destruct Hsig as (h & tx & msg & r & rs' & es & Htx & Hd & Hcode & Hm & Hg & ->). specialize (G2 h tx msg r Htx Hd Hcode). rewrite Hm in G2. destruct (G2 eq_refl) as (x & Hx & Hs).
    destruct x; try done; cbn in Hs; try discriminate Hs. injection Hs as -> <- <-.
    assert ((accusers, evals) ∈ apologies_sent n (mjoin acts)) as Hin'.
    { unfold apologies_sent. apply elem_of_list_bind. exists (KApology n accusers evals). split; [|done]. rewrite N.eqb_refl. by left. }
    destruct (Hapo _ _ Hin') as [H1 H2]. apply parse_sent in Hg as ->; [|done]. by rewrite evals_sent_back.
Qed.

(** If, for eon [n], at least a threshold of the keypers of its config do their part, then all of them end up with a key for it, and it is the same for
    all of them, whatever anyone else sends to the chain. *)
Theorem C66_key_generation n st b c (hs : list (keyper_params P * nat * list (kinput P PK) * kstate P * list (list (kaction P)) * trace)) :
  produced chain → settled n → (∀ m, started m n st b → config_at m b c) → sized →
  (∀ m c, BatchConfig c ∈ Pub m → (Z.of_nat (length (sc_keypers c)) < 2 ^ 63)%Z) →
  NoDup ((λ h, kp_me h.1.1.1.1.1) <$> hs) → (sc_threshold c ≤ N.of_nat (length hs))%N →
  (∀ p m l s acts tr, (p, m, l, s, acts, tr) ∈ hs → kp_me p ∈ sc_keypers c ∧ does_its_part n st b p m l s acts tr) →
  (∀ p m l s acts tr, (p, m, l, s, acts, tr) ∈ hs → ∃ g, g ∈ k_ekgs s ∧ g_eon g = n ∧ g_keypers g = sc_keypers c) ∧
  ∀ p1 m1 l1 s1 acts1 tr1 g1 p2 m2 l2 s2 acts2 tr2 g2, (p1, m1, l1, s1, acts1, tr1) ∈ hs → (p2, m2, l2, s2, acts2, tr2) ∈ hs →
    g1 ∈ k_ekgs s1 → g2 ∈ k_ekgs s2 → g_eon g1 = n → g_eon g2 = n → ek_pk (g_epochkg g1) = ek_pk (g_epochkg g2).
Proof using Hok.
  intros Hp Hset Hcfg Hsz Hlen Hnd Hth Hall.
  destruct (C65_well_formed keccak pk_bytes pk_parse decompress compress g2_bytes g2_parse g1_bytes g1_parse pb_bytes pb_parse sha3 sig_signer Hok chain Hp) as [Hho Hwf].
  assert (Hsc : sized_configs read chain).
  { intros m c' Hin. split; [|by apply (Hlen m)]. by destruct (C65_config _ _ _ Hp Hin) as (_ & _ & _ & [_ ?] & _). }
  assert (Hpos : ∀ m, started m n st b → (0 < n)%N).
  { intros m Hst. destruct (Hp m) as (tr & s & Hh & He & Hc). assert (n ∈ eons_of tr) as Hin.
    { destruct (first_events_prefix pk_bytes pk_parse decompress g2_bytes g2_parse g1_bytes g1_parse pb_parse sha3 sig_signer tr s m Hh) as [rest E]. change (eons_of tr) with (eons_in (AppSpec.events_of tr)). rewrite E, eons_in_app. apply elem_of_app. left.
      erewrite <-readings_eons; [|exact Hok|exact Hh]. rewrite <-published_readings, <-(published_ext keccak pk_parse g2_parse g1_parse _ _ _ Hc).
      apply elem_of_list_omap. by exists (EonStarted st n b). }
    rewrite (C07_eons_consecutive O tr s Hh He) in Hin. apply elem_of_list_fmap in Hin as (k & -> & Hk%elem_of_seq). lia. }
  assert (Hpart : ∀ p m l s acts tr, (p, m, l, s, acts, tr) ∈ hs → kp_me p ∈ sc_keypers c ∧ did_its_part read chain plen epoch_point n st b p m l s acts).
  { intros p m l s acts tr Hin. destruct (Hall _ _ _ _ _ _ Hin) as [Hme [R1 R2 R3 R4 R5 R6 R7 R8]]. split; [done|].
    assert (BatchConfig c ∈ Pub m) as Hcm. { eapply (config_published read chain). by apply Hcfg. }
    destruct (C65_config _ _ _ Hp Hcm) as (_ & _ & Had & [Ht _] & _).
    constructor; try done.
    destruct (C59_participation read chain plen epoch_point Hwf Hho p m l s acts n st b R1 (Hpos m R2) R2 Hsz Hsc) as (a & Ha & Hsa & [[Hno _]|(c' & idx & poly & Hca & Hidx & Hpa)]).
    - exfalso. by apply (Hno c (Hcfg a Hsa)).
    - assert (c' = c) as ->.
      { destruct (Hcfg a Hsa) as (pre & post & E1 & E2 & E3). destruct Hca as (pre' & post' & F1 & F2 & F3).
        rewrite E1 in F1. clear -E2 E3 F1 F2 F3. revert pre' F1. induction pre as [|x pre IH]; intros [|y pre'] F1; cbn in F1.
        - by injection F1 as -> _.
        - injection F1 as <- ->. exfalso. specialize (E3 c' ltac:(apply elem_of_app; right; by left)). lia.
        - injection F1 as -> <-. exfalso. specialize (F3 c ltac:(apply elem_of_app; right; by left)). lia.
        - injection F1 as _ F1. by eapply IH. }
      eapply got_through_delivered; try done. }
  assert (Hne : hs = [] ∨ ∃ m, started m n st b).
  { destruct hs as [|[[[[[p m] l] s] acts] tr] hs']; [by left|right]. destruct (Hall p m l s acts tr ltac:(by left)) as [_ [_ R2 _ _ _ _ _ _]]. by exists m. }
  destruct Hne as [->|[m0 Hst]].
  { split; [intros ? ? ? ? ? ? Hin; by apply elem_of_nil in Hin|]. intros ? ? ? ? ? ? ? ? ? ? ? ? ? ? Hin; by apply elem_of_nil in Hin. }
  assert (NoDup (sc_keypers c)) as Hndk.
  { assert (BatchConfig c ∈ Pub m0) as Hcm by (eapply (config_published read chain); by apply Hcfg). by destruct (C65_config _ _ _ Hp Hcm). }
  destruct (C63_key_generation read chain plen epoch_point Hwf Hho n st b c (fst <$> hs) (Hpos m0 Hst) Hset Hcfg Hsc Hndk) as [K1 K2].
  - rewrite <-list_fmap_compose. exact Hnd.
  - by rewrite fmap_length.
  - intros p m l s acts Hin. apply elem_of_list_fmap in Hin as ([h tr] & E & Hin). cbn in E. subst h. by apply (Hpart p m l s acts tr).
  - split.
    + intros p m l s acts tr Hin. apply (K1 p m l s acts). apply elem_of_list_fmap. by exists (p, m, l, s, acts, tr).
    + intros p1 m1 l1 s1 acts1 tr1 g1 p2 m2 l2 s2 acts2 tr2 g2 H1 H2. apply (K2 p1 m1 l1 s1 acts1 g1 p2 m2 l2 s2 acts2 g2); apply elem_of_list_fmap; [by exists (p1, m1, l1, s1, acts1, tr1)|by exists (p2, m2, l2, s2, acts2, tr2)].
Qed.
(** Any two keypers that hold a key for an eon hold the same one, whatever was sent to the chain.  Partial: as C58_agreement_partial. *)
Theorem C66_agreement_partial p1 p2 m1 m2 l1 l2 s1 s2 acts1 acts2 g1 g2 : produced chain →
  keyper_run p1 m1 l1 s1 acts1 → keyper_run p2 m2 l2 s2 acts2 → g1 ∈ k_ekgs s1 → g2 ∈ k_ekgs s2 → g_eon g1 = g_eon g2 → settled (g_eon g1) →
  g_keypers g1 = g_keypers g2 ∧ ek_pk (g_epochkg g1) = ek_pk (g_epochkg g2) ∧ ek_pkshares (g_epochkg g1) = ek_pkshares (g_epochkg g2) ∧
  ek_threshold (g_epochkg g1) = ek_threshold (g_epochkg g2).
Proof using Hok.
  intros Hp. destruct (C65_well_formed keccak pk_bytes pk_parse decompress compress g2_bytes g2_parse g1_bytes g1_parse pb_bytes pb_parse sha3 sig_signer Hok chain Hp) as [Hho Hwf].
  by apply C58_agreement_partial.
Qed.
(** what is on the chain in keyper [a]'s name was signed by [a], and accepted by the app *)
Theorem C66_authentic tr m k x : produced_by chain m tr → EonEvent k x ∈ Pub m →
  match k, ev_body x with
  | Commitment, BCommitment a _ | PolyEval, BPolyEval a _ _ | Accusation, BAccusation a _ | Apology, BApology a _ _ | KeyShare, BKeyShare a _ _ =>
      ∃ h tx msg r, (h < m)%nat ∧ ev_height x = Z.of_nat h ∧ (tx, r) ∈ txs_at tr h ∧ parse tx = Some (a, msg) ∧ rsp_code r = 0%N
  | _, _ => False
  end.
Proof using Hok.
  intros Hpb Hin. destruct (published_from _ _ _ _ Hpb Hin) as (h & j & tx & r & ev & Hlt & Hj & Hev & Hr).
  destruct (published_split _ _ _ _ _ _ _ Hpb Hlt Hj) as (tr1 & ord & tr2 & s1 & s2 & before & after & E & H1 & Hv & Hs & _).
  assert (typed ev) as Ht.
  { destruct H1 as [dev H1]. destruct (exec_typed pk_bytes pk_parse decompress compress g2_bytes g2_parse g1_bytes g1_parse pb_bytes pb_parse sha3 sig_signer Hok _ _ _ (new_votes_typed dev) H1) as [Hvt _].
    destruct (step_typed pk_bytes pk_parse decompress compress g2_bytes g2_parse g1_bytes g1_parse pb_bytes pb_parse sha3 sig_signer Hok _ _ _ _ Hvt Hs) as [_ HF]. rewrite Forall_forall in HF. by apply HF. }
  apply (C25_exact keccak pk_bytes pk_parse decompress compress g2_bytes g2_parse g1_bytes g1_parse pb_bytes pb_parse sig_signer Hok) in Hr as [Hsay Hne]; [|done].
  apply step_not_delivered in Hs as [(_ & Hno & _)|(tx' & ord' & a & msg & Heq & D & Hm)]; [rewrite Hno in Hev; by apply elem_of_nil in Hev|].
  injection Heq as <- <-. cbn [chain_oracles decode_tx] in D. apply elem_of_list_lookup_2 in Hj. remember (msg_payload msg) as pl eqn:Epl.
  inversion Hm; subst; cbn [ok_response rsp_events error_response] in Hev; repeat (apply elem_of_cons in Hev as [->|Hev]); try (by apply elem_of_nil in Hev);
    inversion Hsay; subst; cbn [ev_body ev_eon]; try done; eexists h, tx, msg, _; (split; [exact Hlt|]); (split; [done|]); (split; [exact Hj|done]).
Qed.
End Generation.
End Full.

(** Case analysis of the application's steps: one constructor per observable effect. *)
From stdpp Require Import gmap list sorting.
From Coq Require Import NArith ZArith.
From RecordUpdate Require Import RecordUpdate.
From Verif Require Import AppModel AppSpec.

(** Effects of delivering a message with payload [p] of [sender] in a state [s]. *)
Inductive mstep (O : oracles) (ord : order) (s : app) (sender : address) : payload → app → response → Prop :=
| ms_error p : mstep O ord s sender p s error_response
| ms_dup m bc : config_from_message m = Some bc → last_config s = Some bc →
    mstep O ord s sender (MBatchConfig m) s (ok_response [])
| ms_vote m bc l : config_from_message m = Some bc → last_config s = Some l → l ≠ bc →
    check_config l bc = true → sender ∈ cf_keypers l → vt_votes (config_voting s) !! sender = None →
    outcome ord (add_vote (config_voting s) sender bc) (int_of_uint64 (cf_threshold l)) = None →
    mstep O ord s sender (MBatchConfig m)
      (s <| config_voting := add_vote (config_voting s) sender bc |>) (ok_response [])
| ms_config m bc l w : config_from_message m = Some bc → last_config s = Some l → l ≠ bc →
    check_config l bc = true → sender ∈ cf_keypers l → vt_votes (config_voting s) !! sender = None →
    outcome ord (add_vote (config_voting s) sender bc) (int_of_uint64 (cf_threshold l)) = Some w →
    should_start_dkg s bc = false →
    mstep O ord s sender (MBatchConfig m)
      (s <| config_voting := new_voting |> <| configs := configs s ++ [bc] |>
         <| ck_members := list_to_set (concat (cf_keypers <$> (configs s ++ [bc]))) |>)
      (ok_response [EvBatchConfig bc])
| ms_config_dkg m bc l w eon : config_from_message m = Some bc → last_config s = Some l → l ≠ bc →
    check_config l bc = true → sender ∈ cf_keypers l → vt_votes (config_voting s) !! sender = None →
    outcome ord (add_vote (config_voting s) sender bc) (int_of_uint64 (cf_threshold l)) = Some w →
    should_start_dkg s bc = true →
    eon = u64 (eon_counter s + 1) →
    mstep O ord s sender (MBatchConfig m)
      (s <| config_voting := new_voting |> <| configs := configs s ++ [bc] |>
         <| ck_members := list_to_set (concat (cf_keypers <$> (configs s ++ [bc]))) |>
         <| eon_counter := eon |> <| dkg_map := <[eon := new_dkg bc eon]> (dkg_map s) |>)
      (ok_response [EvBatchConfig bc; EvEonStarted eon (cf_start bc)])
| ms_check_in v e k : identities s !! sender = None → is_keyper_any s sender = true → length v = 32 →
    decompress_pubkey O e = Some k →
    mstep O ord s sender (MCheckIn v e) (s <| identities := <[sender := v]> (identities s) |>)
      (ok_response [EvCheckIn sender k])
| ms_started_noop i l p : last_config s = Some l → i = cf_index l → 2 ≤ length (configs s) →
    configs s !! (length (configs s) - 2) = Some p → sender ∈ cf_keypers p → cf_started l = true →
    mstep O ord s sender (MBatchConfigStarted i) s (ok_response [])
| ms_started i l p : last_config s = Some l → i = cf_index l → 2 ≤ length (configs s) →
    configs s !! (length (configs s) - 2) = Some p → sender ∈ cf_keypers p → cf_started l = false →
    mstep O ord s sender (MBatchConfigStarted i)
      (s <| started_votes := started_votes s ∪ {[ sender ]} |>) (ok_response [])
| ms_eon_vote b c v : get_config s b = Some c → sender ∈ cf_keypers c →
    v = add_vote (default new_voting (eon_votings s !! cf_index c)) sender b →
    outcome ord v (int_of_uint64 (cf_threshold c)) = None →
    mstep O ord s sender (MEonStartVote b)
      (s <| eon_votings := <[cf_index c := v]> (eon_votings s) |>) (ok_response [])
| ms_eon_start b c v w eon : get_config s b = Some c → sender ∈ cf_keypers c →
    v = add_vote (default new_voting (eon_votings s !! cf_index c)) sender b →
    outcome ord v (int_of_uint64 (cf_threshold c)) = Some w →
    eon = u64 (eon_counter s + 1) →
    mstep O ord s sender (MEonStartVote b)
      (s <| eon_votings := delete (cf_index c) (eon_votings s) |>
         <| eon_counter := eon |> <| dkg_map := <[eon := new_dkg c eon]> (dkg_map s) |>)
      (ok_response [EvEonStarted eon w])
| ms_sig b sig bs bs' : get_batch_state s b = Some bs →
    add_decryption_signature bs sender sig = Some bs' →
    mstep O ord s sender (MDecryptionSignature b sig)
      (s <| batch_states := <[b := bs']> (batch_states s) |>)
      (ok_response [EvDecryptionSignature b sender sig])
| ms_poly_eval eon rs evs as_ d d' : length rs = length evs → parse_addresses rs = Some as_ →
    dkg_map s !! eon = Some d → register_poly_eval d sender eon as_ = Some d' →
    mstep O ord s sender (MPolyEval eon rs evs) (s <| dkg_map := <[eon := d']> (dkg_map s) |>)
      (ok_response [EvPolyEval sender eon as_ evs])
| ms_commitment eon gs gs' d d' : mapM (g2_unmarshal O) gs = Some gs' →
    dkg_map s !! eon = Some d → register_commitment d sender eon = Some d' →
    mstep O ord s sender (MPolyCommitment eon gs) (s <| dkg_map := <[eon := d']> (dkg_map s) |>)
      (ok_response [EvPolyCommitment sender eon gs'])
| ms_accusation eon rs as_ d d' : parse_addresses rs = Some as_ →
    dkg_map s !! eon = Some d → register_accusation d sender eon as_ = Some d' →
    mstep O ord s sender (MAccusation eon rs) (s <| dkg_map := <[eon := d']> (dkg_map s) |>)
      (ok_response [EvAccusation sender eon as_])
| ms_apology eon rs evs as_ d d' : length rs = length evs → parse_addresses rs = Some as_ →
    dkg_map s !! eon = Some d → register_apology d sender eon as_ = Some d' →
    mstep O ord s sender (MApology eon rs evs) (s <| dkg_map := <[eon := d']> (dkg_map s) |>)
      (ok_response [EvApology sender eon as_ (be_value <$> evs)])
| ms_share eon ep sh sh' : share_decode O sh = Some sh' →
    mstep O ord s sender (MEpochSecretKeyShare eon ep sh) s
      (ok_response [EvEpochSecretKeyShare sender eon ep sh']).

Lemma negb_false b : negb b = false → b = true.
Proof. by destruct b. Qed.
Lemma is_keyper_true c a : is_keyper c a = true ↔ a ∈ cf_keypers c.
Proof. unfold is_keyper. by rewrite bool_decide_eq_true. Qed.

Lemma last_config_snoc (s : app) l c : last_config (s <| configs := l ++ [c] |>) = Some c.
Proof. unfold last_config; simpl. apply last_snoc. Qed.

Lemma deliver_message_mstep O ord s p sender s' r :
  deliver_message O ord s p sender = Some (s', r) → mstep O ord s sender p s' r.
Proof.
  destruct p as [m|i|v e|b|b sig|eon rs evs|eon gs|eon l|eon l evs|eon ep sh|]; cbn [deliver_message]; intros H.
  - unfold deliver_batch_config in H. destruct (config_from_message m) as [bc|] eqn:Hm; [|simplify_eq; constructor].
    destruct (last_config s) as [l|] eqn:Hl; cbn in H; [|done].
    destruct (bool_decide (l = bc)) eqn:Hb.
    { apply bool_decide_eq_true in Hb. simplify_eq. by eapply ms_dup. }
    apply bool_decide_eq_false in Hb.
    destruct (check_config l bc) eqn:Hc; cbn in H; [|simplify_eq; constructor].
    destruct (is_keyper l sender) eqn:Hk; cbn in H; [|simplify_eq; constructor].
    apply is_keyper_true in Hk.
    unfold config_add_vote in H.
    destruct (vt_votes (config_voting s) !! sender) eqn:Hv; [simplify_eq; constructor|].
    destruct (outcome _ _ _) as [w|] eqn:Ho; [|simplify_eq; by eapply ms_vote].
    unfold add_config in H. rewrite Hc in H.
    destruct (should_start_dkg _ _) eqn:Hs.
    + match type of H with context [last ?x] =>
        assert (Hl4 : last x = Some bc) by exact (last_snoc bc (configs s)); rewrite Hl4 in H end.
      cbn in H. simplify_eq. exact (ms_config_dkg O ord s sender m bc l w _ Hm Hl Hb Hc Hk Hv Ho Hs eq_refl).
    + simplify_eq. exact (ms_config O ord s sender m bc l w Hm Hl Hb Hc Hk Hv Ho Hs).
  - unfold deliver_config_started in H.
    destruct (last_config s) as [l|] eqn:Hl; cbn in H; [|done].
    destruct (N.eqb_spec i (cf_index l)); cbn in H; [|simplify_eq; constructor].
    destruct (Nat.leb_spec (length (configs s)) 1); cbn in H; [simplify_eq; constructor|].
    destruct (configs s !! (length (configs s) - 2)) as [p|] eqn:Hp; cbn in H; [|done].
    destruct (is_keyper p sender) eqn:Hk; cbn in H; [|simplify_eq; constructor].
    apply is_keyper_true in Hk.
    destruct (cf_started l) eqn:Hst; cbn in H; simplify_eq.
    + eapply ms_started_noop; eauto.
    + eapply ms_started; eauto.
  - unfold deliver_check_in in H. destruct (identities s !! sender) eqn:Hi; [simplify_eq; constructor|].
    destruct (is_keyper_any s sender) eqn:Hk; cbn in H; [|simplify_eq; constructor].
    destruct (Nat.eqb_spec (length v) 32) as [Hv|]; cbn in H; [|simplify_eq; constructor].
    destruct (decompress_pubkey O e) eqn:He; simplify_eq; [|constructor].
    by eapply ms_check_in.
  - unfold deliver_eon_start_vote in H. destruct (get_config s b) as [c|] eqn:Hc; cbn in H; [|done].
    destruct (is_keyper c sender) eqn:Hk; cbn in H; [|simplify_eq; constructor].
    apply is_keyper_true in Hk.
    unfold maybe_start_eon, count_eon_start_vote in H. cbn in H. rewrite lookup_insert in H.
    destruct (outcome _ _ _) as [w|] eqn:Ho; cbn in H; simplify_eq.
    + rewrite delete_insert_delete.
      exact (ms_eon_start O ord s sender b c _ w _ Hc Hk eq_refl Ho eq_refl).
    + by eapply ms_eon_vote.
  - unfold deliver_decryption_signature in H. destruct (get_batch_state s b) as [bs|] eqn:Hb; cbn in H; [|done].
    destruct (add_decryption_signature bs sender sig) eqn:Ha; simplify_eq; [by eapply ms_sig|constructor].
  - injection H as H. unfold handle_poly_eval in H.
    destruct (Nat.eqb_spec (length rs) (length evs)); cbn in H; [|simplify_eq; constructor].
    destruct (parse_addresses rs) eqn:?; [|simplify_eq; constructor].
    destruct (dkg_map s !! eon) eqn:?; [|simplify_eq; constructor].
    destruct (register_poly_eval _ _ _ _) eqn:?; simplify_eq; [by eapply ms_poly_eval|constructor].
  - injection H as H. unfold handle_poly_commitment in H.
    destruct (mapM _ gs) eqn:?; [|simplify_eq; constructor].
    destruct (dkg_map s !! eon) eqn:?; [|simplify_eq; constructor].
    destruct (register_commitment _ _ _) eqn:?; simplify_eq; [by eapply ms_commitment|constructor].
  - injection H as H. unfold handle_accusation in H.
    destruct (parse_addresses l) eqn:?; [|simplify_eq; constructor].
    destruct (dkg_map s !! eon) eqn:?; [|simplify_eq; constructor].
    destruct (register_accusation _ _ _ _) eqn:?; simplify_eq; [by eapply ms_accusation|constructor].
  - injection H as H. unfold handle_apology in H.
    destruct (Nat.eqb_spec (length l) (length evs)); cbn in H; [|simplify_eq; constructor].
    destruct (parse_addresses l) eqn:?; [|simplify_eq; constructor].
    destruct (dkg_map s !! eon) eqn:?; [|simplify_eq; constructor].
    destruct (register_apology _ _ _ _) eqn:?; simplify_eq; [by eapply ms_apology|constructor].
  - injection H as H. unfold handle_epoch_share in H.
    destruct (share_decode O sh) eqn:?; simplify_eq; [by eapply ms_share|constructor].
  - simplify_eq. constructor.
Qed.

(** The state in which a message is handled: its nonce has been recorded. *)
Definition with_nonce (s : app) (a : address) (m : message) : app :=
  s <| nonces := nonces s ∪ {[ (a, msg_nonce m) ]} |>.

Lemma deliver_tx_cases O ord s tx s' r :
  deliver_tx O ord s tx = Some (s', r) →
  (s' = s ∧ r = error_response) ∨
  (∃ a m, decode_tx O tx = Some (a, m) ∧ msg_chain_id m = chain_id s ∧ (a, msg_nonce m) ∉ nonces s ∧
          mstep O ord (with_nonce s a m) a (msg_payload m) s' r).
Proof.
  unfold deliver_tx. destruct (decode_tx O tx) as [[a m]|] eqn:Hd; [|intros; simplify_eq; by left].
  destruct (bool_decide (msg_chain_id m = chain_id s)) eqn:Hc; cbn; [|intros; simplify_eq; by left].
  apply bool_decide_eq_true in Hc.
  case_bool_decide as Hn; [intros; simplify_eq; by left|].
  intros H. right. exists a, m. split_and!; try done. by apply deliver_message_mstep.
Qed.

(** exec basics *)
Lemma exec_app O s1 tr1 s2 tr2 s3 : exec O s1 tr1 s2 → exec O s2 tr2 s3 → exec O s1 (tr1 ++ tr2) s3.
Proof.
  intros H1 H2. induction H2 as [|? tr ? c r ? ? IH ? ?].
  - by rewrite app_nil_r.
  - rewrite app_assoc. econstructor; eauto.
Qed.
Lemma exec_nil_inv O s s' : exec O s [] s' → s' = s.
Proof. inversion 1; [done|]. by destruct tr. Qed.
Lemma exec_snoc_inv O s tr c r s' : exec O s (tr ++ [(c, r)]) s' →
  ∃ s1, exec O s tr s1 ∧ valid_call c ∧ step O s1 c = Some (s', r).
Proof.
  intros H. remember (tr ++ [(c, r)]) as t eqn:Et. destruct H as [s|s tr0 s1 c0 r0 s2 He Hv Hs].
  { by destruct tr. }
  apply app_inj_tail in Et as [-> Hp]. simplify_eq. eauto.
Qed.
Lemma exec_one O s c r s' : valid_call c → step O s c = Some (s', r) → exec O s [(c, r)] s'.
Proof. intros. apply (exec_snoc O s [] s); [constructor|done..]. Qed.
Lemma exec_app_inv O s tr1 tr2 s' : exec O s (tr1 ++ tr2) s' →
  ∃ s1, exec O s tr1 s1 ∧ exec O s1 tr2 s'.
Proof.
  revert s'. induction tr2 as [|[c r] tr2 IH] using rev_ind; intros s' H.
  - rewrite app_nil_r in H. exists s'. split; [done|constructor].
  - rewrite app_assoc in H. apply exec_snoc_inv in H as (s1 & H1 & Hv & Hs).
    apply IH in H1 as (s0 & H0 & H1). exists s0. split; [done|]. econstructor; eauto.
Qed.

Lemma events_of_app tr1 tr2 : events_of (tr1 ++ tr2) = events_of tr1 ++ events_of tr2.
Proof. unfold events_of. by rewrite !fmap_app, concat_app. Qed.
Lemma events_of_one c r : events_of [(c, r)] = rsp_events r.
Proof. unfold events_of. simpl. by rewrite app_nil_r. Qed.
Lemma eons_of_app tr1 tr2 : eons_of (tr1 ++ tr2) = eons_of tr1 ++ eons_of tr2.
Proof. unfold eons_of. by rewrite events_of_app, omap_app. Qed.

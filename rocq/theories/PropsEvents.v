(** C25, C64: what is published on shuttermint reaches its readers unchanged. *)
From stdpp Require Import gmap list strings sorting.
From Coq Require Import ZArith NArith Lia.
From RecordUpdate Require Import RecordUpdate.
From Verif Require Import CryptoModel EncModel EncodingModel PropsEncoding AppModel AppSpec AppSteps VotingProofs AppInv AppProofs1 AppProofs2 AppProofs3
  ObserveModel KeyperModel EventsModel EventsSpec EventsProofs.

(** the fields of an event have their Go types: uint64, common.Address, points and keys *)
Definition typed_event {P : pairing} {PK : Type} (pk_bytes : PK → bytes) (g2_bytes : G2 P → bytes) (g1_bytes : G1 P → bytes) (e : AppModel.event) : Prop :=
  match e with
  | EvBatchConfig c => is_u64 (cf_start c) ∧ is_u64 (cf_threshold c) ∧ Forall is_address (cf_keypers c) ∧ is_u64 (cf_index c)
  | EvEonStarted n b => is_u64 n ∧ is_u64 b
  | EvCheckIn a k => is_address a ∧ ∃ k', k = pk_bytes k'
  | EvDecryptionSignature b a sig => is_u64 b ∧ is_address a ∧ is_bytes sig
  | EvPolyEval a n rs es => is_address a ∧ is_u64 n ∧ Forall is_address rs ∧ Forall is_bytes es
  | EvPolyCommitment a n gs => is_address a ∧ is_u64 n ∧ ∃ gs', gs = g2_bytes <$> gs'
  | EvAccusation a n rs => is_address a ∧ is_u64 n ∧ Forall is_address rs
  | EvApology a n rs es => is_address a ∧ is_u64 n ∧ Forall is_address rs
  | EvEpochSecretKeyShare a n ep sh => is_address a ∧ is_u64 n ∧ is_u64 ep ∧ ∃ sh', sh = g1_bytes sh'
  end.

Section Read.
Context (keccak : bytes → bytes) {P : pairing} {PK : Type}
  (pk_bytes : PK → bytes) (pk_parse decompress : bytes → option PK) (compress : PK → bytes)
  (g2_bytes : G2 P → bytes) (g2_parse : bytes → option (G2 P)) (g1_bytes : G1 P → bytes) (g1_parse : bytes → option (G1 P))
  (pb_bytes : message → bytes) (pb_parse : bytes → option message) (sha3 : bytes → bytes) (sig_signer : bytes → bytes → option N).
Context (Hok : codecs P PK pk_bytes g2_bytes g1_bytes pk_parse decompress compress g2_parse g1_parse pb_bytes pb_parse sig_signer).
Notation sevent := (shutter_event (body P) sconfig PK (N * bytes)).
Notation typed := (typed_event pk_bytes g2_bytes g1_bytes).
Notation says := (says P PK pk_bytes g2_bytes g1_bytes).
Notation publish := (make_abci keccak).
Notation read := (make_event keccak P PK pk_parse g2_parse g1_parse).
Notation O := (chain_oracles P PK pk_bytes g2_bytes g1_bytes pk_parse decompress g2_parse g1_parse pb_parse sha3 sig_signer).

Lemma typed_says e h : typed e → ∃ ev, says h e ev.
Proof using. destruct e; cbn; intros H; destruct_and?; repeat match goal with H : ∃ _, _ |- _ => destruct H as [? ->] end; eexists; constructor. Qed.
Lemma apology_evals_roundtrip (l : list N) : EncModel.be_value <$> ((λ x, big_bytes (Z.of_N x)) <$> l) = Z.of_N <$> l.
Proof using. rewrite <-list_fmap_compose. apply list_fmap_ext. intros i x _. cbn. apply be_big_bytes. lia. Qed.
Lemma big_bytes_bytes x : is_bytes (big_bytes x).
Proof using.
  unfold big_bytes. generalize (Z.to_N (Z.abs x)). intros n. generalize (N.size_nat n). intros f. revert n. induction f as [|f IH]; intros n; cbn [le_bytes]; [constructor|].
  destruct (N.eqb_spec n 0); [constructor|]. cbn [rev]. apply Forall_app. split; [apply IH|]. apply Forall_singleton. by apply N.mod_lt.
Qed.
Lemma gammas_roundtrip (gs : list (G2 P)) : gs ≠ [] → decode_gammas P g2_parse (encode_gammas (g2_bytes <$> gs)) = Some gs.
Proof using Hok.
  intros Hne. unfold decode_gammas, encode_gammas. rewrite split_join.
  - rewrite <-list_fmap_compose. apply (mapM_fmap_roundtrip _ _ (λ _, True)); [|by apply Forall_forall].
    intros g _. cbn. destruct (cd_g2 _ _ _ _ _ _ _ _ _ _ _ _ _ Hok g) as [Hb Hp]. rewrite hex_plain_pairs by done. exact Hp.
  - by destruct gs.
  - apply Forall_fmap, Forall_fmap, Forall_forall. intros g _. cbn. destruct (cd_g2 _ _ _ _ _ _ _ _ _ _ _ _ _ Hok g) as [Hb _].
    eapply Forall_impl; [by apply hex_plain_chars|]. intros c Hc. unfold is_hex_char, comma in *. lia.
Qed.
Lemma gammas_empty : decode_gammas P g2_parse (encode_gammas []) = None.
Proof using Hok. unfold decode_gammas, encode_gammas. cbn. by rewrite (cd_g2_empty _ _ _ _ _ _ _ _ _ _ _ _ _ Hok). Qed.

(** every event is read as what it says, except commitments without coefficients *)
Theorem C25_roundtrip e ev h : typed e → says h e ev → ¬ empty_commitment e → read (publish e) h = Some ev.
Proof using Hok.
  intros Ht Hs Hne. destruct Hs; cbn [typed_event] in Ht; destruct_and?; unfold make_event; cbn [make_abci a_type a_attrs];
    repeat (first [rewrite bool_decide_eq_true_2 by reflexivity|rewrite bool_decide_eq_false_2 by discriminate]).
  all: unfold make_batch_config, make_eon_started, make_check_in, make_decryption_signature, make_poly_eval, make_poly_commitment, make_accusation, make_apology, make_epoch_share;
    match goal with |- context [negb ?x] => replace x with true by reflexivity end; cbn [negb val lookup list_lookup fmap option_fmap option_map snd default from_option id];
    change (address_hex keccak) with (encode_address keccak); rewrite ?decode_address_text, ?uint64_roundtrip, ?addresses_roundtrip by done; cbn [mbind option_bind].
  - done.
  - done.
  - destruct (cd_pk _ _ _ _ _ _ _ _ _ _ _ _ _ Hok k) as [Hb Hp]. unfold decode_pubkey, encode_pubkey. rewrite b64_roundtrip by done. cbn [mbind option_bind]. by rewrite Hp.
  - by rewrite b64_roundtrip.
  - by rewrite byte_sequence_roundtrip.
  - rewrite gammas_roundtrip; [done|]. intros ->. apply Hne. by eexists _, _.
  - done.
  - rewrite byte_sequence_roundtrip by (apply Forall_fmap, Forall_forall; intros; apply big_bytes_bytes). cbn [mbind option_bind]. by rewrite apology_evals_roundtrip.
  - destruct (cd_g1 _ _ _ _ _ _ _ _ _ _ _ _ _ Hok sh) as [Hb Hp]. unfold decode_share, encode_share. rewrite C37_hex by done. cbn [mbind option_bind]. by rewrite Hp.
Qed.

Lemma read_empty a n h : is_address a → is_u64 n → read (publish (EvPolyCommitment a n [])) h = None.
Proof using Hok.
  intros Ha Hn. unfold make_event; cbn [make_abci a_type a_attrs].
  repeat (first [rewrite bool_decide_eq_true_2 by reflexivity|rewrite bool_decide_eq_false_2 by discriminate]). unfold make_poly_commitment.
  match goal with |- context [negb ?x] => replace x with true by reflexivity end. cbn [negb val lookup list_lookup fmap option_fmap option_map snd default from_option id].
  rewrite decode_address_text, uint64_roundtrip by done. cbn [mbind option_bind]. by rewrite gammas_empty.
Qed.
(** nothing else is read from an event *)
Theorem C25_exact e ev h : typed e → read (publish e) h = Some ev ↔ says h e ev ∧ ¬ empty_commitment e.
Proof using Hok.
  intros Ht. split; [|intros [Hs Hne]; by apply C25_roundtrip]. intros Hr.
  assert (¬ empty_commitment e) as Hne.
  { intros (a & n & ->). destruct Ht as (Ha & Hn & _). by rewrite read_empty in Hr. }
  split; [|done]. destruct (typed_says e h Ht) as [ev' Hs]. rewrite (C25_roundtrip e ev' h Ht Hs Hne) in Hr. by injection Hr as ->.
Qed.

(** ** Histories *)
Definition votes_typed (s : app) : Prop := ∀ k v, eon_votings s !! k = Some v → Forall is_u64 (vt_cands v).
Lemma validate_address_typed b a : is_bytes b → validate_address b = Some a → is_address a.
Proof using. intros Hb. unfold validate_address. destruct (Nat.eqb_spec (length b) 20); [|done]. intros [= <-]. by apply bytes_to_address_bound. Qed.
Lemma mapM_typed {A B} (f : A → option B) (Q : A → Prop) (R : B → Prop) l l' : (∀ x y, Q x → f x = Some y → R y) → Forall Q l → mapM f l = Some l' → Forall R l'.
Proof using. intros Hf HQ H. apply mapM_Some_1 in H. induction H as [|x y l l' Hxy H IH]; [constructor|]. apply Forall_cons in HQ as [? ?]. constructor; eauto. Qed.
Lemma parse_addresses_typed l rs : Forall is_bytes l → parse_addresses l = Some rs → Forall is_address rs.
Proof using.
  intros Hl. unfold parse_addresses. destruct (mapM validate_address l) as [rs'|] eqn:E; [|done]. cbn. destruct (unique_addresses rs'); [|done]. intros [= <-].
  eapply mapM_typed; [exact validate_address_typed|exact Hl|exact E].
Qed.
Lemma add_vote_cands (v : voting N) a b : is_u64 b → Forall is_u64 (vt_cands v) → Forall is_u64 (vt_cands (add_vote v a b)).
Proof using. intros Hb Hv. unfold add_vote. destruct (cand_index (vt_cands v) b); cbn; [done|]. apply Forall_app. split; [done|]. by apply Forall_singleton. Qed.
Lemma mapM_encoded {B} (f : bytes → option B) (g : B → bytes) (l l' : list bytes) : mapM (M:=option) (λ b, option_map g (f b)) l = Some l' → ∃ gs : list B, l' = g <$> gs.
Proof using.
  intros H. apply mapM_Some_1 in H. induction H as [|x y l l' Hxy H IH]; [by exists []|]. destruct IH as [gs ->]. destruct (f x) as [z|]; [|done]. cbn in Hxy. injection Hxy as <-. by exists (z :: gs).
Qed.
Lemma config_typed rc bc : typed_payload (MBatchConfig rc) → config_from_message rc = Some bc → typed (EvBatchConfig bc).
Proof using.
  intros (H1 & H2 & H3 & H4 & H5) Hrc. unfold config_from_message in Hrc. destruct (mapM validate_address (rc_keypers rc)) as [ks|] eqn:E; [|done]. cbn in Hrc. destruct (unique_addresses ks); [|done].
  destruct (validate_address (rc_contract rc)); [|done]. cbn in Hrc. injection Hrc as <-. cbn.
  split_and!; [done|done|eapply mapM_typed; [exact validate_address_typed| |exact E]; done|done].
Qed.
Lemma step_typed s c s' r : votes_typed s → step O s c = Some (s', r) → votes_typed s' ∧ Forall typed (rsp_events r).
Proof using Hok.
  intros Hv Hs. pose proof Hs as Hs'. apply step_not_delivered in Hs' as [(_ & Hev & Heq & _)|(tx & ord & a & m & -> & D & Hm)].
  { split; [unfold votes_typed; by rewrite Heq|]. rewrite Hev. constructor. }
  assert (is_address a ∧ typed_payload (msg_payload m)) as [Ha Htp].
  { cbn [chain_oracles decode_tx] in D. unfold parse_tx in D. destruct (b64_decode tx) as [b|]; [|done]. cbn [mbind option_bind] in D. destruct (Nat.ltb (length b) 65); [done|].
    destruct (sig_signer _ _) as [a'|] eqn:Es; [|done]. cbn [mbind option_bind] in D. destruct (pb_parse (drop 65 b)) as [m'|] eqn:Em; [|done]. cbn [mbind option_bind] in D. injection D as -> ->.
    split; [eapply cd_signer; eauto|eapply cd_typed; eauto]. }
  clear D Hs. destruct_mstep Hm; cbn [typed_payload] in Htp; cbn [ok_response error_response rsp_events].
  - split; [exact Hv|constructor].
  - split; [exact Hv|constructor].
  - split; [exact Hv|constructor].
  - split; [exact Hv|]. apply Forall_singleton. exact (config_typed rc bc0 Htp Hrc).
  - split; [exact Hv|]. pose proof (config_typed rc bc0 Htp Hrc) as Hc. constructor; [exact Hc|]. apply Forall_singleton. split; [rewrite Heon; apply N.mod_lt; done|apply Hc].
  - split; [exact Hv|]. apply Forall_singleton. split; [done|]. cbn in Hd. destruct (decompress ek) as [k'|]; [|done]. injection Hd as <-. by exists k'.
  - split; [exact Hv|constructor].
  - split; [exact Hv|constructor].
  - split; [|constructor]. intros k' v' Hk'. cbn in Hk'. destruct (decide (k' = cf_index cfg)) as [->|Hn].
    + rewrite lookup_insert in Hk'. injection Hk' as <-. subst v. apply add_vote_cands; [done|]. destruct (eon_votings _ !! cf_index cfg) as [v0|] eqn:E; cbn; [|constructor]. by apply (Hv (cf_index cfg)).
    + rewrite lookup_insert_ne in Hk' by done. by apply (Hv k').
  - split.
    + intros k' v' Hk'. cbn in Hk'. apply lookup_delete_Some in Hk' as [_ Hk']. by apply (Hv k').
    + apply Forall_singleton. split; [rewrite Heon; by apply N.mod_lt|]. unfold outcome in Hout. destruct (outcome_index _ _ _) as [i|]; [|done].
      assert (Forall is_u64 (vt_cands v)) as Hc.
      { subst v. apply add_vote_cands; [done|]. destruct (eon_votings _ !! cf_index cfg) as [v0|] eqn:E; cbn; [|constructor]. by apply (Hv (cf_index cfg)). }
      by apply (Forall_lookup_1 _ _ _ _ Hc Hout).
  - split; [exact Hv|]. apply Forall_singleton. by destruct Htp.
  - split; [exact Hv|]. apply Forall_singleton. destruct Htp as (?&?&?). split_and!; try done. eapply parse_addresses_typed; [|exact Hp]; done.
  - split; [exact Hv|]. apply Forall_singleton. destruct Htp as (?&?). split_and!; try done. by apply (mapM_encoded g2_parse g2_bytes gs).
  - split; [exact Hv|]. apply Forall_singleton. destruct Htp as (?&?). split_and!; try done. eapply parse_addresses_typed; [|exact Hp]; done.
  - split; [exact Hv|]. apply Forall_singleton. destruct Htp as (?&?&?). split_and!; try done. eapply parse_addresses_typed; [|exact Hp]; done.
  - split; [exact Hv|]. apply Forall_singleton. destruct Htp as (?&?&?). split_and!; try done. cbn in Hsh. destruct (g1_parse sh) as [g|]; [|done]. injection Hsh as <-. by exists g.
Qed.
Lemma exec_typed s0 tr s : votes_typed s0 → exec O s0 tr s → votes_typed s ∧ Forall typed (AppSpec.events_of tr).
Proof using Hok.
  intros Hv0 He. induction He as [s0|s0 tr s1 c r s2 He IH Hv Hs]; [split; [done|constructor]|]. destruct (IH Hv0) as [H1 H2].
  destruct (step_typed s1 c s2 r H1 Hs) as [H3 H4]. split; [done|]. rewrite events_of_app, events_of_one. by apply Forall_app.
Qed.
Lemma history_typed tr s : history O tr s → Forall typed (AppSpec.events_of tr).
Proof using Hok. intros [dev He]. eapply exec_typed; [|exact He]. intros k v. cbn. by rewrite lookup_empty. Qed.

(** every event of every history is read as what it says; only empty commitments are not read at all *)
Theorem C25_read tr s e h : history O tr s → e ∈ AppSpec.events_of tr →
  (∃ ev, says h e ev) ∧ ∀ ev, read (publish e) h = Some ev ↔ says h e ev ∧ ¬ empty_commitment e.
Proof using Hok.
  intros Hh He. pose proof (proj1 (Forall_forall _ _) (history_typed tr s Hh) e He) as Ht. split; [by apply typed_says|]. intros ev. by apply C25_exact.
Qed.
(** readers can tell events apart *)
Theorem C25_distinct tr s e1 e2 ev h : history O tr s → e1 ∈ AppSpec.events_of tr → e2 ∈ AppSpec.events_of tr → read (publish e1) h = Some ev → read (publish e2) h = Some ev →
  match e1, e2 with
  | EvBatchConfig c1, EvBatchConfig c2 => cf_index c1 = cf_index c2 ∧ cf_start c1 = cf_start c2 ∧ cf_keypers c1 = cf_keypers c2 ∧ cf_threshold c1 = cf_threshold c2
  | _, _ => e1 = e2
  end.
Proof using Hok.
  intros Hh H1 H2 R1 R2. apply (C25_read tr s e1 h Hh H1) in R1 as [S1 _]. apply (C25_read tr s e2 h Hh H2) in R2 as [S2 _].
  inversion S1; subst; inversion S2; subst; try done; try (split_and!; congruence).
  f_equal. apply (inj (fmap Z.of_N)). done.
Qed.

(** ** Transactions *)
Context (me : N) (sign : bytes → bytes) (Hsign : signs me sha3 sign sig_signer).
(** the app reads back who sent a transaction, and what *)
Theorem C64_transaction m : typed_payload (msg_payload m) → is_bytes (msg_chain_id m) → is_u64 (msg_nonce m) →
  parse_tx pb_parse sha3 sig_signer (make_tx pb_bytes sha3 sign m) = Some (me, m).
Proof using Hok Hsign.
  intros H1 H2 H3. destruct (cd_pb _ _ _ _ _ _ _ _ _ _ _ _ _ Hok m H1 H2 H3) as [Hb Hp]. unfold parse_tx, make_tx.
  set (d := sha3 (hash_prefix ++ pb_bytes m)). destruct (sg_len _ _ _ _ Hsign d) as [Hl Hsb].
  rewrite b64_roundtrip by (by apply Forall_app). cbn [mbind option_bind]. rewrite app_length, Hl. rewrite (proj2 (Nat.ltb_ge _ _)) by lia.
  rewrite take_app_alt, drop_app_alt by done. fold d. rewrite (sg_me _ _ _ _ Hsign d). cbn [mbind option_bind]. by rewrite Hp.
Qed.
Lemma new_votes_typed dev : votes_typed (new_app dev).
Proof using. intros k v. cbn. by rewrite lookup_empty. Qed.
Lemma validate_sent x : is_address x → validate_address (address_bytes x) = Some x.
Proof using.
  intros Hx. unfold validate_address. assert (length (address_bytes x) = 20%nat) as -> by apply be_bytes_length. rewrite Nat.eqb_refl. f_equal. by apply address_roundtrip.
Qed.
Lemma parse_sent rs rs' : Forall is_address rs → parse_addresses (address_bytes <$> rs) = Some rs' → rs' = rs.
Proof using.
  intros Hrs. unfold parse_addresses. rewrite (mapM_fmap_roundtrip validate_address address_bytes is_address) by (try done; apply validate_sent).
  cbn [mbind option_bind]. destruct (unique_addresses rs); [|done]. by intros [= <-].
Qed.
Lemma mapM_fmap_self {A B} (f : B → option B) (g : A → B) (l : list A) : (∀ x, f (g x) = Some (g x)) → mapM f (g <$> l) = Some (g <$> l).
Proof using. intros H. induction l as [|x l IH]; [done|]. cbn. rewrite H. cbn. change (list_fmap A B g l) with (g <$> l). by rewrite IH. Qed.
Lemma be_value_N l : EncModel.be_value l = Z.of_N (AppModel.be_value l).
Proof using. induction l as [|b l IH] using rev_ind; [done|]. rewrite be_value_app, IH. unfold AppModel.be_value. rewrite foldl_app. cbn. lia. Qed.
(** what an honest keyper sends, once accepted, is read by everyone as what it meant *)
Theorem C25_delivered tr s p cid n ord s' r h ev : history O tr s → valid_order ord →
  announces P PK g2_bytes g1_bytes compress me h p ev → typed_payload p → is_bytes cid → is_u64 n →
  step O s (CDeliverTx (make_tx pb_bytes sha3 sign (mkMessage p cid n)) ord) = Some (s', r) → rsp_code r = 0%N →
  ∃ e, rsp_events r = [e] ∧ read (publish e) h = Some ev.
Proof using Hok Hsign.
  intros [dev Hh] Hord Han Htp Hcid Hn Hs Hcode. pose proof (C64_transaction (mkMessage p cid n) Htp Hcid Hn) as Hd.
  destruct (exec_typed _ _ _ (new_votes_typed dev) Hh) as [Hv _]. destruct (step_typed _ _ _ _ Hv Hs) as [_ Hte].
  assert (is_address me) as Hme. { eapply (cd_signer _ _ _ _ _ _ _ _ _ _ _ _ _ Hok). apply (sg_me _ _ _ _ Hsign []). }
  assert (∃ e, rsp_events r = [e] ∧ says h e ev ∧ ¬ empty_commitment e) as (e & He & Hsay & Hne).
  2: { exists e. split; [done|]. apply C25_roundtrip; [|done|done]. rewrite He in Hte. by apply Forall_inv in Hte. }
  apply step_not_delivered in Hs as [(Hrej & _)|(tx & ord' & a & m & Heq & D & Hm)].
  { destruct (Hrej me p) as [Hc _]; [|by rewrite Hc in Hcode]. eexists _, _, _. split; [done|]. split; [exact Hd|done]. }
  injection Heq as <- <-. cbn [chain_oracles decode_tx] in D. rewrite Hd in D. injection D as <- <-. cbn [msg_payload] in Hm. clear Hd Hte.
  destruct Han as [v k|b sig|eon rs es Hrs|eon gs Hgs|eon rs Hrs|eon rs es Hrs Hes|eon ep sh]; inversion Hm; subst; try done.
  - destruct (cd_compress _ _ _ _ _ _ _ _ _ _ _ _ _ Hok k) as [_ Hc]. match goal with H : decompress_pubkey _ _ = _ |- _ => cbn in H; rewrite Hc in H; injection H as <- end.
    eexists. split; [reflexivity|]. split; [constructor|]. by intros (? & ? & ?).
  - eexists. split; [reflexivity|]. split; [constructor|]. by intros (? & ? & ?).
  - match goal with H : parse_addresses _ = _ |- _ => apply parse_sent in H as ->; [|done] end.
    eexists. split; [reflexivity|]. split; [constructor|]. by intros (? & ? & ?).
  - match goal with H : mapM _ (g2_bytes <$> gs) = _ |- _ => cbn in H;
      rewrite (mapM_fmap_self (λ b, g2_bytes <$> g2_parse b) g2_bytes gs) in H by (intros g; by rewrite (proj2 (cd_g2 _ _ _ _ _ _ _ _ _ _ _ _ _ Hok g))); injection H as <- end.
    eexists. split; [reflexivity|]. split; [constructor|]. intros (? & ? & [= _ _ E]). by destruct gs.
  - match goal with H : parse_addresses _ = _ |- _ => apply parse_sent in H as ->; [|done] end.
    eexists. split; [reflexivity|]. split; [constructor|]. by intros (? & ? & ?).
  - match goal with H : parse_addresses _ = _ |- _ => apply parse_sent in H as ->; [|done] end.
    eexists. split; [reflexivity|]. split; [|by intros (? & ? & ?)].
    replace es with (Z.of_N <$> (AppModel.be_value <$> (big_bytes <$> es))) at 2; [constructor|].
    rewrite <-!list_fmap_compose. rewrite <-(list_fmap_id es) at 2. apply Forall_fmap_ext_1. eapply Forall_impl; [exact Hes|]. intros x Hx. cbn.
    rewrite <-be_value_N. by apply be_big_bytes.
  - match goal with H : share_decode _ _ = _ |- _ => cbn in H; rewrite (proj2 (cd_g1 _ _ _ _ _ _ _ _ _ _ _ _ _ Hok sh)) in H; injection H as <- end.
    eexists. split; [reflexivity|]. split; [constructor|]. by intros (? & ? & ?).
Qed.
End Read.

(** C69: what users seal for a batch is what keypers execute in it. *)
From stdpp Require Import list gmap.
From Coq Require Import ZArith NArith Lia.
From Verif Require Import Fq CryptoModel CryptoProofs CryptoSpec PropsCrypto DkgModel DkgSpec EpochModel EncModel EncProofs GoHeap EncMemModel EncodingModel PropsEnc PropsEncoding ObserveModel SyncModel ArithModel PropsArith ContractsModel
  ContractsProofs PropsConfig PropsBatcher MainModel MainProofs PropsMain DecideModel DecideProofs KeyperModel KeyperSystem PropsKeyper PropsExecution PropsShares OpenModel OpenProofs.

(** * Specification *)
Section Spec.
Context {P : pairing} (H : hashes P) (C2 : codec p2_bytes) (embed : G2 P → raw C2).
(** [tx] is the message [m], encrypted for batch [b] of the eon with public key [pk] with some randomness, and encoded *)
Definition sealed (pk : G2 P) (b : N) (m tx : list N) : Prop := ∃ sigma, length sigma = 32%nat ∧ user_tx H C2 embed pk b m sigma = Some tx.
(** [tx] commits to the message [m]: it has the encrypted randomness and the key encapsulation that sealing [m] gives (only padding of the message may differ, see C35) *)
Definition commits_to (point : raw C2 → G2 P) (pk : G2 P) (b : N) (m tx : list N) : Prop :=
  ∃ sigma msg p, length sigma = 32%nat ∧ unmarshal_msg (mkEncMsg (C2 := C2) None (replicate 32 0%N) []) tx = (msg, true) ∧ m_c1 msg = Some p ∧
    point p = c1 (encrypt H m pk (epoch_id H b) sigma) ∧ m_c2 msg = c2 (encrypt H m pk (epoch_id H b) sigma).
(** [txs], in some order, are what comes out of the encrypted transactions [encs]: at most one for each, to which it commits, and for each that is a sealed message, that message *)
Definition opens_to (point : raw C2 → G2 P) (pk : G2 P) (b : N) (encs txs : list (list N)) : Prop :=
  ∃ outs : list (option (list N)), length outs = length encs ∧ txs ≡ₚ omap id outs ∧
    (∀ j tx m, encs !! j = Some tx → sealed pk b m tx → outs !! j = Some (Some m)) ∧
    ∀ j m, outs !! j = Some (Some m) → ∃ tx, encs !! j = Some tx ∧ commits_to point pk b m tx.
End Spec.

Section Open.
Context {P : pairing} (H : hashes P) (G : rng) (C2 : codec p2_bytes) (point : raw C2 → G2 P) (embed : G2 P → raw C2) (key_bytes : G1 P → list N).
(** group elements are stored as points in the group *)
Context (Hin : ∀ g, in_group (embed g) = true) (Hpt : ∀ g, point (embed g) = g).
Notation sealed := (sealed H C2 embed).
Notation opens_to := (opens_to H C2 embed point).
Notation open_one := (open_one H C2 point).
Notation open_batch := (open_batch H G C2 point key_bytes).

Lemma user_tx_good pk b m sigma : length sigma = 32%nat → let ct := encrypt H m pk (epoch_id H b) sigma in
  good_msg C2 (mkEncMsg (Some (embed (c1 ct))) (c2 ct) (c3 ct)).
Proof using Hin. intros Hs ct. destruct (C34_shape H m pk (epoch_id H b) sigma Hs) as (S1 & S2 & _). split; [by eexists|]. done. Qed.
(** Sealing never fails: every message has an encrypted transaction. *)
Theorem C69_seal pk b m sigma : length sigma = 32%nat → ∃ tx, user_tx H C2 embed pk b m sigma = Some tx.
Proof using Hin.
  intros Hs. destruct (C37_message_roundtrip C2 (mkEncMsg None [] []) _ (user_tx_good pk b m sigma Hs)) as (d & E & _). by exists d.
Qed.
Lemma open_sealed K pk b m tx : pair ggen K = pair pk (epoch_id H b) → sealed pk b m tx → open_one K tx = Some m.
Proof using Hin Hpt.
  intros HK (sigma & Hs & E). unfold user_tx in E.
  destruct (C37_message_roundtrip C2 (mkEncMsg None (replicate block_size 0%N) []) _ (user_tx_good pk b m sigma Hs)) as (d & E1 & E2). rewrite E in E1. injection E1 as <-.
  unfold OpenModel.open_one. rewrite E2. cbn [negb m_c1 m_c2 m_c3]. rewrite Hpt.
  replace (mkEncrypted _ _ _) with (encrypt H m pk (epoch_id H b) sigma) by (by destruct (encrypt _ _ _ _ _)). by apply decrypt_encrypt.
Qed.
Lemma open_commits K pk b m tx : pair ggen K = pair pk (epoch_id H b) → open_one K tx = Some m → commits_to H C2 point pk b m tx.
Proof using.
  intros HK. unfold OpenModel.open_one. destruct (unmarshal_msg _ tx) as [msg ok] eqn:E. destruct ok; [|done]. cbn [negb]. destruct (C37_message_accepted C2 _ _ _ E) as (((p & Ep & Hp) & H2 & H3) & _). rewrite Ep.
  intros Hd. destruct (C35_partial H (mkEncrypted (point p) (m_c2 msg) (m_c3 msg)) K m pk (epoch_id H b) H2 H3 HK Hd) as (E1 & E2 & _). cbn [c1 c2] in E1, E2.
  eexists _, msg, p. split; [|split; [exact E|split; [exact Ep|split; [exact E1|exact E2]]]].
  apply xor_length; [exact H2|apply hash2_length].
Qed.
(** With the key of the batch, DecryptTransactions gives every sealed message, whatever else was sent to the batch. *)
Theorem C69_open K pk b encs : pair ggen K = pair pk (epoch_id H b) → opens_to pk b encs (open_batch K encs).
Proof using Hin Hpt.
  intros HK. exists (open_one K <$> encs). split; [apply fmap_length|]. split.
  - unfold OpenModel.open_batch. rewrite C38_permutation. clear. induction encs as [|tx encs IH]; [done|]. cbn. destruct (open_one K tx); cbn; [by apply perm_skip|done].
  - split; [intros j tx m Hj Hs; rewrite list_lookup_fmap, Hj; cbn; by rewrite (open_sealed K pk b m tx HK Hs)|].
    intros j m Hj. rewrite list_lookup_fmap in Hj. destruct (encs !! j) as [tx|] eqn:E; [|done]. cbn in Hj. apply (inj Some) in Hj. exists tx. split; [done|]. by apply (open_commits K).
Qed.
(** No key serves two batches, unless the hash sends two different strings of bytes to the same group element: the key for one batch is, by the keypers' own check, not the key for another. *)
Theorem C69_separate K pk b b' : (b < 2 ^ 64)%N → (b' < 2 ^ 64)%N → b ≠ b' → pk ≠ gzero →
  pair ggen K = pair pk (epoch_id H b) → pair ggen K = pair pk (epoch_id H b') →
  ∃ bs bs' : list N, bs ≠ bs' ∧ hash1 H bs = hash1 H bs' ∧ be_valueN bs = b ∧ be_valueN bs' = b'.
Proof using.
  intros Hb Hb' Hne Hpk H1 H2.
  exists (be8 b), (be8 b'). rewrite !be8_value by done. split; [|split; [|done]].
  { intros E. apply Hne. rewrite <-(be8_value b), <-(be8_value b') by done. by rewrite E. }
  change (epoch_id H b = epoch_id H b'). revert H1 H2. generalize (epoch_id H b) as E, (epoch_id H b') as E'. intros E E' H1 H2.
  destruct (ggen_cyclic _ pk) as [s ->]. destruct (ggen_cyclic _ E) as [a ->]. destruct (ggen_cyclic _ E') as [a' ->].
  rewrite H1 in H2. rewrite !pair_smul_l, !pair_smul_r, !pair_gen in H2.
  assert (Hs : toF s ≠ f0).
  { intros Hs. apply Hpk. rewrite <-(gsmul_0 _ ggen). apply gsmul_gen_inj. apply congr_toF. rewrite Hs. symmetry. by apply toF_0; exists 0%Z. }
  assert (Hinv : congr (invert s * s) 1). { apply congr_toF. rewrite toF_mul, invert_toF. by apply finv_l. }
  assert (Hg : ∀ x : GT P, x = gsmul (invert s) (gsmul s x)).
  { intros x. rewrite <-gsmul_mul, (gsmul_congr _ _ _ _ Hinv). symmetry. apply gsmul_1. }
  rewrite <-!gsmul_mul, !gsmul_mul in H2. apply (f_equal (gsmul (invert s))) in H2. rewrite <-!Hg in H2.
  apply gsmul_gen_inj in H2. by apply gsmul_gen_inj.
Qed.
(** An encrypted transaction has one content only: nobody can make one that different keypers, or the user, read differently. *)
Theorem C69_unambiguous pk b m1 m2 tx : sealed pk b m1 tx → sealed pk b m2 tx → m1 = m2.
Proof using Hin Hpt.
  intros H1 H2. destruct (ggen_cyclic _ pk) as [s Hs].
  assert (HK : pair ggen (gsmul s (epoch_id H b)) = pair pk (epoch_id H b)) by (rewrite Hs; by rewrite pair_smul_l, pair_smul_r).
  apply (open_sealed _ _ _ _ _ HK) in H1, H2. congruence.
Qed.
(** If all encrypted transactions are sealed messages, what comes out are these messages. *)
Theorem C69_all pk b encs txs ms : opens_to pk b encs txs → Forall2 (sealed pk b) ms encs → txs ≡ₚ ms.
Proof using.
  intros (outs & Hl & Hp & Ho & _) Hs. rewrite Hp. assert (outs = Some <$> ms) as ->.
  - apply list_eq. intros j. rewrite list_lookup_fmap. destruct (ms !! j) as [m|] eqn:Em.
    + destruct (Forall2_lookup_l _ _ _ _ _ Hs Em) as (tx & Ht & Hm). cbn. by apply (Ho j tx m).
    + cbn. apply lookup_ge_None. apply lookup_ge_None in Em. rewrite Hl, <-(Forall2_length _ _ _ Hs). done.
  - clear. induction ms as [|m ms IH]; [done|]. cbn. by rewrite IH.
Qed.
(** An eon public key given in the wrong length is accepted as the zero point; whoever has the transaction can then read it. *)
Theorem C69_zero_key bs b m tx : point infinity = gzero → length bs ≠ 96%nat →
  ∃ pk, unmarshal_point (C := C2) infinity bs = (pk, true) ∧ (sealed (point pk) b m tx → open_one gzero tx = Some m).
Proof using Hin Hpt.
  intros H0 Hl. exists infinity. split; [apply (C37_point_refuted C2); [apply infinity_in_group|done]|]. rewrite H0. intros Hs. refine (open_sealed _ _ _ _ _ _ Hs).
  assert (∀ E : G1 P, pair gzero E = gzero) as Z1. { intros E. rewrite <-(gsmul_order (G2 P) ggen), pair_smul_l. apply gsmul_order. }
  assert (∀ E : G2 P, pair E gzero = gzero) as Z2. { intros E. rewrite <-(gsmul_order (G1 P) ggen), pair_smul_r. apply gsmul_order. }
  by rewrite Z1, Z2.
Qed.
End Open.

(** * The whole system *)
Section System.
Context {P : pairing} {K R : Type} (H : hashes P) (G : rng) (C2 : codec p2_bytes) (point : raw C2 → G2 P) (embed : G2 P → raw C2) (key_bytes : G1 P → list N).
Context (Hin : ∀ g, in_group (embed g) = true) (Hpt : ∀ g, point (embed g) = g).
(** shuttermint *)
Context (make_event : R → Z → option (shutter_event (body P) sconfig K (N * list N))) (chain : nat → list (list R)) (plen : phase_length).
Context (Hwf : ∀ m, SyncModel.well_formed (SyncModel.published make_event chain m)) (Hho : heights_ok make_event).
(** the main chain *)
Context (keccak : list N → list N) (ecrecover : list N → Z → Z → Z → option N) (addr_bytes : N → list N) (batcher slasher deposit owner : N) (hu ap : Z) (Hhu : (0 ≤ hu)%Z).
Context (ch : MainModel.chain) (F : Z).
Notation state_at := (MainModel.state_at keccak ecrecover addr_bytes batcher slasher deposit owner hu ap ch).
Notation log_at := (MainProofs.log_at keccak ecrecover addr_bytes batcher slasher deposit owner hu ap ch).
Notation synced := (PropsExecution.synced keccak ecrecover addr_bytes batcher slasher deposit owner hu ap ch F).
Notation keyper_run := (keyper_run make_event chain plen (epoch_id H)).

(** [p] runs the modelled code for these chains *)
Record runs_here (p : keyper_params P) : Prop := {
  rh_open : kp_open p = open_batch H G C2 point key_bytes;
  rh_keccak : kp_keccak p = keccak; rh_recover : kp_ecrecover p = ecrecover; rh_addr : kp_addr_bytes p = addr_bytes; rh_batcher : kp_batcher p = batcher;
  rh_order : ∀ A (l : list A), kp_order p A l ≡ₚ l
}.
(** its views of the main chain are views of [ch], and the last is the newest *)
Definition follows (l : list (kinput P K)) (i : kinput P K) : Prop := ∀ j, j ∈ l → synced (in_view j) ∧ (current (in_view j) ≤ current (in_view i))%Z.
(** the main chain has got past the end of batch [b] *)
Definition past_end (v : view) (b : Z) : Prop :=
  ∃ i c, PropsConfig.config_for (scheduled (cc (state_at (Z.to_nat (current v))))) b i c ∧ (0 < span c)%Z ∧ (end_block c b ≤ current v)%Z.
(** key shares for batch [b] were seen only after its end *)
Definition shares_late (l : list (kinput P K)) (b : Z) : Prop := ∀ j, j ∈ l → share_seen j (Z.to_N b) → past_end (in_view j) b.
(** numbers of keypers and thresholds are those of Go *)
Definition go_sized_ekgs (s : kstate P) : Prop := ∀ g, g ∈ k_ekgs s → (Z.of_nat (length (g_keypers g)) < 2 ^ 63)%Z ∧ (0 < ek_threshold (g_epochkg g) < 2 ^ 63)%N.
(** [g] has the key for batch [b] *)
Definition has_key (g : kekg P) (b : Z) : Prop := is_Some (ek_keys (g_epochkg g) !! Z.to_N b).

Lemma view_added v b t : synced v → txs_of (mb (v_batches v) b) t = added b t (log_at (Z.to_nat (current v))).
Proof using.
  intros (H0 & HF & heads & S1 & Ev). pose proof (final_ok keccak ecrecover addr_bytes batcher slasher deposit owner hu ap ch H0 F HF heads S1) as [_ _ O2 _ _ _ _].
  rewrite <-Ev in O2. apply (O2 b t).
Qed.
Lemma executed_key p m l i s al a b h txs k : runs_here p → keyper_run p m (l ++ [i]) s (al ++ [a]) → KAction (AExecCipher b h txs k) ∈ a → follows (l ++ [i]) i →
  shares_late (l ++ [i]) b → sized make_event chain → go_sized_ekgs s →
  ∃ g key j, g ∈ k_ekgs s ∧ b = Z.of_N (Z.to_N b) ∧ ek_keys (g_epochkg g) !! Z.to_N b = Some (Some key) ∧ pair ggen key = pair (ek_pk (g_epochkg g)) (epoch_id H (Z.to_N b)) ∧
    j ∈ l ++ [i] ∧ past_end (in_view j) b ∧ txs = open_batch H G C2 point key_bytes key (added b Cipher (log_at (Z.to_nat (current (in_view i))))).
Proof using Hwf Hho Hhu.
  intros [Ro Rk Rr Ra Rb Rp] Hrun Ha Hf Hl Hs Hg. pose proof (kr_run _ _ _ _ _ _ _ _ _ Hrun) as Hd.
  destruct (run_project_last plen (epoch_id H) p l i s al a _ Hd Ha) as (l' & i' & al' & a' & D & Hx & Ev & Hp). rewrite Rk, Rr, Ra, Rb in D.
  assert (Hj : ∀ j, j ∈ l' ++ [i'] → synced (i_view j) ∧ (current (i_view j) ≤ current (i_view i'))%Z).
  { intros j Hj. destruct (Hp j Hj) as (i0 & Hi0 & E & _). rewrite E, Ev. by apply Hf. }
  assert (Hk : PropsExecution.keys_late keccak ecrecover addr_bytes batcher slasher deposit owner hu ap ch (l' ++ [i']) b).
  { intros j dec Hj' Hin'. destruct (Hp j Hj') as (i0 & Hi0 & E & _ & HK). destruct (HK _ Hin') as [_ (ep & Eb & Hsh)]. cbn [fst] in Eb. rewrite E. apply (Hl i0 Hi0).
    by rewrite Eb, N2Z.id. }
  destruct (C56_content_partial keccak ecrecover addr_bytes batcher (kp_me p) (kp_sign p) (kp_staggering p) (kp_order p) Rp slasher deposit owner hu ap Hhu ch F l' i' (k_x s) al' a' b h txs k Hj Hk D Hx)
    as (_ & j & dec & c & J1 & J2 & _ & Et & _). rewrite Ev in Et. destruct (Hp j J1) as (i0 & Hi0 & E & _ & HK). destruct (HK _ J2) as [(g & ep & key & Hgs & Ek & Hkey) (ep' & Eb & Hsh)].
  injection Ek as Eb' ->. cbn [fst] in Eb. assert (Z.to_N b = ep) as Ez by (rewrite Eb'; apply N2Z.id).
  destruct (Hg g Hgs) as [Hn Ht].
  destruct (C60_sound make_event chain plen (epoch_id H) Hwf Hho p m (l ++ [i]) s (al ++ [a]) g ep (Some key) Hrun Hgs Hs Hn Ht Hkey) as [(k0 & Ek0 & Hpair) _]. injection Ek0 as <-.
  exists g, key, i0. rewrite Ez. split_and!; [done|done|done|done|done| |by rewrite Et, Ro]. apply Hl; [done|]. rewrite Ez. replace ep with ep' by lia. done.
Qed.

(** When a keyper executes an encrypted batch, it executes the messages that users sealed for it with the public key of an eon, whatever else was sent; all transactions
    that were accepted for the batch on the main chain count.  Partial: shares are released after the end of the batch (C55_closed_refuted), and the eon is one for which the
    keyper got the batch's key, not necessarily the eon of the batch (C56_content_refuted). *)
Theorem C69_executed_partial p m l i s al a b h txs k : runs_here p → keyper_run p m (l ++ [i]) s (al ++ [a]) → KAction (AExecCipher b h txs k) ∈ a → follows (l ++ [i]) i →
  shares_late (l ++ [i]) b → sized make_event chain → go_sized_ekgs s →
  ∃ g, g ∈ k_ekgs s ∧ has_key g b ∧ opens_to H C2 embed point (ek_pk (g_epochkg g)) (Z.to_N b) (added b Cipher (log_at (Z.to_nat (current (in_view i))))) txs.
Proof using Hwf Hho Hhu Hin Hpt.
  intros Hr Hrun Ha Hf Hl Hs Hg. destruct (executed_key _ _ _ _ _ _ _ _ _ _ _ Hr Hrun Ha Hf Hl Hs Hg) as (g & key & j & G1' & _ & G2' & G3 & _ & _ & ->).
  exists g. split; [done|]. split; [by eexists|]. by apply C69_open.
Qed.
(** ... so if the eons for which it has a key for the batch have one public key, for which all users sealed their messages, it executes exactly these messages. *)
Theorem C69_messages_partial p m l i s al a b h txs k pk ms : runs_here p → keyper_run p m (l ++ [i]) s (al ++ [a]) → KAction (AExecCipher b h txs k) ∈ a → follows (l ++ [i]) i →
  shares_late (l ++ [i]) b → sized make_event chain → go_sized_ekgs s → (∀ g, g ∈ k_ekgs s → has_key g b → ek_pk (g_epochkg g) = pk) →
  Forall2 (sealed H C2 embed pk (Z.to_N b)) ms (added b Cipher (log_at (Z.to_nat (current (in_view i))))) → txs ≡ₚ ms.
Proof using Hwf Hho Hhu Hin Hpt.
  intros Hr Hrun Ha Hf Hl Hs Hg Hpk Hms. destruct (C69_executed_partial _ _ _ _ _ _ _ _ _ _ _ Hr Hrun Ha Hf Hl Hs Hg) as (g & G1' & G2' & G3).
  rewrite (Hpk g G1' G2') in G3. by eapply C69_all.
Qed.
(** Two keypers that execute a batch execute the same transactions in the same order, if their keys for it are from one eon key. *)
Theorem C69_agreement_partial p1 p2 m1 m2 l1 l2 i1 i2 s1 s2 al1 al2 a1 a2 b h1 h2 txs1 txs2 k1 k2 pk :
  runs_here p1 → keyper_run p1 m1 (l1 ++ [i1]) s1 (al1 ++ [a1]) → KAction (AExecCipher b h1 txs1 k1) ∈ a1 → follows (l1 ++ [i1]) i1 → shares_late (l1 ++ [i1]) b → go_sized_ekgs s1 →
  runs_here p2 → keyper_run p2 m2 (l2 ++ [i2]) s2 (al2 ++ [a2]) → KAction (AExecCipher b h2 txs2 k2) ∈ a2 → follows (l2 ++ [i2]) i2 → shares_late (l2 ++ [i2]) b → go_sized_ekgs s2 →
  sized make_event chain → (∀ g, g ∈ k_ekgs s1 ∨ g ∈ k_ekgs s2 → has_key g b → ek_pk (g_epochkg g) = pk) → txs1 = txs2.
Proof using Hwf Hho Hhu Hin Hpt.
  intros R1 Run1 A1 F1 L1 G1' R2 Run2 A2 F2 L2 G2' Hs Hpk.
  destruct (executed_key _ _ _ _ _ _ _ _ _ _ _ R1 Run1 A1 F1 L1 Hs G1') as (g1 & key1 & j1 & Hg1 & _ & Hk1 & Hp1 & Hj1 & (n1 & c1' & C1 & S1 & E1) & ->).
  destruct (executed_key _ _ _ _ _ _ _ _ _ _ _ R2 Run2 A2 F2 L2 Hs G2') as (g2 & key2 & j2 & Hg2 & _ & Hk2 & Hp2 & Hj2 & (n2 & c2' & C2' & S2 & E2) & ->).
  assert (key1 = key2) as ->.
  { rewrite (Hpk g1) in Hp1; [|by left|by eexists]. rewrite (Hpk g2) in Hp2; [|by right|by eexists]. apply pair_gen_inj. congruence. }
  f_equal. destruct (F1 i1 ltac:(set_solver)) as [V1 _], (F2 i2 ltac:(set_solver)) as [V2 _], (F1 j1 Hj1) as [W1 O1], (F2 j2 Hj2) as [W2 O2].
  rewrite <-!view_added by done.
  destruct (Z.le_gt_cases (current (in_view i1)) (current (in_view i2))) as [Hle|Hle].
  - pose proof (closed_views keccak ecrecover addr_bytes batcher slasher deposit owner hu ap Hhu ch F (in_view j1) (in_view i1) b n1 c1' W1 V1 O1 C1 S1 E1 Cipher) as [-> _].
    pose proof (closed_views keccak ecrecover addr_bytes batcher slasher deposit owner hu ap Hhu ch F (in_view j1) (in_view i2) b n1 c1' W1 V2 ltac:(lia) C1 S1 E1 Cipher) as [-> _]. done.
  - pose proof (closed_views keccak ecrecover addr_bytes batcher slasher deposit owner hu ap Hhu ch F (in_view j2) (in_view i2) b n2 c2' W2 V2 O2 C2' S2 E2 Cipher) as [-> _].
    pose proof (closed_views keccak ecrecover addr_bytes batcher slasher deposit owner hu ap Hhu ch F (in_view j2) (in_view i1) b n2 c2' W2 V1 ltac:(lia) C2' S2 E2 Cipher) as [-> _]. done.
Qed.
End System.

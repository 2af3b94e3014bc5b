(** C58, C59, C60: what the key generations of all keypers lead to. *)
From stdpp Require Import list gmap sets.
From Coq Require Import ZArith NArith Lia.
From Verif Require Import Fq CryptoModel CryptoSpec CryptoProofs PropsCrypto DkgModel DkgSpec DkgProofs PropsDkg EpochModel PropsEpoch ObserveModel ObserveProofs SyncModel SyncProofs ArithModel MainModel MainProofs
  DecideModel EncodingModel KeyperModel KeyperSpec KeyperDkgProofs KeyperStepProofs KeyperHistProofs KeyperRunProofs KeyperLogProofs KeyperActionProofs KeyperSystem.

Lemma find_from_lookup i l a j : find_address_from i l a = Some j → (i ≤ j)%N ∧ l !! N.to_nat (j - i) = Some a.
Proof.
  revert i. induction l as [|x l IH]; intros i; cbn [find_address_from]; [done|]. destruct (N.eqb_spec x a) as [->|].
  - intros [= <-]. split; [lia|]. by rewrite N.sub_diag.
  - intros (H1 & H2)%IH. split; [lia|]. replace (N.to_nat (j - i)) with (S (N.to_nat (j - (i + 1)))) by lia. done.
Qed.
Lemma find_address_lookup l a j : find_address l a = Some j → l !! N.to_nat j = Some a.
Proof. intros (_ & H)%find_from_lookup. by rewrite N.sub_0_r in H. Qed.
Lemma find_from_first i l a (j : nat) : l !! j = Some a → (∀ j', j' < j → l !! j' ≠ Some a) → find_address_from i l a = Some (i + N.of_nat j)%N.
Proof.
  revert i j. induction l as [|x l IH]; intros i j; [done|]. destruct j as [|j]; cbn [lookup list_lookup find_address_from].
  - intros [= ->] _. rewrite N.eqb_refl. f_equal. lia.
  - intros Hj Hno. destruct (N.eqb_spec x a) as [->|]; [by destruct (Hno 0 ltac:(lia))|]. rewrite (IH (i + 1)%N j Hj); [f_equal; lia|]. intros j' Hj'. apply (Hno (S j')). lia.
Qed.
Lemma lookup_find_address l a (j : nat) : NoDup l → l !! j = Some a → find_address l a = Some (N.of_nat j).
Proof.
  intros Hn Hj. unfold find_address. rewrite (find_from_first 0 l a j Hj); [done|]. intros j' Hlt Hj'. pose proof (NoDup_lookup _ _ _ _ Hn Hj Hj'). lia.
Qed.

Section Props.
Context {P : pairing} {K R : Type}.
Notation sig := (N * list N)%type.
Notation shutter := (ObserveModel.shutter (body P) sconfig K sig).
Context (make_event : R → Z → option (shutter_event (body P) sconfig K sig)) (chain : nat → list (list R)).
Notation Pub := (published make_event chain).
Context (plen : phase_length) (epoch_point : N → G1 P).
Context (Hwf : ∀ m, well_formed (Pub m)) (Hho : heights_ok make_event).
Notation keyper_run := (keyper_run make_event chain plen epoch_point).
Notation keyper_run_no_skip := (keyper_run_no_skip make_event chain plen epoch_point).
Notation started := (started make_event chain).
Notation config_at := (config_at make_event chain).
Notation settled := (settled make_event chain).
Notation sized := (sized make_event chain).
Notation generated := (generated make_event chain plen).
Implicit Types (p : keyper_params P) (g : kekg P).

Lemma handle_shares_static (s s' : epochkg P) ms : handle_shares epoch_point s ms = Some s' →
  ek_eon s' = ek_eon s ∧ ek_num s' = ek_num s ∧ ek_threshold s' = ek_threshold s ∧ ek_keyper s' = ek_keyper s ∧ ek_sk s' = ek_sk s ∧ ek_pk s' = ek_pk s ∧ ek_pkshares s' = ek_pkshares s.
Proof.
  revert s. induction ms as [|x ms IH]; intros s; cbn [handle_shares]; [by intros [= <-]|]. destruct (handle_share _ s x) as [[s1 b]|] eqn:E; [|done].
  intros H. destruct (IH _ H) as (-> & -> & -> & -> & -> & -> & ->). clear IH H. unfold handle_share in E. destruct (ek_keys s !! _); [injection E as <- _; done|].
  destruct (ek_pkshares s !! _); [|done]. destruct (negb _); [injection E as <- _; done|]. injection E as E. unfold add_share in E.
  destruct (existsb _ _); [injection E as <- _; done|]. destruct (negb _); injection E as <- _; done.
Qed.

(** an eon key that a keyper holds *)
Record holds p (m : nat) g (st : Z) (b : N) (c : sconfig) (idx : N) (r : result P) : Prop := {
  ho_started : started m (g_eon g) st b;
  ho_config : ∃ a, a ≤ m ∧ started a (g_eon g) st b ∧ config_at a b c;
  ho_keypers : g_keypers g = sc_keypers c;
  ho_index : find_address (sc_keypers c) (kp_me p) = Some idx;
  ho_generated : generated m (g_eon g) st c idx r;
  ho_state : ek_threshold (g_epochkg g) = r_threshold r ∧ ek_keyper (g_epochkg g) = r_keyper r ∧ ek_sk (g_epochkg g) = r_sk r ∧ ek_pk (g_epochkg g) = r_pk r ∧
    ek_pkshares (g_epochkg g) = r_pkshares r
}.
Lemma ekg_holds kds p m g : ekg_ok make_event chain (kp_ecies p) plen (kp_me p) epoch_point kds m g → ∃ st b c idx r a ms, holds p m g st b c idx r ∧
  a ≤ m ∧ started a (g_eon g) st b ∧ config_for make_event chain b c a ∧
  handle_shares epoch_point (new_epochkg r) ms = Some (g_epochkg g) ∧
  (∀ x, x ∈ ms → ∃ ev, ev ∈ of_kind KeyShare (g_eon g) (Pub m) ∧ share_msg (g_keypers g) ev = Some x) ∧
  (kds KeyShare → ∀ ev x, ev ∈ of_kind KeyShare (g_eon g) (Pub m) → phase_at plen (ev_height ev) st = finalized → share_msg (g_keypers g) ev = Some x → x ∈ ms).
Proof.
  intros (m0 & r & ms & M1 & (k & st & c & idx & x & Hat & Hp & Hr & E1 & E2) & M3 & M4 & M5).
  pose proof (da_info _ _ _ _ _ _ _ _ _ _ _ _ _ Hat) as Hinfo. pose proof (da_config _ _ _ _ _ _ _ _ _ _ _ _ _ Hat) as (a & A1 & A2 & A3).
  pose proof (da_idx _ _ _ _ _ _ _ _ _ _ _ _ _ Hat) as Hidx. pose proof (da_keypers _ _ _ _ _ _ _ _ _ _ _ _ _ Hat) as Hk.
  pose proof (infos_mono make_event chain Hho m0 m M1 _ Hinfo) as Hinfo'.
  exists st, (k_start_batch k), c, idx, r, a, ms. split.
  - split.
    + rewrite E1. by apply eon_infos_elem.
    + exists a. split; [lia|]. split; [rewrite E1; by apply eon_infos_elem|]. by eapply config_for_at.
    + congruence.
    + done.
    + apply (generated_later make_event chain plen Hho m0 m); [done|]. rewrite E1. by eapply (dkg_at_generated make_event chain plen).
    + destruct (handle_shares_static _ _ _ M3) as (_ & _ & -> & -> & -> & -> & ->). done.
  - split; [lia|]. split; [rewrite E1; by apply eon_infos_elem|]. split; [done|]. split; [done|]. split; [done|].
    intros Hkd ev x' Hev Hph Hx. eapply (M5 Hkd st (k_start_batch k)); [|done..]. by rewrite E1.
Qed.

(** ** C58 *)
(** What a keyper holds for an eon is the result of the key generation that the chain records: the keyper set is that of a config for the eon's
    first batch, and keys and shares are computed from the commitments, accusations and apologies published in the blocks of their phases. *)
Theorem C58_generated p m l s acts g : keyper_run p m l s acts → g ∈ k_ekgs s → ∃ st b c idx r, holds p m g st b c idx r.
Proof.
  intros Hrun Hg. destruct (run_facts make_event chain plen epoch_point Hwf Hho _ _ _ _ _ Hrun) as ([_ _ I] & _). rewrite Forall_forall in I. specialize (I g Hg).
  apply ekg_holds in I as (st & b & c & idx & r & _ & _ & H & _). by exists st, b, c, idx, r.
Qed.
Lemma holds_agree p1 p2 m1 m2 g1 g2 st1 st2 b1 b2 c idx1 idx2 r1 r2 : g_eon g1 = g_eon g2 → holds p1 m1 g1 st1 b1 c idx1 r1 → holds p2 m2 g2 st2 b2 c idx2 r2 →
  st1 = st2 ∧ b1 = b2 ∧ r_pk r1 = r_pk r2 ∧ r_pkshares r1 = r_pkshares r2 ∧ r_threshold r1 = r_threshold r2.
Proof.
  intros En [S1 _ _ _ G1 _] [S2 _ _ _ G2 _]. rewrite <-En in S2, G2.
  assert (st1 = st2 ∧ b1 = b2) as [-> ->].
  { destruct (published_app make_event chain Hho m1 (Nat.max m1 m2) ltac:(lia)) as (e1 & E1). destruct (published_app make_event chain Hho m2 (Nat.max m1 m2) ltac:(lia)) as (e2 & E2).
    apply (eon_infos_unique (Pub (Nat.max m1 m2)) (g_eon g1)); [done|..]; apply eon_infos_elem; [rewrite E1|rewrite E2]; apply elem_of_app; by left. }
  apply (generated_later make_event chain plen Hho m1 (Nat.max m1 m2)) in G1; [|lia]. apply (generated_later make_event chain plen Hho m2 (Nat.max m1 m2)) in G2; [|lia].
  destruct G1 as [(cs1 & d1 & A1 & A2 & A3 & _) _]. destruct G2 as [(cs2 & d2 & B1 & B2 & B3 & _) _].
  destruct (C31_agreement _ _ _ _ _ _ _ _ _ _ _ A1 B1 ltac:(congruence) A2 B2) as (Q1 & Q2 & _). repeat (split; [done|]).
  apply compute_result_inv in A2 as (_ & ? & _ & _ & ->). apply compute_result_inv in B2 as (_ & ? & _ & _ & ->). cbn.
  apply run_frame in A1 as (_ & _ & -> & _). by apply run_frame in B1 as (_ & _ & -> & _).
Qed.
(** Any two keypers that hold a key for an eon hold the same one, with the same keyper set and the same public key shares; whatever they were sent
    privately, whenever they looked at the chain, and however often they were restarted.  Partial: the config for the eon's batches does not change after
    the eon is started (see [C58_refuted] in KeyperRefuted.v). *)
Theorem C58_agreement_partial p1 p2 m1 m2 l1 l2 s1 s2 acts1 acts2 g1 g2 :
  keyper_run p1 m1 l1 s1 acts1 → keyper_run p2 m2 l2 s2 acts2 → g1 ∈ k_ekgs s1 → g2 ∈ k_ekgs s2 → g_eon g1 = g_eon g2 → settled (g_eon g1) →
  g_keypers g1 = g_keypers g2 ∧ ek_pk (g_epochkg g1) = ek_pk (g_epochkg g2) ∧ ek_pkshares (g_epochkg g1) = ek_pkshares (g_epochkg g2) ∧
  ek_threshold (g_epochkg g1) = ek_threshold (g_epochkg g2).
Proof.
  intros R1 R2 H1 H2 En Hset.
  destruct (run_facts make_event chain plen epoch_point Hwf Hho _ _ _ _ _ R1) as ([_ _ I1] & _). rewrite Forall_forall in I1. specialize (I1 g1 H1).
  destruct (run_facts make_event chain plen epoch_point Hwf Hho _ _ _ _ _ R2) as ([_ _ I2] & _). rewrite Forall_forall in I2. specialize (I2 g2 H2).
  apply ekg_holds in I1 as (st1 & b1 & c1 & idx1 & r1 & a1 & _ & O1 & _ & A1 & F1 & _). apply ekg_holds in I2 as (st2 & b2 & c2 & idx2 & r2 & a2 & _ & O2 & _ & A2 & F2 & _).
  assert (Est : st1 = st2 ∧ b1 = b2).
  { rewrite <-En in A2. destruct (published_app make_event chain Hho a1 (Nat.max a1 a2) ltac:(lia)) as (e1 & E1). destruct (published_app make_event chain Hho a2 (Nat.max a1 a2) ltac:(lia)) as (e2 & E2).
    apply (eon_infos_unique (Pub (Nat.max a1 a2)) (g_eon g1)); [done|..]; apply eon_infos_elem; [rewrite E1|rewrite E2]; apply elem_of_app; by left. }
  destruct Est as [-> ->].
  assert (c1 = c2) as <-.
  { rewrite <-En in A2. eapply (settled_config make_event chain); [done|exact Hset| | |exact F1|exact F2]; by apply eon_infos_elem. }
  destruct (holds_agree _ _ _ _ _ _ _ _ _ _ _ _ _ _ _ En O1 O2) as (_ & _ & Q1 & Q2 & Q3).
  destruct O1 as [_ _ K1 _ _ (T1 & _ & _ & U1 & V1)]. destruct O2 as [_ _ K2 _ _ (T2 & _ & _ & U2 & V2)]. split_and!; congruence.
Qed.

(** ** C60 *)
(** the key share messages for eon [n] on the chain, in the finalized phase (the only one in which keypers have a key share) or in all blocks *)
Definition shares_on_chain (m : nat) (n : N) (keypers : list N) : list (epoch_share P) := omap (share_msg keypers) (of_kind KeyShare n (Pub m)).
Definition final_shares_on_chain (m : nat) (n : N) (st : Z) (keypers : list N) : list (epoch_share P) :=
  omap (share_msg keypers) (in_phase plen st finalized (of_kind KeyShare n (Pub m))).
Lemma valid_senders_subset pks ep (ms ms' : list (epoch_share P)) : (∀ x, x ∈ ms → x ∈ ms') → size (valid_senders epoch_point pks ep ms) ≤ size (valid_senders epoch_point pks ep ms').
Proof.
  intros H. apply subseteq_size. intros j. unfold valid_senders. rewrite !elem_of_list_to_set, !elem_of_list_fmap. intros (x & -> & Hx). exists x. split; [done|].
  apply elem_of_list_In, filter_In in Hx as [Hx Hv]. apply elem_of_list_In, filter_In. split; [|done]. apply elem_of_list_In, H. by apply elem_of_list_In.
Qed.
Lemma holds_key p m g st b c idx r ms ep : holds p m g st b c idx r → sized → (0 < sc_threshold c < 2 ^ 63)%N → (Z.of_nat (length (sc_keypers c)) < 2 ^ 63)%Z →
  handle_shares epoch_point (new_epochkg r) ms = Some (g_epochkg g) →
  (∀ key, ek_keys (g_epochkg g) !! ep = Some key ↔ (N.to_nat (sc_threshold c) ≤ size (valid_senders epoch_point (r_pkshares r) ep ms))%nat ∧
    ∃ k, key = Some k ∧ pair ggen k = pair (r_pk r) (epoch_point ep)) ∧
  ∃ k, pair ggen k = pair (r_pk r) (epoch_point ep).
Proof.
  intros [_ _ _ Hidx [(cs & d & A1 & A2 & _ & A4) _] _] Hs Ht Hn Hms.
  assert (idx < N.of_nat (length (sc_keypers c)))%N as Hlt.
  { apply find_address_lookup in Hidx. apply lookup_lt_Some in Hidx. lia. }
  split.
  - intros key. eapply (C26_epoch_key epoch_point (g_eon g) (N.of_nat (length (sc_keypers c))) (sc_threshold c) idx cs d r ms); try done; [lia|by apply A4].
  - destruct (C31_keys (g_eon g) (N.of_nat (length (sc_keypers c))) (sc_threshold c) idx cs d r ltac:(lia) ltac:(lia) Hlt (A4 Hs) A1 A2) as (ps & _ & _ & _ & Hpk & _).
    exists (gsmul (sum_poly ps 0) (epoch_point ep)). rewrite Hpk, pair_smul_l, pair_smul_r. done.
Qed.
(** A key that a keyper holds for an epoch is the secret key of that epoch for the eon's public key (never a wrong one, never none), and then at least
    a threshold of keypers of the set have published valid shares; two keypers' epoch keys agree. *)
Theorem C60_sound p m l s acts g ep key : keyper_run p m l s acts → g ∈ k_ekgs s → sized → (Z.of_nat (length (g_keypers g)) < 2 ^ 63)%Z →
  (0 < ek_threshold (g_epochkg g) < 2 ^ 63)%N → ek_keys (g_epochkg g) !! ep = Some key →
  (∃ k, key = Some k ∧ pair ggen k = pair (ek_pk (g_epochkg g)) (epoch_point ep)) ∧
  (N.to_nat (ek_threshold (g_epochkg g)) ≤ size (valid_senders epoch_point (ek_pkshares (g_epochkg g)) ep (shares_on_chain m (g_eon g) (g_keypers g))))%nat.
Proof.
  intros Hrun Hg Hs Hn Ht Hkey. destruct (run_facts make_event chain plen epoch_point Hwf Hho _ _ _ _ _ Hrun) as ([_ _ I] & _). rewrite Forall_forall in I. specialize (I g Hg).
  apply ekg_holds in I as (st & b & c & idx & r & _ & ms & Ho & _ & _ & _ & M1 & M2 & _). pose proof Ho as [_ _ K1 _ [(cs & d & A1 & A2 & _) _] (T & _ & _ & U & V)].
  assert (Et : r_threshold r = sc_threshold c).
  { apply compute_result_inv in A2 as (_ & ? & _ & _ & ->). cbn. by apply run_frame in A1 as (_ & _ & -> & _). }
  rewrite T, Et in *. rewrite U, V. rewrite K1 in *.
  destruct (holds_key _ _ _ _ _ _ _ _ ms ep Ho Hs Ht Hn M1) as [H _]. apply H in Hkey as [H1 H2]. split; [done|].
  etransitivity; [exact H1|]. apply valid_senders_subset. intros x Hx. destruct (M2 x Hx) as (ev & Hev & Hm). apply elem_of_list_omap. by exists ev.
Qed.
(** two keypers that hold the same eon key never hold different keys for the same epoch *)
Theorem C60_agreement p1 p2 m1 m2 l1 l2 s1 s2 acts1 acts2 g1 g2 ep key1 key2 :
  keyper_run p1 m1 l1 s1 acts1 → keyper_run p2 m2 l2 s2 acts2 → g1 ∈ k_ekgs s1 → g2 ∈ k_ekgs s2 → ek_pk (g_epochkg g1) = ek_pk (g_epochkg g2) → sized →
  (Z.of_nat (length (g_keypers g1)) < 2 ^ 63)%Z → (0 < ek_threshold (g_epochkg g1) < 2 ^ 63)%N → (Z.of_nat (length (g_keypers g2)) < 2 ^ 63)%Z → (0 < ek_threshold (g_epochkg g2) < 2 ^ 63)%N →
  ek_keys (g_epochkg g1) !! ep = Some key1 → ek_keys (g_epochkg g2) !! ep = Some key2 → key1 = key2.
Proof.
  intros R1 R2 H1 H2 En Hs Hn1 Ht1 Hn2 Ht2 K1 K2.
  destruct (C60_sound _ _ _ _ _ _ _ _ R1 H1 Hs Hn1 Ht1 K1) as [(k1 & -> & Q1) _].
  destruct (C60_sound _ _ _ _ _ _ _ _ R2 H2 Hs Hn2 Ht2 K2) as [(k2 & -> & Q2) _]. f_equal. apply pair_gen_inj. congruence.
Qed.
(** If no decision is skipped, the keyper holds the key as soon as a threshold of keypers have published valid shares in the finalized phase. *)
Theorem C60_complete p m l s acts g st b ep : keyper_run_no_skip p m l s acts → g ∈ k_ekgs s → sized → (Z.of_nat (length (g_keypers g)) < 2 ^ 63)%Z →
  (0 < ek_threshold (g_epochkg g) < 2 ^ 63)%N → started m (g_eon g) st b →
  (N.to_nat (ek_threshold (g_epochkg g)) ≤ size (valid_senders epoch_point (ek_pkshares (g_epochkg g)) ep (final_shares_on_chain m (g_eon g) st (g_keypers g))))%nat →
  ∃ k, ek_keys (g_epochkg g) !! ep = Some (Some k) ∧ pair ggen k = pair (ek_pk (g_epochkg g)) (epoch_point ep).
Proof.
  intros Hrun Hg Hs Hn Ht Hst Hsz. pose proof (run_facts_no_skip make_event chain plen epoch_point Hwf Hho _ _ _ _ _ Hrun) as [_ _ I]. rewrite Forall_forall in I. specialize (I g Hg).
  apply ekg_holds in I as (st' & b' & c & idx & r & _ & ms & Ho & _ & _ & _ & M1 & M2 & M3). pose proof Ho as [Hst' _ K1 _ [(cs & d & A1 & A2 & _) _] (T & _ & _ & U & V)].
  assert (Et : r_threshold r = sc_threshold c).
  { apply compute_result_inv in A2 as (_ & ? & _ & _ & ->). cbn. by apply run_frame in A1 as (_ & _ & -> & _). }
  assert (st' = st) as ->. { apply (eon_infos_unique (Pub m) (g_eon g) st' b' st b); [done|by apply eon_infos_elem..]. }
  rewrite T, Et, V in *. rewrite U. rewrite K1 in *.
  destruct (holds_key _ _ _ _ _ _ _ _ ms ep Ho Hs Ht Hn M1) as [H (k & Hk)]. exists k. split; [|done]. apply H. split; [|by exists k].
  etransitivity; [exact Hsz|]. apply valid_senders_subset. intros x (ev & Hev & Hm)%elem_of_list_omap. apply elem_of_list_In, filter_In in Hev as [Hev Hp].
  apply (M3 I ev x); [by apply elem_of_list_In|by apply Nat.eqb_eq|done].
Qed.
End Props.

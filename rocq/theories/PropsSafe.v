(** C62: what is on the chains does not crash a keyper. *)
From stdpp Require Import gmap list strings sorting.
From Coq Require Import ZArith NArith Lia.
From Verif Require Import Fq CryptoModel DkgModel DkgSpec DkgProofs EpochModel EncModel EncodingModel ArithModel ContractsModel AppModel AppSpec ObserveModel ObserveProofs SyncModel SyncProofs
  MainModel MainProofs DecideModel KeyperModel KeyperSpec KeyperDkgProofs KeyperStepProofs KeyperHistProofs KeyperRunProofs KeyperSystem EventsModel EventsSpec EventsProofs PropsEvents PropsChain PropsFull
  SafeProofs SafeDecide.

Section Safe.
Context {P : pairing} {K R : Type}.
Notation sig := (N * list N)%type.
Notation shutter := (ObserveModel.shutter (body P) sconfig K sig).
Notation obs := (sync_obs (body P) sconfig K sig).
Context (make_event : R → Z → option (shutter_event (body P) sconfig K sig)) (chain : nat → list (list R)).
Notation Pub := (published make_event chain).
Context (plen : phase_length) (epoch_point : N → G1 P).
Notation good := (SyncProofs.good make_event chain).
Notation seen := (@seen_blocks (body P) sconfig K sig).
Implicit Types (i : kinput P K) (s : kstate P) (w : shutter).

(** ** Specification *)
(** The input of a decision is ordinary: the keyper knows the configs, and active ones have keypers; decryption signatures were published and accusations were made only for batches
    of configs that are active in the keyper's view of the main chain. *)
Record ordinary i : Prop := {
  or_usable : usable (in_view i); or_staffed : staffed (in_view i);
  or_signed : ∀ b, is_Some (batches (in_shutter i) !! b) → active_for (in_view i) (Z.of_N b);
  or_accused : ∀ h a, v_accusations (in_view i) !! h = Some a → (0 ≤ ma_half_step a)%Z ∧ active_for (in_view i) (ma_half_step a / 2)
}.

(** ** Proofs *)
Context (Hwf : ∀ m, well_formed (Pub m)) (Hho : heights_ok make_event).
Context (Hsh : ∀ m kd e, EonEvent kd e ∈ Pub m → shaped kd e) (Hcfg : ∀ m c, BatchConfig c ∈ Pub m → (0 < sc_threshold c < 2 ^ 63)%N).
Definition known (H : nat) (n : N) : Prop := ∃ st b, (n, st, b) ∈ eon_infos (Pub H).
Record ksafe (H : nat) s : Prop := {
  ka_dkgs : Forall (λ k, dsafe k ∧ known H (k_eon k)) (k_dkgs s);
  ka_ekgs : Forall (λ g, esafe g ∧ known H (g_eon g)) (k_ekgs s);
  ka_next : (0 ≤ k_next_share s)%Z;
  ka_x : xsafe (k_x s)
}.
Lemma known_find kds h w H n : good kds h w → H ≤ seen w → known H n → ∃ e, find_eon w n = Some e ∧ ∀ kd x, x ∈ get_events kd e h → shaped kd x.
Proof using Hwf Hho Hsh.
  intros Hg Hle (st & b & Hin). apply (infos_mono make_event chain Hho _ _ Hle) in Hin. rewrite <-(good_infos make_event chain _ _ _ Hg) in Hin. apply elem_of_list_fmap in Hin as (e & Ee & He).
  injection Ee as -> _ _. exists e. assert (find_eon w (eon_number e) = Some e) as Hf.
  { apply find_eon_spec; [|done]. destruct Hg as (_ & _ & Hr). by eapply repr_sorted. }
  split; [done|]. intros kd x Hx. eapply (events_from make_event chain Hwf) in Hx; [|exact Hg|exact Hf]. apply of_kind_elem in Hx as [Hx _]. by eapply Hsh.
Qed.
Lemma start_dkg_safe kds me h w e k : good kds h w → e ∈ eons w → start_dkg plen me w e = Some k → dsafe k ∧ known (seen w) (k_eon k).
Proof using Hcfg epoch_point.
  intros Hg He. unfold start_dkg. intros (idx & Ei & [= <-])%bind_Some. apply find_address_lt in Ei as Hlt. set (c := config_by_batch w (ObserveModel.start_batch e)) in *.
  assert (c ∈ configs w) as Hc.
  { unfold c, config_by_batch in *. revert Hlt. clear. generalize (length (configs w)). intros n. induction n as [|n IH]; cbn [last_config_for]; [cbn; lia|].
    destruct (configs w !! n) as [c|] eqn:E; [|cbn; lia]. destruct (_ <=? _)%N; [intros _; by eapply elem_of_list_lookup_2|done]. }
  rewrite (good_configs make_event chain _ _ _ Hg) in Hc. unfold config_list in Hc. apply elem_of_list_omap in Hc as (ev & Hev & Hc). destruct ev as [|bc| | |]; try done. injection Hc as ->.
  apply Hcfg in Hev. split.
  - split; [|by intros m ?%elem_of_nil]. cbn [k_keypers k_pure]. split; cbn; try done.
    + by rewrite Nat2N.id.
    + by rewrite replicate_length, Nat2N.id.
    + by rewrite replicate_length, Nat2N.id.
    + intros _. apply lookup_replicate. split; [done|]. rewrite Nat2N.id. lia.
  - exists (start_height e), (ObserveModel.start_batch e). cbn [k_eon]. rewrite <-(good_infos make_event chain _ _ _ Hg). apply elem_of_list_fmap. by exists e.
Qed.
Lemma sync_share_safe (open : G1 P → list (list N) → list (list N)) g e : shaped KeyShare e → esafe g →
  ∃ g' o, sync_share epoch_point open g e = Some (g', o) ∧ (esafe g' ∧ g_eon g' = g_eon g) ∧ Forall (λ k : Z * (list (list N) → list (list N)), (0 ≤ k.1)%Z) o.
Proof using.
  unfold shaped, sync_share. destruct (ev_body e) as [| | | |sender ep share]; try done. intros _ Hg. destruct (find_address _ _) as [j|] eqn:Ej; [|by eexists _, _].
  destruct (ek_keys _ !! _); [by eexists _, _|]. apply find_address_lt in Ej. rewrite <-Hg in Ej.
  destruct (handle_share _ _ _) as [[s' err]|] eqn:Es.
  - cbn [mbind option_bind]. eexists _, _. split; [done|]. split.
    + split; [|done]. unfold esafe. cbn [g_epochkg g_keypers]. rewrite <-Hg. f_equal. unfold handle_share in Es. destruct (ek_keys (g_epochkg g) !! _) in Es; [by injection Es as <- _|]. destruct (ek_pkshares (g_epochkg g) !! _) in Es; [|done].
      destruct (negb _) in Es; [by injection Es as <- _|]. injection Es as Es. unfold add_share in Es. destruct (existsb _ _) in Es; [by injection Es as <- _|]. by destruct (negb _) in Es; injection Es as <- _.
    + destruct err; [done|]. destruct (ek_keys s' !! ep) as [[key|]|]; [|done|done]. constructor; [|done]. cbn. lia.
  - exfalso. unfold handle_share in Es. destruct (ek_keys (g_epochkg g) !! _) in Es; [done|]. cbn [es_sender] in Es. destruct (lookup_lt_is_Some_2 _ _ Ej) as [pk Hpk]. rewrite Hpk in Es. by destruct (negb _) in Es.
Qed.
Lemma sync_ekgs_safe (open : G1 P → list (list N) → list (list N)) kds i gs H : good kds (in_height i) (in_shutter i) → H ≤ seen (in_shutter i) → Forall (λ g, esafe g ∧ known H (g_eon g)) gs →
  ∃ gs' keys, sync_ekgs epoch_point open i gs = Some (gs', keys) ∧ Forall (λ g, esafe g ∧ known H (g_eon g)) gs' ∧ Forall (λ k : Z * (list (list N) → list (list N)), (0 ≤ k.1)%Z) keys.
Proof using Hwf Hho Hsh.
  intros Hg Hle. induction 1 as [|g gs [Hs Hk] HF (gs' & keys & E & I1 & I2)]; cbn [sync_ekgs]; [by eexists _, _|].
  destruct (known_find _ _ _ _ _ Hg Hle Hk) as (e & -> & Hev). cbn [mbind option_bind].
  destruct (collect_safe (sync_share epoch_point open) (λ g', esafe g' ∧ g_eon g' = g_eon g) (λ k : Z * (list (list N) → list (list N)), (0 ≤ k.1)%Z) g (get_events KeyShare e (in_height i))) as (g1 & o & -> & [H1 H2] & H3); [|done|].
  { intros g1 x [G1 G2] Hx. destruct (sync_share_safe open g1 x (Hev _ _ Hx) G1) as (g2 & o & ? & [? ?] & ?). exists g2, o. split; [done|]. split; [|done]. split; [done|congruence]. }
  cbn [mbind option_bind]. rewrite E. cbn [mbind option_bind]. eexists _, _. split; [done|]. split; [constructor; [|done]; by rewrite H2|by apply Forall_app].
Qed.
Lemma publish_shares_safe me i gs next : usable (in_view i) → (0 ≤ next)%Z → ∃ next' a, publish_shares me epoch_point i gs next = Some (next', a) ∧ (0 ≤ next')%Z.
Proof using Hwf Hho Hsh Hcfg.
  intros Hu Hn. unfold publish_shares. destruct (active_total _ Hu) as (n & c & -> & Hc & Hle). cbn [mbind option_bind]. rewrite Hc. cbn [mbind option_bind].
  destruct (config_by_index _ _); [|by eexists _, _]. destruct (batch_index_total _ _ _ Hu Hc Hle) as (b & -> & Hb). cbn [mbind option_bind].
  destruct (mapM_safe (λ b, t ← timed_out_or_inactive (in_view i) b; Some (if (t : bool) then [] else publish_share me epoch_point (in_shutter i) gs b)) (seqZ next (b - next))) as [l ->].
  - intros x Hx%elem_of_seqZ. destruct (timed_out_total (in_view i) x Hu ltac:(lia)) as (t & -> & _). cbn. eauto.
  - cbn [mbind option_bind]. by eexists _, _.
Qed.
Context (p : keyper_params P) (Horder : ∀ A (l : list A), Permutation (kp_order p A l) l).
Notation step := (decide_step (kp_ecies p) plen (kp_me p) epoch_point (kp_open p) (kp_keccak p) (kp_ecrecover p) (kp_addr_bytes p) (kp_batcher p) (kp_sign p) (kp_staggering p) (kp_order p)).
Lemma decide_safe kds i s : good kds (in_height i) (in_shutter i) → (0 ≤ in_height i)%Z → node_synced (in_shutter i) = true → v_synced (in_view i) = true → shutter_is_keyper (in_shutter i) (kp_me p) = true →
  ordinary i → ksafe (Z.to_nat (in_height i)) s → ∃ s' acts, step s i = Some (s', acts) ∧ ksafe (seen (in_shutter i)) s'.
Proof using Hwf Hho Hsh Hcfg Horder.
  intros Hg Hpos Hn Hv Hk [Hu Hst Hsg Hac] [A1 A2 A3 A4]. pose proof Hg as (Hg1 & Hg2 & _). set (H := Z.to_nat (in_height i)) in *. set (Hs := seen (in_shutter i)).
  assert (HH : H ≤ Hs) by (unfold H, Hs, seen_blocks; lia).
  assert (∀ n, known H n → known Hs n) as Hmono. { intros n (st & b & Hin). exists st, b. by eapply infos_mono. }
  unfold decide_step. rewrite Hn, Hv, Hk. cbn [negb]. destruct (check_in (kp_me p) s (in_shutter i)) as [s1 a1] eqn:E1. destruct (send_config s1 (in_shutter i) (in_view i)) as [s2 a2] eqn:E2.
  pose proof (check_in_frame _ _ _ _ _ E1) as (C1 & C2 & C3 & C4 & C5 & _). pose proof (send_config_frame _ _ _ _ _ E2) as (D1 & D2 & D3 & D4 & D5 & _).
  rewrite D1, D2, D3, D4, D5, C1, C2, C3, C4, C5. destruct (start_dkgs plen (kp_me p) (in_shutter i) (eons (in_shutter i)) (k_last_eon s)) as [leon new] eqn:E3.
  destruct (start_dkgs_spec _ _ _ _ _ _ _ E3) as (_ & _ & _ & S4).
  assert (Forall (λ k, dsafe k ∧ known Hs (k_eon k)) (k_dkgs s ++ new)) as Hall.
  { apply Forall_app. split; [eapply Forall_impl; [exact A1|]; cbn; intros k [? ?]; auto|]. apply Forall_forall. intros k Hk'. destruct (S4 k Hk') as (e & He & _ & Hst'). by eapply start_dkg_safe. }
  destruct (handle_dkgs_safe (kp_ecies p) plen i (k_dkgs s ++ new)) as (ks' & gs & a3 & E4 & I1 & I2 & I3).
  { eapply Forall_impl; [exact Hall|]. by intros k [? _]. }
  { intros k Hk'. rewrite Forall_forall in Hall. destruct (Hall k Hk') as [_ Hkn]. eapply known_find; [exact Hg| |exact Hkn]. done. }
  rewrite E4. cbn [mbind option_bind].
  assert (∀ n, n ∈ k_eon <$> k_dkgs s ++ new → known Hs n) as Hkn. { intros n (k & -> & Hin)%elem_of_list_fmap. rewrite Forall_forall in Hall. by apply (Hall k Hin). }
  destruct (sync_ekgs_safe (kp_open p) kds i (k_ekgs s ++ gs) Hs Hg ltac:(done)) as (gs' & keys & E5 & J1 & J2).
  { apply Forall_app. split; [eapply Forall_impl; [exact A2|]; cbn; intros g [? ?]; auto|]. eapply Forall_impl; [exact I3|]. cbn. intros g [? ?]. auto. }
  rewrite E5. cbn [mbind option_bind].
  destruct (on_keys_safe (kp_keccak p) (kp_ecrecover p) (kp_addr_bytes p) (kp_batcher p) (kp_sign p) (in_view i) (sigs_of (in_shutter i)) keys (k_x s) Hu A4 J2) as (x1 & a4 & -> & X1). cbn [mbind option_bind].
  destruct (publish_shares_safe (kp_me p) i gs' (k_next_share s) Hu A3) as (next & a5 & -> & N1). cbn [mbind option_bind].
  destruct (handle_signatures_safe (kp_ecrecover p) (in_view i) (sigs_of (in_shutter i)) x1 Hu) as (x2 & -> & X2); [|done|].
  { intros b Hb. unfold sigs_of in Hb. destruct Hb as [l Hb]. apply lookup_kmap_Some in Hb as (n & -> & Hb); [|apply _]. split; [lia|]. apply Hsg. eauto. }
  cbn [mbind option_bind]. destruct (execute_batch_safe (kp_keccak p) (kp_ecrecover p) (kp_addr_bytes p) (kp_me p) (kp_sign p) (kp_staggering p) (in_view i) x2 Hu Hst X2) as (x3 & a6 & -> & X3). cbn [mbind option_bind].
  destruct (maybe_appeal_safe (kp_keccak p) (kp_ecrecover p) (kp_addr_bytes p) (kp_me p) (kp_sign p) (kp_staggering p) (kp_order p) Horder (in_view i) x3 Hu Hac X3) as (x4 & a7 & -> & X4). cbn [mbind option_bind].
  destruct (maybe_accuse_safe (kp_keccak p) (kp_ecrecover p) (kp_addr_bytes p) (kp_me p) (kp_sign p) (in_view i) x4 Hu X4) as (x5 & a8 & -> & X5). cbn [mbind option_bind].
  eexists _, _. split; [done|]. split; cbn [k_dkgs k_ekgs k_next_share k_x]; [|done|done|done].
  apply Forall_forall. intros k Hk'. rewrite Forall_forall in I1. split; [by apply I1|]. apply Hkn. rewrite <-I2. apply elem_of_list_fmap. by exists k.
Qed.
Theorem decisions_safe kds o H : KeyperHistProofs.decisions make_event chain kds o H → ∀ l, Forall2 (matches (kp_me p)) l o → Forall ordinary l →
  (0 ≤ H)%Z ∧ ∃ s acts, decisions_of plen epoch_point p new_kstate l = Some (s, acts) ∧ ksafe (Z.to_nat H) s.
Proof using Hwf Hho Hsh Hcfg Horder.
  intros Hd. induction Hd as [|o H w Hd IH Hg Hn Hpos]; intros l HF Hl.
  - apply Forall2_nil_inv_r in HF as ->. split; [done|]. eexists _, _. split; [done|]. split; [constructor|constructor|done|]. split; [|done]. intros b x Hx. cbn in Hx. by rewrite lookup_empty in Hx.
  - apply Forall2_app_inv_r in HF as (l1 & l2 & HF1 & HF2 & ->). apply Forall2_cons_inv_r in HF2 as (i & l3 & (Eob & Hv & Hk) & HF3 & ->).
    apply Forall2_nil_inv_r in HF3 as ->. apply Forall_app in Hl as [Hl1 Hl2]. apply Forall_cons in Hl2 as [Hi _]. destruct (IH l1 HF1 Hl1) as (_ & s1 & al & E1 & I1).
    injection Eob as EH Ew. subst H w. destruct (decide_safe kds i s1 Hg Hpos Hn Hv Hk Hi I1) as (s2 & a & E2 & I2). pose proof Hg as (Hg1 & Hg2 & _). split; [lia|].
    unfold decisions_of in *. rewrite all_snoc, E1. cbn [mbind option_bind]. rewrite E2. cbn [mbind option_bind]. by eexists _, _.
Qed.
End Safe.

(** ** C62 *)
Section Chain.
Context (keccak : bytes → bytes) {P : pairing} {PK : Type}
  (pk_bytes : PK → bytes) (pk_parse decompress : bytes → option PK) (compress : PK → bytes)
  (g2_bytes : G2 P → bytes) (g2_parse : bytes → option (G2 P)) (g1_bytes : G1 P → bytes) (g1_parse : bytes → option (G1 P))
  (pb_bytes : message → bytes) (pb_parse : bytes → option message) (sha3 : bytes → bytes) (sig_signer : bytes → bytes → option N).
Notation read := (make_event keccak P PK pk_parse g2_parse g1_parse).
Notation produced := (produced keccak pk_bytes pk_parse decompress g2_bytes g2_parse g1_bytes g1_parse pb_parse sha3 sig_signer).
Context (Hok : codecs P PK pk_bytes g2_bytes g1_bytes pk_parse decompress compress g2_parse g1_parse pb_bytes pb_parse sig_signer).
Context (plen : phase_length) (epoch_point : N → G1 P).
(** Whatever anyone sent to the shuttermint chain, and whenever the keyper is restarted (after its first decision, see C45), none of its decisions panics: they all give a new
    state and the actions to submit.  Partial: thresholds are below 2^63 (see C14_threshold_refuted), and the keyper's view of the main chain is [ordinary]; without that, see
    C62_refuted. *)
Theorem C62_no_crash_partial chain (p : keyper_params P) y es o l : produced chain → (∀ m c, BatchConfig c ∈ published read chain m → (sc_threshold c < 2 ^ 63)%N) →
  (∀ A (l : list A), Permutation (kp_order p A l) l) → SyncModel.history read chain y es o → crash_after_decision read chain es → Forall2 (matches (kp_me p)) l o → Forall ordinary l →
  ∃ s acts, decisions_of plen epoch_point p new_kstate l = Some (s, acts).
Proof using Hok.
  intros Hp Hth Hord Hh Hc HF Hl.
  destruct (C65_well_formed keccak pk_bytes pk_parse decompress compress g2_bytes g2_parse g1_bytes g1_parse pb_bytes pb_parse sha3 sig_signer Hok chain Hp) as [Hho Hwf].
  pose proof (history_decisions read chain Hwf Hho _ _ _ Hh Hc) as Hd.
  destruct (decisions_safe read chain plen epoch_point Hwf Hho) with (p := p) (kds := λ k : kind, k ≠ KeyShare) (o := o) (H := sync_height y) (l := l) as (_ & s & acts & E & _); [| |done..|by eauto].
  - intros m kd e Hin. eapply (C65_message keccak pk_bytes pk_parse decompress compress g2_bytes g2_parse g1_bytes g1_parse pb_bytes pb_parse sha3 sig_signer Hok) in Hin as [Hin _]; [|done].
    unfold shaped. destruct kd, (ev_body e); try done; naive_solver.
  - intros m c Hin. pose proof (Hth _ _ Hin). eapply (C65_config keccak pk_bytes pk_parse decompress compress g2_bytes g2_parse g1_bytes g1_parse pb_bytes pb_parse sha3 sig_signer Hok) in Hin as (_ & _ & _ & ? & _); [|done].
    lia.
Qed.
End Chain.

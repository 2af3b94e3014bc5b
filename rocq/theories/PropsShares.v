(** C55: when a keyper releases its share of the key of a batch. *)
From stdpp Require Import list gmap sets.
From Coq Require Import ZArith NArith Lia Sorted.
From Verif Require Import Fq CryptoModel DkgModel DkgSpec EpochModel ObserveModel SyncModel ArithModel PropsArith ContractsModel ContractsProofs PropsConfig PropsBatcher MainModel MainProofs PropsMain DecideModel EncodingModel
  KeyperModel KeyperSpec KeyperDkgProofs KeyperStepProofs KeyperHistProofs KeyperRunProofs KeyperLogProofs KeyperActionProofs KeyperSystem PropsExecution.
Local Open Scope Z_scope.

(** ** Configs *)
(** the configs of the main chain as C47 proves them to be; and their start blocks do not decrease (as C47 proves it if no config but the first is
    inactive) *)
Definition seamless (cs : list config) : Prop :=
  cs !! 0%nat = Some zero_config ∧ Forall (λ c, config_typed c = true) cs ∧ ∀ i c1 c2, cs !! i = Some c1 → cs !! S i = Some c2 → linked c1 c2.
Definition starts_increase (cs : list config) : Prop := ∀ i c1 c2, cs !! i = Some c1 → cs !! S i = Some c2 → start_block c1 ≤ start_block c2.

Lemma starts_le cs : starts_increase cs → ∀ i j c d, (i ≤ j)%nat → cs !! i = Some c → cs !! j = Some d → start_block c ≤ start_block d.
Proof.
  intros H i j c d Hij Hc. revert d. induction j as [|j IH]; intros d Hd; [replace d with c; [lia|]; replace i with 0%nat in * by lia; congruence|].
  destruct (decide (i = S j)) as [->|]; [replace d with c by congruence; lia|]. destruct (lookup_lt_is_Some_2 cs j) as [d0 Hd0]; [apply lookup_lt_Some in Hd; lia|].
  specialize (IH ltac:(lia) d0 Hd0). specialize (H j d0 d Hd0 Hd). lia.
Qed.
Lemma batches_le cs : seamless cs → ∀ i j c d, (i ≤ j)%nat → cs !! i = Some c → cs !! j = Some d → start_batch c ≤ start_batch d.
Proof.
  intros (_ & _ & W) i j c d Hij Hc. revert d. induction j as [|j IH]; intros d Hd; [replace d with c; [lia|]; replace i with 0%nat in * by lia; congruence|].
  destruct (decide (i = S j)) as [->|]; [replace d with c by congruence; lia|]. destruct (lookup_lt_is_Some_2 cs j) as [d0 Hd0]; [apply lookup_lt_Some in Hd; lia|].
  specialize (IH ltac:(lia) d0 Hd0). specialize (W j d0 d Hd0 Hd). unfold linked in W. destruct (0 <? span d0); lia.
Qed.
Lemma batch_le_block cs : seamless cs → starts_increase cs → ∀ i c, cs !! i = Some c → start_batch c ≤ start_block c.
Proof.
  intros (W0 & Wt & W) H i. induction i as [|i IH]; intros c Hc; [rewrite W0 in Hc; injection Hc as <-; done|].
  destruct (lookup_lt_is_Some_2 cs i) as [d Hd]; [apply lookup_lt_Some in Hc; lia|]. specialize (IH d Hd). specialize (W i d c Hd Hc). specialize (H i d c Hd Hc). unfold linked in W.
  destruct (Z.ltb_spec 0 (span d)); [destruct W; nia|lia].
Qed.
(** a batch before the current one is over *)
Lemma before_current cs cur r c b j d : seamless cs → starts_increase cs → 0 ≤ cur < 2 ^ 64 → active_config_index cs cur = Some r → cs !! r = Some c → batch_index c cur = Some b →
  0 ≤ b < 2 ^ 64 ∧ ∀ ep, PropsConfig.config_for cs ep j d → ep < b → 0 < span d → end_block d ep ≤ cur.
Proof.
  intros Hs Hi Hcur Ha Hc Hb. pose proof Hs as (W0 & Wt & W). apply C24_active_config in Ha as ((c' & Hc' & Hst) & Hlater). rewrite Hc in Hc'. injection Hc' as <-.
  pose proof (proj1 (Forall_lookup _ _) Wt r c Hc) as Ht. apply config_typed_ok in Ht as (T1 & T2 & T3 & T4 & T5).
  pose proof (batch_le_block _ Hs Hi _ _ Hc) as Hle. unfold batch_index in Hb. destruct (Z.ltb_spec cur (start_block c)); [lia|].
  set (q := (cur - start_block c) / span c) in *.
  assert (Hq : 0 < span c → 0 ≤ q ≤ cur - start_block c ∧ span c * q ≤ cur - start_block c < span c * (q + 1)).
  { intros Hp. pose proof (Z.mul_div_le (cur - start_block c) (span c) Hp). pose proof (Z.mul_succ_div_gt (cur - start_block c) (span c) Hp). fold q in H0, H1.
    assert (0 ≤ q) by (apply Z.div_pos; lia). split; [nia|]. lia. }
  assert (Eb : b = if 0 <? span c then start_batch c + q else start_batch c).
  { destruct (Z.eqb_spec (span c) 0) as [E0|E0]; [injection Hb as <-; destruct (Z.ltb_spec 0 (span c)); [lia|done]|]. destruct (Z.ltb_spec 0 (span c)); [|lia]. destruct (Hq H0) as [Hq1 Hq2].
    rewrite (u64_small (cur - start_block c)) in Hb by lia. fold q in Hb. rewrite u64_small in Hb by lia. by injection Hb as <-. }
  clear Hb. assert (Hb : 0 ≤ b < 2 ^ 64) by (rewrite Eb; destruct (Z.ltb_spec 0 (span c)); lia). split; [done|].
  intros ep (J1 & J2 & J3) Hep Hsp. destruct (lt_eq_lt_dec j r) as [[Hjr|Ejr]|Hjr]; [|subst r|].
  - destruct (lookup_lt_is_Some_2 cs (S j)) as [d' Hd']; [apply lookup_lt_Some in Hc; lia|]. pose proof (J3 (S j) d' ltac:(lia) Hd') as Hd''.
    specialize (W j d d' J1 Hd'). unfold linked in W. destruct (Z.ltb_spec 0 (span d)); [|lia]. destruct W as [_ W]. pose proof (starts_le _ Hi (S j) r d' c ltac:(lia) Hd' Hc). unfold end_block. nia.
  - rewrite Hc in J1. injection J1 as <-. destruct (Z.ltb_spec 0 (span c)); [|lia]. destruct (Hq Hsp) as [_ Hq2]. unfold end_block. nia.
  - exfalso. destruct (lookup_lt_is_Some_2 cs (S r)) as [d' Hd']; [apply lookup_lt_Some in J1; lia|]. pose proof (Hlater (S r) d' ltac:(lia) Hd') as Hd''.
    pose proof (batches_le _ Hs (S r) j d' d ltac:(lia) Hd' J1). specialize (W r c d' Hc Hd'). unfold linked in W. destruct (Z.ltb_spec 0 (span c)) as [Hp|Hp]; [|lia].
    destruct (Hq Hp) as [_ Hq2]. nia.
Qed.

Lemma read_config_for cs b k c : PropsConfig.config_for (read_config <$> cs) b k c → ∃ c0, PropsConfig.config_for cs b k c0 ∧ c = read_config c0.
Proof.
  intros (H1 & H2 & H3). rewrite list_lookup_fmap in H1. apply fmap_Some in H1 as (c0 & Hc0 & ->). exists c0. split; [|done]. split; [done|]. split; [done|].
  intros j c' Hj Hc'. apply (H3 j (read_config c') Hj). by rewrite list_lookup_fmap, Hc'.
Qed.
Lemma dedup_shorter seen l : (length (dedup_loop seen l) ≤ length l)%nat.
Proof. revert seen. induction l as [|x l IH]; intros seen; cbn [dedup_loop]; [done|]. destruct (bool_decide _); cbn [length]; [specialize (IH seen)|specialize (IH (x :: seen))]; lia. Qed.
Lemma read_seamless cs : well_formed cs → (∀ k c, (0 < k)%nat → cs !! k = Some c → 0 < span c) → seamless (read_config <$> cs) ∧ starts_increase (read_config <$> cs).
Proof.
  intros (W1 & W2 & W3 & W) Hact. split.
  - split; [by rewrite list_lookup_fmap, W1|]. split.
    + rewrite Forall_fmap. eapply Forall_impl; [exact W2|]. intros c Hc. change (config_typed (read_config c) = true). unfold config_typed in *. cbn [start_batch start_block keypers threshold span batch_size_limit tx_size_limit tx_gas_limit timeout read_config].
      apply andb_true_iff in Hc as [Hc1 Hc2]. rewrite Hc1. cbn [andb]. apply Z.ltb_lt in Hc2. apply Z.ltb_lt. pose proof (dedup_shorter [] (keypers c)). unfold dedup_addresses. lia.
    + intros k c1 c2. rewrite !list_lookup_fmap. intros (d1 & E1 & ->)%fmap_Some (d2 & E2 & ->)%fmap_Some. apply (W k d1 d2 E1 E2).
  - intros k c1 c2. rewrite !list_lookup_fmap. intros (d1 & E1 & ->)%fmap_Some (d2 & E2 & ->)%fmap_Some. cbn [start_block read_config].
    pose proof (proj1 (Forall_lookup _ _) W2 _ _ E2) as T%config_typed_ok. destruct k as [|k]; [rewrite W1 in E1; injection E1 as <-; cbn; lia|].
    specialize (W _ _ _ E1 E2). specialize (Hact _ _ (Nat.lt_0_succ k) E1). unfold linked in W. destruct (Z.ltb_spec 0 (span d1)); [|lia]. nia.
Qed.

Ltac split_if H := match type of H with context [if ?b then _ else _] => destruct b end.
Section Props.
Context {P : pairing} {K R : Type}.
Context (plen : phase_length) (epoch_point : N → G1 P).
Notation decisions_of := (decisions_of (K:=K) plen epoch_point).
Implicit Types (p : keyper_params P).
(** the key shares submitted: eon, batch, share *)
Definition shares_sent (A : list (kaction P)) : list (N * N * G1 P) := A ≫= λ a, match a with KKeyShare n ep sh => [(n, ep, sh)] | _ => [] end.
Lemma shares_sent_elem A n ep sh : (n, ep, sh) ∈ shares_sent A ↔ KKeyShare n ep sh ∈ A.
Proof.
  unfold shares_sent. rewrite elem_of_list_bind. split.
  - intros (a & Ha & Hin). destruct a; try (by apply elem_of_nil in Ha). apply elem_of_list_singleton in Ha. by injection Ha as -> -> ->.
  - intros H. eexists; split; [|exact H]. by left.
Qed.

(** one decision *)
Definition step_of p : kstate P → kinput P K → option (kstate P * list (kaction P)) :=
  decide_step (kp_ecies p) plen (kp_me p) epoch_point (kp_open p) (kp_keccak p) (kp_ecrecover p) (kp_addr_bytes p) (kp_batcher p) (kp_sign p) (kp_staggering p) (kp_order p).
Lemma decisions_snoc p s0 l i s acts : decisions_of p s0 (l ++ [i]) = Some (s, acts) → ∃ s1 acts1 a, decisions_of p s0 l = Some (s1, acts1) ∧ step_of p s1 i = Some (s, a) ∧ acts = acts1 ++ [a].
Proof.
  unfold KeyperSystem.decisions_of, step_of. revert s0 s acts. induction l as [|i0 l IH]; intros s0 s acts; cbn [app decide_all].
  - intros ([s1 a] & E1 & E)%bind_Some. cbn in E. injection E as <- <-. exists s0, [], a. done.
  - intros ([s1 a] & E1 & E)%bind_Some. apply bind_Some in E as ([s2 al] & E2 & E). injection E as <- <-. destruct (IH _ _ _ E2) as (s3 & acts1 & a1 & F1 & F2 & ->).
    exists s3, (a :: acts1), a1. split; [|done]. rewrite E1. cbn. by rewrite F1.
Qed.
Lemma decisions_prefix p s0 l1 l2 s acts : decisions_of p s0 (l1 ++ l2) = Some (s, acts) → ∃ s1 acts1 acts2, decisions_of p s0 l1 = Some (s1, acts1) ∧ decisions_of p s1 l2 = Some (s, acts2) ∧ acts = acts1 ++ acts2 ∧ length acts1 = length l1.
Proof.
  unfold KeyperSystem.decisions_of. revert s0 s acts. induction l1 as [|i0 l IH]; intros s0 s acts; cbn [app decide_all].
  - intros E. exists s0, [], acts. done.
  - intros ([s1 a] & E1 & E)%bind_Some. apply bind_Some in E as ([s2 al] & E2 & E). injection E as <- <-. destruct (IH _ _ _ E2) as (s3 & acts1 & a1 & F1 & F2 & -> & F3).
    exists s3, (a :: acts1), a1. split; [rewrite E1; cbn; by rewrite F1|]. split; [done|]. split; [done|]. cbn. by f_equal.
Qed.
(** what a decision does about shares *)
Lemma step_shares p s i s' a : step_of p s i = Some (s', a) →
  (k_next_share s' = k_next_share s ∧ shares_sent a = []) ∨
  ∃ r c b, active_config_index (v_configs (in_view i)) (current (in_view i)) = Some r ∧ v_configs (in_view i) !! r = Some c ∧ batch_index c (current (in_view i)) = Some b ∧
    k_next_share s' = b ∧ (∃ ls, mapM (λ b, t ← timed_out_or_inactive (in_view i) b; Some (if (t : bool) then [] else publish_share (kp_me p) epoch_point (in_shutter i) (k_ekgs s') b))
      (seqZ (k_next_share s) (b - k_next_share s)) = Some ls ∧ shares_sent a = shares_sent (mjoin ls)) ∧
    is_Some (config_by_index (in_shutter i) (N.of_nat r)) ∧ node_synced (in_shutter i) = true ∧ v_synced (in_view i) = true ∧ shutter_is_keyper (in_shutter i) (kp_me p) = true.
Proof.
  intros E. destruct (node_synced (in_shutter i)) eqn:Hn; [|unfold step_of, decide_step in E; rewrite Hn in E; injection E as <- <-; by left].
  destruct (v_synced (in_view i)) eqn:Hv; [|unfold step_of, decide_step in E; rewrite Hn, Hv in E; injection E as <- <-; by left].
  destruct (shutter_is_keyper (in_shutter i) (kp_me p)) eqn:Hk; [|unfold step_of, decide_step in E; rewrite Hn, Hv, Hk in E; injection E as <- <-; by left].
  destruct (decide_parts _ _ _ _ _ _ _ _ _ _ _ _ _ _ _ _ Hn Hv Hk E) as (a12 & lst & new & ekgs1 & a3 & keys & a4 & a5 & a678 & _ & E2 & _ & E4 & _ & E6 & E7).
  assert (Hsh : shares_sent a = shares_sent a5).
  { rewrite E6. unfold shares_sent. rewrite !bind_app.
    assert (∀ l : list (kaction P), (∀ x, x ∈ l → ∀ n ep sh, x ≠ KKeyShare n ep sh) → shares_sent l = []) as G.
    { intros l Hl. unfold shares_sent. apply bind_nil. intros x Hx. specialize (Hl x Hx). destruct x; try done. by destruct (Hl eon epoch share). }
    assert (shares_sent a12 = []) as E12. { apply G. intros x Hx n ep sh ->. destruct (E7 _ Hx) as [?|(?&?&?)]; done. }
    assert (shares_sent a3 = []) as E3.
    { apply G. intros x Hx n ep sh ->. clear -E2 Hx. destruct (handle_dkgs_each _ _ _ _ _ _ _ E2) as (outs & O1 & _ & _ & ->). apply elem_of_list_bind in Hx as (o & Ho & Hin).
      apply elem_of_list_lookup in Hin as (j & Hj). destruct (Forall2_lookup_r _ _ _ _ _ O1 Hj) as (k & _ & Hone). unfold handle_one in Hone. destruct (is_finalized k); [injection Hone as <-; by apply elem_of_nil in Ho|].
      apply bind_Some in Hone as (e & _ & E). apply bind_Some in E as ([[k1 g1] a1] & E1 & E). apply bind_Some in E as ([k2 a2] & E2' & E). injection E as <-. cbn [snd] in Ho.
      apply elem_of_app in Ho as [Ho|Ho].
      - unfold sync_dkg in E1. cbv zeta in E1. apply bind_Some in E1 as ([x1 b1] & F1 & E1). apply bind_Some in E1 as (x2 & F2 & E1). apply bind_Some in E1 as (x3 & F3 & E1).
        apply bind_Some in E1 as ([x4 b2] & F4 & E1). apply bind_Some in E1 as (x5 & F5 & E1). apply bind_Some in E1 as ([x6 b3] & F6 & E1). apply bind_Some in E1 as (x7 & F7 & E1).
        apply bind_Some in E1 as ([[x8 g8] b4] & F8 & E1). injection E1 as <- <- <-. rewrite !elem_of_app in Ho. destruct Ho as [Ho|[Ho|[Ho|Ho]]].
        + split_if F1; [|injection F1 as <- <-; by apply elem_of_nil in Ho]. unfold start_dealing in F1. apply bind_Some in F1 as ([q o] & _ & F1). destruct o as [[cm evs]|]; [|done].
          split_if F1; injection F1 as <- <-; [by apply elem_of_nil in Ho|by apply elem_of_list_singleton in Ho].
        + split_if F4; [|injection F4 as <- <-; by apply elem_of_nil in Ho]. unfold start_accusing in F4. apply bind_Some in F4 as ([q o] & _ & F4).
          split_if F4; [injection F4 as <- <-; by apply elem_of_nil in Ho|]. destruct o; [injection F4 as <- <-; by apply elem_of_nil in Ho|]. apply bind_Some in F4 as (? & _ & F4). injection F4 as <- <-. by apply elem_of_list_singleton in Ho.
        + split_if F6; [|injection F6 as <- <-; by apply elem_of_nil in Ho]. unfold start_apologizing in F6. apply bind_Some in F6 as ([q o] & _ & F6).
          split_if F6; [injection F6 as <- <-; by apply elem_of_nil in Ho|]. destruct o; [injection F6 as <- <-; by apply elem_of_nil in Ho|]. apply bind_Some in F6 as (? & _ & F6). injection F6 as <- <-. by apply elem_of_list_singleton in Ho.
        + split_if F8; [|injection F8 as <- <- <-; by apply elem_of_nil in Ho]. unfold dkg_finalize in F8. apply bind_Some in F8 as (q & _ & F8). destruct (compute_result q); injection F8 as <- <- <-; by apply elem_of_list_singleton in Ho.
      - unfold send_poly_evals in E2'. destruct (k_outgoing k1); [injection E2' as <- <-; by apply elem_of_nil in Ho|]. destruct (_ <? _)%nat; [injection E2' as <- <-; by apply elem_of_nil in Ho|].
        apply bind_Some in E2' as (l' & _ & E2'). cbv zeta in E2'. destruct (omap _ l'); injection E2' as <- <-; [by apply elem_of_nil in Ho|by apply elem_of_list_singleton in Ho]. }
    assert (∀ l, shares_sent (KAction <$> l) = []) as EA. { intros l. apply G. intros x (y & -> & _)%elem_of_list_fmap. done. }
    fold (shares_sent a12) (shares_sent a3) (shares_sent (KAction <$> a4)) (shares_sent (KAction <$> a678)) (shares_sent a5). rewrite E12, E3, !EA. cbn [app]. by rewrite app_nil_r. }
  rewrite Hsh. unfold publish_shares in E4. cbv zeta in E4. apply bind_Some in E4 as (r & R1 & E4). apply bind_Some in E4 as (c & R2 & E4).
  destruct (config_by_index (in_shutter i) (N.of_nat r)) eqn:Ec; [|injection E4 as <- <-; by left]. apply bind_Some in E4 as (b & R3 & E4). apply bind_Some in E4 as (ls & R4 & E4). injection E4 as <- <-.
  right. exists r, c, b. split; [done|]. split; [done|]. split; [done|]. split; [done|]. split; [by exists ls|]. split_and!; done.
Qed.
Lemma published_share p (w : ObserveModel.shutter (body P) sconfig K (N * list N)) gs b n ep sh : (n, ep, sh) ∈ shares_sent (publish_share (kp_me p) epoch_point w gs b) →
  ep = Z.to_N b ∧ sc_is_keyper (config_by_batch w ep) (kp_me p) = true ∧ ∃ e g, find_eon_by_batch_index w ep = Some e ∧ find_ekg gs (eon_number e) = Some g ∧
    n = ek_eon (g_epochkg g) ∧ sh = my_epoch_share epoch_point (g_epochkg g) ep ∧ ek_keys (g_epochkg g) !! ep = None.
Proof.
  rewrite shares_sent_elem. unfold publish_share. destruct (sc_is_keyper _ _) eqn:Ek; cbn [negb]; [|by intros ?%elem_of_nil]. destruct (find_eon_by_batch_index _ _) as [e|] eqn:Ee; [|by intros ?%elem_of_nil].
  destruct (find_ekg _ _) as [g|] eqn:Eg; [|by intros ?%elem_of_nil]. destruct (ek_keys _ !! _) eqn:Ey; [by intros ?%elem_of_nil|]. intros H%elem_of_list_singleton. injection H as -> -> ->.
  split; [done|]. split; [done|]. by exists e, g.
Qed.
Lemma step_share p s i s' a n ep sh : step_of p s i = Some (s', a) → KKeyShare n ep sh ∈ a →
  ∃ r c b x, active_config_index (v_configs (in_view i)) (current (in_view i)) = Some r ∧ v_configs (in_view i) !! r = Some c ∧ batch_index c (current (in_view i)) = Some b ∧
    k_next_share s' = b ∧ k_next_share s ≤ x < b ∧ ep = Z.to_N x ∧ timed_out_or_inactive (in_view i) x = Some false ∧ sc_is_keyper (config_by_batch (in_shutter i) ep) (kp_me p) = true ∧
    ∃ e g, find_eon_by_batch_index (in_shutter i) ep = Some e ∧ find_ekg (k_ekgs s') (eon_number e) = Some g ∧ n = ek_eon (g_epochkg g) ∧ sh = my_epoch_share epoch_point (g_epochkg g) ep.
Proof.
  intros E Hin. apply shares_sent_elem in Hin. destruct (step_shares _ _ _ _ _ E) as [[_ E0]|(r & c & b & R1 & R2 & R3 & R4 & (ls & Hls & Es) & _)]; [rewrite E0 in Hin; by apply elem_of_nil in Hin|].
  rewrite Es in Hin. apply shares_sent_elem, elem_of_list_join in Hin as (l0 & Hl & Hl0). apply elem_of_list_lookup in Hl0 as (z & Hz). apply mapM_Some in Hls.
  destruct (Forall2_lookup_r _ _ _ _ _ Hls Hz) as (x & Hx & Ex). apply bind_Some in Ex as (t & Et & Ex). destruct t; injection Ex as <-; [by apply elem_of_nil in Hl|].
  apply shares_sent_elem, published_share in Hl as (-> & Hk & e & g & G1 & G2 & -> & -> & _). apply lookup_seqZ in Hx as [-> Hz']. exists r, c, b, (k_next_share s + Z.of_nat z).
  split_and!; try done; [lia|lia|]. by exists e, g.
Qed.

(** views that look at block numbers and configs of their types *)
Definition typed_views (l : list (kinput P K)) : Prop := ∀ i, i ∈ l → Forall (λ c, config_typed c = true) (v_configs (in_view i)).
Lemma next_nonneg p l s acts : typed_views l → decisions_of p new_kstate l = Some (s, acts) → 0 ≤ k_next_share s.
Proof.
  revert s acts. induction l as [|i l IH] using rev_ind; intros s acts Ht E; [injection E as <- _; done|]. apply decisions_snoc in E as (s1 & acts1 & a & E1 & E2 & _).
  specialize (IH s1 acts1 ltac:(intros j Hj; apply Ht, elem_of_app; by left) E1).
  destruct (step_shares _ _ _ _ _ E2) as [[-> _]|(r & c & b & _ & R2 & R3 & -> & _)]; [done|].
  pose proof (proj1 (Forall_lookup _ _) (Ht i ltac:(apply elem_of_app; right; by left)) r c R2) as Hc. apply config_typed_ok in Hc as (T1 & _). unfold batch_index in R3.
  destruct (_ <? _); [done|]. destruct (_ =? _); injection R3 as <-; [lia|]. unfold u64. apply Z.mod_pos_bound. lia.
Qed.

(** ** C55 *)
(** A keyper releases its share of a batch's key only when the batch is over in the block of the main chain it has followed to, and execution has not timed
    out; and only if it is a keyper of the batch's config. *)
Theorem C55_not_early p l s acts (j : nat) i a n ep sh : decisions_of p new_kstate l = Some (s, acts) → typed_views l → l !! j = Some i → acts !! j = Some a → KKeyShare n ep sh ∈ a →
  let v := in_view i in seamless (v_configs v) → starts_increase (v_configs v) → 0 ≤ current v < 2 ^ 64 →
  ∃ k c, PropsConfig.config_for (v_configs v) (Z.of_N ep) k c ∧ 0 < span c ∧ end_block c (Z.of_N ep) ≤ current v ∧
    (timeout_block c (Z.of_N ep) < 2 ^ 64 → current v + 1 < timeout_block c (Z.of_N ep)) ∧ kp_me p ∈ sc_keypers (config_by_batch (in_shutter i) ep).
Proof.
  intros Hrun Ht Hi Ha Hin v Hs Hst Hcur.
  rewrite <-(take_drop_middle l j i Hi) in Hrun. change (?x ++ i :: ?y) with (x ++ [i] ++ y) in Hrun. rewrite (assoc_L (++)) in Hrun.
  apply decisions_prefix in Hrun as (s2 & acts12 & acts3 & Hrun & _ & Ea & Hlen). apply decisions_snoc in Hrun as (s1 & acts1 & a' & Hrun & Hstep & ->).
  assert (a' = a) as ->.
  { rewrite !app_length in Hlen. cbn in Hlen. pose proof (lookup_lt_Some _ _ _ Hi). rewrite take_length in Hlen. subst acts.
    rewrite <-(assoc_L (++)) in Ha. rewrite lookup_app_r in Ha by lia. replace (j - length acts1)%nat with 0%nat in Ha by lia. by injection Ha as ->. }
  assert (Hnn : 0 ≤ k_next_share s1).
  { apply (next_nonneg p (take j l) s1 acts1); [|done]. intros x Hx. apply Ht. rewrite <-(take_drop j l). apply elem_of_app. by left. }
  destruct (step_share _ _ _ _ _ _ _ _ Hstep Hin) as (r & c & b & x & R1 & R2 & R3 & _ & Hx & -> & R6 & R7 & _). fold v in R1, R2, R3, R6.
  rewrite Z2N.id by lia. unfold timed_out_or_inactive in R6. destruct (config_for_batch (v_configs v) x) as [[d|]|] eqn:Ed; [|done..].
  unfold config_for_batch in Ed. apply fmap_Some in Ed as (o & Eo & Ed). apply C24_config_for_batch in Eo as (k & d' & Hk & Hle & -> & Hl).
  unfold is_active in Ed. destruct (Z.ltb_spec 0 (span d')) as [Hsp|]; [|done]. cbn in Ed. rewrite Hk in Ed. injection Ed as ->.
  exists k, d'. assert (PropsConfig.config_for (v_configs v) x k d') as Hcf by (split_and!; done). split; [done|]. split; [done|].
  destruct (before_current (v_configs v) (current v) r c b k d' Hs Hst Hcur R1 R2 R3) as [_ Hend]. specialize (Hend x Hcf ltac:(lia) Hsp). split; [done|]. split.
  - intros Hto. apply bind_Some in R6 as (e & Ee & R6). injection R6 as R6. apply Z.leb_gt in R6.
    pose proof (proj1 (Forall_lookup _ _) (proj1 (proj2 Hs)) k d' Hk) as Hty. apply config_typed_ok in Hty as (T1 & T2 & T3 & T4 & T5).
    assert (e = end_block d' x) as ->.
    { unfold batch_end_block, batch_start_block in Ee. destruct (Z.ltb_spec x (start_batch d')); [lia|]. cbn in Ee. injection Ee as <-. unfold end_block in *. set (y := x - start_batch d') in *.
      assert (0 ≤ y) by lia. assert (0 ≤ y * span d') by nia. assert (y ≤ y * span d') by nia. assert ((y + 1) * span d' = y * span d' + span d') by ring.
      rewrite (u64_small y) by lia. rewrite (u64_small (y * span d')) by lia. rewrite (u64_small (start_block d' + _)) by lia. rewrite u64_small by lia. lia. }
    unfold timeout_block in *. rewrite (u64_small (end_block d' x + timeout d')) in R6 by (unfold end_block in *; nia). rewrite u64_small in R6; [lia|].
    split; [unfold end_block; nia|lia].
  - unfold sc_is_keyper in R7. apply existsb_exists in R7 as (y & Hy & E%N.eqb_eq). rewrite E. by apply elem_of_list_In.
Qed.

(** the batch that is running in the block the keyper has followed the main chain to *)
Definition batch_now (v : view) : option Z := r ← active_config_index (v_configs v) (current v); c ← v_configs v !! r; batch_index c (current v).
(** the keyper looks at batches in this decision: both nodes are in sync, it is a keyper, and shuttermint knows the config that is active on the main chain *)
Definition looks p (i : kinput P K) : Prop := node_synced (in_shutter i) = true ∧ v_synced (in_view i) = true ∧ shutter_is_keyper (in_shutter i) (kp_me p) = true ∧
  ∃ r, active_config_index (v_configs (in_view i)) (current (in_view i)) = Some r ∧ is_Some (config_by_index (in_shutter i) (N.of_nat r)).
(** the running batch never goes back *)
Definition batches_rise (l : list (kinput P K)) : Prop := ∀ (j k : nat) x y b b', (j ≤ k)%nat → l !! j = Some x → l !! k = Some y → batch_now (in_view x) = Some b → batch_now (in_view y) = Some b' → b ≤ b'.

Lemma step_next p s i s' a : step_of p s i = Some (s', a) →
  (¬ looks p i ∧ k_next_share s' = k_next_share s ∧ shares_sent a = []) ∨
  (looks p i ∧ batch_now (in_view i) = Some (k_next_share s') ∧
   ∃ ls, mapM (λ b, t ← timed_out_or_inactive (in_view i) b; Some (if (t : bool) then [] else publish_share (kp_me p) epoch_point (in_shutter i) (k_ekgs s') b))
      (seqZ (k_next_share s) (k_next_share s' - k_next_share s)) = Some ls ∧ shares_sent a = shares_sent (mjoin ls)).
Proof.
  intros E. destruct (step_shares _ _ _ _ _ E) as [[E1 E2]|(r & c & b & R1 & R2 & R3 & R4 & R5 & R6 & R7 & R8 & R9)].
  - destruct (decide (node_synced (in_shutter i) = true ∧ v_synced (in_view i) = true ∧ shutter_is_keyper (in_shutter i) (kp_me p) = true)) as [(Hn & Hv & Hk)|Hno]; [|left; split; [|done]; intros (? & ? & ? & _); by apply Hno].
    pose proof E as E'. destruct (decide_parts _ _ _ _ _ _ _ _ _ _ _ _ _ _ _ _ Hn Hv Hk E') as (a12 & lst & new & ekgs1 & a3 & keys & a4 & a5 & a678 & _ & F2 & _ & F4 & _).
    unfold publish_shares in F4. cbv zeta in F4. apply bind_Some in F4 as (r & R1 & F4). apply bind_Some in F4 as (c & R2 & F4).
    destruct (config_by_index (in_shutter i) (N.of_nat r)) as [sc|] eqn:Ec.
    + right. split; [split; [done|]; split; [done|]; split; [done|]; exists r; split; [done|by rewrite Ec]|]. apply bind_Some in F4 as (b & R3 & F4). apply bind_Some in F4 as (ls & R4 & F4). injection F4 as F4 _.
      rewrite <-F4. split; [unfold batch_now; rewrite R1; cbn; rewrite R2; done|]. rewrite E2. rewrite <-E1, <-F4, Z.sub_diag in R4. rewrite F4, <-E1, Z.sub_diag, <-F4. exists [].
      rewrite E1 in *. done.
    + left. split; [|done]. intros (_ & _ & _ & r' & R1' & [? Hc]). rewrite R1 in R1'. injection R1' as <-. by rewrite Ec in Hc.
  - right. split; [split; [done|]; split; [done|]; split; [done|]; by exists r|]. rewrite R4. split; [unfold batch_now; rewrite R1; cbn; rewrite R2; done|]. done.
Qed.
(** shares for the batches from [lo] to before [hi], in order *)
Lemma sent_sorted p (v : view) (w : ObserveModel.shutter (body P) sconfig K (N * list N)) gs ls (n : nat) : ∀ lo, mapM (λ b, t ← timed_out_or_inactive v b; Some (if (t : bool) then [] else publish_share (kp_me p) epoch_point w gs b)) (seqZ lo (Z.of_nat n)) = Some ls →
  0 ≤ lo → StronglySorted N.lt ((λ x, x.1.2) <$> shares_sent (mjoin ls)) ∧ ∀ x, x ∈ (λ x, x.1.2) <$> shares_sent (mjoin ls) → lo ≤ Z.of_N x < lo + Z.of_nat n.
Proof.
  revert ls. induction n as [|n IH]; intros ls lo H Hlo; [injection H as <-; split; [constructor|by intros x ?%elem_of_nil]|].
  rewrite seqZ_cons in H by lia. replace (Z.pred (Z.of_nat (S n))) with (Z.of_nat n) in H by lia. cbn [mapM] in H. apply bind_Some in H as (a & Ha & H). apply bind_Some in H as (ls' & H' & H). injection H as <-.
  destruct (IH ls' (Z.succ lo) H' ltac:(lia)) as [IH1 IH2]. clear IH. cbn [mjoin list_join]. unfold shares_sent. rewrite bind_app, fmap_app. fold (shares_sent a) (shares_sent (mjoin ls')).
  assert (Hal : (λ x : N * N * G1 P, x.1.2) <$> shares_sent a = [] ∨ (λ x : N * N * G1 P, x.1.2) <$> shares_sent a = [Z.to_N lo]).
  { apply bind_Some in Ha as (t & _ & Ha). injection Ha as <-. destruct t; [by left|]. unfold publish_share. destruct (negb _); [by left|]. destruct (find_eon_by_batch_index _ _); [|by left].
    destruct (find_ekg _ _); [|by left]. destruct (ek_keys _ !! _); [by left|]. by right. }
  destruct Hal as [->| ->]; cbn [app].
  - split; [done|]. intros x Hx. specialize (IH2 x Hx). lia.
  - split; [|intros x [->|Hx]%elem_of_cons; [rewrite Z2N.id; lia|specialize (IH2 x Hx); lia]]. constructor; [done|]. apply Forall_forall. intros x Hx. specialize (IH2 x Hx). lia.
Qed.
Lemma batches_rise_snoc l i : batches_rise (l ++ [i]) → batches_rise l ∧ ∀ x b b', x ∈ l → batch_now (in_view x) = Some b → batch_now (in_view i) = Some b' → b ≤ b'.
Proof.
  intros H. split.
  - intros j k x y b b' Hjk Hx Hy. apply (H j k); [done|by apply lookup_app_l_Some..].
  - intros x b b' Hx. apply elem_of_list_lookup in Hx as [j Hj]. pose proof (lookup_lt_Some _ _ _ Hj). apply (H j (length l)); [lia|by apply lookup_app_l_Some|]. by rewrite lookup_app_r, Nat.sub_diag by lia.
Qed.
Lemma sorted_app (l1 l2 : list N) b : StronglySorted N.lt l1 → StronglySorted N.lt l2 → (∀ x, x ∈ l1 → (x < b)%N) → (∀ x, x ∈ l2 → (b ≤ x)%N) → StronglySorted N.lt (l1 ++ l2).
Proof.
  intros H1 H2 B1 B2. induction H1 as [|x l H1 IH HF]; [done|]. cbn. constructor; [apply IH; intros y Hy; apply B1; by right|]. apply Forall_app. split; [done|]. apply Forall_forall. intros y Hy.
  specialize (B2 y Hy). specialize (B1 x ltac:(by left)). lia.
Qed.
(** the counter is the running batch of the last decision that looked *)
Lemma next_inv p l s acts : batches_rise l → typed_views l → decisions_of p new_kstate l = Some (s, acts) →
  (k_next_share s = 0 ∧ (∀ x, x ∈ l → looks p x → batch_now (in_view x) = Some 0) ∨ ∃ x, x ∈ l ∧ looks p x ∧ batch_now (in_view x) = Some (k_next_share s)) ∧
  (∀ x b, x ∈ l → looks p x → batch_now (in_view x) = Some b → b ≤ k_next_share s) ∧
  StronglySorted N.lt ((λ x, x.1.2) <$> shares_sent (mjoin acts)) ∧ ∀ x, x ∈ (λ x, x.1.2) <$> shares_sent (mjoin acts) → Z.of_N x < k_next_share s.
Proof.
  revert s acts. induction l as [|i l IH] using rev_ind; intros s acts Hr Ht E; [injection E as <- <-; split; [left; split; [done|by intros x ?%elem_of_nil]|]; split; [by intros x b ?%elem_of_nil|]; split; [constructor|by intros x ?%elem_of_nil]|].
  pose proof (next_nonneg _ _ _ _ Ht E) as Hnn'. apply decisions_snoc in E as (s1 & acts1 & a & E1 & E2 & ->). apply batches_rise_snoc in Hr as [Hr Hlast].
  assert (Ht1 : typed_views l) by (intros x Hx; apply Ht, elem_of_app; by left). pose proof (next_nonneg _ _ _ _ Ht1 E1) as Hnn. specialize (IH s1 acts1 Hr Ht1 E1) as (I1 & I2 & I3 & I4).
  assert (mjoin (acts1 ++ [a]) = mjoin acts1 ++ a) as -> by (rewrite mjoin_app; cbn; by rewrite app_nil_r). unfold shares_sent. rewrite bind_app, fmap_app. fold (shares_sent (mjoin acts1)) (shares_sent a).
  destruct (step_next _ _ _ _ _ E2) as [(Hno & -> & ->)|(Hl & Hb & ls & Hls & ->)].
  - cbn [fmap list_fmap]. rewrite app_nil_r. split.
    + destruct I1 as [[I1 I1']|(x & Hx & I1)]; [left|right; exists x; split; [apply elem_of_app; by left|done]]. split; [done|]. intros x [Hx|Hx%elem_of_list_singleton]%elem_of_app Hlx; [auto|by subst].
    + split; [|done]. intros x b [Hx|Hx%elem_of_list_singleton]%elem_of_app; [by apply I2|by subst].
  - assert (Hle : k_next_share s1 ≤ k_next_share s). { destruct I1 as [[-> _]|(x & Hx & _ & Hbx)]; [done|]. by apply (Hlast x). }
    split; [right; exists i; split; [apply elem_of_app; right; by left|done]|]. split.
    + intros x b [Hx|Hx%elem_of_list_singleton]%elem_of_app Hlx Hbx; [specialize (I2 x b Hx Hlx Hbx); lia|]. subst x. rewrite Hb in Hbx. injection Hbx as <-. lia.
    + replace (k_next_share s - k_next_share s1) with (Z.of_nat (Z.to_nat (k_next_share s - k_next_share s1))) in Hls by lia. destruct (sent_sorted _ _ _ _ _ _ _ Hls Hnn) as [S1 S2]. split.
      * apply (sorted_app _ _ (Z.to_N (k_next_share s1))); [done|done| |]; intros x Hx; [specialize (I4 x Hx)|specialize (S2 x Hx)]; lia.
      * intros x [Hx|Hx]%elem_of_app; [specialize (I4 x Hx)|specialize (S2 x Hx)]; lia.
Qed.
(** Shares are released batch after batch, none twice. *)
Theorem C55_once p l s acts : batches_rise l → typed_views l → decisions_of p new_kstate l = Some (s, acts) → StronglySorted N.lt ((λ x, x.1.2) <$> shares_sent (mjoin acts)).
Proof. intros Hr Ht E. by apply (next_inv p l s acts). Qed.
(** In the first decision in which a batch is over, its share is released if and only if the keyper is a keyper of the batch's config, has the key of
    the batch's eon, does not yet know the batch's key, and execution has not timed out; ... *)
Theorem C55_released p l i s acts a b ep n sh : decisions_of p new_kstate (l ++ [i]) = Some (s, acts ++ [a]) → batches_rise (l ++ [i]) → typed_views (l ++ [i]) →
  looks p i → batch_now (in_view i) = Some b → Z.of_N ep < b → (∀ x b', x ∈ l → looks p x → batch_now (in_view x) = Some b' → b' ≤ Z.of_N ep) →
  KKeyShare n ep sh ∈ a ↔ timed_out_or_inactive (in_view i) (Z.of_N ep) = Some false ∧ kp_me p ∈ sc_keypers (config_by_batch (in_shutter i) ep) ∧
    ∃ e g, find_eon_by_batch_index (in_shutter i) ep = Some e ∧ find_ekg (k_ekgs s) (eon_number e) = Some g ∧ ek_keys (g_epochkg g) !! ep = None ∧
      n = ek_eon (g_epochkg g) ∧ sh = my_epoch_share epoch_point (g_epochkg g) ep.
Proof.
  intros E Hr Ht Hl Hb Hep Hfirst. pose proof E as E'. apply decisions_snoc in E as (s1 & acts1 & a' & E1 & E2 & Ea). apply app_inj_tail in Ea as [<- <-].
  apply batches_rise_snoc in Hr as [Hr Hlast]. assert (Ht1 : typed_views l) by (intros x Hx; apply Ht, elem_of_app; by left). pose proof (next_nonneg _ _ _ _ Ht1 E1) as Hnn.
  destruct (next_inv p l s1 acts Hr Ht1 E1) as (I1 & _). destruct (step_next _ _ _ _ _ E2) as [(Hno & _)|(_ & Hb' & ls & Hls & Es)]; [done|]. rewrite Hb in Hb'. injection Hb' as Hb'.
  assert (Hle : k_next_share s1 ≤ Z.of_N ep). { destruct I1 as [[-> _]|(x & Hx & Hlx & Hbx)]; [lia|]. by apply (Hfirst x). }
  apply mapM_Some in Hls. set (z := Z.to_nat (Z.of_N ep - k_next_share s1)).
  assert (Hz : seqZ (k_next_share s1) (k_next_share s - k_next_share s1) !! z = Some (Z.of_N ep)). { apply lookup_seqZ. lia. }
  destruct (Forall2_lookup_l _ _ _ _ _ Hls Hz) as (l0 & Hl0 & Hf). apply bind_Some in Hf as (t & Et & Hf). injection Hf as Hf.
  rewrite <-shares_sent_elem, Es, shares_sent_elem. split.
  - intros (l1 & Hl1 & Hin)%elem_of_list_join. apply elem_of_list_lookup in Hin as (z' & Hz'). destruct (Forall2_lookup_r _ _ _ _ _ Hls Hz') as (x & Hx & Ex). apply bind_Some in Ex as (t' & Et' & Ex). injection Ex as <-.
    destruct t'; [by apply elem_of_nil in Hl1|]. apply shares_sent_elem, published_share in Hl1 as (Eep & Hk & e & g & F1 & F2 & -> & -> & F3). apply lookup_seqZ in Hx as [-> _].
    assert (k_next_share s1 + Z.of_nat z' = Z.of_N ep) as Ez by lia. rewrite Ez in Et'. split; [done|]. split; [|by exists e, g].
    unfold sc_is_keyper in Hk. apply existsb_exists in Hk as (y & Hy & Ey%N.eqb_eq). rewrite Ey. by apply elem_of_list_In.
  - intros (Hto & Hk & e & g & F1 & F2 & F3 & -> & ->). rewrite Et in Hto. injection Hto as ->. apply elem_of_list_join. exists l0. split; [|by eapply elem_of_list_lookup_2]. subst l0. unfold publish_share. rewrite N2Z.id.
    assert (sc_is_keyper (config_by_batch (in_shutter i) ep) (kp_me p) = true) as ->. { unfold sc_is_keyper. apply existsb_exists. exists (kp_me p). split; [by apply elem_of_list_In|by apply N.eqb_eq]. }
    cbn [negb]. rewrite F1, F2, F3. by left.
Qed.
(** ... and in no other decision, later or earlier: if the keyper does not have the eon's key by then, the share is lost. *)
Theorem C55_lost p l1 i l2 s acts1 a acts2 b ep : decisions_of p new_kstate (l1 ++ [i] ++ l2) = Some (s, acts1 ++ [a] ++ acts2) → length acts1 = length l1 → batches_rise (l1 ++ [i] ++ l2) → typed_views (l1 ++ [i] ++ l2) →
  looks p i → batch_now (in_view i) = Some b → Z.of_N ep < b → (∀ x b', x ∈ l1 → looks p x → batch_now (in_view x) = Some b' → b' ≤ Z.of_N ep) →
  ∀ n sh A, KKeyShare n ep sh ∈ A → A ∉ acts1 ∧ A ∉ acts2.
Proof.
  intros E Hlen Hr Ht Hl Hb Hep Hfirst n sh A HA.
  rewrite (assoc_L (++)) in E, Hr, Ht. pose proof E as E0.
  apply decisions_prefix in E as (s2 & acts12 & acts3 & E12 & _ & Ea & Hlen2). pose proof E12 as E12'. apply decisions_snoc in E12 as (s1 & acts1' & a' & E1 & E2 & ->).
  rewrite app_length in Hlen2. cbn in Hlen2. rewrite app_length in Hlen2. cbn in Hlen2. assert (length acts1' = length l1) as Hlen1 by lia.
  rewrite <-!(assoc_L (++)) in Ea. apply app_inj_1 in Ea as [<- Ea]; [|lia]. injection Ea as <- <-.
  assert (Hr12 : batches_rise (l1 ++ [i])). { intros j k x y c c' Hjk Hx Hy. apply (Hr j k); [done|by apply lookup_app_l_Some..]. }
  assert (Ht12 : typed_views (l1 ++ [i])). { intros x Hx. apply Ht. apply elem_of_app. by left. }
  destruct (batches_rise_snoc _ _ Hr12) as [Hr1 _]. assert (Ht1 : typed_views l1). { intros x Hx. apply Ht12. apply elem_of_app. by left. }
  destruct (next_inv p _ _ _ Hr1 Ht1 E1) as (I1 & _ & _ & I4). destruct (next_inv p _ _ _ Hr12 Ht12 E12') as (_ & J2 & J3 & J4).
  assert (Hle : k_next_share s1 ≤ Z.of_N ep). { destruct I1 as [[-> _]|(x & Hx & Hlx & Hbx)]; [lia|]. by apply (Hfirst x). }
  assert (Hlt : b ≤ k_next_share s2). { apply (J2 i); [apply elem_of_app; right; by left|done|done]. }
  split.
  - intros Hin. assert (ep ∈ (λ x : N * N * G1 P, x.1.2) <$> shares_sent (mjoin acts1)) as Hx; [|specialize (I4 _ Hx); lia].
    apply elem_of_list_fmap. exists (n, ep, sh). split; [done|]. apply shares_sent_elem, elem_of_list_join. by exists A.
  - clear I1 I4 J3 J4 Hfirst. intros Hin. apply elem_of_list_lookup in Hin as (z & Hz). clear J2.
    clear E2 E1. set (pre := l1 ++ [i]) in *. assert (Hpre : length (acts1 ++ [a]) = length pre) by (unfold pre; rewrite !app_length; cbn; lia).
    assert (Hzl : (z < length l2)%nat).
    { apply decisions_prefix in E0 as (s3 & b1 & b2 & F1 & F2 & F3 & F4). assert (length b2 = length l2) as F5.
      { rewrite <-(app_nil_r l2) in F2. apply decisions_prefix in F2 as (s4 & c1 & c2 & G1' & G2' & G3' & G4'). injection G2' as _ <-. by rewrite G3', app_nil_r. }
      rewrite (assoc_L (++)) in F3. apply app_inj_1 in F3 as [_ F3]; [|by rewrite F4]. rewrite <-F5, <-F3. by eapply lookup_lt_Some. }
    destruct (lookup_lt_is_Some_2 l2 z Hzl) as [y Hy]. rewrite <-(take_drop_middle l2 z y Hy) in E0. change (?u ++ y :: ?t) with (u ++ [y] ++ t) in E0. rewrite !(assoc_L (++)) in E0.
    apply decisions_prefix in E0 as (s4 & acts4 & acts5 & E4 & _ & Ea4 & Hl4). apply decisions_snoc in E4 as (s3 & acts3' & a3 & E3 & Estep & ->).
    assert (a3 = A) as ->.
    { rewrite !app_length in Hl4. rewrite take_length in Hl4. cbn in Hl4. assert (length acts3' = length pre + z)%nat as L3 by lia.
      assert (((acts1 ++ [a]) ++ acts2) !! (length pre + z)%nat = Some A) as Q by (rewrite lookup_app_r by lia; by replace (length pre + z - length (acts1 ++ [a]))%nat with z by lia).
      rewrite Ea4 in Q. rewrite <-(assoc_L (++)) in Q. rewrite lookup_app_r in Q by lia. rewrite L3, Nat.sub_diag in Q. by injection Q as ->. }
    assert (Hr3 : batches_rise (pre ++ take z l2)). { intros j k x x' c c' Hjk Hx Hx'. rewrite <-(take_drop z l2), (assoc_L (++)) in Hr. apply (Hr j k); [done|by apply lookup_app_l_Some..]. }
    assert (Ht3 : typed_views (pre ++ take z l2)). { intros x Hx. apply Ht. rewrite <-(take_drop z l2), (assoc_L (++)). apply elem_of_app. by left. }
    destruct (next_inv p _ _ _ Hr3 Ht3 E3) as (_ & K2 & _). specialize (K2 i b ltac:(unfold pre; rewrite !elem_of_app; left; right; by left) Hl Hb).
    pose proof (next_nonneg _ _ _ _ Ht3 E3). destruct (step_share _ _ _ _ _ _ _ _ Estep HA) as (r & c & b' & x & _ & _ & _ & _ & Hx & Ex & _). lia.
Qed.

(** ** On the main chain *)
Section MainChain.
Context (keccak : list N → list N) (ecrecover : list N → Z → Z → Z → option N) (addr_bytes : N → list N) (batcher_address slasher_address deposit_address owner : N) (hu ap : Z) (Hhu : 0 ≤ hu).
Notation state_at := (state_at keccak ecrecover addr_bytes batcher_address slasher_address deposit_address owner hu ap).
Notation log_at := (log_at keccak ecrecover addr_bytes batcher_address slasher_address deposit_address owner hu ap).
Notation append_only := (append_only keccak ecrecover addr_bytes batcher_address slasher_address deposit_address owner hu ap).
Notation synced := (synced keccak ecrecover addr_bytes batcher_address slasher_address deposit_address owner hu ap).

(** A share of a batch's key is released only when the batch can no longer change: at any later block of the main chain the batch has the same
    transactions.  Partial: the configs of the main chain are all active, and none is ever unscheduled (see [C55_closed_refuted]). *)
Theorem C55_closed_partial ch F p l s acts (j : nat) i a n ep sh : decisions_of p new_kstate l = Some (s, acts) → l !! j = Some i → acts !! j = Some a → KKeyShare n ep sh ∈ a →
  (∀ x, x ∈ l → synced ch F (in_view x)) → append_only ch → let nb := Z.to_nat (current (in_view i)) in
  (∀ x k c, x ∈ l → (0 < k)%nat → scheduled (cc (state_at ch (Z.to_nat (current (in_view x))))) !! k = Some c → 0 < span c) →
  ∀ m t, (nb ≤ m)%nat → Z.of_nat m < 2 ^ 64 → added (Z.of_N ep) t (log_at ch m) = added (Z.of_N ep) t (log_at ch nb).
Proof using Hhu.
  intros Hrun Hi Ha Hin Hsync Hao nb Hact m t Hm Hm64.
  assert (Hcfg : ∀ x, x ∈ l → (v_configs (in_view x) = read_config <$> scheduled (cc (state_at ch (Z.to_nat (current (in_view x))))) ∨ v_configs (in_view x) = []) ∧ 0 ≤ current (in_view x)).
  { intros x Hx. destruct (Hsync x Hx) as (S0 & HF & heads & S1 & Ev).
    pose proof (final_ok keccak ecrecover addr_bytes batcher_address slasher_address deposit_address owner hu ap ch S0 F HF heads S1) as [_ O1 _ _ _ _ _].
    assert (0 ≤ current (in_view x)) by (rewrite Ev; lia). split; [|done].
    destruct (sync_main_configs keccak ecrecover addr_bytes batcher_address slasher_address deposit_address owner hu ap ch F (new_view F) heads 0 HF ltac:(lia) Hao) as [C1 _]; [by apply new_view_ok|by right|cbn; lia|done|].
    rewrite <-Ev in C1. destruct C1 as [C1|[C1 _]]; auto. }
  assert (Hwf : ∀ x, x ∈ l → v_configs (in_view x) = [] ∨ (seamless (v_configs (in_view x)) ∧ starts_increase (v_configs (in_view x)))).
  { intros x Hx. destruct (Hcfg x Hx) as [[E|E] _]; [|by left]. right. rewrite E. apply read_seamless; [|intros k c; by apply Hact]. by apply C47_well_formed. }
  assert (Hty : typed_views l). { intros x Hx. destruct (Hwf x Hx) as [->|[(_ & ? & _) _]]; [constructor|done]. }
  assert (Hil : i ∈ l) by (by eapply elem_of_list_lookup_2). destruct (Hcfg i Hil) as [Hci Hcur0].
  destruct (block_at keccak ecrecover addr_bytes batcher_address slasher_address deposit_address owner hu ap ch nb) as [B1 _].
  destruct (block_at keccak ecrecover addr_bytes batcher_address slasher_address deposit_address owner hu ap ch m) as [B2 _].
  destruct (Hwf i Hil) as [E0|[Hse Hst]].
  { exfalso. (* without a config nothing is released *)
    rewrite <-(take_drop_middle l j i Hi) in Hrun. change (?x ++ i :: ?y) with (x ++ [i] ++ y) in Hrun. rewrite (assoc_L (++)) in Hrun.
    apply decisions_prefix in Hrun as (s2 & acts12 & acts3 & Hrun & _ & Ea & Hlen). apply decisions_snoc in Hrun as (s1 & acts1 & a' & Hrun & Hstep & ->).
    assert (a' = a) as ->.
    { rewrite !app_length in Hlen. cbn in Hlen. pose proof (lookup_lt_Some _ _ _ Hi). rewrite take_length in Hlen. subst acts.
      rewrite <-(assoc_L (++)) in Ha. rewrite lookup_app_r in Ha by lia. replace (j - length acts1)%nat with 0%nat in Ha by lia. by injection Ha as ->. }
    destruct (step_share _ _ _ _ _ _ _ _ Hstep Hin) as (r & c & b & x & _ & R2 & _). rewrite E0 in R2. by rewrite lookup_nil in R2. }
  destruct (C55_not_early p l s acts j i a n ep sh Hrun Hty Hi Ha Hin Hse Hst ltac:(lia)) as (k & c & Hcf & Hsp & Hend & _).
  destruct Hci as [Hci|Hci]; [|rewrite Hci in Hse; by destruct Hse]. rewrite Hci in Hcf. apply read_config_for in Hcf as (c0 & Hcf & ->).
  destruct (state_later keccak ecrecover addr_bytes batcher_address slasher_address deposit_address owner hu ap ch nb m Hm) as (ev & E1 & E2). rewrite E2, added_app.
  rewrite E1 in B2. clear E1 E2. unfold nb in *. unfold MainModel.state_at, genesis in *.
  destruct (C48_closed keccak ecrecover addr_bytes batcher_address slasher_address deposit_address owner hu ap 0 (history ch (Z.to_nat (current (in_view i)))) ev (Z.of_N ep) k c0 t Hhu) as [_ C2];
    [rewrite B1; lia|rewrite B2; lia|done|done|rewrite B1; unfold end_block in *; cbn [start_block start_batch span read_config] in *; lia|].
  rewrite C2. by rewrite app_nil_r.
Qed.
(** the running batch of a main chain with active configs that are never unscheduled does not go back, and each share is released once.  Partial: unscheduling
    configs, and configs with span 0, are left out *)
Lemma chain_rises ch F (l : list (kinput P K)) : (∀ x, x ∈ l → synced ch F (in_view x)) → append_only ch → 
  (∀ x k c, x ∈ l → (0 < k)%nat → scheduled (cc (state_at ch (Z.to_nat (current (in_view x))))) !! k = Some c → 0 < span c) →
  (∀ x, x ∈ l → current (in_view x) < 2 ^ 64) →
  (∀ (j k : nat) x y, (j ≤ k)%nat → l !! j = Some x → l !! k = Some y → current (in_view x) ≤ current (in_view y)) → batches_rise l ∧ typed_views l.
Proof using Hhu epoch_point.
  intros Hsync Hao Hact H64 Hcur.
  assert (Hcfg : ∀ x, x ∈ l → (v_configs (in_view x) = read_config <$> scheduled (cc (state_at ch (Z.to_nat (current (in_view x))))) ∨ v_configs (in_view x) = []) ∧ 0 ≤ current (in_view x)).
  { intros x Hx. destruct (Hsync x Hx) as (S0 & HF & heads & S1 & Ev).
    pose proof (final_ok keccak ecrecover addr_bytes batcher_address slasher_address deposit_address owner hu ap ch S0 F HF heads S1) as [_ O1 _ _ _ _ _].
    assert (0 ≤ current (in_view x)) by (rewrite Ev; lia). split; [|done].
    destruct (sync_main_configs keccak ecrecover addr_bytes batcher_address slasher_address deposit_address owner hu ap ch F (new_view F) heads 0 HF ltac:(lia) Hao) as [C1 _]; [by apply new_view_ok|by right|cbn; lia|done|].
    rewrite <-Ev in C1. destruct C1 as [C1|[C1 _]]; auto. }
  assert (Hwf : ∀ x, x ∈ l → v_configs (in_view x) = [] ∨ (seamless (v_configs (in_view x)) ∧ starts_increase (v_configs (in_view x)))).
  { intros x Hx. destruct (Hcfg x Hx) as [[E|E] _]; [|by left]. right. rewrite E. apply read_seamless; [|intros k c; by apply Hact]. by apply C47_well_formed. }
  split; [|intros x Hx; destruct (Hwf x Hx) as [->|[(_ & ? & _) _]]; [constructor|done]].
  intros j k x y b b' Hjk Hx Hy Hb Hb'. pose proof (Hcur j k x y Hjk Hx Hy) as Hle. apply elem_of_list_lookup_2 in Hx, Hy.
  unfold batch_now in Hb, Hb'. apply bind_Some in Hb as (r & R1 & Hb). apply bind_Some in Hb as (c & R2 & R3). apply bind_Some in Hb' as (r' & R1' & Hb'). apply bind_Some in Hb' as (c' & R2' & R3').
  destruct (Hwf x Hx) as [E0|[Hse Hst]]; [by rewrite E0, lookup_nil in R2|]. destruct (Hwf y Hy) as [E0|[Hse' Hst']]; [by rewrite E0, lookup_nil in R2'|].
  destruct (Hcfg x Hx) as [[Ex|Ex] Px]; [|by rewrite Ex, lookup_nil in R2]. destruct (Hcfg y Hy) as [[Ey|Ey] Py]; [|by rewrite Ey, lookup_nil in R2'].
  pose proof (H64 x Hx) as Lx. pose proof (H64 y Hy) as Ly. 
  destruct (before_current _ _ _ _ _ 0%nat zero_config Hse Hst (conj Px Lx) R1 R2 R3) as [[Hb0 Hb1] _]. destruct (before_current _ _ _ _ _ 0%nat zero_config Hse' Hst' (conj Py Ly) R1' R2' R3') as [[Hb0' Hb1'] _].
  set (cx := current (in_view x)) in *. set (cy := current (in_view y)) in *. rewrite Ex in R1, R2, Hse, Hst. rewrite Ey in R1', R2', Hse', Hst'.
  assert (Eb : ∀ cs cur (r : nat) c b, seamless cs → starts_increase cs → 0 ≤ cur < 2 ^ 64 → active_config_index cs cur = Some r → cs !! r = Some c → batch_index c cur = Some b →
    start_block c ≤ cur ∧ if 0 <? span c then b = start_batch c + (cur - start_block c) / span c else b = start_batch c).
  { clear. intros cs cur r c b Hs Hi Hc Ha Hl Hbi. apply C24_active_config in Ha as ((c' & Hc' & Hst) & _). rewrite Hl in Hc'. injection Hc' as <-. split; [done|].
    pose proof (batch_le_block _ Hs Hi _ _ Hl) as Hle. destruct Hs as (_ & Wt & _). pose proof (proj1 (Forall_lookup _ _) Wt r c Hl) as Ht. apply config_typed_ok in Ht as (T1 & T2 & T3 & T4 & T5).
    unfold batch_index in Hbi. destruct (Z.ltb_spec cur (start_block c)); [lia|]. destruct (Z.ltb_spec 0 (span c)); destruct (Z.eqb_spec (span c) 0); try lia; [|by injection Hbi as <-].
    pose proof (Z.mul_div_le (cur - start_block c) (span c) ltac:(lia)). assert (0 ≤ (cur - start_block c) / span c) by (apply Z.div_pos; lia). rewrite (u64_small (cur - start_block c)) in Hbi by lia.
    assert ((cur - start_block c) / span c ≤ cur - start_block c) by nia. rewrite u64_small in Hbi by lia. by injection Hbi as <-. }
  destruct (Eb _ cx _ _ _ Hse Hst ltac:(lia) R1 R2 R3) as [Sx Bx]. destruct (Eb _ cy _ _ _ Hse' Hst' ltac:(lia) R1' R2' R3') as [Sy By]. clear Eb.
  destruct (Z.ltb_spec 0 (span c)) as [Hsp|Hsp].
  2:{ destruct r as [|r]; [|exfalso; rewrite list_lookup_fmap in R2; apply fmap_Some in R2 as (c0 & R2 & ->); specialize (Hact x (S r) c0 Hx (Nat.lt_0_succ r) R2); cbn [span read_config] in Hsp; lia].
      destruct Hse as (W0 & _). rewrite R2 in W0. injection W0 as ->. rewrite Bx. cbn. lia. }
  set (q := (cx - start_block c) / span c) in *.
  assert (Hq : 0 ≤ q ∧ span c * q ≤ cx - start_block c < span c * (q + 1)).
  { pose proof (Z.mul_div_le (cx - start_block c) (span c) Hsp). pose proof (Z.mul_succ_div_gt (cx - start_block c) (span c) Hsp). fold q in H, H0. split; [apply Z.div_pos; lia|]. lia. }
  (* the running batch belongs to the active config, for good *)
  pose proof R1 as Hlater. apply C24_active_config in Hlater as (_ & Hlater).
  assert (Hcf : PropsConfig.config_for (read_config <$> scheduled (cc (state_at ch (Z.to_nat cx)))) b r c).
  { split; [done|]. split; [lia|]. intros k' c2 Hk' Hc2. destruct Hse as (W0 & Wt & W) eqn:EqHse. clear EqHse.
    destruct (lookup_lt_is_Some_2 (read_config <$> scheduled (cc (state_at ch (Z.to_nat cx)))) (S r)) as [d Hd]; [apply lookup_lt_Some in Hc2; lia|].
    pose proof (Hlater (S r) d ltac:(lia) Hd) as Hd'. pose proof (W r c d R2 Hd) as Hlk. unfold linked in Hlk. destruct (Z.ltb_spec 0 (span c)); [|lia]. destruct Hlk as [_ Hlk].
    pose proof (batches_le _ Hse (S r) k' d c2 ltac:(lia) Hd Hc2). nia. }
  apply read_config_for in Hcf as (c0 & Hcf & Ec).
  destruct (state_later keccak ecrecover addr_bytes batcher_address slasher_address deposit_address owner hu ap ch (Z.to_nat cx) (Z.to_nat cy) ltac:(lia)) as (ev & E1 & _).
  destruct (block_at keccak ecrecover addr_bytes batcher_address slasher_address deposit_address owner hu ap ch (Z.to_nat cx)) as [B1 _].
  destruct (block_at keccak ecrecover addr_bytes batcher_address slasher_address deposit_address owner hu ap ch (Z.to_nat cy)) as [B2 _].
  assert (Hcf' : PropsConfig.config_for (scheduled (cc (state_at ch (Z.to_nat cy)))) b r c0).
  { rewrite E1 in B2 |- *. unfold MainModel.state_at, genesis in *.
    apply (C47_config_fixed keccak ecrecover addr_bytes batcher_address slasher_address deposit_address owner hu ap 0 (history ch (Z.to_nat cx)) ev b r c0 Hhu); [rewrite B1; lia|rewrite B2; lia|done| |].
    - rewrite Ec in Hsp. exact Hsp.
    - rewrite B1, Z2Nat.id by lia. assert (open_block c b ≤ cx) as Ho; [|rewrite Ec in Ho; exact Ho]. unfold open_block, end_block. destruct (b =? start_batch c); [lia|]. nia. }
  assert (R2'' : (read_config <$> scheduled (cc (state_at ch (Z.to_nat cy)))) !! r = Some c). { rewrite list_lookup_fmap, (proj1 Hcf'). by rewrite Ec. }
  assert (Hrr : (r ≤ r')%nat).
  { apply C24_active_config in R1' as (_ & Hl'). destruct (decide (r ≤ r')%nat) as [|Hn]; [done|]. specialize (Hl' r c ltac:(lia) R2''). lia. }
  destruct (decide (r = r')) as [<-|Hne].
  - rewrite R2'' in R2'. injection R2' as <-. rewrite (proj2 (Z.ltb_lt _ _) Hsp) in By. rewrite By, Bx. unfold q. pose proof (Z.div_le_mono (cx - start_block c) (cy - start_block c) (span c) Hsp ltac:(lia)). lia.
  - destruct Hcf' as (_ & _ & Hl'). rewrite list_lookup_fmap in R2'. apply fmap_Some in R2' as (c0' & R2' & Ec'). specialize (Hl' r' c0' ltac:(lia) R2'). assert (start_batch c' = start_batch c0') as Es by (by rewrite Ec').
    destruct (0 <? span c') eqn:Hsp'; [|lia]. apply Z.ltb_lt in Hsp'. assert (0 ≤ (cy - start_block c') / span c') by (apply Z.div_pos; lia). lia.
Qed.
Theorem C55_once_partial ch F p l s acts : decisions_of p new_kstate l = Some (s, acts) → (∀ x, x ∈ l → synced ch F (in_view x)) → append_only ch →
  (∀ x k c, x ∈ l → (0 < k)%nat → scheduled (cc (state_at ch (Z.to_nat (current (in_view x))))) !! k = Some c → 0 < span c) →
  (∀ x, x ∈ l → current (in_view x) < 2 ^ 64) →
  (∀ (j k : nat) x y, (j ≤ k)%nat → l !! j = Some x → l !! k = Some y → current (in_view x) ≤ current (in_view y)) →
  StronglySorted N.lt ((λ x, x.1.2) <$> shares_sent (mjoin acts)).
Proof using Hhu. intros E H1 H2 H3 H4 H5. destruct (chain_rises ch F l H1 H2 H3 H4 H5). by apply (C55_once p l s). Qed.
End MainChain.
End Props.

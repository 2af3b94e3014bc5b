(** The invariant of a keyper's state and the actions it has submitted, over all decisions. *)
From stdpp Require Import list gmap.
From Coq Require Import ZArith NArith Lia Sorted.
From Verif Require Import Fq CryptoModel DkgModel DkgSpec DkgProofs EpochModel ObserveModel ObserveProofs SyncModel SyncProofs ArithModel MainModel MainProofs DecideModel EncodingModel
  KeyperModel KeyperSpec KeyperDkgProofs KeyperStepProofs KeyperHistProofs KeyperRunProofs KeyperLogProofs.

Section Act.
Context {P : pairing} {K R : Type}.
Notation sig := (N * list N)%type.
Notation shutter := (ObserveModel.shutter (body P) sconfig K sig).
Notation obs := (sync_obs (body P) sconfig K sig).
Context (make_event : R → Z → option (shutter_event (body P) sconfig K sig)) (chain : nat → list (list R)).
Notation Pub := (published make_event chain).
Context (ecies_decrypt : list N → option (list N)) (plen : phase_length) (me : N).
Context (epoch_point : N → G1 P) (decrypt_batch : G1 P → list (list N) → list (list N)).
Context (keccak : list N → list N) (ecrecover : list N → Z → Z → Z → option N) (addr_bytes : N → list N) (batcher_address : N)
  (sign : list N → list N) (staggering : Z) (order : ∀ A, list A → list A).
Notation step := (decide_step ecies_decrypt plen me epoch_point decrypt_batch keccak ecrecover addr_bytes batcher_address sign staggering order).
Notation all := (decide_all ecies_decrypt plen me epoch_point decrypt_batch keccak ecrecover addr_bytes batcher_address sign staggering order).
Context (Hwf : ∀ m, well_formed (Pub m)) (Hho : heights_ok make_event).
Implicit Types (w : shutter) (k : kdkg P) (g : kekg P) (i : kinput P K) (x : execution P) (acts : list (kaction P)).
Notation good := (good make_event chain).
Notation seen := (@seen_blocks (body P) sconfig K sig).
Notation dkg_at := (dkg_at make_event chain ecies_decrypt plen me).
Notation the_log := (the_log make_event chain plen).
Notation past := (past make_event chain plen).
Notation handle_one := (handle_one ecies_decrypt plen).
Notation config_for := (config_for make_event chain).
Notation decisions := (decisions make_event chain).
Notation matches := (matches me).

Definition failed k : list N :=
  if is_finalized k then match compute_result (k_pure k) with None => [k_start_batch k] | Some _ => [] end else [].
Definition succeeded k : list (N * N * G2 P) :=
  if is_finalized k then match compute_result (k_pure k) with None => [] | Some r => [(r_keyper r, k_start_batch k, r_pk r)] end else [].
(** [g] is the epoch key generation with the result [r] of [k] *)
Definition belongs g k (r : result P) : Prop := g_eon g = k_eon k ∧ g_keypers g = k_keypers k ∧ ∃ ms, handle_shares epoch_point (new_epochkg r) ms = Some (g_epochkg g).

Record linv (H : nat) (l : list (kinput P K)) acts (s : kstate P) : Prop := {
  li_eons : ∀ m h b, (m, h, b) ∈ eon_infos (Pub H) → (m ≤ k_last_eon s)%N;
  li_dkgs : ∀ k, k ∈ k_dkgs s → (k_eon k ≤ k_last_eon s)%N ∧ ∃ st c idx x, dkg_at H H (phase_at plen (Z.of_nat H) st) k st c idx x ∧
    the_log l k c idx (phase_at plen (Z.of_nat H) st) x acts;
  li_nodup : NoDup (k_eon <$> k_dkgs s);
  li_acts : ∀ a n, a ∈ acts → eon_of a = Some n → ∃ k, k ∈ k_dkgs s ∧ k_eon k = n;
  li_past : ∀ n p, past l n p → (n ≤ k_last_eon s)%N;
  li_last : k_last_eon s = 0%N ∨ ∃ h b, (k_last_eon s, h, b) ∈ eon_infos (Pub H);
  li_all : ∀ n st b, (0 < n)%N → (n, st, b) ∈ eon_infos (Pub H) → (∃ k, k ∈ k_dkgs s ∧ k_eon k = n) ∨
    ∃ a c, a ≤ H ∧ (n, st, b) ∈ eon_infos (Pub a) ∧ config_for b c a ∧ find_address (sc_keypers c) me = None;
  li_votes : restart_votes acts ≡ₚ k_dkgs s ≫= failed;
  li_keys : eon_keys acts ≡ₚ k_dkgs s ≫= succeeded;
  li_ekg : ∀ g, g ∈ k_ekgs s → ∃ k r, k ∈ k_dkgs s ∧ is_finalized k = true ∧ compute_result (k_pure k) = Some r ∧ belongs g k r;
  li_result : ∀ k r, k ∈ k_dkgs s → is_finalized k = true → compute_result (k_pure k) = Some r → ∃ g, g ∈ k_ekgs s ∧ belongs g k r
}.

Lemma handle_dkgs_each i ks ks' gs acts : handle_dkgs ecies_decrypt plen i ks = Some (ks', gs, acts) → ∃ outs,
  Forall2 (λ k o, handle_one i k = Some o) ks outs ∧ ks' = (λ o, o.1.1) <$> outs ∧ gs = outs ≫= (λ o, option_list o.1.2) ∧ acts = outs ≫= snd.
Proof.
  revert ks' gs acts. induction ks as [|k ks IH]; intros ks' gs acts; cbn [handle_dkgs].
  - intros [= <- <- <-]. exists []. split; [constructor|done].
  - destruct (is_finalized k) eqn:Ef.
    + intros ([[l1 gs1] acts1] & E1 & [= <- <- <-])%bind_Some. destruct (IH _ _ _ E1) as (outs & I1 & -> & -> & ->).
      exists ((k, None, []) :: outs). split; [constructor; [|done]; unfold KeyperLogProofs.handle_one; by rewrite Ef|done].
    + intros (e & Ee & E)%bind_Some. apply bind_Some in E as ([[k1 g1] a1] & E1 & E). apply bind_Some in E as ([k2 a2] & E2 & E).
      apply bind_Some in E as ([[l1 gs1] a3] & E3 & [= <- <- <-]). destruct (IH _ _ _ E3) as (outs & I1 & -> & -> & ->).
      exists ((k2, g1, a1 ++ a2) :: outs). split; [|split; [done|split; [done|]]].
      * constructor; [|done]. unfold KeyperLogProofs.handle_one. rewrite Ef, Ee. cbn [mbind option_bind]. rewrite E1. cbn [mbind option_bind]. by rewrite E2.
      * change ((?x :: ?y) ≫= ?f) with (f x ++ (y ≫= f)). cbn [snd]. by rewrite (assoc_L (++)).
Qed.
Lemma sync_ekgs_static i gs gs' keys : sync_ekgs epoch_point decrypt_batch i gs = Some (gs', keys) →
  Forall2 (λ g g', g_eon g' = g_eon g ∧ g_keypers g' = g_keypers g ∧ ∃ ms, handle_shares epoch_point (g_epochkg g) ms = Some (g_epochkg g')) gs gs'.
Proof.
  revert gs' keys. induction gs as [|g gs IH]; intros gs' keys; cbn [sync_ekgs]; [intros [= <- <-]; constructor|].
  intros (e & Ee & E)%bind_Some. apply bind_Some in E as ([g1 k1] & E1 & E). apply bind_Some in E as ([gs1 k2] & E2 & [= <- <-]).
  constructor; [|by eapply IH]. clear -E1. revert g k1 E1. generalize (get_events KeyShare e (in_height i)) as l. induction l as [|ev l IH]; intros g k1; cbn [collect].
  - intros [= <- _]. split; [done|]. split; [done|]. by exists [].
  - intros ([g2 o2] & E2 & E)%bind_Some. apply bind_Some in E as ([g3 o3] & E3 & [= <- _]). destruct (IH _ _ E3) as (I1 & I2 & ms & I3).
    destruct (sync_share_spec _ _ _ _ _ _ E2) as (S1 & S2 & S3 & _). split; [congruence|]. split; [congruence|].
    eexists (_ ++ ms). rewrite handle_shares_app, S3. exact I3.
Qed.
Lemma publish_shares_only i gs next next' a : publish_shares me epoch_point i gs next = Some (next', a) → ∀ b, b ∈ a → ∃ n ep sh, b = KKeyShare n ep sh.
Proof.
  unfold publish_shares. cbv zeta. intros (n & _ & E)%bind_Some. apply bind_Some in E as (c & _ & E).
  destruct (config_by_index _ _); [|injection E as _ <-; by intros b ?%elem_of_nil].
  apply bind_Some in E as (b' & _ & E). apply bind_Some in E as (ls & El & E). injection E as _ <-.
  intros b (la & Hb & Hla)%elem_of_list_join. apply mapM_Some in El. apply elem_of_list_lookup in Hla as (j & Hj).
  destruct (Forall2_lookup_r _ _ _ _ _ El Hj) as (z & _ & Ez). apply bind_Some in Ez as (t & _ & Ez). destruct t; injection Ez as <-; [by apply elem_of_nil in Hb|].
  unfold publish_share in Hb. destruct (negb _); [by apply elem_of_nil in Hb|]. destruct (find_eon_by_batch_index _ _); [|by apply elem_of_nil in Hb].
  destruct (find_ekg _ _); [|by apply elem_of_nil in Hb]. destruct (ek_keys _ !! _); [by apply elem_of_nil in Hb|]. apply elem_of_list_singleton in Hb as ->. eauto.
Qed.

(** the relation of a DKG before and after a decision *)
Definition evolves (H Hs : nat) i (l : list (kinput P K)) acts k (o : kdkg P * option (kekg P) * list (kaction P)) : Prop :=
  frame k o.1.1 ∧ (∃ st c idx x, dkg_at Hs Hs (phase_at plen (Z.of_nat Hs) st) o.1.1 st c idx x ∧
    the_log (l ++ [i]) o.1.1 c idx (phase_at plen (Z.of_nat Hs) st) x (acts ++ o.2)) ∧
  failed o.1.1 = failed k ++ restart_votes o.2 ∧ succeeded o.1.1 = succeeded k ++ eon_keys o.2 ∧
  (is_finalized k = true → o = (k, None, [])) ∧
  (is_finalized k = false → is_finalized o.1.1 = true → ∀ r, compute_result (k_pure o.1.1) = Some r → o.1.2 = Some (mkKEkg (k_eon k) (k_keypers k) (new_epochkg r))) ∧
  (∀ g, o.1.2 = Some g → is_finalized o.1.1 = true ∧ ∃ r, compute_result (k_pure o.1.1) = Some r ∧ g = mkKEkg (k_eon k) (k_keypers k) (new_epochkg r)) ∧
  (∀ b n, b ∈ o.2 → eon_of b = Some n → n = k_eon k) ∧
  (∃ q next, ∀ b, b ∈ o.2 → timely k q next (k_pure o.1.1) b ∧ ∃ st, (k_eon k, st, k_start_batch k) ∈ eon_infos (Pub Hs) ∧ next = phase_at plen (Z.of_nat Hs) st).
Lemma one_evolves (kds : kind → Prop) i k o l acts q st c idx x : (∀ kd, kd ≠ KeyShare → kds kd) →
  good kds (in_height i) (in_shutter i) → (0 ≤ in_height i)%Z →
  let H := Z.to_nat (in_height i) in let Hs := seen (in_shutter i) in
  (q = phase_at plen (Z.of_nat H) st ∨ q = 0 ∧ ∀ kd, of_kind kd (k_eon k) (Pub H) = []) → dkg_at H Hs q k st c idx x →
  the_log l k c idx q x acts → handle_one i k = Some o → evolves H Hs i l acts k o.
Proof.
  intros Hkds Hg Hpos H Hs Hq0 Hat Hlog Hone. destruct o as [[k' g] a].
  destruct (log_step make_event chain ecies_decrypt plen me Hwf Hho _ _ _ _ _ _ _ _ _ _ _ _ _ Hkds Hg Hpos Hq0 Hat Hlog Hone) as (x' & Hat' & Hlog' & F & Hout & Htime).
  fold Hs in Hat', Hlog', Hout, Htime. set (next := phase_at plen (Z.of_nat Hs) st) in *.
  assert (Eq : d_phase (k_pure k) = q) by apply (ru_phase _ _ _ _ _ _ _ (da_running _ _ _ _ _ _ _ _ _ _ _ _ _ Hat)).
  assert (En : d_phase (k_pure k') = next) by apply (ru_phase _ _ _ _ _ _ _ (da_running _ _ _ _ _ _ _ _ _ _ _ _ _ Hat')).
  destruct (Hg) as (Hg1 & Hg2 & _). assert (HH : (H ≤ Hs)%nat) by (unfold H, Hs, seen_blocks; lia).
  assert (Hle : (q ≤ next)%nat).
  { pose proof (phase_mono plen (Z.of_nat H) (Z.of_nat Hs) st ltac:(lia)); unfold next; destruct Hq0 as [->|[-> _]]; lia. }
  pose proof (phase_le_4 plen (Z.of_nat Hs) st) as H4. fold next in H4.
  assert (Hfin : is_finalized k = true → (k', g, a) = (k, None, [])).
  { intros Hf. unfold KeyperLogProofs.handle_one in Hone. rewrite Hf in Hone. by injection Hone as <- <- <-. }
  assert (Efk : is_finalized k = (q =? 4)) by (unfold is_finalized; by rewrite Eq).
  assert (Efk' : is_finalized k' = (next =? 4)) by (unfold is_finalized; by rewrite En).
  pose proof F as (F1 & F2 & F3 & F4).
  split; [done|]. split; [by exists st, c, idx, x'|]. cbn [fst snd] in *.
  unfold outcome_ok in Hout. unfold failed, succeeded. rewrite Efk, Efk', F2.
  destruct (Nat.eqb_spec q 4) as [E4|E4].
  { assert ((k', g, a) = (k, None, [])) as Ek by (apply Hfin; by rewrite Efk). injection Ek as -> -> ->. replace next with 4 by lia. cbn [Nat.eqb].
    destruct (compute_result (k_pure k)); (split; [done|]); (split; [done|]); (split; [done|]); (split; [done|]); (split; [done|]); (split; [by intros b n ?%elem_of_nil|]);
      exists 0, 0; by intros b ?%elem_of_nil. }
  replace (q <? 4) with true in Hout by (symmetry; apply Nat.ltb_lt; lia). cbn [andb] in Hout.
  assert (Htail : (∀ b n, b ∈ a → eon_of b = Some n → n = k_eon k) ∧
    (∃ q next, ∀ b, b ∈ a → timely k q next (k_pure k') b ∧ ∃ st, (k_eon k, st, k_start_batch k) ∈ eon_infos (Pub Hs) ∧ next = phase_at plen (Z.of_nat Hs) st)).
  { split.
    - intros b n Hb Hn. specialize (Htime b Hb). destruct b; try done; injection Hn as ->; by destruct Htime.
    - exists q, next. intros b Hb. split; [by apply Htime|]. exists st. split; [|done]. apply (da_info _ _ _ _ _ _ _ _ _ _ _ _ _ Hat). }
  destruct (Nat.eqb_spec next 4) as [N4|N4].
  - destruct (compute_result (k_pure k')) as [r|] eqn:Er; destruct Hout as (-> & -> & ->); (split; [done|]); (split; [done|]); (split; [done|]).
    + split; [by intros _ _ r' [= <-]|]. split; [intros g' [= <-]; split; [done|by exists r]|]. exact Htail.
    + split; [done|]. split; [done|]. exact Htail.
  - destruct Hout as (-> & -> & ->). split; [done|]. split; [done|]. split; [done|]. split; [done|]. split; [done|]. exact Htail.
Qed.

Lemma log_ok_ext l n num t idx keypers q x out acts acts' :
  commitments_sent n acts' = commitments_sent n acts → evals_sent n acts' = evals_sent n acts → accusations_sent n acts' = accusations_sent n acts →
  apologies_sent n acts' = apologies_sent n acts →
  log_ok make_event chain plen l n num t idx keypers q x out acts → log_ok make_event chain plen l n num t idx keypers q x out acts'.
Proof. intros E1 E2 E3 E4 [L1 L2 L3 L4 L5 L6 L7 L8]. split; rewrite ?E1, ?E2, ?E3, ?E4; done. Qed.
Lemma outs_perm_aux {A B C D : Type} (l : list A) (outs : list (A * B * list C)) (f : A → list D) (h : C → list D) : length l = length outs →
  (∀ j (k : A) (o : A * B * list C), l !! j = Some k → outs !! j = Some o → f o.1.1 = f k ++ (o.2 ≫= h)) → (l ≫= f) ++ ((outs ≫= snd) ≫= h) ≡ₚ ((λ o : A * B * list C, o.1.1) <$> outs) ≫= f.
Proof.
  revert outs. induction l as [|k l IH]; intros [|o outs] Hl H; try done. injection Hl as Hl. cbn [fmap list_fmap].
  repeat change ((?x :: ?y) ≫= ?f) with (f x ++ (y ≫= f)). rewrite (H 0 k o eq_refl eq_refl), bind_app, <-(IH outs Hl) by (intros j; apply (H (S j))).
  rewrite <-!(assoc_L (++)). apply Permutation_app_head. rewrite !(assoc_L (++)). apply Permutation_app_tail, Permutation_app_comm.
Qed.
Lemma outs_perm {A B C D : Type} (l new : list A) (outs : list (A * B * list C)) (f : A → list D) (h : C → list D) : length (l ++ new) = length outs →
  (∀ k : A, k ∈ new → f k = []) →
  (∀ j (k : A) (o : A * B * list C), (l ++ new) !! j = Some k → outs !! j = Some o → f o.1.1 = f k ++ (o.2 ≫= h)) → (l ≫= f) ++ ((outs ≫= snd) ≫= h) ≡ₚ ((λ o : A * B * list C, o.1.1) <$> outs) ≫= f.
Proof. intros H1 H2 H3. rewrite <-(outs_perm_aux (l ++ new) outs f h H1 H3), bind_app, (bind_nil f new H2), app_nil_r. done. Qed.

Lemma start_dkgs_complete w (es : list (ObserveModel.eon (body P))) lst lst' l e k : start_dkgs plen me w es lst = (lst', l) →
  StronglySorted (λ x y : ObserveModel.eon (body P), (eon_number x < eon_number y)%N) es →
  e ∈ es → (lst < eon_number e)%N → start_dkg plen me w e = Some k → k ∈ l.
Proof.
  revert lst l. induction es as [|e0 es IH]; intros lst l; cbn [start_dkgs]; [by intros _ _ ?%elem_of_nil|].
  intros E HS He Hlt Hk. apply StronglySorted_inv in HS as [HS HF]. apply elem_of_cons in He as [<-|He].
  - apply N.ltb_lt in Hlt. rewrite Hlt in E. destruct (start_dkgs plen me w es (eon_number e)) as [l1 l2]. injection E as <- <-. rewrite Hk. by left.
  - rewrite Forall_forall in HF. specialize (HF e He). destruct (lst <? eon_number e0)%N.
    + destruct (start_dkgs plen me w es (eon_number e0)) as [l1 l2] eqn:E1. injection E as <- <-. apply elem_of_app. right. by eapply IH.
    + by eapply IH.
Qed.
Lemma infos_new (a b : nat) n st ba n' st' ba' : a ≤ b → (n, st, ba) ∈ eon_infos (Pub b) → (n, st, ba) ∉ eon_infos (Pub a) → (n', st', ba') ∈ eon_infos (Pub a) → (n' < n)%N.
Proof.
  intros Hab Hb Ha Hn'. destruct (published_prefix make_event chain Hho a (b - a)) as (evs & E & _). replace (a + (b - a)) with b in E by lia.
  rewrite eon_infos_elem in Hb, Ha, Hn'. rewrite E in Hb. apply elem_of_app in Hb as [?|Hb]; [done|]. apply elem_of_list_split in Hb as (l1 & l2 & ->).
  pose proof (Hwf b (Pub a ++ l1) (EonStarted st n ba) l2) as Hw. cbn in Hw. apply (Hw ltac:(by rewrite E, <-(assoc_L (++))) st' n' ba'). apply elem_of_app. by left.
Qed.

Lemma linv_step (kds : kind → Prop) l acts s i s' a : (∀ kd, kd ≠ KeyShare → kds kd) → good kds (in_height i) (in_shutter i) → (0 ≤ in_height i)%Z →
  node_synced (in_shutter i) = true → v_synced (in_view i) = true → shutter_is_keyper (in_shutter i) me = true →
  let H := Z.to_nat (in_height i) in let Hs := seen (in_shutter i) in
  linv H l acts s → step s i = Some (s', a) →
  linv Hs (l ++ [i]) (acts ++ a) s' ∧
  ∀ b, b ∈ a → is_Some (eon_of b) ∨ (∃ n, b = KEonStartVote n) ∨ (∃ j n key, b = KEonKey j n key) →
    ∃ k k' q next st, k_eon k' = k_eon k ∧ k' ∈ k_dkgs s' ∧ timely k q next (k_pure k') b ∧ (k_eon k, st, k_start_batch k) ∈ eon_infos (Pub Hs) ∧ next = phase_at plen (Z.of_nat Hs) st.
Proof.
  intros Hkds Hg Hpos Hn Hv Hk H Hs [I1 I2 I3 I4 I5 I11 I6 I7 I8 I9 I10] E. pose proof Hg as (Hg1 & Hg2 & _).
  assert (HH : H ≤ Hs) by (unfold H, Hs, seen_blocks; lia).
  destruct (decide_parts ecies_decrypt plen me epoch_point decrypt_batch keccak ecrecover addr_bytes batcher_address sign staggering order _ _ _ _ Hn Hv Hk E)
    as (a12 & lst & new & ekgs1 & a3 & keys & a4 & a5 & a678 & E1 & E2 & E3 & E4 & E5 & E6 & E7).
  destruct (start_dkgs_spec _ _ _ _ _ _ _ E1) as (S1 & S2 & S3 & S4).
  destruct (handle_dkgs_each _ _ _ _ _ E2) as (outs & O1 & O2 & O3 & O4).
  pose proof (sync_ekgs_static _ _ _ _ E3) as HG.
  (* all DKGs evolve *)
  assert (Forall (λ k, ∃ q st c idx x, (q = phase_at plen (Z.of_nat H) st ∨ q = 0 ∧ ∀ kd, of_kind kd (k_eon k) (Pub H) = []) ∧ dkg_at H Hs q k st c idx x ∧ the_log l k c idx q x acts)
    (k_dkgs s ++ new)) as Hready.
  { apply Forall_app. split; apply Forall_forall; intros k Hk'.
    - destruct (I2 k Hk') as [_ (st & c & idx & x & Hat & Hlog)]. exists (phase_at plen (Z.of_nat H) st), st, c, idx, x. split; [by left|]. split; [|done].
      destruct Hat as [D1 D2 D3 D4 D5 D6 D7 D8 (b & D9 & D10 & D11) D12]. split; try done; [by eapply (infos_mono make_event chain Hho)|exists b; split; [lia|done]].
    - destruct (S4 k Hk') as (e & He & Hlt & Hst).
      destruct (new_ready make_event chain ecies_decrypt plen me kds i e k Hg Hpos) as (q & st & c & idx & x & Hq0 & Hat); [|done|done|].
      { intros m h b Hin. specialize (I1 m h b Hin). lia. }
      exists q, st, c, idx, x. split; [done|]. split; [done|].
      assert (Ek : k_eon k = eon_number e) by (unfold start_dkg in Hst; apply bind_Some in Hst as (? & _ & [= <-]); done).
      assert (Eo : k_outgoing k = []) by (unfold start_dkg in Hst; apply bind_Some in Hst as (? & _ & [= <-]); done).
      assert (q = 0) as ->.
      { unfold start_dkg in Hst; apply bind_Some in Hst as (? & _ & [= <-]). by rewrite <-(ru_phase _ _ _ _ _ _ _ (da_running _ _ _ _ _ _ _ _ _ _ _ _ _ Hat)). }
      destruct (none_sent (k_eon k) acts) as (N1 & N2 & N3 & N4).
      { intros b Hb Hb'. destruct (I4 _ _ Hb Hb') as (k1 & Hk1 & Ek1). destruct (I2 k1 Hk1) as [? _]. lia. }
      assert (∀ p, ¬ past l (k_eon k) p) as Hnp by (intros p Hp; specialize (I5 _ _ Hp); lia).
      unfold KeyperLogProofs.the_log. rewrite Eo. split; rewrite ?N1, ?N2, ?N3, ?N4; try done.
      + left. by split.
      + left. split; [done|]. by intros ?%Hnp.
      + left. split; [done|]. by intros ?%Hnp.
      + intros ?. lia.
      + by intros p ?%Hnp.
      + intros _. constructor. }
  assert (Hev : ∀ j k o, (k_dkgs s ++ new) !! j = Some k → outs !! j = Some o → evolves H Hs i l acts k o).
  { intros j k o Hj Ho. rewrite Forall_lookup in Hready. destruct (Hready j k Hj) as (q & st & c & idx & x & Hq0 & Hat & Hlog).
    pose proof (Forall2_lookup_lr _ _ _ _ _ _ O1 Hj Ho) as Hone. by eapply one_evolves. }
  assert (Hlen : length (k_dkgs s ++ new) = length outs) by (by eapply Forall2_length).
  assert (Heons : k_eon <$> k_dkgs s' = k_eon <$> (k_dkgs s ++ new)).
  { rewrite O2. apply list_eq. intros j. rewrite !list_lookup_fmap. destruct (outs !! j) as [o|] eqn:Ho.
    - destruct (lookup_lt_is_Some_2 (k_dkgs s ++ new) j) as [k Hj]; [rewrite Hlen; by eapply lookup_lt_Some|]. rewrite Hj. cbn.
      destruct (Hev _ _ _ Hj Ho) as ((F & _) & _). by rewrite F.
    - apply lookup_ge_None_1 in Ho. rewrite lookup_ge_None_2 by lia. done. }
  assert (Hnd : NoDup (k_eon <$> k_dkgs s')).
  { rewrite Heons, fmap_app. apply NoDup_app. split; [done|]. split.
    - intros n (k & -> & Hk1)%elem_of_list_fmap (k' & En & Hk2)%elem_of_list_fmap. destruct (I2 k Hk1) as [Hle _].
      destruct (S4 k' Hk2) as (e & _ & Hlt & Hst). assert (k_eon k' = eon_number e) by (unfold start_dkg in Hst; apply bind_Some in Hst as (? & _ & [= <-]); done). lia.
    - clear -E1. revert E1. generalize (k_last_eon s) as last0. generalize (eons (in_shutter i)) as es. intros es. revert lst new. induction es as [|e es IH]; intros lst new last0; cbn [start_dkgs].
      + intros [= <- <-]. constructor.
      + destruct (N.ltb_spec last0 (eon_number e)); [|apply IH]. destruct (start_dkgs plen me (in_shutter i) es (eon_number e)) as [lst1 new1] eqn:E1. intros [= <- <-].
        rewrite fmap_app. apply NoDup_app. split; [destruct (start_dkg _ _ _ _); cbn; [apply NoDup_singleton|constructor]|]. split; [|by eapply IH].
        intros n Hn1 (k' & En & Hk2)%elem_of_list_fmap. destruct (start_dkgs_spec _ _ _ _ _ _ _ E1) as (_ & _ & _ & S4). destruct (S4 k' Hk2) as (e' & _ & Hlt & Hst).
        assert (k_eon k' = eon_number e') by (unfold start_dkg in Hst; apply bind_Some in Hst as (? & _ & [= <-]); done).
        destruct (start_dkg plen me (in_shutter i) e) as [k0|] eqn:E0; [|by apply elem_of_nil in Hn1]. apply elem_of_list_singleton in Hn1 as ->.
        assert (k_eon k0 = eon_number e) by (unfold start_dkg in E0; apply bind_Some in E0 as (? & _ & [= <-]); done). lia. }
  (* other actions *)
  assert (Hother : ∀ b, b ∈ a → b ∈ outs ≫= snd ∨ (eon_of b = None ∧ (∀ n, b ≠ KEonStartVote n) ∧ ∀ j n key, b ≠ KEonKey j n key)).
  { intros b. rewrite E6, !elem_of_app. intros [Hb|[Hb|[Hb|[Hb|Hb]]]].
    - right. destruct (E7 b Hb) as [->|(? & ? & ->)]; done.
    - left. by rewrite O4 in Hb.
    - right. apply elem_of_list_fmap in Hb as (? & -> & _). done.
    - right. destruct (publish_shares_only _ _ _ _ _ E4 b Hb) as (? & ? & ? & ->). done.
    - right. apply elem_of_list_fmap in Hb as (? & -> & _). done. }
  assert (Hbind : ∀ (C : Type) (f : kaction P → list C), (∀ b, b ∈ a → (eon_of b = None ∧ (∀ n, b ≠ KEonStartVote n) ∧ ∀ j n key, b ≠ KEonKey j n key) → f b = []) → a ≫= f = (outs ≫= snd) ≫= f).
  { intros C f Hf. rewrite E6, !bind_app, O4.
    rewrite (bind_nil f a12), (bind_nil f (KAction <$> a4)), (bind_nil f a5), (bind_nil f (KAction <$> a678)); [by rewrite !app_nil_r|..].
    - intros b Hb. apply Hf; [rewrite E6, !elem_of_app; tauto|]. apply elem_of_list_fmap in Hb as (? & -> & _). done.
    - intros b Hb. apply Hf; [rewrite E6, !elem_of_app; tauto|]. destruct (publish_shares_only _ _ _ _ _ E4 b Hb) as (? & ? & ? & ->). done.
    - intros b Hb. apply Hf; [rewrite E6, !elem_of_app; tauto|]. apply elem_of_list_fmap in Hb as (? & -> & _). done.
    - intros b Hb. apply Hf; [rewrite E6, !elem_of_app; tauto|]. destruct (E7 b Hb) as [->|(? & ? & ->)]; done. }
  assert (Hmine : ∀ (C : Type) (f : kaction P → list C) j o, outs !! j = Some o → (∀ b, eon_of b ≠ Some (k_eon o.1.1) → f b = []) → a ≫= f = o.2 ≫= f).
  { intros C f j o Ho Hf. rewrite (Hbind C f) by (intros b _ (Hb & _); apply Hf; by rewrite Hb).
    rewrite <-(take_drop_middle _ _ _ Ho). rewrite !bind_app. change ((?x :: ?y) ≫= ?f) with (f x ++ (y ≫= f)). rewrite bind_app.
    assert (∀ j' o' b, outs !! j' = Some o' → j' ≠ j → b ∈ o'.2 → f b = []) as Hno.
    { intros j' o' b Ho' Hj Hb. apply Hf. intros Hb'. apply Hj.
      destruct (lookup_lt_is_Some_2 (k_dkgs s ++ new) j') as [k' Hk']; [rewrite Hlen; by eapply lookup_lt_Some|].
      destruct (Hev _ _ _ Hk' Ho') as ((F & _) & _ & _ & _ & _ & _ & _ & He & _). specialize (He b _ Hb Hb'). rewrite <-F in He.
      eapply NoDup_lookup; [exact Hnd|..]; rewrite O2, !list_lookup_fmap; [rewrite Ho'|rewrite Ho; cbn; by rewrite He]. done. }
    rewrite (bind_nil f (take j outs ≫= snd)), (bind_nil f (drop (S j) outs ≫= snd)); [by rewrite app_nil_r|..].
    - intros b (o' & Hb & Ho')%elem_of_list_bind. apply elem_of_list_lookup in Ho' as (j' & Hj'). rewrite lookup_drop in Hj'. eapply (Hno (S j + j')); [done|lia|done].
    - intros b (o' & Hb & Ho')%elem_of_list_bind. apply elem_of_list_lookup in Ho' as (j' & Hj'). apply lookup_take_Some in Hj' as [Hj' ?]. eapply (Hno j'); [done|lia|done]. }
  assert (Hin' : ∀ k', k' ∈ k_dkgs s' → ∃ j k o, (k_dkgs s ++ new) !! j = Some k ∧ outs !! j = Some o ∧ k' = o.1.1).
  { intros k' Hk'. rewrite O2 in Hk'. apply elem_of_list_fmap in Hk' as (o & -> & Ho). apply elem_of_list_lookup in Ho as (j & Hj).
    destruct (lookup_lt_is_Some_2 (k_dkgs s ++ new) j) as [k Hk']; [rewrite Hlen; by eapply lookup_lt_Some|]. by exists j, k, o. }
  assert (Hin : ∀ k j, (k_dkgs s ++ new) !! j = Some k → ∃ o, outs !! j = Some o ∧ o.1.1 ∈ k_dkgs s').
  { intros k j Hj. destruct (lookup_lt_is_Some_2 outs j) as [o Ho]; [rewrite <-Hlen; by eapply lookup_lt_Some|]. exists o. split; [done|].
    rewrite O2. apply elem_of_list_fmap. exists o. split; [done|]. by eapply elem_of_list_lookup_2. }
  assert (Hinfos : ∀ m h b, (m, h, b) ∈ eon_infos (Pub Hs) → ∃ e, e ∈ eons (in_shutter i) ∧ eon_info e = (m, h, b)).
  { intros m h b Hin0. unfold Hs in Hin0. rewrite <-(good_infos make_event chain _ _ _ Hg) in Hin0. apply elem_of_list_fmap in Hin0 as (e & Ee & He). by exists e. }
  assert (Hlast : ∀ m h b, (m, h, b) ∈ eon_infos (Pub Hs) → (m ≤ k_last_eon s')%N).
  { intros m h b Hin0. destruct (Hinfos _ _ _ Hin0) as (e & He & Ee). injection Ee as <- _ _. rewrite E5. by apply S2. }
  assert (Hnewfin : ∀ k, k ∈ new → is_finalized k = false).
  { intros k Hk'. destruct (S4 k Hk') as (e & _ & _ & Hst). unfold start_dkg in Hst. apply bind_Some in Hst as (? & _ & [= <-]). done. }
  split; [split|].
  - done.
  - intros k' Hk'. destruct (Hin' _ Hk') as (j & k & o & Hj & Ho & ->). destruct (Hev _ _ _ Hj Ho) as (F & (st & c & idx & x & Hat & Hlog) & _).
    split; [|exists st, c, idx, x; split; [done|]].
    + pose proof (da_info _ _ _ _ _ _ _ _ _ _ _ _ _ Hat) as Hi. by eapply Hlast.
    + unfold KeyperLogProofs.the_log in *. eapply log_ok_ext; [..|exact Hlog]; unfold commitments_sent, evals_sent, accusations_sent, apologies_sent; rewrite !bind_app;
        (rewrite (Hmine _ _ j o Ho); [done|]); intros b Hb; destruct b as [| |m ?|m ? ?|m ?|m ? ?| | | |]; try done; destruct (N.eqb_spec m (k_eon o.1.1)); try done; subst; done.
  - done.
  - intros b n [Hb|Hb]%elem_of_app Hbn.
    + destruct (I4 b n Hb Hbn) as (k & Hk' & Ek). apply elem_of_list_lookup in Hk' as (j & Hj). destruct (Hin k j) as (o & Ho & Hin0); [by apply lookup_app_l_Some|].
      exists o.1.1. split; [done|]. destruct (Hev j k o) as ((F & _) & _); [by apply lookup_app_l_Some|done|]. by rewrite F.
    + destruct (Hother b Hb) as [Hb'|[? _]]; [|congruence]. apply elem_of_list_bind in Hb' as (o & Hb' & Ho). pose proof Ho as Ho'. apply elem_of_list_lookup in Ho as (j & Ho).
      destruct (lookup_lt_is_Some_2 (k_dkgs s ++ new) j) as [k Hj]; [rewrite Hlen; by eapply lookup_lt_Some|].
      destruct (Hev _ _ _ Hj Ho) as ((F1 & _) & _ & _ & _ & _ & _ & _ & He & _). exists o.1.1. rewrite (He b n Hb' Hbn), <-F1.
      split; [|done]. rewrite O2. apply elem_of_list_fmap. by exists o.
  - intros n p. rewrite past_snoc. intros [Hp|(st & b & Hi & _)]; [specialize (I5 n p Hp); lia|]. by eapply Hlast.
  - rewrite E5. destruct S3 as [->|(e & He & <-)].
    + destruct I11 as [->|(h & b & Hi)]; [by left|right]. exists h, b. by eapply (infos_mono make_event chain Hho).
    + right. exists (start_height e), (ObserveModel.start_batch e). unfold Hs. rewrite <-(good_infos make_event chain _ _ _ Hg). apply elem_of_list_fmap. by exists e.
  - intros n st b Hn0 Hi. destruct (decide ((n, st, b) ∈ eon_infos (Pub H))) as [Hi'|Hi'].
    + destruct (I6 _ _ _ Hn0 Hi') as [(k & Hk' & Ek)|(a0 & c & ? & ? & ?)].
      * left. apply elem_of_list_lookup in Hk' as (j & Hj). destruct (Hin k j) as (o & Ho & Hin0); [by apply lookup_app_l_Some|].
        exists o.1.1. split; [done|]. destruct (Hev j k o) as ((F & _) & _); [by apply lookup_app_l_Some|done|]. by rewrite F.
      * right. exists a0, c. split; [lia|done].
    + assert (k_last_eon s < n)%N as Hlt.
      { destruct I11 as [->|(h & b' & Hl)]; [done|]. by eapply (infos_new H Hs). }
      destruct (Hinfos _ _ _ Hi) as (e & He & Ee). injection Ee as <- <- <-.
      destruct (start_dkg plen me (in_shutter i) e) as [k|] eqn:Est.
      * left. assert (k ∈ new) as Hnew.
        { eapply start_dkgs_complete; [exact E1| |exact He|exact Hlt|exact Est]. destruct Hg as (_ & _ & Hr). by apply (repr_sorted _ _ _ _ _ (Hwf _) Hr). }
        apply elem_of_list_lookup in Hnew as (j & Hj). destruct (Hin k (length (k_dkgs s) + j)) as (o & Ho & Hin0).
        { rewrite lookup_app_r by lia. by replace (length (k_dkgs s) + j - length (k_dkgs s)) with j by lia. }
        exists o.1.1. split; [done|]. destruct (Hev (length (k_dkgs s) + j) k o) as ((F & _) & _); [|done|].
        { rewrite lookup_app_r by lia. by replace (length (k_dkgs s) + j - length (k_dkgs s)) with j by lia. }
        rewrite F. unfold start_dkg in Est. apply bind_Some in Est as (? & _ & [= <-]). done.
      * right. exists Hs, (config_by_batch (in_shutter i) (ObserveModel.start_batch e)). split; [done|]. split; [done|]. split.
        -- unfold KeyperHistProofs.config_for, config_by_batch. by rewrite (good_configs make_event chain _ _ _ Hg).
        -- unfold start_dkg in Est. destruct (find_address _ me); [done|done].
  - unfold restart_votes. rewrite bind_app. rewrite (Hbind _ _) by (intros b _ (_ & Hb & _); destruct b; try done; by destruct (Hb batch)).
    rewrite O2. change (restart_votes acts ++ ((outs ≫= snd) ≫= λ a, match a with KEonStartVote b => [b] | _ => [] end) ≡ₚ ((λ o, o.1.1) <$> outs) ≫= failed).
    rewrite I7. apply (outs_perm (k_dkgs s) new outs failed (λ a, match a with KEonStartVote b => [b] | _ => [] end)); [done| |].
    + intros k Hk'. unfold failed. by rewrite Hnewfin.
    + intros j k o Hj Ho. destruct (Hev _ _ _ Hj Ho) as (_ & _ & Hf & _). exact Hf.
  - unfold eon_keys. rewrite bind_app. rewrite (Hbind _ _) by (intros b _ (_ & _ & Hb); destruct b; try done; by destruct (Hb keyper start_batch key)).
    rewrite O2. change (eon_keys acts ++ ((outs ≫= snd) ≫= λ a, match a with KEonKey j b key => [(j, b, key)] | _ => [] end) ≡ₚ ((λ o, o.1.1) <$> outs) ≫= succeeded).
    rewrite I8. apply (outs_perm (k_dkgs s) new outs succeeded (λ a, match a with KEonKey j b key => [(j, b, key)] | _ => [] end)); [done| |].
    + intros k Hk'. unfold succeeded. by rewrite Hnewfin.
    + intros j k o Hj Ho. destruct (Hev _ _ _ Hj Ho) as (_ & _ & _ & Hf & _). exact Hf.
  - intros g' Hg'. apply elem_of_list_lookup in Hg' as (jg & Hjg). destruct (Forall2_lookup_r _ _ _ _ _ HG Hjg) as (g & Hgl & G1 & G2 & ms & G3).
    apply elem_of_list_lookup_2, elem_of_app in Hgl as [Hgl|Hgl].
    + destruct (I9 g Hgl) as (k & r & Hk' & Hf & Hr & B1 & B2 & ms0 & B3). apply elem_of_list_lookup in Hk' as (j & Hj).
      destruct (Hin k j) as (o & Ho & Hin0); [by apply lookup_app_l_Some|].
      destruct (Hev j k o) as (_ & _ & _ & _ & Hfo & _); [by apply lookup_app_l_Some|done|]. rewrite (Hfo Hf) in Hin0. exists k, r. split; [done|]. split; [done|]. split; [done|].
      split; [congruence|]. split; [congruence|]. exists (ms0 ++ ms). rewrite handle_shares_app, B3. exact G3.
    + rewrite O3 in Hgl. apply elem_of_list_bind in Hgl as (o & Hgo & Ho). apply elem_of_list_lookup in Ho as (j & Ho).
      destruct (lookup_lt_is_Some_2 (k_dkgs s ++ new) j) as [k Hj]; [rewrite Hlen; by eapply lookup_lt_Some|].
      destruct (Hev _ _ _ Hj Ho) as ((F1 & F2 & F3 & F4) & _ & _ & _ & _ & _ & Hgs & _). destruct o.1.2 as [g0|] eqn:Eg; [|by apply elem_of_nil in Hgo].
      apply elem_of_list_singleton in Hgo as ->. destruct (Hgs g0 eq_refl) as (Hf & r & Hr & ->). cbn [g_eon g_keypers g_epochkg] in *.
      exists o.1.1, r. split; [rewrite O2; apply elem_of_list_fmap; exists o; split; [done|by eapply elem_of_list_lookup_2]|]. split; [done|]. split; [done|].
      split; [congruence|]. split; [congruence|]. by exists ms.
  - intros k' r Hk' Hf Hr. destruct (Hin' _ Hk') as (j & k & o & Hj & Ho & ->). destruct (Hev _ _ _ Hj Ho) as ((F1 & F2 & F3 & F4) & _ & _ & _ & Hfin & Hnew & _).
    destruct (is_finalized k) eqn:Efk.
    + rewrite (Hfin eq_refl) in Hr |- *. cbn [fst snd] in *. assert (k ∈ k_dkgs s) as Hks.
      { apply elem_of_list_lookup_2, elem_of_app in Hj as [?|?]; [done|]. exfalso. by rewrite Hnewfin in Efk. }
      destruct (I10 k r Hks Efk Hr) as (g & Hgl & B1 & B2 & ms0 & B3). apply elem_of_list_lookup in Hgl as (jg & Hjg).
      destruct (Forall2_lookup_l _ _ _ jg g HG) as (g' & Hg' & G1 & G2 & ms & G3); [by apply lookup_app_l_Some|].
      exists g'. split; [by eapply elem_of_list_lookup_2|]. split; [congruence|]. split; [congruence|]. exists (ms0 ++ ms). rewrite handle_shares_app, B3. exact G3.
    + specialize (Hnew eq_refl Hf r Hr). assert (mkKEkg (k_eon k) (k_keypers k) (new_epochkg r) ∈ k_ekgs s ++ ekgs1) as Hgl.
      { apply elem_of_app. right. rewrite O3. apply elem_of_list_bind. exists o. split; [rewrite Hnew; by left|by eapply elem_of_list_lookup_2]. }
      apply elem_of_list_lookup in Hgl as (jg & Hjg). destruct (Forall2_lookup_l _ _ _ jg _ HG Hjg) as (g' & Hg' & G1 & G2 & ms & G3).
      exists g'. split; [by eapply elem_of_list_lookup_2|]. cbn in G1, G2, G3. split; [congruence|]. split; [congruence|]. by exists ms.
  - intros b Hb Hkind. destruct (Hother b Hb) as [Hb'|(Hb1 & Hb2 & Hb3)].
    + apply elem_of_list_bind in Hb' as (o & Hb' & Ho). pose proof Ho as Ho'. apply elem_of_list_lookup in Ho as (j & Ho).
      destruct (lookup_lt_is_Some_2 (k_dkgs s ++ new) j) as [k Hj]; [rewrite Hlen; by eapply lookup_lt_Some|].
      destruct (Hev _ _ _ Hj Ho) as ((F1 & _) & _ & _ & _ & _ & _ & _ & _ & q & next & Ht). destruct (Ht b Hb') as (Hti & st & Hst & Hnx).
      exists k, o.1.1, q, next, st. split; [done|]. split; [|done]. rewrite O2. apply elem_of_list_fmap. by exists o.
    + exfalso. destruct Hkind as [[n Hn']|[(n & ->)|(j & n & key & ->)]]; [congruence|by destruct (Hb2 n)|by destruct (Hb3 j n key)].
Qed.

(** ** All decisions *)
(** the phase an action belongs to *)
Definition phase_of (a : kaction P) : option (N * nat) :=
  match a with
  | KCommitment n _ | KPolyEval n _ _ => Some (n, dealing)
  | KAccusation n _ => Some (n, accusing)
  | KApology n _ _ => Some (n, apologizing)
  | _ => None
  end.
Definition on_time i (b : kaction P) : Prop :=
  (∀ n p, phase_of b = Some (n, p) → ∃ st ba, (n, st, ba) ∈ eon_infos (Pub (seen (in_shutter i))) ∧ phase_at plen (Z.of_nat (seen (in_shutter i))) st = p) ∧
  (∀ ba, (b = KEonStartVote ba ∨ ∃ j key, b = KEonKey j ba key) →
     ∃ n st, (n, st, ba) ∈ eon_infos (Pub (seen (in_shutter i))) ∧ phase_at plen (Z.of_nat (seen (in_shutter i))) st = finalized).
Theorem run_linv (kds : kind → Prop) o H : (∀ kd, kd ≠ KeyShare → kds kd) → decisions kds o H →
  ∀ l s al, Forall2 matches l o → all new_kstate l = Some (s, al) →
    (0 ≤ H)%Z ∧ linv (Z.to_nat H) l (mjoin al) s ∧ Forall2 (λ i a, ∀ b, b ∈ a → on_time i b) l al.
Proof.
  intros Hkds Hd. induction Hd as [|o H w Hd IH Hg Hn Hpos]; intros l s al HF E.
  - apply Forall2_nil_inv_r in HF as ->. injection E as <- <-. split; [lia|]. split; [|constructor].
    split.
    + intros m h b Hin. by apply elem_of_nil in Hin.
    + intros k Hin. by apply elem_of_nil in Hin.
    + constructor.
    + intros b n Hin. by apply elem_of_nil in Hin.
    + intros n p (i & st & b & Hin & _). by apply elem_of_nil in Hin.
    + by left.
    + intros n st b _ Hin. by apply elem_of_nil in Hin.
    + done.
    + done.
    + intros g Hin. by apply elem_of_nil in Hin.
    + intros k r Hin. by apply elem_of_nil in Hin.
  - apply Forall2_app_inv_r in HF as (l1 & l2 & HF1 & HF2 & ->). apply Forall2_cons_inv_r in HF2 as (i & l3 & (Eob & Hv & Hk) & HF3 & ->).
    apply Forall2_nil_inv_r in HF3 as ->. injection Eob as EH Ew. rewrite (all_snoc ecies_decrypt plen me epoch_point decrypt_batch) in E.
    apply bind_Some in E as ([s1 al1] & E1 & E). apply bind_Some in E as ([s2 a] & E2 & E). apply (inj Some), pair_equal_spec in E as [<- <-].
    destruct (IH _ _ _ HF1 E1) as (_ & IH' & IHt). pose proof Hg as (Hg1 & Hg2 & Hg3). split; [lia|]. subst H w.
    destruct (linv_step kds l1 (mjoin al1) s1 i s2 a Hkds Hg Hpos Hn Hv Hk IH' E2) as [J1 J2]. split.
    + rewrite mjoin_app. change (mjoin [a]) with (a ++ []). rewrite app_nil_r. exact J1.
    + apply Forall2_app; [done|]. constructor; [|constructor]. intros b Hb. split.
      * intros n p Hp. destruct (J2 b Hb) as (k & k' & q & next & st & F1 & _ & Ht & Hst & Hnx).
        { left. destruct b; try done; eauto. }
        exists st, (k_start_batch k). rewrite <-Hnx. destruct b; try done; injection Hp as -> <-; destruct Ht as [-> ->]; done.
      * intros ba Hba. destruct (J2 b Hb) as (k & k' & q & next & st & F1 & _ & Ht & Hst & Hnx).
        { right. destruct Hba as [->|(j & key & ->)]; [left|right]; eauto. }
        exists (k_eon k), st. rewrite <-Hnx. destruct Hba as [->|(j & key & ->)]; destruct Ht as (-> & _ & -> & _); done.
Qed.
End Act.

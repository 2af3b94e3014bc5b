(** C63: when enough keypers do their part, the key generation succeeds for all of them. *)
From stdpp Require Import list gmap sets.
From Coq Require Import ZArith NArith Lia.
From Verif Require Import Fq CryptoModel CryptoSpec CryptoProofs PropsCrypto DkgModel DkgSpec DkgProofs PropsDkg EpochModel PropsEpoch ObserveModel ObserveProofs SyncModel SyncProofs ArithModel MainModel MainProofs
  DecideModel EncodingModel KeyperModel KeyperSpec KeyperDkgProofs DkgExact KeyperStepProofs KeyperHistProofs KeyperRunProofs KeyperLogProofs KeyperActionProofs KeyperSystem PropsKeyper PropsKeyperDkg.

Lemma all_calls_upto {P : pairing} (x : execution P) : ex_off x = [] → all_calls x = calls_upto 4 x.
Proof. intros E. unfold all_calls, until_finalize, until_start3, until_start2, until_start1, calls_upto. rewrite E. cbn [Nat.leb app]. by rewrite <-!(assoc_L (++)). Qed.

Section Props.
Context {P : pairing} {K R : Type}.
Notation sig := (N * list N)%type.
Notation shutter := (ObserveModel.shutter (body P) sconfig K sig).
Context (make_event : R → Z → option (shutter_event (body P) sconfig K sig)) (chain : nat → list (list R)).
Notation Pub := (published make_event chain).
Context (plen : phase_length) (epoch_point : N → G1 P).
Context (Hwf : ∀ m, well_formed (Pub m)) (Hho : heights_ok make_event).
Notation keyper_run := (keyper_run make_event chain plen epoch_point).
Notation started := (started make_event chain).
Notation config_at := (config_at make_event chain).
Notation settled := (settled make_event chain).
Notation decided_in := (decided_in make_event chain plen).
Notation sized_configs := (sized_configs make_event chain).
Notation past := (past make_event chain plen).
Implicit Types (p : keyper_params P).

(** Eon [n] started in block [st]; the chain has [m] blocks.  What keyper [a] has submitted ([A]) for the key generation was included in a block of
    its phase, and nothing else was published in its name. *)
Record delivered (m : nat) (n : N) (st : Z) (a : N) (A : list (kaction P)) : Prop := {
  de_commitment : ∀ gs, gs ∈ commitments_sent n A → ∃ e, e ∈ in_phase plen st dealing (of_kind Commitment n (Pub m)) ∧ ev_body e = BCommitment a gs;
  de_accusation : ∀ l, l ∈ accusations_sent n A → ∃ e, e ∈ in_phase plen st accusing (of_kind Accusation n (Pub m)) ∧ ev_body e = BAccusation a l;
  de_apology : ∀ l vs, (l, vs) ∈ apologies_sent n A → ∃ e, e ∈ in_phase plen st apologizing (of_kind Apology n (Pub m)) ∧ ev_body e = BApology a l vs;
  de_only_commitment : ∀ e gs, e ∈ of_kind Commitment n (Pub m) → ev_body e = BCommitment a gs → gs ∈ commitments_sent n A;
  de_only_apology : ∀ e l vs, e ∈ of_kind Apology n (Pub m) → ev_body e = BApology a l vs → (l, vs) ∈ apologies_sent n A
}.
(** a keyper that did its part: it made a decision in each phase, and its messages were delivered *)
Record did_its_part (n : N) (st : Z) (b : N) p (m : nat) (l : list (kinput P K)) (s : kstate P) (acts : list (list (kaction P))) : Prop := {
  dp_run : keyper_run p m l s acts;
  dp_started : started m n st b;
  dp_dealing : decided_in l n dealing; dp_accusing : decided_in l n accusing; dp_apologizing : decided_in l n apologizing;
  dp_over : phase_at plen (Z.of_nat m) st = finalized;
  dp_delivered : delivered m n st (kp_me p) (mjoin acts)
}.

Lemma in_phase_sub st q (l : list (eon_event (body P))) e : e ∈ in_phase plen st q l → e ∈ l.
Proof. intros H. unfold in_phase in H. by apply elem_of_list_In, filter_In in H as [H%elem_of_list_In _]. Qed.
Lemma of_kind_eon kd n (evs : list (shutter_event (body P) sconfig K sig)) (e : eon_event (body P)) : e ∈ of_kind kd n evs → ev_eon e = n.
Proof. by intros [_ ?]%of_kind_elem. Qed.
Lemma find_address_inj l a b (i : N) : find_address l a = Some i → find_address l b = Some i → a = b.
Proof. intros H1%find_address_lookup H2%find_address_lookup. congruence. Qed.
Lemma broadcast_in (cs : list (call P)) q : q ∈ broadcasts cs → ∃ c, c ∈ cs ∧ public_of c = Some q.
Proof. by intros (c & ? & ?)%elem_of_list_omap; exists c. Qed.

Lemma honest_from_chain p m l A n k st c idx x : KeyperHistProofs.dkg_at make_event chain (kp_ecies p) plen (kp_me p) m m 4 k st c idx x → k_eon k = n →
  the_log make_event chain plen l k c idx 4 x A → NoDup (sc_keypers c) → past l n 1 → past l n 2 → past l n 3 → delivered m n st (kp_me p) A →
  honest n (N.of_nat (length (sc_keypers c))) (sc_threshold c) idx x.
Proof.
  intros Hat En Hlog Hnd P1 P2 P3 [D1 D2 D3 D4 D5].
  pose proof (da_running _ _ _ _ _ _ _ _ _ _ _ _ _ Hat) as Rn. pose proof (ru_off _ _ _ _ _ _ _ Rn) as Eoff.
  pose proof (da_dealing _ _ _ _ _ _ _ _ _ _ _ _ _ Hat) as Ed. pose proof (da_accusing _ _ _ _ _ _ _ _ _ _ _ _ _ Hat) as Ea. pose proof (da_apologizing _ _ _ _ _ _ _ _ _ _ _ _ _ Hat) as Eap.
  pose proof (da_idx _ _ _ _ _ _ _ _ _ _ _ _ _ Hat) as Hidx. pose proof (da_keypers _ _ _ _ _ _ _ _ _ _ _ _ _ Hat) as Ek. clear Hat.
  rewrite En in Ed, Ea, Eap, Rn. unfold the_log in Hlog. rewrite En, Ek in Hlog. destruct Hlog as [L1 L2 L3 _ _ _ _ _].
  set (num := N.of_nat (length (sc_keypers c))) in *. set (t := sc_threshold c) in *.
  destruct L1 as [[_ L1]|(_ & cm & Hcm & L1)]; [done|].
  assert (Hcm' : cm = mkCommitmentMsg n idx (cm_gammas cm)).
  { unfold sent_commitment, until_start1 in Hcm. rewrite Eoff in Hcm. cbn [run] in Hcm. destruct (start_phase1 _ _) as [[s1 [[cm' evs]|]]|] eqn:E; try done. injection Hcm as ->.
    pose proof (start_phase1_inv _ _ _ _ E) as (_ & _ & _ & _ & _ & H). by destruct (H cm evs eq_refl) as (poly & _ & _ & -> & _). }
  pose proof (ru_run _ _ _ _ _ _ _ Rn) as Hrun. rewrite <-all_calls_upto in Hrun by done.
  destruct (execution_states _ _ _ Hrun) as (a & b & s2 & d & f & g & h & oa & ob & oc & Ra & S1 & Rc & Rc' & S2 & Rf & Rf' & S3 & Rh & Rh' & Fin).
  pose proof (run_frame _ _ _ Rc') as (Ec & Enc & Etc & Ekc & _). cbn in Ec, Enc, Etc, Ekc.
  pose proof (run_frame _ _ _ Rf') as (Ef & Enf & Etf & Ekf & _). cbn in Ef, Enf, Etf, Ekf.
  assert (Hsa : sent_accusations n num t idx x = ob) by (unfold sent_accusations; by rewrite Rc', S2).
  assert (Hsp : sent_apologies n num t idx x = oc) by (unfold sent_apologies; by rewrite Rf', S3).
  assert (Hoa : ∀ mm, mm ∈ ob → am_eon mm = n ∧ am_accuser mm = idx).
  { unfold start_phase2, set_phase in S2. destruct (negb _); [done|]. injection S2 as <- <-. intros mm (j & -> & _)%elem_of_list_fmap. cbn. by rewrite Ec, Ekc. }
  assert (Hop : ∀ mm, mm ∈ oc → pm_eon mm = n ∧ pm_accused mm = idx).
  { unfold start_phase3, set_phase in S3. destruct (negb _); [done|]. cbv iota in S3. destruct (mapM _ _) as [ms|] eqn:EM; [|done]. injection S3 as <- <-. apply mapM_Some in EM.
    intros mm (j & Hj)%elem_of_list_lookup. destruct (Forall2_lookup_r _ _ _ _ _ EM Hj) as ([a1 a2] & Hj' & E). unfold apologize in E. cbn in E.
    apply elem_of_list_lookup_2, elem_of_list_In, filter_In in Hj' as [_ E2]. cbn in E2. apply N.eqb_eq in E2. destruct (d_poly f); [|done].
    destruct (eval_for_keyper _ _) as [v|]; [|done]. injection E as <-. cbn. rewrite Ef. rewrite Ekf in E2. done. }
  assert (Hcom : ∀ mm, CCommitment mm ∈ all_calls x → PCommitment mm ∈ broadcasts (ex_dealing x)).
  { intros mm Hmm. rewrite all_calls_upto in Hmm by done. unfold calls_upto in Hmm. cbn [Nat.leb app] in Hmm.
    apply elem_of_cons in Hmm as [?|Hmm]; [done|]. apply elem_of_app in Hmm as [Hmm|Hmm]; [apply elem_of_list_omap; by exists (CCommitment mm)|]. exfalso.
    apply elem_of_cons in Hmm as [?|Hmm]; [done|]. apply elem_of_app in Hmm as [Hmm|Hmm].
    { assert (PCommitment mm ∈ broadcasts (ex_accusing x)) as Hin by (apply elem_of_list_omap; by exists (CCommitment mm)). rewrite Ea in Hin.
      apply elem_of_list_bind in Hin as (e & He & _). unfold accusation_public in He. destruct (ev_body e); try (by apply elem_of_nil in He). apply elem_of_list_omap in He as (? & _ & He).
      apply bind_Some in He as (? & _ & He). by apply bind_Some in He as (? & _ & He). }
    apply elem_of_cons in Hmm as [?|Hmm]; [done|]. apply elem_of_app in Hmm as [Hmm|Hmm]; [|by apply elem_of_list_singleton in Hmm].
    assert (PCommitment mm ∈ broadcasts (ex_apologizing x)) as Hin by (apply elem_of_list_omap; by exists (CCommitment mm)). rewrite Eap in Hin.
    apply elem_of_list_bind in Hin as (e & He & _). unfold apology_public in He. destruct (ev_body e); try (by apply elem_of_nil in He). apply elem_of_list_omap in He as (? & _ & He).
    apply bind_Some in He as (? & _ & He). by apply bind_Some in He as (? & _ & He). }
  assert (Hapo : ∀ mm, CApology mm ∈ all_calls x → PApology mm ∈ broadcasts (ex_apologizing x)).
  { intros mm Hmm. rewrite all_calls_upto in Hmm by done. unfold calls_upto in Hmm. cbn [Nat.leb app] in Hmm.
    apply elem_of_cons in Hmm as [?|Hmm]; [done|]. apply elem_of_app in Hmm as [Hmm|Hmm].
    { exfalso. assert (PApology mm ∈ broadcasts (ex_dealing x)) as Hin by (apply elem_of_list_omap; by exists (CApology mm)). rewrite Ed in Hin.
      apply elem_of_list_bind in Hin as (e & He & _). unfold commitment_public in He. destruct (ev_body e); try (by apply elem_of_nil in He).
      destruct (find_address _ sender); [by apply elem_of_list_singleton in He|by apply elem_of_nil in He]. }
    apply elem_of_cons in Hmm as [?|Hmm]; [done|]. apply elem_of_app in Hmm as [Hmm|Hmm].
    { exfalso. assert (PApology mm ∈ broadcasts (ex_accusing x)) as Hin by (apply elem_of_list_omap; by exists (CApology mm)). rewrite Ea in Hin.
      apply elem_of_list_bind in Hin as (e & He & _). unfold accusation_public in He. destruct (ev_body e); try (by apply elem_of_nil in He). apply elem_of_list_omap in He as (? & _ & He).
      apply bind_Some in He as (? & _ & He). by apply bind_Some in He as (? & _ & He). }
    apply elem_of_cons in Hmm as [?|Hmm]; [done|]. apply elem_of_app in Hmm as [Hmm|Hmm]; [apply elem_of_list_omap; by exists (CApology mm)|by apply elem_of_list_singleton in Hmm]. }
  split.
  - exists cm. split; [done|]. destruct (D1 (cm_gammas cm)) as (e & He & Eb); [rewrite L1; by left|].
    assert (PCommitment cm ∈ broadcasts (ex_dealing x)) as Hin.
    { rewrite Ed. apply elem_of_list_bind. exists e. split; [|done]. unfold commitment_public. rewrite Eb, Hidx. rewrite (of_kind_eon _ _ _ _ (in_phase_sub _ _ _ _ He)), Hcm'. by left. }
    apply broadcast_in in Hin as (c0 & Hc0 & Ep). destruct c0; try done. injection Ep as ->. unfold until_start2. apply elem_of_app. right. by right.
  - intros mm Hmm He Hsd. apply Hcom in Hmm. rewrite Ed in Hmm. apply elem_of_list_bind in Hmm as (e & Hin & Hine). unfold commitment_public in Hin.
    destruct (ev_body e) as [sender gs| | | |] eqn:Eb; try (by apply elem_of_nil in Hin). destruct (find_address _ sender) as [j|] eqn:Ej; [|by apply elem_of_nil in Hin].
    apply elem_of_list_singleton in Hin. injection Hin as ->. cbn in Hsd, He. subst j. pose proof (find_address_inj _ _ _ _ Ej Hidx) as ->.
    apply in_phase_sub in Hine. specialize (D4 e gs Hine Eb). rewrite L1 in D4. apply elem_of_list_singleton in D4 as ->. rewrite Hcm. rewrite Hcm' at 1. by rewrite He.
  - intros mm Hmm. rewrite Hsa in *. destruct (Hoa mm Hmm) as [E1 E2]. destruct L2 as [[_ L2]|(_ & acc & L2 & _ & L2')]; [destruct (L2 P2) as [_ ->]; by apply elem_of_nil in Hmm|].
    destruct (D2 acc) as (e & He & Eb); [rewrite L2; by left|]. apply elem_of_list_lookup in Hmm as (j & Hj). destruct (Forall2_lookup_r _ _ _ _ _ L2' Hj) as (ad & Had & Hk).
    assert (PAccusation mm ∈ broadcasts (ex_accusing x)) as Hin.
    { rewrite Ea. apply elem_of_list_bind. exists e. split; [|done]. unfold accusation_public. rewrite Eb. apply elem_of_list_omap. exists ad. split; [by eapply elem_of_list_lookup_2|].
      rewrite Hidx, (lookup_find_address _ _ _ Hnd Hk). cbn. rewrite N2Nat.id, (of_kind_eon _ _ _ _ (in_phase_sub _ _ _ _ He)). destruct mm. cbn in *. by subst. }
    apply broadcast_in in Hin as (c0 & Hc0 & Ep). destruct c0; try done. injection Ep as ->. unfold until_start3. apply elem_of_app. right. by right.
  - intros mm Hmm. rewrite Hsp in *. destruct (Hop mm Hmm) as [E1 E2]. destruct L3 as [[_ L3]|(_ & acc & L3 & _ & L3')]; [destruct (L3 P3) as [_ ->]; by apply elem_of_nil in Hmm|].
    destruct (D3 acc (pm_eval <$> oc)) as (e & He & Eb); [rewrite L3; by left|]. apply elem_of_list_lookup in Hmm as (j & Hj). destruct (Forall2_lookup_r _ _ _ _ _ L3' Hj) as (ad & Had & Hk).
    assert (PApology mm ∈ broadcasts (ex_apologizing x)) as Hin.
    { rewrite Eap. apply elem_of_list_bind. exists e. split; [|done]. unfold apology_public. rewrite Eb. apply elem_of_list_omap. exists (ad, pm_eval mm). split.
      - apply (elem_of_list_lookup_2 _ j). rewrite lookup_zip_with, Had. cbn. rewrite list_lookup_fmap, Hj. done.
      - rewrite Hidx. cbn. rewrite (lookup_find_address _ _ _ Hnd Hk). cbn. rewrite N2Nat.id, (of_kind_eon _ _ _ _ (in_phase_sub _ _ _ _ He)). destruct mm. cbn in *. by subst. }
    apply broadcast_in in Hin as (c0 & Hc0 & Ep). destruct c0; try done. injection Ep as ->. unfold until_finalize. apply elem_of_app. right. by right.
  - intros mm Hmm He Hsd. apply Hapo in Hmm. rewrite Eap in Hmm. apply elem_of_list_bind in Hmm as (e & Hin & Hine). unfold apology_public in Hin.
    destruct (ev_body e) as [| | |sender accusers vs|] eqn:Eb; try (by apply elem_of_nil in Hin). apply elem_of_list_omap in Hin as ([ad v] & Hz & Hin).
    apply bind_Some in Hin as (i & Hi & Hin). apply bind_Some in Hin as (j & Hj & Hin). cbn in Hj. apply (inj Some) in Hin. apply (f_equal (λ q, match q with PApology m => m | _ => mm end)) in Hin. cbv beta iota in Hin. subst mm. cbn in Hsd, He. subst i. pose proof (find_address_inj _ _ _ _ Hi Hidx) as ->.
    apply in_phase_sub in Hine. specialize (D5 e accusers vs Hine Eb).
    destruct L3 as [[L3 _]|(_ & acc & L3 & _ & L3')]; rewrite L3 in D5; [by apply elem_of_nil in D5|]. apply elem_of_list_singleton in D5. injection D5 as -> ->.
    apply elem_of_list_lookup in Hz as (z & Hz). rewrite lookup_zip_with in Hz. apply bind_Some in Hz as (ad' & Hz1 & Hz). apply bind_Some in Hz as (v' & Hz2 & Hz). injection Hz as -> ->.
    rewrite Hsp in *. rewrite list_lookup_fmap in Hz2. apply fmap_Some in Hz2 as (mm & Hz2 & ->). apply (elem_of_list_lookup_2 _ z). rewrite Hz2.
    pose proof (Forall2_lookup_lr _ _ _ _ _ _ L3' Hz1 Hz2) as Hk. rewrite (lookup_find_address _ _ _ Hnd Hk) in Hj. injection Hj as <-.
    destruct (Hop mm (elem_of_list_lookup_2 _ _ _ Hz2)) as [E1 E2]. destruct mm. cbn in *. rewrite N2Nat.id. f_equal. f_equal; congruence.
Qed.

(** If, for eon [n], at least a threshold of the keypers of its config do their part, then all of them end up with a key for it, and it is the same for
    all of them, whatever the other keypers do. *)
Theorem C63_key_generation n st b c (hs : list (keyper_params P * nat * list (kinput P K) * kstate P * list (list (kaction P)))) :
  (0 < n)%N → settled n → (∀ m, started m n st b → config_at m b c) → sized_configs → NoDup (sc_keypers c) →
  NoDup ((λ h, kp_me h.1.1.1.1) <$> hs) → (sc_threshold c ≤ N.of_nat (length hs))%N →
  (∀ p m l s acts, (p, m, l, s, acts) ∈ hs → kp_me p ∈ sc_keypers c ∧ did_its_part n st b p m l s acts) →
  (∀ p m l s acts, (p, m, l, s, acts) ∈ hs → ∃ g, g ∈ k_ekgs s ∧ g_eon g = n ∧ g_keypers g = sc_keypers c) ∧
  ∀ p1 m1 l1 s1 acts1 g1 p2 m2 l2 s2 acts2 g2, (p1, m1, l1, s1, acts1) ∈ hs → (p2, m2, l2, s2, acts2) ∈ hs → g1 ∈ k_ekgs s1 → g2 ∈ k_ekgs s2 → g_eon g1 = n → g_eon g2 = n →
    ek_pk (g_epochkg g1) = ek_pk (g_epochkg g2).
Proof.
  intros Hn Hset Hcfg Hsc Hndk Hndh Hlen Hall. split.
  2:{ intros p1 m1 l1 s1 acts1 g1 p2 m2 l2 s2 acts2 g2 H1 H2 Hg1 Hg2 E1 E2. destruct (Hall _ _ _ _ _ H1) as [_ [R1 _ _ _ _ _ _]]. destruct (Hall _ _ _ _ _ H2) as [_ [R2 _ _ _ _ _ _]].
      eapply (C58_agreement_partial make_event chain plen epoch_point Hwf Hho); [exact R1|exact R2|exact Hg1|exact Hg2|congruence|by rewrite E1]. }
  (* every keyper has a DKG *)
  set (num := N.of_nat (length (sc_keypers c))). set (t := sc_threshold c) in *.
  set (good := λ (h : keyper_params P * nat * list (kinput P K) * kstate P * list (list (kaction P))) (k : kdkg P) (idx : N) (x : execution P),
    k ∈ k_dkgs h.1.2 ∧ k_eon k = n ∧ find_address (sc_keypers c) (kp_me h.1.1.1.1) = Some idx ∧ k_keypers k = sc_keypers c ∧ is_finalized k = true ∧
    run (new_dkg P n num t idx) (all_calls x) = Some (k_pure k) ∧ honest n num t idx x ∧ broadcasts (all_calls x) = transcript_of make_event chain plen h.1.1.1.2 n st (sc_keypers c)).
  assert (Hex : ∀ h, h ∈ hs → ∃ k idx x, good h k idx x).
  { intros [[[[p m] l] s] acts] Hin. destruct (Hall _ _ _ _ _ Hin) as [Hme [Hrun Hst Q1 Q2 Q3 Hov Hdel]].
    destruct (run_facts make_event chain plen epoch_point Hwf Hho _ _ _ _ _ Hrun) as (_ & [I1 I2 I3 I4 I5 I6 I7 I8 I9 I10 I11] & _).
    destruct (I7 n st b Hn) as [(k & Hk & Ek)|(a & c' & Ha & Hs' & Hc & Hfi)]; [by apply eon_infos_elem| |].
    2:{ exfalso. apply find_none in Hfi. apply Hfi. apply eon_infos_elem, Hcfg in Hs'. by rewrite (config_unique make_event chain _ _ _ _ Hc Hs'). }
    destruct (I2 k Hk) as (_ & st' & c' & idx & x & Hat & Hlog). pose proof (da_info _ _ _ _ _ _ _ _ _ _ _ _ _ Hat) as Hinfo. rewrite Ek in Hinfo.
    destruct (eon_infos_unique (Pub m) n st' (k_start_batch k) st b (Hwf m) Hinfo) as [-> Eb]; [by apply eon_infos_elem|]. rewrite Hov in Hat, Hlog. change finalized with 4 in Hat, Hlog.
    destruct (da_config _ _ _ _ _ _ _ _ _ _ _ _ _ Hat) as (a & A1 & A2 & A3). rewrite Ek, Eb in A2. rewrite Eb in A3.
    assert (c' = c) as ->. { apply (config_unique make_event chain b c' c a); [done|]. by apply Hcfg, eon_infos_elem. }
    pose proof (da_running _ _ _ _ _ _ _ _ _ _ _ _ _ Hat) as Rn. pose proof (ru_off _ _ _ _ _ _ _ Rn) as Eoff. pose proof (ru_run _ _ _ _ _ _ _ Rn) as Rr. rewrite Ek in Rr.
    exists k, idx, x. split; [done|]. split; [done|]. cbn [fst snd]. split; [apply (da_idx _ _ _ _ _ _ _ _ _ _ _ _ _ Hat)|]. split; [apply (da_keypers _ _ _ _ _ _ _ _ _ _ _ _ _ Hat)|].
    split; [unfold is_finalized; by rewrite (ru_phase _ _ _ _ _ _ _ Rn)|]. split; [by rewrite all_calls_upto|]. split.
    - rewrite decided_past in Q1, Q2, Q3. eapply (honest_from_chain p m l (mjoin acts) n k st c idx x); try done.
    - rewrite all_calls_upto by done. unfold calls_upto. cbn [Nat.leb app]. unfold transcript_of, transcript.
      cbn [fst snd]. pose proof (da_dealing _ _ _ _ _ _ _ _ _ _ _ _ _ Hat) as Ed. pose proof (da_accusing _ _ _ _ _ _ _ _ _ _ _ _ _ Hat) as Ea.
      pose proof (da_apologizing _ _ _ _ _ _ _ _ _ _ _ _ _ Hat) as Eap. rewrite Ek in Ed, Ea, Eap. rewrite <-Ed, <-Ea, <-Eap. unfold broadcasts.
      cbn [omap list_omap public_of]. rewrite omap_app'. cbn [omap list_omap public_of]. rewrite omap_app'. cbn [omap list_omap public_of]. by rewrite omap_app'. }
  (* choose *)
  assert (∃ ds : list (N * kdkg P * execution P), Forall2 (λ h d, good h d.1.2 d.1.1 d.2) hs ds) as (ds & Hds).
  { clear -Hex. induction hs as [|h hs' IH]; [exists []; constructor|]. destruct (Hex h ltac:(by left)) as (k & idx & x & Hg). destruct IH as (ds & IH); [intros h' Hh'; apply Hex; by right|].
    exists ((idx, k, x) :: ds). by constructor. }
  set (F := λ j : N, List.find (λ d : N * kdkg P * execution P, d.1.1 =? j)%N ds).
  set (ids := (λ d : N * kdkg P * execution P, d.1.1) <$> ds).
  assert (Hids : NoDup ids).
  { apply NoDup_alt. intros i j z Hi Hj. unfold ids in Hi, Hj. rewrite list_lookup_fmap in Hi, Hj. apply fmap_Some in Hi as (di & Hi & Ei). apply fmap_Some in Hj as (dj & Hj & Ej).
    destruct (Forall2_lookup_r _ _ _ _ _ Hds Hi) as (hi & Hhi & (_ & _ & Fi & _)). destruct (Forall2_lookup_r _ _ _ _ _ Hds Hj) as (hj & Hhj & (_ & _ & Fj & _)).
    rewrite <-Ei in Fi. rewrite <-Ej in Fj. pose proof (find_address_inj _ _ _ _ Fi Fj) as E.
    apply (NoDup_lookup _ _ _ (kp_me hi.1.1.1.1) Hndh); rewrite list_lookup_fmap; [by rewrite Hhi|rewrite Hhj; cbn; by rewrite E]. }
  assert (HF : ∀ d, d ∈ ds → F d.1.1 = Some d).
  { clear -Hids. unfold F, ids in *. induction ds as [|d0 ds' IH]; intros d Hd; [by apply elem_of_nil in Hd|]. cbn [List.find]. cbn [fmap list_fmap] in Hids. apply NoDup_cons in Hids as [Hno Hnd].
    apply elem_of_cons in Hd as [->|Hd]; [by rewrite N.eqb_refl|]. destruct (N.eqb_spec d0.1.1 d.1.1) as [E|]; [|by apply IH]. exfalso. apply Hno. rewrite E. apply elem_of_list_fmap. by exists d. }
  set (dflt := new_dkg P n num t 0).
  assert (Hfin : ∀ j, j ∈ ids → is_Some (compute_result (default dflt ((λ d, k_pure d.1.2) <$> F j)))).
  { intros j Hj. refine (C32_honest_finish n num t ids (λ j, default (mkExecution [] (λ _, 0%Z) [] [] []) (snd <$> F j)) (λ j, default dflt ((λ d, k_pure d.1.2) <$> F j)) _ Hids _ _ _ j Hj).
    - destruct hs as [|h0 hs'] eqn:Ehs; [apply Forall2_nil_inv_l in Hds as ->; by apply elem_of_nil in Hj|].
      destruct h0 as [[[[p m] l] s] acts]. destruct (Hall p m l s acts ltac:(by left)) as [_ [_ Hst _ _ _ _ _]]. apply (Hsc m c). eapply (config_published make_event chain). by apply Hcfg.
    - unfold ids. rewrite fmap_length, <-(Forall2_length _ _ _ Hds). done.
    - intros i Hi. apply elem_of_list_fmap in Hi as (d & -> & Hd). rewrite (HF d Hd). cbn. apply elem_of_list_lookup in Hd as (z & Hz). destruct (Forall2_lookup_r _ _ _ _ _ Hds Hz) as (h & Hh & Hg).
      destruct Hg as (_ & _ & G3 & _ & _ & G6 & G7 & _). split; [|done]. apply find_address_lookup, lookup_lt_Some in G3. unfold num. lia.
    - assert (G : ∀ d, d ∈ ds → ∃ m, broadcasts (all_calls d.2) = transcript_of make_event chain plen m n st (sc_keypers c) ∧ phase_at plen (Z.of_nat m) st = finalized).
      { intros d Hd. apply elem_of_list_lookup in Hd as (z & Hz). destruct (Forall2_lookup_r _ _ _ _ _ Hds Hz) as (h & Hh & Hg). destruct Hg as (_ & _ & _ & _ & _ & _ & _ & G8). exists h.1.1.1.2. split; [done|].
        destruct h as [[[[p m] l] s] acts]. destruct (Hall p m l s acts) as [_ [_ _ _ _ _ Hov _]]; [by eapply elem_of_list_lookup_2|]. done. }
      intros i i' Hi Hi'. apply elem_of_list_fmap in Hi as (d & -> & Hd). apply elem_of_list_fmap in Hi' as (d' & -> & Hd'). rewrite (HF d Hd), (HF d' Hd'). cbn.
      destruct (G d Hd) as (m & -> & Hm). destruct (G d' Hd') as (m' & -> & Hm').
      destruct (Nat.le_ge_cases m m'); [symmetry|]; by apply transcript_stable. }
  intros p m l s acts Hin. apply elem_of_list_lookup in Hin as Hin'. destruct Hin' as (z & Hz). destruct (Forall2_lookup_l _ _ _ _ _ Hds Hz) as (d & Hd & (G1 & G2 & G3 & G4 & G5 & _)).
  destruct (Hfin d.1.1) as (r & Hr); [apply elem_of_list_fmap; exists d; split; [done|by eapply elem_of_list_lookup_2]|]. rewrite (HF d ltac:(by eapply elem_of_list_lookup_2)) in Hr. cbn in Hr.
  destruct (Hall _ _ _ _ _ Hin) as [_ [Hrun _ _ _ _ _ _]].
  destruct (run_facts make_event chain plen epoch_point Hwf Hho _ _ _ _ _ Hrun) as (_ & [_ _ _ _ _ _ _ _ _ _ I11] & _).
  destruct (I11 d.1.2 r G1 G5 Hr) as (g & Hg & Eg & Ek & _). exists g. split; [done|]. split; [congruence|congruence].
Qed.
End Props.

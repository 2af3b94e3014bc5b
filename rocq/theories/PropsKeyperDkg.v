(** C59: what a keyper submits in the key generations. *)
From stdpp Require Import list gmap sets.
From Coq Require Import ZArith NArith Lia.
From Verif Require Import Fq CryptoModel CryptoSpec CryptoProofs PropsCrypto DkgModel DkgSpec DkgProofs PropsDkg EpochModel PropsEpoch ObserveModel ObserveProofs SyncModel SyncProofs ArithModel MainModel MainProofs
  DecideModel EncodingModel KeyperModel KeyperSpec KeyperDkgProofs DkgExact KeyperStepProofs KeyperHistProofs KeyperRunProofs KeyperLogProofs KeyperActionProofs KeyperSystem PropsKeyper.

Lemma find_none (l : list N) (a : N) : find_address l a = None → a ∉ l.
Proof.
  unfold find_address. generalize 0%N. induction l as [|y l IH]; intros i; cbn [find_address_from].
  - intros _. by intros ?%elem_of_nil.
  - destruct (N.eqb_spec y a) as [->|Hne]; [done|]. intros H%IH [?|?]%elem_of_cons; congruence.
Qed.
(** ** One execution *)
Section Exec.
Context {P : pairing}.
Implicit Types (x : execution P) (s : dkg P).
Lemma deal_evals_spec s p l s' ms : deal_evals s p l = Some (s', ms) →
  (∀ j, j ≠ N.to_nat (d_keyper s) → d_evals s' !! j = d_evals s !! j) ∧
  (∀ m, m ∈ ms → em_eon m = d_eon s ∧ em_sender m = d_keyper s ∧ N.to_nat (em_receiver m) ∈ l ∧ em_receiver m ≠ d_keyper s ∧ eval_for_keyper p (int_of (em_receiver m)) = Some (em_eval m)) ∧
  (∀ r, r ∈ l → N.of_nat r ≠ d_keyper s → ∃ m, m ∈ ms ∧ em_receiver m = N.of_nat r).
Proof.
  revert s s' ms. induction l as [|r l IH]; intros s s' ms; cbn [deal_evals].
  - intros [= <- <-]. split; [done|]. split; [by intros m ?%elem_of_nil|by intros r ?%elem_of_nil].
  - destruct (eval_for_keyper p (int_of (N.of_nat r))) as [v|] eqn:Ev; [|done]. destruct (N.eqb_spec (N.of_nat r) (d_keyper s)) as [Er|Er].
    + destruct (handle_eval s _) as [s1| |] eqn:E1; try done. apply handle_eval_inv in E1 as (_ & _ & _ & Hn & Hv & ->). cbn in *.
      intros H. apply IH in H as (H1 & H2 & H3). cbn in *. split; [|split].
      * intros j Hj. rewrite H1 by done. by rewrite list_lookup_insert_ne.
      * intros m Hm. destruct (H2 m Hm) as (? & ? & ? & ? & ?). split_and!; try done. by right.
      * intros r' [->|Hr']%elem_of_cons Hne; [done|]. by apply H3.
    + destruct (deal_evals s p l) as [[s1 ms1]|] eqn:E1; [|done]. intros [= <- <-]. apply IH in E1 as (H1 & H2 & H3). split; [done|]. split.
      * intros m [->|Hm]%elem_of_cons; cbn; [rewrite Nat2N.id; split_and!; try done; by left|]. destruct (H2 m Hm) as (? & ? & ? & ? & ?). split_and!; try done. by right.
      * intros r' [->|Hr']%elem_of_cons Hne; [eexists; split; [by left|done]|]. destruct (H3 r' Hr' Hne) as (m & ? & ?). exists m. split; [by right|done].
Qed.
Lemma start1_spec n num t idx (rnd : nat → Z) s1 cm evals : start_phase1 (new_dkg P n num t idx) rnd = Some (s1, Some (cm, evals)) → (t < 2 ^ 64)%N → (num < 2 ^ 63)%N →
  ∃ poly, Z.of_nat (length poly) = Z.of_N t ∧ (∀ c, c ∈ poly → residue c) ∧ cm = mkCommitmentMsg n idx (gammas P poly) ∧ d_poly s1 = Some poly ∧
    d_commitments s1 = replicate (N.to_nat num) None ∧ d_accusations s1 = ∅ ∧
    (∀ j, (j < N.to_nat num)%nat → j ≠ N.to_nat idx → d_evals s1 !! j = Some None) ∧
    (∀ m, m ∈ evals → (em_receiver m < num)%N ∧ em_receiver m ≠ idx ∧ em_eval m = (poly_value poly (Z.of_N (em_receiver m) + 1) mod order)%Z) ∧
    (∀ r, (r < num)%N → r ≠ idx → ∃ m, m ∈ evals ∧ em_receiver m = r) ∧ poly ≠ [] ∧
    d_phase s1 = dealing ∧ d_eon s1 = n ∧ d_keyper s1 = idx ∧ d_threshold s1 = t ∧ d_num s1 = num.
Proof.
  intros E Ht Hn. pose proof (start_phase1_inv _ _ _ _ E) as (_ & (Q1 & Q2 & Q3 & Q4 & Q5 & Q6 & _) & Qk & _ & _ & H). cbn in Q1, Q2, Q3, Q4, Q5, Q6, Qk.
  destruct (H cm evals eq_refl) as (poly & Hp & Hpoly & -> & _). cbn in Hp.
  destruct (random_poly_honest _ _ _ Ht Hp) as [Hnew Hlen]. apply C30_new_polynomial in Hnew as (_ & Hne & Hres).
  unfold start_phase1 in E. destruct (set_phase _ _) as [s0|] eqn:E0; [|done]. apply set_phase_inv in E0 as [_ ->]. cbn [d_threshold set_phase_to new_dkg] in E. rewrite Hp in E.
  destruct (deal_evals _ _ _) as [[s3 ms]|] eqn:Ed; [|done]. injection E as <- <-. apply deal_evals_spec in Ed as (D1 & D2 & D3). cbn in D1, D2, D3.
  exists poly. split; [done|]. split; [done|]. split; [done|]. split; [done|]. split; [done|]. split; [done|]. split; [|split; [|split; [|split; [done|split_and!; done]]]].
  - intros j Hj Hne'. rewrite D1 by done. by apply lookup_replicate.
  - intros m Hm. destruct (D2 m Hm) as (_ & _ & Hr & Hne' & Hv). apply elem_of_seq in Hr. split; [lia|]. split; [done|].
    rewrite int_of_small in Hv by lia. unfold eval_for_keyper in Hv. rewrite eval_exact in Hv by done. injection Hv as <-. unfold keyper_x. f_equal. f_equal. lia.
  - intros r Hr Hne'. destruct (D3 (N.to_nat r)) as (m & Hm & Er); [apply elem_of_seq; lia|lia|]. exists m. split; [done|]. lia.
Qed.

(** the state when the dealing phase ends *)
Lemma running_dealt n num t idx q x (p : dkg P) s1 cm evals : running n num t idx q x p → 1 ≤ q → start_phase1 (new_dkg P n num t idx) (ex_rnd x) = Some (s1, Some (cm, evals)) →
  ∃ s2, run s1 (ex_dealing x) = Some s2 ∧ run (new_dkg P n num t idx) (until_start2 x) = Some s2 ∧ d_phase s2 = dealing ∧
    (2 ≤ q → ∃ s3, run (set_phase_to s2 accusing) (ex_accusing x) = Some s3 ∧ run (new_dkg P n num t idx) (until_start3 x) = Some s3 ∧ d_phase s3 = accusing).
Proof.
  intros [R1 R2 R3 R4 R5 R6] Hq E. unfold calls_upto in R1. replace (1 <=? q) with true in R1 by (symmetry; apply Nat.leb_le; lia).
  assert (Hrun1 : ∀ cs : list (call P), run (new_dkg P n num t idx) (CStart1 (ex_rnd x) :: cs) = run s1 cs) by (intros cs; cbn [run do_call]; by rewrite E).
  apply run_app in R1 as (s2 & Hs2 & Hrest). assert (Eu2 : until_start2 x = CStart1 (ex_rnd x) :: ex_dealing x) by (unfold until_start2, until_start1; by rewrite R3).
  exists s2. split; [by rewrite <-Hrun1|]. split; [by rewrite Eu2|].
  destruct (Nat.leb_spec 2 q) as [H2|H2].
  - apply run_app in Hrest as (s3 & Hs3 & Hrest). cbn [run do_call] in Hs3. destruct (start_phase2 s2) as [[s2' l2]|] eqn:E2; [|done].
    pose proof (start_phase2_inv _ _ _ E2) as (P2 & -> & _). split; [done|]. intros _. exists s3. split; [done|]. split.
    + unfold until_start3. rewrite Eu2. apply run_app. exists s2. split; [done|]. cbn [run do_call]. by rewrite E2.
    + destruct (Nat.leb_spec 3 q) as [H3|H3].
      * cbn [app run do_call] in Hrest. destruct (start_phase3 s3) as [[s3' l3]|] eqn:E3; [|done]. by apply start_phase3_inv in E3 as [? _].
      * replace (4 <=? q) with false in Hrest by (symmetry; apply Nat.leb_gt; lia). cbn in Hrest. injection Hrest as ->. rewrite R2. unfold accusing. lia.
  - split; [|lia]. replace (3 <=? q) with false in Hrest by (symmetry; apply Nat.leb_gt; lia). replace (4 <=? q) with false in Hrest by (symmetry; apply Nat.leb_gt; lia).
    cbn in Hrest. injection Hrest as ->. rewrite R2. unfold dealing. lia.
Qed.
Definition dealing_messages n idx x : Prop :=
  (∀ q, q ∈ broadcasts (ex_dealing x) → ∃ m, q = PCommitment m ∧ cm_eon m = n ∧ (Z.of_nat (length (cm_gammas m)) < 2 ^ 64)%Z) ∧
  (∀ m, m ∈ received (ex_dealing x) → em_eon m = n ∧ em_receiver m = idx).
Lemma commitments_by_length t (j : nat) (l : list (public P)) gs : head (commitments_by t j l) = Some gs → N.of_nat (length gs) = t.
Proof.
  intros H. apply head_Some_elem_of, elem_of_list_omap in H as (q & _ & H). destruct q; try done.
  destruct (_ =? _)%N; [|done]. cbn [andb] in H. destruct (N.eqb_spec (N.of_nat (length (cm_gammas m))) t); [|done]. by injection H as <-.
Qed.
Lemma sent_accusations_exact n num t idx q x (p : dkg P) s1 cm evals : running n num t idx q x p → 1 ≤ q →
  start_phase1 (new_dkg P n num t idx) (ex_rnd x) = Some (s1, Some (cm, evals)) → dealing_messages n idx x → (t < 2 ^ 64)%N → (num < 2 ^ 63)%N → (idx < num)%N →
  ∃ js, NoDup js ∧ sent_accusations n num t idx x = (λ j, mkAccusationMsg n idx (N.of_nat j)) <$> js ∧
    ∀ j, j ∈ js ↔ (j < N.to_nat num)%nat ∧ N.of_nat j ≠ idx ∧ ¬ ∃ gs v p, head (commitments_by t j (broadcasts (ex_dealing x))) = Some gs ∧
      head (evals_by j (received (ex_dealing x))) = Some v ∧ commits p gs ∧ congr v (poly_value p (Z.of_N idx + 1)).
Proof.
  intros R Hq E [Hb Hv] Ht Hn Hi. destruct (running_dealt _ _ _ _ _ _ _ _ _ _ R Hq E) as (s2 & H1 & H2 & H3 & _).
  destruct (start1_spec _ _ _ _ _ _ _ _ E Ht Hn) as (poly & _ & _ & _ & _ & Dc & _ & De & _ & _ & _ & Dp & Den & Dk & Dt & Dn).
  unfold sent_accusations. rewrite H2. unfold start_phase2, set_phase. rewrite H3. cbn.
  pose proof (run_frame _ _ _ H1) as (F1 & F2 & F3 & F4 & _). rewrite Den in F1. rewrite Dn in F2. rewrite Dt in F3. rewrite Dk in F4.
  exists (List.filter (accuse (set_phase_to s2 accusing)) (seq 0 (N.to_nat num))). split; [apply NoDup_ListNoDup, List.NoDup_filter, NoDup_ListNoDup, NoDup_seq|].
  split; [rewrite F1, F2, F4; done|].
  intros j. rewrite elem_of_list_In, filter_In, <-elem_of_list_In, elem_of_seq.
  assert (0 ≤ j < 0 + N.to_nat num ↔ j < N.to_nat num) as -> by lia.
  assert (∀ A B C : Prop, (A → (B ↔ C)) → (A ∧ B ↔ A ∧ C)) as Hand by tauto. apply Hand. intros Hj.
  unfold accuse. cbn [d_keyper d_evals d_commitments d_threshold set_phase_to]. rewrite F3, F4.
  destruct (N.eqb_spec (N.of_nat j) idx) as [->|Hne]; cbn [negb andb]; [split; [done|tauto]|].
  destruct (run_dealing_exact s1 (ex_dealing x) s2 j) as (X1 & X2 & _); try done.
  { intros b Hb'. rewrite Den. by apply Hb. }
  { intros b Hb'. rewrite Den, Dk. by apply Hv. }
  { by rewrite Dt. }
  rewrite (X2 None) by (apply De; [done|lia]). rewrite (X1 None) by (rewrite Dc; by apply lookup_replicate). cbn [first]. rewrite Dt.
  rewrite int_of_small by lia. clear X1 X2.
  destruct (head (evals_by _ _)) as [v|]; [|split; [|done]; intros _; split; [done|]; by intros (? & ? & ? & _ & ? & _)].
  destruct (head (commitments_by _ _ _)) as [gs|] eqn:Eg; [|split; [|done]; intros _; split; [done|]; by intros (? & ? & ? & ? & _)].
  apply commitments_by_length in Eg. destruct (gammas_surj P gs) as (pl & Epl & _). apply commits_gammas in Epl.
  rewrite negb_true_iff, <-not_true_iff_false, (C30_verify_poly_eval P _ _ pl) by (try done; unfold uint64; lia).
  split.
  - intros Hnv. split; [done|]. intros (gs' & v' & p' & [= <-] & [= <-] & Hc & Hcg). apply Hnv. split; [rewrite (Forall2_length _ _ _ Epl); lia|].
    unfold congr in Hcg. rewrite Hcg. by apply (commits_poly_eq p' pl gs).
  - intros [_ Hnv] [_ Hv']. apply Hnv. exists gs, v, pl. done.
Qed.
Lemma sent_apologies_exact n num t idx q x (p : dkg P) s1 poly evals : running n num t idx q x p → 2 ≤ q →
  start_phase1 (new_dkg P n num t idx) (ex_rnd x) = Some (s1, Some (mkCommitmentMsg n idx (gammas P poly), evals)) → d_poly s1 = Some poly → (∀ c, c ∈ poly → residue c) → poly ≠ [] →
  d_accusations s1 = ∅ → dealing_messages n idx x →
  (∀ q, q ∈ broadcasts (ex_accusing x) → ∃ m, q = PAccusation m ∧ am_eon m = n ∧ (am_accuser m < num)%N) → (num < 2 ^ 63)%N → d_eon s1 = n → d_keyper s1 = idx →
  ∃ js, NoDup js ∧ sent_apologies n num t idx x = (λ j, mkApologyMsg n (N.of_nat j) idx (poly_value poly (Z.of_nat j + 1) mod order)%Z) <$> js ∧
    ∀ j, j ∈ js ↔ PAccusation (mkAccusationMsg n (N.of_nat j) idx) ∈ broadcasts (ex_accusing x).
Proof.
  intros R Hq E Hpoly Hres Hne Hac [Hb Hv] Hba Hn Den Dk. destruct (running_dealt _ _ _ _ _ _ _ _ _ _ R ltac:(lia) E) as (s2 & H1 & H2 & H3 & H4). destruct (H4 Hq) as (s3 & H5 & H6 & H7). clear H4.
  pose proof (start_phase1_inv _ _ _ _ E) as (_ & (Q1 & _) & _). cbn in Q1.
  pose proof (run_frame _ _ _ H1) as (F1 & F2 & F3 & F4 & F5 & _ & _ & F8 & _).
  pose proof (run_frame _ _ _ H5) as (G1 & G2 & G3 & G4 & G5 & _ & _ & G8 & _). cbn in G1, G2, G3, G4, G5, G8.
  assert (Hp3 : d_poly s3 = Some poly).
  { rewrite G8 by (unfold off, accusing; lia). rewrite F8 by (rewrite <-Q1; unfold off, dealing; lia). done. }
  assert (Hac2 : d_accusations s2 = ∅).
  { rewrite <-Hac. clear -H1 H3 Hb Q1. assert (H3' : d_phase s1 = dealing) by done. clear Q1. revert s1 H1 H3' Hb. generalize (ex_dealing x) as cs. induction cs as [|c cs IH]; intros s; cbn [run]; [by intros [= ->]|].
    destruct (do_call s c) as [s1|] eqn:E; [|done]. intros Hr Hp Hb. pose proof (do_call_frame _ _ _ E) as (_ & _ & _ & _ & E5 & _). pose proof (run_frame _ _ _ Hr) as (_ & _ & _ & _ & E6 & _).
    rewrite (IH s1 Hr); [|lia|intros q Hq; apply Hb; unfold broadcasts; cbn [omap list_omap]; destruct (public_of c); [by right|done]].
    destruct c as [rnd| | | |m|m|m|m]; try (exfalso; destruct (Hb _ (elem_of_list_here _ _)) as (? & ? & _); done); cbn [do_call] in E.
    - destruct (handle_commitment s m) as [s2'| |] eqn:E2; cbn [keep] in E; simplify_eq; [|done]. apply handle_commitment_inv in E2 as (_ & _ & _ & _ & ->). done.
    - destruct (handle_eval s m) as [s2'| |] eqn:E2; cbn [keep] in E; simplify_eq; [|done]. apply handle_eval_inv in E2 as (_ & _ & _ & _ & _ & ->). done. }
  assert (E3 : d_eon s3 = n) by congruence. assert (K3 : d_keyper s3 = idx) by congruence.
  assert (Hset : ∀ a b, (a, b) ∈ d_accusations s3 ↔ PAccusation (mkAccusationMsg n a b) ∈ broadcasts (ex_accusing x)).
  { intros a b. rewrite (run_accusing_exact (set_phase_to s2 accusing) (ex_accusing x) s3 a b); try done; cbn.
    - rewrite Hac2, F1, Den. split; [intros [?|?]; [set_solver|done]|by right].
    - intros c Hc. rewrite F1, Den. destruct (Hba c Hc) as (m & ? & ? & _). by exists m. }
  set (keys := List.filter (λ key : N * N, key.2 =? idx)%N (elements (d_accusations s3))).
  assert (Hk : ∀ key, key ∈ keys ↔ key ∈ d_accusations s3 ∧ key.2 = idx).
  { intros key. unfold keys. rewrite elem_of_list_In, filter_In, <-elem_of_list_In, elem_of_elements, N.eqb_eq. done. }
  exists ((λ key : N * N, N.to_nat key.1) <$> keys). split; [|split].
  - assert (NoDup keys) as Hnd by (apply NoDup_ListNoDup, List.NoDup_filter, NoDup_ListNoDup, NoDup_elements).
    apply NoDup_fmap_2_strong; [|done]. intros [a b] [a' b'] [_ Ha]%Hk [_ Ha']%Hk E'. cbn in *. f_equal; [lia|congruence].
  - unfold sent_apologies. rewrite H6. unfold start_phase3, set_phase. rewrite H7. change (negb (apologizing =? accusing + 1)) with false. cbv iota.
    change (d_keyper (set_phase_to s3 apologizing)) with (d_keyper s3). change (d_accusations (set_phase_to s3 apologizing)) with (d_accusations s3). rewrite K3. fold keys.
    assert (mapM (apologize (set_phase_to s3 apologizing)) keys = Some ((λ key : N * N, mkApologyMsg n key.1 idx (poly_value poly (Z.of_N key.1 + 1) mod order)%Z) <$> keys)) as EM.
    { apply mapM_Some. apply Forall2_fmap_r. apply Forall_Forall2_diag. apply Forall_forall. intros [a b] [Hin Eb]%Hk. cbn in Eb. subst b. unfold apologize. cbn. rewrite Hp3, E3.
      apply Hset in Hin. destruct (Hba _ Hin) as (m & [= <-] & _ & Hlt). cbn in Hlt. rewrite int_of_small by lia. unfold eval_for_keyper. rewrite eval_exact by done.
      unfold keyper_x. do 3 f_equal. f_equal. lia. }
    rewrite EM. rewrite <-list_fmap_compose. apply list_fmap_ext. intros _ key _. cbn. f_equal; [lia|]. f_equal. f_equal. lia.
  - intros j. rewrite elem_of_list_fmap. split.
    + intros (key & -> & [Hin Ek]%Hk). destruct key as [a b]. cbn in *. subst b. rewrite N2Nat.id. by apply Hset.
    + intros Hin. apply Hset in Hin. exists (N.of_nat j, idx). cbn. split; [lia|]. by apply Hk.
Qed.
End Exec.

Section Props.
Context {P : pairing} {K R : Type}.
Notation sig := (N * list N)%type.
Notation shutter := (ObserveModel.shutter (body P) sconfig K sig).
Context (make_event : R → Z → option (shutter_event (body P) sconfig K sig)) (chain : nat → list (list R)).
Notation Pub := (published make_event chain).
Context (plen : phase_length) (epoch_point : N → G1 P).
Context (Hwf : ∀ m, well_formed (Pub m)) (Hho : heights_ok make_event).
Notation keyper_run := (keyper_run make_event chain plen epoch_point).
Notation started := (started make_event chain).
Notation config_at := (config_at make_event chain).
Notation sized := (sized make_event chain).
Notation decided_in := (decided_in make_event chain plen).
Notation dealt_to := (dealt_to make_event chain plen).
Notation accused_by := (accused_by make_event chain plen).
Notation past := (past make_event chain plen).
Implicit Types (p : keyper_params P).

(** numbers of keypers are ints, thresholds are uint64s *)
Definition sized_configs : Prop := ∀ m c, BatchConfig c ∈ Pub m → (sc_threshold c < 2 ^ 64)%N ∧ (Z.of_nat (length (sc_keypers c)) < 2 ^ 63)%Z.

(** Keyper [p], with index [idx] in the keyper set of config [c], takes part in the key generation of eon [n] with the secret polynomial [poly]: [l]
    are the decisions it has made, [A] is what it has submitted, the chain has [m] blocks. *)
Record participates p (m : nat) (l : list (kinput P K)) (A : list (kaction P)) (n : N) (st : Z) (c : sconfig) (idx : N) (poly : list Z) : Prop := {
  (* the polynomial has as many coefficients as the threshold says *)
  pa_poly : Z.of_nat (length poly) = Z.of_N (sc_threshold c) ∧ ∀ a, a ∈ poly → residue a;
  (* it is committed to at most once, and whenever a decision falls into the dealing phase *)
  pa_commitment : commitments_sent n A = [] ∨ ∃ gs, commitments_sent n A = [gs] ∧ commits poly gs;
  pa_committed : decided_in l n dealing → commitments_sent n A ≠ [];
  (* every other keyper is sent its value of the polynomial, encrypted for it, once, as soon as its encryption key is known *)
  pa_eval : ∀ r e, (r, e) ∈ evals_sent n A → ∃ i key j, i ∈ l ∧ enc_keys (in_shutter i) !! r = Some key ∧ sc_keypers c !! j = Some r ∧ N.of_nat j ≠ idx ∧
    e = in_enc i key (big_bytes (poly_value poly (Z.of_nat j + 1) mod order)%Z);
  pa_evals : ∀ i j r key, i ∈ l → decided_in [i] n dealing → sc_keypers c !! j = Some r → N.of_nat j ≠ idx → enc_keys (in_shutter i) !! r = Some key →
    r ∈ (evals_sent n A).*1;
  pa_once : NoDup (sc_keypers c) → NoDup (evals_sent n A).*1;
  (* the accused are exactly the keypers that did not deal *)
  pa_accusation : decided_in l n accusing → ∃ js, NoDup js ∧
    (∀ j, j ∈ js ↔ (j < length (sc_keypers c))%nat ∧ N.of_nat j ≠ idx ∧ ¬ dealt_to (kp_ecies p) m n st (sc_keypers c) (sc_threshold c) idx j) ∧
    (js = [] → accusations_sent n A = []) ∧ (js ≠ [] → ∃ accused, accusations_sent n A = [accused] ∧ Forall2 (λ j a, sc_keypers c !! j = Some a) js accused);
  (* every accusation is answered with the true value *)
  pa_apology : decided_in l n apologizing → ∃ js, NoDup js ∧ (∀ j, j ∈ js ↔ accused_by m n st (sc_keypers c) idx j) ∧
    (js = [] → apologies_sent n A = []) ∧
    (js ≠ [] → ∃ accusers, apologies_sent n A = [(accusers, (λ j, (poly_value poly (Z.of_nat j + 1) mod order)%Z) <$> js)] ∧
       Forall2 (λ j a, sc_keypers c !! j = Some a) js accusers)
}.

Lemma decided_past l n ph : decided_in l n ph ↔ past l n ph.
Proof. split; intros (i & st & b & Hi & Hs & Hp); exists i, st, b; (split; [done|]); (split; [by apply eon_infos_elem in Hs || apply eon_infos_elem|done]). Qed.
Lemma config_unique b c c' (a : nat) : config_for make_event chain b c a → config_at a b c' → c = c'.
Proof.
  intros -> (pre & post & E & H1 & H2). unfold config_list. rewrite E, omap_app'. cbn [omap list_omap].
  change (?l ++ c' :: ?l2) with (l ++ [c'] ++ l2). rewrite (assoc_L (++)), last_config_app.
  - rewrite app_length. cbn [length]. rewrite Nat.add_1_r. cbn [last_config_for]. rewrite lookup_app_r, Nat.sub_diag by done. cbn. by apply N.leb_le in H1 as ->.
  - intros d (ev & Hev & Hd)%elem_of_list_omap. destruct ev as [|bc| | |]; try done. injection Hd as ->. by apply H2.
Qed.
Lemma config_published m b c : config_at m b c → BatchConfig c ∈ Pub m.
Proof. intros (pre & post & -> & _). apply elem_of_app. right. by left. Qed.
(** the messages of an execution come from the chain *)
Lemma dkg_at_dealing p m H n q st c idx k x : sized → k_eon k = n → KeyperHistProofs.dkg_at make_event chain (kp_ecies p) plen (kp_me p) m H q k st c idx x → dealing_messages n idx x.
Proof.
  intros Hs <- Hat. split.
  - rewrite (da_dealing _ _ _ _ _ _ _ _ _ _ _ _ _ Hat). intros b (e & Hb & He)%elem_of_list_bind. apply elem_of_list_In, filter_In in He as [He _]. apply elem_of_list_In, of_kind_elem in He as [He En].
    unfold commitment_public in Hb. destruct (ev_body e) as [sender gs| | | |] eqn:Eb; try (by apply elem_of_nil in Hb).
    destruct (find_address _ sender) as [j|]; [|by apply elem_of_nil in Hb]. apply elem_of_list_singleton in Hb as ->. eexists; split; [done|]. split; [done|]. cbn. by eapply (Hs m).
  - rewrite (da_evals _ _ _ _ _ _ _ _ _ _ _ _ _ Hat). intros b (e & Hb & He)%elem_of_list_bind. apply elem_of_list_In, filter_In in He as [He _]. apply elem_of_list_In, of_kind_elem in He as [He En].
    unfold evals_for in Hb. destruct (ev_body e) as [|sender rs es| | |] eqn:Eb; try (by apply elem_of_nil in Hb).
    destruct (find_address _ sender) as [j|]; [|by apply elem_of_nil in Hb]. destruct (_ =? _)%N; [by apply elem_of_nil in Hb|].
    apply elem_of_list_omap in Hb as (rv & _ & Hb). apply bind_Some in Hb as (j' & _ & Hb). destruct (_ =? _)%N; [|done]. apply bind_Some in Hb as (b' & _ & Hb). injection Hb as <-. done.
Qed.
Lemma dkg_at_accusing p m H n q st c idx k x : k_eon k = n → KeyperHistProofs.dkg_at make_event chain (kp_ecies p) plen (kp_me p) m H q k st c idx x →
  ∀ q, q ∈ broadcasts (ex_accusing x) → ∃ m, q = PAccusation m ∧ am_eon m = n ∧ (am_accuser m < N.of_nat (length (sc_keypers c)))%N.
Proof.
  intros <- Hat. rewrite (da_accusing _ _ _ _ _ _ _ _ _ _ _ _ _ Hat). intros b (e & Hb & He)%elem_of_list_bind. apply elem_of_list_In, filter_In in He as [He _]. apply elem_of_list_In, of_kind_elem in He as [He En].
  unfold accusation_public in Hb. destruct (ev_body e) as [| |sender accused| |] eqn:Eb; try (by apply elem_of_nil in Hb).
  apply elem_of_list_omap in Hb as (a & _ & Hb). apply bind_Some in Hb as (i & Hi & Hb). apply bind_Some in Hb as (j & _ & Hb). injection Hb as <-. eexists; split; [done|]. split; [done|].
  cbn. apply find_address_lookup, lookup_lt_Some in Hi. lia.
Qed.

Lemma log_participates p m l A n st c idx k x : sized → (sc_threshold c < 2 ^ 64)%N → (Z.of_nat (length (sc_keypers c)) < 2 ^ 63)%Z → k_eon k = n →
  KeyperHistProofs.dkg_at make_event chain (kp_ecies p) plen (kp_me p) m m (phase_at plen (Z.of_nat m) st) k st c idx x →
  the_log make_event chain plen l k c idx (phase_at plen (Z.of_nat m) st) x A → ∃ poly, participates p m l A n st c idx poly.
Proof.
  intros Hs Ht Hn En Hat Hlog. set (q := phase_at plen (Z.of_nat m) st) in *.
  pose proof (dkg_at_dealing _ _ _ _ _ _ _ _ _ _ Hs En Hat) as Hdm. pose proof (dkg_at_accusing _ _ _ _ _ _ _ _ _ _ En Hat) as Hac.
  pose proof (da_running _ _ _ _ _ _ _ _ _ _ _ _ _ Hat) as Rn. rewrite En in Rn.
  pose proof (da_dealing _ _ _ _ _ _ _ _ _ _ _ _ _ Hat) as Ed. pose proof (da_evals _ _ _ _ _ _ _ _ _ _ _ _ _ Hat) as Ee. pose proof (da_accusing _ _ _ _ _ _ _ _ _ _ _ _ _ Hat) as Ea. rewrite En in Ed, Ee, Ea.
  pose proof (da_idx _ _ _ _ _ _ _ _ _ _ _ _ _ Hat) as Hidx. apply find_address_lookup in Hidx as Hlt. apply lookup_lt_Some in Hlt.
  pose proof (da_keypers _ _ _ _ _ _ _ _ _ _ _ _ _ Hat) as Ek. clear Hat.
  unfold the_log in Hlog. rewrite En, Ek in Hlog. destruct Hlog as [L1 L2 L3 L4 L5 L6 L7 L8].
  set (num := N.of_nat (length (sc_keypers c))) in *.
  destruct (decide (q = 0)) as [E0|Hne].
  - exists (replicate (N.to_nat (sc_threshold c)) 0%Z). destruct (L4 E0) as [_ He].
    assert (∀ ph, past l n ph → ph ≤ 0) as Hp by (intros ph H; specialize (L7 ph H); lia). unfold dealing, accusing, apologizing in *.
    split.
    + rewrite replicate_length. split; [lia|]. intros a Ha. apply elem_of_replicate in Ha as [-> _]. unfold residue. pose proof order_pos. lia.
    + left. destruct L1 as [[? _]|[? _]]; [done|lia].
    + rewrite decided_past. intros H%Hp. unfold dealing in H. lia.
    + rewrite He. by intros r e ?%elem_of_nil.
    + intros i j r key Hi Hd. apply decided_past in Hd. exfalso. assert (past l n 1) as Hpl; [|by apply Hp in Hpl; lia].
      destruct Hd as (i' & st' & b & Hi' & Hd). apply elem_of_list_singleton in Hi' as ->. by exists i, st', b.
    + rewrite He. constructor.
    + rewrite decided_past. intros H%Hp. unfold accusing in H. lia.
    + rewrite decided_past. intros H%Hp. unfold apologizing in H. lia.
  - destruct (L5 ltac:(lia)) as (evals & (s1 & cm & E) & M2 & M3 & M4 & M5).
    destruct (start1_spec _ _ _ _ _ _ _ _ E Ht ltac:(unfold num; lia)) as (poly & S1 & S2 & -> & S4 & S5 & S6 & S7 & S8 & S9 & S10 & S11 & S12 & S13 & S14 & S15).
    exists poly.
    assert (Hcm : sent_commitment n num (sc_threshold c) idx x = Some (mkCommitmentMsg n idx (gammas P poly))).
    { unfold sent_commitment, until_start1. rewrite (ru_off _ _ _ _ _ _ _ Rn). cbn [run]. by rewrite E. }
    split.
    + done.
    + destruct L1 as [[? _]|(_ & cm & Hcm' & ->)]; [by left|right]. rewrite Hcm in Hcm'. injection Hcm' as <-. eexists; split; [done|]. by apply commits_gammas.
    + rewrite decided_past. intros Hp. destruct L1 as [[_ ?]|(_ & cm & _ & ->)]; done.
    + intros r e Hr. destruct (M3 r e Hr) as (i & key & mm & Hi & Hk & Hm & Hl & ->). destruct (S8 mm Hm) as (B1 & B2 & B3). exists i, key, (N.to_nat (em_receiver mm)).
      split; [done|]. split; [done|]. split; [done|]. split; [lia|]. rewrite B3. do 4 f_equal. lia.
    + intros i j r key Hi Hd Hj Hji Hkey. apply decided_past in Hd as (i' & st' & b & Hi' & Hst & Hp). apply elem_of_list_singleton in Hi' as ->.
      destruct (S9 (N.of_nat j)) as (mm & Hm & Er); [apply lookup_lt_Some in Hj; unfold num; lia|done|]. apply (M5 i st' b mm r key); try done. by rewrite Er, Nat2N.id.
    + intros Hnd. specialize (L8 Hnd). by apply NoDup_app in L8 as [? _].
    + rewrite decided_past. intros Hp. assert (2 ≤ q) as Hq2 by (by apply (L7 2)).
      destruct (sent_accusations_exact n num (sc_threshold c) idx q x _ _ _ _ Rn ltac:(lia) E Hdm Ht ltac:(unfold num; lia) ltac:(unfold num; lia)) as (js & J1 & J2 & J3).
      exists js. split; [done|]. split; [|].
      * intros j. rewrite J3. unfold num. rewrite Nat2N.id, Ed, Ee. done.
      * rewrite J2 in L2. destruct L2 as [[Q1 Q2]|(_ & a & Q1 & Q2 & Q3)].
        -- destruct (Q2 Hp) as [_ Q3]. split; [done|]. intros Hjs. by apply fmap_nil_inv in Q3.
        -- apply Forall2_fmap_r in Q3. split.
           ++ intros ->. by apply Forall2_nil_inv_r in Q3.
           ++ intros _. exists a. split; [done|]. apply Forall2_flip. eapply Forall2_impl; [exact Q3|]. intros r j. cbn. by rewrite Nat2N.id.
    + rewrite decided_past. intros Hp. assert (3 ≤ q) as Hq2 by (by apply (L7 3)).
      destruct (sent_apologies_exact n num (sc_threshold c) idx q x _ s1 poly evals Rn ltac:(lia) E S4 S2 S10 S6 Hdm Hac ltac:(unfold num; lia) S12 S13) as (js & J1 & J2 & J3).
      exists js. split; [done|]. split; [|].
      * intros j. rewrite J3, Ea. done.
      * rewrite J2 in L3. destruct L3 as [[Q1 Q2]|(_ & a & Q1 & Q2 & Q3)].
        -- destruct (Q2 Hp) as [_ Q3]. split; [done|]. intros Hjs. by apply fmap_nil_inv in Q3.
        -- apply Forall2_fmap_r in Q3. split.
           ++ intros ->. by apply Forall2_nil_inv_r in Q3.
           ++ intros _. exists a. rewrite Q1. rewrite <-list_fmap_compose. split; [done|]. apply Forall2_flip. eapply Forall2_impl; [exact Q3|]. intros r j. cbn. by rewrite Nat2N.id.
Qed.

(** ** C59 *)
(** Messages are only submitted while the next block is still in their phase; votes for a restart and eon keys when the key generation is over. *)
Theorem C59_timely p m l s acts (j : nat) i a b : keyper_run p m l s acts → l !! j = Some i → acts !! j = Some a → b ∈ a →
  (∀ n ph, phase_of b = Some (n, ph) → ∃ st ba, started (next_block i) n st ba ∧ phase_at plen (Z.of_nat (next_block i)) st = ph) ∧
  (∀ ba, (b = KEonStartVote ba ∨ ∃ j key, b = KEonKey j ba key) → ∃ n st, started (next_block i) n st ba ∧ phase_at plen (Z.of_nat (next_block i)) st = finalized).
Proof.
  intros Hrun Hi Ha Hb. destruct (run_facts make_event chain plen epoch_point Hwf Hho _ _ _ _ _ Hrun) as (_ & _ & HF).
  destruct (Forall2_lookup_lr _ _ _ _ _ _ HF Hi Ha b Hb) as [H1 H2]. split.
  - intros n ph Hp. destruct (H1 n ph Hp) as (st & ba & Hin & Hph). exists st, ba. split; [by apply eon_infos_elem|done].
  - intros ba Hba. destruct (H2 ba Hba) as (n & st & Hin & Hph). exists n, st. split; [by apply eon_infos_elem|done].
Qed.
(** For every eon that was started: either the keyper was not in the eon's keyper set when it first looked, and it has sent nothing, or it takes part as
    described above. *)
Theorem C59_participation p m l s acts n st b : keyper_run p m l s acts → (0 < n)%N → started m n st b → sized → sized_configs →
  ∃ a, (a ≤ m)%nat ∧ started a n st b ∧
    ((∀ c, config_at a b c → kp_me p ∉ sc_keypers c) ∧ (∀ x, x ∈ mjoin acts → eon_of x ≠ Some n) ∨
     ∃ c idx poly, config_at a b c ∧ find_address (sc_keypers c) (kp_me p) = Some idx ∧ participates p m l (mjoin acts) n st c idx poly).
Proof.
  intros Hrun Hn Hst Hs Hsc. destruct (run_facts make_event chain plen epoch_point Hwf Hho _ _ _ _ _ Hrun) as (_ & [I1 I2 I3 I4 I5 I6 I7 I8 I9 I10 I11] & _).
  destruct (decide (n ∈ k_eon <$> k_dkgs s)) as [(k & -> & Hk)%elem_of_list_fmap|Hno].
  - destruct (I2 k Hk) as (_ & st' & c & idx & x & Hat & Hlog). pose proof (da_info _ _ _ _ _ _ _ _ _ _ _ _ _ Hat) as Hinfo.
    destruct (eon_infos_unique (Pub m) (k_eon k) st' (k_start_batch k) st b (Hwf m) Hinfo) as [-> Eb]; [by apply eon_infos_elem|].
    destruct (da_config _ _ _ _ _ _ _ _ _ _ _ _ _ Hat) as (a & A1 & A2 & A3). pose proof (da_idx _ _ _ _ _ _ _ _ _ _ _ _ _ Hat) as Hidx. rewrite Eb in A2, A3.
    exists a. split; [done|]. split; [by apply eon_infos_elem|]. right. pose proof (config_for_at make_event chain _ _ _ _ _ A3 Hidx) as Hc.
    destruct (Hsc a c) as [Ht Hl]; [by eapply config_published|]. destruct (log_participates p m l (mjoin acts) (k_eon k) st c idx k x Hs Ht Hl eq_refl Hat Hlog) as (poly & Hp).
    by exists c, idx, poly.
  - destruct (I7 n st b Hn) as [(k & Hk & Ek)|(a & c & Ha & Hs' & Hc & Hf)]; [by apply eon_infos_elem|exfalso; apply Hno; apply elem_of_list_fmap; by exists k|].
    exists a. split; [done|]. split; [by apply eon_infos_elem|]. left. split.
    + intros c' Hc'. rewrite <-(config_unique _ _ _ _ Hc Hc'). by eapply find_none.
    + intros x Hx Hn'. destruct (I4 x n Hx Hn') as (k & Hk & Ek). apply Hno, elem_of_list_fmap. by exists k.
Qed.
(** [o] is how the key generation of eon [n] ended for the keyper: with its index and the eon's public key, or without a key *)
Definition outcomes : Type := list (N * N * option (N * G2 P)).
Definition failures (os : outcomes) : list N := os ≫= λ o, match o.2 with None => [o.1.2] | Some _ => [] end.
Definition successes (os : outcomes) : list (N * N * G2 P) := os ≫= λ o, match o.2 with None => [] | Some (j, key) => [(j, o.1.2, key)] end.
(** When the key generation of an eon is over, the keyper votes, once, for a restart if it has no result, and otherwise broadcasts, once, the public
    key it holds; it sends no other such messages. *)
Theorem C59_votes p m l s acts : keyper_run p m l s acts → ∃ os : outcomes, NoDup (os.*1.*1) ∧
  (∀ n b o, (n, b, o) ∈ os → (∃ st, started m n st b ∧ phase_at plen (Z.of_nat m) st = finalized) ∧
    match o with
    | None => ∀ g, g ∈ k_ekgs s → g_eon g ≠ n
    | Some (j, key) => ∃ g, g ∈ k_ekgs s ∧ g_eon g = n ∧ ek_keyper (g_epochkg g) = j ∧ ek_pk (g_epochkg g) = key
    end) ∧
  restart_votes (mjoin acts) ≡ₚ failures os ∧ eon_keys (mjoin acts) ≡ₚ successes os ∧
  (∀ n st b, (0 < n)%N → started m n st b → phase_at plen (Z.of_nat m) st = finalized → n ∉ os.*1.*1 →
    ∃ a, (a ≤ m)%nat ∧ started a n st b ∧ ∀ c, config_at a b c → kp_me p ∉ sc_keypers c).
Proof.
  intros Hrun. destruct (run_facts make_event chain plen epoch_point Hwf Hho _ _ _ _ _ Hrun) as (_ & [I1 I2 I3 I4 I5 I6 I7 I8 I9 I10 I11] & _).
  set (f := λ k : kdkg P, if is_finalized k then Some (k_eon k, k_start_batch k, (λ r, (r_keyper r, r_pk r)) <$> compute_result (k_pure k)) else None).
  assert (Hf : ∀ n b o, (n, b, o) ∈ omap f (k_dkgs s) ↔ ∃ k, k ∈ k_dkgs s ∧ is_finalized k = true ∧ n = k_eon k ∧ b = k_start_batch k ∧ o = (λ r, (r_keyper r, r_pk r)) <$> compute_result (k_pure k)).
  { intros n b o. rewrite elem_of_list_omap. split.
    - intros (k & Hk & E). exists k. unfold f in E. destruct (is_finalized k); [|done]. apply (inj Some) in E. apply pair_equal_spec in E as [E E3]. apply pair_equal_spec in E as [E1 E2]. done.
    - intros (k & Hk & E & -> & -> & ->). exists k. split; [done|]. unfold f. by rewrite E. }
  exists (omap f (k_dkgs s)). split; [|split; [|split; [|split]]].
  - clear -I3. induction (k_dkgs s) as [|k ks IH]; [constructor|]. cbn [fmap list_fmap] in I3. apply NoDup_cons in I3 as [Hno Hn]. specialize (IH Hn). cbn [omap list_omap].
    unfold f at 1. destruct (is_finalized k); [|done]. cbn [fmap list_fmap fst]. apply NoDup_cons. split; [|done]. intros Hin. apply Hno.
    apply elem_of_list_fmap in Hin as (x & E1 & Hin). apply elem_of_list_fmap in Hin as (y & E2 & Hin). apply elem_of_list_omap in Hin as (k' & Hk' & E). unfold f in E.
    destruct (is_finalized k'); [|done]. apply (inj Some) in E. subst y x. cbn in E1. rewrite E1. apply elem_of_list_fmap. by exists k'.
  - intros n b o (k & Hk & Hfin & -> & -> & ->)%Hf. destruct (I2 k Hk) as (_ & st & c & idx & x & Hat & _). split.
    + exists st. split; [apply eon_infos_elem, (da_info _ _ _ _ _ _ _ _ _ _ _ _ _ Hat)|]. rewrite <-(ru_phase _ _ _ _ _ _ _ (da_running _ _ _ _ _ _ _ _ _ _ _ _ _ Hat)).
      by apply Nat.eqb_eq.
    + destruct (compute_result (k_pure k)) as [r|] eqn:Er; cbn [fmap option_fmap option_map].
      * destruct (I11 k r Hk Hfin Er) as (g & Hg & Eg & _ & ms & Hms). exists g. split; [done|]. split; [done|]. apply handle_shares_static in Hms as (_ & _ & _ & -> & _ & -> & _). done.
      * intros g Hg Eg. destruct (I10 g Hg) as (k' & r & Hk' & _ & Er' & Eg' & _). rewrite Eg' in Eg.
        assert (k' = k) as ->; [|congruence]. clear -I3 Hk Hk' Eg. apply elem_of_list_lookup in Hk as (a & Ha). apply elem_of_list_lookup in Hk' as (b & Hb).
        assert (a = b) as ->; [|congruence]. apply (NoDup_lookup _ _ _ (k_eon k) I3); rewrite list_lookup_fmap; [by rewrite Ha|rewrite Hb; cbn; by rewrite Eg].
  - rewrite I8. assert (k_dkgs s ≫= failed = failures (omap f (k_dkgs s))) as ->; [|done]. clear. unfold failures. induction (k_dkgs s) as [|k ks IH]; [done|]. cbn [omap list_omap]. change ((?x :: ?y) ≫= ?g) with (g x ++ (y ≫= g)) at 1. rewrite IH.
    unfold failed, f at 2. destruct (is_finalized k); [|done]. change ((?x :: ?y) ≫= ?g) with (g x ++ (y ≫= g)). cbn [snd]. by destruct (compute_result (k_pure k)).
  - rewrite I9. assert (k_dkgs s ≫= succeeded = successes (omap f (k_dkgs s))) as ->; [|done]. clear. unfold successes. induction (k_dkgs s) as [|k ks IH]; [done|]. cbn [omap list_omap]. change ((?x :: ?y) ≫= ?g) with (g x ++ (y ≫= g)) at 1. rewrite IH.
    unfold succeeded, f at 2. destruct (is_finalized k); [|done]. change ((?x :: ?y) ≫= ?g) with (g x ++ (y ≫= g)). cbn [snd]. by destruct (compute_result (k_pure k)).
  - intros n st b Hn Hst Hp Hno. destruct (I7 n st b Hn) as [(k & Hk & Ek)|(a & c & Ha & Hs' & Hc & Hfi)]; [by apply eon_infos_elem| |].
    + exfalso. apply Hno. apply elem_of_list_fmap. exists (n, k_start_batch k). split; [done|]. apply elem_of_list_fmap.
      eexists (n, k_start_batch k, _). split; [done|]. apply Hf. exists k. split; [done|]. split; [|done].
      destruct (I2 k Hk) as (_ & st' & c & idx & x & Hat & _). pose proof (da_info _ _ _ _ _ _ _ _ _ _ _ _ _ Hat) as Hinfo. rewrite Ek in Hinfo.
      destruct (eon_infos_unique (Pub m) n st' (k_start_batch k) st b (Hwf m) Hinfo) as [-> Eb]; [by apply eon_infos_elem|].
      unfold is_finalized. rewrite (ru_phase _ _ _ _ _ _ _ (da_running _ _ _ _ _ _ _ _ _ _ _ _ _ Hat)), Hp. done.
    + exists a. split; [done|]. split; [by apply eon_infos_elem|]. intros c' Hc'. rewrite <-(config_unique _ _ _ _ Hc Hc'). by eapply find_none.
Qed.
End Props.

(** Decisions that do not panic: the key generations. *)
From stdpp Require Import list gmap.
From Coq Require Import ZArith NArith Lia.
From Verif Require Import Fq CryptoModel DkgModel DkgSpec DkgProofs EpochModel ObserveModel ObserveProofs SyncModel SyncProofs ArithModel MainModel DecideModel EncodingModel
  KeyperModel KeyperSpec KeyperDkgProofs KeyperStepProofs KeyperHistProofs.

Lemma each_safe {A S} (f : S → A → option S) (I : S → Prop) s l : (∀ s x, I s → x ∈ l → ∃ s', f s x = Some s' ∧ I s') → I s → ∃ s', each f s l = Some s' ∧ I s'.
Proof.
  revert s. induction l as [|x l IH]; intros s Hf Hs; cbn [each]; [by exists s|].
  destruct (Hf s x Hs ltac:(by left)) as (s1 & -> & H1). cbn [mbind option_bind]. apply IH; [|done]. intros s2 y H2 Hy. apply Hf; [done|by right].
Qed.
Lemma collect_safe {A S O} (f : S → A → option (S * list O)) (I : S → Prop) (Q : O → Prop) s l :
  (∀ s x, I s → x ∈ l → ∃ s' o, f s x = Some (s', o) ∧ I s' ∧ Forall Q o) → I s → ∃ s' o, collect f s l = Some (s', o) ∧ I s' ∧ Forall Q o.
Proof.
  revert s. induction l as [|x l IH]; intros s Hf Hs; cbn [collect]; [by exists s, []|].
  destruct (Hf s x Hs ltac:(by left)) as (s1 & o1 & -> & H1 & Q1). cbn [mbind option_bind].
  destruct (IH s1) as (s2 & o2 & -> & H2 & Q2); [|done|].
  { intros s2 y H2 Hy. apply Hf; [done|by right]. }
  cbn [mbind option_bind]. exists s2, (o1 ++ o2). split; [done|]. split; [done|]. by apply Forall_app.
Qed.
Lemma mapM_safe {A B} (f : A → option B) l : (∀ x, x ∈ l → is_Some (f x)) → ∃ l', mapM f l = Some l'.
Proof. intros H. destruct (mapM f l) eqn:E; [eauto|]. exfalso. apply mapM_None in E. apply Exists_exists in E as (x & Hx & E). apply H in Hx. rewrite E in Hx. by destruct Hx. Qed.
Lemma with_index_elem {A B} (l : list A) (m : list B) x : length l = length m → x ∈ with_index l m → is_Some x.2.
Proof.
  intros Hl Hx. unfold with_index in Hx. apply elem_of_lookup_imap in Hx as (j & y & -> & Hj). cbn. apply lookup_lt_is_Some. rewrite <-Hl. by eapply lookup_lt_Some.
Qed.
Lemma find_address_lt (l : list N) a i : find_address l a = Some i → N.to_nat i < length l.
Proof.
  unfold find_address. assert (∀ l k i, find_address_from k l a = Some i → (k ≤ i)%N ∧ N.to_nat (i - k) < length l) as G; [|intros [_ H]%G; by replace (i - 0)%N with i in H by lia].
  clear. induction l as [|x l IH]; intros k i; cbn [find_address_from]; [done|]. destruct (x =? a)%N.
  - intros [= <-]. cbn. split; lia.
  - intros H%IH. cbn. lia.
Qed.

(** ** Evaluations *)
Lemma eval_some (p : list Z) x : p ≠ [] → ∃ v, eval p x = Some v.
Proof. unfold eval. intros H. destruct (rev p) eqn:E; [|eauto]. apply (f_equal (@rev Z)) in E. rewrite rev_involutive in E. done. Qed.
Lemma eval_valid (p : list Z) x v : Forall (λ c, 0 ≤ c < order)%Z p → eval p x = Some v → valid_eval v = true.
Proof.
  unfold eval. intros HF. assert (Forall (λ c, 0 ≤ c < order)%Z (rev p)) as HF' by (apply Forall_forall; intros y Hy; rewrite Forall_forall in HF; apply HF; apply elem_of_list_In; apply elem_of_list_In, in_rev in Hy; done).
  destruct (rev p) as [|c cs]; [done|]. intros [= <-]. apply Forall_cons in HF' as [Hc _].
  assert (0 < order)%Z as Ho by lia.
  assert (∀ c, (0 ≤ c < order)%Z → (0 ≤ foldl (λ res c0 : Z, ((res * x + c0) mod order)%Z) c cs < order)%Z) as G.
  { induction cs as [|d cs IH]; intros c' Hc'; cbn [foldl]; [done|]. apply IH. by apply Z.mod_pos_bound. }
  specialize (G c Hc). unfold valid_eval. destruct (Z.ltb_spec (foldl (λ res c0 : Z, ((res * x + c0) mod order)%Z) c cs) 0); [lia|].
  destruct (Z.leb_spec order (foldl (λ res c0 : Z, ((res * x + c0) mod order)%Z) c cs)); [lia|done].
Qed.
Lemma order_pos : (0 < order)%Z. Proof. by vm_compute. Qed.
Lemma random_polynomial_some rnd (t : N) : (0 < t < 2 ^ 63)%N →
  ∃ p, random_polynomial rnd (degree_from_threshold (Z.of_N t)) = Some p ∧ p ≠ [] ∧ Forall (λ c, 0 ≤ c < order)%Z p.
Proof.
  intros Ht. unfold random_polynomial, degree_from_threshold, CryptoModel.u64. rewrite (Z.mod_small (Z.of_N t - 1)) by lia.
  rewrite (Z.mod_small (Z.of_N t - 1 + 1)) by lia. set (l := (λ i, (rnd i mod order)%Z) <$> seq 0 (Z.to_nat (Z.of_N t - 1 + 1))).
  assert (length l = Z.to_nat (Z.of_N t - 1 + 1)) as Hl by (unfold l; by rewrite fmap_length, seq_length).
  assert (Forall (λ c, 0 ≤ c < order)%Z l) as HF. { apply Forall_fmap, Forall_forall. intros i _. apply Z.mod_pos_bound, order_pos. }
  unfold new_polynomial. destruct (Nat.eqb_spec (length l) 0) as [E|_]; [lia|]. exists l.
  assert (forallb (λ v : Z, negb (v <? 0)%Z && negb (order <=? v)%Z) l = true) as ->.
  { apply forallb_forall. intros v Hv. rewrite Forall_forall in HF. specialize (HF v ltac:(by apply elem_of_list_In)).
    destruct (Z.ltb_spec v 0); [lia|]. destruct (Z.leb_spec order v); [lia|done]. }
  split; [done|]. split; [|done]. intros ->. cbn in Hl. lia.
Qed.

Section Safe.
Context {P : pairing} {K : Type}.
Context (ecies_decrypt : list N → option (list N)) (plen : phase_length).
Implicit Types (k : kdkg P) (p : dkg P) (i : kinput P K).

(** the state of a key generation among [ks] keypers *)
Record psafe (n : nat) p : Prop := {
  ps_num : N.to_nat (d_num p) = n;
  ps_commitments : length (d_commitments p) = n;
  ps_evals : length (d_evals p) = n;
  ps_keyper : N.to_nat (d_keyper p) < n;
  ps_threshold : (0 < d_threshold p < 2 ^ 63)%N;
  ps_off : d_phase p = off → d_evals p !! N.to_nat (d_keyper p) = Some None;
  ps_poly : d_phase p ≠ off → ∃ f, d_poly p = Some f ∧ f ≠ [];
  ps_accusations : ∀ key, key ∈ d_accusations p → N.to_nat key.1 < n
}.
Record dsafe k : Prop := {
  ds_pure : psafe (length (k_keypers k)) (k_pure k);
  ds_outgoing : ∀ m, m ∈ k_outgoing k → N.to_nat (em_receiver m) < length (k_keypers k)
}.
(** what stays the same *)
Definition same_eon k k' : Prop := k_eon k' = k_eon k ∧ k_keypers k' = k_keypers k.
Lemma same_eon_trans k k1 k2 : same_eon k k1 → same_eon k1 k2 → same_eon k k2.
Proof. intros [? ?] [? ?]. split; congruence. Qed.
(** the call succeeds and leaves a safe state *)
Definition step_safe (k0 k : kdkg P) (r : option (kdkg P)) : Prop := ∃ k', r = Some k' ∧ dsafe k' ∧ same_eon k0 k'.

Lemma set_pure_safe k0 k p : dsafe k → same_eon k0 k → psafe (length (k_keypers k)) p → dsafe (set_pure k p) ∧ same_eon k0 (set_pure k p).
Proof. intros [D1 D2] [S1 S2] Hp. split; [by split|by split]. Qed.
Lemma keep_going_safe k0 k o : dsafe k → same_eon k0 k → match o with Done p => psafe (length (k_keypers k)) p | Error => True | Panic => False end → step_safe k0 k (keep_going k o).
Proof.
  intros Hd Hs Ho. unfold step_safe. destruct o as [p| |]; cbn [keep_going]; [|by exists k|done]. eexists. split; [done|]. by apply set_pure_safe.
Qed.
Lemma handle_commitment_safe n p m : psafe n p → N.to_nat (cm_sender m) < n → match handle_commitment p m with Done p' => psafe n p' | Error => True | Panic => False end.
Proof.
  intros [H1 H2 H3 H4 H5 H6 H7 H8] Hm. destruct (handle_commitment p m) as [p'| |] eqn:E; [|done|].
  - apply handle_commitment_inv in E as (_ & _ & _ & _ & ->). split; cbn; try done. by rewrite insert_length.
  - unfold handle_commitment in E. destruct (negb _) in E; [done|]. destruct (d_commitments p !! _) as [[?|]|] eqn:El; [done|by destruct (negb _) in E|].
    apply lookup_ge_None in El. lia.
Qed.
Lemma handle_eval_safe n p m : psafe n p → N.to_nat (em_sender m) < n → em_sender m ≠ d_keyper p → match handle_eval p m with Done p' => psafe n p' | Error => True | Panic => False end.
Proof.
  intros [H1 H2 H3 H4 H5 H6 H7 H8] Hm Hne. destruct (handle_eval p m) as [p'| |] eqn:E; [|done|].
  - apply handle_eval_inv in E as (_ & _ & _ & _ & _ & ->). split; cbn; try done; [by rewrite insert_length|]. intros Hoff. rewrite list_lookup_insert_ne by lia. by apply H6.
  - revert E. unfold handle_eval. destruct (negb (check_eon_and_phase _ _ _)); [done|]. destruct (negb (em_receiver m =? _)%N); [done|]. destruct (d_evals p !! N.to_nat (em_sender m)) as [[?|]|] eqn:El; [done|by destruct (negb _)|].
    apply lookup_ge_None in El. lia.
Qed.
Lemma handle_accusation_safe n p m : psafe n p → N.to_nat (am_accuser m) < n → match handle_accusation p m with Done p' => psafe n p' | Error => True | Panic => False end.
Proof.
  intros [H1 H2 H3 H4 H5 H6 H7 H8] Hm. destruct (handle_accusation p m) as [p'| |] eqn:E; [|done|].
  - apply handle_accusation_inv in E as (_ & _ & ->). split; cbn; try done. intros key [->%elem_of_singleton|Hk]%elem_of_union; [done|by apply H8].
  - unfold handle_accusation in E. destruct (negb _) in E; [done|]. by destruct (bool_decide _) in E.
Qed.
Lemma handle_apology_safe n p m : psafe n p → match handle_apology p m with Done p' => psafe n p' | Error => True | Panic => False end.
Proof.
  intros [H1 H2 H3 H4 H5 H6 H7 H8]. destruct (handle_apology p m) as [p'| |] eqn:E; [|done|].
  - apply handle_apology_inv in E as (_ & _ & _ & ->). by split.
  - unfold handle_apology in E. destruct (negb _) in E; [done|]. destruct (bool_decide _) in E; [done|]. by destruct (negb _) in E.
Qed.

(** ** Events; the shape of what is published *)
Definition shaped (kd : kind) (e : eon_event (body P)) : Prop :=
  match kd, ev_body e with
  | PolyEval, BPolyEval _ rs es => length rs = length es
  | Commitment, BCommitment _ _ => True
  | Accusation, BAccusation _ _ => True
  | Apology, BApology _ rs vs => length rs = length vs
  | KeyShare, BKeyShare _ _ _ => True
  | _, _ => False
  end.
Lemma sync_commitment_safe k0 start k e : shaped Commitment e → dsafe k → same_eon k0 k → step_safe k0 k (sync_commitment start k e).
Proof.
  unfold shaped, sync_commitment. destruct (ev_body e) as [sender gs| | | |]; try done. intros _ Hd Hs. destruct (negb _); [by exists k|].
  destruct (find_address _ _) as [j|] eqn:Ef; [|by exists k]. apply keep_going_safe; [done|done|]. apply handle_commitment_safe; [apply Hd|]. cbn. by eapply find_address_lt.
Qed.
Lemma sync_poly_eval_safe k0 start k e : shaped PolyEval e → dsafe k → same_eon k0 k → step_safe k0 k (sync_poly_eval ecies_decrypt start k e).
Proof.
  unfold shaped, sync_poly_eval. destruct (ev_body e) as [|sender rs es| | |]; try done. intros Hl Hd Hs. destruct (negb _); [by exists k|].
  destruct (find_address _ _) as [j|] eqn:Ef; [|by exists k]. destruct (N.eqb_spec j (d_keyper (k_pure k))) as [_|Hne]; [by exists k|].
  apply find_address_lt in Ef.
  destruct (each_safe (sync_poly_eval_to ecies_decrypt e j) (λ k', dsafe k' ∧ same_eon k0 k' ∧ d_keyper (k_pure k') = d_keyper (k_pure k)) k (with_index rs es)) as (k' & E & H1 & H2 & _); [|done|by exists k'].
  intros k1 r (H1 & H2 & H3) Hr. apply with_index_elem in Hr; [|done]. destruct Hr as [b Hb]. unfold sync_poly_eval_to. destruct (find_address _ r.1) as [j'|]; [|by exists k1].
  destruct (negb _); [by exists k1|]. rewrite Hb. cbn [mbind option_bind]. destruct (ecies_decrypt b) as [b'|]; [|by exists k1].
  set (m := mkEvalMsg _ _ _ _). pose proof (handle_eval_safe _ _ m (ds_pure _ H1)) as Hh. cbn in Hh.
  assert (length (k_keypers k1) = length (k_keypers k)) as El by (destruct H2 as [_ ->]; destruct Hs as [_ ->]; done). rewrite El in Hh. specialize (Hh Ef ltac:(congruence)).
  destruct (handle_eval (k_pure k1) m) as [p'| |] eqn:E; [|by exists k1|done]. cbn [keep_going]. eexists. split; [done|].
  apply handle_eval_inv in E as (_ & _ & _ & _ & _ & ->). rewrite <-El in Hh. destruct (set_pure_safe k0 k1 _ H1 H2 Hh) as [? ?]. done.
Qed.
Lemma sync_accusation_safe k0 start k e : shaped Accusation e → dsafe k → same_eon k0 k → step_safe k0 k (sync_accusation start k e).
Proof.
  unfold shaped, sync_accusation. destruct (ev_body e) as [| |sender accused| |]; try done. intros _ Hd Hs. destruct (negb _); [by exists k|].
  destruct (find_address _ _) as [j|] eqn:Ef; [|by exists k]. apply find_address_lt in Ef.
  destruct (each_safe (sync_accusation_of j) (λ k', dsafe k' ∧ same_eon k0 k') k accused) as (k' & E & H1 & H2); [|done|by exists k'].
  intros k1 r (H1 & H2) _. unfold sync_accusation_of. destruct (find_address _ r) as [j'|]; [|by exists k1].
  assert (length (k_keypers k1) = length (k_keypers k)) as El by (destruct H2 as [_ ->]; destruct Hs as [_ ->]; done).
  destruct (keep_going_safe k0 k1 (handle_accusation (k_pure k1) (mkAccusationMsg (k_eon k1) j j')) H1 H2) as (k2 & ? & ? & ?); [|by exists k2].
  apply handle_accusation_safe; [apply H1|]. cbn. lia.
Qed.
Lemma sync_apology_safe k0 start k e : shaped Apology e → dsafe k → same_eon k0 k → step_safe k0 k (sync_apology start k e).
Proof.
  unfold shaped, sync_apology. destruct (ev_body e) as [| | |sender rs vs|]; try done. intros Hl Hd Hs. destruct (negb _); [by exists k|].
  destruct (find_address _ _) as [j|] eqn:Ef; [|by exists k].
  destruct (each_safe (sync_apology_to j) (λ k', dsafe k' ∧ same_eon k0 k') k (with_index rs vs)) as (k' & E & H1 & H2); [|done|by exists k'].
  intros k1 r (H1 & H2) Hr. apply with_index_elem in Hr; [|done]. destruct Hr as [v Hv]. unfold sync_apology_to. destruct (find_address _ r.1) as [j'|]; [|by exists k1].
  rewrite Hv. cbn [mbind option_bind].
  destruct (keep_going_safe k0 k1 (handle_apology (k_pure k1) (mkApologyMsg (k_eon k1) j' j v)) H1 H2) as (k2 & ? & ? & ?); [|by exists k2].
  apply handle_apology_safe. apply H1.
Qed.
Lemma events_safe k0 (f : kdkg P → eon_event (body P) → option (kdkg P)) kd l k : (∀ k e, shaped kd e → dsafe k → same_eon k0 k → step_safe k0 k (f k e)) →
  (∀ e, e ∈ l → shaped kd e) → dsafe k → same_eon k0 k → step_safe k0 k (each f k l).
Proof.
  intros Hf Hl Hd Hs. destruct (each_safe f (λ k', dsafe k' ∧ same_eon k0 k') k l) as (k' & E & H1 & H2); [|done|by exists k'].
  intros k1 e [H1 H2] He. destruct (Hf k1 e (Hl e He) H1 H2) as (k2 & ? & ? & ?). by exists k2.
Qed.
(** ** Phases *)
Lemma deal_evals_safe n p f l : psafe n p → d_phase p = dealing → f ≠ [] → Forall (λ c, 0 ≤ c < order)%Z f →
  NoDup l → (N.to_nat (d_keyper p) ∈ l → d_evals p !! N.to_nat (d_keyper p) = Some None) → (∀ r, r ∈ l → r < n) →
  ∃ p' ms, deal_evals p f l = Some (p', ms) ∧ ∀ m, m ∈ ms → N.to_nat (em_receiver m) < n.
Proof.
  revert p. induction l as [|r l IH]; intros p Hp Hph Hf HF Hnd Hown Hlt; cbn [deal_evals]; [exists p, []; split; [done|by intros m ?%elem_of_nil]|].
  apply NoDup_cons in Hnd as [Hr Hnd]. destruct (eval_some f (keyper_x (int_of (N.of_nat r))) Hf) as [v Hv]. unfold eval_for_keyper. rewrite Hv.
  assert (valid_eval v = true) as Hval by (by eapply eval_valid).
  destruct (N.eqb_spec (N.of_nat r) (d_keyper p)) as [Er|Er].
  - assert (N.to_nat (d_keyper p) = r) as Er' by lia.
    assert (∃ p1, handle_eval p (mkEvalMsg (d_eon p) (d_keyper p) (N.of_nat r) v) = Done p1) as [p1 E1].
    { unfold handle_eval, check_eon_and_phase. cbn [em_eon em_receiver em_sender em_eval]. rewrite N.eqb_refl, Hph, Er, N.eqb_refl, Hval. cbn [negb andb].
      rewrite Hown by (rewrite Er'; by left). by eexists. }
    rewrite E1. apply handle_eval_inv in E1 as (_ & _ & _ & _ & _ & ->). cbn [em_sender em_eval].
    apply IH; try done.
    + destruct Hp as [H1 H2 H3 H4 H5 H6 H7 H8]. split; cbn; try done; [by rewrite insert_length|]. by rewrite Hph.
    + cbn. rewrite Er'. done.
    + intros r' Hr'. apply Hlt. by right.
  - destruct (IH p) as (p' & ms & E & Hms); try done.
    + intros H. apply Hown. by right.
    + intros r' Hr'. apply Hlt. by right.
    + rewrite E. eexists _, _. split; [done|]. intros m [->|Hm]%elem_of_cons; [|by apply Hms]. cbn. rewrite Nat2N.id. apply Hlt. by left.
Qed.
Lemma start_dealing_safe k0 i k next : dsafe k → same_eon k0 k → d_phase (k_pure k) = off → ∃ k' a, start_dealing i k next = Some (k', a) ∧ dsafe k' ∧ same_eon k0 k'.
Proof.
  intros Hd Hs Hoff. pose proof (ds_pure _ Hd) as Hp. unfold start_dealing, start_phase1, set_phase. rewrite Hoff. cbn [negb Nat.eqb dealing off Nat.add].
  destruct (random_polynomial_some (in_rnd i (k_eon k)) (d_threshold (k_pure k)) (ps_threshold _ _ Hp)) as (f & Ef & Hf & HF). cbn [d_threshold set_phase_to]. rewrite Ef.
  set (p2 := set_poly _ f). assert (psafe (length (k_keypers k)) p2) as Hp2.
  { destruct Hp as [H1 H2 H3 H4 H5 H6 H7 H8]. split; cbn; try done. intros _. by exists f. }
  destruct (deal_evals_safe _ p2 f (seq 0 (N.to_nat (d_num p2))) Hp2) as (p3 & ms & E & Hms); try done.
  { apply NoDup_ListNoDup, seq_NoDup. }
  { intros _. by apply (ps_off _ _ Hp). }
  { intros r Hr%elem_of_seq. rewrite (ps_num _ _ Hp2) in Hr. lia. }
  rewrite E. cbn [mbind option_bind].
  assert (psafe (length (k_keypers k)) p3) as Hp3.
  { apply deal_evals_inv in E as ((Q1 & Q2 & Q3 & Q4 & Q5 & Q6 & Q7) & E2 & E3 & E4 & _). destruct Hp2 as [H1 H2 H3 H4 H5 H6 H7 H8]. split.
    - congruence.
    - congruence.
    - congruence.
    - by rewrite E2.
    - by rewrite <-Q4.
    - rewrite <-Q1. by cbn.
    - rewrite E3. intros _. by exists f.
    - rewrite <-Q6. done. }
  destruct Hs as [S1 S2]. destruct (negb _); eexists _, _; (split; [done|]); (split; [|done]); split; try done. by apply Hd.
Qed.
Lemma start_accusing_safe k0 k next : dsafe k → same_eon k0 k → d_phase (k_pure k) = dealing → ∃ k' a, start_accusing k next = Some (k', a) ∧ dsafe k' ∧ same_eon k0 k'.
Proof.
  intros Hd Hs Hph. pose proof (ds_pure _ Hd) as Hp. unfold start_accusing, start_phase2, set_phase. rewrite Hph. cbn [negb Nat.eqb dealing accusing Nat.add mbind option_bind].
  assert (psafe (length (k_keypers k)) (set_phase_to (k_pure k) accusing)) as Hp'.
  { destruct Hp as [H1 H2 H3 H4 H5 H6 H7 H8]. split; cbn; try done. intros _. apply H7. by rewrite Hph. }
  destruct (set_pure_safe k0 k _ Hd Hs Hp') as [Hd' Hs'].
  destruct (negb _); [by eexists _, _|]. destruct (_ <$> _) as [|a l] eqn:El; [by eexists _, _|]. rewrite <-El.
  destruct (mapM_safe (λ a, k_keypers k !! N.to_nat (am_accused a)) ((λ dealer : nat, mkAccusationMsg (d_eon (set_phase_to (k_pure k) accusing)) (d_keyper (set_phase_to (k_pure k) accusing)) (N.of_nat dealer)) <$>
      List.filter (accuse (set_phase_to (k_pure k) accusing)) (seq 0 (N.to_nat (d_num (set_phase_to (k_pure k) accusing)))))) as [l' ->]; [|by eexists _, _].
  intros x (d & -> & Hin)%elem_of_list_fmap. apply elem_of_list_In, filter_In in Hin as [Hin _]. apply in_seq in Hin. cbn in Hin |- *. rewrite Nat2N.id. apply lookup_lt_is_Some.
  rewrite (ps_num _ _ Hp) in Hin. lia.
Qed.
Lemma start_apologizing_safe k0 k next : dsafe k → same_eon k0 k → d_phase (k_pure k) = accusing → ∃ k' a, start_apologizing k next = Some (k', a) ∧ dsafe k' ∧ same_eon k0 k'.
Proof.
  intros Hd Hs Hph. pose proof (ds_pure _ Hd) as Hp. unfold start_apologizing, start_phase3, set_phase. rewrite Hph. cbn [negb Nat.eqb apologizing accusing Nat.add].
  assert (psafe (length (k_keypers k)) (set_phase_to (k_pure k) apologizing)) as Hp'.
  { destruct Hp as [H1 H2 H3 H4 H5 H6 H7 H8]. split; cbn; try done. intros _. apply H7. by rewrite Hph. }
  destruct (set_pure_safe k0 k _ Hd Hs Hp') as [Hd' Hs']. set (p1 := set_phase_to _ _) in *.
  set (keys := List.filter _ _). assert (∀ key, key ∈ keys → N.to_nat key.1 < length (k_keypers k)) as Hkeys.
  { intros key Hk. apply elem_of_list_In, filter_In in Hk as [Hk _]. apply elem_of_list_In, elem_of_elements in Hk. by apply (ps_accusations _ _ Hp'). }
  destruct (ps_poly _ _ Hp' ltac:(done)) as (f & Ef & Hf).
  assert (∀ key, ∃ v, apologize p1 key = Some (mkApologyMsg (d_eon p1) key.1 key.2 v)) as Hap.
  { intros key. unfold apologize. rewrite Ef. destruct (eval_some f (keyper_x (int_of key.1)) Hf) as [v Hv]. unfold eval_for_keyper. rewrite Hv. eauto. }
  destruct (mapM_safe (apologize p1) keys) as [ms Hms]. { intros key _. destruct (Hap key) as [v ->]. eauto. }
  rewrite Hms. cbn [mbind option_bind]. destruct (negb _); [by eexists _, _|]. destruct ms as [|x ms]; [by eexists _, _|].
  destruct (mapM_safe (λ a, k_keypers k !! N.to_nat (pm_accuser a)) (x :: ms)) as [l' ->]; [|by eexists _, _].
  intros a Ha. apply mapM_Some in Hms. apply elem_of_list_lookup in Ha as [j Hj].
  destruct (Forall2_lookup_r _ _ _ _ _ Hms Hj) as (key & Hkey & E). destruct (Hap key) as [v Hv]. rewrite Hv in E. injection E as <-. cbn.
  apply lookup_lt_is_Some. apply Hkeys. by eapply elem_of_list_lookup_2.
Qed.
(** a new epoch key generation *)
Definition esafe (g : kekg P) : Prop := length (ek_pkshares (g_epochkg g)) = length (g_keypers g).
Lemma dkg_finalize_safe k0 k : dsafe k → same_eon k0 k → d_phase (k_pure k) = apologizing →
  ∃ k' og a, dkg_finalize k = Some (k', og, a) ∧ dsafe k' ∧ same_eon k0 k' ∧ ∀ g, og = Some g → esafe g ∧ g_eon g = k_eon k0.
Proof.
  intros Hd Hs Hph. pose proof (ds_pure _ Hd) as Hp. unfold dkg_finalize, finalize, set_phase. rewrite Hph. cbn [negb Nat.eqb apologizing finalized Nat.add mbind option_bind].
  assert (psafe (length (k_keypers k)) (set_phase_to (k_pure k) 4)) as Hp'.
  { destruct Hp as [H1 H2 H3 H4 H5 H6 H7 H8]. split; cbn; try done. intros _. apply H7. by rewrite Hph. }
  destruct (set_pure_safe k0 k _ Hd Hs Hp') as [Hd' Hs']. destruct (compute_result _) as [r|] eqn:Er; eexists _, _, _; (split; [done|]); (split; [done|]); (split; [done|]); [|done].
  intros g [= <-]. split; [|cbn; by destruct Hs as [-> _]]. unfold esafe. cbn. unfold compute_result in Er. destruct (Nat.ltb _ _) in Er; [done|]. destruct (mapM _ _) as [cs|] in Er; [|done]. cbv zeta in Er.
  destruct (_ <? _)%N in Er; [done|]. injection Er as <-. cbn. rewrite fmap_length, seq_length. apply (ps_num _ _ Hp).
Qed.
Lemma sync_dkg_safe i k e : dsafe k → (∀ kd x, x ∈ get_events kd e (in_height i) → shaped kd x) →
  ∃ k' og a, sync_dkg ecies_decrypt plen i k e = Some (k', og, a) ∧ dsafe k' ∧ same_eon k k' ∧ ∀ g, og = Some g → esafe g ∧ g_eon g = k_eon k.
Proof.
  intros Hd Hev. unfold sync_dkg. set (next := phase_at _ _ _).
  assert (same_eon k k) as Hs by done.
  assert (∃ k1 a1, (if (d_phase (k_pure k) =? off) && (dealing <=? next) then start_dealing i k next else Some (k, [])) = Some (k1, a1) ∧ dsafe k1 ∧ same_eon k k1) as (k1 & a1 & -> & D1 & S1).
  { destruct (_ && _) eqn:E; [|by eexists _, _]. apply andb_true_iff in E as [E _]. apply Nat.eqb_eq in E. by apply start_dealing_safe. }
  cbn [mbind option_bind].
  destruct (events_safe k (sync_commitment (start_height e)) Commitment (get_events Commitment e (in_height i)) k1) as (k2 & -> & D2 & S2); [intros; by apply sync_commitment_safe|apply Hev|done|done|]. cbn [mbind option_bind].
  destruct (events_safe k (sync_poly_eval ecies_decrypt (start_height e)) PolyEval (get_events PolyEval e (in_height i)) k2) as (k3 & -> & D3 & S3); [intros; by apply sync_poly_eval_safe|apply Hev|done|done|]. cbn [mbind option_bind].
  assert (∃ k4 a2, (if (d_phase (k_pure k3) =? dealing) && (accusing <=? next) then start_accusing k3 next else Some (k3, [])) = Some (k4, a2) ∧ dsafe k4 ∧ same_eon k k4) as (k4 & a2 & -> & D4 & S4).
  { destruct (_ && _) eqn:E; [|by eexists _, _]. apply andb_true_iff in E as [E _]. apply Nat.eqb_eq in E. by apply start_accusing_safe. }
  cbn [mbind option_bind].
  destruct (events_safe k (sync_accusation (start_height e)) Accusation (get_events Accusation e (in_height i)) k4) as (k5 & -> & D5 & S5); [intros; by apply sync_accusation_safe|apply Hev|done|done|]. cbn [mbind option_bind].
  assert (∃ k6 a3, (if (d_phase (k_pure k5) =? accusing) && (apologizing <=? next) then start_apologizing k5 next else Some (k5, [])) = Some (k6, a3) ∧ dsafe k6 ∧ same_eon k k6) as (k6 & a3 & -> & D6 & S6).
  { destruct (_ && _) eqn:E; [|by eexists _, _]. apply andb_true_iff in E as [E _]. apply Nat.eqb_eq in E. by apply start_apologizing_safe. }
  cbn [mbind option_bind].
  destruct (events_safe k (sync_apology (start_height e)) Apology (get_events Apology e (in_height i)) k6) as (k7 & -> & D7 & S7); [intros; by apply sync_apology_safe|apply Hev|done|done|]. cbn [mbind option_bind].
  assert (∃ k8 og a4, (if (d_phase (k_pure k7) =? apologizing) && (finalized <=? next) then dkg_finalize k7 else Some (k7, None, [])) = Some (k8, og, a4) ∧ dsafe k8 ∧ same_eon k k8 ∧
    ∀ g, og = Some g → esafe g ∧ g_eon g = k_eon k) as (k8 & og & a4 & -> & D8 & S8 & G8).
  { destruct (_ && _) eqn:E; [|by eexists _, _, _]. apply andb_true_iff in E as [E _]. apply Nat.eqb_eq in E. by apply dkg_finalize_safe. }
  cbn [mbind option_bind]. by eexists _, _, _.
Qed.
Lemma send_poly_evals_safe i k : dsafe k → ∃ k' a, send_poly_evals i k = Some (k', a) ∧ dsafe k' ∧ same_eon k k'.
Proof.
  intros Hd. unfold send_poly_evals. destruct (k_outgoing k) as [|m0 out] eqn:Eo; [by eexists _, _|]. rewrite <-Eo. destruct (_ <? _); [eexists _, _; split; [done|]; split; [|done]; split; [apply Hd|by intros m ?%elem_of_nil]|].
  destruct (mapM_safe (λ m, a ← k_keypers k !! N.to_nat (em_receiver m); Some (m, (a : N), enc_keys (in_shutter i) !! a)) (k_outgoing k)) as [l El].
  { intros m Hm. apply (ds_outgoing _ Hd), lookup_lt_is_Some in Hm as [a ->]. cbn. eauto. }
  rewrite El. cbn [mbind option_bind]. cbv zeta. destruct (omap _ l) as [|r ready]; [by eexists _, _|]. eexists _, _. split; [done|]. split; [|done]. split; [apply Hd|].
  cbn [k_outgoing set_outgoing k_keypers]. intros m Hm. apply elem_of_list_omap in Hm as ([[m' a] [key|]] & Hin & E); [done|]. injection E as ->.
  apply (ds_outgoing _ Hd). apply mapM_Some in El. apply elem_of_list_lookup in Hin as [j Hj]. destruct (Forall2_lookup_r _ _ _ _ _ El Hj) as (m' & Hm' & E).
  apply bind_Some in E as (a' & _ & [= -> _ _]). by eapply elem_of_list_lookup_2.
Qed.
Lemma handle_dkgs_safe i ks : Forall dsafe ks → (∀ k, k ∈ ks → ∃ e, find_eon (in_shutter i) (k_eon k) = Some e ∧ ∀ kd x, x ∈ get_events kd e (in_height i) → shaped kd x) →
  ∃ ks' gs acts, handle_dkgs ecies_decrypt plen i ks = Some (ks', gs, acts) ∧ Forall dsafe ks' ∧ k_eon <$> ks' = k_eon <$> ks ∧
    Forall (λ g, esafe g ∧ g_eon g ∈ k_eon <$> ks) gs.
Proof.
  induction 1 as [|k ks Hk HF IH]; intros Hfind; cbn [handle_dkgs]; [by exists [], [], []|].
  destruct IH as (ks' & gs & acts & E & I1 & I2 & I3). { intros k' Hk'. apply Hfind. by right. }
  assert (Forall (λ g, esafe g ∧ g_eon g ∈ k_eon <$> (k :: ks)) gs) as I3'.
  { eapply Forall_impl; [exact I3|]. cbn. intros g [? ?]. split; [done|]. by right. }
  destruct (is_finalized k).
  - rewrite E. cbn [mbind option_bind]. eexists _, _, _. split; [done|]. split; [by constructor|]. split; [cbn; by rewrite I2|done].
  - destruct (Hfind k ltac:(by left)) as (e & -> & Hev). cbn [mbind option_bind].
    destruct (sync_dkg_safe i k e Hk Hev) as (k1 & og & a1 & -> & D1 & [S1 _] & G1). cbn [mbind option_bind].
    destruct (send_poly_evals_safe i k1 D1) as (k2 & a2 & -> & D2 & [S2 _]). cbn [mbind option_bind]. rewrite E. cbn [mbind option_bind].
    eexists _, _, _. split; [done|]. split; [by constructor|]. split; [cbn; by rewrite I2, S2, S1|].
    apply Forall_app. split; [|done]. destruct og as [g|]; cbn; [|done]. constructor; [|done]. destruct (G1 g eq_refl) as [? ->]. split; [done|]. by left.
Qed.
End Safe.

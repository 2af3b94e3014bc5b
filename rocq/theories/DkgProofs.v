(** Proofs about the distributed key generation. *)
From stdpp Require Import list gmap sets.
From Coq Require Import ZArith NArith Lia.
From Verif Require Import Pocklington Fq Poly CryptoModel CryptoSpec CryptoProofs PropsCrypto DkgModel DkgSpec.

Section Proofs.
Context {P : pairing}.
Implicit Types s : dkg P.
Implicit Types cs : list (call P).

(** * Single calls *)
(** the fields everybody sees *)
Definition same_public s1 s2 : Prop :=
  d_phase s1 = d_phase s2 ∧ d_eon s1 = d_eon s2 ∧ d_num s1 = d_num s2 ∧ d_threshold s1 = d_threshold s2 ∧
  d_commitments s1 = d_commitments s2 ∧ d_accusations s1 = d_accusations s2 ∧ d_apologies s1 = d_apologies s2.
Lemma same_public_refl s : same_public s s. Proof. by repeat split. Qed.
Lemma same_public_sym s1 s2 : same_public s1 s2 → same_public s2 s1.
Proof. intros (?&?&?&?&?&?&?). by repeat split. Qed.
Lemma same_public_trans s1 s2 s3 : same_public s1 s2 → same_public s2 s3 → same_public s1 s3.
Proof. intros (?&?&?&?&?&?&?) (?&?&?&?&?&?&?). repeat split; congruence. Qed.

Lemma set_phase_inv s p s' : set_phase s p = Some s' → p = S (d_phase s) ∧ s' = set_phase_to s p.
Proof.
  unfold set_phase. destruct (Nat.eqb_spec p (d_phase s + 1)) as [->|]; cbn; [|done]. intros [= <-]. split; [lia|done].
Qed.

Lemma handle_eval_inv s m s' : handle_eval s m = Done s' →
  em_eon m = d_eon s ∧ d_phase s ≤ dealing ∧ em_receiver m = d_keyper s ∧ d_evals s !! N.to_nat (em_sender m) = Some None ∧
  valid_eval (em_eval m) = true ∧ s' = set_evals s (<[N.to_nat (em_sender m) := Some (em_eval m)]> (d_evals s)).
Proof.
  unfold handle_eval, check_eon_and_phase. destruct (N.eqb_spec (d_eon s) (em_eon m)); cbn [negb andb]; [|done].
  destruct (Nat.ltb_spec dealing (d_phase s)); cbn [negb andb]; [done|].
  destruct (N.eqb_spec (em_receiver m) (d_keyper s)); cbn [negb andb]; [|done].
  destruct (d_evals s !! _) as [[?|]|] eqn:E; try done. destruct (valid_eval (em_eval m)) eqn:Ev; cbn [negb andb]; [|done].
  intros [= <-]. done.
Qed.
Lemma handle_commitment_inv s m s' : handle_commitment s m = Done s' →
  cm_eon m = d_eon s ∧ d_phase s ≤ dealing ∧ d_commitments s !! N.to_nat (cm_sender m) = Some None ∧
  degree (cm_gammas m) = degree_from_threshold (Z.of_N (d_threshold s)) ∧
  s' = set_commitments s (<[N.to_nat (cm_sender m) := Some (cm_gammas m)]> (d_commitments s)).
Proof.
  unfold handle_commitment, check_eon_and_phase. destruct (N.eqb_spec (d_eon s) (cm_eon m)); cbn [negb andb]; [|done].
  destruct (Nat.ltb_spec dealing (d_phase s)); cbn [negb andb]; [done|].
  destruct (d_commitments s !! _) as [[?|]|] eqn:E; try done.
  destruct (Z.eqb_spec (degree (cm_gammas m)) (degree_from_threshold (Z.of_N (d_threshold s)))); cbn [negb andb]; [|done].
  intros [= <-]. done.
Qed.
Lemma handle_accusation_inv s m s' : handle_accusation s m = Done s' →
  am_eon m = d_eon s ∧ d_phase s ≤ accusing ∧ s' = set_accusations s ({[ (am_accuser m, am_accused m) ]} ∪ d_accusations s).
Proof.
  unfold handle_accusation, check_eon_and_phase. destruct (N.eqb_spec (d_eon s) (am_eon m)); cbn [negb andb]; [|done].
  destruct (Nat.ltb_spec accusing (d_phase s)); cbn [negb andb]; [done|]. case_bool_decide; [done|]. intros [= <-]. done.
Qed.
Lemma handle_apology_inv s m s' : handle_apology s m = Done s' →
  pm_eon m = d_eon s ∧ d_phase s ≤ apologizing ∧ d_apologies s !! (pm_accuser m, pm_accused m) = None ∧
  s' = set_apologies s (<[(pm_accuser m, pm_accused m) := pm_eval m]> (d_apologies s)).
Proof.
  unfold handle_apology, check_eon_and_phase. destruct (N.eqb_spec (d_eon s) (pm_eon m)); cbn [negb andb]; [|done].
  destruct (Nat.ltb_spec apologizing (d_phase s)); cbn [negb andb]; [done|]. case_bool_decide as E; [done|].
  destruct (valid_eval (pm_eval m)) eqn:Ev; cbn [negb andb]; [|done]. intros [= <-]. repeat split; try done.
  by destruct (d_apologies s !! _) eqn:E'; [exfalso; eauto|].
Qed.

(** what [deal_evals] does to the state *)
Lemma deal_evals_inv s p l s' ms : deal_evals s p l = Some (s', ms) →
  same_public s s' ∧ d_keyper s' = d_keyper s ∧ d_poly s' = d_poly s ∧ length (d_evals s') = length (d_evals s) ∧
  (∀ i v, d_evals s !! i = Some (Some v) → d_evals s' !! i = Some (Some v)) ∧
  (N.to_nat (d_keyper s) ∈ l → ∃ v, eval_for_keyper p (int_of (d_keyper s)) = Some v ∧ d_evals s' !! N.to_nat (d_keyper s) = Some (Some v)).
Proof.
  revert s s' ms. induction l as [|r l IH]; intros s s' ms; cbn [deal_evals].
  - intros [= <- <-]. split; [apply same_public_refl|]. repeat split; try done. intros H. by apply elem_of_nil in H.
  - destruct (eval_for_keyper p (int_of (N.of_nat r))) as [v|] eqn:Ev; [|done].
    destruct (N.eqb_spec (N.of_nat r) (d_keyper s)) as [Er|Er].
    + destruct (handle_eval s _) as [s1| |] eqn:E1; try done. apply handle_eval_inv in E1 as (_ & _ & _ & Hn & Hv & ->). cbn in *.
      intros H. apply IH in H as (H1 & H2 & H3 & H4 & H5 & H6). cbn in *. rewrite insert_length in H4.
      assert (Hk : d_evals s' !! N.to_nat (d_keyper s) = Some (Some v)).
      { apply H5. apply list_lookup_insert. by apply lookup_lt_Some in Hn. }
      split; [|repeat split; try done].
      * eapply same_public_trans; [|exact H1]. by repeat split.
      * intros i w Hi. apply H5. destruct (decide (i = N.to_nat (d_keyper s))) as [->|Hne]; [congruence|].
        by rewrite list_lookup_insert_ne.
      * intros _. exists v. rewrite <-Er at 1. done.
    + destruct (deal_evals s p l) as [[s1 ms1]|] eqn:E1; [|done]. intros [= <- <-].
      apply IH in E1 as (H1 & H2 & H3 & H4 & H5 & H6). repeat (split; [done|]).
      intros [Hr|Hr]%elem_of_cons; [exfalso; apply Er; lia|]. by apply H6.
Qed.

(** [start_phase1] *)
Lemma start_phase1_inv s rnd s' om : start_phase1 s rnd = Some (s', om) →
  d_phase s = off ∧ same_public (set_phase_to s dealing) s' ∧ d_keyper s' = d_keyper s ∧ length (d_evals s') = length (d_evals s) ∧
  (∀ i v, d_evals s !! i = Some (Some v) → d_evals s' !! i = Some (Some v)) ∧
  (∀ m ms, om = Some (m, ms) → ∃ p, random_polynomial rnd (degree_from_threshold (Z.of_N (d_threshold s))) = Some p ∧
    d_poly s' = Some p ∧ m = mkCommitmentMsg (d_eon s) (d_keyper s) (gammas P p) ∧
    ((d_keyper s < d_num s)%N → ∃ v, eval_for_keyper p (int_of (d_keyper s)) = Some v ∧ d_evals s' !! N.to_nat (d_keyper s) = Some (Some v))).
Proof.
  unfold start_phase1. destruct (set_phase s dealing) as [s1|] eqn:E1; [|done]. apply set_phase_inv in E1 as [Hp ->].
  assert (d_phase s = off) as Hoff by (unfold dealing, off in *; lia). cbn [d_threshold set_phase_to].
  destruct (random_polynomial _ _) as [p|] eqn:Er.
  - destruct (deal_evals _ _ _) as [[s3 ms]|] eqn:Ed; [|done]. intros [= <- <-].
    apply deal_evals_inv in Ed as (H1 & H2 & H3 & H4 & H5 & H6). cbn in H1, H2, H3, H4, H5, H6.
    split; [done|]. split; [eapply same_public_trans; [|exact H1]; by repeat split|]. repeat (split; [done|]).
    intros m ms' [= <- <-]. exists p. repeat (split; [done|]). intros Hk. apply H6.
    apply elem_of_list_In, in_seq. lia.
  - intros [= <- <-]. split; [done|]. split; [by repeat split|]. repeat (split; [done|]). done.
Qed.
Lemma start_phase2_inv s s' ms : start_phase2 s = Some (s', ms) → d_phase s = dealing ∧ s' = set_phase_to s accusing ∧
  ms = (λ dealer, mkAccusationMsg (d_eon s') (d_keyper s') (N.of_nat dealer)) <$> List.filter (accuse s') (seq 0 (N.to_nat (d_num s'))).
Proof.
  unfold start_phase2. destruct (set_phase s accusing) as [s1|] eqn:E1; [|done]. apply set_phase_inv in E1 as [Hp ->].
  intros [= <- <-]. split; [unfold accusing, dealing in *; lia|]. done.
Qed.
Lemma start_phase3_inv s s' ms : start_phase3 s = Some (s', ms) → d_phase s = accusing ∧ s' = set_phase_to s apologizing ∧
  mapM (apologize s') (List.filter (λ key, key.2 =? d_keyper s')%N (elements (d_accusations s'))) = Some ms.
Proof.
  unfold start_phase3. destruct (set_phase s apologizing) as [s1|] eqn:E1; [|done]. apply set_phase_inv in E1 as [Hp ->].
  destruct (mapM _ _) as [ms'|] eqn:Em; [|done]. intros [= <- <-]. split; [unfold accusing, apologizing in *; lia|]. done.
Qed.

(** * Effect of a call on the state *)
Lemma do_call_frame s c s' : do_call s c = Some s' →
  d_eon s' = d_eon s ∧ d_num s' = d_num s ∧ d_threshold s' = d_threshold s ∧ d_keyper s' = d_keyper s ∧
  d_phase s ≤ d_phase s' ∧ length (d_commitments s') = length (d_commitments s) ∧ length (d_evals s') = length (d_evals s) ∧
  (off < d_phase s → d_poly s' = d_poly s) ∧
  (∀ i v, d_evals s !! i = Some (Some v) → d_evals s' !! i = Some (Some v)) ∧
  (∀ i v, d_commitments s !! i = Some (Some v) → d_commitments s' !! i = Some (Some v)) ∧
  (∀ k v, d_apologies s !! k = Some v → d_apologies s' !! k = Some v) ∧
  d_accusations s ⊆ d_accusations s' ∧
  (dealing < d_phase s → d_commitments s' = d_commitments s ∧ d_evals s' = d_evals s) ∧
  (accusing < d_phase s → d_accusations s' = d_accusations s).
Proof.
  destruct c as [rnd| | | |m|m|m|m]; cbn [do_call].
  - destruct (start_phase1 s rnd) as [[s1 om]|] eqn:E; [|done]. intros [= <-].
    apply start_phase1_inv in E as (Hp & (H1 & H2 & H3 & H4 & H5 & H6 & H7) & Hk & Hl & Hev & _). cbn in *.
    rewrite <-H1, <-H2, <-H3, <-H4, <-H5, <-H6, <-H7. unfold off, dealing, accusing in *.
    repeat split; try done; try lia.
  - destruct (start_phase2 s) as [[s1 om]|] eqn:E; [|done]. intros [= <-]. apply start_phase2_inv in E as (Hp & -> & _). cbn.
    unfold off, dealing, accusing in *. repeat split; try done; lia.
  - destruct (start_phase3 s) as [[s1 om]|] eqn:E; [|done]. intros [= <-]. apply start_phase3_inv in E as (Hp & -> & _). cbn.
    unfold off, dealing, accusing, apologizing in *. repeat split; try done; lia.
  - unfold finalize. intros E. apply set_phase_inv in E as [Hp ->]. cbn. unfold finalized in *. repeat split; try done; lia.
  - destruct (handle_commitment s m) as [s1| |] eqn:E; cbn [keep]; intros [= <-].
    + apply handle_commitment_inv in E as (_ & Hp & Hn & _ & ->). cbn. rewrite insert_length.
      unfold off, dealing, accusing in *. repeat split; try done; try lia.
      intros i v Hi. destruct (decide (i = N.to_nat (cm_sender m))) as [->|]; [congruence|]. by rewrite list_lookup_insert_ne.
    + repeat split; done || lia.
  - destruct (handle_eval s m) as [s1| |] eqn:E; cbn [keep]; intros [= <-].
    + apply handle_eval_inv in E as (_ & Hp & _ & Hn & _ & ->). cbn. rewrite insert_length.
      unfold off, dealing, accusing in *. repeat split; try done; try lia.
      intros i v Hi. destruct (decide (i = N.to_nat (em_sender m))) as [->|]; [congruence|]. by rewrite list_lookup_insert_ne.
    + repeat split; done || lia.
  - destruct (handle_accusation s m) as [s1| |] eqn:E; cbn [keep]; intros [= <-].
    + apply handle_accusation_inv in E as (_ & Hp & ->). cbn. unfold off, dealing, accusing in *. repeat split; try done; try lia; set_solver.
    + repeat split; done || lia.
  - destruct (handle_apology s m) as [s1| |] eqn:E; cbn [keep]; intros [= <-].
    + apply handle_apology_inv in E as (_ & Hp & Hn & ->). cbn. unfold off, dealing, accusing in *. repeat split; try done; try lia.
      intros k v Hk. destruct (decide (k = (pm_accuser m, pm_accused m))) as [->|]; [congruence|]. by rewrite lookup_insert_ne.
    + repeat split; done || lia.
Qed.

Lemma run_app s cs1 cs2 s' : run s (cs1 ++ cs2) = Some s' ↔ ∃ s1, run s cs1 = Some s1 ∧ run s1 cs2 = Some s'.
Proof.
  revert s. induction cs1 as [|c cs1 IH]; intros s; cbn [app run].
  - split; [intros H; by exists s|]. by intros (s1 & [= <-] & H).
  - destruct (do_call s c) as [s1|]; [apply IH|]. split; [done|]. by intros (? & ? & _).
Qed.
Lemma run_frame s cs s' : run s cs = Some s' →
  d_eon s' = d_eon s ∧ d_num s' = d_num s ∧ d_threshold s' = d_threshold s ∧ d_keyper s' = d_keyper s ∧
  d_phase s ≤ d_phase s' ∧ length (d_commitments s') = length (d_commitments s) ∧ length (d_evals s') = length (d_evals s) ∧
  (off < d_phase s → d_poly s' = d_poly s) ∧
  (∀ i v, d_evals s !! i = Some (Some v) → d_evals s' !! i = Some (Some v)) ∧
  (∀ i v, d_commitments s !! i = Some (Some v) → d_commitments s' !! i = Some (Some v)) ∧
  (∀ k v, d_apologies s !! k = Some v → d_apologies s' !! k = Some v) ∧
  d_accusations s ⊆ d_accusations s' ∧
  (dealing < d_phase s → d_commitments s' = d_commitments s ∧ d_evals s' = d_evals s) ∧
  (accusing < d_phase s → d_accusations s' = d_accusations s).
Proof.
  revert s. induction cs as [|c cs IH]; intros s; cbn [run].
  - intros [= <-]. repeat split; done || lia.
  - destruct (do_call s c) as [s1|] eqn:E; [|done]. intros H. apply IH in H as (A1&A2&A3&A4&A5&A6&A7&A8&A9&A10&A11&A12&A13&A14).
    apply do_call_frame in E as (B1&B2&B3&B4&B5&B6&B7&B8&B9&B10&B11&B12&B13&B14).
    repeat split; try congruence; try lia; try (by eauto).
    + intros Hp. rewrite A8 by lia. by apply B8.
    + by transitivity (d_accusations s1).
    + destruct (A13 ltac:(lia)) as [-> _]. by apply B13.
    + destruct (A13 ltac:(lia)) as [_ ->]. by apply B13.
    + intros Hp. rewrite A14 by lia. by apply B14.
Qed.

(** where the entries come from *)
Lemma run_commitment_origin s cs s' d c : run s cs = Some s' → d_commitments s' !! N.to_nat d = Some (Some c) →
  d_commitments s !! N.to_nat d = Some (Some c) ∨
  ∃ m, CCommitment m ∈ cs ∧ cm_eon m = d_eon s ∧ cm_sender m = d ∧ cm_gammas m = c ∧ degree c = degree_from_threshold (Z.of_N (d_threshold s)).
Proof.
  revert s. induction cs as [|e cs IH]; intros s; cbn [run]; [intros [= <-]; auto|].
  destruct (do_call s e) as [s1|] eqn:E; [|done]. intros H Hc. pose proof (do_call_frame _ _ _ E) as (E1 & _ & E3 & _).
  destruct (IH s1 H Hc) as [Hs1|(m & Hm & He & Hs & Hg & Hd)].
  2: { right. exists m. rewrite <-E1, <-E3. split; [by right|done]. }
  destruct e as [rnd| | | |m|m|m|m]; cbn [do_call] in E.
  - destruct (start_phase1 s rnd) as [[s2 om]|] eqn:E2; [|done]. injection E as <-.
    apply start_phase1_inv in E2 as (_ & (_ & _ & _ & _ & H5 & _) & _). cbn in H5. left. by rewrite H5.
  - destruct (start_phase2 s) as [[s2 om]|] eqn:E2; [|done]. injection E as <-. apply start_phase2_inv in E2 as (_ & -> & _). by left.
  - destruct (start_phase3 s) as [[s2 om]|] eqn:E2; [|done]. injection E as <-. apply start_phase3_inv in E2 as (_ & -> & _). by left.
  - unfold finalize in E. apply set_phase_inv in E as [_ ->]. by left.
  - destruct (handle_commitment s m) as [s2| |] eqn:E2; cbn [keep] in E; simplify_eq; [|by left].
    apply handle_commitment_inv in E2 as (He & _ & Hn & Hd & ->). cbn in Hs1.
    destruct (decide (N.to_nat d = N.to_nat (cm_sender m))) as [Ed|].
    + right. exists m. rewrite Ed, list_lookup_insert in Hs1 by (by apply lookup_lt_Some in Hn). injection Hs1 as Hs1. subst c.
      split; [by left|]. split; [done|]. split; [by apply N2Nat.inj|done].
    + left. by rewrite list_lookup_insert_ne in Hs1.
  - destruct (handle_eval s m) as [s2| |] eqn:E2; cbn [keep] in E; simplify_eq; [|by left].
    apply handle_eval_inv in E2 as (_ & _ & _ & _ & _ & ->). by left.
  - destruct (handle_accusation s m) as [s2| |] eqn:E2; cbn [keep] in E; simplify_eq; [|by left].
    apply handle_accusation_inv in E2 as (_ & _ & ->). by left.
  - destruct (handle_apology s m) as [s2| |] eqn:E2; cbn [keep] in E; simplify_eq; [|by left].
    apply handle_apology_inv in E2 as (_ & _ & _ & ->). by left.
Qed.
Lemma run_apology_origin s cs s' key v : run s cs = Some s' → d_apologies s' !! key = Some v →
  d_apologies s !! key = Some v ∨
  ∃ m, CApology m ∈ cs ∧ pm_eon m = d_eon s ∧ (pm_accuser m, pm_accused m) = key ∧ pm_eval m = v.
Proof.
  revert s. induction cs as [|e cs IH]; intros s; cbn [run]; [intros [= <-]; auto|].
  destruct (do_call s e) as [s1|] eqn:E; [|done]. intros H Hc. pose proof (do_call_frame _ _ _ E) as (E1 & _).
  destruct (IH s1 H Hc) as [Hs1|(m & Hm & He & Hs & Hv)].
  2: { right. exists m. rewrite <-E1. split; [by right|done]. }
  destruct e as [rnd| | | |m|m|m|m]; cbn [do_call] in E.
  - destruct (start_phase1 s rnd) as [[s2 om]|] eqn:E2; [|done]. injection E as <-.
    apply start_phase1_inv in E2 as (_ & (_ & _ & _ & _ & _ & _ & H5) & _). cbn in H5. left. by rewrite H5.
  - destruct (start_phase2 s) as [[s2 om]|] eqn:E2; [|done]. injection E as <-. apply start_phase2_inv in E2 as (_ & -> & _). by left.
  - destruct (start_phase3 s) as [[s2 om]|] eqn:E2; [|done]. injection E as <-. apply start_phase3_inv in E2 as (_ & -> & _). by left.
  - unfold finalize in E. apply set_phase_inv in E as [_ ->]. by left.
  - destruct (handle_commitment s m) as [s2| |] eqn:E2; cbn [keep] in E; simplify_eq; [|by left].
    apply handle_commitment_inv in E2 as (_ & _ & _ & _ & ->). by left.
  - destruct (handle_eval s m) as [s2| |] eqn:E2; cbn [keep] in E; simplify_eq; [|by left].
    apply handle_eval_inv in E2 as (_ & _ & _ & _ & _ & ->). by left.
  - destruct (handle_accusation s m) as [s2| |] eqn:E2; cbn [keep] in E; simplify_eq; [|by left].
    apply handle_accusation_inv in E2 as (_ & _ & ->). by left.
  - destruct (handle_apology s m) as [s2| |] eqn:E2; cbn [keep] in E; simplify_eq; [|by left].
    apply handle_apology_inv in E2 as (He & _ & Hn & ->). cbn in Hs1.
    destruct (decide (key = (pm_accuser m, pm_accused m))) as [->|].
    + right. exists m. rewrite lookup_insert in Hs1. injection Hs1 as Hs1. split; [by left|done].
    + left. by rewrite lookup_insert_ne in Hs1.
Qed.

(** messages that come in time are recorded *)
Lemma run_commitment_recorded s cs s' m : run s cs = Some s' → CCommitment m ∈ cs → d_phase s' ≤ dealing →
  cm_eon m = d_eon s → degree (cm_gammas m) = degree_from_threshold (Z.of_N (d_threshold s)) →
  ∃ c, d_commitments s' !! N.to_nat (cm_sender m) = Some (Some c).
Proof.
  intros Hr Hin Hp He Hd. apply elem_of_list_split in Hin as (l1 & l2 & ->). apply run_app in Hr as (s1 & H1 & H2).
  pose proof (run_frame _ _ _ H1) as (E1 & _ & E3 & _). cbn [run] in H2.
  destruct (do_call s1 (CCommitment m)) as [s2|] eqn:E; [|done].
  pose proof (run_frame _ _ _ H2) as (_&_&_&_&Hph&_&_&_&_&Hk&_). pose proof (do_call_frame _ _ _ E) as (_&_&_&_&Hph'&_).
  cbn [do_call] in E.
  assert (∃ c, d_commitments s2 !! N.to_nat (cm_sender m) = Some (Some c)) as [c Hc]; [|exists c; by apply Hk].
  unfold handle_commitment, check_eon_and_phase in E. rewrite E1, E3, He in E. rewrite N.eqb_refl in E.
  destruct (Nat.ltb_spec dealing (d_phase s1)) as [|_]; [lia|]. cbn in E.
  destruct (d_commitments s1 !! N.to_nat (cm_sender m)) as [[c|]|] eqn:Ec; cbn in E.
  - injection E as <-. by exists c.
  - rewrite Hd, Z.eqb_refl in E. cbn in E. injection E as <-. exists (cm_gammas m). cbn. apply list_lookup_insert. by apply lookup_lt_Some in Ec.
  - done.
Qed.
Lemma run_apology_recorded s cs s' m : run s cs = Some s' → CApology m ∈ cs → d_phase s' ≤ apologizing →
  pm_eon m = d_eon s → valid_eval (pm_eval m) = true → is_Some (d_apologies s' !! (pm_accuser m, pm_accused m)).
Proof.
  intros Hr Hin Hp He Hd. apply elem_of_list_split in Hin as (l1 & l2 & ->). apply run_app in Hr as (s1 & H1 & H2).
  pose proof (run_frame _ _ _ H1) as (E1 & _). cbn [run] in H2.
  destruct (do_call s1 (CApology m)) as [s2|] eqn:E; [|done].
  pose proof (run_frame _ _ _ H2) as (_&_&_&_&Hph&_&_&_&_&_&Hk&_). pose proof (do_call_frame _ _ _ E) as (_&_&_&_&Hph'&_).
  cbn [do_call] in E.
  assert (is_Some (d_apologies s2 !! (pm_accuser m, pm_accused m))) as [c Hc]; [|exists c; by apply Hk].
  unfold handle_apology, check_eon_and_phase in E. rewrite E1, He, N.eqb_refl in E.
  destruct (Nat.ltb_spec apologizing (d_phase s1)) as [|_]; [lia|]. cbn [andb negb] in E.
  case_bool_decide; [injection E as <-; done|]. rewrite Hd in E. cbn in E. injection E as <-. cbn. rewrite lookup_insert. eauto.
Qed.
Lemma run_accusation_recorded s cs s' m : run s cs = Some s' → CAccusation m ∈ cs → d_phase s' ≤ accusing →
  am_eon m = d_eon s → (am_accuser m, am_accused m) ∈ d_accusations s'.
Proof.
  intros Hr Hin Hp He. apply elem_of_list_split in Hin as (l1 & l2 & ->). apply run_app in Hr as (s1 & H1 & H2).
  pose proof (run_frame _ _ _ H1) as (E1 & _). cbn [run] in H2.
  destruct (do_call s1 (CAccusation m)) as [s2|] eqn:E; [|done].
  pose proof (run_frame _ _ _ H2) as (_&_&_&_&Hph&_&_&_&_&_&_&Hk&_). pose proof (do_call_frame _ _ _ E) as (_&_&_&_&Hph'&_).
  cbn [do_call] in E. apply Hk.
  unfold handle_accusation, check_eon_and_phase in E. rewrite E1, He, N.eqb_refl in E.
  destruct (Nat.ltb_spec accusing (d_phase s1)) as [|_]; [lia|]. cbn [andb negb] in E.
  case_bool_decide; injection E as <-; [done|]. cbn. set_solver.
Qed.

(** * Keypers that see the same broadcasts have the same public state *)
Lemma private_call s c s' : do_call s c = Some s' → public_of c = None → same_public s s'.
Proof.
  destruct c as [rnd| | | |m|m|m|m]; cbn [do_call public_of]; try done. intros E _.
  destruct (handle_eval s m) as [s1| |] eqn:E2; cbn [keep] in E; simplify_eq; [|apply same_public_refl].
  apply handle_eval_inv in E2 as (_ & _ & _ & _ & _ & ->). by repeat split.
Qed.
Lemma public_call s1 s2 c1 c2 s1' s2' q : same_public s1 s2 → public_of c1 = Some q → public_of c2 = Some q →
  do_call s1 c1 = Some s1' → do_call s2 c2 = Some s2' → same_public s1' s2'.
Proof.
  intros (Q1 & Q2 & Q3 & Q4 & Q5 & Q6 & Q7) H1 H2.
  destruct c1 as [r1| | | |m1|m1|m1|m1]; cbn in H1; try done; injection H1 as <-;
  destruct c2 as [r2| | | |m2|m2|m2|m2]; cbn in H2; try done; simplify_eq; cbn [do_call].
  - destruct (start_phase1 s1 r1) as [[a oa]|] eqn:E1; [|done]. destruct (start_phase1 s2 r2) as [[b ob]|] eqn:E2; [|done].
    intros [= <-] [= <-]. apply start_phase1_inv in E1 as (_ & E1 & _). apply start_phase1_inv in E2 as (_ & E2 & _).
    eapply same_public_trans; [apply same_public_sym, E1|]. eapply same_public_trans; [|exact E2]. repeat split; cbn; done.
  - destruct (start_phase2 s1) as [[a oa]|] eqn:E1; [|done]. destruct (start_phase2 s2) as [[b ob]|] eqn:E2; [|done].
    intros [= <-] [= <-]. apply start_phase2_inv in E1 as (_ & -> & _). apply start_phase2_inv in E2 as (_ & -> & _). repeat split; cbn; done.
  - destruct (start_phase3 s1) as [[a oa]|] eqn:E1; [|done]. destruct (start_phase3 s2) as [[b ob]|] eqn:E2; [|done].
    intros [= <-] [= <-]. apply start_phase3_inv in E1 as (_ & -> & _). apply start_phase3_inv in E2 as (_ & -> & _). repeat split; cbn; done.
  - unfold finalize. intros E1 E2. apply set_phase_inv in E1 as [_ ->]. apply set_phase_inv in E2 as [_ ->]. repeat split; cbn; done.
  - unfold handle_commitment, check_eon_and_phase. rewrite Q1, Q2, Q4, Q5.
    destruct (_ && _); cbn; [|intros [= <-] [= <-]; by repeat split].
    destruct (d_commitments s2 !! _) as [[?|]|]; cbn; [intros [= <-] [= <-]; by repeat split| |done].
    destruct (_ =? _)%Z; cbn; intros [= <-] [= <-]; repeat split; cbn; congruence.
  - unfold handle_accusation, check_eon_and_phase. rewrite Q1, Q2, Q6.
    destruct (_ && _); cbn; [|intros [= <-] [= <-]; by repeat split].
    case_bool_decide; cbn; intros [= <-] [= <-]; repeat split; cbn; congruence.
  - unfold handle_apology, check_eon_and_phase. rewrite Q1, Q2, Q7.
    destruct (_ && _); cbn; [|intros [= <-] [= <-]; by repeat split].
    case_bool_decide; cbn; [intros [= <-] [= <-]; by repeat split|].
    destruct (valid_eval _); cbn; intros [= <-] [= <-]; repeat split; cbn; congruence.
Qed.
Lemma private_run s cs s' : run s cs = Some s' → broadcasts cs = [] → same_public s s'.
Proof.
  revert s. induction cs as [|c cs IH]; intros s; cbn [run]; [intros [= <-] _; apply same_public_refl|].
  destruct (do_call s c) as [s1|] eqn:E; [|done]. intros H. unfold broadcasts in *. cbn.
  destruct (public_of c) eqn:Ec; [done|]. intros Hb. eapply same_public_trans; [by eapply private_call|by apply IH].
Qed.
Lemma public_run s1 s2 cs1 cs2 s1' s2' : same_public s1 s2 → broadcasts cs1 = broadcasts cs2 →
  run s1 cs1 = Some s1' → run s2 cs2 = Some s2' → same_public s1' s2'.
Proof.
  revert s1 s2 cs2. induction cs1 as [|c1 cs1 IH]; intros s1 s2 cs2 Hs Hb.
  - intros [= <-] H2. eapply same_public_trans; [done|]. by eapply private_run.
  - cbn [run]. destruct (do_call s1 c1) as [t1|] eqn:E1; [|done]. intros H1. unfold broadcasts in Hb. cbn in Hb.
    destruct (public_of c1) as [q|] eqn:Eq.
    + revert s2 Hs. induction cs2 as [|c2 cs2 IH2]; intros s2 Hs; [done|]. cbn [run].
      destruct (do_call s2 c2) as [t2|] eqn:E2; [|done]. intros H2. cbn in Hb.
      destruct (public_of c2) as [q2|] eqn:Eq2.
      * injection Hb as <- Hb. apply (IH t1 t2 cs2); [exact (public_call _ _ _ _ _ _ _ Hs Eq Eq2 E1 E2)|done|done|done].
      * apply (IH2 Hb t2); [|done]. eapply same_public_trans; [done|by eapply private_call].
    + apply (IH t1 s2 cs2); [|done|done]. eapply same_public_trans; [apply same_public_sym; by eapply private_call|done].
Qed.
Lemma new_same_public eon n t k1 k2 : same_public (new_dkg P eon n t k1) (new_dkg P eon n t k2).
Proof. by repeat split. Qed.

Lemma is_corrupt_public s1 s2 d : same_public s1 s2 → is_corrupt s1 d = is_corrupt s2 d.
Proof. intros (_ & _ & _ & E4 & E5 & E6 & E7). unfold is_corrupt. by rewrite E4, E5, E6, E7. Qed.

(** [is_corrupt] in words *)
Lemma not_corrupt_iff s d : is_corrupt s d = false ↔
  ∃ c, d_commitments s !! d = Some (Some c) ∧
    (∀ a v, d_apologies s !! (a, N.of_nat d) = Some v → verify_poly_eval (int_of a) v c (Z.of_N (d_threshold s)) = true) ∧
    (∀ a, (a, N.of_nat d) ∈ d_accusations s → is_Some (d_apologies s !! (a, N.of_nat d))).
Proof.
  unfold is_corrupt. destruct (d_commitments s !! d) as [[c|]|]; [|split; [done|intros (? & ? & _); done]..].
  rewrite orb_false_iff. split.
  - intros [H1 H2]. exists c. split; [done|]. split.
    + intros a v Hv. destruct (verify_poly_eval (int_of a) v c (Z.of_N (d_threshold s))) eqn:E; [done|].
      rewrite <-not_true_iff_false, existsb_exists in H1. exfalso. apply H1. exists ((a, N.of_nat d), v).
      split; [by apply elem_of_list_In, elem_of_map_to_list|]. cbn. by rewrite N.eqb_refl, E.
    + intros a Ha. destruct (d_apologies s !! (a, N.of_nat d)) eqn:E; [by eauto|]. exfalso.
      rewrite <-not_true_iff_false, existsb_exists in H2. apply H2. exists (a, N.of_nat d).
      split; [by apply elem_of_list_In, elem_of_elements|]. cbn. rewrite N.eqb_refl, E. done.
  - intros (c' & [= <-] & H1 & H2). rewrite <-!not_true_iff_false, !existsb_exists. split.
    + intros ([[a d'] v] & Hin & Hb). apply elem_of_list_In, elem_of_map_to_list in Hin. cbn in Hb.
      apply andb_true_iff in Hb as [Hd Hv]. apply N.eqb_eq in Hd. subst d'. rewrite (H1 a v Hin) in Hv. done.
    + intros ([a d'] & Hin & Hb). apply elem_of_list_In, elem_of_elements in Hin. cbn in Hb.
      apply andb_true_iff in Hb as [Hd Hv]. apply N.eqb_eq in Hd. subst d'. apply H2 in Hin.
      rewrite bool_decide_eq_true_2 in Hv by done. done.
Qed.
End Proofs.

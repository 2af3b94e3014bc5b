(** One decision's work on one DKG: [sync_dkg]. *)
From stdpp Require Import list gmap.
From Coq Require Import ZArith NArith Lia.
From Verif Require Import Fq CryptoModel DkgModel DkgSpec DkgProofs EpochModel ObserveModel ArithModel MainModel DecideModel EncodingModel KeyperModel KeyperSpec
  KeyperDkgProofs.

Section Step.
Context {P : pairing} {K : Type}.
Context (ecies_decrypt : list N → option (list N)) (plen : phase_length).
Notation eonev := (eon_event (body P)).
Notation kdkg := (kdkg P).
Context (n num t idx : N).
Notation running := (running n num t idx).
Implicit Types (k : kdkg) (e : eonev) (i : kinput P K) (x : execution P).

(** ** The four phase changes *)
Lemma start1_stage i k next k1 a1 q x : running q x (k_pure k) →
  (if (d_phase (k_pure k) =? off) && (dealing <=? next) then start_dealing i k next else Some (k, [])) = Some (k1, a1) →
  ∃ x1, running (q `max` (1 `min` next)) x1 (k_pure k1) ∧ frame k k1 ∧
    ex_dealing x1 = ex_dealing x ∧ ex_accusing x1 = ex_accusing x ∧ ex_apologizing x1 = ex_apologizing x ∧ (1 ≤ q → ex_rnd x1 = ex_rnd x) ∧
    (if (q =? 0) && (1 <=? next)
     then ex_rnd x1 = in_rnd i (k_eon k) ∧ ∃ c evals p, start_phase1 (new_dkg P n num t idx) (ex_rnd x1) = Some (p, Some (c, evals)) ∧
       sent_commitment n num t idx x1 = Some c ∧
       a1 = (if next =? 1 then [KCommitment (k_eon k) (cm_gammas c)] else []) ∧ k_outgoing k1 = (if next =? 1 then evals else k_outgoing k)
     else x1 = x ∧ a1 = [] ∧ k1 = k).
Proof.
  intros R. rewrite (ru_phase _ _ _ _ _ _ _ R). unfold off, dealing. destruct (Nat.eqb_spec q 0) as [->|Hq]; cbn [andb].
  - destruct (Nat.leb_spec 1 next) as [Hn|Hn].
    + unfold start_dealing. intros ([p o] & E1 & E2)%bind_Some. destruct o as [[c evals]|]; [|done].
      destruct (running_start1 _ _ _ _ _ _ _ _ _ R E1) as [R1 Ep]. exists (with_rnd x (in_rnd i (k_eon k))).
      replace (0 `max` (1 `min` next)) with 1 by lia. rewrite Ep in E1.
      assert (sent_commitment n num t idx (with_rnd x (in_rnd i (k_eon k))) = Some c) as Es.
      { unfold sent_commitment, until_start1. cbn [with_rnd ex_off ex_rnd]. rewrite (ru_off _ _ _ _ _ _ _ R). cbn [run]. by rewrite E1. }
      unfold dealing in E2. destruct (Nat.eqb_spec next 1) as [->|Hne]; cbn [negb] in E2; injection E2 as <- <-.
      * split; [done|]. split; [done|]. split; [done|]. split; [done|]. split; [done|]. split; [lia|]. split; [done|].
        exists c, evals, p. done.
      * split; [done|]. split; [done|]. split; [done|]. split; [done|]. split; [done|]. split; [lia|]. split; [done|].
        exists c, evals, p. done.
    + intros [= <- <-]. exists x. replace (0 `max` (1 `min` next)) with 0 by lia. done.
  - intros [= <- <-]. exists x. replace (q `max` (1 `min` next)) with q by lia. done.
Qed.
Lemma start2_stage k next k1 a1 q x : running q x (k_pure k) → 1 `min` next ≤ q →
  (if (d_phase (k_pure k) =? dealing) && (accusing <=? next) then start_accusing k next else Some (k, [])) = Some (k1, a1) →
  running (q `max` (2 `min` next)) x (k_pure k1) ∧ frame k k1 ∧ k_outgoing k1 = k_outgoing k ∧
  (if (q =? 1) && (2 <=? next)
   then a1 = [] ∧ (next = 2 → sent_accusations n num t idx x = []) ∨
        next = 2 ∧ ∃ accused, a1 = [KAccusation (k_eon k) accused] ∧
          accused ≠ [] ∧ Forall2 (λ a m, k_keypers k !! N.to_nat (am_accused m) = Some a) accused (sent_accusations n num t idx x)
   else a1 = [] ∧ k1 = k).
Proof.
  intros R Hq'. rewrite (ru_phase _ _ _ _ _ _ _ R). unfold accusing, dealing. destruct (Nat.eqb_spec q 1) as [->|Hq]; cbn [andb].
  - destruct (Nat.leb_spec 2 next) as [Hn|Hn].
    + unfold start_accusing. intros ([p o] & E1 & E2)%bind_Some. destruct (running_start2 _ _ _ _ _ _ _ _ R E1) as [R1 ->].
      replace (1 `max` (2 `min` next)) with 2 by lia. unfold accusing in E2.
      destruct (Nat.eqb_spec next 2) as [->|Hne]; cbn [negb] in E2.
      2:{ injection E2 as <- <-. split; [done|]. split; [done|]. split; [done|]. by left. }
      destruct (sent_accusations n num t idx x) as [|m l] eqn:El.
      { injection E2 as <- <-. split; [done|]. split; [done|]. split; [done|]. by left. }
      apply bind_Some in E2 as (accused & E2 & [= <- <-]). split; [done|]. split; [done|]. split; [done|]. right. split; [done|].
      exists accused. split; [done|]. apply mapM_Some, Forall2_flip in E2. split; [intros ->; inversion E2|exact E2].
    + intros [= <- <-]. replace (1 `max` (2 `min` next)) with 1 by lia. done.
  - intros [= <- <-]. replace (q `max` (2 `min` next)) with q by lia. done.
Qed.
Lemma start3_stage k next k1 a1 q x : running q x (k_pure k) → 2 `min` next ≤ q →
  (if (d_phase (k_pure k) =? accusing) && (apologizing <=? next) then start_apologizing k next else Some (k, [])) = Some (k1, a1) →
  running (q `max` (3 `min` next)) x (k_pure k1) ∧ frame k k1 ∧ k_outgoing k1 = k_outgoing k ∧
  (if (q =? 2) && (3 <=? next)
   then a1 = [] ∧ (next = 3 → sent_apologies n num t idx x = []) ∨
        next = 3 ∧ ∃ accusers, a1 = [KApology (k_eon k) accusers (pm_eval <$> sent_apologies n num t idx x)] ∧
          accusers ≠ [] ∧ Forall2 (λ a m, k_keypers k !! N.to_nat (pm_accuser m) = Some a) accusers (sent_apologies n num t idx x)
   else a1 = [] ∧ k1 = k).
Proof.
  intros R Hq'. rewrite (ru_phase _ _ _ _ _ _ _ R). unfold accusing, apologizing. destruct (Nat.eqb_spec q 2) as [->|Hq]; cbn [andb].
  - destruct (Nat.leb_spec 3 next) as [Hn|Hn].
    + unfold start_apologizing. intros ([p o] & E1 & E2)%bind_Some. destruct (running_start3 _ _ _ _ _ _ _ _ R E1) as [R1 ->].
      replace (2 `max` (3 `min` next)) with 3 by lia. unfold apologizing in E2.
      destruct (Nat.eqb_spec next 3) as [->|Hne]; cbn [negb] in E2.
      2:{ injection E2 as <- <-. split; [done|]. split; [done|]. split; [done|]. by left. }
      destruct (sent_apologies n num t idx x) as [|m l] eqn:El.
      { injection E2 as <- <-. split; [done|]. split; [done|]. split; [done|]. by left. }
      apply bind_Some in E2 as (accusers & E2 & [= <- <-]). split; [done|]. split; [done|]. split; [done|]. right. split; [done|].
      exists accusers. split; [done|]. apply mapM_Some, Forall2_flip in E2. split; [intros ->; inversion E2|exact E2].
    + intros [= <- <-]. replace (2 `max` (3 `min` next)) with 2 by lia. done.
  - intros [= <- <-]. replace (q `max` (3 `min` next)) with q by lia. done.
Qed.
Lemma finalize_stage k next k1 g a1 q x : running q x (k_pure k) → 3 `min` next ≤ q →
  (if (d_phase (k_pure k) =? apologizing) && (finalized <=? next) then dkg_finalize k else Some (k, None, [])) = Some (k1, g, a1) →
  running (q `max` (4 `min` next)) x (k_pure k1) ∧ frame k k1 ∧ k_outgoing k1 = k_outgoing k ∧
  (if (q =? 3) && (4 <=? next)
   then match compute_result (k_pure k1) with
        | None => g = None ∧ a1 = [KEonStartVote (k_start_batch k)]
        | Some r => g = Some (mkKEkg (k_eon k) (k_keypers k) (new_epochkg r)) ∧ a1 = [KEonKey (r_keyper r) (k_start_batch k) (r_pk r)]
        end
   else g = None ∧ a1 = [] ∧ k1 = k).
Proof.
  intros R Hq'. rewrite (ru_phase _ _ _ _ _ _ _ R). unfold finalized, apologizing. destruct (Nat.eqb_spec q 3) as [->|Hq]; cbn [andb].
  - destruct (Nat.leb_spec 4 next) as [Hn|Hn].
    + unfold dkg_finalize. intros (p & E1 & E2)%bind_Some. pose proof (running_finalize _ _ _ _ _ _ _ R E1) as R1.
      replace (3 `max` (4 `min` next)) with 4 by lia.
      destruct (compute_result p) as [r|] eqn:Er; injection E2 as <- <- <-; cbn [set_pure k_pure]; rewrite Er; done.
    + intros [= <- <- <-]. replace (3 `max` (4 `min` next)) with 3 by lia. done.
  - intros [= <- <- <-]. replace (q `max` (4 `min` next)) with q by lia. done.
Qed.

(** ** The whole step *)
Lemma dealing_stage k cs k' q x : running q x (k_pure k) → messages cs → (q ≠ 1 → cs = []) → after cs k k' →
  running q (add_dealing x cs) (k_pure k').
Proof.
  intros R Hm Hq (p & E & ->). cbn [set_pure k_pure]. destruct (decide (q = 1)) as [->|Hne].
  - by eapply running_dealing.
  - rewrite Hq in E |- * by done. injection E as <-. destruct x. unfold add_dealing. cbn. rewrite app_nil_r. done.
Qed.
Lemma accusing_stage k cs k' q x : running q x (k_pure k) → messages cs → (q ≠ 2 → cs = []) → after cs k k' →
  running q (add_accusing x cs) (k_pure k').
Proof.
  intros R Hm Hq (p & E & ->). cbn [set_pure k_pure]. destruct (decide (q = 2)) as [->|Hne].
  - by eapply running_accusing.
  - rewrite Hq in E |- * by done. injection E as <-. destruct x. unfold add_accusing. cbn. rewrite app_nil_r. done.
Qed.
Lemma apologizing_stage k cs k' q x : running q x (k_pure k) → messages cs → (q ≠ 3 → cs = []) → after cs k k' →
  running q (add_apologizing x cs) (k_pure k').
Proof.
  intros R Hm Hq (p & E & ->). cbn [set_pure k_pure]. destruct (decide (q = 3)) as [->|Hne].
  - by eapply running_apologizing.
  - rewrite Hq in E |- * by done. injection E as <-. destruct x. unfold add_apologizing. cbn. rewrite app_nil_r. done.
Qed.
Lemma after_frame' cs k k' : after cs k k' → frame k k'.
Proof. intros (H1 & H2 & H3 & _ & H5 & _)%after_frame. done. Qed.
Lemma running_keyper q x (p : dkg P) : running q x p → d_keyper p = idx.
Proof. intros [R _ _ _ _ _]. by apply run_frame in R as (_ & _ & _ & -> & _). Qed.

(** what the phase changes of a decision submit; [x] is the execution afterwards *)
Definition a1_ok k (q next : nat) x (a : list (kaction P)) : Prop :=
  if (q =? 0) && (next =? 1)
  then ∃ c, sent_commitment n num t idx x = Some c ∧ a = [KCommitment (k_eon k) (cm_gammas c)] else a = [].
Definition a2_ok k (q next : nat) x (a : list (kaction P)) : Prop :=
  if (q <? 2) && (next =? 2)
  then (sent_accusations n num t idx x = [] ∧ a = []) ∨
       ∃ accused, a = [KAccusation (k_eon k) accused] ∧
         accused ≠ [] ∧ Forall2 (λ a m, k_keypers k !! N.to_nat (am_accused m) = Some a) accused (sent_accusations n num t idx x)
  else a = [].
Definition a3_ok k (q next : nat) x (a : list (kaction P)) : Prop :=
  if (q <? 3) && (next =? 3)
  then (sent_apologies n num t idx x = [] ∧ a = []) ∨
       ∃ accusers, a = [KApology (k_eon k) accusers (pm_eval <$> sent_apologies n num t idx x)] ∧
         accusers ≠ [] ∧ Forall2 (λ a m, k_keypers k !! N.to_nat (pm_accuser m) = Some a) accusers (sent_apologies n num t idx x)
  else a = [].
Definition a4_ok k (q next : nat) (p : dkg P) (g : option (kekg P)) (a : list (kaction P)) : Prop :=
  if (q <? 4) && (next =? 4)
  then match compute_result p with
       | None => g = None ∧ a = [KEonStartVote (k_start_batch k)]
       | Some r => g = Some (mkKEkg (k_eon k) (k_keypers k) (new_epochkg r)) ∧ a = [KEonKey (r_keyper r) (k_start_batch k) (r_pk r)]
       end
  else g = None ∧ a = [].

Lemma sync_dkg_step i k (e : ObserveModel.eon (body P)) k' g acts q x : sync_dkg ecies_decrypt plen i k e = Some (k', g, acts) → k_plen k = plen → running q x (k_pure k) →
  let next := phase_at plen (current_block (in_shutter i) + 1) (start_height e) in
  let l kd := get_events kd e (in_height i) in
  (q ≤ next)%nat →
  (∀ kd ev, kd ≠ KeyShare → ev ∈ l kd → q ≤ phase_at plen (ev_height ev) (start_height e) ≤ next) →
  ∃ x' a1 a2 a3 a4,
    running next x' (k_pure k') ∧ frame k k' ∧ (1 ≤ q → ex_rnd x' = ex_rnd x ∧ k_outgoing k' = k_outgoing k) ∧
    (q = 0 → 1 ≤ next → ex_rnd x' = in_rnd i (k_eon k) ∧
       ∃ c evals p, start_phase1 (new_dkg P n num t idx) (ex_rnd x') = Some (p, Some (c, evals)) ∧
         k_outgoing k' = if next =? 1 then evals else k_outgoing k) ∧
    (next = 0 → k_outgoing k' = k_outgoing k) ∧
    ex_dealing x' = ex_dealing x ++ (l Commitment ≫= commitment_calls plen (k_keypers k) (start_height e)) ++
                    (l PolyEval ≫= eval_calls ecies_decrypt plen (k_keypers k) idx (start_height e)) ∧
    ex_accusing x' = ex_accusing x ++ (l Accusation ≫= accusation_calls plen (k_keypers k) (k_eon k) (start_height e)) ∧
    ex_apologizing x' = ex_apologizing x ++ (l Apology ≫= apology_calls plen (k_keypers k) (k_eon k) (start_height e)) ∧
    acts = a1 ++ a2 ++ a3 ++ a4 ∧
    a1_ok k q next x' a1 ∧ a2_ok k q next x' a2 ∧ a3_ok k q next x' a3 ∧ a4_ok k q next (k_pure k') g a4.
Proof.
  intros E Hp R next l Hq Hev. pose proof (phase_le_4 plen (current_block (in_shutter i) + 1) (start_height e)) as H4. fold next in H4.
  unfold sync_dkg in E. fold next in E. fold (l Commitment) (l PolyEval) (l Accusation) (l Apology) in E.
  apply bind_Some in E as ([k1 a1] & E1 & E). apply bind_Some in E as (k2 & E2 & E). apply bind_Some in E as (k3 & E3 & E).
  apply bind_Some in E as ([k4 a2] & E4 & E). apply bind_Some in E as (k5 & E5 & E). apply bind_Some in E as ([k6 a3] & E6 & E).
  apply bind_Some in E as (k7 & E7 & E). apply bind_Some in E as ([[k8 g'] a4] & E8 & [= <- <- <-]).
  destruct (start1_stage _ _ _ _ _ _ _ R E1) as (x1 & R1 & F1 & X1 & X2 & X3 & X4 & A1). set (q1 := q `max` (1 `min` next)) in *.
  assert (k_plen k1 = plen) as Hp1 by (rewrite (proj2 (proj2 (proj2 F1))); done).
  apply (sync_commitments_after plen) in E2; [|done].
  pose proof (after_frame' _ _ _ E2) as F2. assert (k_plen k2 = plen) as Hp2 by (rewrite (proj2 (proj2 (proj2 F2))); done).
  apply (sync_poly_evals_after _ plen) in E3; [|done].
  pose proof (after_frame' _ _ _ E3) as F3. assert (k_plen k3 = plen) as Hp3 by (rewrite (proj2 (proj2 (proj2 F3))); done).
  assert (k_outgoing k3 = k_outgoing k1) as O3.
  { apply after_frame in E2 as (_ & _ & _ & O2 & _). apply after_frame in E3 as (_ & _ & _ & O3 & _). congruence. }
  assert (k_keypers k1 = k_keypers k) as Y1 by (by destruct F1 as (_ & _ & ? & _)).
  assert (k_keypers k2 = k_keypers k) as Y2 by (destruct F2 as (_ & _ & ? & _); congruence).
  assert (k_keypers k3 = k_keypers k) as Y3 by (destruct F3 as (_ & _ & ? & _); congruence).
  assert (k_eon k3 = k_eon k) as N3 by (destruct F1 as (? & _), F2 as (? & _), F3 as (? & _); congruence).
  assert (k_start_batch k3 = k_start_batch k) as B3 by (destruct F1 as (_ & ? & _), F2 as (_ & ? & _), F3 as (_ & ? & _); congruence).
  rewrite Y1 in E2. rewrite Y2 in E3.
  assert (∀ (kd : kind) (p : nat), kd ≠ KeyShare → (p < q ∨ next < p) → Forall (λ ev, phase_at plen (ev_height ev) (start_height e) ≠ p) (l kd)) as Hno.
  { intros kd p Hkd Hpp. apply Forall_forall. intros ev Hin. specialize (Hev kd ev Hkd Hin). lia. }
  assert (running q1 (add_dealing x1 (l Commitment ≫= commitment_calls plen (k_keypers k) (start_height e))) (k_pure k2)) as R2.
  { eapply dealing_stage; [exact R1|apply commitment_messages| |exact E2]. intros Hne. apply commitment_calls_phase. apply Hno; [done|]. unfold dealing. lia. }
  rewrite (running_keyper _ _ _ R2) in E3.
  eapply dealing_stage in R2 as R3; [|apply eval_messages| |exact E3].
  2:{ intros Hne. apply eval_calls_phase. apply Hno; [done|]. unfold dealing. lia. }
  assert (1 `min` next ≤ q1) as Hm1 by (unfold q1; lia).
  destruct (start2_stage _ _ _ _ _ _ R3 Hm1 E4) as (R4 & F4 & O4 & A2). set (q2 := q1 `max` (2 `min` next)) in *.
  assert (k_plen k4 = plen) as Hp4 by (rewrite (proj2 (proj2 (proj2 F4))); done).
  assert (k_keypers k4 = k_keypers k) as Y4 by (destruct F4 as (_ & _ & ? & _); congruence).
  assert (k_eon k4 = k_eon k) as N4 by (destruct F4 as (? & _); congruence).
  assert (k_start_batch k4 = k_start_batch k) as B4 by (destruct F4 as (_ & ? & _); congruence).
  apply (sync_accusations_after plen) in E5; [|done]. pose proof (after_frame' _ _ _ E5) as F5. rewrite Y4, N4 in E5.
  eapply accusing_stage in R4 as R5; [|apply accusation_messages| |exact E5].
  2:{ intros Hne. apply accusation_calls_phase. apply Hno; [done|]. unfold accusing. lia. }
  assert (2 `min` next ≤ q2) as Hm2 by (unfold q2, q1; lia).
  destruct (start3_stage _ _ _ _ _ _ R5 Hm2 E6) as (R6 & F6 & O6 & A3). set (q3 := q2 `max` (3 `min` next)) in *.
  assert (k_plen k6 = plen) as Hp6 by (rewrite (proj2 (proj2 (proj2 F6))), (proj2 (proj2 (proj2 F5))); done).
  assert (k_keypers k5 = k_keypers k) as Y5 by (destruct F5 as (_ & _ & ? & _); congruence).
  assert (k_eon k5 = k_eon k) as N5 by (destruct F5 as (? & _); congruence).
  assert (k_keypers k6 = k_keypers k) as Y6 by (destruct F6 as (_ & _ & ? & _); congruence).
  assert (k_eon k6 = k_eon k) as N6 by (destruct F6 as (? & _); congruence).
  assert (k_start_batch k6 = k_start_batch k) as B6 by (destruct F5 as (_ & ? & _), F6 as (_ & ? & _); congruence).
  apply (sync_apologies_after plen) in E7; [|done]. pose proof (after_frame' _ _ _ E7) as F7. rewrite Y6, N6 in E7.
  eapply apologizing_stage in R6 as R7; [|apply apology_messages| |exact E7].
  2:{ intros Hne. apply apology_calls_phase. apply Hno; [done|]. unfold apologizing. lia. }
  assert (3 `min` next ≤ q3) as Hm3 by (unfold q3, q2, q1; lia).
  destruct (finalize_stage _ _ _ _ _ _ _ R7 Hm3 E8) as (R8 & F8 & O8 & A4).
  replace (q3 `max` (4 `min` next)) with next in R8 by (unfold q3, q2, q1; lia).
  assert (k_eon k7 = k_eon k) as N7 by (destruct F7 as (? & _); congruence).
  assert (k_keypers k7 = k_keypers k) as Y7 by (destruct F7 as (_ & _ & ? & _); congruence).
  assert (k_start_batch k7 = k_start_batch k) as B7 by (destruct F7 as (_ & ? & _); congruence).
  assert (k_outgoing k8 = k_outgoing k1) as O.
  { apply after_frame in E5 as (_ & _ & _ & O5 & _). apply after_frame in E7 as (_ & _ & _ & O7 & _). congruence. }
  rewrite N3, Y3 in A2. rewrite N5, Y5 in A3. rewrite N7, Y7, B7 in A4.
  exists (add_apologizing (add_accusing (add_dealing (add_dealing x1 (l Commitment ≫= commitment_calls plen (k_keypers k) (start_height e)))
    (l PolyEval ≫= eval_calls ecies_decrypt plen (k_keypers k) idx (start_height e)))
    (l Accusation ≫= accusation_calls plen (k_keypers k) (k_eon k) (start_height e)))
    (l Apology ≫= apology_calls plen (k_keypers k) (k_eon k) (start_height e))), a1, a2, a3, a4.
  split; [exact R8|]. split. { repeat (eapply frame_trans; [eassumption|]). done. }
  cbn [add_apologizing add_accusing add_dealing ex_rnd ex_dealing ex_accusing ex_apologizing ex_off].
  split. { intros H1. split; [by apply X4|]. rewrite O. destruct (Nat.eqb_spec q 0) as [?|?]; [lia|]. cbn [andb] in A1. by destruct A1 as (_ & _ & ->). }
  split. { intros -> H1. destruct (Nat.leb_spec 1 next) as [?|?]; [|lia]. cbn in A1. destruct A1 as (? & c & evals & p & ? & ? & ? & ?).
    split; [done|]. exists c, evals, p. split; [done|]. by rewrite O. }
  split. { intros H0. rewrite O. destruct (Nat.leb_spec 1 next) as [?|?]; [lia|]. rewrite andb_false_r in A1. by destruct A1 as (_ & _ & ->). }
  split; [by rewrite X1, <-(assoc_L (++))|]. split; [by rewrite X2|]. split; [by rewrite X3|]. split; [done|].
  assert (∀ x y, ex_off x = ex_off y → ex_rnd x = ex_rnd y → sent_commitment n num t idx x = sent_commitment n num t idx y) as S1.
  { intros y z Ey Ez. unfold sent_commitment, until_start1. by rewrite Ey, Ez. }
  assert (∀ x y, ex_off x = ex_off y → ex_rnd x = ex_rnd y → ex_dealing x = ex_dealing y → sent_accusations n num t idx x = sent_accusations n num t idx y) as S2.
  { intros y z Ey Ez Ew. unfold sent_accusations, until_start2, until_start1. by rewrite Ey, Ez, Ew. }
  assert (∀ x y, ex_off x = ex_off y → ex_rnd x = ex_rnd y → ex_dealing x = ex_dealing y → ex_accusing x = ex_accusing y →
    sent_apologies n num t idx x = sent_apologies n num t idx y) as S3.
  { intros y z Ey Ez Ew Ev. unfold sent_apologies, until_start3, until_start2, until_start1. by rewrite Ey, Ez, Ew, Ev. }
  split.
  { unfold a1_ok. destruct (Nat.eqb_spec q 0) as [->|?]; cbn [andb] in A1 |- *; [|by destruct A1 as (_ & ? & _)].
    destruct (Nat.leb_spec 1 next) as [?|?]; cbn [andb] in A1.
    - destruct A1 as (? & c & evals & p & ? & Hs & -> & _). destruct (Nat.eqb_spec next 1); [|done]. exists c. split; [|done]. rewrite <-Hs. by apply S1.
    - destruct (Nat.eqb_spec next 1); [lia|]. by destruct A1 as (_ & ? & _). }
  split.
  { unfold a2_ok. destruct (Nat.ltb_spec q 2), (Nat.eqb_spec next 2); cbn [andb];
      destruct (Nat.eqb_spec q1 1), (Nat.leb_spec 2 next); cbn [andb] in A2; try lia; try (by destruct A2).
    - destruct A2 as [(-> & Hs)|(_ & accused & -> & HF)].
      + left. split; [|done]. rewrite <-(Hs ltac:(done)). by apply S2.
      + right. exists accused. split; [done|]. erewrite S2; [exact HF|done..].
    - destruct A2 as [(-> & _)|(? & _)]; [done|lia]. }
  split.
  { unfold a3_ok. destruct (Nat.ltb_spec q 3), (Nat.eqb_spec next 3); cbn [andb];
      destruct (Nat.eqb_spec q2 2), (Nat.leb_spec 3 next); cbn [andb] in A3; try lia; try (by destruct A3).
    - destruct A3 as [(-> & Hs)|(_ & accusers & -> & HF)].
      + left. split; [|done]. rewrite <-(Hs ltac:(done)). by apply S3.
      + right. exists accusers. erewrite (S3 (add_apologizing _ _)); [split; [reflexivity|exact HF]|done..].
    - destruct A3 as [(-> & _)|(? & _)]; [done|lia]. }
  unfold a4_ok. destruct (Nat.ltb_spec q 4), (Nat.eqb_spec next 4); cbn [andb];
    destruct (Nat.eqb_spec q3 3), (Nat.leb_spec 4 next); cbn [andb] in A4; try lia; try done; try (destruct A4 as (? & ? & _); done).
Qed.
End Step.

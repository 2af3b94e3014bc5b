(** C70, keyper side: the evaluations a keyper sends come with one receiver each. *)
From stdpp Require Import gmap list strings sorting.
From Coq Require Import ZArith NArith Lia.
From Verif Require Import Fq CryptoModel CryptoSpec DkgModel DkgSpec EncModel ObserveModel SyncModel SyncProofs ArithModel MainModel DecideModel KeyperModel KeyperSpec KeyperHistProofs KeyperActionProofs KeyperSystem.

Section Paired.
Context {P : pairing} {PK : Type}.
Implicit Types (a : kaction P).
(** the lists of receivers and evaluations have the same length *)
Definition paired a : Prop := match a with KPolyEval _ rs es => length rs = length es | _ => True end.
Notation all_paired l := (∀ x, x ∈ l → paired x).
Lemma paired_app (l1 l2 : list (kaction P)) : all_paired l1 → all_paired l2 → all_paired (l1 ++ l2).
Proof. intros H1 H2 x [Hx|Hx]%elem_of_app; auto. Qed.
Lemma paired_nil : all_paired ([] : list (kaction P)).
Proof. intros x Hx. by apply elem_of_nil in Hx. Qed.
Lemma paired_one a : paired a → all_paired [a].
Proof. intros H x ->%elem_of_list_singleton. done. Qed.

Lemma start_dealing_paired (i : kinput P PK) k next k' acts : start_dealing i k next = Some (k', acts) → all_paired acts.
Proof.
  unfold start_dealing. destruct (start_phase1 _ _) as [[q [[c evals]|]]|]; cbn; [|done..]. destruct (next =? dealing); cbn; intros [= _ <-]; [by apply paired_one|apply paired_nil].
Qed.
Lemma start_accusing_paired k next k' acts : start_accusing k next = Some (k', acts) → all_paired acts.
Proof.
  unfold start_accusing. destruct (start_phase2 _) as [[q l]|]; cbn; [|done]. destruct (next =? accusing); cbn; [|intros [= _ <-]; apply paired_nil].
  destruct l as [|x l]; [intros [= _ <-]; apply paired_nil|]. destruct (mapM _ _); cbn; [|done]. intros [= _ <-]. by apply paired_one.
Qed.
Lemma start_apologizing_paired k next k' acts : start_apologizing k next = Some (k', acts) → all_paired acts.
Proof.
  unfold start_apologizing. destruct (start_phase3 _) as [[q l]|]; cbn; [|done]. destruct (next =? apologizing); cbn; [|intros [= _ <-]; apply paired_nil].
  destruct l as [|x l]; [intros [= _ <-]; apply paired_nil|]. destruct (mapM _ _); cbn; [|done]. intros [= _ <-]. by apply paired_one.
Qed.
Lemma dkg_finalize_paired k k' g acts : dkg_finalize k = Some (k', g, acts) → all_paired acts.
Proof. unfold dkg_finalize. destruct (finalize _) as [q|]; cbn; [|done]. destruct (compute_result q); intros [= _ _ <-]; by apply paired_one. Qed.
Lemma sync_dkg_paired dec plen (i : kinput P PK) k e k' g acts : sync_dkg dec plen i k e = Some (k', g, acts) → all_paired acts.
Proof.
  unfold sync_dkg. intros H.
  apply bind_Some in H as ([k1 a1] & H1 & H). apply bind_Some in H as (k2 & _ & H). apply bind_Some in H as (k3 & _ & H). apply bind_Some in H as ([k4 a2] & H2 & H).
  apply bind_Some in H as (k5 & _ & H). apply bind_Some in H as ([k6 a3] & H3 & H). apply bind_Some in H as (k7 & _ & H). apply bind_Some in H as ([[k8 g8] a4] & H4 & H). injection H as <- <- <-.
  repeat apply paired_app.
  - match type of H1 with (if ?b then _ else _) = _ => destruct b end; [by eapply start_dealing_paired|]. injection H1 as _ <-. apply paired_nil.
  - match type of H2 with (if ?b then _ else _) = _ => destruct b end; [by eapply start_accusing_paired|]. injection H2 as _ <-. apply paired_nil.
  - match type of H3 with (if ?b then _ else _) = _ => destruct b end; [by eapply start_apologizing_paired|]. injection H3 as _ <-. apply paired_nil.
  - match type of H4 with (if ?b then _ else _) = _ => destruct b end; [by eapply dkg_finalize_paired|]. injection H4 as _ _ <-. apply paired_nil.
Qed.
Lemma send_poly_evals_paired (i : kinput P PK) k k' acts : send_poly_evals i k = Some (k', acts) → all_paired acts.
Proof.
  unfold send_poly_evals. destruct (k_outgoing k) as [|o out]; [intros [= _ <-]; apply paired_nil|]. destruct (dealing <? _); [intros [= _ <-]; apply paired_nil|].
  destruct (mapM _ _) as [l|]; cbn [mbind option_bind]; [|done]. destruct (omap _ l) as [|x ready]; intros [= _ <-]; [apply paired_nil|]. apply paired_one. cbn. by rewrite !fmap_length.
Qed.
Lemma handle_dkgs_paired dec plen (i : kinput P PK) ks ks' gs acts : handle_dkgs dec plen i ks = Some (ks', gs, acts) → all_paired acts.
Proof.
  revert ks' gs acts. induction ks as [|k ks IH]; cbn [handle_dkgs]; intros ks' gs acts H; [injection H as _ _ <-; apply paired_nil|].
  destruct (is_finalized k).
  - apply bind_Some in H as ([[ks1 gs1] a1] & H1 & H). injection H as _ _ <-. by eapply IH.
  - apply bind_Some in H as (e & _ & H). apply bind_Some in H as ([[k1 g1] a1] & H1 & H). apply bind_Some in H as ([k2 a2] & H2 & H). apply bind_Some in H as ([[ks3 gs3] a3] & H3 & H). injection H as _ _ <-.
    repeat apply paired_app; [by eapply sync_dkg_paired|by eapply send_poly_evals_paired|by eapply IH].
Qed.
Lemma publish_shares_paired me ep (i : kinput P PK) gs next next' acts : publish_shares me ep i gs next = Some (next', acts) → all_paired acts.
Proof.
  unfold publish_shares. intros H. apply bind_Some in H as (n & _ & H). apply bind_Some in H as (c & _ & H). destruct (config_by_index _ _); [|injection H as _ <-; apply paired_nil].
  apply bind_Some in H as (b & _ & H). apply bind_Some in H as (l & Hl & H). injection H as _ <-. intros x (y & Hx & Hy)%elem_of_list_join.
  apply mapM_Some in Hl. apply elem_of_list_lookup in Hy as (j & Hy). destruct (Forall2_lookup_r _ _ _ _ _ Hl Hy) as (z & _ & Hz). apply bind_Some in Hz as (t & _ & Hz). injection Hz as <-.
  destruct t; [by apply elem_of_nil in Hx|]. unfold publish_share in Hx. repeat case_match; try (by apply elem_of_nil in Hx). by apply elem_of_list_singleton in Hx as ->.
Qed.
Lemma decide_step_paired dec plen me ep dcb kec er ab ba sg stg ord (s s' : kstate P) (i : kinput P PK) acts :
  decide_step dec plen me ep dcb kec er ab ba sg stg ord s i = Some (s', acts) → all_paired acts.
Proof.
  assert (Hx : ∀ l : list action, all_paired ((KAction <$> l) : list (kaction P))) by (intros l x (y & -> & _)%elem_of_list_fmap; done).
  unfold decide_step. destruct (negb _); [intros [= _ <-]; apply paired_nil|]. destruct (negb _); [intros [= _ <-]; apply paired_nil|]. destruct (negb _); [intros [= _ <-]; apply paired_nil|].
  destruct (check_in _ _ _) as [s1 a1] eqn:E1. destruct (send_config _ _ _) as [s2 a2] eqn:E2. destruct (start_dkgs _ _ _ _ _) as [le new] eqn:E3. intros H.
  apply bind_Some in H as ([[dkgs ekgs] a3] & H3 & H). apply bind_Some in H as ([ekgs' keys] & _ & H). apply bind_Some in H as ([x1 a4] & _ & H). apply bind_Some in H as ([next a5] & H5 & H).
  apply bind_Some in H as (x2 & _ & H). apply bind_Some in H as ([x3 a6] & _ & H). apply bind_Some in H as ([x4 a7] & _ & H). apply bind_Some in H as ([x5 a8] & _ & H). injection H as _ <-.
  repeat apply paired_app; try apply Hx.
  - unfold check_in in E1. repeat case_match; injection E1 as _ <-; first [apply paired_nil|by apply paired_one].
  - unfold send_config in E2. repeat case_match; injection E2 as _ <-; first [apply paired_nil|by apply paired_one].
  - by eapply handle_dkgs_paired.
  - by eapply publish_shares_paired.
Qed.
Lemma run_paired {R} (make_event : R → Z → option (shutter_event (body P) sconfig PK (N * list N))) chain plen ep p m (l : list (kinput P PK)) s acts : keyper_run make_event chain plen ep p m l s acts → all_paired (mjoin acts).
Proof.
  intros [_ H]. unfold decisions_of in H. revert H. generalize (new_kstate : kstate P). revert s acts. induction l as [|i l IH]; intros s acts s0 H; cbn [decide_all] in H.
  - injection H as _ <-. apply paired_nil.
  - apply bind_Some in H as ([s1 a] & H1 & H). apply bind_Some in H as ([s2 al] & H2 & H). injection H as _ <-. cbn [mjoin list_join]. apply paired_app; [by eapply decide_step_paired|by eapply IH].
Qed.
End Paired.

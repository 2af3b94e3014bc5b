(** The basic invariant of the ABCI application, for every history. *)
From stdpp Require Import gmap list sorting.
From Coq Require Import NArith ZArith Lia.
From RecordUpdate Require Import RecordUpdate.
From Verif Require Import AppModel AppSpec AppSteps VotingProofs.

Definition virgin (s : app) : Prop := configs s = [zero_config].

Definition configs_ok (l : list config) : Prop :=
  (∃ c0, l !! 0 = Some c0 ∧ cf_start c0 = 0%N) ∧
  ∀ i j ci cj, i < j → l !! i = Some ci → l !! j = Some cj →
    (cf_index ci < cf_index cj)%N ∧ (cf_start ci ≤ cf_start cj)%N.

(** flags only ever get set *)
Definition evolves (c d : config) : Prop :=
  same_config c d ∧ (cf_started c = true → cf_started d = true) ∧
  (cf_vupdated c = true → cf_vupdated d = true).

Record Inv (s : app) : Prop := mkInv {
  inv_configs : configs_ok (configs s);
  inv_valid : virgin s ∨ ∀ c, c ∈ configs s → ensure_valid c = true;
  inv_cv_wf : voting_wf (config_voting s);
  inv_cv : ∀ l, last_config s = Some l →
    no_winner (vt_votes (config_voting s)) (int_of_uint64 (cf_threshold l)) ∧
    ∀ a i, vt_votes (config_voting s) !! a = Some i → a ∈ cf_keypers l;
  inv_ev : ∀ k v, eon_votings s !! k = Some v → voting_wf v ∧
    ∃ c, c ∈ configs s ∧ cf_index c = k ∧ no_winner (vt_votes v) (int_of_uint64 (cf_threshold c)) ∧
         ∀ a i, vt_votes v !! a = Some i → a ∈ cf_keypers c;
  inv_dkg : ∀ e d, dkg_map s !! e = Some d → dkg_eon d = e ∧
    ∃ c, c ∈ configs s ∧ same_config (dkg_config d) c;
  inv_virgin : virgin s → vt_votes (config_voting s) = ∅ ∧ eon_votings s = ∅ ∧ dkg_map s = ∅ ∧
    batch_states s = ∅ ∧ identities s = ∅ ∧ started_votes s = ∅ ∧ eon_counter s = 0%N
}.

Lemma same_config_refl c : same_config c c. Proof. by unfold same_config. Qed.
Lemma same_config_trans c d e : same_config c d → same_config d e → same_config c e.
Proof. unfold same_config. intuition congruence. Qed.
Lemma evolves_refl c : evolves c c. Proof. by split; [apply same_config_refl|]. Qed.
Lemma evolves_trans c d e : evolves c d → evolves d e → evolves c e.
Proof. intros (?&?&?) (?&?&?). split; [eauto using same_config_trans|naive_solver]. Qed.

Lemma set_last_last (l : list config) c c' : last l = Some c → set_last l c' = removelast l ++ [c'] ∧ l = removelast l ++ [c].
Proof.
  intros H. split; [done|]. destruct l as [|x l] using rev_ind; [done|].
  rewrite last_snoc in H. simplify_eq. by rewrite removelast_last.
Qed.

(** shape of the configs after EndBlock *)
Lemma end_block_flags_spec s s' :
  end_block_flags s = Some s' →
  ∃ pre l l' , configs s = pre ++ [l] ∧ evolves l l' ∧ (pre = [] → cf_started l = false → l' = l) ∧
    ((s' = s <| configs := pre ++ [l'] |>) ∨
     (s' = s <| started_votes := ∅ |> <| configs := pre ++ [l'] |> ∧ cf_started l' = true ∧
      ∃ q p, pre = q ++ [p] ∧ (cf_threshold p ≤ N.of_nat (size (started_votes s)))%N)).
Proof.
  unfold end_block_flags. intros H.
  destruct (last_config s) as [l|] eqn:Hl; cbn [mbind option_bind] in H; [|done].
  destruct (set_last_last (configs s) l l Hl) as [_ Hpre].
  set (pre := removelast (configs s)) in *.
  destruct (2 <=? length (configs s)) eqn:Hlen; cbn [mbind option_bind] in H.
  - apply Nat.leb_le in Hlen.
    destruct (configs s !! (length (configs s) - 2)) as [p|] eqn:Hp; cbn in H; [|done].
    assert (∃ q, pre = q ++ [p]) as [q Hq].
    { rewrite Hpre in Hp, Hlen. rewrite app_length in Hp, Hlen. simpl in Hp, Hlen.
      replace (length pre + 1 - 2) with (length pre - 1) in Hp by lia.
      rewrite lookup_app_l in Hp by lia.
      destruct pre as [|x pre' _] using rev_ind; [simpl in Hlen; lia|].
      rewrite app_length in Hp. simpl in Hp. replace (length pre' + 1 - 1) with (length pre') in Hp by lia.
      rewrite lookup_app_r in Hp by lia. rewrite Nat.sub_diag in Hp. simpl in Hp. simplify_eq. eauto. }
    destruct (cf_threshold p <=? N.of_nat (size (started_votes s)))%N eqn:Hst; cbn in H.
    + injection H as H.
      match type of H with context [removelast _ ++ [?l2]] => exists pre, l, l2 | context [set_last _ ?l2] => exists pre, l, l2 end.
      split; [done|]. apply N.leb_le in Hst. split.
      { split; [by repeat case_match|]. split; by repeat case_match. }
      split; [intros ->; by destruct q|].
      right. split; [by rewrite <- H|]. split; [by repeat case_match|]. eauto.
    + injection H as H.
      match type of H with context [removelast _ ++ [?l2]] => exists pre, l, l2 | context [set_last _ ?l2] => exists pre, l, l2 end.
      split; [done|]. split.
      { split; [by repeat case_match|]. split; by repeat case_match. }
      split; [intros ->; by destruct q|].
      left. by rewrite <- H.
  - injection H as H.
    match type of H with context [removelast _ ++ [?l2]] => exists pre, l, l2 | context [set_last _ ?l2] => exists pre, l, l2 end.
    split; [done|]. split.
    { split; [by repeat case_match|]. split; by repeat case_match. }
    split; [intros _ Hns; by rewrite Hns|].
    left. by rewrite <- H.
Qed.

(** configs after flag evolution *)
Lemma configs_ok_evolve pre l l' : evolves l l' → configs_ok (pre ++ [l]) → configs_ok (pre ++ [l']).
Proof.
  intros [(Hs & _ & _ & _ & Hi) _] [[c0 [H0 Hs0]] Hord].
  assert (Hlk : ∀ i c', (pre ++ [l']) !! i = Some c' →
            ∃ c, (pre ++ [l]) !! i = Some c ∧ cf_start c = cf_start c' ∧ cf_index c = cf_index c').
  { intros i c' H. apply lookup_app_Some in H as [H|[Hge H]].
    - exists c'. split; [by apply lookup_app_l_Some|done].
    - destruct (i - length pre) as [|k] eqn:E; simpl in H; [|done]. simplify_eq.
      exists l. split; [|done]. rewrite lookup_app_r by done. by rewrite E. }
  split.
  - destruct pre as [|x pre]; simpl in *.
    + exists l'. simplify_eq. split; [done|congruence].
    + exists x. simplify_eq. done.
  - intros i j ci cj Hij Hci Hcj. apply Hlk in Hci as (c1 & H1 & <- & <-).
    apply Hlk in Hcj as (c2 & H2 & <- & <-). eauto.
Qed.

Lemma configs_ok_snoc l c pre :
  configs_ok (pre ++ [l]) → check_config l c = true → configs_ok ((pre ++ [l]) ++ [c]).
Proof.
  intros [[c0 [H0 Hs0]] Hord] Hc. unfold check_config in Hc.
  apply andb_true_iff in Hc as [Hc Hi]. apply andb_true_iff in Hc as [_ Hs].
  apply negb_true_iff, N.leb_gt in Hi. apply negb_true_iff, N.ltb_ge in Hs.
  split.
  - exists c0. split; [|done]. by apply lookup_app_l_Some.
  - intros i j ci cj Hij Hci Hcj. apply lookup_app_Some in Hcj as [Hcj|[Hge Hcj]].
    + assert (i < length (pre ++ [l])).
      { apply lookup_lt_Some in Hcj. lia. }
      rewrite lookup_app_l in Hci by done. eauto.
    + destruct (j - length (pre ++ [l])) as [|k] eqn:E; simpl in Hcj; [|done]. simplify_eq.
      rewrite lookup_app_l in Hci by lia.
      assert (Hll : (pre ++ [l]) !! length pre = Some l).
      { rewrite lookup_app_r by lia. by rewrite Nat.sub_diag. }
      destruct (decide (i = length pre)) as [->|Hne].
      * rewrite Hci in Hll. simplify_eq. done.
      * assert (i < length pre).
        { apply lookup_lt_Some in Hci. rewrite app_length in Hci. simpl in Hci. lia. }
        destruct (Hord i (length pre) ci l) as [? ?]; [done..|]. lia.
Qed.

Lemma check_config_valid l c : check_config l c = true → ensure_valid c = true.
Proof. unfold check_config. intros H. by apply andb_true_iff in H as [[H _]%andb_true_iff _]. Qed.

Lemma last_config_split s l : last_config s = Some l → ∃ pre, configs s = pre ++ [l].
Proof. intros H. destruct (set_last_last _ _ l H) as [_ Hp]. eauto. Qed.

Lemma ensure_valid_keypers c : ensure_valid c = true → cf_keypers c ≠ [].
Proof.
  unfold ensure_valid. intros H Hk. rewrite Hk in H. by simpl in H.
Qed.
Lemma virgin_no_keypers s a c : virgin s → c ∈ configs s → a ∉ cf_keypers c.
Proof. intros Hv Hc. rewrite Hv in Hc. apply elem_of_list_singleton in Hc as ->. simpl. by intros ?%elem_of_nil. Qed.

Lemma find_rev_Some {A} (f : A → bool) l x :
  List.find f (rev l) = Some x → ∃ l1 l2, l = l1 ++ x :: l2 ∧ f x = true ∧ Forall (λ y, f y = false) l2.
Proof.
  induction l as [|y l IH] using rev_ind; [done|]. rewrite rev_app_distr. simpl.
  destruct (f y) eqn:Hf.
  - intros; simplify_eq. exists l, []. done.
  - intros H. apply IH in H as (l1 & l2 & -> & Hx & Hall). exists l1, (l2 ++ [y]).
    split; [by rewrite <-app_assoc|]. split; [done|]. apply Forall_app. split; [done|]. by constructor.
Qed.
Lemma find_rev_None {A} (f : A → bool) l : List.find f (rev l) = None → Forall (λ y, f y = false) l.
Proof.
  intros H. apply Forall_forall. intros x Hx. eapply find_none; [done|].
  apply in_rev. rewrite rev_involutive. by apply elem_of_list_In.
Qed.

Lemma get_config_spec s b c :
  get_config s b = Some c →
  ∃ l1 l2, configs s = l1 ++ c :: l2 ∧ (cf_start c ≤ b)%N ∧ Forall (λ d, (b < cf_start d)%N) l2.
Proof.
  intros H. apply find_rev_Some in H as (l1 & l2 & Heq & Hle & Hall). exists l1, l2.
  split; [done|]. split; [by apply N.leb_le|]. eapply Forall_impl; [exact Hall|].
  simpl. intros x Hx. by apply N.leb_gt.
Qed.
Lemma get_config_elem s b c : get_config s b = Some c → c ∈ configs s.
Proof. intros (l1 & l2 & -> & _)%get_config_spec. set_solver. Qed.
Lemma get_config_total s b : Inv s → ∃ c, get_config s b = Some c.
Proof.
  intros HI. destruct (get_config s b) as [c|] eqn:E; [eauto|exfalso].
  apply find_rev_None in E. destruct (inv_configs s HI) as [[c0 [H0 Hs]] _].
  rewrite Forall_lookup in E. specialize (E 0 c0 H0). rewrite Hs in E. apply N.leb_gt in E. lia.
Qed.
Lemma last_config_total s : Inv s → ∃ l, last_config s = Some l.
Proof.
  intros HI. destruct (inv_configs s HI) as [[c0 [H0 _]] _]. unfold last_config.
  destruct (last (configs s)) eqn:E; [eauto|]. apply last_None in E. by rewrite E in H0.
Qed.

Lemma cfg_index_inj s c d : Inv s → c ∈ configs s → d ∈ configs s → cf_index c = cf_index d → c = d.
Proof.
  intros HI Hc Hd Heq. apply elem_of_list_lookup in Hc as [i Hi]. apply elem_of_list_lookup in Hd as [j Hj].
  destruct (inv_configs s HI) as [_ Hord].
  destruct (Nat.lt_trichotomy i j) as [H|[H|H]].
  - destruct (Hord i j c d H Hi Hj). lia.
  - subst. congruence.
  - destruct (Hord j i d c H Hj Hi). lia.
Qed.

(** Inv only depends on some of the fields *)
Lemma Inv_ext s s' :
  Inv s → configs s' = configs s → config_voting s' = config_voting s → eon_votings s' = eon_votings s →
  dkg_map s' = dkg_map s → batch_states s' = batch_states s → identities s' = identities s →
  started_votes s' = started_votes s → eon_counter s' = eon_counter s → Inv s'.
Proof.
  intros [H1 H2 H3 H4 H5 H6 H7] E1 E2 E3 E4 E5 E6 E7 E8.
  split; unfold virgin, last_config in *; rewrite ?E1, ?E2, ?E3, ?E4, ?E5, ?E6, ?E7, ?E8; auto.
Qed.

Lemma Inv_new_app dev : Inv (new_app dev).
Proof.
  split.
  - split; [exists zero_config; done|]. intros i j ci cj Hij Hi Hj.
    destruct j as [|[|j]]; [lia|done|done].
  - by left.
  - apply new_voting_wf.
  - intros l Hl. simpl. split; [apply no_winner_empty|]. intros a i H. by rewrite lookup_empty in H.
  - intros k v H. simpl in H. by rewrite lookup_empty in H.
  - intros e d H. simpl in H. by rewrite lookup_empty in H.
  - done.
Qed.

Lemma with_nonce_Inv s a m : Inv s → Inv (with_nonce s a m).
Proof. intros H. by eapply Inv_ext. Qed.

Lemma Inv_add_config s l bc s' :
  Inv s → last_config s = Some l → check_config l bc = true → (∃ a, a ∈ cf_keypers l) →
  configs s' = configs s ++ [bc] → config_voting s' = new_voting → eon_votings s' = eon_votings s →
  (∀ e d, dkg_map s' !! e = Some d → dkg_map s !! e = Some d ∨ (dkg_eon d = e ∧ dkg_config d = bc)) →
  Inv s'.
Proof.
  intros [H1 H2 H3 H4 H5 H6 H7] Hl Hc [a Ha] E1 E2 E3 Hd.
  destruct (last_config_split _ _ Hl) as [pre Hpre].
  split.
  - rewrite E1, Hpre. apply configs_ok_snoc; [by rewrite <-Hpre|done].
  - right. intros c. rewrite E1. intros [Hin| ->%elem_of_list_singleton]%elem_of_app.
    + destruct H2 as [Hv|H2]; [|by apply H2]. exfalso.
      eapply (virgin_no_keypers s a l); [done| |done]. rewrite Hpre. set_solver.
    + by eapply check_config_valid.
  - rewrite E2. apply new_voting_wf.
  - intros l' _. rewrite E2. simpl. split; [apply no_winner_empty|]. intros b i H. by rewrite lookup_empty in H.
  - intros k v. rewrite E3. intros Hk. apply H5 in Hk as [Hwf (c & Hc' & ?)]. split; [done|].
    exists c. split; [|done]. rewrite E1. set_solver.
  - intros e d He. destruct (Hd e d He) as [Hd'|[Hd1 Hd2]].
    + apply H6 in Hd' as [? (c & Hin & ?)]. split; [done|]. exists c. split; [|done]. rewrite E1. set_solver.
    + split; [done|]. exists bc. rewrite E1. split; [set_solver|]. rewrite Hd2. apply same_config_refl.
  - unfold virgin. rewrite E1, Hpre. intros Hv.
    apply (f_equal length) in Hv. rewrite !app_length in Hv. simpl in Hv. lia.
Qed.

Lemma not_virgin s a c : Inv s → c ∈ configs s → a ∈ cf_keypers c → ¬ virgin s.
Proof. intros _ Hc Ha Hv. by eapply virgin_no_keypers. Qed.

Lemma Inv_dkg_update s eon d d' :
  Inv s → dkg_map s !! eon = Some d → dkg_eon d' = dkg_eon d → dkg_config d' = dkg_config d →
  Inv (s <| dkg_map := <[eon := d']> (dkg_map s) |>).
Proof.
  intros [H1 H2 H3 H4 H5 H6 H7] Hd E1 E2.
  split; try done; cbn.
  - intros e d0. destruct (decide (e = eon)) as [->|].
    + rewrite lookup_insert. intros; simplify_eq. rewrite E1, E2. by apply H6.
    + rewrite lookup_insert_ne by done. apply H6.
  - intros Hv. exfalso. apply H7 in Hv as (_ & _ & Hm & _). by rewrite Hm, lookup_empty in Hd.
Qed.

Lemma mstep_Inv O ord s a p s' r : valid_order ord → Inv s → mstep O ord s a p s' r → Inv s'.
Proof.
  intros Ho HI Hm. destruct Hm as [p|m bc Hm Hl|m bc l Hm Hl Hne Hc Hk Hv Hout|m bc l w Hm Hl Hne Hc Hk Hv Hout Hsd
   |m bc l w eon Hm Hl Hne Hc Hk Hv Hout Hsd Heon|v e k Hi Hk Hlen Hd|i l p Hl Hi Hlen Hp Hk Hst
   |i l p Hl Hi Hlen Hp Hk Hst|b c v Hc Hk Hv Hout|b c v w eon Hc Hk Hv Hout Heon|b sig bs bs' Hb Hadd
   |eon rs evs as_ d d' Hlen Hp Hd Hr|eon gs gs' d d' Hg Hd Hr|eon rs as_ d d' Hp Hd Hr
   |eon rs evs as_ d d' Hlen Hp Hd Hr|eon ep sh sh' Hs].
  - done.
  - done.
  - assert (Hin : l ∈ configs s) by (destruct (last_config_split _ _ Hl) as [pre ->]; set_solver).
    pose proof (not_virgin s a l HI Hin Hk) as Hnv.
    destruct HI as [H1 H2 H3 H4 H5 H6 H7].
    split; try done; cbn.
    + by apply add_vote_wf.
    + intros l' Hl'. change (last_config s = Some l') in Hl'. rewrite Hl in Hl'. simplify_eq.
      destruct (H4 l' Hl) as [Hnw Hks]. split.
      * eapply outcome_None_no_winner; eauto.
      * intros b i. destruct (add_vote_spec (config_voting s) a bc) as (j & -> & _).
        destruct (decide (b = a)) as [->|]; [done|]. rewrite lookup_insert_ne by done. apply Hks.
  - eapply Inv_add_config; eauto.
  - eapply Inv_add_config; eauto. cbn. intros e d. destruct (decide (e = eon)) as [->|].
    + rewrite lookup_insert. intros; simplify_eq. by right.
    + rewrite lookup_insert_ne by done. by left.
  - assert (Hnv : ¬ virgin s).
    { apply existsb_exists in Hk as (c & Hin & Hk). apply elem_of_list_In in Hin.
      apply is_keyper_true in Hk. by eapply not_virgin. }
    destruct HI as [H1 H2 H3 H4 H5 H6 H7]. split; done.
  - done.
  - assert (Hnv : ¬ virgin s).
    { eapply not_virgin; [done| |exact Hk]. by eapply elem_of_list_lookup_2. }
    destruct HI as [H1 H2 H3 H4 H5 H6 H7]. split; done.
  - pose proof (get_config_elem _ _ _ Hc) as Hin.
    pose proof (not_virgin s a c HI Hin Hk) as Hnv. pose proof (λ d, cfg_index_inj s c d HI Hin) as Hinj.
    destruct HI as [H1 H2 H3 H4 H5 H6 H7]. split; try done; cbn.
    intros k v0. destruct (decide (k = cf_index c)) as [->|]; [|rewrite lookup_insert_ne by done; apply H5].
    rewrite lookup_insert. intros; simplify_eq.
    set (v1 := default new_voting (eon_votings s !! cf_index c)) in *.
    assert (Hv1 : voting_wf v1 ∧ ∀ b i, vt_votes v1 !! b = Some i → b ∈ cf_keypers c).
    { unfold v1. destruct (eon_votings s !! cf_index c) as [v1'|] eqn:E; simpl.
      - apply H5 in E as [? (c' & Hc' & Heq & _ & Hk')]. split; [done|].
        rewrite (Hinj c' Hc' (eq_sym Heq)). done.
      - split; [apply new_voting_wf|]. intros b' i H. by rewrite lookup_empty in H. }
    destruct Hv1 as [Hwf Hks]. split; [by apply add_vote_wf|]. exists c. split; [done|]. split; [done|].
    split; [by eapply outcome_None_no_winner|].
    intros b' i. destruct (add_vote_spec v1 a b) as (j & -> & _).
    destruct (decide (b' = a)) as [->|]; [done|]. rewrite lookup_insert_ne by done. apply Hks.
  - pose proof (get_config_elem _ _ _ Hc) as Hin.
    pose proof (not_virgin s a c HI Hin Hk) as Hnv.
    destruct HI as [H1 H2 H3 H4 H5 H6 H7]. split; try done; cbn.
    + intros k v0. destruct (decide (k = cf_index c)) as [->|]; [by rewrite lookup_delete|].
      rewrite lookup_delete_ne by done. apply H5.
    + intros e d. destruct (decide (e = eon)) as [->|].
      * rewrite lookup_insert. intros; simplify_eq. split; [done|]. exists c. split; [done|]. apply same_config_refl.
      * rewrite lookup_insert_ne by done. apply H6.
  - assert (Hnv : ¬ virgin s).
    { intros Hv. unfold get_batch_state in Hb. destruct (inv_virgin s HI Hv) as (_&_&_&Hbs&_).
      rewrite Hbs, lookup_empty in Hb. destruct (get_config s b) as [c|] eqn:E; cbn in Hb; [|done]. simplify_eq.
      unfold add_decryption_signature in Hadd. cbn in Hadd. destruct (is_keyper c a) eqn:Hk; [|done].
      apply is_keyper_true in Hk. apply get_config_elem in E. by eapply virgin_no_keypers. }
    destruct HI as [H1 H2 H3 H4 H5 H6 H7]. split; done.
  - eapply Inv_dkg_update; [done|exact Hd|..]; unfold register_poly_eval in Hr; repeat case_match; by simplify_eq.
  - eapply Inv_dkg_update; [done|exact Hd|..]; unfold register_commitment in Hr; repeat case_match; by simplify_eq.
  - eapply Inv_dkg_update; [done|exact Hd|..]; unfold register_accusation in Hr; repeat case_match; by simplify_eq.
  - eapply Inv_dkg_update; [done|exact Hd|..]; unfold register_apology in Hr; repeat case_match; by simplify_eq.
  - done.
Qed.

Lemma evolve_elem (pre : list config) l l' c : evolves l l' → c ∈ pre ++ [l] →
  ∃ c', c' ∈ pre ++ [l'] ∧ evolves c c'.
Proof.
  intros He [H| ->%elem_of_list_singleton]%elem_of_app.
  - exists c. split; [set_solver|apply evolves_refl].
  - exists l'. split; [set_solver|done].
Qed.

Lemma ensure_valid_same c d : same_config c d → ensure_valid c = ensure_valid d.
Proof. intros (H1 & H2 & H3 & _). unfold ensure_valid. by rewrite H2, H3. Qed.

Lemma Inv_evolve s pre l l' s' :
  Inv s → configs s = pre ++ [l] → evolves l l' → (pre = [] → cf_started l = false → l' = l) →
  configs s' = pre ++ [l'] →
  config_voting s' = config_voting s → eon_votings s' = eon_votings s →
  dkg_map s' = dkg_map s → batch_states s' = batch_states s → identities s' = identities s →
  (started_votes s' = started_votes s ∨ started_votes s' = ∅) → eon_counter s' = eon_counter s → Inv s'.
Proof.
  intros [H1 H2 H3 H4 H5 H6 H7] Hc He Hfirst E1 E2 E3 E4 E5 E6 E7 E8.
  assert (Hvir : virgin s' → virgin s).
  { unfold virgin. rewrite E1, Hc. intros Hv. destruct pre as [|x [|y pre]]; simpl in *; [|done|done].
    simplify_eq. destruct He as [(?&?&?&?&?) [Hs Hv']]. destruct l as [? ? ? ? ? st vu]. simpl in *. subst.
    unfold zero_config. destruct st, vu; naive_solver. }
  split.
  - rewrite E1. eapply configs_ok_evolve; [done|]. by rewrite <-Hc.
  - destruct H2 as [Hv|H2].
    + left. unfold virgin in *. rewrite Hc in Hv. rewrite E1.
      destruct pre as [|x [|y pre]]; simplify_eq/=. by rewrite Hfirst.
    + right. intros c. rewrite E1. intros [Hin| ->%elem_of_list_singleton]%elem_of_app.
      * apply H2. rewrite Hc. set_solver.
      * rewrite <-(ensure_valid_same l) by apply He. apply H2. rewrite Hc. set_solver.
  - by rewrite E2.
  - intros l0. unfold last_config. rewrite E1, last_snoc. intros; simplify_eq.
    destruct (H4 l) as [Hn Hk]; [unfold last_config; by rewrite Hc, last_snoc|].
    destruct He as [(_ & Hks & Ht & _) _]. rewrite E2, <-Ht, <-Hks. done.
  - intros k v. rewrite E3. intros Hk. apply H5 in Hk as [Hwf (c & Hin & Hidx & Hn & Hks)]. split; [done|].
    rewrite Hc in Hin. destruct (evolve_elem _ _ _ _ He Hin) as (c' & Hin' & [(_ & Ek & Et & _ & Ei) _]).
    exists c'. rewrite E1, <-Ei, <-Et, <-Ek. done.
  - intros e d. rewrite E4. intros Hd. apply H6 in Hd as [? (c & Hin & Hsame)]. split; [done|].
    rewrite Hc in Hin. destruct (evolve_elem _ _ _ _ He Hin) as (c' & Hin' & [Hs' _]).
    exists c'. rewrite E1. split; [done|]. by eapply same_config_trans.
  - intros Hv. destruct (H7 (Hvir Hv)) as (?&?&?&?&?&Hsv&?). rewrite E2, E3, E4, E5, E6, E8.
    split_and!; try done. by destruct E7 as [->| ->].
Qed.

Lemma Inv_init s ks t vs cid s' : Inv s → init_chain s ks t vs cid = Some s' → Inv s'.
Proof.
  intros HI. unfold init_chain.
  destruct (ensure_valid (genesis_config ks t)) eqn:Hev; cbn [negb]; [|done].
  destruct (configs s !! 0) as [c0|] eqn:H0; cbn; [|done].
  destruct (_ && _)%bool eqn:Hb.
  - destruct (make_powermap_genesis vs) as [pm|]; cbn; [|done]. intros; simplify_eq.
    apply andb_true_iff in Hb as [Hb1 Hb2]. apply Nat.eqb_eq in Hb1, Hb2.
    assert (Hv : virgin s).
    { destruct (inv_valid s HI) as [|Hall]; [done|exfalso]. eapply (ensure_valid_keypers c0).
      - apply Hall. by eapply elem_of_list_lookup_2.
      - by apply nil_length_inv. }
    destruct (inv_virgin s HI Hv) as (Hcv&Hev'&Hdm&Hbs&Hid&Hsv&Hec).
    split; cbn.
    + split; [by exists (genesis_config ks t)|]. intros i j ci cj Hij Hi Hj. destruct j as [|[|j]]; [lia|done|done].
    + right. intros c ->%elem_of_list_singleton. done.
    + apply HI.
    + intros l Hl. rewrite Hcv. split; [apply no_winner_empty|]. intros a i H. by rewrite lookup_empty in H.
    + intros k v. by rewrite Hev', lookup_empty.
    + intros e d. by rewrite Hdm, lookup_empty.
    + done.
  - case_bool_decide; intros; simplify_eq. by eapply Inv_ext.
Qed.

Lemma step_Inv O s c s' r : valid_call c → Inv s → step O s c = Some (s', r) → Inv s'.
Proof.
  intros Hv HI H. destruct c as [ks t vs cid|tx|tx ord|h|]; cbn [step] in H.
  - destruct (init_chain s ks t vs cid) as [s1|] eqn:E; cbn in H; simplify_eq. by eapply Inv_init.
  - injection H as H. unfold check_tx in H. repeat case_match; simplify_eq; try done; by eapply Inv_ext.
  - apply deliver_tx_cases in H as [[-> _]|(a & m & _ & _ & _ & Hm)]; [done|].
    eapply mstep_Inv; [exact Hv| |exact Hm]. by apply with_nonce_Inv.
  - unfold end_block in H. destruct (end_block_flags s) as [s1|] eqn:E; cbn in H; [|done]. simplify_eq.
    apply end_block_flags_spec in E as (pre & l & l' & Hc & He & Hf & [->|(-> & _)]).
    + eapply (Inv_evolve s pre l l'); try done. by left.
    + eapply (Inv_evolve s pre l l'); try done. by right.
  - injection H as <- <-. by eapply Inv_ext.
Qed.

Lemma exec_Inv O s tr s' : Inv s → exec O s tr s' → Inv s'.
Proof. intros HI H. induction H as [|s tr s1 c r s2 H IH Hv Hs]; [done|]. eapply step_Inv; [exact Hv|by apply IH|exact Hs]. Qed.
Lemma history_Inv O tr s : history O tr s → Inv s.
Proof. intros [dev H]. eapply exec_Inv; [|exact H]. apply Inv_new_app. Qed.

(** Lemmas about vote counting (voting.go, configvoting.go, eonvoting.go). *)
From stdpp Require Import gmap list sorting.
From Coq Require Import NArith ZArith Lia.
From Verif Require Import AppModel AppSpec.

(** the voters of candidate [i] *)
Definition voters (votes : gmap address nat) (i : nat) : list address :=
  (filter (λ p, p.2 = i) (map_to_list votes)).*1.

Lemma voters_length votes i : length (voters votes i) = num_votes votes i.
Proof. unfold voters, num_votes. by rewrite fmap_length. Qed.

Lemma elem_of_voters votes i a : a ∈ voters votes i ↔ votes !! a = Some i.
Proof.
  unfold voters. rewrite elem_of_list_fmap. split.
  - intros ([b j] & -> & Hin). apply elem_of_list_filter in Hin as [? Hin]. simpl in *; subst.
    by apply elem_of_map_to_list in Hin.
  - intros H. exists (a, i). split; [done|]. apply elem_of_list_filter. split; [done|].
    by apply elem_of_map_to_list.
Qed.

Lemma voters_NoDup votes i : NoDup (voters votes i).
Proof.
  unfold voters. generalize (NoDup_fst_map_to_list votes). generalize (map_to_list votes). intros l.
  induction l as [|[a j] l IH]; simpl; [done|].
  intros Hnd. apply NoDup_cons in Hnd as [Hn Hnd].
  rewrite filter_cons. simpl. destruct (decide (j = i)) as [->|]; [|by apply IH].
  simpl. apply NoDup_cons. split; [|by apply IH].
  intros Hin. apply Hn. apply elem_of_list_fmap in Hin as (p & -> & Hp).
  apply elem_of_list_filter in Hp as [_ Hp]. apply elem_of_list_fmap. eauto.
Qed.

Lemma elem_of_voted_indices votes i : i ∈ voted_indices votes ↔ ∃ a, votes !! a = Some i.
Proof.
  unfold voted_indices. rewrite elem_of_remove_dups, elem_of_list_fmap. split.
  - intros ([a j] & -> & H). apply elem_of_map_to_list in H. eauto.
  - intros [a Ha]. exists (a, i). split; [done|]. by apply elem_of_map_to_list.
Qed.

Lemma num_votes_perm (l1 l2 : list (address * nat)) i :
  l1 ≡ₚ l2 → length (filter (λ p, p.2 = i) l1) = length (filter (λ p, p.2 = i) l2).
Proof. intros H. by rewrite H. Qed.

Lemma num_votes_insert_None votes a i j :
  votes !! a = None →
  num_votes (<[a := i]> votes) j = num_votes votes j + (if decide (i = j) then 1 else 0).
Proof.
  intros H. unfold num_votes.
  rewrite (num_votes_perm _ _ j (map_to_list_insert votes a i H)), filter_cons. simpl.
  destruct (decide (i = j)); simpl; lia.
Qed.

Lemma num_votes_insert_other votes a i j :
  i ≠ j → num_votes (<[a := i]> votes) j ≤ num_votes votes j.
Proof.
  intros Hne. rewrite <-(insert_delete_insert votes a i), num_votes_insert_None by apply lookup_delete.
  destruct (decide (i = j)); [done|].
  destruct (votes !! a) as [k|] eqn:Ha.
  - rewrite <-(insert_delete votes a k Ha) at 2.
    rewrite num_votes_insert_None by apply lookup_delete. lia.
  - rewrite delete_notin by done. lia.
Qed.

(** no candidate with at least one vote has reached the required number *)
Definition no_winner (votes : gmap address nat) (required : Z) : Prop :=
  ∀ i a, votes !! a = Some i → (Z.of_nat (num_votes votes i) < required)%Z.

Lemma outcome_index_Some ord votes req i :
  valid_order ord → outcome_index ord votes req = Some i →
  (req ≤ Z.of_nat (num_votes votes i))%Z ∧ ∃ a, votes !! a = Some i.
Proof.
  unfold outcome_index. intros Ho H. apply find_some in H as [Hin Hle].
  split; [by apply Z.leb_le|].
  apply elem_of_list_In in Hin. rewrite (Ho (voted_indices votes)) in Hin.
  by apply elem_of_voted_indices.
Qed.

Lemma outcome_index_None ord votes req :
  valid_order ord → outcome_index ord votes req = None → no_winner votes req.
Proof.
  unfold outcome_index. intros Ho H i a Ha.
  assert (Hin : i ∈ ord (voted_indices votes)).
  { rewrite (Ho (voted_indices votes)). apply elem_of_voted_indices. eauto. }
  apply elem_of_list_In in Hin. eapply find_none in H; [|exact Hin]. apply Z.leb_gt in H. lia.
Qed.

(** after one new vote, a winner can only be the candidate voted for *)
Lemma insert_winner votes a i req j b :
  no_winner votes req → <[a := i]> votes !! b = Some j →
  (req ≤ Z.of_nat (num_votes (<[a := i]> votes) j))%Z → j = i.
Proof.
  intros Hnw Hb Hreq. destruct (decide (j = i)) as [|Hne]; [done|exfalso].
  assert (Hb' : votes !! b = Some j).
  { destruct (decide (b = a)) as [->|].
    - rewrite lookup_insert in Hb. congruence.
    - by rewrite lookup_insert_ne in Hb. }
  specialize (Hnw j b Hb').
  pose proof (num_votes_insert_other votes a i j ltac:(congruence)). lia.
Qed.

Lemma outcome_index_insert ord votes a i req :
  valid_order ord → no_winner votes req →
  outcome_index ord (<[a := i]> votes) req =
    if Z.leb req (Z.of_nat (num_votes (<[a := i]> votes) i)) then Some i else None.
Proof.
  intros Ho Hnw. destruct (outcome_index ord (<[a := i]> votes) req) as [j|] eqn:E.
  - apply outcome_index_Some in E as [Hle [b Hb]]; [|done].
    pose proof (insert_winner _ _ _ _ _ _ Hnw Hb Hle) as ->. apply Z.leb_le in Hle. by rewrite Hle.
  - apply outcome_index_None in E; [|done].
    assert (Z.leb req (Z.of_nat (num_votes (<[a := i]> votes) i)) = false) as ->; [|done].
    apply Z.leb_gt. eapply E. apply lookup_insert.
Qed.

(** candidates *)
Section cands.
Context {A : Type} `{EqDecision A}.

Lemma cand_index_Some (l : list A) c i : cand_index l c = Some i → l !! i = Some c.
Proof.
  revert i. induction l as [|x l IH]; intros i; simpl; [done|].
  case_bool_decide as Hx.
  - intros; simplify_eq. done.
  - intros H. destruct (cand_index l c) as [k|] eqn:E; [|done]. simplify_eq/=. by apply IH.
Qed.
Lemma cand_index_None (l : list A) c : cand_index l c = None → c ∉ l.
Proof.
  induction l as [|x l IH]; simpl; [by intros _ ?%elem_of_nil|].
  case_bool_decide as Hx; [done|]. intros H. destruct (cand_index l c); [done|].
  intros [->|Hin]%elem_of_cons; [done|]. by apply IH.
Qed.

(** every vote refers to a candidate; candidates are distinct *)
Definition voting_wf (v : voting A) : Prop :=
  NoDup (vt_cands v) ∧ ∀ a i, vt_votes v !! a = Some i → is_Some (vt_cands v !! i).

Lemma new_voting_wf : voting_wf new_voting.
Proof. split; [constructor|]. intros a i H. simpl in H. by rewrite lookup_empty in H. Qed.

(** [stands v a c]: in [v], [a]'s vote is for candidate [c] *)
Definition stands (v : voting A) (a : address) (c : A) : Prop :=
  ∃ i, vt_votes v !! a = Some i ∧ vt_cands v !! i = Some c.

Lemma add_vote_spec (v : voting A) a c :
  ∃ i, vt_votes (add_vote v a c) = <[a := i]> (vt_votes v) ∧
       vt_cands (add_vote v a c) !! i = Some c ∧
       (vt_cands (add_vote v a c) = vt_cands v ∨
        (c ∉ vt_cands v ∧ vt_cands (add_vote v a c) = vt_cands v ++ [c])).
Proof.
  unfold add_vote, add_vote_for_index. destruct (cand_index (vt_cands v) c) as [i|] eqn:E; simpl.
  - exists i. split_and!; [done|by apply cand_index_Some|by left].
  - exists (length (vt_cands v)). split_and!; [done| |right; split; [by apply cand_index_None|done]].
    rewrite lookup_app_r by lia. by rewrite Nat.sub_diag.
Qed.

Lemma add_vote_wf (v : voting A) a c : voting_wf v → voting_wf (add_vote v a c).
Proof.
  intros [Hnd Hwf]. destruct (add_vote_spec v a c) as (i & Hv & Hc & Hcs). split.
  - destruct Hcs as [->|[Hn ->]]; [done|]. apply NoDup_app. split_and!; [done| |apply NoDup_singleton].
    intros x Hx ->%elem_of_list_singleton. done.
  - intros b j. rewrite Hv. destruct (decide (b = a)) as [->|].
    + rewrite lookup_insert. intros; simplify_eq. eauto.
    + rewrite lookup_insert_ne by done. intros Hb. apply Hwf in Hb.
      destruct Hcs as [->|[_ ->]]; [done|]. destruct Hb as [x Hb]. exists x. by apply lookup_app_l_Some.
Qed.

Lemma stands_add_vote_same (v : voting A) a c : stands (add_vote v a c) a c.
Proof.
  destruct (add_vote_spec v a c) as (i & Hv & Hc & _). exists i. by rewrite Hv, lookup_insert.
Qed.
Lemma stands_add_vote_inv (v : voting A) a c b d : voting_wf v →
  stands (add_vote v a c) b d → (b = a ∧ d = c) ∨ (b ≠ a ∧ stands v b d).
Proof.
  intros [_ Hwf]. destruct (add_vote_spec v a c) as (i & Hv & Hc & Hcs). intros (j & Hj & Hd).
  rewrite Hv in Hj. destruct (decide (b = a)) as [->|Hne].
  - rewrite lookup_insert in Hj. simplify_eq. left. split; [done|]. congruence.
  - rewrite lookup_insert_ne in Hj by done. right. split; [done|]. exists j. split; [done|].
    destruct (Hwf _ _ Hj) as [x Hx]. destruct Hcs as [Heq|[_ Heq]]; rewrite Heq in Hd.
    + done.
    + rewrite lookup_app_l in Hd by (eapply lookup_lt_Some; eauto). done.
Qed.

(** the outcome after adding a vote: the candidate voted for, if it has reached the number *)
Lemma outcome_add_vote ord (v : voting A) a c req :
  valid_order ord → no_winner (vt_votes v) req →
  ∃ i, vt_cands (add_vote v a c) !! i = Some c ∧
       vt_votes (add_vote v a c) = <[a := i]> (vt_votes v) ∧
  outcome ord (add_vote v a c) req =
    if Z.leb req (Z.of_nat (num_votes (vt_votes (add_vote v a c)) i)) then Some c else None.
Proof.
  intros Ho Hnw. destruct (add_vote_spec v a c) as (i & Hv & Hc & _). exists i. split; [done|].
  split; [done|]. unfold outcome. rewrite Hv, outcome_index_insert by done.
  destruct (Z.leb _ _); [done|done].
Qed.

Lemma outcome_order_indep ord1 ord2 (v : voting A) a c req :
  valid_order ord1 → valid_order ord2 → no_winner (vt_votes v) req →
  outcome ord1 (add_vote v a c) req = outcome ord2 (add_vote v a c) req.
Proof.
  intros H1 H2 Hn. unfold outcome. destruct (add_vote_spec v a c) as (i & -> & _).
  by rewrite !outcome_index_insert.
Qed.

Lemma outcome_add_vote_winner ord (v : voting A) a c req w :
  valid_order ord → voting_wf v → no_winner (vt_votes v) req →
  outcome ord (add_vote v a c) req = Some w →
  w = c ∧ ∃ vs, NoDup vs ∧ a ∈ vs ∧ (req ≤ Z.of_nat (length vs))%Z ∧
                ∀ b, b ∈ vs → stands (add_vote v a c) b c.
Proof.
  intros Ho Hwf Hnw H. destruct (outcome_add_vote ord v a c req Ho Hnw) as (i & Hc & Hv & Heq).
  rewrite Heq in H. destruct (Z.leb_spec req (Z.of_nat (num_votes (vt_votes (add_vote v a c)) i))); [|done].
  simplify_eq. split; [done|]. exists (voters (vt_votes (add_vote v a w)) i).
  split_and!.
  - apply voters_NoDup.
  - apply elem_of_voters. by rewrite Hv, lookup_insert.
  - by rewrite voters_length.
  - intros b Hb. apply elem_of_voters in Hb. by exists i.
Qed.

Lemma outcome_None_no_winner ord (v : voting A) a c req :
  valid_order ord → voting_wf v → outcome ord (add_vote v a c) req = None →
  no_winner (vt_votes (add_vote v a c)) req.
Proof.
  intros Ho Hwf H. unfold outcome in H.
  destruct (outcome_index ord (vt_votes (add_vote v a c)) req) as [i|] eqn:E.
  - apply outcome_index_Some in E as [_ [b Hb]]; [|done].
    apply (add_vote_wf v a c) in Hwf as [_ Hwf]. apply Hwf in Hb as [x Hx]. congruence.
  - eapply outcome_index_None; eauto.
Qed.
End cands.

Lemma no_winner_empty req : no_winner ∅ req.
Proof. intros i a. by rewrite lookup_empty. Qed.

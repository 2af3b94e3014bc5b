(** C11, C12: validator power maps. *)
From stdpp Require Import gmap list sorting.
From Coq Require Import NArith ZArith Lia.
From Verif Require Import AppModel AppSpec.

(** ** byte string order *)
Lemma bytes_ltb_spec a b : bytes_ltb a b = true ↔ bytes_lt a b.
Proof.
  split.
  - revert b. induction a as [|x a IH]; intros [|y b]; simpl; try done; [constructor|].
    destruct (N.ltb_spec x y); [by constructor|]. destruct (N.ltb_spec y x); [done|].
    intros Hab. assert (x = y) as -> by lia. apply blt_tail. by apply IH.
  - induction 1 as [y b|x y a b H|x a b H IH]; simpl; [done| |].
    + by apply N.ltb_lt in H as ->.
    + by rewrite N.ltb_irrefl.
Qed.
Lemma bytes_lt_irrefl a : ¬ bytes_lt a a.
Proof. induction a as [|x a IH]; inversion 1; subst; [lia|done]. Qed.
Lemma bytes_lt_trans a b c : bytes_lt a b → bytes_lt b c → bytes_lt a c.
Proof.
  intros H. revert c. induction H as [y b|x y a b H|x a b H IH]; intros c Hc; inversion Hc; subst.
  all: first [apply blt_tail; by auto | apply blt_head; lia | apply blt_nil].
Qed.
Lemma bytes_lt_total a b : bytes_lt a b ∨ a = b ∨ bytes_lt b a.
Proof.
  revert b. induction a as [|x a IH]; intros [|y b]; [auto|left; constructor|right; right; constructor|].
  destruct (N.lt_total x y) as [H|[->|H]]; [left; by constructor| |right; right; by constructor].
  destruct (IH b) as [H|[->|H]]; [left; by apply blt_tail|auto|right; right; by apply blt_tail].
Qed.

(** the order on updates *)
Definition upd_lt (u v : vupdate) : Prop := bytes_lt u.1 v.1.

Lemma insert_update_perm u l : insert_update u l ≡ₚ u :: l.
Proof.
  induction l as [|v l IH]; simpl; [done|]. destruct (bytes_ltb v.1 u.1); [|done].
  rewrite IH. apply Permutation_swap.
Qed.
Lemma sort_updates_perm l : sort_updates l ≡ₚ l.
Proof. induction l as [|u l IH]; simpl; [done|]. by rewrite insert_update_perm, IH. Qed.

Lemma insert_update_sorted u l : u.1 ∉ l.*1 → StronglySorted upd_lt l → StronglySorted upd_lt (insert_update u l).
Proof.
  intros Hn Hs. induction Hs as [|v l Hs IH Hv]; simpl; [by repeat constructor|].
  rewrite fmap_cons in Hn. apply not_elem_of_cons in Hn as [Hne Hn].
  destruct (bytes_ltb v.1 u.1) eqn:E.
  - constructor; [by apply IH|]. rewrite (insert_update_perm u l). constructor; [by apply bytes_ltb_spec|done].
  - assert (upd_lt u v) as Huv.
    { destruct (bytes_lt_total u.1 v.1) as [|[|H]]; [done|done|]. apply bytes_ltb_spec in H. congruence. }
    constructor; [by constructor|]. constructor; [done|].
    eapply Forall_impl; [exact Hv|]. intros w Hw. by eapply bytes_lt_trans.
Qed.
Lemma sort_updates_sorted l : NoDup l.*1 → StronglySorted upd_lt (sort_updates l).
Proof.
  induction l as [|u l IH]; simpl; [constructor|]. rewrite NoDup_cons. intros [Hn Hnd].
  apply insert_update_sorted; [|by apply IH]. by rewrite (sort_updates_perm l).
Qed.
Lemma upd_sorted_unique l1 l2 : StronglySorted upd_lt l1 → StronglySorted upd_lt l2 → l1 ≡ₚ l2 → l1 = l2.
Proof.
  assert (AntiSymm (=) upd_lt).
  { intros u v H1 H2. exfalso. eapply bytes_lt_irrefl. by eapply bytes_lt_trans. }
  by apply StronglySorted_unique.
Qed.

Lemma validator_updates_perm pm : validator_updates pm ≡ₚ map_to_list pm.
Proof. apply sort_updates_perm. Qed.
Lemma validator_updates_sorted pm : StronglySorted upd_lt (validator_updates pm).
Proof. apply sort_updates_sorted, NoDup_fst_map_to_list. Qed.
Lemma validator_updates_NoDup pm : NoDup (validator_updates pm).*1.
Proof. rewrite validator_updates_perm. apply NoDup_fst_map_to_list. Qed.
Lemma elem_of_validator_updates pm k p : (k, p) ∈ validator_updates pm ↔ pm !! k = Some p.
Proof. rewrite validator_updates_perm. apply elem_of_map_to_list. Qed.
(** whatever order Go lists the map in and however sort.Slice works, the result is this list *)
Lemma validator_updates_canonical pm l : l ≡ₚ map_to_list pm → StronglySorted upd_lt l → l = validator_updates pm.
Proof.
  intros Hp Hs. apply upd_sorted_unique; [done|apply validator_updates_sorted|]. by rewrite validator_updates_perm.
Qed.

(** ** applying updates *)
Lemma apply_update_lookup pm u k : apply_update pm u !! k =
  if decide (u.1 = k) then (if Z.eqb u.2 0 then None else Some u.2) else pm !! k.
Proof.
  unfold apply_update. destruct (decide (u.1 = k)) as [<-|Hne].
  - destruct (Z.eqb u.2 0); [apply lookup_delete|apply lookup_insert].
  - destruct (Z.eqb u.2 0); [by apply lookup_delete_ne|by apply lookup_insert_ne].
Qed.
Lemma apply_updates_notin pm us k : k ∉ us.*1 → apply_updates pm us !! k = pm !! k.
Proof.
  revert pm. induction us as [|u us IH]; intros pm; simpl; [done|]. rewrite not_elem_of_cons. intros [Hne Hn].
  unfold apply_updates in IH. rewrite IH by done. rewrite apply_update_lookup. by rewrite decide_False.
Qed.
Lemma apply_updates_in pm us k p : NoDup us.*1 → (k, p) ∈ us →
  apply_updates pm us !! k = if Z.eqb p 0 then None else Some p.
Proof.
  revert pm. induction us as [|u us IH]; intros pm; simpl; [by intros _ ?%elem_of_nil|].
  rewrite NoDup_cons. intros [Hn Hnd] [<-|Hin]%elem_of_cons.
  - change (apply_updates (apply_update pm (k, p)) us !! k = if Z.eqb p 0 then None else Some p).
    rewrite apply_updates_notin by done. rewrite apply_update_lookup. simpl. by rewrite decide_True.
  - by apply IH.
Qed.

(** ** the diff *)
Lemma diff_lookup old new k : diff_powermaps old new !! k =
  match new !! k with
  | Some p => if decide (power old k = p) then None else Some p
  | None => match old !! k with Some _ => Some 0%Z | None => None end
  end.
Proof.
  unfold diff_powermaps, power.
  destruct (new !! k) as [p|] eqn:En.
  - rewrite (lookup_union_l (filter _ new)).
    2: { rewrite lookup_fmap. apply fmap_None, map_filter_lookup_None. right. intros q _. simpl. congruence. }
    destruct (decide (default 0%Z (old !! k) = p)) as [Hd|Hd].
    + apply map_filter_lookup_None. right. intros q Hq. simpl. rewrite En in Hq. injection Hq as <-. intros H. by apply H.
    + apply map_filter_lookup_Some. split; [done|]. done.
  - rewrite lookup_union_r.
    2: { apply map_filter_lookup_None. left. done. }
    rewrite lookup_fmap. destruct (old !! k) as [q|] eqn:Eo.
    + assert (filter (λ p, new !! p.1 = None) old !! k = Some q) as ->; [|done].
      apply map_filter_lookup_Some. done.
    + assert (filter (λ p, new !! p.1 = None) old !! k = None) as ->; [|done].
      apply map_filter_lookup_None. by left.
Qed.

Definition no_zero (pm : gmap bytes Z) : Prop := ∀ k, pm !! k ≠ Some 0%Z.

Lemma diff_apply old new : no_zero new →
  apply_updates old (validator_updates (diff_powermaps old new)) = new.
Proof.
  intros Hnz. apply map_eq. intros k.
  pose proof (diff_lookup old new k) as Hd. unfold power in Hd.
  assert (Hnone : diff_powermaps old new !! k = None →
    apply_updates old (validator_updates (diff_powermaps old new)) !! k = old !! k).
  { intros Hn. apply apply_updates_notin. intros ([k' p] & Hk & Hin)%elem_of_list_fmap. simpl in Hk. subst k'.
    apply elem_of_validator_updates in Hin. congruence. }
  assert (Hsome : ∀ p, diff_powermaps old new !! k = Some p →
    apply_updates old (validator_updates (diff_powermaps old new)) !! k = if Z.eqb p 0 then None else Some p).
  { intros p Hp. apply apply_updates_in; [apply validator_updates_NoDup|]. by apply elem_of_validator_updates. }
  destruct (new !! k) as [p|] eqn:En.
  - destruct (decide (default 0%Z (old !! k) = p)) as [Hp|Hp].
    + rewrite (Hnone Hd). destruct (old !! k) as [q|]; simpl in Hp; [by subst|]. subst p. by destruct (Hnz k).
    + rewrite (Hsome _ Hd). destruct (Z.eqb_spec p 0) as [->|]; [by destruct (Hnz k)|done].
  - destruct (old !! k) as [q|] eqn:Eo.
    + rewrite (Hsome _ Hd). done.
    + by rewrite (Hnone Hd), ?Eo.
Qed.

Lemma diff_no_noop old new k p : no_zero old → no_zero new →
  (k, p) ∈ validator_updates (diff_powermaps old new) →
  power old k ≠ p ∧ power new k = p ∧ (p = 0%Z → is_Some (old !! k)).
Proof.
  intros Ho Hn. rewrite elem_of_validator_updates, diff_lookup. unfold power.
  destruct (new !! k) as [q|] eqn:En.
  - destruct (decide _) as [|Hne]; [done|]. intros; simplify_eq. simpl. split; [done|]. split; [done|].
    intros ->. by destruct (Hn k).
  - destruct (old !! k) as [q|] eqn:Eo; [|done]. intros; simplify_eq. simpl.
    split; [|by split]. intros ->. by destruct (Ho k).
Qed.

(** ** the power map of a keyper set *)
Lemma make_powermap_lookup ids ks k : make_powermap ids ks !! k =
  if decide (keypers_with_key ids ks k = 0%Z) then None else Some (10 * keypers_with_key ids ks k)%Z.
Proof.
  induction ks as [|a ks IH] using rev_ind; [done|].
  unfold make_powermap. rewrite foldl_app. fold (make_powermap ids ks). simpl.
  unfold keypers_with_key in *. rewrite filter_app, app_length, Nat2Z.inj_add, filter_cons, filter_nil.
  set (n := Z.of_nat (length (filter _ ks))) in *. assert (0 ≤ n)%Z by lia.
  destruct (decide (default non_existent_validator (ids !! a) = k)) as [<-|Hne].
  - rewrite lookup_insert, IH. simpl. destruct (decide (n = 0%Z)) as [->|].
    + done.
    + rewrite decide_False by lia. simpl. f_equal. lia.
  - rewrite lookup_insert_ne by done. rewrite IH. simpl. rewrite Z.add_0_r. done.
Qed.
Lemma make_powermap_power ids ks k : power (make_powermap ids ks) k = (10 * keypers_with_key ids ks k)%Z.
Proof. unfold power. rewrite make_powermap_lookup. destruct (decide _) as [->|]; done. Qed.
Lemma make_powermap_no_zero ids ks : no_zero (make_powermap ids ks).
Proof.
  intros k. rewrite make_powermap_lookup. destruct (decide _) as [|Hne]; [done|]. intros H. injection H as H.
  unfold keypers_with_key in *. lia.
Qed.

Lemma total_power_insert pm k p : total_power (<[k := p]> pm) = (total_power pm - power pm k + p)%Z.
Proof.
  unfold total_power, power.
  assert (Hins : ∀ m : gmap bytes Z, m !! k = None → ∀ q,
    map_fold (λ _ p acc, (p + acc)%Z) 0%Z (<[k := q]> m) = (q + map_fold (λ _ p acc, (p + acc)%Z) 0%Z m)%Z).
  { intros m Hm q. apply map_fold_insert_L; [|done]. intros. lia. }
  destruct (pm !! k) as [q|] eqn:E; simpl.
  - rewrite <-(insert_delete pm k q E) at 2. rewrite <-(insert_delete_insert pm).
    rewrite !Hins by apply lookup_delete. lia.
  - rewrite Hins by done. lia.
Qed.
Lemma make_powermap_total ids ks : total_power (make_powermap ids ks) = (10 * Z.of_nat (length ks))%Z.
Proof.
  induction ks as [|a ks IH] using rev_ind; [done|].
  unfold make_powermap. rewrite foldl_app. fold (make_powermap ids ks). simpl.
  rewrite total_power_insert, IH, app_length. unfold power. simpl. lia.
Qed.

(** ** genesis validators *)
Lemma make_powermap_genesis_Some vs pm : NoDup vs.*1 → make_powermap_genesis vs = Some pm → pm = list_to_map vs.
Proof.
  revert pm. induction vs as [|[k p] vs IH] using rev_ind; intros pm Hnd; [by intros [= <-]|].
  unfold make_powermap_genesis. rewrite foldl_app. fold (make_powermap_genesis vs).
  rewrite fmap_app in Hnd. apply NoDup_app in Hnd as (Hnd & Hdis & _).
  destruct (make_powermap_genesis vs) as [pm0|]; simpl; [|done]. specialize (IH pm0 Hnd eq_refl).
  destruct (length k =? 32); [|done]. intros [= <-]. subst pm0.
  assert (Hk : (list_to_map vs : gmap bytes Z) !! k = None).
  { apply not_elem_of_list_to_map_1. intros Hin. apply (Hdis k Hin). simpl. set_solver. }
  assert (default 0%Z ((list_to_map vs : gmap bytes Z) !! k) = 0%Z) as Hd by by rewrite Hk.
  change (<[k := (default 0 ((list_to_map vs : gmap bytes Z) !! k) + p)%Z]> (list_to_map vs : gmap bytes Z) = list_to_map (vs ++ [(k, p)])).
  rewrite Hd. apply map_eq. intros k'.
  destruct (decide (k' = k)) as [->|Hne].
  - rewrite lookup_insert. symmetry. apply elem_of_list_to_map_1; [|set_solver].
    rewrite fmap_app. apply NoDup_app. split_and!; [done|done|apply NoDup_singleton].
  - rewrite lookup_insert_ne by done. rewrite list_to_map_app.
    destruct ((list_to_map vs : gmap bytes Z) !! k') as [q|] eqn:E.
    + symmetry. by apply lookup_union_Some_l.
    + rewrite lookup_union_r by done. simpl. by rewrite lookup_insert_ne.
Qed.
Lemma list_to_map_no_zero (vs : list vupdate) : (∀ k p, (k, p) ∈ vs → (0 < p)%Z) → no_zero (list_to_map vs).
Proof. intros H k Hk. apply elem_of_list_to_map_2 in Hk. apply H in Hk. lia. Qed.

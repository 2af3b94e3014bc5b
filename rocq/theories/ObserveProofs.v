(** Lemmas about ObserveModel.v: binary search, filtering, eon lookup, fetching. *)
From stdpp Require Import list gmap sorting.
From Coq Require Import ZArith NArith Lia.
From Verif Require Import ObserveModel.

(** ** sort.Search *)
Lemma search_loop_spec fuel f i j n :
  i ≤ j ≤ n → j - i < fuel →
  (∀ x y, x ≤ y < n → f x = true → f y = true) →
  (∀ x, x < i → f x = false) → (∀ x, j ≤ x < n → f x = true) →
  let r := search_loop fuel f i j in i ≤ r ≤ j ∧ (∀ x, x < r → f x = false) ∧ (∀ x, r ≤ x < n → f x = true).
Proof.
  revert i j. induction fuel as [|fuel IH]; intros i j Hij Hf Hm Hlo Hhi; [lia|]. cbn [search_loop].
  destruct (Nat.ltb_spec i j) as [Hlt|Hge].
  - set (h := (i + j) / 2).
    assert (i ≤ h < j) as Hh.
    { unfold h. split; [apply Nat.div_le_lower_bound; lia|apply Nat.div_lt_upper_bound; lia]. }
    destruct (f h) eqn:E.
    + destruct (IH i h) as (H1 & H2 & H3); [lia|lia|done|done| |].
      * intros x Hx. apply (Hm h x); [lia|done].
      * split; [lia|]. done.
    + destruct (IH (h + 1) j) as (H1 & H2 & H3); [lia|lia|done| |done|].
      * intros x Hx. destruct (f x) eqn:Ex; [|done]. assert (f h = true) by (apply (Hm x h); [lia|done]). congruence.
      * split; [lia|]. done.
  - replace j with i in * by lia. split; [lia|]. done.
Qed.
Lemma sort_search_spec n f :
  (∀ x y, x ≤ y < n → f x = true → f y = true) →
  sort_search n f ≤ n ∧ (∀ x, x < sort_search n f → f x = false) ∧ (∀ x, sort_search n f ≤ x < n → f x = true).
Proof.
  intros Hm. unfold sort_search.
  destruct (search_loop_spec (n + 1) f 0 n n) as (H1 & H2 & H3); [lia|lia|done|lia|lia|]. split; [lia|done].
Qed.

Section Events.
Context {B : Type}.
Notation eonev := (eon_event B).
(** heights do not decrease *)
Notation sorted_heights := (StronglySorted (λ x y : eonev, (ev_height x ≤ ev_height y)%Z)).
(** the events from a height on *)
Definition since (h : Z) (l : list eonev) : list eonev := filter (λ x, (h ≤ ev_height x)%Z) l.

Lemma sorted_lookup (l : list eonev) i j x y : sorted_heights l → i ≤ j → l !! i = Some x → l !! j = Some y → (ev_height x ≤ ev_height y)%Z.
Proof.
  intros HS. revert i j. induction HS as [|z l HS IH HF]; intros i j Hij Hi Hj; [done|].
  destruct i as [|i], j as [|j]; cbn in Hi, Hj.
  - congruence || (injection Hi as ->; injection Hj as ->; lia).
  - injection Hi as ->. rewrite Forall_forall in HF. apply HF. by eapply elem_of_list_lookup_2.
  - lia.
  - apply (IH i j); [lia|done|done].
Qed.
Lemma from_height_spec (l : list eonev) h : sorted_heights l → from_height l h = since h l.
Proof.
  intros HS. unfold from_height.
  set (f := λ i, match l !! i with Some x => (h <=? ev_height x)%Z | None => false end).
  destruct (sort_search_spec (length l) f) as (H1 & H2 & H3).
  { intros x y Hxy. unfold f. destruct (l !! x) as [a|] eqn:Ea; [|done].
    destruct (lookup_lt_is_Some_2 l y) as [b Eb]; [lia|]. rewrite Eb.
    pose proof (sorted_lookup l x y a b HS ltac:(lia) Ea Eb). intros ?%Z.leb_le. apply Z.leb_le. lia. }
  set (r := sort_search (length l) f) in *.
  assert (since h l = drop r l) as ->.
  { rewrite <-(take_drop r l) at 1. unfold since. rewrite filter_app.
    assert (filter (λ x, (h ≤ ev_height x)%Z) (take r l) = []) as ->.
    { destruct (filter (λ x, (h ≤ ev_height x)%Z) (take r l)) as [|x t] eqn:E; [done|].
      assert (x ∈ filter (λ x, (h ≤ ev_height x)%Z) (take r l)) as Hx by (rewrite E; apply elem_of_list_here).
      apply elem_of_list_filter in Hx as [Hx Hin]. apply elem_of_list_lookup in Hin as (i & Hi).
      apply lookup_take_Some in Hi as [Hi Hlt]. specialize (H2 i Hlt). unfold f in H2. rewrite Hi in H2. apply Z.leb_gt in H2. lia. }
    cbn [app].
    assert (∀ t : list eonev, (∀ x, x ∈ t → (h ≤ ev_height x)%Z) → filter (λ x, (h ≤ ev_height x)%Z) t = t) as Hall.
    { induction t as [|x t IH]; intros Ht; [done|]. rewrite filter_cons_True by (apply Ht, elem_of_list_here). f_equal.
      apply IH. intros y Hy. apply Ht. by apply elem_of_list_further. }
    apply Hall. intros x Hx. apply elem_of_list_lookup in Hx as (i & Hi). rewrite lookup_drop in Hi.
    assert (r + i < length l) by (by apply lookup_lt_Some in Hi).
    specialize (H3 (r + i) ltac:(lia)). unfold f in H3. rewrite Hi in H3. by apply Z.leb_le in H3. }
  destruct (Nat.eqb_spec r (length l)) as [E|E]; [|done]. by rewrite E, drop_all.
Qed.
Lemma since_since h h' l : (h ≤ h')%Z → since h' (since h l) = since h' l.
Proof.
  intros H. unfold since. induction l as [|x l IH]; [done|].
  destruct (decide (h ≤ ev_height x)%Z) as [Hx|Hx].
  - rewrite (filter_cons_True _ x l Hx). destruct (decide (h' ≤ ev_height x)%Z).
    + rewrite !filter_cons_True by done. by rewrite IH.
    + rewrite !filter_cons_False by done. done.
  - rewrite (filter_cons_False _ x l Hx). rewrite (filter_cons_False _ x l) by lia. done.
Qed.
Lemma since_sorted h l : sorted_heights l → sorted_heights (since h l).
Proof.
  unfold since. induction 1 as [|x l HS IH HF]; [constructor|].
  destruct (decide (h ≤ ev_height x)%Z); [rewrite filter_cons_True by done|by rewrite filter_cons_False by done].
  constructor; [done|]. rewrite Forall_forall in HF |- *. intros y [_ Hy]%elem_of_list_filter. by apply HF.
Qed.
Lemma since_app h l l' : since h (l ++ l') = since h l ++ since h l'.
Proof. unfold since. by rewrite filter_app. Qed.
Lemma since_none h l : (∀ x, x ∈ l → (ev_height x < h)%Z) → since h l = [].
Proof.
  unfold since. induction l as [|x l IH]; intros H; [done|].
  rewrite filter_cons_False by (specialize (H x (elem_of_list_here _ _)); lia). apply IH. intros y Hy. apply H. by apply elem_of_list_further.
Qed.
Lemma since_all h l : (∀ x, x ∈ l → (h ≤ ev_height x)%Z) → since h l = l.
Proof.
  unfold since. induction l as [|x l IH]; intros H; [done|].
  rewrite filter_cons_True by (apply H, elem_of_list_here). f_equal. apply IH. intros y Hy. apply H. by apply elem_of_list_further.
Qed.
End Events.

Section Shutter.
Context {B D K G : Type}.
Notation shutter := (shutter B D K G).
Notation eon := (eon B).
Implicit Types (s : shutter) (e : eon).

(** ** Eon lookup *)
Notation sorted_eons := (StronglySorted (λ x y : eon, (eon_number x < eon_number y)%N)).

Lemma sorted_eons_lookup (l : list eon) i j x y : sorted_eons l → i < j → l !! i = Some x → l !! j = Some y → (eon_number x < eon_number y)%N.
Proof.
  intros HS. revert i j. induction HS as [|z l HS IH HF]; intros i j Hij Hi Hj; [done|].
  destruct i as [|i], j as [|j]; cbn in Hi, Hj; [lia| |lia|].
  - injection Hi as ->. rewrite Forall_forall in HF. apply HF. by eapply elem_of_list_lookup_2.
  - apply (IH i j); [lia|done|done].
Qed.
Lemma search_eon_spec s n : sorted_eons (eons s) →
  let r := search_eon s n in r ≤ length (eons s) ∧
  (∀ i e, i < r → eons s !! i = Some e → (eon_number e < n)%N) ∧ (∀ i e, r ≤ i → eons s !! i = Some e → (n ≤ eon_number e)%N).
Proof.
  intros HS r. unfold r, search_eon.
  set (f := λ i, match eons s !! i with Some e => (n <=? eon_number e)%N | None => false end).
  destruct (sort_search_spec (length (eons s)) f) as (H1 & H2 & H3).
  { intros x y Hxy. unfold f. destruct (eons s !! x) as [a|] eqn:Ea; [|done].
    destruct (lookup_lt_is_Some_2 (eons s) y) as [b Eb]; [lia|]. rewrite Eb.
    intros ?%N.leb_le. apply N.leb_le. destruct (decide (x = y)) as [->|Hne]; [congruence|].
    pose proof (sorted_eons_lookup (eons s) x y a b HS ltac:(lia) Ea Eb). lia. }
  split_and!; [done| |].
  - intros i e Hi He. specialize (H2 i Hi). unfold f in H2. rewrite He in H2. by apply N.leb_gt in H2.
  - intros i e Hi He. assert (i < length (eons s)) by (by apply lookup_lt_Some in He).
    specialize (H3 i ltac:(lia)). unfold f in H3. rewrite He in H3. by apply N.leb_le in H3.
Qed.
Lemma find_eon_index_spec s n i : sorted_eons (eons s) →
  find_eon_index s n = Some i ↔ ∃ e, eons s !! i = Some e ∧ eon_number e = n.
Proof.
  intros HS. destruct (search_eon_spec s n HS) as (H1 & H2 & H3). unfold find_eon_index. split.
  - destruct (eons s !! search_eon s n) as [e|] eqn:E; [|done]. destruct (N.ltb_spec n (eon_number e)); [done|].
    intros [= <-]. exists e. split; [done|]. specialize (H3 _ _ (Nat.le_refl _) E). lia.
  - intros (e & He & Hn).
    assert (search_eon s n = i) as ->.
    { destruct (Nat.lt_trichotomy (search_eon s n) i) as [Hlt|[?|Hgt]]; [|done|].
      - destruct (lookup_lt_is_Some_2 (eons s) (search_eon s n)) as [e' He']; [apply lookup_lt_Some in He; lia|].
        pose proof (H3 _ _ (Nat.le_refl _) He'). pose proof (sorted_eons_lookup _ _ _ _ _ HS Hlt He' He). lia.
      - specialize (H2 i e Hgt He). lia. }
    rewrite He. destruct (N.ltb_spec n (eon_number e)); [lia|done].
Qed.
Lemma find_eon_spec s n e : sorted_eons (eons s) → find_eon s n = Some e ↔ e ∈ eons s ∧ eon_number e = n.
Proof.
  intros HS. unfold find_eon. split.
  - destruct (find_eon_index s n) as [i|] eqn:E; [|done]. cbn. apply find_eon_index_spec in E as (e' & He' & Hn); [|done].
    rewrite He'. intros [= <-]. split; [by eapply elem_of_list_lookup_2|done].
  - intros [Hin Hn]. apply elem_of_list_lookup in Hin as (i & Hi).
    rewrite (proj2 (find_eon_index_spec s n i HS)) by eauto. done.
Qed.
Lemma find_last_spec (es : list eon) b i e : i ≤ length es →
  find_last es b i = Some e ↔
  ∃ j, j < i ∧ es !! j = Some e ∧ (start_batch e ≤ b)%N ∧ ∀ j' e', j < j' < i → es !! j' = Some e' → (b < start_batch e')%N.
Proof.
  induction i as [|i IH]; intros Hi; cbn [find_last].
  - split; [done|]. intros (j & ? & _). lia.
  - destruct (lookup_lt_is_Some_2 es i) as [x Hx]; [lia|]. rewrite Hx.
    destruct (N.leb_spec (start_batch x) b) as [Hle|Hgt].
    + split.
      * intros [= <-]. exists i. split_and!; [lia|done|done|]. intros j' e' ?. lia.
      * intros (j & Hj & He & Hb & Hlast). destruct (decide (j = i)) as [->|Hne]; [congruence|].
        specialize (Hlast i x ltac:(lia) Hx). lia.
    + rewrite IH by lia. split.
      * intros (j & Hj & He & Hb & Hlast). exists j. split_and!; [lia|done|done|]. intros j' e' Hj' He'.
        destruct (decide (j' = i)) as [->|Hne]; [congruence|]. apply (Hlast j' e'); [lia|done].
      * intros (j & Hj & He & Hb & Hlast). destruct (decide (j = i)) as [->|Hne]; [rewrite Hx in He; injection He as ->; lia|].
        exists j. split_and!; [lia|done|done|]. intros j' e' Hj' He'. apply (Hlast j' e'); [lia|done].
Qed.
Lemma find_eon_by_batch_spec s b e :
  find_eon_by_batch_index s b = Some e ↔
  ∃ before after, eons s = before ++ e :: after ∧ (start_batch e ≤ b)%N ∧ Forall (λ e', (b < start_batch e')%N) after.
Proof.
  unfold find_eon_by_batch_index. rewrite find_last_spec by done. split.
  - intros (j & Hj & He & Hb & Hlast). exists (take j (eons s)), (drop (S j) (eons s)).
    split_and!; [by rewrite take_drop_middle|done|]. apply Forall_forall. intros x Hx.
    apply elem_of_list_lookup in Hx as (i & Hi). rewrite lookup_drop in Hi.
    apply (Hlast (S j + i) x); [|done]. apply lookup_lt_Some in Hi. lia.
  - intros (l1 & l2 & E & Hb & Hall). exists (length l1). rewrite E. split_and!; [rewrite app_length; cbn; lia| |done|].
    + by rewrite list_lookup_middle.
    + intros j' e' [Hj1 Hj2] He'. rewrite Forall_forall in Hall. apply Hall.
      rewrite lookup_app_r in He' by lia. destruct (j' - length l1) as [|m] eqn:Em; [lia|]. cbn in He'.
      by eapply elem_of_list_lookup_2.
Qed.

(** eon numbers stay sorted *)
Lemma add_event_number k x e : eon_number (add_event k x e) = eon_number e.
Proof. by destruct k. Qed.
Lemma sorted_eons_fmap (f : eon → eon) (l : list eon) : (∀ e, eon_number (f e) = eon_number e) → sorted_eons l → sorted_eons (f <$> l).
Proof.
  intros Hf. induction 1 as [|x l HS IH HF]; cbn; constructor; [done|].
  rewrite Forall_fmap. eapply Forall_impl; [exact HF|]. intros y Hy. cbn. by rewrite !Hf.
Qed.
Lemma alter_numbers (f : eon → eon) i (l : list eon) : (∀ e, eon_number (f e) = eon_number e) →
  eon_number <$> alter f i l = eon_number <$> l.
Proof.
  intros Hf. revert i. induction l as [|x l IH]; intros [|i]; try done; unfold alter; cbn.
  - by rewrite Hf.
  - f_equal. apply IH.
Qed.
Lemma sorted_eons_numbers (l : list eon) : sorted_eons l ↔ StronglySorted N.lt (eon_number <$> l).
Proof.
  induction l as [|x l IH]; cbn; [split; constructor|]. split; inversion_clear 1 as [|? ? H1 H2]; constructor.
  - by apply IH.
  - by rewrite Forall_fmap.
  - by apply IH.
  - by rewrite Forall_fmap in H2.
Qed.
Lemma snoc_sorted (l : list N) n : StronglySorted N.lt l → (∀ x, x ∈ l → (x < n)%N) → StronglySorted N.lt (l ++ [n]).
Proof.
  induction 1 as [|x l HS IH HF]; intros H; cbn; constructor.
  - constructor. 
  - constructor.
  - apply IH. intros y Hy. apply H. by apply elem_of_list_further.
  - apply Forall_app. split; [done|]. apply Forall_singleton. apply H, elem_of_list_here.
Qed.
Lemma apply_event_sorted s ev : sorted_eons (eons s) → sorted_eons (eons (apply_event s ev)).
Proof.
  intros HS. destruct ev; cbn [apply_event]; try done.
  - destruct (search_eon_spec s eon HS) as (H1 & H2 & H3). destruct (Nat.ltb_spec (search_eon s eon) (length (eons s))); [done|].
    cbn [with_eons eons]. apply sorted_eons_numbers. rewrite fmap_app. cbn. apply snoc_sorted; [by apply sorted_eons_numbers|].
    intros x Hx. apply elem_of_list_fmap in Hx as (e & -> & He). apply elem_of_list_lookup in He as (i & Hi).
    apply (H2 i e); [|done]. apply lookup_lt_Some in Hi. lia.
  - destruct (find_eon_index s (ev_eon e)); [|done]. cbn [with_eons eons].
    apply sorted_eons_numbers. rewrite alter_numbers by (intros; apply add_event_number). by apply sorted_eons_numbers.
Qed.
Lemma apply_filter_sorted s h b : sorted_eons (eons s) → sorted_eons (eons (apply_filter s h b)).
Proof. intros HS. unfold apply_filter. destruct (_ || _)%bool; [|done]. cbn. by apply sorted_eons_fmap. Qed.
End Shutter.

(** ** Fetching *)
Section Fetch.
Context {B D K G R : Type} (make_event : R → Z → option (shutter_event B D K G)) (chain : nat → list (list R)).
Notation shutter := (shutter B D K G).
Notation apply_txs := (foldl (apply_tx_events make_event)).
Implicit Types (s : shutter).
Local Arguments Nat.mul : simpl never.
Local Arguments Nat.leb : simpl never.

Lemma txs_between_empty a b : (b < a)%Z → txs_between chain a b = [].
Proof. intros H. unfold txs_between. replace (Z.to_nat (b - a + 1)) with 0 by lia. done. Qed.
Lemma join_seq_app {X : Type} (f : nat → list X) i n m :
  mjoin (f <$> seq i (n + m)) = mjoin (f <$> seq i n) ++ mjoin (f <$> seq (i + n) m).
Proof.
  revert i. induction n as [|n IH]; intros i; cbn [Nat.add seq fmap list_fmap mjoin list_join app].
  - by rewrite Nat.add_0_r.
  - unfold mjoin in IH. rewrite IH. rewrite <-(assoc_L (++)). replace (S i + n) with (i + S n) by lia. done.
Qed.
Lemma join_seq_shift {X : Type} (f : nat → list X) i m n :
  mjoin (f <$> seq (i + m) n) = mjoin ((λ j, f (m + j)) <$> seq i n).
Proof.
  revert i. induction n as [|n IH]; intros i; cbn [seq fmap list_fmap mjoin list_join]; [done|].
  specialize (IH (S i)). cbn [Nat.add] in IH. etransitivity; [apply f_equal; exact IH|]. f_equal. f_equal. lia.
Qed.
Lemma join_seq_ext {X : Type} (f g : nat → list X) i n : (∀ j, f j = g j) → mjoin (f <$> seq i n) = mjoin (g <$> seq i n).
Proof. intros H. f_equal. by apply list_fmap_ext; intros ? x ?. Qed.
Lemma txs_between_split a b c : (0 ≤ a)%Z → (a ≤ b + 1)%Z → (b ≤ c)%Z →
  txs_between chain a c = txs_between chain a b ++ txs_between chain (b + 1) c.
Proof.
  intros H0 H1 H2. unfold txs_between.
  replace (Z.to_nat (c - a + 1)) with (Z.to_nat (b - a + 1) + Z.to_nat (c - (b + 1) + 1)) by lia.
  rewrite join_seq_app. f_equal. rewrite join_seq_shift. apply join_seq_ext. intros j. f_equal. lia.
Qed.

Lemma fetch_pages_spec fuel s0 s a b page first last_window :
  let T := txs_between chain a b in
  1 ≤ page → length T < fuel + (page - 1) →
  (page = 1 ∨ (page - 1) * 100 < length T) →
  s = apply_txs s0 (take ((page - 1) * 100) T) →
  (first = true → page = 1) →
  fetch_pages make_event chain fuel s a b page (length (take ((page - 1) * 100) T)) first last_window =
    Some (apply_txs s0 T, first && (length T =? 0) && last_window)%bool.
Proof.
  intros T. revert s page first. induction fuel as [|fuel IH]; intros s page first Hp Hfuel Hpage Hs Hfirst.
  { exfalso. lia. }
  cbn [fetch_pages]. unfold tx_search. fold T. cbn beta iota zeta.
  destruct (first && (length T =? 0) && last_window)%bool eqn:Eb.
  - apply andb_true_iff in Eb as [Eb1 Eb2]. apply andb_true_iff in Eb1 as [Ef El]. apply Nat.eqb_eq in El.
    apply nil_length_inv in El. rewrite El in *. rewrite take_nil in Hs. by subst s.
  - assert (apply_txs s (take 100 (drop ((page - 1) * 100) T)) = apply_txs s0 (take (page * 100) T)) as ->.
    { rewrite Hs, <-foldl_app. f_equal. rewrite take_drop_commute.
      replace ((page - 1) * 100 + 100) with (page * 100) by lia.
      pose proof (take_drop ((page - 1) * 100) (take (page * 100) T)) as Et.
      rewrite take_take, Nat.min_l in Et by lia. exact Et. }
    assert (length (take ((page - 1) * 100) T) + length (take 100 (drop ((page - 1) * 100) T)) = length (take (page * 100) T)) as ->.
    { rewrite !take_length, drop_length. lia. }
    destruct (Nat.leb_spec (length T) (page * 100)) as [Hle|Hgt].
    + rewrite take_ge by done. rewrite Nat.eqb_refl. done.
    + pose proof (IH (apply_txs s0 (take (page * 100) T)) (page + 1) false) as H.
      replace (page + 1 - 1) with page in H by lia.
      rewrite H; [|lia|lia|right; lia|done|done].
      destruct (Nat.eqb_spec (length T) 0) as [E0|E0]; [lia|]. by rewrite andb_false_r.
Qed.

Lemma fetch_windows_spec fuel pf s cur target first :
  (-1 ≤ cur)%Z → (cur ≤ target)%Z →
  length (txs_between chain (cur + 1) target) < pf →
  (Z.to_nat (target - cur) < fuel)%nat →
  fetch_windows make_event chain fuel pf s cur target first = Some (apply_txs s (txs_between chain (cur + 1) target)).
Proof.
  revert s cur first. induction fuel as [|fuel IH]; intros s cur first Hc Ht Hpf Hf; [lia|].
  cbn [fetch_windows]. set (height := Z.min (cur + 500) target).
  assert (txs_between chain (cur + 1) target = txs_between chain (cur + 1) height ++ txs_between chain (height + 1) target) as Esplit.
  { apply txs_between_split; lia. }
  assert (length (txs_between chain (cur + 1) target) = length (txs_between chain (cur + 1) height) + length (txs_between chain (height + 1) target)) as Elen.
  { by rewrite Esplit, app_length. }
  pose proof (fetch_pages_spec pf s s (cur + 1) height 1 first (height =? target)%Z) as Hp. cbn zeta in Hp.
  change ((1 - 1) * 100) with 0 in Hp. rewrite take_0 in Hp. cbn [length] in Hp.
  rewrite Hp; [|lia|lia|by left|done|done].
  destruct (Z.eqb_spec height target) as [E|E].
  - rewrite E in *. destruct (first && _ && true)%bool; done.
  - rewrite andb_false_r. rewrite IH; [|lia|lia|lia|lia].
    by rewrite <-foldl_app, <-Esplit.
Qed.
End Fetch.

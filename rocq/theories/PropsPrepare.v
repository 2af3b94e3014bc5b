(** C75: preparing a keyper set: quorums, funding and draining. *)
From stdpp Require Import list gmap.
From Coq Require Import ZArith NArith Lia.
From Verif Require Import PrepareModel.
Local Open Scope Z_scope.

(** ** The threshold *)
(** it is the least number of keypers that is at least two thirds of them, and possible *)
Theorem C75_threshold n : 1 ≤ n → 2 * n ≤ 3 * twothirds n ∧ (∀ t, 2 * n ≤ 3 * t → twothirds n ≤ t) ∧ 1 ≤ twothirds n ≤ n.
Proof. intros Hn. unfold twothirds. pose proof (Z.div_mod (2 * n + 2) 3 ltac:(lia)). pose proof (Z.mod_pos_bound (2 * n + 2) 3 ltac:(lia)). split_and!; try lia. Qed.
(** any two quorums share at least a third of the keypers; and when at most a third of the keypers is away, there is a quorum *)
Theorem C75_quorums (keypers q1 q2 : gset N) : let n := Z.of_nat (size keypers) in
  q1 ⊆ keypers → q2 ⊆ keypers → twothirds n ≤ Z.of_nat (size q1) → twothirds n ≤ Z.of_nat (size q2) → n ≤ 3 * Z.of_nat (size (q1 ∩ q2)).
Proof.
  intros n H1 H2 T1 T2. assert (size (q1 ∪ q2) ≤ size keypers)%nat as Hu by (apply subseteq_size; set_solver).
  assert (size (q1 ∪ q2) + size (q1 ∩ q2) = size q1 + size q2)%nat as He.
  { rewrite size_union_alt. assert (size (q2 ∖ q1) + size (q1 ∩ q2) = size q2)%nat; [|lia].
    rewrite <-size_union by set_solver. f_equal. apply leibniz_equiv. intros x. rewrite elem_of_union, elem_of_difference, elem_of_intersection. destruct (decide (x ∈ q1)); tauto. }
  assert (2 * n ≤ 3 * twothirds n) as Ht. { unfold twothirds. pose proof (Z.div_mod (2 * n + 2) 3 ltac:(lia)). pose proof (Z.mod_pos_bound (2 * n + 2) 3 ltac:(lia)). lia. }
  lia.
Qed.
Theorem C75_third_away (keypers away : gset N) : let n := Z.of_nat (size keypers) in
  away ⊆ keypers → 3 * Z.of_nat (size away) ≤ n → twothirds n ≤ Z.of_nat (size (keypers ∖ away)).
Proof.
  intros n H1 H2. rewrite size_difference by done. pose proof (subseteq_size _ _ H1). unfold twothirds.
  pose proof (Z.div_mod (2 * n + 2) 3 ltac:(lia)). pose proof (Z.mod_pos_bound (2 * n + 2) 3 ltac:(lia)). lia.
Qed.
(** C75: "two thirds" does not mean that a third of the keypers may cheat: with the default of three keypers, one keyper that votes
    twice makes two quorums that share nobody else *)
Theorem C75_three_refuted : ∃ keypers q1 q2 cheaters : gset N, size keypers = 3%nat ∧ size cheaters = 1%nat ∧ q1 ⊆ keypers ∧ q2 ⊆ keypers ∧
  twothirds 3 ≤ Z.of_nat (size q1) ∧ twothirds 3 ≤ Z.of_nat (size q2) ∧ q1 ∩ q2 ⊆ cheaters.
Proof.
  exists {[1%N; 2%N; 3%N]}, {[1%N; 2%N]}, {[2%N; 3%N]}, {[2%N]}. split; [by vm_compute|]. split; [by vm_compute|]. split; [set_solver|]. split; [set_solver|].
  split; [vm_compute; discriminate|]. split; [vm_compute; discriminate|]. intros x. rewrite elem_of_intersection, !elem_of_union, !elem_of_singleton. lia.
Qed.

(** ** Ether *)
(** what a list of transactions does to the balance of [a] *)
Definition gain (a : N) (x : tx) : Z :=
  match x with
  | Transfer t => (if (a =? t_to t)%N then t_amount t else 0) - (if (a =? t_from t)%N then cost t else 0)
  | Other _ d => d a
  end.
Definition gains (a : N) (l : list tx) : Z := foldr (λ x acc, gain a x + acc) 0 l.
Definition sent_by (a : N) (l : list tx) : Z := Z.of_nat (length (filter (λ x, sender_of x = a) l)).
(** a history in which the transactions of the command are marked *)
Definition ours (l : list (bool * tx)) : list tx := (filter (λ x, x.1 = true) l).*2.
Definition others (l : list (bool * tx)) : list tx := (filter (λ x, x.1 = false) l).*2.
(** what the command wants an address to get that was seen with the balance [v] *)
(** in wei: up to a whole ether if it is less than half an ether *)
Definition topup (v : Z) : Z := if v <? 500000000000000000 then 1000000000000000000 - v else 0.
Lemma topup_model v : topup v = if v <? low_amount then high_amount - v else 0.
Proof. done. Qed.

Lemma balance_after a : ∀ l s, balance (after s l a) = balance (s a) + gains a l.
Proof.
  induction l as [|x l IH]; intros s; cbn [after foldl gains foldr]; [lia|]. fold (after (apply s x) l). rewrite IH. unfold gains. destruct x as [t|b d]; cbn [apply transferred balance gain]; lia.
Qed.
Lemma sent_cons a x l : sent_by a (x :: l) = (if (a =? sender_of x)%N then 1 else 0) + sent_by a l.
Proof.
  unfold sent_by. rewrite filter_cons. destruct (N.eqb_spec a (sender_of x)) as [E|E]; destruct (decide (sender_of x = a)) as [E'|E']; try congruence; cbn [length]; lia.
Qed.
Lemma nonce_after a : ∀ l s, nonce (after s l a) = nonce (s a) + sent_by a l.
Proof.
  induction l as [|x l IH]; intros s; [unfold sent_by; cbn; lia|]. rewrite sent_cons. cbn [after foldl]. fold (after (apply s x) l). rewrite IH. destruct x as [t|b d]; cbn [apply transferred nonce sender_of]; lia.
Qed.
Lemma gains_app a l1 l2 : gains a (l1 ++ l2) = gains a l1 + gains a l2.
Proof. unfold gains. induction l1; cbn; lia. Qed.
Lemma after_app s l1 l2 : after s (l1 ++ l2) = after (after s l1) l2.
Proof. apply foldl_app. Qed.
Lemma mines_app : ∀ l1 l2 s, mines s (l1 ++ l2) ↔ mines s l1 ∧ mines (after s l1) l2.
Proof. induction l1 as [|x l1 IH]; intros l2 s; cbn; [tauto|]. rewrite IH. tauto. Qed.
Lemma gains_split a l : gains a l.*2 = gains a (ours l) + gains a (others l).
Proof.
  unfold ours, others. induction l as [|[[|] x] l IH]; [done|..]; cbn [fmap list_fmap]; rewrite !filter_cons; cbn [fst]; destruct (decide _) as [|]; try done; destruct (decide _); try done;
    cbn [fmap list_fmap gains foldr fst snd] in *; unfold gains in *; lia.
Qed.
Lemma sent_split a l : sent_by a l.*2 = sent_by a (ours l) + sent_by a (others l).
Proof.
  unfold ours, others. induction l as [|[[|] x] l IH]; [done|..]; cbn [fmap list_fmap]; rewrite !filter_cons; cbn [fst]; destruct (decide _) as [|]; try done; destruct (decide _); try done;
    cbn [fmap list_fmap fst snd] in *; rewrite !sent_cons; lia.
Qed.
(** who sends nothing does not lose anything *)
Lemma quiet_gains a : ∀ l s, mines s l → (∀ x, x ∈ l → sender_of x ≠ a) → 0 ≤ gains a l.
Proof.
  induction l as [|x l IH]; intros s Hm Hs; cbn; [lia|]. destruct Hm as [Hv Hm]. pose proof (Hs x ltac:(apply elem_of_list_here)) as Hx.
  specialize (IH _ Hm ltac:(intros y Hy; apply Hs; by apply elem_of_list_further)). assert (0 ≤ gain a x); [|unfold gains in IH; lia].
  destruct x as [t|b d]; cbn in *.
  - destruct Hv as (_ & _ & Hv & _). destruct (N.eqb_spec a (t_from t)); [congruence|]. destruct (_ =? _)%N; lia.
  - by apply (Hv a).
Qed.

Lemma quiet_others a : ∀ l s, mines s l.*2 → (∀ x, x ∈ others l → sender_of x ≠ a) → 0 ≤ gains a (others l).
Proof.
  induction l as [|[[|] x] l IH]; intros s Hm Hs; [done|..]; destruct Hm as [Hv Hm].
  - unfold others in *. rewrite filter_cons in Hs |- *. cbn [fst] in *. destruct (decide _); [done|]. by eapply IH.
  - unfold others in *. rewrite filter_cons in Hs |- *. cbn [fst] in *. destruct (decide _); [|done]. cbn [fmap list_fmap snd] in *.
    assert (0 ≤ gains a [x]) as Hx.
    { apply (quiet_gains a [x] s); [split; [exact Hv|done]|]. intros y ->%elem_of_list_singleton. apply Hs. apply elem_of_list_here. }
    assert (0 ≤ gains a (filter (λ x, x.1 = false) l).*2) as Hy by (eapply IH; [exact Hm|]; intros y Hy; apply Hs; by apply elem_of_list_further).
    unfold gains in *. cbn [foldr] in *. lia.
Qed.

(** ** Funding *)
Lemma fund_gains owner price a : a ≠ owner → ∀ F n, (∀ v, (a, v) ∉ F) → gains a (Transfer <$> fund_txs owner n price F) = 0.
Proof.
  intros Ho. induction F as [|[b v] F IH]; intros n H; [done|]. cbn [fund_txs]. assert (∀ w, (a, w) ∉ F) as H' by (intros w Hw; apply (H w); by apply elem_of_list_further).
  destruct (v <=? 0); [by apply IH|]. cbn [fmap list_fmap gains foldr gain t_to t_from]. fold (gains a (Transfer <$> fund_txs owner (n + 1) price F)). rewrite IH by done.
  destruct (N.eqb_spec a b) as [->|]; [exfalso; apply (H v); apply elem_of_list_here|]. destruct (N.eqb_spec a owner); [done|]. lia.
Qed.
Lemma fund_gain owner price a v : a ≠ owner → ∀ F n, NoDup F.*1 → (a, v) ∈ F → 0 ≤ v → gains a (Transfer <$> fund_txs owner n price F) = v.
Proof.
  intros Ho. induction F as [|[b w] F IH]; intros n Hd Hin Hv; [by apply elem_of_nil in Hin|]. cbn [fmap list_fmap fst] in Hd. apply NoDup_cons in Hd as [Hb Hd].
  cbn [fund_txs]. apply elem_of_cons in Hin as [E|Hin].
  - injection E as -> ->. assert (∀ v, (b, v) ∉ F) as Hn by (intros v Hx; apply Hb; apply elem_of_list_fmap; by exists (b, v)).
    destruct (Z.leb_spec w 0); [rewrite fund_gains by done; lia|]. cbn [fmap list_fmap gains foldr gain t_to t_from t_amount]. fold (gains b (Transfer <$> fund_txs owner (n + 1) price F)).
    rewrite fund_gains by done. rewrite N.eqb_refl. destruct (N.eqb_spec b owner); [done|]. lia.
  - assert (b ≠ a) as Hne. { intros ->. apply Hb. apply elem_of_list_fmap. by exists (a, v). }
    destruct (w <=? 0); [by apply IH|]. cbn [fmap list_fmap gains foldr gain t_to t_from t_amount]. fold (gains a (Transfer <$> fund_txs owner (n + 1) price F)). rewrite IH by done.
    destruct (N.eqb_spec a b); [congruence|]. destruct (N.eqb_spec a owner); [done|]. lia.
Qed.
Lemma determine_fst seen : (determine_fundings seen).*1 = seen.*1.
Proof. unfold determine_fundings. rewrite <-list_fmap_compose. by apply list_fmap_ext. Qed.
(** C75: every address of the list was looked at some time ([seen]) before the command's transactions were mined; in the end it has what it
    had then, plus the top-up, plus what other transactions brought it or took from it since - whatever these are and in whatever order *)
Theorem C75_funded s l1 l2 l3 seen owner n price a v : NoDup seen.*1 → (a, v) ∈ seen → a ≠ owner → balance (after s l1 a) = v →
  ours l3 = Transfer <$> fund_txs owner n price (determine_fundings seen) →
  balance (after s (l1 ++ l2 ++ l3.*2) a) = v + topup v + gains a (l2 ++ others l3).
Proof.
  intros Hd Hin Ho Hv Hl. rewrite balance_after, !gains_app, gains_split, Hl. rewrite balance_after in Hv.
  assert (0 ≤ topup v) as Hp by (unfold topup; destruct (Z.ltb_spec v 500000000000000000); lia).
  rewrite (fund_gain owner price a (topup v)); [lia|done| | |done].
  - by rewrite determine_fst.
  - rewrite topup_model. unfold determine_fundings. apply elem_of_list_fmap. by exists (a, v).
Qed.
(** C75: ... so a keyper that sends nothing in the meantime has at least half an ether then, and a whole one if he had less than half *)
Theorem C75_enough s l1 l2 l3 seen owner n price a v : mines s (l1 ++ l2 ++ l3.*2) → NoDup seen.*1 → (a, v) ∈ seen → a ≠ owner → balance (after s l1 a) = v →
  ours l3 = Transfer <$> fund_txs owner n price (determine_fundings seen) → (∀ x, x ∈ l2 ++ others l3 → sender_of x ≠ a) →
  let b := balance (after s (l1 ++ l2 ++ l3.*2) a) in 500000000000000000 ≤ b ∧ (v < 500000000000000000 → 1000000000000000000 ≤ b).
Proof.
  intros Hm Hd Hin Ho Hv Hl Hs b. unfold b. rewrite (C75_funded s l1 l2 l3 seen owner n price a v) by done.
  assert (0 ≤ gains a (l2 ++ others l3)) as Hg.
  { apply mines_app in Hm as [_ Hm]. apply mines_app in Hm as [Hm2 Hm3]. rewrite gains_app.
    assert (0 ≤ gains a l2) by (eapply quiet_gains; [exact Hm2|intros x Hx; apply Hs; apply elem_of_app; by left]).
    assert (0 ≤ gains a (others l3)); [|lia]. eapply quiet_others; [exact Hm3|]. intros x Hx. apply Hs. apply elem_of_app. by right. }
  unfold topup. destruct (Z.ltb_spec v 500000000000000000); lia.
Qed.

(** *** The transactions are mined *)
Definition costs (l : list transfer) : Z := foldr (λ t acc, cost t + acc) 0 l.
Lemma fund_owner owner price : ∀ F n t, t ∈ fund_txs owner n price F → t_from t = owner ∧ 0 < t_amount t ∧ t_price t = price.
Proof.
  induction F as [|[b w] F IH]; intros n t H; [by apply elem_of_nil in H|]. cbn [fund_txs] in H. destruct (Z.leb_spec w 0); [by eapply IH|].
  apply elem_of_cons in H as [->|H]; [cbn; split_and!; done || lia|by eapply IH].
Qed.
Lemma fund_nonce owner price : ∀ F n k t, fund_txs owner n price F !! k = Some t → t_nonce t = n + Z.of_nat k.
Proof.
  induction F as [|[b w] F IH]; intros n k t H; [done|]. cbn [fund_txs] in H. destruct (Z.leb_spec w 0); [by eapply IH|].
  destruct k as [|k]; [injection H as <-; cbn; lia|]. cbn in H. apply IH in H. lia.
Qed.
Lemma costs_app l1 l2 : costs (l1 ++ l2) = costs l1 + costs l2.
Proof. unfold costs. induction l1; cbn; lia. Qed.
Lemma costs_pos l : (∀ t, t ∈ l → 0 ≤ cost t) → 0 ≤ costs l.
Proof. unfold costs. induction l as [|t l IH]; intros H; cbn; [lia|]. pose proof (H t ltac:(apply elem_of_list_here)). specialize (IH ltac:(intros u Hu; apply H; by apply elem_of_list_further)). lia. Qed.
Lemma own_gains owner l : (∀ t, t ∈ l → t_from t = owner ∧ 0 < t_amount t) → - costs l ≤ gains owner (Transfer <$> l).
Proof.
  unfold costs, gains. induction l as [|t l IH]; intros H; cbn; [lia|]. destruct (H t ltac:(apply elem_of_list_here)) as [<- Ha].
  specialize (IH ltac:(intros u Hu; apply H; by apply elem_of_list_further)). rewrite N.eqb_refl. destruct (_ =? _)%N; lia.
Qed.
Lemma own_sent owner l : (∀ t, t ∈ l → t_from t = owner) → sent_by owner (Transfer <$> l) = Z.of_nat (length l).
Proof.
  induction l as [|t l IH]; intros H; [done|]. cbn [fmap list_fmap]. rewrite sent_cons. cbn [sender_of length]. rewrite (H t) by apply elem_of_list_here. rewrite N.eqb_refl.
  rewrite IH by (intros u Hu; apply H; by apply elem_of_list_further). lia.
Qed.
Lemma none_sent a l : (∀ x, x ∈ l → sender_of x ≠ a) → sent_by a l = 0.
Proof.
  induction l as [|x l IH]; intros H; [done|]. rewrite sent_cons, IH by (intros u Hu; apply H; by apply elem_of_list_further). pose proof (H x ltac:(apply elem_of_list_here)).
  destruct (N.eqb_spec a (sender_of x)); [congruence|lia].
Qed.
(** C75: if the owner sends nothing else and could pay for everything when the command started, then, whatever else is mined, a block
    can always include the next transaction of the command *)
Theorem C75_fund_mined s l owner price F k t : let txs := fund_txs owner (nonce (s owner)) price F in
  0 ≤ price → costs txs ≤ balance (s owner) → mines s l.*2 → ours l = Transfer <$> take k txs → (∀ x, x ∈ others l → sender_of x ≠ owner) →
  txs !! k = Some t → includable (after s l.*2) t.
Proof.
  intros txs Hp Hc Hm Ho Hs Ht. assert (t_from t = owner ∧ 0 < t_amount t ∧ t_price t = price) as (Hf & Ha & Hpr) by (eapply fund_owner, elem_of_list_lookup_2, Ht).
  assert (∀ u, u ∈ txs → t_from u = owner ∧ 0 < t_amount u ∧ 0 ≤ cost u) as Hall.
  { intros u Hu. apply fund_owner in Hu as (? & ? & ?). unfold cost, gas_limit. split_and!; [done|done|lia]. }
  assert (∀ u, u ∈ take k txs → u ∈ txs) as Htake by (intros u Hu; apply elem_of_take in Hu as (i & Hu & _); by eapply elem_of_list_lookup_2).
  unfold includable. rewrite Hf, nonce_after, balance_after, gains_split, sent_split, Ho, (none_sent owner (others l)) by done.
  rewrite own_sent by (intros u Hu; by apply Hall, Htake). rewrite take_length. pose proof (lookup_lt_Some _ _ _ Ht) as Hlt. rewrite (fund_nonce _ _ _ _ _ _ Ht).
  pose proof (own_gains owner (take k txs) ltac:(intros u Hu; destruct (Hall u (Htake u Hu)) as (? & ? & ?); done)) as Hg.
  pose proof (quiet_others owner l s Hm Hs) as Hq.
  assert (costs txs = costs (take k txs) + (cost t + costs (drop (S k) txs))) as Hsum.
  { rewrite <-(take_drop k txs) at 1. rewrite costs_app. f_equal. by erewrite drop_S. }
  assert (0 ≤ costs (drop (S k) txs)) as Hd.
  { apply costs_pos. intros u Hu. apply Hall. apply elem_of_list_lookup in Hu as [i Hu]. rewrite lookup_drop in Hu. by eapply elem_of_list_lookup_2. }
  split_and!; lia.
Qed.
(** C75: a keyper that the file lists twice is funded twice *)
Theorem C75_twice_refuted : ∃ s l3 seen owner n price a, (a, 0) ∈ seen ∧ a ≠ owner ∧ balance (s a) = 0 ∧ mines s l3 ∧
  l3 = Transfer <$> fund_txs owner n price (determine_fundings seen) ∧ balance (after s l3 a) = 2 * 1000000000000000000.
Proof.
  exists (λ a, if (a =? 7)%N then mkAccount (10 * ether) 4 else mkAccount 0 0), (Transfer <$> fund_txs 7 4 1 (determine_fundings [(1%N, 0); (1%N, 0)])), [(1%N, 0); (1%N, 0)], 7%N, 4, 1, 1%N.
  split; [apply elem_of_list_here|]. split; [done|]. split; [done|]. split; [|split; [reflexivity|vm_compute; reflexivity]].
  vm_compute. repeat split; discriminate || lia.
Qed.

(** ** Draining *)
(** the command looks at the nonce of [a] in the state [s] and at the balance after [l0] *)
(** C75: if the account sends nothing, the transaction can be included whatever else happens; it leaves exactly what came in after the
    command looked at the balance, and gives the rest without the fee to the receiver *)
Theorem C75_drained s l0 l1 a r price t : 0 ≤ price → a ≠ r → mines s (l0 ++ l1) → (∀ x, x ∈ l0 ++ l1 → sender_of x ≠ a) →
  drain a r (nonce (s a)) (balance (after s l0 a)) price = Some t →
  let s' := after s (l0 ++ l1) in includable s' t ∧ balance (transferred s' t a) = gains a l1 ∧
  balance (transferred s' t r) = balance (s' r) + (balance (after s l0 a) - 21000 * price) ∧ 0 < balance (after s l0 a) - 21000 * price.
Proof.
  intros Hp Hr Hm Hs Hd s'. unfold drain, gas_limit in Hd. destruct (Z.leb_spec (balance (after s l0 a) - 21000 * price) 0) as [|Hpos]; [done|]. injection Hd as <-.
  apply mines_app in Hm as [Hm0 Hm1]. assert (0 ≤ gains a l1) as Hg by (eapply quiet_gains; [exact Hm1|intros x Hx; apply Hs; apply elem_of_app; by right]).
  assert (balance (s' a) = balance (after s l0 a) + gains a l1) as Hb by (unfold s'; by rewrite after_app, balance_after).
  assert (nonce (s' a) = nonce (s a)) as Hn by (unfold s'; rewrite nonce_after, none_sent by done; lia).
  unfold includable, transferred, cost, gas_limit. cbn [t_nonce t_from t_amount t_price t_to balance]. rewrite !N.eqb_refl.
  destruct (N.eqb_spec a r); [done|]. destruct (N.eqb_spec r a); [congruence|]. split_and!; lia.
Qed.
(** C75: if the account sends anything after the command has looked at its nonce - the keyper still runs -, the transaction is never valid *)
Theorem C75_drain_stale s l a r bal price t : drain a r (nonce (s a)) bal price = Some t → (∃ x, x ∈ l ∧ sender_of x = a) → ∀ l', ¬ includable (after s (l ++ l')) t.
Proof.
  intros Hd (x & Hx & Hs) l' (Hn & _). unfold drain in Hd. destruct (_ <=? 0); [done|]. injection Hd as <-. cbn in Hn. rewrite nonce_after in Hn.
  assert (∀ l, 0 ≤ sent_by a l) as H0 by (intros; unfold sent_by; lia).
  assert (1 ≤ sent_by a (l ++ l')); [|lia]. apply elem_of_list_split in Hx as (l1 & l2 & ->). rewrite <-app_assoc.
  unfold sent_by. rewrite filter_app, app_length. cbn [app]. rewrite filter_cons. destruct (decide _); [|done]. cbn [length]. lia.
Qed.
(** C75: an account that has no more than the fee is not drained, and any other is *)
Theorem C75_drain_iff a r n bal price : is_Some (drain a r n bal price) ↔ 21000 * price < bal.
Proof.
  unfold drain, gas_limit. destruct (Z.leb_spec (bal - 21000 * price) 0); split; intros H'; [by destruct H'|lia|lia|by eexists].
Qed.

Example C75_witness : let s : accounts := λ a, if (a =? 7)%N then mkAccount (10 * ether) 4 else if (a =? 2)%N then mkAccount (3 * ether) 9 else mkAccount 0 0 in
  let seen := [(1%N, 0); (2%N, 3 * ether); (3%N, 0)] in
  let txs := fund_txs 7 4 1 (determine_fundings seen) in
  length txs = 2%nat ∧ mines s (Transfer <$> txs) ∧ costs txs ≤ balance (s 7%N) ∧
  balance (after s (Transfer <$> txs) 3%N) = high_amount ∧
  drain 3 7 0 high_amount 1 = Some (mkTransfer 3 0 7 (high_amount - 21000) 1) ∧ twothirds 3 = 2 ∧ twothirds 4 = 3.
Proof.
  intros s seen txs. split; [reflexivity|]. split; [vm_compute; repeat split; discriminate || lia|]. split; [vm_compute; discriminate|]. split; [vm_compute; reflexivity|].
  split; [vm_compute; reflexivity|]. done.
Qed.

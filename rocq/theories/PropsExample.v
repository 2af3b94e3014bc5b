(** C79: the example app. *)
From stdpp Require Import list gmap.
From Coq Require Import ZArith NArith Lia.
From Verif Require Import ArithModel ContractsModel ContractsProofs PropsConfig PropsBatcher PropsVotes ExampleModel.
Local Open Scope Z_scope.

(** ** Decimal numbers: the specification *)
Definition digits_value (ds : list Z) : Z := foldl (λ a d, 10 * a + d) 0 ds.
Definition is_digit (d : Z) : Prop := 0 ≤ d < 10.

Lemma foldl_value ds a : foldl (λ a d, 10 * a + d) a ds = a * 10 ^ Z.of_nat (length ds) + digits_value ds.
Proof.
  unfold digits_value. revert a. induction ds as [|d ds IH]; intros a; cbn [foldl length]; [lia|]. rewrite IH, (IH (10 * 0 + d)).
  rewrite Nat2Z.inj_succ, Z.pow_succ_r by lia. ring.
Qed.
Lemma value_cons d ds : digits_value (d :: ds) = d * 10 ^ Z.of_nat (length ds) + digits_value ds.
Proof. unfold digits_value at 1. cbn [foldl]. rewrite foldl_value. ring. Qed.
Lemma value_bound ds : Forall is_digit ds → 0 ≤ digits_value ds < 10 ^ Z.of_nat (length ds).
Proof.
  induction 1 as [|d ds Hd _ IH]; [done|]. rewrite value_cons. cbn [length]. rewrite Nat2Z.inj_succ, Z.pow_succ_r by lia. unfold is_digit in Hd. nia.
Qed.
Lemma to_decimal_spec fuel : ∀ n acc, 0 ≤ n < 10 ^ Z.of_nat fuel → (0 < fuel)%nat → ∃ ds, to_decimal fuel n acc = ds ++ acc ∧ Forall is_digit ds ∧ digits_value ds = n ∧
  (0 < length ds)%nat ∧ (length ds = 1%nat ∨ 10 ^ (Z.of_nat (length ds) - 1) ≤ n).
Proof.
  induction fuel as [|fuel IH]; intros n acc Hn Hf; [lia|]. cbn [to_decimal]. destruct (Z.ltb_spec n 10) as [Hlt|Hge].
  - exists [n]. rewrite Z.mod_small by lia. split_and!; [done|(repeat constructor; unfold is_digit; lia)|unfold digits_value; cbn; lia|cbn; lia|by left].
  - rewrite Nat2Z.inj_succ, Z.pow_succ_r in Hn by lia. assert (0 < fuel)%nat as Hp. { destruct fuel; [cbn in Hn; lia|lia]. }
    pose proof (Z.div_mod n 10 ltac:(lia)) as Hdm. pose proof (Z.mod_pos_bound n 10 ltac:(lia)) as Hm.
    assert (0 ≤ n / 10 < 10 ^ Z.of_nat fuel) as Hd by (split; [apply Z.div_pos; lia|apply Z.div_lt_upper_bound; lia]).
    destruct (IH (n / 10) (n mod 10 :: acc) Hd Hp) as (ds & -> & D1 & D2 & D3 & D4).
    assert (1 ≤ n / 10) as H1 by (apply Z.div_le_lower_bound; lia).
    exists (ds ++ [n mod 10]). rewrite app_length. cbn [length]. split_and!.
    + by rewrite <-app_assoc.
    + apply Forall_app. split; [done|]. repeat constructor; unfold is_digit; lia.
    + unfold digits_value in *. rewrite foldl_app, D2. cbn [foldl]. lia.
    + lia.
    + right. replace (Z.of_nat (length ds + 1) - 1) with (Z.of_nat (length ds)) by lia.
      replace (Z.of_nat (length ds)) with (Z.succ (Z.of_nat (length ds) - 1)) by lia. rewrite Z.pow_succ_r by lia.
      destruct D4 as [E|D4]; [rewrite E; cbn; lia|lia].
Qed.
(** [to_string] is the decimal representation: digits, without leading zeros *)
Lemma to_string_spec n : 0 ≤ n → Forall is_digit (to_string n) ∧ digits_value (to_string n) = n ∧ (0 < length (to_string n))%nat ∧
  (length (to_string n) = 1%nat ∨ 10 ^ (Z.of_nat (length (to_string n)) - 1) ≤ n).
Proof.
  intros Hn. unfold to_string. destruct (to_decimal_spec (S (Z.to_nat (Z.log2 n))) n []) as (ds & -> & H); [|lia|by rewrite app_nil_r].
  split; [done|]. rewrite Nat2Z.inj_succ, Z2Nat.id by apply Z.log2_nonneg.
  destruct (Z.eq_dec n 0) as [->|]; [cbn; lia|]. destruct (Z.log2_spec n ltac:(lia)) as [_ H]. pose proof (Z.log2_nonneg n).
  pose proof (Z.pow_le_mono_l 2 10 (Z.succ (Z.log2 n)) ltac:(lia)). lia.
Qed.
Lemma length_of n k : 0 ≤ n → 0 ≤ k → 10 ^ k ≤ n < 10 ^ (k + 1) → Z.of_nat (length (to_string n)) = k + 1.
Proof.
  intros Hn Hk Hb. destruct (to_string_spec n Hn) as (S1 & S2 & S3 & S4). pose proof (value_bound _ S1) as Hv. rewrite S2 in Hv.
  assert (k < Z.of_nat (length (to_string n))) as L1 by (apply (Z.pow_lt_mono_r_iff 10); lia).
  destruct S4 as [E|S4]; [rewrite E in *; lia|]. assert (Z.of_nat (length (to_string n)) - 1 < k + 1) by (apply (Z.pow_lt_mono_r_iff 10); lia). lia.
Qed.
Lemma length_digit n : 0 ≤ n < 10 → length (to_string n) = 1%nat.
Proof.
  intros Hn. destruct (to_string_spec n ltac:(lia)) as (S1 & S2 & S3 & [E|S4]); [done|].
  assert (Z.of_nat (length (to_string n)) - 1 < 1) by (apply (Z.pow_lt_mono_r_iff 10); lia). lia.
Qed.

(** strings of digits of the same length are ordered like the numbers *)
Lemma string_lt_same a : ∀ b, length a = length b → Forall is_digit a → Forall is_digit b → string_lt a b = (digits_value a <? digits_value b).
Proof.
  induction a as [|x a IH]; intros [|y b] Hl Ha Hb; try done. injection Hl as Hl. apply Forall_cons in Ha as [Hx Ha]. apply Forall_cons in Hb as [Hy Hb].
  cbn [string_lt]. rewrite !value_cons, Hl. pose proof (value_bound a Ha) as Va. rewrite Hl in Va. pose proof (value_bound b Hb) as Vb. unfold is_digit in *.
  destruct (Z.ltb_spec x y).
  - symmetry. apply Z.ltb_lt. nia.
  - destruct (Z.ltb_spec y x).
    + symmetry. apply Z.ltb_ge. nia.
    + assert (x = y) as -> by lia. rewrite (IH b Hl Ha Hb). destruct (Z.ltb_spec (digits_value a) (digits_value b)); symmetry; [apply Z.ltb_lt|apply Z.ltb_ge]; lia.
Qed.
(** a longer right side: only its first digits count, and if they are the same the shorter string is smaller *)
Lemma string_lt_app a b d : length a = length b → d ≠ [] → string_lt a (b ++ d) = negb (string_lt b a).
Proof.
  revert b. induction a as [|x a IH]; intros [|y b] Hl Hd; try done; [by destruct d|]. injection Hl as Hl. cbn [string_lt app].
  destruct (Z.ltb_spec x y), (Z.ltb_spec y x); try lia; try done. by apply IH.
Qed.
Lemma string_lt_app_l a b d : length a = length b → string_lt (a ++ d) b = string_lt a b.
Proof.
  revert b. induction a as [|x a IH]; intros [|y b] Hl; try done; [by destruct d|]. injection Hl as Hl. cbn [string_lt app].
  destruct (Z.ltb_spec x y), (Z.ltb_spec y x); try lia; try done. by apply IH.
Qed.
Lemma value_app a b : digits_value (a ++ b) = digits_value a * 10 ^ Z.of_nat (length b) + digits_value b.
Proof. unfold digits_value at 1. rewrite foldl_app. apply foldl_value. Qed.
Lemma value_take ds k : Forall is_digit ds → (k ≤ length ds)%nat → digits_value (take (length ds - k) ds) = digits_value ds / 10 ^ Z.of_nat k.
Proof.
  intros Hds Hk. rewrite <-(take_drop (length ds - k) ds) at 3. rewrite value_app, drop_length. replace (length ds - (length ds - k))%nat with k by lia.
  pose proof (value_bound (drop (length ds - k) ds) (Forall_drop _ _ _ Hds)) as Hb. rewrite drop_length in Hb. replace (length ds - (length ds - k))%nat with k in Hb by lia.
  rewrite Z.add_comm, Z.div_add by lia. rewrite Z.div_small by lia. lia.
Qed.

(** ** The threshold *)
(** C79: numbers with equally many digits are compared like numbers *)
Theorem C79_same_digits v t k : 0 ≤ k → (0 ≤ v < 10 ∧ 0 ≤ t < 10) ∨ (10 ^ k ≤ v < 10 ^ (k + 1) ∧ 10 ^ k ≤ t < 10 ^ (k + 1)) → big_ge v t = (t <=? v).
Proof.
  intros Hk H. assert (0 ≤ v ∧ 0 ≤ t) as [Hv Ht]. { destruct H; [lia|]. pose proof (Z.pow_pos_nonneg 10 k ltac:(lia) Hk). lia. }
  assert (length (to_string v) = length (to_string t)) as El.
  { destruct H as [[? ?]|[? ?]]; [by rewrite !length_digit by done|]. pose proof (length_of v k Hv Hk ltac:(done)). pose proof (length_of t k Ht Hk ltac:(done)). lia. }
  destruct (to_string_spec v Hv) as (V1 & V2 & _). destruct (to_string_spec t Ht) as (T1 & T2 & _).
  unfold big_ge. rewrite string_lt_same, V2, T2 by done. destruct (Z.ltb_spec v t), (Z.leb_spec t v); try done; lia.
Qed.
(** C79: fewer digits: the key is accepted if the votes exceed the leading digits of the threshold, however small they are *)
Theorem C79_fewer_digits v t k d : 0 ≤ k → 1 ≤ d → (k = 0 ∧ v = 0 ∨ 10 ^ k ≤ v) → v < 10 ^ (k + 1) → 10 ^ (k + d) ≤ t < 10 ^ (k + d + 1) →
  big_ge v t = (t / 10 ^ d <? v).
Proof.
  intros Hk Hd Hv Hv2 Ht. assert (0 ≤ v) as V0. { pose proof (Z.pow_pos_nonneg 10 k ltac:(lia) Hk). lia. } assert (0 ≤ t) as T0. { pose proof (Z.pow_pos_nonneg 10 (k + d) ltac:(lia) ltac:(lia)). lia. }
  assert (Z.of_nat (length (to_string v)) = k + 1) as Lv. { destruct Hv as [[-> ->]|Hv]; [done|by apply length_of]. }
  pose proof (length_of t (k + d) T0 ltac:(lia) Ht) as Lt.
  destruct (to_string_spec v V0) as (V1 & V2 & _). destruct (to_string_spec t T0) as (T1 & T2 & _).
  unfold big_ge. rewrite <-(take_drop (length (to_string t) - Z.to_nat d) (to_string t)).
  assert (length (take (length (to_string t) - Z.to_nat d) (to_string t)) = length (to_string v)) as El by (rewrite take_length; lia).
  rewrite string_lt_app.
  - rewrite negb_involutive, string_lt_same by (done || by apply Forall_take). rewrite value_take by (done || lia). rewrite T2, V2, Z2Nat.id by lia. done.
  - done.
  - intros E. assert (length (drop (length (to_string t) - Z.to_nat d) (to_string t)) = 0%nat) as F by (by rewrite E). rewrite drop_length in F. lia.
Qed.
(** C79: more digits: it is rejected if the leading digits of the votes are below the threshold, however many there are *)
Theorem C79_more_digits v t k d : 0 ≤ k → 1 ≤ d → (k = 0 ∧ t = 0 ∨ 10 ^ k ≤ t) → t < 10 ^ (k + 1) → 10 ^ (k + d) ≤ v < 10 ^ (k + d + 1) →
  big_ge v t = (t <=? v / 10 ^ d).
Proof.
  intros Hk Hd Ht Ht2 Hv. assert (0 ≤ t) as T0. { pose proof (Z.pow_pos_nonneg 10 k ltac:(lia) Hk). lia. } assert (0 ≤ v) as V0. { pose proof (Z.pow_pos_nonneg 10 (k + d) ltac:(lia) ltac:(lia)). lia. }
  assert (Z.of_nat (length (to_string t)) = k + 1) as Lt. { destruct Ht as [[-> ->]|Ht]; [done|by apply length_of]. }
  pose proof (length_of v (k + d) V0 ltac:(lia) Hv) as Lv.
  destruct (to_string_spec v V0) as (V1 & V2 & _). destruct (to_string_spec t T0) as (T1 & T2 & _).
  unfold big_ge. rewrite <-(take_drop (length (to_string v) - Z.to_nat d) (to_string v)).
  assert (length (take (length (to_string v) - Z.to_nat d) (to_string v)) = length (to_string t)) as El by (rewrite take_length; lia).
  rewrite string_lt_app_l by done. rewrite string_lt_same by (done || by apply Forall_take). rewrite value_take by (done || lia). rewrite T2, V2, Z2Nat.id by lia.
  destruct (Z.ltb_spec (v / 10 ^ d) t), (Z.leb_spec t (v / 10 ^ d)); try done; lia.
Qed.
(** a threshold of one digit: whatever is accepted has enough votes *)
Lemma small_threshold v t : 0 ≤ v → 0 ≤ t < 10 → big_ge v t = true → t ≤ v.
Proof.
  intros Hv Ht H. destruct (Z.ltb_spec v 10); [|lia]. rewrite (C79_same_digits v t 0) in H by lia. by apply Z.leb_le.
Qed.

Section Example.
Context (keccak : list N → list N) (ecrecover : list N → Z → Z → Z → option N) (addr_bytes : N → list N).
Context (batcher_address slasher_address deposit_address : N).
Notation run := (run keccak ecrecover addr_bytes batcher_address slasher_address deposit_address).
Notation steps := (steps keccak ecrecover addr_bytes batcher_address slasher_address deposit_address).
Notation deployed := (deployed slasher_address).

(** ** The config and the batch *)
Lemma index_loop_ok cs n blk i : config_index_loop cs n blk = Some i →
  ∃ c, (i < n)%nat ∧ cs !! i = Some c ∧ start_block c ≤ blk ∧ ∀ j c', (i < j < n)%nat → cs !! j = Some c' → blk < start_block c'.
Proof.
  induction n as [|n IH]; intros H; [done|]. cbn [config_index_loop] in H. destruct (cs !! n) as [c|] eqn:E; [|done]. destruct (Z.leb_spec (start_block c) blk).
  - injection H as <-. exists c. split_and!; [lia|done|done|]. intros. lia.
  - destruct (IH H) as (c1 & H1 & H2 & H3 & H4). exists c1. split_and!; [lia|done|done|]. intros j c' Hj Hc. destruct (decide (j = n)) as [->|]; [congruence|].
    apply (H4 j c'); [lia|done].
Qed.
Lemma index_loop_total cs n blk c0 : (0 < n ≤ length cs)%nat → cs !! 0%nat = Some c0 → start_block c0 ≤ blk → is_Some (config_index_loop cs n blk).
Proof.
  intros Hn H0 Hb. induction n as [|n IH]; [lia|]. cbn [config_index_loop]. destruct (lookup_lt_is_Some_2 cs n ltac:(lia)) as [c E]. rewrite E.
  destruct (Z.leb_spec (start_block c) blk); [eauto|]. destruct n as [|n]; [|apply IH; lia]. rewrite H0 in E. injection E as <-. lia.
Qed.
(** the config the app reads at a block: the last scheduled one that has started *)
Definition current_config (s : state) (n : Z) (i : nat) (c : config) : Prop :=
  scheduled (cc s) !! i = Some c ∧ start_block c ≤ n ∧ ∀ j c', (i < j)%nat → scheduled (cc s) !! j = Some c' → n < start_block c'.
Theorem C79_config s n c : config_at_block s n = Some c → ∃ i, current_config s n i c.
Proof.
  unfold config_at_block. destruct (config_index_loop _ _ _) as [i|] eqn:E; [|done]. cbn [mbind option_bind]. intros Hc.
  destruct (index_loop_ok _ _ _ _ E) as (c' & H1 & H2 & H3 & H4). exists i. replace c' with c in * by congruence. split_and!; [done|done|].
  intros j d Hj Hd. apply (H4 j d); [|done]. split; [done|]. by eapply lookup_lt_Some.
Qed.
(** C79: the app always finds a config *)
Theorem C79_config_total owner hu ap blk l n : 0 ≤ hu → 0 ≤ n → let s := (steps (deployed owner hu ap blk) l).1 in is_Some (load_page s n).
Proof.
  intros Hh Hn s. destruct (C47_well_formed keccak ecrecover addr_bytes batcher_address slasher_address deposit_address owner hu ap blk l Hh) as (W1 & _). fold s in W1.
  unfold load_page, config_at_block. destruct (index_loop_total (scheduled (cc s)) (length (scheduled (cc s))) n zero_config) as [i Hi]; [|done|done|].
  { split; [by eapply lookup_lt_Some|lia]. }
  rewrite Hi. destruct (index_loop_ok _ _ _ _ Hi) as (c & _ & Hc & _). cbn [mbind option_bind]. rewrite Hc. cbn. eauto.
Qed.
(** C79: the batch of a block: the block lies in the last span before the batch ends *)
Theorem C79_batch n c b : 0 < span c → start_block c ≤ n → batch_index_at_block n c = Some b →
  start_batch c ≤ b ∧ end_block c b - span c ≤ n < end_block c b ∧ open_block c b ≤ n.
Proof.
  intros Hs Hn H. unfold batch_index_at_block in H. destruct (Z.eqb_spec (span c) 0); [lia|]. injection H as <-.
  rewrite Z.quot_div_nonneg by lia. pose proof (Z.div_mod (n - start_block c) (span c) ltac:(lia)). pose proof (Z.mod_pos_bound (n - start_block c) (span c) Hs).
  assert (0 ≤ (n - start_block c) / span c) by (apply Z.div_pos; lia). unfold open_block, end_block.
  destruct (Z.eqb_spec (start_batch c + (n - start_block c) / span c) (start_batch c)); split_and!; nia.
Qed.
Lemma starts_grow (cs : list config) i j c c' : (∀ i c1 c2, cs !! i = Some c1 → cs !! S i = Some c2 → linked c1 c2) → (i ≤ j)%nat → cs !! i = Some c → cs !! j = Some c' → start_batch c ≤ start_batch c'.
Proof.
  intros W. revert c'. induction j as [|j IH]; intros c' Hij Hi Hj.
  - assert (i = 0)%nat as -> by lia. replace c' with c by congruence. lia.
  - destruct (decide (i = S j)) as [->|]; [replace c' with c by congruence; lia|].
    destruct (lookup_lt_is_Some_2 cs j) as [d Hd]. { apply lookup_lt_Some in Hj. lia. }
    specialize (IH d ltac:(lia) Hi Hd). specialize (W j d c' Hd Hj). unfold linked in W. destruct (0 <? span d); lia.
Qed.
(** C79: the config that has started last, and the batch computed with it, fit: it is the config the contracts use for that batch *)
Theorem C79_right_config owner hu ap blk l n i c b : 0 ≤ hu → let s := (steps (deployed owner hu ap blk) l).1 in
  current_config s n i c → 0 < span c → batch_index_at_block n c = Some b → config_for (scheduled (cc s)) b i c.
Proof.
  intros Hh s (H1 & H2 & H3) Hs Hb. destruct (C47_well_formed keccak ecrecover addr_bytes batcher_address slasher_address deposit_address owner hu ap blk l Hh) as (_ & _ & _ & W). fold s in W.
  destruct (C79_batch n c b Hs H2 Hb) as (B1 & B2 & _). split_and!; [done|done|]. intros j c' Hj Hc'.
  destruct (lookup_lt_is_Some_2 (scheduled (cc s)) (S i)) as [d Hd]. { apply lookup_lt_Some in Hc'. lia. }
  specialize (H3 (S i) d ltac:(lia) Hd). pose proof (starts_grow _ (S i) j d c' W ltac:(lia) Hd Hc') as Hg. specialize (W i c d H1 Hd). unfold linked in W.
  destruct (Z.ltb_spec 0 (span c)); [|lia]. destruct W as [W1 W2]. unfold end_block in B2. nia.
Qed.

(** configs that are new have not started, by the heads-up *)
Definition news (s : state) (f : list effect) (s' : state) : Prop :=
  block s ≤ block s' ∧ heads_up (cc s') = heads_up (cc s) ∧
  (0 ≤ block s → block s' < 2 ^ 64 → ∀ j c, scheduled (cc s') !! j = Some c → scheduled (cc s) !! j = Some c ∨ block s + heads_up (cc s) < start_block c).
Lemma news_same s f s' : block s ≤ block s' → cc s' = cc s → news s f s'.
Proof. intros Hb E. unfold news. rewrite E. split_and!; [done..|]. intros _ _ j c Hj. by left. Qed.
Lemma news_trans s f s1 g s2 : news s f s1 → news s1 g s2 → news s (f ++ g) s2.
Proof.
  intros (H1 & H2 & H3) (G1 & G2 & G3). split_and!; [lia|congruence|]. intros P1 P2 j c Hj. destruct (G3 ltac:(lia) P2 j c Hj) as [Hj1|Hlt]; [|right; rewrite H2 in Hlt; lia].
  destruct (H3 P1 ltac:(lia) j c Hj1); [by left|by right].
Qed.
Lemma news_schedule s a s' : schedule s a = Ok s' → news s [] s'.
Proof.
  intros H. pose proof H as H'. apply schedule_shape in H' as (_ & ->). split_and!; [done|done|]. intros P1 P2 j c Hj. cbn in Hj, P2.
  destruct (decide (j < length (scheduled (cc s)))%nat) as [|Hge]; [left; by rewrite lookup_app_l in Hj by done|]. right.
  rewrite lookup_app_r in Hj by lia. apply list_lookup_singleton_Some in Hj as [_ <-].
  unfold schedule in H. inv_do H. destruct (last (scheduled (cc s))) as [c1|] eqn:El; [|done]. inv_do H. subst. rewrite u64_small in * by lia.
  destruct (Z.ltb_spec (heads_up (cc s)) (span c1)); lia.
Qed.
Lemma news_unschedule s a x s' : unschedule s a x = Ok s' → news s [] s'.
Proof.
  intros H. apply unschedule_shape in H as (_ & _ & ->). split_and!; [done|done|]. intros _ _ j c Hj. left. cbn in Hj.
  destruct (scheduled (cc s)) as [|c0 cs] eqn:E; [by cbn in Hj|].
  destruct (unschedule_prefix x (length (c0 :: cs) - 1) (c0 :: cs)) as (n & _ & F & _); [cbn; lia|]. rewrite F in Hj.
  destruct (decide (j < n)%nat); [by rewrite lookup_take in Hj by done|]. by rewrite lookup_take_ge in Hj by lia.
Qed.
Lemma news_all s l : news s (steps s l).2 (steps s l).1.
Proof.
  apply (steps_rel keccak ecrecover addr_bytes batcher_address slasher_address deposit_address any ltac:(done) news); [..|apply any_events]; intros;
    try (match goal with H : schedule _ _ = _ |- _ => by eapply news_schedule end);
    try (match goal with H : unschedule _ _ _ = _ |- _ => by eapply news_unschedule end); shapes;
    try (apply news_same; [cbn; lia|done]).
  - by eapply news_trans.
  - split_and!; [done..|]. intros _ _ j d Hj. by left.
  - eapply news_trans; [done|]. by apply news_same.
  - eapply news_trans; [done|]. by apply news_same.
  - match goal with H : news ?t f _ |- news ?s0 (?e :: _) _ => apply (news_trans s0 [e] t) end; [by apply news_same|].
    eapply news_trans; [done|]. by apply news_same.
Qed.
(** C79: as long as no config starts in between, the config of a page is the current one, whatever is scheduled and unscheduled in the meantime *)
Theorem C79_up_to_date owner hu ap blk l1 l2 n1 n p : 0 ≤ hu → let s1 := (steps (deployed owner hu ap blk) l1).1 in let s2 := (steps s1 l2).1 in
  load_page s1 n1 = Some p → n1 ≤ block s1 + hu → n1 ≤ n → 0 ≤ block s1 → block s2 < 2 ^ 64 →
  (∀ c, c ∈ scheduled (cc s2) → start_block c ≤ n1 ∨ n < start_block c) → config_at_block s2 n = Some (p_config p).
Proof.
  intros Hh s1 s2 Hl Hn1 Hn P1 P2 Hno. destruct (conf_all keccak ecrecover addr_bytes batcher_address slasher_address deposit_address (deployed owner hu ap blk) l1) as (_ & E1 & _ & _). fold s1 in E1. cbn in E1.
  pose proof (C47_notice keccak ecrecover addr_bytes batcher_address slasher_address deposit_address owner hu ap blk l1 l2) as Hk.
  destruct (news_all s1 l2) as (_ & _ & Hnew). fold s2 in Hnew. specialize (Hnew P1 P2).
  unfold load_page in Hl. destruct (config_at_block s1 n1) as [c|] eqn:Ec; [|done]. injection Hl as <-. cbn [p_config].
  destruct (C79_config s1 n1 c Ec) as (i & H1 & H2 & H3).
  assert (scheduled (cc s2) !! i = Some c) as Hi by (apply (Hk i c Hh); [done|fold s1; lia]).
  assert (∀ j c', (i < j)%nat → scheduled (cc s2) !! j = Some c' → n < start_block c') as Hj.
  { intros j c' Hij Hc'. destruct (Hno c' ltac:(by eapply elem_of_list_lookup_2)) as [Hle|]; [|done]. destruct (Hnew j c' Hc') as [Hold|Hlt]; [|lia]. specialize (H3 j c' Hij Hold). lia. }
  unfold config_at_block. assert (config_index_loop (scheduled (cc s2)) (length (scheduled (cc s2))) n = Some i) as ->.
  { assert (∀ m, (i < m)%nat → (m ≤ length (scheduled (cc s2)))%nat → config_index_loop (scheduled (cc s2)) m n = Some i) as Hm.
    { induction m as [|m IH]; intros Hm1 Hm2; [lia|]. cbn [config_index_loop]. destruct (lookup_lt_is_Some_2 (scheduled (cc s2)) m ltac:(lia)) as [d Hd]. rewrite Hd.
      destruct (decide (i = m)) as [<-|]; [replace d with c by congruence; by destruct (Z.leb_spec (start_block c) n); [|lia]|].
      specialize (Hj m d ltac:(lia) Hd). destruct (Z.leb_spec (start_block d) n); [lia|]. apply IH; lia. }
    apply Hm; [by eapply lookup_lt_Some|lia]. }
  cbn [mbind option_bind]. done.
Qed.

(** C79: a transaction sent from an up to date page and mined at most three blocks later is accepted, if it fits, no fee is required and batches span
    at least three blocks *)
Theorem C79_accepted owner hu ap blk l p n k b sender t tx fuel : 0 ≤ hu → let s := (steps (deployed owner hu ap blk) l).1 in let c := p_config p in
  config_at_block s (n + 3) = Some c → send_encrypted p n = Some (k, b) → 3 ≤ span c → start_block c ≤ n → n ≤ block s ≤ n + 3 →
  timeout_block c b < 2 ^ 64 → 0 ≤ size_of s b → (∀ a, 0 ≤ fee_of s a) →
  0 < Z.of_nat (length tx) ≤ tx_size_limit c → size_of s b + Z.of_nat (length tx) ≤ batch_size_limit c → min_fee s = 0 →
  ∃ r, run (S fuel) s sender (AddTx b t tx 0) = Ok r.
Proof.
  intros Hh s c Hc Hs Hsp Hst Hbl Hto Hsz Hfee Hlen Hlim Hmin. destruct (C79_config s _ c Hc) as (i & Hi).
  unfold send_encrypted in Hs. destruct (p_eon_key p) as [k'|]; [|done]. cbn [mbind option_bind] in Hs. fold c in Hs. unfold expected_inclusion_delay in Hs.
  destruct (batch_index_at_block (n + 3) c) as [b'|] eqn:Eb; [|done]. cbn [mbind option_bind] in Hs. destruct (Z.ltb_spec b' (2 ^ 53)); [|done]. injection Hs as <- <-.
  pose proof (C79_right_config owner hu ap blk l (n + 3) i c b' Hh Hi ltac:(lia) Eb) as Hcf. fold s in Hcf.
  destruct (C79_batch (n + 3) c b' ltac:(lia) ltac:(lia) Eb) as (B1 & B2 & B3).
  destruct (C47_well_formed keccak ecrecover addr_bytes batcher_address slasher_address deposit_address owner hu ap blk l Hh) as (_ & W2 & _). fold s in W2.
  destruct Hcf as (C1 & C2 & C3). pose proof (proj1 (Forall_lookup _ _) W2 _ _ C1) as Tc. cbn in Tc. apply config_typed_ok in Tc as (T1 & T2 & T3 & T4 & T5).
  assert (0 ≤ b' < 2 ^ 64) as Hb' by lia.
  apply (C48_accept_iff keccak ecrecover addr_bytes batcher_address slasher_address deposit_address owner hu ap blk l sender b' t tx 0 fuel Hh Hb' ltac:(lia) Hfee Hsz).
  fold s. exists i, c. split_and!; try done; try lia.
  unfold open_block in *. destruct (Z.eqb_spec b' (start_batch c)); lia.
Qed.
(** C79: with a fee or mined later than the end of the batch it is rejected, and stays so: no fee is ever sent *)
Theorem C79_rejected owner hu ap blk l p n k b sender t tx fuel : 0 ≤ hu → let s := (steps (deployed owner hu ap blk) l).1 in let c := p_config p in
  config_at_block s (n + 3) = Some c → send_encrypted p n = Some (k, b) → start_block c ≤ n + 3 → 0 ≤ size_of s b → (∀ a, 0 ≤ fee_of s a) →
  n + 3 + span c ≤ block s ∨ 0 < min_fee s → 0 < span c →
  ¬ ∃ r, run (S fuel) s sender (AddTx b t tx 0) = Ok r.
Proof.
  intros Hh s c Hc Hs Hst Hsz Hfee Hor Hsp Hr. destruct (C79_config s _ c Hc) as (i & Hi).
  unfold send_encrypted in Hs. destruct (p_eon_key p) as [k'|]; [|done]. cbn [mbind option_bind] in Hs. fold c in Hs. unfold expected_inclusion_delay in Hs.
  destruct (batch_index_at_block (n + 3) c) as [b'|] eqn:Eb; [|done]. cbn [mbind option_bind] in Hs. destruct (Z.ltb_spec b' (2 ^ 53)); [|done]. injection Hs as <- <-.
  pose proof (C79_right_config owner hu ap blk l (n + 3) i c b' Hh Hi ltac:(lia) Eb) as Hcf. fold s in Hcf.
  destruct (C79_batch (n + 3) c b' ltac:(lia) ltac:(lia) Eb) as (B1 & B2 & B3).
  destruct (C47_well_formed keccak ecrecover addr_bytes batcher_address slasher_address deposit_address owner hu ap blk l Hh) as (_ & W2 & _). fold s in W2.
  pose proof (proj1 (Forall_lookup _ _) W2 _ _ (proj1 Hcf)) as Tc. cbn in Tc. apply config_typed_ok in Tc as (T1 & T2 & T3 & T4 & T5).
  assert (0 ≤ b' < 2 ^ 64) as Hb' by lia.
  apply (C48_accept_iff keccak ecrecover addr_bytes batcher_address slasher_address deposit_address owner hu ap blk l sender b' t tx 0 fuel Hh Hb' ltac:(lia) Hfee Hsz) in Hr.
  fold s in Hr. destruct Hr as (i' & c' & A1 & A2 & A3 & A4 & A5 & A6 & A7 & _). destruct (config_for_unique _ _ _ _ _ _ Hcf A1) as [<- <-]. lia.
Qed.
(** C79: a page that is out of date still picks the right batch if the batches of the next config have the same length *)
Theorem C79_same_span owner hu ap blk l i c1 c2 n : 0 ≤ hu → let s := (steps (deployed owner hu ap blk) l).1 in
  scheduled (cc s) !! i = Some c1 → scheduled (cc s) !! S i = Some c2 → 0 < span c1 → span c1 = span c2 → start_block c2 ≤ n →
  batch_index_at_block n c1 = batch_index_at_block n c2.
Proof.
  intros Hh s H1 H2 Hs E Hn. destruct (C47_well_formed keccak ecrecover addr_bytes batcher_address slasher_address deposit_address owner hu ap blk l Hh) as (_ & _ & _ & W). fold s in W.
  specialize (W i c1 c2 H1 H2). unfold linked in W. destruct (Z.ltb_spec 0 (span c1)); [|lia]. destruct W as [W1 W2].
  unfold batch_index_at_block. rewrite <-E. destruct (Z.eqb_spec (span c1) 0); [done|]. f_equal. rewrite !Z.quot_div_nonneg by nia.
  replace (n - start_block c1) with (n - start_block c2 + (start_batch c2 - start_batch c1) * span c1) by (rewrite W2; ring). rewrite Z.div_add by lia. lia.
Qed.

(** ** The eon public key *)
(** C79: with a threshold below ten, the key the app encrypts with is (up to collisions of the hash) one that the threshold of keypers voted for, and no other
    key has more votes.  Partial: false for larger thresholds, below. *)
Theorem C79_key_partial owner hu ap blk l n p k : let '(s, f) := steps (deployed owner hu ap blk) l in
  load_page s n = Some p → p_eon_key p = Some k → 0 < threshold (p_config p) < 10 →
  threshold (p_config p) ≤ count keccak 0 (keccak k) f ∧ (∀ h, count keccak 0 h f ≤ count keccak 0 (keccak k) f) ∧ NoDup (votes f).*1.
Proof.
  pose proof (C53_best_key keccak ecrecover addr_bytes batcher_address slasher_address deposit_address owner hu ap blk l 0) as Hb.
  pose proof (C53_counts keccak ecrecover addr_bytes batcher_address slasher_address deposit_address owner hu ap blk l) as Hc.
  pose proof (counted_all keccak ecrecover addr_bytes batcher_address slasher_address deposit_address (deployed owner hu ap blk) l [] (counted_deployed keccak slasher_address owner hu ap blk)) as Hall.
  destruct (steps _ l) as [s f]. cbn [fst snd app] in Hall. intros Hl Hk Ht. destruct Hc as (N1 & _ & _).
  unfold load_page in Hl. destruct (config_at_block s n) as [c|]; [|done]. injection Hl as <-. cbn [p_config p_eon_key] in *.
  destruct (big_ge _ _) eqn:Eg; [|done]. injection Hk as <-.
  assert (0 ≤ best_votes_of s 0) as Hnn. { pose proof (c_max _ _ _ Hall 0 zero32) as Hm. rewrite (c_num _ _ _ Hall) in Hm. unfold count in Hm. lia. }
  apply small_threshold in Eg; [|done|lia].
  destruct Hb as (a & key & V1 & V2 & V3 & V4).
  { destruct (best_hash s !! 0) as [h|] eqn:Eh; [|pose proof (c_zero _ _ _ Hall 0 Eh); lia]. destruct (c_best _ _ _ Hall 0 h Eh) as [_ (key & _ & Hin)].
    apply elem_of_list_fmap in Hin as ([b' a'] & -> & Hin). apply elem_of_list_fmap in Hin as ([[b'' a''] key'] & E & Hin). injection E as -> ->. eauto. }
  split_and!; [lia|done|done].
Qed.
End Example.

(** ** Findings and witnesses *)
(** C79: the page as the user sees it: two of three keypers voted for the key; the transaction is accepted *)
Definition xcfg := mkConfig 0 110 [7; 8; 9]%N 2 10 1000 100 1000 0 1 1 20.
Definition xvotes (ks : list (Z * N * list N)) : list event := (λ x, Tx 1 x.1.2 (Vote x.1.1 0 x.2)) <$> ks.
Definition xhistory : list event := [Tx 1 9 (SetNext xcfg); Tx 1 9 Schedule] ++ xvotes [(0, 7%N, [6]%N); (1, 8%N, [4]%N); (2, 9%N, [4]%N)] ++ [Mine 25].
Example C79_witness : let s := (wsteps (deployed 2 9 5 10 100) xhistory).1 in let c := xcfg in
  load_page s 124 = Some (mkPage c (Some [4]%N)) ∧ config_at_block s (124 + 3) = Some c ∧ send_encrypted (mkPage c (Some [4]%N)) 124 = Some ([4]%N, 1) ∧
  send_encrypted (mkPage c (Some [4]%N)) 128 = Some ([4]%N, 2) ∧
  block s = 125 ∧ 3 ≤ span c ∧ start_block c ≤ 124 ∧ timeout_block c 1 = 150 ∧ size_of s 1 = 0 ∧ min_fee s = 0 ∧ threshold c = 2 ∧
  (wrun 1 s 4 (AddTx 1 Cipher [1; 2; 3]%N 0) ≠ Revert) ∧ estimated_block 120 60000 = 124 ∧ estimated_block 120 7499 = 120 ∧ estimated_block 120 7500 = 121.
Proof. vm_compute. done. Qed.
(** C79, refuted: with a threshold of ten, a key that only two keypers voted for is used ("2" >= "10"), and with a threshold of nine and ten votes for a
    key, it is not *)
Definition many (thr : Z) := mkConfig 0 110 [7; 8; 9; 10; 11; 12; 13; 14; 15; 16; 17; 18]%N thr 10 1000 100 1000 0 1 1 20.
Definition ten_votes : list (Z * N * list N) := [(0, 7%N, [4]%N); (1, 8%N, [4]%N); (2, 9%N, [4]%N); (3, 10%N, [4]%N); (4, 11%N, [4]%N); (5, 12%N, [4]%N); (6, 13%N, [4]%N); (7, 14%N, [4]%N); (8, 15%N, [4]%N); (9, 16%N, [4]%N)].
Theorem C79_key_refuted : ∃ owner hu ap blk l n p k, let '(s, f) := wsteps (deployed 2 owner hu ap blk) l in
  load_page s n = Some p ∧ p_eon_key p = Some k ∧ threshold (p_config p) = 10 ∧ count (λ x, x) 0 k f = 2.
Proof.
  exists 9%N, 5, 10, 100, ([Tx 1 9 (SetNext (many 10)); Tx 1 9 Schedule] ++ xvotes (take 2 ten_votes) ++ [Mine 25]), 124, (mkPage (many 10) (Some [4]%N)), [4]%N.
  vm_compute. done.
Qed.
Theorem C79_enough_refuted : ∃ owner hu ap blk l n p k, let '(s, f) := wsteps (deployed 2 owner hu ap blk) l in
  load_page s n = Some p ∧ p_eon_key p = None ∧ threshold (p_config p) = 9 ∧ count (λ x, x) 0 k f = 10.
Proof.
  exists 9%N, 5, 10, 100, ([Tx 1 9 (SetNext (many 9)); Tx 1 9 Schedule] ++ xvotes ten_votes ++ [Mine 25]), 124, (mkPage (many 9) None), [4]%N.
  vm_compute. done.
Qed.
(** C79, refuted: the key is always the one for the batches from 0 on, also when the keypers have voted for a new key for the batch the transaction goes to *)
Theorem C79_eon_refuted : ∃ owner hu ap blk l n p k b, let '(s, f) := wsteps (deployed 2 owner hu ap blk) l in
  load_page s n = Some p ∧ send_encrypted p n = Some (k, b) ∧ b = 1 ∧ best_key s 1 ≠ k ∧ count (λ x, x) 1 (best_key s 1) f = 3 ∧ threshold (p_config p) = 2.
Proof.
  exists 9%N, 5, 10, 100, (xhistory ++ ((λ x, Tx 1 x.2 (Vote x.1 1 [5]%N)) <$> [(0, 7%N); (1, 8%N); (2, 9%N)])), 124, (mkPage xcfg (Some [4]%N)), [4]%N, 1.
  vm_compute. split_and!; done.
Qed.
(** C79, refuted: a page from before a config with shorter batches starts sends its transactions to batches that are over *)
Definition xcfg2 := mkConfig 3 140 [7; 8; 9]%N 2 5 1000 100 1000 0 1 1 20.
Theorem C79_stale_refuted : ∃ owner hu ap blk l1 l2 n1 n2 p k b,
  let s1 := (wsteps (deployed 2 owner hu ap blk) l1).1 in let s2 := (wsteps s1 l2).1 in
  load_page s1 n1 = Some p ∧ n1 ≤ block s1 ∧ n2 = block s2 ∧ send_encrypted p n2 = Some (k, b) ∧ min_fee s2 = 0 ∧ size_of s2 b = 0 ∧
  batch_index_at_block (n2 + 3) xcfg2 = Some (b + 2) ∧ config_at_block s2 n2 = Some xcfg2 ∧ wrun 1 s2 4 (AddTx b Cipher [1; 2; 3]%N 0) = Revert.
Proof.
  exists 9%N, 5, 10, 100, xhistory, [Tx 1 9 (SetNext xcfg2); Tx 1 9 Schedule; Mine 30], 125, 155, (mkPage xcfg (Some [4]%N)), [4]%N, 4.
  vm_compute. done.
Qed.
(** the hypotheses of the statements about stale pages and digits *)
Example C79_stale_witness : linked xcfg xcfg2 ∧ batch_index_at_block 145 xcfg = Some 3 ∧ batch_index_at_block 145 (mkConfig 3 140 [7; 8; 9]%N 2 10 1000 100 1000 0 1 1 20) = Some 3.
Proof. vm_compute. done. Qed.
Example C79_string_witness : to_string 120 = [1; 2; 0] ∧ to_string 0 = [0] ∧ big_ge 2 10 = true ∧ big_ge 1 10 = false ∧ big_ge 10 9 = false ∧ big_ge 10 1 = true ∧ big_ge 12 12 = true.
Proof. vm_compute. done. Qed.

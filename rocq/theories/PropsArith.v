(** Theorems for C22, C23, C24. *)
From stdpp Require Import list.
From Coq Require Import ZArith NArith Lia.
From Verif Require Import ArithModel.
Ltac Zify.zify_post_hook ::= Z.div_mod_to_equations.
Local Open Scope Z_scope.

Lemma u64_id x : is_u64 x → u64 x = x.
Proof. intros H. apply Z.mod_small, H. Qed.
Lemma i64_id x : - 2 ^ 63 ≤ x < 2 ^ 63 → i64 x = x.
Proof. intros H. unfold i64. rewrite Z.mod_small; lia. Qed.
Lemma u64_range x : is_u64 (u64 x).
Proof. unfold is_u64, u64. lia. Qed.

(** ** C22 *)
(** The four boundaries: each phase is the interval of heights of length [l] after the previous one. *)
Theorem C22_phases l start h : 0 < l → 0 ≤ start → start + 3 * l < 2 ^ 63 →
  let phase := phase_at (constant_phase_length l) h start in
  (phase = 0%nat ↔ h < start) ∧
  (phase = 1%nat ↔ start ≤ h < start + l) ∧
  (phase = 2%nat ↔ start + l ≤ h < start + 2 * l) ∧
  (phase = 3%nat ↔ start + 2 * l ≤ h < start + 3 * l) ∧
  (phase = 4%nat ↔ start + 3 * l ≤ h).
Proof.
  intros H1 H2 H3. cbn zeta. unfold phase_at, constant_phase_length. cbn [pl_off pl_dealing pl_accusing pl_apologizing].
  rewrite !i64_id by (rewrite ?i64_id; lia).
  destruct (Z.ltb_spec h (start + 0 * l)), (Z.ltb_spec h (start + 1 * l)), (Z.ltb_spec h (start + 2 * l)), (Z.ltb_spec h (start + 3 * l));
    repeat split; intros; lia.
Qed.
Theorem C22_monotone l start h h' : 0 < l → 0 ≤ start → start + 3 * l < 2 ^ 63 → h ≤ h' →
  (phase_at (constant_phase_length l) h start ≤ phase_at (constant_phase_length l) h' start)%nat.
Proof.
  intros H1 H2 H3 H4. unfold phase_at, constant_phase_length. cbn [pl_off pl_dealing pl_accusing pl_apologizing].
  rewrite !i64_id by (rewrite ?i64_id; lia).
  destruct (Z.ltb_spec h (start + 0 * l)), (Z.ltb_spec h (start + 1 * l)), (Z.ltb_spec h (start + 2 * l)), (Z.ltb_spec h (start + 3 * l)),
    (Z.ltb_spec h' (start + 0 * l)), (Z.ltb_spec h' (start + 1 * l)), (Z.ltb_spec h' (start + 2 * l)), (Z.ltb_spec h' (start + 3 * l)); lia.
Qed.
Example C22_witness : phase_at (constant_phase_length 30) 129 100 = 1%nat ∧ phase_at (constant_phase_length 30) 130 100 = 2%nat ∧
  phase_at (constant_phase_length 30) 189 100 = 3%nat ∧ phase_at (constant_phase_length 30) 190 100 = 4%nat.
Proof. done. Qed.

(** ** C24 *)
(** Batches of a config tile the blocks from its start block on: a block lies between start and end of exactly
    one batch, and BatchIndex computes it.  The last hypothesis excludes overflow of uint64. *)
Theorem C24_batch_of_block c block : config_ok c → is_active c = true → start_block c ≤ block →
  start_batch c + (block - start_block c) / span c < 2 ^ 64 → block + span c < 2 ^ 64 →
  ∃ b, batch_index c block = Some b ∧ start_batch c ≤ b ∧
    ∃ s e, batch_start_block c b = Some s ∧ batch_end_block c b = Some e ∧ s ≤ block < e.
Proof.
  intros Hok Ha Hs Ho1 Ho2. destruct Hok as [[] [] [] [] _ _]. unfold is_active in Ha. apply Z.ltb_lt in Ha.
  exists (start_batch c + (block - start_block c) / span c).
  assert (0 ≤ (block - start_block c) / span c) by (apply Z.div_pos; lia).
  assert (span c * ((block - start_block c) / span c) ≤ block - start_block c) by (apply Z.mul_div_le; lia).
  assert (block - start_block c < span c * ((block - start_block c) / span c) + span c) by
    (pose proof (Z.mul_succ_div_gt (block - start_block c) (span c) Ha); lia).
  set (q := (block - start_block c) / span c) in *.
  unfold batch_index. destruct (Z.ltb_spec block (start_block c)); [lia|]. destruct (Z.eqb_spec (span c) 0); [lia|].
  rewrite (u64_id (block - start_block c)) by (unfold is_u64; lia). fold q. rewrite u64_id by (unfold is_u64; lia).
  split; [done|]. split; [lia|].
  unfold batch_end_block, batch_start_block. destruct (Z.ltb_spec (start_batch c + q) (start_batch c)); [lia|].
  replace (start_batch c + q - start_batch c) with q by lia. rewrite (u64_id q) by (unfold is_u64; lia).
  clearbody q. assert (q * span c = span c * q) as E by lia. rewrite E.
  rewrite (u64_id (span c * q)) by (unfold is_u64; nia). rewrite (u64_id (start_block c + _)) by (unfold is_u64; nia).
  eexists _, _. split; [done|]. split; [cbn; by rewrite u64_id by (unfold is_u64; nia)|]. nia.
Qed.
(** no batch overlaps the next, and there is no gap *)
Theorem C24_tile c b s e : config_ok c → start_batch c ≤ b → start_block c + (b - start_batch c + 2) * span c < 2 ^ 64 → b + 1 < 2 ^ 64 →
  batch_start_block c b = Some s → batch_end_block c b = Some e →
  e = s + span c ∧ batch_start_block c (b + 1) = Some e ∧ (b = start_batch c → s = start_block c).
Proof.
  intros Hok Hb Ho1 Ho2. destruct Hok as [[] [] [] [] _ _]. unfold batch_end_block, batch_start_block.
  destruct (Z.ltb_spec b (start_batch c)); [lia|]. destruct (Z.ltb_spec (b + 1) (start_batch c)); [lia|].
  replace (b + 1 - start_batch c) with (b - start_batch c + 1) by lia.
  set (d := b - start_batch c) in *. assert (0 ≤ d) by lia. assert (d + 1 < 2 ^ 64) by lia. assert (d = 0 ↔ b = start_batch c) as Hd by lia. clearbody d.
  rewrite (u64_id d), (u64_id (d + 1)) by (unfold is_u64; lia).
  rewrite (u64_id (d * span c)), (u64_id ((d + 1) * span c)) by (unfold is_u64; nia).
  rewrite !(u64_id (start_block c + _)) by (unfold is_u64; nia). cbn. rewrite u64_id by (unfold is_u64; nia).
  intros [= <-] [= <-]. split; [lia|]. split; [f_equal; lia|]. intros ->%Hd. lia.
Qed.
Theorem C24_unique c b b' s e s' e' block : config_ok c → start_batch c ≤ b → start_batch c ≤ b' →
  start_block c + (b - start_batch c + 1) * span c < 2 ^ 64 → start_block c + (b' - start_batch c + 1) * span c < 2 ^ 64 →
  b < 2 ^ 64 → b' < 2 ^ 64 →
  batch_start_block c b = Some s → batch_end_block c b = Some e → batch_start_block c b' = Some s' → batch_end_block c b' = Some e' →
  s ≤ block < e → s' ≤ block < e' → b = b'.
Proof.
  intros Hok Hb Hb' Ho1 Ho2 Ho3 Ho4. destruct Hok as [[] [] [] [] _ _]. unfold batch_end_block, batch_start_block.
  destruct (Z.ltb_spec b (start_batch c)); [lia|]. destruct (Z.ltb_spec b' (start_batch c)); [lia|].
  set (d := b - start_batch c) in *. set (d' := b' - start_batch c) in *. assert (0 ≤ d) by lia. assert (0 ≤ d') by lia.
  rewrite (u64_id d), (u64_id d') by (unfold is_u64; lia).
  rewrite (u64_id (d * span c)), (u64_id (d' * span c)) by (unfold is_u64; nia).
  rewrite !(u64_id (start_block c + _)) by (unfold is_u64; nia). cbn. rewrite !u64_id by (unfold is_u64; nia).
  intros [= <-] [= <-] [= <-] [= <-] ? ?. assert (d = d') by nia. lia.
Qed.
(** a batch index below the config's first, or a block before its start block, is refused (panic) *)
Theorem C24_before c b : (batch_start_block c b = None ↔ b < start_batch c) ∧ (batch_end_block c b = None ↔ b < start_batch c) ∧
  ∀ block, batch_index c block = None ↔ block < start_block c.
Proof.
  unfold batch_end_block, batch_start_block, batch_index. destruct (Z.ltb_spec b (start_batch c)); cbn.
  - split; [done|]. split; [done|]. intros block. destruct (Z.ltb_spec block (start_block c)); [done|]. destruct (_ =? _); split; intros; [done|lia|done|lia].
  - split; [split; intros; [done|lia]|]. split; [split; intros; [done|lia]|].
    intros block. destruct (Z.ltb_spec block (start_block c)); [done|]. destruct (_ =? _); split; intros; [done|lia|done|lia].
Qed.

(** The three lookups return the last entry whose start is not larger. *)
Lemma config_loop_spec configs i b r : (i ≤ length configs)%nat → config_loop configs i b = Some r ↔
  ∃ j c, (j < i)%nat ∧ configs !! j = Some c ∧ start_batch c ≤ b ∧ r = (if is_active c then Some j else None) ∧
    ∀ k c', (j < k < i)%nat → configs !! k = Some c' → b < start_batch c'.
Proof.
  induction i as [|i IH]; intros Hi; cbn.
  - split; [done|]. intros (j & ? & ? & _). lia.
  - destruct (lookup_lt_is_Some_2 configs i ltac:(lia)) as [c Hc]. rewrite Hc. destruct (Z.leb_spec (start_batch c) b).
    + split.
      * intros [= <-]. exists i, c. split_and!; [lia|done..|]. intros. lia.
      * intros (j & c' & Hj & Hc' & Hle & -> & Hlast). destruct (decide (j = i)) as [->|Hne].
        -- rewrite Hc in Hc'. by injection Hc' as ->.
        -- specialize (Hlast i c ltac:(lia) Hc). lia.
    + rewrite IH by lia. split.
      * intros (j & c' & Hj & Hc' & Hle & -> & Hlast). exists j, c'. split_and!; [lia|done..|].
        intros k c'' Hk Hk'. destruct (decide (k = i)) as [->|Hne]; [rewrite Hc in Hk'; injection Hk' as <-; lia|].
        apply (Hlast k); [lia|done].
      * intros (j & c' & Hj & Hc' & Hle & -> & Hlast). assert (j ≠ i) by (intros ->; rewrite Hc in Hc'; injection Hc' as <-; lia).
        exists j, c'. split_and!; [lia|done..|]. intros k c'' Hk. apply Hlast. lia.
Qed.
Theorem C24_config_for_batch configs b r : config_index_for_batch configs b = Some r ↔
  ∃ j c, configs !! j = Some c ∧ start_batch c ≤ b ∧ r = (if is_active c then Some j else None) ∧
    ∀ k c', (j < k)%nat → configs !! k = Some c' → b < start_batch c'.
Proof.
  unfold config_index_for_batch. rewrite config_loop_spec by done. split.
  - intros (j & c & Hj & Hc & Hle & -> & Hl). exists j, c. split_and!; [done..|]. intros k c' Hk Hc'. apply (Hl k); [|done].
    apply lookup_lt_Some in Hc'. lia.
  - intros (j & c & Hc & Hle & -> & Hl). exists j, c. split_and!; [by apply lookup_lt_Some in Hc|done..|]. intros k c' Hk. apply Hl. lia.
Qed.
Lemma active_loop_spec configs i block r : (i ≤ length configs)%nat → active_loop configs i block = Some r ↔
  (r < i)%nat ∧ (∃ c, configs !! r = Some c ∧ start_block c ≤ block) ∧
    ∀ k c', (r < k < i)%nat → configs !! k = Some c' → block < start_block c'.
Proof.
  induction i as [|i IH]; intros Hi; cbn.
  - split; [done|]. intros (? & _). lia.
  - destruct (lookup_lt_is_Some_2 configs i ltac:(lia)) as [c Hc]. rewrite Hc. destruct (Z.leb_spec (start_block c) block).
    + split.
      * intros [= <-]. split_and!; [lia|eauto|]. intros. lia.
      * intros (Hj & (c' & Hc' & Hle) & Hlast). destruct (decide (r = i)) as [->|Hne]; [done|].
        specialize (Hlast i c ltac:(lia) Hc). lia.
    + rewrite IH by lia. split.
      * intros (Hj & ? & Hlast). split_and!; [lia|done|].
        intros k c'' Hk Hk'. destruct (decide (k = i)) as [->|Hne]; [rewrite Hc in Hk'; injection Hk' as <-; lia|].
        apply (Hlast k); [lia|done].
      * intros (Hj & (c' & Hc' & Hle) & Hlast). assert (r ≠ i) by (intros ->; rewrite Hc in Hc'; injection Hc' as <-; lia).
        split_and!; [lia|eauto|]. intros k c'' Hk. apply Hlast. lia.
Qed.
Theorem C24_active_config configs block r : active_config_index configs block = Some r ↔
  (∃ c, configs !! r = Some c ∧ start_block c ≤ block) ∧ ∀ k c', (r < k)%nat → configs !! k = Some c' → block < start_block c'.
Proof.
  unfold active_config_index. rewrite active_loop_spec by done. split.
  - intros (Hr & Hc & Hl). split; [done|]. intros k c' Hk Hc'. apply (Hl k); [|done]. apply lookup_lt_Some in Hc'. lia.
  - intros ((c & Hc & ?) & Hl). split_and!; [by apply lookup_lt_Some in Hc|eauto|]. intros k c' Hk. apply Hl. lia.
Qed.
(** NextBatchIndex is one more than the index of the batch the block belongs to, or the start index of an inactive config. *)
Theorem C24_next_batch configs block : (∀ c, c ∈ configs → config_ok c) → is_u64 block →
  next_batch_index configs block =
    match active_config configs block with
    | None => None
    | Some c => (λ b, if is_active c then u64 (b + 1) else b) <$> batch_index c block
    end.
Proof.
  intros Hok Hbl. unfold next_batch_index, active_config, active_config_index.
  assert (∀ i, (i ≤ length configs)%nat → next_batch_index_loop configs i block =
    match active_loop configs i block ≫= λ i, configs !! i with
    | None => None
    | Some c => (λ b, if is_active c then u64 (b + 1) else b) <$> batch_index c block
    end) as H; [|by apply H].
  induction i as [|i IH]; intros Hi; [done|]. cbn [next_batch_index_loop active_loop].
  destruct (lookup_lt_is_Some_2 configs i ltac:(lia)) as [c Hc]. rewrite Hc.
  destruct (Z.leb_spec (start_block c) block); [|apply IH; lia].
  cbn. rewrite Hc. unfold batch_index, is_active. destruct (Z.ltb_spec block (start_block c)); [lia|].
  destruct (Hok c ltac:(by eapply elem_of_list_lookup_2)) as [_ _ _ [] _ _].
  destruct (Z.eqb_spec (span c) 0) as [->|]; cbn; [done|]. destruct (Z.ltb_spec 0 (span c)); [done|lia].
Qed.
Example C24_witness : let c := mkConfig 7 100 [1; 2; 3]%N 2 10 1000 100 21000 0 5 0 30 in
  config_ok c ∧ is_active c = true ∧ batch_index c 134 = Some 10 ∧ batch_start_block c 10 = Some 130 ∧ batch_end_block c 10 = Some 140 ∧
  config_index_for_batch [mkConfig 0 0 [] 0 0 0 0 0 0 0 0 0; c] 9 = Some (Some 1%nat) ∧
  config_index_for_batch [mkConfig 0 0 [] 0 0 0 0 0 0 0 0 0; c] 5 = Some None ∧
  next_batch_index [mkConfig 0 0 [] 0 0 0 0 0 0 0 0 0; c] 134 = Some 11.
Proof. split_and!; [constructor; cbn; unfold is_u64; lia|..]; done. Qed.

(** ** C23 *)
Lemma index_from_spec i l a r : index_from i l a = Some r → i ≤ r < i + Z.of_nat (length l) ∧ l !! Z.to_nat (r - i) = Some a.
Proof.
  revert i. induction l as [|k l IH]; intros i; cbn; [done|]. destruct (N.eqb_spec k a) as [->|].
  - intros [= <-]. replace (i - i) with 0 by lia. split; [lia|done].
  - intros [H1 H2]%IH. split; [lia|]. replace (Z.to_nat (r - i)) with (S (Z.to_nat (r - (i + 1)))) by lia. done.
Qed.
Lemma keyper_index_spec c a i : keyper_index c a = Some i → 0 ≤ i < Z.of_nat (length (keypers c)) ∧ keypers c !! Z.to_nat i = Some a.
Proof. intros H. apply index_from_spec in H. replace (i - 0) with i in H by lia. split; [lia|apply H]. Qed.

(** the common unit of delay, and the slot of a keyper in a half step *)
Definition stagger_unit (c : config) (staggering_cfg : Z) : Z :=
  if Z.of_nat (length (keypers c)) =? 1 then Z.min 0 staggering_cfg
  else Z.min staggering_cfg (timeout c / (2 * (Z.of_nat (length (keypers c)) - 1))).
(** The delay is the keyper's slot times a common unit, and never exceeds half of the execution timeout. *)
Theorem C23_delay c st me i h : config_ok c → is_u64 st → keyper_index c me = Some i → 0 ≤ h → h + Z.of_nat (length (keypers c)) ≤ 2 ^ 64 →
  ∃ d, execution_delay c st me h = Some d ∧ d = ((h + i) mod Z.of_nat (length (keypers c))) * stagger_unit c st ∧ 0 ≤ 2 * d ≤ timeout c.
Proof.
  intros Hok [] Hi Hh Ho. apply keyper_index_spec in Hi as Hi'. destruct Hi' as [Hi' _]. destruct Hok as [_ _ _ _ [] Hn].
  unfold execution_delay, stagger_unit. rewrite Hi. change (from_option id 0 (Some i)) with i.
  set (n := Z.of_nat (length (keypers c))) in *. clearbody n.
  destruct (Z.eqb_spec n 0); [lia|].
  rewrite (u64_id (n - 1)) by (unfold is_u64; lia). rewrite (u64_id (2 * _)) by (unfold is_u64; lia).
  rewrite (u64_id (h + i)) by (unfold is_u64; lia).
  assert (0 ≤ (h + i) mod n < n) as Hm by (apply Z.mod_pos_bound; lia).
  set (p := (h + i) mod n) in *. clearbody p. cbn zeta.
  destruct (Z.eqb_spec n 1) as [->|].
  - change (1 - 1 =? 0) with true. cbv iota. replace (Z.min 0 st) with 0 by lia.
    replace (if 0 <=? st then 0 else st) with 0 by (destruct (Z.leb_spec 0 st); lia).
    rewrite Z.mul_0_r. exists 0. split_and!; [done|done|lia|lia].
  - destruct (Z.eqb_spec (n - 1) 0); [lia|]. destruct (Z.eqb_spec (2 * (n - 1)) 0); [lia|].
    assert (0 ≤ timeout c / (2 * (n - 1))) by (apply Z.div_pos; lia).
    assert ((2 * (n - 1)) * (timeout c / (2 * (n - 1))) ≤ timeout c) by (apply Z.mul_div_le; lia).
    set (ms := timeout c / (2 * (n - 1))) in *. clearbody ms.
    replace (if ms <=? st then ms else st) with (Z.min st ms) by (destruct (Z.leb_spec ms st); lia).
    assert (2 * (p * Z.min st ms) ≤ timeout c) by nia. assert (0 ≤ p * Z.min st ms) by nia.
    eexists. split; [rewrite u64_id by (unfold is_u64; lia); done|]. split; [done|lia].
Qed.
Lemma slots_distinct n h i j : 0 ≤ i < n → 0 ≤ j < n → (h + i) mod n = (h + j) mod n → i = j.
Proof.
  intros Hi Hj E.
  pose proof (Z.div_mod (h + i) n ltac:(lia)). pose proof (Z.div_mod (h + j) n ltac:(lia)).
  set (a := (h + i) / n) in *. set (b := (h + j) / n) in *. clearbody a b. rewrite E in H.
  assert (i - j = n * (a - b)) by lia. destruct (Z.lt_trichotomy a b) as [|[|]]; nia.
Qed.
Lemma slot_turn n h i : 0 ≤ i < n → exists! k, 0 ≤ k < n ∧ (h + k + i) mod n = 0.
Proof.
  intros Hi. exists ((- (h + i)) mod n). pose proof (Z.mod_pos_bound (- (h + i)) n ltac:(lia)) as Hb. split.
  - split; [done|]. replace (h + (- (h + i)) mod n + i) with ((h + i) + (- (h + i)) mod n) by lia.
    rewrite Zplus_mod_idemp_r. replace (h + i + - (h + i)) with 0 by lia. apply Z.mod_0_l. lia.
  - intros k [Hk E]. apply (slots_distinct n (h + i)); [done|done|].
    replace (h + i + k) with (h + k + i) by lia. rewrite E, Zplus_mod_idemp_r. replace (h + i + - (h + i)) with 0 by lia. apply Z.mod_0_l. lia.
Qed.
(** Two keypers wait for different times, at least one unit apart. *)
Theorem C23_distinct c st a a' i j h d d' : config_ok c → is_u64 st → keyper_index c a = Some i → keyper_index c a' = Some j → a ≠ a' →
  0 ≤ h → h + Z.of_nat (length (keypers c)) ≤ 2 ^ 64 →
  execution_delay c st a h = Some d → execution_delay c st a' h = Some d' → stagger_unit c st ≤ Z.abs (d - d').
Proof.
  intros Hok Hst Hi Hj Hne Hh Ho Hd Hd'.
  destruct (C23_delay c st a i h) as (e & E1 & E2 & E3); [done..|]. destruct (C23_delay c st a' j h) as (e' & E1' & E2' & E3'); [done..|].
  rewrite Hd in E1. rewrite Hd' in E1'. injection E1 as <-. injection E1' as <-.
  apply keyper_index_spec in Hi as [Hi1 Hi2]. apply keyper_index_spec in Hj as [Hj1 Hj2].
  set (n := Z.of_nat (length (keypers c))) in *.
  assert ((h + i) mod n ≠ (h + j) mod n) as Hm.
  { intros E. apply slots_distinct in E; [|done..]. subst j. rewrite Hi2 in Hj2. by injection Hj2. }
  set (x := (h + i) mod n) in *. set (y := (h + j) mod n) in *. clearbody x y. set (u := stagger_unit c st) in *. clearbody u n. subst d d'.
  assert (Z.abs (x * u - y * u) = Z.abs (x - y) * Z.abs u) as -> by (rewrite <-Z.abs_mul; f_equal; lia). nia.
Qed.
(** Among any [n] consecutive half steps each keyper is first (no delay) in some, and in no other if there is any staggering. *)
Theorem C23_turn c st me i h : config_ok c → is_u64 st → keyper_index c me = Some i →
  0 ≤ h → h + 2 * Z.of_nat (length (keypers c)) ≤ 2 ^ 64 →
  ∃ k, 0 ≤ k < Z.of_nat (length (keypers c)) ∧ execution_delay c st me (h + k) = Some 0 ∧
    ∀ k', 0 ≤ k' < Z.of_nat (length (keypers c)) → execution_delay c st me (h + k') = Some 0 → 0 < stagger_unit c st → k' = k.
Proof.
  intros Hok Hst Hi Hh Ho. pose proof (keyper_index_spec _ _ _ Hi) as [Hi1 _].
  destruct (slot_turn (Z.of_nat (length (keypers c))) h i Hi1) as (k & [Hk E] & Hu). exists k. split; [done|]. split.
  - destruct (C23_delay c st me i (h + k)) as (d & Hd & E2 & _); [done..|lia|lia|]. rewrite E in E2. rewrite Hd. f_equal. lia.
  - intros k' Hk' E' Hpos. symmetry. apply Hu. split; [done|].
    destruct (C23_delay c st me i (h + k')) as (d & Hd & E2 & _); [done..|lia|lia|].
    rewrite E' in Hd. injection Hd as <-. nia.
Qed.
(** The number of half steps sent at once: all that belong to closed batches, but at most 10. *)
Theorem C23_half_steps next batch : is_u64 next → is_u64 (2 * batch) →
  num_half_steps_to_execute next batch = Z.min 10 (Z.max 0 (2 * batch - next)).
Proof.
  intros [] []. unfold num_half_steps_to_execute. replace (batch * 2) with (2 * batch) by lia.
  rewrite (u64_id (2 * batch)) by (unfold is_u64; lia).
  destruct (Z.leb_spec (2 * batch) next); [lia|]. rewrite u64_id by (unfold is_u64; lia). destruct (Z.leb_spec (2 * batch - next) 10); lia.
Qed.
Example C23_witness : let c := mkConfig 7 100 [11; 12; 13]%N 2 10 1000 100 21000 0 5 0 30 in
  config_ok c ∧ execution_delay c 100 11 20 = Some 14 ∧ execution_delay c 100 12 20 = Some 0 ∧ execution_delay c 100 13 20 = Some 7 ∧
  execution_delay c 3 11 20 = Some 6 ∧ keyper_index c 13 = Some 2.
Proof. split_and!; [constructor; cbn; unfold is_u64; lia|..]; done. Qed.

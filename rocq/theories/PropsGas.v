(** C78: the gas price multiplier. *)
From stdpp Require Import list.
From Coq Require Import ZArith Lia.
From Verif Require Import GasModel.
Local Open Scope Z_scope.

(** ** Rounding *)
Lemma bit_len_lt x : 0 ≤ x → x < 2 ^ bit_len x.
Proof. intros H. unfold bit_len. destruct (Z.eqb_spec x 0) as [->|]; [done|]. apply (Z.log2_spec x). lia. Qed.
Lemma bit_len_le x : 0 < x → 2 ^ (bit_len x - 1) ≤ x.
Proof. intros H. unfold bit_len. destruct (Z.eqb_spec x 0); [lia|]. replace (Z.log2 x + 1 - 1) with (Z.log2 x) by lia. by apply Z.log2_spec. Qed.
Lemma bit_len_nonneg x : 0 ≤ bit_len x.
Proof. unfold bit_len. destruct (x =? 0); [lia|]. pose proof (Z.log2_nonneg x). lia. Qed.
Lemma bit_len_mono x y : 0 ≤ x ≤ y → bit_len x ≤ bit_len y.
Proof. intros H. unfold bit_len. destruct (Z.eqb_spec x 0), (Z.eqb_spec y 0); try lia; [pose proof (Z.log2_nonneg y); lia|]. pose proof (Z.log2_le_mono x y). lia. Qed.
Lemma pow_pos k : 0 ≤ k → 0 < 2 ^ k. Proof. intros. apply Z.pow_pos_nonneg; lia. Qed.

(** what rounding does: nothing, or to a multiple of 2^k next to [x], where x / 2^k has [prec] bits *)
Lemma round_spec prec x : 0 < prec → 0 ≤ x → let k := bit_len x - prec in
  (k ≤ 0 ∧ round prec x = x) ∨
  (0 < k ∧ ∃ q r q', x = q * 2 ^ k + r ∧ 0 ≤ r < 2 ^ k ∧ round prec x = q' * 2 ^ k ∧ 2 ^ (prec - 1) ≤ q < 2 ^ prec ∧
     ((q' = q ∧ 2 * r ≤ 2 ^ k) ∨ (q' = q + 1 ∧ 2 ^ k ≤ 2 * r)) ∧ (2 * r = 2 ^ k → Z.odd q = true → q' = q + 1) ∧ (2 * r = 2 ^ k → Z.odd q = false → q' = q)).
Proof.
  intros Hp Hx k. unfold round. fold k. destruct (Z.leb_spec k 0) as [Hk|Hk]; [by left|right]. split; [done|].
  assert (0 < x) as Hx0. { destruct (Z.eq_dec x 0) as [->|]; [|lia]. unfold k in Hk. cbn in Hk. lia. }
  assert (2 ^ k = 2 * 2 ^ (k - 1)) as H2. { rewrite <-Z.pow_succ_r by lia. f_equal. lia. }
  pose proof (pow_pos k ltac:(lia)) as Hkp. pose proof (Z.div_mod x (2 ^ k) ltac:(lia)) as Hdm. pose proof (Z.mod_pos_bound x (2 ^ k) Hkp) as Hr.
  eexists (x / 2 ^ k), (x mod 2 ^ k), _. split; [lia|]. split; [done|]. split; [reflexivity|]. split.
  - pose proof (bit_len_le x Hx0) as L. pose proof (bit_len_lt x Hx) as U. split.
    + apply Z.div_le_lower_bound; [done|]. rewrite <-Z.pow_add_r by lia. by replace (k + (prec - 1)) with (bit_len x - 1) by (unfold k; lia).
    + apply Z.div_lt_upper_bound; [done|]. rewrite <-Z.pow_add_r by lia. by replace (k + prec) with (bit_len x) by (unfold k; lia).
  - destruct (Z.ltb_spec (2 ^ (k - 1)) (x mod 2 ^ k)), (Z.eqb_spec (x mod 2 ^ k) (2 ^ (k - 1))), (Z.odd (x / 2 ^ k)) eqn:Ho; cbn [orb andb]; repeat split; intros; try lia; try congruence.
Qed.
Lemma round_nonneg prec x : 0 < prec → 0 ≤ x → 0 ≤ round prec x.
Proof.
  intros Hp Hx. destruct (round_spec prec x Hp Hx) as [[_ ->]|(Hk & q & r & q' & _ & _ & -> & Hq & Hq' & _)]; [done|].
  pose proof (pow_pos (prec - 1) ltac:(lia)). pose proof (pow_pos (bit_len x - prec) ltac:(lia)). apply Z.mul_nonneg_nonneg; lia.
Qed.
(** the relative error is at most 2^-prec *)
Lemma round_error prec x : 0 < prec → 0 ≤ x → 2 ^ prec * Z.abs (round prec x - x) ≤ x.
Proof.
  intros Hp Hx. destruct (round_spec prec x Hp Hx) as [[_ ->]|(Hk & q & r & q' & Ex & Hr & -> & Hq & Hq' & _)]; [replace (x - x) with 0 by lia; cbn; lia|].
  set (t := 2 ^ (bit_len x - prec)) in *. assert (2 ^ prec = 2 * 2 ^ (prec - 1)) as H2. { rewrite <-Z.pow_succ_r by lia. f_equal. lia. }
  assert (2 * Z.abs (q' * t - x) ≤ t) as He by (destruct Hq' as [[-> ?]|[-> ?]]; lia). rewrite H2. pose proof (pow_pos (prec - 1) ltac:(lia)) as Hpp.
  assert (2 ^ (prec - 1) * (2 * Z.abs (q' * t - x)) ≤ 2 ^ (prec - 1) * t) by (apply Z.mul_le_mono_nonneg_l; lia).
  assert (2 ^ (prec - 1) * t ≤ q * t) by (apply Z.mul_le_mono_nonneg_r; lia). lia.
Qed.
Lemma round_mono prec x y : 0 < prec → 0 ≤ x ≤ y → round prec x ≤ round prec y.
Proof.
  intros Hp [Hx Hy]. pose proof (bit_len_mono x y ltac:(lia)) as Hb.
  destruct (round_spec prec x Hp Hx) as [[Hkx ->]|(Hkx & q & r & q' & Ex & Hr & -> & Hq & Hq' & T1 & T2)];
    destruct (round_spec prec y Hp ltac:(lia)) as [[Hky ->]|(Hky & p & s & p' & Ey & Hs & -> & Hpq & Hp' & U1 & U2)]; [lia| |lia|].
  - (* x is not rounded *)
    assert (x < 2 ^ prec) as Hxp. { pose proof (bit_len_lt x Hx). eapply Z.lt_le_trans; [done|]. apply Z.pow_le_mono_r; lia. }
    set (t := 2 ^ (bit_len y - prec)) in *. assert (2 ≤ t) as Ht. { unfold t. change 2 with (2 ^ 1) at 1. apply Z.pow_le_mono_r; lia. }
    assert (2 ^ prec = 2 * 2 ^ (prec - 1)) as H2. { rewrite <-Z.pow_succ_r by lia. f_equal. lia. }
    pose proof (pow_pos (prec - 1) ltac:(lia)). assert (2 ^ (prec - 1) * 2 ≤ p' * t); [|lia]. apply Z.mul_le_mono_nonneg; lia.
  - destruct (Z.eq_dec (bit_len x) (bit_len y)) as [E|E].
    + rewrite E in *. set (t := 2 ^ (bit_len y - prec)) in *. pose proof (pow_pos (bit_len y - prec) ltac:(lia)) as Ht. fold t in Ht. apply Z.mul_le_mono_nonneg_r; [lia|].
      assert (q ≤ p) as Hle. { assert (q < p + 1); [|lia]. apply (Z.mul_lt_mono_pos_r t); lia. }
      destruct (Z.eq_dec q p) as [<-|]; [|lia]. assert (r ≤ s) by lia. destruct Hq' as [[-> Hq']|[-> Hq']], Hp' as [[-> Hp']|[-> Hp']]; try lia.
      exfalso. assert (2 * r = t) as E1 by lia. assert (2 * s = t) as E2 by lia. destruct (Z.odd q) eqn:Ho; [specialize (U1 E2 eq_refl)|specialize (T2 E1 eq_refl)]; lia.
    + set (t := 2 ^ (bit_len x - prec)) in *. set (u := 2 ^ (bit_len y - prec)) in *.
      assert (2 * t ≤ u) as Htu. { unfold t, u. rewrite <-Z.pow_succ_r by lia. apply Z.pow_le_mono_r; lia. }
      pose proof (pow_pos (bit_len x - prec) ltac:(lia)) as Ht. fold t in Ht. assert (2 ^ prec = 2 * 2 ^ (prec - 1)) as H2. { rewrite <-Z.pow_succ_r by lia. f_equal. lia. }
      pose proof (pow_pos (prec - 1) ltac:(lia)).
      assert (q' * t ≤ 2 ^ prec * t) by (apply Z.mul_le_mono_nonneg_r; lia). assert (2 ^ (prec - 1) * (2 * t) ≤ p' * u) by (apply Z.mul_le_mono_nonneg; lia). lia.
Qed.
(** what has [prec] bits and a power of two is not passed by rounding *)
Lemma round_above prec a d x : 0 < prec → 0 ≤ a → bit_len a ≤ prec → 0 ≤ d → a * 2 ^ d ≤ x → a * 2 ^ d ≤ round prec x.
Proof.
  intros Hp Ha Hb Hd Hx. pose proof (pow_pos d Hd) as Hdp. assert (0 ≤ a * 2 ^ d) as H0 by (apply Z.mul_nonneg_nonneg; lia).
  enough (round prec (a * 2 ^ d) = a * 2 ^ d) as <- by (apply round_mono; lia).
  destruct (round_spec prec (a * 2 ^ d) Hp H0) as [[_ E]|(Hk & q & r & q' & Ex & Hr & Er & Hq & Hq' & _)]; [done|]. rewrite Er.
  destruct (Z.eq_dec a 0) as [->|Hz]; [rewrite Z.mul_0_l in Hk; change (bit_len 0) with 0 in Hk; lia|].
  assert (bit_len (a * 2 ^ d) = bit_len a + d) as Hl. { unfold bit_len. destruct (Z.eqb_spec a 0); [done|]. destruct (Z.eqb_spec (a * 2 ^ d) 0); [lia|]. rewrite Z.log2_mul_pow2 by lia. lia. }
  set (k := bit_len (a * 2 ^ d) - prec) in *. assert (a * 2 ^ d = (a * 2 ^ (d - k)) * 2 ^ k) as E. { rewrite <-Z.mul_assoc, <-Z.pow_add_r by (unfold k; lia). do 2 f_equal. lia. }
  pose proof (pow_pos k ltac:(lia)) as Hkp. rewrite E in Ex. assert (q = a * 2 ^ (d - k) ∧ r = 0) as [-> ->].
  { apply (Z.div_mod_unique (2 ^ k)); [left; lia|left; lia|]. lia. }
  destruct Hq' as [[-> _]|[_ ?]]; [lia|lia].
Qed.

(** ** The adjusted gas price *)
(** the multiplier is m / 2^d *)
Definition multiplier_ok (m d : Z) : Prop := 0 ≤ m ∧ 0 ≤ d.
Lemma prec_pos price : 64 ≤ Z.max (bit_len price) 64. Proof. lia. Qed.
(** C78: exactly the multiple, rounded down, as long as it needs no more than 64 bits *)
Theorem C78_exact s m d price : multiplier_ok m d → 0 ≤ price → price * m < 2 ^ 64 → adjust (Finite s m d) price = Returns (Some (price * m / 2 ^ d)).
Proof.
  intros [Hm Hd] Hp Hx. unfold adjust, round. assert (0 ≤ price * m) as H0 by (by apply Z.mul_nonneg_nonneg).
  assert (bit_len (price * m) ≤ 64) as Hb. { unfold bit_len. destruct (Z.eqb_spec (price * m) 0); [lia|]. pose proof (Z.log2_lt_pow2 (price * m) 64 ltac:(lia)). lia. }
  destruct (Z.leb_spec (bit_len (price * m) - Z.max (bit_len price) 64) 0); [done|lia].
Qed.
(** C78: in any case not negative, and off by less than one wei and 2^-64 of it *)
Theorem C78_error s m d price : multiplier_ok m d → 0 ≤ price → ∃ p, adjust (Finite s m d) price = Returns (Some p) ∧ 0 ≤ p ∧
  2 ^ 64 * (p * 2 ^ d - price * m) ≤ price * m ∧ 2 ^ 64 * (price * m - p * 2 ^ d) < price * m + 2 ^ 64 * 2 ^ d.
Proof.
  intros [Hm Hd] Hp. eexists. split; [reflexivity|]. set (prec := Z.max (bit_len price) 64). assert (0 ≤ price * m) as H0 by (by apply Z.mul_nonneg_nonneg).
  pose proof (round_error prec (price * m) ltac:(lia) H0) as He. pose proof (pow_pos d Hd) as Hdp. pose proof (round_nonneg prec (price * m) ltac:(lia) H0) as Hn. set (x := price * m) in *. set (y := round prec x) in *.
  pose proof (Z.div_mod y (2 ^ d) ltac:(lia)) as Hdm. pose proof (Z.mod_pos_bound y (2 ^ d) Hdp) as Hr.
  assert (2 ^ 64 ≤ 2 ^ prec) as Hpow by (apply Z.pow_le_mono_r; lia).
  assert (2 ^ 64 * Z.abs (y - x) ≤ x) as He'. { eapply Z.le_trans; [|exact He]. apply Z.mul_le_mono_nonneg_r; lia. }
  split; [apply Z.div_pos; lia|]. change (2 ^ 64) with 18446744073709551616 in *. split; lia.
Qed.
(** C78: a multiplier of at least one never lowers the price *)
Theorem C78_at_least s m d price p : multiplier_ok m d → 2 ^ d ≤ m → 0 ≤ price → adjust (Finite s m d) price = Returns (Some p) → price ≤ p.
Proof.
  intros [Hm Hd] Hge Hp [= <-]. pose proof (pow_pos d Hd) as Hdp. apply Z.div_le_lower_bound; [done|]. rewrite Z.mul_comm. apply round_above; [lia|done|lia|done|]. by apply Z.mul_le_mono_nonneg_l.
Qed.
(** C78: prices keep their order *)
Theorem C78_monotone s m d price1 price2 p1 p2 : multiplier_ok m d → 0 ≤ price1 ≤ price2 → price2 < 2 ^ 64 →
  adjust (Finite s m d) price1 = Returns (Some p1) → adjust (Finite s m d) price2 = Returns (Some p2) → p1 ≤ p2.
Proof.
  intros [Hm Hd] Hp H64 [= <-] [= <-]. assert (∀ x, 0 ≤ x < 2 ^ 64 → Z.max (bit_len x) 64 = 64) as Hb.
  { intros x Hx. unfold bit_len. destruct (Z.eqb_spec x 0); [lia|]. pose proof (Z.log2_lt_pow2 x 64 ltac:(lia)). lia. }
  rewrite !Hb by lia. apply Z.div_le_mono; [by apply pow_pos|]. apply round_mono; [lia|]. split; [apply Z.mul_nonneg_nonneg; lia|apply Z.mul_le_mono_nonneg_r; lia].
Qed.
(** C78: by default, one and a half times the price, rounded down *)
Theorem C78_default price : 0 ≤ price < 2 ^ 62 → adjust default_multiplier price = Returns (Some (price + price / 2)).
Proof.
  intros Hp. unfold default_multiplier. rewrite C78_exact by (done || lia). do 2 f_equal. change (2 ^ 1) with 2. replace (price * 3) with (price + price * 2) by lia. rewrite Z.div_add by lia. lia.
Qed.
(** C78: what is accepted as a multiplier *)
Theorem C78_accepted f : (∃ g, set_multiplier f = Returns g) ↔ f ≠ NaN ∧ below_zero f = false.
Proof.
  unfold set_multiplier. destruct (below_zero f) eqn:E; [split; [by intros [g ?]|by intros [_ ?]]|].
  destruct f as [|b|b m d]; [split; [by intros [g ?]|by intros [? _]]|..]; (split; [done|intros _; by eexists]).
Qed.
(** C78: not every bad multiplier is rejected: the configuration file's nan ends the keyper with a panic, its inf is accepted, and leaves the price to the library: the multiplier
    is ignored *)
Theorem C78_nan_refuted : set_multiplier NaN = Panics.
Proof. done. Qed.
Theorem C78_inf_refuted : ∃ f, set_multiplier f = Returns f ∧ ∀ price, 0 < price → adjust f price = Returns None.
Proof. exists (Inf false). split; [done|]. intros price H. cbn. by destruct (Z.eqb_spec price 0); [lia|]. Qed.

Example C78_witness : adjust default_multiplier 20000000001 = Returns (Some 30000000001) ∧ multiplier_ok 3 1 ∧ 2 ^ 1 ≤ 3 ∧
  adjust (Finite false 4503599627370497 52) (2 ^ 62 + 1) = Returns (Some 4611686018427388929).
Proof. split; [by vm_compute|]. split; [split; lia|]. split; [lia|]. by vm_compute. Qed.

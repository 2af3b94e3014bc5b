(** C67, C68: an instance of the groups and concrete cases. *)
From stdpp Require Import list numbers.
From Coq Require Import ZArith Znumtheory Lia Eqdep_dec.
From Verif Require Import BnField BlsModel BlsProofs PropsBls.
Local Open Scope Z_scope.

(** numbers below the order *)
Definition Bn : Type := { z : Z | (z mod bn_order =? z) = true }.
Lemma bn_nz : bn_order ≠ 0. Proof. pose proof bn_order_pos. lia. Qed.
Lemma toB_ok z : ((z mod bn_order) mod bn_order =? z mod bn_order) = true.
Proof. apply Z.eqb_eq, Z.mod_mod, bn_nz. Qed.
Definition toB (z : Z) : Bn := exist _ (z mod bn_order) (toB_ok z).
Definition ofB (x : Bn) : Z := proj1_sig x.
Lemma Bn_eq x y : ofB x = ofB y → x = y.
Proof. destruct x as [x Hx], y as [y Hy]. cbn. intros ->. f_equal. apply UIP_dec, bool_dec. Qed.
Lemma toB_ofB x : toB (ofB x) = x.
Proof. apply Bn_eq. destruct x as [x Hx]. cbn. by apply Z.eqb_eq. Qed.
Lemma toB_eq a b : toB a = toB b ↔ a mod bn_order = b mod bn_order.
Proof. split; [by intros [= E]|]. intros E. apply Bn_eq. exact E. Qed.
Lemma ofB_toB z : ofB (toB z) = z mod bn_order. Proof. done. Qed.
Lemma Bn_eq_dec : EqDecision Bn.
Proof. intros x y. destruct (decide (ofB x = ofB y)) as [E|E]; [left; by apply Bn_eq|right; by intros ->]. Defined.
Definition bn_add x y := toB (ofB x + ofB y).
Definition bn_neg x := toB (- ofB x).
Definition bn_mul k x := toB (k * ofB x).
Lemma bn_ind (Q : Bn → Prop) : (∀ z, Q (toB z)) → ∀ x, Q x.
Proof. intros HQ x. rewrite <-(toB_ofB x). apply HQ. Qed.
Lemma bn_add_to a b : bn_add (toB a) (toB b) = toB (a + b).
Proof. unfold bn_add. apply toB_eq. rewrite !ofB_toB. symmetry. apply Z.add_mod, bn_nz. Qed.
Lemma bn_mul_to k a : bn_mul k (toB a) = toB (k * a).
Proof. unfold bn_mul. apply toB_eq. rewrite ofB_toB. apply Z.mul_mod_idemp_r, bn_nz. Qed.
Lemma bn_neg_to a : bn_neg (toB a) = toB (- a).
Proof.
  unfold bn_neg. apply toB_eq. rewrite ofB_toB. replace (- (a mod bn_order)) with (-1 * (a mod bn_order)) by lia.
  rewrite Z.mul_mod_idemp_r by apply bn_nz. f_equal.
Qed.
Ltac bn := intros;
  repeat match goal with x : Bn |- _ => rewrite <-(toB_ofB x); generalize (ofB x); clear x; let z := fresh in intros z end;
  rewrite ?bn_mul_to, ?bn_neg_to; rewrite ?bn_add_to; rewrite ?bn_add_to; f_equal; lia.
Lemma l_comm : ∀ x y, bn_add x y = bn_add y x. Proof. bn. Qed.
Lemma l_assoc : ∀ x y z, bn_add x (bn_add y z) = bn_add (bn_add x y) z. Proof. bn. Qed.
Lemma l_zero : ∀ x, bn_add (toB 0) x = x. Proof. bn. Qed.
Lemma l_neg : ∀ x, bn_add x (bn_neg x) = toB 0. Proof. bn. Qed.
Lemma l_mul1 : ∀ x, bn_mul 1 x = x. Proof. bn. Qed.
Lemma l_muladd a b : ∀ x, bn_mul (a + b) x = bn_add (bn_mul a x) (bn_mul b x).
Proof. apply bn_ind. intros z. rewrite !bn_mul_to, bn_add_to. f_equal. lia. Qed.
Lemma l_mulmul a b : ∀ x, bn_mul (a * b) x = bn_mul a (bn_mul b x).
Proof. apply bn_ind. intros z. rewrite !bn_mul_to. f_equal. lia. Qed.
Lemma l_cyclic : ∀ x, ∃ k, x = bn_mul k (toB 1).
Proof. apply bn_ind. intros z. exists z. rewrite bn_mul_to. f_equal. lia. Qed.
Lemma l_order k : bn_mul k (toB 1) = toB 0 ↔ (bn_order | k).
Proof. rewrite bn_mul_to, toB_eq, Z.mul_1_r. by rewrite (Pocklington.mod_eq_divide _ _ _ bn_nz), Z.sub_0_r. Qed.
Definition bn_group : bgroup :=
  mkBgroup Bn Bn_eq_dec (toB 0) bn_add bn_neg bn_mul (toB 1) l_comm l_assoc l_zero l_neg l_mul1 l_muladd l_mulmul l_cyclic l_order.
Definition bn_pair (x y : Bn) : Bn := toB (ofB x * ofB y).
Lemma bn_pair_to a b : bn_pair (toB a) (toB b) = toB (a * b).
Proof. unfold bn_pair. apply toB_eq. rewrite !ofB_toB. symmetry. apply Z.mul_mod, bn_nz. Qed.
Ltac bp := intros;
  repeat match goal with x : Bn |- _ => rewrite <-(toB_ofB x); generalize (ofB x); clear x; let z := fresh in intros z end;
  rewrite ?bn_add_to, ?bn_pair_to; rewrite ?bn_add_to; f_equal; lia.
Lemma p_l : ∀ x y z, bn_pair (bn_add x y) z = bn_add (bn_pair x z) (bn_pair y z). Proof. bp. Qed.
Lemma p_r : ∀ x y z, bn_pair x (bn_add y z) = bn_add (bn_pair x y) (bn_pair x z). Proof. bp. Qed.
Lemma p_gen : bn_pair (toB 1) (toB 1) = toB 1. Proof. rewrite bn_pair_to. done. Qed.
Definition bn_pairing : bpairing := mkBpairing bn_group bn_group bn_group bn_pair p_l p_r p_gen.

(** a codec of 64 bytes *)
Definition w_enc (x : Bn) : list N := fill 64 (ofB x).
Definition w_dec (b : list N) : option Bn :=
  if bool_decide (Forall (λ x, (x < 256)%N) b) && bool_decide (big b < bn_order) then Some (toB (big b)) else None.
Lemma ofB_range x : 0 ≤ ofB x < bn_order.
Proof. destruct x as [z Hz]. cbn. apply Z.eqb_eq in Hz. rewrite <-Hz. apply Z.mod_pos_bound. pose proof bn_order_pos. lia. Qed.
Lemma big_enc x : big (w_enc x) = ofB x.
Proof.
  apply big_fill. pose proof (ofB_range x). pose proof bn_order_256.
  assert (256 ^ 32 < 256 ^ Z.of_nat 64) by reflexivity. lia.
Qed.
Lemma w_dec_enc x : w_dec (w_enc x) = Some x.
Proof.
  unfold w_dec. rewrite (bool_decide_eq_true_2 _ (fill_bytes_range 64 (ofB x))). rewrite big_enc.
  rewrite bool_decide_eq_true_2 by apply ofB_range. cbn. by rewrite toB_ofB.
Qed.
Lemma w_enc_dec b x : length b = 64%nat → w_dec b = Some x → b = w_enc x.
Proof.
  unfold w_dec. intros El. destruct (bool_decide (Forall _ b)) eqn:E1; [|done]. apply bool_decide_eq_true in E1.
  destruct (bool_decide (big b < _)) eqn:E2; [|done]. apply bool_decide_eq_true in E2. cbn [andb]. intros [= <-].
  unfold w_enc. rewrite ofB_toB, Z.mod_small by (split; [exact (proj1 (big_bound b E1))|exact E2]). rewrite <-El. symmetry. by apply fill_big.
Qed.
Definition w_codec : bcodec 64 bn_group := mkBcodec 64 bn_group w_enc w_dec (λ x, fill_length 64 _) w_dec_enc w_enc_dec.

(** a hash: 32 bytes that depend on the message *)
Definition w_hash (m : list N) : list N := replicate 30 0%N ++ [N.of_nat (length m); foldr N.add 7%N m].
Definition m1 : list N := [104; 105]%N.
Definition m2 : list N := [98; 121; 101]%N.

(** Two signers, a message and their signatures: accepted one by one and together; rejected for the other message
    and for the other key.  A key that is not below the order is refused, and so is an encoding with a byte more. *)
Example C67_witness :
  let sk1 := 12345 in let sk2 := bn_order - 2 in
  let pk1 := secret_to_public_key (P := bn_pairing) sk1 in let pk2 := secret_to_public_key (P := bn_pairing) sk2 in
  let s1 := sign (P := bn_pairing) w_hash m1 sk1 in let s2 := sign (P := bn_pairing) w_hash m1 sk2 in
  verify w_hash s1 pk1 m1 = true ∧ verify w_hash s2 pk2 m1 = true ∧
  verify w_hash s1 pk2 m1 = false ∧ verify w_hash s1 pk1 m2 = false ∧
  verify w_hash (aggregate_signatures [s1; s2]) (aggregate_public_keys [pk2; pk1]) m1 = true ∧
  verify w_hash s1 (aggregate_public_keys [pk1; pk2]) m1 = false ∧
  ¬ same_scalar (big (w_hash m1)) 0 ∧
  random_key_pair (P := bn_pairing) [0; sk1] = Some (sk1, pk1) ∧
  (∃ b, marshal_secret sk2 = Some b ∧ unmarshal_secret 9 b = (sk2, true)) ∧
  unmarshal_secret 9 (replicate 32 255%N) = (0, false) ∧ unmarshal_secret 9 (replicate 31 1%N) = (9, false) ∧
  unmarshal_bls w_codec (marshal_bls w_codec pk1) = Some pk1 ∧ unmarshal_bls w_codec (marshal_bls w_codec pk1 ++ [0%N]) = None.
Proof.
  Transparent bn_order.
  repeat split; try (vm_compute; reflexivity).
  - intros E. vm_compute in E. done.
  - eexists. split; vm_compute; reflexivity.
Qed.
Global Opaque bn_order.

(** The forgery on this instance: from the signature of [m1], with a factor that does not depend on the key, the
    signature of [m2]. *)
Theorem C68_refuted : ∃ factor, ∀ sk,
  let pk := secret_to_public_key (P := bn_pairing) sk in
  verify w_hash (sign (P := bn_pairing) w_hash m1 sk) pk m1 = true ∧
  verify w_hash (bmul factor (sign (P := bn_pairing) w_hash m1 sk)) pk m2 = true ∧
  w_hash m1 ≠ w_hash m2.
Proof.
  destruct (C68_forgery (P := bn_pairing) w_hash m1 m2) as [f Hf]; [apply C67_witness|]. exists f. intros sk pk.
  assert (V : verify w_hash (sign (P := bn_pairing) w_hash m1 sk) pk m1 = true)
    by (apply (C67_verify w_hash sk); [done|by apply (C67_verify w_hash sk pk m1 bzero)]).
  split; [exact V|]. split; [exact (Hf _ _ V)|]. discriminate.
Qed.

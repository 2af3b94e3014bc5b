(** C67, C68: BLS signatures.  The specification: over a group of prime order r with generator g, the one signature of
    secret s on a message with hash value h is (s * h) * g. *)
From stdpp Require Import list numbers.
From Coq Require Import ZArith Znumtheory Lia.
From Verif Require Import BnField BlsModel BlsProofs.
Local Open Scope Z_scope.

(** * Specification *)
Section Spec.
Context {P : bpairing} (H : list N → list N).
(** two numbers that are the same scalar *)
Definition same_scalar (a b : Z) : Prop := a mod bn_order = b mod bn_order.
(** the secret keys of a public key *)
Definition key_of (sk : Z) (pk : B1 P) : Prop := pk = bmul sk bgen.
(** the signature of a secret on a message *)
Definition signature_of (sk : Z) (msg : list N) (sig : B2 P) : Prop := sig = bmul (sk * big (H msg)) bgen.
End Spec.
Definition are_bytes (b : list N) : Prop := Forall (λ x, (x < 256)%N) b.

Lemma same_scalar_divide a b : same_scalar a b ↔ (bn_order | a - b).
Proof. apply Pocklington.mod_eq_divide. pose proof bn_order_pos. lia. Qed.

Section Props.
Context {P : bpairing} (H : list N → list N).

(** Sign makes the signature of its secret; Verify accepts, for the public key of a secret, that signature on that
    message and nothing else.  Every point is a public key. *)
Theorem C67_verify sk pk msg sig : key_of (P := P) sk pk →
  secret_to_public_key sk = pk ∧ signature_of H sk msg (sign (P := P) H msg sk) ∧
  (verify H sig pk msg = true ↔ signature_of H sk msg sig).
Proof.
  intros ->. split; [done|]. split; [unfold signature_of, sign, hash_to_g2; by rewrite <-bmul_mul|].
  destruct (bgen_cyclic _ sig) as [s ->]. rewrite verify_log. unfold signature_of. rewrite bmul_gen_eq.
  rewrite <-Z.divide_opp_r. by replace (- (sk * big (H msg) - s)) with (s - sk * big (H msg)) by lia.
Qed.
Theorem C67_all_keys (pk : B1 P) : ∃ sk, 0 ≤ sk < bn_order ∧ key_of sk pk ∧ ∀ sk', key_of sk' pk → same_scalar sk' sk.
Proof.
  destruct (bgen_cyclic _ pk) as [k ->]. exists (k mod bn_order). pose proof bn_order_pos. unfold key_of.
  split; [apply Z.mod_pos_bound; lia|]. split.
  - apply bmul_gen_eq. apply same_scalar_divide. unfold same_scalar. rewrite Z.mod_mod by lia. done.
  - intros sk' E. symmetry in E. apply bmul_gen_eq, same_scalar_divide in E. unfold same_scalar in *.
    rewrite Z.mod_mod by lia. done.
Qed.

(** C68, the part that holds: a signature is accepted for another key, or for another message, only in the degenerate cases. *)
Theorem C68_other_key_partial sk sk' msg :
  verify H (sign (P := P) H msg sk) (secret_to_public_key sk') msg = true ↔
  same_scalar sk sk' ∨ same_scalar (big (H msg)) 0.
Proof.
  destruct (C67_verify sk' (secret_to_public_key sk') msg (sign H msg sk) eq_refl) as (_ & _ & ->).
  unfold signature_of, sign, hash_to_g2. rewrite <-bmul_mul, bmul_gen_eq, <-Z.mul_sub_distr_r, !same_scalar_divide, Z.sub_0_r.
  split; [intros D; by apply (prime_mult _ bn_order_prime)|]. intros [D|D]; [by apply Z.divide_mul_l|by apply Z.divide_mul_r].
Qed.
Theorem C68_other_message_partial sk msg msg' :
  verify H (sign (P := P) H msg sk) (secret_to_public_key sk) msg' = true ↔
  same_scalar (big (H msg)) (big (H msg')) ∨ same_scalar sk 0.
Proof.
  destruct (C67_verify sk (secret_to_public_key sk) msg' (sign H msg sk) eq_refl) as (_ & _ & ->).
  unfold signature_of, sign, hash_to_g2. rewrite <-bmul_mul, bmul_gen_eq, <-Z.mul_sub_distr_l, !same_scalar_divide, Z.sub_0_r.
  split; [intros D; apply (prime_mult _ bn_order_prime) in D; tauto|]. intros [D|D]; [by apply Z.divide_mul_r|by apply Z.divide_mul_l].
Qed.

(** RandomKeyPair returns a secret that is not 0 with its public key, whatever is drawn below the order. *)
Theorem C67_random draws sk pk : Forall (λ k, 0 ≤ k < bn_order) draws →
  random_key_pair (P := P) draws = Some (sk, pk) → 0 < sk < bn_order ∧ key_of sk pk ∧ pk ≠ bzero.
Proof.
  intros Hd. induction Hd as [|k draws Hk _ IH]; cbn [random_key_pair]; [done|].
  destruct (k =? 0) eqn:E; [done|]. apply Z.eqb_neq in E. cbv beta in Hk. intros [= <- <-]. split; [lia|]. split; [done|].
  rewrite bgen_order. intros D. apply Z.divide_pos_le in D; lia.
Qed.

(** The aggregate of the signatures of some signers on one message is the one signature that Verify accepts for
    the aggregate of their public keys. *)
Theorem C67_aggregate sks msg sig :
  verify H sig (aggregate_public_keys ((λ sk, secret_to_public_key (P := P) sk) <$> sks)) msg = true ↔
  sig = aggregate_signatures ((λ sk, sign H msg sk) <$> sks).
Proof.
  rewrite aggregate_public_keys_sum, aggregate_signatures_sum. unfold secret_to_public_key, sign.
  rewrite !sum_mul. change (bmul (sum sks) (@bgen (B1 P))) with (secret_to_public_key (P := P) (sum sks)).
  destruct (C67_verify (sum sks) (secret_to_public_key (sum sks)) msg sig eq_refl) as (_ & _ & ->).
  unfold signature_of, hash_to_g2. by rewrite <-bmul_mul.
Qed.
(** A signature accepted for each single key gives an aggregate accepted for all, also when the keys and the
    signatures come from outside. *)
Theorem C67_aggregate_valid (l : list (B1 P * B2 P)) msg : Forall (λ ks, verify H ks.2 ks.1 msg = true) l →
  verify H (aggregate_signatures l.*2) (aggregate_public_keys l.*1) msg = true.
Proof.
  intros Hl.
  assert (∃ sks, l.*1 = (λ sk, secret_to_public_key sk) <$> sks ∧ l.*2 = (λ sk, sign H msg sk) <$> sks) as (sks & -> & ->).
  { induction Hl as [|[pk sig] l Hv _ (sks & E1 & E2)]; [by exists []|]. cbn [fst snd] in *.
    destruct (C67_all_keys pk) as (sk & _ & Hk & _). exists (sk :: sks).
    destruct (C67_verify sk pk msg sig Hk) as (Ek & Es & Ev). apply Ev in Hv. rewrite !fmap_cons, E1, E2, Ek. cbn [fst snd].
    split; [done|]. f_equal. unfold signature_of in *. congruence. }
  by apply C67_aggregate.
Qed.
(** The order does not matter, and aggregates can be aggregated. *)
Theorem C67_order (s1 s2 : list (B2 P)) (k1 k2 : list (B1 P)) :
  (s1 ≡ₚ s2 → aggregate_signatures s1 = aggregate_signatures s2) ∧
  (k1 ≡ₚ k2 → aggregate_public_keys k1 = aggregate_public_keys k2) ∧
  aggregate_signatures (s1 ++ s2) = aggregate_signatures [aggregate_signatures s1; aggregate_signatures s2] ∧
  aggregate_public_keys (k1 ++ k2) = aggregate_public_keys [aggregate_public_keys k1; aggregate_public_keys k2].
Proof.
  rewrite !aggregate_signatures_sum, !aggregate_public_keys_sum. cbn [foldr]. rewrite !badd_0_r, !sum_app.
  split; [apply sum_perm|]. split; [apply sum_perm|]. done.
Qed.

(** ** C68, the full claim is false: a signature can be made without the secret key.

    hashToG2 multiplies the generator by a number that everyone can compute.  From one signature on one message,
    everyone can compute the signature on every other message. *)
Theorem C68_forgery m1 m2 : ¬ same_scalar (big (H m1)) 0 →
  ∃ factor, ∀ (pk : B1 P) (sig : B2 P), verify H sig pk m1 = true → verify H (bmul factor sig) pk m2 = true.
Proof.
  rewrite same_scalar_divide, Z.sub_0_r. intros Hh. apply (prime_rel_prime _ bn_order_prime), rel_prime_sym in Hh.
  apply rel_prime_bezout in Hh as [u v E]. exists (u * big (H m2)). intros pk sig.
  destruct (C67_all_keys pk) as (sk & _ & Hk & _). destruct (C67_verify sk pk m1 sig Hk) as (_ & _ & ->).
  destruct (C67_verify sk pk m2 (bmul (u * big (H m2)) sig) Hk) as (_ & _ & ->). unfold signature_of.
  intros ->. rewrite <-bmul_mul. apply bmul_gen_eq.
  exists (- (v * sk * big (H m2))). 
  replace (u * big (H m2) * (sk * big (H m1))) with ((u * big (H m1)) * (sk * big (H m2))) by ring.
  replace (u * big (H m1)) with (1 - v * bn_order) by lia. ring.
Qed.
(** For a message whose hash value is a multiple of the order, the zero point is everyone's signature. *)
Theorem C68_zero_hash msg (pk : B1 P) : same_scalar (big (H msg)) 0 → verify H bzero pk msg = true.
Proof.
  intros Hh. destruct (C67_all_keys pk) as (sk & _ & Hk & _). destruct (C67_verify sk pk msg bzero Hk) as (_ & _ & ->).
  unfold signature_of. symmetry. apply bgen_order. apply same_scalar_divide in Hh. rewrite Z.sub_0_r in Hh. by apply Z.divide_mul_r.
Qed.
(** Aggregation does not show that each key's owner has signed: knowing only the victims' public keys, an attacker
    with any secret publishes a key for which it alone signs for all of them. *)
Theorem C68_rogue_key (victims : list (B1 P)) sk msg : ∃ rogue,
  rogue = badd (secret_to_public_key sk) (bneg (aggregate_public_keys victims)) ∧
  verify H (sign H msg sk) (aggregate_public_keys (victims ++ [rogue])) msg = true.
Proof.
  eexists. split; [reflexivity|]. rewrite !aggregate_public_keys_sum, sum_app. cbn [foldr]. rewrite badd_0_r.
  rewrite (badd_comm _ (secret_to_public_key sk)), badd_assoc, badd_neg, badd_0.
  destruct (C67_verify sk (secret_to_public_key sk) msg (sign H msg sk) eq_refl) as (_ & Es & ->). exact Es.
Qed.
End Props.

(** * Encodings *)
(** A secret below the order survives Marshal and Unmarshal; the encoding has 32 bytes and is the only one that is
    read as this secret.  Unmarshal accepts nothing else, and leaves 0 behind when the number is too large. *)
Theorem C67_secret sk : 0 ≤ sk < bn_order →
  ∃ b, marshal_secret sk = Some b ∧ length b = 32%nat ∧ are_bytes b ∧ big b = sk ∧
  ∀ old b', are_bytes b' → unmarshal_secret old b' = (sk, true) ↔ b' = b.
Proof.
  intros Hsk. pose proof bn_order_256. exists (fill 32 sk). unfold marshal_secret, fill_bytes.
  change (Z.of_nat 32) with 32. rewrite Z.abs_eq, (proj2 (Z.ltb_lt sk _)) by lia.
  assert (Hb : big (fill 32 sk) = sk) by (apply big_fill; change (Z.of_nat 32) with 32; lia).
  split; [done|]. split; [apply fill_length|]. split; [apply fill_bytes_range|]. split; [exact Hb|].
  intros old b' Hb'. unfold unmarshal_secret. split.
  - destruct (Nat.eqb (length b') 32) eqn:El; cbn [negb]; [|done]. apply Nat.eqb_eq in El.
    destruct (bn_order <=? big b'); [done|]. intros [= E]. rewrite <-E, <-El. symmetry. by apply fill_big.
  - intros ->. rewrite fill_length. cbn [Nat.eqb negb]. rewrite Hb. rewrite (proj2 (Z.leb_gt _ _)) by lia. done.
Qed.
Theorem C67_secret_rejects old b : are_bytes b →
  (∃ sk, unmarshal_secret old b = (sk, true) ∧ 0 ≤ sk < bn_order ∧ length b = 32%nat) ∨
  (unmarshal_secret old b = (old, false) ∧ length b ≠ 32%nat) ∨
  (unmarshal_secret old b = (0, false) ∧ bn_order ≤ big b).
Proof.
  intros Hb. unfold unmarshal_secret. destruct (Nat.eqb (length b) 32) eqn:El; cbn [negb].
  - apply Nat.eqb_eq in El. destruct (bn_order <=? big b) eqn:E; [right; right; split; [done|]; by apply Z.leb_le in E|].
    apply Z.leb_gt in E. left. exists (big b). pose proof (big_bound b Hb). done || (split; [done|]; split; [lia|done]).
  - apply Nat.eqb_neq in El. right. left. done.
Qed.
(** Public keys and signatures: Unmarshal accepts exactly the encodings; Equal is equality. *)
Theorem C67_points n (G : bgroup) (C : bcodec n G) b (x y : G) :
  (unmarshal_bls C b = Some x ↔ b = marshal_bls C x) ∧ length (marshal_bls C x) = n ∧
  (equal_bls C x y = true ↔ x = y).
Proof.
  split; [|split].
  - unfold unmarshal_bls, lib_unmarshal, marshal_bls. destruct (Nat.eqb (length b) n) eqn:El; cbn [negb].
    + apply Nat.eqb_eq in El. rewrite (proj2 (Nat.ltb_ge _ _)) by lia. rewrite firstn_all2 by lia.
      split; [by apply benc_bdec|]. intros ->. apply bdec_benc.
    + apply Nat.eqb_neq in El. split; [done|]. intros ->. by rewrite benc_length in El.
  - apply benc_length.
  - unfold equal_bls, marshal_bls. rewrite bool_decide_eq_true. split; [|by intros ->].
    intros E. apply (f_equal (bdec C)) in E. rewrite !bdec_benc in E. congruence.
Qed.

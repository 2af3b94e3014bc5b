(** Lemmas about BlsModel. *)
From stdpp Require Import list numbers.
From Coq Require Import ZArith Znumtheory Lia.
From Verif Require Import BnField BlsModel.
Local Open Scope Z_scope.

Section Group.
Context {G : bgroup}.
Implicit Types x y z : G.
Lemma badd_0_r x : badd x bzero = x. Proof. rewrite badd_comm. apply badd_0. Qed.
Lemma badd_cancel x y z : badd x z = badd y z → x = y.
Proof.
  intros E. rewrite <-(badd_0_r x), <-(badd_0_r y), <-(badd_neg _ z), !badd_assoc. by rewrite E.
Qed.
Lemma bmul_0 x : bmul 0 x = bzero.
Proof. apply (badd_cancel _ _ (bmul 0 x)). by rewrite <-bmul_add, badd_0. Qed.
Lemma bmul_zero a : bmul a (@bzero G) = bzero.
Proof. rewrite <-(bmul_0 bgen), <-bmul_mul. by rewrite Z.mul_0_r. Qed.
Lemma bneg_unique x y : badd x y = bzero → y = bneg x.
Proof. intros E. apply (badd_cancel _ _ x). rewrite (badd_comm _ y), E, (badd_comm _ (bneg x)). by rewrite badd_neg. Qed.
Lemma bneg_mul a x : bneg (bmul a x) = bmul (- a) x.
Proof. symmetry. apply bneg_unique. rewrite <-bmul_add, Z.add_opp_diag_r. apply bmul_0. Qed.
Lemma bmul_badd a x y : bmul a (badd x y) = badd (bmul a x) (bmul a y).
Proof.
  destruct (bgen_cyclic _ x) as [k ->], (bgen_cyclic _ y) as [l ->].
  rewrite <-bmul_add, <-!bmul_mul, <-bmul_add. f_equal. lia.
Qed.
Lemma bmul_gen_eq a b : bmul a (@bgen G) = bmul b bgen ↔ (bn_order | a - b).
Proof.
  rewrite <-bgen_order. unfold Z.sub. rewrite bmul_add. split.
  - intros ->. rewrite <-bmul_add, Z.add_opp_diag_r. apply bmul_0.
  - intros E. apply (badd_cancel _ _ (bmul (- b) bgen)). rewrite E, <-bmul_add, Z.add_opp_diag_r. by rewrite bmul_0.
Qed.
End Group.

Section Pairing.
Context {P : bpairing}.
Lemma bpair_zero_l (y : B2 P) : bpair bzero y = bzero.
Proof. apply (badd_cancel _ _ (bpair bzero y)). by rewrite <-bpair_add_l, !badd_0. Qed.
Lemma bpair_zero_r (x : B1 P) : bpair x bzero = bzero.
Proof. apply (badd_cancel _ _ (bpair x bzero)). by rewrite <-bpair_add_r, !badd_0. Qed.
Lemma bpair_mul_l a (x : B1 P) y : bpair (bmul a x) y = bmul a (bpair x y).
Proof.
  revert a. apply Z.bi_induction.
  - by intros ? ? ->.
  - by rewrite !bmul_0, bpair_zero_l.
  - intros a. unfold Z.succ. rewrite !bmul_add, !bmul_1, bpair_add_l. split; [by intros ->|apply badd_cancel].
Qed.
Lemma bpair_mul_r a (x : B1 P) y : bpair x (bmul a y) = bmul a (bpair x y).
Proof.
  revert a. apply Z.bi_induction.
  - by intros ? ? ->.
  - by rewrite !bmul_0, bpair_zero_r.
  - intros a. unfold Z.succ. rewrite !bmul_add, !bmul_1, bpair_add_r. split; [by intros ->|apply badd_cancel].
Qed.
Lemma bpair_gens a b : bpair (bmul a (@bgen (B1 P))) (bmul b (@bgen (B2 P))) = bmul (a * b) bgen.
Proof. by rewrite bpair_mul_l, bpair_mul_r, bpair_gen, <-bmul_mul. Qed.
End Pairing.

Section Bls.
Context {P : bpairing} (H : list N → list N).
(** the check, on discrete logarithms *)
Lemma verify_log (s k : Z) msg :
  verify (P := P) H (bmul s bgen) (bmul k bgen) msg = true ↔ (bn_order | k * big (H msg) - s).
Proof.
  unfold verify, pairing_check, hash_to_g2. rewrite bool_decide_eq_true. cbn [foldr fst snd].
  rewrite bneg_mul, !bpair_gens, badd_0_r, <-bmul_add, bgen_order.
  replace (- (1) * s + k * big (H msg)) with (k * big (H msg) - s) by lia. done.
Qed.
Lemma foldl_badd {G : bgroup} (l : list G) x : foldl (λ agg sig, badd agg sig) x l = badd x (foldr badd bzero l).
Proof.
  revert x. induction l as [|y l IH]; intros x; cbn; [by rewrite badd_0_r|]. by rewrite IH, badd_assoc.
Qed.
Lemma aggregate_signatures_sum (l : list (B2 P)) : aggregate_signatures l = foldr badd bzero l.
Proof. unfold aggregate_signatures. by rewrite foldl_badd, bmul_0, badd_0. Qed.
Lemma aggregate_public_keys_sum (l : list (B1 P)) : aggregate_public_keys l = foldr badd bzero l.
Proof. unfold aggregate_public_keys. by rewrite foldl_badd, bmul_0, badd_0. Qed.
Definition sum (l : list Z) : Z := foldr Z.add 0 l.
Lemma sum_mul {G : bgroup} (x : G) l : foldr badd bzero ((λ k, bmul k x) <$> l) = bmul (sum l) x.
Proof. induction l as [|k l IH]; cbn; [by rewrite bmul_0|]. by rewrite IH, <-bmul_add. Qed.
Lemma sum_perm {G : bgroup} (l1 l2 : list G) : l1 ≡ₚ l2 → foldr badd bzero l1 = foldr badd bzero l2.
Proof.
  induction 1 as [|x l1 l2 _ IH|x y l|l1 l2 l3 _ E1 _ E2]; cbn; [done|by rewrite IH| |congruence].
  rewrite !badd_assoc. by rewrite (badd_comm _ y x).
Qed.
Lemma sum_app {G : bgroup} (l1 l2 : list G) : foldr badd bzero (l1 ++ l2) = badd (foldr badd bzero l1) (foldr badd bzero l2).
Proof. induction l1 as [|x l IH]; cbn; [by rewrite badd_0|]. by rewrite IH, badd_assoc. Qed.
End Bls.

(** bytes *)
Lemma big_app l x : big (l ++ [x]) = big l * 256 + Z.of_N x.
Proof. unfold big. by rewrite foldl_app. Qed.
Lemma fill_length n x : length (fill n x) = n.
Proof. revert x. induction n as [|n IH]; intros x; cbn; [done|]. rewrite app_length, IH. cbn. lia. Qed.
Lemma big_fill n x : 0 ≤ x < 256 ^ Z.of_nat n → big (fill n x) = x.
Proof.
  revert x. induction n as [|n IH]; intros x Hx; [cbn in *; lia|]. cbn [fill]. rewrite big_app.
  rewrite Nat2Z.inj_succ, Z.pow_succ_r in Hx by lia.
  pose proof (Z.mod_pos_bound x 256). rewrite IH.
  - rewrite Z2N.id by lia. pose proof (Z.div_mod x 256). lia.
  - split; [apply Z.div_pos; lia|apply Z.div_lt_upper_bound; lia].
Qed.
Lemma big_bound l : Forall (λ x, (x < 256)%N) l → 0 ≤ big l < 256 ^ Z.of_nat (length l).
Proof.
  induction l as [|x l IH] using rev_ind; intros Hl; [cbn; lia|].
  apply Forall_app in Hl as [Hl Hx]. rewrite Forall_singleton in Hx. specialize (IH Hl).
  rewrite big_app, app_length. cbn [length]. rewrite Nat.add_1_r, Nat2Z.inj_succ, Z.pow_succ_r by lia.
  generalize dependent (256 ^ Z.of_nat (length l)). intros p IH. lia.
Qed.
Lemma fill_big l : Forall (λ x, (x < 256)%N) l → fill (length l) (big l) = l.
Proof.
  induction l as [|x l IH] using rev_ind; intros Hl; [done|].
  apply Forall_app in Hl as [Hl Hx]. rewrite Forall_singleton in Hx.
  rewrite big_app, app_length. cbn [length]. rewrite Nat.add_1_r. cbn [fill].
  rewrite Z.div_add_l, Z.div_small, Z.add_0_r, IH by (done || lia). do 2 f_equal.
  rewrite Z.add_comm, Z.mod_add, Z.mod_small by lia. by rewrite N2Z.id.
Qed.
Lemma fill_bytes_range n x : Forall (λ x, (x < 256)%N) (fill n x).
Proof.
  revert x. induction n as [|n IH]; intros x; cbn [fill]; [apply Forall_nil; done|]. apply Forall_app. split; [apply IH|].
  apply Forall_singleton. cbn beta. pose proof (Z.mod_pos_bound x 256). lia.
Qed.
Lemma bn_order_256 : bn_order < 256 ^ 32. Proof. Transparent bn_order. reflexivity. Qed.
Global Opaque bn_order.

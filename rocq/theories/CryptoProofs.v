(** Proofs about feldman.go and keys.go. *)
From stdpp Require Import list sets.
From Coq Require Import ZArith Znumtheory Lia Ring.
From Verif Require Import Pocklington Fq Poly CryptoModel CryptoSpec.
Local Open Scope Z_scope.
Add Ring Fq_cp : Fq_ring.

Ltac zring := repeat match goal with |- context [?x ^ Z.of_nat ?n] => generalize (x ^ Z.of_nat n) end; intros; ring.
Local Hint Resolve order_nz : core.
Lemma congr_toF a b : congr a b ↔ toF a = toF b.
Proof. unfold congr. by rewrite toF_eq. Qed.
Lemma congr_mod a : congr (a mod order) a. Proof. apply Z.mod_mod. done. Qed.
Lemma congr_refl a : congr a a. Proof. done. Qed.
Lemma congr_residue a b : residue a → residue b → congr a b → a = b.
Proof. unfold congr, residue. intros Ha Hb. by rewrite !Z.mod_small. Qed.
Lemma mod_residue a : residue (a mod order).
Proof. apply Z.mod_pos_bound. pose proof order_pos. lia. Qed.

Section G.
Context (G : group).
Implicit Types x y : G.
Lemma gsmul_0 x : gsmul 0 x = gzero.
Proof.
  transitivity (gsmul (0 + order) x); [|by apply gsmul_order].
  rewrite gsmul_add, gsmul_order, gadd_comm, gadd_0. done.
Qed.
Lemma gadd_0_r x : gadd x gzero = x. Proof. by rewrite gadd_comm, gadd_0. Qed.
Lemma gsmul_zero a : gsmul a (gzero : G) = gzero.
Proof. rewrite <-(gsmul_0 ggen), <-gsmul_mul. by rewrite Z.mul_0_r. Qed.
Lemma gsmul_congr a b x : congr a b → gsmul a x = gsmul b x.
Proof.
  intros H. apply mod_eq_divide in H as [k Hk]; [|done]. replace a with (b + k * order) by lia.
  rewrite gsmul_add, gsmul_mul, gsmul_order, gsmul_zero. apply gadd_0_r.
Qed.
Lemma gsmul_mod a x : gsmul (a mod order) x = gsmul a x. Proof. apply gsmul_congr, congr_mod. Qed.
Lemma gadd_cancel x y z : gadd x z = gadd y z → x = y.
Proof.
  intros H. assert (E : gadd z (gsmul (-1) z) = gzero).
  { transitivity (gsmul (1 + -1) z); [by rewrite gsmul_add, gsmul_1|apply gsmul_0]. }
  rewrite <-(gadd_0_r x), <-(gadd_0_r y), <-E, !gadd_assoc. by rewrite H.
Qed.
Lemma gsmul_gen_inj a b : gsmul a (ggen : G) = gsmul b ggen ↔ congr a b.
Proof.
  split; [|apply gsmul_congr]. intros H. apply mod_eq_divide; [done|]. apply (ggen_order G).
  apply (gadd_cancel _ _ (gsmul b ggen)). rewrite <-gsmul_add, gadd_0. by replace (a - b + b) with a by lia.
Qed.
End G.

Section PairingFacts.
Context (P : pairing).
Lemma pair_zero_l (y : G1 P) : pair (gzero : G2 P) y = gzero.
Proof. apply (gadd_cancel _ _ _ (pair gzero y)). rewrite <-pair_add_l, !gadd_0. done. Qed.
Lemma pair_zero_r (x : G2 P) : pair x (gzero : G1 P) = gzero.
Proof. apply (gadd_cancel _ _ _ (pair x gzero)). rewrite <-pair_add_r, !gadd_0. done. Qed.
Lemma pair_smul_l a (x : G2 P) (y : G1 P) : pair (gsmul a x) y = gsmul a (pair x y).
Proof.
  rewrite <-(gsmul_mod _ a x), <-(gsmul_mod _ a (pair x y)).
  pose proof (mod_residue a) as [H _]. revert H. generalize (a mod order). clear a.
  intros a Ha. revert a Ha. apply natlike_ind.
  - by rewrite !gsmul_0, pair_zero_l.
  - intros a Ha IH. unfold Z.succ. rewrite !gsmul_add, !gsmul_1, pair_add_l, IH. done.
Qed.
Lemma pair_smul_r a (x : G2 P) (y : G1 P) : pair x (gsmul a y) = gsmul a (pair x y).
Proof.
  rewrite <-(gsmul_mod _ a y), <-(gsmul_mod _ a (pair x y)).
  pose proof (mod_residue a) as [H _]. revert H. generalize (a mod order). clear a.
  intros a Ha. revert a Ha. apply natlike_ind.
  - by rewrite !gsmul_0, pair_zero_r.
  - intros a Ha IH. unfold Z.succ. rewrite !gsmul_add, !gsmul_1, pair_add_r, IH. done.
Qed.
(** pairing with the generator of G2 is injective *)
Lemma pair_gen_inj (x y : G1 P) : pair ggen x = pair ggen y → x = y.
Proof.
  destruct (ggen_cyclic _ x) as [a ->]. destruct (ggen_cyclic _ y) as [b ->].
  rewrite !pair_smul_r, pair_gen. rewrite gsmul_gen_inj. apply gsmul_congr.
Qed.
End PairingFacts.

(** * Horner *)
Lemma poly_value_app p r x : poly_value (p ++ r) x = poly_value p x + x ^ Z.of_nat (length p) * poly_value r x.
Proof.
  induction p as [|c p IH]; cbn [app poly_value length]; [cbn; lia|].
  rewrite Nat2Z.inj_succ, Z.pow_succ_r, IH by lia. generalize (x ^ Z.of_nat (length p)). intros. ring.
Qed.
Lemma horner_congr l x acc : congr (foldl (λ res c, (res * x + c) mod order) acc l) (poly_value (rev l) x + x ^ Z.of_nat (length l) * acc).
Proof.
  revert acc. induction l as [|c l IH]; intros acc; cbn [foldl rev length].
  - unfold congr. f_equal. change (x ^ Z.of_nat 0) with 1. cbn [poly_value]. lia.
  - unfold congr in *. rewrite IH. rewrite Nat2Z.inj_succ, Z.pow_succ_r, poly_value_app, rev_length by lia. cbn [poly_value].
    rewrite Z.add_mod, (Z.mul_mod _ ((acc * x + c) mod order)), Z.mod_mod, <-Z.mul_mod, <-Z.add_mod by done. f_equal. ring.
Qed.
Lemma eval_congr p x v : eval p x = Some v → congr v (poly_value p x).
Proof.
  unfold eval. destruct (rev p) as [|c cs] eqn:E; [done|]. intros [= <-].
  assert (Hp : p = rev cs ++ [c]) by (rewrite <-(rev_involutive p), E; done).
  unfold congr. rewrite horner_congr, Hp, poly_value_app, rev_length. cbn [poly_value]. f_equal. ring.
Qed.
Lemma eval_residue p x v : (∀ c, c ∈ p → residue c) → eval p x = Some v → residue v.
Proof.
  unfold eval. intros H. destruct (rev p) as [|c cs] eqn:E; [done|]. intros [= <-].
  destruct cs as [|d cs _] using rev_ind; cbn.
  - apply H. apply elem_of_list_In, in_rev. rewrite E. by left.
  - rewrite foldl_app. cbn. apply mod_residue.
Qed.
Lemma eval_Some p x : p ≠ [] → is_Some (eval p x).
Proof. unfold eval. destruct (rev p) eqn:E; [|eauto]. intros H. exfalso. apply H. by rewrite <-(rev_involutive p), E. Qed.
Lemma eval_exact p x : p ≠ [] → (∀ c, c ∈ p → residue c) → eval p x = Some (poly_value p x mod order).
Proof.
  intros Hp Hc. destruct (eval_Some p x Hp) as [v E]. rewrite E. f_equal.
  apply congr_residue; [by eapply eval_residue|apply mod_residue|].
  unfold congr. rewrite Z.mod_mod by done. by apply eval_congr.
Qed.

(** * Feldman commitments *)
Section Feldman.
Context (P : pairing).
Notation G2 := (G2 P).

Lemma pi_foldl p x a (r : G2) : (foldl (pi_step x) (a, r) (gammas P p)).2 = gadd r (gsmul (a * poly_value p x) ggen).
Proof.
  revert a r. induction p as [|c p IH]; intros a r; cbn [gammas fmap list_fmap foldl poly_value].
  - rewrite Z.mul_0_r, gsmul_0, gadd_0_r. done.
  - change (list_fmap _ _ generate_p2 p) with (gammas P p). unfold pi_step at 2. cbn [fst snd]. rewrite IH.
    unfold generate_p2. rewrite <-gsmul_mul, <-gadd_assoc, <-gsmul_add. f_equal. apply gsmul_congr.
    apply congr_toF. rewrite !toF_add, !toF_mul, !toF_mod, !toF_add, !toF_mul. ring.
Qed.
Lemma pi_gammas p x : pi (gammas P p) x = gsmul (poly_value p x) (ggen : G2).
Proof. unfold pi. rewrite pi_foldl, gadd_0. by rewrite Z.mul_1_l. Qed.

Lemma verify_iff i v p t : verify_poly_eval i v (gammas P p) t = true ↔
  degree p = degree_from_threshold t ∧ congr v (poly_value p (i + 1)).
Proof.
  unfold verify_poly_eval, degree, degree_from_threshold. unfold gammas at 1. rewrite fmap_length.
  destruct (Z.eqb_spec (u64 (Z.of_nat (length p) - 1)) (u64 (t - 1))) as [E|E]; cbn [negb].
  - rewrite bool_decide_eq_true, pi_gammas. unfold generate_p2, keyper_x. rewrite gsmul_gen_inj, (Z.add_comm i). tauto.
  - split; [done|]. by intros [? _].
Qed.

(** every list of points commits to a polynomial *)
Lemma gammas_surj (gs : list G2) : ∃ p, gs = gammas P p ∧ ∀ c, c ∈ p → residue c.
Proof.
  induction gs as [|x gs (p & Hp & Hr)]; [exists []; split; [done|]; intros c H; by apply elem_of_nil in H|].
  destruct (ggen_cyclic _ x) as [k Hk]. exists (k mod order :: p). split.
  - unfold gammas, generate_p2 in *. cbn. by rewrite gsmul_mod, <-Hk, <-Hp.
  - intros c [->|H]%elem_of_cons; [apply mod_residue|auto].
Qed.
Lemma gammas_inj p r : (∀ c, c ∈ p → residue c) → (∀ c, c ∈ r → residue c) → gammas P p = gammas P r → p = r.
Proof.
  revert r. induction p as [|a p IH]; intros [|b r] Hp Hr E; try done. unfold gammas in E. cbn in E. injection E as E1 E2.
  f_equal.
  - apply congr_residue; [apply Hp; by left|apply Hr; by left|]. by apply (gsmul_gen_inj (CryptoModel.G2 P)).
  - apply IH; [intros c Hc; apply Hp; by right|intros c Hc; apply Hr; by right|done].
Qed.

(** * Eon keys *)
Lemma foldl_gadd {A} (f : A → G2) l r : foldl (λ p a, gadd p (f a)) r l = gadd r (foldl (λ p a, gadd p (f a)) gzero l).
Proof.
  revert r. induction l as [|a l IH]; intros r; cbn; [by rewrite gadd_0_r|].
  rewrite IH, (IH (gadd gzero _)), gadd_0, gadd_assoc. done.
Qed.
Lemma sum_pi ps x : foldl (λ p gs, gadd p (pi gs x)) gzero (gammas P <$> ps) = gsmul (sum_poly ps x) (ggen : G2).
Proof.
  induction ps as [|p ps IH]; cbn [fmap list_fmap foldl sum_poly foldr]; [by rewrite gsmul_0|].
  fold (sum_poly ps x). rewrite foldl_gadd, gadd_0, pi_gammas, IH, <-gsmul_add. done.
Qed.
End Feldman.

Lemma secret_share_foldl evals acc : congr (foldl (λ res s, (res + s) mod order) acc evals) (acc + foldr Z.add 0 evals).
Proof.
  revert acc. induction evals as [|s l IH]; intros acc; cbn [foldl foldr]; unfold congr in *; [f_equal; lia|].
  rewrite IH. rewrite Z.add_mod, Z.mod_mod, <-Z.add_mod by done. f_equal. ring.
Qed.
Lemma secret_share_congr evals : congr (eon_secret_key_share evals) (foldr Z.add 0 evals).
Proof. apply secret_share_foldl. Qed.
Lemma secret_share_residue evals : residue (eon_secret_key_share evals).
Proof.
  unfold eon_secret_key_share. destruct evals as [|s l _] using rev_ind; cbn.
  - unfold residue. pose proof order_pos. lia.
  - rewrite foldl_app. apply mod_residue.
Qed.

(** * Lagrange coefficients *)
Lemma invert_pow x : invert x = x ^ (order - 2) mod order.
Proof. unfold invert. apply Zpow_facts.Zpow_mod_correct. pose proof order_pos. lia. Qed.
Lemma invert_toF x : toF (invert x) = finv (toF x).
Proof.
  rewrite invert_pow. unfold finv. apply toF_eq. rewrite Z.mod_mod by done. rewrite ofF_toF.
  rewrite <-Zpow_facts.Zpower_mod by (pose proof order_pos; lia). done.
Qed.
Lemma lagrange_factor_toF k j : toF (lagrange_factor k j) = toF (keyper_x k) /f (toF (keyper_x k) -f toF (keyper_x j)).
Proof. unfold lagrange_factor, fdiv. rewrite toF_mod, toF_mul, invert_toF, toF_mod, toF_sub. done. Qed.

Definition x_of (k : Z) : Fq := toF (keyper_x k).
Lemma order_big : 2 ^ 64 < order. Proof. Transparent order. unfold order. lia. Opaque order. Qed.
Lemma x_of_inj j k : keyper_index j → keyper_index k → x_of j = x_of k → j = k.
Proof.
  unfold keyper_index, x_of, keyper_x. intros Hj Hk E%toF_eq. pose proof order_big.
  rewrite !Z.mod_small in E by lia. lia.
Qed.
Lemma x_of_nz k : keyper_index k → x_of k ≠ f0.
Proof.
  unfold keyper_index, x_of, keyper_x. intros Hk E%toF_eq. pose proof order_big.
  rewrite !Z.mod_small in E by lia. lia.
Qed.

Lemma lagrange_coefficient_foldl j ks acc : keyper_index j → (∀ k, k ∈ ks → keyper_index k) →
  toF (foldl (λ l k, if k =? j then l else (l * lagrange_factor k j) mod order) acc ks) = toF acc *f lambda (x_of <$> ks) (x_of j).
Proof.
  intros Hj. revert acc. induction ks as [|k ks IH]; intros acc Hks; cbn [foldl fmap list_fmap].
  - unfold lambda. cbn. ring.
  - rewrite IH by (intros k' Hk'; apply Hks; by right). destruct (Z.eqb_spec k j) as [->|Hne].
    + unfold lambda. rewrite filter_cons_False by (intros H; by apply H). done.
    + assert (x_of k ≠ x_of j). { intros E. apply Hne. apply x_of_inj; [apply Hks; by left|done|done]. }
      rewrite lambda_cons_ne by done. rewrite toF_mod, toF_mul, lagrange_factor_toF. fold (x_of k) (x_of j). ring.
Qed.
Lemma lagrange_coefficient_toF j ks : keyper_index j → (∀ k, k ∈ ks → keyper_index k) →
  toF (lagrange_coefficient j ks) = lambda (x_of <$> ks) (x_of j).
Proof. intros Hj Hks. unfold lagrange_coefficient. rewrite lagrange_coefficient_foldl by done. change (toF 1) with f1. ring. Qed.

Lemma feval_toF p x : feval (toF <$> p) (toF x) = toF (poly_value p x).
Proof. induction p as [|c p IH]; cbn [fmap list_fmap feval poly_value]; [done|]. by rewrite toF_add, toF_mul, IH. Qed.

Lemma lagrange_sum p ks : NoDup ks → ks ≠ [] → (∀ k, k ∈ ks → keyper_index k) → (length p ≤ length ks)%nat →
  congr (foldr Z.add 0 ((λ j, lagrange_coefficient j ks * poly_value p (keyper_x j)) <$> ks)) (poly_value p 0).
Proof.
  intros Hnd Hne Hks Hlen. apply congr_toF. rewrite <-feval_toF.
  rewrite <-(lagrange_zero (x_of <$> ks) (toF <$> p)).
  2: { apply NoDup_fmap_2_strong; [|done]. intros j k Hj Hk. apply x_of_inj; auto. }
  2: { by destruct ks. }
  2: { by rewrite !fmap_length. }
  unfold interpolate. rewrite <-list_fmap_compose.
  assert (H : ∀ l, (∀ k, k ∈ l → k ∈ ks) →
     toF (foldr Z.add 0 ((λ j, lagrange_coefficient j ks * poly_value p (keyper_x j)) <$> l)) =
     fsum ((λ x, lambda (x_of <$> ks) x *f feval (toF <$> p) x) ∘ x_of <$> l)).
  { induction l as [|j l IH]; intros Hl; cbn [fmap list_fmap foldr fsum compose]; [done|].
    rewrite toF_add, toF_mul, IH by (intros k Hk; apply Hl; by right).
    rewrite lagrange_coefficient_toF by (try done; apply Hks, Hl; by left). f_equal. f_equal.
    unfold x_of. by rewrite feval_toF. }
  by apply H.
Qed.

Section Keys.
Context (P : pairing).
Notation G1 := (G1 P).

Lemma combine_shares (E : G1) (l : list (Z * Z)) (r : G1) :
  foldl (λ acc ls, gadd acc (gsmul ls.1 ls.2)) r ((λ ls, (ls.1, gsmul ls.2 E)) <$> l) = gadd r (gsmul (foldr Z.add 0 ((λ ls, ls.1 * ls.2) <$> l)) E).
Proof.
  revert r. induction l as [|[a b] l IH]; intros r; cbn [fmap list_fmap foldl foldr fst snd].
  - by rewrite gsmul_0, gadd_0_r.
  - rewrite IH, gsmul_add, gsmul_mul, gadd_assoc. done.
Qed.

Lemma reconstruct p ks (E : G1) shares t : NoDup ks → ks ≠ [] → (∀ k, k ∈ ks → keyper_index k) →
  (length p ≤ length ks)%nat → t = Z.of_nat (length ks) →
  Forall2 (λ k s, s = gsmul (poly_value p (keyper_x k)) E) ks shares →
  compute_epoch_secret_key ks shares t = Some (gsmul (poly_value p 0) E).
Proof.
  intros Hnd Hne Hks Hlen -> Hsh. unfold compute_epoch_secret_key.
  rewrite <-(Forall2_length _ _ _ Hsh), Nat.eqb_refl, Z.eqb_refl. cbn [negb].
  unfold lc_epoch_secret_key, new_lagrange_coeffs. rewrite fmap_length, <-(Forall2_length _ _ _ Hsh), Nat.eqb_refl. cbn [negb]. f_equal.
  transitivity (foldl (λ acc ls, gadd acc (gsmul ls.1 ls.2)) gzero
     ((λ ls, (ls.1, gsmul ls.2 E)) <$> ((λ j, (lagrange_coefficient j ks, poly_value p (keyper_x j))) <$> ks))).
  - f_equal. rewrite <-list_fmap_compose. cbn [compose].
    assert (Hz : ∀ (f : Z → Z) ks' shares', Forall2 (λ k s, s = gsmul (poly_value p (keyper_x k)) E) ks' shares' →
      zip (f <$> ks') shares' = (λ j, (f j, gsmul (poly_value p (keyper_x j)) E)) <$> ks').
    { intros f ks' shares' H. induction H as [|k s ks' shares' -> _ IH]; cbn; [done|]. by rewrite IH. }
    apply Hz, Hsh.
  - rewrite combine_shares, gadd_0, <-list_fmap_compose. apply gsmul_congr. by apply lagrange_sum.
Qed.

Lemma verify_share_iff (share E : G1) sk : verify_epoch_secret_key_share share (gsmul sk ggen) E = true ↔ share = gsmul sk E.
Proof.
  unfold verify_epoch_secret_key_share. rewrite bool_decide_eq_true, pair_smul_l, <-pair_smul_r.
  split; [apply pair_gen_inj|by intros ->].
Qed.
End Keys.

(** The scalar field.  [order] is /repo/shlib/shcrypto/feldman.go:23-28. *)
From stdpp Require Import list.
From Coq Require Import ZArith Znumtheory Zpow_facts Lia Eqdep_dec Field Ring.
From Verif Require Import Pocklington.
Local Open Scope Z_scope.

(** feldman.go:23-28 *)
Definition order : Z := 0x73eda753299d7d483339d80809a1d80553bda402fffe5bfeffffffff00000001.

(** a certificate entry for the prime power p^e: p is prime by trial division, p^e divides n - 1 and 7
    satisfies Pocklington's condition *)
Definition cert_ok (n p e : Z) : bool :=
  ((n - 1) mod (p ^ e) =? 0) && (Z.gcd (Zpow_mod 7 ((n - 1) / p) n - 1) n =? 1).

Lemma prime_254760293 : prime 254760293.
Proof. apply (trial_division _ 15960); [lia|lia|lia|]. vm_compute. reflexivity. Qed.
Lemma prime_906349 : prime 906349.
Proof. apply (trial_division _ 960); [lia|lia|lia|]. vm_compute. reflexivity. Qed.
Lemma prime_3 : prime 3. Proof. apply (trial_division _ 1); [lia|lia|lia|]. reflexivity. Qed.

Theorem order_prime : prime order.
Proof.
  assert (H7 : 7 ^ (order - 1) mod order = 1).
  { rewrite <-Zpow_mod_correct by (intros E; discriminate E). vm_compute. reflexivity. }
  assert (Hc : ∀ p e r, prime p → 0 < e → cert_ok order p e = true → prime r → (r | order) → (p ^ e | r - 1)).
  { intros p e r Hp He [H1 H2]%andb_true_iff Hr Hro. apply Z.eqb_eq in H1, H2.
    rewrite Zpow_mod_correct in H2 by (intros E; discriminate E).
    refine (pocklington_step order p e 7 r _ Hp He _ H7 H2 Hr Hro); [reflexivity|].
    assert (p ^ e ≠ 0). { pose proof (prime_ge_2 _ Hp). pose proof (Z.pow_pos_nonneg p e). lia. }
    apply Z.mod_divide; assumption. }
  apply (pocklington order (2 ^ 32 * (254760293 ^ 2 * (906349 ^ 2 * 3)))).
  - reflexivity.
  - reflexivity.
  - vm_compute. reflexivity.
  - intros r Hr Hro.
    assert (R : ∀ a b, rel_prime a b → (a | r - 1) → (b | r - 1) → (a * b | r - 1)).
    { intros a b Hab [x Hx] Hb. rewrite Hx in *. rewrite (Z.mul_comm x). apply Z.mul_divide_mono_l.
      apply (Gauss b a x); [by rewrite Z.mul_comm|by apply rel_prime_sym]. }
    assert (G : ∀ a b, Z.gcd a b = 1 → rel_prime a b) by (intros a b; apply Zgcd_1_rel_prime).
    apply R; [apply G; vm_compute; reflexivity| |].
    { apply Hc; [exact prime_2|lia|vm_compute; reflexivity|exact Hr|exact Hro]. }
    apply R; [apply G; vm_compute; reflexivity| |].
    { apply Hc; [exact prime_254760293|lia|vm_compute; reflexivity|exact Hr|exact Hro]. }
    apply R; [apply G; vm_compute; reflexivity| |].
    { apply Hc; [exact prime_906349|lia|vm_compute; reflexivity|exact Hr|exact Hro]. }
    change 3 with (3 ^ 1). apply Hc; [exact prime_3|lia|vm_compute; reflexivity|exact Hr|exact Hro].
Qed.

Lemma order_pos : 1 < order. Proof. unfold order. lia. Qed.
Global Opaque order.

(** * The field Z/order as a type *)
Definition Fq : Type := { z : Z | (z mod order =? z) = true }.
Lemma toF_ok z : ((z mod order) mod order =? z mod order) = true.
Proof. apply Z.eqb_eq, Z.mod_mod. pose proof order_pos. lia. Qed.
Definition toF (z : Z) : Fq := exist _ (z mod order) (toF_ok z).
Definition ofF (x : Fq) : Z := proj1_sig x.
Lemma ofF_range x : 0 ≤ ofF x < order.
Proof. destruct x as [z H]. cbn. apply Z.eqb_eq in H. rewrite <-H. apply Z.mod_pos_bound. pose proof order_pos. lia. Qed.
Lemma Fq_eq x y : ofF x = ofF y → x = y.
Proof.
  destruct x as [x Hx], y as [y Hy]. cbn. intros <-. f_equal. apply UIP_dec. apply bool_dec.
Qed.
Lemma toF_eq x y : toF x = toF y ↔ x mod order = y mod order.
Proof. split; [by intros [= E]|]. intros E. by apply Fq_eq. Qed.
Lemma ofF_toF z : ofF (toF z) = z mod order. Proof. done. Qed.
Lemma toF_ofF x : toF (ofF x) = x.
Proof. apply Fq_eq. cbn. apply Z.mod_small, ofF_range. Qed.

Definition fadd (x y : Fq) : Fq := toF (ofF x + ofF y).
Definition fmul (x y : Fq) : Fq := toF (ofF x * ofF y).
Definition fsub (x y : Fq) : Fq := toF (ofF x - ofF y).
Definition fopp (x : Fq) : Fq := toF (- ofF x).
Definition f0 : Fq := toF 0.
Definition f1 : Fq := toF 1.
(** keys.go:264-267 invert *)
Definition finv (x : Fq) : Fq := toF (ofF x ^ (order - 2)).
Definition fdiv (x y : Fq) : Fq := fmul x (finv y).

Lemma order_nz : order ≠ 0. Proof. pose proof order_pos. lia. Qed.
Local Hint Resolve order_nz : core.
Lemma toF_add x y : toF (x + y) = fadd (toF x) (toF y).
Proof. unfold fadd. apply toF_eq. cbn. by rewrite Z.add_mod. Qed.
Lemma toF_mul x y : toF (x * y) = fmul (toF x) (toF y).
Proof. unfold fmul. apply toF_eq. cbn. by rewrite Z.mul_mod. Qed.
Lemma toF_opp x : toF (- x) = fopp (toF x).
Proof.
  unfold fopp. apply toF_eq. cbn. apply mod_eq_divide; [done|].
  exists (- (x / order)). rewrite (Z.div_mod x order) at 1 by done. ring.
Qed.
Lemma toF_sub x y : toF (x - y) = fsub (toF x) (toF y).
Proof. unfold fsub. apply toF_eq. cbn. by rewrite Zminus_mod. Qed.
Lemma toF_mod x : toF (x mod order) = toF x.
Proof. apply toF_eq. by rewrite Z.mod_mod. Qed.
Lemma f1_f0 : f1 ≠ f0.
Proof. intros E. apply toF_eq in E. pose proof order_pos. rewrite !Z.mod_small in E by lia. lia. Qed.

Lemma finv_l x : x ≠ f0 → fmul (finv x) x = f1.
Proof.
  intros Hx. rewrite <-(toF_ofF x). unfold finv. rewrite ofF_toF. rewrite <-toF_mul. 
  rewrite (Z.mod_small (ofF x)) by apply ofF_range.
  replace (ofF x ^ (order - 2) * ofF x) with (ofF x ^ (order - 1)).
  2: { replace (order - 1) with (Z.succ (order - 2)) by lia. rewrite Z.pow_succ_r by (pose proof order_pos; lia). ring. }
  apply toF_eq. rewrite fermat_little; [|exact order_prime|].
  - symmetry. apply Z.mod_small. pose proof order_pos. lia.
  - intros Hd. apply Hx. rewrite <-(toF_ofF x). apply toF_eq. apply Z.mod_divide in Hd; [|done]. by rewrite Hd.
Qed.

Lemma Fq_ring : ring_theory f0 f1 fadd fmul fsub fopp eq.
Proof.
  constructor; intros; repeat match goal with x : Fq |- _ => rewrite <-(toF_ofF x); generalize (ofF x); clear x; intros x end;
  unfold f0, f1; rewrite <-?toF_opp, <-?toF_sub, <-?toF_mul, <-?toF_add, <-?toF_mul, <-?toF_add; f_equal; ring.
Qed.
Lemma Fq_field : field_theory f0 f1 fadd fmul fsub fopp fdiv finv eq.
Proof. constructor; [exact Fq_ring|exact f1_f0|done|exact finv_l]. Qed.
Add Field Fq_f : Fq_field.

Lemma Fq_integral x y : fmul x y = f0 → x = f0 ∨ y = f0.
Proof.
  intros H. destruct (decide (ofF x = 0)) as [E|E].
  - left. apply Fq_eq. rewrite E. unfold f0. rewrite ofF_toF. by rewrite Z.mod_0_l.
  - right. assert (Hx : x ≠ f0). { intros ->. apply E. unfold f0. rewrite ofF_toF. by rewrite Z.mod_0_l. }
    replace y with (fmul (finv x) (fmul x y)).
    + rewrite H. ring.
    + transitivity (fmul (fmul (finv x) x) y); [ring|]. rewrite finv_l by done. ring.
Qed.
Lemma toF_0 z : toF z = f0 ↔ (order | z).
Proof. unfold f0. rewrite toF_eq, Z.mod_0_l by done. by apply Z.mod_divide. Qed.
Global Arguments fadd : simpl never. Global Arguments fmul : simpl never. Global Arguments fsub : simpl never.
Global Arguments fopp : simpl never. Global Arguments finv : simpl never. Global Arguments fdiv : simpl never.
Global Arguments f0 : simpl never. Global Arguments f1 : simpl never. Global Arguments toF : simpl never.
Global Instance Fq_eq_dec : EqDecision Fq.
Proof. intros x y. destruct (decide (ofF x = ofF y)) as [E|E]; [left; by apply Fq_eq|right; congruence]. Defined.

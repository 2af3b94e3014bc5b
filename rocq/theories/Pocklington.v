(** Number theory for C29: Fermat's little theorem and Pocklington's primality criterion over Z. *)
From stdpp Require Import list sorting.
From Coq Require Import ZArith Znumtheory Zpow_facts Lia.
Local Open Scope Z_scope.

Lemma mod_eq_divide a b n : n ≠ 0 → a mod n = b mod n ↔ (n | a - b).
Proof.
  intros Hn. split.
  - intros H. exists (a / n - b / n). rewrite (Z.div_mod a n Hn) at 1. rewrite (Z.div_mod b n Hn) at 1. rewrite H. ring.
  - intros [k Hk]. replace a with (b + k * n) by lia. by apply Z_mod_plus_full.
Qed.

Definition prodZ (l : list Z) : Z := foldr Z.mul 1 l.
Lemma prodZ_perm l1 l2 : l1 ≡ₚ l2 → prodZ l1 = prodZ l2.
Proof. induction 1; cbn; [done|by f_equal|ring|congruence]. Qed.

Lemma prodZ_rel_prime r l : (∀ x, x ∈ l → rel_prime x r) → rel_prime (prodZ l) r.
Proof.
  induction l as [|x l IH]; intros H; cbn.
  - apply rel_prime_1.
  - apply rel_prime_sym, rel_prime_mult; apply rel_prime_sym; [apply H; by left|apply IH; intros y Hy; apply H; by right].
Qed.

Lemma prodZ_scale a r l : 0 < r → prodZ ((λ i, a * i mod r) <$> l) mod r = (a ^ Z.of_nat (length l) * prodZ l) mod r.
Proof.
  intros Hr. induction l as [|x l IH]; cbn [fmap list_fmap prodZ foldr length]; [done|].
  rewrite Nat2Z.inj_succ, Z.pow_succ_r by lia.
  fold (prodZ l) (prodZ ((λ i, a * i mod r) <$> l)).
  rewrite Z.mul_mod, IH, Z.mod_mod, <-Z.mul_mod by lia. f_equal. ring.
Qed.

Theorem fermat_little r a : prime r → ¬ (r | a) → a ^ (r - 1) mod r = 1.
Proof.
  intros Hp Ha. pose proof (prime_ge_2 _ Hp) as Hr.
  assert (Hra : rel_prime a r) by (by apply rel_prime_sym, prime_rel_prime).
  set (l := Z.of_nat <$> seq 1 (Z.to_nat (r - 1))).
  assert (Hl : ∀ x, x ∈ l ↔ 1 ≤ x < r).
  { intros x. unfold l. rewrite elem_of_list_fmap. split.
    - intros (n & -> & Hn%elem_of_list_In%in_seq). lia.
    - intros Hx. exists (Z.to_nat x). rewrite elem_of_list_In, in_seq. lia. }
  assert (Hnd : NoDup l) by (apply NoDup_fmap_2; [apply _|apply NoDup_ListNoDup, seq_NoDup]).
  assert (Hlen : Z.of_nat (length l) = r - 1) by (unfold l; rewrite fmap_length, seq_length; lia).
  assert (Hcop : ∀ x, 1 ≤ x < r → ¬ (r | x)). { intros x Hx Hd%Z.divide_pos_le; lia. }
  assert (Hperm : (λ i, a * i mod r) <$> l ≡ₚ l).
  { apply submseteq_Permutation_length_eq; [by rewrite fmap_length|]. apply NoDup_submseteq.
    - apply NoDup_fmap_2_strong; [|done]. intros x y Hx%Hl Hy%Hl E.
      apply mod_eq_divide in E; [|lia]. replace (a * x - a * y) with (a * (x - y)) in E by ring.
      apply Gauss in E; [|by apply rel_prime_sym]. 
      destruct (Z.eq_dec x y) as [|Hne]; [done|exfalso].
      destruct (Z.lt_ge_cases y x).
      + apply Z.divide_pos_le in E; lia.
      + apply Z.divide_opp_r in E. apply Z.divide_pos_le in E; lia.
    - intros x (i & -> & Hi%Hl)%elem_of_list_fmap. apply Hl.
      pose proof (Z.mod_pos_bound (a * i) r ltac:(lia)). assert (a * i mod r ≠ 0); [|lia].
      intros E. apply Z.mod_divide in E; [|lia]. apply prime_mult in E as [E|E]; [done| |done].
      by apply (Hcop i). }
  pose proof (prodZ_scale a r l ltac:(lia)) as E. rewrite (prodZ_perm _ _ Hperm), Hlen in E.
  symmetry in E. apply mod_eq_divide in E; [|lia].
  replace (a ^ (r - 1) * prodZ l - prodZ l) with (prodZ l * (a ^ (r - 1) - 1)) in E by ring.
  apply Gauss in E.
  2: { apply rel_prime_sym, prodZ_rel_prime. intros x Hx%Hl. apply rel_prime_sym, prime_rel_prime; auto. }
  apply mod_eq_divide in E; [|lia]. rewrite E. apply Z.mod_small. lia.
Qed.

Lemma pow_mod_1 a r k m : 0 < r → 0 ≤ k → 0 ≤ m → a ^ k mod r = 1 mod r → a ^ (k * m) mod r = 1 mod r.
Proof. intros Hr Hk Hm H. rewrite Z.pow_mul_r by done. rewrite Zpower_mod, H, <-Zpower_mod by lia. by rewrite Z.pow_1_l. Qed.

(** exponents at which a power is 1 are closed under gcd *)
Lemma pow_gcd a r j k : 1 < r → 0 < j → 0 < k → a ^ j mod r = 1 → a ^ k mod r = 1 → a ^ (Z.gcd j k) mod r = 1.
Proof.
  intros Hr Hj Hk Ej Ek.
  assert (E1 : 1 mod r = 1) by (apply Z.mod_small; lia).
  pose proof (Z.gcd_nonneg j k) as Hg0.
  destruct (Zis_gcd_bezout j k (Z.gcd j k) (Zgcd_is_gcd j k)) as [u v Huv].
  (* gcd + (|u|+|u| j...) : choose n large so that coefficients become non-negative *)
  set (t := Z.abs u + Z.abs v + 1).
  (* gcd + t*j*k*... *)
  assert (E : Z.gcd j k + (t * k - u) * j + (t * j - v) * k = j * (t * k) + k * (t * j)) by lia.
  assert (Hu : 0 ≤ t * k - u) by (unfold t; nia). assert (Hv : 0 ≤ t * j - v) by (unfold t; nia).
  assert (Ht : 0 ≤ t) by (unfold t; lia).
  assert (A : a ^ (Z.gcd j k + (t * k - u) * j + (t * j - v) * k) mod r = 1).
  { rewrite E, Z.pow_add_r by nia. rewrite Z.mul_mod by lia.
    rewrite (pow_mod_1 a r j (t * k)), (pow_mod_1 a r k (t * j)) by (try nia; congruence). by rewrite <-Z.mul_mod by lia. }
  rewrite !Z.pow_add_r in A by nia.
  rewrite Z.mul_mod in A by lia. rewrite (Z.mul_comm (t * j - v) k), (pow_mod_1 a r k (t * j - v)) in A by (try nia; congruence).
  rewrite <-Z.mul_mod, Z.mul_1_r in A by lia.
  rewrite Z.mul_mod in A by lia. rewrite (Z.mul_comm (t * k - u) j), (pow_mod_1 a r j (t * k - u)) in A by (try nia; congruence).
  by rewrite <-Z.mul_mod, Z.mul_1_r in A by lia.
Qed.

(** one prime power of the factored part *)
Lemma pocklington_step n p e a r : 1 < n → prime p → 0 < e → (p ^ e | n - 1) → a ^ (n - 1) mod n = 1 →
  Z.gcd (a ^ ((n - 1) / p) mod n - 1) n = 1 → prime r → (r | n) → (p ^ e | r - 1).
Proof.
  intros Hn Hp He Hpe Ea Hg Hr Hrn. pose proof (prime_ge_2 _ Hr). pose proof (prime_ge_2 _ Hp).
  assert (Hmod : ∀ x y, x mod n = y mod n → x mod r = y mod r).
  { intros x y E. apply mod_eq_divide in E; [|lia]. apply mod_eq_divide; [lia|]. by etransitivity. }
  assert (E1 : 1 mod r = 1) by (apply Z.mod_small; lia).
  assert (Ear : a ^ (n - 1) mod r = 1).
  { transitivity (1 mod r); [|exact E1]. apply Hmod. rewrite Ea. symmetry. apply Z.mod_small. lia. }
  assert (Hna : ¬ (r | a)).
  { intros Hd. assert (Hd' : (r | a ^ (n - 1))).
    { replace (n - 1) with (Z.succ (n - 2)) by lia. rewrite Z.pow_succ_r by lia. by apply Z.divide_mul_l. }
    apply Z.mod_divide in Hd'; lia. }
  pose proof (fermat_little r a Hr Hna) as Ef.
  pose proof (pow_gcd a r (n - 1) (r - 1) ltac:(lia) ltac:(lia) ltac:(lia) Ear Ef) as Eg.
  set (u := Z.gcd (n - 1) (r - 1)) in *.
  assert (Hu1 : (u | n - 1)) by apply Z.gcd_divide_l. assert (Hu2 : (u | r - 1)) by apply Z.gcd_divide_r.
  destruct Hu1 as [w Hw]. assert (Hu0 : 0 < u). { pose proof (Z.gcd_nonneg (n - 1) (r - 1)) as Hu0. fold u in Hu0. assert (u ≠ 0) by (intros E; rewrite E in Hw; lia). lia. }
  destruct (Zdivide_dec p w) as [[v Hv]|Hpw].
  - exfalso. assert (Hq : (n - 1) / p = u * v). { rewrite Hw, Hv. replace (v * p * u) with (u * v * p) by ring. apply Z_div_mult; lia. }
    assert (A : a ^ ((n - 1) / p) mod r = 1 mod r). { rewrite Hq. apply pow_mod_1; [lia|lia| |congruence]. assert (0 < v * u) by nia. nia. }
    assert (Hd : (r | a ^ ((n - 1) / p) mod n - 1)).
    { apply mod_eq_divide; [lia|]. transitivity (a ^ ((n - 1) / p) mod r); [|exact A]. apply Hmod. apply Z.mod_mod. lia. }
    assert (Hd2 : (r | Z.gcd (a ^ ((n - 1) / p) mod n - 1) n)) by (by apply Z.gcd_greatest).
    rewrite Hg in Hd2. apply Z.divide_pos_le in Hd2; lia.
  - etransitivity; [|exact Hu2]. rewrite Hw in Hpe. apply Gauss in Hpe; [done|].
    apply rel_prime_sym, rel_prime_Zpower_r; [lia|]. apply rel_prime_sym. by apply prime_rel_prime.
Qed.

Theorem pocklington n F : 1 < n → 0 < F → n < (F + 1) * (F + 1) →
  (∀ r, prime r → (r | n) → (F | r - 1)) → prime n.
Proof.
  intros Hn HF Hsq H. destruct (prime_dec n) as [|Hnp]; [done|exfalso].
  assert (Hfac : ∀ m, 1 < m → ∃ r, prime r ∧ (r | m)).
  { intros m. induction m as [m IH] using (well_founded_induction (Z.lt_wf 0)). intros Hm.
    destruct (prime_dec m) as [|Hm']; [exists m; by split|]. 
    destruct (not_prime_divide m Hm Hm') as (d & Hd & Hdm).
    destruct (IH d ltac:(lia) ltac:(lia)) as (r & Hr & Hrd). exists r. split; [done|]. by etransitivity. }
  destruct (not_prime_divide n Hn Hnp) as (d & Hd & [k Hk]).
  assert (Hk1 : 1 < k) by nia.
  destruct (Hfac d ltac:(lia)) as (r1 & Hr1 & Hd1). destruct (Hfac k Hk1) as (r2 & Hr2 & Hd2).
  pose proof (prime_ge_2 _ Hr1). pose proof (prime_ge_2 _ Hr2).
  assert (F + 1 ≤ r1). { assert (F ≤ r1 - 1); [|lia]. apply Z.divide_pos_le; [lia|]. apply H; [done|]. rewrite Hk. by apply Z.divide_mul_r. }
  assert (F + 1 ≤ r2). { assert (F ≤ r2 - 1); [|lia]. apply Z.divide_pos_le; [lia|]. apply H; [done|]. rewrite Hk. by apply Z.divide_mul_l. }
  apply Z.divide_pos_le in Hd1; [|lia]. apply Z.divide_pos_le in Hd2; [|lia]. nia.
Qed.

(** trial division *)
Fixpoint no_divisor (n d : Z) (fuel : nat) : bool :=
  match fuel with O => true | S f => negb (n mod d =? 0) && no_divisor n (d + 1) f end.
Lemma no_divisor_spec n d fuel x : no_divisor n d fuel = true → d ≤ x < d + Z.of_nat fuel → 0 < x → ¬ (x | n).
Proof.
  revert d. induction fuel as [|f IH]; intros d H Hx H0; [lia|]. cbn [no_divisor] in H.
  apply andb_true_iff in H as [H1 H2]. apply negb_true_iff, Z.eqb_neq in H1.
  destruct (Z.eq_dec x d) as [->|Hne].
  - intros Hd. apply H1. by apply Z.mod_divide; [lia|].
  - apply (IH (d + 1)); [done|lia|done].
Qed.
Lemma trial_division n k : 1 < n → 0 ≤ k → n < (k + 2) * (k + 2) → no_divisor n 2 (Z.to_nat k) = true → prime n.
Proof.
  intros Hn Hk0 Hf H. destruct (prime_dec n) as [|Hnp]; [done|exfalso].
  destruct (not_prime_divide n Hn Hnp) as (d & Hd & [c Hc]).
  destruct (Z.lt_ge_cases d (2 + k)).
  - apply (no_divisor_spec n 2 (Z.to_nat k) d H); [lia|lia|]. by exists c.
  - apply (no_divisor_spec n 2 (Z.to_nat k) c H); [nia|nia|]. exists d. lia.
Qed.

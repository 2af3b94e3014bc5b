(** The order of the bn256 groups used by /repo/shlib/shcrypto/shbls, and a proof that it is prime. *)
From stdpp Require Import list.
From Coq Require Import ZArith Znumtheory Zpow_facts Lia.
From Verif Require Import Pocklington.
Local Open Scope Z_scope.

(** bn256.Order of github.com/ethereum/go-ethereum/crypto/bn256/cloudflare, used at shbls/encoding.go:30 *)
Definition bn_order : Z := 21888242871839275222246405745257275088548364400416034343698204186575808495617.

(** p^e divides n - 1 and a satisfies Pocklington's condition for p *)
Definition cert (n a p e : Z) : bool :=
  ((n - 1) mod (p ^ e) =? 0) && (Z.gcd (Zpow_mod a ((n - 1) / p) n - 1) n =? 1).

Lemma cert_step n a p e r : 1 < n → Zpow_mod a (n - 1) n = 1 → prime p → 0 < e → cert n a p e = true →
  prime r → (r | n) → (p ^ e | r - 1).
Proof.
  intros Hn Ha Hp He [H1 H2]%andb_true_iff Hr Hro. apply Z.eqb_eq in H1, H2.
  rewrite Zpow_mod_correct in H2 by lia. rewrite Zpow_mod_correct in Ha by lia.
  refine (pocklington_step n p e a r Hn Hp He _ Ha H2 Hr Hro).
  assert (p ^ e ≠ 0). { pose proof (prime_ge_2 _ Hp). pose proof (Z.pow_pos_nonneg p e). lia. }
  apply Z.mod_divide; assumption.
Qed.

Lemma coprime_divides a b r : Z.gcd a b = 1 → (a | r) → (b | r) → (a * b | r).
Proof.
  intros Hab [x Hx] Hb. rewrite Hx in *. rewrite (Z.mul_comm x). apply Z.mul_divide_mono_l.
  apply (Gauss b a x); [by rewrite Z.mul_comm|]. apply rel_prime_sym. by apply Zgcd_1_rel_prime.
Qed.

(** [fs] lists pairs (p, e) of primes and exponents *)
Fixpoint certs (n a : Z) (fs : list (Z * Z)) : bool :=
  match fs with
  | [] => true
  | (p, e) :: fs => (0 <? e) && cert n a p e && (Z.gcd (p ^ e) (foldr (λ f acc, f.1 ^ f.2 * acc) 1 fs) =? 1) && certs n a fs
  end.
Lemma certs_sound n a fs r : 1 < n → Zpow_mod a (n - 1) n = 1 → Forall (λ f, prime f.1) fs → certs n a fs = true →
  prime r → (r | n) → (foldr (λ f acc, f.1 ^ f.2 * acc) 1 fs | r - 1).
Proof.
  intros Hn Ha Hp Hc Hr Hrn. induction Hp as [|[p e] fs Hp _ IH]; cbn [foldr]; [apply Z.divide_1_l|].
  cbn [certs] in Hc. apply andb_true_iff in Hc as [[[H1 H2]%andb_true_iff H3]%andb_true_iff H4].
  apply Z.ltb_lt in H1. apply Z.eqb_eq in H3. cbn [fst snd] in *.
  apply coprime_divides; [exact H3| |exact (IH H4)].
  exact (cert_step n a p e r Hn Ha Hp H1 H2 Hr Hrn).
Qed.

Ltac small k := apply (trial_division _ k); [lia|lia|lia|vm_compute; reflexivity].
Lemma prime_12048837557 : prime 12048837557. Proof. small 109766. Qed.
Lemma prime_5156902474397 : prime 5156902474397.
Proof.
  apply (pocklington _ (foldr (λ f acc, f.1 ^ f.2 * acc) 1 [(12048837557, 1)])); [lia|reflexivity|reflexivity|].
  intros r. apply (certs_sound _ 2); [lia|vm_compute; reflexivity| |vm_compute; reflexivity].
  apply List.Forall_cons; [|apply List.Forall_nil]. exact prime_12048837557.
Qed.
Lemma prime_1670836401704629 : prime 1670836401704629.
Proof.
  apply (pocklington _ (foldr (λ f acc, f.1 ^ f.2 * acc) 1 [(5156902474397, 1)])); [lia|reflexivity|reflexivity|].
  intros r. apply (certs_sound _ 2); [lia|vm_compute; reflexivity| |vm_compute; reflexivity].
  apply List.Forall_cons; [|apply List.Forall_nil]. exact prime_5156902474397.
Qed.
Lemma prime_405928799 : prime 405928799. Proof. small 20147. Qed.
Lemma prime_983 : prime 983. Proof. small 31. Qed.
Lemma prime_237073 : prime 237073. Proof. small 486. Qed.

Theorem bn_order_prime : prime bn_order.
Proof.
  apply (pocklington _ (foldr (λ f acc, f.1 ^ f.2 * acc) 1
           [(2, 28); (983, 1); (237073, 1); (405928799, 1); (1670836401704629, 1)])); [reflexivity|reflexivity|vm_compute; reflexivity|].
  intros r. apply (certs_sound _ 5); [reflexivity|vm_compute; reflexivity| |vm_compute; reflexivity].
  repeat (apply List.Forall_cons || apply List.Forall_nil);
    [exact prime_2|exact prime_983|exact prime_237073|exact prime_405928799|exact prime_1670836401704629].
Qed.
Lemma bn_order_pos : 1 < bn_order. Proof. reflexivity. Qed.
Global Opaque bn_order.

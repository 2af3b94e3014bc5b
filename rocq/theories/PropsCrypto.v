(** Properties of the secret sharing scheme: C29, C30, C33, C40. *)
From stdpp Require Import list sets.
From Coq Require Import ZArith Znumtheory Lia Ring.
From Verif Require Import Pocklington Fq Poly CryptoModel CryptoSpec CryptoProofs.
Local Open Scope Z_scope.

(** * C29: the scalar field is a field *)
Theorem C29_field : prime order ∧
  ∀ x, residue x → x ≠ 0 → residue (invert x) ∧ (x * invert x) mod order = 1.
Proof.
  split; [exact order_prime|]. intros x Hx Hne. split; [rewrite invert_pow; apply mod_residue|].
  pose proof order_pos.
  assert (Hnz : toF x ≠ f0).
  { intros [k Hk]%toF_0. unfold residue in Hx. assert (k = 0) by nia. subst k. lia. }
  pose proof (finv_l (toF x) Hnz) as H1.
  assert (Hc : congr (x * invert x) 1).
  { apply congr_toF. rewrite toF_mul, invert_toF. change (toF 1) with f1. rewrite <-H1.
    pose proof Fq_ring as R. apply (Rmul_comm R). }
  unfold congr in Hc. rewrite Hc. apply Z.mod_small. lia.
Qed.
Example C29_witness : residue 5 ∧ 5 ≠ 0 ∧ (5 * invert 5) mod order = 1.
Proof. assert (residue 5). { unfold residue. pose proof order_big. lia. } split; [done|]. split; [done|]. by apply C29_field. Qed.

(** [gs] are Feldman commitments to the coefficients [p] *)
Definition commits {P} (p : list Z) (gs : list (G2 P)) : Prop := Forall2 (λ c g, g = gsmul c ggen) p gs.
Lemma commits_gammas {P} p (gs : list (G2 P)) : commits p gs ↔ gs = gammas P p.
Proof.
  split.
  - intros H. induction H as [|c g p gs -> _ IH]; [done|]. unfold gammas in *. cbn. by rewrite IH.
  - intros ->. unfold commits, gammas. apply Forall2_fmap_r. apply Forall_Forall2_diag. apply Forall_forall. done.
Qed.

(** uint64 values, in particular lengths of Go slices *)
Definition uint64 (n : Z) : Prop := 0 ≤ n < 2 ^ 64.
Lemma degree_eq {A} (p : list A) t : uint64 (Z.of_nat (length p)) → uint64 t →
  degree p = degree_from_threshold t ↔ Z.of_nat (length p) = t.
Proof.
  unfold degree, degree_from_threshold, u64, uint64. intros Hp Ht. split; [|by intros ->].
  intros E. apply mod_eq_divide in E; [|done]. destruct E as [k Hk]. assert (k = 0) by nia. lia.
Qed.

(** * C30: verifiable secret sharing *)
(** Every list of points commits to exactly one polynomial ... *)
Theorem C30_commitment_unique (P : pairing) (gs : list (G2 P)) :
  ∃ p, commits p gs ∧ (∀ c, c ∈ p → residue c) ∧
    ∀ r, commits r gs → (∀ c, c ∈ r → residue c) → r = p.
Proof.
  destruct (gammas_surj P gs) as (p & E & Hr). exists p. rewrite commits_gammas. split; [done|]. split; [done|].
  intros r Hrg Hrr. rewrite commits_gammas in Hrg. apply (gammas_inj P); [done..|congruence].
Qed.
(** ... and the check accepts exactly the value of that polynomial at the keyper's point, for
    commitments of the right degree. *)
Theorem C30_verify_poly_eval (P : pairing) i v p (gs : list (G2 P)) t :
  commits p gs → uint64 (Z.of_nat (length gs)) → uint64 t →
  verify_poly_eval i v gs t = true ↔ Z.of_nat (length p) = t ∧ v mod order = poly_value p (i + 1) mod order.
Proof.
  intros Hc Hl Ht. assert (length p = length gs) as El by exact (Forall2_length _ _ _ Hc).
  apply commits_gammas in Hc. subst gs. rewrite verify_iff. rewrite degree_eq; [done| |done]. by rewrite El.
Qed.
(** What an honest dealer sends is accepted: [eval_for_keyper] computes that value. *)
Theorem C30_honest (P : pairing) i v p t : new_polynomial p = Some p → uint64 (Z.of_nat (length p)) →
  Z.of_nat (length p) = t → eval_for_keyper p i = Some v →
  valid_eval v = true ∧ verify_poly_eval i v (gammas P p) t = true.
Proof.
  intros Hn Hl Ht Hv. unfold new_polynomial in Hn. destruct (Nat.eqb_spec (length p) 0) as [|Hp0]; [done|].
  destruct (forallb _ p) eqn:E; [|done]. rewrite forallb_forall in E.
  assert (Hr : ∀ c, c ∈ p → residue c).
  { intros c Hc%elem_of_list_In. specialize (E c Hc). apply andb_true_iff in E as [E1 E2].
    apply negb_true_iff in E1, E2. apply Z.ltb_ge in E1. apply Z.leb_gt in E2. done. }
  unfold eval_for_keyper in Hv. rewrite eval_exact in Hv by (try done; by intros ->). injection Hv as <-. split.
  - unfold valid_eval. destruct (mod_residue (poly_value p (keyper_x i))) as [H1 H2].
    apply andb_true_iff. rewrite !negb_true_iff. split; [by apply Z.ltb_ge|by apply Z.leb_gt].
  - apply (C30_verify_poly_eval P i _ p); [by apply commits_gammas|unfold gammas; by rewrite fmap_length| |].
    + by rewrite <-Ht.
    + split; [done|]. rewrite Z.mod_mod by apply order_nz. unfold keyper_x. by rewrite Z.add_comm.
Qed.
(** The range check of received values. *)
Theorem C30_valid_eval v : valid_eval v = true ↔ residue v.
Proof. unfold valid_eval, residue. rewrite andb_true_iff, !negb_true_iff, Z.ltb_ge, Z.leb_gt. done. Qed.
(** Constructing a polynomial succeeds exactly for non-empty lists of residues. *)
Theorem C30_new_polynomial cs p : new_polynomial cs = Some p ↔ p = cs ∧ cs ≠ [] ∧ ∀ c, c ∈ cs → residue c.
Proof.
  unfold new_polynomial. destruct (Nat.eqb_spec (length cs) 0) as [E|E].
  { destruct cs; [|done]. split; [done|]. by intros (_ & ? & _). }
  assert (Hb : forallb (λ v, negb (v <? 0) && negb (order <=? v)) cs = true ↔ ∀ c, c ∈ cs → residue c).
  { rewrite forallb_forall. split; intros H c Hc; [apply C30_valid_eval, H; by apply elem_of_list_In|].
    apply (C30_valid_eval c), H. by apply elem_of_list_In. }
  destruct (forallb _ cs).
  - split; [intros [= <-]|by intros (-> & _)]. split; [done|]. split; [by intros ->|by apply Hb].
  - split; [done|]. intros (_ & _ & H). by apply Hb in H.
Qed.
(** Random polynomials have the degree asked for and valid coefficients. *)
Theorem C30_random_polynomial rnd t : 1 ≤ t < 2 ^ 64 →
  ∃ p, random_polynomial rnd (degree_from_threshold t) = Some p ∧ new_polynomial p = Some p ∧ Z.of_nat (length p) = t.
Proof.
  intros Ht. unfold random_polynomial, degree_from_threshold, u64.
  replace ((((t - 1) mod 2 ^ 64) + 1) mod 2 ^ 64) with t.
  2: { rewrite (Z.mod_small (t - 1)) by lia. rewrite Z.mod_small; lia. }
  set (p := (λ i, rnd i mod order) <$> seq 0 (Z.to_nat t)).
  assert (Hp : length p = Z.to_nat t) by (unfold p; by rewrite fmap_length, seq_length).
  assert (Hn : new_polynomial p = Some p).
  { unfold new_polynomial. destruct (Nat.eqb_spec (length p) 0) as [|_]; [lia|].
    replace (forallb _ p) with true; [done|]. symmetry. apply forallb_forall. intros c Hc%elem_of_list_In.
    apply elem_of_list_fmap in Hc as (j & -> & _). destruct (mod_residue (rnd j)) as [H1 H2].
    apply andb_true_iff. rewrite !negb_true_iff. split; [by apply Z.ltb_ge|by apply Z.leb_gt]. }
  exists p. split; [done|]. split; [done|]. lia.
Qed.
Example C30_witness :
  verify_poly_eval (P := fq_pairing) 2 (7 + 3 * 5) (gammas fq_pairing [7; 5]) 2 = true ∧
  verify_poly_eval (P := fq_pairing) 2 (8 + 3 * 5) (gammas fq_pairing [7; 5]) 2 = false ∧
  verify_poly_eval (P := fq_pairing) 2 (7 + 3 * 5) (gammas fq_pairing [7; 5]) 3 = false.
Proof. split; [|split]; vm_compute; reflexivity. Qed.

(** * C33: reconstruction *)
Fixpoint zadd (p r : list Z) : list Z :=
  match p, r with [], _ => r | _, [] => p | a :: p', b :: r' => (a + b) :: zadd p' r' end.
Lemma poly_value_zadd p r x : poly_value (zadd p r) x = poly_value p x + poly_value r x.
Proof. revert r. induction p as [|a p IH]; intros [|b r]; cbn [zadd poly_value]; try lia. rewrite IH. ring. Qed.
Lemma zadd_length p r : length (zadd p r) = Nat.max (length p) (length r).
Proof. revert r. induction p as [|a p IH]; intros [|b r]; cbn; try lia. by rewrite IH. Qed.
Lemma sum_is_poly ps n : (∀ p, p ∈ ps → (length p ≤ n)%nat) →
  ∃ q, (length q ≤ n)%nat ∧ ∀ x, poly_value q x = sum_poly ps x.
Proof.
  induction ps as [|p ps IH]; intros H; [exists []; split; [cbn; lia|done]|].
  destruct IH as (q & Hq & Hv); [intros p' Hp'; apply H; by right|].
  exists (zadd p q). split.
  - rewrite zadd_length. specialize (H p ltac:(by left)). lia.
  - intros x. rewrite poly_value_zadd, Hv. done.
Qed.

(** [ps]: the dealers' polynomials, with at most [t] coefficients each; [sk k]: keyper [k]'s eon secret key
    share.  Any [t] distinct keypers' epoch secret key shares combine to the epoch point multiplied by
    the sum of the dealers' secrets. *)
Theorem C33_reconstruct (P : pairing) ps t sk ks (epoch : G1 P) :
  (∀ p, p ∈ ps → Z.of_nat (length p) ≤ t) → 0 < t →
  NoDup ks → Z.of_nat (length ks) = t → (∀ k, k ∈ ks → keyper_index k) →
  (∀ k, k ∈ ks → sk k mod order = sum_poly ps (k + 1) mod order) →
  compute_epoch_secret_key ks ((λ k, epoch_secret_key_share (sk k) epoch) <$> ks) t =
    Some (gsmul (sum_poly ps 0) epoch).
Proof.
  intros Hps Ht Hnd Hl Hks Hsk. destruct (sum_is_poly ps (length ks)) as (q & Hq & Hv).
  { intros p Hp. specialize (Hps p Hp). lia. }
  rewrite <-Hv. apply reconstruct; [done| |done|done|done|].
  - intros ->. cbn in Hl. lia.
  - apply Forall2_fmap_r. apply Forall_Forall2_diag. apply Forall_forall. intros k Hk.
    unfold epoch_secret_key_share. apply gsmul_congr. unfold congr. rewrite Hv, (Hsk k Hk).
    unfold keyper_x. by rewrite Z.add_comm.
Qed.
(** A different number of shares is refused. *)
Theorem C33_refused (P : pairing) ks (shares : list (G1 P)) t :
  Z.of_nat (length ks) ≠ t ∨ Z.of_nat (length shares) ≠ t → compute_epoch_secret_key ks shares t = None.
Proof.
  intros H. unfold compute_epoch_secret_key. destruct (Nat.eqb_spec (length ks) (length shares)) as [E|]; [|done]. cbn [negb].
  destruct (Z.eqb_spec (Z.of_nat (length ks)) t) as [E'|]; [|done]. exfalso. lia.
Qed.
(** The eon public key belongs to the secret that is reconstructed, each eon public key share to the
    eon secret key share, and the library's share check accepts exactly the right epoch share. *)
Theorem C33_public_keys (P : pairing) ps (gss : list (list (G2 P))) :
  Forall2 commits ps gss →
  eon_public_key gss = gsmul (sum_poly ps 0) ggen ∧
  ∀ k sk (epoch share : G1 P), sk mod order = sum_poly ps (k + 1) mod order →
    eon_public_key_share k gss = gsmul sk ggen ∧
    (verify_epoch_secret_key_share share (eon_public_key_share k gss) epoch = true ↔
     share = epoch_secret_key_share sk epoch).
Proof.
  intros H. assert (gss = gammas P <$> ps) as ->.
  { induction H as [|p gs ps gss Hc _ IH]; [done|]. apply commits_gammas in Hc. subst gs. cbn. by rewrite IH. }
  split; [apply sum_pi|]. intros k sk epoch share Hsk.
  assert (E : eon_public_key_share k (gammas P <$> ps) = gsmul sk ggen).
  { unfold eon_public_key_share. rewrite sum_pi. apply gsmul_congr. unfold congr. rewrite Hsk. unfold keyper_x. by rewrite Z.add_comm. }
  split; [done|]. rewrite E. apply verify_share_iff.
Qed.
(** Summing up the evaluations received from the dealers yields such a secret key share. *)
Theorem C33_secret_key_share ps evals k :
  Forall2 (λ p v, v mod order = poly_value p (k + 1) mod order) ps evals →
  residue (eon_secret_key_share evals) ∧ eon_secret_key_share evals mod order = sum_poly ps (k + 1) mod order.
Proof.
  intros H. split; [apply secret_share_residue|]. pose proof (secret_share_congr evals) as E. unfold congr in E. rewrite E. clear E.
  induction H as [|p v ps evals Hv _ IH]; [done|]. cbn [foldr sum_poly]. fold (sum_poly ps (k + 1)).
  rewrite Z.add_mod, Hv, IH, <-Z.add_mod by apply order_nz. done.
Qed.
Example C33_witness : let ps := [[7; 5]; [11; 13]] in
  compute_epoch_secret_key (P := fq_pairing) [3; 0]
    ((λ k, epoch_secret_key_share (P := fq_pairing) (sum_poly ps (k + 1)) (toF 9)) <$> [3; 0]) 2 = Some (toF (9 * 18)) ∧
  compute_epoch_secret_key (P := fq_pairing) [3; 0] [toF 1; toF 2; toF 3] 2 = None.
Proof.
  intros ps. split; [|reflexivity].
  rewrite (C33_reconstruct fq_pairing ps 2 (λ k, sum_poly ps (k + 1)) [3; 0] (toF 9)); [| | | | | |done].
  - f_equal.
  - intros p Hp. apply elem_of_list_In in Hp. cbn in Hp. decompose sum Hp; subst; cbn; try done; lia.
  - lia.
  - repeat constructor; rewrite ?elem_of_cons, ?elem_of_nil; lia.
  - done.
  - intros k Hk. apply elem_of_list_In in Hk. cbn in Hk. unfold keyper_index. lia.
Qed.

(** * C40: fewer shares than the threshold tell nothing about the secret *)
Theorem C40_secrecy t ks p s : NoDup ks → (∀ k, k ∈ ks → keyper_index k) → (length ks < t)%nat → length p = t →
  ∃ p', length p' = t ∧ (∀ c, c ∈ p' → residue c) ∧
    poly_value p' 0 mod order = s mod order ∧
    ∀ k, k ∈ ks → poly_value p' (k + 1) mod order = poly_value p (k + 1) mod order.
Proof.
  intros Hnd Hks Hlt Hp.
  destruct (interpolation_exists ((f0, toF s) :: ((λ k, (x_of k, toF (poly_value p (k + 1)))) <$> ks))) as (q & Hq & Hv).
  { cbn. rewrite <-list_fmap_compose. apply NoDup_cons. split.
    - intros (k & E & Hk)%elem_of_list_fmap. cbn in E. apply (x_of_nz k); [by apply Hks|done].
    - apply NoDup_fmap_2_strong; [|done]. intros j k Hj Hk. apply x_of_inj; auto. }
  cbn in Hq. rewrite fmap_length in Hq.
  assert (Hpad : ∀ l x, feval l x = toF (poly_value (ofF <$> l) (ofF x))).
  { intros l x. rewrite <-feval_toF, <-list_fmap_compose, toF_ofF. f_equal. clear.
    induction l as [|a l IH]; cbn; [done|]. by rewrite toF_ofF, <-IH. }
  set (q' := q ++ replicate (t - length q) f0).
  assert (Hv' : ∀ x, feval q' x = feval q x).
  { intros x. unfold q'. rewrite !Hpad, fmap_app, poly_value_app, toF_add, toF_mul.
    replace (poly_value (ofF <$> replicate (t - length q) f0) (ofF x)) with 0.
    - change (toF 0) with f0. ring.
    - generalize (t - length q)%nat as n. induction n as [|n IH]; cbn [replicate fmap list_fmap poly_value]; [done|].
      rewrite <-IH. transitivity (0 + ofF x * 0); [lia|]. f_equal. }
  exists (ofF <$> q'). split; [|split; [|split]].
  - unfold q'. rewrite fmap_length, app_length, replicate_length. lia.
  - intros c (x & -> & _)%elem_of_list_fmap. apply ofF_range.
  - apply congr_toF. rewrite <-(Hv f0 (toF s)) by (by left). rewrite <-Hv', Hpad. f_equal.
  - intros k Hk. apply congr_toF. rewrite <-(Hv (x_of k) (toF (poly_value p (k + 1)))).
    2: { right. apply elem_of_list_fmap. by exists k. }
    rewrite <-Hv'. rewrite <-feval_toF. f_equal.
    + rewrite <-list_fmap_compose. clear. induction q' as [|a l IH]; cbn; [done|]. by rewrite toF_ofF, IH.
    + unfold x_of, keyper_x. by rewrite Z.add_comm.
Qed.
Example C40_witness : NoDup [4; 2] ∧ (∀ k, k ∈ [4; 2] → keyper_index k) ∧ (length [4; 2] < 3)%nat ∧ length [7; 5; 1] = 3%nat.
Proof.
  split; [repeat constructor; rewrite ?elem_of_cons, ?elem_of_nil; lia|]. split; [|split; [cbn; lia|done]].
  intros k Hk. apply elem_of_list_In in Hk. cbn in Hk. unfold keyper_index. lia.
Qed.

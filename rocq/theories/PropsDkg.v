(** Properties of the distributed key generation: C31, C32. *)
From stdpp Require Import list gmap sets.
From Coq Require Import ZArith NArith Lia.
From Verif Require Import Pocklington Fq Poly CryptoModel CryptoSpec CryptoProofs PropsCrypto DkgModel DkgSpec DkgProofs.
Local Open Scope Z_scope.

(** slices have fewer than 2^64 elements *)
Definition go_sized {P} (cs : list (call P)) : Prop := ∀ m, CCommitment m ∈ cs → Z.of_nat (length (cm_gammas m)) < 2 ^ 64.

Section Props.
Context {P : pairing}.

Lemma int_of_small n : (n < 2 ^ 63)%N → int_of n = Z.of_N n.
Proof. intros H. unfold int_of. by destruct (N.ltb_spec n (2 ^ 63)); [|lia]. Qed.
Lemma commits_poly_eq p q (gs : list (G2 P)) x : commits p gs → commits q gs → congr (poly_value p x) (poly_value q x).
Proof.
  intros Hp Hq. apply commits_gammas in Hp, Hq. apply (gsmul_gen_inj (G2 P)). rewrite <-!pi_gammas. by rewrite <-Hp, <-Hq.
Qed.
Lemma poly_value_zeros n x : poly_value (replicate n 0) x = 0.
Proof. induction n as [|n IH]; cbn [replicate poly_value]; [done|]. rewrite IH. lia. Qed.
Lemma zero_commits deg : commits (replicate (Z.to_nat (u64 (deg + 1))) 0) (zero_gammas P deg).
Proof. unfold commits, zero_gammas. induction (Z.to_nat _) as [|n IH]; cbn; constructor; [|done]. by rewrite gsmul_0. Qed.
Lemma verify_congr i v (gs : list (G2 P)) p t : commits p gs → verify_poly_eval i v gs t = true → congr v (poly_value p (i + 1)).
Proof. intros Hc. apply commits_gammas in Hc. subst gs. intros [_ H]%verify_iff. done. Qed.

Lemma contribution_spec (s : dkg P) d b gs v : contribution s d = Some (b, gs, v) →
  (b = true ∧ is_corrupt s d = false ∧ d_commitments s !! d = Some (Some gs) ∧
   verify_poly_eval (int_of (d_keyper s)) v gs (Z.of_N (d_threshold s)) = true) ∨
  (b = false ∧ is_corrupt s d = true ∧ gs = zero_gammas P (degree_from_threshold (Z.of_N (d_threshold s))) ∧ v = 0).
Proof.
  unfold contribution. destruct (is_corrupt s d); cbn [negb]; [intros [= <- <- <-]; by right|].
  destruct (d_commitments s !! d) as [[c|]|]; [|done..]. destruct (poly_eval s d) as [w|]; [|done].
  destruct (verify_poly_eval _ _ _ _) eqn:E; [|done]. intros [= <- <- <-]. by left.
Qed.
Lemma contributions_public (s1 s2 : dkg P) l cs1 cs2 : same_public s1 s2 →
  mapM (contribution s1) l = Some cs1 → mapM (contribution s2) l = Some cs2 → cs1.*1 = cs2.*1.
Proof.
  intros Hs. rewrite !mapM_Some. intros H1. revert cs2. induction H1 as [|d [[b1 g1] v1] l cs1 E1 _ IH]; intros cs2 H2.
  - by inversion H2.
  - inversion H2 as [|? [[b2 g2] v2] ? cs2' E2 H2' ]; subst. cbn. f_equal; [|by apply IH].
    pose proof (is_corrupt_public _ _ d Hs) as Hc. destruct Hs as (_ & _ & _ & Ht & Hcm & _).
    apply contribution_spec in E1 as [(-> & C1 & L1 & _)|(-> & C1 & -> & _)];
    apply contribution_spec in E2 as [(-> & C2 & L2 & _)|(-> & C2 & -> & _)]; try congruence.
Qed.
Lemma contributions_evals (s : dkg P) l cs ps : mapM (contribution s) l = Some cs → Forall2 commits ps ((λ c, c.1.2) <$> cs) →
  Forall2 (λ p v, v mod order = poly_value p (int_of (d_keyper s) + 1) mod order) ps ((λ c, c.2) <$> cs).
Proof.
  rewrite mapM_Some. intros H. revert ps. induction H as [|d [[b gs] v] l cs E _ IH]; intros ps Hps; cbn in *.
  - inversion Hps. constructor.
  - inversion Hps as [|p ? ps' ? Hp Hps']; subst. constructor; [|by apply IH].
    apply contribution_spec in E as [(_ & _ & _ & Hv)|(_ & _ & -> & ->)].
    + by eapply verify_congr.
    + symmetry. etransitivity; [apply (commits_poly_eq _ _ _ _ Hp (zero_commits _))|]. by rewrite poly_value_zeros.
Qed.
Lemma commits_exist (gss : list (list (G2 P))) : ∃ ps, Forall2 commits ps gss.
Proof.
  induction gss as [|gs gss [ps IH]]; [by exists []|]. destruct (gammas_surj P gs) as (p & E & _).
  exists (p :: ps). constructor; [by apply commits_gammas|done].
Qed.

Lemma compute_result_inv (s : dkg P) r : compute_result s = Some r → d_phase s ≥ finalized ∧
  ∃ cs, mapM (contribution s) (seq 0 (N.to_nat (d_num s))) = Some cs ∧
    (d_threshold s ≤ N.of_nat (length (List.filter (λ c, c.1.1) cs)))%N ∧
    r = mkResult P (d_eon s) (d_num s) (d_threshold s) (d_keyper s) (eon_secret_key_share ((λ c, c.2) <$> cs))
          (eon_public_key ((λ c, c.1.2) <$> cs))
          ((λ i, eon_public_key_share (int_of (N.of_nat i)) ((λ c, c.1.2) <$> cs)) <$> seq 0 (N.to_nat (d_num s))).
Proof.
  unfold compute_result. destruct (Nat.ltb_spec (d_phase s) finalized); [done|].
  destruct (mapM _ _) as [cs|] eqn:E; [|done]. destruct (N.ltb_spec (N.of_nat (length (List.filter (λ c, c.1.1) cs))) (d_threshold s)); [done|].
  intros [= <-]. split; [lia|]. by exists cs.
Qed.

(** the commitments that enter the keys have the right degree *)
Lemma contributions_length eon n t k cs s (l : list nat) (ks : list (bool * list (G2 P) * Z)) : run (new_dkg P eon n t k) cs = Some s → go_sized cs → (t < 2 ^ 64)%N →
  mapM (contribution s) l = Some ks → ∀ gs, gs ∈ ((λ c, c.1.2) <$> ks) → Z.of_nat (length gs) = Z.of_N t.
Proof.
  intros Hr Hg Ht Hm gs. rewrite mapM_Some in Hm. pose proof (run_frame _ _ _ Hr) as (He & _ & Eth & _). cbn in Eth, He.
  intros (c & -> & Hc)%elem_of_list_fmap.
  apply elem_of_list_lookup in Hc as [j Hj]. destruct (Forall2_lookup_r _ _ _ _ _ Hm Hj) as (d & _ & E).
  destruct c as [[b gs] v]. cbn. apply contribution_spec in E as [(_ & _ & Hcm & _)|(_ & _ & -> & _)].
  - replace d with (N.to_nat (N.of_nat d)) in Hcm by lia.
    destruct (run_commitment_origin _ _ _ _ _ Hr Hcm) as [H0|(m & Hm' & _ & _ & Hgm & Hdeg)].
    + cbn in H0. apply lookup_replicate in H0 as [? _]. done.
    + cbn in Hdeg. subst gs. specialize (Hg m Hm'). apply degree_eq; [unfold uint64; lia|unfold uint64; lia|done].
  - rewrite Eth. unfold zero_gammas. rewrite replicate_length. unfold degree_from_threshold, u64.
    rewrite Zplus_mod_idemp_l. replace (Z.of_N t - 1 + 1) with (Z.of_N t) by lia. rewrite Z.mod_small by lia. lia.
Qed.

(** * C31: agreement *)
Theorem C31_agreement eon n t k1 k2 cs1 cs2 (s1 s2 : dkg P) r1 r2 :
  run (new_dkg P eon n t k1) cs1 = Some s1 → run (new_dkg P eon n t k2) cs2 = Some s2 →
  broadcasts cs1 = broadcasts cs2 →
  compute_result s1 = Some r1 → compute_result s2 = Some r2 →
  r_pk r1 = r_pk r2 ∧ r_pkshares r1 = r_pkshares r2 ∧ (∀ dealer, is_corrupt s1 dealer = is_corrupt s2 dealer).
Proof.
  intros R1 R2 Hb C1 C2. pose proof (public_run _ _ _ _ _ _ (new_same_public eon n t k1 k2) Hb R1 R2) as Hs.
  apply compute_result_inv in C1 as (_ & c1 & M1 & _ & ->). apply compute_result_inv in C2 as (_ & c2 & M2 & _ & ->). cbn.
  pose proof Hs as (_ & _ & Hn & _). rewrite Hn in M1. pose proof (contributions_public _ _ _ _ _ Hs M1 M2) as E.
  assert (E' : ((λ c, c.1.2) <$> c1) = ((λ c, c.1.2) <$> c2)).
  { change ((snd ∘ fst) <$> c1 = (snd ∘ fst) <$> c2). rewrite !list_fmap_compose. by rewrite E. }
  rewrite E', Hn. split; [done|]. split; [done|]. intros d. by apply is_corrupt_public.
Qed.

(** There is no result before the protocol is finalized. *)
Theorem C31_only_finalized (s : dkg P) r : compute_result s = Some r → (finalized ≤ d_phase s)%nat.
Proof. intros [H _]%compute_result_inv. lia. Qed.

(** The result: there is one polynomial with [t] coefficients per dealer, the one it committed to or
    zero for the corrupt ones; keys and shares are values of their sum; at least [t] dealers are not
    corrupt. *)
Theorem C31_keys eon n t k cs (s : dkg P) r : (t < 2 ^ 64)%N → (n < 2 ^ 63)%N → (k < n)%N → go_sized cs →
  run (new_dkg P eon n t k) cs = Some s → compute_result s = Some r →
  ∃ ps, length ps = N.to_nat n ∧ (∀ p, p ∈ ps → Z.of_nat (length p) = Z.of_N t) ∧
    (∀ d p, ps !! d = Some p → if is_corrupt s d then ∀ x, poly_value p x mod order = 0
                               else ∃ gs, d_commitments s !! d = Some (Some gs) ∧ commits p gs) ∧
    r_pk r = gsmul (sum_poly ps 0) ggen ∧
    r_pkshares r = (λ i, gsmul (sum_poly ps (Z.of_nat i + 1)) ggen) <$> seq 0 (N.to_nat n) ∧
    residue (r_sk r) ∧ r_sk r mod order = sum_poly ps (Z.of_N k + 1) mod order ∧
    (N.to_nat t ≤ length (List.filter (λ d, negb (is_corrupt s d)) (seq 0 (N.to_nat n))))%nat.
Proof.
  intros Ht Hn Hk Hg R C. pose proof (run_frame _ _ _ R) as (_ & En & Et & Ek & _). cbn in En, Et, Ek.
  apply compute_result_inv in C as (_ & c & M & Hpart & ->). cbn. rewrite En in *. rewrite Et in *.
  pose proof (contributions_length _ _ _ _ _ _ _ _ R Hg Ht M) as Hlen.
  destruct (commits_exist ((λ c, c.1.2) <$> c)) as [ps Hps]. exists ps.
  pose proof (contributions_evals _ _ _ _ M Hps) as Hev. rewrite Ek, int_of_small in Hev by lia.
  destruct (C33_public_keys P ps _ Hps) as [Hpk Hsh].
  pose proof (proj1 (mapM_Some _ _ _) M) as M'. pose proof (Forall2_length _ _ _ M') as Lc. rewrite seq_length in Lc.
  split; [rewrite (Forall2_length _ _ _ Hps), fmap_length; lia|]. split; [|split; [|split; [|split; [|split; [|split]]]]].
  - intros p [j Hj]%elem_of_list_lookup. destruct (Forall2_lookup_l _ _ _ _ _ Hps Hj) as (gs & Hgs & Hc).
    rewrite (Forall2_length _ _ _ Hc). apply Hlen. by apply elem_of_list_lookup_2 in Hgs.
  - intros d p Hd. destruct (Forall2_lookup_l _ _ _ _ _ Hps Hd) as (gs & Hgs & Hc).
    rewrite list_lookup_fmap in Hgs. destruct (c !! d) as [[[b gs'] v]|] eqn:Ec; [|done]. cbn in Hgs. injection Hgs as ->.
    destruct (Forall2_lookup_r _ _ _ _ _ M' Ec) as (d' & Hd' & E). apply lookup_seq in Hd' as [-> _]. cbn in E.
    apply contribution_spec in E as [(_ & -> & Hcm & _)|(_ & -> & -> & _)]; [by exists gs|].
    intros x. pose proof (commits_poly_eq _ _ _ x Hc (zero_commits _)) as Hx. unfold congr in Hx. rewrite Hx, poly_value_zeros. apply Z.mod_0_l, order_nz.
  - exact Hpk.
  - apply list_fmap_ext. intros _ i Hi%elem_of_list_lookup_2%elem_of_list_In%in_seq.
    rewrite int_of_small by lia. destruct (Hsh (Z.of_N (N.of_nat i)) (sum_poly ps (Z.of_nat i + 1)) gzero gzero) as [-> _]; [|done].
    by replace (Z.of_N (N.of_nat i)) with (Z.of_nat i) by lia.
  - exact (proj1 (C33_secret_key_share ps _ (Z.of_N k) Hev)).
  - exact (proj2 (C33_secret_key_share ps _ (Z.of_N k) Hev)).
  - enough (length (List.filter (λ c, c.1.1) c) = length (List.filter (λ d, negb (is_corrupt s d)) (seq 0 (N.to_nat n)))) by lia.
    clear -M'. revert M'. generalize (seq 0 (N.to_nat n)) as l. intros l H. induction H as [|d [[b gs] v] l c E _ IH]; [done|].
    cbn. apply contribution_spec in E as [(-> & -> & _)|(-> & -> & _)]; cbn; lia.
Qed.

(** End to end: when [t] keypers finish, their epoch key shares verify against the public key shares all
    of them computed, and combine to the key that belongs to the eon public key all of them computed. *)
Theorem C31_usable eon n t (ks : list N) (calls_of : N → list (call P)) (state_of : N → dkg P) (result_of : N → result P) (epoch : G1 P) :
  (0 < t < 2 ^ 64)%N → (n < 2 ^ 63)%N → NoDup ks → N.of_nat (length ks) = t →
  (∀ k, k ∈ ks → (k < n)%N ∧ go_sized (calls_of k) ∧ run (new_dkg P eon n t k) (calls_of k) = Some (state_of k) ∧
                 compute_result (state_of k) = Some (result_of k)) →
  (∀ j k, j ∈ ks → k ∈ ks → broadcasts (calls_of j) = broadcasts (calls_of k)) →
  let share k := epoch_secret_key_share (r_sk (result_of k)) epoch in
  ∃ key, compute_epoch_secret_key (Z.of_N <$> ks) (share <$> ks) (Z.of_N t) = Some key ∧
    (∀ k, k ∈ ks → pair ggen key = pair (r_pk (result_of k)) epoch) ∧
    ∀ j k, j ∈ ks → k ∈ ks → ∃ pkshare, r_pkshares (result_of j) !! N.to_nat k = Some pkshare ∧
      verify_epoch_secret_key_share (share k) pkshare epoch = true.
Proof.
  intros Ht Hn Hnd Hl Hall Hb share.
  assert (∃ k0, k0 ∈ ks) as [j0 Hj0]. { destruct ks as [|a l]; [cbn in Hl; lia|]. exists a. by left. }
  destruct (Hall j0 Hj0) as (Hj1 & Hj2 & Hj3 & Hj4).
  destruct (C31_keys _ _ _ _ _ _ _ (proj2 Ht) Hn Hj1 Hj2 Hj3 Hj4) as (ps & Lps & Hlen & Hps & Hpk & Hpks & _ & _ & _).
  assert (Hcs : ∀ k, k ∈ ks → r_sk (result_of k) mod order = sum_poly ps (Z.of_N k + 1) mod order).
  { intros k Hk. destruct (Hall k Hk) as (Hk1 & Hk2 & Hk3 & Hk4).
    destruct (C31_keys _ _ _ _ _ _ _ (proj2 Ht) Hn Hk1 Hk2 Hk3 Hk4) as (qs & Lqs & _ & Hqs & _ & _ & _ & Hsk & _).
    pose proof (public_run _ _ _ _ _ _ (new_same_public eon n t j0 k) (Hb j0 k Hj0 Hk) Hj3 Hk3) as Hs.
    rewrite Hsk. assert (Hd : ∀ d p q, ps !! d = Some p → qs !! d = Some q → ∀ x, congr (poly_value p x) (poly_value q x)).
    { intros d p q Hp Hq x. specialize (Hps d p Hp). specialize (Hqs d q Hq). rewrite (is_corrupt_public _ _ d Hs) in Hps.
      destruct (is_corrupt (state_of k) d); [unfold congr; by rewrite Hps, Hqs|].
      destruct Hps as (g1 & L1 & C1). destruct Hqs as (g2 & L2 & C2). destruct Hs as (_ & _ & _ & _ & Hcm & _).
      rewrite Hcm, L2 in L1. injection L1 as ->. by eapply commits_poly_eq. }
    assert (Hlen2 : length ps = length qs) by lia. clear -Hd Hlen2. revert qs Hd Hlen2.
    induction ps as [|p ps IH]; intros [|q qs] Hd Hlen2; try done. cbn [sum_poly foldr].
    fold (sum_poly ps (Z.of_N k + 1)). fold (sum_poly qs (Z.of_N k + 1)).
    rewrite Z.add_mod, (Z.add_mod (poly_value p _)) by apply order_nz. rewrite (IH qs).
    - pose proof (Hd 0%nat p q eq_refl eq_refl (Z.of_N k + 1)) as Hc. unfold congr in Hc. by rewrite Hc.
    - intros d p' q' Hp Hq. by apply (Hd (S d)).
    - cbn in Hlen2. lia. }
  exists (gsmul (sum_poly ps 0) epoch). split; [|split].
  - pose proof (C33_reconstruct P ps (Z.of_N t) (λ z, r_sk (result_of (Z.to_N z))) (Z.of_N <$> ks) epoch) as H.
    rewrite <-list_fmap_compose in H. rewrite <-H.
    + f_equal. apply list_fmap_ext. intros _ k _. cbn. by rewrite N2Z.id.
    + intros p Hp. rewrite (Hlen p Hp). lia.
    + lia.
    + apply NoDup_fmap_2; [intros a b E; lia|done].
    + rewrite fmap_length. lia.
    + intros z (k & -> & Hk)%elem_of_list_fmap. destruct (Hall k Hk) as (Hk1 & _). unfold keyper_index. lia.
    + intros z (k & -> & Hk)%elem_of_list_fmap. rewrite N2Z.id. by apply Hcs.
  - intros k Hk. destruct (Hall k Hk) as (Hk1 & Hk2 & Hk3 & Hk4).
    destruct (C31_agreement _ _ _ _ _ _ _ _ _ _ _ Hk3 Hj3 (Hb k j0 Hk Hj0) Hk4 Hj4) as (-> & _).
    rewrite Hpk, pair_smul_r, pair_smul_l. done.
  - intros j k Hj Hk. destruct (Hall j Hj) as (Hi1 & Hi2 & Hi3 & Hi4). destruct (Hall k Hk) as (Hk1 & _).
    destruct (C31_agreement _ _ _ _ _ _ _ _ _ _ _ Hi3 Hj3 (Hb j j0 Hj Hj0) Hi4 Hj4) as (_ & -> & _).
    rewrite Hpks. exists (gsmul (sum_poly ps (Z.of_N k + 1)) ggen). split.
    + rewrite list_lookup_fmap, lookup_seq_lt by lia. cbn. by replace (Z.of_nat (N.to_nat k)) with (Z.of_N k) by lia.
    + apply verify_share_iff. unfold share, epoch_secret_key_share. apply gsmul_congr. by apply Hcs.
Qed.

(** * C32: honest keypers *)
Lemma random_poly_honest (rnd : nat → Z) t p : (t < 2 ^ 64)%N → random_polynomial rnd (degree_from_threshold (Z.of_N t)) = Some p →
  new_polynomial p = Some p ∧ Z.of_nat (length p) = Z.of_N t.
Proof.
  intros Ht Hp. destruct (decide (t = 0%N)) as [->|Hne].
  - exfalso. unfold random_polynomial, degree_from_threshold, u64 in Hp. rewrite Zplus_mod_idemp_l in Hp.
    cbn in Hp. done.
  - destruct (C30_random_polynomial rnd (Z.of_N t)) as (q & E & Hq & Hl); [lia|]. rewrite Hp in E. injection E as <-. done.
Qed.
Lemma honest_eval (rnd : nat → Z) t p i v : (t < 2 ^ 64)%N → random_polynomial rnd (degree_from_threshold (Z.of_N t)) = Some p →
  eval_for_keyper p i = Some v → valid_eval v = true ∧ verify_poly_eval i v (gammas P p) (Z.of_N t) = true.
Proof.
  intros Ht Hp Hv. destruct (random_poly_honest _ _ _ Ht Hp) as [Hn Hl]. apply (C30_honest P i v p); [done| |done|done].
  unfold uint64. lia.
Qed.

(** the states of an execution *)
Lemma execution_states (s0 : dkg P) (e : execution P) sf : run s0 (all_calls e) = Some sf →
  ∃ a b c d f g h oa ob oc, run s0 (until_start1 e) = Some a ∧ start_phase1 a (ex_rnd e) = Some (b, oa) ∧
    run b (ex_dealing e) = Some c ∧ run s0 (until_start2 e) = Some c ∧
    start_phase2 c = Some (d, ob) ∧ run d (ex_accusing e) = Some f ∧ run s0 (until_start3 e) = Some f ∧
    start_phase3 f = Some (g, oc) ∧ run g (ex_apologizing e) = Some h ∧ run s0 (until_finalize e) = Some h ∧
    finalize h = Some sf.
Proof.
  unfold all_calls. intros (h & Hh & Hfin)%run_app. cbn in Hfin. destruct (finalize h) as [sf'|] eqn:Ef; [|done]. injection Hfin as ->.
  pose proof Hh as Hh'. unfold until_finalize in Hh'. apply run_app in Hh' as (f & Hf & H3). cbn [run do_call] in H3.
  destruct (start_phase3 f) as [[g oc]|] eqn:E3; [|done].
  pose proof Hf as Hf'. unfold until_start3 in Hf'. apply run_app in Hf' as (c & Hc & H2). cbn [run do_call] in H2.
  destruct (start_phase2 c) as [[d ob]|] eqn:E2; [|done].
  pose proof Hc as Hc'. unfold until_start2 in Hc'. apply run_app in Hc' as (a & Ha & H1). cbn [run do_call] in H1.
  destruct (start_phase1 a (ex_rnd e)) as [[b oa]|] eqn:E1; [|done].
  exists a, b, c, d, f, g, h, oa, ob, oc. done.
Qed.

(** an honest keyper as seen by itself *)
Lemma honest_own eon n t k (e : execution P) sf : (t < 2 ^ 64)%N → (k < n)%N →
  run (new_dkg P eon n t k) (all_calls e) = Some sf → honest eon n t k e →
  is_corrupt sf (N.to_nat k) = false ∧
  ∃ p v, d_commitments sf !! N.to_nat k = Some (Some (gammas P p)) ∧ d_evals sf !! N.to_nat k = Some (Some v) ∧
    verify_poly_eval (int_of k) v (gammas P p) (Z.of_N t) = true.
Proof.
  intros Ht Hk Hrun [(m & Hm & Hmt) Hca Hacc Hap Hapa].
  destruct (execution_states _ _ _ Hrun) as (a & b & c & d & f & g & h & oa & ob & oc & Ra & S1 & Rc & Rc' & S2 & Rf & Rf' & S3 & Rh & Rh' & Fin).
  (* frames *)
  pose proof (run_frame _ _ _ Ra) as (A1 & A2 & A3 & A4 & _). cbn in A1, A2, A3, A4.
  pose proof (start_phase1_inv _ _ _ _ S1) as (Pa & (B1 & B2 & B3 & B4 & _) & Bk & _ & _ & Bm). cbn in B1, B2, B3, B4.
  pose proof (run_frame _ _ _ Rc) as (C1 & C2 & C3 & C4 & C5 & _ & _ & C8 & C9 & _).
  pose proof (start_phase2_inv _ _ _ S2) as (Pc & -> & _).
  pose proof (run_frame _ _ _ Rf) as (F1 & F2 & F3 & F4 & F5 & _ & _ & F8 & F9 & F10 & _). cbn in F1, F2, F3, F4, F5, F8, F9, F10.
  pose proof (start_phase3_inv _ _ _ S3) as (Pf & -> & Hoc).
  pose proof (run_frame _ _ _ Rh) as (H1 & H2 & H3 & H4 & H5 & _ & _ & H8 & H9 & H10 & _ & _ & H13 & H14).
  cbn in H1, H2, H3, H4, H5, H8, H9, H10, H13, H14.
  unfold finalize in Fin. apply set_phase_inv in Fin as [Ph ->].
  assert (Ph' : d_phase h = apologizing) by (unfold finalized, apologizing in *; lia).
  (* the message sent *)
  unfold sent_commitment in Hm. rewrite Ra, S1 in Hm. destruct oa as [[m' ems]|]; [|done]. injection Hm as ->.
  destruct (Bm m ems eq_refl) as (p & Hp & Hbp & -> & Hev). rewrite A3 in Hp.
  destruct Hev as (v & Hv & Hevv); [by rewrite A4, A2|]. rewrite A4 in Hv, Hevv.
  destruct (honest_eval _ _ _ _ _ Ht Hp Hv) as [_ Hver].
  (* commitment recorded *)
  assert (Hdeg : degree (gammas P p) = degree_from_threshold (Z.of_N t)).
  { unfold verify_poly_eval in Hver. destruct (degree (gammas P p) =? u64 (Z.of_N t - 1)) eqn:E; [by apply Z.eqb_eq|done]. }
  destruct (run_commitment_recorded _ _ _ _ Rc' Hmt) as [c0 Hc0]; cbn; [lia|done|done|]. cbn in Hc0. rewrite A4 in Hc0.
  assert (Hc0h : d_commitments h !! N.to_nat k = Some (Some c0)) by (apply H10, F10, Hc0).
  assert (c0 = gammas P p) as ->.
  { destruct (run_commitment_origin _ _ _ _ _ Rh' Hc0h) as [Hn|(m & Hmin & Hme & Hms & Hmg & _)].
    - cbn in Hn. apply lookup_replicate in Hn as [? _]. done.
    - cbn in Hme. assert (Hma := Hca m). unfold all_calls in Hma. specialize (Hma ltac:(apply elem_of_app; by left) Hme Hms).
      unfold sent_commitment in Hma. rewrite Ra, S1 in Hma. injection Hma as <-. done. }
  (* polynomial at start of phase 3 *)
  assert (Hpoly : d_poly f = Some p).
  { rewrite F8 by (unfold off, accusing; lia). rewrite C8 by (unfold off in *; rewrite <-B1; unfold dealing; lia). done. }
  assert (Ekf : d_keyper f = k) by congruence. assert (Eef : d_eon f = eon) by congruence. assert (Etf : d_threshold f = t) by congruence.
  assert (Eeh : d_eon h = eon) by congruence. assert (Eth : d_threshold h = t) by congruence.
  (* apologies *)
  assert (Hsent : sent_apologies eon n t k e = oc) by (unfold sent_apologies; by rewrite Rf', S3).
  apply mapM_Some in Hoc. cbn in Hoc.
  assert (Happ : ∀ m, m ∈ oc → pm_eon m = eon ∧ valid_eval (pm_eval m) = true ∧
     verify_poly_eval (int_of (pm_accuser m)) (pm_eval m) (gammas P p) (Z.of_N t) = true).
  { intros m [j Hj]%elem_of_list_lookup. destruct (Forall2_lookup_r _ _ _ _ _ Hoc Hj) as (key & _ & E).
    unfold apologize in E. cbn in E. rewrite Hpoly in E. destruct (eval_for_keyper p (int_of key.1)) as [w|] eqn:Ew; [|done].
    injection E as <-. cbn. split; [done|]. by eapply honest_eval. }
  split.
  - apply not_corrupt_iff. exists (gammas P p). cbn. rewrite Eth, N2Nat.id. split; [done|]. split.
    + intros acc w Hw. destruct (run_apology_origin _ _ _ _ _ Rh' Hw) as [Hn|(m & Hmin & Hme & Hmk & <-)]; [by cbn in Hn; rewrite lookup_empty in Hn|].
      injection Hmk as <- Hmk. cbn in Hme. apply Happ. rewrite <-Hsent. apply Hapa; [|done|done]. unfold all_calls. apply elem_of_app. by left.
    + intros acc Hacc'. rewrite H14 in Hacc' by (unfold accusing, apologizing; lia).
      assert (Hin : (acc, k) ∈ List.filter (λ key : N * N, key.2 =? d_keyper f)%N (elements (d_accusations f))).
      { apply elem_of_list_In, filter_In. split; [by apply elem_of_list_In, elem_of_elements|]. cbn. rewrite Ekf. apply N.eqb_refl. }
      apply elem_of_list_lookup in Hin as [j Hj]. destruct (Forall2_lookup_l _ _ _ _ _ Hoc Hj) as (m & Hmj & E).
      apply elem_of_list_lookup_2 in Hmj. unfold apologize in E. cbn in E. rewrite Hpoly in E.
      destruct (eval_for_keyper p (int_of acc)) as [w|]; [|done]. injection E as <-.
      destruct (Happ _ Hmj) as (He & Hva & _). rewrite <-Hsent in Hmj. apply Hap in Hmj.
      apply (run_apology_recorded _ _ _ _ Rh' Hmj); cbn; [lia|done|done].
  - exists p, v. cbn. split; [done|]. split; [|done]. apply H9, F9. apply C9. done.
Qed.

(** Everybody who sees the same broadcasts agrees that an honest keyper is not corrupt. *)
Theorem C32_honest_not_corrupt eon n t d (e : execution P) sd k cs (s : dkg P) : (t < 2 ^ 64)%N → (d < n)%N →
  run (new_dkg P eon n t d) (all_calls e) = Some sd → honest eon n t d e →
  run (new_dkg P eon n t k) cs = Some s → broadcasts cs = broadcasts (all_calls e) →
  is_corrupt s (N.to_nat d) = false.
Proof.
  intros Ht Hd Rd Hh R Hb. rewrite (is_corrupt_public s sd); [by apply (honest_own eon n t d e sd)|].
  exact (public_run _ _ _ _ _ _ (new_same_public eon n t k d) Hb R Rd).
Qed.

(** Messages are recorded once and only until the phase they belong to is over. *)
Theorem C32_recorded_once cs (s s' : dkg P) : run s cs = Some s' →
  (∀ d gs, d_commitments s !! d = Some (Some gs) → d_commitments s' !! d = Some (Some gs)) ∧
  (∀ d v, d_evals s !! d = Some (Some v) → d_evals s' !! d = Some (Some v)) ∧
  d_accusations s ⊆ d_accusations s' ∧
  (∀ key v, d_apologies s !! key = Some v → d_apologies s' !! key = Some v) ∧
  ((dealing < d_phase s)%nat → d_commitments s' = d_commitments s ∧ d_evals s' = d_evals s) ∧
  ((accusing < d_phase s)%nat → d_accusations s' = d_accusations s) ∧
  ((apologizing < d_phase s)%nat → d_apologies s' = d_apologies s).
Proof.
  intros R. pose proof (run_frame _ _ _ R) as (_&_&_&_&_&_&_&_&H9&H10&H11&H12&H13&H14). repeat (split; [done|]).
  clear H9 H10 H11 H12 H13 H14. revert s R. induction cs as [|c cs IH]; intros s; cbn [run]; [intros [= <-] _; done|].
  destruct (do_call s c) as [s1|] eqn:E; [|done]. intros R Hp. pose proof (do_call_frame _ _ _ E) as (_&_&_&_&Hp'&_).
  rewrite (IH s1 R) by lia. destruct c as [rnd| | | |m|m|m|m]; cbn [do_call] in E.
  - destruct (start_phase1 s rnd) as [[s2 om]|] eqn:E2; [|done]. injection E as <-.
    apply start_phase1_inv in E2 as (H0 & _). unfold off, apologizing in *. lia.
  - destruct (start_phase2 s) as [[s2 om]|] eqn:E2; [|done]. injection E as <-. apply start_phase2_inv in E2 as (_ & -> & _). done.
  - destruct (start_phase3 s) as [[s2 om]|] eqn:E2; [|done]. injection E as <-. apply start_phase3_inv in E2 as (_ & -> & _). done.
  - unfold finalize in E. apply set_phase_inv in E as [_ ->]. done.
  - destruct (handle_commitment s m) as [s2| |] eqn:E2; cbn [keep] in E; simplify_eq; [|done].
    apply handle_commitment_inv in E2 as (_ & _ & _ & _ & ->). done.
  - destruct (handle_eval s m) as [s2| |] eqn:E2; cbn [keep] in E; simplify_eq; [|done].
    apply handle_eval_inv in E2 as (_ & _ & _ & _ & _ & ->). done.
  - destruct (handle_accusation s m) as [s2| |] eqn:E2; cbn [keep] in E; simplify_eq; [|done].
    apply handle_accusation_inv in E2 as (_ & _ & ->). done.
  - destruct (handle_apology s m) as [s2| |] eqn:E2; cbn [keep] in E; simplify_eq; [|done].
    apply handle_apology_inv in E2 as (_ & ? & _). lia.
Qed.
(** Evaluations that are not residues and commitments of the wrong degree are never recorded. *)
Theorem C32_recorded_valid eon n t k cs (s : dkg P) : run (new_dkg P eon n t k) cs = Some s →
  (∀ d gs, d_commitments s !! d = Some (Some gs) → degree gs = degree_from_threshold (Z.of_N t)) ∧
  (∀ d v, d_evals s !! d = Some (Some v) → residue v).
Proof.
  intros R. split.
  - intros d gs Hd. replace d with (N.to_nat (N.of_nat d)) in Hd by lia.
    destruct (run_commitment_origin _ _ _ _ _ R Hd) as [Hn|(m & _ & _ & _ & _ & Hdeg)]; [|done].
    cbn in Hn. apply lookup_replicate in Hn as [? _]. done.
  - assert (G : ∀ s0, run s0 cs = Some s → (∀ d v, d_evals s0 !! d = Some (Some v) → residue v) → ∀ d v, d_evals s !! d = Some (Some v) → residue v).
    { clear R. induction cs as [|c cs IH]; intros s0; cbn [run]; [by intros [= ->]|].
      destruct (do_call s0 c) as [s1|] eqn:E; [|done]. intros R H0. apply (IH s1 R). clear IH R.
      assert (Hh : ∀ (s : dkg P) m s', (∀ d v, d_evals s !! d = Some (Some v) → residue v) → handle_eval s m = Done s' →
        ∀ d v, d_evals s' !! d = Some (Some v) → residue v).
      { clear. intros s m s' H0 (_ & _ & _ & Hn & Hv & ->)%handle_eval_inv d v. cbn.
        destruct (decide (d = N.to_nat (em_sender m))) as [->|Hne]; [|rewrite list_lookup_insert_ne by done; apply H0].
        rewrite list_lookup_insert by (by apply lookup_lt_Some in Hn). intros [= <-].
        unfold valid_eval in Hv. apply andb_true_iff in Hv as [H1 H2]. apply negb_true_iff in H1, H2.
        apply Z.ltb_ge in H1. apply Z.leb_gt in H2. done. }
      destruct c as [rnd| | | |m|m|m|m]; cbn [do_call] in E.
      - destruct (start_phase1 s0 rnd) as [[s2 om]|] eqn:E2; [|done]. injection E as <-. unfold start_phase1 in E2.
        destruct (set_phase s0 dealing) as [s3|] eqn:E3; [|done]. apply set_phase_inv in E3 as [_ ->].
        destruct (random_polynomial _ _) as [p|]; [|injection E2 as <- _; done].
        destruct (deal_evals _ _ _) as [[s4 ms]|] eqn:Ed; [|done]. injection E2 as <- _.
        revert Ed. set (s5 := set_poly _ p). assert (H5 : ∀ d v, d_evals s5 !! d = Some (Some v) → residue v) by done.
        revert H5. generalize s5, (seq 0 (N.to_nat (d_num s5))). clear -Hh. intros s5 l. revert ms s5. induction l as [|r l IH]; intros ms s5 H5; cbn [deal_evals]; [by intros [= <- <-]|].
        destruct (eval_for_keyper p _) as [v|]; [|done]. destruct (_ =? _)%N.
        + destruct (handle_eval s5 _) as [s6| |] eqn:E6; try done. apply IH. by eapply Hh.
        + destruct (deal_evals s5 p l) as [[s6 ms6]|] eqn:E6; [|done]. intros [= <- <-]. by eapply IH.
      - destruct (start_phase2 s0) as [[s2 om]|] eqn:E2; [|done]. injection E as <-. apply start_phase2_inv in E2 as (_ & -> & _). done.
      - destruct (start_phase3 s0) as [[s2 om]|] eqn:E2; [|done]. injection E as <-. apply start_phase3_inv in E2 as (_ & -> & _). done.
      - unfold finalize in E. apply set_phase_inv in E as [_ ->]. done.
      - destruct (handle_commitment s0 m) as [s2| |] eqn:E2; cbn [keep] in E; simplify_eq; [|done].
        apply handle_commitment_inv in E2 as (_ & _ & _ & _ & ->). done.
      - destruct (handle_eval s0 m) as [s2| |] eqn:E2; cbn [keep] in E; simplify_eq; [|done]. by eapply Hh.
      - destruct (handle_accusation s0 m) as [s2| |] eqn:E2; cbn [keep] in E; simplify_eq; [|done].
        apply handle_accusation_inv in E2 as (_ & _ & ->). done.
      - destruct (handle_apology s0 m) as [s2| |] eqn:E2; cbn [keep] in E; simplify_eq; [|done].
        apply handle_apology_inv in E2 as (_ & _ & _ & ->). done. }
    apply (G _ R). cbn. intros d v Hn. apply lookup_replicate in Hn as [? _]. done.
Qed.

(** If the computation of the result succeeds, then for every dealer that is not corrupt the evaluation
    used is the value at this keyper's point of the polynomial the dealer committed to. *)
Theorem C32_no_invalid_share eon n t k cs (s : dkg P) r d : run (new_dkg P eon n t k) cs = Some s →
  compute_result s = Some r → (d < N.to_nat n)%nat → is_corrupt s d = false →
  ∃ gs v p, d_commitments s !! d = Some (Some gs) ∧ poly_eval s d = Some v ∧ commits p gs ∧
    v mod order = poly_value p (int_of k + 1) mod order.
Proof.
  intros R C Hd Hnc. pose proof (run_frame _ _ _ R) as (_ & En & Et & Ek & _). cbn in En, Et, Ek.
  apply compute_result_inv in C as (_ & c & M & _ & _). rewrite En in M. apply mapM_Some in M.
  destruct (Forall2_lookup_l _ _ _ d d M) as ([[b gs] v] & _ & E); [by rewrite lookup_seq_lt by done|].
  unfold contribution in E. rewrite Hnc in E. cbn [negb] in E.
  destruct (d_commitments s !! d) as [[c0|]|] eqn:Ec; [|done..]. destruct (poly_eval s d) as [w|] eqn:Ew; [|done].
  destruct (verify_poly_eval _ _ _ _) eqn:Ev; [|done].
  destruct (gammas_surj P c0) as (p & Hp & _). exists c0, w, p. split; [done|]. split; [done|].
  apply commits_gammas in Hp. split; [done|]. rewrite Ek in Ev. exact (verify_congr _ _ _ _ _ Hp Ev).
Qed.

(** With at least [t] honest keypers every honest keyper finishes with a result, whatever the other
    keypers do and whatever happens to the private messages. *)
Theorem C32_honest_finish eon n t (hs : list N) (ex : N → execution P) (st : N → dkg P) : (t < 2 ^ 64)%N →
  NoDup hs → (t ≤ N.of_nat (length hs))%N →
  (∀ k, k ∈ hs → (k < n)%N ∧ run (new_dkg P eon n t k) (all_calls (ex k)) = Some (st k) ∧ honest eon n t k (ex k)) →
  (∀ j k, j ∈ hs → k ∈ hs → broadcasts (all_calls (ex j)) = broadcasts (all_calls (ex k))) →
  ∀ k, k ∈ hs → is_Some (compute_result (st k)).
Proof.
  intros Ht Hnd Hl Hall Hb k Hk. destruct (Hall k Hk) as (Hkn & Hrun & Hh).
  destruct (honest_own _ _ _ _ _ _ Ht Hkn Hrun Hh) as (_ & p & v & Hown1 & Hown2 & Hown3).
  pose proof (run_frame _ _ _ Hrun) as (Ee & En & Et & Ek & _). cbn in Ee, En, Et, Ek.
  destruct (execution_states _ _ _ Hrun) as (a & b & c & d & f & g & h & oa & ob & oc & Ra & S1 & Rc & Rc' & S2 & Rf & Rf' & S3 & Rh & Rh' & Fin).
  pose proof (run_frame _ _ _ Rc') as (Ec & Enc & Etc & Ekc & _). cbn in Ec, Enc, Etc, Ekc.
  pose proof (start_phase2_inv _ _ _ S2) as (Pc & -> & Hob).
  pose proof (run_frame _ _ _ Rf) as (_&_&_&_&F5&_&_&_&_&_&_&_&F13&_). cbn in F5, F13.
  pose proof (start_phase3_inv _ _ _ S3) as (Pf & -> & _).
  pose proof (run_frame _ _ _ Rh) as (_&_&_&_&H5&_&_&_&_&_&_&H12&H13&_). cbn in H5, H12, H13.
  unfold finalize in Fin. apply set_phase_inv in Fin as [Ph Hst].
  destruct F13 as [F13a F13b]; [unfold dealing, accusing; lia|]. destruct H13 as [H13a H13b]; [unfold dealing, apologizing; lia|].
  assert (Hcontr : ∀ dl, (dl < N.to_nat n)%nat → ∃ x, contribution (st k) dl = Some x ∧ x.1.1 = negb (is_corrupt (st k) dl)).
  { intros dl Hdl. unfold contribution. destruct (is_corrupt (st k) dl) eqn:Enc'; cbn [negb]; [eexists; split; [done|done]|].
    pose proof Enc' as Hnc. apply not_corrupt_iff in Hnc as (gs & Hgs & Hapv & Hacc). rewrite Hgs.
    assert (∃ w, poly_eval (st k) dl = Some w ∧ verify_poly_eval (int_of k) w gs (Z.of_N t) = true) as (w & Hw1 & Hw2).
    { unfold poly_eval. rewrite Ek. destruct (d_apologies (st k) !! (k, N.of_nat dl)) as [w|] eqn:Ew.
      - exists w. split; [done|]. rewrite <-Et. by apply Hapv.
      - destruct (decide (dl = N.to_nat k)) as [->|Hne].
        + rewrite Hown2. exists v. rewrite Hown1 in Hgs. injection Hgs as <-. done.
        + rewrite Hst in Hgs, Hacc |- *. cbn in Hgs, Hacc |- *. rewrite H13a, F13a in Hgs. rewrite H13b, F13b.
          destruct (accuse (set_phase_to c accusing) dl) eqn:Eacc.
          * exfalso. assert (Hin : mkAccusationMsg eon k (N.of_nat dl) ∈ sent_accusations eon n t k (ex k)).
            { unfold sent_accusations. rewrite Rc', S2, Hob. cbn. rewrite Ec, Ekc, Enc.
              apply elem_of_list_fmap. exists dl. split; [done|]. apply elem_of_list_In, filter_In. split; [apply in_seq; lia|done]. }
            apply (h_accusations _ _ _ _ _ Hh) in Hin.
            pose proof (run_accusation_recorded _ _ _ _ Rf' Hin ltac:(lia) eq_refl) as Hrec. cbn in Hrec.
            apply H12, Hacc in Hrec. rewrite Hst in Ew. cbn in Ew. destruct Hrec as [? Hrec]. congruence.
          * unfold accuse in Eacc. cbn in Eacc. rewrite Ekc in Eacc.
            destruct (N.eqb_spec (N.of_nat dl) k) as [E|_]; [exfalso; lia|]. cbn [negb andb] in Eacc.
            destruct (d_evals c !! dl) as [[w|]|]; [|done..]. rewrite Hgs in Eacc. exists w. split; [done|].
            rewrite Etc in Eacc. by apply negb_false_iff in Eacc. }
    rewrite Hw1, Ek, Et, Hw2. eexists. split; [done|done]. }
  unfold compute_result. destruct (Nat.ltb_spec (d_phase (st k)) finalized) as [Hlt|_]; [rewrite Hst in Hlt; cbn in Hlt; lia|].
  rewrite En. destruct (mapM (contribution (st k)) (seq 0 (N.to_nat n))) as [cs|] eqn:Em.
  2: { exfalso. apply eq_None_not_Some in Em. apply Em. apply mapM_is_Some, Forall_forall. intros dl Hdl%elem_of_list_In%in_seq.
       destruct (Hcontr dl) as (x & Hx & _); [lia|]. by eexists. }
  destruct (N.ltb_spec (N.of_nat (length (List.filter (λ c, c.1.1) cs))) (d_threshold (st k))) as [Hfew|_]; [|by eexists].
  exfalso. rewrite Et in Hfew. apply mapM_Some in Em.
  assert (Hcount : length (List.filter (λ c : bool * list (G2 P) * Z, c.1.1) cs) = length (List.filter (λ d, negb (is_corrupt (st k) d)) (seq 0 (N.to_nat n)))).
  { clear -Em. revert Em. generalize (seq 0 (N.to_nat n)) as l. intros l H. induction H as [|d [[b gs] v] l c E _ IH]; [done|].
    cbn. apply contribution_spec in E as [(-> & -> & _)|(-> & -> & _)]; cbn; lia. }
  assert (Hsub : (length (N.to_nat <$> hs) ≤ length (List.filter (λ d, negb (is_corrupt (st k) d)) (seq 0 (N.to_nat n))))%nat).
  { apply submseteq_length, NoDup_submseteq; [apply NoDup_fmap_2; [intros ? ? ?; lia|done]|].
    intros x (j & -> & Hj)%elem_of_list_fmap. destruct (Hall j Hj) as (Hjn & Hjr & Hjh).
    apply elem_of_list_In, filter_In. split; [apply in_seq; lia|].
    rewrite (C32_honest_not_corrupt eon n t j (ex j) (st j) k (all_calls (ex k)) (st k)); try done. by apply Hb. }
  rewrite fmap_length in Hsub. lia.
Qed.
End Props.

(** * Witness: three keypers, threshold 2.  Keyper 2 is silent, keyper 0's evaluation for keyper 1 is lost.
    Keypers 0 and 1 accuse 2, keyper 1 accuses 0, keyper 0 apologizes. *)
Definition wp0 : list Z := [5; 7]. Definition wp1 : list Z := [11; 13].
Definition wrnd (p : list Z) (i : nat) : Z := nth i p 0.
Definition wcm (k : N) (p : list Z) : commitment_msg fq_pairing := mkCommitmentMsg 9 k (gammas fq_pairing p).
Definition wacc (a b : N) : accusation_msg := mkAccusationMsg 9 a b.
Definition wap : apology_msg := mkApologyMsg 9 1 0 (5 + 7 * 2).
Definition wex (k : N) : execution fq_pairing :=
  if (k =? 0)%N then mkExecution [] (wrnd wp0)
    [CCommitment (wcm 0 wp0); CEval (mkEvalMsg 9 1 0 (11 + 13)); CCommitment (wcm 1 wp1)]
    [CAccusation (wacc 0 2); CAccusation (wacc 1 0); CAccusation (wacc 1 2)] [CApology wap]
  else mkExecution [] (wrnd wp1) [CCommitment (wcm 0 wp0); CCommitment (wcm 1 wp1)]
    [CAccusation (wacc 0 2); CAccusation (wacc 1 0); CAccusation (wacc 1 2)] [CApology wap].
Definition wst (k : N) : dkg fq_pairing := default (new_dkg fq_pairing 9 3 2 k) (run (new_dkg fq_pairing 9 3 2 k) (all_calls (wex k))).

Lemma wex_sent : (sent_commitment 9 3 2 0 (wex 0) = Some (wcm 0 wp0) ∧ sent_commitment 9 3 2 1 (wex 1) = Some (wcm 1 wp1)) ∧
  (sent_accusations 9 3 2 0 (wex 0) = [wacc 0 2] ∧ sent_accusations 9 3 2 1 (wex 1) = [wacc 1 0; wacc 1 2]) ∧
  sent_apologies 9 3 2 0 (wex 0) = [wap] ∧ sent_apologies 9 3 2 1 (wex 1) = [].
Proof. repeat split; vm_compute; reflexivity. Qed.
Lemma wex_run k : k ∈ [0%N; 1%N] → run (new_dkg fq_pairing 9 3 2 k) (all_calls (wex k)) = Some (wst k).
Proof.
  intros Hk. unfold wst.
  assert (Hs : match run (new_dkg fq_pairing 9 3 2 k) (all_calls (wex k)) with Some _ => true | None => false end = true).
  { apply elem_of_list_In in Hk. cbn in Hk. destruct Hk as [<-|[<-|[]]]; vm_compute; reflexivity. }
  by destruct (run _ _).
Qed.
Ltac in_cases H := repeat (apply elem_of_cons in H as [H|H]); [..|by apply elem_of_nil in H].
Ltac find_in := first [left | right; find_in].
Lemma wex_honest k : k ∈ [0%N; 1%N] → honest 9 3 2 k (wex k).
Proof.
  destruct wex_sent as ((C0 & C1) & (A0 & A1) & P0 & P1).
  intros [->|Hk]%elem_of_cons; [|apply elem_of_list_singleton in Hk; subst k].
  - constructor; rewrite ?C0, ?A0, ?P0.
    + eexists; split; [done|]. cbn. find_in.
    + intros m H _ Hs. unfold all_calls, until_finalize, until_start3, until_start2, until_start1 in H. cbn [wex N.eqb ex_off ex_dealing ex_accusing ex_apologizing app] in H.
      in_cases H; try discriminate H; injection H as ->; [done|]. cbn in Hs. discriminate Hs.
    + intros m ->%elem_of_list_singleton. cbn. find_in.
    + intros m ->%elem_of_list_singleton. cbn. find_in.
    + intros m H _ Hs. unfold all_calls, until_finalize, until_start3, until_start2, until_start1 in H. cbn [wex N.eqb ex_off ex_dealing ex_accusing ex_apologizing app] in H.
      in_cases H; try discriminate H; injection H as ->; by left.
  - constructor; rewrite ?C1, ?A1, ?P1.
    + eexists; split; [done|]. cbn. find_in.
    + intros m H _ Hs. unfold all_calls, until_finalize, until_start3, until_start2, until_start1 in H. cbn [wex N.eqb ex_off ex_dealing ex_accusing ex_apologizing app] in H.
      in_cases H; try discriminate H; injection H as ->; [|done]. cbn in Hs. discriminate Hs.
    + intros m H. in_cases H; subst m; cbn; find_in.
    + intros m H. by apply elem_of_nil in H.
    + intros m H _ Hs. unfold all_calls, until_finalize, until_start3, until_start2, until_start1 in H. cbn [wex N.eqb ex_off ex_dealing ex_accusing ex_apologizing app] in H.
      in_cases H; try discriminate H; injection H as ->; cbn in Hs; discriminate Hs.
Qed.
Example C32_witness : ∀ k, k ∈ [0%N; 1%N] →
  is_corrupt (wst k) 0 = false ∧ is_corrupt (wst k) 1 = false ∧ is_corrupt (wst k) 2 = true ∧ is_Some (compute_result (wst k)).
Proof.
  assert (Hall : ∀ k, k ∈ [0%N; 1%N] → (k < 3)%N ∧ run (new_dkg fq_pairing 9 3 2 k) (all_calls (wex k)) = Some (wst k) ∧ honest 9 3 2 k (wex k)).
  { intros k Hk. split; [|split; [by apply wex_run|by apply wex_honest]]. in_cases Hk; subst; lia. }
  assert (Hb : ∀ j k, j ∈ [0%N; 1%N] → k ∈ [0%N; 1%N] → broadcasts (all_calls (wex j)) = broadcasts (all_calls (wex k))).
  { intros j k Hj Hk. in_cases Hj; in_cases Hk; subst; reflexivity. }
  intros k Hk. assert (H0 : 0%N ∈ [0%N; 1%N]) by left. assert (H1 : 1%N ∈ [0%N; 1%N]) by (right; left).
  split; [|split; [|split]].
  - destruct (Hall 0%N H0) as (? & ? & ?). destruct (Hall k Hk) as (? & ? & ?).
    apply (C32_honest_not_corrupt 9 3 2 0 (wex 0) (wst 0) k (all_calls (wex k))); try done. by apply Hb.
  - destruct (Hall 1%N H1) as (? & ? & ?). destruct (Hall k Hk) as (? & ? & ?).
    apply (C32_honest_not_corrupt 9 3 2 1 (wex 1) (wst 1) k (all_calls (wex k))); try done. by apply Hb.
  - in_cases Hk; subst; vm_compute; reflexivity.
  - apply (C32_honest_finish 9 3 2 [0%N; 1%N] wex wst); try done. repeat constructor; rewrite ?elem_of_cons, ?elem_of_nil; lia.
Qed.
Example C31_witness : ∃ r0 r1, compute_result (wst 0) = Some r0 ∧ compute_result (wst 1) = Some r1 ∧
  r_sk r0 = 5 + 7 * 1 + (11 + 13 * 1) ∧ r_sk r1 = 5 + 7 * 2 + (11 + 13 * 2) ∧ r_pk r0 = r_pk r1.
Proof.
  destruct (C32_witness 0) as (_ & _ & _ & [r0 E0]); [left|]. destruct (C32_witness 1) as (_ & _ & _ & [r1 E1]); [right; left|].
  exists r0, r1. split; [done|]. split; [done|]. split; [|split].
  - transitivity (default 0 (r_sk <$> compute_result (wst 0))); [by rewrite E0|vm_compute; reflexivity].
  - transitivity (default 0 (r_sk <$> compute_result (wst 1))); [by rewrite E1|vm_compute; reflexivity].
  - exact (proj1 (C31_agreement 9 3 2 0 1 (all_calls (wex 0)) (all_calls (wex 1)) (wst 0) (wst 1) r0 r1
      (wex_run 0 (elem_of_list_here _ _)) (wex_run 1 (elem_of_list_further _ _ _ (elem_of_list_here _ _))) eq_refl E0 E1)).
Qed.

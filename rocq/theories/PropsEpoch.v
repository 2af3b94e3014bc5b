(** C26: epoch key generation. *)
From stdpp Require Import list gmap sets.
From Coq Require Import ZArith NArith Lia.
From Verif Require Import Pocklington Fq Poly CryptoModel CryptoSpec CryptoProofs PropsCrypto DkgModel DkgSpec DkgProofs PropsDkg EpochModel.

Section Epoch.
Context {P : pairing} (epoch_point : N → G1 P).
Notation share := (epoch_share P).

(** the message is a share for [epoch] that passes the check against its sender's public key share *)
Definition valid_share (pkshares : list (G2 P)) (epoch : N) (m : share) : bool :=
  (es_epoch m =? epoch)%N &&
  match pkshares !! N.to_nat (es_sender m) with
  | Some pk => verify_epoch_secret_key_share (es_share m) pk (epoch_point epoch)
  | None => false
  end.
(** the keypers that sent a valid share for [epoch] *)
Definition valid_senders (pkshares : list (G2 P)) (epoch : N) (ms : list share) : gset N :=
  list_to_set (es_sender <$> List.filter (valid_share pkshares epoch) ms).

Lemma valid_senders_app pks e ms ms' : valid_senders pks e (ms ++ ms') = valid_senders pks e ms ∪ valid_senders pks e ms'.
Proof. unfold valid_senders. by rewrite List.filter_app, fmap_app, list_to_set_app_L. Qed.
Lemma valid_senders_1 pks e m : valid_senders pks e [m] = if valid_share pks e m then {[ es_sender m ]} else ∅.
Proof. unfold valid_senders. cbn. destruct (valid_share pks e m); cbn; set_solver. Qed.

Lemma handle_shares_app s ms m : handle_shares epoch_point s (ms ++ [m]) =
  match handle_shares epoch_point s ms with
  | Some s' => match handle_share epoch_point s' m with Some (s'', _) => Some s'' | None => None end
  | None => None
  end.
Proof.
  revert s. induction ms as [|m' ms IH]; intros s; cbn; [by destruct (handle_share _ s m) as [[? ?]|]|].
  destruct (handle_share epoch_point s m') as [[s1 b]|]; [apply IH|done].
Qed.

Section Invariant.
Context (s0 : epochkg P) (n t : N) (ps : list (list Z)).
Hypothesis Ht : (0 < t < 2 ^ 63)%N.
Hypothesis Hn : (n < 2 ^ 63)%N.
Hypothesis Hps : ∀ p, p ∈ ps → Z.of_nat (length p) = Z.of_N t.
Hypothesis Hthr : ek_threshold s0 = t.
Hypothesis Hpks : ek_pkshares s0 = (λ i, gsmul (sum_poly ps (Z.of_nat i + 1)) ggen) <$> seq 0 (N.to_nat n).
Hypothesis Hfresh : ek_shares s0 = ∅ ∧ ek_keys s0 = ∅.

Definition inv (s : epochkg P) (ms : list share) : Prop :=
  ek_threshold s = t ∧ ek_pkshares s = ek_pkshares s0 ∧
  ∀ e, match ek_keys s !! e with
       | Some key => key = Some (gsmul (sum_poly ps 0) (epoch_point e)) ∧ (N.to_nat t ≤ size (valid_senders (ek_pkshares s0) e ms))%nat
       | None => let l := default [] (ek_shares s !! e) in
           (length l < N.to_nat t)%nat ∧ NoDup (es_sender <$> l) ∧
           list_to_set (es_sender <$> l) = valid_senders (ek_pkshares s0) e ms ∧
           ∀ m, m ∈ l → valid_share (ek_pkshares s0) e m = true
       end.

Lemma valid_share_value e m : valid_share (ek_pkshares s0) e m = true →
  (es_sender m < n)%N ∧ es_share m = gsmul (sum_poly ps (Z.of_N (es_sender m) + 1)) (epoch_point e).
Proof.
  unfold valid_share. rewrite Hpks, list_lookup_fmap. intros [_ H]%andb_true_iff.
  destruct (seq 0 (N.to_nat n) !! N.to_nat (es_sender m)) as [i|] eqn:E; [|done]. cbn in H. apply lookup_seq in E as [-> Hlt].
  split; [lia|]. apply verify_share_iff in H. rewrite H. do 2 f_equal. lia.
Qed.

Lemma size_list_to_set (l : list N) : NoDup l → size (list_to_set l : gset N) = length l.
Proof. intros H. rewrite size_list_to_set by done. done. Qed.

Lemma inv_step s ms m s' b : inv s ms → handle_share epoch_point s m = Some (s', b) → inv s' (ms ++ [m]).
Proof.
  intros (I1 & I2 & I3). unfold handle_share. destruct (ek_keys s !! es_epoch m) as [key|] eqn:Ek.
  { intros [= <- <-]. split; [done|]. split; [done|]. intros e. specialize (I3 e). rewrite valid_senders_app, valid_senders_1.
    destruct (ek_keys s !! e) as [k|] eqn:Ee.
    - destruct I3 as [? Hs]. split; [done|]. etransitivity; [exact Hs|]. apply subseteq_size. set_solver.
    - assert (valid_share (ek_pkshares s0) e m = false) as ->.
      { unfold valid_share. destruct (N.eqb_spec (es_epoch m) e); [|done]. congruence. }
      by rewrite (right_id_L ∅ (∪)). }
  destruct (ek_pkshares s !! N.to_nat (es_sender m)) as [pks|] eqn:Ep; [|done]. rewrite I2 in Ep.
  destruct (verify_epoch_secret_key_share (es_share m) pks (epoch_point (es_epoch m))) eqn:Ev; cbn [negb].
  2: { intros [= <- <-]. split; [done|]. split; [done|]. intros e. specialize (I3 e). rewrite valid_senders_app, valid_senders_1.
    assert (valid_share (ek_pkshares s0) e m = false) as ->.
    { unfold valid_share. destruct (N.eqb_spec (es_epoch m) e) as [<-|]; [|done]. by rewrite Ep. }
    by rewrite (right_id_L ∅ (∪)). }
  assert (Hv : valid_share (ek_pkshares s0) (es_epoch m) m = true).
  { unfold valid_share. by rewrite N.eqb_refl, Ep. }
  assert (Hv' : ∀ e, e ≠ es_epoch m → valid_share (ek_pkshares s0) e m = false).
  { intros e He. unfold valid_share. destruct (N.eqb_spec (es_epoch m) e); [congruence|done]. }
  pose proof (I3 (es_epoch m)) as Ie. rewrite Ek in Ie. cbn zeta in Ie. destruct Ie as (L1 & L2 & L3 & L4).
  intros [= Hadd]. unfold add_share in Hadd.
  destruct (existsb (λ m', es_sender m' =? es_sender m)%N (default [] (ek_shares s !! es_epoch m))) eqn:Edup.
  { injection Hadd as <- <-. split; [done|]. split; [done|]. intros e. specialize (I3 e). rewrite valid_senders_app, valid_senders_1.
    destruct (decide (e = es_epoch m)) as [->|He].
    - rewrite Ek. rewrite Hv. apply existsb_exists in Edup as (m' & Hm' & Es). apply N.eqb_eq in Es.
      assert (es_sender m ∈ valid_senders (ek_pkshares s0) (es_epoch m) ms).
      { rewrite <-L3, <-Es. apply elem_of_list_to_set, elem_of_list_fmap. exists m'. split; [done|by apply elem_of_list_In]. }
      cbn zeta. repeat split; try done. rewrite L3. set_solver.
    - rewrite (Hv' e He), (right_id_L ∅ (∪)). exact I3. }
  assert (Hnew : es_sender m ∉ es_sender <$> default [] (ek_shares s !! es_epoch m)).
  { intros (m' & Es & Hm')%elem_of_list_fmap. rewrite <-not_true_iff_false, existsb_exists in Edup. apply Edup.
    exists m'. split; [by apply elem_of_list_In|]. by apply N.eqb_eq. }
  set (l := default [] (ek_shares s !! es_epoch m)) in *.
  assert (Lnd : NoDup (es_sender <$> l ++ [m])).
  { rewrite fmap_app. apply NoDup_app. split; [done|]. split; [|apply NoDup_singleton].
    intros x Hx Hx'. apply elem_of_list_singleton in Hx'. by subst x. }
  assert (Lset : list_to_set (es_sender <$> l ++ [m]) = valid_senders (ek_pkshares s0) (es_epoch m) (ms ++ [m])).
  { rewrite valid_senders_app, valid_senders_1, Hv, fmap_app, list_to_set_app_L, L3. cbn. set_solver. }
  assert (Lval : ∀ m', m' ∈ l ++ [m] → valid_share (ek_pkshares s0) (es_epoch m) m' = true).
  { intros m' [H|H]%elem_of_app; [by apply L4|]. apply elem_of_list_singleton in H. by subst. }
  assert (It : int_of (ek_threshold s) = Z.of_N t) by (rewrite I1; apply int_of_small; lia).
  rewrite It in Hadd. destruct (Z.eqb_spec (Z.of_nat (length (l ++ [m]))) (Z.of_N t)) as [El|El]; cbn [negb] in Hadd; injection Hadd as <- <-.
  - split; [done|]. split; [done|]. intros e. cbn. destruct (decide (e = es_epoch m)) as [->|He].
    + rewrite lookup_insert. split.
      * unfold compute_key. rewrite I1. cbn.
        pose proof (C33_reconstruct P ps (Z.of_N t) (λ z, sum_poly ps (z + 1)) ((λ m, int_of (es_sender m)) <$> l ++ [m]) (epoch_point (es_epoch m))) as HR.
        assert (Hint : ∀ m', m' ∈ l ++ [m] → int_of (es_sender m') = Z.of_N (es_sender m')).
        { intros m' Hm'. apply int_of_small. destruct (valid_share_value _ _ (Lval m' Hm')). lia. }
        rewrite <-HR.
        -- f_equal. rewrite <-list_fmap_compose. apply list_fmap_ext. intros _ m' Hm'%elem_of_list_lookup_2. cbn.
           rewrite (Hint m' Hm'). by apply (valid_share_value (es_epoch m)), Lval.
        -- intros p Hp. rewrite (Hps p Hp). lia.
        -- lia.
        -- assert (E : ((λ m, int_of (es_sender m)) <$> l ++ [m]) = Z.of_N <$> (es_sender <$> l ++ [m])).
           { rewrite <-list_fmap_compose. apply list_fmap_ext. intros _ m' Hm'%elem_of_list_lookup_2. by apply Hint. }
           rewrite E. apply NoDup_fmap_2; [intros a b E'; lia|done].
        -- rewrite fmap_length. lia.
        -- intros k (m' & -> & Hm')%elem_of_list_fmap. rewrite (Hint m' Hm'). destruct (valid_share_value _ _ (Lval m' Hm')). unfold keyper_index. lia.
        -- done.
      * rewrite <-Lset, size_list_to_set by done. rewrite fmap_length. lia.
    + rewrite lookup_insert_ne by done. specialize (I3 e). rewrite valid_senders_app, valid_senders_1, (Hv' e He), (right_id_L ∅ (∪)).
      rewrite lookup_delete_ne by done. exact I3.
  - split; [done|]. split; [done|]. intros e. cbn. destruct (decide (e = es_epoch m)) as [->|He].
    + rewrite Ek, lookup_insert. cbn. repeat split; try done. rewrite app_length in *. cbn in *. lia.
    + specialize (I3 e). rewrite valid_senders_app, valid_senders_1, (Hv' e He), (right_id_L ∅ (∪)).
      rewrite lookup_insert_ne by done. exact I3.
Qed.
Lemma inv_run ms s : handle_shares epoch_point s0 ms = Some s → inv s ms.
Proof.
  revert s. induction ms as [|m ms IH] using rev_ind; intros s.
  - intros [= <-]. split; [done|]. split; [done|]. intros e. destruct Hfresh as [-> ->]. rewrite !lookup_empty. cbn.
    repeat split; [lia|constructor|]. intros m H. by apply elem_of_nil in H.
  - rewrite handle_shares_app. destruct (handle_shares epoch_point s0 ms) as [s1|]; [|done].
    destruct (handle_share epoch_point s1 m) as [[s2 b]|] eqn:E; [|done]. intros [= <-]. eapply inv_step; [by apply IH|done].
Qed.
End Invariant.

(** After any sequence of share messages the epoch secret key is known exactly if at least [t] keypers
    sent a share that verifies, and it is the key that belongs to the eon public key. *)
Theorem C26_epoch_key eon n t k cs (d : dkg P) r ms s epoch key :
  (0 < t < 2 ^ 63)%N → (n < 2 ^ 63)%N → (k < n)%N → go_sized cs →
  run (new_dkg P eon n t k) cs = Some d → compute_result d = Some r →
  handle_shares epoch_point (new_epochkg r) ms = Some s →
  (ek_keys s !! epoch = Some key ↔
    (N.to_nat t ≤ size (valid_senders (r_pkshares r) epoch ms))%nat ∧
    ∃ K, key = Some K ∧ pair ggen K = pair (r_pk r) (epoch_point epoch)).
Proof.
  intros Ht Hn Hk Hg Hrun Hres Hms.
  destruct (C31_keys eon n t k cs d r) as (ps & Lps & Hlen & _ & Hpk & Hpks & _); [lia|done..|].
  pose proof (run_frame _ _ _ Hrun) as (_ & _ & Et & _). cbn in Et.
  assert (Hthr : ek_threshold (new_epochkg r) = t). { apply compute_result_inv in Hres as (_ & c & _ & _ & ->). cbn. done. }
  pose proof (inv_run (new_epochkg r) n t ps Ht Hn Hlen Hthr Hpks ltac:(done) ms s Hms) as (_ & _ & I). specialize (I epoch).
  change (ek_pkshares (new_epochkg r)) with (r_pkshares r) in I.
  assert (Hpair : pair ggen (gsmul (sum_poly ps 0) (epoch_point epoch)) = pair (r_pk r) (epoch_point epoch)).
  { by rewrite Hpk, pair_smul_l, pair_smul_r. }
  destruct (ek_keys s !! epoch) as [key'|].
  - destruct I as [-> Hs]. split.
    + intros [= <-]. split; [done|]. eexists. split; [done|done].
    + intros (_ & K & -> & HK). do 2 f_equal. apply pair_gen_inj. congruence.
  - cbn zeta in I. destruct I as (L1 & L2 & L3 & _). split; [done|]. intros [Hs _].
    rewrite <-L3, size_list_to_set, fmap_length in Hs by done. lia.
Qed.
(** The key never changes, ... *)
Theorem C26_key_stays (s s' : epochkg P) ms epoch key : handle_shares epoch_point s ms = Some s' →
  ek_keys s !! epoch = Some key → ek_keys s' !! epoch = Some key.
Proof.
  revert s. induction ms as [|m ms IH]; intros s; cbn; [by intros [= <-]|].
  destruct (handle_share epoch_point s m) as [[s1 b]|] eqn:E; [|done]. intros H Hk. apply (IH s1 H). clear IH H.
  unfold handle_share in E. destruct (ek_keys s !! es_epoch m) as [k'|] eqn:Ek; [injection E as <- <-; done|].
  destruct (ek_pkshares s !! _) as [pks|]; [|done]. destruct (negb _); [injection E as <- <-; done|].
  injection E as E. unfold add_share in E. destruct (existsb _ _); [injection E as <- <-; done|].
  destruct (negb _); injection E as <- <-; cbn; [done|]. rewrite lookup_insert_ne; [done|]. congruence.
Qed.
(** ... a valid share is what the honest sender computes from its secret key share, ... *)
Theorem C26_honest_share eon n t ks (calls_of : N → list (call P)) (st : N → dkg P) (res : N → result P) j k epoch :
  (0 < t < 2 ^ 64)%N → (n < 2 ^ 63)%N → NoDup ks → N.of_nat (length ks) = t →
  (∀ k, k ∈ ks → (k < n)%N ∧ go_sized (calls_of k) ∧ run (new_dkg P eon n t k) (calls_of k) = Some (st k) ∧ compute_result (st k) = Some (res k)) →
  (∀ j k, j ∈ ks → k ∈ ks → broadcasts (calls_of j) = broadcasts (calls_of k)) →
  j ∈ ks → k ∈ ks →
  valid_share (r_pkshares (res j)) epoch (mkEpochShare eon epoch k (my_epoch_share epoch_point (new_epochkg (res k)) epoch)) = true.
Proof.
  intros Ht Hn Hnd Hl Hall Hb Hj Hk.
  destruct (C31_usable eon n t ks calls_of st res (epoch_point epoch) Ht Hn Hnd Hl Hall Hb) as (_ & _ & _ & H).
  destruct (H j k Hj Hk) as (pks & Hp & Hv). unfold valid_share. cbn. rewrite N.eqb_refl, Hp. exact Hv.
Qed.
(** ... and handling shares of keypers does not panic. *)
Theorem C26_no_panic (s : epochkg P) ms : (∀ m, m ∈ ms → (N.to_nat (es_sender m) < length (ek_pkshares s))%nat) →
  is_Some (handle_shares epoch_point s ms).
Proof.
  revert s. induction ms as [|m ms IH]; intros s H; cbn; [by eexists|].
  assert (∃ s' b, handle_share epoch_point s m = Some (s', b) ∧ ek_pkshares s' = ek_pkshares s) as (s' & b & -> & E).
  { unfold handle_share. destruct (ek_keys s !! es_epoch m); [by eexists _, _|].
    destruct (lookup_lt_is_Some_2 (ek_pkshares s) (N.to_nat (es_sender m))) as [pks ->]; [apply H; by left|].
    destruct (negb _); [by eexists _, _|]. unfold add_share. destruct (existsb _ _); [by eexists _, _|].
    destruct (negb _); by eexists _, _. }
  apply IH. intros m' Hm'. rewrite E. apply H. by right.
Qed.
End Epoch.

(** Witness: the key generation of PropsDkg.v; keyper 0 receives an invalid share, its own share, a duplicate
    and keyper 1's share. *)
Definition w26_point (e : N) : G1 fq_pairing := toF (Z.of_N e + 100).
Definition w26_res (k : N) : result fq_pairing := default (mkResult fq_pairing 0 0 0 0 0 f0 []) (compute_result (wst k)).
Definition w26_share (k e : N) : epoch_share fq_pairing := mkEpochShare 9 e k (my_epoch_share w26_point (new_epochkg (w26_res k)) e).
Example C26_witness :
  match handle_shares w26_point (new_epochkg (w26_res 0))
          [mkEpochShare (P := fq_pairing) 9 4 1 (toF 77); w26_share 0 4; w26_share 0 4; w26_share 1 5; w26_share 1 4] with
  | Some s => match ek_keys s !! 4%N with Some (Some K) => bool_decide (K = (toF (16 * 104) : G1 fq_pairing)) | _ => false end &&
              bool_decide (ek_keys s !! 5%N = None)
  | None => false
  end = true.
Proof. vm_compute. reflexivity. Qed.

(** C27, C28: the hashes keypers sign, and the signature lists they submit. *)
From stdpp Require Import list gmap sorting.
From Coq Require Import ZArith NArith Lia.
From Verif Require Import ArithModel PropsArith ContractsModel ContractsProofs PropsConfig PropsBatcher PropsSlasher MainModel MainProofs PropsMain DecideModel DecideProofs.
Local Open Scope Z_scope.

Lemma be64_inj v w : 0 ≤ v < 2 ^ 64 → 0 ≤ w < 2 ^ 64 → be64 v = be64 w → v = w.
Proof.
  assert (∀ v, 0 ≤ v < 2 ^ 64 → be (be64 v) = v) as Hb; [|intros Hv Hw E; rewrite <-(Hb v Hv), <-(Hb w Hw); by rewrite E].
  clear. intros v Hv. unfold be, be64. cbn [seq fmap list_fmap foldl Nat.sub Z.of_nat Pos.of_succ_nat Pos.succ].
  assert (∀ x, Z.of_N (Z.to_N (x mod 256)) = x mod 256) as Hx. { intros x. apply Z2N.id. apply Z.mod_pos_bound. lia. }
  rewrite !Hx.
  assert (∀ n, 0 ≤ n → v / 256 ^ n = 256 * (v / 256 ^ (n + 1)) + v / 256 ^ n mod 256) as Hd.
  { intros n Hn. rewrite Z.pow_add_r by lia. rewrite Z.pow_1_r. rewrite <-Z.div_div by lia. apply Z.div_mod. lia. }
  pose proof (Hd 0 ltac:(lia)) as H0. pose proof (Hd 1 ltac:(lia)) as H1. pose proof (Hd 2 ltac:(lia)) as H2. pose proof (Hd 3 ltac:(lia)) as H3.
  pose proof (Hd 4 ltac:(lia)) as H4. pose proof (Hd 5 ltac:(lia)) as H5. pose proof (Hd 6 ltac:(lia)) as H6. pose proof (Hd 7 ltac:(lia)) as H7.
  assert (v / 256 ^ (7 + 1) = 0) as H8 by (apply Z.div_small; lia).
  assert (v / 256 ^ 0 = v) as H9 by (rewrite Z.pow_0_r; apply Z.div_1_r).
  cbn [Z.add Pos.add Pos.succ] in *. lia.
Qed.
Lemma be64_length v : length (be64 v) = 8%nat.
Proof. done. Qed.

Lemma be_nonneg l : 0 ≤ be l.
Proof. unfold be. assert (∀ a, 0 ≤ a → 0 ≤ foldl (λ a x, a * 256 + Z.of_N x) a l) as H; [|by apply H]. induction l as [|x l IH]; intros a Ha; [done|]. cbn [foldl]. apply IH. lia. Qed.

Section Props.
Context (keccak : list N → list N) (ecrecover : list N → Z → Z → Z → option N) (addr_bytes : N → list N) (batcher_address : N).
Context (me : N) (sign : list N → list N) (staggering : Z).
(** Go's iteration order of maps: any *)
Context (order : ∀ A, list A → list A) (Horder : ∀ A (l : list A), order A l ≡ₚ l).
Notation transactions_hash := (transactions_hash keccak).
Notation signature_hash := (signature_hash keccak addr_bytes batcher_address).
Notation go_recover := (go_recover ecrecover).
Notation decisions := (decisions keccak ecrecover addr_bytes batcher_address me sign staggering order).
Notation decision_step := (decision_step keccak ecrecover addr_bytes batcher_address me sign staggering order).

(** ** C28 *)
(** the hash over the decrypted transactions is the one the executor contract stores in the receipt (and the batcher accumulates) *)
Theorem C28_batch_hash txs : transactions_hash txs = chain_hash keccak txs.
Proof. apply transactions_hash_eq. Qed.
(** the hash that is signed is the one the slasher computes from the receipt *)
Theorem C28_signed_hash r : signature_hash (r_half_step r / 2) (r_cipher_hash r) (r_batch_hash r) = keccak (preimage addr_bytes batcher_address r).
Proof. apply signature_hash_eq. Qed.
(** a signature speaks for one batch, one list of encrypted and one list of decrypted transactions *)
Theorem C28_binding b b' ch ch' txs txs' : (∀ x, length (keccak x) = 32%nat) → 0 ≤ b < 2 ^ 64 → 0 ≤ b' < 2 ^ 64 → length ch = 32%nat → length ch' = 32%nat →
  signature_hash b ch (transactions_hash txs) = signature_hash b' ch' (transactions_hash txs') →
  b = b' ∧ ch = ch' ∧ txs = txs' ∨ collision keccak.
Proof.
  intros Hlen Hb Hb' Hc Hc' E.
  destruct (decide (hash_prefix ++ addr_bytes batcher_address ++ be64 b ++ ch ++ transactions_hash txs = hash_prefix ++ addr_bytes batcher_address ++ be64 b' ++ ch' ++ transactions_hash txs')) as [Ep|Hn].
  - apply app_inj_1 in Ep as [_ Ep]; [|done]. apply app_inj_1 in Ep as [_ Ep]; [|done]. apply app_inj_1 in Ep as [E1 Ep]; [|done]. apply app_inj_1 in Ep as [E2 E3]; [|lia].
    rewrite !transactions_hash_eq in E3. destruct (C48_chain_injective keccak Hlen _ _ E3) as [->|]; [left|by right]. split_and!; try done. by apply be64_inj.
  - right. left. eexists _, _. split; [exact Hn|]. unfold DecideModel.signature_hash, h_sum in E. cbn [written h_write] in E. rewrite !put_uint64_be64, app_nil_l, <-!app_assoc in E. exact E.
Qed.

(** ** C27 *)
(** what a keyper submits with an appeal, in any history of decisions: the authorization names strictly increasing keyper indices of the
    batch's config, as many as the config's threshold at least, each with a signature of that keyper, published on shuttermint, over the batch
    this keyper decrypted, whose hash is the executed one *)
Definition well_formed_appeal (seen : list input) (v : view) (u : authorization) (c : config) (ch : list N) : Prop :=
  config_for_batch (v_configs v) (u_half_step u / 2) = Some (Some c) ∧
  length (u_signatures u) = length (u_indices u) ∧ threshold c ≤ Z.of_nat (length (u_signatures u)) ∧
  (∀ i j x y, (i < j)%nat → u_indices u !! i = Some x → u_indices u !! j = Some y → x < y) ∧
  (∀ n i sig', u_indices u !! n = Some i → u_signatures u !! n = Some sig' →
     ∃ a sig, 0 ≤ i ∧ keypers c !! Z.to_nat i = Some a ∧ to_contract_format sig = Some sig' ∧ go_recover (signature_hash (u_half_step u / 2) ch (u_batch_hash u)) sig = Some a ∧
       ∃ input l, input ∈ seen ∧ i_sigs input !! (u_half_step u / 2) = Some l ∧ (a, sig) ∈ l) ∧
  (∃ r, v_receipts v !! u_half_step u = Some r ∧ r_batch_hash r = u_batch_hash u) ∧
  ∃ input dec, input ∈ seen ∧ (u_half_step u / 2, dec) ∈ i_keys input ∧ let x := mb (v_batches (i_view input)) (u_half_step u / 2) in
    ch = enc_hash x ∧ u_batch_hash u = transactions_hash (dec (enc_txs x)).
Lemma appeal_one_ok l s v n m act : batches_ok keccak ecrecover addr_bytes batcher_address l s → appeal_one order v s n m = Some (Some act) → ma_appealed m = false ∧
  ∃ u c ch, act = AAppeal u ∧ u_half_step u = n ∧ well_formed_appeal l v u c ch.
Proof.
  intros Hok. unfold appeal_one. destruct (ma_appealed m); [done|]. destruct (bool_decide _); [done|]. destruct (v_receipts v !! n) as [r|] eqn:Er; [|done].
  destruct (xbatches s !! (n / 2)) as [x|] eqn:Ex; [|done]. destruct (bool_decide (r_batch_hash r = b_hash x)) eqn:Eh; [|done]. apply bool_decide_eq_true in Eh. cbn [negb].
  intros H. split; [done|]. destruct (sorted_signatures order v x) as [[[sigs idx]|]|] eqn:Es; [|done|done]. cbn [mbind option_bind] in H.
  destruct (mapM to_contract_format sigs) as [sigs'|] eqn:Em; [|done]. injection H as <-. apply mapM_Some in Em. apply Hok in Ex. destruct Ex as [B1 B2 (ch & (i & dec & D1 & D2 & D3 & D4) & B4 & B5) B6].
  destruct (config_for_batch (v_configs v) (n / 2)) as [[c|]|] eqn:Ec; [|unfold sorted_signatures in Es; by rewrite B1, Ec in Es..].
  eapply sorted_signatures_spec in Es as (S1 & S2 & S3 & S4 & S5); [|done|by rewrite B1]. pose proof (Forall2_length _ _ _ Em) as Hl.
  eexists _, c, ch. split; [done|]. split; [done|]. unfold well_formed_appeal. cbn [u_half_step u_batch_hash u_indices u_signatures].
  split; [done|]. split; [lia|]. split; [lia|]. split; [exact S4|]. split; [|split].
  - intros k j sig' Hj Hs'. pose proof (Forall2_lookup_r _ _ _ _ _ Em Hs') as (sig & Hs & Hf). destruct (S5 k j sig Hj Hs) as (a & Ha & Hsig).
    apply keyper_index_spec in Ha as [Hr Ha]. destruct (B6 a sig Hsig) as [G1 G2]. exists a, sig. split; [lia|]. split; [done|]. split; [done|]. split; [by rewrite <-B4|]. destruct G2 as (j' & lst & c' & G2 & G3 & G4 & _). by exists j', lst.
  - exists r. done.
  - exists i, dec. split; [done|]. split; [done|]. cbv zeta. split; [done|]. by rewrite B2, D3.
Qed.
Theorem C27_well_formed l i s al acts u : decisions new_x (l ++ [i]) = Some (s, al ++ [acts]) → AAppeal u ∈ acts →
  ∃ c ch, well_formed_appeal (l ++ [i]) (i_view i) u c ch.
Proof.
  intros H Hu. apply decisions_snoc in H as (s1 & al1 & acts1 & s2 & D1 & D2 & E). injection E as -> E2. apply app_inj_tail in E2 as [_ ->].
  apply reached_ok in D1; [|done]. assert (batches_ok keccak ecrecover addr_bytes batcher_address (l ++ [i]) s1) as Hok. { intros b x Hx. eapply batch_ok_mono; [|by apply D1]. set_solver. }
  pose proof D2 as D2'. apply decision_inv in D2 as (t1 & a1 & t2 & t3 & a3 & t4 & a4 & a5 & E1 & E2 & E3 & E4 & E5 & ->).
  apply on_keys_ok with (l := l ++ [i]) in E1 as (K1 & _ & _ & _ & K5 & _); [|set_solver|done|done].
  apply (handle_signatures_ok keccak ecrecover addr_bytes batcher_address (l ++ [i])) in E2; [|set_solver|done].
  rewrite !elem_of_app in Hu. destruct Hu as [Hu|[Hu|[Hu|Hu]]].
  - destruct (K5 _ Hu) as (? & ? & [=]).
  - exfalso. apply elem_of_list_lookup in Hu as [k Hk]. apply execute_batch_spec in E3 as (X & _). apply X in Hk.
    destruct Hk as (c & d & e & _ & _ & _ & [[H _]|(_ & _ & [[H _]|(_ & _ & k' & x & _ & _ & H & _)])]); discriminate H.
  - apply maybe_appeal_spec in E4 as (_ & _ & _ & M); [|done]. destruct (M _ Hu) as (h & m & t & M1 & M2 & M3). apply execute_batch_keeps in E3 as (X & _).
    apply (appeal_one_ok (l ++ [i])) in M2 as (_ & u' & c & ch & [= <-] & _ & W); [by exists c, ch|]. intros b x. rewrite M3, X. apply E2.
  - apply maybe_accuse_spec in E5 as (_ & _ & _ & _ & M). destruct (M _ Hu) as (h & la & _ & M2 & M3). exfalso. unfold accuse_one in M2. destruct (negb _); [injection M2 as <-; by apply elem_of_nil in M3|].
    destruct (v_receipts _ !! _); [|injection M2 as <-; by apply elem_of_nil in M3]. destruct (xbatches _ !! _); [|injection M2 as <-; by apply elem_of_nil in M3].
    destruct (bool_decide _); [injection M2 as <-; by apply elem_of_nil in M3|]. destruct (bool_decide _); [injection M2 as <-; by apply elem_of_nil in M3|].
    destruct (config_for_batch _ _) as [[?|]|]; [|injection M2 as <-; by apply elem_of_nil in M3|done]. injection M2 as <-. by apply elem_of_list_singleton in M3.
Qed.

(** the result does not depend on the order in which Go iterates over the map of signatures *)
Lemma mapM_perm {A B} (f : A → option B) l k : l ≡ₚ k → ∀ r, mapM f l = Some r → ∃ r', mapM f k = Some r' ∧ r ≡ₚ r'.
Proof.
  induction 1 as [|x l k _ IH|x y l|l k j _ IH1 _ IH2]; intros r H.
  - injection H as <-. by exists [].
  - cbn [mapM] in *. destruct (f x) as [b|]; [|done]. cbn [mbind option_bind] in *. destruct (mapM f l) as [q|]; [|done]. injection H as <-. destruct (IH q eq_refl) as (r' & -> & Hp). exists (b :: r'). split; [done|]. by apply perm_skip.
  - cbn [mapM] in *. destruct (f y) as [c|]; [|done]. cbn [mbind option_bind] in *. destruct (f x) as [b|]; [|done]. cbn [mbind option_bind] in *. destruct (mapM f l) as [q|]; [|done].
    injection H as <-. exists (b :: c :: q). split; [done|]. apply perm_swap.
  - destruct (IH1 r H) as (r' & H' & P1). destruct (IH2 r' H') as (r2 & H2 & P2). exists r2. split; [done|]. by etrans.
Qed.
Theorem C27_deterministic order' v x : (∀ A (l : list A), order' A l ≡ₚ l) → sorted_signatures order v x = sorted_signatures order' v x.
Proof using Horder.
  clear keccak ecrecover addr_bytes batcher_address me sign staggering. intros Ho. unfold sorted_signatures. destruct (config_for_batch _ _) as [[c|]|]; [|done|done]. destruct (_ <? _); [done|].
  set (f := λ '(a, sig), (λ i, (i, sig)) <$> keyper_index c a). set (m := map_to_list (b_sigs x)).
  assert (∀ o o' : ∀ A, list A → list A, (∀ A l, o A l ≡ₚ l) → (∀ A l, o' A l ≡ₚ l) → ∀ r, mapM f (o _ m) = Some r → ∃ r', mapM f (o' _ m) = Some r' ∧ r ≡ₚ r') as Hperm.
  { intros o o' H H' r. apply mapM_perm. by rewrite H, H'. }
  destruct (mapM f (order _ m)) as [r|] eqn:E; [|destruct (mapM f (order' _ m)) as [r|] eqn:E'; [|done]; destruct (Hperm order' order Ho Horder r E') as (? & ? & _); congruence].
  destruct (Hperm order order' Horder Ho r E) as (r' & -> & Hp).
  assert (merge_sort by_index r = merge_sort by_index r') as ->; [|done].
  assert (NoDup r.*1) as Hnd.
  { assert (NoDup (order _ m).*1) as Hnd. { rewrite (fmap_Permutation fst _ _ (Horder _ m)). apply NoDup_fst_map_to_list. }
    clear Hp Hperm. revert r E Hnd. clear -f. induction (order _ m) as [|[a sig] l IH]; intros r E Hnd; [injection E as <-; constructor|]. cbn [mapM] in E. change (f (a, sig)) with ((λ i, (i, sig)) <$> keyper_index c a) in E.
    destruct (keyper_index c a) as [i|] eqn:Ei; [|discriminate E]. cbn [fmap option_fmap option_map mbind option_bind] in E. destruct (mapM f l) as [q|] eqn:Eq; [|discriminate E]. injection E as <-. cbn [fmap list_fmap fst] in *. apply NoDup_cons in Hnd as [H1 H2].
    apply NoDup_cons. split; [|by apply IH]. intros Hin. apply H1. apply mapM_Some in Eq. apply elem_of_list_fmap in Hin as ([j sg] & -> & Hin). apply elem_of_list_lookup in Hin as [k Hk].
    destruct (Forall2_lookup_r _ _ _ _ _ Eq Hk) as ([a' sg'] & Ha & Hf). unfold f in Hf. destruct (keyper_index c a') as [i'|] eqn:Ei'; [|done]. injection Hf as -> _. cbn [fst] in Ei.
    apply keyper_index_spec in Ei as [_ Ei]. apply keyper_index_spec in Ei' as [_ Ei']. rewrite Ei in Ei'. injection Ei' as <-. apply elem_of_list_fmap. exists (a, sg'). split; [done|]. by eapply elem_of_list_lookup_2. }
  assert (∀ l : list (Z * list N), NoDup l.*1 → StronglySorted (λ x y, x.1 < y.1) (merge_sort by_index l)) as Hs.
  { intros l Hl. assert (StronglySorted by_index (merge_sort by_index l)) as Hss. { apply StronglySorted_merge_sort; [intros ? ? ?; unfold by_index; lia|intros ? ?; unfold by_index; lia]. }
    rewrite <-(fmap_Permutation fst _ _ (merge_sort_Permutation by_index l)) in Hl. induction Hss as [|p q H IH Hall]; [constructor|]. cbn [fmap list_fmap] in Hl. apply NoDup_cons in Hl as [H1 H2].
    constructor; [by apply IH|]. rewrite Forall_forall in *. intros y Hy. specialize (Hall y Hy). unfold by_index in Hall. assert (y.1 ≠ p.1); [|lia]. intros Ey. apply H1. apply elem_of_list_fmap. by exists y. }
  assert (AntiSymm (=) (λ x y : Z * list N, x.1 < y.1)) as Has by (intros y z H1 H2; lia).
  apply (StronglySorted_unique (λ x y : Z * list N, x.1 < y.1)).
  - by apply Hs.
  - apply Hs. by rewrite <-(fmap_Permutation fst _ _ Hp).
  - etrans; [apply merge_sort_Permutation|]. etrans; [exact Hp|]. symmetry. apply merge_sort_Permutation.
Qed.

(** signatures the contract accepts: s in the lower half, recovery id 0 or 1 *)
Definition canonical (sig : list N) : Prop := be (take 32 (drop 32 sig)) ≤ half_order ∧ be (drop 64 sig) < 2.
Lemma contract_format sig sig' : to_contract_format sig = Some sig' → length sig = 65%nat → be (drop 64 sig) < 4 →
  length sig' = 65%nat ∧ take 32 sig' = take 32 sig ∧ take 32 (drop 32 sig') = take 32 (drop 32 sig) ∧ be (drop 64 sig') = be (drop 64 sig) + 27.
Proof.
  unfold to_contract_format. intros H Hl Hv. destruct (sig !! 64%nat) as [x|] eqn:Ex; [|done]. injection H as <-. rewrite insert_length. split; [done|].
  rewrite take_insert by lia. split; [done|]. rewrite drop_insert_le by lia. change (64 - 32)%nat with 32%nat. rewrite take_insert by lia. split; [done|].
  assert (drop 64 sig = [x]) as Ed. { rewrite (drop_S _ x) by done. rewrite drop_ge by lia. done. }
  rewrite drop_insert_le by lia. rewrite Ed in *. unfold be in *. cbn in *. rewrite N.mod_small by lia. lia.
Qed.
Lemma recover_same hash sig sig' a : to_contract_format sig = Some sig' → go_recover hash sig = Some a → a ≠ 0%N → canonical sig → sol_recover ecrecover hash sig' = Some a.
Proof.
  unfold DecideModel.go_recover, sol_recover, canonical. intros Hf Hg Ha [C1 C2]. destruct (Nat.eqb_spec (length sig) 65); [|done]. cbn [negb] in Hg. destruct (Z.leb_spec 4 (be (drop 64 sig))); [done|].
  assert (0 ≤ be (drop 64 sig)). { apply be_nonneg. }
  destruct (contract_format _ _ Hf ltac:(done) ltac:(lia)) as (F1 & F2 & F3 & F4). rewrite F1. cbn [Nat.eqb negb]. rewrite F2, F3, F4.
  pose proof (proj2 (Z.leb_le _ _) C1) as ->. cbn [negb]. replace (be (drop 64 sig) + 27 - 27) with (be (drop 64 sig)) by lia. rewrite Hg.
  assert ((be (drop 64 sig) + 27 =? 27) || (be (drop 64 sig) + 27 =? 28) = true) as ->. { apply orb_true_iff. rewrite !Z.eqb_eq. lia. } cbn [negb].
  destruct (N.eqb_spec a 0); done.
Qed.
Lemma recover_rejects hash sig sig' : to_contract_format sig = Some sig' → length sig = 65%nat → be (drop 64 sig) < 4 → ¬ canonical sig → sol_recover ecrecover hash sig' = None.
Proof.
  unfold sol_recover, canonical. intros Hf Hl Hv Hn. pose proof (be_nonneg (drop 64 sig)). destruct (contract_format _ _ Hf Hl Hv) as (F1 & F2 & F3 & F4). rewrite F1, F2, F3, F4. cbn [Nat.eqb negb].
  destruct (Z.leb_spec (be (take 32 (drop 32 sig))) half_order); [|done]. cbn [negb].
  assert ((be (drop 64 sig) + 27 =? 27) || (be (drop 64 sig) + 27 =? 28) = false) as ->; [|done]. apply orb_false_iff. rewrite !Z.eqb_neq. lia.
Qed.
Context (slasher_address deposit_address : N).
Notation run := (run keccak ecrecover addr_bytes batcher_address slasher_address deposit_address).
Notation steps := (steps keccak ecrecover addr_bytes batcher_address slasher_address deposit_address).
Notation deployed := (deployed slasher_address).
(** in contract format: s in the lower half, v 27 or 28 *)
Definition canonical' (sig' : list N) : Prop := be (take 32 (drop 32 sig')) ≤ half_order ∧ be (drop 64 sig') < 29.
(** an appeal a keyper submits succeeds, whoever sends it, if the contract still has an open accusation, the keyper knows the config and the
    receipt, and every signature in it is canonical *)
Theorem C27_accepted_partial owner hu ap blk events seen v u c ch sender fuel : let s := (steps (deployed owner hu ap blk) events).1 in let h := u_half_step u in
  well_formed_appeal seen v u c ch →
  a_accused (accusation_of s h) = true → a_appealed (accusation_of s h) = false →
  (∃ i, config_index s (h / 2) = Ok i ∧ scheduled (cc s) !! i = Some c) → r_cipher_hash (receipt_of s h) = ch → r_batch_hash (receipt_of s h) = u_batch_hash u →
  is64 h = true → Z.of_nat (length (keypers c)) ≤ 2 ^ 64 → 0%N ∉ keypers c →
  (∀ sig', sig' ∈ u_signatures u → canonical' sig') →
  ∃ r, run (S fuel) s sender (Appeal u) = Ok r.
Proof.
  intros s h (_ & W2 & W3 & W4 & W5 & _ & _) Ha Hap (i & Hi & Hc) Hch Hbh Hh Hk H0 Hcan.
  assert (r_half_step (receipt_of s h) = h) as Hrh.
  { destruct (logs_all keccak ecrecover addr_bytes batcher_address slasher_address deposit_address (deployed owner hu ap blk) events) as [_ H1].
    specialize (H1 (acc_deployed _ _ _ _ _) [] (logged_deployed _ _ _ _ _ _)). fold s in H1.
    destruct (g_accused _ _ _ H1 h Ha) as (_ & rec & x & R1 & _). unfold receipt_of. rewrite R1. cbn. by apply (g_receipt _ _ _ H1 h rec R1). }
  apply C50_appeal_iff; [done| |].
  - apply forallb_forall. intros x Hx. apply elem_of_list_In, elem_of_list_lookup in Hx as [n Hn].
    destruct (lookup_lt_is_Some_2 (u_signatures u) n) as [sig' Hs]. { apply lookup_lt_Some in Hn. lia. }
    destruct (W5 _ _ _ Hn Hs) as (a & sig & P & Hka & _). apply lookup_lt_Some in Hka. unfold is64. apply andb_true_iff. rewrite Z.leb_le, Z.ltb_lt. lia.
  - split; [done|]. split; [done|]. exists i, c. split; [done|]. split; [done|]. split; [done|]. split; [done|]. split; [done|].
    intros n x sig' Hn Hs. destruct (W5 _ _ _ Hn Hs) as (a & sig & P & Hka & Hf & Hg & _). exists a. split; [done|].
    fold s h. rewrite <-(preimage_signed addr_bytes batcher_address), <-(signature_hash_eq keccak addr_bytes batcher_address (receipt_of s h)). rewrite Hrh, Hch, Hbh. eapply recover_same; [done|done| |].
    + intros ->. apply H0. by eapply elem_of_list_lookup_2.
    + assert (canonical' sig') as [C1 C2] by (apply Hcan; by eapply elem_of_list_lookup_2). unfold DecideModel.go_recover in Hg. destruct (Nat.eqb_spec (length sig) 65); [|done]. cbn [negb] in Hg.
      destruct (Z.leb_spec 4 (be (drop 64 sig))); [done|]. destruct (contract_format _ _ Hf ltac:(done) ltac:(lia)) as (F1 & F2 & F3 & F4). unfold canonical. rewrite F3, F4 in *. split; [done|lia].
Qed.
(** one signature that is not canonical makes the contract reject the appeal *)
Theorem C27_one_spoils owner hu ap blk events u sig' sender fuel : let s := (steps (deployed owner hu ap blk) events).1 in let h := u_half_step u in
  is64 h = true → forallb is64 (u_indices u) = true →
  sig' ∈ u_signatures u → ¬ canonical' sig' → ¬ ∃ r, run (S fuel) s sender (Appeal u) = Ok r.
Proof.
  intros s h Hh Hi Hs Hn Hr. apply C50_appeal_iff in Hr as (_ & _ & i & c & _ & _ & _ & Hlen & _ & H); [|done|done].
  apply elem_of_list_lookup in Hs as [n Hs]. destruct (lookup_lt_is_Some_2 (u_indices u) n) as [x Hx]. { apply lookup_lt_Some in Hs. lia. }
  destruct (H _ _ _ Hx Hs) as (k & _ & Hk). apply Hn. unfold sol_recover in Hk. destruct (negb (Nat.eqb _ _)); [done|].
  destruct (Z.leb_spec (be (take 32 (drop 32 sig'))) half_order); [|done]. cbn [negb] in Hk. split; [done|].
  destruct (Z.eqb_spec (be (drop 64 sig')) 27) as [->|]; [lia|]. destruct (Z.eqb_spec (be (drop 64 sig')) 28) as [->|]; [lia|done].
Qed.
End Props.

(** ** Witness *)
Notation wdecisions := (decisions (λ x, x) (λ _ _ r _, Some (Z.to_N r)) (λ _, [1]%N) 1 7 (λ _, []) 1 (λ _ l, l)).
Notation wrun := (run (λ x, x) (λ _ _ r _, Some (Z.to_N r)) (λ _, [1]%N) 1 2 3).
Notation wsteps := (steps (λ x, x) (λ _ _ r _, Some (Z.to_N r)) (λ _, [1]%N) 1 2 3).
(** batch 1 holds one encrypted transaction; keyper 8 executes it, keyper 7's node is malicious and accuses *)
Definition achain : chain := λ n, match n with
  | 1 => [(1, 9%N, SetNext wcfg); (1, 9%N, Schedule); (1, 9%N, SetSlasher 2); (1, 8%N, TokenSend 50 4)]
  | 25 => [(1, 4%N, AddTx 1 Cipher [1; 2]%N 0); (1, 4%N, SkipEmpty 2)]
  | 30 => [(2, 8%N, ExecCipher 1 ([1; 2]%N ++ zero32) [[5]%N] 1 [])]
  | 31 => [(1, 7%N, Accuse 2 0)]
  | _ => [] end%nat.
Definition asig (a s : N) : list N := replicate 31 0%N ++ [a] ++ replicate 32 s ++ [0%N].
Definition ainputs (sigs : list (N * list N)) : list input :=
  [mkInput (wsync (new_view 0) [(achain, 30, true)]) ∅ [(1, λ _, [[5]%N])];
   mkInput (wsync (new_view 0) [(achain, 30, true); (achain, 32, true)]) {[1 := sigs]} []].
Definition submitted (l : list input) : list action := match wdecisions new_x l with Some (_, al) => default [] (last al) | None => [] end.
Definition good_sigs : list (N * list N) := [(8, asig 8 0); (7, asig 7 0)]%N.
Definition good_appeal : authorization := mkAuth 2 ([5]%N ++ zero32) [0; 1] ((λ a, <[64%nat := 27%N]> (asig a 0)) <$> [7; 8]%N).
Example C27_witness : submitted (ainputs good_sigs) = [AAppeal good_appeal] ∧
  half_steps (wstate achain 32) = 3 ∧ a_accused (accusation_of (wstate achain 32) 2) = true ∧ ∃ r, wrun 1 (wstate achain 32) 7 (Appeal good_appeal) = Ok r.
Proof. split; [vm_compute; reflexivity|]. split; [vm_compute; reflexivity|]. split; [vm_compute; reflexivity|]. eexists. vm_compute. reflexivity. Qed.

(** C27, finding: keyper 9 publishes its signature with the high s value. Keypers accept it (libsecp256k1 does not ask for the lower half) and
    never drop it, so every appeal they submit contains it and is rejected by the contract, although enough canonical signatures were
    published: the honest executor is slashed. *)
Definition bad_sigs : list (N * list N) := [(9, asig 9 255); (8, asig 8 0); (7, asig 7 0)]%N.
Definition bad_appeal : authorization := mkAuth 2 ([5]%N ++ zero32) [1; 2] [<[64%nat := 27%N]> (asig 8 0); <[64%nat := 27%N]> (asig 9 255)].
Theorem C27_accepted_refuted : submitted (ainputs bad_sigs) = [AAppeal bad_appeal] ∧ wrun 1 (wstate achain 32) 8 (Appeal bad_appeal) = Revert ∧
  (∃ r, wrun 1 (wstate achain 32) 8 (Appeal good_appeal) = Ok r) ∧
  let s := (wsteps (wstate achain 32) [Mine 9; Tx 2 6 (Slash 2 [])]).1 in a_slashed (accusation_of s 2) = true ∧ d_amount (deposit_of s 8) = 0.
Proof.
  split; [vm_compute; reflexivity|]. split; [vm_compute; reflexivity|]. split; [eexists; vm_compute; reflexivity|]. cbv zeta. split; vm_compute; reflexivity.
Qed.

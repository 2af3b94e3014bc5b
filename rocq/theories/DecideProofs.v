(** Lemmas about the second half of the keyper's decisions. *)
From stdpp Require Import list gmap sorting.
From Coq Require Import ZArith NArith Lia.
From Verif Require Import ArithModel PropsArith ContractsModel MainModel MainProofs DecideModel.
Local Open Scope Z_scope.

Ltac inv_bind H :=
  repeat match type of H with
  | (?o ≫= _) = Some _ => let E := fresh "E" in let a := fresh "a" in destruct o as [a|] eqn:E; [|discriminate H]; cbn [mbind option_bind] in H; try (match type of a with prod _ _ => destruct a as [? ?] end)
  end.

Lemma land255 x : Z.land x 255 = x mod 256.
Proof. change 255 with (Z.ones 8). by rewrite Z.land_ones by lia. Qed.
Lemma put_uint64_be64 v : put_uint64 v = be64 v.
Proof. unfold put_uint64, be64. cbn [fmap list_fmap seq]. rewrite !land255, !Z.shiftr_div_pow2 by lia. reflexivity. Qed.

Set Default Proof Using "Type".
Section Decide.
Context (keccak : list N → list N) (ecrecover : list N → Z → Z → Z → option N) (addr_bytes : N → list N) (batcher_address : N).
Context (me : N) (sign : list N → list N) (staggering : Z).
Context (order : ∀ A, list A → list A) (Horder : ∀ A (l : list A), order A l ≡ₚ l).
Notation transactions_hash := (transactions_hash keccak).
Notation signature_hash := (signature_hash keccak addr_bytes batcher_address).
Notation go_recover := (go_recover ecrecover).
Notation verify_signature := (verify_signature ecrecover).
Notation sync_loop := (sync_loop ecrecover).
Notation sync_batch := (sync_batch ecrecover).
Notation decrypt_transactions := (decrypt_transactions keccak addr_bytes batcher_address).
Notation send_signature := (send_signature ecrecover sign).
Notation on_key := (on_key keccak ecrecover addr_bytes batcher_address sign).
Notation on_keys := (on_keys keccak ecrecover addr_bytes batcher_address sign).
Notation handle_signatures := (handle_signatures ecrecover).
Notation execute_batch := (execute_batch me staggering).
Notation maybe_appeal := (maybe_appeal order).
Notation maybe_accuse := (maybe_accuse me).
Notation decision_step := (decision_step keccak ecrecover addr_bytes batcher_address me sign staggering order).
Notation decisions := (decisions keccak ecrecover addr_bytes batcher_address me sign staggering order).

(** ** Hashes *)
Lemma transactions_hash_eq txs : transactions_hash txs = chain_hash keccak txs.
Proof.
  unfold DecideModel.transactions_hash, chain_hash. generalize (mkHasher []) as h, zero32 as z. induction txs as [|tx txs IH]; intros h z; [done|]. cbn [foldl]. rewrite IH. done.
Qed.
Lemma signature_hash_eq r : signature_hash (r_half_step r / 2) (r_cipher_hash r) (r_batch_hash r) = keccak (preimage addr_bytes batcher_address r).
Proof.
  unfold DecideModel.signature_hash, h_sum, preimage. cbn [written h_write]. rewrite put_uint64_be64, app_nil_l, <-!app_assoc. done.
Qed.

(** ** The state: every decrypted batch stems from a view and a key seen before, every stored signature verifies and was published *)
Definition published (l : list input) (b : Z) (a : N) (sig : list N) : Prop :=
  ∃ i lst c, i ∈ l ∧ i_sigs i !! b = Some lst ∧ (a, sig) ∈ lst ∧ config_for_batch (v_configs (i_view i)) b = Some (Some c) ∧ is_keyper c a = true.
Definition decrypted_from (l : list input) (b : Z) (x : batch) (ch : list N) : Prop :=
  ∃ i dec, i ∈ l ∧ (b, dec) ∈ i_keys i ∧ b_txs x = dec (enc_txs (mb (v_batches (i_view i)) b)) ∧ ch = enc_hash (mb (v_batches (i_view i)) b).
Record batch_ok (l : list input) (b : Z) (x : batch) : Prop := {
  bo_index : b_index x = b;
  bo_hash : b_hash x = transactions_hash (b_txs x);
  bo_from : ∃ ch, decrypted_from l b x ch ∧ b_sig_hash x = signature_hash b ch (b_hash x) ∧ b_empty x = bool_decide (ch = zero32);
  bo_sigs : ∀ a sig, b_sigs x !! a = Some sig → go_recover (b_sig_hash x) sig = Some a ∧ published l b a sig
}.
Definition batches_ok (l : list input) (s : xstate) : Prop := ∀ b x, xbatches s !! b = Some x → batch_ok l b x.
Lemma batch_ok_mono l l' b x : l ⊆ l' → batch_ok l b x → batch_ok l' b x.
Proof.
  intros Hl [H1 H2 (ch & (i & dec & I1 & I2 & I3 & I4) & H4 & H5) H6]. split; [done|done| |].
  - exists ch. split; [|done]. exists i, dec. split; [by apply Hl|done].
  - intros a sig Hs. destruct (H6 a sig Hs) as [G1 (j & lst & c & J1 & J2)]. split; [done|]. exists j, lst, c. split; [by apply Hl|done].
Qed.
(** what the loop over the signatures keeps *)
Lemma sync_loop_keeps c x sigs : let y := sync_loop c x sigs in
  b_index y = b_index x ∧ b_hash y = b_hash x ∧ b_txs y = b_txs x ∧ b_sig_hash y = b_sig_hash x ∧ b_empty y = b_empty x ∧ b_sig_index y = b_sig_index x ∧
  b_sigs x ⊆ b_sigs y ∧
  ∀ a sig, b_sigs y !! a = Some sig → b_sigs x !! a = Some sig ∨ (a, sig) ∈ sigs ∧ go_recover (b_sig_hash x) sig = Some a ∧ is_keyper c a = true.
Proof.
  revert x. induction sigs as [|[a sig] sigs IH]; intros x y; [by unfold y; split_and!; eauto|].
  assert (∀ z, sync_loop c x ((a, sig) :: sigs) = sync_loop c z sigs → z = x → y = sync_loop c x sigs) as Hsk by (unfold y; by intros z -> ->).
  destruct (is_keyper c a) eqn:Ek; [destruct (b_sigs x !! a) eqn:Ea; [|destruct (verify_signature x a sig) eqn:Ev]|].
  - assert (y = sync_loop c x sigs) as -> by (apply (Hsk x); [|done]; cbn [DecideModel.sync_loop]; rewrite Ek, Ea; cbn [negb]; rewrite bool_decide_true by done; done).
    destruct (IH x) as (?&?&?&?&?&?&?&Hs). split_and!; try done. intros a' s' Hx. destruct (Hs a' s' Hx) as [?|(?&?&?)]; [by left|right]. split_and!; [by right|done|done].
  - assert (go_recover (b_sig_hash x) sig = Some a) as Hr. { unfold DecideModel.verify_signature in Ev. destruct (go_recover (b_sig_hash x) sig); [|done]. apply N.eqb_eq in Ev. by subst. }
    set (z := add_signature x a sig).
    assert (y = z ∨ y = sync_loop c z sigs) as Hy.
    { unfold y. cbn [DecideModel.sync_loop]. rewrite Ek, Ea, Ev. cbn [negb]. rewrite bool_decide_false by (by intros [? ?]). fold z. destruct (_ <=? _); [by left|by right]. }
    assert (b_sigs x ⊆ b_sigs z) as Hsub by (by apply insert_subseteq).
    assert (∀ a' s', b_sigs z !! a' = Some s' → b_sigs x !! a' = Some s' ∨ (a', s') = (a, sig)) as Hz.
    { intros a' s'. cbn. destruct (decide (a = a')) as [<-|]; [rewrite lookup_insert; intros [= <-]; by right|]. rewrite lookup_insert_ne by done. by left. }
    destruct Hy as [->| ->].
    + split_and!; try done. intros a' s' Hx. destruct (Hz a' s' Hx) as [?|[= -> ->]]; [by left|right]. split_and!; [by left|done|done].
    + destruct (IH z) as (?&?&?&?&?&?&?&Hs). split_and!; try done; [by etrans|]. intros a' s' Hx. destruct (Hs a' s' Hx) as [Hx'|(?&?&?)].
      * destruct (Hz a' s' Hx') as [?|[= -> ->]]; [by left|right]. split_and!; [by left|done|done].
      * right. split_and!; [by right|done|done].
  - assert (y = sync_loop c x sigs) as -> by (apply (Hsk x); [|done]; cbn [DecideModel.sync_loop]; rewrite Ek, Ea, Ev; cbn [negb]; rewrite bool_decide_false by (by intros [? ?]); done).
    destruct (IH x) as (?&?&?&?&?&?&?&Hs). split_and!; try done. intros a' s' Hx. destruct (Hs a' s' Hx) as [?|(?&?&?)]; [by left|right]. split_and!; [by right|done|done].
  - assert (y = sync_loop c x sigs) as -> by (apply (Hsk x); [|done]; cbn [DecideModel.sync_loop]; rewrite Ek; done).
    destruct (IH x) as (?&?&?&?&?&?&?&Hs). split_and!; try done. intros a' s' Hx. destruct (Hs a' s' Hx) as [?|(?&?&?)]; [by left|right]. split_and!; [by right|done|done].
Qed.
Lemma sync_batch_keeps v sigs x y : sync_batch v sigs x = Some y →
  b_index y = b_index x ∧ b_hash y = b_hash x ∧ b_txs y = b_txs x ∧ b_sig_hash y = b_sig_hash x ∧ b_empty y = b_empty x ∧ b_sigs x ⊆ b_sigs y ∧
  ∀ a sig, b_sigs y !! a = Some sig → b_sigs x !! a = Some sig ∨ (∃ lst c, sigs !! b_index x = Some lst ∧ (a, sig) ∈ lst ∧ config_for_batch (v_configs v) (b_index x) = Some (Some c) ∧ is_keyper c a = true) ∧ go_recover (b_sig_hash x) sig = Some a.
Proof.
  unfold DecideModel.sync_batch. destruct (sigs !! b_index x) as [lst|] eqn:El.
  - destruct (config_for_batch _ _) as [[c|]|] eqn:Ec; [|done|done]. destruct (b_empty x) eqn:Ee; intros [= <-]; [by split_and!; eauto|]. cbn [set_sig_index b_index b_hash b_txs b_sig_hash b_empty b_sigs].
    destruct (sync_loop_keeps c x (drop (b_sig_index x) lst)) as (?&?&?&?&?&?&?&Hs). split_and!; try congruence; try done.
    intros a sig Hx. destruct (Hs a sig Hx) as [?|(Hin&?&?)]; [by left|right]. split; [|done]. exists lst, c. split; [done|]. split; [|done].
    rewrite <-(take_drop (b_sig_index x) lst). apply elem_of_app. by right.
  - intros [= <-]. by split_and!; eauto.
Qed.
Lemma sync_batch_ok l i b x y : i ∈ l → batch_ok l b x → sync_batch (i_view i) (i_sigs i) x = Some y → batch_ok l b y.
Proof.
  intros Hi [H1 H2 (ch & (j & dec & I1 & I2 & I3 & I4) & H4 & H5) H6] Hs. destruct (sync_batch_keeps _ _ _ _ Hs) as (K1 & K2 & K3 & K4 & K5 & K6 & K7). split.
  - congruence.
  - congruence.
  - exists ch. split; [exists j, dec; split_and!; try done; congruence|]. split; congruence.
  - rewrite K4. intros a sig Hx. destruct (K7 a sig Hx) as [Hy|[(lst & c & L1 & L2) L3]]; [by apply H6|]. split; [done|]. exists i, lst, c. rewrite <-H1. done.
Qed.
Lemma decrypt_ok l i b dec : i ∈ l → (b, dec) ∈ i_keys i → batch_ok l b (decrypt_transactions (i_view i) b dec).
Proof.
  intros Hi Hk. split; cbn; [done|done| |].
  - exists (enc_hash (mb (v_batches (i_view i)) b)). split; [exists i, dec; done|done].
  - intros a sig. by rewrite lookup_empty.
Qed.
Lemma on_key_spec v sigs s b dec s' acts : on_key v sigs s b dec = Some (s', acts) →
  pending s' = pending s ∧ pending_appeals s' = pending_appeals s ∧ checked s' = checked s ∧
  ∃ x, xbatches s' = <[b := x]> (xbatches s) ∧
    (x = decrypt_transactions v b dec ∧ acts = [] ∧ timed_out_or_inactive v b = Some true ∨
     timed_out_or_inactive v b = Some false ∧ sync_batch v sigs (decrypt_transactions v b dec) = Some x ∧ ∃ c, config_for_batch (v_configs v) b = Some (Some c) ∧
       acts = if (Z.of_nat (size (b_sigs x)) <? threshold c) && negb (b_empty x) then [ASignature b (sign (b_sig_hash x))] else []).
Proof.
  unfold DecideModel.on_key. intros H. inv_bind H. destruct a.
  - injection H as <- <-. split_and!; try done. eexists. split; [done|]. left. done.
  - inv_bind H. injection H as <- <-. split_and!; try done. eexists. split; [done|]. right. split; [done|].
    unfold DecideModel.send_signature in E0. inv_bind E0. cbn [b_index DecideModel.decrypt_transactions] in E0.
    destruct (config_for_batch (v_configs v) b) as [[c|]|]; [|done|done]. injection E0 as <- <-. eauto.
Qed.
Lemma on_keys_ok l i keys s s' acts : i ∈ l → (∀ k, k ∈ keys → k ∈ i_keys i) → batches_ok l s → on_keys (i_view i) (i_sigs i) s keys = Some (s', acts) →
  batches_ok l s' ∧ pending s' = pending s ∧ pending_appeals s' = pending_appeals s ∧ checked s' = checked s ∧ (∀ a, a ∈ acts → ∃ b sig, a = ASignature b sig) ∧
  (∀ b, b ∉ keys.*1 → xbatches s' !! b = xbatches s !! b).
Proof.
  intros Hi. revert s s' acts. induction keys as [|[b dec] keys IH]; intros s s' acts Hk Hs H; cbn [DecideModel.on_keys] in H.
  - injection H as <- <-. split_and!; try done. intros a []%elem_of_nil.
  - destruct (on_key (i_view i) (i_sigs i) s b dec) as [[sa l0]|] eqn:E; [|done]. cbn [mbind option_bind] in H.
    destruct (on_keys (i_view i) (i_sigs i) sa keys) as [[sb l1]|] eqn:E0; [|done]. injection H as <- <-. apply on_key_spec in E as (P1 & P2 & P3 & x & X1 & X2).
    assert (batch_ok l b x ∧ ∀ a, a ∈ l0 → ∃ b sig, a = ASignature b sig) as [Hx Ha].
    { destruct X2 as [(-> & -> & _)|(_ & Hsy & c & _ & ->)].
      - split; [apply decrypt_ok; [done|apply Hk; by left]|]. intros a []%elem_of_nil.
      - split; [eapply sync_batch_ok; [done| |done]; apply decrypt_ok; [done|apply Hk; by left]|]. intros a. destruct (_ && _); [intros ->%elem_of_list_singleton; eauto|intros []%elem_of_nil]. }
    destruct (IH sa sb l1) as (I1 & I2 & I3 & I4 & I5 & I6); [|..|done|]; [intros k Hkk; apply Hk; by right| |].
    { intros b' x'. rewrite X1. destruct (decide (b = b')) as [<-|]; [rewrite lookup_insert; intros [= <-]; done|]. rewrite lookup_insert_ne by done. apply Hs. }
    split; [done|]. split_and!; try congruence.
    + intros a [?|?]%elem_of_app; eauto.
    + intros b' Hb'. cbn in Hb'. rewrite not_elem_of_cons in Hb'. destruct Hb'. rewrite I6 by done. rewrite X1. by rewrite lookup_insert_ne.
Qed.
Lemma handle_signatures_spec v sigs s s' : handle_signatures v sigs s = Some s' →
  pending s' = pending s ∧ pending_appeals s' = pending_appeals s ∧ checked s' = checked s ∧
  ∀ b, match xbatches s !! b with None => xbatches s' !! b = None | Some x => ∃ y, sync_batch v sigs x = Some y ∧ xbatches s' !! b = Some y end.
Proof.
  unfold DecideModel.handle_signatures. destruct (forallb _ _) eqn:E; [|done]. intros [= <-]. split_and!; try done. intros b. cbn [xbatches]. rewrite lookup_omap.
  destruct (xbatches s !! b) as [x|] eqn:Ex; [|done]. cbn. rewrite forallb_forall in E. specialize (E (b, x) ltac:(by apply elem_of_list_In, elem_of_map_to_list)). cbn in E.
  apply bool_decide_eq_true in E as [y E]. rewrite E. eauto.
Qed.
Lemma handle_signatures_ok l i s s' : i ∈ l → batches_ok l s → handle_signatures (i_view i) (i_sigs i) s = Some s' → batches_ok l s'.
Proof.
  intros Hi Hs H. apply handle_signatures_spec in H as (_ & _ & _ & H). intros b y Hy. specialize (H b). destruct (xbatches s !! b) as [x|] eqn:Ex; [|congruence].
  destruct H as (y' & Hsy & Hy'). rewrite Hy in Hy'. injection Hy' as <-. eapply sync_batch_ok; [done|by apply Hs|done].
Qed.
Lemma execute_batch_keeps v s s' acts : execute_batch v s = Some (s', acts) → xbatches s' = xbatches s ∧ pending_appeals s' = pending_appeals s ∧ checked s' = checked s.
Proof.
  unfold DecideModel.execute_batch. destruct (active_config _ _) as [c|]; [|done]. destruct (negb _); [by intros [= <- <-]|]. intros H. inv_bind H.
  destruct (match pending s with Some p => _ | None => _ end); [by injection H as <- <-|]. inv_bind H. by injection H as <- <-.
Qed.
(** what is submitted for a half step, and when *)
Definition executes (v : view) (s : xstate) (h : Z) (act : action) : Prop :=
  ∃ c d e, config_for_batch (v_configs v) (h / 2) = Some (Some c) ∧ execution_delay c staggering me h = Some d ∧ batch_end_block c (h / 2) = Some e ∧
    (act = ASkipCipher (h / 2) ∧ h mod 2 = 0 ∧ u64 (e + timeout c) ≤ current v ∧ u64 (u64 (e + timeout c) + d) ≤ current v ∨
     is_keyper c me = true ∧ u64 (e + d) ≤ current v ∧
       (act = AExecPlain (h / 2) (plain_txs (default empty_mbatch (v_batches v !! (h / 2)))) ∧ h mod 2 ≠ 0 ∨
        h mod 2 = 0 ∧ current v < u64 (e + timeout c) ∧ ∃ k x, keyper_index c me = Some k ∧ xbatches s !! (h / 2) = Some x ∧
          act = AExecCipher (h / 2) (enc_hash (default empty_mbatch (v_batches v !! (h / 2)))) (b_txs x) k ∧ (b_empty x = true ∨ threshold c ≤ Z.of_nat (size (b_sigs x))))).
Lemma execute_half_step_spec v s h act : execute_half_step me staggering v s h = Some (Some act) → executes v s h act.
Proof.
  unfold execute_half_step, executes. destruct (config_for_batch _ _) as [[c|]|]; [|done|done]. intros H. inv_bind H. exists c, a, a0. split; [done|]. split; [done|]. split; [done|].
  destruct (Z.eqb_spec (h mod 2) 0) as [Hm|Hm]; cbn [andb] in H.
  - destruct (Z.leb_spec (u64 (a0 + timeout c)) (current v)) as [Ht|Ht].
    + destruct (Z.leb_spec (u64 (u64 (a0 + timeout c) + a)) (current v)); [|done]. injection H as <-. left. done.
    + destruct (is_keyper c me); [|done]. cbn [negb] in H. destruct (Z.leb_spec (u64 (a0 + a)) (current v)); [|done]. right. split; [done|]. split; [done|]. right. split; [done|]. split; [done|].
      unfold execute_cipher in H. destruct (keyper_index c me) as [k|]; [|done]. destruct (xbatches s !! (h / 2)) as [x|]; [|done]. exists k, x.
      destruct (b_empty x); cbn [negb andb] in H; [injection H as <-; split_and!; try done; by left|].
      destruct (Z.ltb_spec (Z.of_nat (size (b_sigs x))) (threshold c)); [done|]. injection H as <-. split_and!; try done. by right.
  - destruct (is_keyper c me); [|done]. cbn [negb] in H. destruct (Z.leb_spec (u64 (a0 + a)) (current v)); [|done]. injection H as <-. right. split; [done|]. split; [done|]. left. done.
Qed.
Lemma execute_loop_spec v s n : ∀ h p p' acts, execute_loop me staggering v s h n p = Some (p', acts) →
  (length acts ≤ n)%nat ∧ (∀ k act, acts !! k = Some act → execute_half_step me staggering v s (h + Z.of_nat k) = Some (Some act)) ∧
  ((length acts < n)%nat → execute_half_step me staggering v s (h + Z.of_nat (length acts)) = Some None) ∧
  p' = (if decide (acts = []) then p else Some (h + Z.of_nat (length acts) - 1)).
Proof.
  clear keccak ecrecover addr_bytes batcher_address sign order Horder.
  induction n as [|n IH]; intros h p p' acts H; cbn [execute_loop] in H; [injection H as <- <-; split_and!; [done|by intros k a; rewrite lookup_nil|cbn; lia|done]|].
  inv_bind H. destruct a as [a|].
  - inv_bind H. injection H as <- <-. apply IH in E0 as (I1 & I2 & I3 & I4). cbn [length]. split_and!; [lia| | |].
    + intros [|k] act Hk; cbn in Hk; [injection Hk as <-; by rewrite Z.add_0_r|]. apply I2 in Hk. by replace (h + Z.of_nat (S k)) with (h + 1 + Z.of_nat k) by lia.
    + intros Hl. replace (h + Z.of_nat (S (length l))) with (h + 1 + Z.of_nat (length l)) by lia. apply I3. lia.
    + rewrite decide_False by done. rewrite I4. destruct (decide (l = [])) as [->|]; [cbn; f_equal; lia|]. f_equal. lia.
  - injection H as <- <-. cbn [length]. split_and!; [lia|by intros k a; rewrite lookup_nil| |done]. intros _. by rewrite Z.add_0_r.
Qed.
(** one execution round: nothing while something is pending, else consecutive half steps from the next one on *)
Lemma execute_batch_spec v s s' acts : execute_batch v s = Some (s', acts) →
  (∀ k act, acts !! k = Some act → executes v s (v_half_steps v + Z.of_nat k) act) ∧
  (acts ≠ [] → ∀ p, pending s = Some p → p < v_half_steps v) ∧
  (acts ≠ [] → pending s' = Some (v_half_steps v + Z.of_nat (length acts) - 1)) ∧
  (acts = [] → pending s' = pending s ∨ pending s' = None ∧ ∀ p, pending s = Some p → p < v_half_steps v) ∧
  (length acts ≤ 10)%nat ∧
  (acts ≠ [] → ∃ c b, active_config (v_configs v) (current v) = Some c ∧ is_active c = true ∧ batch_index c (current v) = Some b ∧ v_half_steps v < u64 (b * 2) ∧
     Z.of_nat (length acts) ≤ num_half_steps_to_execute (v_half_steps v) b).
Proof.
  clear keccak ecrecover addr_bytes batcher_address sign order Horder.
  unfold DecideModel.execute_batch. destruct (active_config _ _) as [c|]; [|done]. destruct (is_active c) eqn:Ea; cbn [negb]; [|intros [= <- <-]; split_and!; try done; [by left|cbn; lia]].
  intros H. inv_bind H. destruct (match pending s with Some p => _ | None => _ end) as [q|] eqn:Ep.
  - injection H as <- <-. cbn [pending]. split_and!; try done; try (cbn; lia). intros _. left. destruct (pending s) as [p|]; [|done]. destruct (p <? v_half_steps v); [done|by rewrite Ep].
  - inv_bind H. injection H as <- <-. cbn [pending]. apply execute_loop_spec in E0 as (L1 & L2 & L3 & L4). assert (∀ p, pending s = Some p → p < v_half_steps v) as Hp.
    { intros p Hp. rewrite Hp in Ep. destruct (Z.ltb_spec p (v_half_steps v)); [done|done]. }
    assert (num_half_steps_to_execute (v_half_steps v) a ≤ 10) as Hten. { unfold num_half_steps_to_execute. destruct (_ <=? _); [lia|]. destruct (Z.leb_spec (u64 (u64 (a * 2) - v_half_steps v)) 10); lia. }
    split_and!.
    + intros k act Hk. apply execute_half_step_spec. by apply L2.
    + intros _. exact Hp.
    + intros Hn. rewrite L4, decide_False by done. done.
    + intros ->. right. rewrite L4, decide_True by done. done.
    + lia.
    + intros Hn. exists c, a. split_and!; try done; [|destruct l; [done|cbn [length] in *; lia]].
      assert (0 < num_half_steps_to_execute (v_half_steps v) a) as Hpos by (destruct l; [done|cbn [length] in *; lia]).
      unfold num_half_steps_to_execute in Hpos. destruct (Z.leb_spec (u64 (a * 2)) (v_half_steps v)); lia.
Qed.
Lemma appeal_loop_spec v l : ∀ s s' acts, appeal_loop order v s l = Some (s', acts) → xbatches s' = xbatches s ∧ pending s' = pending s ∧ checked s' = checked s ∧
  pending_appeals s ⊆ pending_appeals s' ∧ 
  ∀ a, a ∈ acts → ∃ m s1, m ∈ l ∧ appeal_one order v s1 (ma_half_step m) m = Some (Some a) ∧ xbatches s1 = xbatches s ∧ pending_appeals s ⊆ pending_appeals s1.
Proof.
  clear keccak ecrecover addr_bytes batcher_address me sign staggering Horder. induction l as [|m l IH]; intros s s' acts H; cbn [appeal_loop] in H.
  - injection H as <- <-. split_and!; try done. intros a []%elem_of_nil.
  - inv_bind H. destruct a as [act|].
    + inv_bind H. injection H as <- <-. apply IH in E0 as (I1 & I2 & I3 & I4 & I5). cbn [xbatches pending checked pending_appeals] in *. split_and!; try done; [set_solver|].
      intros a [->|Ha]%elem_of_cons; [exists m, s; split_and!; [left|done|done|done]|]. destruct (I5 a Ha) as (m' & s1 & M1 & M2 & M3 & M4). exists m', s1. split_and!; [by right|done|congruence|set_solver].
    + apply IH in H as (I1 & I2 & I3 & I4 & I5). split_and!; try done. intros a Ha. destruct (I5 a Ha) as (m' & s1 & M1 & M2 & M3 & M4). exists m', s1. split_and!; [by right|done|done|done].
Qed.
Lemma maybe_appeal_spec v s s' acts : maybe_appeal v s = Some (s', acts) → xbatches s' = xbatches s ∧ pending s' = pending s ∧ checked s' = checked s ∧
  ∀ a, a ∈ acts → ∃ h m s1, v_accusations v !! h = Some m ∧ appeal_one order v s1 (ma_half_step m) m = Some (Some a) ∧ xbatches s1 = xbatches s.
Proof using Horder.
  intros H. apply appeal_loop_spec in H as (H1 & H2 & H3 & _ & H5). cbn [sync_pending_appeals xbatches pending checked] in *. split_and!; try done.
  intros a Ha. destruct (H5 a Ha) as (m & s1 & M1 & M2 & M3 & _). apply elem_of_list_fmap in M1 as ([h m'] & -> & M1). rewrite Horder in M1. apply elem_of_map_to_list in M1. by exists h, m', s1.
Qed.
Lemma maybe_accuse_spec v s s' acts : maybe_accuse v s = Some (s', acts) → xbatches s' = xbatches s ∧ pending s' = pending s ∧ pending_appeals s' = pending_appeals s ∧ checked s' = v_half_steps v ∧
  ∀ a, a ∈ acts → ∃ h la, checked s ≤ h < v_half_steps v ∧ accuse_one me v s h = Some la ∧ a ∈ la.
Proof.
  clear keccak ecrecover addr_bytes batcher_address sign staggering order Horder. unfold DecideModel.maybe_accuse. intros H. inv_bind H. injection H as <- <-. split_and!; try done. intros x Hx. apply elem_of_list_join in Hx as (la & Hla & Hx).
  apply elem_of_list_lookup in Hx as [k Hk]. apply mapM_Some in E. pose proof (Forall2_lookup_r _ _ _ _ _ E Hk) as (h & Hh & Hacc). apply lookup_seqZ in Hh as [-> Hh]. eexists _, la. split; [|done]. lia.
Qed.
(** one decision in pieces *)
Lemma decision_inv s i s' acts : decision_step s i = Some (s', acts) →
  ∃ s1 a1 s2 s3 a3 s4 a4 a5, on_keys (i_view i) (i_sigs i) s (i_keys i) = Some (s1, a1) ∧ handle_signatures (i_view i) (i_sigs i) s1 = Some s2 ∧
    execute_batch (i_view i) s2 = Some (s3, a3) ∧ maybe_appeal (i_view i) s3 = Some (s4, a4) ∧ maybe_accuse (i_view i) s4 = Some (s', a5) ∧ acts = a1 ++ a3 ++ a4 ++ a5.
Proof. unfold DecideModel.decision_step. intros H. inv_bind H. injection H as <- <-. eexists _, _, _, _, _, _, _, _. split_and!; done. Qed.
Lemma decision_ok l s i s' acts : i ∈ l → batches_ok l s → decision_step s i = Some (s', acts) → batches_ok l s'.
Proof using Horder.
  intros Hi Hs H. apply decision_inv in H as (s1 & a1 & s2 & s3 & a3 & s4 & a4 & a5 & E1 & E2 & E3 & E4 & E5 & _).
  apply (on_keys_ok l i) in E1 as (H1 & _); [|done|done|done]. apply (handle_signatures_ok l i) in E2; [|done|done].
  apply execute_batch_keeps in E3 as (E3 & _). apply maybe_appeal_spec in E4 as (E4 & _). apply maybe_accuse_spec in E5 as (E5 & _).
  intros b x. rewrite E5, E4, E3. apply E2.
Qed.
Lemma decisions_snoc s l i r : decisions s (l ++ [i]) = Some r ↔ ∃ s1 al acts s2, decisions s l = Some (s1, al) ∧ decision_step s1 i = Some (s2, acts) ∧ r = (s2, al ++ [acts]).
Proof.
  revert s r. induction l as [|j l IH]; intros s r; cbn [DecideModel.decisions app].
  - split.
    + intros H. inv_bind H. injection H as <-. eexists _, _, _, _. split_and!; done.
    + intros (s1 & al & acts & s2 & [= <- <-] & -> & ->). done.
  - split.
    + intros H. inv_bind H. injection H as <-. apply IH in E0 as (s1 & al & acts & s2 & D1 & D2 & [= -> ->]). eexists _, _, _, _. split_and!; [cbn [mbind option_bind]; rewrite D1; done|done|done].
    + intros (s1 & al & acts & s2 & H & D2 & ->). inv_bind H. injection H as <- <-. cbn [mbind option_bind].
      rewrite (proj2 (IH x (s2, l1 ++ [acts]))); [done|]. eexists _, _, _, _; split_and!; done.
Qed.
Lemma decisions_ok s l0 l s' al : batches_ok l0 s → decisions s l = Some (s', al) → batches_ok (l0 ++ l) s'.
Proof using Horder.
  intros Hs. revert s' al. induction l as [|i l IH] using rev_ind; intros s' al H.
  - injection H as <- _. by rewrite app_nil_r.
  - apply decisions_snoc in H as (s1 & al1 & acts & s2 & D1 & D2 & [= -> ->]). eapply decision_ok; [|..|exact D2]; [set_solver|].
    intros b x Hx. eapply batch_ok_mono; [|by eapply IH]. rewrite app_assoc. set_solver.
Qed.
Lemma reached_ok l s al : decisions new_x l = Some (s, al) → batches_ok l s.
Proof using Horder. intros H. apply (decisions_ok _ [] _ _ _) in H; [done|]. intros b x. cbn. by rewrite lookup_empty. Qed.

(** ** Sorted signatures *)
Definition strictly_increasing (l : list Z) : Prop := ∀ i j x y, (i < j)%nat → l !! i = Some x → l !! j = Some y → x < y.
Lemma sorted_signatures_spec v x c sigs idx : config_for_batch (v_configs v) (b_index x) = Some (Some c) → sorted_signatures order v x = Some (Some (sigs, idx)) →
  length sigs = length idx ∧ length sigs = size (b_sigs x) ∧ threshold c ≤ Z.of_nat (length sigs) ∧ strictly_increasing idx ∧
  ∀ n i sig, idx !! n = Some i → sigs !! n = Some sig → ∃ a, keyper_index c a = Some i ∧ b_sigs x !! a = Some sig.
Proof using Horder.
  clear keccak ecrecover addr_bytes batcher_address me sign staggering. unfold sorted_signatures. intros ->. destruct (Z.ltb_spec (Z.of_nat (size (b_sigs x))) (threshold c)) as [|Ht]; [done|].
  destruct (mapM _ _) as [l|] eqn:Em; [|done]. intros [= <- <-]. apply mapM_Some in Em.
  set (l' := merge_sort by_index l). assert (l' ≡ₚ l) as Hp by apply merge_sort_Permutation.
  assert (Sorted by_index l') as Hsort. { apply Sorted_merge_sort. intros y z. unfold by_index. lia. }
  assert (length l = size (b_sigs x)) as Hlen. { apply Forall2_length in Em. rewrite <-Em. rewrite (Permutation_length (Horder _ (map_to_list (b_sigs x)))). reflexivity. }
  assert (∀ i sig, (i, sig) ∈ l → ∃ a, keyper_index c a = Some i ∧ b_sigs x !! a = Some sig) as Hl.
  { intros i sig Hin. apply elem_of_list_lookup in Hin as [k Hk]. pose proof (Forall2_lookup_r _ _ _ _ _ Em Hk) as ([a sg] & Ha & Hx). cbn in Hx. destruct (keyper_index c a) as [i'|] eqn:Ei; [|done].
    injection Hx as <- <-. exists a. split; [done|]. apply elem_of_map_to_list. rewrite <-(Horder _ (map_to_list (b_sigs x))). by eapply elem_of_list_lookup_2. }
  assert (NoDup (l.*1)) as Hnd.
  { assert (∀ al, NoDup (al.*1) → ∀ l, Forall2 (λ (x : N * list N) y, (let '(a, sig) := x in (λ i, (i, sig)) <$> keyper_index c a) = Some y) al l → NoDup (l.*1) ∧ ∀ i, i ∈ l.*1 → ∃ a, a ∈ al.*1 ∧ keyper_index c a = Some i) as Hg.
    { clear. induction al as [|[a sg] al IH]; intros Hn l H; inversion_clear H as [|? y ? l' Hy Hl]; [split; [constructor|intros i []%elem_of_nil]|].
      cbn in Hn. apply NoDup_cons in Hn as [Hn1 Hn2]. destruct (IH Hn2 l' Hl) as [I1 I2]. destruct (keyper_index c a) as [i|] eqn:Ei; [|done]. injection Hy as <-. cbn. split.
      - constructor; [|done]. intros Hin. destruct (I2 i Hin) as (a' & Ha' & Ei'). apply keyper_index_spec in Ei as [_ Ei]. apply keyper_index_spec in Ei' as [_ Ei']. rewrite Ei in Ei'. injection Ei' as <-. done.
      - intros j [->|Hj]%elem_of_cons; [exists a; split; [by left|done]|]. destruct (I2 j Hj) as (a' & ? & ?). exists a'. split; [by right|done]. }
    eapply Hg; [|exact Em]. rewrite (fmap_Permutation _ _ _ (Horder _ (map_to_list (b_sigs x)))). apply NoDup_fst_map_to_list. }
  pose proof (Permutation_length Hp) as Hpl. rewrite !fmap_length, Hpl, Hlen. split_and!; [done|done|done| |].
  - assert (NoDup (l'.*1)) as Hnd' by (rewrite (fmap_Permutation _ _ _ Hp); exact Hnd). apply Sorted_StronglySorted in Hsort; [|intros ? ? ?; unfold by_index; lia]. clear -Hsort Hnd'.
    induction Hsort as [|y l' Hs IH Hall]; [by intros i j x z _ ?|]. cbn in Hnd'. apply NoDup_cons in Hnd' as [H1 H2]. intros [|i] [|j] p q Hlt; [lia| |lia|].
    + cbn. intros [= <-] Hq. apply elem_of_list_lookup_2 in Hq. apply elem_of_list_fmap in Hq as (z & -> & Hz). rewrite Forall_forall in Hall. specialize (Hall z Hz). unfold by_index in Hall.
      assert (y.1 ≠ z.1); [|lia]. intros E. apply H1. rewrite E. by apply elem_of_list_fmap_1.
    + cbn. apply IH; [done|lia].
  - intros n i sig Hi Hs. rewrite list_lookup_fmap in Hi. rewrite list_lookup_fmap in Hs. destruct (l' !! n) as [[i' sg]|] eqn:En; [|done]. injection Hi as <-. injection Hs as <-. apply Hl. apply (elem_of_Permutation_proper _ _ _ Hp). by eapply elem_of_list_lookup_2.
Qed.
End Decide.

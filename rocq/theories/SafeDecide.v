(** Decisions that do not panic: decryption, execution, appeals and accusations. *)
From stdpp Require Import list gmap sorting.
From Coq Require Import ZArith NArith Lia.
From Verif Require Import ArithModel PropsArith ContractsModel MainModel DecideModel DecideProofs SafeProofs.
Local Open Scope Z_scope.

(** what the keyper knows about the main chain: a config for every batch and every block *)
Record usable (v : view) : Prop := {
  us_first : ∃ c rest, v_configs v = c :: rest ∧ start_batch c = 0 ∧ start_block c = 0;
  us_starts : ∀ c, c ∈ v_configs v → 0 ≤ start_batch c;
  us_current : 0 ≤ current v;
  us_half_steps : 0 ≤ v_half_steps v
}.
(** [c] is the config for batch [b] and it is active: batches are opened *)
Definition active_for (v : view) (b : Z) : Prop := ∃ j c, v_configs v !! j = Some c ∧ start_batch c ≤ b ∧ 0 < span c ∧
  ∀ j' c', (j < j')%nat → v_configs v !! j' = Some c' → b < start_batch c'.
(** active configs have keypers *)
Definition staffed (v : view) : Prop := ∀ c, c ∈ v_configs v → 0 < span c → (0 < Z.of_nat (length (keypers c)) < 2 ^ 63).

Lemma config_loop_total cs c0 b i : cs !! 0%nat = Some c0 → start_batch c0 ≤ b → (S i ≤ length cs)%nat → is_Some (config_loop cs (S i) b).
Proof.
  intros H0 Hb. induction i as [|i IH]; intros Hi; cbn [config_loop].
  - rewrite H0. destruct (Z.leb_spec (start_batch c0) b); [eauto|lia].
  - destruct (lookup_lt_is_Some_2 cs (S i) ltac:(lia)) as [c ->]. destruct (_ <=? _); [eauto|]. apply IH. lia.
Qed.
Lemma active_loop_total cs c0 b i : cs !! 0%nat = Some c0 → start_block c0 ≤ b → (S i ≤ length cs)%nat → is_Some (active_loop cs (S i) b).
Proof.
  intros H0 Hb. induction i as [|i IH]; intros Hi; cbn [active_loop].
  - rewrite H0. destruct (Z.leb_spec (start_block c0) b); [eauto|lia].
  - destruct (lookup_lt_is_Some_2 cs (S i) ltac:(lia)) as [c ->]. destruct (_ <=? _); [eauto|]. apply IH. lia.
Qed.
Lemma config_total v b : usable v → 0 ≤ b → ∃ o, config_for_batch (v_configs v) b = Some o ∧ (∀ c, o = Some c → start_batch c ≤ b ∧ 0 < span c ∧ c ∈ v_configs v) ∧ (active_for v b → is_Some o).
Proof.
  intros [(c0 & rest & E & H1 & H2) _ _ _] Hb. unfold config_for_batch.
  destruct (config_index_for_batch (v_configs v) b) as [r|] eqn:Hr.
  2:{ exfalso. unfold config_index_for_batch in Hr. rewrite E in Hr. cbn [length] in Hr. destruct (config_loop_total (c0 :: rest) c0 b (length rest)) as [x Hx]; [done|lia|done|]. congruence. }
  apply C24_config_for_batch in Hr as (j & c & Hj & Hle & -> & Hlast). eexists. split; [done|]. unfold is_active. destruct (Z.ltb_spec 0 (span c)).
  - cbn [mbind option_bind]. rewrite Hj. split; [|eauto]. intros c' [= <-]. split; [done|]. split; [done|]. by eapply elem_of_list_lookup_2.
  - split; [done|]. intros (j' & c' & Hj' & Hle' & Hsp & Hlast'). exfalso. destruct (Nat.lt_trichotomy j j') as [Hlt|[->|Hlt]].
    + specialize (Hlast _ _ Hlt Hj'). lia.
    + rewrite Hj in Hj'. injection Hj' as <-. lia.
    + specialize (Hlast' _ _ Hlt Hj). lia.
Qed.
Lemma active_total v : usable v → ∃ n c, active_config_index (v_configs v) (current v) = Some n ∧ v_configs v !! n = Some c ∧ start_block c ≤ current v.
Proof.
  intros [(c0 & rest & E & H1 & H2) _ Hc _]. destruct (active_config_index (v_configs v) (current v)) as [r|] eqn:Hr.
  2:{ exfalso. unfold active_config_index in Hr. rewrite E in Hr. cbn [length] in Hr. destruct (active_loop_total (c0 :: rest) c0 (current v) (length rest)) as [x Hx]; [done|lia|done|]. congruence. }
  pose proof Hr as Hr'. apply C24_active_config in Hr' as [(c & Hj & Hle) _]. by exists r, c.
Qed.
Lemma batch_end_total c b : start_batch c ≤ b → is_Some (batch_end_block c b).
Proof. intros H. unfold batch_end_block, batch_start_block. destruct (Z.ltb_spec b (start_batch c)); [lia|]. cbn. eauto. Qed.
Lemma batch_index_total v n c : usable v → v_configs v !! n = Some c → start_block c ≤ current v → ∃ b, batch_index c (current v) = Some b ∧ 0 ≤ b.
Proof.
  intros Hu Hc Hle. unfold batch_index. destruct (Z.ltb_spec (current v) (start_block c)); [lia|]. destruct (_ =? _).
  - eexists. split; [done|]. apply (us_starts v Hu). by eapply elem_of_list_lookup_2.
  - eexists. split; [done|]. unfold u64. apply Z.mod_pos_bound. lia.
Qed.
Lemma timed_out_total v b : usable v → 0 ≤ b → ∃ t, timed_out_or_inactive v b = Some t ∧ (t = false → ∃ c, config_for_batch (v_configs v) b = Some (Some c)).
Proof.
  intros Hu Hb. unfold timed_out_or_inactive. destruct (config_total v b Hu Hb) as (o & -> & Hc & _). destruct o as [c|]; [|by exists true].
  destruct (Hc c eq_refl) as (Hle & _). destruct (batch_end_total c b Hle) as [e ->]. cbn [mbind option_bind]. eexists. split; [done|]. intros _. by exists c.
Qed.

Section Safe.
Context (keccak : bytes → bytes) (ecrecover : bytes → Z → Z → Z → option N) (addr_bytes : N → bytes) (batcher_address : N).
Context (me : N) (sign : bytes → bytes) (staggering : Z) (order : ∀ A, list A → list A).
Context (Horder : ∀ A (l : list A), Permutation (order A l) l).
Notation sigmap := (gmap Z (list (N * bytes))).

Definition bsafe (b : Z) (x : batch) : Prop := b_index x = b ∧ ∀ a sig, b_sigs x !! a = Some sig → length sig = 65%nat.
Record xsafe (s : xstate) : Prop := { xs_batches : ∀ b x, xbatches s !! b = Some x → bsafe b x; xs_checked : 0 ≤ checked s }.
(** decryption signatures are published only for batches of active configs *)
Definition signed_active (v : view) (sigs : sigmap) : Prop := ∀ b, is_Some (sigs !! b) → 0 ≤ b ∧ active_for v b.
Definition accused_active (v : view) : Prop := ∀ k a, v_accusations v !! k = Some a → 0 ≤ ma_half_step a ∧ active_for v (ma_half_step a / 2).

Lemma sync_loop_bsafe c b l : ∀ x, bsafe b x → bsafe b (sync_loop ecrecover c x l).
Proof.
  induction l as [|[a sig] l IH]; intros x Hx; cbn [sync_loop]; [done|]. destruct (negb _); [by apply IH|]. destruct (bool_decide _); [by apply IH|].
  destruct (verify_signature ecrecover x a sig) eqn:Ev; cbn [negb]; [|by apply IH].
  assert (bsafe b (add_signature x a sig)) as Hx'.
  { destruct Hx as [H1 H2]. split; [done|]. intros a' sig'. cbn. intros [[<- <-]|[_ H]]%lookup_insert_Some; [|by eapply H2].
    unfold verify_signature, go_recover in Ev. destruct (Nat.eqb_spec (length sig) 65); [done|]. cbn in Ev. done. }
  destruct (_ <=? _); [done|]. by apply IH.
Qed.
Lemma sync_batch_safe v sigs b x : usable v → (is_Some (sigs !! b) → active_for v b) → 0 ≤ b → bsafe b x → ∃ y, sync_batch ecrecover v sigs x = Some y ∧ bsafe b y.
Proof.
  intros Hu Hs Hb [H1 H2]. unfold sync_batch. rewrite H1. destruct (sigs !! b) as [l|] eqn:El; [|by exists x].
  destruct (config_total v b Hu Hb) as (o & -> & Hc & Ha). destruct (Ha (Hs ltac:(eauto))) as [c ->]. destruct (b_empty x); [by exists x|]. eexists. split; [done|].
  unfold set_sig_index. destruct (sync_loop_bsafe c b (drop (b_sig_index x) l) x) as [H3 H4]; [done|]. by split.
Qed.
Lemma on_key_safe v sigs s b dec : usable v → xsafe s → 0 ≤ b → (∃ s' acts, on_key keccak ecrecover addr_bytes batcher_address sign v sigs s b dec = Some (s', acts) ∧ xsafe s').
Proof.
  intros Hu Hx Hb. unfold on_key. set (x := decrypt_transactions _ _ _ _ _ _).
  assert (bsafe b x) as Hbx by (split; [done|]; intros a sig; cbn; by rewrite lookup_empty).
  destruct (timed_out_total v b Hu Hb) as (t & -> & Ht). cbn [mbind option_bind]. destruct t.
  - eexists _, _. split; [done|]. destruct Hx as [X1 X2]. split; [|done]. cbn. intros b' y [[<- <-]|[_ H]]%lookup_insert_Some; [done|by apply X1].
  - destruct (Ht eq_refl) as [c Hc]. unfold send_signature.
    assert (∃ y, sync_batch ecrecover v sigs x = Some y ∧ bsafe b y) as (y & -> & Hy).
    { unfold sync_batch. destruct Hbx as [H1 H2]. rewrite H1. destruct (sigs !! b) as [l|]; [|by exists x]. rewrite Hc. destruct (b_empty x); [by exists x|]. eexists. split; [done|].
      destruct (sync_loop_bsafe c b (drop (b_sig_index x) l) x) as [H3 H4]; [done|]. by split. }
    cbn [mbind option_bind]. destruct Hbx as [Hi _]. rewrite Hi, Hc. cbn [mbind option_bind]. eexists _, _. split; [done|]. destruct Hx as [X1 X2]. split; [|done]. cbn. intros b' y' [[<- <-]|[_ H]]%lookup_insert_Some; [done|by apply X1].
Qed.
Lemma on_keys_safe v sigs keys : ∀ s, usable v → xsafe s → Forall (λ k, 0 ≤ k.1) keys → ∃ s' acts, on_keys keccak ecrecover addr_bytes batcher_address sign v sigs s keys = Some (s', acts) ∧ xsafe s'.
Proof.
  induction keys as [|[b dec] keys IH]; intros s Hu Hx HF; cbn [on_keys]; [by eexists _, _|]. apply Forall_cons in HF as [Hb HF]. cbn in Hb.
  destruct (on_key_safe v sigs s b dec Hu Hx Hb) as (s1 & a1 & -> & H1). cbn [mbind option_bind]. destruct (IH s1 Hu H1 HF) as (s2 & a2 & -> & H2). cbn [mbind option_bind]. by eexists _, _.
Qed.
Lemma handle_signatures_safe v sigs s : usable v → signed_active v sigs → xsafe s → ∃ s', handle_signatures ecrecover v sigs s = Some s' ∧ xsafe s'.
Proof.
  intros Hu Hs [X1 X2].
  assert (∀ b x, xbatches s !! b = Some x → ∃ y, sync_batch ecrecover v sigs x = Some y ∧ bsafe b y) as G.
  { intros b x Hx. specialize (X1 _ _ Hx). destruct (sigs !! b) as [l|] eqn:El.
    - destruct (Hs b) as [Hb Ha]; [eauto|]. by apply sync_batch_safe.
    - exists x. split; [|done]. unfold sync_batch. destruct X1 as [-> _]. by rewrite El. }
  unfold handle_signatures. rewrite (proj2 (forallb_forall _ _)).
  2:{ intros [b x] Hin. apply elem_of_list_In, elem_of_map_to_list in Hin. destruct (G b x Hin) as (y & E & _). cbn. rewrite E. by apply bool_decide_eq_true. }
  eexists. split; [done|]. split; [|done]. cbn. intros b y Hy. rewrite lookup_omap in Hy. apply bind_Some in Hy as (x & Hx & E). destruct (G b x Hx) as (y' & E' & H). congruence.
Qed.
Lemma execution_delay_total c h : 0 < Z.of_nat (length (keypers c)) < 2 ^ 63 → is_Some (execution_delay c staggering me h).
Proof.
  intros Hk. unfold execution_delay. cbv zeta. assert (u64 (Z.of_nat (length (keypers c)) - 1) = Z.of_nat (length (keypers c)) - 1) as -> by (unfold u64; apply Z.mod_small; lia).
  set (n := Z.of_nat (length (keypers c))) in *. clearbody n.
  destruct (Z.eqb_spec (n - 1) 0).
  - destruct (Z.eqb_spec n 0); [lia|]. eauto.
  - assert (u64 (2 * (n - 1)) = 2 * (n - 1)) as -> by (unfold u64; apply Z.mod_small; lia). destruct (Z.eqb_spec (2 * (n - 1)) 0); [lia|]. destruct (Z.eqb_spec n 0); [lia|]. eauto.
Qed.
Lemma execute_half_step_safe v s h : usable v → staffed v → 0 ≤ h → is_Some (execute_half_step me staggering v s h).
Proof.
  intros Hu Hst Hh. unfold execute_half_step. cbv zeta. destruct (config_total v (h / 2) Hu ltac:(apply Z.div_pos; lia)) as (o & -> & Hc & _). destruct o as [c|]; [|eauto].
  destruct (Hc c eq_refl) as (Hle & Hsp & Hin). destruct (execution_delay_total c h (Hst c Hin Hsp)) as [d ->]. cbn [mbind option_bind]. destruct (batch_end_total c (h / 2) Hle) as [e ->]. cbn [mbind option_bind].
  destruct (_ && _); [eauto|]. unfold execute_cipher. destruct (is_keyper c me) eqn:Ek; cbn [negb]; [|eauto]. destruct (_ <=? _); [|eauto]. destruct (_ =? _); [|eauto].
  unfold is_keyper in Ek. destruct (keyper_index c me); [|done]. destruct (xbatches s !! _); [|eauto]. destruct (_ && _); eauto.
Qed.
Lemma execute_loop_safe v s n : ∀ h p, usable v → staffed v → 0 ≤ h → is_Some (execute_loop me staggering v s h n p).
Proof.
  induction n as [|n IH]; intros h p Hu Hst Hh; cbn [execute_loop]; [eauto|]. destruct (execute_half_step_safe v s h Hu Hst Hh) as [[a|] ->]; cbn [mbind option_bind]; [|eauto].
  destruct (IH (h + 1) (Some h) Hu Hst ltac:(lia)) as [[p' acts] ->]. cbn [mbind option_bind]. eauto.
Qed.
Lemma execute_batch_safe v s : usable v → staffed v → xsafe s → ∃ s' acts, execute_batch me staggering v s = Some (s', acts) ∧ xsafe s'.
Proof.
  intros Hu Hst Hx. destruct (execute_batch me staggering v s) as [[s' acts]|] eqn:E.
  - eexists _, _. split; [done|]. destruct (execute_batch_keeps _ _ _ _ _ _ E) as (E1 & _ & E3). destruct Hx as [X1 X2]. split; [by rewrite E1|by rewrite E3].
  - exfalso. unfold execute_batch, active_config in E. destruct (active_total v Hu) as (n & c & E1 & E2 & Hle). rewrite E1 in E. cbn [mbind option_bind] in E. rewrite E2 in E.
    destruct (negb _) in E; [done|]. destruct (batch_index_total v n c Hu E2 Hle) as (b & Eb & _). rewrite Eb in E. cbn [mbind option_bind] in E. cbv zeta in E.
    destruct (execute_loop_safe v s (Z.to_nat (num_half_steps_to_execute (v_half_steps v) b)) (v_half_steps v) None Hu Hst (us_half_steps v Hu)) as [[p' acts] El].
    destruct (pending s) as [p|]; [destruct (_ <? _) in E|]; try done; rewrite El in E; done.
Qed.
Lemma to_contract_total sig : length sig = 65%nat → is_Some (to_contract_format sig).
Proof. intros H. unfold to_contract_format. destruct (lookup_lt_is_Some_2 sig 64 ltac:(lia)) as [x ->]. eauto. Qed.
Lemma sorted_signatures_safe v x : usable v → 0 ≤ b_index x → active_for v (b_index x) → (∀ a sig, b_sigs x !! a = Some sig → length sig = 65%nat) →
  ∃ o, sorted_signatures order v x = Some o ∧ ∀ sigs idx, o = Some (sigs, idx) → Forall (λ sig : bytes, length sig = 65%nat) sigs.
Proof.
  intros Hu Hb Ha Hl. unfold sorted_signatures. destruct (config_total v _ Hu Hb) as (o & -> & _ & Hc). destruct (Hc Ha) as [c ->]. destruct (_ <? _); [by eexists|].
  destruct (mapM _ _) as [l|] eqn:Em; [|by eexists]. eexists. split; [done|]. intros sigs idx [= <- <-].
  apply mapM_Some in Em. apply Forall_fmap, Forall_forall. intros [i sig] Hin. cbn. rewrite (merge_sort_Permutation by_index l) in Hin. apply elem_of_list_lookup in Hin as [j Hj].
  destruct (Forall2_lookup_r _ _ _ _ _ Em Hj) as ([a sig'] & Hj' & E). destruct (keyper_index c a); [|done]. injection E as -> ->.
  apply elem_of_list_lookup_2 in Hj'. rewrite Horder in Hj'. apply elem_of_map_to_list in Hj'. by eapply Hl.
Qed.
Lemma appeal_one_safe v s n a : usable v → xsafe s → 0 ≤ n → active_for v (n / 2) → is_Some (appeal_one order v s n a).
Proof.
  intros Hu [X1 X2] Hn Ha. unfold appeal_one. destruct (ma_appealed a); [eauto|]. destruct (bool_decide _); [eauto|]. destruct (v_receipts v !! n) as [r|]; [|eauto].
  destruct (xbatches s !! (n / 2)) as [x|] eqn:Ex; [|eauto]. destruct (negb _); [eauto|]. destruct (X1 _ _ Ex) as [Hi Hl].
  destruct (sorted_signatures_safe v x Hu) as (o & -> & Ho); [rewrite Hi; apply Z.div_pos; lia|by rewrite Hi|done|]. cbn [mbind option_bind]. destruct o as [[sigs idx]|]; [|eauto].
  destruct (mapM_safe to_contract_format sigs) as [l ->]; [|cbn; eauto]. intros sig Hs. apply to_contract_total. specialize (Ho _ _ eq_refl). rewrite Forall_forall in Ho. by apply Ho.
Qed.
Lemma appeal_loop_safe v l : ∀ s, usable v → xsafe s → (∀ a, a ∈ l → 0 ≤ ma_half_step a ∧ active_for v (ma_half_step a / 2)) → ∃ s' acts, appeal_loop order v s l = Some (s', acts) ∧ xsafe s'.
Proof.
  induction l as [|a l IH]; intros s Hu Hx Hl; cbn [appeal_loop]; [by eexists _, _|]. destruct (Hl a ltac:(by left)) as [H1 H2]. destruct (appeal_one_safe v s _ a Hu Hx H1 H2) as [o ->]. cbn [mbind option_bind].
  assert (∀ a, a ∈ l → 0 ≤ ma_half_step a ∧ active_for v (ma_half_step a / 2)) as Hl' by (intros; apply Hl; by right).
  destruct o as [act|]; [|by apply IH]. destruct (IH (mkX (pending s) ({[ma_half_step a]} ∪ pending_appeals s) (xbatches s) (checked s)) Hu) as (s' & acts & -> & Hx'); [|done|].
  - destruct Hx as [X1 X2]. by split.
  - cbn [mbind option_bind]. by eexists _, _.
Qed.
Lemma maybe_appeal_safe v s : usable v → accused_active v → xsafe s → ∃ s' acts, maybe_appeal order v s = Some (s', acts) ∧ xsafe s'.
Proof.
  intros Hu Ha [X1 X2]. unfold maybe_appeal. apply appeal_loop_safe; [done|by split|]. intros a ([k a'] & -> & Hin)%elem_of_list_fmap. rewrite Horder in Hin. apply elem_of_map_to_list in Hin. by eapply Ha.
Qed.
Lemma maybe_accuse_safe v s : usable v → xsafe s → ∃ s' acts, maybe_accuse me v s = Some (s', acts) ∧ xsafe s'.
Proof.
  intros Hu [X1 X2]. unfold maybe_accuse. destruct (mapM_safe (accuse_one me v s) (seqZ (checked s) (v_half_steps v - checked s))) as [acts ->].
  - intros h Hh%elem_of_seqZ. unfold accuse_one. destruct (negb _); [eauto|]. destruct (v_receipts v !! h); [|eauto]. destruct (xbatches s !! (h / 2)); [|eauto]. destruct (bool_decide _); [eauto|]. destruct (bool_decide _); [eauto|].
    destruct (config_total v (h / 2) Hu ltac:(apply Z.div_pos; lia)) as (o & -> & _). destruct o; eauto.
  - cbn [mbind option_bind]. eexists _, _. split; [done|]. split; [done|]. cbn. apply Hu.
Qed.
End Safe.

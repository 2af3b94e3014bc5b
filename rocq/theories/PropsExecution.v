(** C56, C57: what keypers execute, when, and how they defend it. *)
From stdpp Require Import list gmap sorting.
From Coq Require Import ZArith NArith Lia.
From Verif Require Import ArithModel PropsArith ContractsModel ContractsProofs PropsConfig PropsBatcher PropsExec PropsSlasher MainModel MainProofs PropsMain DecideModel DecideProofs PropsDecide.
Local Open Scope Z_scope.

Set Default Proof Using "Type".
(** the half step an action executes *)
Definition executed (a : action) : option Z :=
  match a with
  | AExecCipher b _ _ _ | ASkipCipher b => Some (2 * b)
  | AExecPlain b _ => Some (2 * b + 1)
  | _ => None
  end.
(** the keyper's view of the number of half steps never goes back (see C54) *)
Definition rising (l : list input) : Prop := ∀ j k x y, (j ≤ k)%nat → l !! j = Some x → l !! k = Some y → v_half_steps (i_view x) ≤ v_half_steps (i_view y).

Lemma omap_none {A B} (f : A → option B) l : (∀ a, a ∈ l → f a = None) → omap f l = [].
Proof. induction l as [|a l IH]; intros H; [done|]. cbn. rewrite (H a) by left. apply IH. intros b Hb. apply H. by right. Qed.
Lemma rising_snoc l i : rising (l ++ [i]) → rising l ∧ ∀ x, x ∈ l → v_half_steps (i_view x) ≤ v_half_steps (i_view i).
Proof.
  intros H. split.
  - intros j k x y Hjk Hx Hy. apply (H j k); [done|by apply lookup_app_l_Some..].
  - intros x Hx. apply elem_of_list_lookup in Hx as [j Hj]. pose proof (lookup_lt_Some _ _ _ Hj). apply (H j (length l)); [lia|by apply lookup_app_l_Some|]. by rewrite lookup_app_r, Nat.sub_diag by lia.
Qed.
Definition below (done_ : list Z) (p : option Z) (l : list input) : Prop :=
  match p with Some p => ∀ h, h ∈ done_ → h ≤ p | None => ∀ h, h ∈ done_ → ∃ i, i ∈ l ∧ h < v_half_steps (i_view i) end.

Section Props.
Context (keccak : list N → list N) (ecrecover : list N → Z → Z → Z → option N) (addr_bytes : N → list N) (batcher_address : N).
Context (me : N) (sign : list N → list N) (staggering : Z).
Context (order : ∀ A, list A → list A) (Horder : ∀ A (l : list A), order A l ≡ₚ l).
Notation transactions_hash := (transactions_hash keccak).
Notation signature_hash := (signature_hash keccak addr_bytes batcher_address).
Notation go_recover := (go_recover ecrecover).
Notation decisions := (decisions keccak ecrecover addr_bytes batcher_address me sign staggering order).
Notation decision_step := (decision_step keccak ecrecover addr_bytes batcher_address me sign staggering order).
Notation execute_batch := (execute_batch me staggering).
Notation batches_ok := (batches_ok keccak ecrecover addr_bytes batcher_address).

Lemma executes_half_step v s h act : executes me staggering v s h act → executed act = Some h.
Proof.
  clear keccak ecrecover addr_bytes batcher_address sign order Horder. intros (c & d & e & _ & _ & _ & H). pose proof (Z.div_mod h 2 ltac:(lia)). pose proof (Z.mod_pos_bound h 2 ltac:(lia)).
  destruct H as [(-> & Hm & _)|(_ & _ & [(-> & Hm)|(Hm & _ & k & x & _ & _ & -> & _)])]; cbn [executed]; f_equal; lia.
Qed.
Lemma appeal_one_appeals v s n m act : appeal_one order v s n m = Some (Some act) → ∃ u, act = AAppeal u.
Proof.
  unfold appeal_one. destruct (ma_appealed m); [done|]. destruct (bool_decide _); [done|]. destruct (v_receipts v !! n); [|done]. destruct (xbatches s !! _); [|done]. destruct (negb _); [done|].
  intros H. inv_bind H. destruct a as [[sigs idx]|]; [|done]. inv_bind H. injection H as <-. eauto.
Qed.
Lemma accuse_one_accuses v s h l act : accuse_one me v s h = Some l → act ∈ l →
  l = [act] ∧ h mod 2 = 0 ∧ ∃ r x c, v_receipts v !! h = Some r ∧ xbatches s !! (h / 2) = Some x ∧ b_hash x ≠ r_batch_hash r ∧ v_accusations v !! h = None ∧
    config_for_batch (v_configs v) (h / 2) = Some (Some c) ∧ act = AAccuse h (default 0 (keyper_index c me)).
Proof.
  unfold accuse_one. intros H Hin. destruct (Z.eqb_spec (h mod 2) 0) as [Hm|]; [|injection H as <-; by apply elem_of_nil in Hin]. cbn [negb] in H.
  destruct (v_receipts v !! h) as [r|]; [|injection H as <-; by apply elem_of_nil in Hin]. destruct (xbatches s !! (h / 2)) as [x|]; [|injection H as <-; by apply elem_of_nil in Hin].
  destruct (bool_decide (b_hash x = r_batch_hash r)) eqn:Eh; [injection H as <-; by apply elem_of_nil in Hin|]. apply bool_decide_eq_false in Eh.
  destruct (v_accusations v !! h) eqn:Ea; [rewrite bool_decide_true in H by eauto; injection H as <-; by apply elem_of_nil in Hin|]. rewrite bool_decide_false in H by (intros [? [=]]).
  destruct (config_for_batch _ _) as [[c|]|]; [|injection H as <-; by apply elem_of_nil in Hin|done]. injection H as <-. apply elem_of_list_singleton in Hin as ->.
  split; [done|]. split; [done|]. exists r, x, c. done.
Qed.
(** the parts of a decision *)
Lemma decision_parts l s i s' acts : i ∈ l → batches_ok l s → decision_step s i = Some (s', acts) →
  ∃ s2 s3 ex sg ap ac, acts = sg ++ ex ++ ap ++ ac ∧ batches_ok l s2 ∧ pending s2 = pending s ∧ checked s2 = checked s ∧ execute_batch (i_view i) s2 = Some (s3, ex) ∧
    xbatches s3 = xbatches s2 ∧ xbatches s' = xbatches s2 ∧ pending s' = pending s3 ∧
    (∀ a, a ∈ sg → ∃ b sig, a = ASignature b sig) ∧ (∀ a, a ∈ ap → ∃ u, a = AAppeal u) ∧
    (∃ s4, xbatches s4 = xbatches s2 ∧ checked s4 = checked s ∧ maybe_accuse me (i_view i) s4 = Some (s', ac)) ∧ omap executed acts = omap executed ex.
Proof using Horder.
  intros Hi Hok H. apply decision_inv in H as (t1 & a1 & t2 & t3 & a3 & t4 & a4 & a5 & E1 & E2 & E3 & E4 & E5 & ->).
  apply on_keys_ok with (l := l) in E1 as (K1 & K2 & _ & K4 & K5 & _); [|done|done|done].
  pose proof (handle_signatures_ok keccak ecrecover addr_bytes batcher_address l i t1 t2 Hi K1 E2) as K6. apply handle_signatures_spec in E2 as (P1 & _ & P3 & _).
  pose proof (execute_batch_keeps _ _ _ _ _ _ E3) as (X1 & X2 & X3). pose proof E4 as E4'. apply maybe_appeal_spec in E4' as (M1 & M2 & M3 & M4); [|done].
  pose proof E5 as E5'. apply maybe_accuse_spec in E5' as (A1 & A2 & A3 & A4 & A5).
  assert (∀ a, a ∈ a4 → ∃ u, a = AAppeal u) as Hap. { intros a Ha. destruct (M4 a Ha) as (h & m & s1 & _ & M & _). by apply appeal_one_appeals in M. }
  exists t2, t3, a3, a1, a4, a5. split_and!; try done; try congruence.
  - exists t4. split_and!; [congruence|congruence|done].
  - rewrite !omap_app. rewrite (omap_none _ a1), (omap_none _ a4), (omap_none _ a5); [by rewrite !app_nil_r|..].
    + intros a Ha. destruct (A5 a Ha) as (h & la & _ & H1 & H2). eapply accuse_one_accuses in H1 as (_ & _ & ? & ? & ? & _ & _ & _ & _ & _ & ->); done.
    + intros a Ha. by destruct (Hap a Ha) as [u ->].
    + intros a Ha. by destruct (K5 a Ha) as (? & ? & ->).
Qed.

Lemma execute_list v s s' ex : execute_batch v s = Some (s', ex) → omap executed ex = seqZ (v_half_steps v) (Z.of_nat (length ex)) ∧ (length ex ≤ 10)%nat.
Proof.
  intros H. apply execute_batch_spec in H as (H1 & _ & _ & _ & H5 & _). split; [|done]. clear H5. clear keccak ecrecover addr_bytes batcher_address sign order Horder.
  generalize dependent (v_half_steps v). induction ex as [|a ex IH]; intros h H1; [done|].
  assert (executed a = Some h) as Ha. { rewrite <-(Z.add_0_r h). apply (executes_half_step v s). by apply (H1 0%nat). }
  rewrite seqZ_cons by (cbn [length]; lia). cbn [omap list_omap]. rewrite Ha. f_equal.
  replace (Z.pred (Z.of_nat (length (a :: ex)))) with (Z.of_nat (length ex)) by (cbn [length]; lia). apply IH.
  intros k act Hk. replace (Z.succ h + Z.of_nat k) with (h + Z.of_nat (S k)) by lia. by apply H1.
Qed.
Lemma decisions_length s l s' al : decisions s l = Some (s', al) → length al = length l.
Proof.
  revert s s' al. induction l as [|i l IH]; intros s s' al H; cbn [DecideModel.decisions] in H; [by injection H as <- <-|]. inv_bind H. injection H as <- <-. cbn [length]. f_equal. by eapply IH.
Qed.
(** ** C56 *)
(** in every decision consecutive half steps are submitted, from the one the chain is at, ten at most; no half step is submitted twice *)
Theorem C56_order l s al : rising l → decisions new_x l = Some (s, al) →
  StronglySorted Z.lt (omap executed (mjoin al)) ∧
  ∀ n i acts, l !! n = Some i → al !! n = Some acts → ∃ k, (k ≤ 10)%nat ∧ omap executed acts = seqZ (v_half_steps (i_view i)) (Z.of_nat k).
Proof using Horder.
  intros Hr H. assert (below (omap executed (mjoin al)) (pending s) l ∧ (StronglySorted Z.lt (omap executed (mjoin al)) ∧
    ∀ n i acts, l !! n = Some i → al !! n = Some acts → ∃ k, (k ≤ 10)%nat ∧ omap executed acts = seqZ (v_half_steps (i_view i)) (Z.of_nat k))) as [_ Hx]; [|exact Hx].
  revert s al Hr H. induction l as [|i l IH] using rev_ind; intros s al Hr H.
  { injection H as <- <-. split; [by intros h []%elem_of_nil|]. split; [constructor|]. intros n i acts Hn. by rewrite lookup_nil in Hn. }
  apply rising_snoc in Hr as [Hr Hle]. apply decisions_snoc in H as (s1 & al1 & acts & s2 & D1 & D2 & E). injection E as -> ->. destruct (IH _ _ Hr D1) as (B & S & L).
  pose proof (decisions_length _ _ _ _ D1) as Hlen. apply reached_ok in D1; [|done].
  assert (batches_ok (l ++ [i]) s1) as Hok. { intros b x Hx. eapply batch_ok_mono; [|by apply D1]. set_solver. }
  apply (decision_parts (l ++ [i])) in D2 as (t2 & t3 & ex & sg & ap & ac & -> & _ & P1 & _ & X & _ & _ & P2 & _ & _ & _ & Eo); [|set_solver|done].
  destruct (execute_list _ _ _ _ X) as [Ex Ex10]. apply execute_batch_spec in X as (_ & X2 & X3 & X4 & _).
  rewrite mjoin_app. cbn [mjoin list_join]. rewrite app_nil_r, omap_app, Eo, Ex.
  assert (ex ≠ [] → ∀ h, h ∈ omap executed (mjoin al1) → h < v_half_steps (i_view i)) as Hlow.
  { intros Hn h Hh. rewrite P1 in X2. unfold below in B. destruct (pending s1) as [p|]; [specialize (B h Hh); specialize (X2 Hn p eq_refl); lia|].
    destruct (B h Hh) as (j & Hj & Hlt). specialize (Hle j Hj). lia. }
  split; [|split].
  - rewrite P2. destruct (decide (ex = [])) as [->|Hn].
    + cbn [length Z.of_nat]. rewrite seqZ_nil by lia. rewrite app_nil_r. destruct (X4 eq_refl) as [->|[-> Hp]].
      * rewrite P1. unfold below in *. destruct (pending s1); [done|]. intros h Hh. destruct (B h Hh) as (j & Hj & ?). exists j. split; [set_solver|done].
      * rewrite P1 in Hp. unfold below in *. destruct (pending s1) as [p|].
        -- intros h Hh. exists i. split; [set_solver|]. specialize (B h Hh). specialize (Hp p eq_refl). lia.
        -- intros h Hh. destruct (B h Hh) as (j & Hj & ?). exists j. split; [set_solver|done].
    + rewrite (X3 Hn). intros h [Hh|Hh]%elem_of_app; [specialize (Hlow Hn h Hh); destruct ex; [done|cbn [length]; lia]|]. apply elem_of_seqZ in Hh. lia.
  - destruct (decide (ex = [])) as [->|Hn]; [cbn [length Z.of_nat]; rewrite seqZ_nil by lia; by rewrite app_nil_r|]. specialize (Hlow Hn). clear -S Hlow.
    induction S as [|h l S IH Hall]; cbn [app].
    + clear Hlow. generalize (v_half_steps (i_view i)) as a. induction (length ex) as [|n IH]; intros a; [constructor|]. rewrite seqZ_cons by lia. replace (Z.pred (Z.of_nat (S n))) with (Z.of_nat n) by lia. constructor; [apply IH|].
      apply Forall_forall. intros x Hx. apply elem_of_seqZ in Hx. lia.
    + constructor; [apply IH; intros x Hx; apply Hlow; by right|]. apply Forall_app. split; [done|]. apply Forall_forall. intros x Hx. apply elem_of_seqZ in Hx. specialize (Hlow h ltac:(left)). lia.
  - intros n j acts Hj Ha. destruct (decide (n < length l)%nat) as [Hlt|Hge].
    + rewrite lookup_app_l in Hj by done. rewrite lookup_app_l in Ha by lia. by eapply L.
    + rewrite lookup_app_r in Hj by lia. rewrite lookup_app_r in Ha by lia. apply list_lookup_singleton_Some in Hj as [? <-]. apply list_lookup_singleton_Some in Ha as [_ <-].
      exists (length ex). split; [done|]. by rewrite Eo.
Qed.

Lemma decisions_last l i s al acts : decisions new_x (l ++ [i]) = Some (s, al ++ [acts]) → ∃ s1, decisions new_x l = Some (s1, al) ∧ decision_step s1 i = Some (s, acts) ∧ batches_ok (l ++ [i]) s1.
Proof using Horder.
  intros H. apply decisions_snoc in H as (s1 & al1 & acts1 & s2 & D1 & D2 & E). injection E as -> E. apply app_inj_tail in E as [-> ->]. exists s1. split; [done|]. split; [done|].
  apply reached_ok in D1; [|done]. intros b x Hx. eapply batch_ok_mono; [|by apply D1]. set_solver.
Qed.
(** an execution in a decision, and the state it is made from *)
Lemma execution_inv l i s al acts a : decisions new_x (l ++ [i]) = Some (s, al ++ [acts]) → a ∈ acts → is_Some (executed a) →
  ∃ t h, batches_ok (l ++ [i]) t ∧ executes me staggering (i_view i) t h a ∧ v_half_steps (i_view i) ≤ h ∧ executed a = Some h ∧ xbatches t = xbatches s.
Proof using Horder.
  intros H Ha Hx. apply decisions_last in H as (s1 & _ & D2 & Hok).
  apply (decision_parts (l ++ [i])) in D2 as (t2 & t3 & ex & sg & ap & ac & -> & K & _ & _ & X & _ & X' & _ & Hsg & Hap & (s4 & _ & _ & Hac) & _); [|set_solver|done].
  apply maybe_accuse_spec in Hac as (_ & _ & _ & _ & Hac). rewrite !elem_of_app in Ha. destruct Ha as [Ha|[Ha|[Ha|Ha]]].
  - destruct (Hsg _ Ha) as (? & ? & ->). by destruct Hx.
  - apply execute_batch_spec in X as (X & _). apply elem_of_list_lookup in Ha as [k Hk]. specialize (X _ _ Hk). exists t2, (v_half_steps (i_view i) + Z.of_nat k). split_and!; [done|done|lia| |done].
    by apply executes_half_step in X.
  - destruct (Hap _ Ha) as (? & ->). by destruct Hx.
  - destruct (Hac _ Ha) as (h & la & _ & H1 & H2). destruct (accuse_one_accuses _ _ _ _ _ H1 H2) as (_ & _ & r & x & c & _ & _ & _ & _ & _ & ->). by destruct Hx.
Qed.
(** valid decryption signatures of the batch by enough different keypers *)
Definition signed_by (seen : list input) (b : Z) (hash : list N) (t : Z) : Prop :=
  ∃ sigs : gmap N (list N), t ≤ Z.of_nat (size sigs) ∧ ∀ a sig, sigs !! a = Some sig → go_recover hash sig = Some a ∧ published seen b a sig.
(** a keyper executes a cipher batch only in its time slot, before the timeout, as a member of the config, and what it executes are the
    decryptions of the batch, as it was when the key was found, over which it has enough signatures -- unless the batch was empty then *)
Theorem C56_cipher l i s al acts b h txs k : decisions new_x (l ++ [i]) = Some (s, al ++ [acts]) → AExecCipher b h txs k ∈ acts →
  let v := i_view i in
  ∃ c e d, config_for_batch (v_configs v) b = Some (Some c) ∧ batch_end_block c b = Some e ∧ execution_delay c staggering me (2 * b) = Some d ∧
    u64 (e + d) ≤ current v < u64 (e + timeout c) ∧ keypers c !! Z.to_nat k = Some me ∧ 0 ≤ k ∧ v_half_steps v ≤ 2 * b ∧ h = enc_hash (mb (v_batches v) b) ∧
    ∃ j dec, j ∈ l ++ [i] ∧ (b, dec) ∈ i_keys j ∧ let y := mb (v_batches (i_view j)) b in
      txs = dec (enc_txs y) ∧ (enc_hash y = zero32 ∨ signed_by (l ++ [i]) b (signature_hash b (enc_hash y) (transactions_hash txs)) (threshold c)).
Proof using Horder.
  intros H Ha v. destruct (execution_inv _ _ _ _ _ _ H Ha ltac:(by eexists)) as (t & n & Hok & (c & d & e & C1 & C2 & C3 & Hx) & Hle & Hn & _). cbn [executed] in Hn. injection Hn as <-.
  replace (2 * b / 2) with b in * by (symmetry; rewrite Z.mul_comm; by apply Z.div_mul).
  destruct Hx as [(? & _)|(Hk & Ht1 & [(? & _)|(_ & Ht2 & k' & x & Hki & Hb & E & Hs)])]; [done|done|]. injection E as -> -> ->.
  apply keyper_index_spec in Hki as [Hki Hki']. apply Hok in Hb. destruct Hb as [B1 B2 (ch & (j & dec & D1 & D2 & D3 & D4) & B4 & B5) B6].
  exists c, e, d. split; [done|]. split; [done|]. split; [done|]. split; [done|]. split; [done|]. split; [lia|]. split; [done|]. split; [done|].
  exists j, dec. split; [done|]. split; [done|]. cbv zeta. split; [done|]. rewrite <-D4. destruct Hs as [He|Hs]; [left; rewrite B5 in He; by apply bool_decide_eq_true in He|right].
  exists (b_sigs x). split; [done|]. rewrite <-B2, <-B4. exact B6.
Qed.
(** a plain batch: the transactions seen on the chain, in its time slot *)
Theorem C56_plain l i s al acts b txs : decisions new_x (l ++ [i]) = Some (s, al ++ [acts]) → AExecPlain b txs ∈ acts → let v := i_view i in
  ∃ c e d, config_for_batch (v_configs v) b = Some (Some c) ∧ batch_end_block c b = Some e ∧ execution_delay c staggering me (2 * b + 1) = Some d ∧
    u64 (e + d) ≤ current v ∧ me ∈ keypers c ∧ v_half_steps v ≤ 2 * b + 1 ∧ txs = plain_txs (mb (v_batches v) b).
Proof using Horder.
  intros H Ha v. destruct (execution_inv _ _ _ _ _ _ H Ha ltac:(by eexists)) as (t & n & Hok & (c & d & e & C1 & C2 & C3 & Hx) & Hle & Hn & _). cbn [executed] in Hn. injection Hn as <-.
  assert ((2 * b + 1) / 2 = b) as Hdiv by (symmetry; apply (Z.div_unique _ _ _ 1); lia). rewrite Hdiv in *.
  destruct Hx as [(? & _)|(Hk & Ht1 & [(E & _)|(_ & Ht2 & k' & x & Hki & Hb & E & Hs)])]; [done| |done]. injection E as ->.
  exists c, e, d. split_and!; try done. unfold is_keyper in Hk. destruct (keyper_index c me) eqn:Ek; [|done]. apply keyper_index_spec in Ek as [_ Ek]. by eapply elem_of_list_lookup_2.
Qed.
(** a cipher half step is skipped only after the timeout *)
Theorem C56_skip l i s al acts b : decisions new_x (l ++ [i]) = Some (s, al ++ [acts]) → ASkipCipher b ∈ acts → let v := i_view i in
  ∃ c e d, config_for_batch (v_configs v) b = Some (Some c) ∧ batch_end_block c b = Some e ∧ execution_delay c staggering me (2 * b) = Some d ∧
    u64 (e + timeout c) ≤ current v ∧ u64 (u64 (e + timeout c) + d) ≤ current v ∧ v_half_steps v ≤ 2 * b.
Proof using Horder.
  intros H Ha v. destruct (execution_inv _ _ _ _ _ _ H Ha ltac:(by eexists)) as (t & n & Hok & (c & d & e & C1 & C2 & C3 & Hx) & Hle & Hn & _). cbn [executed] in Hn. injection Hn as <-.
  replace (2 * b / 2) with b in * by (symmetry; rewrite Z.mul_comm; by apply Z.div_mul).
  destruct Hx as [(E & _ & T1 & T2)|(Hk & Ht1 & [(E & _)|(_ & Ht2 & k' & x & Hki & Hb & E & Hs)])]; [|done|done]. exists c, e, d. done.
Qed.
(** after it has submitted a half step, a keyper submits nothing more until the chain has got past it *)
Theorem C56_waits l1 i l2 s al acts1 al2 h : decisions new_x (l1 ++ [i] ++ l2) = Some (s, al ++ [acts1] ++ al2) → length al = length l1 →
  h ∈ omap executed acts1 → (∀ j, j ∈ l2 → v_half_steps (i_view j) ≤ h) → omap executed (mjoin al2) = [].
Proof using Horder.
  intros H Hl Hh. revert s al2 H. induction l2 as [|j l2 IH] using rev_ind; intros s al2 H Hv.
  - pose proof (decisions_length _ _ _ _ H) as Hlen. rewrite !app_length in Hlen. destruct al2; [done|]. cbn [length] in Hlen. lia.
  - rewrite app_assoc, app_assoc in H. apply decisions_snoc in H as (s1 & al1 & acts & s2 & D1 & D2 & E). injection E as -> E.
    pose proof (decisions_length _ _ _ _ D1) as Hlen. assert (∃ al2', al2 = al2' ++ [acts] ∧ al1 = al ++ [acts1] ++ al2') as (al2' & -> & ->).
    { destruct al2 as [|a al2 _] using rev_ind.
      - apply (f_equal length) in E. rewrite !app_length in *. cbn [length] in *. lia.
      - change (al ++ ([acts1] ++ al2) ++ [a] = al1 ++ [acts]) in E. rewrite app_assoc in E. apply app_inj_tail in E as [E ->]. exists al2. split; [done|]. by rewrite <-E. }
    rewrite <-app_assoc in D1. pose proof (IH s1 al2' D1 ltac:(intros k Hk; apply Hv; set_solver)) as Hnil. rewrite mjoin_app, omap_app, Hnil. cbn [mjoin list_join app]. rewrite app_nil_r.
    (* the pending half step *)
    assert (∃ p, pending s1 = Some p ∧ h ≤ p) as (p & Hp & Hhp).
    { clear E Hlen D2 s2 Hnil IH. assert (∀ j, j ∈ l2 → v_half_steps (i_view j) ≤ h) as Hv' by (intros k Hk; apply Hv; set_solver). clear Hv. revert s1 al2' D1. induction l2 as [|k l2 IH2] using rev_ind; intros s1 al2' D1.
      - rewrite app_nil_r in D1. assert (al2' = []) as ->. { pose proof (decisions_length _ _ _ _ D1) as Hlen. rewrite !app_length in Hlen. destruct al2'; [done|]. cbn [length] in Hlen. lia. }
        rewrite app_nil_r in D1. apply decisions_last in D1 as (t1 & _ & D2 & Hok).
        apply (decision_parts (l1 ++ [i])) in D2 as (t2 & t3 & ex & sg & ap & ac & -> & _ & _ & _ & X & _ & _ & P2 & _ & _ & _ & Eo); [|set_solver|done]. rewrite Eo in Hh.
        destruct (execute_list _ _ _ _ X) as [Ex _]. rewrite Ex in Hh. apply elem_of_seqZ in Hh. apply execute_batch_spec in X as (_ & _ & X3 & _). rewrite P2.
        exists (v_half_steps (i_view i) + Z.of_nat (length ex) - 1). split; [|lia]. apply X3. intros ->. cbn [length] in Hh. lia.
      - rewrite app_assoc, app_assoc in D1. pose proof D1 as D1'. apply decisions_snoc in D1 as (s3 & al3 & acts3 & s4 & D3 & D4 & E). injection E as -> E.
        pose proof (decisions_length _ _ _ _ D3) as Hlen. assert (∃ al2'', al3 = al ++ [acts1] ++ al2'') as (al2'' & ->).
        { destruct al2' as [|a al2' _] using rev_ind.
          - apply (f_equal length) in E. rewrite !app_length in *. cbn [length] in *. lia.
          - change (al ++ ([acts1] ++ al2') ++ [a] = al3 ++ [acts3]) in E. rewrite app_assoc in E. apply app_inj_tail in E as [E ->]. exists al2'. by rewrite <-E. }
        rewrite <-app_assoc in D3. destruct (IH2 ltac:(intros x Hx; apply Hv'; set_solver) _ _ D3) as (p & Hp & Hhp). apply reached_ok in D3; [|done].
        apply (decision_parts ((l1 ++ [i] ++ l2) ++ [k])) in D4 as (t2 & t3 & ex & sg & ap & ac & -> & _ & P1 & _ & X & _ & _ & P2 & _ & _ & _ & Eo);
          [|set_solver|intros b x Hx; eapply batch_ok_mono; [|by apply D3]; set_solver].
        specialize (Hv' k ltac:(set_solver)). apply execute_batch_spec in X as (_ & X2 & _ & X4 & _). rewrite P1, Hp in X2, X4. rewrite P2.
        destruct ex as [|a ex]; [|specialize (X2 ltac:(done) p eq_refl); lia]. destruct (X4 eq_refl) as [->|[_ X5]]; [eauto|]. specialize (X5 p eq_refl). lia. }
    apply reached_ok in D1; [|done].
    apply (decision_parts ((l1 ++ [i] ++ l2) ++ [j])) in D2 as (t2 & t3 & ex & sg & ap & ac & -> & _ & P1 & _ & X & _ & _ & P2 & _ & _ & _ & Eo);
      [|set_solver|intros b x Hx; eapply batch_ok_mono; [|by apply D1]; set_solver].
    rewrite Eo. specialize (Hv j ltac:(set_solver)). apply execute_batch_spec in X as (_ & X2 & _). rewrite P1, Hp in X2. destruct ex as [|a ex]; [done|]. specialize (X2 ltac:(done) p eq_refl). lia.
Qed.

(** ** Acceptance by the contracts *)
Context (slasher_address deposit_address : N).
Notation run := (run keccak ecrecover addr_bytes batcher_address slasher_address deposit_address).
Notation steps := (steps keccak ecrecover addr_bytes batcher_address slasher_address deposit_address).
Notation deployed := (deployed slasher_address).
Lemma end_block_eq c b e : config_ok c → timeout_block c b < 2 ^ 64 → 0 ≤ timeout c → batch_end_block c b = Some e → e = end_block c b ∧ start_batch c ≤ b.
Proof.
  clear. intros [[] [] [] [] _ _] Ht Ht0. unfold batch_end_block, batch_start_block, timeout_block, end_block in *. destruct (Z.ltb_spec b (start_batch c)); [done|]. intros [= <-]. split; [|done].
  assert (0 ≤ (b - start_batch c) * span c) by (apply Z.mul_nonneg_nonneg; lia).
  assert (b - start_batch c ≤ (b - start_batch c) * span c ∨ span c = 0) as Hs by (destruct (decide (span c = 0)); [by right|left; rewrite <-(Z.mul_1_r (b - start_batch c)) at 1; apply Z.mul_le_mono_nonneg_l; lia]).
  replace ((b - start_batch c + 1) * span c) with ((b - start_batch c) * span c + span c) in * by lia. set (q := (b - start_batch c) * span c) in *.
  assert (u64 (u64 (b - start_batch c) * span c) = q) as ->.
  { destruct Hs as [Hs|Hs]; [rewrite (u64_id (b - start_batch c)) by (unfold is_u64; lia); fold q; apply u64_id; unfold is_u64; lia|]. unfold q. rewrite Hs, !Z.mul_0_r. done. }
  rewrite (u64_id (start_block c + _)) by (unfold is_u64; lia). rewrite u64_id by (unfold is_u64; lia). lia.
Qed.
(** the contract executes the cipher batch a keyper submits, if it is at this half step, has the same config and hash, time is not up,
    and the keyper was not slashed *)
Theorem C56_cipher_accepted l i s al acts b h txs k owner hu ap blk ev fuel c idx : decisions new_x (l ++ [i]) = Some (s, al ++ [acts]) → AExecCipher b h txs k ∈ acts →
  let v := i_view i in let w := (steps (deployed owner hu ap blk) ev).1 in
  0 ≤ hu → config_for_batch (v_configs v) b = Some (Some c) → config_for (scheduled (cc w)) b idx c → config_ok c → is_u64 staggering → 0 < span c → timeout_block c b < 2 ^ 64 →
  2 * b + Z.of_nat (length (keypers c)) < 2 ^ 64 → 0 ≤ b → half_steps w = 2 * b → current v ≤ block w < timeout_block c b →
  hash_of w b Cipher = enc_hash (mb (v_batches v) b) → (hash_of w b Cipher = zero32 → txs = []) → d_slashed (deposit_of w me) = false →
  ∃ w', run (S fuel) w me (ExecCipher b h txs k []) = Ok (w', [FCipher (2 * b) me h txs]).
Proof using Horder.
  intros H Ha v w Hhu Hc Hcf Hok Hst Hsp Hto Hlen Hb Hhalf Hcur Hhash Hempty Hsl.
  destruct (C56_cipher _ _ _ _ _ _ _ _ _ H Ha) as (c' & e & d & C1 & C2 & C3 & [T1 T2] & K1 & K2 & _ & -> & _). fold v in C1. rewrite Hc in C1. injection C1 as <-.
  pose proof (lookup_lt_Some _ _ _ K1) as Hk. pose proof Hok as [_ _ _ _ [Ht0 _] _]. destruct (end_block_eq _ _ _ Hok Hto Ht0 C2) as [-> Hsb].
  rewrite <-Hhalf. apply C49_cipher_iff; [done|lia|lia|fold w; lia|fold w; lia|]. split; [done|]. exists idx, c. split; [done|]. split; [done|]. split; [done|]. split; [|split; [done|split; [done|split; [fold w; by rewrite Hhash|fold v; by rewrite <-Hhash]]]].
  fold w. split; [|lia]. destruct (keyper_index c me) as [j|] eqn:Ej.
  - destruct (C23_delay c staggering me j (2 * b)) as (d' & D1 & D2 & D3); [done|done|done|lia|lia|]. rewrite C3 in D1. injection D1 as <-. unfold timeout_block in *.
    assert (0 ≤ end_block c b). { destruct Hok as [[] [] _ [] _ _]. unfold end_block. assert (0 ≤ (b - start_batch c + 1) * span c) by (apply Z.mul_nonneg_nonneg; lia). lia. }
    rewrite u64_id in T1 by (unfold is_u64; lia). fold v in T1. lia.
  - exfalso. clear -K1 Ej. unfold keyper_index in Ej. assert (∀ l n (x : nat), l !! x = Some me → index_from n l me ≠ None) as Hidx; [|by eapply Hidx].
    induction l as [|y l IH]; intros n x Hx; [by rewrite lookup_nil in Hx|]. cbn [index_from]. destruct (N.eqb_spec y me) as [|Hne]; [done|]. destruct x as [|x]; [injection Hx as ->; done|]. by apply (IH _ x).
Qed.

(** ** Views of a settled chain *)
Context (owner : N) (hu ap : Z) (Hhu : 0 ≤ hu).
Notation sync_main := (sync_main keccak ecrecover addr_bytes batcher_address slasher_address deposit_address owner hu ap).
Notation state_at := (state_at keccak ecrecover addr_bytes batcher_address slasher_address deposit_address owner hu ap).
Notation log_at := (log_at keccak ecrecover addr_bytes batcher_address slasher_address deposit_address owner hu ap).
(** the view is what the keyper has after some synchronisations with a node of a network that settles on the chain [ch] (see C54) *)
Definition synced (ch : chain) (F : Z) (v : view) : Prop := ch 0%nat = [] ∧ 0 ≤ F ∧ ∃ heads, settled ch F 0 heads ∧ v = sync_main (new_view F) heads.
Lemma state_later ch n m : (n ≤ m)%nat → ∃ ev, state_at ch m = (steps (state_at ch n) ev).1 ∧ log_at ch m = log_at ch n ++ (steps (state_at ch n) ev).2.
Proof.
  clear sign me staggering order Horder Hhu. intros H. replace m with (n + (m - n))%nat by lia. clear H. induction (m - n)%nat as [|k (ev & E1 & E2)].
  - exists []. rewrite Nat.add_0_r. split; [done|]. by rewrite app_nil_r.
  - rewrite Nat.add_succ_r. exists (ev ++ Mine 1 :: block_events ch (S (n + k))).
    destruct (state_step keccak ecrecover addr_bytes batcher_address slasher_address deposit_address owner hu ap ch (n + k)) as [S1 S2].
    rewrite steps_app. destruct (steps (state_at ch n) ev) as [s1 f1]. cbn [fst snd] in *. rewrite S1, E1. split; [|rewrite log_at_S, E2, S2, E1, <-app_assoc].
    + destruct (steps s1 _). done.
    + destruct (steps s1 _). done.
Qed.
(** once a batch is over, all views of it are the same *)
Lemma closed_views ch F v1 v2 b i c : synced ch F v1 → synced ch F v2 → current v1 ≤ current v2 → config_for (scheduled (cc (state_at ch (Z.to_nat (current v1))))) b i c → 0 < span c → end_block c b ≤ current v1 →
  ∀ t, txs_of (mb (v_batches v2) b) t = txs_of (mb (v_batches v1) b) t ∧ hash_in (mb (v_batches v2) b) t = hash_in (mb (v_batches v1) b) t.
Proof using Hhu.
  clear sign me staggering order Horder. intros (H0 & HF & heads1 & S1 & ->) (_ & _ & heads2 & S2 & ->) Hle Hc Hsp He t.
  pose proof (final_ok keccak ecrecover addr_bytes batcher_address slasher_address deposit_address owner hu ap ch H0 F HF heads1 S1) as [_ O1 O2 O3 _ _ _]. pose proof (final_ok keccak ecrecover addr_bytes batcher_address slasher_address deposit_address owner hu ap ch H0 F HF heads2 S2) as [_ O1' O2' O3' _ _ _].
  rewrite O2, O2', O3, O3'. set (n1 := Z.to_nat (current (sync_main (new_view F) heads1))) in *. set (n2 := Z.to_nat (current (sync_main (new_view F) heads2))) in *.
  destruct (state_later ch n1 n2 ltac:(lia)) as (ev & E1 & E2). rewrite E1, E2. rewrite added_app.
  destruct (block_at keccak ecrecover addr_bytes batcher_address slasher_address deposit_address owner hu ap ch n1) as [B1 _]. destruct (block_at keccak ecrecover addr_bytes batcher_address slasher_address deposit_address owner hu ap ch n2) as [B2 _].
  rewrite E1 in B2. unfold MainModel.state_at, genesis in *.
  destruct (C48_closed keccak ecrecover addr_bytes batcher_address slasher_address deposit_address owner hu ap 0 (history ch n1) ev b i c t Hhu) as [C1 C2]; [rewrite B1; lia|rewrite B2; lia|done|done|rewrite B1; lia|].
  rewrite C1, C2. by rewrite app_nil_r.
Qed.
(** a keyper that finds the key of a batch only after its view has got past the end of the batch *)
Definition keys_late (ch : chain) (l : list input) (b : Z) : Prop := ∀ j dec, j ∈ l → (b, dec) ∈ i_keys j →
  ∃ i c, config_for (scheduled (cc (state_at ch (Z.to_nat (current (i_view j)))))) b i c ∧ 0 < span c ∧ end_block c b ≤ current (i_view j).
(** what is executed are the decryptions of the batch as it is on the chain, over which there are enough signatures if it is not empty *)
Theorem C56_content_partial ch F l i s al acts b h txs k : (∀ j, j ∈ l ++ [i] → synced ch F (i_view j) ∧ current (i_view j) ≤ current (i_view i)) → keys_late ch (l ++ [i]) b →
  decisions new_x (l ++ [i]) = Some (s, al ++ [acts]) → AExecCipher b h txs k ∈ acts → let n := Z.to_nat (current (i_view i)) in
  h = hash_of (state_at ch n) b Cipher ∧
  ∃ j dec c, j ∈ l ++ [i] ∧ (b, dec) ∈ i_keys j ∧ config_for_batch (v_configs (i_view i)) b = Some (Some c) ∧ txs = dec (added b Cipher (log_at ch n)) ∧
    (h = zero32 ∨ signed_by (l ++ [i]) b (signature_hash b h (transactions_hash txs)) (threshold c)).
Proof using Horder Hhu.
  intros Hs Hk H Ha n. destruct (C56_cipher _ _ _ _ _ _ _ _ _ H Ha) as (c & e & d & C1 & _ & _ & _ & _ & _ & _ & Eh & j & dec & J1 & J2 & J3 & J4).
  destruct (Hs i ltac:(set_solver)) as [Hi _]. destruct (Hs j J1) as [Hj Hle]. destruct (Hk j dec J1 J2) as (i' & c' & K1 & K2 & K3).
  destruct (closed_views ch F (i_view j) (i_view i) b i' c' Hj Hi Hle K1 K2 K3 Cipher) as [V1 V2]. cbn [txs_of hash_in] in V1, V2.
  destruct Hi as (H0 & HF & heads & S1 & Ev). pose proof (final_ok keccak ecrecover addr_bytes batcher_address slasher_address deposit_address owner hu ap ch H0 F HF heads S1) as [_ O1 O2 O3 _ _ _]. rewrite <-Ev in *.
  assert (h = hash_of (state_at ch n) b Cipher) as Ehh. { rewrite Eh. unfold n. apply (O3 b Cipher). }
  split; [done|]. exists j, dec, c. split; [done|]. split; [done|]. split; [done|]. rewrite <-V1, <-V2 in *. rewrite <-Eh in J4. split; [|done]. rewrite J3. f_equal. apply (O2 b Cipher).
Qed.
(** a plain batch a keyper submits is executed by the contract whenever that is at this half step *)
Theorem C56_plain_accepted ch F l i s al acts b txs idx c m a fuel : synced ch F (i_view i) → decisions new_x (l ++ [i]) = Some (s, al ++ [acts]) → AExecPlain b txs ∈ acts →
  let n := Z.to_nat (current (i_view i)) in config_for (scheduled (cc (state_at ch n))) b idx c → 0 < span c → end_block c b ≤ current (i_view i) →
  (n ≤ m)%nat → Z.of_nat m < 2 ^ 64 → calm_history (history ch m) → half_steps (state_at ch m) = 2 * b + 1 → 2 * b + 2 < 2 ^ 64 →
  ∃ w, run (S fuel) (state_at ch m) a (ExecPlain b txs []) = Ok (w, [FPlain (2 * b + 1) txs]).
Proof using Horder Hhu.
  intros Hi H Ha n Hc Hsp He Hnm Hm Hcalm Hhalf Hb. destruct (C56_plain _ _ _ _ _ _ _ H Ha) as (_ & _ & _ & _ & _ & _ & _ & _ & _ & ->).
  destruct Hi as (H0 & HF & heads & S1 & Ev). pose proof (final_ok keccak ecrecover addr_bytes batcher_address slasher_address deposit_address owner hu ap ch H0 F HF heads S1) as [_ O1 O2 _ _ _ _]. rewrite <-Ev in *.
  pose proof (O2 b Plain) as Et. cbn [txs_of] in Et. fold n in Et. rewrite Et.
  assert (added b Plain (log_at ch n) = added b Plain (log_at ch m)) as ->.
  { destruct (state_later ch n m Hnm) as (ev & E1 & E2). rewrite E2, added_app.
    destruct (block_at keccak ecrecover addr_bytes batcher_address slasher_address deposit_address owner hu ap ch n) as [B1 _]. destruct (block_at keccak ecrecover addr_bytes batcher_address slasher_address deposit_address owner hu ap ch m) as [B2 _].
    rewrite E1 in B2. clear Et Hhalf E1 E2. unfold n in *. unfold MainModel.state_at, genesis in *.
    destruct (C48_closed keccak ecrecover addr_bytes batcher_address slasher_address deposit_address owner hu ap 0 (history ch n) ev b idx c Plain Hhu) as [_ C2]; [unfold n; rewrite B1; lia|unfold n; rewrite B2; lia|done|done|unfold n; rewrite B1; lia|].
    fold n in C2. unfold n in *. rewrite C2. by rewrite app_nil_r. }
  pose proof (C49_progress keccak ecrecover addr_bytes batcher_address slasher_address deposit_address owner hu ap 0 (history ch m) Hhu ltac:(lia) Hcalm) as HP.
  destruct (block_at keccak ecrecover addr_bytes batcher_address slasher_address deposit_address owner hu ap ch m) as [B2 _].
  unfold MainProofs.log_at in *. unfold MainModel.state_at, genesis in *. destruct (steps (deployed owner hu ap 0) (history ch m)) as [w f]. cbn [fst snd] in *.
  cbv zeta in HP. destruct (HP ltac:(lia) ltac:(lia)) as [_ HP2]. rewrite Hhalf in HP2. replace ((2 * b + 1) / 2) with b in HP2 by (apply (Z.div_unique _ _ _ 1); lia).
  eexists. apply HP2. symmetry. apply (Z.mod_unique _ _ b); lia.
Qed.
End Props.

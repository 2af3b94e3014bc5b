(** C49: the executor contract. *)
From stdpp Require Import list gmap sorting.
From Coq Require Import ZArith NArith Lia.
From Verif Require Import ArithModel ContractsModel ContractsProofs PropsConfig PropsBatcher.
Local Open Scope Z_scope.

(** ** Specification *)
(** the half step an effect finishes *)
Definition half_step_of (e : effect) : option Z :=
  match e with FCipher n _ _ _ | FPlain n _ | FSkipped n => Some n | _ => None end.
(** half steps are finished one after the other, except for the jumps of setHalfSteps *)
Definition advance (n : Z) (e : effect) : option Z :=
  match e with
  | FCipher k _ _ _ | FPlain k _ | FSkipped k => if k =? n then Some (n + 1) else None
  | FJump x y => if (x =? n) && (n <? y) then Some y else None
  | _ => Some n
  end.
Fixpoint trace (n : Z) (f : list effect) : option Z :=
  match f with [] => Some n | e :: f => match advance n e with Some n' => trace n' f | None => None end end.
Definition is_jump (e : effect) : Prop := match e with FJump _ _ => True | _ => False end.
(** calls of the executor contract *)
Definition executor_call (c : call) : bool :=
  match c with SetHalfSteps _ | ExecCipher _ _ _ _ _ | ExecPlain _ _ _ | SkipEmpty _ | SkipCipher _ => true | _ => false end.
(** the call does not lead to a call of the executor contract *)
Inductive quiet : N → call → Prop :=
  quiet_intro a c : executor_call c = false → (∀ x, x ∈ inner_calls c → quiet x.1 x.2) → quiet a c.
(** the transactions executed by the executor contract do not call it back *)
Inductive calm : N → call → Prop :=
  calm_intro a c : (executor_call c = true → ∀ x, x ∈ inner_calls c → quiet x.1 x.2) →
    (executor_call c = false → ∀ x, x ∈ inner_calls c → calm x.1 x.2) → calm a c.
Definition calm_history (l : list event) : Prop := Forall (λ e, match e with Tx _ a c => calm a c | Mine _ => True end) l.

Lemma trace_app n f g : trace n (f ++ g) = match trace n f with Some m => trace m g | None => None end.
Proof. revert n. induction f as [|e f IH]; intros n; [done|]. cbn. destruct (advance n e); [apply IH|done]. Qed.
Lemma trace_bounds f : ∀ n m, trace n f = Some m → n ≤ m ∧ StronglySorted Z.lt (omap half_step_of f) ∧ Forall (λ k, n ≤ k < m) (omap half_step_of f).
Proof.
  induction f as [|e f IH]; intros n m H; [injection H as <-; split_and!; [lia|constructor|constructor]|]. cbn [trace] in H.
  destruct (advance n e) as [n'|] eqn:Ea; [|done]. apply IH in H as (H1 & H2 & H3).
  assert (n < n' ∧ half_step_of e = Some n ∨ n ≤ n' ∧ half_step_of e = None) as Hc.
  { destruct e; cbn in *; try (injection Ea as <-; right; split; [lia|done]); try (destruct (Z.eqb_spec half_step n) as [->|]; [injection Ea as <-; left; split; [lia|done]|done]).
    destruct (_ && _) eqn:E; [|done]. apply andb_prop in E as [?%Z.eqb_eq ?%Z.ltb_lt]. injection Ea as <-. right. split; [lia|done]. }
  destruct Hc as [[Hn E]|[Hn E]]; cbn; rewrite E.
  - split_and!; [lia| |].
    + constructor; [done|]. eapply Forall_impl; [exact H3|]. cbn. lia.
    + constructor; [lia|]. eapply Forall_impl; [exact H3|]. cbn. lia.
  - split_and!; [lia|done|]. eapply Forall_impl; [exact H3|]. cbn. lia.
Qed.
Lemma trace_no_jump f : Forall (λ e, ¬ is_jump e) f → ∀ n m, trace n f = Some m → omap half_step_of f = seqZ n (m - n).
Proof.
  intros Hf. induction Hf as [|e f He Hf IH]; intros n m H; [injection H as <-; by rewrite Z.sub_diag|]. cbn [trace] in H.
  destruct (advance n e) as [n'|] eqn:Ea; [|done]. pose proof (trace_bounds f n' m H) as [Hle _]. apply IH in H.
  assert (n' = n + 1 ∧ half_step_of e = Some n ∨ n' = n ∧ half_step_of e = None) as Hc.
  { destruct e; cbn in *; try (injection Ea as <-; by right); try (destruct (Z.eqb_spec half_step n) as [->|]; [injection Ea as <-; by left|done]). done. }
  destruct Hc as [[-> E]|[-> E]]; cbn; rewrite E, H; [|done]. rewrite (seqZ_cons n) by lia. f_equal. f_equal; lia.
Qed.

Section Exec.
Context (keccak : list N → list N) (ecrecover : list N → Z → Z → Z → option N) (addr_bytes : N → list N).
Context (batcher_address slasher_address deposit_address : N).
Notation run := (run keccak ecrecover addr_bytes batcher_address slasher_address deposit_address).
Notation steps := (steps keccak ecrecover addr_bytes batcher_address slasher_address deposit_address).
Notation deployed := (deployed slasher_address).
Notation chain_hash := (chain_hash keccak).
Notation chained := (chained keccak).
Notation chained_all := (chained_all keccak ecrecover addr_bytes batcher_address slasher_address deposit_address).

(** *** Receipts *)
Definition store (m : gmap Z receipt) (e : effect) : gmap Z receipt :=
  match e with FCipher n a h txs => <[n := mkReceipt true a n h (chain_hash txs)]> m | _ => m end.
Lemma skips_store f : Forall skips f → ∀ m, foldl store m f = m.
Proof. intros H. induction H as [|[] f ? ? IH]; intros m; cbn; try done; apply IH. Qed.
Lemma receipts_all s l : receipts (steps s l).1 = foldl store (receipts s) (steps s l).2.
Proof.
  apply (steps_rel keccak ecrecover addr_bytes batcher_address slasher_address deposit_address (λ _ _, True) ltac:(done) (λ s f s', receipts s' = foldl store (receipts s) f));
    [..|apply Forall_forall; by intros []]; shapes; cbn in *; try done.
  - rewrite foldl_app. congruence.
  - by rewrite foldl_app; cbn; f_equal.
  - by rewrite foldl_app.
  - by rewrite skips_store.
  - by rewrite foldl_app.
Qed.
(** C49: there is a receipt exactly for the half steps executed with a cipher batch; it tells who executed which batch *)
Theorem C49_receipts owner hu ap blk l : let '(s, f) := steps (deployed owner hu ap blk) l in
  (∀ n, r_executed (receipt_of s n) = true ↔ ∃ a h txs, FCipher n a h txs ∈ f) ∧
  (∀ n, r_executed (receipt_of s n) = true → ∃ a h txs, FCipher n a h txs ∈ f ∧ receipt_of s n = mkReceipt true a n h (chain_hash txs)).
Proof.
  pose proof (receipts_all (deployed owner hu ap blk) l) as H. destruct (steps _ l) as [s f]. cbn [fst snd receipts ContractsModel.deployed] in H.
  assert (∀ n, match receipts s !! n with None => ¬ ∃ a h txs, FCipher n a h txs ∈ f | Some r => ∃ a h txs, FCipher n a h txs ∈ f ∧ r = mkReceipt true a n h (chain_hash txs) end) as Hs.
  { intros n. rewrite H. clear H s l. induction f as [|e f IH] using rev_ind; [cbn [foldl]; rewrite lookup_empty; intros (? & ? & ? & []%elem_of_nil)|].
    rewrite foldl_app. cbn [foldl].
    assert (store (foldl store ∅ f) e !! n = foldl store ∅ f !! n ∧ (∀ a h txs, e ≠ FCipher n a h txs) ∨
            ∃ a h txs, e = FCipher n a h txs ∧ store (foldl store ∅ f) e !! n = Some (mkReceipt true a n h (chain_hash txs))) as [[-> Hn]|(a & h & txs & -> & ->)].
    { destruct e; try (left; by split). destruct (decide (half_step = n)) as [->|]; [right; eexists _, _, _; split; [done|]; apply lookup_insert|].
      left. split; [by apply lookup_insert_ne|]. congruence. }
    - destruct (foldl store ∅ f !! n) as [r|]; [destruct IH as (a & h & txs & Hin & Hr); exists a, h, txs; split; [apply elem_of_app; by left|done]|].
      intros (a & h & txs & [Hin|Hin%elem_of_list_singleton]%elem_of_app); [apply IH; eauto|by eapply Hn].
    - exists a, h, txs. split; [|done]. apply elem_of_app. right. by apply elem_of_list_singleton. }
  split; intros n; specialize (Hs n); unfold receipt_of; destruct (receipts s !! n) as [r|]; cbn.
  - destruct Hs as (a & h & txs & Hin & ->). split; [eauto|done].
  - split; [done|]. intros Hx. by destruct Hs.
  - intros _. exact Hs.
  - done.
Qed.

(** *** Calls that do not concern the executor *)
Definition quietR (s : state) (f : list effect) (s' : state) : Prop :=
  half_steps s' = half_steps s ∧ Forall (λ e, half_step_of e = None ∧ ¬ is_jump e) f.
Lemma quiet_inner a c x : quiet a c → x ∈ inner_calls c → quiet x.1 x.2.
Proof. intros [? ? _ H]. apply H. Qed.
Lemma quiet_run fuel s a c s' f : quiet a c → run fuel s a c = Ok (s', f) → quietR s f s'.
Proof.
  intros Hq. apply (run_rel keccak ecrecover addr_bytes batcher_address slasher_address deposit_address quiet quiet_inner quietR); try done;
    try (intros; match goal with H : quiet _ _ |- _ => by inversion H end); shapes; try (split; [done|by repeat (constructor; [split; [done|by intros []]|])]).
  - unfold quietR in *. destruct H as [H1 H2]. destruct H0 as [H3 H4]. split; [congruence|]. by apply Forall_app.
  - destruct H4 as [E Hf]. split; [exact E|]. constructor; [split; [done|by intros []]|]. apply Forall_app. split; [done|]. repeat constructor. by intros [].
Qed.
Lemma quiet_targets fuel s txs l : (∀ x, x ∈ concat (l.*2) → quiet x.1 x.2) → quietR s (run_targets (run fuel) s txs l).2 (run_targets (run fuel) s txs l).1.
Proof.
  intros Hq. apply run_targets_rel.
  - split; [done|constructor].
  - intros s1 f s2 g s3 [E1 H] [E2 H0]. split; [congruence|]. by apply Forall_app.
  - intros x s1 s2 f Hx. apply quiet_run. by apply Hq.
Qed.
Lemma quiet_trace f n : Forall (λ e, half_step_of e = None ∧ ¬ is_jump e) f → trace n f = Some n.
Proof. intros H. induction H as [|e f [H1 H2] Hf IH]; [done|]. cbn. by destruct e; cbn in *; try done; exfalso. Qed.
Lemma quiet_calm a c : quiet a c → calm a c.
Proof. induction 1 as [a c He Hi IH]. constructor; [by rewrite He|done]. Qed.
Lemma calm_inner a c x : calm a c → x ∈ inner_calls c → calm x.1 x.2.
Proof. intros [a' c' H H'] Hx. destruct (executor_call c'); [by apply quiet_calm, H|by apply H']. Qed.

(** *** Calm histories *)
(** the batch has an active config and is over *)
Definition over (s : state) (b : Z) (c : config) : Prop :=
  (∃ i, config_for (scheduled (cc s)) b i c) ∧ 0 < span c ∧ end_block c b ≤ block s.
(** what an effect of the executor means, seen from a later state *)
Definition effect_ok (s : state) (e : effect) : Prop :=
  match e with
  | FCipher n a h txs => n mod 2 = 0 ∧ ∃ c, over s (n / 2) c ∧ a ∈ keypers c ∧ h = hash_of s (n / 2) Cipher ∧ (h = zero32 → txs = [])
  | FPlain n txs => n mod 2 = 1 ∧ ∃ c, over s (n / 2) c ∧ chain_hash txs = hash_of s (n / 2) Plain
  | FSkipped n => n mod 2 = 0 ∧ ∃ c, over s (n / 2) c ∧ (timeout_block c (n / 2) ≤ block s ∨ hash_of s (n / 2) Cipher = zero32)
  | FJump x y => x < y ∧ (∃ c, over s (x / 2) c ∧ timeout_block c (x / 2) ≤ block s) ∧ ∃ c, over s (y / 2) c
  | _ => True
  end.
Definition exec_inv (s : state) : Prop :=
  cc_inv s ∧ 0 ≤ block s ∧ 0 ≤ half_steps s ∧
  (half_steps s mod 2 = 1 → ∃ c, over s (half_steps s / 2) c ∧ timeout_block c (half_steps s / 2) < 2 ^ 64).
Definition calmR (s : state) (f : list effect) (s' : state) : Prop :=
  chained s f s' ∧
  (exec_inv s → block s' < 2 ^ 64 → exec_inv s' ∧ trace (half_steps s) f = Some (half_steps s') ∧ Forall (effect_ok s') f).
Lemma over_stays s f s' b c : chained s f s' → cc_inv s → 0 ≤ block s → block s' < 2 ^ 64 → over s b c →
  over s' b c ∧ ∀ t, hash_of s' b t = hash_of s b t.
Proof.
  intros (H1 & H2 & H3) Hi P1 P2 ([i Hc] & Hs & He). destruct H1 as (B & _ & _ & H4). destruct (H4 Hi) as [Hi' [_ K]]. split.
  - split; [|split; [done|lia]]. exists i. apply K; [done|done|done|done|]. pose proof (open_le_end c b Hs ltac:(apply Hc)). lia.
  - intros t. destruct (H2 Hi) as [H5 _]. rewrite H5, (H3 Hi P1 P2 b i c Hc Hs He t). done.
Qed.
Lemma effect_ok_stays s f s' e : chained s f s' → cc_inv s → 0 ≤ block s → block s' < 2 ^ 64 → effect_ok s e → effect_ok s' e.
Proof.
  intros Hch Hi P1 P2. pose proof Hch as ((B & _) & _). destruct e; cbn [effect_ok]; try done.
  - intros (E & c & Ho & Hk & Hh & Hz). destruct (over_stays _ _ _ _ _ Hch Hi P1 P2 Ho) as [Ho' Hh']. split; [done|]. exists c. by rewrite Hh'.
  - intros (E & c & Ho & Hh). destruct (over_stays _ _ _ _ _ Hch Hi P1 P2 Ho) as [Ho' Hh']. split; [done|]. exists c. by rewrite Hh'.
  - intros (E & c & Ho & Hh). destruct (over_stays _ _ _ _ _ Hch Hi P1 P2 Ho) as [Ho' Hh']. split; [done|]. exists c. rewrite Hh'. split; [done|]. destruct Hh; [left; lia|by right].
  - intros (E & (c & Ho & Ht) & (c' & Ho')). destruct (over_stays _ _ _ _ _ Hch Hi P1 P2 Ho) as [O1 _]. destruct (over_stays _ _ _ _ _ Hch Hi P1 P2 Ho') as [O2 _].
    split; [done|]. split; [|by exists c']. exists c. split; [done|lia].
Qed.
Lemma calmR_trans s f s1 g s2 : calmR s f s1 → calmR s1 g s2 → calmR s (f ++ g) s2.
Proof.
  intros [H1 H2] [G1 G2]. split; [by eapply chained_trans|]. intros Hi P2. pose proof G1 as ((B & _) & _).
  destruct (H2 Hi ltac:(lia)) as (Hi1 & T1 & F1). destruct (G2 Hi1 P2) as (Hi2 & T2 & F2). split; [done|]. split; [by rewrite trace_app, T1|].
  apply Forall_app. split; [|done]. eapply Forall_impl; [exact F1|]. intros e. destruct Hi1 as (? & ? & _). by apply (effect_ok_stays s1 g).
Qed.
(** steps that do not touch the executor *)
Lemma exec_inv_stays s f s' : chained s f s' → half_steps s' = half_steps s → exec_inv s → block s' < 2 ^ 64 → exec_inv s'.
Proof.
  intros Hch E (Hi & P1 & Hh & Ho) P2. pose proof Hch as ((B & _ & _ & H4) & _). destruct (H4 Hi) as [Hi' _]. unfold exec_inv. rewrite E. split_and!; [done|lia|done|].
  intros Hodd. destruct (Ho Hodd) as (c & Hc & Ht). exists c. split; [|done]. by destruct (over_stays _ _ _ _ _ Hch Hi P1 P2 Hc).
Qed.
Lemma calmR_quiet s f s' : chained s f s' → quietR s f s' → calmR s f s'.
Proof.
  intros Hch [E Hf]. split; [done|]. intros Hi P2. split; [by eapply exec_inv_stays|]. rewrite E. split; [by apply quiet_trace|].
  eapply Forall_impl; [exact Hf|]. intros [] [? Hj]; cbn in *; done.
Qed.
(** one half step more *)
Lemma over_ext s s' b c : cc s' = cc s → block s' = block s → over s b c → over s' b c.
Proof. unfold over. by intros -> ->. Qed.
Lemma calmR_one s s' e : cc s' = cc s → block s' = block s → batch_hashes s' = batch_hashes s → batch_sizes s' = batch_sizes s → not_added e →
  (exec_inv s → block s < 2 ^ 64 → advance (half_steps s) e = Some (half_steps s') ∧ effect_ok s e ∧
    (half_steps s' mod 2 = 1 → ∃ c, over s (half_steps s' / 2) c ∧ timeout_block c (half_steps s' / 2) < 2 ^ 64)) →
  calmR s [e] s'.
Proof.
  intros E1 E2 E3 E4 Hn H. assert (chained s [e] s') as Hch. { apply chained_same; [apply conf_same; [lia|done]|done|done|by repeat constructor]. }
  split; [done|]. intros Hi P2. rewrite E2 in P2. destruct (H Hi P2) as (Ha & Hok & Ho). cbn [trace]. rewrite Ha. pose proof (trace_bounds [e] (half_steps s) (half_steps s')) as Hb.
  cbn [trace] in Hb. rewrite Ha in Hb. destruct (Hb eq_refl) as [Hle _]. destruct Hi as (Hcc & P1 & Hh & _). split; [|split; [done|]].
  - split_and!; [unfold cc_inv in *; by rewrite E1|lia|lia|]. intros Hodd. destruct (Ho Hodd) as (c & Hc & Ht). exists c. split; [|done]. by eapply over_ext.
  - constructor; [|constructor]. by apply (effect_ok_stays s [e] s' e Hch Hcc P1 ltac:(lia)).
Qed.
Lemma checks_over s b i c st e t : cc_inv s → config_index s b = Ok i → config_at s i = Ok c → boundary c b = Ok (st, e, t) →
  e = end_block c b ∧ t = timeout_block c b ∧ timeout_block c b < 2 ^ 64 ∧ end_block c b ≤ timeout_block c b ∧ (e ≤ block s → over s b c) ∧ config_for (scheduled (cc s)) b i c.
Proof.
  intros [(W1 & W2 & _) _] E1 E2 E3. apply config_index_iff in E1 as (c' & Hc). unfold config_at in E2. pose proof Hc as (C1 & C2 & C3). rewrite C1 in E2. injection E2 as <-.
  pose proof (proj1 (Forall_lookup _ _) W2 _ _ C1) as Tc. cbn in Tc. apply boundary_ok in E3 as (B1 & B2 & -> & -> & -> & B3 & B4); [|done].
  split_and!; try done; try lia. intros He. split; [by exists i|done].
Qed.
Lemma half_next n : 0 ≤ n → n mod 2 = 0 → (n + 1) mod 2 = 1 ∧ (n + 1) / 2 = n / 2.
Proof. intros H0 H. pose proof (Z.div_mod n 2 ltac:(lia)). assert (n + 1 = 2 * (n / 2) + 1) as -> by lia. split; [rewrite Z.add_comm, Z.mul_comm, Z_mod_plus_full; done|]. rewrite Z.add_comm, Z.mul_comm, Z.div_add by lia. done. Qed.
Lemma half_next' n : 0 ≤ n → n mod 2 = 1 → (n + 1) mod 2 = 0 ∧ (n + 1) / 2 = n / 2 + 1.
Proof.
  intros H0 H. pose proof (Z.div_mod n 2 ltac:(lia)). assert (n + 1 = (n / 2 + 1) * 2) as -> by lia. split; [apply Z_mod_mult|]. rewrite Z_div_mult by lia. lia.
Qed.

(** skipping one cipher half step *)
Lemma calmR_skip s i c st e t s' f : config_index s (half_steps s / 2) = Ok i → config_at s i = Ok c → boundary c (half_steps s / 2) = Ok (st, e, t) →
  half_steps s mod 2 = 0 → (t ≤ block s ∨ e ≤ block s ∧ hash_of s (half_steps s / 2) Cipher = zero32) → skip_one s = Ok (s', f) → calmR s f s'.
Proof.
  intros E1 E2 E3 Hev Hc H. apply skip_one_shape in H as (-> & _ & ->). apply calmR_one; try done. intros (Hcc & P1 & Hh & _) P2. cbn [half_steps set_half_steps advance].
  rewrite Z.eqb_refl. destruct (checks_over _ _ _ _ _ _ _ Hcc E1 E2 E3) as (-> & -> & T1 & T2 & Hov & _). destruct (half_next _ Hh Hev) as [N1 N2]. rewrite N2.
  assert (over s (half_steps s / 2) c) as Ho by (apply Hov; destruct Hc as [?|[? ?]]; lia).
  split; [done|]. split; [|intros _; by exists c]. cbn. split; [done|]. exists c. split; [done|]. destruct Hc as [?|[? ?]]; [by left|by right].
Qed.
Lemma calmR_plain s txs s' f : half_steps s mod 2 = 1 → plain_finish keccak s (half_steps s / 2) txs = Ok (s', f) → calmR s f s'.
Proof.
  intros Hodd H. apply plain_finish_shape in H as (_ & Hh & -> & ->). apply calmR_one; try done. intros (Hcc & P1 & Hn & Ho) P2. cbn [half_steps set_half_steps advance].
  rewrite Z.eqb_refl. destruct (half_next' _ Hn Hodd) as [N1 N2]. rewrite N1. split; [done|]. split; [|done]. cbn. split; [done|]. destruct (Ho Hodd) as (c & Hc & _). by exists c.
Qed.
Lemma calmR_cipher s a b h n k : cipher_checks s a b h n k = Ok (Some tt) → ∀ s1 f s2 g txs, length txs = n → quietR s f s1 → calmR s f s1 →
  cipher_finish keccak s1 a h txs = Ok (s2, g) → calmR s (f ++ g) s2.
Proof.
  intros H s1 f s2 g txs Hn [Eh Hq] Hr Hf. unfold cipher_checks in H. inv_do H. match type of H with (if ?x then _ else _) = _ => destruct x eqn:Et; [done|] end. inv_do H. subst b n.
  apply cipher_finish_shape in Hf as (Hlt & -> & ->). destruct Hr as [Hch Hr]. 
  assert (exec_inv s → block s1 < 2 ^ 64 → calmR s1 [FCipher (half_steps s1) a h txs] (set_half_steps (set_receipts s1 (<[half_steps s1:=mkReceipt true a (half_steps s1) h (chain_hash txs)]> (receipts s1))) (half_steps s1 + 1))) as Hone.
  { intros (Hcc & P1 & Hh & _) P2. apply calmR_one; try done. intros _ _. cbn [half_steps set_half_steps advance]. rewrite Z.eqb_refl, Eh.
    match goal with E : boundary _ _ = Ok _ |- _ => edestruct (checks_over _ _ _ _ _ _ _ Hcc ltac:(eassumption) ltac:(eassumption) E) as (-> & -> & T1 & T2 & Hov & _) end.
    specialize (Hov ltac:(assumption)). destruct (over_stays _ _ _ _ _ Hch Hcc P1 P2 Hov) as [Hov1 Hh1]. match goal with E : half_steps s mod 2 = 0 |- _ => destruct (half_next _ Hh E) as [N1 N2] end.
    rewrite N2. split; [done|]. split; [|intros _; eexists; split; [exact Hov1|done]]. cbn. split; [done|]. eexists. split; [exact Hov1|]. rewrite Hh1. split_and!.
    - match goal with E : (match keypers ?c !! ?j with _ => _ end) = Ok ?x |- _ => destruct (keypers c !! j) eqn:Ek; [|done]; injection E as -> end. subst. by eapply elem_of_list_lookup_2.
    - done.
    - intros ->. match goal with E : (_ || _)%bool = true |- _ => rewrite bool_decide_true in E by done; cbn in E; apply Nat.eqb_eq in E; by apply nil_length_inv in E end. }
  split.
  - eapply chained_trans; [exact Hch|]. apply chained_same; [by apply conf_same|done|done|by repeat constructor].
  - intros Hi P2. cbn [block set_half_steps set_receipts] in P2. destruct (Hone Hi P2) as [Hc1 Hone']. by apply (proj2 (calmR_trans s f s1 _ _ (conj Hch Hr) (Hone Hi P2)) Hi P2).
Qed.
Lemma calmR_skip_loop n : ∀ s hs b eff hs' eff', 0 ≤ hs → b = hs / 2 → skip_loop n s hs b eff = Ok (hs', eff') →
  ∃ g, eff' = eff ++ g ∧ calmR (set_half_steps s hs) g (set_half_steps s hs').
Proof.
  assert (∀ s hs eff, ∃ g, eff = eff ++ g ∧ calmR (set_half_steps s hs) g (set_half_steps s hs)) as Hrefl.
  { intros s hs eff. exists []. rewrite app_nil_r. split; [done|]. apply calmR_quiet; [apply chained_same; [by apply conf_same|done|done|done]|]. split; [done|constructor]. }
  induction n as [|n IH]; intros s hs b eff hs' eff' Hp -> H; cbn [skip_loop] in H.
  { injection H as <- <-. apply Hrefl. }
  inv_do H.
  assert (∃ g, l = eff ++ g ∧ calmR (set_half_steps s hs) g (set_half_steps s z) ∧ (b = true → z mod 2 = 1 ∧ z / 2 = hs / 2)) as (g & -> & Hg & Hodd).
  { assert (∀ r : bool, Ok (r, hs, eff) = Ok (b, z, l) → (r = true → hs mod 2 = 1) → ∃ g, l = eff ++ g ∧ calmR (set_half_steps s hs) g (set_half_steps s z) ∧ (b = true → z mod 2 = 1 ∧ z / 2 = hs / 2)) as Hsame.
    { intros r [= <- <- <-] Hr. destruct (Hrefl s hs eff) as (g & E1 & E2). exists g. split_and!; try done; intros Hx; split; auto. }
    destruct (Z.eqb_spec (hs mod 2) 0) as [Hev|Hno].
    2:{ eapply Hsame; [exact E|]. intros _. pose proof (Z.mod_pos_bound hs 2 ltac:(lia)). lia. }
    inv_do E. destruct (negb (batching_active _)); [by eapply Hsame|]. inv_do E. destruct (Z.ltb_spec (block s) z1); [by eapply Hsame|]. destruct (_ && _) eqn:Et; [by eapply Hsame|].
    inv_do E. subst. injection E as <- <- <-. exists [FSkipped hs]. split; [done|]. split.
    - change (set_half_steps s (hs + 1)) with (set_half_steps (set_half_steps s hs) (half_steps (set_half_steps s hs) + 1)).
      eapply (calmR_skip (set_half_steps s hs)); [eassumption..| |].
      + apply andb_false_iff in Et as [Et|Et]; [left; apply Z.ltb_ge in Et; exact Et|right]. apply negb_false_iff, bool_decide_eq_true in Et. split; [done|exact Et].
      + unfold skip_one. cbn. rewrite c64_eq by done. done.
    - intros _. by apply half_next. }
  destruct b; cbn [negb] in H; [|injection H as <- <-; eauto]. destruct (negb _) eqn:Eh; [injection H as <- <-; eauto|]. apply negb_false_iff, bool_decide_eq_true in Eh.
  inv_do H. subst. 
  destruct (Hodd eq_refl) as [Ho Hd]. pose proof (Z.div_pos hs 2 Hp ltac:(lia)).
    assert (0 ≤ z) as Hz. { pose proof (Z.div_mod z 2 ltac:(lia)). lia. }
    apply IH in H as (g' & -> & Hg'); [|lia|destruct (half_next' z Hz Ho) as [_ ->]; lia]. exists (g ++ [FPlain z []] ++ g'). split; [by rewrite <-!app_assoc|].
    eapply calmR_trans; [exact Hg|]. eapply calmR_trans; [|exact Hg'].
    change (set_half_steps s (z + 1)) with (set_half_steps (set_half_steps s z) (half_steps (set_half_steps s z) + 1)).
    apply (calmR_plain _ []); [exact Ho|]. unfold plain_finish. cbn [ContractsModel.chain_hash foldl]. cbn [half_steps set_half_steps]. rewrite Hd.
    rewrite bool_decide_true; [|symmetry; exact Eh]. cbn [require rbind]. rewrite c64_eq by done. done.
Qed.

Lemma calmR_half s a n s' f : set_half_steps_call s a n = Ok (s', f) → calmR s f s'.
Proof.
  intros H. unfold set_half_steps_call in H. inv_do H. injection H as <- <-. apply calmR_one; try done. intros (Hcc & P1 & Hh & _) P2. cbn [half_steps set_half_steps advance].
  rewrite Z.eqb_refl. destruct (Z.ltb_spec (half_steps s) n); [|lia]. split; [done|].
  destruct (checks_over _ _ _ _ _ _ _ Hcc E0 E1 E2) as (-> & -> & T1 & T2 & Hov & _). destruct (checks_over _ _ _ _ _ _ _ Hcc E5 E6 E7) as (-> & _ & T1' & T2' & Hov' & _).
  split; [|intros _; eexists; split; [apply Hov'; lia|done]]. cbn. split; [done|]. split; [|eexists; apply Hov'; lia]. eexists. split; [apply Hov; lia|done].
Qed.
Lemma calmR_cipher_skip s a b h n k s' f : cipher_checks s a b h n k = Ok None → skip_one s = Ok (s', f) → calmR s f s'.
Proof.
  intros H Hs. unfold cipher_checks in H. inv_do H. subst b. match type of H with (if ?x then _ else _) = _ => destruct x eqn:Et end; [|by inv_do H].
  apply Z.leb_le in Et. eapply calmR_skip; [eassumption..|by left|done].
Qed.
Lemma calmR_skip_cipher s b s' f : skip_cipher s b = Ok (s', f) → calmR s f s'.
Proof. intros H. unfold skip_cipher in H. inv_do H. subst b. eapply calmR_skip; [eassumption..|by left|done]. Qed.
Lemma calmR_skip_empty s m s' f : skip_empty s m = Ok (s', f) → calmR s f s'.
Proof.
  intros H. destruct (decide (0 ≤ half_steps s)) as [Hp|Hn].
  - unfold skip_empty in H. inv_do H. injection H as <- <-. apply calmR_skip_loop in E as (g & -> & Hg); [|done|done]. by destruct s.
  - apply skip_empty_shape in H as (n & -> & _ & Hf). split; [apply chained_same; [by apply conf_same|done|done|by apply skips_not_added]|]. intros (_ & _ & ? & _). lia.
Qed.
Lemma calmR_plain_exec s b txs s1 f s2 g : plain_checks s b = Ok tt → quietR s f s1 → calmR s f s1 → plain_finish keccak s1 b txs = Ok (s2, g) → calmR s (f ++ g) s2.
Proof.
  intros H [E _] Hr Hf. unfold plain_checks in H. inv_do H. subst b. eapply calmR_trans; [exact Hr|]. rewrite <-E in *. by eapply calmR_plain.
Qed.
Lemma calm_all s l : calm_history l → calmR s (steps s l).2 (steps s l).1.
Proof.
  intros Hl. apply (steps_rel keccak ecrecover addr_bytes batcher_address slasher_address deposit_address calm calm_inner calmR); [..|exact Hl].
  all: intros;
    try (match goal with H : schedule _ _ = _ |- _ => pose proof (conf_schedule _ _ _ H) end);
    try (match goal with H : unschedule _ _ _ = _ |- _ => pose proof (conf_unschedule _ _ _ _ H) end);
    try (match goal with H : add_transaction _ _ _ _ _ _ = _ |- _ => pose proof (chained_add _ _ _ _ _ _ _ _ H) end).
  all: try (first [by eapply calmR_trans|by eapply calmR_half|by eapply calmR_cipher_skip|by eapply calmR_skip_cipher|by eapply calmR_skip_empty]).
  all: try (match goal with H : calm _ _, E : run_targets _ ?s ?txs ?l = (?s1, ?f) |- _ =>
    assert (quietR s f s1) by (pose proof (quiet_targets fuel s txs l) as Hq; rewrite E in Hq; apply Hq; inversion H; subst; cbn in *; auto) end).
  all: try (first [by eapply calmR_cipher|by eapply calmR_plain_exec]).
  all: shapes.
  all: try (apply calmR_quiet; [first [done|apply chained_same; [first [done|apply conf_same; [cbn; lia|done]]|done|done|by repeat constructor]]|split; [done|by repeat (constructor; [split; [done|by intros []]|])]]).
  - apply calmR_quiet; [|split; [done|constructor]]. apply chained_same; [|done|done|by constructor]. split_and!; [done..|]. intros [Hw [_ Hh]]. split; [done|]. split; auto.
  - match goal with H : calmR ?t f _ |- calmR ?s0 (?e :: _) _ => apply (calmR_trans s0 [e] t) end.
    + apply calmR_quiet; [apply chained_same; [by apply conf_same|done|done|by repeat constructor]|]. split; [done|]. repeat constructor. by intros [].
    + eapply calmR_trans; [done|]. apply calmR_quiet; [apply chained_same; [by apply conf_same|done|done|by repeat constructor]|]. split; [done|]. repeat constructor. by intros [].
Qed.
Lemma exec_deployed owner hu ap blk : 0 ≤ hu → 0 ≤ blk → exec_inv (deployed owner hu ap blk).
Proof. intros H1 H2. split_and!; [by apply cc_deployed|done|done|]. done. Qed.

(** C49: in every history in which executed transactions do not call the executor back, half steps are finished one by one *)
Theorem C49_in_order owner hu ap blk l : 0 ≤ hu → 0 ≤ blk → calm_history l → let '(s, f) := steps (deployed owner hu ap blk) l in block s < 2 ^ 64 →
  trace 0 f = Some (half_steps s) ∧ StronglySorted Z.lt (omap half_step_of f) ∧ Forall (λ k, 0 ≤ k < half_steps s) (omap half_step_of f) ∧
  (Forall (λ e, ¬ is_jump e) f → omap half_step_of f = seqZ 0 (half_steps s)).
Proof.
  intros Hh Hb Hl. destruct (calm_all (deployed owner hu ap blk) l Hl) as [_ H]. destruct (steps _ l) as [s f]. cbn [fst snd] in *. intros P2.
  destruct (H (exec_deployed owner hu ap blk Hh Hb) P2) as (_ & Ht & _). cbn [half_steps ContractsModel.deployed] in Ht. destruct (trace_bounds _ _ _ Ht) as (B1 & B2 & B3).
  split_and!; [done..|]. intros Hj. rewrite (trace_no_jump _ Hj _ _ Ht). by rewrite Z.sub_0_r.
Qed.
(** C49: what is executed, by whom and when *)
Theorem C49_justified owner hu ap blk l : 0 ≤ hu → 0 ≤ blk → calm_history l → let '(s, f) := steps (deployed owner hu ap blk) l in block s < 2 ^ 64 →
  (∀ n a h txs, FCipher n a h txs ∈ f → n mod 2 = 0 ∧ ∃ c, over s (n / 2) c ∧ a ∈ keypers c ∧ h = chain_hash (added (n / 2) Cipher f) ∧ (added (n / 2) Cipher f = [] → txs = [])) ∧
  (∀ n txs, FPlain n txs ∈ f → n mod 2 = 1 ∧ (∃ c, over s (n / 2) c) ∧ chain_hash txs = chain_hash (added (n / 2) Plain f)) ∧
  (∀ n, FSkipped n ∈ f → n mod 2 = 0 ∧ ∃ c, over s (n / 2) c ∧ (timeout_block c (n / 2) ≤ block s ∨ chain_hash (added (n / 2) Cipher f) = zero32)) ∧
  (∀ x y, FJump x y ∈ f → ∃ c, over s (x / 2) c ∧ timeout_block c (x / 2) ≤ block s).
Proof.
  intros Hh Hb Hl. destruct (calm_all (deployed owner hu ap blk) l Hl) as [Hch H].
  pose proof (C48_hash_chain keccak ecrecover addr_bytes batcher_address slasher_address deposit_address owner hu ap blk l Hh) as Hc.
  destruct (steps _ l) as [s f]. cbn [fst snd] in *. intros P2. destruct Hc as [Hc _].
  destruct (H (exec_deployed owner hu ap blk Hh Hb) P2) as (_ & _ & Hf). rewrite Forall_forall in Hf. split_and!.
  - intros n a h txs Hin. destruct (Hf _ Hin) as (E & c & Ho & Hk & Hh' & Hz). split; [done|]. exists c. rewrite <-Hc. split_and!; try done.
    intros Hnil. apply Hz. rewrite Hh', Hc, Hnil. done.
  - intros n txs Hin. destruct (Hf _ Hin) as (E & c & Ho & Hh'). rewrite <-Hc. split_and!; eauto.
  - intros n Hin. destruct (Hf _ Hin) as (E & c & Ho & Hh'). split; [done|]. exists c. by rewrite <-Hc.
  - intros x y Hin. by destruct (Hf _ Hin) as (E & Ho & _).
Qed.
(** so the plain transactions executed are those that were accepted, up to collisions *)
Theorem C49_plain_content owner hu ap blk l n txs : (∀ x, length (keccak x) = 32%nat) → 0 ≤ hu → 0 ≤ blk → calm_history l →
  let '(s, f) := steps (deployed owner hu ap blk) l in block s < 2 ^ 64 → FPlain n txs ∈ f → txs = added (n / 2) Plain f ∨ collision keccak.
Proof.
  intros Hk Hh Hb Hl. pose proof (C49_justified owner hu ap blk l Hh Hb Hl) as H. destruct (steps _ l) as [s f]. intros P2 Hin. destruct (H P2) as (_ & Hp & _).
  destruct (Hp _ _ Hin) as (_ & _ & E). by apply (C48_chain_injective keccak Hk).
Qed.
(** C49: the executor is never stuck: once the batch has timed out its cipher half step can be skipped by anyone, and the plain
    half step can always be executed by anyone with the accepted transactions *)
Theorem C49_progress owner hu ap blk l : 0 ≤ hu → 0 ≤ blk → calm_history l → let '(s, f) := steps (deployed owner hu ap blk) l in block s < 2 ^ 64 → half_steps s + 1 < 2 ^ 64 →
  let b := half_steps s / 2 in
  (half_steps s mod 2 = 0 → ∀ i c, config_for (scheduled (cc s)) b i c → 0 < span c → timeout_block c b ≤ block s →
     ∀ a fuel, run (S fuel) s a (SkipCipher b) = Ok (set_half_steps s (half_steps s + 1), [FSkipped (half_steps s)])) ∧
  (half_steps s mod 2 = 1 → ∀ a fuel, run (S fuel) s a (ExecPlain b (added b Plain f) []) = Ok (set_half_steps s (half_steps s + 1), [FPlain (half_steps s) (added b Plain f)])).
Proof.
  intros Hh Hb Hl. destruct (calm_all (deployed owner hu ap blk) l Hl) as [Hch H].
  pose proof (C48_hash_chain keccak ecrecover addr_bytes batcher_address slasher_address deposit_address owner hu ap blk l Hh) as Hc.
  destruct (steps _ l) as [s f]. cbn [fst snd] in *. cbv zeta. intros P2 Hlt. set (b := half_steps s / 2). destruct Hc as [Hc _].
  destruct (H (exec_deployed owner hu ap blk Hh Hb) P2) as ((Hcc & P1 & Hn & Ho) & _ & _). pose proof Hcc as ((W1 & W2 & _) & _).
  assert (is64 b = true) as Hb64. { unfold is64, b. pose proof (Z.div_pos (half_steps s) 2 Hn ltac:(lia)). pose proof (Z.div_le_upper_bound (half_steps s) 2 (half_steps s) ltac:(lia) ltac:(lia)).
    rewrite andb_true_iff, Z.leb_le, Z.ltb_lt. lia. }
  split.
  - intros Hev i c Hcf Hs Ht a fuel. cbn [ContractsModel.run typed]. rewrite Hb64. cbn [negb]. unfold skip_cipher. fold b. rewrite Z.eqb_refl. cbn [require rbind].
    rewrite Hev. cbn [Z.eqb require rbind]. assert (config_index s b = Ok i) as -> by (apply config_index_iff; eauto). cbn [rbind]. unfold config_at.
    pose proof Hcf as (C1 & C2 & C3). rewrite C1. cbn [rbind]. unfold batching_active. pose proof (proj2 (Z.ltb_lt _ _) Hs) as ->. cbn [require rbind].
    pose proof (proj1 (Forall_lookup _ _) W2 _ _ C1) as Tc. cbn in Tc. apply is64_ok in Hb64. rewrite boundary_eq by (done || lia). cbn [rbind].
    pose proof (proj2 (Z.leb_le _ _) Ht) as ->. cbn [require rbind]. unfold skip_one. rewrite c64_eq by lia. done.
  - intros Hodd a fuel. destruct (Ho Hodd) as (c & ([i Hcf] & Hs & He) & Ht). fold b in Hcf, He, Ht. cbn [ContractsModel.run typed]. rewrite Hb64. cbn [negb]. unfold plain_checks. fold b.
    rewrite Z.eqb_refl. cbn [require rbind]. rewrite Hodd. cbn [Z.eqb Pos.eqb require rbind]. assert (config_index s b = Ok i) as -> by (apply config_index_iff; eauto). cbn [rbind]. unfold config_at.
    pose proof Hcf as (C1 & C2 & C3). rewrite C1. cbn [rbind]. unfold batching_active. pose proof (proj2 (Z.ltb_lt _ _) Hs) as ->. cbn [assert_ rbind].
    pose proof (proj1 (Forall_lookup _ _) W2 _ _ C1) as Tc. cbn in Tc. apply is64_ok in Hb64. rewrite boundary_eq by (done || lia). cbn [rbind].
    pose proof (proj2 (Z.leb_le _ _) He) as ->. cbn [assert_ rbind]. unfold run_targets. rewrite take_nil. cbn [foldl]. unfold plain_finish.
    rewrite bool_decide_true by (symmetry; apply Hc). cbn [require rbind]. rewrite c64_eq by lia. cbn [rbind]. by rewrite app_nil_l.
Qed.
(** C49: exactly when executeCipherBatch executes a batch *)
Theorem C49_cipher_iff owner hu ap blk l a b h txs k fuel : 0 ≤ hu → let s := (steps (deployed owner hu ap blk) l).1 in 0 ≤ b < 2 ^ 64 → 0 ≤ k < 2 ^ 64 → half_steps s + 1 < 2 ^ 64 → 0 ≤ half_steps s →
  (∃ s', run (S fuel) s a (ExecCipher b h txs k []) = Ok (s', [FCipher (half_steps s) a h txs])) ↔
  half_steps s = 2 * b ∧ ∃ i c, config_for (scheduled (cc s)) b i c ∧ 0 < span c ∧ timeout_block c b < 2 ^ 64 ∧ end_block c b ≤ block s < timeout_block c b ∧
    keypers c !! Z.to_nat k = Some a ∧ d_slashed (deposit_of s a) = false ∧ h = hash_of s b Cipher ∧ (h = zero32 → txs = []).
Proof.
  intros Hh s Hb Hk Hlt Hn. destruct (conf_all keccak ecrecover addr_bytes batcher_address slasher_address deposit_address (deployed owner hu ap blk) l) as (_ & _ & _ & H).
  destruct (H (cc_deployed _ owner hu ap blk Hh)) as [Hcc _]. fold s in Hcc. clearbody s. clear H. pose proof Hcc as ((W1 & W2 & _) & _). cbn [ContractsModel.run typed].
  assert (is64 b && is64 k = true) as -> by (unfold is64; rewrite !andb_true_iff, !Z.leb_le, !Z.ltb_lt; lia). cbn [negb].
  assert (run_targets (run fuel) s txs [] = (s, [])) as Hrt by (unfold run_targets; by rewrite take_nil). rewrite Hrt. split.
  - intros [s' Hr]. apply rbind_ok in Hr as (o & Ec & Hr). destruct o as [[]|]; [|apply skip_one_shape in Hr as (_ & _ & Hr); done].
    unfold cipher_checks in Ec. inv_do Ec. match type of Ec with (if ?x then _ else _) = _ => destruct x eqn:Et; [done|] end. inv_do Ec. subst. apply Z.leb_gt in Et.
    match goal with E : boundary _ _ = Ok _ |- _ => edestruct (checks_over _ _ _ _ _ _ _ Hcc ltac:(eassumption) ltac:(eassumption) E) as (-> & -> & T1 & T2 & Hov & Hcf) end.
    split; [pose proof (Z.div_mod (half_steps s) 2 ltac:(lia)); lia|]. eexists _, _. split; [exact Hcf|]. split; [apply Hov; assumption|]. split; [done|]. split; [done|]. split_and!.
    + match goal with E : (match ?o with _ => _ end) = Ok ?x |- _ => destruct o eqn:Ek; [|done]; injection E as -> end. done.
    + by match goal with E : negb (d_slashed _) = true |- _ => apply negb_true_iff in E end.
    + done.
    + intros Hz. match goal with E : (_ || _)%bool = true |- _ => rewrite bool_decide_true in E by done; cbn in E; apply Nat.eqb_eq in E; by apply nil_length_inv in E end.
  - intros (Hhs & i & c & Hcf & Hs & Ht & He & Hkp & Hsl & Hha & Hz). unfold cipher_checks. rewrite Hhs. replace (2 * b / 2) with b by (rewrite Z.mul_comm, Z_div_mult; lia).
    rewrite Z.eqb_refl. cbn [require rbind]. replace (2 * b mod 2) with 0 by (rewrite Z.mul_comm, Z_mod_mult; lia). cbn [Z.eqb require rbind].
    assert (config_index s b = Ok i) as -> by (apply config_index_iff; eauto). cbn [rbind]. unfold config_at. pose proof Hcf as (C1 & C2 & C3). rewrite C1. cbn [rbind].
    unfold batching_active. pose proof (proj2 (Z.ltb_lt _ _) Hs) as ->. cbn [require rbind]. pose proof (proj1 (Forall_lookup _ _) W2 _ _ C1) as Tc. cbn in Tc.
    rewrite boundary_eq by (done || lia). cbn [rbind]. destruct (Z.leb_spec (timeout_block c b) (block s)); [lia|]. destruct (Z.leb_spec (end_block c b) (block s)); [|lia]. cbn [require rbind].
    assert (k < Z.of_nat (length (keypers c))) as Hkl by (apply lookup_lt_Some in Hkp; lia). pose proof (proj2 (Z.ltb_lt _ _) Hkl) as ->. cbn [require rbind]. rewrite Hkp. cbn [rbind].
    rewrite N.eqb_refl. cbn [require rbind]. rewrite Hsl. cbn [negb require rbind]. rewrite (bool_decide_true (h = hash_of s b Cipher)) by done. cbn [require rbind].
    assert (negb (bool_decide (h = zero32)) || Nat.eqb (length txs) 0 = true)%bool as -> by (case_bool_decide as Ez; [rewrite Hz by done; done|done]). cbn [require rbind].
    unfold cipher_finish. rewrite Hhs. rewrite c64_eq by lia. cbn [rbind app]. eauto.
Qed.
End Exec.

(** C83: what `deploy` reports, and the contracts then on the chain. *)
From Coq Require Import NArith Lia.
From stdpp Require Import list.
From Verif Require Import DeployModel.
Open Scope N_scope.

(** the contracts at these addresses are the system's contracts, and refer to each other *)
Definition wired (c : Contracts) (s : Chain) : Prop :=
  code s (ConfigContract c) = Some (CConfig 20)
  ∧ code s (KeyBroadcastContract c) = Some (CKeyBroadcast (ConfigContract c))
  ∧ code s (FeeBankContract c) = Some CFeeBank
  ∧ code s (BatcherContract c) = Some (CBatcher (ConfigContract c) (FeeBankContract c))
  ∧ code s (TokenContract c) = Some CToken
  ∧ code s (DepositContract c) = Some (CDeposit (TokenContract c))
  ∧ code s (ExecutorContract c) = Some (CExecutor (ConfigContract c) (BatcherContract c) (DepositContract c))
  ∧ code s (TargetProxyContract c) = Some (CTargetProxy (ExecutorContract c))
  ∧ code s (TargetContract c) = Some (CTarget (TargetProxyContract c))
  ∧ code s (KeyperSlasherContract c) = Some (CKeyperSlasher 20 (ConfigContract c) (ExecutorContract c) (DepositContract c))
  ∧ slasher s (DepositContract c) = KeyperSlasherContract c.

Section Proofs.
Context (create : N → N).
Implicit Types (s : Chain) (txs : list (N * contract)).
Hypothesis create_nonzero : ∀ k, create k ≠ 0.

(** what never changes once it holds *)
Definition keeps (s s' : Chain) : Prop :=
  (∀ a c, code s a = Some c → code s' a = Some c)
  ∧ (∀ a t, code s a = Some (CDeposit t) → slasher s a ≠ 0 → slasher s' a = slasher s a).
Lemma keeps_refl s : keeps s s.
Proof. done. Qed.
Lemma keeps_trans s1 s2 s3 : keeps s1 s2 → keeps s2 s3 → keeps s1 s3.
Proof.
  intros [A B] [C D]; split; [by eauto|]. intros a t H1 H2. rewrite (D a t); [by eapply B|by apply A|].
  by rewrite (B a t).
Qed.
Lemma set_slasher_keeps s d a s' : setSlasher s d a = Some s' → keeps s s'.
Proof.
  unfold setSlasher. destruct (code s d) as [[]|] eqn:E; try done. destruct (decide _) as [Z|]; [|done].
  intros [= <-]. split; cbn; [done|]. intros x t' H1 H2. unfold upd. case_decide; [|done]. by subst.
Qed.
Lemma create_at_spec s a c s' : create_at s a c = Some s' →
  keeps s s' ∧ code s' a = Some c ∧ receipt s' = receipt s
  ∧ (∀ n p e d, c = CKeyperSlasher n p e d → (∃ t, code s' d = Some (CDeposit t)) ∧ slasher s' d = a).
Proof.
  unfold create_at. destruct (code s a) eqn:E; [done|].
  set (s1 := mkChain _ _ _ _).
  assert (K : keeps s s1).
  { split; cbn.
    - intros x c' H. unfold upd. case_decide; [by subst; congruence|done].
    - intros x t H _. unfold upd. case_decide; [by subst; congruence|done]. }
  assert (A : code s1 a = Some c) by (cbn; unfold upd; by rewrite decide_True).
  destruct c; try (intros [= <-]; by repeat split; try done; apply K).
  intros H. pose proof (set_slasher_keeps _ _ _ _ H) as K2.
  split; [by eapply keeps_trans|]. split; [by apply K2|].
  unfold setSlasher in H. destruct (code s1 deposit) as [[]|] eqn:D; try done. destruct (decide _); [|done].
  injection H as <-. split; [done|]. intros n' p' e' d' [= <- <- <- <-]. split; [by eexists|]. cbn. unfold upd. by rewrite decide_True.
Qed.
Lemma step_keeps txs s e : keeps s (step create txs s e).
Proof.
  destruct e as [ok|[c|]|a c|d a]; cbn [step].
  - destruct (list_find _ txs) as [[i [n c]]|]; [|done].
    destruct ok; [|done]. destruct (create_at s (create n) c) eqn:E; [|done].
    by apply create_at_spec in E as (K & _).
  - destruct (create_at s _ c) eqn:E; [|done]. by apply create_at_spec in E as (K & _).
  - done.
  - destruct (create_at s a c) eqn:E; [|done]. by apply create_at_spec in E as (K & _).
  - destruct (setSlasher s d a) eqn:E; [|done]. by apply set_slasher_keeps in E.
Qed.
Lemma run_keeps txs es s : keeps s (run create txs s es).
Proof. revert s; induction es as [|e es IH]; intros s; [done|]. eapply keeps_trans; [apply step_keeps|apply IH]. Qed.

(** a receipt with status 1 says that the contract is there *)
Definition honest txs s : Prop := ∀ i n c, list_find (λ tx, tx.1 = n) txs = Some (i, (n, c)) → receipt s n = Some true →
  code s (create n) = Some c
  ∧ (∀ k p e d, c = CKeyperSlasher k p e d → (∃ t, code s d = Some (CDeposit t)) ∧ slasher s d = create n).
Lemma honest_keeps txs s s' : honest txs s → keeps s s' → receipt s' = receipt s → honest txs s'.
Proof using create_nonzero.
  intros H [K1 K2] R i n c F T. rewrite R in T. destruct (H i n c F T) as [A B]. split; [by apply K1|].
  intros k p e d ->. destruct (B k p e d eq_refl) as [[t D] S]. split; [by eexists; apply K1|].
  rewrite (K2 d t D), S; [done|]. rewrite S. apply create_nonzero.
Qed.
Lemma create_at_receipt s a c s' : create_at s a c = Some s' → receipt s' = receipt s.
Proof. intros H. by apply create_at_spec in H as (_ & _ & ? & _). Qed.
Lemma step_honest txs s e : honest txs s → honest txs (step create txs s e).
Proof using create_nonzero.
  intros H. pose proof (step_keeps txs s e) as K.
  destruct e as [ok|[c|]|a c|d a]; cbn [step] in *.
  - destruct (list_find _ txs) as [[i [n c]]|] eqn:F; [|done].
    assert (N : n = nonce s) by (apply list_find_Some in F; apply F). subst n.
    intros i' n c' F' T.
    destruct (if ok then _ else None) as [s'|] eqn:E.
    + destruct ok; [|done]. pose proof E as E2. apply create_at_spec in E as (K' & A & R & S).
      cbn in T. unfold upd in T. destruct (decide (n = nonce s)) as [->|NE].
      * rewrite F' in F. injection F as <- <-. by split.
      * assert (H' : honest txs s') by (by eapply honest_keeps). apply (H' i' n c' F'). by rewrite R.
    + cbn in T. unfold upd in T. case_decide; [done|]. by apply (H i' n c' F').
  - destruct (create_at s _ c) as [s'|] eqn:E; [|by apply (honest_keeps txs s)].
    eapply honest_keeps; [done|exact K|done].
  - by apply (honest_keeps txs s).
  - destruct (create_at s a c) as [s'|] eqn:E; [|done]. cbn in *. eapply honest_keeps; [done|exact K|]. by eapply create_at_receipt.
  - destruct (setSlasher s d a) as [s'|] eqn:E; [|done]. cbn in *. eapply honest_keeps; [done|exact K|].
    unfold setSlasher in E. destruct (code s d) as [[]|]; try done. destruct (decide _); [|done]. by injection E as <-.
Qed.
Lemma run_honest txs es s : honest txs s → honest txs (run create txs s es).
Proof using create_nonzero. revert s; induction es as [|e es IH]; intros s H; [done|]. apply IH. by apply step_honest. Qed.

Lemma wait_mined_spec s txs f g : wait_mined s txs f = Some g →
  f ≤ g ∧ Forall (λ tx, is_Some (receipt s tx.1)) txs ∧ (g = f ↔ Forall (λ tx, receipt s tx.1 = Some true) txs).
Proof.
  revert f; induction txs as [|tx txs IH]; intros f; cbn [wait_mined].
  - intros [= <-]. by repeat split.
  - destruct (receipt s tx.1) as [[]|] eqn:R; [| |done]; intros H; apply IH in H as (A & B & C).
    + split; [done|]. split; [constructor; [by rewrite R|done]|]. rewrite C, Forall_cons. naive_solver.
    + split; [lia|]. split; [constructor; [by rewrite R|done]|]. split; [lia|]. rewrite Forall_cons. intros [X _]. congruence.
Qed.

(** the ten transactions, if the node accepts all *)
Definition the_txs (n : N) (c : Contracts) : list (N * contract) :=
  [ (n, CConfig 20); (n+1, CKeyBroadcast (ConfigContract c)); (n+1+1, CFeeBank);
    (n+1+1+1, CBatcher (ConfigContract c) (FeeBankContract c)); (n+1+1+1+1, CToken);
    (n+1+1+1+1+1, CDeposit (TokenContract c));
    (n+1+1+1+1+1+1, CExecutor (ConfigContract c) (BatcherContract c) (DepositContract c));
    (n+1+1+1+1+1+1+1, CTargetProxy (ExecutorContract c)); (n+1+1+1+1+1+1+1+1, CTarget (TargetProxyContract c));
    (n+1+1+1+1+1+1+1+1+1, CKeyperSlasher 20 (ConfigContract c) (ExecutorContract c) (DepositContract c)) ].
Definition the_addresses (n : N) : Contracts :=
  mkContracts (create n) (create (n+1)) (create (n+1+1)) (create (n+1+1+1)) (create (n+1+1+1+1+1+1)) (create (n+1+1+1+1))
    (create (n+1+1+1+1+1)) (create (n+1+1+1+1+1+1+1+1+1)) (create (n+1+1+1+1+1+1+1)) (create (n+1+1+1+1+1+1+1+1)).
Lemma batch_spec sent n b c : batchContractDeployments create sent (mkBatch n []) = (b, Some c) →
  c = the_addresses n ∧ b_txs b = the_txs n c.
Proof.
  unfold batchContractDeployments, deploy_one, deploy_contract, add. cbn [b_nonce b_txs Datatypes.app].
  do 10 (match goal with |- context [sent ?x] => destruct (sent x) end; cbn [b_nonce b_txs Datatypes.app]; [|by intros [=]]).
  intros H'; injection H' as <- <-. done.
Qed.
Lemma deploy_done sent n s0 es s c : deploy create sent n s0 es = (s, Done c) →
  c = the_addresses n ∧ s = run create (the_txs n c) s0 es ∧ Forall (λ tx, receipt s tx.1 = Some true) (the_txs n c).
Proof.
  unfold deploy. destruct (batchContractDeployments create sent _) as [b [c'|]] eqn:E; [|by intros [=]].
  destruct (wait_mined _ _ _) as [f|] eqn:W; [|by intros [=]]. case_decide; [by intros [=]|]. intros HD. assert (HD1 := f_equal fst HD). assert (HD2 := f_equal snd HD). cbn [fst snd] in HD1, HD2. injection HD2 as <-. subst s.
  apply batch_spec in E as [-> E]. rewrite E in *. apply wait_mined_spec in W as (_ & _ & W).
  split; [done|]. split; [done|]. apply W. lia.
Qed.
End Proofs.

(** If deploy reports success, then whatever others did meanwhile, the contracts at the announced
    addresses are the ones of this run, refer to each other, and the deposit contract's slasher is the
    KeyperSlasher; and nothing that happens later changes this. *)
Theorem C83_wired (create : N → N) (sent : N → bool) (n : N) (s0 s : Chain) (es : list event) (c : Contracts) :
  (∀ k, create k ≠ 0) → (∀ k, receipt s0 k = None) →
  deploy create sent n s0 es = (s, Done c) →
  ∀ txs later, wired c (run create txs s later).
Proof.
  intros Hz Hr D txs later. apply deploy_done in D as (Ec & Es & F).
  assert (Ho : honest create (the_txs n c) s).
  { subst s. apply run_honest; [done|]. intros i k x _. by rewrite Hr. }
  assert (L : ∀ i k x, the_txs n c !! i = Some (k, x) → list_find (λ tx, tx.1 = k) (the_txs n c) = Some (i, (k, x))).
  { intros i k x H. apply list_find_Some. split; [done|]. split; [done|]. intros j y Hj Hlt.
    assert (I : ∀ i y, the_txs n c !! i = Some y → y.1 = n + N.of_nat i).
    { clear. intros i y. unfold the_txs. do 10 (destruct i as [|i]; [intros [= <-]; cbn [fst]; lia|]). done. }
    pose proof (I _ _ H). pose proof (I _ _ Hj). cbn in *. lia. }
  assert (W : wired c s).
  { assert (G : ∀ i k x, the_txs n c !! i = Some (k, x) → code s (create k) = Some x
        ∧ (∀ q p e d, x = CKeyperSlasher q p e d → (∃ t, code s d = Some (CDeposit t)) ∧ slasher s d = create k)).
    { intros i k x H. apply (Ho i k x (L i k x H)). by apply (proj1 (Forall_lookup _ _) F i (k, x)). }
    pose proof (G 0%nat _ _ eq_refl) as [G0 _]. pose proof (G 1%nat _ _ eq_refl) as [G1 _]. pose proof (G 2%nat _ _ eq_refl) as [G2 _].
    pose proof (G 3%nat _ _ eq_refl) as [G3 _]. pose proof (G 4%nat _ _ eq_refl) as [G4 _]. pose proof (G 5%nat _ _ eq_refl) as [G5 _].
    pose proof (G 6%nat _ _ eq_refl) as [G6 _]. pose proof (G 7%nat _ _ eq_refl) as [G7 _]. pose proof (G 8%nat _ _ eq_refl) as [G8 _].
    pose proof (G 9%nat _ _ eq_refl) as [G9 S]. pose proof (S _ _ _ _ eq_refl) as [_ S9]. clear -Ec G0 G1 G2 G3 G4 G5 G6 G7 G8 G9 S9.
    rewrite Ec in *. by repeat split. }
  pose proof (run_keeps create txs later s) as [K1 K2].
  destruct W as (W0 & W1 & W2 & W3 & W4 & W5 & W6 & W7 & W8 & W9 & WS).
  repeat (split; [by apply K1|]). rewrite (K2 _ _ W5); [done|]. rewrite WS, Ec. apply Hz.
Qed.

(** The announced addresses are those of ten different contracts. *)
Theorem C83_distinct create sent n s0 s es c :
  (∀ k, create k ≠ 0) → (∀ k, receipt s0 k = None) → deploy create sent n s0 es = (s, Done c) →
  NoDup [ConfigContract c; KeyBroadcastContract c; FeeBankContract c; BatcherContract c; ExecutorContract c;
         TokenContract c; DepositContract c; KeyperSlasherContract c; TargetProxyContract c; TargetContract c].
Proof.
  intros Hz Hr D. destruct (C83_wired _ _ _ _ _ _ _ Hz Hr D [] []) as (W0 & W1 & W2 & W3 & W4 & W5 & W6 & W7 & W8 & W9 & _).
  cbn in *. repeat (apply NoDup_cons; split; [rewrite ?elem_of_cons, elem_of_nil; intuition congruence|]). constructor.
Qed.

(** Success is reported exactly if the node took all ten transactions and each has succeeded. *)
Theorem C83_reported create sent n s0 es :
  let s := (deploy create sent n s0 es).1 in
  (∃ c, (deploy create sent n s0 es).2 = Done c)
  ↔ (∀ i, i < 10 → sent (n + i) = true) ∧ (∀ i, i < 10 → receipt s (n + i) = Some true).
Proof.
  assert (NN : ∀ i, i < 10 → i = 0 ∨ i = 1 ∨ i = 2 ∨ i = 3 ∨ i = 4 ∨ i = 5 ∨ i = 6 ∨ i = 7 ∨ i = 8 ∨ i = 9) by lia.
  split.
  - intros [c H]. destruct (deploy create sent n s0 es) as [s r] eqn:D. cbn [fst snd] in *. subst r. split.
    + unfold deploy in D. destruct (batchContractDeployments create sent _) as [b [c'|]] eqn:E; [|by inversion D].
      clear D. revert E. unfold batchContractDeployments, deploy_one, deploy_contract, add. cbn [b_nonce b_txs Datatypes.app].
      do 10 (match goal with |- context [sent ?x] => destruct (sent x) eqn:? end; cbn [b_nonce b_txs Datatypes.app]; [|by intros [=]]).
      intros _ i Hi. rewrite <-!N.add_assoc in *. cbn in *. apply NN in Hi.
      destruct Hi as [->|[->|[->|[->|[->|[->|[->|[->|[->| ->]]]]]]]]]; rewrite ?N.add_0_r; done.
    + apply deploy_done in D as (_ & _ & F). unfold the_txs in F. rewrite !Forall_cons in F. cbn [fst] in F.
      rewrite <-!N.add_assoc in F. cbn in F. intros i Hi. apply NN in Hi.
      destruct Hi as [->|[->|[->|[->|[->|[->|[->|[->|[->| ->]]]]]]]]]; rewrite ?N.add_0_r; apply F.
  - intros [S R]. revert R. unfold deploy.
    destruct (batchContractDeployments create sent _) as [b o] eqn:E.
    assert (o = Some (the_addresses create n)) as ->.
    { revert E. unfold batchContractDeployments, deploy_one, deploy_contract, add. cbn [b_nonce b_txs Datatypes.app].
      rewrite <-!N.add_assoc. cbn [N.add Pos.add Pos.succ].
      assert (S0 : sent n = true) by (rewrite <-(N.add_0_r n); apply S; lia). rewrite S0.
      rewrite !S by lia. intros [= <- <-]. unfold the_addresses. rewrite <-!N.add_assoc. done. }
    apply batch_spec in E as [_ E]. rewrite E. cbn [fst snd]. intros R.
    set (s := run _ _ _ _) in *.
    assert (F : Forall (λ tx, receipt s tx.1 = Some true) (the_txs n (the_addresses create n))).
    { unfold the_txs. rewrite <-!N.add_assoc. cbn [N.add Pos.add Pos.succ].
      assert (R0 : receipt s n = Some true) by (rewrite <-(N.add_0_r n); apply R; lia).
      repeat (apply Forall_cons_2; [cbn [fst]; first [exact R0|apply R; lia]|]). constructor. }
    assert (W : wait_mined s (the_txs n (the_addresses create n)) 0 = Some 0).
    { revert F. generalize (the_txs n (the_addresses create n)). clear. intros txs F.
      induction F as [|tx txs H _ IH]; [done|]. cbn [wait_mined]. by rewrite H. }
    rewrite W. eexists. done.
Qed.

(** receipts are only written at the account's nonce, which grows *)
Lemma step_receipts create txs s e : nonce s ≤ nonce (step create txs s e)
  ∧ (∀ k, k < nonce s ∨ nonce (step create txs s e) ≤ k → receipt (step create txs s e) k = receipt s k).
Proof.
  assert (CN : ∀ s a c s', create_at s a c = Some s' → nonce s' = nonce s ∧ receipt s' = receipt s).
  { clear. intros s a c s' H. split; [|by eapply create_at_receipt]. revert H. unfold create_at.
    destruct (code s a); [done|]. destruct c; try (by intros [= <-]). unfold setSlasher.
    destruct (code _ deposit) as [[]|]; try done. destruct (decide _); [|done]. by intros [= <-]. }
  destruct e as [ok|[c|]|a c|d a]; cbn [step].
  - destruct (list_find _ txs) as [[i [k c]]|] eqn:F; [|done].
    apply list_find_Some in F as (_ & F & _). cbn in F. subst k.
    destruct (if ok then _ else None) as [s'|] eqn:E.
    + destruct ok; [|done]. apply CN in E as [E1 E2]. cbn. split; [lia|]. intros k Hk. unfold upd. by rewrite decide_False by lia.
    + cbn. split; [lia|]. intros k Hk. unfold upd. by rewrite decide_False by lia.
  - destruct (create_at s _ c); cbn; split; try done; lia.
  - cbn; split; try done; lia.
  - destruct (create_at s a c) eqn:E; [|done]. apply CN in E as [E1 E2]. cbn. rewrite E1, E2. done.
  - destruct (setSlasher s d a) eqn:E; [|done]. revert E. unfold setSlasher.
    destruct (code s d) as [[]|]; try done. destruct (decide _); [|done]. by intros [= <-].
Qed.
Lemma run_receipts create txs es s : nonce s ≤ nonce (run create txs s es)
  ∧ (∀ k, k < nonce s ∨ nonce (run create txs s es) ≤ k → receipt (run create txs s es) k = receipt s k).
Proof.
  revert s; induction es as [|e es IH]; intros s; [done|]. change (run create txs s (e :: es)) with (run create txs (step create txs s e) es).
  destruct (IH (step create txs s e)) as [A B], (step_receipts create txs s e) as [C D]. split; [lia|].
  intros k Hk. rewrite B by lia. apply D. lia.
Qed.

(** If another transaction of the deployer's key takes one of the ten nonces, deploy never reports success. *)
Theorem C83_disturbed create sent n s0 es o es' b :
  (∀ k, receipt s0 k = None) →
  b = (batchContractDeployments create sent (mkBatch n [])).1 →
  n ≤ nonce (run create (b_txs b) s0 es) < n + 10 →
  ∀ c, (deploy create sent n s0 (es ++ Foreign o :: es')).2 ≠ Done c.
Proof.
  intros Hr Hb Hn c H.
  pose proof (proj1 (C83_reported create sent n s0 (es ++ Foreign o :: es')) (ex_intro _ c H)) as [_ R].
  destruct (run_receipts create (b_txs b) es s0) as [_ A].
  set (s1 := run create (b_txs b) s0 es) in *.
  assert (E : (deploy create sent n s0 (es ++ Foreign o :: es')).1 = run create (b_txs b) (step create (b_txs b) s1 (Foreign o)) es').
  { subst s1. rewrite Hb. unfold deploy. clear. destruct (batchContractDeployments create sent _) as [b' x]. cbn [fst].
    unfold run. by rewrite foldl_app. }
  rewrite E in R. set (s2 := step _ _ s1 (Foreign o)) in *.
  assert (N2 : nonce s2 = nonce s1 + 1) by (subst s2; cbn [step]; destruct o as [x|]; [destruct (create_at s1 _ x)|]; done).
  assert (R2 : receipt s2 (nonce s1) = None).
  { assert (receipt s2 = receipt s1 ) as -> .
    { subst s2; cbn [step]; destruct o as [x|]; [|done]; by destruct (create_at s1 _ x). }
    rewrite A by lia. apply Hr. }
  destruct (run_receipts create (b_txs b) es' s2) as [_ B].
  specialize (R (nonce s1 - n) ltac:(lia)). replace (n + (nonce s1 - n)) with (nonce s1) in R by lia.
  rewrite B in R by lia. congruence.
Qed.

(** Whoever calls setSlasher on the deposit contract before the KeyperSlasher is created makes the
    deployment fail, and stays that contract's slasher. *)
Theorem C83_front_run create sent n s0 es (b : TXBatch) (a : N) :
  (∀ k, create k ≠ 0) → (∀ k, receipt s0 k = None) →
  b = (batchContractDeployments create sent (mkBatch n [])).1 →
  let s := run create (b_txs b) s0 es in
  (∃ t, code s (create (n + 5)) = Some (CDeposit t)) →
  slasher s (create (n + 5)) = a → a ≠ 0 → a ≠ create (n + 9) →
  ∀ es', (∀ c, (deploy create sent n s0 (es ++ es')).2 ≠ Done c)
    ∧ slasher (run create (b_txs b) s es') (create (n + 5)) = a.
Proof.
  intros Hz Hr Hb s [t Ht] Ha Ha0 Ha9 es'.
  assert (K : slasher (run create (b_txs b) s es') (create (n + 5)) = a).
  { destruct (run_keeps create (b_txs b) es' s) as [_ K]. rewrite (K _ t Ht); [done|]. by rewrite Ha. }
  split; [|done]. intros c H. destruct (deploy create sent n s0 (es ++ es')) as [s' r] eqn:D. cbn in H. subst r.
  assert (E : s' = run create (b_txs b) s es').
  { clear -D Hb. subst s. rewrite Hb. clear Hb. unfold deploy in D.
    destruct (batchContractDeployments create sent _) as [b' x]. cbn [fst].
    apply (f_equal fst) in D. cbn [fst] in D. rewrite <-D. unfold run. by rewrite foldl_app. }
  pose proof (C83_wired _ _ _ _ _ _ _ Hz Hr D [] []) as W.
  pose proof (deploy_done _ _ _ _ _ _ _ D) as (Ec & _). destruct W as (_ & _ & _ & _ & _ & _ & _ & _ & _ & _ & WS).
  change (slasher s' (DepositContract c) = KeyperSlasherContract c) in WS. rewrite E in WS.
  rewrite Ec in WS. unfold the_addresses in WS. cbn [DepositContract KeyperSlasherContract] in WS.
  replace (n+1+1+1+1+1) with (n+5) in WS by lia. replace (n+5+1+1+1+1) with (n+9) in WS by lia.
  apply Ha9. rewrite <-K. exact WS.
Qed.

(** both outcomes occur: an undisturbed deployment, among others' actions, and a front-run one *)
Example C83_witness :
  let create k := k + 100 in let s0 := mkChain 3 (λ _, None) (λ _, 0) (λ _, None) in
  let six := repeat (Mined true) 6 in let four := repeat (Mined true) 4 in
  (deploy create (λ _, true) 3 s0 ([Created 7 CToken] ++ six ++ [SetSlasher 107 9; Created 8 (CKeyperSlasher 1 2 3 4)] ++ four ++ [SetSlasher 108 9])).2
    = Done (mkContracts 103 104 105 106 109 107 108 112 110 111)
  ∧ (deploy create (λ _, true) 3 s0 (six ++ [SetSlasher 108 9] ++ four)).2 = Failed
  ∧ slasher (deploy create (λ _, true) 3 s0 (six ++ [SetSlasher 108 9] ++ four)).1 108 = 9
  ∧ (deploy create (λ _, true) 3 s0 (six ++ [Foreign None] ++ four)).2 = Waiting.
Proof. vm_compute. done. Qed.

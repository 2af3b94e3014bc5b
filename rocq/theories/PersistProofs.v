(** Proofs for C17. *)
From stdpp Require Import gmap list sorting.
From Coq Require Import NArith ZArith Lia.
From RecordUpdate Require Import RecordUpdate.
From Verif Require Import AppModel AppSpec AppSteps AppInv AppProofs1 PersistModel.

Notation fg := forget_mempool.
Definition fgr (x : option (app * response)) : option (app * response) :=
  match x with Some (s, r) => Some (fg s, r) | None => None end.

Lemma fg_batch_config ord s m a : deliver_batch_config ord (fg s) m a = fgr (deliver_batch_config ord s m a).
Proof.
  unfold deliver_batch_config, add_config. cbv zeta.
  change (last_config (fg s)) with (last_config s). change (config_voting (fg s)) with (config_voting s).
  destruct (config_from_message m) as [bc|]; [|done]. destruct (last_config s) as [l|]; cbn [mbind option_bind]; [|done].
  destruct (bool_decide (l = bc)); [done|]. destruct (check_config l bc); cbn [negb]; [|done].
  destruct (is_keyper l a); cbn [negb]; [|done]. destruct (config_add_vote _ _ _) as [v|]; [|done].
  destruct (outcome _ _ _); [|done].
  change (should_start_dkg _ bc) with (should_start_dkg s bc) at 1.
  match goal with |- _ = fgr (if ?x then _ else _) => change x with (should_start_dkg s bc) end.
  destruct (should_start_dkg s bc); [|done]. unfold start_dkg, last_config. cbn.
  by destruct (last (configs s ++ [bc])).
Qed.
Lemma fg_get_config s b : get_config (fg s) b = get_config s b. Proof. done. Qed.
Lemma fg_deliver_message O ord s p a : deliver_message O ord (fg s) p a = fgr (deliver_message O ord s p a).
Proof.
  destruct p; cbn [deliver_message].
  - apply fg_batch_config.
  - unfold deliver_config_started, last_config. cbn. destruct (last (configs s)); cbn; [|done].
    repeat (case_match; cbn; try done).
    all: repeat (match goal with |- context [mbind _ ?x] => destruct x eqn:?; cbn; try done | |- context [match ?x with Some _ => _ | None => _ end] => destruct x eqn:?; cbn; try done end).
    all: repeat (case_match; cbn; try done).
  - unfold deliver_check_in, is_keyper_any. cbn. repeat (case_match; cbn; try done).
  - unfold deliver_eon_start_vote. rewrite fg_get_config. destruct (get_config s start) as [c|]; cbn; [|done].
    destruct (negb (is_keyper c a)); cbn; [done|]. unfold maybe_start_eon, start_dkg, count_eon_start_vote. cbn.
    repeat (case_match; cbn; try done); cbn in *; simplify_eq; try done.
  - unfold deliver_decryption_signature. change (get_batch_state (fg s) batch) with (get_batch_state s batch).
    destruct (get_batch_state s batch) as [bs|]; cbn [mbind option_bind]; [|done].
    by destruct (add_decryption_signature _ _ _).
  - unfold handle_poly_eval. cbn. repeat (case_match; cbn; try done).
  - unfold handle_poly_commitment. cbn. repeat (case_match; cbn; try done).
  - unfold handle_accusation. cbn. repeat (case_match; cbn; try done).
  - unfold handle_apology. cbn. repeat (case_match; cbn; try done).
  - unfold handle_epoch_share. cbn. repeat (case_match; cbn; try done).
  - done.
Qed.
Lemma fg_deliver O ord s tx : deliver_tx O ord (fg s) tx = fgr (deliver_tx O ord s tx).
Proof.
  unfold deliver_tx. destruct (decode_tx O tx) as [[a m]|]; [|done]. cbn.
  destruct (negb _); [done|]. case_bool_decide; [done|].
  etrans; [|apply fg_deliver_message]. done.
Qed.
Lemma fg_end_block_flags s : end_block_flags (fg s) = fg <$> end_block_flags s.
Proof.
  unfold end_block_flags. change (last_config (fg s)) with (last_config s). change (configs (fg s)) with (configs s).
  destruct (last_config s) as [l|]; cbn [mbind option_bind]; [|done].
  set (p := if Nat.leb 2 _ then _ else _). destruct p as [[p|]|]; cbn [mbind option_bind]; [|done|done].
  change (started_votes (fg s)) with (started_votes s).
  destruct (N.leb (cf_threshold p) _); done.
Qed.
Lemma fg_end_block s h : end_block (fg s) h = fgr (end_block s h).
Proof.
  unfold end_block. rewrite fg_end_block_flags. by destruct (end_block_flags s).
Qed.

Lemma same_deliver O ord s t tx s' r : same_state s t → deliver_tx O ord s tx = Some (s', r) →
  ∃ t', deliver_tx O ord t tx = Some (t', r) ∧ same_state s' t'.
Proof.
  intros E H. pose proof (fg_deliver O ord s tx) as Hs. pose proof (fg_deliver O ord t tx) as Ht.
  unfold same_state in *. rewrite <-E, Hs, H in Ht. simpl fgr in Ht.
  destruct (deliver_tx O ord t tx) as [[t' r']|]; simpl fgr in Ht; [|done].
  apply (inj Some) in Ht. pose proof (f_equal fst Ht) as E1. pose proof (f_equal snd Ht) as E2. simpl fst in E1. simpl snd in E2.
  subst r'. eauto.
Qed.
Lemma same_end_block s t h s' r : same_state s t → end_block s h = Some (s', r) →
  ∃ t', end_block t h = Some (t', r) ∧ same_state s' t'.
Proof.
  intros E H. pose proof (fg_end_block s h) as Hs. pose proof (fg_end_block t h) as Ht.
  unfold same_state in *. rewrite <-E, Hs, H in Ht. simpl fgr in Ht.
  destruct (end_block t h) as [[t' r']|]; simpl fgr in Ht; [|done].
  apply (inj Some) in Ht. pose proof (f_equal fst Ht) as E1. pose proof (f_equal snd Ht) as E2. simpl fst in E1. simpl snd in E2.
  subst r'. eauto.
Qed.
Lemma same_refl s : same_state s s. Proof. done. Qed.
Lemma same_sym s t : same_state s t → same_state t s. Proof. done. Qed.
Lemma same_trans s t u : same_state s t → same_state t u → same_state s u.
Proof. unfold same_state. congruence. Qed.
Lemma same_commit s : same_state (commit s) s. Proof. done. Qed.
Lemma same_check O s tx s' r : check_tx O s tx = (s', r) → same_state s' s.
Proof. unfold check_tx. intros H. repeat case_match; by simplify_eq. Qed.
Lemma same_height s t : same_state s t → last_height s = last_height t.
Proof. unfold same_state. intros H. change (last_height (fg s) = last_height (fg t)). by rewrite H. Qed.

Lemma end_block_height s h s' r : end_block s h = Some (s', r) → last_height s' = h.
Proof. unfold end_block. destruct (end_block_flags s); cbn; [|done]. by intros [= <- <-]. Qed.
Lemma deliver_height O ord s tx s' r : deliver_tx O ord s tx = Some (s', r) → last_height s' = last_height s.
Proof.
  intros H. apply deliver_tx_cases in H as [[-> ->]|(a & m & _ & _ & _ & Hm)]; [done|].
  change (last_height s) with (last_height (with_nonce s a m)). by destruct Hm.
Qed.

Lemma deliver_all_snoc O s txs tx : deliver_all O s (txs ++ [tx]) =
  match deliver_all O s txs with
  | Some s => match deliver_tx O id s tx with Some (s', _) => Some s' | None => None end | None => None end.
Proof. unfold deliver_all. by rewrite foldl_app. Qed.
Lemma run_blocks_snoc O s bs b : run_blocks O s (bs ++ [b]) =
  match run_blocks O s bs with Some s => run_block O s b | None => None end.
Proof.
  revert s. induction bs as [|b' bs IH]; intros s; cbn.
  - by destruct (run_block O s b).
  - destruct (run_block O s b'); [apply IH|done].
Qed.
Lemma chain_state_snoc O dev g bs b : chain_state O dev g (bs ++ [b]) =
  match chain_state O dev g bs with Some s => run_block O s b | None => None end.
Proof. unfold chain_state. destruct (chain_init dev g); [apply run_blocks_snoc|done]. Qed.

Lemma id_valid : valid_order id. Proof. by intros l. Qed.

Lemma deliver_all_history O s tr txs s' : history O tr s → deliver_all O s txs = Some s' →
  (∃ tr', history O tr' s') ∧ last_height s' = last_height s.
Proof.
  intros Hh. revert s'. induction txs as [|tx txs IH] using rev_ind; intros s'.
  - intros [= <-]. eauto.
  - rewrite deliver_all_snoc. destruct (deliver_all O s txs) as [s1|]; [|done].
    destruct (IH s1 eq_refl) as [[tr1 [dev H1]] Hl].
    destruct (deliver_tx O id s1 tx) as [[s2 r]|] eqn:E; [|done]. intros [= <-]. split.
    + eexists _, dev. exact (exec_snoc O _ tr1 s1 (CDeliverTx tx id) r s2 H1 id_valid E).
    + rewrite <-Hl. by eapply deliver_height.
Qed.
Lemma deliver_all_Some O s tr txs : history O tr s → is_Some (deliver_all O s txs).
Proof.
  intros Hh. induction txs as [|tx txs IH] using rev_ind; [by eexists|].
  rewrite deliver_all_snoc. destruct IH as [s1 E]. rewrite E. 
  destruct (deliver_all_history O s tr txs s1 Hh E) as [[tr1 H1] _].
  destruct (no_panic O tr1 s1 (CDeliverTx tx id) H1 id_valid) as [[s2 r] E2]. cbn in E2. rewrite E2. eauto.
Qed.
Lemma run_block_history O s tr b : history O tr s → ∃ s' , run_block O s b = Some s' ∧
  (∃ tr', history O tr' s') ∧ last_height s' = (last_height s + 1)%Z.
Proof.
  intros Hh. unfold run_block. destruct (deliver_all_Some O s tr b Hh) as [s1 E1]. rewrite E1.
  destruct (deliver_all_history O s tr b s1 Hh E1) as [[tr1 H1] _].
  destruct (no_panic O tr1 s1 (CEndBlock (last_height s + 1)) H1 I) as [[s2 r] E2]. cbn [step] in E2. rewrite E2.
  eexists. split; [done|]. split.
  - destruct H1 as [dev H1]. eexists _, dev.
    refine (exec_snoc O _ _ s2 CCommit (ok_response []) (commit s2) _ I eq_refl).
    exact (exec_snoc O _ tr1 s1 (CEndBlock (last_height s + 1)) r s2 H1 I E2).
  - cbn. by eapply end_block_height.
Qed.
Lemma chain_init_history O dev g s : chain_init dev g = Some s → (∃ tr, history O tr s) ∧ last_height s = 0%Z.
Proof.
  intros E. split.
  - eexists _, dev. eapply (exec_snoc O _ [] _ (CInitChain (g_keypers g) (g_threshold g) (g_validators g) (g_chain g))); [constructor|done|].
    cbn [step]. unfold chain_init in E. by rewrite E.
  - unfold chain_init, init_chain in E. repeat (case_match; try done). cbn in E.
    destruct (make_powermap_genesis _); cbn in E; [|done]. by injection E as <-.
Qed.
Lemma chain_state_history O dev g bs : is_Some (chain_init dev g) →
  ∃ s, chain_state O dev g bs = Some s ∧ (∃ tr, history O tr s) ∧ last_height s = Z.of_nat (length bs).
Proof.
  intros [s0 E0]. induction bs as [|b bs IH] using rev_ind.
  - exists s0. unfold chain_state. rewrite E0. cbn. split; [done|]. exact (chain_init_history O dev g s0 E0).
  - destruct IH as (s & E & [tr Hh] & Hl). rewrite chain_state_snoc, E.
    destruct (run_block_history O s tr b Hh) as (s' & E' & Hh' & Hl'). exists s'.
    split; [done|]. split; [done|]. rewrite app_length. cbn. lia.
Qed.

Section Proofs.
Context (F : Type) (enc : app → F) (dec : F → option app) (Hcodec : ∀ s, dec (enc s) = Some s).
Context (O : oracles) (g : genesis_doc) (dev : bool).

Notation chain := (chain_state O dev g).

(** the process has executed exactly the first [n] blocks *)
Definition at_height (store : list block) (n : nat) (s : app) : Prop :=
  n ≤ length store ∧ last_height s = Z.of_nat n ∧ ∃ t, chain (take n store) = Some t ∧ same_state s t.
Definition in_block (store : list block) (rest : block) (s : app) : Prop :=
  ∃ n (pre : block) t0 t, store !! n = Some (pre ++ rest : block) ∧ chain (take n store) = Some t0 ∧
    deliver_all O t0 pre = Some t ∧ same_state s t ∧ last_height s = Z.of_nat n.
Definition saved (store : list block) (f : option F) : Prop :=
  ∃ s, load F dec f = Some s ∧ (s = new_app dev ∨ ∃ n, 1 ≤ n ∧ at_height store n s).
Definition proc_ok (store : list block) (tmp : option (F * bool)) (p : option (app * phase)) : Prop :=
  match p with
  | None => True
  | Some (s, Idle) => ∃ n, at_height store n s
  | Some (s, InBlock rest) => in_block store rest s
  | Some (s, Ended) | Some (s, PCreated) => ∃ n, 1 ≤ n ∧ at_height store n s
  | Some (s, PWritten) | Some (s, PSynced) => ∃ n, 1 ≤ n ∧ at_height store n s ∧ ∃ b, tmp = Some (enc s, b)
  end.
Definition MInv (w : machine F) : Prop :=
  saved (mc_store w) (mc_prev w) ∧ saved (mc_store w) (mc_gob w) ∧ proc_ok (mc_store w) (mc_tmp w) (mc_proc w).

Lemma at_height_grow store b n s : at_height store n s → at_height (store ++ [b]) n s.
Proof.
  intros (Hn & Hl & t & Ht & E). split; [rewrite app_length; lia|]. split; [done|]. exists t.
  by rewrite take_app_le.
Qed.
Lemma in_block_grow store b rest s : in_block store rest s → in_block (store ++ [b]) rest s.
Proof.
  intros (n & pre & t0 & t & Hn & H). exists n, pre, t0, t. split; [by apply lookup_app_l_Some|].
  apply lookup_lt_Some in Hn. rewrite take_app_le by (unfold block in *; lia). done.
Qed.
Lemma saved_grow store b f : saved store f → saved (store ++ [b]) f.
Proof. intros (s & Hs & [H|(n & Hn & H)]); exists s; (split; [done|]); [by left|]. right. exists n. eauto using at_height_grow. Qed.
Lemma at_height_same store n s s' : at_height store n s → same_state s' s → at_height store n s'.
Proof.
  intros (Hn & Hl & t & Ht & E) E'. split; [done|]. rewrite (same_height _ _ E'). split; [done|].
  exists t. split; [done|]. by eapply same_trans.
Qed.
Lemma in_block_same store rest s s' : in_block store rest s → same_state s' s → in_block store rest s'.
Proof.
  intros (n & pre & t0 & t & Hn & H1 & H2 & E & Hl) E'. exists n, pre, t0, t. rewrite (same_height _ _ E').
  repeat split; try done. by eapply same_trans.
Qed.
Lemma chain_history bs t : chain bs = Some t → ∃ tr, history O tr t.
Proof.
  intros H. assert (Hi : is_Some (chain_init dev g)). { unfold chain_state in H. destruct (chain_init dev g); [eauto|done]. }
  destruct (chain_state_history O dev g bs Hi) as (s & E & Hh & _). rewrite H in E. injection E as ->. done.
Qed.

Lemma node_step_inv w w' : MInv w → node_step F enc dec O g w w' → MInv w'.
Proof.
  intros (Hp & Hg & Hpr) Hs. destruct Hs as [old gob tmp store s s' Hld Hhs|old gob tmp proc store b|old gob tmp s store b Hb
    |old gob tmp s tx rest store ord s' r Ho Hd|old gob tmp s ph tx store s' r Hph Hc|old gob tmp s store s' r He
    |old gob tmp s store|old gob tmp s store f|old gob tmp s store|old gob f b s store|old gob f b s store
    |old gob tmp s ph store Hph|old gob gob' tmp tmp' proc store Hgob]; cbn in *.
  - split; [done|]. split; [done|]. cbn. destruct Hg as (s0 & Hl & H). rewrite Hl in Hld. injection Hld as ->.
    unfold handshake in Hhs. destruct H as [->|(n & Hn & Hat)].
    + cbn in Hhs. exists 0. split; [lia|].
      assert (chain [] = Some s') as Hc. { unfold chain_state, chain_init. by rewrite Hhs. }
      destruct (chain_init_history O dev g s' Hhs) as [_ Hl'].
      split; [done|]. exists s'. by rewrite take_0.
    + destruct Hat as (Hle & Hlh & Ht). rewrite Hlh in Hhs. 
      destruct (Z.eqb_spec (Z.of_nat n) 0) as [|_]; [lia|]. injection Hhs as <-. exists n. by split.
  - split; [by apply saved_grow|]. split; [by apply saved_grow|].
    destruct proc as [[s [|rest| | | |]]|]; cbn in *; try done; try by apply in_block_grow.
    all: naive_solver eauto using at_height_grow.
  - split; [done|]. split; [done|]. cbn. destruct Hpr as (n & Hle & Hlh & t & Ht & E).
    exists n, [], t, t. rewrite Hlh, Nat2Z.id in Hb. done.
  - split; [done|]. split; [done|]. cbn. destruct Hpr as (n & pre & t0 & t & Hn & H0 & H1 & E & Hlh).
    destruct (same_deliver _ _ _ _ _ _ _ E Hd) as (t' & Hd' & E').
    destruct (chain_history _ _ H0) as [tr0 Hh0]. destruct (deliver_all_history _ _ _ _ _ Hh0 H1) as [[tr1 Hh1] _].
    exists n, (pre ++ [tx]), t0, t'. rewrite <-app_assoc. split; [done|]. split; [done|]. split.
    { rewrite deliver_all_snoc, H1. pose proof (deliver_order_indep O t tx ord id (history_Inv _ _ _ Hh1) Ho id_valid) as Hord.
      cbn [step] in Hord. by rewrite <-Hord, Hd'. }
    split; [done|]. rewrite <-Hlh. by eapply deliver_height.
  - split; [done|]. split; [done|]. cbn. apply same_check in Hc.
    destruct Hph as [->|[->|[rest ->]]]; cbn in *.
    + destruct Hpr as [n H]. exists n. by eapply at_height_same.
    + destruct Hpr as (n & Hn & H). exists n. split; [done|]. by eapply at_height_same.
    + by eapply in_block_same.
  - split; [done|]. split; [done|]. cbn. destruct Hpr as (n & pre & t0 & t & Hn & H0 & H1 & E & Hlh).
    rewrite app_nil_r in Hn. destruct (same_end_block _ _ _ _ _ E He) as (t' & He' & E').
    exists (S n). split; [lia|]. split; [apply lookup_lt_Some in Hn; unfold block in *; lia|].
    split; [rewrite (end_block_height _ _ _ _ He); lia|].
    exists (commit t'). rewrite (take_S_r _ _ _ Hn), chain_state_snoc, H0. unfold run_block. rewrite H1.
    destruct (chain_history _ _ H0) as [tr0 Hh0]. destruct (deliver_all_history _ _ _ _ _ Hh0 H1) as [_ Hl1].
    rewrite <-Hl1, <-(same_height _ _ E), He'. split; [done|]. by eapply same_trans; [|apply same_sym, same_commit].
  - split; [done|]. split; [done|]. cbn. destruct Hpr as (n & Hn & H). exists n. eapply at_height_same; [done|apply same_commit].
  - split; [done|]. split; [done|]. cbn. destruct Hpr as (n & Hn & H). exists n. split; [done|]. eapply at_height_same; [done|apply same_commit].
  - split; [done|]. split; [done|]. cbn. destruct Hpr as (n & Hn & H). exists n. eauto.
  - split; [done|]. split; [done|]. cbn. destruct Hpr as (n & Hn & H & c & Ht). simplify_eq. exists n. eauto.
  - destruct Hpr as (n & Hn & H & c & Ht). simplify_eq. split; [done|]. split; cbn; [|by exists n].
    exists s. cbn. split; [apply Hcodec|]. right. by exists n.
  - split; [done|]. split; [done|]. cbn. destruct Hph as [->|[->| ->]]; cbn in Hpr; naive_solver.
  - split; [by destruct Hgob as [->| ->]|]. split; [by destruct Hgob as [->| ->]|]. done.
Qed.

Lemma steps_inv w w' : MInv w → node_steps F enc dec O g w w' → MInv w'.
Proof. intros Hi. induction 1 as [|w1 w2 w3 _ IH Hs]; [done|]. exact (node_step_inv _ _ (IH Hi) Hs). Qed.
Lemma initial_inv w : initial F enc dev w → MInv w.
Proof.
  intros (Hg & Hp & Hpr & Hst). unfold MInv. rewrite Hp, Hpr, Hst.
  assert (saved [] (mc_gob w)).
  { exists (new_app dev). split; [|by left]. destruct Hg as [->|[-> E]]; cbn; [apply Hcodec|by rewrite E]. }
  done.
Qed.
Lemma node_steps_inv w w' : initial F enc dev w → node_steps F enc dec O g w w' → MInv w'.
Proof. intros Hi. induction 1 as [|w1 w2 w3 _ IH Hs]; [by apply initial_inv|]. eapply node_step_inv; eauto. Qed.

Lemma crash_safe w w' s : initial F enc dev w → node_steps F enc dec O g w w' → mc_proc w' = Some (s, Idle) →
  (0 ≤ last_height s ≤ Z.of_nat (length (mc_store w')))%Z ∧
  ∃ t, chain (take (Z.to_nat (last_height s)) (mc_store w')) = Some t ∧ same_state s t.
Proof.
  intros Hi Hs Hp. destruct (node_steps_inv _ _ Hi Hs) as (_ & _ & H). rewrite Hp in H. destruct H as (n & Hn & Hl & H).
  rewrite Hl, Nat2Z.id. split; [lia|done].
Qed.

(** a node can catch up to the end of its block store *)
Lemma finish_block old gob tmp store s rest : in_block store rest s →
  ∃ s', node_steps F enc dec O g (mkMachine old gob tmp (Some (s, InBlock rest)) store) (mkMachine old gob tmp (Some (s', Idle)) store) ∧
    last_height s' = (last_height s + 1)%Z.
Proof.
  revert s. induction rest as [|tx rest IH]; intros s Hin.
  - pose proof Hin as (n & pre & t0 & t & Hn & H0 & H1 & E & Hlh).
    destruct (chain_history _ _ H0) as [tr0 Hh0]. destruct (deliver_all_history _ _ _ _ _ Hh0 H1) as [[tr1 Hh1] _].
    destruct (no_panic O tr1 t (CEndBlock (last_height s + 1)) Hh1 I) as [[t2 r] E2]. cbn [step] in E2.
    destruct (same_end_block _ _ _ _ _ (same_sym _ _ E) E2) as (s2 & E3 & _).
    exists (commit s2). split; [|exact (end_block_height _ _ _ _ E3)].
    eapply ms_step; [|apply m_commit]. eapply ms_step; [apply ms_refl|]. by eapply m_end.
  - pose proof Hin as (n & pre & t0 & t & Hn & H0 & H1 & E & Hlh).
    destruct (chain_history _ _ H0) as [tr0 Hh0]. destruct (deliver_all_history _ _ _ _ _ Hh0 H1) as [[tr1 Hh1] _].
    destruct (no_panic O tr1 t (CDeliverTx tx id) Hh1 id_valid) as [[t2 r] E2]. cbn [step] in E2.
    destruct (same_deliver _ _ _ _ _ _ _ (same_sym _ _ E) E2) as (s2 & E3 & E4).
    assert (Hin2 : in_block store rest s2).
    { exists n, (pre ++ [tx]), t0, t2. rewrite <-app_assoc. split; [done|]. split; [done|].
      rewrite deliver_all_snoc, H1, E2. split; [done|]. split; [by apply same_sym|].
      rewrite <-Hlh. by eapply deliver_height. }
    destruct (IH s2 Hin2) as (s' & Hs' & Hl'). exists s'. split.
    + clear IH Hin Hin2. revert Hs'. generalize (mkMachine old gob tmp (Some (s', Idle)) store). intros w' Hs'.
      remember (mkMachine old gob tmp (Some (s2, InBlock rest)) store) as w2 eqn:Ew. induction Hs' as [|? ? ? ? IH' ?].
      * subst. eapply ms_step; [apply ms_refl|]. eapply m_deliver; [exact id_valid|exact E3].
      * eapply ms_step; [by apply IH'|done].
    + rewrite Hl'. f_equal. by eapply deliver_height.
Qed.

Lemma node_steps_trans w1 w2 w3 : node_steps F enc dec O g w1 w2 → node_steps F enc dec O g w2 w3 → node_steps F enc dec O g w1 w3.
Proof. intros H1 H2. induction H2 as [|? ? ? ? IH ?]; [done|]. eapply ms_step; [by apply IH|done]. Qed.

Lemma catch_up old gob tmp store k : ∀ s n, MInv (mkMachine old gob tmp (Some (s, Idle)) store) →
  last_height s = Z.of_nat n → n + k = length store →
  ∃ s', node_steps F enc dec O g (mkMachine old gob tmp (Some (s, Idle)) store) (mkMachine old gob tmp (Some (s', Idle)) store) ∧
    last_height s' = Z.of_nat (length store).
Proof.
  induction k as [|k IH]; intros s n Hinv Hl Hk.
  - exists s. split; [apply ms_refl|]. rewrite Hl. lia.
  - destruct (lookup_lt_is_Some_2 store n) as [b Hb]; [lia|].
    assert (Hst : node_step F enc dec O g (mkMachine old gob tmp (Some (s, Idle)) store) (mkMachine old gob tmp (Some (s, InBlock b)) store)).
    { apply m_begin. by rewrite Hl, Nat2Z.id. }
    pose proof (node_step_inv _ _ Hinv Hst) as (Hp & Hg & Hpr). cbn in Hpr.
    destruct (finish_block old gob tmp store s b Hpr) as (s1 & Hs1 & Hl1).
    assert (Hinv1 : MInv (mkMachine old gob tmp (Some (s1, Idle)) store)).
    { by eapply steps_inv; [|exact Hs1]. }
    destruct (IH s1 (S n) Hinv1) as (s' & Hs' & Hl'); [lia|lia|].
    exists s'. split; [|done]. eapply node_steps_trans; [|exact Hs']. eapply node_steps_trans; [|exact Hs1].
    eapply ms_step; [apply ms_refl|done].
Qed.

Lemma recovers w w' : is_Some (chain_init dev g) → initial F enc dev w → node_steps F enc dec O g w w' → mc_proc w' = None →
  ∃ w'' s, node_steps F enc dec O g w' w'' ∧ mc_store w'' = mc_store w' ∧ mc_gob w'' = mc_gob w' ∧
    mc_proc w'' = Some (s, Idle) ∧ last_height s = Z.of_nat (length (mc_store w')).
Proof.
  intros Hgi Hi Hs Hp. pose proof (node_steps_inv _ _ Hi Hs) as Hinv. destruct w' as [old gob tmp proc store]. cbn in *. subst proc.
  assert (∃ s n, node_step F enc dec O g (mkMachine old gob tmp None store) (mkMachine old gob tmp (Some (s, Idle)) store) ∧
      last_height s = Z.of_nat n ∧ n ≤ length store) as (s & n & Hst & Hl & Hn).
  { destruct Hinv as (_ & (s0 & Hl & H) & _). cbn in Hl, H. destruct H as [->|(n & Hn & Hat)].
    - destruct Hgi as [s' E]. exists s', 0. destruct (chain_init_history O dev g s' E) as [_ Hl'].
      split; [|split; [done|lia]]. eapply m_start; [done|]. done.
    - destruct Hat as (Hle & Hlh & Ht). exists s0, n. split; [|done]. eapply m_start; [done|]. unfold handshake. rewrite Hlh.
      destruct (Z.eqb_spec (Z.of_nat n) 0); [lia|done]. }
  pose proof (node_step_inv _ _ Hinv Hst) as Hinv1.
  destruct (catch_up old gob tmp store (length store - n) s n Hinv1 Hl) as (s' & Hs' & Hl'); [lia|].
  eexists _, s'. split; [eapply node_steps_trans; [eapply ms_step; [apply ms_refl|exact Hst]|exact Hs']|]. done.
Qed.
End Proofs.

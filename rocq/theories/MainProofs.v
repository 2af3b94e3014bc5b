(** Proofs about the keyper's view of the main chain. *)
From stdpp Require Import list gmap.
From Coq Require Import ZArith NArith Lia.
From Verif Require Import ArithModel ContractsModel ContractsProofs PropsConfig PropsBatcher PropsSlasher MainModel.
Local Open Scope Z_scope.

(** ** Transactions *)
Definition mb (m : gmap Z mbatch) (b : Z) : mbatch := default empty_mbatch (m !! b).
Definition txs_of (x : mbatch) (t : tx_type) : list (list N) := match t with Cipher => enc_txs x | Plain => plain_txs x end.
Definition hash_in (x : mbatch) (t : tx_type) : list N := match t with Cipher => enc_hash x | Plain => plain_hash x end.
Lemma mb_insert m b x b' : mb (<[b := x]> m) b' = if b =? b' then x else mb m b'.
Proof. unfold mb. destruct (Z.eqb_spec b b') as [->|]; [by rewrite lookup_insert|by rewrite lookup_insert_ne]. Qed.
Lemma note_txs f : ∀ m b t, txs_of (mb (foldl note_transaction m f) b) t = txs_of (mb m b) t ++ added b t f.
Proof.
  induction f as [|e f IH]; intros m b t; [cbn; by rewrite app_nil_r|]. cbn [foldl]. rewrite IH. clear IH.
  replace (added b t (e :: f)) with (added b t [e] ++ added b t f) by (rewrite <-added_app; done). rewrite app_assoc. f_equal.
  destruct e; try (cbn; by rewrite app_nil_r). cbn [note_transaction]. rewrite mb_insert. unfold added. cbn [omap list_omap].
  destruct (Z.eqb_spec b0 b) as [->|Hn].
  - destruct t0, t; cbn; fold (mb m b); try by rewrite app_nil_r.
    + rewrite decide_True by done. done.
    + rewrite decide_False by (by intros [_ ?]). by rewrite app_nil_r.
    + rewrite decide_False by (by intros [_ ?]). by rewrite app_nil_r.
    + rewrite decide_True by done. done.
  - rewrite decide_False by (by intros [? _]). by rewrite app_nil_r.
Qed.
Lemma note_none f : ∀ m, Forall not_added f → foldl note_transaction m f = m.
Proof. induction f as [|e f IH]; intros m Hf; [done|]. apply Forall_cons in Hf as [He Hf]. cbn [foldl]. rewrite IH by done. by destruct e. Qed.

(** ** Accusations *)
Definition accused_h (h : Z) (e : Z * effect) : Prop := match e.2 with FAccused h' _ _ => h' = h | _ => False end.
Lemma note_accused_other h f : ∀ m, Forall (λ e, ¬ accused_h h e) f → foldl note_accused m f !! h = m !! h.
Proof.
  induction f as [|[z e] f IH]; intros m Hf; [done|]. apply Forall_cons in Hf as [He Hf]. cbn [foldl]. rewrite IH by done.
  unfold note_accused. cbn. destruct e; try done. apply lookup_insert_ne. intros ->. by apply He.
Qed.
Lemma note_accused_app f g m : foldl note_accused m (f ++ g) = foldl note_accused (foldl note_accused m f) g.
Proof. apply foldl_app. Qed.
Definition appeal_of (h : Z) (f : list (Z * effect)) : bool := existsb (λ e, match e.2 with FAppealed h' => h' =? h | _ => false end) f.
Definition with_appeal (a : maccusation) (x : bool) : maccusation := mkMAcc (ma_executor a) (ma_accuser a) (ma_appealed a || x) (ma_half_step a) (ma_block a).
Lemma with_appeal_false a : with_appeal a false = a.
Proof. destruct a. unfold with_appeal. cbn. by rewrite orb_false_r. Qed.
Lemma note_appealed_spec f : ∀ m, (∀ h, appeal_of h f = true → is_Some (m !! h)) →
  ∃ m', foldl note_appealed (Some m) f = Some m' ∧ ∀ h, m' !! h = (λ a, with_appeal a (appeal_of h f)) <$> m !! h.
Proof.
  induction f as [|[z e] f IH]; intros m Hm.
  - exists m. split; [done|]. intros h. cbn. destruct (m !! h); [cbn; by rewrite with_appeal_false|done].
  - assert ((∃ h, e = FAppealed h) ∨ ¬ ∃ h, e = FAppealed h) as [[h ->]|Hn] by (destruct e; solve [left; eauto|right; intros [? ?]; done]).
    + destruct (Hm h) as [a Ha]; [cbn; by rewrite Z.eqb_refl|]. cbn [foldl note_appealed snd]. rewrite Ha.
      destruct (IH (<[h:=mkMAcc (ma_executor a) (ma_accuser a) true (ma_half_step a) (ma_block a)]> m)) as (m' & E & Hm').
      { intros h' Hh'. destruct (decide (h = h')) as [<-|]; [rewrite lookup_insert; eauto|]. rewrite lookup_insert_ne by done. apply Hm. cbn. fold (appeal_of h' f). rewrite Hh'. apply orb_true_r. }
      exists m'. split; [done|]. intros h'. rewrite Hm'. cbn. fold (appeal_of h' f). destruct (Z.eqb_spec h h') as [<-|].
      * rewrite lookup_insert, Ha. cbn. unfold with_appeal. cbn. by rewrite orb_true_r.
      * by rewrite lookup_insert_ne.
    + assert (note_appealed (Some m) (z, e) = Some m ∧ ∀ h, appeal_of h ((z, e) :: f) = appeal_of h f) as [E1 E2].
      { destruct e; try done. exfalso. apply Hn. eauto. }
      cbn [foldl]. rewrite E1. destruct (IH m) as (m' & E & Hm'); [intros h Hh; apply Hm; by rewrite E2|].
      exists m'. split; [done|]. intros h. by rewrite E2.
Qed.
Lemma appeal_of_app h f g : appeal_of h (f ++ g) = appeal_of h f || appeal_of h g.
Proof. apply existsb_app. Qed.

(** ** Receipts *)
Lemma sync_receipts_spec s (Hr : ∀ h r, receipts s !! h = Some r → r_half_step r = h) :
  ∀ n last m h, h ≠ 0 → foldl (note_receipt s) m (seqZ last (Z.of_nat n)) !! h =
    if (last <=? h) && (h <? last + Z.of_nat n) && (h mod 2 =? 0) then match receipts s !! h with Some r => Some r | None => m !! h end else m !! h.
Proof.
  induction n as [|n IH]; intros last m h Hh.
  - cbn. destruct (Z.leb_spec last h), (Z.ltb_spec h (last + Z.of_nat 0)); cbn; try done. lia.
  - rewrite seqZ_S, foldl_app. cbn [foldl]. unfold note_receipt at 1.
    assert (r_half_step (receipt_of s (last + Z.of_nat n)) = last + Z.of_nat n ∧ receipts s !! (last + Z.of_nat n) = Some (receipt_of s (last + Z.of_nat n)) ∨
            r_half_step (receipt_of s (last + Z.of_nat n)) = 0 ∧ receipts s !! (last + Z.of_nat n) = None) as Hc.
    { unfold receipt_of. destruct (receipts s !! _) as [r|] eqn:E; cbn; [left; split; [by apply Hr|done]|by right]. }
    assert (∀ x, (x <? last + Z.of_nat (S n)) = ((x <? last + Z.of_nat n) || (x =? last + Z.of_nat n))) as Hlt.
    { intros x. destruct (Z.ltb_spec x (last + Z.of_nat (S n))), (Z.ltb_spec x (last + Z.of_nat n)), (Z.eqb_spec x (last + Z.of_nat n)); cbn; try done; lia. }
    rewrite Hlt. destruct (Z.eqb_spec h (last + Z.of_nat n)) as [->|Hn].
    + rewrite orb_true_r, andb_true_r. rewrite (proj2 (Z.leb_le _ _)) by lia. cbn [andb].
      assert ((last + Z.of_nat n <? last + Z.of_nat n) = false) as Hf by (apply Z.ltb_ge; lia).
      specialize (IH last m (last + Z.of_nat n) Hh). rewrite Hf, andb_false_r in IH. cbn [andb] in IH.
      destruct ((last + Z.of_nat n) mod 2 =? 0); [|done]. destruct Hc as [[E1 E2]|[E1 E2]]; rewrite E1, E2.
      * apply lookup_insert.
      * by rewrite lookup_insert_ne by lia.
    + rewrite orb_false_r. destruct ((last + Z.of_nat n) mod 2 =? 0); [|by apply IH].
      rewrite lookup_insert_ne; [by apply IH|]. destruct Hc as [[E1 _]|[E1 _]]; rewrite E1; lia.
Qed.

Lemma mjoin_app {A} (l1 l2 : list (list A)) : mjoin (l1 ++ l2) = mjoin l1 ++ mjoin l2.
Proof. induction l1 as [|x l1 IH]; [done|]. cbn. unfold mjoin in *. cbn in *. by rewrite IH, app_assoc. Qed.
Section Main.
Context (keccak : list N → list N) (ecrecover : list N → Z → Z → Z → option N) (addr_bytes : N → list N).
Context (batcher_address slasher_address deposit_address : N).
Notation run := (run keccak ecrecover addr_bytes batcher_address slasher_address deposit_address).
Notation steps := (steps keccak ecrecover addr_bytes batcher_address slasher_address deposit_address).
Context (owner : N) (hu ap : Z).
Notation genesis := (genesis slasher_address owner hu ap).
Notation state_at := (state_at keccak ecrecover addr_bytes batcher_address slasher_address deposit_address owner hu ap).
Notation block_log := (block_log keccak ecrecover addr_bytes batcher_address slasher_address deposit_address owner hu ap).
Notation logs_between := (logs_between keccak ecrecover addr_bytes batcher_address slasher_address deposit_address owner hu ap).

(** *** The chain *)
(** the whole event log up to the end of block n *)
Definition log_at (ch : chain) (n : nat) : list effect := (steps genesis (history ch n)).2.
Lemma history_before_S ch n : history_before ch (S n) = history ch n ++ [Mine 1].
Proof.
  unfold history_before, history. rewrite seq_S, fmap_app, mjoin_app. unfold history_before. cbn. by rewrite app_nil_r, app_assoc.
Qed.
Lemma block_tx s l : Forall (λ e, match e with Tx _ _ _ => True | Mine _ => False end) l → block (steps s l).1 = block s.
Proof.
  induction l as [|e l IH] using rev_ind; intros Hl; [done|]. apply Forall_app in Hl as [Hl He]. apply Forall_cons in He as [He _].
  rewrite steps_app. specialize (IH Hl). destruct (steps s l) as [s1 f1]. cbn [fst] in IH. unfold ContractsModel.steps. cbn [foldl fst snd].
  destruct e as [fuel a c|]; [|done]. unfold step.
  destruct (run fuel s1 a c) as [[s2 f2]| |] eqn:E; cbn [fst]; [|done..]. rewrite <-IH. clear IH.
  revert E. apply (run_rel keccak ecrecover addr_bytes batcher_address slasher_address deposit_address (λ _ _, True) ltac:(done) (λ s f s', block s' = block s)); [..|done]; shapes; cbn in *; try done; congruence.
Qed.
Lemma events_tx ch n : Forall (λ e, match e with Tx _ _ _ => True | Mine _ => False end) (block_events ch n).
Proof. apply Forall_fmap, Forall_forall. by intros [[??]?] _. Qed.
Definition pre (ch : chain) (n : nat) : state := (steps genesis (history_before ch n)).1.
Lemma state_at_eq ch n : state_at ch n = (steps (pre ch n) (block_events ch n)).1.
Proof. unfold MainModel.state_at, history, pre. rewrite steps_app. destruct (steps genesis (history_before ch n)) as [s f]. cbn [fst]. by destruct (steps s (block_events ch n)). Qed.
Lemma pre_S ch n : pre ch (S n) = set_block (state_at ch n) (block (state_at ch n) + 1).
Proof. unfold pre. rewrite history_before_S, steps_app. unfold MainModel.state_at. by destruct (steps genesis (history ch n)). Qed.
Lemma block_at ch n : block (state_at ch n) = Z.of_nat n ∧ block (pre ch n) = Z.of_nat n.
Proof.
  induction n as [|n [IH _]].
  - split; [|done]. rewrite state_at_eq, block_tx by apply events_tx. done.
  - rewrite state_at_eq, block_tx by apply events_tx. rewrite pre_S. cbn. rewrite IH. lia.
Qed.
Lemma log_at_S ch n : log_at ch (S n) = log_at ch n ++ block_log ch (S n).
Proof.
  unfold log_at, MainModel.block_log, history at 1. rewrite steps_app, history_before_S, steps_app.
  destruct (steps genesis (history ch n)) as [s f]. cbn [fst snd]. destruct (steps s [Mine 1]) as [s1 f1] eqn:E. cbn in E. injection E as <- <-. cbn [fst].
  rewrite app_nil_r. by destruct (steps _ (block_events ch (S n))).
Qed.
Lemma state_step ch n : state_at ch (S n) = (steps (state_at ch n) (Mine 1 :: block_events ch (S n))).1 ∧
  block_log ch (S n) = (steps (state_at ch n) (Mine 1 :: block_events ch (S n))).2.
Proof.
  change (Mine 1 :: block_events ch (S n)) with ([Mine 1] ++ block_events ch (S n)). rewrite steps_app.
  destruct (steps (state_at ch n) [Mine 1]) as [s1 f1] eqn:E. cbn in E. injection E as <- <-.
  rewrite state_at_eq, pre_S. unfold MainModel.block_log. fold (pre ch (S n)). rewrite pre_S. by destruct (steps _ (block_events ch (S n))).
Qed.
Lemma logs_between_S ch a n : (a ≤ S n)%nat → logs_between ch a (S n) = logs_between ch a n ++ ((λ e, (Z.of_nat (S n), e)) <$> block_log ch (S n)).
Proof.
  intros Ha. unfold MainModel.logs_between. replace (S n + 1 - a)%nat with (S (n + 1 - a)) by lia. rewrite seq_S, fmap_app, mjoin_app. f_equal.
  cbn [fmap list_fmap]. cbn [mjoin list_join]. rewrite app_nil_r. replace (a + (n + 1 - a))%nat with (S n) by lia. done.
Qed.
Lemma logs_between_none ch a n : (n < a)%nat → logs_between ch a n = [].
Proof. intros Ha. unfold MainModel.logs_between. by replace (n + 1 - a)%nat with 0%nat by lia. Qed.
(** chains that agree up to a block give the same states and logs *)
Definition same_upto (c1 c2 : chain) (n : nat) : Prop := ∀ m, (m ≤ n)%nat → c1 m = c2 m.
Lemma history_same c1 c2 n : same_upto c1 c2 n → history c1 n = history c2 n ∧ history_before c1 n = history_before c2 n.
Proof.
  induction n as [|n IH]; intros H.
  - unfold history, history_before, block_events. cbn. by rewrite (H 0%nat).
  - destruct IH as [IH _]; [intros m Hm; apply H; lia|]. rewrite !history_before_S, IH. split; [|done]. unfold history at 1 2. rewrite !history_before_S, IH.
    f_equal. unfold block_events. by rewrite H.
Qed.
Lemma state_at_same c1 c2 n : same_upto c1 c2 n → state_at c1 n = state_at c2 n ∧ block_log c1 n = block_log c2 n.
Proof. intros H. destruct (history_same _ _ _ H) as [E1 E2]. unfold MainModel.state_at, MainModel.block_log, block_events. by rewrite E1, E2, (H n). Qed.
Lemma logs_same c1 c2 a n : same_upto c1 c2 n → logs_between c1 a n = logs_between c2 a n.
Proof.
  intros H. unfold MainModel.logs_between. f_equal. apply list_fmap_ext. intros i m Hm. apply lookup_seq in Hm as [-> Hm].
  assert (same_upto c1 c2 (a + i)) as H' by (intros k Hk; apply H; lia). by rewrite (proj2 (state_at_same _ _ _ H')).
Qed.

(** *** Hashes *)
Definition hashes_match (m : gmap Z mbatch) (s : state) : Prop := ∀ b t, hash_in (mb m b) t = hash_of s b t.
Lemma hashes_all s l m : hashes_match m s → hashes_match (foldl note_transaction m (steps s l).2) (steps s l).1.
Proof.
  revert m. apply (steps_rel keccak ecrecover addr_bytes batcher_address slasher_address deposit_address any ltac:(done)
    (λ s f s', ∀ m, hashes_match m s → hashes_match (foldl note_transaction m f) s')); [..|apply any_events]; shapes; try done.
  - rewrite foldl_app. auto.
  - match goal with H : hashes_match _ _ |- _ => rename H into Hm0 end. intros b' t'. cbn [foldl app]. cbn [note_transaction]. rewrite mb_insert. unfold hash_of. cbn.
    destruct (Z.eqb_spec b b') as [<-|Hn].
    + pose proof (Hm0 b t') as Hm. unfold hash_of in Hm. fold (mb m b). destruct t, t'; cbn in *; rewrite ?lookup_insert, ?lookup_insert_ne by done; done.
    + rewrite lookup_insert_ne by congruence. apply (Hm0 b' t').
  - match goal with H : hashes_match _ _ |- _ => rename H into Hm0 end. intros b' t'. cbn [foldl app]. cbn [note_transaction]. rewrite mb_insert. unfold hash_of. cbn.
    destruct (Z.eqb_spec b b') as [<-|Hn].
    + pose proof (Hm0 b t') as Hm. unfold hash_of in Hm. fold (mb m b). destruct t, t'; cbn in *; rewrite ?lookup_insert, ?lookup_insert_ne by done; done.
    + rewrite lookup_insert_ne by congruence. apply (Hm0 b' t').
  - rewrite foldl_app. cbn [foldl note_transaction]. match goal with H : (∀ m, hashes_match m _ → _), G : hashes_match _ _ |- _ => exact (H _ G) end.
  - rewrite foldl_app. cbn [foldl note_transaction]. match goal with H : (∀ m, hashes_match m _ → _), G : hashes_match _ _ |- _ => exact (H _ G) end.
  - rewrite note_none by (by apply skips_not_added). done.
  - cbn [foldl note_transaction]. rewrite foldl_app. cbn [foldl note_transaction]. match goal with H : (∀ m, hashes_match m _ → _), G : hashes_match _ _ |- _ => exact (H _ G) end.
Qed.

(** *** Accusations *)
Definition acc_events (h : Z) (L : list (Z * effect)) : list (Z * N * N) :=
  omap (λ e, match e.2 with FAccused h' x y => if h' =? h then Some (e.1, x, y) else None | _ => None end) L.
Lemma acc_events_app h L1 L2 : acc_events h (L1 ++ L2) = acc_events h L1 ++ acc_events h L2.
Proof. apply omap_app. Qed.
Lemma note_accused_spec h L : ∀ m, foldl note_accused m L !! h =
  match last (acc_events h L) with None => m !! h | Some (z, x, y) => Some (mkMAcc x y false h z) end.
Proof.
  induction L as [|e L IH] using rev_ind; intros m; [done|]. rewrite foldl_app, acc_events_app. cbn [foldl]. destruct e as [z e].
  unfold note_accused at 1. destruct e; try (cbn [snd]; rewrite IH; unfold acc_events at 2; cbn; by rewrite app_nil_r).
  cbn [snd fst]. unfold acc_events at 2. cbn. destruct (Z.eqb_spec half_step h) as [->|Hn]; [rewrite lookup_insert; by rewrite last_snoc|].
  rewrite lookup_insert_ne by done. rewrite IH. by rewrite app_nil_r.
Qed.
Definition app_inv (s : state) : Prop := ∀ h, a_appealed (accusation_of s h) = true → a_accused (accusation_of s h) = true.
Definition acc_rel (h : Z) (s : state) (L : list (Z * effect)) (s' : state) : Prop :=
  let a := accusation_of s h in let a' := accusation_of s' h in
  if a_accused a then acc_events h L = [] ∧ a_accused a' = true ∧ a_executor a' = a_executor a ∧ a_block a' = a_block a ∧ a_appealed a' = a_appealed a || appeal_of h L
  else (acc_events h L = [] ∧ appeal_of h L = false ∧ a_accused a' = false) ∨
       ∃ x y, acc_events h L = [(a_block a', x, y)] ∧ a_accused a' = true ∧ a_executor a' = x ∧ a_appealed a' = appeal_of h L.
Definition accs (s : state) (L : list (Z * effect)) (s' : state) : Prop := app_inv s → app_inv s' ∧ ∀ h, acc_rel h s L s'.
Lemma accs_trans s L1 s1 L2 s2 : accs s L1 s1 → accs s1 L2 s2 → accs s (L1 ++ L2) s2.
Proof.
  intros H1 H2 Hi. destruct (H1 Hi) as [Hi1 G1]. destruct (H2 Hi1) as [Hi2 G2]. split; [done|]. intros h. specialize (G1 h). specialize (G2 h). revert G1 G2.
  unfold acc_rel. rewrite acc_events_app, appeal_of_app. pose proof (Hi1 h) as Hx. destruct (a_accused (accusation_of s h)).
  - intros (E1 & E2 & E3 & E4 & E5). rewrite E2. intros (F1 & F2 & F3 & F4 & F5). rewrite E1, F1. split_and!; [done..|congruence|congruence|]. rewrite F5, E5. by rewrite orb_assoc.
  - intros [(E1 & E2 & E3)|(x & y & E1 & E2 & E3 & E4)].
    + rewrite E3. rewrite E1, E2. intros [(F1 & F2 & F3)|(x & y & F1 & F2 & F3 & F4)]; [left; by rewrite F1, F2|].
      right. exists x, y. by rewrite F1.
    + rewrite E2. intros (F1 & F2 & F3 & F4 & F5). right. exists x, y. rewrite E1, F1, F4. split_and!; [done|done|congruence|]. by rewrite F5, E4.
Qed.
Definition no_acc (e : Z * effect) : Prop := match e.2 with FAccused _ _ _ | FAppealed _ => False | _ => True end.
Lemma no_acc_events h L : Forall no_acc L → acc_events h L = [] ∧ appeal_of h L = false.
Proof. intros H. induction H as [|[z []] L Hx HL IH]; done. Qed.
Lemma accs_same s L s' : (∀ h, a_accused (accusation_of s' h) = a_accused (accusation_of s h) ∧ a_executor (accusation_of s' h) = a_executor (accusation_of s h) ∧
    a_block (accusation_of s' h) = a_block (accusation_of s h) ∧ a_appealed (accusation_of s' h) = a_appealed (accusation_of s h)) → Forall no_acc L → accs s L s'.
Proof.
  intros E HL Hi. split.
  - intros h. destruct (E h) as (E1 & _ & _ & E4). rewrite E1, E4. apply Hi.
  - intros h. destruct (E h) as (E1 & E2 & E3 & E4). destruct (no_acc_events h L HL) as [N1 N2]. unfold acc_rel. rewrite N1, N2, E1, E2, E3, E4.
    destruct (a_accused (accusation_of s h)) eqn:Ea; [by rewrite orb_false_r|]. by left.
Qed.
Definition stamp (z : Z) (f : list effect) : list (Z * effect) := (λ e, (z, e)) <$> f.
Lemma accs_block s l : 0 ≤ block s → block s ≤ block (steps s l).1 ∧ (block (steps s l).1 = block s → block s < 2 ^ 64 → accs s (stamp (block s) (steps s l).2) (steps s l).1).
Proof.
  apply (steps_rel keccak ecrecover addr_bytes batcher_address slasher_address deposit_address any ltac:(done)
    (λ s f s', 0 ≤ block s → block s ≤ block s' ∧ (block s' = block s → block s < 2 ^ 64 → accs s (stamp (block s) f) s'))); [..|apply any_events].
  all: assert (∀ s f s1 g s2, (0 ≤ block s → block s ≤ block s1 ∧ (block s1 = block s → block s < 2 ^ 64 → accs s (stamp (block s) f) s1)) →
     (0 ≤ block s1 → block s1 ≤ block s2 ∧ (block s2 = block s1 → block s1 < 2 ^ 64 → accs s1 (stamp (block s1) g) s2)) →
     (0 ≤ block s → block s ≤ block s2 ∧ (block s2 = block s → block s < 2 ^ 64 → accs s (stamp (block s) (f ++ g)) s2))) as Htr
   by (intros s0 f0 s1 g s2 H1 H2 Hb; destruct (H1 Hb) as [H3 H4]; destruct (H2 ltac:(lia)) as [H5 H6]; split; [lia|]; intros Eb Hlt;
       unfold stamp; rewrite fmap_app; assert (block s1 = block s0) as Eb1 by lia; eapply accs_trans; [by apply H4|]; rewrite <-Eb1; apply H6; lia).
  all: assert (∀ s f s', block s ≤ block s' → (∀ h, a_accused (accusation_of s' h) = a_accused (accusation_of s h) ∧ a_executor (accusation_of s' h) = a_executor (accusation_of s h) ∧
    a_block (accusation_of s' h) = a_block (accusation_of s h) ∧ a_appealed (accusation_of s' h) = a_appealed (accusation_of s h)) → Forall (λ e, no_acc (0, e)) f →
     (0 ≤ block s → block s ≤ block s' ∧ (block s' = block s → block s < 2 ^ 64 → accs s (stamp (block s) f) s'))) as Hsame
   by (intros s0 f0 s1 Hb H1 H2 _; split; [done|]; intros _ _; apply accs_same; [done|]; unfold stamp; apply Forall_fmap; eapply Forall_impl; [exact H2|]; intros []; done).
  all: shapes; try (apply Hsame; [cbn; lia|done|by repeat constructor|done]).
  - by eapply Htr.
  - eapply Htr; [eassumption| |assumption]. apply Hsame; [done|done|by repeat constructor].
  - eapply Htr; [eassumption| |assumption]. apply Hsame; [done|done|by repeat constructor].
  - apply Hsame; [done|done| |done]. match goal with H : Forall skips _ |- _ => eapply Forall_impl; [exact H|] end. intros []; done.
  - split; [done|]. intros _ Hlt Hi. split.
    + intros h'. rewrite accusation_insert. destruct (h =? h'); [done|apply Hi].
    + intros h'. unfold acc_rel. rewrite accusation_insert. unfold acc_events, appeal_of. cbn. rewrite orb_false_r. destruct (Z.eqb_spec h h') as [<-|Hn].
      * match goal with H : a_accused (accusation_of s0 h) = false |- _ => rewrite H end. right. eexists _, _. cbn. rewrite u64_small by done. done.
      * destruct (a_accused (accusation_of s0 h')); [split_and!; try done; by destruct (a_appealed (accusation_of s0 h'))|by left].
  - split; [done|]. intros _ Hlt Hi. split.
    + intros h'. rewrite accusation_insert. destruct (_ =? h'); [done|apply Hi].
    + intros h'. unfold acc_rel. rewrite accusation_insert. unfold acc_events, appeal_of. cbn. rewrite orb_false_r. destruct (Z.eqb_spec (u_half_step u) h') as [<-|Hn].
      * match goal with H : a_accused (accusation_of s0 _) = true |- _ => rewrite H end. cbn. by rewrite orb_true_r.
      * destruct (a_accused (accusation_of s0 h')); [split_and!; try done; by destruct (a_appealed (accusation_of s0 h'))|by left].
  - match goal with |- context [stamp _ (?e :: _)] => match goal with H : 0 ≤ block ?s1 → block ?s1 ≤ block s3 ∧ _ |- _ =>
      refine (Htr s0 [e] s1 (f ++ [FSlashed h _]) _ _ _ ltac:(assumption)); [apply Hsame; [done|done|by repeat constructor]|];
      refine (Htr s1 f s3 [FSlashed h _] _ H _) end end.
    apply Hsame; [done| |by repeat constructor]. intros h'. rewrite accusation_insert. destruct (Z.eqb_spec h h') as [<-|]; done.
Qed.
End Main.

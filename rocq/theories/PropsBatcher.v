(** C48: the batcher contract. *)
From stdpp Require Import list gmap.
From Coq Require Import ZArith NArith Lia.
From Verif Require Import ArithModel ContractsModel ContractsProofs PropsConfig.
Local Open Scope Z_scope.

(** ** Specification *)
(** the transactions accepted for a batch and type, in order *)
Definition added (b : Z) (t : tx_type) (f : list effect) : list (list N) :=
  omap (λ e, match e with FTxAdded b' t' tx _ => if decide (b' = b ∧ t' = t) then Some tx else None | _ => None end) f.
Definition bytes_added (b : Z) (f : list effect) : Z :=
  foldr (λ e acc, match e with FTxAdded b' _ tx _ => if b' =? b then Z.of_nat (length tx) + acc else acc | _ => acc end) 0 f.
Lemma added_app b t f g : added b t (f ++ g) = added b t f ++ added b t g.
Proof. apply omap_app. Qed.
Lemma bytes_added_app b f g : bytes_added b (f ++ g) = bytes_added b f + bytes_added b g.
Proof. unfold bytes_added. induction f as [|[] f IH]; cbn; try done. destruct (_ =? _); lia. Qed.
(** effects other than accepted transactions *)
Definition not_added (e : effect) : Prop := match e with FTxAdded _ _ _ _ => False | _ => True end.
Lemma not_added_none f : Forall not_added f → ∀ b t, added b t f = [] ∧ bytes_added b f = 0.
Proof. intros H b t. induction H as [|[] f Hx Hf IH]; done. Qed.
Lemma skips_not_added f : Forall skips f → Forall not_added f.
Proof. intros H. eapply Forall_impl; [exact H|]. intros []; done. Qed.

Section Batcher.
Context (keccak : list N → list N) (ecrecover : list N → Z → Z → Z → option N) (addr_bytes : N → list N).
Context (batcher_address slasher_address deposit_address : N).
Notation run := (run keccak ecrecover addr_bytes batcher_address slasher_address deposit_address).
Notation steps := (steps keccak ecrecover addr_bytes batcher_address slasher_address deposit_address).
Notation deployed := (deployed slasher_address).
Notation chain_hash := (chain_hash keccak).
Notation conf_all := (conf_all keccak ecrecover addr_bytes batcher_address slasher_address deposit_address).

(** what a successful addTransaction has checked *)
Lemma add_checks s b t tx v s' f : cc_inv s → add_transaction keccak s b t tx v = Ok (s', f) →
  ∃ i c, config_for (scheduled (cc s)) b i c ∧ 0 < span c ∧ open_block c b ≤ block s < end_block c b ∧
    0 < Z.of_nat (length tx) ≤ tx_size_limit c ∧ size_of s b + Z.of_nat (length tx) ≤ batch_size_limit c ∧ min_fee s ≤ v ∧
    (0 < v → fee_receiver c ≠ 0%N → fee_of s (fee_receiver c) + v < 2 ^ 64) ∧ u64 (Z.of_nat (length tx)) = Z.of_nat (length tx) ∧ config_typed c = true.
Proof.
  intros [(W1 & W2 & _) _] H. unfold add_transaction in H. inv_do H. subst. apply config_index_iff in E as (c & Hc). unfold config_at in E0.
  destruct Hc as (C1 & C2 & C3). rewrite C1 in E0. injection E0 as <-. pose proof (proj1 (Forall_lookup _ _) W2 _ _ C1) as Tc. cbn in Tc.
  apply boundary_ok in E2 as (B1 & B2 & -> & -> & -> & B3 & B4); [|done]. exists a, c. split; [by split_and!|].
  assert (tx_size_limit c < 2 ^ 64) as Hl. { unfold config_typed in Tc. rewrite !andb_true_iff in Tc. destruct Tc as [[[[_ T] _] _] _]. apply is64_ok in T. lia. }
  split_and!; try done; try lia.
  - intros Hv Hf. apply Z.ltb_lt in Hv. apply N.eqb_neq in Hf. rewrite Hv, Hf in H. cbn [negb andb] in H. inv_do H. match goal with H : fee_deposit _ _ _ = _ |- _ => apply fee_deposit_shape in H as (? & ? & ? & ? & _) end.
    unfold fee_of in *. cbn in *. lia.
  - apply u64_small. lia.
Qed.

Definition any (a : N) (c : call) : Prop := True.
Lemma any_events l : Forall (ok_event any) l.
Proof. apply Forall_forall. by intros []. Qed.
Definition chained (s : state) (f : list effect) (s' : state) : Prop :=
  conf_stays s f s' ∧
  (cc_inv s → (∀ b t, hash_of s' b t = foldl (λ h tx, keccak (tx ++ h)) (hash_of s b t) (added b t f)) ∧
              (∀ b, size_of s' b = size_of s b + bytes_added b f)) ∧
  (cc_inv s → 0 ≤ block s → block s' < 2 ^ 64 → ∀ b i c, config_for (scheduled (cc s)) b i c → 0 < span c → end_block c b ≤ block s → ∀ t, added b t f = []).
Lemma chained_same s f s' : conf_stays s f s' → batch_hashes s' = batch_hashes s → batch_sizes s' = batch_sizes s → Forall not_added f → chained s f s'.
Proof.
  intros Hc E1 E2 Hf. split; [done|]. split.
  - intros _. unfold hash_of, size_of. rewrite E1, E2. split.
    + intros b t. by destruct (not_added_none f Hf b t) as [-> _].
    + intros b. destruct (not_added_none f Hf b Cipher) as [_ ->]. lia.
  - intros _ _ _ b i c _ _ _ t. by destruct (not_added_none f Hf b t) as [-> _].
Qed.
Lemma open_le_end c b : 0 < span c → start_batch c ≤ b → open_block c b ≤ end_block c b.
Proof. intros. unfold open_block, end_block. destruct (Z.eqb_spec b (start_batch c)); nia. Qed.
Lemma chained_trans s f s1 g s2 : chained s f s1 → chained s1 g s2 → chained s (f ++ g) s2.
Proof.
  intros (H1 & H2 & H3) (G1 & G2 & G3). split; [by eapply conf_trans|]. pose proof H1 as (H11 & _ & _ & H4). pose proof G1 as (G11 & _). split.
  - intros Hi. destruct (H2 Hi) as [A1 A2]. destruct (H4 Hi) as [Hi1 _]. destruct (G2 Hi1) as [B1 B2]. split.
    + intros b t. rewrite B1, A1, added_app, foldl_app. done.
    + intros b. rewrite B2, A2, bytes_added_app. lia.
  - intros Hi P1 P2 b i c Hc Hs He t. rewrite added_app, (H3 Hi P1 ltac:(lia) b i c Hc Hs He t). destruct (H4 Hi) as [Hi1 [_ K]].
    apply (G3 Hi1 ltac:(lia) P2 b i c); [|done|lia]. apply K; [done|lia|done|done|]. pose proof (open_le_end c b Hs ltac:(apply Hc)). lia.
Qed.
Lemma chained_add s b t tx v s' f : add_transaction keccak s b t tx v = Ok (s', f) → chained s f s'.
Proof.
  intros H. pose proof (add_checks s b t tx v s' f) as Hk.
  assert (conf_stays s f s') as Hc. { pose proof H as H'. apply add_shape in H' as (? & ? & ? & -> & _). by apply conf_same. }
  split; [done|]. pose proof H as Hs. apply add_shape in Hs as (fs & fb & g & -> & -> & Hg).
  assert (Forall not_added g) as Hng. { destruct Hg as [[= -> -> ->]|(r & _ & _ & _ & [= -> -> ->])]; by repeat constructor. }
  split.
  - intros Hi. destruct (Hk Hi H) as (i & c & _ & _ & _ & _ & _ & _ & _ & Hu & _). split.
    + intros b' t'. rewrite added_app. destruct (not_added_none g Hng b' t') as [-> _]. cbn. unfold hash_of. cbn.
      destruct (decide (b = b' ∧ t = t')) as [[<- <-]|Hn]; [by rewrite lookup_insert|]. rewrite lookup_insert_ne; [done|]. intros [= -> ->]. by apply Hn.
    + intros b'. rewrite bytes_added_app. destruct (not_added_none g Hng b' t) as [_ ->]. cbn. unfold size_of. cbn. destruct (Z.eqb_spec b b') as [<-|].
      * rewrite lookup_insert. cbn. rewrite Hu. unfold size_of. lia.
      * rewrite lookup_insert_ne by done. lia.
  - intros Hi P1 P2 b' i c Hcf Hsp He t'. rewrite added_app. destruct (not_added_none g Hng b' t') as [-> _]. cbn.
    destruct (decide (b = b' ∧ t = t')) as [[<- <-]|Hn]; [|done]. exfalso. destruct (Hk Hi H) as (i' & c' & Hcf' & _ & Hw & _).
    destruct (config_for_unique _ _ _ _ _ _ Hcf Hcf') as [_ ->]. lia.
Qed.
Lemma chained_all s l : chained s (steps s l).2 (steps s l).1.
Proof.
  apply (steps_rel keccak ecrecover addr_bytes batcher_address slasher_address deposit_address any ltac:(done) chained); [..|apply any_events]; intros;
    try (match goal with H : schedule _ _ = _ |- _ => pose proof (conf_schedule _ _ _ H) end);
    try (match goal with H : unschedule _ _ _ = _ |- _ => pose proof (conf_unschedule _ _ _ _ H) end);
    try (match goal with H : add_transaction _ _ _ _ _ _ = _ |- _ => by eapply chained_add end); shapes;
    try (apply chained_same; [first [done|apply conf_same; [cbn; lia|done]]|done|done|by repeat constructor]).
  - by eapply chained_trans.
  - apply chained_same; [|done|done|by constructor]. split_and!; [done..|]. intros [Hw [_ Hh]]. split; [done|]. split; auto.
  - eapply chained_trans; [done|]. apply chained_same; [by apply conf_same|done|done|by repeat constructor].
  - eapply chained_trans; [done|]. apply chained_same; [by apply conf_same|done|done|by repeat constructor].
  - apply chained_same; [by apply conf_same|done|done|by apply skips_not_added].
  - match goal with H : chained ?t f _ |- chained ?s0 (?e :: _) _ => apply (chained_trans s0 [e] t) end; [apply chained_same; [by apply conf_same|done|done|by repeat constructor]|].
    eapply chained_trans; [done|]. apply chained_same; [by apply conf_same|done|done|by repeat constructor].
Qed.

(** C48: in every history, the hash of a batch is the hash chain over the accepted transactions, in order, and its size their total size *)
Theorem C48_hash_chain owner hu ap blk l : 0 ≤ hu → let '(s, f) := steps (deployed owner hu ap blk) l in
  (∀ b t, hash_of s b t = chain_hash (added b t f)) ∧ (∀ b, size_of s b = bytes_added b f).
Proof.
  intros Hh. destruct (chained_all (deployed owner hu ap blk) l) as (_ & H & _). destruct (H (cc_deployed _ owner hu ap blk Hh)) as [H1 H2].
  destruct (steps _ l) as [s f]. cbn [fst snd] in *. split; [|intros b; rewrite H2; unfold size_of; cbn; rewrite lookup_empty; cbn; lia].
  intros b t. rewrite H1. unfold hash_of. cbn. by rewrite lookup_empty.
Qed.
(** C48: a transaction is accepted exactly if the batch is open, it fits and pays, and the receiver's fee account does not overflow *)
Theorem C48_accept_iff owner hu ap blk l sender b t tx v fuel : 0 ≤ hu → let s := (steps (deployed owner hu ap blk) l).1 in
  0 ≤ b < 2 ^ 64 → 0 ≤ v < 2 ^ 256 → (∀ a, 0 ≤ fee_of s a) → 0 ≤ size_of s b →
  (∃ r, run (S fuel) s sender (AddTx b t tx v) = Ok r) ↔
  ∃ i c, config_for (scheduled (cc s)) b i c ∧ 0 < span c ∧ timeout_block c b < 2 ^ 64 ∧ open_block c b ≤ block s < end_block c b ∧
    0 < Z.of_nat (length tx) ≤ tx_size_limit c ∧ size_of s b + Z.of_nat (length tx) ≤ batch_size_limit c ∧ min_fee s ≤ v ∧
    (0 < v → fee_receiver c ≠ 0%N → fee_of s (fee_receiver c) + v < 2 ^ 64).
Proof.
  intros Hh s Hb Hv Hfee Hsz. destruct (conf_all (deployed owner hu ap blk) l) as (_ & _ & _ & H). destruct (H (cc_deployed _ owner hu ap blk Hh)) as [Hi _]. fold s in Hi. clearbody s. clear H.
  cbn [ContractsModel.run typed].
  assert (is64 b && is256 v = true) as -> by (unfold is64, is256; rewrite !andb_true_iff, !Z.leb_le, !Z.ltb_lt; lia). cbn [negb]. split.
  - intros [[s' f] Hr]. pose proof (add_checks _ _ _ _ _ _ _ Hi Hr) as (i & c & A1 & A2 & A3 & A4 & A5 & A6 & A7 & _ & Tc). exists i, c. split_and!; try done; try lia.
    unfold add_transaction in Hr. inv_do Hr. assert (config_index s b = Ok i) as Ei by (apply config_index_iff; eauto). rewrite Ei in E. injection E as <-.
    unfold config_at in E0. destruct A1 as (C1 & _). rewrite C1 in E0. injection E0 as <-. apply boundary_ok in E2 as (_ & _ & _ & _ & E2 & _ & E3'); [|done]. lia.
  - intros (i & c & A1 & A2 & A3 & A4 & A5 & A6 & A7 & A8). destruct Hi as [(W1 & W2 & _) _]. unfold add_transaction.
    assert (config_index s b = Ok i) as -> by (apply config_index_iff; eauto). cbn [rbind]. unfold config_at. destruct A1 as (C1 & C2 & C3). rewrite C1. cbn [rbind].
    pose proof (proj1 (Forall_lookup _ _) W2 _ _ C1) as Tc. cbn in Tc. unfold batching_active. pose proof (proj2 (Z.ltb_lt _ _) A2) as ->. cbn [require rbind].
    rewrite boundary_eq by (done || lia). cbn [rbind].
    assert (tx_size_limit c < 2 ^ 64 ∧ batch_size_limit c < 2 ^ 64) as [Hl Hl2]. { unfold config_typed in Tc. rewrite !andb_true_iff in Tc. destruct Tc as [[[[[_ T'] T] _] _] _]. apply is64_ok in T, T'. lia. }
    destruct (Z.leb_spec (open_block c b) (block s)); [|lia]. destruct (Z.ltb_spec (block s) (end_block c b)); [|lia]. cbn [require rbind].
    destruct (Z.ltb_spec 0 (Z.of_nat (length tx))); [|lia]. destruct (Z.leb_spec (Z.of_nat (length tx)) (tx_size_limit c)); [|lia]. cbn [require rbind].
    unfold c256. destruct (Z.leb_spec 0 (size_of s b + Z.of_nat (length tx))); [|lia]. destruct (Z.ltb_spec (size_of s b + Z.of_nat (length tx)) (2 ^ 256)); [|lia]. cbn [andb rbind].
    destruct (Z.leb_spec (size_of s b + Z.of_nat (length tx)) (batch_size_limit c)); [|lia]. cbn [require rbind]. destruct (Z.leb_spec (min_fee s) v); [|lia]. cbn [require rbind].
    rewrite u64_small by lia. rewrite c64_eq by lia. cbn [rbind].
    destruct (Z.ltb_spec 0 v) as [Hv0|]; [|cbn [andb]; eauto]. destruct (N.eqb_spec (fee_receiver c) 0) as [|Hn]; [cbn [negb andb]; eauto|]. cbn [negb andb].
    specialize (A8 Hv0 Hn). unfold fee_deposit. destruct (N.eqb_spec (fee_receiver c) 0); [done|]. cbn [negb require rbind]. destruct (Z.ltb_spec 0 v); [|lia]. cbn [require rbind].
    match goal with |- context [fee_of ?x ?y] => change (fee_of x y) with (fee_of s y) end. specialize (Hfee (fee_receiver c)).
    destruct (Z.leb_spec v (2 ^ 64 - 1 - fee_of s (fee_receiver c))); [|lia]. cbn [require rbind]. rewrite c64_eq by lia. cbn [rbind]. eauto.
Qed.
(** C48: after its end block a batch never changes *)
Theorem C48_closed owner hu ap blk l1 l2 b i c t : 0 ≤ hu →
  let s1 := (steps (deployed owner hu ap blk) l1).1 in let s2 := (steps s1 l2).1 in
  0 ≤ block s1 → block s2 < 2 ^ 64 → config_for (scheduled (cc s1)) b i c → 0 < span c → end_block c b ≤ block s1 →
  hash_of s2 b t = hash_of s1 b t ∧ added b t (steps s1 l2).2 = [].
Proof.
  intros Hh s1 s2 P1 P2 Hc Hs He. destruct (conf_all (deployed owner hu ap blk) l1) as (_ & _ & _ & H). destruct (H (cc_deployed _ owner hu ap blk Hh)) as [Hi _]. fold s1 in Hi.
  destruct (chained_all s1 l2) as (_ & H2 & H3). fold s2 in H2, H3. specialize (H3 Hi P1 P2 b i c Hc Hs He t). split; [|done].
  destruct (H2 Hi) as [H4 _]. rewrite H4, H3. done.
Qed.
(** C48, finding: once the fees of the receiver reach 2^64 wei (18.4 ether), transactions that pay a fee are rejected *)
Theorem C48_fee_overflow_blocks owner hu ap blk l sender b i c t tx v fuel r : 0 ≤ hu → let s := (steps (deployed owner hu ap blk) l).1 in
  config_for (scheduled (cc s)) b i c → fee_receiver c ≠ 0%N → 0 < v → 2 ^ 64 ≤ fee_of s (fee_receiver c) + v →
  run fuel s sender (AddTx b t tx v) ≠ Ok r.
Proof.
  intros Hh s Hc Hf Hv Ho Hr. destruct (conf_all (deployed owner hu ap blk) l) as (_ & _ & _ & H). destruct (H (cc_deployed _ owner hu ap blk Hh)) as [Hi _]. fold s in Hi.
  destruct fuel as [|fuel]; [done|]. cbn [ContractsModel.run] in Hr. destruct (negb _); [done|]. destruct r as [s' f].
  destruct (add_checks _ _ _ _ _ _ _ Hi Hr) as (i' & c' & A1 & _ & _ & _ & _ & _ & A7 & _). destruct (config_for_unique _ _ _ _ _ _ Hc A1) as [_ <-]. specialize (A7 Hv Hf). lia.
Qed.

(** equal hash chains mean equal transactions, up to collisions (and preimages of zero) of keccak *)
Definition collision : Prop := (∃ x y, x ≠ y ∧ keccak x = keccak y) ∨ ∃ x, keccak x = zero32.
Theorem C48_chain_injective : (∀ x, length (keccak x) = 32%nat) → ∀ l1 l2, chain_hash l1 = chain_hash l2 → l1 = l2 ∨ collision.
Proof.
  intros Hlen l1. assert (∀ l, length (chain_hash l) = 32%nat) as Hch. { intros l. destruct l as [|x l _] using rev_ind; [done|]. unfold ContractsModel.chain_hash. rewrite foldl_app. apply Hlen. }
  induction l1 as [|x1 l1 IH] using rev_ind; intros l2 H; destruct l2 as [|x2 l2 _] using rev_ind.
  - by left.
  - right. right. unfold ContractsModel.chain_hash in H. rewrite foldl_app in H. cbn in H. eauto.
  - right. right. unfold ContractsModel.chain_hash in H. rewrite foldl_app in H. cbn in H. eauto.
  - unfold ContractsModel.chain_hash in H. rewrite !foldl_app in H. cbn in H. fold (chain_hash l1) (chain_hash l2) in H.
    destruct (decide (x1 ++ chain_hash l1 = x2 ++ chain_hash l2)) as [E|Hn]; [|right; left; eauto].
    apply app_inj_2 in E as [-> E]; [|by rewrite !Hch]. destruct (IH l2 E) as [->|Hc]; [by left|by right].
Qed.
End Batcher.

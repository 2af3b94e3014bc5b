(** C47: the config contract. *)
From stdpp Require Import list gmap.
From Coq Require Import ZArith NArith Lia.
From Verif Require Import ArithModel ContractsModel ContractsProofs.
Local Open Scope Z_scope.

(** ** Specification *)
(** two consecutive configs fit: the second starts where a batch of the first ends, or replaces an inactive one *)
Definition linked (c1 c2 : config) : Prop :=
  if 0 <? span c1 then start_batch c1 < start_batch c2 ∧ start_block c2 = start_block c1 + span c1 * (start_batch c2 - start_batch c1)
  else start_batch c2 = start_batch c1.
Definition well_formed (cs : list config) : Prop :=
  cs !! 0%nat = Some zero_config ∧ Forall (λ c, config_typed c = true) cs ∧ Forall (λ c, threshold c ≤ Z.of_nat (length (keypers c))) cs ∧
  ∀ i c1 c2, cs !! i = Some c1 → cs !! S i = Some c2 → linked c1 c2.
(** the config of a batch: the last one that starts at or before it *)
Definition config_for (cs : list config) (b : Z) (i : nat) (c : config) : Prop :=
  cs !! i = Some c ∧ start_batch c ≤ b ∧ ∀ j c', (i < j)%nat → cs !! j = Some c' → b < start_batch c'.
(** end and timeout block of a batch, and the first block in which transactions for it are accepted *)
Definition end_block (c : config) (b : Z) : Z := start_block c + (b - start_batch c + 1) * span c.
Definition open_block (c : config) (b : Z) : Z := if b =? start_batch c then start_block c else end_block c b - 2 * span c.
Definition timeout_block (c : config) (b : Z) : Z := end_block c b + timeout c.

Lemma config_typed_ok c : config_typed c = true →
  0 ≤ start_batch c < 2 ^ 64 ∧ 0 ≤ start_block c < 2 ^ 64 ∧ 0 ≤ threshold c < 2 ^ 64 ∧ 0 ≤ span c < 2 ^ 64 ∧ 0 ≤ timeout c < 2 ^ 64.
Proof.
  unfold config_typed. rewrite !andb_true_iff. intros [[[[[[[[H1 H2] H3] H4] H5] H6] H7] H8] H9]. split_and!; by apply is64_ok.
Qed.
Lemma boundary_ok c b st e t : config_typed c = true → boundary c b = Ok (st, e, t) →
  0 < span c ∧ start_batch c ≤ b ∧ st = open_block c b ∧ e = end_block c b ∧ t = timeout_block c b ∧
  start_block c ≤ st < e ∧ e ≤ t < 2 ^ 64.
Proof.
  intros Ht H. apply config_typed_ok in Ht as (T1 & T2 & T3 & T4 & T5). unfold boundary in H. inv_do H. subst.
  unfold open_block, timeout_block, end_block. destruct (Z.leb_spec 1 (b - start_batch c)).
  - apply c64_ok in E6 as [-> E6]. injection H as <- <- <-. destruct (Z.eqb_spec b (start_batch c)); [lia|]. split_and!; nia.
  - injection E6 as <-. injection H as <- <- <-. destruct (Z.eqb_spec b (start_batch c)); [|lia]. split_and!; nia.
Qed.
Lemma boundary_eq c b : config_typed c = true → 0 < span c → start_batch c ≤ b < 2 ^ 64 → timeout_block c b < 2 ^ 64 →
  boundary c b = Ok (open_block c b, end_block c b, timeout_block c b).
Proof.
  intros Ht Hs Hb Hlt. apply config_typed_ok in Ht as (T1 & T2 & T3 & T4 & T5). unfold boundary, open_block, timeout_block, end_block in *.
  apply Z.ltb_lt in Hs as Es. rewrite Es. destruct (Z.leb_spec (start_batch c) b); [|lia]. cbn [assert_ rbind]. rewrite c64_eq by lia. cbn [rbind].
  assert (0 ≤ (b - start_batch c) * span c) by nia. rewrite c64_eq by nia. cbn [rbind]. rewrite c64_eq by nia. cbn [rbind]. rewrite c64_eq by nia. cbn [rbind].
  rewrite c64_eq by nia. cbn [rbind]. destruct (Z.leb_spec 1 (b - start_batch c)).
  - rewrite c64_eq by nia. cbn [rbind]. rewrite c64_eq by nia. cbn [rbind]. destruct (Z.eqb_spec b (start_batch c)); [lia|]. f_equal. f_equal; [f_equal|]; lia.
  - cbn [rbind]. rewrite c64_eq by nia. cbn [rbind]. destruct (Z.eqb_spec b (start_batch c)); [|lia]. f_equal. f_equal; [f_equal|]; lia.
Qed.

Lemma config_loop_ok cs n b i : (n ≤ length cs)%nat → sol_config_loop cs n b = Ok i →
  ∃ c, (i < n)%nat ∧ cs !! i = Some c ∧ start_batch c ≤ b ∧ ∀ j c', (i < j < n)%nat → cs !! j = Some c' → b < start_batch c'.
Proof.
  induction n as [|n IH]; intros Hn H; [done|]. cbn [sol_config_loop] in H. destruct (cs !! n) as [c|] eqn:E; [|done]. destruct (Z.leb_spec (start_batch c) b).
  - injection H as <-. exists c. split_and!; [lia|done|done|]. intros. lia.
  - apply IH in H as (c1 & H1 & H2 & H3 & H4); [|lia]. exists c1. split_and!; [lia|done|done|]. intros j c' Hj Hc. destruct (decide (j = n)) as [->|]; [congruence|].
    apply (H4 j c'); [lia|done].
Qed.
Lemma config_loop_eq cs n b i c : (n ≤ length cs)%nat → (i < n)%nat → cs !! i = Some c → start_batch c ≤ b →
  (∀ j c', (i < j < n)%nat → cs !! j = Some c' → b < start_batch c') → sol_config_loop cs n b = Ok i.
Proof.
  induction n as [|n IH]; intros Hn Hi Hc Hb Hj; [lia|]. cbn [sol_config_loop]. destruct (lookup_lt_is_Some_2 cs n ltac:(lia)) as [c' E]. rewrite E.
  destruct (decide (i = n)) as [->|].
  - replace c' with c by congruence. by destruct (Z.leb_spec (start_batch c) b); [|lia].
  - destruct (Z.leb_spec (start_batch c') b); [specialize (Hj n c' ltac:(lia) E); lia|]. apply IH; [lia|lia|done|done|]. intros j d Hjn. apply Hj. lia.
Qed.
(** [config_index] finds the config of a batch *)
Lemma config_index_iff s b i : config_index s b = Ok i ↔ ∃ c, config_for (scheduled (cc s)) b i c.
Proof.
  unfold config_index. split.
  - intros H. apply config_loop_ok in H as (c & H1 & H2 & H3 & H4); [|lia]. exists c. split_and!; [done|done|]. intros j c' Hj Hc. apply (H4 j c'); [|done].
    split; [done|]. by eapply lookup_lt_Some.
  - intros (c & H1 & H2 & H3). eapply config_loop_eq; [lia|by eapply lookup_lt_Some|done|done|]. intros j c' Hj. apply H3. lia.
Qed.
Lemma config_for_unique cs b i c i' c' : config_for cs b i c → config_for cs b i' c' → i = i' ∧ c = c'.
Proof.
  intros (H1 & H2 & H3) (G1 & G2 & G3). destruct (decide (i = i')) as [<-|]; [split; congruence|].
  destruct (decide (i < i')%nat); [specialize (H3 i' c' ltac:(lia) G1); lia|specialize (G3 i c ltac:(lia) H1); lia].
Qed.

(** unscheduling keeps a prefix *)
Lemma unschedule_prefix from : ∀ i cs, length cs = S i → ∃ n, (1 ≤ n ≤ S i)%nat ∧ unschedule_loop i cs from = take n cs ∧
  (∀ j c, (n ≤ j)%nat → cs !! j = Some c → from ≤ start_block c) ∧ (n = 1%nat ∨ ∃ c, cs !! (n - 1)%nat = Some c ∧ start_block c < from).
Proof.
  induction i as [|i IH]; intros cs Hlen; cbn [unschedule_loop].
  - exists 1%nat. split; [lia|]. split_and!; [by rewrite take_ge by lia| |by left]. intros j c Hj Hc. apply lookup_lt_Some in Hc. lia.
  - destruct (lookup_lt_is_Some_2 cs (S i) ltac:(lia)) as [c E]. rewrite E. destruct (Z.leb_spec from (start_block c)).
    + destruct (IH (take (S i) cs)) as (n & Hn & E1 & E2 & E3); [rewrite take_length; lia|]. exists n. split; [lia|]. split_and!.
      * rewrite E1, take_take. f_equal. lia.
      * intros j d Hj Hd. destruct (decide (j = S i)) as [->|]; [congruence|]. apply (E2 j); [done|]. rewrite lookup_take; [done|]. apply lookup_lt_Some in Hd. lia.
      * destruct E3 as [?|(d & Hd & ?)]; [by left|]. right. exists d. split; [|done]. rewrite lookup_take in Hd; [done|lia].
    + exists (S (S i)). split; [lia|]. split_and!; [by rewrite take_ge by lia| |].
      * intros j d Hj Hd. apply lookup_lt_Some in Hd. lia.
      * right. exists c. replace (S (S i) - 1)%nat with (S i) by lia. done.
Qed.

Section Config.
Context (keccak : list N → list N) (ecrecover : list N → Z → Z → Z → option N) (addr_bytes : N → list N).
Context (batcher_address slasher_address deposit_address : N).
Notation run := (run keccak ecrecover addr_bytes batcher_address slasher_address deposit_address).
Notation steps := (steps keccak ecrecover addr_bytes batcher_address slasher_address deposit_address).
Notation deployed := (deployed slasher_address).
Definition any (a : N) (c : call) : Prop := True.
Lemma any_events l : Forall (ok_event any) l.
Proof. apply Forall_forall. by intros []. Qed.

Definition cc_inv (s : state) : Prop := well_formed (scheduled (cc s)) ∧ config_typed (next_config (cc s)) = true ∧ 0 ≤ heads_up (cc s).
(** what stays *)
Definition kept (s s' : state) : Prop :=
  (∀ i c, scheduled (cc s) !! i = Some c → start_block c ≤ block s + heads_up (cc s) → scheduled (cc s') !! i = Some c) ∧
  (0 ≤ block s → block s' < 2 ^ 64 → ∀ b i c, config_for (scheduled (cc s)) b i c → 0 < span c → open_block c b ≤ block s → config_for (scheduled (cc s')) b i c).
Definition conf_stays (s : state) (f : list effect) (s' : state) : Prop :=
  block s ≤ block s' ∧ heads_up (cc s') = heads_up (cc s) ∧ cc_owner (cc s') = cc_owner (cc s) ∧ (cc_inv s → cc_inv s' ∧ kept s s').
Lemma conf_same s f s' : block s ≤ block s' → cc s' = cc s → conf_stays s f s'.
Proof.
  intros Hb E. unfold conf_stays. rewrite E. split_and!; [done..|]. intros Hi. unfold cc_inv, kept in *. rewrite E. split; [done|]. split; auto.
Qed.
Lemma conf_trans s f s1 g s2 : conf_stays s f s1 → conf_stays s1 g s2 → conf_stays s (f ++ g) s2.
Proof.
  intros (H1 & H2 & H3 & H4) (G1 & G2 & G3 & G4). split_and!; [lia|congruence|congruence|]. intros Hi. destruct (H4 Hi) as [Hi1 [K1 K2]]. destruct (G4 Hi1) as [Hi2 [L1 L2]].
  split; [done|]. split.
  - intros i c Hc Hle. apply L1; [by apply K1|]. rewrite H2. lia.
  - intros P1 P2 b i c Hc Hs Ho. apply L2; [lia|lia| |done|lia]. apply K2; [done|lia|done|done|done].
Qed.
Lemma conf_schedule s a s' : schedule s a = Ok s' → conf_stays s [] s'.
Proof.
  intros H. pose proof H as H'. apply schedule_shape in H' as (_ & ->). split_and!; [done|done|done|]. intros [(W1 & W2 & W3 & W4) [Tn Hh]].
  unfold schedule in H. inv_do H. destruct (last (scheduled (cc s))) as [c1|] eqn:El; [|done]. inv_do H. subst. clear H.
  set (cs := scheduled (cc s)) in *. set (c2 := next_config (cc s)) in *.
  assert (linked c1 c2) as Hl.
  { unfold linked. destruct (Z.ltb_spec 0 (span c1)).
    - inv_do E5. inv_res E5. subst. lia.
    - inv_res E5. done. }
  assert (start_batch c1 ≤ start_batch c2) as Hsb by (unfold linked in Hl; destruct (0 <? span c1); lia).
  rewrite last_lookup in El.
  pose proof (lookup_lt_Some _ _ _ El) as Hlt.
  split; [|split].
  - split_and!; [cbn; split_and!| |done].
    + by apply lookup_app_l_Some.
    + apply Forall_app. split; [done|]. by constructor.
    + apply Forall_app. split; [done|]. by constructor.
    + intros i d1 d2 H1 H2. destruct (decide (S i < length cs)%nat).
      * rewrite lookup_app_l in H1, H2 by lia. by eapply W4.
      * pose proof (lookup_lt_Some _ _ _ H2) as H2'. rewrite app_length in H2'. cbn in H2'. assert (S i = length cs) as Ei by lia.
        rewrite lookup_app_l in H1 by lia. rewrite lookup_app_r, Ei, Nat.sub_diag in H2 by lia. injection H2 as <-.
        assert (i = pred (length cs)) as -> by lia. by replace d1 with c1 by congruence.
    + done.
  - intros i c Hc _. cbn. by apply lookup_app_l_Some.
  - intros P1 P2 b i c (C1 & C2 & C3) Hsp Ho. cbn. split_and!; [by apply lookup_app_l_Some|done|]. intros j c' Hj Hc'.
    destruct (decide (j < length cs)%nat) as [|Hge]; [rewrite lookup_app_l in Hc' by done; by eapply C3|].
    rewrite lookup_app_r in Hc' by lia. apply list_lookup_singleton_Some in Hc' as [_ <-].
    destruct (decide (i = pred (length cs))) as [->|].
    + assert (c = c1) as -> by (apply (inj Some); rewrite <-C1; exact El). rewrite u64_small in * by (cbn in P2; lia).
      unfold linked in Hl. destruct (Z.ltb_spec 0 (span c1)); [|lia]. destruct Hl as [Hl1 Hl2]. unfold open_block, end_block in Ho.
      destruct (Z.lt_ge_cases b (start_batch c2)) as [|Hge']; [done|]. destruct (Z.eqb_spec b (start_batch c1)); [lia|].
      destruct (Z.ltb_spec (heads_up (cc s)) (span c1)); nia.
    + fold cs in C1, C3. pose proof (lookup_lt_Some _ _ _ C1). specialize (C3 (pred (length cs)) c1 ltac:(lia) El). lia.
Qed.
Lemma conf_unschedule s a x s' : unschedule s a x = Ok s' → conf_stays s [] s'.
Proof.
  intros H. apply unschedule_shape in H as (_ & Hx & ->). split_and!; [done|done|done|]. intros [(W1 & W2 & W3 & W4) [Tn Hh]].
  set (cs := scheduled (cc s)) in *. pose proof (lookup_lt_Some _ _ _ W1) as Hlt.
  destruct (unschedule_prefix x (length cs - 1) cs ltac:(lia)) as (n & Hn & E1 & E2 & _). rewrite E1. split; [|split].
  - split_and!; [cbn; split_and!| |done].
    + rewrite lookup_take by lia. done.
    + by apply Forall_take.
    + by apply Forall_take.
    + intros i c1 c2 H1 H2. pose proof (lookup_lt_Some _ _ _ H2) as L2. rewrite take_length in L2. rewrite lookup_take in H1, H2 by lia. by eapply W4.
    + done.
  - intros i c Hc Hle. cbn. rewrite lookup_take; [done|]. destruct (decide (i < n)%nat) as [|Hge]; [done|]. specialize (E2 i c ltac:(lia) Hc). lia.
  - intros P1 P2 b i c (C1 & C2 & C3) Hsp Ho. cbn.
    assert (start_block c ≤ open_block c b) as Hob by (unfold open_block, end_block; destruct (Z.eqb_spec b (start_batch c)); nia).
    assert (i < n)%nat as Hin. { destruct (decide (i < n)%nat) as [|Hge]; [done|]. specialize (E2 i c ltac:(lia) C1). lia. }
    split_and!; [by rewrite lookup_take|done|]. intros j c' Hj Hc'. pose proof (lookup_lt_Some _ _ _ Hc') as L2. rewrite take_length in L2. rewrite lookup_take in Hc' by lia. by eapply C3.
Qed.
Lemma conf_all s l : conf_stays s (steps s l).2 (steps s l).1.
Proof.
  apply (steps_rel keccak ecrecover addr_bytes batcher_address slasher_address deposit_address any ltac:(done) conf_stays); [..|apply any_events]; intros;
    try (match goal with H : schedule _ _ = _ |- _ => by eapply conf_schedule end);
    try (match goal with H : unschedule _ _ _ = _ |- _ => by eapply conf_unschedule end); shapes;
    try (apply conf_same; [cbn; lia|done]).
  - by eapply conf_trans.
  - split_and!; [done..|]. intros [Hw [_ Hh]]. split; [done|]. split; auto.
  - eapply conf_trans; [done|]. by apply conf_same.
  - eapply conf_trans; [done|]. by apply conf_same.
  - match goal with H : conf_stays ?t f _ |- conf_stays ?s0 (?e :: _) _ => apply (conf_trans s0 [e] t) end; [by apply conf_same|].
    eapply conf_trans; [done|]. by apply conf_same.
Qed.
Lemma cc_deployed owner hu ap blk : 0 ≤ hu → cc_inv (deployed owner hu ap blk).
Proof.
  intros Hh. split_and!; [cbn; split_and!|done|done]; [done|by repeat constructor|by repeat constructor|]. intros [|i] c1 c2 H1 H2; [by cbn in H2|by cbn in H1].
Qed.

(** C47: the list of scheduled configs is always well formed *)
Theorem C47_well_formed owner hu ap blk l : 0 ≤ hu → well_formed (scheduled (cc (steps (deployed owner hu ap blk) l).1)).
Proof. intros Hh. destruct (conf_all (deployed owner hu ap blk) l) as (_ & _ & _ & H). by destruct (H (cc_deployed owner hu ap blk Hh)) as [[? _] _]. Qed.
(** ... so every batch has exactly one config, and the contract finds it *)
Theorem C47_total owner hu ap blk l b : 0 ≤ hu → 0 ≤ b → let s := (steps (deployed owner hu ap blk) l).1 in
  ∃ i c, config_index s b = Ok i ∧ config_for (scheduled (cc s)) b i c ∧ ∀ i' c', config_for (scheduled (cc s)) b i' c' → i' = i ∧ c' = c.
Proof.
  intros Hh Hb s. destruct (C47_well_formed owner hu ap blk l Hh) as (W1 & _). fold s in W1.
  assert (∀ n, (0 < n ≤ length (scheduled (cc s)))%nat → ∃ i, sol_config_loop (scheduled (cc s)) n b = Ok i) as Hex.
  { induction n as [|n IH]; intros Hn; [lia|]. cbn [sol_config_loop]. destruct (lookup_lt_is_Some_2 (scheduled (cc s)) n ltac:(lia)) as [c E]. rewrite E.
    destruct (Z.leb_spec (start_batch c) b); [eauto|]. destruct n as [|n]; [|apply IH; lia]. rewrite W1 in E. injection E as <-. cbn in *. lia. }
  destruct (Hex (length (scheduled (cc s)))) as [i Hi]; [split; [by eapply lookup_lt_Some|lia]|].
  change (config_index s b = Ok i) in Hi. pose proof Hi as Hi'. apply config_index_iff in Hi' as [c Hc]. exists i, c. split_and!; [done|done|].
  intros i' c' Hc'. by destruct (config_for_unique _ _ _ _ _ _ Hc' Hc).
Qed.
(** C47: notice: a config that starts within the next heads-up blocks is not removed or changed any more *)
Theorem C47_notice owner hu ap blk l1 l2 i c : 0 ≤ hu →
  let s1 := (steps (deployed owner hu ap blk) l1).1 in let s2 := (steps s1 l2).1 in
  scheduled (cc s1) !! i = Some c → start_block c ≤ block s1 + hu → scheduled (cc s2) !! i = Some c.
Proof.
  intros Hh s1 s2 Hc Hle. destruct (conf_all (deployed owner hu ap blk) l1) as (_ & E1 & _ & H). destruct (H (cc_deployed owner hu ap blk Hh)) as [Hi _]. fold s1 in Hi, E1.
  destruct (conf_all s1 l2) as (_ & _ & _ & H2). destruct (H2 Hi) as [_ [H3 _]]. apply H3; [done|]. rewrite E1. done.
Qed.
(** ... and a new config can only be added with a start block beyond the heads-up *)
Theorem C47_schedule_notice owner hu ap blk l sender fuel s' f : 0 ≤ hu → let s := (steps (deployed owner hu ap blk) l).1 in
  0 ≤ block s < 2 ^ 64 → run fuel s sender Schedule = Ok (s', f) →
  sender = owner ∧ ∃ c, scheduled (cc s') = scheduled (cc s) ++ [c] ∧ block s + hu < start_block c.
Proof.
  intros Hh s Hb Hr. destruct (conf_all (deployed owner hu ap blk) l) as (_ & E1 & E2 & _). fold s in E1, E2. clearbody s.
  assert (heads_up (cc s) = hu ∧ cc_owner (cc s) = owner) as [E3 E4] by done. clear E1 E2.
  destruct fuel as [|fuel]; [done|]. cbn in Hr. destruct (schedule s sender) as [s1| |] eqn:Es; [|done..]. injection Hr as <- <-.
  pose proof Es as Es'. apply schedule_shape in Es' as (-> & ->). split; [done|]. exists (next_config (cc s)). split; [done|].
  unfold schedule in Es. inv_do Es. destruct (last (scheduled (cc s))) as [c1|]; [|done]. inv_do Es. subst. rewrite u64_small in * by done.
  destruct (Z.ltb_spec (heads_up (cc s)) (span c1)); lia.
Qed.
(** C47: once transactions can be added to a batch, its config never changes *)
Theorem C47_config_fixed owner hu ap blk l1 l2 b i c : 0 ≤ hu →
  let s1 := (steps (deployed owner hu ap blk) l1).1 in let s2 := (steps s1 l2).1 in
  0 ≤ block s1 → block s2 < 2 ^ 64 →
  config_for (scheduled (cc s1)) b i c → 0 < span c → open_block c b ≤ block s1 → config_for (scheduled (cc s2)) b i c.
Proof.
  intros Hh s1 s2 P1 P2. destruct (conf_all (deployed owner hu ap blk) l1) as (_ & _ & _ & H). destruct (H (cc_deployed owner hu ap blk Hh)) as [Hi _]. fold s1 in Hi.
  destruct (conf_all s1 l2) as (_ & _ & _ & H2). destruct (H2 Hi) as [_ [_ H3]]. by apply H3.
Qed.
(** C47: the batches of an active config end where the next config starts *)
Theorem C47_seamless owner hu ap blk l i c1 c2 : 0 ≤ hu → let s := (steps (deployed owner hu ap blk) l).1 in
  scheduled (cc s) !! i = Some c1 → scheduled (cc s) !! S i = Some c2 → 0 < span c1 →
  start_batch c1 ≤ start_batch c2 - 1 ∧ end_block c1 (start_batch c2 - 1) = start_block c2.
Proof.
  intros Hh s H1 H2 Hs. destruct (C47_well_formed owner hu ap blk l Hh) as (_ & _ & _ & W). fold s in W. specialize (W i c1 c2 H1 H2). unfold linked in W.
  apply Z.ltb_lt in Hs. rewrite Hs in W. apply Z.ltb_lt in Hs. unfold end_block. split; [lia|]. destruct W as [_ ->]. ring.
Qed.
(** C47: if only the guard is inactive, batches end one after the other.  Partial: with inactive configs this is refuted below. *)
Theorem C47_ends_increase_partial owner hu ap blk l b1 i1 c1 b2 i2 c2 : 0 ≤ hu → let s := (steps (deployed owner hu ap blk) l).1 in
  (∀ i c, (0 < i)%nat → scheduled (cc s) !! i = Some c → 0 < span c) →
  config_for (scheduled (cc s)) b1 i1 c1 → config_for (scheduled (cc s)) b2 i2 c2 → 0 < span c1 → 0 < span c2 → b1 < b2 →
  end_block c1 b1 + span c2 ≤ end_block c2 b2.
Proof.
  intros Hh s Hact (A1 & A2 & A3) (B1 & B2 & B3) S1 S2 Hlt. destruct (C47_well_formed owner hu ap blk l Hh) as (W1 & W2 & _ & W). fold s in W1, W2, W.
  assert (i1 ≤ i2)%nat as Hle. { destruct (decide (i1 ≤ i2)%nat) as [|Hn]; [done|]. specialize (B3 i1 c1 ltac:(lia) A1). lia. }
  assert (0 < i1)%nat as Hi1. { destruct i1; [|lia]. rewrite W1 in A1. injection A1 as <-. by cbn in S1. }
  destruct (decide (i1 = i2)) as [<-|Hne].
  { replace c2 with c1 in * by congruence. unfold end_block. nia. }
  destruct (lookup_lt_is_Some_2 (scheduled (cc s)) (S i1)) as [d Hd]. { apply lookup_lt_Some in B1. lia. }
  assert (∀ k d', (S i1 ≤ k ≤ i2)%nat → scheduled (cc s) !! k = Some d' → start_block d ≤ start_block d') as Hmono.
  { induction k as [|k IH]; intros d' Hk Hd'; [lia|]. destruct (decide (S i1 = S k)) as [E|]; [rewrite <-E in Hd'; replace d' with d by congruence; lia|].
    destruct (lookup_lt_is_Some_2 (scheduled (cc s)) k) as [d0 Hd0]. { apply lookup_lt_Some in Hd'. lia. }
    specialize (IH d0 ltac:(lia) Hd0). specialize (W k d0 d' Hd0 Hd'). unfold linked in W. specialize (Hact k d0 ltac:(lia) Hd0).
    destruct (Z.ltb_spec 0 (span d0)); [|lia]. destruct W as [W5 W6]. nia. }
  specialize (Hmono i2 c2 ltac:(lia) B1). specialize (A3 (S i1) d ltac:(lia) Hd). specialize (W i1 c1 d A1 Hd). unfold linked in W.
  destruct (Z.ltb_spec 0 (span c1)); [|lia]. destruct W as [W5 W6]. unfold end_block. nia.
Qed.
(** C47: the keyper computes the same end blocks as the contract *)
Theorem C47_go_agrees c b st e t : config_typed c = true → boundary c b = Ok (st, e, t) → batch_end_block c b = Some e.
Proof.
  intros Ht H. apply boundary_ok in H as (H1 & H2 & -> & -> & -> & H3 & H4); [|done]. apply config_typed_ok in Ht as (T1 & T2 & T3 & T4 & T5).
  unfold batch_end_block, batch_start_block, timeout_block, end_block in *. destruct (Z.ltb_spec b (start_batch c)); [lia|]. cbn. f_equal.
  assert (0 ≤ (b - start_batch c) * span c) by nia. rewrite (u64_small (b - start_batch c)) by nia. rewrite (u64_small (_ * _)) by nia. rewrite (u64_small (start_block c + _)) by nia. rewrite u64_small by nia. ring.
Qed.

Lemma starts_monotone cs : well_formed cs → (∀ i c, (0 < i)%nat → cs !! i = Some c → 0 < span c) →
  ∀ i j c d, (0 < i ≤ j)%nat → cs !! i = Some c → cs !! j = Some d → start_block c ≤ start_block d.
Proof.
  intros (_ & _ & _ & W) Hact i j c d Hij Hc. revert d. induction j as [|j IH]; intros d Hd; [lia|].
  destruct (decide (i = S j)) as [->|]; [replace d with c by congruence; lia|].
  destruct (lookup_lt_is_Some_2 cs j) as [d0 Hd0]. { apply lookup_lt_Some in Hd. lia. }
  specialize (IH ltac:(lia) d0 Hd0). specialize (W j d0 d Hd0 Hd). unfold linked in W. specialize (Hact j d0 ltac:(lia) Hd0).
  destruct (Z.ltb_spec 0 (span d0)); [|lia]. destruct W as [W5 W6]. nia.
Qed.
(** C47: unscheduling removes a tail of configs, all of which start at or after the given block, more than the heads-up away *)
Theorem C47_unschedule owner hu ap blk l sender from fuel s' f : 0 ≤ hu → let s := (steps (deployed owner hu ap blk) l).1 in
  run fuel s sender (Unschedule from) = Ok (s', f) →
  sender = owner ∧ block s + hu < from ∧ ∃ n, (0 < n < length (scheduled (cc s)))%nat ∧ scheduled (cc s') = take n (scheduled (cc s)) ∧
  ∀ i c, (n ≤ i)%nat → scheduled (cc s) !! i = Some c → from ≤ start_block c.
Proof.
  intros Hh s Hr. destruct (conf_all (deployed owner hu ap blk) l) as (_ & E1 & E2 & _). pose proof (C47_well_formed owner hu ap blk l Hh) as (W1 & _). fold s in E1, E2, W1. clearbody s.
  assert (heads_up (cc s) = hu ∧ cc_owner (cc s) = owner) as [E3 E4] by done. clear E1 E2.
  destruct fuel as [|fuel]; [done|]. cbn [ContractsModel.run] in Hr. destruct (negb _); [done|]. unfold no_effects in Hr. inv_do Hr. injection Hr as <- <-.
  pose proof E as E'. apply unschedule_shape in E' as (-> & Hx & ->). rewrite E3 in Hx. split; [done|]. split; [done|].
  unfold unschedule in E. inv_do E. cbn [cc set_cc scheduled]. pose proof (lookup_lt_Some _ _ _ W1) as Hlt.
  destruct (unschedule_prefix from (length (scheduled (cc s)) - 1) (scheduled (cc s)) ltac:(lia)) as (n & Hn & F1 & F2 & _). exists n. rewrite F1 in *.
  match goal with H : Nat.ltb _ _ = true |- _ => apply Nat.ltb_lt in H; rewrite take_length in H end. split; [lia|]. done.
Qed.
(** ... and if only the guard is inactive, it removes all of them.  Partial: with inactive configs refuted below. *)
Theorem C47_unschedule_all_partial owner hu ap blk l sender from fuel s' f : 0 ≤ hu → let s := (steps (deployed owner hu ap blk) l).1 in
  (∀ i c, (0 < i)%nat → scheduled (cc s) !! i = Some c → 0 < span c) →
  run fuel s sender (Unschedule from) = Ok (s', f) → ∀ i c, (0 < i)%nat → scheduled (cc s') !! i = Some c → start_block c < from.
Proof.
  intros Hh s Hact Hr. pose proof (C47_well_formed owner hu ap blk l Hh) as W. fold s in W. clearbody s. pose proof W as (W1 & _).
  destruct fuel as [|fuel]; [done|]. cbn [ContractsModel.run] in Hr. destruct (negb _); [done|]. unfold no_effects in Hr. inv_do Hr. injection Hr as <- <-.
  apply unschedule_shape in E as (-> & Hx & ->). cbn [cc set_cc scheduled]. pose proof (lookup_lt_Some _ _ _ W1) as Hlt.
  destruct (unschedule_prefix from (length (scheduled (cc s)) - 1) (scheduled (cc s)) ltac:(lia)) as (n & Hn & F1 & _ & F3). rewrite F1.
  intros i c Hi Hc. pose proof (lookup_lt_Some _ _ _ Hc) as L. rewrite take_length in L. rewrite lookup_take in Hc by lia.
  destruct F3 as [->|(d & Hd & Hdl)]; [lia|]. pose proof (starts_monotone _ W Hact i (n - 1) c d ltac:(lia) Hc Hd). lia.
Qed.
End Config.

(** ** Findings *)
(** c0 active, c1 switches batching off from batch 100 on, c2 switches it on again, long before c1 starts *)
Definition cfg0 := mkConfig 0 110 [7; 8]%N 1 10 1000 100 1000 0 1 1 20.
Definition cfg1 := mkConfig 100 1110 [] 0 0 0 0 0 0 0 0 0.
Definition cfg2 := mkConfig 100 200 [7; 8]%N 1 10 1000 100 1000 0 1 1 20.
Definition cfg3 := mkConfig 101 210 [7; 8]%N 1 10 1000 100 1000 0 1 1 20.
Definition odd_history : list event :=
  [Tx 1 9 (SetNext cfg0); Tx 1 9 Schedule; Tx 1 9 (SetNext cfg1); Tx 1 9 Schedule; Tx 1 9 (SetNext cfg2); Tx 1 9 Schedule; Tx 1 9 (SetNext cfg3); Tx 1 9 Schedule].
Notation wsteps := (steps (λ x, x) (λ _ _ _ _, None) (λ _, []) 1 2 3).
Notation wrun := (run (λ x, x) (λ _ _ _ _, None) (λ _, []) 1 2 3).
(** C47, refuted: batches need not end in order: batch 100 is over 900 blocks before batch 99 *)
Theorem C47_ends_increase_refuted : ∃ owner hu ap blk l b1 i1 c1 b2 i2 c2, 0 ≤ hu ∧
  let s := (wsteps (deployed 2 owner hu ap blk) l).1 in
  config_for (scheduled (cc s)) b1 i1 c1 ∧ config_for (scheduled (cc s)) b2 i2 c2 ∧ 0 < span c1 ∧ 0 < span c2 ∧ b1 < b2 ∧ end_block c2 b2 + 900 = end_block c1 b1.
Proof.
  exists 9%N, 5, 10, 100, odd_history, 99, 1%nat, cfg0, 100, 3%nat, cfg2. split; [done|].
  assert (scheduled (cc (wsteps (deployed 2 9 5 10 100) odd_history).1) = [zero_config; cfg0; cfg1; cfg2; cfg3]) as E by (vm_compute; reflexivity).
  cbv zeta. rewrite E. clear E.
  assert (∀ b i c, [zero_config; cfg0; cfg1; cfg2; cfg3] !! i = Some c → start_batch c <= b → Forall (λ c', b < start_batch c') (drop (S i) [zero_config; cfg0; cfg1; cfg2; cfg3]) →
    config_for [zero_config; cfg0; cfg1; cfg2; cfg3] b i c) as Hcf.
  { intros b i c H1 H2 H3. split; [done|]. split; [done|]. intros j c' Hj Hc. rewrite Forall_lookup in H3. apply (H3 (j - S i)%nat). rewrite lookup_drop. by replace (S i + (j - S i))%nat with j by lia. }
  split; [apply Hcf; [done|done|by repeat constructor]|]. split; [apply Hcf; [done|done|by repeat constructor]|]. done.
Qed.
(** C47, refuted: unscheduling from a block leaves configs that start later than that block *)
Theorem C47_unschedule_all_refuted : ∃ owner hu ap blk l from s' f i c, 0 ≤ hu ∧
  wrun 1 (wsteps (deployed 2 owner hu ap blk) l).1 owner (Unschedule from) = Ok (s', f) ∧ scheduled (cc s') !! i = Some c ∧ from < start_block c.
Proof.
  exists 9%N, 5, 10, 100, odd_history, 205. eexists _, _, 2%nat, cfg1. split; [done|]. split; [vm_compute; reflexivity|]. done.
Qed.
Example C47_witness : let s := (wsteps (deployed 2 9 5 10 100) [Tx 1 9 (SetNext cfg0); Tx 1 9 Schedule; Mine 20]).1 in
  scheduled (cc s) = [zero_config; cfg0] ∧ config_index s 1 = Ok 1%nat ∧ open_block cfg0 1 = 110 ∧ boundary cfg0 1 = Ok (110, 130, 150) ∧ open_block cfg0 1 ≤ block s ∧
  start_block cfg0 ≤ block s + 5 ∧ wrun 1 s 9 (Unschedule 126) = Revert.
Proof. vm_compute. done. Qed.

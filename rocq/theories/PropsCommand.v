(** C72: the config commands schedule what the operator asked for. *)
From stdpp Require Import list gmap.
From Coq Require Import ZArith NArith Lia.
From Verif Require Import ArithModel PropsArith ContractsModel ContractsProofs PropsConfig PropsBatcher PropsExec PropsSlasher MainModel MainProofs PropsMain CommandModel.
Local Open Scope Z_scope.

Section Command.
Context (keccak : list N → list N) (ecrecover : list N → Z → Z → Z → option N) (addr_bytes : N → list N).
Context (batcher_address slasher_address deposit_address : N).
Notation run := (run keccak ecrecover addr_bytes batcher_address slasher_address deposit_address).
Notation step := (step keccak ecrecover addr_bytes batcher_address slasher_address deposit_address).
Notation steps := (steps keccak ecrecover addr_bytes batcher_address slasher_address deposit_address).
Notation deployed := (deployed slasher_address).

(** ** Specification *)
(** what happens on the chain while the operator's transactions are mined, in order: between them others act, but the owner of the
    config contract does nothing else *)
Inductive without (owner : N) : N → call → Prop :=
| without_intro a c : a ≠ owner → (∀ x, x ∈ inner_calls c → without owner x.1 x.2) → without owner a c.
Definition others (owner : N) (e : event) : Prop := match e with Tx _ a c => without owner a c | Mine _ => True end.
Inductive item := Own (x : setter) | Other (e : event).
Definition own_of (l : list item) : list setter := omap (λ i, match i with Own x => Some x | Other _ => None end) l.
Definition only_own (owner : N) (l : list item) : Prop := ∀ e, Other e ∈ l → others owner e.
(** [None]: one of the operator's transactions fails *)
Fixpoint mined (owner : N) (s : state) (l : list item) : option state :=
  match l with
  | [] => Some s
  | Own x :: l => match set_one s owner x with Ok s' => mined owner s' l | _ => None end
  | Other e :: l => mined owner (step s e).1 l
  end.

(** ** What others do to the config contract: nothing *)
Lemma without_inner owner a c x : without owner a c → x ∈ inner_calls c → without owner x.1 x.2.
Proof. intros [] Hx. auto. Qed.
Definition cc_same (s : state) (f : list effect) (s' : state) : Prop := cc s' = cc s ∧ block s ≤ block s'.
Definition cc_unless (owner : N) (s : state) (f : list effect) (s' : state) : Prop := cc_owner (cc s) = owner → cc_same s f s'.
Lemma others_rel owner s l : Forall (others owner) l → cc_unless owner s (steps s l).2 (steps s l).1.
Proof.
  intros Ho. apply (steps_rel keccak ecrecover addr_bytes batcher_address slasher_address deposit_address (without owner) (without_inner owner) (cc_unless owner));
    [..|exact Ho]; intros; shapes; unfold cc_unless, cc_same in *; intros Ho'; try (cbn; split; [done|lia]).
  all: try (match goal with H : without _ _ _ |- _ => inversion H; subst; done end).
  - destruct (H Ho') as [E1 L1]. destruct H0 as [E2 L2]; [congruence|]. split; [congruence|lia].
  - match goal with H : cc_owner (cc s0) = owner → _ |- _ => destruct (H Ho') as [E1 L1] end. cbn. split; [done|lia].
  - match goal with H : cc_owner (cc s0) = owner → _ |- _ => destruct (H Ho') as [E1 L1] end. cbn. split; [done|lia].
  - match goal with H : cc_owner (cc _) = owner → _ |- _ => destruct H as [E1 L1]; [done|] end. cbn in *. split; [done|lia].
Qed.
Lemma others_step owner s e : others owner e → cc_owner (cc s) = owner → cc (step s e).1 = cc s ∧ block s ≤ block (step s e).1.
Proof.
  intros He Ho. pose proof (others_rel owner s [e] ltac:(by constructor) Ho) as H. unfold ContractsModel.steps in H. cbn [foldl fst snd] in H.
  destruct (step s e) as [s' f] eqn:E. exact H.
Qed.

(** ** The setters *)
Fixpoint apply_all (c : config) (l : list setter) : result config :=
  match l with [] => Ok c | x :: l => do c' <- set_field c x; apply_all c' l end.
Lemma apply_all_app c l1 l2 : apply_all c (l1 ++ l2) = do c' <- apply_all c l1; apply_all c' l2.
Proof. revert c. induction l1 as [|x l1 IH]; intros c; cbn [apply_all app]; [done|]. destruct (set_field c x); cbn [rbind]; [apply IH|done|done]. Qed.
Lemma mined_apply owner l : ∀ s, only_own owner l → cc_owner (cc s) = owner →
  match apply_all (next_config (cc s)) (own_of l) with
  | Ok c => ∃ s', mined owner s l = Some s' ∧ cc s' = mkCC owner (heads_up (cc s)) (scheduled (cc s)) c ∧ block s ≤ block s'
  | _ => mined owner s l = None
  end.
Proof.
  induction l as [|[x|e] l IH]; intros s Hl Ho; cbn [own_of omap list_omap apply_all mined].
  - exists s. split; [done|]. split; [|lia]. destruct (cc s) eqn:E. cbn in *. by subst.
  - unfold set_one. rewrite Ho, N.eqb_refl. cbn [require rbind]. destruct (set_field (next_config (cc s)) x) as [c| |] eqn:E; cbn [rbind]; [|done|done].
    specialize (IH (set_cc s (mkCC owner (heads_up (cc s)) (scheduled (cc s)) c))). cbn [cc set_cc next_config cc_owner heads_up scheduled block] in IH.
    apply IH; [|done]. intros e He. apply Hl. by right.
  - destruct (others_step owner s e) as [E1 E2]; [apply Hl; by left|done|]. specialize (IH (step s e).1). rewrite E1 in IH.
    unfold own_of in IH |- *. destruct (apply_all _ _) as [c| |]; [|by apply IH; [intros y Hy; apply Hl; by right|]..].
    destruct IH as (s' & H1 & H2 & H3); [intros y Hy; apply Hl; by right|done|]. exists s'. split; [done|]. split; [done|lia].
Qed.
Lemma dedup_loop_nodup seen l : NoDup l → (∀ x, x ∈ l → x ∉ seen) → dedup_loop seen l = l.
Proof.
  revert seen. induction l as [|a l IH]; intros seen Hn Hs; [done|]. cbn [dedup_loop]. apply NoDup_cons in Hn as [H1 H2].
  rewrite bool_decide_false by (apply Hs; by left). f_equal. apply IH; [done|]. intros x Hx. apply not_elem_of_cons. split; [by intros ->|]. apply Hs. by right.
Qed.
Ltac eq_case b := let Hb := fresh "Hb" in destruct b eqn:Hb; [first [apply Z.eqb_eq in Hb | apply N.eqb_eq in Hb]; subst; reflexivity|reflexivity].
Lemma apply_setters cur new : NoDup (keypers cur) → Z.of_nat (length (keypers new)) < 2 ^ 64 → apply_all cur (setters (read_config cur) new) = Ok new.
Proof.
  destruct cur as [sb bl ks th sp bs ts tg fr ta se ti], new as [sb' bl' ks' th' sp' bs' ts' tg' fr' ta' se' ti']. intros Hn Hl. cbn [keypers] in *.
  unfold setters, read_config, dedup_addresses. cbn [start_batch start_block keypers threshold span batch_size_limit tx_size_limit tx_gas_limit fee_receiver target selector timeout].
  rewrite dedup_loop_nodup by (done || (intros x _; apply not_elem_of_nil)).
  do 11 (rewrite apply_all_app; match goal with |- context [apply_all ?c (if ?b then [] else [?x])] =>
    assert (apply_all c (if b then [] else [x]) = set_field c x) as -> by
      (cbn [set_field]; eq_case b) end; cbn [set_field rbind]).
  case_bool_decide as E; [by subst|]. cbn [apply_all set_field rbind].
  rewrite (proj2 (Z.leb_le _ _) (Z.le_refl _)). rewrite Nat2Z.id, Nat.sub_diag. cbn [take].
  unfold c256. assert ((0 <=? 2 ^ 64 - 1 - Z.of_nat (length ks')) && (2 ^ 64 - 1 - Z.of_nat (length ks') <? 2 ^ 256) = true) as ->.
  { rewrite andb_true_iff, Z.leb_le, Z.ltb_lt. split; [lia|]. assert (2 ^ 64 < 2 ^ 256) by (vm_compute; done). lia. }
  cbn [rbind length Z.of_nat]. rewrite (proj2 (Z.leb_le 0 _)) by lia. done.
Qed.

(** ** C72 *)
(** set-next: none of the transactions fails, and afterwards the next config is the one asked for, whatever was left there before *)
Theorem C72_set_next owner s l new : cc_owner (cc s) = owner → NoDup (keypers (next_config (cc s))) → Z.of_nat (length (keypers new)) < 2 ^ 64 →
  only_own owner l → own_of l = set_next_batch_config s new →
  ∃ s', mined owner s l = Some s' ∧ next_config (cc s') = new ∧ scheduled (cc s') = scheduled (cc s) ∧ heads_up (cc s') = heads_up (cc s) ∧ cc_owner (cc s') = owner ∧ block s ≤ block s'.
Proof.
  intros Ho Hn Hl Ho' E. pose proof (mined_apply owner l s Ho' Ho) as H. rewrite E in H. unfold set_next_batch_config in H. rewrite apply_setters in H by done.
  destruct H as (s' & H1 & H2 & H3). exists s'. rewrite H2. done.
Qed.
(** a setter is one of the changes of the next config that the model of the contracts, and with it C47, allows *)
Theorem C72_setter s a x s' fuel : set_one s a x = Ok s' → config_typed (next_config (cc s')) = true → run (S fuel) s a (SetNext (next_config (cc s'))) = Ok (s', []).
Proof.
  intros H Ht. cbn [ContractsModel.run typed]. rewrite Ht. cbn [negb]. unfold set_one in H. inv_do H. injection H as <-. cbn [cc set_cc next_config].
  unfold set_next. match goal with E : (a =? _)%N = true |- _ => rewrite E | E : a = _ |- _ => rewrite E, N.eqb_refl end. done.
Qed.

(** ** The start block and batch that set-next chooses *)
(** the earliest start that set-next aims at: 20 blocks beyond the notice *)
Definition aim (s : state) : Z := block s + heads_up (cc s) + 20.
(** no number exceeds uint64 *)
Record small (s : state) (c : config) : Prop := {
  sm_start : 0 ≤ start_block c; sm_span : 0 ≤ span c; sm_batch : 0 ≤ start_batch c; sm_block : 0 ≤ block s; sm_hu : 0 ≤ heads_up (cc s);
  sm_aim : aim s + span c + 1 < 2 ^ 64; sm_b : start_batch c + aim s + span c + 1 < 2 ^ 64; sm_s : start_block c < 2 ^ 64
}.
Lemma choose_eq s c : last (scheduled (cc s)) = Some c → small s c → start_block c ≤ aim s + 1 →
  choose_start s = if span c =? 0 then (aim s, start_batch c)
    else (start_block c + (aim s - start_block c + span c + 1) / span c * span c, start_batch c + (aim s - start_block c + span c + 1) / span c).
Proof.
  intros Hl [] Hs. unfold choose_start. rewrite Hl. cbn [read_config span start_block start_batch]. unfold aim in *.
  assert (∀ x y, u64 (u64 x + y) = u64 (x + y)) as Hu by (intros; unfold u64; apply Zplus_mod_idemp_l).
  assert (u64 (u64 (u64 (block s) + heads_up (cc s)) + 20) = block s + heads_up (cc s) + 20) as -> by (rewrite (Hu (block s)), Hu; apply u64_id; unfold is_u64; lia).
  destruct (Z.eqb_spec (span c) 0) as [|Hsp]; [done|]. set (a := block s + heads_up (cc s) + 20) in *.
  assert (u64 (u64 (u64 (a - start_block c) + span c) + 1) = a - start_block c + span c + 1) as ->.
  { rewrite (Hu (a - start_block c)), Hu. apply u64_id. unfold is_u64. lia. }
  set (d := a - start_block c + span c + 1) in *. assert (0 ≤ d / span c) by (apply Z.div_pos; lia). pose proof (Z.mul_div_le d (span c) ltac:(lia)).
  assert (d / span c ≤ d) by (apply Z.div_le_upper_bound; [lia|]; nia).
  rewrite (u64_id (d / span c * span c)) by (unfold is_u64; lia). f_equal; apply u64_id; unfold is_u64; lia.
Qed.
(** the config that starts there takes over where a batch of the last config ends, after the aim and at most one batch after it *)
Theorem C72_chosen s c bl sb : last (scheduled (cc s)) = Some c → small s c → start_block c ≤ aim s + 1 → choose_start s = (bl, sb) →
  if span c =? 0 then bl = aim s ∧ sb = start_batch c
  else start_batch c < sb ∧ bl = end_block c (sb - 1) ∧ aim s + 1 < bl ≤ aim s + span c + 1.
Proof.
  intros Hl Hsm Hs. rewrite choose_eq with (c := c) by done. destruct (Z.eqb_spec (span c) 0) as [|Hsp]; intros [= <- <-]; [done|]. destruct Hsm.
  set (d := aim s - start_block c + span c + 1) in *. assert (span c ≤ d) by (subst d; lia).
  assert (1 ≤ d / span c) by (apply Z.div_le_lower_bound; lia). pose proof (Z.div_mod d (span c) ltac:(lia)). pose proof (Z.mod_pos_bound d (span c) ltac:(lia)).
  split; [lia|]. unfold end_block. split; [nia|]. subst d. nia.
Qed.

(** ** schedule *)
(** whether the contract accepts the chosen config: only if it is mined early enough, and for batches longer than the notice perhaps never *)
Theorem C72_schedule_iff s0 s1 c owner fuel : last (scheduled (cc s0)) = Some c → small s0 c → start_block c ≤ aim s0 + 1 →
  cc_owner (cc s1) = owner → scheduled (cc s1) = scheduled (cc s0) → heads_up (cc s1) = heads_up (cc s0) → Z.of_nat (S (length (scheduled (cc s1)))) < 2 ^ 64 - 2 →
  (start_block (next_config (cc s1)), start_batch (next_config (cc s1))) = choose_start s0 → threshold (next_config (cc s1)) ≤ Z.of_nat (length (keypers (next_config (cc s1)))) →
  0 ≤ block s1 → block s1 + Z.max (heads_up (cc s0)) (span c) + 1 < 2 ^ 64 →
  if decide (block s1 + Z.max (heads_up (cc s0)) (span c) < start_block (next_config (cc s1)))
  then run (S fuel) s1 owner Schedule = Ok (set_cc s1 (mkCC owner (heads_up (cc s1)) (scheduled (cc s1) ++ [next_config (cc s1)]) zero_config), [])
  else ∀ r, run (S fuel) s1 owner Schedule ≠ Ok r.
Proof.
  intros Hl Hsm Hs Ho E1 E2 Hlen Hch Hth Hb1 Hb2. symmetry in Hch. pose proof (C72_chosen _ _ _ _ Hl Hsm Hs Hch) as Hc. destruct Hsm. set (c2 := next_config (cc s1)) in *.
  cbn [ContractsModel.run typed negb]. unfold schedule. rewrite Ho, N.eqb_refl. cbn [require rbind]. fold c2.
  rewrite (proj2 (Z.ltb_lt _ _) Hlen). cbn [require rbind]. rewrite E1, Hl. rewrite (proj2 (Z.leb_le _ _) Hth). cbn [require rbind].
  rewrite E2. assert ((if heads_up (cc s0) <? span c then span c else heads_up (cc s0)) = Z.max (heads_up (cc s0)) (span c)) as -> by (destruct (Z.ltb_spec (heads_up (cc s0)) (span c)); lia).
  rewrite (u64_id (block s1)) by (unfold is_u64; lia). rewrite c64_eq by lia. cbn [rbind]. rewrite c64_eq by lia. cbn [rbind].
  destruct (decide _) as [Hd|Hd].
  - rewrite (proj2 (Z.leb_le _ _)) by lia. cbn [require rbind]. destruct (Z.eqb_spec (span c) 0) as [Hz|Hz].
    + destruct Hc as [Hc1 Hc2]. rewrite (proj2 (Z.ltb_ge _ _)) by lia. rewrite Hc2, Z.eqb_refl. done.
    + destruct Hc as (Hc1 & Hc2 & Hc3). rewrite (proj2 (Z.ltb_lt 0 _)) by lia. rewrite (proj2 (Z.ltb_lt _ _)) by lia. cbn [require rbind]. unfold end_block in Hc2.
      assert (start_block c2 = start_block c + span c * (start_batch c2 - start_batch c)) as Hc4 by (rewrite Hc2; ring).
      assert (0 < span c * (start_batch c2 - start_batch c)) by (apply Z.mul_pos_pos; lia). assert (start_batch c2 - start_batch c ≤ span c * (start_batch c2 - start_batch c)) by nia.
      rewrite c64_eq by lia. cbn [rbind]. rewrite c64_eq by lia. cbn [rbind]. rewrite c64_eq by lia. cbn [rbind]. rewrite <-Hc4, Z.eqb_refl. done.
  - rewrite (proj2 (Z.leb_gt _ _)) by lia. intros r. done.
Qed.
(** so: with batches at most as long as the notice, if schedule is mined within 19 blocks of set-next's look at the chain *)
Corollary C72_accepted_partial s0 s1 c owner fuel : last (scheduled (cc s0)) = Some c → small s0 c → start_block c ≤ aim s0 + 1 →
  cc_owner (cc s1) = owner → scheduled (cc s1) = scheduled (cc s0) → heads_up (cc s1) = heads_up (cc s0) → Z.of_nat (S (length (scheduled (cc s1)))) < 2 ^ 64 - 2 →
  (start_block (next_config (cc s1)), start_batch (next_config (cc s1))) = choose_start s0 → threshold (next_config (cc s1)) ≤ Z.of_nat (length (keypers (next_config (cc s1)))) →
  span c ≤ heads_up (cc s0) → 0 ≤ block s1 ≤ block s0 + 19 →
  run (S fuel) s1 owner Schedule = Ok (set_cc s1 (mkCC owner (heads_up (cc s1)) (scheduled (cc s1) ++ [next_config (cc s1)]) zero_config), []).
Proof.
  intros Hl Hsm Hs Ho E1 E2 Hlen Hch Hth Hsp Hb. pose proof (C72_schedule_iff s0 s1 c owner fuel Hl Hsm Hs Ho E1 E2 Hlen Hch Hth) as H.
  pose proof (C72_chosen s0 c _ _ Hl Hsm Hs (eq_sym Hch)) as Hc. destruct Hsm. unfold aim in *. rewrite Z.max_l in H by done. destruct (decide _) as [|Hd]; [apply H; lia|].
  exfalso. apply Hd. destruct (span c =? 0); lia.
Qed.
(** a last config that starts after the aim: set-next computes modulo 2^64, and whatever it chooses is never accepted *)
Theorem C72_future_config_refuted s0 s1 c sender fuel r : last (scheduled (cc s0)) = Some c → small s0 c → 0 < span c → aim s0 + 1 < start_block c →
  scheduled (cc s1) = scheduled (cc s0) → (start_block (next_config (cc s1)), start_batch (next_config (cc s1))) = choose_start s0 → run fuel s1 sender Schedule ≠ Ok r.
Proof.
  intros Hl Hsm Hsp Hs E1 Hch. destruct fuel as [|fuel]; [done|]. destruct r as [s' f]. cbn [ContractsModel.run typed negb]. intros H.
  destruct (schedule s1 sender) as [s2| |] eqn:Es; [|done..]. unfold schedule in Es. inv_do Es. rewrite E1, Hl in Es. inv_do Es. clear H.
  rewrite (proj2 (Z.ltb_lt _ _) Hsp) in *.
  assert (start_batch c < start_batch (next_config (cc s1)) ∧ start_block c + span c * (start_batch (next_config (cc s1)) - start_batch c) = start_block (next_config (cc s1))) as [H1 H2].
  { match goal with E : rbind (require (start_batch c <? _)) _ = _ |- _ => inv_do E end. subst.
    repeat match goal with E : c64 _ = Ok _ |- _ => apply c64_ok in E as [-> ?] end.
    match goal with E : require _ = Ok _ |- _ => apply require_ok, Z.eqb_eq in E end. split; lia. }
  assert (start_block c < start_block (next_config (cc s1))) as H3 by nia.
  unfold choose_start in Hch. rewrite Hl in Hch. cbn [read_config span start_block start_batch] in Hch. destruct Hsm. unfold aim in *.
  rewrite (proj2 (Z.eqb_neq _ _)) in Hch by lia.
  assert (∀ x y, u64 (u64 x + y) = u64 (x + y)) as Hu by (intros; unfold u64; apply Zplus_mod_idemp_l). injection Hch as Hb _.
  assert (u64 (u64 (u64 (block s0) + heads_up (cc s0)) + 20) = block s0 + heads_up (cc s0) + 20) as Ha by (rewrite (Hu (block s0)), Hu; apply u64_id; unfold is_u64; lia).
  rewrite Ha in Hb. rewrite (Hu (_ - start_block c)), Hu in Hb. set (x := block s0 + heads_up (cc s0) + 20 - start_block c + span c + 1) in *.
  destruct (Z.lt_ge_cases x 0) as [Hx|Hx].
  - assert (u64 x = 2 ^ 64 + x) as Hm by (unfold u64; symmetry; apply (Z.mod_unique _ _ (-1)); lia). rewrite Hm in Hb.
    pose proof (Z.div_mod (2 ^ 64 + x) (span c) ltac:(lia)) as Hdm. pose proof (Z.mod_pos_bound (2 ^ 64 + x) (span c) ltac:(lia)) as Hmb.
    rewrite (Z.mul_comm _ (span c)) in Hb. set (q := span c * ((2 ^ 64 + x) / span c)) in *. assert (0 ≤ q) by (subst q; apply Z.mul_nonneg_nonneg; [lia|apply Z.div_pos; lia]).
    rewrite (u64_id q) in Hb by (unfold is_u64; lia). assert (u64 (start_block c + q) = start_block c + q - 2 ^ 64) as Hq by (unfold u64; symmetry; apply (Z.mod_unique _ _ 1); lia). lia.
  - rewrite (u64_id x) in Hb by (unfold is_u64; lia). rewrite Z.div_small, Z.mul_0_l in Hb by lia.
    change (u64 0) with 0 in Hb. rewrite Z.add_0_r, (u64_id (start_block c)) in Hb by (unfold is_u64; lia). lia.
Qed.

(** both commands, on a chain on which others act all the time: the contract has the config of the file from then on, starting where the
    last one ends a batch, if the block in which schedule is mined is early enough; if not, nothing is scheduled *)
Theorem C72_commands_partial owner hu ap blk ev file c2 l l2 c fuel : 0 ≤ hu → let s0 := (steps (deployed owner hu ap blk) ev).1 in
  last (scheduled (cc s0)) = Some c → small s0 c → start_block c ≤ aim s0 + 1 → Z.of_nat (S (length (scheduled (cc s0)))) < 2 ^ 64 - 2 →
  NoDup (keypers (next_config (cc s0))) → Z.of_nat (length (keypers file)) < 2 ^ 64 →
  start_block file = 0 → config_from_file s0 file = Some c2 → set_next_command s0 file = Some (own_of l) → only_own owner l → Forall (others owner) l2 →
  (* the config is the one of the file *)
  (keypers c2, threshold c2, span c2, batch_size_limit c2, tx_size_limit c2, tx_gas_limit c2) = (keypers file, threshold file, span file, batch_size_limit file, tx_size_limit file, tx_gas_limit file) ∧
  (fee_receiver c2, target c2, selector c2, timeout c2) = (fee_receiver file, target file, selector file, timeout file) ∧
  (* set-next succeeds, and then schedule *)
  ∃ s', mined owner s0 l = Some s' ∧ let s1 := (steps s' l2).1 in block s1 + Z.max hu (span c) + 1 < 2 ^ 64 →
    if decide (block s1 + Z.max hu (span c) < start_block c2)
    then ∃ s2, run (S fuel) s1 owner Schedule = Ok (s2, []) ∧ scheduled (cc s2) = scheduled (cc s0) ++ [c2] ∧ next_config (cc s2) = zero_config
    else ∀ r, run (S fuel) s1 owner Schedule ≠ Ok r.
Proof.
  intros Hhu s0 Hl Hsm Hs Hlen Hn Hk Hf0 Hc Hcmd Hown Hl2.
  destruct (conf_all keccak ecrecover addr_bytes batcher_address slasher_address deposit_address (deployed owner hu ap blk) ev) as (_ & E1 & E2 & _). fold s0 in E1, E2.
  change (heads_up (cc s0) = hu) in E1. change (cc_owner (cc s0) = owner) in E2.
  unfold set_next_command in Hcmd. rewrite Hc in Hcmd. cbn [fmap option_fmap option_map] in Hcmd. injection Hcmd as Hcmd.
  unfold config_from_file in Hc. destruct (validate_threshold _ _) eqn:Hv; [|done]. cbn [negb] in Hc. rewrite Hf0 in Hc. cbn [Z.eqb] in Hc.
  destruct (choose_start s0) as [bl sb] eqn:Hch. injection Hc as <-. split; [done|]. split; [done|].
  destruct (C72_set_next owner s0 l (mkConfig sb bl (keypers file) (threshold file) (span file) (batch_size_limit file) (tx_size_limit file) (tx_gas_limit file)
    (fee_receiver file) (target file) (selector file) (timeout file))) as (s' & M1 & M2 & M3 & M4 & M5 & M6); [done|done|done|done|by rewrite <-Hcmd|].
  exists s'. split; [done|]. intros s1 Hb. destruct (others_rel owner s' l2 Hl2 M5) as [O1 O2]. fold s1 in O1, O2.
  pose proof (C72_schedule_iff s0 s1 c owner fuel Hl Hsm Hs) as H. rewrite O1, M2, M3, M4, M5, E1 in H. cbn [start_block start_batch threshold keypers] in H.
  assert (threshold file ≤ Z.of_nat (length (keypers file))) as Ht.
  { unfold validate_threshold in Hv. destruct (Z.leb_spec (Z.of_nat (length (keypers file))) 0) as [|Hp]; [done|]. rewrite u64_id in Hv by (unfold is_u64; lia).
    destruct (Z.ltb_spec (Z.of_nat (length (keypers file))) (threshold file)); [done|lia]. }
  destruct Hsm. specialize (H eq_refl eq_refl eq_refl Hlen (eq_sym Hch) Ht ltac:(lia) Hb). cbn [start_block]. destruct (decide _) as [Hd|Hd].
  - eexists. split; [exact H|]. done.
  - exact H.
Qed.
End Command.

(** ** Witnesses and findings *)
Notation wset := (mined (λ x, x) (λ _ _ r _, Some (Z.to_N r)) (λ _, [1]%N) 1 2 3 9).
Notation wrun := (run (λ x, x) (λ _ _ r _, Some (Z.to_N r)) (λ _, [1]%N) 1 2 3).
Notation wsteps := (steps (λ x, x) (λ _ _ r _, Some (Z.to_N r)) (λ _, [1]%N) 1 2 3).
Definition is_ok {A} (r : result A) : bool := match r with Ok _ => true | _ => false end.
Definition wfile : config := mkConfig 0 0 [4; 5; 6]%N 2 20 1000 100 1000 0 1 7 5.
(** at block 30 (notice 5, batches of 10 blocks from block 10 on): the aim is 55, and batch 5 starts at 60 *)
Definition wconfig : config := mkConfig 5 60 [4; 5; 6]%N 2 20 1000 100 1000 0 1 7 5.
Definition witems : list item :=
  [Own (SetStartBatch 5); Other (Mine 3); Own (SetStartBlock 60); Own (SetThreshold 2); Other (Tx 1 4 (AddTx 3 Cipher [1]%N 0)); Own (SetSpan 20); Own (SetBatchSize 1000);
   Own (SetTxSize 100); Own (SetTxGas 1000); Own (SetTarget 1); Own (SetSelector 7); Own (SetTimeout 5); Other (Mine 2); Own (RemoveKeypers 0); Own (AddKeypers [4; 5; 6]%N)].
Lemma only_own_forall o l : Forall (λ i, match i with Other e => others o e | Own _ => True end) l → only_own o l.
Proof. intros H e He. rewrite Forall_forall in H. exact (H _ He). Qed.
Example C72_witness : let s0 := wstate wchain 30 in
  config_from_file s0 wfile = Some wconfig ∧ set_next_command s0 wfile = Some (own_of witems) ∧ only_own 9 witems ∧ small s0 wcfg ∧ last (scheduled (cc s0)) = Some wcfg ∧ start_block wcfg ≤ aim s0 + 1 ∧
  NoDup (keypers (next_config (cc s0))) ∧ Forall (others 9) [Mine 14] ∧
  (∃ s', wset s0 witems = Some s' ∧ block (wsteps s' [Mine 14]).1 + Z.max 5 (span wcfg) < start_block wconfig ∧ ∃ r, wrun 1 (wsteps s' [Mine 14]).1 9 Schedule = Ok r).
Proof.
  split; [vm_compute; reflexivity|]. split; [vm_compute; reflexivity|]. split.
  { apply only_own_forall. unfold witems. do 15 (constructor; [first [exact I | cbn [others]; constructor; [discriminate|intros x Hx; cbn [inner_calls] in Hx; by apply elem_of_nil in Hx]]|]). constructor. }
  split; [split; vm_compute; congruence|]. split; [vm_compute; reflexivity|]. split; [vm_compute; congruence|]. split; [|split; [repeat constructor|]].
  { assert (keypers (next_config (cc (wstate wchain 30))) = []) as -> by (vm_compute; reflexivity). constructor. }
  destruct (wset (wstate wchain 30) witems) as [s'|] eqn:E; [|vm_compute in E; discriminate E]. exists s'. split; [done|].
  assert ((λ o, match o with Some s => (block (wsteps s [Mine 14]).1, is_ok (wrun 1 (wsteps s [Mine 14]).1 9 Schedule)) | None => (0, false) end) (wset (wstate wchain 30) witems) = (49, true)) as H
    by (vm_compute; reflexivity). rewrite E in H. cbv beta iota in H. generalize dependent (wsteps s' [Mine 14]). intros r0 H. remember (block r0.1) as b eqn:Eb. destruct (wrun 1 r0.1 9 Schedule) as [r| |]; cbn [is_ok] in H; [|discriminate H..].
  assert (b = 49) as -> by congruence. split; [vm_compute; reflexivity|by exists r].
Qed.
(** batches longer than the notice: the config that set-next chooses at block 83 (start block 110) is rejected from the same block on *)
Definition lcfg : config := mkConfig 0 10 [7; 8; 9]%N 2 100 1000 100 1000 0 1 1 5.
Definition lchain : chain := λ n, match n with 1%nat => [(1%nat, 9%N, SetNext lcfg); (1%nat, 9%N, Schedule)] | _ => [] end.
Theorem C72_long_batches_refuted : let s0 := wstate lchain 83 in scheduled (cc s0) = [zero_config; lcfg] ∧ choose_start s0 = (110, 1) ∧
  ∀ s1 r, scheduled (cc s1) = scheduled (cc s0) → heads_up (cc s1) = heads_up (cc s0) → (start_block (next_config (cc s1)), start_batch (next_config (cc s1))) = choose_start s0 →
    block s0 ≤ block s1 < 2 ^ 64 → wrun 1 s1 9 Schedule ≠ Ok r.
Proof.
  intros s0. assert (scheduled (cc s0) = [zero_config; lcfg]) as E1 by (vm_compute; reflexivity). assert (choose_start s0 = (110, 1)) as E2 by (vm_compute; reflexivity).
  assert (block s0 = 83) as E3 by (vm_compute; reflexivity). assert (heads_up (cc s0) = 5) as E4 by (vm_compute; reflexivity).
  split; [done|]. split; [done|]. intros s1 r H1 H2 H3 Hb. rewrite E2 in H3. rewrite E1 in H1. rewrite E4 in H2. injection H3 as H3 H4. rewrite E3 in Hb. clearbody s0. clear E1 E2 E3 E4.
  cbn [ContractsModel.run typed negb]. destruct (schedule s1 9) as [s2| |] eqn:Es; [|done..]. exfalso. unfold schedule in Es. inv_do Es. rewrite H1 in Es. cbn [last] in Es. inv_do Es.
  subst. rewrite H2, H3 in *. cbn [lcfg span] in *. rewrite u64_id in * by (unfold is_u64; lia).
  repeat match goal with E : _ ∧ _ |- _ => destruct E end. change (5 <? 100) with true in *. cbv iota in *. lia.
Qed.
(** keypers that occur twice in the next config on the chain: the node reports them once, so too few are removed - or the change is not seen at all *)
Definition dupcfg (ks : list N) : config := mkConfig 0 0 ks 0 0 0 0 0 0 0 0 0.
Definition after_set_next (cur : list N) (new : list N) : option (list N) :=
  let s := (wsteps (genesis 2 9 5 10) [Tx 1 9 (SetNext (dupcfg cur))]).1 in
  (λ s', keypers (next_config (cc s'))) <$> wset s (Own <$> set_next_batch_config s (dupcfg new)).
Theorem C72_duplicates_refuted : after_set_next [7; 7; 8]%N [4; 5]%N = Some [7; 4; 5]%N ∧ after_set_next [7; 7; 8]%N [7; 8]%N = Some [7; 7; 8]%N ∧ after_set_next [7; 8]%N [4; 5]%N = Some [4; 5]%N.
Proof. split_and!; vm_compute; reflexivity. Qed.

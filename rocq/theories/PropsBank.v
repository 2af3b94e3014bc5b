(** C51, C52: the deposit contract and the fee bank: accounting, solvency and delays, for every history of (nested) calls. *)
From stdpp Require Import list gmap.
From Coq Require Import ZArith NArith Lia.
From Verif Require Import ArithModel ContractsModel ContractsProofs.
Local Open Scope Z_scope.

(** ** Specification *)
(** what the log of a history says about an account *)
Definition deposited (a : N) (f : list effect) : Z :=
  foldr (λ e acc, match e with FDeposited b v => if (b =? a)%N then v + acc else acc | _ => acc end) 0 f.
Definition paid_out (a : N) (f : list effect) : Z :=
  foldr (λ e acc, match e with FTokensOut b _ v => if (b =? a)%N then v + acc else acc | _ => acc end) 0 f.
Definition fees_in (a : N) (f : list effect) : Z :=
  foldr (λ e acc, match e with FFeeIn b v => if (b =? a)%N then v + acc else acc | _ => acc end) 0 f.
Definition fees_out (a : N) (f : list effect) : Z :=
  foldr (λ e acc, match e with FFeeOut b _ v => if (b =? a)%N then v + acc else acc | _ => acc end) 0 f.
(** sum over all entries of a mapping *)
Definition sum_of {A} (g : A → Z) (m : gmap N A) : Z := foldr (λ x acc, g x.2 + acc) 0 (map_to_list m).

Lemma deposited_app a f g : deposited a (f ++ g) = deposited a f + deposited a g.
Proof. unfold deposited. induction f as [|[] f IH]; cbn; try done. destruct (_ =? _)%N; lia. Qed.
Lemma paid_out_app a f g : paid_out a (f ++ g) = paid_out a f + paid_out a g.
Proof. unfold paid_out. induction f as [|[] f IH]; cbn; try done. destruct (_ =? _)%N; lia. Qed.
Lemma fees_in_app a f g : fees_in a (f ++ g) = fees_in a f + fees_in a g.
Proof. unfold fees_in. induction f as [|[] f IH]; cbn; try done. destruct (_ =? _)%N; lia. Qed.
Lemma fees_out_app a f g : fees_out a (f ++ g) = fees_out a f + fees_out a g.
Proof. unfold fees_out. induction f as [|[] f IH]; cbn; try done. destruct (_ =? _)%N; lia. Qed.

Lemma sum_perm {A} (g : A → Z) (l1 l2 : list (N * A)) : l1 ≡ₚ l2 →
  foldr (λ x acc, g x.2 + acc) 0 l1 = foldr (λ x acc, g x.2 + acc) 0 l2.
Proof. induction 1; cbn; lia. Qed.
Lemma sum_insert_new {A} (g : A → Z) m a x : m !! a = None → sum_of g (<[a := x]> m) = g x + sum_of g m.
Proof. intros H. unfold sum_of. rewrite (sum_perm g _ ((a, x) :: map_to_list m)); [done|by apply map_to_list_insert]. Qed.
Lemma sum_delete {A} (g : A → Z) m a z : g z = 0 → sum_of g (delete a m) = sum_of g m - g (default z (m !! a)).
Proof.
  intros Hz. destruct (m !! a) as [x|] eqn:E; cbn; [|rewrite (delete_notin m a E); lia].
  rewrite <-(insert_delete m a x E) at 2. rewrite sum_insert_new by apply lookup_delete. lia.
Qed.
Lemma sum_insert {A} (g : A → Z) m a x z : g z = 0 → sum_of g (<[a := x]> m) = sum_of g m - g (default z (m !! a)) + g x.
Proof.
  intros Hz. rewrite <-insert_delete_insert, sum_insert_new by apply lookup_delete. rewrite (sum_delete g m a z Hz). lia.
Qed.
Lemma sum_bound {A} (g : A → Z) m a z : g z = 0 → (∀ b, 0 ≤ g (default z (m !! b))) → g (default z (m !! a)) ≤ sum_of g m.
Proof.
  intros Hz Hp. assert (0 ≤ sum_of g (delete a m)) as H; [|rewrite (sum_delete g m a z Hz) in H; lia].
  unfold sum_of. assert (∀ x, x ∈ map_to_list (delete a m) → 0 ≤ g x.2) as H.
  { intros [b x] Hx. apply elem_of_map_to_list in Hx. apply lookup_delete_Some in Hx as [_ Hx]. specialize (Hp b). by rewrite Hx in Hp. }
  revert H. generalize (map_to_list (delete a m)). induction l as [|x l IH]; intros H; cbn; [done|].
  pose proof (H x ltac:(apply elem_of_list_here)). assert (0 ≤ foldr (λ x acc, g x.2 + acc) 0 l); [|lia].
  apply IH. intros y Hy. apply H. by apply elem_of_list_further.
Qed.

Section Bank.
Context (keccak : list N → list N) (ecrecover : list N → Z → Z → Z → option N) (addr_bytes : N → list N).
Context (batcher_address slasher_address deposit_address : N).
Notation run := (run keccak ecrecover addr_bytes batcher_address slasher_address deposit_address).
Notation steps := (steps keccak ecrecover addr_bytes batcher_address slasher_address deposit_address).
Notation deployed := (deployed slasher_address).

Definition any (a : N) (c : call) : Prop := True.
Lemma any_events l : Forall (ok_event any) l.
Proof. apply Forall_forall. by intros []. Qed.
Ltac by_actions R H := 
  apply (steps_rel keccak ecrecover addr_bytes batcher_address slasher_address deposit_address any ltac:(done) R); [..|apply any_events]; clear H; shapes.

Lemma lookup_dep s a b d x : deposit_of (set_deposits s (<[a := d]> (deposits s)) x) b = if (a =? b)%N then d else deposit_of s b.
Proof. unfold deposit_of. cbn. destruct (N.eqb_spec a b) as [->|Hn]; [by rewrite lookup_insert|by rewrite lookup_insert_ne]. Qed.
Lemma delete_dep s a b x : deposit_of (set_deposits s (delete a (deposits s)) x) b = if (a =? b)%N then zero_deposit else deposit_of s b.
Proof. unfold deposit_of. cbn. destruct (N.eqb_spec a b) as [->|Hn]; [by rewrite lookup_delete|by rewrite lookup_delete_ne]. Qed.

Lemma dep_other s s' a : deposits s' = deposits s → deposit_of s' a = deposit_of s a.
Proof. intros E. unfold deposit_of. by rewrite E. Qed.
(** effects that do not concern tokens and fees *)
Definition other (e : effect) : Prop :=
  match e with FDeposited _ _ | FTokensOut _ _ _ | FFeeIn _ _ | FFeeOut _ _ _ => False | _ => True end.
Lemma others f : Forall other f → ∀ a, deposited a f = 0 ∧ paid_out a f = 0 ∧ fees_in a f = 0 ∧ fees_out a f = 0.
Proof. intros H a. induction H as [|[] f Hx Hf IH]; done. Qed.
Lemma skips_other f : Forall skips f → Forall other f.
Proof. intros H. eapply Forall_impl; [exact H|]. intros []; done. Qed.

(** C51: the ledger *)
Definition ledger (s : state) (f : list effect) (s' : state) : Prop :=
  (∀ a, d_amount (deposit_of s' a) = d_amount (deposit_of s a) + deposited a f - paid_out a f) ∧
  token_balance s' - sum_of d_amount (deposits s') = token_balance s - sum_of d_amount (deposits s) ∧
  ((∀ a, 0 ≤ d_amount (deposit_of s a)) → ∀ a, 0 ≤ d_amount (deposit_of s' a)).
Lemma ledger_same s f s' : deposits s' = deposits s → token_balance s' = token_balance s → (∀ a, deposited a f = 0 ∧ paid_out a f = 0) → ledger s f s'.
Proof.
  intros E1 E2 E3. unfold ledger, deposit_of. rewrite E1, E2. split_and!; [|done|done]. intros a. destruct (E3 a) as [-> ->]. lia.
Qed.
Lemma ledger_trans s f s1 g s2 : ledger s f s1 → ledger s1 g s2 → ledger s (f ++ g) s2.
Proof.
  intros (H1 & H2 & H3) (G1 & G2 & G3). split_and!; [|lia|auto]. intros a. rewrite G1, H1, deposited_app, paid_out_app. lia.
Qed.
Lemma ledger_insert s a d x v f : d_amount d = d_amount (deposit_of s a) + v → x = token_balance s + v →
  (∀ b, deposited b f - paid_out b f = if (b =? a)%N then v else 0) → 0 ≤ d_amount d →
  ledger s f (set_deposits s (<[a := d]> (deposits s)) x).
Proof.
  intros Hd -> Hf Hp. split_and!.
  - intros b. rewrite lookup_dep. specialize (Hf b). rewrite N.eqb_sym in Hf. destruct (a =? b)%N eqn:E; [apply N.eqb_eq in E as ->|]; lia.
  - cbn. rewrite (sum_insert d_amount _ a d zero_deposit) by done. change (default zero_deposit (deposits s !! a)) with (deposit_of s a). lia.
  - intros H b. rewrite lookup_dep. destruct (a =? b)%N; auto.
Qed.
Lemma ledger_all s l : ledger s (steps s l).2 (steps s l).1.
Proof.
  apply (steps_rel keccak ecrecover addr_bytes batcher_address slasher_address deposit_address any ltac:(done) ledger); [..|apply any_events]; shapes;
    try (apply ledger_same; done).
  - by eapply ledger_trans.
  - eapply ledger_trans; [done|]. by apply ledger_same.
  - eapply ledger_trans; [done|]. by apply ledger_same.
  - apply ledger_same; [done..|]. match goal with H : Forall skips _ |- _ => apply skips_other in H; intros b; destruct (others _ H b) as (? & ? & ?); done end.
  - match goal with H : ledger ?t f s3 |- _ => apply (ledger_trans s0 [FTokensOut (a_executor (accusation_of s0 h)) (slashing_receiver s1) v] t) end.
    + apply (ledger_insert _ _ _ _ (- v)); cbn; [lia|lia| |done]; intros b; rewrite N.eqb_sym; destruct (_ =? _)%N; lia.
    + eapply ledger_trans; [done|]. by apply ledger_same.
  - apply (ledger_insert _ _ _ _ (- v)); cbn; [lia|lia| |done]; intros b; rewrite N.eqb_sym; destruct (_ =? _)%N; lia.
  - apply (ledger_insert _ _ _ _ v); cbn; [lia|lia| |lia]; intros b; rewrite N.eqb_sym; destruct (_ =? _)%N; lia.
  - apply (ledger_insert _ _ _ _ 0); cbn; [lia|lia| |lia]; intros b; destruct (_ =? _)%N; lia.
  - split_and!.
    + intros b. rewrite delete_dep. cbn. destruct (a =? b)%N eqn:E; [apply N.eqb_eq in E as ->|]; cbn; lia.
    + cbn. rewrite (sum_delete d_amount _ a zero_deposit) by done. change (default zero_deposit (deposits s0 !! a)) with (deposit_of s0 a). lia.
    + intros Hp b. rewrite delete_dep. destruct (a =? b)%N; [done|auto].
Qed.

(** C51: in every history from deployment, of any calls, nested in any way: an account's deposit is what it sent minus what
    was paid out (withdrawn or slashed); the contract holds exactly the sum of all deposits. *)
Theorem C51_ledger owner hu ap blk l : let '(s, f) := steps (deployed owner hu ap blk) l in
  (∀ a, d_amount (deposit_of s a) = deposited a f - paid_out a f ∧ 0 ≤ d_amount (deposit_of s a) ≤ token_balance s) ∧
  token_balance s = sum_of d_amount (deposits s).
Proof.
  pose proof (ledger_all (deployed owner hu ap blk) l) as (H1 & H2 & H3). destruct (steps _ l) as [s f]. cbn [fst snd] in *.
  assert (sum_of d_amount (deposits (deployed owner hu ap blk)) = 0) as E0 by (unfold sum_of; cbn; by rewrite map_to_list_empty).
  assert (∀ a, d_amount (deposit_of (deployed owner hu ap blk) a) = 0) as E1 by (intros a; unfold deposit_of; cbn; by rewrite lookup_empty).
  rewrite E0 in H2. cbn [token_balance ContractsModel.deployed] in H2. assert (token_balance s = sum_of d_amount (deposits s)) as Hs by lia.
  assert (∀ a, 0 ≤ d_amount (deposit_of s a)) as Hp by (apply H3; intros a; rewrite E1; lia).
  split; [|done]. intros a. split; [rewrite H1, E1; lia|]. split; [done|]. rewrite Hs. by apply (sum_bound d_amount _ a zero_deposit).
Qed.

(** a slashed account has nothing and stays slashed *)
Definition slashed_stays (s : state) (f : list effect) (s' : state) : Prop :=
  ((∀ a, d_slashed (deposit_of s a) = true → d_amount (deposit_of s a) = 0) → ∀ a, d_slashed (deposit_of s' a) = true → d_amount (deposit_of s' a) = 0) ∧
  ((∀ a, d_slashed (deposit_of s a) = true → d_amount (deposit_of s a) = 0) →
   ∀ a, d_slashed (deposit_of s a) = true → d_slashed (deposit_of s' a) = true).
Lemma slashed_same s f s' : deposits s' = deposits s → slashed_stays s f s'.
Proof. intros E. unfold slashed_stays, deposit_of. by rewrite E. Qed.
Lemma slashed_trans s f s1 g s2 : slashed_stays s f s1 → slashed_stays s1 g s2 → slashed_stays s (f ++ g) s2.
Proof. intros (H1 & H2) (G1 & G2). split; eauto. Qed.
Lemma slashed_insert s a d x f : (d_slashed d = true → d_amount d = 0) → (d_slashed (deposit_of s a) = true → d_slashed d = true) →
  slashed_stays s f (set_deposits s (<[a := d]> (deposits s)) x).
Proof.
  intros H1 H2. split; intros H b; rewrite lookup_dep; destruct (a =? b)%N eqn:E; auto. by apply N.eqb_eq in E as <-.
Qed.
Lemma slashed_all s l : slashed_stays s (steps s l).2 (steps s l).1.
Proof.
  apply (steps_rel keccak ecrecover addr_bytes batcher_address slasher_address deposit_address any ltac:(done) slashed_stays); [..|apply any_events]; shapes;
    try (apply slashed_same; done).
  - by eapply slashed_trans.
  - eapply slashed_trans; [done|]. by apply slashed_same.
  - eapply slashed_trans; [done|]. by apply slashed_same.
  - match goal with H : slashed_stays ?t f s3 |- _ => apply (slashed_trans s0 [FTokensOut (a_executor (accusation_of s0 h)) (slashing_receiver s1) v] t) end.
    + by apply slashed_insert.
    + eapply slashed_trans; [done|]. by apply slashed_same.
  - by apply slashed_insert.
  - apply slashed_insert; [done|]. by match goal with H : d_slashed _ = false |- _ => rewrite H end.
  - apply slashed_insert; [done|]. by match goal with H : d_slashed _ = false |- _ => rewrite H end.
  - split; intros Hi b; rewrite delete_dep; destruct (a =? b)%N eqn:E; try done; auto. apply N.eqb_eq in E as <-. congruence.
Qed.
Lemma slashed_deployed owner hu ap blk a : d_slashed (deposit_of (deployed owner hu ap blk) a) = true → d_amount (deposit_of (deployed owner hu ap blk) a) = 0.
Proof. unfold deposit_of. cbn. by rewrite lookup_empty. Qed.
(** C51: once slashed, an account has no deposit and stays slashed, whatever happens *)
Theorem C51_slashed_forever owner hu ap blk l1 l2 a :
  let s1 := (steps (deployed owner hu ap blk) l1).1 in let s2 := (steps s1 l2).1 in
  d_slashed (deposit_of s1 a) = true → d_slashed (deposit_of s2 a) = true ∧ d_amount (deposit_of s2 a) = 0.
Proof.
  intros s1 s2 H. pose proof (slashed_all (deployed owner hu ap blk) l1) as [H1 _]. specialize (H1 (slashed_deployed owner hu ap blk)).
  fold s1 in H1. pose proof (slashed_all s1 l2) as [G1 G2]. fold s2 in G1, G2. auto.
Qed.
(** C51: whoever has a deposit, asked for it and waited for the delay gets all of it, wherever he wants it *)
Theorem C51_withdraw owner hu ap blk l a to fuel : let s := (steps (deployed owner hu ap blk) l).1 in let d := deposit_of s a in
  0 < d_amount d → 0 < d_requested d → d_requested d + d_delay d ≤ block s → 0 ≤ d_delay d → d_requested d + d_delay d < 2 ^ 64 →
  to ≠ 0%N → to ≠ deposit_address →
  ∃ s', run (S fuel) s a (Withdraw to []) = Ok (s', [FTokensOut a to (d_amount d)]) ∧ deposit_of s' a = zero_deposit ∧
        (∀ b, b ≠ a → deposit_of s' b = deposit_of s b).
Proof.
  intros s d H1 H2 H3 H4 H5 H6 H7. exists (set_deposits s (delete a (deposits s)) (token_balance s - d_amount d)). split; [|split].
  - pose proof (slashed_all (deployed owner hu ap blk) l) as [Hs _]. specialize (Hs (slashed_deployed owner hu ap blk) a).
    change (steps _ l).1 with s in Hs. change (deposit_of s a) with d in Hs.
    pose proof (C51_ledger owner hu ap blk l) as Hl. unfold s in *. destruct (steps _ l) as [s0 f0]. cbn [fst] in *.
    destruct Hl as [Hl _]. destruct (Hl a) as [_ Hb]. change (deposit_of s0 a) with d in Hb.
    cbn [ContractsModel.run typed negb]. unfold withdraw_start. change (deposit_of s0 a) with d. cbv zeta.
    destruct (Z.ltb_spec 0 (d_amount d)); [|lia]. destruct (d_slashed d) eqn:Ed; [specialize (Hs eq_refl); lia|].
    destruct (Z.ltb_spec 0 (d_requested d)); [|lia]. cbn [negb require assert_ rbind]. rewrite c64_eq by lia. cbn [rbind].
    destruct (Z.leb_spec (d_requested d + d_delay d) (block s0)); [|lia]. cbn [require rbind].
    apply N.eqb_neq in H6 as E6. apply N.eqb_neq in H7 as E7. rewrite E6. cbn [negb require rbind]. unfold pay_out. rewrite E7, E6. cbn [negb orb require rbind].
    unfold token_move. cbn [token_balance set_deposits]. destruct (Z.leb_spec (d_amount d) (token_balance s0)); [|lia]. done.
  - rewrite delete_dep. by rewrite N.eqb_refl.
  - intros b Hb. rewrite delete_dep. by destruct (N.eqb_spec a b).
Qed.

(** ** Delay *)
(** [a]'s deposit is still there, and not claimable before the delay has passed since [s0] *)
Definition bound (s0 : state) (a : N) (s : state) : Prop :=
  let d0 := deposit_of s0 a in let d := deposit_of s a in
  block s0 ≤ block s ∧
  ((2 ^ 64 ≤ block s ∨ block s0 + d_delay d0 ≤ block s) ∨ d_slashed d = true ∨
   d_amount d0 ≤ d_amount d ∧ d_delay d0 ≤ d_delay d ∧ (d_requested d = 0 ∨ block s0 ≤ d_requested d)).
Definition bound_stays (s0 : state) (a : N) (s : state) (f : list effect) (s' : state) : Prop :=
  slashed_stays s f s' ∧
  ((∀ a, d_slashed (deposit_of s a) = true → d_amount (deposit_of s a) = 0) → bound s0 a s → bound s0 a s').
Lemma bound_same s0 a s f s' : deposits s' = deposits s → block s ≤ block s' → bound_stays s0 a s f s'.
Proof. intros E Hb. split; [by apply slashed_same|]. unfold bound, deposit_of. rewrite E. intros _ [??]. split; [lia|]. intuition lia. Qed.
Lemma bound_trans s0 a s f s1 g s2 : bound_stays s0 a s f s1 → bound_stays s0 a s1 g s2 → bound_stays s0 a s (f ++ g) s2.
Proof. intros [H1 H2] [G1 G2]. split; [by eapply slashed_trans|]. intros Hi Hb. apply G2; [by apply H1|auto]. Qed.
Lemma bound_insert s0 a s b d x f : (d_slashed d = true → d_amount d = 0) → (d_slashed (deposit_of s b) = true → d_slashed d = true) →
  (a = b → (∀ a, d_slashed (deposit_of s a) = true → d_amount (deposit_of s a) = 0) → bound s0 a s → bound s0 a (set_deposits s (<[a := d]> (deposits s)) x)) →
  bound_stays s0 a s f (set_deposits s (<[b := d]> (deposits s)) x).
Proof.
  intros H1 H2 H3. split; [by apply slashed_insert|]. intros Hi Hb. destruct (decide (a = b)) as [<-|Hn]; [auto|].
  unfold bound in *. rewrite lookup_dep. by destruct (N.eqb_spec b a).
Qed.
Lemma bound_all s0 a s l : 0 ≤ block s0 → bound_stays s0 a s (steps s l).2 (steps s l).1.
Proof.
  intros Hpos.
  apply (steps_rel keccak ecrecover addr_bytes batcher_address slasher_address deposit_address any ltac:(done) (bound_stays s0 a)); [..|apply any_events]; shapes;
    try (apply bound_same; [done|cbn; lia]).
  - by eapply bound_trans.
  - eapply bound_trans; [done|]. by apply bound_same.
  - eapply bound_trans; [done|]. by apply bound_same.
  - match goal with H : bound_stays _ _ ?t f _ |- _ => apply (bound_trans s0 a s1 [FTokensOut (a_executor (accusation_of s1 h)) (slashing_receiver s2) v] t) end.
    + apply bound_insert; [done..|]. intros -> _ [Hb _]. split; [done|]. rewrite lookup_dep, N.eqb_refl. by right; left.
    + eapply bound_trans; [done|]. by apply bound_same.
  - apply bound_insert; [done..|]. intros -> _ [Hb _]. split; [done|]. rewrite lookup_dep, N.eqb_refl. by right; left.
  - apply bound_insert; [done| |]. { by match goal with H : d_slashed _ = false |- _ => rewrite H end. }
    intros -> _ [Hb Hc]. split; [done|]. rewrite lookup_dep, N.eqb_refl. cbn [block set_deposits d_slashed d_amount d_delay d_requested].
    destruct Hc as [Hc|[Hc|(Hc1 & Hc2 & Hc3)]]; [by left|congruence|]. right; right. lia.
  - apply bound_insert; [done| |]. { by match goal with H : d_slashed _ = false |- _ => rewrite H end. }
    intros -> _ [Hb Hc]. split; [done|]. rewrite lookup_dep, N.eqb_refl. cbn [block set_deposits d_slashed d_amount d_delay d_requested].
    destruct Hc as [Hc|[Hc|(Hc1 & Hc2 & Hc3)]]; [by left|congruence|].
    destruct (Z.lt_ge_cases (block s1) (2 ^ 64)); [|by left; left]. right; right. rewrite u64_small by lia. lia.
  - split.
    { split; intros Hi b; rewrite delete_dep; destruct (a0 =? b)%N eqn:E; try done; auto. apply N.eqb_eq in E as <-. congruence. }
    intros Hi [Hb Hc]. split; [done|]. rewrite delete_dep. destruct (a0 =? a)%N eqn:E; [|done]. apply N.eqb_eq in E as ->.
    left. cbn [block set_deposits]. destruct Hc as [Hc|[Hc|(Hc1 & Hc2 & Hc3)]]; [done|congruence|]. right. lia.
Qed.
(** C51: a deposit whose withdrawal has not been requested at some block cannot be gone before the withdrawal delay has
    passed since that block, unless it was slashed *)
Theorem C51_delay owner hu ap blk l1 l2 a :
  let s1 := (steps (deployed owner hu ap blk) l1).1 in let s2 := (steps s1 l2).1 in
  0 ≤ block s1 → block s2 < 2 ^ 64 →
  d_requested (deposit_of s1 a) = 0 → block s2 < block s1 + d_delay (deposit_of s1 a) →
  d_slashed (deposit_of s2 a) = true ∨ d_amount (deposit_of s1 a) ≤ d_amount (deposit_of s2 a).
Proof.
  intros s1 s2 Hpos H64 Hr Hlt. pose proof (slashed_all (deployed owner hu ap blk) l1) as [H1 _]. specialize (H1 (slashed_deployed owner hu ap blk)).
  fold s1 in H1. destruct (bound_all s1 a s1 l2 Hpos) as [_ Hb]. fold s2 in Hb. destruct (Hb H1) as [_ Hc].
  - split; [lia|]. destruct (d_slashed (deposit_of s1 a)); auto. right; right. split_and!; [lia|lia|by left].
  - destruct Hc as [[Hc|Hc]|[Hc|(Hc & _)]]; [lia|lia|by left|by right].
Qed.

(** C51, finding: a delay so large that request block + delay does not fit 64 bits locks the deposit for ever: it can only be
    slashed *)
Definition locked (a : N) (d : deposit) (s : state) : Prop := deposit_of s a = d ∨ d_slashed (deposit_of s a) = true.
Definition locked_stays (a : N) (d : deposit) (s : state) (f : list effect) (s' : state) : Prop :=
  slashed_stays s f s' ∧ ((∀ a, d_slashed (deposit_of s a) = true → d_amount (deposit_of s a) = 0) → locked a d s → locked a d s').
Lemma locked_same a d s f s' : deposits s' = deposits s → locked_stays a d s f s'.
Proof. intros E. split; [by apply slashed_same|]. unfold locked, deposit_of. by rewrite E. Qed.
Lemma locked_trans a d s f s1 g s2 : locked_stays a d s f s1 → locked_stays a d s1 g s2 → locked_stays a d s (f ++ g) s2.
Proof. intros [H1 H2] [G1 G2]. split; [by eapply slashed_trans|]. intros Hi Hb. apply G2; [by apply H1|auto]. Qed.
Lemma locked_insert a d s b d' x f : (d_slashed d' = true → d_amount d' = 0) → (d_slashed (deposit_of s b) = true → d_slashed d' = true) →
  (a = b → locked a d s → d_slashed d' = true) → locked_stays a d s f (set_deposits s (<[b := d']> (deposits s)) x).
Proof.
  intros H1 H2 H3. split; [by apply slashed_insert|]. intros Hi Hb. unfold locked. rewrite lookup_dep.
  destruct (N.eqb_spec b a) as [->|]; [right; by apply H3|done].
Qed.
Lemma locked_all a d s l : 0 < d_requested d → 2 ^ 64 ≤ d_requested d + d_delay d → locked_stays a d s (steps s l).2 (steps s l).1.
Proof.
  intros Hr Ho.
  apply (steps_rel keccak ecrecover addr_bytes batcher_address slasher_address deposit_address any ltac:(done) (locked_stays a d)); [..|apply any_events]; shapes;
    try (apply locked_same; done).
  - by eapply locked_trans.
  - eapply locked_trans; [done|]. by apply locked_same.
  - eapply locked_trans; [done|]. by apply locked_same.
  - match goal with H : locked_stays _ _ ?t f _ |- locked_stays _ _ ?s0 (?e :: _) _ => apply (locked_trans a d s0 [e] t) end.
    + by apply locked_insert.
    + eapply locked_trans; [done|]. by apply locked_same.
  - by apply locked_insert.
  - match goal with H : d_slashed _ = false |- _ => apply locked_insert; [done|by rewrite H|]; intros -> [E|E]; [|congruence] end.
    rewrite E in *. lia.
  - match goal with H : d_slashed _ = false |- _ => apply locked_insert; [done|by rewrite H|]; intros -> [E|E]; [|congruence] end.
    rewrite E in *. lia.
  - split.
    { split; intros Hi b; rewrite delete_dep; destruct (_ =? b)%N eqn:E; try done; auto. apply N.eqb_eq in E as <-. congruence. }
    intros Hi Hl. unfold locked. rewrite delete_dep. destruct (N.eqb_spec a0 a) as [->|]; [|done].
    exfalso. destruct Hl as [E|E]; [|congruence]. rewrite E in *. lia.
Qed.
Theorem C51_delay_overflow_locks owner hu ap blk l1 l2 a :
  let s1 := (steps (deployed owner hu ap blk) l1).1 in let s2 := (steps s1 l2).1 in let d := deposit_of s1 a in
  0 < d_requested d → 2 ^ 64 ≤ d_requested d + d_delay d → deposit_of s2 a = d ∨ d_slashed (deposit_of s2 a) = true.
Proof.
  intros s1 s2 d Hr Ho. pose proof (slashed_all (deployed owner hu ap blk) l1) as [H1 _]. specialize (H1 (slashed_deployed owner hu ap blk)).
  destruct (locked_all a d s1 l2 Hr Ho) as [_ Hl]. apply Hl; [done|by left].
Qed.
(** C51, finding: as long as the slasher is not set, anyone can make himself the slasher *)
Theorem C51_anyone_sets_slasher s sender fuel : slasher s = 0%N → run (S fuel) s sender (SetSlasher sender) = Ok (set_slasher s sender, []).
Proof. intros E. cbn. unfold set_slasher_call. by rewrite E. Qed.
(** ... and once it is set, nobody changes it *)
Theorem C51_slasher_fixed s l : slasher s ≠ 0%N → slasher (steps s l).1 = slasher s.
Proof.
  intros Hs. enough (slasher s ≠ 0%N → slasher (steps s l).1 = slasher s) by auto. clear Hs.
  apply (steps_rel keccak ecrecover addr_bytes batcher_address slasher_address deposit_address any ltac:(done)
    (λ s _ s', slasher s ≠ 0%N → slasher s' = slasher s)); [..|apply any_events]; shapes; try done; cbn in *;
    repeat match goal with H : slasher _ ≠ 0%N → _, G : slasher _ ≠ 0%N |- _ => specialize (H G) end; try congruence.
  rewrite H0 by congruence. done.
Qed.

(** ** C52 *)
Lemma fee_of_insert s a b x y : fee_of (set_fees s (<[a := x]> (fees s)) y) b = if (a =? b)%N then x else fee_of s b.
Proof. unfold fee_of. cbn. destruct (N.eqb_spec a b) as [->|Hn]; [by rewrite lookup_insert|by rewrite lookup_insert_ne]. Qed.
Definition books (s : state) (f : list effect) (s' : state) : Prop :=
  (∀ a, fee_of s' a = fee_of s a + fees_in a f - fees_out a f) ∧
  fee_balance s - sum_of id (fees s) ≤ fee_balance s' - sum_of id (fees s') ∧
  ((∀ a, 0 ≤ fee_of s a < 2 ^ 64) → ∀ a, 0 ≤ fee_of s' a < 2 ^ 64).
Lemma books_same s f s' : fees s' = fees s → fee_balance s ≤ fee_balance s' → (∀ a, fees_in a f = 0 ∧ fees_out a f = 0) → books s f s'.
Proof.
  intros E1 E2 E3. unfold books, fee_of. rewrite E1. split_and!; [|lia|done]. intros a. destruct (E3 a) as [-> ->]. lia.
Qed.
Lemma books_trans s f s1 g s2 : books s f s1 → books s1 g s2 → books s (f ++ g) s2.
Proof.
  intros (H1 & H2 & H3) (G1 & G2 & G3). split_and!; [|lia|auto]. intros a. rewrite G1, H1, fees_in_app, fees_out_app. lia.
Qed.
Lemma books_insert s s' a x v f : x = fee_of s a + v → fees s' = <[a := x]> (fees s) → fee_balance s' = fee_balance s + v →
  (∀ b, fees_in b f - fees_out b f = if (b =? a)%N then v else 0) → ((∀ a, 0 ≤ fee_of s a < 2 ^ 64) → 0 ≤ x < 2 ^ 64) → books s f s'.
Proof.
  intros Hx E1 E2 Hf Hp.
  assert (∀ b, fee_of s' b = if (a =? b)%N then x else fee_of s b) as Hl.
  { intros b. unfold fee_of. rewrite E1. destruct (N.eqb_spec a b) as [->|Hn]; [by rewrite lookup_insert|by rewrite lookup_insert_ne]. }
  split_and!.
  - intros b. rewrite Hl. specialize (Hf b). rewrite N.eqb_sym in Hf. destruct (a =? b)%N eqn:E; [apply N.eqb_eq in E as ->|]; lia.
  - rewrite E1, E2, (sum_insert id _ a x 0) by done. change (id (default 0 (fees s !! a))) with (fee_of s a). unfold id. lia.
  - intros H b. rewrite Hl. destruct (a =? b)%N; auto.
Qed.
Lemma books_all s l : books s (steps s l).2 (steps s l).1.
Proof.
  apply (steps_rel keccak ecrecover addr_bytes batcher_address slasher_address deposit_address any ltac:(done) books); [..|apply any_events]; shapes;
    try (apply books_same; [done|cbn; lia|done]).
  - by eapply books_trans.
  - eapply (books_insert _ _ _ _ v); [reflexivity|done|done| |done]. intros c. cbn. rewrite N.eqb_sym. destruct (_ =? _)%N; lia.
  - eapply (books_insert _ _ _ _ v); [reflexivity|done|done| |done]. intros c. cbn. rewrite N.eqb_sym. destruct (_ =? _)%N; lia.
  - match goal with |- books _ [FFeeOut _ _ ?v] _ => eapply (books_insert _ _ _ _ (- v)); [|done|cbn; lia| |] end; [cbn; lia| |].
    + intros c. cbn. rewrite N.eqb_sym. destruct (_ =? _)%N; lia.
    + intros Hp. specialize (Hp a). match goal with H : _ ∨ _ |- _ => destruct H as [H%is64_ok| ->] end; lia.
  - eapply books_trans; [done|]. by apply books_same.
  - eapply books_trans; [done|]. by apply books_same.
  - match goal with H : Forall skips _ |- _ => apply skips_other in H; apply books_same; [done|cbn; lia|]; intros b; by destruct (others _ H b) as (? & ? & ? & ?) end.
  - match goal with H : books ?t f _ |- books ?s0 (?e :: _) _ => apply (books_trans s0 [e] t) end; [by apply books_same|].
    eapply books_trans; [done|]. by apply books_same.
Qed.
(** C52: in every history: an account's fees are what was paid in for it minus what it took out, and the contract holds at
    least the sum of all fees *)
Theorem C52_books owner hu ap blk l : let '(s, f) := steps (deployed owner hu ap blk) l in
  (∀ a, fee_of s a = fees_in a f - fees_out a f ∧ 0 ≤ fee_of s a < 2 ^ 64 ∧ fee_of s a ≤ fee_balance s) ∧
  sum_of id (fees s) ≤ fee_balance s.
Proof.
  pose proof (books_all (deployed owner hu ap blk) l) as (H1 & H2 & H3). destruct (steps _ l) as [s f]. cbn [fst snd] in *.
  assert (sum_of id (fees (deployed owner hu ap blk)) = 0) as E0 by (unfold sum_of; cbn; by rewrite map_to_list_empty).
  assert (∀ a, fee_of (deployed owner hu ap blk) a = 0) as E1 by (intros a; unfold fee_of; cbn; by rewrite lookup_empty).
  rewrite E0 in H2. cbn [fee_balance ContractsModel.deployed] in H2. assert (sum_of id (fees s) ≤ fee_balance s) as Hs by lia.
  assert (∀ a, 0 ≤ fee_of s a < 2 ^ 64) as Hp by (apply H3; intros a; rewrite E1; lia).
  split; [|done]. intros a. split; [rewrite H1, E1; lia|]. split; [done|]. etrans; [|exact Hs].
  apply (sum_bound id (fees s) a 0); [done|]. intros b. apply Hp.
Qed.
(** C52: everyone can take out any part of his fees at any time *)
Theorem C52_withdraw owner hu ap blk l a to v fuel : let s := (steps (deployed owner hu ap blk) l).1 in
  0 < fee_of s a → 0 ≤ v ≤ fee_of s a → to ≠ 0%N →
  ∃ s', run (S fuel) s a (FeeWithdraw to v []) = Ok (s', [FFeeOut a to v]) ∧ fee_of s' a = fee_of s a - v ∧
        (∀ b, b ≠ a → fee_of s' b = fee_of s b).
Proof.
  intros s H1 H2 H3. exists (set_fees s (<[a := fee_of s a - v]> (fees s)) (fee_balance s - v)). split; [|split].
  - pose proof (C52_books owner hu ap blk l) as Hl. unfold s in *. destruct (steps _ l) as [s0 f0]. cbn [fst] in *.
    destruct Hl as [Hl _]. destruct (Hl a) as (_ & Hb & Hc). cbn [ContractsModel.run typed negb].
    assert (is64 v = true) as -> by (unfold is64; apply andb_true_intro; split; [apply Z.leb_le|apply Z.ltb_lt]; lia). cbn [negb].
    unfold fee_withdraw_start. apply N.eqb_neq in H3 as E3. rewrite E3. cbn [negb require rbind].
    destruct (Z.ltb_spec 0 (fee_of s0 a)); [|lia]. destruct (Z.leb_spec v (fee_of s0 a)); [|lia]. cbn [require rbind]. rewrite c64_eq by lia. cbn [rbind].
    destruct (Z.leb_spec v (fee_balance s0)); [|lia]. done.
  - rewrite fee_of_insert. by rewrite N.eqb_refl.
  - intros b Hb. rewrite fee_of_insert. by destruct (N.eqb_spec a b).
Qed.
End Bank.

(** a history with reentrant calls: account 7 deposits, withdraws, and while receiving the tokens deposits again and tries to
    withdraw twice; account 6 pays fees for 5, who takes them out and tries to do so twice *)
Definition bank_history : list event :=
  [Tx 3 7 (TokenSend 50 4); Tx 3 7 RequestWithdrawal; Mine 3; Tx 3 7 (Withdraw 8 []); Mine 1;
   Tx 3 7 (Withdraw 8 [(7%N, Withdraw 8 []); (7%N, TokenSend 20 4)]);
   Tx 3 6 (FeeDeposit 5 10); Tx 3 5 (FeeWithdraw 4 6 [(5%N, FeeWithdraw 4 6 []); (5%N, FeeWithdraw 4 4 [])])].
Example C51_witness :
  let '(s, f) := steps (λ x, x) (λ _ _ _ _, None) (λ _, []) 1 2 3 (deployed 2 9 5 10 100) bank_history in
  f = [FDeposited 7 50; FTokensOut 7 8 50; FDeposited 7 20; FFeeIn 5 10; FFeeOut 5 4 6; FFeeOut 5 4 4] ∧
  deposit_of s 7 = mkDeposit 20 4 0 false ∧ token_balance s = 20 ∧ fee_of s 5 = 0 ∧ fee_balance s = 0.
Proof. vm_compute. done. Qed.
Example C51_delay_witness :
  let s1 := (steps (λ x, x) (λ _ _ _ _, None) (λ _, []) 1 2 3 (deployed 2 9 5 10 100) [Tx 3 7 (TokenSend 50 4)]).1 in
  let s2 := (steps (λ x, x) (λ _ _ _ _, None) (λ _, []) 1 2 3 s1 [Tx 3 7 RequestWithdrawal; Mine 3; Tx 3 7 (Withdraw 8 [])]).1 in
  let s3 := (steps (λ x, x) (λ _ _ _ _, None) (λ _, []) 1 2 3 s1 [Tx 3 7 RequestWithdrawal; Mine 4; Tx 3 7 (Withdraw 8 [])]).1 in
  let s4 := (steps (λ x, x) (λ _ _ _ _, None) (λ _, []) 1 2 3 s1 [Tx 3 2 (DepositSlash 7 [])]).1 in
  d_requested (deposit_of s1 7) = 0 ∧ block s2 < block s1 + d_delay (deposit_of s1 7) ∧ d_amount (deposit_of s2 7) = 50 ∧
  deposit_of s3 7 = zero_deposit ∧ deposit_of s4 7 = mkDeposit 0 0 0 true.
Proof. vm_compute. done. Qed.
Example C51_lock_witness :
  let s := (steps (λ x, x) (λ _ _ _ _, None) (λ _, []) 1 2 3 (deployed 2 9 5 10 100) [Tx 3 7 (TokenSend 50 (2 ^ 64 - 1)); Tx 3 7 RequestWithdrawal]).1 in
  deposit_of s 7 = mkDeposit 50 (2 ^ 64 - 1) 100 false ∧ 0 < d_requested (deposit_of s 7) ∧ 2 ^ 64 ≤ d_requested (deposit_of s 7) + d_delay (deposit_of s 7).
Proof. vm_compute. done. Qed.

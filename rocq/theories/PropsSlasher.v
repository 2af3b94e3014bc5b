(** C50: accusations, appeals and slashing. *)
From stdpp Require Import list gmap.
From Coq Require Import ZArith NArith Lia.
From Verif Require Import ArithModel ContractsModel ContractsProofs.
Local Open Scope Z_scope.

Section Slasher.
Context (keccak : list N → list N) (ecrecover : list N → Z → Z → Z → option N) (addr_bytes : N → list N).
Context (batcher_address slasher_address deposit_address : N).
Notation run := (run keccak ecrecover addr_bytes batcher_address slasher_address deposit_address).
Notation steps := (steps keccak ecrecover addr_bytes batcher_address slasher_address deposit_address).
Notation deployed := (deployed slasher_address).
Notation sol_recover := (sol_recover ecrecover).

(** ** Specification *)
(** the calls of a history are made by others than the slasher contract, at every nesting depth *)
Inductive outside : N → call → Prop :=
| outside_intro a c : a ≠ slasher_address → (∀ x, x ∈ inner_calls c → outside x.1 x.2) → outside a c.
Definition outside_events (l : list event) : Prop := ∀ fuel a c, Tx fuel a c ∈ l → outside a c.
(** what keypers sign for a batch: the tag 0x19 "dectx", the batcher's address, the batch index in eight bytes, the hash of the batch's encrypted transactions and the hash of the decrypted ones *)
Definition eight_bytes (x : Z) : list N := (λ k, Z.to_N (x / 2 ^ (8 * k) mod 2 ^ 8)) <$> [7; 6; 5; 4; 3; 2; 1; 0].
Definition signed_bytes (batch : Z) (cipher_hash batch_hash : list N) : list N :=
  [25; 100; 101; 99; 116; 120]%N ++ addr_bytes batcher_address ++ eight_bytes batch ++ cipher_hash ++ batch_hash.
(** an authorization holds signatures by enough keypers of config [c] over the receipt *)
Definition authorizes (c : config) (u : authorization) (r : receipt) : Prop :=
  threshold c ≤ Z.of_nat (length (u_signatures u)) ∧ length (u_signatures u) = length (u_indices u) ∧
  (∀ i j x y, (i < j)%nat → u_indices u !! i = Some x → u_indices u !! j = Some y → x < y) ∧
  (∀ i x sig, u_indices u !! i = Some x → u_signatures u !! i = Some sig →
     ∃ k, keypers c !! Z.to_nat x = Some k ∧ sol_recover (keccak (signed_bytes (r_half_step r / 2) (r_cipher_hash r) (r_batch_hash r))) sig = Some k).

Lemma preimage_signed r : preimage addr_bytes batcher_address r = signed_bytes (r_half_step r / 2) (r_cipher_hash r) (r_batch_hash r).
Proof. reflexivity. Qed.
Definition any (a : N) (c : call) : Prop := True.
Lemma any_events l : Forall (ok_event any) l.
Proof. apply Forall_forall. by intros []. Qed.
Lemma outside_inner a c x : outside a c → x ∈ inner_calls c → outside x.1 x.2.
Proof. intros [] Hx. auto. Qed.
Lemma outside_ok l : outside_events l → Forall (ok_event outside) l.
Proof. intros H. apply Forall_forall. intros [fuel a c|n] Hin; [by eapply H|done]. Qed.

(** ** Receipts *)
Definition receipts_stay (s : state) (f : list effect) (s' : state) : Prop :=
  half_steps s ≤ half_steps s' ∧
  ((∀ h, half_steps s ≤ h → receipts s !! h = None) →
   (∀ h, half_steps s' ≤ h → receipts s' !! h = None) ∧ ∀ h r, receipts s !! h = Some r → receipts s' !! h = Some r).
Lemma receipts_same s f s' : half_steps s ≤ half_steps s' → receipts s' = receipts s → receipts_stay s f s'.
Proof. intros E1 E2. split; [done|]. rewrite E2. intros H. split; [|done]. intros h Hh. apply H. lia. Qed.
Lemma receipts_trans s f s1 g s2 : receipts_stay s f s1 → receipts_stay s1 g s2 → receipts_stay s (f ++ g) s2.
Proof. intros [H1 H2] [G1 G2]. split; [lia|]. intros Hi. destruct (H2 Hi) as [H3 H4]. destruct (G2 H3) as [G3 G4]. auto. Qed.
Lemma receipts_all s l : receipts_stay s (steps s l).2 (steps s l).1.
Proof.
  apply (steps_rel keccak ecrecover addr_bytes batcher_address slasher_address deposit_address any ltac:(done) receipts_stay); [..|apply any_events]; shapes;
    try (apply receipts_same; [cbn; lia|done]).
  - by eapply receipts_trans.
  - eapply receipts_trans; [done|]. split; [cbn; lia|]. intros Hi. cbn. split.
    + intros x Hx. rewrite lookup_insert_ne by lia. apply Hi. lia.
    + intros x r Hx. rewrite lookup_insert_ne; [done|]. intros <-. rewrite Hi in Hx; [done|lia].
  - eapply receipts_trans; [done|]. apply receipts_same; [cbn; lia|done].
  - match goal with H : receipts_stay ?t f _ |- receipts_stay ?s0 (?e :: _) _ => apply (receipts_trans s0 [e] t) end;
      [apply receipts_same; [cbn; lia|done]|]. eapply receipts_trans; [done|]. apply receipts_same; [cbn; lia|done].
Qed.
(** C50, C49: receipts are final, and half steps never go back *)
Theorem C50_receipts_final owner hu ap blk l1 l2 h r :
  let s1 := (steps (deployed owner hu ap blk) l1).1 in let s2 := (steps s1 l2).1 in
  half_steps s1 ≤ half_steps s2 ∧ (receipts s1 !! h = Some r → h < half_steps s1 ∧ receipts s2 !! h = Some r).
Proof.
  intros s1 s2. destruct (receipts_all (deployed owner hu ap blk) l1) as [_ H1]. destruct (receipts_all s1 l2) as [H2 H3]. fold s1 in H1. fold s2 in H2, H3.
  destruct H1 as [H1 _]; [done|]. split; [done|]. intros Hr. split.
  - destruct (Z.lt_ge_cases h (half_steps s1)) as [|Hge]; [done|]. rewrite H1 in Hr; [done|lia].
  - by apply H3.
Qed.

(** ** Accusations *)
Lemma accusation_insert s h x h' : accusation_of (set_accusations s (<[h := x]> (accusations s))) h' = if h =? h' then x else accusation_of s h'.
Proof. unfold accusation_of. cbn. destruct (Z.eqb_spec h h') as [->|Hn]; [by rewrite lookup_insert|by rewrite lookup_insert_ne]. Qed.
Definition acc_inv (s : state) : Prop := ∀ h, a_appealed (accusation_of s h) = true ∨ a_slashed (accusation_of s h) = true → a_accused (accusation_of s h) = true.
(** what can happen to the accusation of a half step *)
Definition acc_of (h : Z) (s : state) (f : list effect) (s' : state) : Prop :=
  let a := accusation_of s h in let a' := accusation_of s' h in
  (a_accused a = true → a_accused a' = true ∧ a_executor a' = a_executor a ∧ a_block a' = a_block a) ∧
  (a_appealed a = true → a_appealed a' = true ∧ a_slashed a' = a_slashed a ∧ ∀ e, FSlashed h e ∉ f) ∧
  (a_slashed a = true → a_slashed a' = true) ∧
  (a_accused a = true → block s' < a_block a + appeal_blocks s → a_slashed a' = a_slashed a ∧ ∀ e, FSlashed h e ∉ f).
Definition acc_stays (s : state) (f : list effect) (s' : state) : Prop :=
  block s ≤ block s' ∧ appeal_blocks s' = appeal_blocks s ∧ (acc_inv s → acc_inv s' ∧ ∀ h, acc_of h s f s').
Lemma acc_same s f s' : block s ≤ block s' → appeal_blocks s' = appeal_blocks s → accusations s' = accusations s → (∀ h e, FSlashed h e ∉ f) → acc_stays s f s'.
Proof.
  intros Hb Ha E Hf. split; [done|]. split; [done|]. unfold acc_inv, acc_of, accusation_of. rewrite E. intros Hi. split; [done|]. intros h. split_and!; auto.
Qed.
Lemma acc_trans s f s1 g s2 : acc_stays s f s1 → acc_stays s1 g s2 → acc_stays s (f ++ g) s2.
Proof.
  intros (H1 & H2 & H3) (G1 & G2 & G3). split; [lia|]. split; [congruence|]. intros Hi. destruct (H3 Hi) as [Hi1 H4]. destruct (G3 Hi1) as [Hi2 G4].
  split; [done|]. intros h. destruct (H4 h) as (A1 & A2 & A3 & A4). destruct (G4 h) as (B1 & B2 & B3 & B4). split_and!.
  - intros Ha. destruct (A1 Ha) as (E1 & E2 & E3). destruct (B1 E1) as (F1 & F2 & F3). split_and!; congruence.
  - intros Ha. destruct (A2 Ha) as (E1 & E2 & E3). destruct (B2 E1) as (F1 & F2 & F3). split_and!; [done|congruence|].
    intros e. rewrite elem_of_app. intros [Hx|Hx]; [by eapply E3|by eapply F3].
  - auto.
  - intros Ha Hb. destruct (A1 Ha) as (E1 & E2 & E3). destruct (A4 Ha) as [E4 E5]; [lia|]. destruct (B4 E1) as [F4 F5]; [rewrite E3, H2; lia|].
    split; [congruence|]. intros e. rewrite elem_of_app. intros [Hx|Hx]; [by eapply E5|by eapply F5].
Qed.
Ltac no_slash := intros ?? Hx; repeat (apply elem_of_cons in Hx as [Hx|Hx]; [done|]); by apply elem_of_nil in Hx.
Lemma acc_all s l : acc_stays s (steps s l).2 (steps s l).1.
Proof.
  apply (steps_rel keccak ecrecover addr_bytes batcher_address slasher_address deposit_address any ltac:(done) acc_stays); [..|apply any_events]; shapes;
    try (apply acc_same; [cbn; lia|done|done|no_slash]).
  - by eapply acc_trans.
  - eapply acc_trans; [done|]. apply acc_same; [done..|no_slash].
  - eapply acc_trans; [done|]. apply acc_same; [done..|no_slash].
  - apply acc_same; [done..|]. intros h e Hin. match goal with H : Forall skips _ |- _ => rewrite Forall_forall in H; by specialize (H _ Hin) end.
  - split; [done|]. split; [done|]. intros Hi.
    assert (a_appealed (accusation_of s0 h) = false ∧ a_slashed (accusation_of s0 h) = false) as [N1 N2].
    { specialize (Hi h). destruct (a_appealed _), (a_slashed _); intuition congruence. }
    split.
    + intros h'. rewrite accusation_insert. destruct (h =? h'); [done|apply Hi].
    + intros h'. unfold acc_of. rewrite accusation_insert. destruct (Z.eqb_spec h h') as [<-|].
      * split_and!; intros; congruence.
      * split_and!; try done; intros; (split_and!; try done; intros e Hx; by apply elem_of_list_singleton in Hx).
  - split; [done|]. split; [done|]. intros Hi. split.
    + intros h'. rewrite accusation_insert. destruct (u_half_step u =? h'); [done|apply Hi].
    + intros h'. unfold acc_of. rewrite accusation_insert. cbv zeta in *. destruct (Z.eqb_spec (u_half_step u) h') as [<-|].
      * cbn. split_and!; try done; intros; split_and!; try done; try congruence; intros e Hx; by apply elem_of_list_singleton in Hx.
      * split_and!; try done; intros; (split_and!; try done; intros e Hx; by apply elem_of_list_singleton in Hx).
  - match goal with H : acc_stays _ f _ |- _ => destruct H as (B1 & B2 & B3) end. split; [done|]. split; [done|]. intros Hi. destruct B3 as [Hi3 B3]; [done|].
    assert (a_accused (accusation_of s3 h) = true) as Hacc by (by apply (B3 h)).
    assert (a_executor (accusation_of s3 h) = a_executor (accusation_of s0 h) ∧ a_block (accusation_of s3 h) = a_block (accusation_of s0 h)) as [He Hb] by (by apply (B3 h)).
    split.
    + intros h'. rewrite accusation_insert. destruct (Z.eqb_spec h h') as [<-|]; [done|apply Hi3].
    + intros h'. unfold acc_of. rewrite accusation_insert. destruct (Z.eqb_spec h h') as [<-|Hne].
      * cbn. split_and!; try done; intros; try congruence. cbn in *. lia.
      * destruct (B3 h') as (A1 & A2 & A3 & A4). cbn in A1, A2, A3, A4. cbn [block appeal_blocks set_accusations set_deposits] in *.
        assert (∀ e, FSlashed h' e ∉ f → FSlashed h' e ∉ FTokensOut (a_executor (accusation_of s0 h)) (slashing_receiver s1) v :: f ++ [FSlashed h (a_executor (accusation_of s0 h))]) as Hf.
        { intros e Hf Hx. apply elem_of_cons in Hx as [Hx|Hx]; [done|]. apply elem_of_app in Hx as [Hx|Hx]; [done|]. apply elem_of_list_singleton in Hx. congruence. }
        split_and!; [done| |done|].
        -- intros Ha. destruct (A2 Ha) as (E1 & E2 & E3). split_and!; [done..|]. intros e. apply Hf, E3.
        -- intros Ha Hlt. destruct (A4 Ha Hlt) as (E1 & E2). split_and!; [done..|]. intros e. apply Hf, E2.
Qed.

(** ** Accusations and the log *)
Record logged (s : state) (f : list effect) : Prop := {
  g_fresh : ∀ h, half_steps s ≤ h → receipts s !! h = None;
  g_receipt : ∀ h r, receipts s !! h = Some r → r_executed r = true ∧ r_half_step r = h ∧
    ∃ txs, FCipher h (r_executor r) (r_cipher_hash r) txs ∈ f ∧ r_batch_hash r = chain_hash keccak txs;
  g_accused : ∀ h, a_accused (accusation_of s h) = true → h mod 2 = 0 ∧ ∃ r x, receipts s !! h = Some r ∧
    r_executor r = a_executor (accusation_of s h) ∧ r_cipher_hash r ≠ zero32 ∧ FAccused h (a_executor (accusation_of s h)) x ∈ f;
  g_slashed : ∀ h e, FSlashed h e ∈ f → a_accused (accusation_of s h) = true ∧ a_executor (accusation_of s h) = e ∧
    a_slashed (accusation_of s h) = true ∧ a_block (accusation_of s h) + appeal_blocks s ≤ block s
}.
Definition logs (s : state) (f : list effect) (s' : state) : Prop :=
  acc_stays s f s' ∧ (acc_inv s → ∀ f0, logged s f0 → logged s' (f0 ++ f)).
Lemma logs_trans s f s1 g s2 : logs s f s1 → logs s1 g s2 → logs s (f ++ g) s2.
Proof.
  intros [H1 H2] [G1 G2]. split; [by eapply acc_trans|]. intros Hi f0 Hl. rewrite app_assoc. apply G2; [by apply H1|auto].
Qed.
Lemma logs_same s f s' : block s ≤ block s' → appeal_blocks s' = appeal_blocks s → accusations s' = accusations s → (∀ h e, FSlashed h e ∉ f) →
  half_steps s ≤ half_steps s' → receipts s' = receipts s → logs s f s'.
Proof.
  intros Hb Ha E Hf Hh Er. split; [by apply acc_same|]. intros _ f0 [H1 H2 H3 H4]. split.
  - intros h Hx. rewrite Er. apply H1. lia.
  - intros h r. rewrite Er. intros Hr. destruct (H2 h r Hr) as (? & ? & txs & ? & ?). split_and!; [done..|]. exists txs. split; [|done]. apply elem_of_app. by left.
  - intros h. unfold accusation_of. rewrite E, Er. fold (accusation_of s h). intros Hx. destruct (H3 h Hx) as (? & r & x & ? & ? & ? & ?). split; [done|]. exists r, x.
    split_and!; [done..|]. apply elem_of_app. by left.
  - intros h e Hx. unfold accusation_of. rewrite E, Ha. fold (accusation_of s h). apply elem_of_app in Hx as [Hx|Hx]; [|by apply Hf in Hx].
    destruct (H4 h e Hx) as (? & ? & ? & ?). split_and!; [done..|lia].
Qed.
Lemma acc_accuse s a h k s' f : accuse s a h k = Ok (s', f) → acc_stays s f s'.
Proof.
  shapes. split; [done|]. split; [done|]. intros Hi.
  assert (a_appealed (accusation_of s h) = false ∧ a_slashed (accusation_of s h) = false) as [N1 N2].
  { specialize (Hi h). destruct (a_appealed _), (a_slashed _); intuition congruence. }
  split.
  - intros h'. rewrite accusation_insert. destruct (h =? h'); [done|apply Hi].
  - intros h'. unfold acc_of. rewrite accusation_insert. destruct (Z.eqb_spec h h') as [<-|].
    + split_and!; intros; congruence.
    + split_and!; try done; intros; (split_and!; try done; intros e Hx; by apply elem_of_list_singleton in Hx).
Qed.
Lemma acc_appeal s u s' f : appeal keccak ecrecover addr_bytes batcher_address s u = Ok (s', f) → acc_stays s f s'.
Proof.
  shapes. split; [done|]. split; [done|]. intros Hi. split.
  - intros h'. rewrite accusation_insert. destruct (u_half_step u =? h'); [done|apply Hi].
  - intros h'. unfold acc_of. rewrite accusation_insert. cbv zeta in *. destruct (Z.eqb_spec (u_half_step u) h') as [<-|].
    + cbn. split_and!; try done; intros; split_and!; try done; try congruence; intros e Hx; by apply elem_of_list_singleton in Hx.
    + split_and!; try done; intros; (split_and!; try done; intros e Hx; by apply elem_of_list_singleton in Hx).
Qed.
Lemma acc_slash s h s2 f s3 s4 g t : slash_checks s h = Ok (a_executor (accusation_of s h)) →
  block s2 = block s → appeal_blocks s2 = appeal_blocks s → accusations s2 = accusations s →
  acc_stays s2 f s3 → slash_finish s3 h (a_executor (accusation_of s h)) = (s4, g) → (∀ h e, t ≠ FSlashed h e) → acc_stays s (t :: f ++ g) s4.
Proof.
  intros Hc Eb Ea Ec (B1 & B2 & B3) Hf Ht. apply slash_checks_shape in Hc as (? & ? & ? & ? & _). shapes. assert (∀ x, accusation_of s2 x = accusation_of s x) as Es by (intros x; unfold accusation_of; by rewrite Ec).
  split; [cbn; lia|]. split; [cbn; congruence|]. intros Hi. destruct B3 as [Hi3 B3]. { intros x. rewrite Es. apply Hi. }
  destruct (B3 h) as (A1 & _). rewrite Es in A1. destruct A1 as (Hacc & He & Hb); [done|].
  split.
  - intros h'. rewrite accusation_insert. destruct (Z.eqb_spec h h') as [<-|]; [done|apply Hi3].
  - intros h'. unfold acc_of. rewrite accusation_insert. destruct (Z.eqb_spec h h') as [<-|Hne].
    + cbn. split_and!; try done; intros; try congruence. cbn in *. lia.
    + destruct (B3 h') as (A1 & A2 & A3 & A4). rewrite Es in *. rewrite Eb, Ea in *. cbn [block appeal_blocks set_accusations].
      assert (∀ e, FSlashed h' e ∉ f → FSlashed h' e ∉ t :: f ++ [FSlashed h (a_executor (accusation_of s h))]) as Hf.
      { intros e Hf Hx. apply elem_of_cons in Hx as [Hx|Hx]; [by apply (Ht h' e)|]. apply elem_of_app in Hx as [Hx|Hx]; [done|]. apply elem_of_list_singleton in Hx. congruence. }
      split_and!; [done| |done|].
      * intros Ha. destruct (A2 Ha) as (E1 & E2 & E3). split_and!; [done..|]. intros e. apply Hf, E3.
      * intros Ha Hlt. destruct (A4 Ha Hlt) as (E1 & E2). split_and!; [done..|]. intros e. apply Hf, E2.
Qed.
Lemma logs_accuse s a h k s' f : accuse s a h k = Ok (s', f) → logs s f s'.
Proof.
  intros H. split; [by eapply acc_accuse|]. intros _ f0 [L1 L2 L3 L4]. shapes. split.
  - done.
  - intros h' r Hr. destruct (L2 h' r Hr) as (? & ? & txs & ? & ?). split_and!; [done..|]. exists txs. split; [|done]. apply elem_of_app. by left.
  - intros h'. rewrite accusation_insert. destruct (Z.eqb_spec h h') as [<-|].
    + intros _. split; [done|]. unfold receipt_of in *. destruct (receipts s !! h) as [r|] eqn:Er; [|done]. cbn in *. exists r, a.
      split_and!; [done..|]. apply elem_of_app. right. by apply elem_of_list_singleton.
    + intros Hx. destruct (L3 h' Hx) as (? & r & x & ? & ? & ? & ?). split; [done|]. exists r, x. split_and!; [done..|]. apply elem_of_app. by left.
  - intros h' e Hx. apply elem_of_app in Hx as [Hx|Hx]; [|by apply elem_of_list_singleton in Hx]. destruct (L4 h' e Hx) as (? & ? & ? & ?).
    rewrite accusation_insert. destruct (Z.eqb_spec h h') as [<-|]; [congruence|]. done.
Qed.
Lemma logs_appeal s u s' f : appeal keccak ecrecover addr_bytes batcher_address s u = Ok (s', f) → logs s f s'.
Proof.
  intros H. split; [by eapply acc_appeal|]. intros _ f0 [L1 L2 L3 L4]. apply appeal_shape in H as (H & ? & -> & ->). split.
  - done.
  - intros h' r Hr. destruct (L2 h' r Hr) as (? & ? & txs & ? & ?). split_and!; [done..|]. exists txs. split; [|done]. apply elem_of_app. by left.
  - intros h'. rewrite accusation_insert. destruct (Z.eqb_spec (u_half_step u) h') as [<-|].
    + intros _. cbn. destruct (L3 _ H) as (? & r & x & ? & ? & ? & ?). split; [done|]. exists r, x. split_and!; [done..|]. apply elem_of_app. by left.
    + intros Hx. destruct (L3 h' Hx) as (? & r & x & ? & ? & ? & ?). split; [done|]. exists r, x. split_and!; [done..|]. apply elem_of_app. by left.
  - intros h' e Hx. apply elem_of_app in Hx as [Hx|Hx]; [|by apply elem_of_list_singleton in Hx]. destruct (L4 h' e Hx) as (? & ? & ? & ?).
    rewrite accusation_insert. destruct (Z.eqb_spec (u_half_step u) h') as [<-|]; done.
Qed.
Lemma logs_slash s h s2 f s3 s4 g t : slash_checks s h = Ok (a_executor (accusation_of s h)) →
  block s2 = block s → appeal_blocks s2 = appeal_blocks s → accusations s2 = accusations s → half_steps s2 = half_steps s → receipts s2 = receipts s →
  logs s2 f s3 → slash_finish s3 h (a_executor (accusation_of s h)) = (s4, g) → (∀ h e, t ≠ FSlashed h e) → logs s (t :: f ++ g) s4.
Proof.
  intros Hc Eb Ea Ec Eh Er [H1 H2] Hf Ht. split; [by eapply acc_slash|]. intros Hi f0 Hl.
  assert (logs s [t] s2) as [_ Hl2]. { apply logs_same; [lia|done|done| |lia|done]. intros x e Hx. apply elem_of_list_singleton in Hx. by eapply Ht. }
  specialize (Hl2 Hi f0 Hl). apply H2 in Hl2; [|unfold acc_inv, accusation_of in *; by rewrite Ec]. destruct Hl2 as [L1 L2 L3 L4].
  destruct H1 as (B1 & B2 & B3). destruct B3 as [Hi3 B3]. { unfold acc_inv, accusation_of in *; by rewrite Ec. }
  assert (∀ x, accusation_of s2 x = accusation_of s x) as Es by (intros x; unfold accusation_of; by rewrite Ec).
  apply slash_checks_shape in Hc as (? & ? & ? & ? & _). shapes. destruct (B3 h) as (A1 & _). rewrite Es in A1. destruct A1 as (Hacc & He & Hb); [done|].
  match goal with |- logged _ (f0 ++ t :: f ++ ?g) => replace (f0 ++ t :: f ++ g) with (((f0 ++ [t]) ++ f) ++ g) by (by rewrite <-!app_assoc) end.
  set (F := (f0 ++ [t]) ++ f) in *. split.
  - done.
  - intros h' r Hr. destruct (L2 h' r Hr) as (? & ? & txs & ? & ?). split_and!; [done..|]. exists txs. split; [|done]. apply elem_of_app. by left.
  - intros h'. rewrite accusation_insert. destruct (Z.eqb_spec h h') as [<-|].
    + intros _. cbn. destruct (L3 _ Hacc) as (? & r & x & ? & ? & ? & ?). split; [done|]. exists r, x. split_and!; [done..|]. apply elem_of_app. by left.
    + intros Hx. destruct (L3 h' Hx) as (? & r & x & ? & ? & ? & ?). split; [done|]. exists r, x. split_and!; [done..|]. apply elem_of_app. by left.
  - intros h' e Hx. rewrite accusation_insert. apply elem_of_app in Hx as [Hx|Hx].
    + destruct (L4 h' e Hx) as (? & ? & ? & ?). destruct (Z.eqb_spec h h') as [<-|]; [|done]. cbn. done.
    + apply elem_of_list_singleton in Hx. injection Hx as -> ->. rewrite Z.eqb_refl. cbn. split_and!; [done..|]. cbn in *. lia.
Qed.
Lemma logs_slash' s h e s1 v s2 f s3 s4 g : slash_checks s h = Ok e → deposit_slash_start s slasher_address e = Ok (s1, v) → token_move s1 v = Ok s2 →
  logs s2 f s3 → slash_finish s3 h e = (s4, g) → logs s (FTokensOut e (slashing_receiver s1) v :: f ++ g) s4.
Proof.
  intros Hc H1 H2 Hl Hf. assert (e = a_executor (accusation_of s h)) as -> by (by apply slash_checks_shape in Hc as (_ & _ & _ & _ & ->)).
  pose proof (deposit_slash_shape _ _ _ _ _ _ H1 H2) as (_ & _ & _ & _ & E).
  eapply (logs_slash s h s2 f s3); [done|by rewrite E..|done|done|done].
Qed.
Lemma logs_all s l : logs s (steps s l).2 (steps s l).1.
Proof.
  apply (steps_rel keccak ecrecover addr_bytes batcher_address slasher_address deposit_address any ltac:(done) logs); [..|apply any_events]; intros;
    try (match goal with H : accuse _ _ _ _ = _ |- _ => by eapply logs_accuse end);
    try (match goal with H : appeal _ _ _ _ _ _ = _ |- _ => by eapply logs_appeal end);
    try (match goal with Hc : slash_checks _ _ = Ok ?e |- _ => by eapply logs_slash' end);
    shapes; try (apply logs_same; [cbn; lia|done|done|no_slash|cbn; lia|done]).
  - by eapply logs_trans.
  - eapply logs_trans; [done|]. split; [apply acc_same; [done..|no_slash]|]. intros Hi f0 [L1 L2 L3 L4]. split.
    + intros x Hx. cbn in *. rewrite lookup_insert_ne by lia. apply L1. lia.
    + intros x r. cbn. destruct (decide (half_steps s1 = x)) as [<-|].
      * rewrite lookup_insert. intros [= <-]. cbn. split_and!; [done..|]. exists txs. split; [|done]. apply elem_of_app. right. by apply elem_of_list_singleton.
      * rewrite lookup_insert_ne by done. intros Hr. destruct (L2 x r Hr) as (? & ? & txs' & ? & ?). split_and!; [done..|]. exists txs'. split; [|done]. apply elem_of_app. by left.
    + intros x Hx. destruct (L3 x Hx) as (? & r & y & Hr & ? & ? & ?). split; [done|]. exists r, y. split_and!; [|done..|apply elem_of_app; by left].
      cbn. rewrite lookup_insert_ne; [done|]. intros <-. rewrite L1 in Hr; [done|lia].
    + intros x e Hx. apply elem_of_app in Hx as [Hx|Hx]; [|by apply elem_of_list_singleton in Hx]. by apply L4.
  - eapply logs_trans; [done|]. apply logs_same; [cbn; lia|done|done|no_slash|cbn; lia|done].
  - apply logs_same; [done|done|done| |cbn; lia|done]. intros h e Hin. match goal with H : Forall skips _ |- _ => rewrite Forall_forall in H; by specialize (H _ Hin) end.
Qed.
Lemma logged_deployed owner hu ap blk : logged (deployed owner hu ap blk) [].
Proof.
  split; unfold accusation_of; cbn; intros; rewrite ?lookup_empty in *; try done. by apply elem_of_nil in H.
Qed.
Lemma acc_deployed owner hu ap blk : acc_inv (deployed owner hu ap blk).
Proof. intros h. unfold accusation_of. cbn. rewrite lookup_empty. by intros [?|?]. Qed.

(** ** C50 *)
(** an accusation is final: executor and time of the first accusation stay *)
Theorem C50_accusation_final owner hu ap blk l1 l2 h :
  let s1 := (steps (deployed owner hu ap blk) l1).1 in let s2 := (steps s1 l2).1 in
  a_accused (accusation_of s1 h) = true →
  a_accused (accusation_of s2 h) = true ∧ a_executor (accusation_of s2 h) = a_executor (accusation_of s1 h) ∧ a_block (accusation_of s2 h) = a_block (accusation_of s1 h).
Proof.
  intros s1 s2 H. destruct (acc_all (deployed owner hu ap blk) l1) as (_ & _ & H1). fold s1 in H1. destruct (H1 (acc_deployed _ _ _ _)) as [Hi _].
  destruct (acc_all s1 l2) as (_ & _ & H2). fold s2 in H2. destruct (H2 Hi) as [_ H3]. by apply (H3 h).
Qed.
(** after a successful appeal the half step cannot be slashed any more *)
Theorem C50_appealed_safe owner hu ap blk l1 l2 h e :
  let s1 := (steps (deployed owner hu ap blk) l1).1 in
  a_appealed (accusation_of s1 h) = true → FSlashed h e ∉ (steps s1 l2).2.
Proof.
  intros s1 H. destruct (acc_all (deployed owner hu ap blk) l1) as (_ & _ & H1). fold s1 in H1. destruct (H1 (acc_deployed _ _ _ _)) as [Hi _].
  destruct (acc_all s1 l2) as (_ & _ & H2). destruct (H2 Hi) as [_ H3]. destruct (H3 h) as (_ & H4 & _). by apply H4.
Qed.
(** between an accusation and the end of the appeal period nobody is slashed for that half step *)
Theorem C50_appeal_period owner hu ap blk l1 l2 accuser h k fuel s2 g :
  let s1 := (steps (deployed owner hu ap blk) l1).1 in
  0 ≤ block s1 < 2 ^ 64 → run fuel s1 accuser (Accuse h k) = Ok (s2, g) → block (steps s2 l2).1 < block s1 + ap →
  ∀ e, FSlashed h e ∉ (steps s2 l2).2.
Proof.
  intros s1 Hb Hr Hlt e. destruct (acc_all (deployed owner hu ap blk) l1) as (_ & Ea & H1). fold s1 in H1, Ea. destruct (H1 (acc_deployed _ _ _ _)) as [Hi _].
  destruct fuel as [|fuel]; [done|]. cbn [ContractsModel.run] in Hr. destruct (negb _); [done|].
  destruct (acc_accuse _ _ _ _ _ _ Hr) as (_ & _ & H2). destruct (H2 Hi) as [Hi2 _]. clear H1 H2. shapes.
  match goal with |- context [steps ?x l2] => set (s2 := x) in * end.
  destruct (acc_all s2 l2) as (_ & _ & K3). destruct (K3 Hi2) as [_ K4]. destruct (K4 h) as (_ & _ & _ & H5).
  assert (accusation_of s2 h = mkAccusation true false false (r_executor (receipt_of s1 h)) h (u64 (block s1))) as Es by (unfold s2; by rewrite accusation_insert, Z.eqb_refl).
  rewrite Es in H5. cbn [a_accused a_block] in H5. rewrite u64_small in H5 by done. apply H5; [done|]. change (appeal_blocks s2) with (appeal_blocks s1). rewrite Ea. done.
Qed.
(** slashing for a half step needs: accused, not appealed, the appeal period over; it hits the executor on the receipt *)
Theorem C50_slash_conditions owner hu ap blk l sender h inner fuel r : let s := (steps (deployed owner hu ap blk) l).1 in
  run fuel s sender (Slash h inner) = Ok r →
  ∃ rec, receipts s !! h = Some rec ∧ r_cipher_hash rec ≠ zero32 ∧ a_accused (accusation_of s h) = true ∧ a_appealed (accusation_of s h) = false ∧
    a_slashed (accusation_of s h) = false ∧ a_block (accusation_of s h) + ap ≤ block s ∧ slasher s = slasher_address ∧ FSlashed h (r_executor rec) ∈ r.2.
Proof.
  intros s Hr. destruct (logs_all (deployed owner hu ap blk) l) as [(_ & Ea & _) H1]. specialize (H1 (acc_deployed _ _ _ _) [] (logged_deployed _ _ _ _)).
  fold s in H1, Ea. destruct fuel as [|fuel]; [done|]. cbn [ContractsModel.run] in Hr. destruct (negb _); [done|]. inv_do Hr.
  destruct (slash_finish s1 h a) as [s3 g3] eqn:Es. injection Hr as <-. pose proof E as E'. apply slash_checks_shape in E' as (A1 & A2 & A3 & A4 & ->).
  destruct (g_accused _ _ H1 h A1) as (_ & rec & x & R1 & R2 & R3 & _). exists rec. rewrite Ea in A4. split_and!; [done..| |].
  - unfold deposit_slash_start in E0. inv_do E0. done.
  - unfold slash_finish in Es. injection Es as <- <-. apply elem_of_app. right. apply elem_of_list_singleton. by rewrite R2.
Qed.
Lemma verify_loop_ok c hash : ∀ sigs idx prev, length sigs = length idx → Forall (λ i, 0 ≤ i) idx →
  verify_loop ecrecover c hash prev idx sigs = Ok tt ↔
  (∀ i x, idx !! i = Some x → match prev with None => True | Some p => p < x end) ∧
  (∀ i j x y, (i < j)%nat → idx !! i = Some x → idx !! j = Some y → x < y) ∧
  (∀ i x sig, idx !! i = Some x → sigs !! i = Some sig → ∃ k, keypers c !! Z.to_nat x = Some k ∧ sol_recover hash sig = Some k).
Proof.
  induction sigs as [|sig sigs IH]; intros [|i idx] prev Hlen Hpos; cbn [verify_loop]; try done. apply Forall_cons in Hpos as [Hp Hpos]. split.
  - intros H. inv_do H. destruct (sol_recover hash sig) as [a1|] eqn:Es; [|done]. inv_do H. destruct (keypers c !! Z.to_nat i) as [k|] eqn:Ek; [|done].
    injection E1 as ->. subst a1. apply IH in H as (H1 & H2 & H3); [|by injection Hlen|done].
    assert (match prev with None => True | Some p => p < i end) as Hprev by (destruct prev; [by apply Z.ltb_lt|done]). split_and!.
    + intros [|j] x; [intros [= <-]; done|]. intros Hx. specialize (H1 j x Hx). destruct prev; [lia|done].
    + intros [|j1] [|j2] x y Hlt Hx Hy; try lia; [injection Hx as ->; by eapply H1|]. apply (H2 j1 j2 x y); [lia|done|done].
    + intros [|j] x sg; [intros [= <-] [= <-]; eauto|]. apply H3.
  - intros (H1 & H2 & H3). destruct (H3 0%nat i sig eq_refl eq_refl) as (k & Hk & Hs). pose proof (lookup_lt_Some _ _ _ Hk).
    destruct (Z.ltb_spec i (Z.of_nat (length (keypers c)))); [|lia]. cbn [require rbind].
    assert (match prev with None => true | Some p => p <? i end = true) as ->.
    { specialize (H1 0%nat i eq_refl). destruct prev; [by apply Z.ltb_lt|done]. }
    cbn [require rbind]. rewrite Hs, Hk. cbn [rbind]. rewrite N.eqb_refl. cbn [require rbind]. apply IH; [by injection Hlen|done|]. split_and!.
    + intros j x Hx. by apply (H2 0%nat (S j) i x ltac:(lia) eq_refl).
    + intros j1 j2 x y Hlt. apply (H2 (S j1) (S j2)). lia.
    + intros j x sg. apply (H3 (S j)).
Qed.
(** an appeal succeeds exactly if the half step is accused, was not appealed before, and the authorization carries signatures of
    at least threshold different keypers over the batch *)
Theorem C50_appeal_iff owner hu ap blk l sender u fuel : let s := (steps (deployed owner hu ap blk) l).1 in let h := u_half_step u in
  is64 h = true → forallb is64 (u_indices u) = true →
  (∃ r, run (S fuel) s sender (Appeal u) = Ok r) ↔
  a_accused (accusation_of s h) = true ∧ a_appealed (accusation_of s h) = false ∧
  ∃ i c, config_index s (h / 2) = Ok i ∧ scheduled (cc s) !! i = Some c ∧ authorizes c u (receipt_of s h).
Proof.
  intros s h Hh Hu. destruct (logs_all (deployed owner hu ap blk) l) as [_ H1]. specialize (H1 (acc_deployed _ _ _ _) [] (logged_deployed _ _ _ _)). fold s in H1.
  assert (a_accused (accusation_of s h) = true → r_half_step (receipt_of s h) = h) as Hrh.
  { intros Ha. destruct (g_accused _ _ H1 h Ha) as (_ & rec & x & R1 & _). unfold receipt_of. rewrite R1. cbn. by apply (g_receipt _ _ H1 h rec R1). }
  assert (Forall (λ i, 0 ≤ i) (u_indices u)) as Hpos.
  { apply Forall_forall. intros x Hx. rewrite forallb_forall in Hu. specialize (Hu x ltac:(by apply elem_of_list_In)). apply is64_ok in Hu. lia. }
  cbn [ContractsModel.run typed]. fold h. rewrite Hh, Hu. cbn [andb negb]. unfold appeal, verify_authorization. fold h. split.
  - intros [r H]. inv_do H. apply negb_true_iff in E0. inv_do E1. rewrite Hrh in E2 by done. unfold config_at in E3. destruct (scheduled (cc s) !! a) as [c|] eqn:Ec; [|done].
    injection E3 as ->. apply Nat.eqb_eq in E5. rewrite preimage_signed in E1. apply verify_loop_ok in E1 as (V1 & V2 & V3); [|done|done]. split_and!; [done..|]. eexists _, _. split_and!; [done|exact Ec|]. done.
  - intros (A1 & A2 & i & c & C1 & C2 & T1 & T2 & T3 & T4). rewrite A1, A2. cbn [negb require rbind]. rewrite Hrh by done. rewrite C1. cbn [rbind]. unfold config_at. rewrite C2. cbn [rbind].
    destruct (Z.leb_spec (threshold c) (Z.of_nat (length (u_signatures u)))); [|lia]. cbn [require rbind]. rewrite T2, Nat.eqb_refl. cbn [require rbind].
    assert (verify_loop ecrecover c (keccak (preimage addr_bytes batcher_address (receipt_of s h))) None (u_indices u) (u_signatures u) = Ok tt) as ->; [|cbn; eauto].
    rewrite preimage_signed. apply verify_loop_ok; [done|done|]. split_and!; done.
Qed.
(** an accusation succeeds exactly for a keyper of the batch's config, for an executed cipher half step of a nonempty batch that
    nobody accused before *)
Theorem C50_accuse_iff owner hu ap blk l sender h k fuel : let s := (steps (deployed owner hu ap blk) l).1 in
  is64 h = true → is64 k = true →
  (∃ r, run (S fuel) s sender (Accuse h k) = Ok r) ↔
  h mod 2 = 0 ∧ a_accused (accusation_of s h) = false ∧ (∃ i c, config_index s (h / 2) = Ok i ∧ scheduled (cc s) !! i = Some c ∧ keypers c !! Z.to_nat k = Some sender) ∧
  ∃ rec, receipts s !! h = Some rec ∧ r_cipher_hash rec ≠ zero32.
Proof.
  intros s Hh Hk. destruct (logs_all (deployed owner hu ap blk) l) as [_ H1]. specialize (H1 (acc_deployed _ _ _ _) [] (logged_deployed _ _ _ _)). fold s in H1.
  cbn [ContractsModel.run typed]. rewrite Hh, Hk. cbn [andb negb]. unfold accuse. split.
  - intros [r H]. inv_do H. apply negb_true_iff in E0. unfold config_at in E2. destruct (scheduled (cc s) !! a) as [c|] eqn:Ec; [|done]. injection E2 as ->.
    destruct (keypers a0 !! Z.to_nat k) as [x|] eqn:Ex; [|done]. injection E4 as ->. subst a1. split_and!; [done|done|eexists _, _; split_and!; [done|exact Ec|done]|].
    unfold receipt_of in *. destruct (receipts s !! h) as [rec|] eqn:Er; [|done]. exists rec. split; [done|]. by apply negb_true_iff, bool_decide_eq_false in E7.
  - intros (A1 & A2 & (i & c & C1 & C2 & C3) & rec & R1 & R2). rewrite A1, A2. cbn [negb require rbind Z.eqb]. rewrite C1. cbn [rbind]. unfold config_at. rewrite C2. cbn [rbind].
    pose proof (lookup_lt_Some _ _ _ C3). apply is64_ok in Hk. destruct (Z.ltb_spec k (Z.of_nat (length (keypers c)))); [|lia]. cbn [require rbind]. rewrite C3. cbn [rbind]. rewrite N.eqb_refl.
    unfold receipt_of. rewrite R1. cbn [require rbind]. change (default zero_receipt (Some rec)) with rec. destruct (g_receipt _ _ H1 h rec R1) as (-> & _). cbn [require rbind]. rewrite bool_decide_false by done. cbn. eauto.
Qed.

(** ** Who can lose a deposit *)
Definition slash_cause (s : state) (f : list effect) (s' : state) : Prop :=
  slasher s = slasher_address → slasher s' = slasher_address ∧
  ∀ a, d_slashed (deposit_of s' a) = true → d_slashed (deposit_of s a) = true ∨ ∃ h, FSlashed h a ∈ f.
Lemma cause_same s f s' : slasher s' = slasher s → deposits s' = deposits s → slash_cause s f s'.
Proof. intros E1 E2. unfold slash_cause, deposit_of. rewrite E1, E2. auto. Qed.
Lemma cause_trans s f s1 g s2 : slash_cause s f s1 → slash_cause s1 g s2 → slash_cause s (f ++ g) s2.
Proof.
  intros H G E. destruct (H E) as [E1 H1]. destruct (G E1) as [E2 G1]. split; [done|]. intros a Ha. destruct (G1 a Ha) as [Hx|[h Hx]].
  - destruct (H1 a Hx) as [?|[h Hy]]; [by left|]. right. exists h. apply elem_of_app. by left.
  - right. exists h. apply elem_of_app. by right.
Qed.
Lemma cause_unslashed s f a d x : d_slashed d = false → slash_cause s f (set_deposits s (<[a := d]> (deposits s)) x).
Proof.
  intros Hd E. split; [done|]. intros b. unfold deposit_of. cbn. destruct (decide (a = b)) as [<-|]; [rewrite lookup_insert; cbn; congruence|rewrite lookup_insert_ne by done; auto].
Qed.
Lemma cause_all s l : slasher_address ≠ 0%N → outside_events l → slash_cause s (steps s l).2 (steps s l).1.
Proof.
  intros Hnz Ho.
  apply (steps_rel keccak ecrecover addr_bytes batcher_address slasher_address deposit_address outside outside_inner slash_cause); [..|by apply outside_ok];
    intros; try (match goal with H : slash_finish _ _ ?e = _ |- _ => rename e into e0 end); shapes; try (apply cause_same; done).
  - by eapply cause_trans.
  - eapply cause_trans; [done|]. by apply cause_same.
  - eapply cause_trans; [done|]. by apply cause_same.
  - match goal with H : slash_cause _ _ _ |- _ => rename H into Hn end. intros E. destruct (Hn E) as [E1 Hn1]. split; [done|]. intros b Hb.
    destruct (Hn1 b Hb) as [Hx|[x Hx]].
    + unfold deposit_of in Hx. cbn in Hx. destruct (decide (a_executor (accusation_of s0 h) = b)) as [<-|].
      * right. exists h. set_solver.
      * rewrite lookup_insert_ne in Hx by done. by left.
    + right. exists x. set_solver.
  - intros E. congruence.
  - intros E. match goal with H : outside _ _ |- _ => inversion H; subst end. congruence.
  - by apply cause_unslashed.
  - by apply cause_unslashed.
  - intros E. split; [done|]. intros b. unfold deposit_of. cbn. destruct (decide (a = b)) as [<-|]; [by rewrite lookup_delete|rewrite lookup_delete_ne by done; auto].
Qed.
(** C50: nobody loses a deposit without having executed a nonempty cipher batch for which he was accused, at least the appeal
    period ago; and that accusation is marked as slashed *)
Theorem C50_slash_cause owner hu ap blk l a : slasher_address ≠ 0%N → outside_events l →
  let '(s, f) := steps (deployed owner hu ap blk) l in
  d_slashed (deposit_of s a) = true →
  ∃ h c txs accuser, FSlashed h a ∈ f ∧ FCipher h a c txs ∈ f ∧ c ≠ zero32 ∧ FAccused h a accuser ∈ f ∧
    a_slashed (accusation_of s h) = true ∧ a_block (accusation_of s h) + ap ≤ block s.
Proof.
  intros Hnz Ho. pose proof (cause_all (deployed owner hu ap blk) l Hnz Ho) as Hc. destruct (logs_all (deployed owner hu ap blk) l) as [(_ & Ea & _) H1].
  specialize (H1 (acc_deployed _ _ _ _) [] (logged_deployed _ _ _ _)). destruct (steps _ l) as [s f]. cbn [fst snd app] in *. intros Hs.
  destruct (Hc eq_refl) as [_ Hc']. destruct (Hc' a Hs) as [Hx|[h Hx]]; [unfold deposit_of in Hx; cbn in Hx; by rewrite lookup_empty in Hx|].
  destruct (g_slashed _ _ H1 _ _ Hx) as (S1 & S2 & S3 & S4). destruct (g_accused _ _ H1 _ S1) as (_ & r & x & R1 & R2 & R3 & R4).
  destruct (g_receipt _ _ H1 _ _ R1) as (_ & _ & txs & T1 & _). exists h, (r_cipher_hash r), txs, x. rewrite R2, S2 in T1. rewrite S2 in R4. rewrite Ea in S4.
  split_and!; done.
Qed.
End Slasher.

(** C74: executing something that the keypers did not sign costs the deposit: nobody can appeal, anyone can slash, and the deposit
    cannot be withdrawn in time. *)
From stdpp Require Import list gmap.
From Coq Require Import ZArith NArith Lia.
From Verif Require Import ArithModel ContractsModel ContractsProofs PropsConfig PropsSlasher PropsBank PropsContracts.
Local Open Scope Z_scope.

Section Punish.
Context (keccak : list N → list N) (ecrecover : list N → Z → Z → Z → option N) (addr_bytes : N → list N).
Context (batcher_address slasher_address deposit_address : N).
Notation run := (run keccak ecrecover addr_bytes batcher_address slasher_address deposit_address).
Notation steps := (steps keccak ecrecover addr_bytes batcher_address slasher_address deposit_address).
Notation deployed := (deployed slasher_address).
Notation sol_recover := (sol_recover ecrecover).
Notation signed_bytes := (signed_bytes addr_bytes batcher_address).

(** ** Specification *)
(** what keypers sign for the batch a receipt is about *)
Definition digest (r : receipt) : list N := keccak (signed_bytes (r_half_step r / 2) (r_cipher_hash r) (r_batch_hash r)).
(** an authorization for half step [h] whose signatures over the digest of [r] all come from [K].  Indices are not negative (the ABI
    has no negative uint64). *)
Definition signed_by (K : list N) (h : Z) (r : receipt) (u : authorization) : Prop :=
  u_half_step u = h → Forall (λ i, 0 ≤ i) (u_indices u) ∧ ∀ sig k, sig ∈ u_signatures u → sol_recover (digest r) sig = Some k → k ∈ K.
(** in this call, and in those made inside it, the only signatures over the executed batch that appear in appeals are by [K] *)
Inductive signed_only_by (K : list N) (h : Z) (r : receipt) : N → call → Prop :=
| signed_only_intro a c : (∀ u, c = Appeal u → signed_by K h r u) → (∀ x, x ∈ inner_calls c → signed_only_by K h r x.1 x.2) → signed_only_by K h r a c.
Definition signed_only_events (K : list N) (h : Z) (r : receipt) (l : list event) : Prop := ∀ fuel a c, Tx fuel a c ∈ l → signed_only_by K h r a c.
(** how many of the config's keypers are in [K] *)
Definition signers (K : list N) (c : config) : Z := Z.of_nat (length (filter (.∈ K) (keypers c))).

(** ** Proofs *)
Lemma signed_only_inner K h r a c x : signed_only_by K h r a c → x ∈ inner_calls c → signed_only_by K h r x.1 x.2.
Proof. intros [] Hx. auto. Qed.
Lemma signed_only_ok K h r l : signed_only_events K h r l → Forall (ok_event (signed_only_by K h r)) l.
Proof. intros H. apply Forall_forall. intros [fuel a c|n] Hin; [by eapply H|done]. Qed.
(** a strictly increasing list of positions at which the list [l] has elements of [K] is not longer than there are such elements *)
Lemma positions_count (K : list N) : ∀ (l : list N) (is : list nat), (∀ i j x y, (i < j)%nat → is !! i = Some x → is !! j = Some y → (x < y)%nat) →
  (∀ x, x ∈ is → ∃ k, l !! x = Some k ∧ k ∈ K) → (length is ≤ length (filter (.∈ K) l))%nat.
Proof.
  induction l as [|a l IH]; intros is Hi Hk.
  - destruct is as [|x is]; [done|]. destruct (Hk x ltac:(apply elem_of_list_here)) as (k & Hx & _). done.
  - assert (∀ is', (∀ i j x y, (i < j)%nat → is' !! i = Some x → is' !! j = Some y → (x < y)%nat) → (∀ x, x ∈ is' → ∃ k, (a :: l) !! S x = Some k ∧ k ∈ K) →
      (length is' ≤ length (filter (.∈ K) l))%nat) as Htl. { intros is' H1 H2. by apply IH. }
    assert (∀ is', (∀ i j x y, (i < j)%nat → is' !! i = Some x → is' !! j = Some y → (x < y)%nat) → (∀ x, x ∈ is' → (0 < x)%nat) → (∀ x, x ∈ is' → ∃ k, (a :: l) !! x = Some k ∧ k ∈ K) →
      (length is' ≤ length (filter (.∈ K) l))%nat) as Hpos.
    { intros is' H1 H0 H2. rewrite <-(fmap_length Nat.pred is'). apply Htl.
      - intros i j x y Hij Hx Hy. apply list_lookup_fmap_Some in Hx as (x' & Hx & ->). apply list_lookup_fmap_Some in Hy as (y' & Hy & ->).
        specialize (H1 i j x' y' Hij Hx Hy). pose proof (H0 x' ltac:(by eapply elem_of_list_lookup_2)). lia.
      - intros x Hx. apply elem_of_list_fmap in Hx as (x' & -> & Hx). pose proof (H0 x' Hx). destruct x'; [lia|]. by apply H2. }
    destruct is as [|x is]; [cbn; lia|]. destruct x as [|x].
    + destruct (Hk 0%nat ltac:(apply elem_of_list_here)) as (k & Hx & Hin). injection Hx as ->. rewrite filter_cons_True by done. cbn. apply le_n_S. apply Hpos.
      * intros i j x y Hij. apply (Hi (S i) (S j)). lia.
      * intros x Hx. apply elem_of_list_lookup in Hx as [i Hx]. apply (Hi 0%nat (S i) 0%nat x); [lia|done|done].
      * intros x Hx. apply Hk. by apply elem_of_list_further.
    + etransitivity; [apply Hpos; [done| |done]|].
      * intros y Hy. apply elem_of_list_lookup in Hy as [[|i] Hy]; [injection Hy as <-; lia|]. pose proof (Hi 0%nat (S i) (S x) y ltac:(lia) eq_refl Hy). lia.
      * rewrite filter_cons. destruct (decide _); cbn; lia.
Qed.
Lemma authorizes_signers K c u h r : u_half_step u = h → signed_by K h r u → authorizes keccak ecrecover addr_bytes batcher_address c u r → threshold c ≤ signers K c.
Proof.
  intros Hh Hs (T1 & T2 & T3 & T4). destruct (Hs Hh) as [Hpos Hk]. unfold signers. rewrite T2 in T1.
  enough (length (Z.to_nat <$> u_indices u) ≤ length (filter (.∈ K) (keypers c)))%nat as He by (rewrite fmap_length in He; lia).
  rewrite Forall_forall in Hpos. apply positions_count.
  - intros i j x y Hij Hx Hy. apply list_lookup_fmap_Some in Hx as (x' & Hx & ->). apply list_lookup_fmap_Some in Hy as (y' & Hy & ->).
    pose proof (T3 i j x' y' Hij Hx Hy). pose proof (Hpos x' ltac:(by eapply elem_of_list_lookup_2)). cbn in *. lia.
  - intros x Hx. apply elem_of_list_fmap in Hx as (x' & -> & Hx). apply elem_of_list_lookup in Hx as [i Hx].
    destruct (lookup_lt_is_Some_2 (u_signatures u) i) as [sig Hsig]. { rewrite T2. by eapply lookup_lt_Some. }
    destruct (T4 i x' sig Hx Hsig) as (k & Hk1 & Hk2). exists k. split; [done|]. eapply Hk; [by eapply elem_of_list_lookup_2|exact Hk2].
Qed.
Lemma verify_loop_fwd c hash : ∀ sigs idx prev, length sigs = length idx → Forall (λ i, 0 ≤ i) idx → verify_loop ecrecover c hash prev idx sigs = Ok tt →
  (∀ i j x y, (i < j)%nat → idx !! i = Some x → idx !! j = Some y → x < y) ∧
  (∀ i x sig, idx !! i = Some x → sigs !! i = Some sig → ∃ k, keypers c !! Z.to_nat x = Some k ∧ sol_recover hash sig = Some k).
Proof. intros sigs idx prev H1 H2 H. apply verify_loop_ok in H as (_ & H); done. Qed.
(** an appeal that succeeds *)
Lemma appeal_authorizes s u s' f K r : appeal keccak ecrecover addr_bytes batcher_address s u = Ok (s', f) → signed_by K (u_half_step u) r u →
  receipts s !! u_half_step u = Some r → r_half_step r = u_half_step u →
  ∃ i c, config_index s (u_half_step u / 2) = Ok i ∧ scheduled (cc s) !! i = Some c ∧ authorizes keccak ecrecover addr_bytes batcher_address c u r.
Proof.
  intros H Hs Hr Hh. destruct (Hs eq_refl) as [Hpos _]. unfold appeal, verify_authorization in H. inv_do H. assert (receipt_of s (u_half_step u) = r) as Er by (unfold receipt_of; by rewrite Hr).
  rewrite Er, Hh in E1. inv_do E1. subst. unfold config_at in *. destruct (scheduled (cc s) !! a) as [c|] eqn:Ec; [|done].
  match goal with H : Ok c = Ok _ |- _ => injection H as <- end. match goal with H : Nat.eqb _ _ = true |- _ => apply Nat.eqb_eq in H as El end.
  match goal with H : verify_loop _ _ _ _ _ _ = Ok tt |- _ => rewrite preimage_signed in H; apply verify_loop_fwd in H as [V1 V2]; [|done|done] end.
  exists a, c. split_and!; [done|done|]. unfold authorizes. split_and!; try done; by apply Z.leb_le.
Qed.

(** everything about one half step [h] that stays as it is while nobody appeals *)
Definition held (h : Z) (r : receipt) (i : nat) (c : config) (s : state) : Prop :=
  cc_inv s ∧ acc_inv s ∧ (∀ x, half_steps s ≤ x → receipts s !! x = None) ∧ receipts s !! h = Some r ∧
  config_for (scheduled (cc s)) (h / 2) i c ∧ open_block c (h / 2) ≤ block s ∧ 0 ≤ block s ∧
  a_accused (accusation_of s h) = true ∧ a_appealed (accusation_of s h) = false.
Definition holds_on (h : Z) (r : receipt) (i : nat) (c : config) (s : state) (f : list effect) (s' : state) : Prop :=
  conf_stays s f s' ∧ receipts_stay s f s' ∧ acc_stays s f s' ∧ (block s' < 2 ^ 64 → held h r i c s → a_appealed (accusation_of s' h) = false).
Lemma held_next h r i c s f s' : 0 < span c → holds_on h r i c s f s' → block s' < 2 ^ 64 → held h r i c s → held h r i c s'.
Proof.
  intros Hsp ((A1 & A2 & A3 & A4) & (B1 & B2) & (C1 & C2 & C3) & D) Hb H. pose proof H as (H1 & H2 & H3 & H4 & H5 & H6 & H7 & H8 & H9).
  destruct (A4 H1) as [A5 [A6 A7]]. destruct (B2 H3) as [B3 B4]. destruct (C3 H2) as [C4 C5]. split_and!; [done|done|done|by apply B4|by apply A7|lia|lia| |by apply D].
  by apply (C5 h).
Qed.
Lemma holds_trans h r i c s f s1 g s2 : 0 < span c → holds_on h r i c s f s1 → holds_on h r i c s1 g s2 → holds_on h r i c s (f ++ g) s2.
Proof.
  intros Hsp H G. pose proof H as (A1 & A2 & A3 & A4). pose proof G as (B1 & B2 & B3 & B4). split_and!; [by eapply conf_trans|by eapply receipts_trans|by eapply acc_trans|].
  intros Hb Hh. assert (block s1 < 2 ^ 64) by (destruct B3; lia). apply B4; [done|]. by eapply held_next.
Qed.
Lemma holds_same h r i c s f s' : block s ≤ block s' → cc s' = cc s → half_steps s ≤ half_steps s' → receipts s' = receipts s →
  appeal_blocks s' = appeal_blocks s → accusations s' = accusations s → (∀ h e, FSlashed h e ∉ f) → holds_on h r i c s f s'.
Proof.
  intros. split_and!; [by apply conf_same|by apply receipts_same|by apply acc_same|]. intros _ (_ & _ & _ & _ & _ & _ & _ & _ & Hx). unfold accusation_of in *. by rewrite H4.
Qed.
Ltac no_slash' := intros ?? Hx; repeat (apply elem_of_cons in Hx as [Hx|Hx]; [done|]); by apply elem_of_nil in Hx.
Lemma holds_all h r i c K s l : r_half_step r = h → 0 < span c → signers K c < threshold c → signed_only_events K h r l → holds_on h r i c s (steps s l).2 (steps s l).1.
Proof.
  intros Hrh Hsp Hth Ho.
  apply (steps_rel keccak ecrecover addr_bytes batcher_address slasher_address deposit_address (signed_only_by K h r) (signed_only_inner K h r) (holds_on h r i c)); [..|by apply signed_only_ok]; intros;
    try (match goal with H : schedule _ _ = _ |- _ => split; [by eapply conf_schedule|]; shapes; split_and!; [by apply receipts_same|by apply acc_same; [..|no_slash']|]; intros _ Hx; apply Hx end);
    try (match goal with H : unschedule _ _ _ = _ |- _ => split; [by eapply conf_unschedule|]; shapes; split_and!; [by apply receipts_same|by apply acc_same; [..|no_slash']|]; intros _ Hx; apply Hx end);
    try (match goal with H : set_next _ _ _ = _ |- _ => shapes; split_and!; [split_and!; [done..|]; intros [Hw [_ Hh]]; split; [done|]; split; auto|by apply receipts_same|by apply acc_same; [..|no_slash']|]; intros _ Hx; apply Hx end);
    try (match goal with H : appeal _ _ _ _ _ _ = _ |- _ => idtac | H : accuse _ _ _ _ = _ |- _ => idtac | H : slash_checks _ _ = Ok _ |- _ => idtac | H : cipher_finish _ _ _ _ _ = _ |- _ => idtac
      | _ => shapes; apply holds_same; [cbn; lia|done|cbn; lia|done|done|done|no_slash'] end).
  - by eapply holds_trans.
  - shapes; (apply holds_same; [cbn; lia|done|cbn; lia|done|done|done|no_slash']).
  - eapply holds_trans; [done|done|]. shapes. split_and!; [by apply conf_same| |by apply acc_same; [..|no_slash']|].
    + split; [cbn; lia|]. intros Hi. cbn. split.
      * intros x Hx. rewrite lookup_insert_ne by lia. apply Hi. lia.
      * intros x r' Hx. rewrite lookup_insert_ne; [done|]. intros <-. rewrite Hi in Hx; [done|lia].
    + intros _ Hx. apply Hx.
  - eapply holds_trans; [done|done|]. shapes. apply holds_same; [cbn; lia|done|cbn; lia|done|done|done|no_slash'].
  - shapes. apply holds_same; [cbn; lia|done|cbn; lia|done|done|done|].
    intros xx ee Hin. match goal with H : Forall skips _ |- _ => rewrite Forall_forall in H; by specialize (H _ Hin) end.
  - match goal with H : accuse _ _ _ _ = _ |- _ => pose proof H as Hac; apply (acc_accuse keccak ecrecover addr_bytes batcher_address) in Hac end. shapes. split_and!; [by apply conf_same|by apply receipts_same|done|].
    intros _ (_ & _ & _ & _ & _ & _ & _ & Q1 & Q2). rewrite accusation_insert. destruct (Z.eqb_spec h0 h) as [->|]; [congruence|done].
  - match goal with H : signed_only_by _ _ _ _ _ |- _ => inversion H as [a' c' Hs _]; subst a' c'; specialize (Hs _ eq_refl); clear H end.
    match goal with H : appeal _ _ _ _ _ _ = _ |- _ => pose proof H as Hap; pose proof H as Hac; apply acc_appeal in Hac; apply appeal_shape in H as (P1 & P2 & -> & ->) end.
    split_and!; [by apply conf_same|by apply receipts_same|done|]. intros _ (_ & _ & _ & Q1 & Q2 & _ & _ & Q3 & Q4).
    rewrite accusation_insert. destruct (Z.eqb_spec (u_half_step u) h) as [E|]; [|done]. exfalso.
    destruct (appeal_authorizes _ _ _ _ K r Hap) as (i' & c' & V1 & V2 & V3); [by rewrite E|by rewrite E|by rewrite E|].
    rewrite E in V1. apply config_index_iff in V1 as [c2 V1]. destruct (config_for_unique _ _ _ _ _ _ Q2 V1) as [<- <-].
    destruct V1 as [V1 _]. rewrite V1 in V2. injection V2 as <-. apply (authorizes_signers K) with (h := h) in V3; [lia|done|done].
  - match goal with H : holds_on _ _ _ _ ?t f _ |- holds_on _ _ _ _ ?s0 (?e :: _) _ => destruct H as (A1 & A2 & A3 & A4) end.
    match goal with Hc : slash_checks ?s0 _ = Ok ?e, H1 : deposit_slash_start ?s0 _ ?e = _, H2 : token_move _ _ = Ok ?t |- _ =>
      assert (e = a_executor (accusation_of s0 h0)) as -> by (by apply slash_checks_shape in Hc as (_ & _ & _ & _ & ->));
      pose proof (deposit_slash_shape _ _ _ _ _ _ H1 H2) as (_ & _ & _ & _ & Et) end.
    assert (∀ P : state → Prop, (∀ d b, P (set_deposits s0 d b)) → P s2) as Hs2 by (intros P HP; rewrite Et; apply HP).
    match goal with H1 : slash_checks _ _ = _, H5 : slash_finish _ _ _ = _ |- holds_on _ _ _ _ _ (?t :: _ ++ _) _ =>
      pose proof (acc_slash s0 h0 s2 f s3 s4 g t H1 ltac:(by apply Hs2) ltac:(by apply Hs2) ltac:(by apply Hs2) A3 H5 ltac:(done)) as Hac; rename H5 into Hfin end.
    unfold slash_finish in Hfin. injection Hfin as <- <-.
    match goal with |- holds_on _ _ _ _ _ (?t :: f ++ ?g) _ => change (t :: f ++ g) with ([t] ++ f ++ g) in * end. split_and!.
    + eapply (conf_trans s0 _ s2); [apply conf_same; by apply Hs2|]. eapply conf_trans; [done|]. by apply conf_same.
    + eapply (receipts_trans s0 _ s2); [apply receipts_same; by apply Hs2|]. eapply receipts_trans; [done|]. by apply receipts_same.
    + done.
    + intros Hb Hh. assert (held h r i c s2) as Hh2 by (by apply Hs2). rewrite accusation_insert. specialize (A4 Hb Hh2).
      destruct (Z.eqb_spec h0 h) as [->|]; done.
Qed.

(** what was slashed for a half step is the deposit of the accused executor *)
Definition all_seized (s : state) : Prop := ∀ h, a_slashed (accusation_of s h) = true → d_slashed (deposit_of s (a_executor (accusation_of s h))) = true.
Definition none_left (s : state) : Prop := ∀ a, d_slashed (deposit_of s a) = true → d_amount (deposit_of s a) = 0.
Definition seizes (s : state) (f : list effect) (s' : state) : Prop :=
  acc_stays s f s' ∧ slashed_stays s f s' ∧ (acc_inv s → none_left s → all_seized s → all_seized s').
Lemma seizes_trans s f s1 g s2 : seizes s f s1 → seizes s1 g s2 → seizes s (f ++ g) s2.
Proof.
  intros (H1 & H2 & H3) (G1 & G2 & G3). split_and!; [by eapply acc_trans|by eapply slashed_trans|]. intros Hi Hn Ha. destruct H1 as (_ & _ & H1). destruct H2 as [H2 _]. apply G3; [by destruct (H1 Hi)|exact (H2 Hn)|by apply H3].
Qed.
(** steps that leave the accusations alone *)
Lemma seizes_deposits s f s' : acc_stays s f s' → slashed_stays s f s' → accusations s' = accusations s → seizes s f s'.
Proof.
  intros H1 H2 E. split_and!; [done|done|]. intros _ Hn Ha h. unfold accusation_of. rewrite E. intros Hh. destruct H2 as [_ H2]. apply (H2 Hn). by apply Ha.
Qed.
Lemma seizes_same s f s' : block s ≤ block s' → appeal_blocks s' = appeal_blocks s → accusations s' = accusations s → (∀ h e, FSlashed h e ∉ f) → deposits s' = deposits s → seizes s f s'.
Proof. intros. apply seizes_deposits; [by apply acc_same|by apply slashed_same|done]. Qed.
Lemma seizes_all s l : seizes s (steps s l).2 (steps s l).1.
Proof.
  apply (steps_rel keccak ecrecover addr_bytes batcher_address slasher_address deposit_address (λ _ _, True) ltac:(done) seizes); [..|by apply Forall_forall; intros []]; intros;
    try (match goal with H : appeal _ _ _ _ _ _ = _ |- _ => idtac | H : accuse _ _ _ _ = _ |- _ => idtac | H : slash_checks _ _ = Ok _ |- _ => idtac
      | H : deposit_slash_start _ _ _ = _ |- _ => idtac | H : tokens_received _ _ _ _ = _ |- _ => idtac | H : request_withdrawal _ _ = _ |- _ => idtac | H : withdraw_start _ _ = _ |- _ => idtac
      | _ => shapes; apply seizes_same; [cbn; lia|done|done|no_slash'|done] end).
  - by eapply seizes_trans.
  - shapes; (apply seizes_same; [cbn; lia|done|done|no_slash'|done]).
  - eapply seizes_trans; [done|]. shapes. apply seizes_same; [cbn; lia|done|done|no_slash'|done].
  - eapply seizes_trans; [done|]. shapes. apply seizes_same; [cbn; lia|done|done|no_slash'|done].
  - shapes. apply seizes_same; [cbn; lia|done|done| |done].
    intros xx ee Hin. match goal with H : Forall skips _ |- _ => rewrite Forall_forall in H; by specialize (H _ Hin) end.
  - match goal with H : accuse _ _ _ _ = _ |- _ => pose proof H as Hac; apply (acc_accuse keccak ecrecover addr_bytes batcher_address) in Hac end. shapes.
    split_and!; [done|by apply slashed_same|]. intros Hi Hn Ha x. rewrite accusation_insert. destruct (Z.eqb_spec h x) as [<-|]; [|by apply Ha].
    cbn [a_slashed a_executor]. done.
  - match goal with H : appeal _ _ _ _ _ _ = _ |- _ => pose proof H as Hac; apply acc_appeal in Hac; apply appeal_shape in H as (P1 & P2 & -> & ->) end.
    split_and!; [done|by apply slashed_same|]. intros Hi Hn Ha x. rewrite accusation_insert. destruct (Z.eqb_spec (u_half_step u) x) as [<-|]; [|by apply Ha]. cbn [a_slashed a_executor]. apply Ha.
  - match goal with H : seizes ?t f _ |- seizes ?s0 (?e :: _) _ => destruct H as (A1 & A2 & A3) end.
    match goal with Hc : slash_checks ?s0 _ = Ok ?e, H1 : deposit_slash_start ?s0 _ ?e = _, H2 : token_move _ _ = Ok ?t |- _ =>
      assert (e = a_executor (accusation_of s0 h)) as -> by (by apply slash_checks_shape in Hc as (_ & _ & _ & _ & ->));
      pose proof (deposit_slash_shape _ _ _ _ _ _ H1 H2) as (_ & _ & _ & _ & Et) end.
    assert (∀ P : state → Prop, (∀ d b, P (set_deposits s0 d b)) → P s2) as Hs2 by (intros P HP; rewrite Et; apply HP).
    match goal with H1 : slash_checks _ _ = _, H5 : slash_finish _ _ _ = _ |- seizes _ (?t :: _ ++ _) _ =>
      pose proof (acc_slash s0 h s2 f s3 s4 g t H1 ltac:(by apply Hs2) ltac:(by apply Hs2) ltac:(by apply Hs2) A1 H5 ltac:(done)) as Hac; apply slash_checks_shape in H1 as (P1 & _); rename H5 into Hfin end.
    unfold slash_finish in Hfin. injection Hfin as <- <-.
    assert (slashed_stays s0 [] s2) as Hss by (rewrite Et; by apply slashed_insert).
    match goal with |- seizes _ (?t :: f ++ ?g) _ => change (t :: f ++ g) with ([t] ++ f ++ g) in * end.
    split_and!; [done| |].
    + eapply (slashed_trans s0 _ s2); [exact Hss|]. eapply slashed_trans; [done|]. by apply slashed_same.
    + intros Hi Hn Ha. assert (acc_inv s2) as Hi2 by (by apply Hs2). destruct Hss as [Hn2 Hk]. specialize (Hn2 Hn).
      assert (all_seized s2) as Ha2. { intros x Hx. assert (accusation_of s2 x = accusation_of s0 x) as Ex by (by apply Hs2). rewrite Ex in *. apply (Hk Hn). by apply Ha. }
      specialize (A3 Hi2 Hn2 Ha2). intros x. rewrite accusation_insert. destruct (Z.eqb_spec h x) as [<-|]; [|by apply A3]. cbn [a_slashed a_executor]. intros _.
      destruct A1 as (_ & _ & A1). destruct (A1 Hi2) as [_ A4]. destruct (A4 h) as (A5 & _). assert (accusation_of s2 h = accusation_of s0 h) as Ex by (by apply Hs2). rewrite Ex in A5.
      destruct (A5 P1) as (_ & A6 & _). change (deposit_of (set_accusations s3 ?m)) with (deposit_of s3). rewrite A6. destruct A2 as [_ A2]. apply (A2 Hn2).
      rewrite Et, lookup_dep. by rewrite N.eqb_refl.
  - match goal with H1 : deposit_slash_start ?s0 _ ?e = _, H2 : token_move _ _ = Ok ?t |- _ => pose proof (deposit_slash_shape _ _ _ _ _ _ H1 H2) as (_ & _ & _ & _ & ->) end.
    apply seizes_deposits; [apply acc_same; [done|done|done|no_slash']|by apply slashed_insert|done].
  - shapes. apply seizes_deposits; [apply acc_same; [done|done|done|no_slash']| |done]. apply slashed_insert; [done|]. by match goal with H : d_slashed _ = false |- _ => rewrite H end.
  - shapes. apply seizes_deposits; [apply acc_same; [done|done|done|no_slash']| |done]. apply slashed_insert; [done|]. by match goal with H : d_slashed _ = false |- _ => rewrite H end.
  - shapes. apply seizes_deposits; [apply acc_same; [done|done|done|no_slash']| |done].
    split; intros Hi b; rewrite delete_dep; destruct (a =? b)%N eqn:E; try done; auto. apply N.eqb_eq in E as <-. congruence.
Qed.
Lemma seized_deployed owner hu ap blk : all_seized (deployed owner hu ap blk).
Proof. intros h. unfold accusation_of. cbn. by rewrite lookup_empty. Qed.

(** ** C74 *)
(** C74: when fewer than threshold keypers of the batch's config signed what was executed, nobody can appeal, however long and
    whatever is tried *)
Theorem C74_no_appeal owner hu ap blk l1 l2 h r i c K : 0 ≤ hu →
  let s1 := (steps (deployed owner hu ap blk) l1).1 in let s2 := (steps s1 l2).1 in
  0 ≤ block s1 → block s2 < 2 ^ 64 → receipts s1 !! h = Some r →
  config_for (scheduled (cc s1)) (h / 2) i c → 0 < span c → open_block c (h / 2) ≤ block s1 →
  a_accused (accusation_of s1 h) = true → a_appealed (accusation_of s1 h) = false →
  signers K c < threshold c → signed_only_events K h r l2 →
  a_appealed (accusation_of s2 h) = false.
Proof.
  intros Hh s1 s2 P1 P2 Hr Hc Hsp Hop Ha Hn Hk Hs.
  destruct (conf_all keccak ecrecover addr_bytes batcher_address slasher_address deposit_address (deployed owner hu ap blk) l1) as (_ & _ & _ & H1). destruct (H1 (cc_deployed _ owner hu ap blk Hh)) as [Hi _].
  destruct (logs_all keccak ecrecover addr_bytes batcher_address slasher_address deposit_address (deployed owner hu ap blk) l1) as [(_ & _ & H2) H3].
  destruct (H2 (acc_deployed _ _ _ _ _)) as [Hj _]. specialize (H3 (acc_deployed _ _ _ _ _) [] (logged_deployed _ _ _ _ _ _)). fold s1 in Hi, Hj, H3.
  destruct (holds_all h r i c K s1 l2) as (_ & _ & _ & H); [by destruct (g_receipt _ _ _ H3 _ _ Hr) as (_ & -> & _)|done|done|done|]. fold s2 in H.
  apply H; [done|]. split_and!; try done. apply (g_fresh _ _ _ H3).
Qed.
(** C74: ... so once the appeal period is over, anyone at all takes the executor's deposit away, if it has not been taken already *)
Theorem C74_anyone_slashes owner hu ap blk l h : let s := (steps (deployed owner hu ap blk) l).1 in let e := a_executor (accusation_of s h) in
  0 ≤ h < 2 ^ 64 → a_accused (accusation_of s h) = true → a_appealed (accusation_of s h) = false →
  0 ≤ a_block (accusation_of s h) + ap < 2 ^ 256 → a_block (accusation_of s h) + ap ≤ block s → slasher s = slasher_address → slashing_receiver s ≠ deposit_address →
  (d_slashed (deposit_of s e) = true ∧ d_amount (deposit_of s e) = 0) ∨
  ∀ sender fuel, ∃ s', run (S fuel) s sender (Slash h []) = Ok (s', [FTokensOut e (slashing_receiver s) (d_amount (deposit_of s e)); FSlashed h e]) ∧
    d_slashed (deposit_of s' e) = true ∧ d_amount (deposit_of s' e) = 0 ∧ ∀ b, b ≠ e → deposit_of s' b = deposit_of s b.
Proof.
  intros s e Hh Ha Hn Hb Hp Hsl Hrc.
  destruct (seizes_all (deployed owner hu ap blk) l) as ((_ & Eap & _) & [Hs1 _] & Hz). specialize (Hz (acc_deployed _ _ _ _ _) (slashed_deployed _ _ _ _ _) (seized_deployed _ _ _ _)).
  specialize (Hs1 (slashed_deployed _ _ _ _ _)). fold s in Eap, Hz, Hs1. cbn in Eap.
  destruct (a_slashed (accusation_of s h)) eqn:Es; [left; split; [by apply Hz|apply Hs1; by apply Hz]|right]. intros sender fuel.
  assert (d_amount (deposit_of s e) ≤ token_balance s) as Hbal.
  { pose proof (C51_ledger keccak ecrecover addr_bytes batcher_address slasher_address deposit_address owner hu ap blk l) as Hl. unfold s, e. destruct (ContractsModel.steps _ _ _ _ _ _ _ l) as [s0 f0].
    cbn [fst]. destruct Hl as [Hl _]. apply (Hl (a_executor (accusation_of s0 h))). }
  assert (is64 h = true) as H64 by (unfold is64; rewrite andb_true_iff, Z.leb_le, Z.ltb_lt; lia).
  eexists. split.
  - cbn [ContractsModel.run typed]. rewrite H64. cbn [negb]. unfold slash_checks. rewrite Ha, Hn, Es, Eap. cbn [negb require rbind]. unfold c256.
    destruct (Z.leb_spec 0 (a_block (accusation_of s h) + ap)); [|lia]. destruct (Z.ltb_spec (a_block (accusation_of s h) + ap) (2 ^ 256)); [|lia]. cbn [andb rbind].
    destruct (Z.leb_spec (a_block (accusation_of s h) + ap) (block s)); [|lia]. cbn [require rbind]. unfold deposit_slash_start. rewrite Hsl, N.eqb_refl. cbn [require rbind].
    unfold pay_out. cbn [slashing_receiver set_deposits]. apply N.eqb_neq in Hrc. rewrite Hrc. cbn [negb orb require rbind]. unfold token_move. cbn [token_balance set_deposits].
    fold e. destruct (Z.leb_spec (d_amount (deposit_of s e)) (token_balance s)); [|lia]. cbn [require rbind run_calls foldl]. unfold slash_finish.
    instantiate (1 := set_accusations _ _). unfold set_accusations. destruct (slashing_receiver s =? 0)%N; cbn [rbind app]; reflexivity.
  - unfold deposit_of. cbn. rewrite lookup_insert. split_and!; [done|done|]. intros b Hb'. by rewrite lookup_insert_ne.
Qed.
(** C74: together: an executor whose deposit is locked for longer than it takes to slash him loses at least what he had deposited
    when he was accused *)
Theorem C74_costs owner hu ap blk l1 l2 h r i c K : 0 ≤ hu → slasher_address ≠ 0%N → 0 ≤ ap →
  let s1 := (steps (deployed owner hu ap blk) l1).1 in let s2 := (steps s1 l2).1 in let e := r_executor r in
  0 ≤ h < 2 ^ 64 → 0 ≤ block s1 → block s2 < 2 ^ 64 → receipts s1 !! h = Some r →
  config_for (scheduled (cc s1)) (h / 2) i c → 0 < span c → open_block c (h / 2) ≤ block s1 →
  a_accused (accusation_of s1 h) = true → a_appealed (accusation_of s1 h) = false → 0 ≤ a_block (accusation_of s1 h) →
  signers K c < threshold c → signed_only_events K h r l2 →
  d_requested (deposit_of s1 e) = 0 → a_block (accusation_of s1 h) + ap ≤ block s2 < block s1 + d_delay (deposit_of s1 e) →
  slasher s1 = slasher_address → slashing_receiver s2 ≠ deposit_address →
  (d_slashed (deposit_of s2 e) = true ∧ d_amount (deposit_of s2 e) = 0) ∨
  (d_amount (deposit_of s1 e) ≤ d_amount (deposit_of s2 e) ∧ ∀ sender fuel, ∃ s',
     run (S fuel) s2 sender (Slash h []) = Ok (s', [FTokensOut e (slashing_receiver s2) (d_amount (deposit_of s2 e)); FSlashed h e]) ∧
     ∀ l3, d_slashed (deposit_of (steps s' l3).1 e) = true ∧ d_amount (deposit_of (steps s' l3).1 e) = 0).
Proof.
  intros Hh Hnz Hap s1 s2 e H64 P1 P2 Hr Hc Hsp Hop Ha Hn Hab Hk Hs Hq Hd Hsl Hrc.
  pose proof (C74_no_appeal owner hu ap blk l1 l2 h r i c K Hh P1 P2 Hr Hc Hsp Hop Ha Hn Hk Hs) as Hn2. fold s1 in Hn2. fold s2 in Hn2.
  destruct (C50_accusation_final keccak ecrecover addr_bytes batcher_address slasher_address deposit_address owner hu ap blk l1 l2 h Ha) as (Ha2 & He2 & Hb2). fold s1 in Ha2, He2, Hb2. fold s2 in Ha2, He2, Hb2.
  destruct (logs_all keccak ecrecover addr_bytes batcher_address slasher_address deposit_address (deployed owner hu ap blk) l1) as [_ H3].
  specialize (H3 (acc_deployed _ _ _ _ _) [] (logged_deployed _ _ _ _ _ _)). fold s1 in H3. destruct (g_accused _ _ _ H3 h Ha) as (_ & r' & x & R1 & R2 & _). rewrite Hr in R1. injection R1 as <-.
  assert (s2 = (steps (deployed owner hu ap blk) (l1 ++ l2)).1) as Es2.
  { rewrite steps_app. unfold s2, s1. destruct (steps (deployed owner hu ap blk) l1) as [s0 f0]. cbn [fst]. by destruct (steps s0 l2). }
  assert (slasher s2 = slasher_address) as Hsl2. { unfold s2. rewrite C51_slasher_fixed; [done|]. by rewrite Hsl. }
  assert (a_executor (accusation_of s2 h) = e) as Ee by (rewrite He2; by rewrite <-R2).
  pose proof (C51_delay keccak ecrecover addr_bytes batcher_address slasher_address deposit_address owner hu ap blk l1 l2 e P1 P2 Hq) as Hdl. fold s1 in Hdl. fold s2 in Hdl. specialize (Hdl ltac:(lia)).
  pose proof (C74_anyone_slashes owner hu ap blk (l1 ++ l2) h) as Hany. cbv zeta in Hany. rewrite <-Es2, Ee, Hb2 in Hany.
  pose proof (acc_all keccak ecrecover addr_bytes batcher_address slasher_address deposit_address s1 l2) as (Hbl & _ & _). fold s2 in Hbl.
  destruct Hany as [Hany|Hany]; [done|done|done| |lia|done|done|by left|].
  { split; [lia|]. assert (a_block (accusation_of s1 h) + ap < 2 ^ 64) by lia. lia. }
  destruct Hdl as [Hdl|Hdl].
  { left. split; [done|]. rewrite Es2 in Hdl |- *. by apply (C51_slashed_forever keccak ecrecover addr_bytes batcher_address slasher_address deposit_address owner hu ap blk (l1 ++ l2) []). }
  right. split; [done|]. intros sender fuel. destruct (Hany sender fuel) as (s' & Hrun & Hsd & _ & _). exists s'. split; [done|]. intros l3.
  assert (s' = (steps (deployed owner hu ap blk) (l1 ++ l2 ++ [Tx (S fuel) sender (Slash h [])])).1) as Es'.
  { rewrite app_assoc, steps_app. rewrite Es2 in Hrun. destruct (steps (deployed owner hu ap blk) (l1 ++ l2)) as [s0 f0]. cbn [fst] in Hrun. unfold ContractsModel.steps, ContractsModel.step. cbn [foldl fst snd]. by rewrite Hrun. }
  rewrite Es' in Hsd |- *. by apply (C51_slashed_forever keccak ecrecover addr_bytes batcher_address slasher_address deposit_address).
Qed.
End Punish.

(** a concrete case: keyper 8 executed something that only keyper 7 signed; his deposit of 50 is locked for 40 blocks *)
Definition s74 := (msteps (deployed 2 9 5 10 100) (setup 2 ++ [Tx 1 8 (TokenSend 0 40)])).1.
Definition r74 : receipt := receipt_of s74 0.
Definition l74 : list event := [Tx 1 4 (Appeal (mkAuth 0 [] [0] [wsig 7])); Tx 1 4 (Appeal (mkAuth 0 [] [0; 0] [wsig 7; wsig 7])); Tx 1 8 RequestWithdrawal; Mine 10; Tx 1 8 (Withdraw 4 [])].
Example C74_witness :
  receipts s74 !! 0 = Some r74 ∧ r_executor r74 = 8%N ∧ config_for (scheduled (cc s74)) 0 1 (wc 2) ∧ open_block (wc 2) 0 ≤ block s74 ∧
  a_accused (accusation_of s74 0) = true ∧ a_appealed (accusation_of s74 0) = false ∧ signers [7%N] (wc 2) < threshold (wc 2) ∧
  signed_only_events (λ x, x) wrec (λ _, [1]%N) 1 [7%N] 0 r74 l74 ∧
  d_requested (deposit_of s74 8) = 0 ∧ a_block (accusation_of s74 0) + 10 ≤ block (msteps s74 l74).1 < block s74 + d_delay (deposit_of s74 8) ∧
  slasher s74 = 2%N ∧ slashing_receiver (msteps s74 l74).1 ≠ 3%N ∧ d_amount (deposit_of s74 8) = 50 ∧ (msteps s74 l74).2 = [] ∧
  (msteps s74 (l74 ++ [Tx 1 5 (Slash 0 [])])).2 = [FTokensOut 8 0 50; FSlashed 0 8].
Proof.
  split; [by vm_compute|]. split; [by vm_compute|]. split.
  { split; [by vm_compute|]. split; [done|]. intros j c' Hj Hc'. apply lookup_lt_Some in Hc'. vm_compute in Hc'. lia. }
  split; [by vm_compute|]. split; [by vm_compute|]. split; [by vm_compute|]. split; [by vm_compute|]. split; [|by vm_compute].
  assert (∀ a is sigs, Forall (λ i, 0 ≤ i) is → Forall (.= wsig 7) sigs → signed_only_by (λ x, x) wrec (λ _, [1]%N) 1 [7%N] 0 r74 a (Appeal (mkAuth 0 [] is sigs))) as Hap.
  { intros a is sigs H1 H2. constructor; [|intros x []%elem_of_nil]. intros u [= <-] _. split; [done|]. intros sig k Hsig Hrec.
    cbn in Hsig. rewrite Forall_forall in H2. rewrite (H2 _ Hsig) in Hrec. vm_compute in Hrec. injection Hrec as <-. by apply elem_of_list_here. }
  assert (Forall (λ e, match e with Tx _ a c => signed_only_by (λ x, x) wrec (λ _, [1]%N) 1 [7%N] 0 r74 a c | Mine _ => True end) l74) as Hl.
  { unfold l74. apply Forall_cons. split; [apply Hap; [by repeat constructor|]; apply Forall_singleton; reflexivity|].
    apply Forall_cons. split; [apply Hap; [by repeat constructor|]; apply Forall_cons; split; [reflexivity|]; apply Forall_singleton; reflexivity|].
    apply Forall_cons. split; [constructor; [discriminate|intros x []%elem_of_nil]|]. apply Forall_cons. split; [exact I|]. apply Forall_singleton.
    constructor; [discriminate|intros x []%elem_of_nil]. }
  intros fuel a c0 Hin. rewrite Forall_forall in Hl. exact (Hl _ Hin).
Qed.
(** C74 for every executor is false: nothing makes the withdrawal delay longer than the appeal period.  Keyper 8, whose delay is 4
    blocks, executes something nobody signed, is accused, takes his deposit back, and is slashed for nothing. *)
Theorem C74_costs_refuted :
  let s1 := (msteps (deployed 2 9 5 10 100) (setup 2)).1 in
  (msteps (deployed 2 9 5 10 100) (setup 2)).2 ≠ [] ∧ d_amount (deposit_of s1 8) = 50 ∧ d_requested (deposit_of s1 8) = 0 ∧ a_accused (accusation_of s1 0) = true ∧
  a_executor (accusation_of s1 0) = 8%N ∧ slasher s1 = 2%N ∧
  (msteps s1 [Tx 1 8 RequestWithdrawal; Mine 4; Tx 1 8 (Withdraw 4 []); Mine 6; Tx 1 7 (Slash 0 [])]).2 = [FTokensOut 8 4 50; FTokensOut 8 0 0; FSlashed 0 8].
Proof. vm_compute. done. Qed.
(** ... and nothing makes an executor have a deposit at all: keyper 7 has none *)
Theorem C74_no_deposit_refuted :
  let l := take 7 (setup 2) ++ [Mine 10; Tx 1 7 (ExecCipher 0 cipher_hash [[6]%N] 0 []); Tx 1 9 (Accuse 0 2); Mine 10; Tx 1 4 (Slash 0 [])] in
  drop 7 (msteps (deployed 2 9 5 10 100) l).2 = [FAccused 0 7 9; FTokensOut 7 0 0; FSlashed 0 7].
Proof. vm_compute. done. Qed.

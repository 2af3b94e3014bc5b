(** C54: the keyper's view of the main chain is the chain. *)
From stdpp Require Import list gmap sorting.
From Coq Require Import ZArith NArith Lia.
From Verif Require Import ArithModel ContractsModel ContractsProofs PropsConfig PropsBatcher PropsExec PropsSlasher MainModel MainProofs.
Local Open Scope Z_scope.

Section Main.
Context (keccak : list N → list N) (ecrecover : list N → Z → Z → Z → option N) (addr_bytes : N → list N).
Context (batcher_address slasher_address deposit_address : N).
Context (owner : N) (hu ap : Z).
Notation run := (run keccak ecrecover addr_bytes batcher_address slasher_address deposit_address).
Notation steps := (steps keccak ecrecover addr_bytes batcher_address slasher_address deposit_address).
Notation genesis := (genesis slasher_address owner hu ap).
Notation state_at := (state_at keccak ecrecover addr_bytes batcher_address slasher_address deposit_address owner hu ap).
Notation block_log := (block_log keccak ecrecover addr_bytes batcher_address slasher_address deposit_address owner hu ap).
Notation logs_between := (logs_between keccak ecrecover addr_bytes batcher_address slasher_address deposit_address owner hu ap).
Notation log_at := (log_at keccak ecrecover addr_bytes batcher_address slasher_address deposit_address owner hu ap).
Notation sync_to_head := (sync_to_head keccak ecrecover addr_bytes batcher_address slasher_address deposit_address owner hu ap).
Notation sync_main := (sync_main keccak ecrecover addr_bytes batcher_address slasher_address deposit_address owner hu ap).
Notation state_step := (state_step keccak ecrecover addr_bytes batcher_address slasher_address deposit_address owner hu ap).
Notation block_at := (block_at keccak ecrecover addr_bytes batcher_address slasher_address deposit_address owner hu ap).

(** ** Specification *)
(** The chain [ch] on which the network settles.  What the node reports: at each new head it may be on any fork whose blocks at
    least [F] (the follow distance) below the head are settled; the head number does not decrease. *)
Fixpoint settled (ch : chain) (F : Z) (prev : Z) (heads : list (chain * Z * bool)) : Prop :=
  match heads with
  | [] => True
  | (c, latest, _) :: heads => prev ≤ latest < 2 ^ 64 ∧ same_upto c ch (Z.to_nat (latest - F)) ∧ settled ch F latest heads
  end.

(** ** Invariant *)
Record view_ok (ch : chain) (F : Z) (v : view) : Prop := {
  ok_follow : follow v = F;
  ok_current : 0 ≤ current v < 2 ^ 64;
  ok_txs : ∀ b t, txs_of (mb (v_batches v) b) t = added b t (log_at ch (Z.to_nat (current v)));
  ok_hashes : hashes_match (v_batches v) (state_at ch (Z.to_nat (current v)));
  ok_half : v_half_steps v = half_steps (state_at ch (Z.to_nat (current v)));
  ok_receipts : ∀ h, h ≠ 0 → v_receipts v !! h = if h mod 2 =? 0 then receipts (state_at ch (Z.to_nat (current v))) !! h else None;
  ok_accs : ∀ h, match v_accusations v !! h with
    | None => a_accused (accusation_of (state_at ch (Z.to_nat (current v))) h) = false
    | Some a => let x := accusation_of (state_at ch (Z.to_nat (current v))) h in
        a_accused x = true ∧ a_executor x = ma_executor a ∧ a_appealed x = ma_appealed a ∧ a_block x = ma_block a ∧ ma_half_step a = h
    end
}.
Lemma app_inv_at ch n : app_inv (state_at ch n).
Proof.
  unfold MainModel.state_at. destruct (acc_all keccak ecrecover addr_bytes batcher_address slasher_address deposit_address genesis (history ch n)) as (_ & _ & H).
  destruct (H (acc_deployed _ owner hu ap 0)) as [Hi _]. intros h Ha. apply Hi. by left.
Qed.
Definition rec_inv (s : state) : Prop := 0 ≤ half_steps s ∧ ∀ h r, receipts s !! h = Some r → 0 ≤ h < half_steps s ∧ r_half_step r = h.
Lemma rec_inv_grow s s' : receipts s' = receipts s → half_steps s ≤ half_steps s' → rec_inv s → rec_inv s'.
Proof. intros E1 E2 [H1 H2]. split; [lia|]. intros h r. rewrite E1. intros Hr. destruct (H2 h r Hr). split; [lia|done]. Qed.
Lemma rec_inv_at ch n : rec_inv (state_at ch n).
Proof.
  unfold MainModel.state_at. apply (steps_rel keccak ecrecover addr_bytes batcher_address slasher_address deposit_address any ltac:(done) (λ s f s', rec_inv s → rec_inv s'));
    [..|apply any_events|split; [done|]; intros h r; cbn; by rewrite lookup_empty]; shapes; try (eapply rec_inv_grow; [..|eassumption]; [done|cbn; lia]); try done.
  - auto.
  - match goal with H : rec_inv _ → rec_inv s1 |- _ => destruct H as [I1 I2]; [done|] end. split; [cbn; lia|]. intros x r. cbn.
    destruct (decide (half_steps s1 = x)) as [<-|]; [rewrite lookup_insert; intros [= <-]; cbn; lia|]. rewrite lookup_insert_ne by done. intros Hr. destruct (I2 x r Hr). split; [lia|done].
  - match goal with H : rec_inv _ → rec_inv s1 |- _ => eapply rec_inv_grow; [..|apply H; assumption]; [done|cbn; lia] end.
  - match goal with H : rec_inv _ → rec_inv s3 |- _ => apply (rec_inv_grow s3); [done|done|]; apply H end. eapply rec_inv_grow; [..|eassumption]; done.
Qed.
(** from one settled block to a later one *)
Lemma accs_at ch n k : Z.of_nat (n + k) < 2 ^ 64 → accs (state_at ch n) (logs_between ch (S n) (n + k)) (state_at ch (n + k)).
Proof.
  induction k as [|k IH]; intros Hb.
  - rewrite Nat.add_0_r. rewrite logs_between_none by lia. apply accs_same; [done|constructor].
  - rewrite Nat.add_succ_r. rewrite logs_between_S by lia. eapply accs_trans; [apply IH; lia|].
    rewrite (state_at_eq _ _ _ _ _ _ _ _ _ ch (S (n + k))). unfold MainModel.block_log. fold (pre keccak ecrecover addr_bytes batcher_address slasher_address deposit_address owner hu ap ch (S (n + k))).
    destruct (block_at ch (S (n + k))) as [B1 B2]. 
    destruct (accs_block keccak ecrecover addr_bytes batcher_address slasher_address deposit_address (pre keccak ecrecover addr_bytes batcher_address slasher_address deposit_address owner hu ap ch (S (n + k))) (block_events ch (S (n + k)))) as [_ H]; [lia|].
    specialize (H ltac:(rewrite block_tx by apply events_tx; done)). rewrite B2 in H. specialize (H ltac:(lia)).
    rewrite pre_S in *. exact H.
Qed.
Lemma log_between ch n k : log_at ch (n + k) = log_at ch n ++ (snd <$> logs_between ch (S n) (n + k)).
Proof.
  induction k as [|k IH].
  - rewrite Nat.add_0_r, logs_between_none by lia. by rewrite app_nil_r.
  - rewrite Nat.add_succ_r, log_at_S, IH, logs_between_S by lia. rewrite fmap_app, app_assoc. f_equal. rewrite <-list_fmap_compose. cbn. by rewrite list_fmap_id.
Qed.
Lemma hashes_between ch n k m : hashes_match m (state_at ch n) → hashes_match (foldl note_transaction m (snd <$> logs_between ch (S n) (n + k))) (state_at ch (n + k)).
Proof.
  intros Hm. induction k as [|k IH].
  - by rewrite Nat.add_0_r, logs_between_none by lia.
  - rewrite Nat.add_succ_r, logs_between_S by lia. rewrite fmap_app, foldl_app, <-list_fmap_compose. cbn. rewrite list_fmap_id.
    destruct (state_step ch (n + k)) as [-> ->]. by apply hashes_all.
Qed.
Definition rec_rel (s : state) (f : list effect) (s' : state) : Prop := half_steps s ≤ half_steps s' ∧ ∀ h, h < half_steps s → receipts s' !! h = receipts s !! h.
Lemma rec_rel_trans s f s1 g s2 : rec_rel s f s1 → rec_rel s1 g s2 → rec_rel s (f ++ g) s2.
Proof. intros [H1 H2] [G1 G2]. split; [lia|]. intros h Hh. rewrite G2 by lia. by apply H2. Qed.
Lemma rec_rel_steps s l : rec_rel s (steps s l).2 (steps s l).1.
Proof.
  apply (steps_rel keccak ecrecover addr_bytes batcher_address slasher_address deposit_address any ltac:(done) rec_rel);
    [..|apply any_events]; shapes; try (split; [cbn; lia|done]).
  - by eapply rec_rel_trans.
  - eapply rec_rel_trans; [eassumption|]. split; [cbn; lia|]. intros x Hx. cbn. by rewrite lookup_insert_ne by lia.
  - eapply rec_rel_trans; [eassumption|]. split; [cbn; lia|done].
  - match goal with H : rec_rel ?t f _ |- rec_rel ?s0 (?e :: _) _ => apply (rec_rel_trans s0 [e] t) end; [split; [cbn; lia|done]|].
    eapply rec_rel_trans; [eassumption|]. split; [cbn; lia|done].
Qed.
Lemma receipts_between ch n k : half_steps (state_at ch n) ≤ half_steps (state_at ch (n + k)) ∧
  ∀ h, h < half_steps (state_at ch n) → receipts (state_at ch (n + k)) !! h = receipts (state_at ch n) !! h.
Proof.
  induction k as [|k [IH1 IH2]]; [by rewrite Nat.add_0_r|]. rewrite Nat.add_succ_r. destruct (state_step ch (n + k)) as [-> _].
  destruct (rec_rel_steps (state_at ch (n + k)) (Mine 1 :: block_events ch (S (n + k)))) as [H1 H2]. split; [lia|]. intros h Hh. rewrite H2 by lia. by apply IH2.
Qed.
(** one synchronisation *)
Lemma sync_ok ch F v c latest sy : 0 ≤ F → view_ok ch F v → current v ≤ Z.max 0 (latest - F) → 0 ≤ latest < 2 ^ 64 →
  same_upto c ch (Z.to_nat (latest - F)) →
  ∃ v', sync_to_head v c latest sy = Some v' ∧ view_ok ch F v' ∧ current v' = Z.max 0 (latest - F) ∧
    (v' = v ∧ latest = current v ∨ v_configs v' = sync_configs (v_configs v) (state_at ch (Z.to_nat (current v'))) ∧ v_synced v' = sy).
Proof.
  intros HF Hv Hle Hl Hc. unfold MainModel.sync_to_head. destruct (Z.eqb_spec latest (current v)) as [->|Hne].
  { exists v. split; [done|]. split; [done|]. split; [lia|by left]. }
  destruct Hv as [E1 E2 E3 E4 E5 E6 E7].
  assert ((if follow v <=? latest then latest - follow v else 0) = Z.max 0 (latest - F)) as -> by (rewrite E1; destruct (Z.leb_spec F latest); lia).
  replace (Z.to_nat (latest - F)) with (Z.to_nat (Z.max 0 (latest - F))) in Hc by lia.
  set (u := Z.max 0 (latest - F)) in *. assert (0 ≤ u < 2 ^ 64) as Hu by lia. clearbody u. clear Hne.
  destruct (state_at_same keccak ecrecover addr_bytes batcher_address slasher_address deposit_address owner hu ap c ch (Z.to_nat u) Hc) as [Es _]. rewrite Es.
  rewrite (logs_same _ _ _ _ _ _ _ _ _ _ _ _ _ Hc).
  replace (Z.to_nat (current v + 1)) with (S (Z.to_nat (current v))) by lia.
  set (n := Z.to_nat (current v)) in *. replace (Z.to_nat u) with (n + (Z.to_nat u - n))%nat in * by lia. set (k := (Z.to_nat u - n)%nat).
  pose proof (accs_at ch n k ltac:(lia) (app_inv_at ch n)) as [_ Ha].
  set (L := logs_between ch (S n) (n + k)) in *. set (m1 := foldl note_accused (v_accusations v) L).
  assert (∀ h, match m1 !! h with
    | None => a_accused (accusation_of (state_at ch (n + k)) h) = false ∧ appeal_of h L = false
    | Some a => let x := accusation_of (state_at ch (n + k)) h in
        a_accused x = true ∧ a_executor x = ma_executor a ∧ a_appealed x = ma_appealed a || appeal_of h L ∧ a_block x = ma_block a ∧ ma_half_step a = h end) as Hm1.
  { intros h. unfold m1. rewrite note_accused_spec. specialize (Ha h). specialize (E7 h). unfold acc_rel in Ha. destruct (v_accusations v !! h) as [a|].
    - destruct E7 as (A1 & A2 & A3 & A4 & A5). rewrite A1 in Ha. destruct Ha as (B1 & B2 & B3 & B4 & B5). rewrite B1. cbn. split_and!; [done|congruence|by rewrite B5, A3|congruence|done].
    - rewrite E7 in Ha. destruct Ha as [(B1 & B2 & B3)|(x & y & B1 & B2 & B3 & B4)]; rewrite B1; cbn; done. }
  destruct (note_appealed_spec L m1) as (m2 & Em2 & Hm2).
  { intros h Hh. specialize (Hm1 h). destruct (m1 !! h); [eauto|]. destruct Hm1 as [_ Hf]. congruence. }
  unfold sync_slashings. fold m1. rewrite Em2. eexists. split; [reflexivity|]. split; [|split; [done|right; cbn [v_configs current v_synced]]].
  2: { split; [|done]. f_equal. f_equal. lia. }
  split; cbn [follow current v_synced v_configs v_batches v_half_steps v_receipts v_accusations]; try replace (Z.to_nat u) with (n + k)%nat by lia.
  - done.
  - lia.
  - intros b t. rewrite note_txs, E3, log_between. by rewrite added_app.
  - by apply hashes_between.
  - done.
  - intros h Hh. unfold sync_receipts. destruct (receipts_between ch n k) as [R1 R2]. destruct (rec_inv_at ch (n + k)) as [I1 I2]. destruct (rec_inv_at ch n) as [J1 J2].
    replace (half_steps (state_at ch (n + k)) - v_half_steps v) with (Z.of_nat (Z.to_nat (half_steps (state_at ch (n + k)) - v_half_steps v))) by lia.
    rewrite sync_receipts_spec; [|intros x r Hr; by destruct (I2 x r Hr)|done]. rewrite Z2Nat.id by lia. rewrite E5.
    replace (half_steps (state_at ch n) + (half_steps (state_at ch (n + k)) - half_steps (state_at ch n))) with (half_steps (state_at ch (n + k))) by lia.
    rewrite (E6 h Hh). destruct (Z.leb_spec (half_steps (state_at ch n)) h); cbn [andb].
    + assert (receipts (state_at ch n) !! h = None) as ->. { destruct (receipts (state_at ch n) !! h) as [r|] eqn:Er; [|done]. destruct (J2 h r Er). lia. }
      destruct (Z.ltb_spec h (half_steps (state_at ch (n + k)))); cbn [andb].
      * destruct (h mod 2 =? 0); [|done]. by destruct (receipts (state_at ch (n + k)) !! h).
      * destruct (receipts (state_at ch (n + k)) !! h) as [r|] eqn:Er; [destruct (I2 h r Er); lia|]. done.
    + by rewrite R2.
  - intros h. rewrite Hm2. specialize (Hm1 h). destruct (m1 !! h) as [a|]; cbn in *; [|by destruct Hm1]. done.
Qed.
Lemma new_view_ok ch F : ch 0%nat = [] → view_ok ch F (new_view F).
Proof.
  intros H0. assert (state_at ch 0 = genesis ∧ log_at ch 0 = []) as [Es El].
  { unfold MainModel.state_at, MainProofs.log_at, history, history_before, block_events. cbn. by rewrite H0. }
  split; cbn [new_view follow current v_synced v_configs v_batches v_half_steps v_receipts v_accusations]; change (Z.to_nat 0) with 0%nat; rewrite ?Es, ?El.
  - done.
  - lia.
  - intros b []; unfold mb; by rewrite lookup_empty.
  - intros b []; unfold mb, hash_of; cbn; by rewrite !lookup_empty.
  - done.
  - intros h _. cbn. rewrite !lookup_empty. by destruct (_ =? _).
  - intros h. rewrite lookup_empty. unfold accusation_of. cbn. by rewrite lookup_empty.
Qed.
Lemma sync_main_ok ch F v heads prev : 0 ≤ F → 0 ≤ prev → view_ok ch F v → current v ≤ Z.max 0 (prev - F) → settled ch F prev heads →
  view_ok ch F (sync_main v heads) ∧
  ∀ c latest sy, last heads = Some (c, latest, sy) → current (sync_main v heads) = Z.max 0 (latest - F).
Proof.
  intros HF. revert v prev. induction heads as [|[[c latest] sy] heads IH]; intros v prev Hp Hv Hcur Hs; [done|].
  destruct Hs as (Hl & Hc & Hs). unfold MainModel.sync_main. cbn [foldl].
  destruct (sync_ok ch F v c latest sy HF Hv ltac:(lia) ltac:(lia) Hc) as (v' & E & Hv' & Hcur' & _). rewrite E. cbn [default].
  destruct (IH v' latest ltac:(lia) Hv' ltac:(lia) Hs) as [H1 H2]. split; [exact H1|]. intros c' l' s'. destruct heads as [|hd heads].
  - intros [= <- <- <-]. exact Hcur'.
  - intros Hx. eapply (H2 c' l' s'). exact Hx.
Qed.

(** the configs, as long as none is unscheduled *)
Definition append_only (ch : chain) : Prop := ∀ m m', (m ≤ m')%nat → ∃ l, scheduled (cc (state_at ch m')) = scheduled (cc (state_at ch m)) ++ l.
Definition configs_ok (ch : chain) (v : view) : Prop :=
  v_configs v = read_config <$> scheduled (cc (state_at ch (Z.to_nat (current v)))) ∨ v_configs v = [] ∧ current v = 0.
Lemma sync_main_configs ch F v heads prev : 0 ≤ F → 0 ≤ prev → append_only ch → view_ok ch F v → configs_ok ch v → current v ≤ Z.max 0 (prev - F) → settled ch F prev heads →
  configs_ok ch (sync_main v heads) ∧ (∀ c latest sy, last heads = Some (c, latest, sy) → 0 < latest → 
     v_configs (sync_main v heads) = read_config <$> scheduled (cc (state_at ch (Z.to_nat (current (sync_main v heads)))))).
Proof.
  intros HF Hp0 Hao. revert v prev Hp0. induction heads as [|[[c latest] sy] heads IH]; intros v prev Hp Hv Hcf Hcur Hs; [done|].
  destruct Hs as (Hl & Hc & Hs). unfold MainModel.sync_main. cbn [foldl].
  destruct (sync_ok ch F v c latest sy HF Hv ltac:(lia) ltac:(lia) Hc) as (v' & E & Hv' & Hcur' & Hx). rewrite E. cbn [default].
  assert (configs_ok ch v' ∧ (0 < latest → v_configs v' = read_config <$> scheduled (cc (state_at ch (Z.to_nat (current v')))))) as [Hcf' Hpos].
  { destruct Hx as [[-> Hlc]|[Hx _]].
    - split; [done|]. intros Hpos. destruct Hcf as [?|[_ ?]]; [done|lia].
    - assert (v_configs v' = read_config <$> scheduled (cc (state_at ch (Z.to_nat (current v'))))) as Hy; [|split; [by left|done]].
      rewrite Hx. unfold sync_configs. destruct Hcf as [Hcf|[-> _]]; [|done].
      rewrite Hcf, fmap_length. destruct (Hao (Z.to_nat (current v)) (Z.to_nat (current v'))) as [l ->]; [|by rewrite drop_app, fmap_app].
      lia. }
  destruct (IH v' latest ltac:(lia) Hv' Hcf' ltac:(lia) Hs) as [H1 H2]. split; [exact H1|]. intros c' l' s'. destruct heads as [|hd heads].
  - intros [= <- <- <-]. exact Hpos.
  - intros Hy. eapply (H2 c' l' s'). exact Hy.
Qed.

(** ** C54 *)
Section Settled.
Context (ch : chain) (H0 : ch 0%nat = []) (F : Z) (HF : 0 ≤ F) (heads : list (chain * Z * bool)) (Hs : settled ch F 0 heads).
Notation v := (sync_main (new_view F) heads).
Notation n := (Z.to_nat (current v)).
Lemma final_ok : view_ok ch F v.
Proof. eapply (sync_main_ok ch F (new_view F) heads 0 HF); [lia|by apply new_view_ok|cbn; lia|done]. Qed.
(** the view follows the head at the follow distance, and no synchronisation fails for good *)
Theorem C54_height c latest sy : last heads = Some (c, latest, sy) → current v = Z.max 0 (latest - F).
Proof. eapply (sync_main_ok ch F (new_view F) heads 0 HF); [lia|by apply new_view_ok|cbn; lia|done]. Qed.
(** the transactions and hashes of every batch are those of the settled chain at that block, whatever forks the node was on, and
    whenever it was asked *)
Theorem C54_batches b t : txs_of (mb (v_batches v) b) t = added b t (log_at ch n) ∧ hash_in (mb (v_batches v) b) t = hash_of (state_at ch n) b t.
Proof. destruct final_ok as [_ _ E3 E4 _ _ _]. split; [apply E3|apply E4]. Qed.
(** the number of half steps and the receipts (but see [C54_receipt0_refuted]) *)
Theorem C54_execution_partial : v_half_steps v = half_steps (state_at ch n) ∧
  ∀ h, h ≠ 0 → v_receipts v !! h = if h mod 2 =? 0 then receipts (state_at ch n) !! h else None.
Proof. destruct final_ok as [_ _ _ _ E5 E6 _]. split; [apply E5|apply E6]. Qed.
(** accusations and appeals *)
Theorem C54_accusations h :
  let x := accusation_of (state_at ch n) h in
  (is_Some (v_accusations v !! h) ↔ a_accused x = true) ∧
  ∀ a, v_accusations v !! h = Some a → ma_half_step a = h ∧ ma_executor a = a_executor x ∧ ma_appealed a = a_appealed x ∧ ma_block a = a_block x.
Proof.
  destruct final_ok as [_ _ _ _ _ _ E7]. intros x. specialize (E7 h). fold x in E7. destruct (v_accusations v !! h) as [a|].
  - destruct E7 as (A1 & A2 & A3 & A4 & A5). split; [by split; [|eauto]|]. intros ? [= <-]. done.
  - split; [|done]. split; [by intros [? ?]|]. congruence.
Qed.
(** the configs, if the owner never unschedules one (but see [C54_configs_refuted]) *)
Theorem C54_configs_partial c latest sy : append_only ch → last heads = Some (c, latest, sy) → 0 < latest →
  v_configs v = read_config <$> scheduled (cc (state_at ch n)).
Proof.
  intros Hao Hl Hpos. eapply (sync_main_configs ch F (new_view F) heads 0 HF); [lia|done|by apply new_view_ok|by right|cbn; lia|done|done|done].
Qed.
End Settled.
Lemma quiet_block ch n : ch (S n) = [] → scheduled (cc (state_at ch (S n))) = scheduled (cc (state_at ch n)).
Proof. intros E. destruct (state_step ch n) as [-> _]. unfold block_events. by rewrite E. Qed.
End Main.

(** ** Witnesses and findings *)
(** the same stand-ins for the hash and the recovery of signers as in PropsContracts *)
Notation wstate := (state_at (λ x, x) (λ _ _ r _, Some (Z.to_N r)) (λ _, [1]%N) 1 2 3 9 5 10).
Notation wlog := (log_at (λ x, x) (λ _ _ r _, Some (Z.to_N r)) (λ _, [1]%N) 1 2 3 9 5 10).
Notation wsync := (sync_main (λ x, x) (λ _ _ r _, Some (Z.to_N r)) (λ _, [1]%N) 1 2 3 9 5 10).
Notation wsync_head := (sync_to_head (λ x, x) (λ _ _ r _, Some (Z.to_N r)) (λ _, [1]%N) 1 2 3 9 5 10).
Definition wcfg := mkConfig 0 10 [7; 8; 9]%N 2 10 1000 100 1000 0 1 1 5.
Definition wchain : chain := λ n, match n with
  | 1 => [(1, 9%N, SetNext wcfg); (1, 9%N, Schedule); (1, 8%N, TokenSend 50 4)]
  | 11 => [(1, 4%N, AddTx 0 Cipher [1; 2]%N 0)]
  | 12 => [(1, 4%N, AddTx 0 Cipher [3]%N 0); (1, 4%N, AddTx 0 Plain [4]%N 0)]
  | 20 => [(2, 8%N, ExecCipher 0 ([3; 1; 2]%N ++ zero32) [[5]%N] 1 [])]
  | 21 => [(2, 8%N, ExecPlain 0 [[4]%N] []); (1, 7%N, Accuse 0 0)]
  | 30 => [(1, 7%N, ExecCipher 1 [] [] 0 []); (1, 7%N, SkipEmpty 4)]
  | _ => [] end%nat.
(** a fork without the second block of transactions *)
Definition wfork : chain := λ n, if (n =? 12)%nat then [] else wchain n.
Definition wheads : list (chain * Z * bool) := [(wchain, 11, true); (wfork, 13, true); (wchain, 13, true); (wchain, 14, true); (wchain, 40, true)].
Lemma wfork_same n : (n < 12)%nat → same_upto wfork wchain n.
Proof. intros Hn m Hm. unfold wfork. destruct (Nat.eqb_spec m 12); [lia|done]. Qed.
Example C54_witness : wchain 0%nat = [] ∧ settled wchain 2 0 wheads ∧ last wheads = Some (wchain, 40, true) ∧
  enc_txs (mb (v_batches (wsync (new_view 2) wheads)) 0) = [[1; 2]; [3]]%N ∧ half_steps (wstate wchain 38) = 4 ∧
  ma_executor <$> (v_accusations (wsync (new_view 2) wheads) !! 0) = Some 8%N.
Proof.
  split; [done|]. split; [|split; [done|vm_compute; done]]. unfold wheads. cbn [settled].
  assert (same_upto wchain wchain 9 ∧ same_upto wchain wchain 11 ∧ same_upto wchain wchain 12 ∧ same_upto wchain wchain 38) as (?&?&?&?) by (split_and!; by intros ? ?).
  assert (same_upto wfork wchain 11) by (apply wfork_same; lia).
  split_and!; try lia; done.
Qed.
Lemma wchain_append_only : append_only (λ x, x) (λ _ _ r _, Some (Z.to_N r)) (λ _, [1]%N) 1 2 3 9 5 10 wchain.
Proof.
  assert (∀ m, (0 < m)%nat → scheduled (cc (wstate wchain m)) = [zero_config; wcfg]) as Hm.
  { intros m Hpos. destruct (decide (m ≤ 30)%nat) as [Hle|Hgt].
    - assert ((λ m, scheduled (cc (wstate wchain m))) <$> seq 1 30 = replicate 30 [zero_config; wcfg]) as Hall by (vm_compute; reflexivity).
      apply (f_equal (λ l, l !! (m - 1)%nat)) in Hall. rewrite list_lookup_fmap, lookup_seq_lt in Hall by lia. rewrite lookup_replicate_2 in Hall by lia.
      apply (inj Some) in Hall. by replace (1 + (m - 1))%nat with m in Hall by lia.
    - replace m with (30 + (m - 30))%nat by lia. induction (m - 30)%nat as [|k IH]; [vm_compute; done|].
      rewrite Nat.add_succ_r. rewrite quiet_block by (by destruct k). exact IH. }
  intros m m' Hle. destruct m as [|m]; [|rewrite !Hm by lia; exists []; by rewrite app_nil_r].
  destruct m' as [|m']; [exists []; by rewrite app_nil_r|]. rewrite (Hm (S m')) by lia. exists [wcfg]. vm_compute. reflexivity.
Qed.
Example C54_configs_witness : v_configs (wsync (new_view 2) wheads) = [zero_config; wcfg].
Proof. vm_compute. repeat split; reflexivity. Qed.

(** C54, finding: a config that was unscheduled in time, before anything used it, stays in the keyper's view for good, and the config
    scheduled in its place is never read: the keyper follows another config than the contracts *)
Definition ncfg := mkConfig 1 20 [4; 5; 6]%N 2 10 1000 100 1000 0 1 1 5.
Definition rcfg := mkConfig 2 30 [4; 5]%N 1 10 1000 100 1000 0 1 1 5.
Definition uchain : chain := λ n, match n with
  | 1 => [(1, 9%N, SetNext wcfg); (1, 9%N, Schedule)]
  | 2 => [(1, 9%N, SetNext ncfg); (1, 9%N, Schedule)]
  | 5 => [(1, 9%N, Unschedule 20); (1, 9%N, SetNext rcfg); (1, 9%N, Schedule)]
  | _ => [] end%nat.
Lemma settled_same ch F heads : ∀ prev, 0 ≤ prev → (∀ x, x ∈ heads → x.1.1 = ch) → Sorted Z.le (prev :: ((λ x, x.1.2) <$> heads)) → Forall (λ x, x.1.2 < 2 ^ 64) heads → settled ch F prev heads.
Proof.
  induction heads as [|[[c l] sy] heads IH]; intros prev Hp Hc Hsort Hb; [done|]. cbn [settled]. inversion_clear Hsort as [|? ? H1 H2]. inversion_clear H2. inversion_clear Hb.
  cbn in *. split; [lia|]. split; [pose proof (Hc (c, l, sy) ltac:(left)) as E; cbn in E; rewrite E; by intros ? ?|]. apply IH; [lia| |done|done]. intros x Hx. apply Hc. by right.
Qed.
Theorem C54_configs_refuted : ∃ ch heads F, 0 ≤ F ∧ ch 0%nat = [] ∧ settled ch F 0 heads ∧ current (wsync (new_view F) heads) = 10 ∧
  scheduled (cc (wstate ch 10)) = [zero_config; wcfg; rcfg] ∧ v_configs (wsync (new_view F) heads) = [zero_config; wcfg; ncfg].
Proof.
  exists uchain, [(uchain, 5, true); (uchain, 12, true)], 2. split; [lia|]. split; [done|]. split.
  - apply settled_same; [lia| |cbn; repeat constructor; lia|repeat constructor; cbn; lia]. intros x. rewrite !elem_of_cons, elem_of_nil. by intros [->|[->|[]]].
  - vm_compute. done.
Qed.

(** C54, finding: skipped half steps have an empty receipt, whose number is 0: reading it replaces the receipt of half step 0, so
    that the keeper of half step 0's receipt no longer knows who executed it *)
Theorem C54_receipt0_refuted : settled wchain 2 0 wheads ∧ r_executor <$> (receipts (wstate wchain 38) !! 0) = Some 8%N ∧
  v_receipts (wsync (new_view 2) wheads) !! 0 = Some zero_receipt ∧
  r_executor <$> (v_receipts (wsync (new_view 2) (take 4 wheads ++ [(wchain, 24, true)])) !! 0) = Some 8%N.
Proof. split; [apply C54_witness|]. vm_compute. repeat split; reflexivity. Qed.

(** C54, finding: the contract accepts a config that lists a keyper twice, and counts positions; the keyper drops the duplicates, so
    that its own index is another one, and what it submits with that index is rejected *)
Definition dcfg := mkConfig 0 10 [7; 7; 8]%N 1 10 1000 100 1000 0 1 1 5.
Definition dchain : chain := λ n, match n with
  | 1 => [(1, 9%N, SetNext dcfg); (1, 9%N, Schedule)]
  | 11 => [(1, 4%N, AddTx 0 Cipher [1; 2]%N 0)]
  | _ => [] end%nat.
Theorem C54_duplicate_keypers : ∃ c, v_configs (wsync (new_view 0) [(dchain, 20, true)]) !! 1%nat = Some c ∧ keypers c !! 1%nat = Some 8%N ∧
  run (λ x, x) (λ _ _ r _, Some (Z.to_N r)) (λ _, [1]%N) 1 2 3 1 (wstate dchain 20) 8 (ExecCipher 0 ([1; 2]%N ++ zero32) [[5]%N] 1 []) = Revert ∧
  (∃ r, run (λ x, x) (λ _ _ r _, Some (Z.to_N r)) (λ _, [1]%N) 1 2 3 1 (wstate dchain 20) 8 (ExecCipher 0 ([1; 2]%N ++ zero32) [[5]%N] 2 []) = Ok r).
Proof. eexists. split; [vm_compute; reflexivity|]. split; [vm_compute; reflexivity|]. split; [vm_compute; reflexivity|]. eexists. vm_compute. reflexivity. Qed.

(** C54, finding: when the node's head number goes back (it was replaced by one that lags behind), the view goes back too, and then
    reads the same blocks again: every transaction in them is noted twice, and the keyper decrypts another batch than the contracts know *)
Theorem C54_head_goes_back : let v := wsync (new_view 2) [(wchain, 15, true); (wchain, 10, true); (wchain, 15, true)] in
  current v = 13 ∧ added 0 Cipher (wlog wchain 13) = [[1; 2]; [3]]%N ∧ enc_txs (mb (v_batches v) 0) = [[1; 2]; [3]; [1; 2]; [3]]%N.
Proof. vm_compute. repeat split; reflexivity. Qed.


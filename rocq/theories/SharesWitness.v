(** Witnesses and findings for C55, on the run of [KeyperWitness]. *)
From stdpp Require Import list gmap.
From Coq Require Import ZArith NArith Lia Sorted.
From Verif Require Import Fq CryptoModel DkgModel EpochModel ObserveModel SyncModel SyncProofs ArithModel PropsArith ContractsModel ContractsProofs PropsConfig PropsBatcher MainModel MainProofs PropsMain
  DecideModel EncodingModel KeyperModel KeyperSpec KeyperRunProofs KeyperSystem PropsExecution PropsShares PropsKeyShares KeyperWitness.
Local Open Scope Z_scope.
Notation wappend := (append_only (λ x, x) (λ _ _ r _, Some (Z.to_N r)) (λ _, [1]%N) 1 2 3 9 5 10).
Notation wsynced := (synced (λ x, x) (λ _ _ r _, Some (Z.to_N r)) (λ _, [1]%N) 1 2 3 9 5 10).

(** a chain whose configs are all scheduled in block 1 *)
Local Opaque wks wacts obs_at wend.
Lemma append_once ch (n : nat) cs : (∀ m, (n < m)%nat → ch m = []) → (λ m, scheduled (cc (wstate ch m))) <$> seq 1 n = replicate n cs → scheduled (cc (wstate ch 0)) = [zero_config] → (∃ l, cs = zero_config :: l) → (0 < n)%nat →
  wappend ch ∧ ∀ m, (0 < m)%nat → scheduled (cc (wstate ch m)) = cs.
Proof.
  intros Hq Hall H0 [l Hl] Hn.
  assert (Hs : ∀ m, (1 ≤ m ≤ n)%nat → scheduled (cc (wstate ch m)) = cs).
  { intros m Hm. apply (f_equal (λ l, l !! (m - 1)%nat)) in Hall. rewrite list_lookup_fmap, lookup_seq_lt in Hall by lia. rewrite lookup_replicate_2 in Hall by lia. apply (inj Some) in Hall. by replace (1 + (m - 1))%nat with m in Hall by lia. }
  assert (Hm : ∀ m, (0 < m)%nat → scheduled (cc (wstate ch m)) = cs).
  { intros m Hpos. destruct (decide (m ≤ n)%nat) as [Hle|Hgt].
    - apply Hs. lia.
    - replace m with (n + (m - n))%nat by lia. clear Hgt Hpos. induction (m - n)%nat as [|k IH].
      + rewrite Nat.add_0_r. apply Hs. lia.
      + rewrite Nat.add_succ_r. rewrite quiet_block by (apply Hq; lia). exact IH. }
  split; [|done]. intros m m' Hle. destruct m as [|m]; [|rewrite !Hm by lia; exists []; by rewrite app_nil_r].
  destruct m' as [|m']; [exists []; by rewrite app_nil_r|]. rewrite (Hm (S m')) by lia. rewrite H0. by exists l.
Qed.
Lemma mview_settled ch n : 0 ≤ n < 2 ^ 32 → PropsMain.settled ch 2 0 [(ch, n + 2, true)].
Proof.
  intros Hn. apply settled_same; [lia| | |].
  - by intros x ->%elem_of_list_singleton.
  - repeat constructor. cbn. lia.
  - repeat constructor. cbn. lia.
Qed.
Lemma mview_synced ch n : ch 0%nat = [] → 0 ≤ n < 2 ^ 32 → wsynced ch 2 (mview ch n) ∧ current (mview ch n) = n.
Proof.
  intros H0 Hn. split; [split; [done|]; split; [lia|]; exists [(ch, n + 2, true)]; split; [by apply mview_settled|done]|].
  pose proof (C54_height (λ x, x) (λ _ _ r _, Some (Z.to_N r)) (λ _, [1]%N) 1 2 3 9 5 10 ch H0 2 ltac:(lia) [(ch, n + 2, true)] (mview_settled ch n Hn) ch (n + 2) true eq_refl) as E. etransitivity; [exact E|lia].
Qed.
Lemma inputs_views mch a os ns (x : kinput FP N) : x ∈ zip_with (input_of mch a) os ns → ∃ n, n ∈ ns ∧ in_view x = mview mch n.
Proof.
  intros H.
  apply elem_of_list_lookup in H as (j & H). apply lookup_zip_with_Some in H as ([h w] & n & -> & Ho & Hn). exists n. split; [by eapply elem_of_list_lookup_2|done].
Qed.

(** ** The run of [KeyperWitness] meets the hypotheses of C55 *)
Lemma k_append : wappend kchain ∧ ∀ m, (0 < m)%nat → scheduled (cc (wstate kchain m)) = [zero_config; kcfg].
Proof.
  apply (append_once kchain 11); [|vm_compute; reflexivity|vm_compute; reflexivity|by eexists|lia].
  intros m Hm. do 12 (destruct m as [|m]; [lia|]). reflexivity.
Qed.
Lemma inputs_synced mch a os ns lo hi (x : kinput FP N) : mch 0%nat = [] → 0 ≤ lo → hi < 2 ^ 32 → Forall (λ n, lo ≤ n ≤ hi) ns → x ∈ zip_with (input_of mch a) os ns →
  ∃ n, lo ≤ n ≤ hi ∧ in_view x = mview mch n ∧ wsynced mch 2 (in_view x) ∧ current (in_view x) = n.
Proof.
  intros H0 Hlo Hhi Hall H. apply inputs_views in H as (n & Hn & E). rewrite Forall_forall in Hall. specialize (Hall n Hn). exists n. split; [exact Hall|]. split; [exact E|].
  rewrite E. apply mview_synced; [exact H0|lia].
Qed.
Lemma inputs_rise mch a os ns lo hi : mch 0%nat = [] → 0 ≤ lo → hi < 2 ^ 32 → Forall (λ n, lo ≤ n ≤ hi) ns → StronglySorted Z.le ns →
  ∀ (j k : nat) x y, (j ≤ k)%nat → zip_with (input_of mch a) os ns !! j = Some x → zip_with (input_of mch a) os ns !! k = Some y → current (in_view x) ≤ current (in_view y).
Proof.
  intros H0 Hlo Hhi Hall Hs j k x y Hjk Hx Hy. apply lookup_zip_with_Some in Hx as ([h w] & n & -> & _ & Hn). apply lookup_zip_with_Some in Hy as ([h' w'] & n' & -> & _ & Hn'). cbn [in_view input_of].
  rewrite Forall_lookup in Hall. pose proof (Hall j n Hn). pose proof (Hall k n' Hn'). rewrite (proj2 (mview_synced mch n H0 ltac:(lia))), (proj2 (mview_synced mch n' H0 ltac:(lia))). clear -Hs Hn Hn' Hjk. revert j k Hjk Hn Hn'. induction Hs as [|z l Hs IH HF]; intros j k Hjk Hn Hn'; [by rewrite lookup_nil in Hn|].
  destruct j as [|j], k as [|k]; [rewrite Hn in Hn'; injection Hn' as ->; lia| |lia|apply (IH j k); [lia|done|done]]. injection Hn as ->. rewrite Forall_lookup in HF. by apply (HF k).
Qed.
Lemma inputs_current mch a os ns (j : nat) (x : kinput FP N) n : mch 0%nat = [] → 0 ≤ n < 2 ^ 32 → zip_with (input_of mch a) os ns !! j = Some x → ns !! j = Some n → current (in_view x) = n.
Proof.
  intros H0 Hn Hx En. apply lookup_zip_with_Some in Hx as ([h w] & n' & -> & _ & Hn'). rewrite En in Hn'. injection Hn' as <-. cbn [in_view input_of]. apply mview_synced; [exact H0|exact Hn].
Qed.
Lemma whs_range : Forall (λ n, 5 ≤ n ≤ 26) whs.*2 ∧ StronglySorted Z.le whs.*2.
Proof. unfold whs. cbn [fmap list_fmap snd]. split; [repeat (constructor; [lia|]); constructor|]. repeat (constructor; [|repeat (constructor; [lia|]); constructor]). constructor. Qed.
Lemma k_views a x : x ∈ winputs a whs → ∃ n, 5 ≤ n ≤ 26 ∧ in_view x = kview n ∧ wsynced kchain 2 (in_view x) ∧ current (in_view x) = n.
Proof. unfold winputs. apply (inputs_synced kchain a (obs_at wblocks whs) whs.*2 5 26 x eq_refl); [lia|lia|apply whs_range]. Qed.
Lemma k_active x k c a : x ∈ winputs a whs → (0 < k)%nat → scheduled (cc (wstate kchain (Z.to_nat (current (in_view x))))) !! k = Some c → 0 < span c.
Proof.
  intros Hx Hk. destruct (k_views a x Hx) as (n & Hn & _ & _ & ->). rewrite (proj2 k_append) by lia. destruct k as [|[|k]]; [lia| |done]. cbn. by intros [= <-].
Qed.
Lemma k_rise a : batches_rise (winputs a whs) ∧ typed_views (winputs a whs).
Proof.
  apply (chain_rises wpoint (λ x, x) (λ _ _ r _, Some (Z.to_N r)) (λ _, [1]%N) 1 2 3 9 5 10 ltac:(lia) kchain 2).
  - intros x Hx. by destruct (k_views a x Hx) as (n & _ & _ & ? & _).
  - apply k_append.
  - intros x k c. apply k_active.
  - intros x Hx. destruct (k_views a x Hx) as (n & ? & _ & _ & ->). lia.
  - unfold winputs. apply (inputs_rise kchain a (obs_at wblocks whs) whs.*2 5 26 eq_refl); [lia|lia|apply whs_range..].
Qed.
(** keyper 7 releases its share of batch 0 in its eighth decision, at block 25: the batch ended in block 20 with one transaction *)
Example C55_witness : ∃ a i, decisions_of wplen wpoint (wpar 7) new_kstate (winputs 7 whs) = Some (wks 7, wacts 7) ∧ winputs 7 whs !! 7%nat = Some i ∧ wacts 7 !! 7%nat = Some a ∧ KKeyShare 1 0 (toF 72 : G1 FP) ∈ a ∧
  typed_views (winputs 7 whs) ∧ batches_rise (winputs 7 whs) ∧ current (in_view i) = 25 ∧ wappend kchain ∧ (∀ x, x ∈ winputs 7 whs → wsynced kchain 2 (in_view x)) ∧
  (∀ m t, (25 ≤ m)%nat → Z.of_nat m < 2 ^ 64 → added 0 t (wlog kchain m) = added 0 t (wlog kchain 25)) ∧ added 0 Cipher (wlog kchain 25) = [[1; 2]%N] ∧
  StronglySorted N.lt ((λ x, x.1.2) <$> shares_sent (mjoin (wacts 7))).
Proof.
  pose proof (w_decisions 7 (proj1 in78)) as Hrun. assert (Ha : wacts 7 !! 7%nat = Some [KKeyShare 1 0 (toF 72 : G1 FP)]). { rewrite (w_join 7), w_submitted7. reflexivity. }
  destruct (lookup_lt_is_Some_2 (winputs 7 whs) 7) as [i Hi]. { pose proof (f_equal length (w_blocks 7 (proj1 in78))) as E. rewrite fmap_length in E. rewrite E. cbn. lia. }
  exists [KKeyShare 1 0 (toF 72 : G1 FP)], i. destruct (k_rise 7) as [Hr Ht]. assert (Hin : KKeyShare 1 0 (toF 72 : G1 FP) ∈ [KKeyShare 1 0 (toF 72 : G1 FP)]) by left.
  assert (Hcur : current (in_view i) = 25).
  { clear -Hi. unfold winputs in Hi. revert Hi. generalize (obs_at wblocks whs). intros os Hi. apply (inputs_current kchain 7 os whs.*2 7 i 25); [reflexivity|lia|exact Hi|reflexivity]. }
  assert (Hsync : ∀ x, x ∈ winputs 7 whs → wsynced kchain 2 (in_view x)). { intros x Hx. by destruct (k_views 7 x Hx) as (n & _ & _ & ? & _). }
  split; [exact Hrun|]. split; [exact Hi|]. split; [exact Ha|]. split; [exact Hin|]. split; [exact Ht|]. split; [exact Hr|]. split; [exact Hcur|]. split; [apply k_append|]. split; [exact Hsync|]. split.
  - intros m t Hm Hm64. pose proof (C55_closed_partial wplen wpoint (λ x, x) (λ _ _ r _, Some (Z.to_N r)) (λ _, [1]%N) 1 2 3 9 5 10 ltac:(lia) kchain 2 (wpar 7) _ _ _ 7 i _ 1 0 _ Hrun Hi Ha Hin Hsync (proj1 k_append) (λ x k c, k_active x k c 7) m t) as H.
    rewrite Hcur in H. apply H; [exact Hm|exact Hm64].
  - split; [vm_compute; reflexivity|]. exact (C55_once wplen wpoint (wpar 7) _ _ _ Hr Ht Hrun).
Qed.

(** ** A share released while the batch is open *)
(** The owner may schedule an active config after an inactive one with an earlier start block (the contract compares with the end of the last *active* batch
    only).  Batches 0 to 4 belong to the first config and are open until block 60; but the third config is the active one in block 25. *)
Definition ccfg1 := mkConfig 5 60 []%N 0 0 0 0 0 0 0 0 0.
Definition ccfg2 := mkConfig 5 25 [7; 8]%N 2 10 1000 100 1000 0 1 1 100.
Definition cchain : MainModel.chain := λ n, match n with
  | 1 => [(1, 9%N, SetNext kcfg); (1, 9%N, ContractsModel.Schedule); (1, 9%N, SetNext ccfg1); (1, 9%N, ContractsModel.Schedule); (1, 9%N, SetNext ccfg2); (1, 9%N, ContractsModel.Schedule)]
  | 45 => [(1, 4%N, AddTx 3 Cipher [1; 2]%N 0)] | _ => [] end%nat.
Definition cblocks : nat → list (list wevent) := λ n, match n with 1 => [[BatchConfig wc1]; [BatchConfig (mkSConfig 2 5 [] 0)]; [BatchConfig (mkSConfig 3 5 [7; 8] 2)]]%N | _ => wblocks n end%nat.
Definition cinputs : list (kinput FP N) := zip_with (input_of cchain 7) (obs_at cblocks whs) whs.*2.
Definition cend : kstate FP * list (list (kaction FP)) := default (new_kstate, []) (decisions_of wplen wpoint (wpar 7) new_kstate cinputs).
Lemma c_append : wappend cchain ∧ ∀ m, (0 < m)%nat → scheduled (cc (wstate cchain m)) = [zero_config; kcfg; ccfg1; ccfg2].
Proof.
  apply (append_once cchain 45); [|vm_compute; reflexivity|vm_compute; reflexivity|by eexists|lia].
  intros m Hm. do 46 (destruct m as [|m]; [lia|]). reflexivity.
Qed.
Lemma c_run : decisions_of wplen wpoint (wpar 7) new_kstate cinputs = Some (cend.1, cend.2).
Proof.
  assert (Hs : match decisions_of wplen wpoint (wpar 7) new_kstate cinputs with Some _ => true | None => false end = true) by (vm_cast_no_check (eq_refl true)).
  unfold cend. destruct (decisions_of _ _ _ _ _) as [[? ?]|]; [reflexivity|discriminate Hs].
Qed.
Lemma c_released : cend.2 !! 7%nat = Some [KKeyShare 1 0 (toF 72 : G1 FP); KKeyShare 1 1 (toF 108 : G1 FP); KKeyShare 1 2 (toF 144 : G1 FP); KKeyShare 1 3 (toF 180 : G1 FP); KKeyShare 1 4 (toF 216 : G1 FP)].
Proof. vm_cast_no_check (eq_refl (cend.2 !! 7%nat)). Qed.
Lemma c_length : length (obs_at cblocks whs) = 9%nat.
Proof. vm_compute. reflexivity. Qed.
(** The keyper releases its share of batch 3's key at block 25; twenty blocks later the batch gets its first transaction, which everyone with a threshold of
    shares can decrypt at once. *)
Theorem C55_closed_refuted : ∃ ch F (l : list (kinput FP N)) s acts i a n ep sh, decisions_of wplen wpoint (wpar 7) new_kstate l = Some (s, acts) ∧
  l !! 7%nat = Some i ∧ acts !! 7%nat = Some a ∧ KKeyShare n ep sh ∈ a ∧ (∀ x, x ∈ l → wsynced ch F (in_view x)) ∧ wappend ch ∧
  ∃ m, (Z.to_nat (current (in_view i)) ≤ m)%nat ∧ Z.of_nat m < 2 ^ 64 ∧ added (Z.of_N ep) Cipher (wlog ch (Z.to_nat (current (in_view i)))) = [] ∧ added (Z.of_N ep) Cipher (wlog ch m) = [[1; 2]%N].
Proof.
  destruct (lookup_lt_is_Some_2 cinputs 7) as [i Hi]. { unfold cinputs. rewrite zip_with_length_r_eq; [cbn; lia|by rewrite c_length]. }
  exists cchain, 2, cinputs, cend.1, cend.2, i. eexists. exists 1%N, 3%N, (toF 180 : G1 FP). split; [exact c_run|]. split; [exact Hi|]. split; [exact c_released|]. split; [do 3 right; left|].
  assert (Hcur : current (in_view i) = 25).
  { clear -Hi. unfold cinputs in Hi. revert Hi. generalize (obs_at cblocks whs). intros os Hi. apply (inputs_current cchain 7 os whs.*2 7 i 25); [reflexivity|lia|exact Hi|reflexivity]. }
  assert (Hv : ∀ x, x ∈ cinputs → ∃ n, 5 ≤ n ≤ 26 ∧ in_view x = mview cchain n ∧ wsynced cchain 2 (in_view x) ∧ current (in_view x) = n).
  { intros x. unfold cinputs. apply (inputs_synced cchain 7 (obs_at cblocks whs) whs.*2 5 26 x eq_refl); [lia|lia|apply whs_range]. }
  split; [intros x Hx; by destruct (Hv x Hx) as (n & _ & _ & ? & _)|]. split; [apply c_append|].
  exists 45%nat. rewrite Hcur. split; [lia|]. split; [lia|]. split; vm_compute; reflexivity.
Qed.

(** ** A share that is never released *)
(** the main chain passes the end of batch 0 before the key generation of eon 1 is over *)
Definition lhs : list (Z * Z) := [(0, 5); (1, 5); (4, 6); (6, 7); (14, 8); (24, 25); (33, 26); (35, 27); (38, 28)].
Definition lblocks : nat → list (list wevent) := λ n, match n with 37 => [] | _ => wblocks n end%nat.
Definition linputs : list (kinput FP N) := zip_with (input_of kchain 7) (obs_at lblocks lhs) lhs.*2.
Definition lend : kstate FP * list (list (kaction FP)) := default (new_kstate, []) (decisions_of wplen wpoint (wpar 7) new_kstate linputs).
Lemma l_run : decisions_of wplen wpoint (wpar 7) new_kstate linputs = Some (lend.1, lend.2).
Proof.
  assert (Hs : match decisions_of wplen wpoint (wpar 7) new_kstate linputs with Some _ => true | None => false end = true) by (vm_cast_no_check (eq_refl true)).
  unfold lend. destruct (decisions_of _ _ _ _ _) as [[? ?]|]; [reflexivity|discriminate Hs].
Qed.
Lemma l_sent : shares_sent (mjoin lend.2) = [].
Proof. vm_cast_no_check (eq_refl (shares_sent (mjoin lend.2))). Qed.
Definition l_end_ok (l : list (kinput FP N)) (s : kstate FP) : bool :=
  match list.last l, k_ekgs s with
  | Some i, [g] => match find_eon_by_batch_index (in_shutter i) 0, timed_out_or_inactive (in_view i) 0 with
                   | Some e, Some false => (eon_number e =? g_eon g)%N && sc_is_keyper (config_by_batch (in_shutter i) 0) 7 && bool_decide (ek_keys (g_epochkg g) !! 0%N = None) | _, _ => false end
  | _, _ => false end.
Lemma l_end : l_end_ok linputs lend.1 = true.
Proof. vm_cast_no_check (eq_refl true). Qed.
(** At the end the keyper holds the key of the eon of batch 0, the batch is over and has not timed out, the keyper is one of its keypers and the batch's key
    is not known: but it has released no share, and by [C55_lost] it never will. *)
Theorem C55_lost_refuted : ∃ (l : list (kinput FP N)) s acts i g e, decisions_of wplen wpoint (wpar 7) new_kstate l = Some (s, acts) ∧ shares_sent (mjoin acts) = [] ∧
  list.last l = Some i ∧ g ∈ k_ekgs s ∧ find_eon_by_batch_index (in_shutter i) 0 = Some e ∧ eon_number e = g_eon g ∧ timed_out_or_inactive (in_view i) 0 = Some false ∧
  sc_is_keyper (config_by_batch (in_shutter i) 0) 7 = true ∧ ek_keys (g_epochkg g) !! 0%N = None.
Proof.
  pose proof l_end as H. pose proof l_run as Hrun. pose proof l_sent as Hs. revert H Hrun Hs. generalize linputs as l, lend.1 as s, lend.2 as acts. intros l s acts H Hrun Hs.
  unfold l_end_ok in H. destruct (list.last l) as [i|] eqn:El; [|discriminate H]. destruct (k_ekgs s) as [|g [|? ?]] eqn:Eg; [discriminate H| |discriminate H].
  destruct (find_eon_by_batch_index _ _) as [e|] eqn:Ee; [|discriminate H]. destruct (timed_out_or_inactive _ _) as [[|]|] eqn:Et; [discriminate H| |discriminate H].
  apply andb_true_iff in H as [[H1%N.eqb_eq H2]%andb_true_iff H3%bool_decide_eq_true]. exists l, s, acts, i, g, e. rewrite Eg. 
  split; [exact Hrun|]. split; [exact Hs|]. split; [exact El|]. split; [left|]. split; [exact Ee|]. split; [exact H1|]. split; [exact Et|]. split; [exact H2|exact H3].
Qed.

(** ** C60: both keypers have released their share of batch 0's key *)
Example C60_enough_witness : ∃ g k, KeyperSystem.sized wmake wblocks ∧ KeyperSystem.settled wmake wblocks 1 ∧ KeyperSystem.started wmake wblocks 39 1 3 0 ∧
  keyper_run_no_skip wmake wblocks wplen wpoint (wpar 7) 39 (winputs 7 whs) (wks 7) (wacts 7) ∧ g ∈ k_ekgs (wks 7) ∧ g_eon g = 1%N ∧
  KKeyShare 1 0 (toF 72 : G1 FP) ∈ mjoin (wacts 7) ∧ KKeyShare 1 0 (toF 112 : G1 FP) ∈ mjoin (wacts 8) ∧ ek_threshold (g_epochkg g) = 2%N ∧
  ek_keys (g_epochkg g) !! 0%N = Some (Some k) ∧ pair ggen k = pair (ek_pk (g_epochkg g)) (wpoint 0).
Proof.
  destruct in78 as [I7 I8]. destruct (w_ekgs 7 I7) as (g7 & E7 & N7 & K7 & P7 & S7 & T7 & Y7). exists g7. assert (H7 : g7 ∈ k_ekgs (wks 7)) by (rewrite E7; by left).
  pose proof (w_keyper_run_no_skip 7 I7) as R7. assert (Hst : KeyperSystem.started wmake wblocks 39 1 3 0) by (apply w_started; lia).
  assert (A7 : KKeyShare 1 0 (toF 72 : G1 FP) ∈ mjoin (wacts 7)). { rewrite (w_join 7), w_submitted7, mjoin_app. apply elem_of_app. left. cbn [mjoin list_join app]. do 5 right. left. }
  assert (A8 : KKeyShare 1 0 (toF 112 : G1 FP) ∈ mjoin (wacts 8)). { rewrite (w_join 8), w_submitted8, mjoin_app. apply elem_of_app. left. cbn [mjoin list_join app]. do 5 right. left. }
  destruct (C60_enough wmake wblocks wplen wpoint w_wf w_heights 1 0 3 0 [(wpar 7, 39%nat, winputs 7 whs, wks 7, wacts 7, toF 72 : G1 FP); (wpar 8, 39%nat, winputs 8 whs, wks 8, wacts 8, toF 112 : G1 FP)]
    (wpar 7) 39 (winputs 7 whs) (wks 7) (wacts 7) g7 w_sized w_sized_configs (w_settled 1) Hst (w_keyper_run 7 I7) R7 H7 N7) as (k & Hk & Hp).
  - rewrite K7. reflexivity.
  - rewrite T7. split; reflexivity.
  - cbn [fmap list_fmap fst]. repeat constructor; rewrite ?elem_of_cons, ?elem_of_nil; intros H; [destruct H as [H|[]]; discriminate H|exact H].
  - rewrite T7. cbn. lia.
  - intros p' m' l' s' acts' sh H. apply elem_of_cons in H as [H|H]; [|apply elem_of_list_singleton in H].
    + repeat (apply pair_equal_spec in H as [H ?]); subst. split; [exact (w_keyper_run 7 I7)|]. split; [exact A7|]. exists (mkEv 37 1%N (BKeyShare 7%N 0%N (toF 72 : G1 FP))). split; [|split; [reflexivity|reflexivity]].
      rewrite (w_late 39) by lia. rewrite w_events. unfold of_kind. cbn [after_start N.eqb Pos.eqb published_for omap list_omap bool_decide decide_rel kind_eq_dec andb]. cbn. left.
    + repeat (apply pair_equal_spec in H as [H ?]); subst. split; [exact (w_keyper_run 8 I8)|]. split; [exact A8|]. exists (mkEv 37 1%N (BKeyShare 8%N 0%N (toF 112 : G1 FP))). split; [|split; [reflexivity|reflexivity]].
      rewrite (w_late 39) by lia. rewrite w_events. unfold of_kind. cbn [after_start N.eqb Pos.eqb published_for omap list_omap bool_decide decide_rel kind_eq_dec andb]. cbn. right. left.
  - exists k. split; [exact w_sized|]. split; [exact (w_settled 1)|]. split; [exact Hst|]. split; [exact R7|]. split; [exact H7|]. split; [exact N7|]. split; [exact A7|]. split; [exact A8|]. split; [exact T7|]. split; [exact Hk|exact Hp].
Qed.

(** ** C61: check-in and the vote for config 1 *)
Example C61_witness : decisions_of wplen wpoint (wpar 7) new_kstate (winputs 7 whs) = Some (wks 7, wacts 7) ∧ decisions_of wplen wpoint (wpar 8) new_kstate (winputs 8 whs) = Some (wks 8, wacts 8) ∧
  KCheckIn ∈ mjoin (wacts 7) ∧ KBatchConfig 1 kcfg ∈ mjoin (wacts 7) ∧ KBatchConfig 1 kcfg ∈ mjoin (wacts 8) ∧ wappend kchain ∧
  (∀ x, x ∈ winputs 7 whs → wsynced kchain 2 (in_view x)) ∧ (∀ x, x ∈ winputs 8 whs → wsynced kchain 2 (in_view x)).
Proof.
  split; [exact (w_decisions 7 (proj1 in78))|]. split; [exact (w_decisions 8 (proj2 in78))|].
  assert (A7 : ∀ x, x ∈ [KCheckIn; KBatchConfig 1 kcfg : kaction FP] → x ∈ mjoin (wacts 7)).
  { intros x Hx. rewrite (w_join 7), w_submitted7, mjoin_app. apply elem_of_app. left. change (mjoin (?y :: ?z)) with (y ++ mjoin z). apply elem_of_app. by left. }
  assert (A8 : ∀ x, x ∈ [KCheckIn; KBatchConfig 1 kcfg : kaction FP] → x ∈ mjoin (wacts 8)).
  { intros x Hx. rewrite (w_join 8), w_submitted8, mjoin_app. apply elem_of_app. left. change (mjoin (?y :: ?z)) with (y ++ mjoin z). apply elem_of_app. by left. }
  split; [apply A7; left|]. split; [apply A7; right; left|]. split; [apply A8; right; left|]. split; [apply k_append|].
  split; intros x Hx; [by destruct (k_views 7 x Hx) as (n & _ & _ & ? & _)|by destruct (k_views 8 x Hx) as (n & _ & _ & ? & _)].
Qed.

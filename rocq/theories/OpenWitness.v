(** C69: a concrete run, from the users' transactions to their execution. *)
From stdpp Require Import list gmap.
From Coq Require Import ZArith NArith Lia.
From Verif Require Import Fq CryptoModel CryptoSpec PropsCrypto DkgModel DkgSpec DkgProofs EpochModel PropsEpoch EncModel EncMemModel PropsEnc ObserveModel ObserveProofs SyncModel SyncProofs ArithModel ContractsModel ContractsProofs
  PropsConfig PropsBatcher MainModel MainProofs PropsMain DecideModel EncodingModel KeyperModel KeyperSpec KeyperRunProofs KeyperSystem PropsExecution PropsShares KeyperWitness SharesWitness BlsModel BlsProofs OpenModel OpenProofs PropsOpen.
Local Open Scope Z_scope.

(** * An instance of the encodings: a point is its number in 96 bytes *)
Definition o_compress (x : Fq) : list N := 128%N :: replicate 63 0%N ++ fill 32 (ofF x).
Definition o_value (bs : list N) : Fq := toF (big (drop 64 bs)).
Definition o_decode (bs : list N) : option Fq := if bool_decide (bs = o_compress (o_value bs)) then Some (o_value bs) else None.
Lemma o_length x : length (o_compress x) = p2_bytes.
Proof. unfold o_compress. cbn [length]. rewrite app_length, replicate_length, fill_length. done. Qed.
Lemma o_bytes x : Forall (λ b, (b < 256)%N) (o_compress x).
Proof. unfold o_compress. apply Forall_cons. split; [done|]. apply Forall_app. split; [by apply Forall_replicate|apply fill_bytes_range]. Qed.
Lemma order_256 : order < 256 ^ 32. Proof. Transparent order. reflexivity. Qed.
Global Opaque order.
Lemma o_value_compress x : o_value (o_compress x) = x.
Proof.
  unfold o_value, o_compress. change (drop 64 (?a :: ?l)) with (drop 63 l). rewrite drop_app_alt by (by rewrite replicate_length).
  pose proof (ofF_range x). pose proof order_256. rewrite big_fill by (change (Z.of_nat 32) with 32; lia). apply toF_ofF.
Qed.
Lemma o_decode_compress x : true = true → o_decode (o_compress x) = Some x.
Proof. intros _. unfold o_decode. rewrite o_value_compress. by rewrite bool_decide_true. Qed.
Lemma o_canonical bs x : o_decode bs = Some x → o_compress x = bs.
Proof. unfold o_decode. case_bool_decide as E; [|done]. by intros [= <-]. Qed.
Lemma o_untouched (p : Fq) bs : (length bs ≠ p2_bytes ∨ ∃ b l, bs = b :: l ∧ (b < 128)%N) → o_decode bs = None ∧ p = p.
Proof.
  intros Hb. split; [|done]. unfold o_decode. case_bool_decide as E; [|done]. exfalso. destruct Hb as [Hl|(b & l & -> & Hb)].
  - rewrite E, o_length in Hl. done.
  - unfold o_compress in E. revert E. generalize (replicate 63 0%N ++ fill 32 (ofF (o_value (b :: l)))). intros l' E. assert (b = 128%N) by congruence. lia.
Qed.
Definition ocodec : codec p2_bytes := mkCodec p2_bytes Fq Fq_eq_dec f0 (λ _, true) o_compress o_decode (λ p _, p) o_length o_bytes o_decode_compress o_canonical eq_refl o_untouched.
Definition opoint (x : raw ocodec) : G2 FP := x.
Definition oembed (x : G2 FP) : raw ocodec := x.
Definition okey (x : G1 FP) : list N := fill 32 (ofF x).

(** * The chains *)
Notation ohash := whashes.
(** two users seal their messages for batch 0 of the eon with public key 16; somebody sends garbage in between *)
Definition otx1 : list N := default [] (user_tx ohash ocodec oembed (toF 16 : G2 FP) 0 [104; 101; 108; 108; 111]%N (replicate 32 77%N)).
Definition otx2 : list N := default [] (user_tx ohash ocodec oembed (toF 16 : G2 FP) 0 (replicate 40 9%N) (replicate 32 13%N)).
Definition ocfg := mkConfig 0 10 [7; 8]%N 2 10 5000 1000 1000 0 1 1 100.
Definition ochain : MainModel.chain := λ n, match n with
  | 1 => [(1, 9%N, SetNext ocfg); (1, 9%N, ContractsModel.Schedule)]
  | 11 => [(1, 4%N, AddTx 0 Cipher otx1 0); (1, 5%N, AddTx 0 Cipher [3; 1; 2]%N 0)] | 12 => [(1, 6%N, AddTx 0 Cipher otx2 0)] | _ => [] end%nat.
Definition osig (a : N) : list N := (replicate 31 0 ++ [a] ++ replicate 31 0 ++ [1; 0])%N.
(** as in KeyperWitness; the shares of the key of batch 0 in block 37, signatures for the decrypted batch in block 39 *)
Definition oblocks : nat → list (list wevent) := λ n, match n with
  | 37 => [[dev KeyShare (BKeyShare 7%N 0%N (toF (36 * 2 ^ 64)%Z : G1 FP))]; [dev KeyShare (BKeyShare 8%N 0%N (toF (56 * 2 ^ 64)%Z : G1 FP))]]
  | 39 => [[DecryptionSignature 0%N (7%N, osig 7)]; [DecryptionSignature 0%N (8%N, osig 8)]]
  | _ => wblocks n end%nat.
Definition opar (a : N) : keyper_params FP :=
  mkParams a Some (open_batch ohash wrng ocodec opoint okey) (λ x, x) (λ _ _ r _, Some (Z.to_N r)) (λ _, [1]%N) 1 (λ x, x) 5 (λ _ l, l).
Definition ohs : list (Z * Z) := [(0, 5); (1, 5); (4, 6); (6, 7); (14, 8); (24, 9); (33, 15); (35, 25); (38, 26); (40, 40)].
Definition oinputs (a : N) : list (kinput FP N) := zip_with (input_of ochain a) (obs_at oblocks ohs) ohs.*2.
Notation orun := (decisions_of (K:=N) wplen (epoch_id ohash)).
Definition oend (a : N) : kstate FP * list (list (kaction FP)) := default (new_kstate, []) (orun (opar a) new_kstate (oinputs a)).
Definition oks (a : N) : kstate FP := (oend a).1. Definition oacts (a : N) : list (list (kaction FP)) := (oend a).2.

(** ** shuttermint *)
Notation opub := (published wmake oblocks).
Lemma o_late m : (40 ≤ m)%nat → opub m = opub 40%nat.
Proof.
  intros H. replace m with (40 + (m - 40))%nat by lia. generalize (m - 40)%nat as x. clear. induction x as [|x IH]; [by rewrite Nat.add_0_r|].
  rewrite Nat.add_succ_r. cbn [published]. rewrite IH. assert (oblocks (40 + x) = []) as -> by done. cbn [concat omap list_omap]. apply app_nil_r.
Qed.
Lemma o_prefix m : ∃ l, opub 40%nat = opub m ++ l.
Proof. destruct (decide (40 ≤ m)%nat) as [H|H]; [exists []; rewrite (o_late m H); by rewrite app_nil_r|]. apply (published_app wmake oblocks w_heights). lia. Qed.
Definition is_head (e : wevent) : bool := match e with BatchConfig _ | CheckIn _ _ | EonStarted _ _ _ => true | _ => false end.
Lemma o_shape : ∃ l, opub 40%nat = [BatchConfig wc0; BatchConfig wc1; CheckIn 7%N 70%N; CheckIn 8%N 80%N; EonStarted 3 1%N 0%N] ++ l ∧
  Forall (λ ev : wevent, match ev with EonEvent _ e => ev_eon e = 1%N ∧ match ev_body e with BCommitment _ gs => (Z.of_nat (length gs) < 2 ^ 64) | _ => True end | DecryptionSignature _ _ => True | _ => False end) l.
Proof. eexists. split; [reflexivity|]. repeat constructor. Qed.
Lemma o_wf m : SyncModel.well_formed (opub m).
Proof.
  destruct (o_prefix m) as [l E]. apply (well_formed_prefix _ l). rewrite <-E. clear E l m. destruct o_shape as (l & -> & Hl).
  assert (H0 : SyncModel.well_formed ([] : list wevent)) by (by intros [|? ?] ? ?).
  assert (H1 := well_formed_snoc _ (BatchConfig wc0) H0 I). assert (H2 := well_formed_snoc _ (BatchConfig wc1) H1 I). assert (H3 := well_formed_snoc _ (CheckIn 7%N 70%N) H2 I). assert (H4 := well_formed_snoc _ (CheckIn 8%N 80%N) H3 I).
  assert (H5 : SyncModel.well_formed (((([] ++ [BatchConfig wc0]) ++ [BatchConfig wc1]) ++ [CheckIn 7%N 70%N]) ++ [CheckIn 8%N 80%N] ++ [EonStarted 3 1%N 0%N : wevent])).
  { rewrite (assoc_L (++)). apply well_formed_snoc; [done|]. intros h m b. cbn [app]. rewrite !elem_of_cons, elem_of_nil. naive_solver. }
  cbn [app] in H5. clear H0 H1 H2 H3 H4.
  match type of H5 with SyncModel.well_formed ?q => set (pre := q) in * end. assert (Hin : EonStarted 3 1%N 0%N ∈ pre) by (unfold pre; rewrite !elem_of_cons; naive_solver).
  clearbody pre. revert pre H5 Hin. induction l as [|ev l IH]; intros q Hq Hi; [by rewrite app_nil_r|]. apply Forall_cons in Hl as [Hev Hl]. change (q ++ ev :: l) with (q ++ [ev] ++ l). rewrite (assoc_L (++)).
  apply IH; [done| |apply elem_of_app; by left]. apply well_formed_snoc; [done|]. destruct ev; try done. exists 3, 0%N. by rewrite (proj1 Hev).
Qed.
Lemma o_sized : KeyperSystem.sized wmake oblocks.
Proof.
  intros m e sender gs Hm E. destruct (o_prefix m) as [l El]. assert (EonEvent Commitment e ∈ opub 40%nat) as H by (rewrite El; apply elem_of_app; by left). clear El Hm.
  destruct o_shape as (l' & El & Hl). rewrite El in H. clear El. apply elem_of_app in H as [H|H]; [repeat (apply elem_of_cons in H as [H|H]; [discriminate H|]); by apply elem_of_nil in H|].
  rewrite Forall_forall in Hl. destruct (Hl _ H) as [_ H']. cbn [ev_body] in H'. rewrite E in H'. exact H'.
Qed.
(** ** The runs *)
Lemma o_decisions a : a ∈ [7; 8]%N → orun (opar a) new_kstate (oinputs a) = Some (oks a, oacts a).
Proof.
  intros Ha. assert (Hs : match orun (opar a) new_kstate (oinputs a) with Some _ => true | None => false end = true).
  { rewrite !elem_of_cons, elem_of_nil in Ha. destruct Ha as [->|[->|[]]]; vm_cast_no_check (eq_refl true). }
  unfold oks, oacts, oend. destruct (orun _ _ _) as [[? ?]|]; done.
Qed.
Lemma o_history : ∃ y, SyncModel.history wmake oblocks y (wsteps_at ohs.*1) (obs_at oblocks ohs) ∧ sync_height y = 41.
Proof.
  assert (match replay oblocks (boot None) (wsteps_at ohs.*1) with Some (y, _) => sync_height y =? 41 | None => false end = true) as H by (vm_compute; reflexivity).
  unfold obs_at. destruct (replay _ _ _) as [[y o]|] eqn:E; [|done]. exists y. split; [|by apply Z.eqb_eq]. exact (replay_history oblocks (boot None) [] [] _ y o (history_start _ _) E).
Qed.
Definition o_ready (o : wobs) (n : Z) : bool := match o with ODecide h w => v_synced (mview ochain n) && shutter_is_keyper w 7 && shutter_is_keyper w 8 end.
Lemma o_inputs_match a (os : list wobs) (ns : list Z) : a ∈ [7; 8]%N → (length os =? length ns)%nat = true → forallb (λ x, o_ready x.1 x.2) (zip os ns) = true →
  Forall2 (matches (kp_me (opar a))) (zip_with (input_of ochain a) os ns) os.
Proof.
  intros Ha. revert ns. induction os as [|[h w] os IH]; intros [|n ns] Hl Hall; cbn [zip_with]; [constructor|done|done|]. cbn [zip zip_with forallb fst snd] in Hall. apply andb_true_iff in Hall as [H1 H2].
  constructor; [|by apply IH]. clear IH H2 Hl. unfold o_ready in H1. apply andb_true_iff in H1 as [[H1 H2]%andb_true_iff H3]. split; [done|]. split; [done|].
  rewrite !elem_of_cons, elem_of_nil in Ha. destruct Ha as [->|[->|[]]]; done.
Qed.
Lemma o_matches a : a ∈ [7; 8]%N → Forall2 (matches (kp_me (opar a))) (oinputs a) (obs_at oblocks ohs).
Proof. intros Ha. apply (o_inputs_match a _ _ Ha); vm_cast_no_check (eq_refl true). Qed.
Lemma o_keyper_run a : a ∈ [7; 8]%N → keyper_run wmake oblocks wplen (epoch_id ohash) (opar a) 41 (oinputs a) (oks a) (oacts a).
Proof.
  intros Ha. split; [|by apply o_decisions]. destruct o_history as (y & H1 & H2). exists y, (wsteps_at ohs.*1), (obs_at oblocks ohs). split; [done|]. split; [|split; [done|by apply o_matches]].
  intros es1 es2 E. exfalso. assert (Crash ∈ wsteps_at ohs.*1) as H by (rewrite E; apply elem_of_app; right; by left). clear -H. vm_compute in H.
  repeat (apply elem_of_cons in H as [H|H]; [discriminate H|]). by apply elem_of_nil in H.
Qed.
Local Opaque oks oacts obs_at oend.
(** ** The main chain *)
Notation ohu := (λ x, x). Notation orec := (λ _ _ r _, Some (Z.to_N r)). Notation oaddr := (λ _ : N, [1]%N).
Lemma o_runs_here a : runs_here ohash wrng ocodec opoint okey ohu orec oaddr 1 (opar a).
Proof. by constructor. Qed.
Lemma o_numbers : Forall (λ n, 5 ≤ n ≤ 40) ohs.*2.
Proof. repeat constructor; done. Qed.
Lemma o_view a j : j ∈ oinputs a → ∃ n, 5 ≤ n ≤ 40 ∧ in_view j = mview ochain n ∧ wsynced ochain 2 (in_view j) ∧ current (in_view j) = n.
Proof. intros Hj. exact (inputs_synced ochain a _ _ 5 40 j eq_refl ltac:(lia) ltac:(done) o_numbers Hj). Qed.
Lemma o_scheduled m : (0 < m)%nat → scheduled (cc (wstate ochain m)) = [zero_config; ocfg].
Proof.
  apply (append_once ochain 12 [zero_config; ocfg]); [|vm_compute; reflexivity|vm_compute; reflexivity|by eexists|lia].
  intros k Hk. do 13 (destruct k as [|k]; [lia|]). reflexivity.
Qed.
(** decisions before those at main chain block 26 knew no shares *)
Definition shares_known (i : kinput FP N) : bool := existsb (λ eo, negb (length (get_events KeyShare eo (in_height i)) =? 0)%nat) (eons (in_shutter i)).
Lemma o_seen i ep : share_seen i ep → shares_known i = true.
Proof.
  intros (n & eo & e & sender & share & Hf & He & _). apply existsb_exists. exists eo. split.
  - apply elem_of_list_In. unfold find_eon in Hf. apply bind_Some in Hf as (k & _ & Hk). by eapply elem_of_list_lookup_2.
  - destruct (get_events KeyShare eo (in_height i)); [by apply elem_of_nil in He|done].
Qed.
Lemma o_known a : a ∈ [7; 8]%N → forallb (λ i, implb (shares_known i) (20 <=? current (in_view i))) (oinputs a) = true.
Proof. intros Ha. rewrite !elem_of_cons, elem_of_nil in Ha. destruct Ha as [->|[->|[]]]; vm_cast_no_check (eq_refl true). Qed.
Lemma o_shares_late a : a ∈ [7; 8]%N → shares_late ohu orec oaddr 1 2 3 9 5 10 ochain (oinputs a) 0.
Proof.
  intros Ha j Hj Hs. pose proof (o_known a Ha) as H. rewrite forallb_forall in H. specialize (H j (proj1 (elem_of_list_In _ _) Hj)). rewrite (o_seen _ _ Hs) in H. cbn [implb] in H. apply Z.leb_le in H.
  exists 1%nat, ocfg. destruct (o_view a j Hj) as (n & Hn & _ & _ & Hc). rewrite o_scheduled by lia. split; [|split; [done|exact H]].
  split; [done|]. split; [done|]. intros [|[|k]] c Hk Hl; [lia|lia|done].
Qed.
Definition executed (l : list (kaction FP)) : list (Z * list (list N)) := omap (λ x, match x with KAction (AExecCipher b _ txs _) => Some (b, txs) | _ => None end) l.
(** the messages of the two users, in the order that the key gives *)
Definition omsgs : list (list N) := [replicate 40 9; [104; 101; 108; 108; 111]]%N.
Lemma o_executed a : a ∈ [7; 8]%N → executed <$> last (oacts a) = Some [(0, omsgs)].
Proof. intros Ha. rewrite !elem_of_cons, elem_of_nil in Ha. destruct Ha as [->|[->|[]]]; vm_cast_no_check (eq_refl (Some [(0, omsgs)])). Qed.
Lemma last_split {A} (l : list A) x : last l = Some x → ∃ l', l = l' ++ [x].
Proof. intros H. by apply last_Some in H. Qed.
Lemma o_action a : a ∈ [7; 8]%N → ∃ al x h k, oacts a = al ++ [x] ∧ KAction (AExecCipher 0 h omsgs k) ∈ x.
Proof.
  intros Ha. pose proof (o_executed a Ha) as H. generalize dependent (oacts a). intros l H. apply fmap_Some in H as (x & Hl & Hx). apply last_split in Hl as [al ->].
  assert ((0, omsgs) ∈ executed x) as Hin by (rewrite <-Hx; left). unfold executed in Hin. apply elem_of_list_omap in Hin as (y & Hy & E). generalize dependent omsgs. intros ms _ E.
  destruct y; try discriminate E. destruct a0; try discriminate E. injection E as -> ->. by exists al, x, h, k.
Qed.
Lemma o_last a : a ∈ [7; 8]%N → ∃ l i, oinputs a = l ++ [i] ∧ in_view i = mview ochain 40.
Proof.
  intros Ha. unfold oinputs. assert (Hl : (length (obs_at oblocks ohs) =? 10)%nat = true) by (vm_cast_no_check (eq_refl true)). apply Nat.eqb_eq in Hl. revert Hl. generalize (obs_at oblocks ohs) as os. intros os Hl.
  do 10 (destruct os as [|[? ?] os]; [discriminate Hl|]). destruct os; [|discriminate Hl]. cbn [zip_with ohs fmap list_fmap snd].
  match goal with |- ∃ l i, ?a1 :: ?a2 :: ?a3 :: ?a4 :: ?a5 :: ?a6 :: ?a7 :: ?a8 :: ?a9 :: [?b] = _ ∧ _ => exists [a1; a2; a3; a4; a5; a6; a7; a8; a9], b end. split; reflexivity.
Qed.
Lemma o_now : current (mview ochain 40) = 40.
Proof. apply mview_synced; [done|lia]. Qed.
Local Opaque mview.
Lemma o_follows a i : in_view i = mview ochain 40 → follows ohu orec oaddr 1 2 3 9 5 10 ochain 2 (oinputs a) i.
Proof.
  intros Ei j Hj. destruct (o_view a j Hj) as (n & Hn & _ & Hs & Hc). split; [exact Hs|]. rewrite Hc, Ei, o_now. lia.
Qed.
Lemma o_ekgs a : a ∈ [7; 8]%N → ∃ g, k_ekgs (oks a) = [g] ∧ length (g_keypers g) = 2%nat ∧ ek_threshold (g_epochkg g) = 2%N ∧ ek_pk (g_epochkg g) = (toF 16 : G2 FP).
Proof.
  intros Ha. assert (H : (λ g, (length (g_keypers g), ek_threshold (g_epochkg g), ek_pk (g_epochkg g))) <$> k_ekgs (oks a) = [(2%nat, 2%N, toF 16 : G2 FP)]).
  { rewrite !elem_of_cons, elem_of_nil in Ha. destruct Ha as [->|[->|[]]]; vm_cast_no_check (eq_refl [(2%nat, 2%N, toF 16 : G2 FP)]). }
  destruct (k_ekgs (oks a)) as [|g [|]]; [done| |done]. cbn [fmap list_fmap] in H. exists g. split; [done|]. apply (f_equal head) in H. cbn [head] in H. apply (inj Some) in H.
  apply pair_equal_spec in H as [H H3]. by apply pair_equal_spec in H as [H1 H2].
Qed.
Lemma o_go_sized a : a ∈ [7; 8]%N → go_sized_ekgs (oks a) ∧ ∀ g, g ∈ k_ekgs (oks a) → ek_pk (g_epochkg g) = (toF 16 : G2 FP).
Proof.
  intros Ha. destruct (o_ekgs a Ha) as (g & E & H1 & H2 & H3). split; intros g'; rewrite E; intros ->%elem_of_list_singleton; [|exact H3]. rewrite H1, H2. split; [reflexivity|split; reflexivity].
Qed.
(** what was sent to batch 0: two sealed messages and garbage *)
Lemma o_sent : added 0 Cipher (MainProofs.log_at ohu orec oaddr 1 2 3 9 5 10 ochain 40) = [otx1; [3; 1; 2]%N; otx2].
Proof. vm_cast_no_check (eq_refl [otx1; [3; 1; 2]%N; otx2]). Qed.
Lemma o_sealed : sealed ohash ocodec oembed (toF 16 : G2 FP) 0 [104; 101; 108; 108; 111]%N otx1 ∧ sealed ohash ocodec oembed (toF 16 : G2 FP) 0 (replicate 40 9%N) otx2.
Proof.
  assert (∀ m s, length s = 32%nat → sealed ohash ocodec oembed (toF 16 : G2 FP) 0 m (default [] (user_tx ohash ocodec oembed (toF 16 : G2 FP) 0 m s))) as H.
  { intros m s Hs. exists s. split; [done|]. destruct (C69_seal ohash ocodec oembed (λ _, eq_refl) (toF 16 : G2 FP) 0 m s Hs) as [tx ->]. done. }
  split; by apply H.
Qed.
(** ** Both keypers execute the messages that the two users sealed. *)
Example C69_witness a : a ∈ [7; 8]%N → ∃ l i al x h k,
  runs_here ohash wrng ocodec opoint okey ohu orec oaddr 1 (opar a) ∧ keyper_run wmake oblocks wplen (epoch_id ohash) (opar a) 41 (l ++ [i]) (oks a) (al ++ [x]) ∧ KAction (AExecCipher 0 h omsgs k) ∈ x ∧
  follows ohu orec oaddr 1 2 3 9 5 10 ochain 2 (l ++ [i]) i ∧ shares_late ohu orec oaddr 1 2 3 9 5 10 ochain (l ++ [i]) 0 ∧ KeyperSystem.sized wmake oblocks ∧ go_sized_ekgs (oks a) ∧
  (∀ g, g ∈ k_ekgs (oks a) → has_key g 0 → ek_pk (g_epochkg g) = (toF 16 : G2 FP)) ∧ (∀ m, SyncModel.well_formed (opub m)) ∧ heights_ok wmake ∧
  opens_to ohash ocodec oembed opoint (toF 16 : G2 FP) 0 [otx1; [3; 1; 2]%N; otx2] omsgs ∧
  sealed ohash ocodec oembed (toF 16 : G2 FP) 0 [104; 101; 108; 108; 111]%N otx1 ∧ sealed ohash ocodec oembed (toF 16 : G2 FP) 0 (replicate 40 9%N) otx2.
Proof.
  intros Ha. destruct (o_last a Ha) as (l & i & El & Ei). destruct (o_action a Ha) as (al & x & h & k & Ea & Hx). exists l, i, al, x, h, k. rewrite <-El, <-Ea.
  pose proof (o_keyper_run a Ha) as R. pose proof (o_follows a i Ei) as Fo. pose proof (o_shares_late a Ha) as Sl. destruct (o_go_sized a Ha) as [Gs Gp].
  split; [exact (o_runs_here a)|]. split; [exact R|]. split; [exact Hx|]. split; [exact Fo|]. split; [exact Sl|]. split; [exact o_sized|]. split; [exact Gs|].
  split; [intros g Hg _; by apply Gp|]. split; [exact o_wf|]. split; [exact w_heights|]. split; [|exact o_sealed].
  rewrite El in R, Fo, Sl. rewrite Ea in R.
  destruct (C69_executed_partial ohash wrng ocodec opoint oembed okey (λ _, eq_refl) (λ _, eq_refl) wmake oblocks wplen o_wf w_heights ohu orec oaddr 1 2 3 9 5 10 ltac:(lia) ochain 2
    (opar a) 41 l i (oks a) al x 0 h omsgs k (o_runs_here a) R Hx Fo Sl o_sized Gs) as (g & G1' & G2' & G3).
  rewrite (Gp g G1') in G3. rewrite Ei, o_now in G3. change (Z.to_nat 40) with 40%nat in G3. rewrite o_sent in G3. exact G3.
Qed.

(** C80: a message of the example application, once its batch is executed, is delivered exactly once, whatever else happens on the chain. *)
From stdpp Require Import list gmap.
From Coq Require Import ZArith NArith Lia.
From Verif Require Import Fq CryptoModel CryptoProofs CryptoSpec PropsCrypto DkgModel DkgSpec EpochModel EncModel EncProofs GoHeap EncMemModel EncodingModel PropsEnc PropsEncoding ObserveModel SyncModel ArithModel PropsArith ContractsModel
  ContractsProofs PropsConfig PropsBatcher MainModel MainProofs PropsMain DecideModel DecideProofs KeyperModel KeyperSystem PropsKeyper PropsExecution PropsShares OpenModel OpenProofs PropsOpen.
From Verif Require Import TargetModel PropsTarget.
Local Open Scope Z_scope.

(** ** Specification *)
(** what happens on the main chain: a batch is executed by the executor contract, or anything that does not concern the target contract: the proxy calls
    it in batches only (C76_only_executor), and other callers cannot change it (C77_nobody_else) *)
Inductive happening (X : Type) := Batch (txs : list (list N)) | Elsewhere (f : X → X).
Arguments Batch {X}. Arguments Elsewhere {X}.
(** the message [m] with nonce [n] of [a] is in the log, exactly once, and no other message has this nonce *)
Definition delivered (t : test_state) (a : N) (n : Z) (m : list N) : Prop :=
  filter (λ e : N * list N * Z, e.1.1 = a ∧ e.2 = n) (TargetModel.log t) = [(a, m, n)].

Section Delivery.
Context (keccak : list N → list N) (ecrecover : list N → Z → list N → list N → N).
Context {X : Type} (test proxy executor : N) (gas : test_state * X → N → list N → bool).
(** other contracts cannot write to the state of the target contract *)
Context (other : N → N → list N → test_state * X → (test_state * X) * bool) (Hother : ∀ s r d w, (other s r d w).1.1 = w.1).
Notation code := (chain_code keccak ecrecover test proxy other).
Notation execute_one := (execute_one code gas proxy executor execute_selector).
Notation execute_all := (execute_all code gas proxy executor execute_selector).
Definition happen (w : test_state * X) (h : happening X) : test_state * X :=
  match h with Batch txs => (execute_all 0 w txs).1 | Elsewhere f => (w.1, f w.2) end.
(** the chain, from the deployment of the target contract on *)
Definition chain_after (x : X) (l : list (happening X)) : test_state * X := foldl happen (no_messages, x) l.

(** what always holds of the contract *)
Record sound (t : test_state) : Prop := {
  s_used : ∀ a n, (a, n) ∈ TargetModel.used t → ∃ d, (a, d, n) ∈ TargetModel.log t;
  s_log : ∀ a d n, (a, d, n) ∈ TargetModel.log t → (a, n) ∈ TargetModel.used t;
  s_once : NoDup ((λ e, (e.1.1, e.2)) <$> TargetModel.log t);
  s_signed : ∀ a d n, (a, d, n) ∈ TargetModel.log t → ∃ p v r s, decode_payload p = Some (n, d) ∧ ecrecover (signed_hash keccak p) v r s = a
}.
Definition grows (t t' : test_state) : Prop := ∀ e, e ∈ TargetModel.log t → e ∈ TargetModel.log t'.
Lemma sound_start : sound no_messages.
Proof. split; cbn; [set_solver|intros ??? H; by apply elem_of_nil in H|constructor|intros ??? H; by apply elem_of_nil in H]. Qed.
Lemma sound_call caller sender data t t' : sound t → test_call keccak ecrecover caller sender data t = Some t' → sound t' ∧ grows t t'.
Proof.
  intros [S1 S2 S3 S4] H. apply test_call_step in H as [->|(tx & p & v & r & s & n & d & _ & _ & _ & Hp & Hu & ->)]; [by (split; [split; try done|intros e])|].
  set (a := ecrecover _ v r s) in *. split; [split; cbn [used TargetModel.log]|intros e He; cbn; by right].
  - intros a' n' [[= -> ->]%elem_of_singleton|Hin]%elem_of_union; [exists d; by left|]. destruct (S1 _ _ Hin) as [d' Hd]. exists d'. by right.
  - intros a' d' n' [[= -> -> ->]|Hin]%elem_of_cons; [set_solver|]. apply S2 in Hin. set_solver.
  - cbn [fmap list_fmap fst snd]. constructor; [|done]. intros Hin. apply elem_of_list_fmap in Hin as ([[a' d'] n'] & E & Hin). cbn in E. injection E as -> ->. by apply S2 in Hin.
  - intros a' d' n' [[= -> -> ->]|Hin]%elem_of_cons; [|by apply S4]. by exists p, v, r, s.
Qed.
Lemma sound_code s r d w : sound w.1 → sound (code s r d w).1.1 ∧ grows w.1 (code s r d w).1.1.
Proof using Hother.
  intros Hs. unfold chain_code. destruct (r =? test)%N.
  - destruct (test_call _ _ _ _ _ _) as [t'|] eqn:E; [by eapply sound_call|]. split; [done|]. by intros e.
  - rewrite Hother. split; [done|]. by intros e.
Qed.
Lemma execute_one_cases w tx : execute_one w tx = (w, false) ∨ ∃ r d, execute_one w tx = ((code proxy r d w).1, true).
Proof.
  unfold TargetModel.execute_one. destruct (proxy_call _ _ _ _ _ _) as [[w' e]|] eqn:E; [|by left]. destruct (gas _ _ _); [|by left].
  unfold proxy_call in E. destruct (bool_decide _).
  - destruct (decode_args _) as [tx'|]; [|done]. destruct (negb _); [done|]. destruct (decode_tx tx') as [[r d]|]; [|done].
    destruct (code proxy r d w) as [w1 ok] eqn:Ec. destruct ok; [|done]. injection E as <- _. right. exists r, d. by rewrite Ec.
  - destruct (bool_decide _) eqn:E2; [|done]. apply bool_decide_eq_true in E2. unfold call_data in E2. by cbn in E2.
Qed.
Lemma sound_one w tx : sound w.1 → sound (execute_one w tx).1.1 ∧ grows w.1 (execute_one w tx).1.1.
Proof using Hother. intros Hs. destruct (execute_one_cases w tx) as [->|(r & d & ->)]; [split; [done|by intros e]|]. by apply sound_code. Qed.
Lemma sound_all txs : ∀ w i, sound w.1 → sound (execute_all i w txs).1.1 ∧ grows w.1 (execute_all i w txs).1.1.
Proof using Hother.
  induction txs as [|tx txs IH]; intros w i Hs; [split; [done|by intros e]|]. cbn [TargetModel.execute_all].
  destruct (sound_one w tx Hs) as [H1 H2]. destruct (execute_one w tx) as [w1 ok]. cbn [fst] in *. destruct (IH w1 (i + 1) H1) as [H3 H4].
  destruct (execute_all (i + 1) w1 txs) as [w2 f]. cbn [fst] in *. split; [done|]. intros e He. by apply H4, H2.
Qed.
Lemma sound_happen w h : sound w.1 → sound (happen w h).1 ∧ grows w.1 (happen w h).1.
Proof using Hother. intros Hs. destruct h as [txs|f]; [by apply sound_all|]. split; [done|by intros e]. Qed.
Lemma sound_chain l : ∀ w, sound w.1 → sound (foldl happen w l).1 ∧ grows w.1 (foldl happen w l).1.
Proof using Hother.
  induction l as [|h l IH]; intros w Hs; [split; [done|by intros e]|]. cbn [foldl]. destruct (sound_happen w h Hs) as [H1 H2]. destruct (IH _ H1) as [H3 H4].
  split; [done|]. intros e He. by apply H4, H2.
Qed.
(** C80: in every history of the chain, no message disappears from the log, and no nonce of a sender is there twice *)
Theorem C80_permanent x l1 l2 : grows (chain_after x l1).1 (chain_after x (l1 ++ l2)).1 ∧ NoDup ((λ e, (e.1.1, e.2)) <$> TargetModel.log (chain_after x (l1 ++ l2)).1).
Proof using Hother.
  unfold chain_after. rewrite foldl_app. destruct (sound_chain l1 (no_messages, x) sound_start) as [H1 _]. destruct (sound_chain l2 _ H1) as [H2 H3]. split; [done|apply H2].
Qed.

Section Message.
Context (sign : list N → Z * list N * list N) (a : N).
Definition signs (n : Z) (m : list N) : Prop := ∀ v r s, sign (signed_hash keccak (encode_payload n m)) = (v, r, s) →
  0 ≤ v < 256 ∧ length r = 32%nat ∧ length s = 32%nat ∧ ecrecover (signed_hash keccak (encode_payload n m)) v r s = a.
Lemma message_used m n w : signs n m → 0 ≤ n < 2 ^ 64 → Z.of_nat (length m) + 1024 < 2 ^ 64 → (test < 2 ^ 160)%N →
  gas w proxy (call_data execute_selector (encode_message keccak sign test m n)) = true → sound w.1 → (a, n) ∈ TargetModel.used (execute_one w (encode_message keccak sign test m n)).1.1.
Proof using Hother.
  intros Hsg Hn Hm Ht Hg Hs. destruct w as [t x]. rewrite (C77_in_batch keccak ecrecover sign a m n Hsg) by done. rewrite Hg. case_bool_decide as Hu; cbn; [set_solver|].
  destruct (decide ((a, n) ∈ TargetModel.used t)); [done|by exfalso].
Qed.
Lemma message_in_batch m n txs : signs n m → 0 ≤ n < 2 ^ 64 → Z.of_nat (length m) + 1024 < 2 ^ 64 → (test < 2 ^ 160)%N →
  (∀ w, gas w proxy (call_data execute_selector (encode_message keccak sign test m n)) = true) → encode_message keccak sign test m n ∈ txs →
  ∀ w i, sound w.1 → (a, n) ∈ TargetModel.used (execute_all i w txs).1.1.
Proof using Hother.
  intros Hsg Hn Hm Ht Hg. induction txs as [|tx txs IH]; intros Hin w i Hs; [by apply elem_of_nil in Hin|]. cbn [TargetModel.execute_all].
  destruct (sound_one w tx Hs) as [H1 H2].
  assert (tx = encode_message keccak sign test m n → (a, n) ∈ TargetModel.used (execute_one w tx).1.1) as Hx by (intros ->; by apply message_used).
  destruct (execute_one w tx) as [w1 ok]. cbn [fst] in *.
  destruct (sound_all txs w1 (i + 1) H1) as [H3 H4]. assert (encode_message keccak sign test m n ∈ txs → (a, n) ∈ TargetModel.used (execute_all (i + 1) w1 txs).1.1) as IH' by (intros Hi; by apply IH).
  destruct (execute_all (i + 1) w1 txs) as [w2 f]. cbn [fst] in *.
  apply elem_of_cons in Hin as [E|Hin]; [|by apply IH']. destruct (s_used _ H1 a n) as [d Hd]; [by apply Hx|]. apply H4 in Hd. by apply (s_log _ H3) in Hd.
Qed.
(** C80: a message that is in a batch that is executed is delivered, exactly once, whatever the rest of the batch is, which other batches are executed before and
    afterwards, and what else happens.  The sender signs nothing but messages [S], each with another nonce, and gas suffices; the only other way is a collision of the hash. *)
Theorem C80_delivered x l txs (S : list (Z * list N)) n m :
  (∀ n m, (n, m) ∈ S → 0 ≤ n < 2 ^ 64 ∧ Z.of_nat (length m) + 1024 < 2 ^ 64) → (∀ n m m', (n, m) ∈ S → (n, m') ∈ S → m = m') →
  (∀ h v r s, ecrecover h v r s = a → ∃ n m, (n, m) ∈ S ∧ h = signed_hash keccak (encode_payload n m)) → (test < 2 ^ 160)%N →
  (n, m) ∈ S → signs n m → Batch txs ∈ l → encode_message keccak sign test m n ∈ txs →
  (∀ w, gas w proxy (call_data execute_selector (encode_message keccak sign test m n)) = true) →
  delivered (chain_after x l).1 a n m ∨ ∃ x y, x ≠ y ∧ keccak x = keccak y.
Proof using Hother.
  intros HS HN Hrec Ht Hnm Hsg Hb Hin Hg. destruct (HS _ _ Hnm) as [Hn Hm].
  apply elem_of_list_split in Hb as (l1 & l2 & ->). unfold chain_after. rewrite foldl_app. cbn [foldl].
  destruct (sound_chain l1 (no_messages, x) sound_start) as [H1 _]. set (w1 := foldl happen _ l1) in *.
  assert ((a, n) ∈ TargetModel.used (happen w1 (Batch txs)).1) as Hu by (cbn [happen]; by apply (message_in_batch m n txs)).
  destruct (sound_happen w1 (Batch txs) H1) as [H2 _]. set (w2 := happen w1 _) in *. destruct (s_used _ H2 _ _ Hu) as [d Hd].
  destruct (sound_chain l2 w2 H2) as [H3 H4]. set (w3 := foldl happen w2 l2) in *. apply H4 in Hd. clearbody w3. clear w2 H2 H4 Hu w1 H1.
  (* the logged one is signed *)
  destruct (s_signed _ H3 _ _ _ Hd) as (p & v & r & s & Hp & Hr). destruct (Hrec _ _ _ _ Hr) as (n' & m' & HS' & Hh). destruct (HS _ _ HS') as [Hn' Hm'].
  destruct (decide (p = encode_payload n' m')) as [->|Hne].
  - rewrite decode_payload_encode in Hp by (done || lia). injection Hp as -> ->. replace d with m in * by (by apply (HN n)). left. unfold delivered.
    (* and it is the only one *)
    destruct H3 as [_ _ Hnd _]. clear -Hd Hnd. induction (TargetModel.log w3.1) as [|[[a' d'] n'] t IH]; [by apply elem_of_nil in Hd|].
    cbn [fmap list_fmap fst snd] in Hnd. apply NoDup_cons in Hnd as [Hni Hnd].
    assert (∀ d0, (a, d0, n) ∈ t → (a', n') ≠ (a, n)) as Hneq by (intros d0 Hin' [= -> ->]; apply Hni; apply elem_of_list_fmap; by exists (a, d0, n)).
    apply elem_of_cons in Hd as [[= -> -> ->]|Hd].
    + rewrite filter_cons_True by done. f_equal. destruct (filter _ t) as [|[[a1 d1] n1] t'] eqn:E; [done|].
      assert ((a1, d1, n1) ∈ filter (λ e : N * list N * Z, e.1.1 = a' ∧ e.2 = n') t) as Hin' by (rewrite E; by left).
      apply elem_of_list_filter in Hin' as [[? ?] Hin']. cbn in *. subst. exfalso. by apply (Hneq _ Hin').
    + rewrite filter_cons_False; [by apply IH|]. cbn. intros [-> ->]. by apply (Hneq _ Hd).
  - right. destruct (decide (keccak p = keccak (encode_payload n' m'))) as [Hk|Hk]; [by exists p, (encode_payload n' m')|].
    unfold signed_hash in Hh. exists (signed_prefix ++ keccak p), (signed_prefix ++ keccak (encode_payload n' m')). split; [|done]. intros E. by apply app_inv_head in E.
Qed.
End Message.
End Delivery.

(** * From the user to the log *)
Section System.
Context {P : pairing} {K R : Type} (H : hashes P) (G : rng) (C2 : codec p2_bytes) (point : raw C2 → G2 P) (embed : G2 P → raw C2) (key_bytes : G1 P → list N).
Context (Hin : ∀ g, in_group (embed g) = true) (Hpt : ∀ g, point (embed g) = g).
Context (make_event : R → Z → option (shutter_event (body P) sconfig K (N * list N))) (chain : nat → list (list R)) (plen : phase_length).
Context (Hwf : ∀ m, SyncModel.well_formed (SyncModel.published make_event chain m)) (Hho : heights_ok make_event).
Context (keccak : list N → list N) (ecrecover : list N → Z → Z → Z → option N) (addr_bytes : N → list N) (batcher slasher deposit owner : N) (hu ap : Z) (Hhu : (0 ≤ hu)%Z).
Context (ch : MainModel.chain) (F : Z).
Notation log_at := (MainProofs.log_at keccak ecrecover addr_bytes batcher slasher deposit owner hu ap ch).
Notation runs_here := (runs_here H G C2 point key_bytes keccak ecrecover addr_bytes batcher).
Notation follows := (follows keccak ecrecover addr_bytes batcher slasher deposit owner hu ap ch F).
Notation shares_late := (shares_late keccak ecrecover addr_bytes batcher slasher deposit owner hu ap ch).
(** the target contract's side: ecrecover as the target contract calls it *)
Context (recover : list N → Z → list N → list N → N) {X : Type} (test proxy executor : N) (gas : test_state * X → N → list N → bool).
Context (other : N → N → list N → test_state * X → (test_state * X) * bool) (Hother : ∀ s r d w, (other s r d w).1.1 = w.1).
Context (sign : list N → Z * list N * list N) (a : N).
(** C80: a user writes a message with the example application, seals it for a batch, and the transaction is accepted; a keyper decrypts the batch, and the executor
    contract executes what it submits; then the message is delivered, exactly once.  Partial: as C69 (shares are released after the end of the batch; one eon key). *)
Theorem C80_end_to_end_partial p m0 l i s al acts b h txs k pk ms hist x (S : list (Z * list N)) n m :
  runs_here p → keyper_run make_event chain plen (epoch_id H) p m0 (l ++ [i]) s (al ++ [acts]) → KAction (AExecCipher b h txs k) ∈ acts → follows (l ++ [i]) i →
  shares_late (l ++ [i]) b → sized make_event chain → go_sized_ekgs s → (∀ g, g ∈ k_ekgs s → has_key g b → ek_pk (g_epochkg g) = pk) →
  Forall2 (sealed H C2 embed pk (Z.to_N b)) ms (added b Cipher (log_at (Z.to_nat (current (in_view i))))) →
  encode_message keccak sign test m n ∈ ms →
  (** the target's chain *)
  Batch txs ∈ hist → (∀ w, gas w proxy (call_data execute_selector (encode_message keccak sign test m n)) = true) → (test < 2 ^ 160)%N →
  (** the user *)
  (n, m) ∈ S → signs keccak recover sign a n m → (∀ n m, (n, m) ∈ S → 0 ≤ n < 2 ^ 64 ∧ Z.of_nat (length m) + 1024 < 2 ^ 64) → (∀ n m m', (n, m) ∈ S → (n, m') ∈ S → m = m') →
  (∀ h v r s, recover h v r s = a → ∃ n m, (n, m) ∈ S ∧ h = signed_hash keccak (encode_payload n m)) →
  delivered (chain_after keccak recover test proxy executor gas other x hist).1 a n m ∨ ∃ x y, x ≠ y ∧ keccak x = keccak y.
Proof using Hwf Hho Hhu Hin Hpt Hother.
  intros Hr Hrun Ha Hf Hl Hs Hg Hpk Hms Hm Hb Hgas Ht Hnm Hsg HS HN Hrec.
  assert (txs ≡ₚ ms) as Hperm by (by eapply (C69_messages_partial H G C2 point embed key_bytes Hin Hpt make_event chain plen Hwf Hho keccak ecrecover addr_bytes batcher slasher deposit owner hu ap Hhu ch F)).
  eapply (C80_delivered keccak recover test proxy executor gas other Hother sign a x hist txs S n m); try done. by rewrite Hperm.
Qed.
End System.

(** the hypotheses: a user with one signed message, and a chain on which it is executed in a batch, and later again *)
Definition toy_hash (b : list N) : list N := take 32 b.
Definition toy_payload := encode_payload 3 [1; 2]%N.
Definition toy_recover (h : list N) (v : Z) (r s : list N) : N := if bool_decide (h = signed_hash toy_hash toy_payload) then 5%N else 0%N.
Definition toy_sign (h : list N) : Z * list N * list N := (27, replicate 32 1%N, replicate 32 2%N).
Definition toy_tx := encode_message toy_hash toy_sign 9 [1; 2]%N 3.
Definition toy_history : list (happening nat) := [Elsewhere Datatypes.S; Batch [[4]%N; toy_tx; toy_tx]; Elsewhere Datatypes.S; Batch [toy_tx]].
Example C80_witness : let S := [(3, [1; 2]%N)] in
  (∀ n m, (n, m) ∈ S → 0 ≤ n < 2 ^ 64 ∧ Z.of_nat (length m) + 1024 < 2 ^ 64) ∧ (∀ n m m', (n, m) ∈ S → (n, m') ∈ S → m = m') ∧
  (∀ h v r s, toy_recover h v r s = 5%N → ∃ n m, (n, m) ∈ S ∧ h = signed_hash toy_hash (encode_payload n m)) ∧ signs toy_hash toy_recover toy_sign 5 3 [1; 2]%N ∧
  Batch [[4]%N; toy_tx; toy_tx] ∈ toy_history ∧
  let w := chain_after toy_hash toy_recover 9 8 6 (λ _ _ _, true) (λ _ _ _ w, (w, false)) 0%nat toy_history in TargetModel.log w.1 = [(5%N, [1; 2]%N, 3)] ∧ w.2 = 2%nat.
Proof.
  split_and!.
  - intros n m [= -> ->]%elem_of_list_singleton. cbn. lia.
  - intros n m m' [= -> ->]%elem_of_list_singleton [= ->]%elem_of_list_singleton. done.
  - intros h v r s. unfold toy_recover. case_bool_decide as E; [|done]. intros _. exists 3, [1; 2]%N. split; [by left|done].
  - intros v r s [= <- <- <-]. unfold toy_recover. unfold toy_payload. rewrite bool_decide_true by reflexivity. split_and!; reflexivity || lia.
  - right. by left.
  - vm_compute. split; reflexivity.
Qed.

(** C57: whom keypers accuse, and how an executor defends itself. *)
From stdpp Require Import list gmap sorting fin_map_dom.
From Coq Require Import ZArith NArith Lia.
From Verif Require Import ArithModel PropsArith ContractsModel ContractsProofs PropsConfig PropsBatcher PropsExec PropsSlasher MainModel MainProofs PropsMain DecideModel DecideProofs PropsDecide PropsExecution.
Local Open Scope Z_scope.

Set Default Proof Using "Type".
(** the half step an action accuses *)
Definition accused_step (a : action) : option Z := match a with AAccuse h _ => Some h | _ => None end.

Lemma split_last {A} (l : list A) a (l2 l3 : list A) b : l ++ [a] ++ l2 = l3 ++ [b] → (length l + 1 < length (l3 ++ [b]))%nat → ∃ l2', l2 = l2' ++ [b] ∧ l3 = l ++ [a] ++ l2'.
Proof.
  intros E Hlen. destruct l2 as [|x l2 _] using rev_ind; [apply (f_equal length) in E; rewrite !app_length in *; cbn [length] in *; lia|].
  change (l ++ ([a] ++ l2) ++ [x] = l3 ++ [b]) in E. rewrite app_assoc in E. apply app_inj_tail in E as [E ->]. by exists l2.
Qed.

Section Props.
Context (keccak : list N → list N) (ecrecover : list N → Z → Z → Z → option N) (addr_bytes : N → list N) (batcher_address : N).
Context (me : N) (sign : list N → list N) (staggering : Z).
Context (order : ∀ A, list A → list A) (Horder : ∀ A (l : list A), order A l ≡ₚ l).
Notation transactions_hash := (transactions_hash keccak).
Notation signature_hash := (signature_hash keccak addr_bytes batcher_address).
Notation go_recover := (go_recover ecrecover).
Notation decisions := (decisions keccak ecrecover addr_bytes batcher_address me sign staggering order).
Notation decision_step := (decision_step keccak ecrecover addr_bytes batcher_address me sign staggering order).
Notation batches_ok := (batches_ok keccak ecrecover addr_bytes batcher_address).
Notation batch_ok := (batch_ok keccak ecrecover addr_bytes batcher_address).

(** ** Accusations *)
Lemma accusations_inv l i s al acts h k : decisions new_x (l ++ [i]) = Some (s, al ++ [acts]) → AAccuse h k ∈ acts →
  ∃ s1 t, decisions new_x l = Some (s1, al) ∧ batches_ok (l ++ [i]) t ∧ checked s1 ≤ h < v_half_steps (i_view i) ∧ ∃ la, accuse_one me (i_view i) t h = Some la ∧ AAccuse h k ∈ la.
Proof using Horder.
  intros H Ha. apply decisions_last in H as (s1 & D1 & D2 & Hok); [|done]. exists s1.
  apply (decision_parts _ _ _ _ _ _ _ _ Horder (l ++ [i])) in D2 as (t2 & t3 & ex & sg & ap & ac & -> & K & _ & _ & X & _ & X' & _ & Hsg & Hap & (s4 & A1 & A2 & Hac) & _); [|set_solver|done].
  apply maybe_accuse_spec in Hac as (_ & _ & _ & _ & Hac). rewrite !elem_of_app in Ha. destruct Ha as [Ha|[Ha|[Ha|Ha]]].
  - by destruct (Hsg _ Ha) as (? & ? & ?).
  - apply execute_batch_spec in X as (X & _). apply elem_of_list_lookup in Ha as [n Hn]. specialize (X _ _ Hn). by apply executes_half_step in X.
  - by destruct (Hap _ Ha) as (? & ?).
  - destruct (Hac _ Ha) as (h' & la & R & H1 & H2). exists s4. destruct (accuse_one_accuses _ _ _ _ _ _ H1 H2) as (_ & _ & r & x & c & _ & _ & _ & _ & _ & E). injection E as <- _.
    split; [done|]. split; [intros b y; rewrite A1; apply K|]. rewrite <-A2. split; [done|]. eauto.
Qed.
(** a keyper accuses the executor of a half step only if the executed batch differs from what it decrypted itself, and nobody did before *)
Theorem C57_accuse_why l i s al acts h k : decisions new_x (l ++ [i]) = Some (s, al ++ [acts]) → AAccuse h k ∈ acts → let v := i_view i in
  h mod 2 = 0 ∧ h < v_half_steps v ∧ v_accusations v !! h = None ∧
  ∃ r j dec, v_receipts v !! h = Some r ∧ j ∈ l ++ [i] ∧ (h / 2, dec) ∈ i_keys j ∧ r_batch_hash r ≠ transactions_hash (dec (enc_txs (mb (v_batches (i_view j)) (h / 2)))).
Proof using Horder.
  intros H Ha v. destruct (accusations_inv _ _ _ _ _ _ _ H Ha) as (s1 & t & _ & Hok & Hr & la & H1 & H2).
  destruct (accuse_one_accuses _ _ _ _ _ _ H1 H2) as (_ & Hm & r & x & c & R1 & R2 & R3 & R4 & R5 & _). apply Hok in R2. destruct R2 as [B1 B2 (ch & (j & dec & D1 & D2 & D3 & D4) & _) _].
  split; [done|]. split; [apply Hr|]. split; [done|]. exists r, j, dec. split; [done|]. split; [done|]. split; [done|]. rewrite <-D3, <-B2. congruence.
Qed.
(** it looks at every executed half step in one decision only, the first in which it sees it *)
Lemma checked_last l i s al : decisions new_x (l ++ [i]) = Some (s, al) → checked s = v_half_steps (i_view i).
Proof using Horder.
  intros H. apply decisions_snoc in H as (s1 & al1 & acts & s2 & D1 & D2 & E). injection E as -> ->.
  apply decision_inv in D2 as (? & ? & ? & ? & ? & ? & ? & ? & _ & _ & _ & _ & E & _). by apply maybe_accuse_spec in E as (_ & _ & _ & -> & _).
Qed.
Theorem C57_accuse_once l i s al acts h k : rising (l ++ [i]) → decisions new_x (l ++ [i]) = Some (s, al ++ [acts]) → AAccuse h k ∈ acts →
  ∀ j, j ∈ l → v_half_steps (i_view j) ≤ h.
Proof using Horder.
  intros Hr H Ha j Hj. destruct (accusations_inv _ _ _ _ _ _ _ H Ha) as (s1 & t & D & _ & R & _).
  destruct l as [|x l _] using rev_ind; [by apply elem_of_nil in Hj|]. apply checked_last in D. rewrite D in R.
  apply rising_snoc in Hr as [Hr _]. apply rising_snoc in Hr as [_ Hr]. apply elem_of_app in Hj as [Hj|Hj%elem_of_list_singleton]; [specialize (Hr j Hj); lia|subst; lia].
Qed.

(** ** Appeals *)
Definition appealed (h : Z) (acts : list action) : Prop := ∃ u, AAppeal u ∈ acts ∧ u_half_step u = h.
Lemma appeal_one_yes v s n m r x c : v_receipts v !! n = Some r → xbatches s !! (n / 2) = Some x → b_index x = n / 2 → b_hash x = r_batch_hash r → ma_appealed m = false →
  config_for_batch (v_configs v) (n / 2) = Some (Some c) → threshold c ≤ Z.of_nat (size (b_sigs x)) → (∀ a sig, b_sigs x !! a = Some sig → is_keyper c a = true ∧ length sig = 65%nat) → n ∉ pending_appeals s →
  ∃ u, appeal_one order v s n m = Some (Some (AAppeal u)) ∧ u_half_step u = n.
Proof using Horder.
  clear keccak ecrecover addr_bytes batcher_address me sign staggering.
  intros Hr Hx Hi Hh Hm Hc Ht Hs Hp. unfold appeal_one. rewrite Hm, bool_decide_false by done. rewrite Hr, Hx, bool_decide_true by done. cbn [negb].
  destruct (sorted_signatures order v x) as [[[sigs idx]|]|] eqn:Es.
  - cbn [mbind option_bind]. assert (is_Some (mapM to_contract_format sigs)) as [sigs' ->]; [|eexists; split; done].
    apply mapM_is_Some. apply Forall_forall. intros sig Hsig. apply elem_of_list_lookup in Hsig as [k Hk].
    eapply sorted_signatures_spec in Es as (S1 & _ & _ & _ & S5); [|done|by rewrite Hi]. destruct (lookup_lt_is_Some_2 idx k) as [j Hj]; [apply lookup_lt_Some in Hk; lia|].
    destruct (S5 _ _ _ Hj Hk) as (a & _ & Ha). destruct (Hs _ _ Ha) as [_ Hl]. change (is_Some (to_contract_format sig)). unfold to_contract_format. destruct (lookup_lt_is_Some_2 sig 64%nat) as [y ->]; [lia|]. eauto.
  - exfalso. unfold sorted_signatures in Es. rewrite Hi, Hc in Es. destruct (Z.ltb_spec (Z.of_nat (size (b_sigs x))) (threshold c)); [lia|]. destruct (mapM _ _) eqn:Em; [done|].
    apply mapM_None in Em. apply Exists_exists in Em as ([a sig] & Hin & He). rewrite Horder in Hin. apply elem_of_map_to_list in Hin. destruct (Hs _ _ Hin) as [Hk _]. unfold is_keyper in Hk. destruct (keyper_index c a); [done|done].
  - exfalso. unfold sorted_signatures in Es. rewrite Hi, Hc in Es. destruct (_ <? _); [done|]. by destruct (mapM _ _).
Qed.
Lemma appeal_loop_yes v m r x c l : ∀ s s' acts, appeal_loop order v s l = Some (s', acts) → m ∈ l → let n := ma_half_step m in
  v_receipts v !! n = Some r → xbatches s !! (n / 2) = Some x → b_index x = n / 2 → b_hash x = r_batch_hash r → ma_appealed m = false →
  config_for_batch (v_configs v) (n / 2) = Some (Some c) → threshold c ≤ Z.of_nat (size (b_sigs x)) → (∀ a sig, b_sigs x !! a = Some sig → is_keyper c a = true ∧ length sig = 65%nat) →
  n ∈ pending_appeals s ∨ appealed n acts.
Proof using Horder.
  clear keccak ecrecover addr_bytes batcher_address me sign staggering.
  induction l as [|m' l IH]; intros s s' acts H Hin n Hr Hx Hi Hh Hm Hc Ht Hs; [by apply elem_of_nil in Hin|]. destruct (decide (n ∈ pending_appeals s)) as [|Hp]; [by left|right].
  cbn [appeal_loop] in H. apply elem_of_cons in Hin as [<-|Hin].
  - destruct (appeal_one_yes v s n m r x c Hr Hx Hi Hh Hm Hc Ht Hs Hp) as (u & E & Eu). fold n in H. rewrite E in H. cbn [mbind option_bind] in H. inv_bind H. injection H as <- <-. exists u. split; [left|done].
  - inv_bind H. destruct a as [act|].
    + inv_bind H. injection H as <- <-. destruct (IH _ _ _ E0 Hin) as [Hn|(u & Hu & Eu)]; try done.
      * cbn [pending_appeals] in Hn. fold n in Hn. apply elem_of_union in Hn as [Hn%elem_of_singleton|Hn]; [|done]. destruct (appeal_one_appeals _ _ _ _ _ _ E) as [u ->]. exists u. split; [left|].
        unfold appeal_one in E. destruct (ma_appealed m'); [done|]. destruct (bool_decide _); [done|]. destruct (v_receipts v !! ma_half_step m'); [|done]. destruct (xbatches s !! _); [|done]. destruct (negb _); [done|].
        inv_bind E. destruct a as [[? ?]|]; [|done]. inv_bind E. injection E as <-. done.
      * exists u. split; [by right|done].
    + destruct (IH _ _ _ H Hin) as [Hn|?]; done.
Qed.
(** pending appeals were submitted *)
Lemma appeal_loop_pending v l : ∀ s s' acts, appeal_loop order v s l = Some (s', acts) → ∀ h, h ∈ pending_appeals s' → h ∈ pending_appeals s ∨ appealed h acts.
Proof.
  clear keccak ecrecover addr_bytes batcher_address me sign staggering Horder.
  induction l as [|m l IH]; intros s s' acts H h Hh; cbn [appeal_loop] in H; [injection H as <- <-; by left|]. inv_bind H. destruct a as [act|]; [|by eapply IH]. inv_bind H. injection H as <- <-.
  destruct (IH _ _ _ E0 h Hh) as [Hn|(u & Hu & Eu)]; [|right; exists u; split; [by right|done]]. cbn [pending_appeals] in Hn. apply elem_of_union in Hn as [Hn%elem_of_singleton|Hn]; [right|by left].
  destruct (appeal_one_appeals _ _ _ _ _ _ E) as [u ->]. exists u. split; [left|].
  unfold appeal_one in E. destruct (ma_appealed m); [done|]. destruct (bool_decide _); [done|]. destruct (v_receipts v !! ma_half_step m); [|done]. destruct (xbatches s !! _); [|done]. destruct (negb _); [done|].
  inv_bind E. destruct a as [[? ?]|]; [|done]. inv_bind E. injection E as <-. done.
Qed.
Lemma pending_submitted l s al : decisions new_x l = Some (s, al) → ∀ h, h ∈ pending_appeals s → appealed h (mjoin al).
Proof using Horder.
  revert s al. induction l as [|i l IH] using rev_ind; intros s al H h Hh; [injection H as <- <-; cbn in Hh; set_solver|].
  pose proof H as H'. apply decisions_snoc in H as (s1 & al1 & acts & s2 & D1 & D2 & E). injection E as -> ->. rewrite mjoin_app. cbn [mjoin list_join]. rewrite app_nil_r.
  apply decision_inv in D2 as (t1 & a1 & t2 & t3 & a3 & t4 & a4 & a5 & E1 & E2 & E3 & E4 & E5 & ->).
  pose proof (reached_ok _ _ _ _ _ _ _ _ Horder _ _ _ D1) as Hok.
  assert (pending_appeals t1 = pending_appeals s1) as P1.
  { apply on_keys_ok with (l := l ++ [i]) in E1 as (_ & _ & K3 & _); [done|set_solver|done|]. intros b x Hx. eapply batch_ok_mono; [|by apply Hok]. set_solver. }
  apply handle_signatures_spec in E2 as (_ & P2 & _). apply execute_batch_keeps in E3 as (_ & P3 & _). apply maybe_accuse_spec in E5 as (_ & _ & P5 & _). rewrite P5 in Hh.
  destruct (appeal_loop_pending _ _ _ _ _ E4 h Hh) as [Hn|(u & Hu & Eu)].
  - unfold sync_pending_appeals in Hn. cbn [pending_appeals] in Hn. apply elem_of_filter in Hn as [_ Hn]. rewrite P3, P2, P1 in Hn. destruct (IH _ _ D1 h Hn) as (u & Hu & Eu). exists u. split; [|done]. apply elem_of_app. by left.
  - exists u. split; [|done]. rewrite !elem_of_app. auto.
Qed.

(** a decrypted batch and its signatures are kept *)
Lemma step_kept l s i s' acts b x : i ∈ l → batches_ok l s → decision_step s i = Some (s', acts) → b ∉ (i_keys i).*1 → xbatches s !! b = Some x →
  ∃ y, xbatches s' !! b = Some y ∧ b_txs y = b_txs x ∧ b_hash y = b_hash x ∧ b_empty y = b_empty x ∧ b_sigs x ⊆ b_sigs y.
Proof using Horder.
  intros Hi Hok H Hb Hx. apply decision_inv in H as (t1 & a1 & t2 & t3 & a3 & t4 & a4 & a5 & E1 & E2 & E3 & E4 & E5 & ->).
  apply on_keys_ok with (l := l) in E1 as (_ & _ & _ & _ & _ & K6); [|done|done|done]. apply handle_signatures_spec in E2 as (_ & _ & _ & P). apply execute_batch_keeps in E3 as (X & _).
  apply maybe_appeal_spec in E4 as (M1 & _); [|done]. apply maybe_accuse_spec in E5 as (A1 & _). specialize (P b). rewrite K6, Hx in P by done. destruct P as (y & Hsy & Hy).
  apply sync_batch_keeps in Hsy as (_ & S2 & S3 & _ & S5 & S6 & _). exists y. rewrite A1, M1, X. done.
Qed.
Lemma kept l1 i l2 s al acts1 al2 b x s1 : decisions new_x (l1 ++ [i] ++ l2) = Some (s, al ++ [acts1] ++ al2) → length al = length l1 → decisions new_x (l1 ++ [i]) = Some (s1, al ++ [acts1]) →
  (∀ y, y ∈ l2 → b ∉ (i_keys y).*1) → xbatches s1 !! b = Some x →
  ∃ y, xbatches s !! b = Some y ∧ b_txs y = b_txs x ∧ b_hash y = b_hash x ∧ b_empty y = b_empty x ∧ b_sigs x ⊆ b_sigs y.
Proof using Horder.
  intros H Hl Hs1 Hk Hx. revert s al2 H. induction l2 as [|j l2 IH] using rev_ind; intros s al2 H.
  - pose proof (decisions_length _ _ _ _ _ _ _ _ _ _ _ _ H) as Hlen. rewrite !app_length in Hlen. destruct al2; [|cbn [length] in Hlen; lia]. rewrite !app_nil_r in H. rewrite Hs1 in H. injection H as <-. by exists x.
  - rewrite app_assoc, app_assoc in H. apply decisions_snoc in H as (s2 & al1 & acts & s3 & D1 & D2 & E). injection E as -> E.
    pose proof (decisions_length _ _ _ _ _ _ _ _ _ _ _ _ D1) as Hlen. destruct (split_last al acts1 al2 al1 acts E) as (al2' & -> & ->). { rewrite !app_length in *. cbn [length] in *. lia. }
    rewrite <-app_assoc in D1. destruct (IH ltac:(intros y Hy; apply Hk; set_solver) _ _ D1) as (y & Y1 & Y2 & Y3 & Y4 & Y5).
    pose proof (reached_ok _ _ _ _ _ _ _ _ Horder _ _ _ D1) as Hok.
    destruct (step_kept ((l1 ++ [i] ++ l2) ++ [j]) s2 j s3 acts b y) as (z & Z1 & Z2 & Z3 & Z4 & Z5); [set_solver| |done|apply Hk; set_solver|done|].
    { intros b' x' Hx'. eapply batch_ok_mono; [|by apply Hok]. set_solver. }
    exists z. split_and!; [done|congruence|congruence|congruence|by etrans].
Qed.
(** an executor that was accused of a cipher half step it executed submits an appeal, as soon as it sees the accusation: it has the signatures *)
Theorem C57_defends l1 i l2 j s al acts1 al2 acts2 b h txs k c r m : let seen := (l1 ++ [i] ++ l2) ++ [j] in
  decisions new_x seen = Some (s, (al ++ [acts1] ++ al2) ++ [acts2]) → length al = length l1 → AExecCipher b h txs k ∈ acts1 →
  (* the config of the batch does not change *)
  (∀ y, y ∈ seen → y = i ∨ y = j ∨ is_Some (i_sigs y !! b) → config_for_batch (v_configs (i_view y)) b = Some (Some c)) →
  (* the key of the batch was found once, when the keyper had seen that the batch is not empty *)
  (∀ y, y ∈ l2 ++ [j] → b ∉ (i_keys y).*1) → (∀ y dec, y ∈ seen → (b, dec) ∈ i_keys y → enc_hash (mb (v_batches (i_view y)) b) ≠ zero32) →
  (* the executed batch is this one, and somebody accuses *)
  v_receipts (i_view j) !! (2 * b) = Some r → r_batch_hash r = transactions_hash txs →
  v_accusations (i_view j) !! (2 * b) = Some m → ma_half_step m = 2 * b → ma_appealed m = false →
  appealed (2 * b) (mjoin ((al ++ [acts1] ++ al2) ++ [acts2])).
Proof using Horder.
  intros seen H Hl Ha Hc Hk Hne Hr Hrh Hacc Hm Hap. subst seen.
  pose proof (decisions_last _ _ _ _ _ _ _ _ Horder _ _ _ _ _ H) as (s2 & D1 & D2 & Hok2).
  (* the state when it executes *)
  assert (∃ s1, decisions new_x (l1 ++ [i]) = Some (s1, al ++ [acts1])) as [s1 Ds1].
  { clear -D1 Hl Horder. revert s2 al2 D1. induction l2 as [|y l2 IH] using rev_ind; intros s2 al2 D1.
    - pose proof (decisions_length _ _ _ _ _ _ _ _ _ _ _ _ D1) as Hlen. rewrite !app_length in Hlen. destruct al2; [|cbn [length] in Hlen; lia]. rewrite !app_nil_r in D1. eauto.
    - rewrite app_assoc, app_assoc in D1. apply decisions_snoc in D1 as (s3 & al1 & acts & s4 & D3 & _ & E). injection E as -> E.
      pose proof (decisions_length _ _ _ _ _ _ _ _ _ _ _ _ D3) as Hlen. destruct (split_last al acts1 al2 al1 acts E) as (al2' & -> & ->). { rewrite !app_length in *. cbn [length] in *. lia. }
      rewrite <-app_assoc in D3. by eapply IH. }
  destruct (execution_inv _ _ _ _ _ _ _ _ Horder _ _ _ _ _ _ Ds1 Ha ltac:(by eexists)) as (t & n & Hokt & (c1 & d & e & C1 & _ & _ & Hx) & _ & Hn & Ext). cbn [executed] in Hn. injection Hn as <-.
  assert (2 * b / 2 = b) as Hdiv by (rewrite Z.mul_comm; by apply Z.div_mul). rewrite Hdiv in *.
  destruct Hx as [(? & _)|(_ & _ & [(? & _)|(_ & _ & k' & x & _ & Hb & E & Hs)])]; [done|done|]. injection E as _ -> _.
  assert (c1 = c) as ->. { rewrite (Hc i) in C1; [by injection C1|set_solver|by left]. }
  pose proof (Hokt _ _ Hb) as [B1 B2 (ch & (y & dec & Y1 & Y2 & Y3 & Y4) & _ & B5) _].
  assert (b_empty x = false) as Hem. { rewrite B5. apply bool_decide_eq_false. rewrite Y4. apply (Hne y dec); [set_solver|done]. }
  destruct Hs as [Hs|Hs]; [congruence|]. rewrite Ext in Hb.
  (* and when it sees the accusation *)
  destruct (kept _ _ _ _ _ _ _ _ _ _ D1 Hl Ds1 ltac:(intros z Hz; apply Hk; set_solver) Hb) as (x2 & X1 & X2 & X3 & X4 & X5).
  destruct (step_kept ((l1 ++ [i] ++ l2) ++ [j]) s2 j s acts2 b x2 ltac:(apply elem_of_app; right; left) Hok2 D2 ltac:(apply Hk; set_solver) X1) as (x3 & Z1 & Z2 & Z3 & Z4 & Z5).
  pose proof (reached_ok _ _ _ _ _ _ _ _ Horder _ _ _ H b x3 Z1) as [G1 G2 _ G4].
  pose proof D2 as D2'. apply decision_inv in D2 as (t1 & a1 & t2 & t3 & a3 & t4 & a4 & a5 & E1 & E2 & E3 & E4 & E5 & ->).
  pose proof (maybe_appeal_spec _ Horder _ _ _ _ E4) as (M1 & _). apply maybe_accuse_spec in E5 as (A1 & _).
  assert (size (b_sigs x) ≤ size (b_sigs x3))%nat as Hsize by (rewrite <-!(size_dom (D:=gset N)); apply subseteq_size, subseteq_dom; by etrans).
  destruct (appeal_loop_yes _ m r x3 c _ _ _ _ E4) as [Hp|(u & Hu & Eu)].
  - apply elem_of_list_fmap. exists (2 * b, m). split; [done|]. rewrite (Horder _ (map_to_list _)). by apply elem_of_map_to_list.
  - by rewrite Hm.
  - rewrite Hm, Hdiv. cbn [sync_pending_appeals xbatches]. rewrite <-M1, <-A1. done.
  - by rewrite Hm, Hdiv.
  - rewrite Z3, X3, B2. done.
  - done.
  - rewrite Hm, Hdiv. apply Hc; [set_solver|by right; left].
  - lia.
  - intros a sig Hsig. destruct (G4 a sig Hsig) as [Hg (y' & lst & c' & P1 & P2 & _ & P3 & P4)]. rewrite (Hc y') in P3; [injection P3 as <-|done|right; right; eauto]. split; [done|].
    unfold DecideModel.go_recover in Hg. by destruct (Nat.eqb_spec (length sig) 65).
  - (* it was submitted before *)
    cbn [sync_pending_appeals pending_appeals] in Hp. apply elem_of_filter in Hp as [_ Hp]. rewrite Hm in Hp.
    assert (pending_appeals t3 = pending_appeals s2) as P1.
    { apply on_keys_ok with (l := (l1 ++ [i] ++ l2) ++ [j]) in E1 as (_ & _ & K3 & _); [|set_solver|done|done]. apply handle_signatures_spec in E2 as (_ & P2 & _). apply execute_batch_keeps in E3 as (_ & P3 & _). congruence. }
    rewrite P1 in Hp. destruct (pending_submitted _ _ _ D1 _ Hp) as (u & Hu & Eu). exists u. split; [|done]. rewrite mjoin_app. apply elem_of_app. by left.
  - exists u. split; [|congruence]. rewrite mjoin_app. apply elem_of_app. right. cbn [mjoin list_join]. rewrite app_nil_r, !elem_of_app. auto.
Qed.

(** ** Nobody is accused wrongly, if keys are found late *)
Context (slasher_address deposit_address : N) (owner : N) (hu ap : Z) (Hhu : 0 ≤ hu).
Notation state_at := (state_at keccak ecrecover addr_bytes batcher_address slasher_address deposit_address owner hu ap).
Notation log_at := (log_at keccak ecrecover addr_bytes batcher_address slasher_address deposit_address owner hu ap).
Notation synced := (synced keccak ecrecover addr_bytes batcher_address slasher_address deposit_address owner hu ap).
Notation keys_late := (keys_late keccak ecrecover addr_bytes batcher_address slasher_address deposit_address owner hu ap).
(** the hash the contract stored for the accused half step is not that of the decryptions of the batch on the chain *)
Theorem C57_accuse_guilty_partial ch F l i s al acts h k : (∀ j, j ∈ l ++ [i] → synced ch F (i_view j) ∧ current (i_view j) ≤ current (i_view i)) → keys_late ch (l ++ [i]) (h / 2) →
  decisions new_x (l ++ [i]) = Some (s, al ++ [acts]) → AAccuse h k ∈ acts → let n := Z.to_nat (current (i_view i)) in
  ∃ r j dec, v_receipts (i_view i) !! h = Some r ∧ j ∈ l ++ [i] ∧ (h / 2, dec) ∈ i_keys j ∧ r_batch_hash r ≠ transactions_hash (dec (added (h / 2) Cipher (log_at ch n))).
Proof using Horder Hhu.
  intros Hs Hk H Ha n. destruct (C57_accuse_why _ _ _ _ _ _ _ H Ha) as (_ & _ & _ & r & j & dec & R1 & R2 & R3 & R4). exists r, j, dec. split; [done|]. split; [done|]. split; [done|].
  destruct (Hs i ltac:(set_solver)) as [Hi _]. destruct (Hs j R2) as [Hj Hle]. destruct (Hk j dec R2 R3) as (i' & c' & K1 & K2 & K3).
  destruct (closed_views keccak ecrecover addr_bytes batcher_address slasher_address deposit_address owner hu ap Hhu ch F (i_view j) (i_view i) (h / 2) i' c' Hj Hi Hle K1 K2 K3 Cipher) as [V1 _]. cbn [txs_of] in V1.
  destruct Hi as (H0 & HF & heads & S1 & Ev). pose proof (final_ok keccak ecrecover addr_bytes batcher_address slasher_address deposit_address owner hu ap ch H0 F HF heads S1) as [_ O1 O2 O3 _ _ _]. rewrite <-Ev in *.
  pose proof (O2 (h / 2) Cipher) as Et. cbn [txs_of] in Et. unfold n. rewrite <-Et. by rewrite V1.
Qed.
End Props.

(** ** Witnesses and findings *)
(** everything submitted, decision by decision *)
Definition all_submitted (l : list input) : list (list action) := match wdecisions new_x l with Some (_, al) => al | None => [] end.
(** the cipher transaction is added at block 25, the last but four of batch 1; block 32 is the first at which keyper 7 may execute it *)
Definition xchain (exec : list (nat * N * call)) : chain := λ n, match n with
  | 1 => [(1, 9%N, SetNext wcfg); (1, 9%N, Schedule); (1, 9%N, SetSlasher 2); (1, 7%N, TokenSend 50 4); (1, 8%N, TokenSend 50 4)]
  | 25 => [(1, 4%N, AddTx 1 Cipher [1; 2]%N 0); (1, 4%N, SkipEmpty 2)]
  | 32 => exec
  | _ => [] end%nat.
Definition xview (exec : list (nat * N * call)) (heads : list Z) : view := wsync (new_view 0) ((λ h, (xchain exec, h, true)) <$> heads).
Definition xdec : list (list N) → list (list N) := fmap (λ _, [5]%N).
Definition xhash : list N := ([1; 2]%N ++ zero32)%list.
(** C56: the keyper decrypts at block 30, has two signatures, and executes at block 32; the contract accepts it at block 33 *)
Definition xinputs : list input := [mkInput (xview [] [30]) ∅ [(1, xdec)]; mkInput (xview [] [30; 32]) {[1 := good_sigs]} []].
Example C56_witness : all_submitted xinputs = [[ASignature 1 []]; [AExecCipher 1 xhash [[5]%N] 0; AExecPlain 1 []]] ∧
  (∃ r, wrun 1 (wstate (xchain []) 33) 7 (ExecCipher 1 xhash [[5]%N] 0 []) = Ok r).
Proof. split; [vm_compute; reflexivity|]. eexists. vm_compute. reflexivity. Qed.
(** C56, finding: the keyper's main chain node lags behind. It finds the key of batch 1 when it has seen block 24 only, so it takes the batch
    to be empty; it needs no signatures for an empty batch. When its view catches up, it submits the empty batch together with the hash of the
    batch on the chain, which is not empty. The contract accepts this, and the transaction is lost. The keyper is accused and slashed. *)
Definition xlagging : list input := [mkInput (xview [] [24]) ∅ [(1, xdec)]; mkInput (xview [] [24; 32]) {[1 := good_sigs]} []].
Theorem C56_content_refuted : all_submitted xlagging = [[]; [AExecCipher 1 xhash [] 0; AExecPlain 1 []]] ∧ added 1 Cipher (wlog (xchain []) 32) = [[1; 2]%N] ∧
  let w := (wsteps (wstate (xchain []) 33) [Tx 2 7 (ExecCipher 1 xhash [] 0 []); Tx 1 8 (Accuse 2 1); Mine 11; Tx 2 6 (Slash 2 [])]).1 in
  half_steps w = 3 ∧ a_slashed (accusation_of w 2) = true ∧ d_amount (deposit_of w 7) = 0.
Proof. split; [vm_compute; reflexivity|]. split; [vm_compute; reflexivity|]. cbv zeta. split; [vm_compute; reflexivity|]. split; vm_compute; reflexivity. Qed.
(** C57: keyper 8 executes something else, keyper 7 accuses it, once *)
Definition xguilty : list (nat * N * call) := [(2%nat, 8%N, ExecCipher 1 xhash [[6]%N] 1 [])].
Definition xaccuser : list input := [mkInput (xview xguilty [30]) ∅ [(1, xdec)]; mkInput (xview xguilty [30; 33]) ∅ []; mkInput (xview xguilty [30; 33; 34]) ∅ []].
Example C57_accuse_witness : all_submitted xaccuser = [[ASignature 1 []]; [AExecPlain 1 []; AAccuse 2 0]; []] ∧ ∃ r, wrun 1 (wstate (xchain xguilty) 33) 7 (Accuse 2 0) = Ok r.
Proof. split; [vm_compute; reflexivity|]. eexists. vm_compute. reflexivity. Qed.
(** C57, finding: a keyper that decrypts the batch after it has seen it executed never accuses anybody *)
Definition xmissed : list input := [mkInput (xview xguilty [33]) ∅ []; mkInput (xview xguilty [33; 34]) ∅ [(1, xdec)]; mkInput (xview xguilty [33; 34; 40]) ∅ []].
Theorem C57_missed_refuted : all_submitted xmissed = [[AExecPlain 1 []]; []; []] ∧ a_accused (accusation_of (wstate (xchain xguilty) 40) 2) = false.
Proof. split; vm_compute; reflexivity. Qed.
(** C57, finding: a keyper whose node lagged behind when the key was found accuses the honest executor *)
Definition xhonest : list (nat * N * call) := [(2%nat, 8%N, ExecCipher 1 xhash [[5]%N] 1 [])].
Definition xfalse : list input := [mkInput (xview xhonest [24]) ∅ [(1, xdec)]; mkInput (xview xhonest [24; 33]) ∅ []].
Theorem C57_false_accusation_refuted : all_submitted xfalse = [[]; [AExecPlain 1 []; AAccuse 2 0]] ∧ xdec (added 1 Cipher (wlog (xchain xhonest) 33)) = [[5]%N] ∧
  ∃ r, wrun 1 (wstate (xchain xhonest) 33) 7 (Accuse 2 0) = Ok r.
Proof. split; [vm_compute; reflexivity|]. split; [vm_compute; reflexivity|]. eexists. vm_compute. reflexivity. Qed.
(** C57: the executor keyper 7 is accused at block 34, and appeals *)
Definition xexec7 : list (nat * N * call) := [(2%nat, 7%N, ExecCipher 1 xhash [[5]%N] 0 []); (1%nat, 8%N, Accuse 2 1)].
Definition xappeal : list input := [mkInput (xview [] [30]) ∅ [(1, xdec)]; mkInput (xview [] [30; 32]) {[1 := good_sigs]} []; mkInput (xview xexec7 [30; 33]) ∅ []].
Example C57_defends_witness : all_submitted xappeal = [[ASignature 1 []]; [AExecCipher 1 xhash [[5]%N] 0; AExecPlain 1 []]; [AAppeal good_appeal]] ∧
  ∃ r, wrun 1 (wstate (xchain xexec7) 34) 7 (Appeal good_appeal) = Ok r.
Proof. split; [vm_compute; reflexivity|]. eexists. vm_compute. reflexivity. Qed.

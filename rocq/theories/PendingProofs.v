(** Invariant of the keyper's main loop and action workers (PendingModel.v). *)
From stdpp Require Import list gmap sorting.
From Coq Require Import NArith Lia.
From Verif Require Import PendingModel PendingSpec.

(** [l] lists exactly the ids with property [P], in increasing order *)
Definition lists (l : list N) (P : N → Prop) : Prop := StronglySorted N.lt l ∧ ∀ id, id ∈ l ↔ P id.

Lemma lists_ext l P Q : lists l P → (∀ id, P id ↔ Q id) → lists l Q.
Proof. intros [HS H] HPQ. split; [done|]. intros id. by rewrite H, HPQ. Qed.
Lemma sorted_app (l1 l2 : list N) : StronglySorted N.lt l1 → StronglySorted N.lt l2 →
  (∀ x y, x ∈ l1 → y ∈ l2 → (x < y)%N) → StronglySorted N.lt (l1 ++ l2).
Proof.
  intros H1 H2 H. induction H1 as [|x l1 H1 IH Hx]; cbn [app]; [done|].
  constructor.
  - apply IH. intros a b Ha Hb. apply H; [by apply elem_of_list_further|done].
  - apply Forall_app; split; [done|]. apply Forall_forall. intros y Hy. apply H; [by apply elem_of_list_here|done].
Qed.
Lemma lists_app l1 l2 P Q : lists l1 P → lists l2 Q → (∀ x y, P x → Q y → (x < y)%N) →
  lists (l1 ++ l2) (λ id, P id ∨ Q id).
Proof.
  intros [H1 E1] [H2 E2] H. split.
  - apply sorted_app; [done|done|]. intros x y Hx Hy. apply H; [by apply E1|by apply E2].
  - intros id. rewrite elem_of_app, E1, E2. done.
Qed.
Lemma lists_cons id l P : lists (id :: l) P → lists l (λ x, P x ∧ x ≠ id) ∧ P id ∧ (∀ x, P x → x ≠ id → (id < x)%N).
Proof.
  intros [HS HE]. inversion_clear HS as [|? ? HS' HF].
  rewrite Forall_forall in HF.
  split; [|split].
  - split; [done|]. intros x. rewrite <-HE, elem_of_cons. split.
    + intros Hx. split; [by right|]. intros ->. specialize (HF id Hx). lia.
    + intros [[->|Hx] Hne]; done.
  - apply HE. by apply elem_of_list_here.
  - intros x Hx Hne. apply HE, elem_of_cons in Hx. destruct Hx as [->|Hx]; [done|]. by apply HF.
Qed.
Lemma lists_nil P : (∀ id, ¬ P id) → lists [] P.
Proof. intros H. split; [constructor|]. intros id. split; [by intros ?%elem_of_nil|by intros ?%H]. Qed.

Lemma seq_sorted (a : N) i n : StronglySorted N.lt ((λ i, (a + N.of_nat i)%N) <$> seq i n).
Proof.
  revert i. induction n as [|n IH]; intros i; cbn [seq fmap list_fmap]; constructor; [apply IH|].
  apply Forall_forall. intros x. rewrite elem_of_list_fmap. intros (j & -> & Hj).
  apply elem_of_list_In, in_seq in Hj. lia.
Qed.
Lemma ids_between_lists a b : lists (ids_between a b) (λ id, (a <= id < b)%N).
Proof.
  split; [apply seq_sorted|]. intros id. unfold ids_between. rewrite elem_of_list_fmap. split.
  - intros (j & -> & Hj). apply elem_of_list_In, in_seq in Hj. lia.
  - intros H. exists (N.to_nat (id - a)). split; [lia|]. apply elem_of_list_In, in_seq. lia.
Qed.
Lemma filter_sorted (f : N → bool) l : StronglySorted N.lt l → StronglySorted N.lt (List.filter f l).
Proof.
  induction 1 as [|x l HS IH HF]; cbn [List.filter]; [constructor|]. destruct (f x); [|done].
  constructor; [done|]. rewrite Forall_forall in HF |- *. intros y Hy. apply HF.
  apply elem_of_list_In. apply elem_of_list_In, List.filter_In in Hy. by destruct Hy.
Qed.
Lemma lists_filter (f : N → bool) l P : lists l P → lists (List.filter f l) (λ id, P id ∧ f id = true).
Proof.
  intros [HS HE]. split; [by apply filter_sorted|]. intros id.
  rewrite elem_of_list_In, List.filter_In, <-elem_of_list_In, HE. done.
Qed.

Section Proofs.
Context {S A W : Type} (decide : S → W → S * list A) (is_message : A → bool) (s0 : S).
Notation step := (step decide is_message s0).
Notation exec := (exec decide is_message s0).
Notation schedule := (schedule (S:=S) is_message).
Implicit Types (o : list (obs A)) (k : proc S A) (p : pending A).

(** ** Observations *)
Lemma committed_app o1 o2 : committed (o1 ++ o2) = committed o1 ++ committed o2.
Proof. induction o1 as [|[] o1 IH]; cbn; [done|..]; rewrite ?IH, ?(assoc_L (++)); done. Qed.
Lemma added_app o1 o2 : added (o1 ++ o2) = added o1 ++ added o2.
Proof. induction o1 as [|[] o1 IH]; cbn; [done|..]; rewrite ?IH; done. Qed.
Lemma tx_sent_app o1 o2 : tx_sent (o1 ++ o2) = tx_sent o1 ++ tx_sent o2.
Proof. induction o1 as [|[] o1 IH]; cbn; [done|..]; rewrite ?IH; done. Qed.
Lemma tx_sent_elem o id : id ∈ tx_sent o ↔ OTxSent id ∈ o.
Proof.
  induction o as [|x o IH]; cbn; [split; by intros ?%elem_of_nil|].
  rewrite (elem_of_cons o).
  destruct x; try (rewrite IH; split; [by right|intros [?|?]; [discriminate|done]]).
  rewrite elem_of_cons, IH. split; (intros [E|?]; [left|by right]); [by rewrite E|by injection E].
Qed.
Definition no_restart o : Prop := ORestarted ∉ o.
Lemma after_app o1 o2 : no_restart o2 → after_last_restart (o1 ++ o2) = after_last_restart o1 ++ o2.
Proof.
  unfold after_last_restart. rewrite foldl_app. generalize (foldl (λ acc x, match x with ORestarted => [] | _ => acc ++ [x] end) [] o1).
  induction o2 as [|x o2 IH]; intros acc Hn; cbn [foldl]; [by rewrite app_nil_r|].
  assert (no_restart o2) as Hn2. { intros ?. apply Hn. by apply elem_of_list_further. }
  assert (x ≠ ORestarted). { intros ->. apply Hn. by apply elem_of_list_here. }
  destruct x; try done; rewrite IH by done; rewrite <-(assoc_L (++)); done.
Qed.
Lemma after_restart o : after_last_restart (o ++ [ORestarted]) = [].
Proof. unfold after_last_restart. by rewrite foldl_app. Qed.

(** ** Scheduling a list of ids *)
Definition owned_msg k : list N := option_list (w_msg k) ++ q_msg k.
Definition owned_tx k : list N := option_list (fst <$> w_tx k) ++ q_tx k.
Definition is_msg p (id : N) : Prop := ∃ a, p_map p !! id = Some a ∧ is_message a = true.
Definition is_tx p (id : N) : Prop := ∃ a, p_map p !! id = Some a ∧ is_message a = false.
Definition msgb p (id : N) : bool := match p_map p !! id with Some a => is_message a | None => false end.
Definition txb p (id : N) : bool := match p_map p !! id with Some a => negb (is_message a) && negb (bool_decide (id ∈ p_sent p)) | None => false end.
Definition sentb p (id : N) : bool := match p_map p !! id with Some a => negb (is_message a) && bool_decide (id ∈ p_sent p) | None => false end.

Lemma schedule_fold k l :
  foldl schedule k l =
  mkProc (k_pc k) (k_state k) (k_pending k)
    (q_msg k ++ List.filter (msgb (k_pending k)) l) (q_tx k ++ List.filter (txb (k_pending k)) l)
    (w_msg k) (w_tx k) (flying k ∪ list_to_set (List.filter (sentb (k_pending k)) l)) (cancelled k).
Proof.
  revert k. induction l as [|id l IH]; intros k; cbn [foldl List.filter].
  - destruct k; cbn. by rewrite !app_nil_r, (right_id_L ∅ (∪)).
  - rewrite IH. unfold schedule, msgb, txb, sentb.
    destruct (p_map (k_pending k) !! id) as [a|] eqn:E; [|done].
    destruct (is_message a) eqn:Em; cbn [negb andb].
    + cbn. by rewrite <-(assoc_L (++)).
    + destruct (bool_decide (id ∈ p_sent (k_pending k))) eqn:Es; cbn [negb].
      * cbn. f_equal. by rewrite (assoc_L (∪)).
      * cbn. by rewrite <-(assoc_L (++)).
Qed.

(** ** The invariant *)
Record queues_ok k : Prop := {
  qo_msg : lists (owned_msg k) (is_msg (k_pending k));
  qo_tx : lists (owned_tx k) (λ id, is_tx (k_pending k) id ∧ id ∉ p_sent (k_pending k));
  qo_fly : flying k = p_sent (k_pending k);
  qo_sent : ∀ id, id ∈ p_sent (k_pending k) → is_tx (k_pending k) id
}.
Record pending_ok p o : Prop := {
  po_in : ∀ id a, p_map p !! id = Some a → committed o !! N.to_nat id = Some a ∧ (id < p_current p)%N;
  po_cur : N.to_nat (p_current p) ≤ length (committed o);
  po_added : added o = numbered (take (N.to_nat (p_current p)) (committed o));
  po_removed : ∀ id, (id < p_current p)%N → p_map p !! id = None → ORemoved id ∈ o;
  po_removed' : ∀ id, ORemoved id ∈ o → (id < p_current p)%N ∧ p_map p !! id = None;
  po_sent : ∀ id, id ∈ p_sent p → OTxSent id ∈ o ∧ OTxRecorded id ∈ o;
  po_txsent : ∀ id, OTxSent id ∈ o → (id < p_current p)%N;
  po_recorded : ∀ id, OTxRecorded id ∈ o → id ∈ p_sent p ∨ ORemoved id ∈ o
}.
Definition file_ok (fs : option (state S A)) (cur : N) o : Prop :=
  match fs with
  | None => committed o = []
  | Some s => (counter s <= cur)%N ∧ N.to_nat (counter s) + length (actions s) = length (committed o) ∧
              drop (N.to_nat (counter s)) (committed o) = actions s
  end.
Definition pc_ok (fs : option (state S A)) k o : Prop :=
  match k_pc k with
  | Idle => actions (k_state k) = [] ∧ counter (k_state k) = p_current (k_pending k) ∧
            N.to_nat (p_current (k_pending k)) = length (committed o)
  | Decided => counter (k_state k) = p_current (k_pending k) ∧ N.to_nat (p_current (k_pending k)) = length (committed o)
  | Saved => fs = Some (k_state k)
  end.
Record inv (s : sys S A) o : Prop := {
  i_file : k_pending (proc_of s) = default no_pending (f_pending s);
  i_queues : queues_ok (proc_of s);
  i_pending : pending_ok (k_pending (proc_of s)) o;
  i_state : file_ok (f_state s) (p_current (k_pending (proc_of s))) o;
  i_pc : pc_ok (f_state s) (proc_of s) o;
  i_wtx : ∀ id, w_tx (proc_of s) = Some (id, true) → OTxSent id ∈ o;
  i_once : NoDup (tx_sent (after_last_restart o));
  i_fresh : ∀ id, (w_tx (proc_of s) = Some (id, false) ∨ id ∈ q_tx (proc_of s)) → OTxSent id ∉ after_last_restart o
}.

Lemma sorted_ids_lists p : lists (sorted_ids p) (λ id, (id < p_current p)%N ∧ is_Some (p_map p !! id)).
Proof.
  unfold sorted_ids.
  eapply lists_ext; [apply lists_filter, ids_between_lists|]. intros id; cbn.
  rewrite bool_decide_eq_true. split; intros [? ?]; split; try done; lia.
Qed.

(** ** Starting the process *)
Lemma start_inv (fs : option (state S A)) (fp : option (pending A)) o :
  pending_ok (default no_pending fp) o → file_ok fs (p_current (default no_pending fp)) o →
  (∀ id, id ∈ p_sent (default no_pending fp) → is_tx (default no_pending fp) id) →
  after_last_restart o = [] →
  inv (start is_message s0 fs fp) o.
Proof.
  intros Hp Hf Hsent Ho. unfold start. set (p := default no_pending fp) in *.
  rewrite schedule_fold; cbn [k_pc k_state k_pending q_msg q_tx w_msg w_tx flying cancelled].
  assert (∀ id a, p_map p !! id = Some a → (id < p_current p)%N) as Hlt. { intros id a H. apply (po_in _ _ Hp _ _ H). }
  split; cbn [f_state f_pending proc_of k_pc k_state k_pending q_msg q_tx w_msg w_tx flying cancelled].
  - done.
  - split; cbn [f_state f_pending proc_of k_pc k_state k_pending q_msg q_tx w_msg w_tx flying cancelled].
    + unfold owned_msg; cbn [option_list w_msg q_msg app].
      eapply lists_ext; [apply lists_filter, sorted_ids_lists|]. intros id; cbn. unfold msgb, is_msg.
      destruct (p_map p !! id) as [a|] eqn:E; split; try naive_solver.
    + unfold owned_tx; cbn [option_list fmap option_fmap option_map w_tx q_tx app].
      eapply lists_ext; [apply lists_filter, sorted_ids_lists|]. intros id; cbn. unfold txb, is_tx.
      destruct (p_map p !! id) as [a|] eqn:E; [|split; [naive_solver|naive_solver]].
      rewrite andb_true_iff, !negb_true_iff, bool_decide_eq_false. naive_solver.
    + rewrite (left_id_L ∅ (∪)). apply set_eq. intros id.
      rewrite elem_of_list_to_set.
      rewrite (proj2 (lists_filter _ _ _ (sorted_ids_lists p)) id). cbn. unfold sentb. split.
      * intros [_ H]. destruct (p_map p !! id); [|discriminate].
        apply andb_true_iff in H as [_ H]. by apply bool_decide_eq_true in H.
      * intros H. destruct (Hsent id H) as (a & E & Em). rewrite E. split; [split; [by eapply Hlt|done]|].
        rewrite Em. cbn. by apply bool_decide_eq_true.
    + done.
  - done.
  - done.
  - unfold pc_ok; cbn [k_pc k_state k_pending].
    unfold file_ok in Hf. destruct fs as [s|]; cbn [default from_option].
    + destruct Hf as (H1 & H2 & H3). cbn. destruct (actions s) eqn:E; [|done].
      cbn in H2. pose proof (po_cur _ _ Hp). split_and!; [done|lia|lia].
    + pose proof (po_cur _ _ Hp) as H. rewrite Hf in H |- *. cbn in *. split_and!; [done|lia|lia].
  - done.
  - rewrite Ho. constructor.
  - rewrite Ho. intros id _ ?%elem_of_nil. done.
Qed.

Lemma take_numbered_app (l : list A) (n m : nat) : n ≤ m → m ≤ length l →
  numbered (take m l) = numbered (take n l) ++ imap (λ i a, (N.of_nat (n + i), a)) (take (m - n) (drop n l)).
Proof.
  intros H1 H2. unfold numbered.
  replace (take m l) with (take n l ++ take (m - n) (drop n l)).
  - rewrite imap_app, take_length. rewrite (Nat.min_l n) by lia. done.
  - rewrite take_drop_commute. replace (n + (m - n)) with m by lia.
    pose proof (take_drop n (take m l)) as E. rewrite take_take, Nat.min_l in E by lia. done.
Qed.

(** ** How observations change the part of the invariant about pending actions *)
Definition neutral o : Prop :=
  committed o = [] ∧ added o = [] ∧ (∀ id, ORemoved id ∉ o) ∧ (∀ id, OTxRecorded id ∉ o).

Lemma po_frame p o o' : neutral o' → (∀ id, OTxSent id ∈ o' → (id < p_current p)%N) → pending_ok p o → pending_ok p (o ++ o').
Proof.
  intros (Hc & Ha & Hr & Ht) Hs [H1 H2 H3 H4 H5 H6 H7 H8].
  split; rewrite ?committed_app, ?added_app, ?Hc, ?Ha, ?app_nil_r; try done.
  - intros id Hid E. apply elem_of_app; left. by apply H4.
  - intros id [H|H]%elem_of_app; [by apply H5|by apply Hr in H].
  - intros id [? ?]%H6. split; apply elem_of_app; by left.
  - intros id [H|H]%elem_of_app; [by apply H7|by apply Hs].
  - intros id [H|H]%elem_of_app; [|by apply Ht in H]. destruct (H8 id H); [by left|right; apply elem_of_app; by left].
Qed.
Lemma po_remove p o id a : p_map p !! id = Some a → pending_ok p o → pending_ok (remove_action p id) (o ++ [ORemoved id]).
Proof.
  intros E [H1 H2 H3 H4 H5 H6 H7 H8].
  split; rewrite ?committed_app, ?added_app; cbn [committed added remove_action p_map p_sent p_current]; rewrite ?app_nil_r; try done.
  - intros id' a' H. apply lookup_delete_Some in H as [_ H]. by apply H1.
  - intros id' Hlt H. apply elem_of_app. destruct (decide_rel (=) id id') as [->|Hne]; [right; by apply elem_of_list_singleton|].
    left. rewrite lookup_delete_ne in H by done. by apply H4.
  - intros id' [H|H]%elem_of_app.
    + destruct (H5 id' H) as [? Hn]. split; [done|]. apply lookup_delete_None. by right.
    + apply elem_of_list_singleton in H. injection H as ->. split; [by eapply H1|]. apply lookup_delete_None. by left.
  - intros id' H. apply elem_of_difference in H as [H _]. destruct (H6 id' H). split; apply elem_of_app; by left.
  - intros id' [H|H]%elem_of_app; [by apply H7|]. by apply elem_of_list_singleton in H.
  - intros id' [H|H]%elem_of_app; [|by apply elem_of_list_singleton in H].
    destruct (decide_rel (=) id id') as [->|Hne]; [right; apply elem_of_app; right; by apply elem_of_list_singleton|].
    destruct (H8 id' H); [left; set_solver|right; apply elem_of_app; by left].
Qed.
Lemma po_set_sent p o id : OTxSent id ∈ o → pending_ok p o → pending_ok (set_sent p id) (o ++ [OTxRecorded id]).
Proof.
  intros E [H1 H2 H3 H4 H5 H6 H7 H8].
  split; rewrite ?committed_app, ?added_app; cbn [committed added set_sent p_map p_sent p_current]; rewrite ?app_nil_r; try done.
  - intros id' Hlt H. apply elem_of_app; left. by apply H4.
  - intros id' [H|H]%elem_of_app; [by apply H5|]. by apply elem_of_list_singleton in H.
  - intros id' [H|H]%elem_of_union.
    + destruct (H6 id' H). split; apply elem_of_app; by left.
    + apply elem_of_singleton in H as ->. split; apply elem_of_app; [by left|right; by apply elem_of_list_singleton].
  - intros id' [H|H]%elem_of_app; [by apply H7|]. by apply elem_of_list_singleton in H.
  - intros id' [H|H]%elem_of_app.
    + destruct (H8 id' H); [left; set_solver|right; apply elem_of_app; by left].
    + apply elem_of_list_singleton in H. injection H as ->. left. set_solver.
Qed.
Lemma po_commit p o l : pending_ok p o → pending_ok p (o ++ [OCommitted l]).
Proof.
  intros [H1 H2 H3 H4 H5 H6 H7 H8].
  split; rewrite ?committed_app, ?added_app; cbn [committed added]; rewrite ?app_nil_r; try done.
  - intros id a H. destruct (H1 id a H) as [? ?]. split; [|done]. by apply lookup_app_l_Some.
  - rewrite app_length. lia.
  - rewrite take_app_le by done. done.
  - intros id Hlt H. apply elem_of_app; left. by apply H4.
  - intros id [H|H]%elem_of_app; [by apply H5|]. by apply elem_of_list_singleton in H.
  - intros id H. destruct (H6 id H). split; apply elem_of_app; by left.
  - intros id [H|H]%elem_of_app; [by apply H7|]. by apply elem_of_list_singleton in H.
  - intros id [H|H]%elem_of_app; [|by apply elem_of_list_singleton in H].
    destruct (H8 id H); [by left|right; apply elem_of_app; by left].
Qed.

(** ** Adding actions *)
Lemma insert_all_lookup (m : gmap N A) (start : N) (l : list A) id :
  foldl (λ m ia, <[(start + N.of_nat ia.1)%N := ia.2]> m) m (imap pair l) !! id =
  if decide_rel (≤)%N start id then match l !! N.to_nat (id - start) with Some a => Some a | None => m !! id end else m !! id.
Proof.
  induction l as [|a l IH] using rev_ind; cbn [imap foldl].
  - rewrite lookup_nil. by destruct (decide_rel _ _ _).
  - rewrite imap_app, foldl_app. cbn [imap foldl fst snd].
    destruct (decide_rel (=) (start + N.of_nat (length l + 0))%N id) as [E|E].
    + rewrite E, lookup_insert. destruct (decide_rel (≤)%N start id); [|lia].
      rewrite lookup_app_r by lia. replace (N.to_nat (id - start) - length l) with 0 by lia. done.
    + unfold compose. rewrite lookup_insert_ne by (cbn; done). rewrite IH.
      destruct (decide_rel (≤)%N start id) as [Hle|]; [|done].
      destruct (l !! N.to_nat (id - start)) as [x|] eqn:El.
      * rewrite (lookup_app_l_Some _ _ _ _ El). done.
      * apply lookup_ge_None in El. rewrite lookup_app_r by done.
        assert (N.to_nat (id - start) - length l ≠ 0) as Hne by lia.
        destruct (N.to_nat (id - start) - length l); [lia|]. done.
Qed.

Lemma imap_omap_added (p : pending A) start (l : list A) :
  (∀ i, i < length l → p_map p !! (start + N.of_nat i)%N = l !! i) →
  omap (λ id, OAdded id <$> p_map p !! id) (ids_between start (start + N.of_nat (length l))) =
  imap (λ i a, OAdded (start + N.of_nat i)%N a) l.
Proof.
  intros H. unfold ids_between. replace (N.to_nat (start + N.of_nat (length l) - start)) with (length l) by lia.
  revert H. induction l as [|a l IH] using rev_ind; intros H; [done|].
  rewrite app_length. cbn [length]. rewrite Nat.add_1_r, seq_S, fmap_app, omap_app, imap_app.
  rewrite IH.
  2:{ intros i Hi. rewrite H by (rewrite app_length; lia). by rewrite lookup_app_l. }
  f_equal. cbn [fmap list_fmap omap list_omap]. cbn [Nat.add].
  rewrite H by (rewrite app_length; cbn; lia). rewrite lookup_app_r by lia. rewrite Nat.sub_diag. cbn.
  unfold compose. by rewrite Nat.add_0_r.
Qed.
Lemma added_imap start (l : list A) :
  added (imap (λ i a, OAdded (start + N.of_nat i)%N a) l) = imap (λ i a, ((start + N.of_nat i)%N, a)) l.
Proof.
  induction l as [|a l IH] using rev_ind; [done|].
  rewrite !imap_app, added_app, IH. done.
Qed.
Lemma committed_imap start (l : list A) : committed (imap (λ i a, OAdded (start + N.of_nat i)%N a) l) = [].
Proof. induction l as [|a l IH] using rev_ind; [done|]. rewrite !imap_app, committed_app, IH. done. Qed.
Lemma imap_added_elem start (l : list A) x : x ∈ imap (λ i a, OAdded (start + N.of_nat i)%N a) l → ∃ id a, x = OAdded id a.
Proof. intros (i & a & -> & _)%elem_of_lookup_imap_1. eauto. Qed.

Lemma add_actions_spec p o (s : state S A) :
  pending_ok p o → file_ok (Some s) (p_current p) o →
  let n := N.to_nat (p_current p) in
  let new := drop n (committed o) in
  ∃ p', add_actions p (counter s) (actions s) = Some (p', p_current p, N.of_nat (length (committed o))) ∧
    p_current p' = N.of_nat (length (committed o)) ∧ p_sent p' = p_sent p ∧
    (∀ id, p_map p' !! id = if decide_rel (≤)%N (p_current p) id then new !! N.to_nat (id - p_current p) else p_map p !! id) ∧
    ((p_current p <? N.of_nat (length (committed o)))%N = false → p' = p).
Proof.
  intros Hp (Hle & Hlen & Hdrop) n new. unfold add_actions.
  pose proof (po_cur _ _ Hp) as Hcur.
  destruct (N.ltb_spec (p_current p) (counter s)); [lia|].
  assert (∀ id, (p_current p <= id)%N → p_map p !! id = None) as Hnone.
  { intros id Hid. destruct (p_map p !! id) eqn:E; [|done]. apply (po_in _ _ Hp) in E. lia. }
  assert (drop (N.to_nat (p_current p - counter s)) (actions s) = new) as Hnew.
  { rewrite <-Hdrop, drop_drop. unfold new, n. f_equal. lia. }
  destruct (N.leb_spec (counter s + N.of_nat (length (actions s))) (p_current p)) as [Hall|Hsome].
  - exists p. assert (p_current p = N.of_nat (length (committed o))) as Heq by lia. split_and!; [by rewrite <-Heq|done|done| |done].
    intros id. destruct (decide_rel (≤)%N (p_current p) id) as [Hid|]; [|done].
    rewrite Hnone by done. unfold new. rewrite drop_ge by (unfold n; lia). by rewrite lookup_nil.
  - eexists. rewrite Hnew.
    assert (p_current p + N.of_nat (length new) = N.of_nat (length (committed o)))%N as Heq.
    { unfold new. rewrite drop_length. unfold n. lia. }
    rewrite Heq. split_and!; [done|done|done| |].
    + intros id. cbn [p_map]. rewrite insert_all_lookup.
      destruct (decide_rel (≤)%N (p_current p) id) as [Hid|]; [|done]. rewrite Hnone by done.
      by destruct (new !! N.to_nat (id - p_current p)).
    + intros Hn. apply N.ltb_ge in Hn. lia.
Qed.

(** ** Every step keeps the invariant *)
Definition quiet o : Prop := committed o = [] ∧ tx_sent o = [] ∧ no_restart o.

Lemma quiet_no_sent o id : quiet o → OTxSent id ∉ o.
Proof. intros (_ & H & _) Hin. apply tx_sent_elem in Hin. rewrite H in Hin. by apply elem_of_nil in Hin. Qed.

Lemma inv_quiet (s s' : sys S A) o o' :
  inv s o → quiet o' →
  f_state s' = f_state s → k_state (proc_of s') = k_state (proc_of s) → k_pc (proc_of s') = k_pc (proc_of s) →
  k_pending (proc_of s') = default no_pending (f_pending s') →
  p_current (k_pending (proc_of s')) = p_current (k_pending (proc_of s)) →
  queues_ok (proc_of s') → pending_ok (k_pending (proc_of s')) (o ++ o') →
  (∀ id, w_tx (proc_of s') = Some (id, true) → w_tx (proc_of s) = Some (id, true)) →
  (∀ id, w_tx (proc_of s') = Some (id, false) ∨ id ∈ q_tx (proc_of s') →
         w_tx (proc_of s) = Some (id, false) ∨ id ∈ q_tx (proc_of s)) →
  inv s' (o ++ o').
Proof.
  intros [H1 H2 H3 H4 H5 H6 H7 H8] Hq Ef Es Ec Ep Ecur Hqs Hpo Ht Hf.
  destruct Hq as (Hc & Htx & Hn).
  split; try done.
  - rewrite Ef, Ecur. unfold file_ok in *. rewrite committed_app, Hc, app_nil_r. done.
  - unfold pc_ok in *. rewrite Ef, Es, Ec, Ecur, committed_app, Hc, app_nil_r. done.
  - intros id E. apply elem_of_app; left. by apply H6, Ht.
  - rewrite after_app by done. rewrite tx_sent_app, Htx, app_nil_r. done.
  - intros id Hid Hin. rewrite after_app in Hin by done. apply elem_of_app in Hin as [Hin|Hin].
    + by apply (H8 id (Hf id Hid)).
    + by eapply (quiet_no_sent o' id) in Hin.
Qed.

Lemma is_msg_remove p id x : is_msg (remove_action p id) x ↔ is_msg p x ∧ x ≠ id.
Proof.
  unfold is_msg; cbn [remove_action p_map]. split.
  - intros (a & [Hne H]%lookup_delete_Some & Hm). split; [eauto|done].
  - intros [(a & H & Hm) Hne]. exists a. by rewrite lookup_delete_ne.
Qed.
Lemma is_tx_remove p id x : is_tx (remove_action p id) x ↔ is_tx p x ∧ x ≠ id.
Proof.
  unfold is_tx; cbn [remove_action p_map]. split.
  - intros (a & [Hne H]%lookup_delete_Some & Hm). split; [eauto|done].
  - intros [(a & H & Hm) Hne]. exists a. by rewrite lookup_delete_ne.
Qed.
Lemma msg_not_tx p id : is_msg p id → is_tx p id → False.
Proof. intros (a & H & Hm) (a' & H' & Hm'). rewrite H in H'. injection H' as ->. by rewrite Hm in Hm'. Qed.

(** the three ways to remove an action *)
Lemma inv_remove_msg (s : sys S A) o id pre :
  inv s o → w_msg (proc_of s) = Some id → neutral pre → quiet pre →
  inv (with_pending s (set_w_msg (proc_of s) None) (remove_action (k_pending (proc_of s)) id)) (o ++ pre ++ [ORemoved id]).
Proof.
  intros Hinv Hw Hn Hq. pose proof Hinv as [H1 H2 H3 H4 H5 H6 H7 H8].
  destruct H2 as [Q1 Q2 Q3 Q4]. unfold owned_msg in Q1. rewrite Hw in Q1. cbn [option_list app] in Q1.
  apply lists_cons in Q1 as (Q1 & Hid & Hlt).
  assert (id ∉ p_sent (k_pending (proc_of s))) as Hns. { intros ?%Q4. by eapply msg_not_tx. }
  assert (Hid' := Hid). destruct Hid' as (a & Ha & Hm).
  eapply inv_quiet; [exact Hinv| |done|done|done|done|done| | |done|done].
  - destruct Hq as (E1 & E2 & E3). split_and!; rewrite ?committed_app, ?tx_sent_app, ?E1, ?E2; try done.
    intros [?|?%elem_of_list_singleton]%elem_of_app; done.
  - split; cbn [with_pending set_w_msg proc_of k_pending owned_msg owned_tx w_msg q_msg w_tx q_tx flying].
    + eapply lists_ext; [exact Q1|]. intros x. by rewrite is_msg_remove.
    + eapply lists_ext; [exact Q2|]. intros x. cbn. rewrite is_tx_remove. split.
      * intros [Ht Hx]. split; [|set_solver]. split; [done|]. intros ->. by eapply msg_not_tx.
      * intros [[Ht Hne] Hx]. split; [done|]. set_solver.
    + cbn [remove_action p_sent]. rewrite Q3. set_solver.
    + intros x Hx. cbn [remove_action p_sent] in Hx. apply is_tx_remove. split; [apply Q4; set_solver|].
      intros ->. set_solver.
  - cbn [with_pending proc_of k_pending]. rewrite (assoc_L (++)).
    eapply po_remove; [exact Ha|]. apply po_frame; [done| |done]. intros x Hx. by eapply quiet_no_sent in Hx.
Qed.
Lemma inv_remove_tx (s : sys S A) o id pre :
  inv s o → w_tx (proc_of s) = Some (id, false) → neutral pre → quiet pre →
  inv (with_pending s (set_w_tx (proc_of s) None) (remove_action (k_pending (proc_of s)) id)) (o ++ pre ++ [ORemoved id]).
Proof.
  intros Hinv Hw Hn Hq. pose proof Hinv as [H1 H2 H3 H4 H5 H6 H7 H8].
  destruct H2 as [Q1 Q2 Q3 Q4]. unfold owned_tx in Q2. rewrite Hw in Q2. cbn [option_list fmap option_fmap option_map fst app] in Q2.
  apply lists_cons in Q2 as (Q2 & [Hid Hns] & Hlt).
  assert (Hid' := Hid). destruct Hid' as (a & Ha & Hm).
  eapply inv_quiet; [exact Hinv| |done|done|done|done|done| | |done|].
  - destruct Hq as (E1 & E2 & E3). split_and!; rewrite ?committed_app, ?tx_sent_app, ?E1, ?E2; try done.
    intros [?|?%elem_of_list_singleton]%elem_of_app; done.
  - split; cbn [with_pending set_w_tx proc_of k_pending owned_msg owned_tx w_msg q_msg w_tx q_tx flying].
    + eapply lists_ext; [exact Q1|]. intros x. rewrite is_msg_remove. split; [|by intros [? _]].
      intros Hx. split; [done|]. intros ->. by eapply msg_not_tx.
    + eapply lists_ext; [exact Q2|]. intros x. cbn. rewrite is_tx_remove. set_solver.
    + cbn [remove_action p_sent]. rewrite Q3. set_solver.
    + intros x Hx. cbn [remove_action p_sent] in Hx. apply is_tx_remove. split; [apply Q4; set_solver|].
      intros ->. set_solver.
  - cbn [with_pending proc_of k_pending]. rewrite (assoc_L (++)).
    eapply po_remove; [exact Ha|]. apply po_frame; [done| |done]. intros x Hx. by eapply quiet_no_sent in Hx.
  - cbn [with_pending set_w_tx proc_of w_tx q_tx]. intros x [?|?]; [done|by right].
Qed.
Lemma inv_remove_flying (s : sys S A) o id pre :
  inv s o → id ∈ flying (proc_of s) → neutral pre → quiet pre →
  inv (with_pending s (set_flying (proc_of s) (flying (proc_of s) ∖ {[id]})) (remove_action (k_pending (proc_of s)) id))
      (o ++ pre ++ [ORemoved id]).
Proof.
  intros Hinv Hw Hn Hq. pose proof Hinv as [H1 H2 H3 H4 H5 H6 H7 H8].
  destruct H2 as [Q1 Q2 Q3 Q4]. rewrite Q3 in Hw. pose proof (Q4 _ Hw) as Hid.
  assert (Hid' := Hid). destruct Hid' as (a & Ha & Hm).
  eapply inv_quiet; [exact Hinv| |done|done|done|done|done| | |done|done].
  - destruct Hq as (E1 & E2 & E3). split_and!; rewrite ?committed_app, ?tx_sent_app, ?E1, ?E2; try done.
    intros [?|?%elem_of_list_singleton]%elem_of_app; done.
  - split; cbn [with_pending set_flying proc_of k_pending owned_msg owned_tx w_msg q_msg w_tx q_tx flying].
    + eapply lists_ext; [exact Q1|]. intros x. rewrite is_msg_remove. split; [|by intros [? _]].
      intros Hx. split; [done|]. intros ->. by eapply msg_not_tx.
    + eapply lists_ext; [exact Q2|]. intros x. cbn. rewrite is_tx_remove. split.
      * intros [Ht Hx]. split; [|set_solver]. split; [done|]. by intros ->.
      * intros [[Ht Hne] Hx]. split; [done|]. set_solver.
    + cbn [remove_action p_sent]. by rewrite Q3.
    + intros x Hx. cbn [remove_action p_sent] in Hx. apply is_tx_remove. split; [apply Q4; set_solver|].
      intros ->. set_solver.
  - cbn [with_pending proc_of k_pending]. rewrite (assoc_L (++)).
    eapply po_remove; [exact Ha|]. apply po_frame; [done| |done]. intros x Hx. by eapply quiet_no_sent in Hx.
Qed.

Lemma neutral_nil : neutral [].
Proof. split_and!; try done; intros id; apply not_elem_of_nil. Qed.
Lemma quiet_nil : quiet [].
Proof. split_and!; try done. apply not_elem_of_nil. Qed.
Ltac not_in := unfold no_restart; intros; rewrite ?not_elem_of_app, ?not_elem_of_cons;
  repeat split; try discriminate; try apply not_elem_of_nil.
Ltac solve_quiet := split_and!; [reflexivity|reflexivity|not_in..].

Lemma queues_ext k k' : queues_ok k → k_pending k' = k_pending k → owned_msg k' = owned_msg k → owned_tx k' = owned_tx k →
  flying k' = flying k → queues_ok k'.
Proof. intros [Q1 Q2 Q3 Q4] E1 E2 E3 E4. split; rewrite ?E1, ?E2, ?E3, ?E4; done. Qed.

(** worker steps that neither change the pending actions nor send anything *)
Lemma inv_worker (s : sys S A) o k' o' :
  inv s o → k_state k' = k_state (proc_of s) → k_pc k' = k_pc (proc_of s) → k_pending k' = k_pending (proc_of s) →
  owned_msg k' = owned_msg (proc_of s) → owned_tx k' = owned_tx (proc_of s) → flying k' = flying (proc_of s) →
  (∀ id, w_tx k' = Some (id, true) → w_tx (proc_of s) = Some (id, true)) →
  (∀ id, w_tx k' = Some (id, false) ∨ id ∈ q_tx k' → w_tx (proc_of s) = Some (id, false) ∨ id ∈ q_tx (proc_of s)) →
  neutral o' → quiet o' → inv (with_proc s k') (o ++ o').
Proof.
  intros Hinv E1 E2 E3 E4 E5 E6 E7 E8 Hn Hq. pose proof Hinv as [H1 H2 H3 H4 H5 H6 H7 H8].
  eapply inv_quiet; [exact Hinv|done|done|done|done| | | | |done|done]; cbn [with_proc proc_of f_pending].
  - by rewrite E3.
  - by rewrite E3.
  - by eapply queues_ext.
  - rewrite E3. apply po_frame; [done| |done]. intros id Hid. by eapply quiet_no_sent in Hid.
Qed.

Lemma inv_tx_send (s : sys S A) o id :
  inv s o → w_tx (proc_of s) = Some (id, false) →
  inv (with_proc s (set_w_tx (proc_of s) (Some (id, true)))) (o ++ [OTxSent id]).
Proof.
  intros Hinv Hw. pose proof Hinv as [H1 H2 H3 H4 H5 H6 H7 H8].
  assert (no_restart [OTxSent id]) as Hnr by not_in.
  pose proof (qo_tx _ H2) as Q2. unfold owned_tx in Q2. rewrite Hw in Q2. cbn [option_list fmap option_fmap option_map fst app] in Q2.
  apply lists_cons in Q2 as (Q2 & [(a & Ha & Hm) Hns] & Hlt).
  destruct (po_in _ _ H3 _ _ Ha) as [_ Hcur].
  split; cbn [with_proc set_w_tx proc_of f_pending f_state k_pending k_state k_pc w_tx q_tx].
  - done.
  - eapply queues_ext; [exact H2|done|done| |done]. unfold owned_tx; cbn [set_w_tx w_tx q_tx]. by rewrite Hw.
  - apply po_frame; [|intros x Hx%elem_of_list_singleton; by injection Hx as ->|done].
    split_and!; [done|done|not_in..].
  - unfold file_ok in *. by rewrite committed_app, app_nil_r.
  - unfold pc_ok in *. cbn [k_pc k_state k_pending]. by rewrite committed_app, app_nil_r.
  - intros x E. injection E as <-. apply elem_of_app; right. by apply elem_of_list_singleton.
  - rewrite after_app by done. rewrite tx_sent_app. cbn [tx_sent]. apply NoDup_app. split_and!; [done| |apply NoDup_singleton].
    intros x Hx Hx'%elem_of_list_singleton. subst x. apply tx_sent_elem in Hx. eapply H8; [by left|done].
  - intros x Hx Hin. rewrite after_app in Hin by done. destruct Hx as [?|Hx]; [done|].
    apply elem_of_app in Hin as [Hin|Hin].
    + eapply H8; [by right|done].
    + apply elem_of_list_singleton in Hin. injection Hin as ->. apply Q2 in Hx. by destruct Hx.
Qed.

Lemma inv_tx_record (s : sys S A) o id :
  inv s o → w_tx (proc_of s) = Some (id, true) →
  inv (with_pending s (set_flying (set_w_tx (proc_of s) None) (flying (proc_of s) ∪ {[id]})) (set_sent (k_pending (proc_of s)) id))
      (o ++ [OTxRecorded id]).
Proof.
  intros Hinv Hw. pose proof Hinv as [H1 H2 H3 H4 H5 H6 H7 H8]. destruct H2 as [Q1 Q2 Q3 Q4].
  unfold owned_tx in Q2. rewrite Hw in Q2. cbn [option_list fmap option_fmap option_map fst app] in Q2.
  apply lists_cons in Q2 as (Q2 & [Hid Hns] & Hlt).
  eapply inv_quiet; [exact Hinv| |done|done|done|done|done| | |done|].
  - solve_quiet.
  - split; cbn [with_pending set_w_tx set_flying proc_of k_pending owned_msg owned_tx w_msg q_msg w_tx q_tx flying].
    + exact Q1.
    + eapply lists_ext; [exact Q2|]. intros x. cbn. change (is_tx (set_sent (k_pending (proc_of s)) id) x) with (is_tx (k_pending (proc_of s)) x). set_solver.
    + cbn [set_sent p_sent]. by rewrite Q3.
    + intros x Hx. cbn [set_sent p_sent] in Hx. change (is_tx (k_pending (proc_of s)) x).
      apply elem_of_union in Hx as [Hx|Hx%elem_of_singleton]; [by apply Q4|by subst x].
  - cbn [with_pending proc_of k_pending]. apply po_set_sent; [by apply H6|done].
  - cbn [with_pending set_w_tx set_flying proc_of w_tx q_tx]. intros x [?|?]; [done|by right].
Qed.

Lemma inv_run (s : sys S A) o ks p' :
  inv s o → k_state (proc_of s) = ks → k_pc (proc_of s) = Saved →
  let a := p_current (k_pending (proc_of s)) in
  let b := N.of_nat (length (committed o)) in
  let n := N.to_nat a in
  (p_current p' = b) → p_sent p' = p_sent (k_pending (proc_of s)) →
  (∀ id, p_map p' !! id = if decide_rel (≤)%N a id then drop n (committed o) !! N.to_nat (id - a) else p_map (k_pending (proc_of s)) !! id) →
  ∀ s1, f_state s1 = f_state s → default no_pending (f_pending s1) = p' →
    let k := proc_of s in
    let k1 := mkProc (k_pc k) (k_state k) p' (q_msg k) (q_tx k) (w_msg k) (w_tx k) (flying k) (cancelled k) in
    let k' := foldl schedule k1 (ids_between a b) in
  inv (with_proc s1 (mkProc Idle (mkState (st ks) (counter ks + N.of_nat (length (actions ks))) []) (k_pending k')
                       (q_msg k') (q_tx k') (w_msg k') (w_tx k') (flying k') (cancelled k')))
      (o ++ omap (λ id, OAdded id <$> p_map p' !! id) (ids_between a b)).
Proof.
  intros Hinv Eks Hpc a b n Hcur Hsent Hmap s1 Ef Ep k k1 k'.
  pose proof Hinv as [H1 H2 H3 H4 H5 H6 H7 H8].
  set (p := k_pending (proc_of s)) in *.
  pose proof (po_cur _ _ H3) as Hle. fold n in Hle.
  set (new := drop n (committed o)) in *.
  assert (length new = length (committed o) - n) as Hnl by (unfold new; by rewrite drop_length).
  assert (omap (λ id, OAdded id <$> p_map p' !! id) (ids_between a b) = imap (λ i x, OAdded (a + N.of_nat i)%N x) new) as Eobs.
  { replace b with (a + N.of_nat (length new))%N by lia. apply imap_omap_added.
    intros i Hi. rewrite Hmap. destruct (decide_rel (≤)%N a (a + N.of_nat i)%N); [|lia]. f_equal. lia. }
  rewrite Eobs. set (o' := imap (λ i x, OAdded (a + N.of_nat i)%N x) new).
  assert (committed o' = []) as Hc' by apply committed_imap.
  assert (∀ x, x ∈ o' → ∃ id y, x = OAdded id y) as Hin' by (intros x; apply imap_added_elem).
  assert (tx_sent o' = []) as Ht'.
  { destruct (tx_sent o') as [|x l] eqn:E; [done|]. assert (OTxSent x ∈ o') as Hx by (apply tx_sent_elem; rewrite E; apply elem_of_list_here).
    apply Hin' in Hx as (? & ? & ?). done. }
  assert (no_restart o') as Hn' by (intros (? & ? & ?)%Hin'; done).
  assert (∀ id y, p_map p !! id = Some y → (id < a)%N) as Hlt. { intros id y H. apply (po_in _ _ H3 _ _ H). }
  assert (∀ id y, p_map p !! id = Some y → p_map p' !! id = Some y) as Hkeep.
  { intros id y H. rewrite Hmap. destruct (decide_rel (≤)%N a id); [|done]. specialize (Hlt _ _ H). lia. }
  unfold pc_ok in H5. rewrite Hpc in H5. rewrite H5 in H4. destruct H4 as (F1 & F2 & F3).
  unfold k'. rewrite schedule_fold. cbn [k_pc k_state k_pending q_msg q_tx w_msg w_tx flying cancelled k1].
  unfold k.
  split; cbn [with_proc proc_of f_pending f_state k_pending k_state k_pc w_tx q_tx].
  - by rewrite Ep.
  - destruct H2 as [Q1 Q2 Q3 Q4].
    split; cbn [k_pending owned_msg owned_tx w_msg q_msg w_tx q_tx flying].
    + unfold owned_msg; cbn [w_msg q_msg]. rewrite (assoc_L (++)). eapply lists_ext; [apply lists_app; [exact Q1|apply lists_filter, ids_between_lists|]|].
      * intros x y (? & ? & _) [[? ?] _]. apply Hlt in H. lia.
      * intros id; cbn. unfold msgb, is_msg. split.
        -- intros [(y & Hy & Hm)|[[Hi1 Hi2] Hm]]; [exists y; split; [by apply Hkeep|done]|].
           destruct (p_map p' !! id); [eauto|done].
        -- intros (y & Hy & Hm). rewrite Hmap in Hy. destruct (decide_rel (≤)%N a id) as [Hd|Hd].
           ++ right. rewrite Hmap. destruct (decide_rel (≤)%N a id); [|done]. rewrite Hy. split; [|done].
              apply lookup_lt_Some in Hy. lia.
           ++ left. eauto.
    + unfold owned_tx; cbn [w_tx q_tx]. rewrite (assoc_L (++)). eapply lists_ext; [apply lists_app; [exact Q2|apply lists_filter, ids_between_lists|]|].
      * intros x y [(? & ? & _) _] [[? ?] _]. apply Hlt in H. lia.
      * intros id; cbn. unfold txb, is_tx. rewrite Hsent. split.
        -- intros [[(y & Hy & Hm) Hs]|[[Hi1 Hi2] Hm]]; [split; [exists y; split; [by apply Hkeep|done]|done]|].
           destruct (p_map p' !! id); [|done]. apply andb_true_iff in Hm as [Hm1 Hm2].
           apply negb_true_iff in Hm1, Hm2. apply bool_decide_eq_false in Hm2. eauto.
        -- intros [(y & Hy & Hm) Hs]. rewrite Hmap in Hy. destruct (decide_rel (≤)%N a id) as [Hd|Hd].
           ++ right. rewrite Hmap. destruct (decide_rel (≤)%N a id); [|done]. rewrite Hy. split.
              ** apply lookup_lt_Some in Hy. lia.
              ** rewrite Hm. cbn. apply negb_true_iff. by apply bool_decide_eq_false.
           ++ left. eauto.
    + rewrite Hsent, Q3. unfold p. apply set_eq. intros x. rewrite elem_of_union, elem_of_list_to_set.
      split; [|by left]. intros [?|Hx]; [done|].
      apply elem_of_list_In, List.filter_In in Hx as [_ Hx]. unfold sentb in Hx. destruct (p_map p' !! x); [|done].
      apply andb_true_iff in Hx as [_ Hx]. apply bool_decide_eq_true in Hx. by rewrite Hsent in Hx.
    + rewrite Hsent. intros id Hid. destruct (Q4 id Hid) as (y & Hy & Hm). exists y. split; [by apply Hkeep|done].
  - destruct H3 as [P1 P2 P3 P4 P5 P6 P7 P8].
    split; rewrite ?committed_app, ?added_app, ?Hc', ?app_nil_r, ?Hcur, ?Hsent.
    + intros id y Hy. rewrite Hmap in Hy. destruct (decide_rel (≤)%N a id) as [Hd|Hd].
      * unfold new in Hy. rewrite lookup_drop in Hy. replace (n + N.to_nat (id - a)) with (N.to_nat id) in Hy by lia.
        split; [done|]. apply lookup_lt_Some in Hy. lia.
      * destruct (P1 id y Hy). split; [done|]. lia.
    + lia.
    + rewrite P3. rewrite (take_numbered_app _ n (N.to_nat b)) by lia. f_equal.
      rewrite take_ge by (fold new; lia). unfold o'. rewrite added_imap. fold new. apply imap_ext.
      intros i x _. f_equal. lia.
    + intros id Hid Hno. apply elem_of_app; left. rewrite Hmap in Hno.
      destruct (decide_rel (≤)%N a id) as [Hd|Hd]; [|apply P4; [lia|done]].
      apply lookup_ge_None in Hno. lia.
    + intros id [Hid|Hid]%elem_of_app; [|by apply Hin' in Hid as (? & ? & ?)].
      destruct (P5 id Hid) as [G1 G2]. fold a in G1. split; [lia|]. rewrite Hmap. destruct (decide_rel (≤)%N a id); [lia|done].
    + intros id Hid. destruct (P6 id Hid). split; apply elem_of_app; by left.
    + intros id [Hid|Hid]%elem_of_app; [|by apply Hin' in Hid as (? & ? & ?)]. specialize (P7 id Hid). fold a in P7. lia.
    + intros id [Hid|Hid]%elem_of_app; [|by apply Hin' in Hid as (? & ? & ?)].
      destruct (P8 id Hid); [by left|right; apply elem_of_app; by left].
  - rewrite Ef, H5. unfold file_ok. rewrite committed_app, Hc', app_nil_r, Hcur. fold a in F1. split_and!; [lia|done|done].
  - unfold pc_ok. cbn [k_pc k_state k_pending actions counter]. rewrite committed_app, Hc', app_nil_r, Hcur.
    rewrite <-Eks. split_and!; [done|lia|lia].
  - intros id E. apply elem_of_app; left. by apply H6.
  - rewrite after_app by done. by rewrite tx_sent_app, Ht', app_nil_r.
  - intros id Hid Hin. rewrite after_app in Hin by done. apply elem_of_app in Hin as [Hin|Hin].
    2:{ by apply Hin' in Hin as (? & ? & ?). }
    destruct Hid as [Hid|[Hid|Hid]%elem_of_app]; [eapply H8; [by left|done]|eapply H8; [by right|done]|].
    apply elem_of_list_In, List.filter_In in Hid as [Hid _]. apply elem_of_list_In, ids_between_lists in Hid.
    assert (OTxSent id ∈ o) as Hino.
    { clear -Hin. revert Hin. induction o as [|x o IH] using rev_ind; [done|].
      destruct x; try (rewrite after_app by not_in; rewrite !elem_of_app; intros [?|?]; [left; by apply IH|by right]).
      rewrite after_restart. by intros ?%elem_of_nil. }
    apply (po_txsent _ _ H3) in Hino. fold p a in Hino. lia.
Qed.

Theorem inv_step (s : sys S A) o e : inv s o →
  match step s e with Step s' o' => inv s' (o ++ o') | Panic => False | Disabled => True end.
Proof.
  intros Hinv. pose proof Hinv as [H1 H2 H3 H4 H5 H6 H7 H8].
  destruct e; cbn [PendingModel.step].
  - (* EDecide *)
    destruct (k_pc (proc_of s)) eqn:Epc; [|done|done]. destruct (cancelled (proc_of s)); [done|].
    unfold pc_ok in H5. rewrite Epc in H5. destruct H5 as (Ea & Ec & El). rewrite Ea.
    destruct (decide (st (k_state (proc_of s))) w) as [st' acts].
    rewrite app_nil_r. split; cbn [with_proc proc_of f_pending f_state k_pending k_state k_pc w_tx q_tx]; try done.
    eapply queues_ext; [exact H2|done..].
  - (* ESave *)
    destruct (k_pc (proc_of s)) eqn:Epc; [done| |done].
    unfold pc_ok in H5. rewrite Epc in H5. destruct H5 as [Ec El].
    assert (no_restart [OCommitted (actions (k_state (proc_of s)))]) as Hn by not_in.
    split; cbn [with_proc proc_of f_pending f_state k_pending k_state k_pc w_tx q_tx]; try done.
    + eapply queues_ext; [exact H2|done..].
    + by apply po_commit.
    + unfold file_ok. rewrite committed_app. cbn [committed]. rewrite app_nil_r, app_length.
      split_and!; [lia|lia|]. rewrite Ec, El. by rewrite drop_app.
    + intros id E. apply elem_of_app; left. by apply H6.
    + rewrite after_app by done. rewrite tx_sent_app. cbn [tx_sent]. by rewrite app_nil_r.
    + intros id Hid Hin. rewrite after_app in Hin by done. apply elem_of_app in Hin as [Hin|Hin%elem_of_list_singleton]; [|done].
      by eapply H8.
  - (* ERun *)
    destruct (k_pc (proc_of s)) eqn:Epc; [done|done|].
    unfold pc_ok in H5. rewrite Epc in H5. pose proof H4 as H4'. rewrite H5 in H4.
    destruct (add_actions_spec _ _ _ H3 H4) as (p' & Eadd & Hcur & Hsent & Hmap & Hsame).
    destruct (actions (k_state (proc_of s))) as [|x l] eqn:Ea.
    + rewrite app_nil_r. destruct H4 as (F1 & F2 & F3). rewrite Ea in F2. cbn in F2. pose proof (po_cur _ _ H3).
      split; cbn [with_proc proc_of f_pending f_state k_pending k_state k_pc w_tx q_tx]; try done.
      * eapply queues_ext; [exact H2|done..].
      * unfold pc_ok. cbn [k_pc k_state k_pending actions counter length]. split_and!; [done|lia|lia].
    + rewrite Eadd. rewrite <-Ea.
      pose proof (inv_run s o (k_state (proc_of s)) p' Hinv eq_refl Epc Hcur Hsent Hmap) as Hrun.
      cbn zeta in Hrun.
      destruct (p_current (k_pending (proc_of s)) <? N.of_nat (length (committed o)))%N eqn:Elt.
      * specialize (Hrun (with_pending s (proc_of s) p') eq_refl eq_refl). exact Hrun.
      * specialize (Hsame eq_refl). subst p'. specialize (Hrun s eq_refl (eq_sym H1)).
        destruct (proc_of s) as [? ? ? ? ? ? ? ? ?]. exact Hrun.
  - (* ETakeMsg *)
    destruct (w_msg (proc_of s)) eqn:Ew; [done|]. destruct (q_msg (proc_of s)) as [|id q] eqn:Eq; [done|].
    apply inv_worker; try done.
    + unfold owned_msg; cbn [w_msg q_msg]. by rewrite Ew, Eq.
    + split_and!; [done|done|not_in..].
    + solve_quiet.
  - (* EMsgRpcError *)
    destruct (w_msg (proc_of s)) eqn:Ew; [|done]. by rewrite app_nil_r.
  - (* EMsgResult *)
    destruct (w_msg (proc_of s)) as [id|] eqn:Ew; [|done].
    rewrite (assoc_L (++) [_]).
    apply inv_remove_msg; [done|done| |]; destruct check_ok, deliver_ok; cbn [app].
    all: split_and!; [done|done|not_in..].
  - (* EMsgExpired *)
    destruct (w_msg (proc_of s)) as [id|] eqn:Ew; [|done].
    apply (inv_remove_msg s o id [OExpired id]); [done|done|split_and!; [done|done|not_in..]..].
  - (* ETakeTx *)
    destruct (w_tx (proc_of s)) eqn:Ew; [done|]. destruct (q_tx (proc_of s)) as [|id q] eqn:Eq; [done|].
    apply inv_worker; try done.
    + unfold owned_tx; cbn [w_tx q_tx]. by rewrite Ew, Eq.
    + rewrite Eq. cbn [w_tx q_tx]. intros x [E|Hx]; right; [injection E as ->; by apply elem_of_list_here|by apply elem_of_list_further].
    + apply neutral_nil.
    + apply quiet_nil.
  - (* ETxError *)
    destruct (w_tx (proc_of s)) as [[id []]|] eqn:Ew; try done. destruct retriable; [by rewrite app_nil_r|].
    apply (inv_remove_tx s o id [OFailed id]); [done|done|split_and!; [done|done|not_in..]..].
  - (* ETxExpired *)
    destruct (w_tx (proc_of s)) as [[id []]|] eqn:Ew; try done.
    apply (inv_remove_tx s o id [OExpired id]); [done|done|split_and!; [done|done|not_in..]..].
  - (* ETxSend *)
    destruct (w_tx (proc_of s)) as [[id []]|] eqn:Ew; try done. by apply inv_tx_send.
  - (* ETxRecord *)
    destruct (w_tx (proc_of s)) as [[id []]|] eqn:Ew; try done. by apply inv_tx_record.
  - (* EMined *)
    destruct (bool_decide _) eqn:Eb; [|done]. apply bool_decide_eq_true in Eb.
    apply (inv_remove_flying s o id [OMined id]); [done|done|split_and!; [done|done|not_in..]..].
  - (* EWaitError *)
    destruct (bool_decide _) eqn:Eb; [|done]. apply bool_decide_eq_true in Eb.
    apply (inv_remove_flying s o id []); [done|done|apply neutral_nil|apply quiet_nil].
  - (* ECancel *)
    apply inv_worker; try done; [apply neutral_nil|apply quiet_nil].
  - (* ECrash *)
    rewrite H1 in *. apply start_inv.
    + apply po_frame; [split_and!; [done|done|not_in..]| |done]. by intros id ?%elem_of_list_singleton.
    + unfold file_ok in *. by rewrite committed_app, app_nil_r.
    + pose proof (qo_sent _ H2) as Q. by rewrite H1 in Q.
    + apply after_restart.
Qed.

Theorem exec_inv (s : sys S A) o : exec s o → inv s o.
Proof.
  induction 1 as [|s o e s' o' He IH Hs].
  - apply start_inv; [|done| |done].
    + split; cbn [default no_pending p_map p_sent p_current from_option]; try done; try lia; try set_solver.
    + set_solver.
  - pose proof (inv_step s o e IH) as H. by rewrite Hs in H.
Qed.
End Proofs.

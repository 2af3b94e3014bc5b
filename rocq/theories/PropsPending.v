(** Theorems for C18, C19, C43, C44: the keyper's actions survive crashes.  [exec s o]: the system can reach
    [s], and [o] is everything that was observed, over all interleavings of the main loop, the workers, answers
    of the external systems, shutdown requests, crashes and restarts. *)
From stdpp Require Import list gmap sorting.
From Coq Require Import NArith Lia.
From Verif Require Import PendingModel PendingSpec PendingProofs.

Section Props.
Context {S A W : Type} (decide : S → W → S * list A) (is_message : A → bool) (s0 : S).
Notation step := (step decide is_message s0).
Notation exec := (exec decide is_message s0).

(** ** C18 *)
(** The actions of all decisions saved so far are numbered consecutively from 0; the actions that have been
    added are a prefix of them, each exactly once, in order and under its number. *)
Theorem C18_added_once (s : sys S A) o : exec s o → ∃ n, n ≤ length (committed o) ∧ added o = numbered (take n (committed o)).
Proof.
  intros He. apply exec_inv in He. destruct (i_pending _ _ _ He) as [? H1 H2].
  eauto.
Qed.
(** nothing panics *)
Theorem C18_no_panic (s : sys S A) o e : exec s o → step s e ≠ Panic.
Proof. intros He E. apply exec_inv in He. pose proof (inv_step decide is_message s0 s o e He) as H. by rewrite E in H. Qed.
(** no decision is made before every action of the earlier decisions has been added *)
Theorem C18_complete (s : sys S A) o w s' o' :
  exec s o → step s (EDecide w) = Step s' o' → added o = numbered (committed o).
Proof.
  intros He E. apply exec_inv in He. pose proof (i_pc _ _ _ He) as Hpc. unfold pc_ok in Hpc. cbn in E.
  destruct (k_pc (proc_of s)); [|done|done]. destruct Hpc as (_ & _ & El).
  rewrite (po_added _ _ (i_pending _ _ _ He)), El, take_ge by done. done.
Qed.
(** after a crash at any point the restarted process adds the missing actions before it does anything else with
    its state: it either has none to add or runs the saved actions *)
Theorem C18_recover (s : sys S A) o : exec s o →
  ∃ s1, step s ECrash = Step s1 [ORestarted] ∧
    (added o = numbered (committed o) ∨
     ∃ s2 o2, step s1 ERun = Step s2 o2 ∧ added (o ++ [ORestarted] ++ o2) = numbered (committed o) ∧ committed o2 = []).
Proof.
  intros He. exists (start is_message s0 (f_state s) (f_pending s)). split; [done|].
  assert (exec (start is_message s0 (f_state s) (f_pending s)) (o ++ [ORestarted])) as He1 by (by eapply (exec_step _ _ _ _ _ ECrash)).
  apply exec_inv in He1 as Hi.
  pose proof (i_pc _ _ _ Hi) as Hpc. pose proof (i_state _ _ _ Hi) as Hst. pose proof (i_pending _ _ _ Hi) as Hp.
  assert (committed (o ++ [ORestarted]) = committed o) as Ec by (by rewrite committed_app, app_nil_r).
  assert (added (o ++ [ORestarted]) = added o) as Ea by (by rewrite added_app, app_nil_r).
  unfold pc_ok in Hpc. set (s1 := start is_message s0 (f_state s) (f_pending s)) in *.
  destruct (k_pc (proc_of s1)) eqn:Epc.
  - left. destruct Hpc as (_ & _ & El). rewrite <-Ea, (po_added _ _ Hp), El, Ec, take_ge by done. done.
  - exfalso. unfold s1, start in Epc. rewrite schedule_fold in Epc. cbn in Epc. by destruct (actions _).
  - clearbody s1. right. rewrite Hpc in Hst.
    destruct (add_actions_spec _ _ _ Hp Hst) as (p' & Eadd & _).
    pose proof (inv_step decide is_message s0 s1 _ ERun Hi) as Hrun.
    assert (∃ s2 o2, step s1 ERun = Step s2 o2 ∧ k_pc (proc_of s2) = Idle ∧ committed o2 = [] ) as (s2 & o2 & E & E2 & E3).
    { cbn. rewrite Epc. destruct (actions (k_state (proc_of s1))) eqn:Eact; [eauto|].
      rewrite Eadd. do 2 eexists. split_and!; [done|done|].
      clear. generalize (ids_between (p_current (k_pending (proc_of s1))) (N.of_nat (length (committed (o ++ [ORestarted]))))).
      intros l. induction l as [|x l IH]; cbn; [done|]. destruct (p_map p' !! x); cbn; done. }
    rewrite E in Hrun.
    exists s2, o2. split; [done|]. split; [|done].
    pose proof (i_pc _ _ _ Hrun) as Hpc2. unfold pc_ok in Hpc2. rewrite E2 in Hpc2. destruct Hpc2 as (_ & _ & El).
    rewrite (assoc_L (++)).
    rewrite (po_added _ _ (i_pending _ _ _ Hrun)), El, take_ge by done.
    by rewrite committed_app, E3, app_nil_r, Ec.
Qed.

(** ** What holds whenever something is observed *)
(** [before]: everything observed before [x] *)
Definition justified (before : list (obs A)) (x : obs A) : Prop :=
  match x with
  | ORemoved id =>
      ∃ a, (id, a) ∈ added before ∧ ORemoved id ∉ before ∧
        if is_message a then message_settled id before ∨ OCheckRejected id ∈ before
        else tx_settled id before ∨ OTxSent id ∈ before
  | OAttempt id =>
      ∃ a, (id, a) ∈ added before ∧ is_message a = true ∧ ORemoved id ∉ before ∧
        ∀ id' a', (id' < id)%N → (id', a') ∈ added before → is_message a' = true → ORemoved id' ∈ before
  | OTxSent id =>
      ∃ a, (id, a) ∈ added before ∧ is_message a = false ∧ ORemoved id ∉ before ∧ OTxRecorded id ∉ before ∧
        OTxSent id ∉ after_last_restart before ∧
        ∀ id' a', (id' < id)%N → (id', a') ∈ added before → is_message a' = false → ORemoved id' ∈ before ∨ OTxRecorded id' ∈ before
  | _ => True
  end.

Lemma numbered_elem (l : list A) id a : (id, a) ∈ numbered l ↔ l !! N.to_nat id = Some a.
Proof.
  unfold numbered. rewrite elem_of_lookup_imap. split.
  - intros (i & y & E & H). injection E as -> ->. by rewrite Nat2N.id.
  - intros H. exists (N.to_nat id), a. by rewrite N2Nat.id.
Qed.
Lemma inv_added (s : sys S A) o id a : inv is_message s o → (id, a) ∈ added o →
  p_map (k_pending (proc_of s)) !! id = Some a ∨ ORemoved id ∈ o.
Proof.
  intros Hi H. pose proof (i_pending _ _ _ Hi) as Hp. rewrite (po_added _ _ Hp) in H. apply numbered_elem in H.
  apply lookup_take_Some in H as [H Hlt].
  destruct (p_map (k_pending (proc_of s)) !! id) as [a'|] eqn:E.
  - left. apply (po_in _ _ Hp) in E as [E _]. rewrite H in E. done.
  - right. apply (po_removed _ _ Hp); [lia|done].
Qed.
Lemma inv_in (s : sys S A) o id a : inv is_message s o → p_map (k_pending (proc_of s)) !! id = Some a →
  (id, a) ∈ added o ∧ ORemoved id ∉ o.
Proof.
  intros Hi H. pose proof (i_pending _ _ _ Hi) as Hp. split.
  - rewrite (po_added _ _ Hp). apply numbered_elem. destruct (po_in _ _ Hp _ _ H). apply lookup_take_Some. split; [done|lia].
  - intros Hr. apply (po_removed' _ _ Hp) in Hr as [_ Hr]. by rewrite H in Hr.
Qed.

Lemma justified_one o x : justified o x → ∀ o1 y o2, [x] = o1 ++ y :: o2 → justified (o ++ o1) y.
Proof.
  intros H o1 y o2 E. destruct o1 as [|? o1]; [|by destruct o1]. injection E as <- _. by rewrite app_nil_r.
Qed.
Lemma justified_app o l l' :
  (∀ o1 y o2, l = o1 ++ y :: o2 → justified (o ++ o1) y) →
  (∀ o1 y o2, l' = o1 ++ y :: o2 → justified ((o ++ l) ++ o1) y) →
  ∀ o1 y o2, l ++ l' = o1 ++ y :: o2 → justified (o ++ o1) y.
Proof.
  intros H1 H2 o1 y o2 E. destruct (decide_rel (≤) (length l) (length o1)) as [Hle|Hgt].
  - assert (o1 = l ++ drop (length l) o1) as Eo1.
    { rewrite <-(take_drop (length l) o1) at 1. f_equal.
      assert (take (length l) (l ++ l') = take (length l) (o1 ++ y :: o2)) as E' by (by rewrite E).
      rewrite take_app, take_app_le in E' by done. done. }
    rewrite Eo1, (assoc_L (++)). apply (H2 _ y o2). rewrite Eo1 in E. rewrite <-(assoc_L (++)) in E. by apply app_inv_head in E.
  - destruct (drop (length o1) l) as [|z l2] eqn:Ed.
    { apply (f_equal length) in Ed. rewrite drop_length in Ed. cbn in Ed. lia. }
    assert (l = o1 ++ z :: l2) as El.
    { rewrite <-(take_drop (length o1) l), Ed. f_equal.
      assert (take (length o1) (l ++ l') = take (length o1) (o1 ++ y :: o2)) as E' by (by rewrite E).
      rewrite take_app_le, take_app in E' by lia. done. }
    rewrite El in E. rewrite <-(assoc_L (++)) in E. apply app_inv_head in E. cbn in E. injection E as -> _.
    by apply (H1 o1 y l2).
Qed.
Lemma justified_nil o : ∀ o1 y o2, [] = o1 ++ y :: o2 → justified (o ++ o1) y.
Proof. intros [|? o1] y o2 E; done. Qed.
Lemma justified_trivial o l : (∀ x, x ∈ l → ∀ b, justified b x) → ∀ o1 y o2, l = o1 ++ y :: o2 → justified (o ++ o1) y.
Proof. intros H o1 y o2 ->. apply H. apply elem_of_app; right. apply elem_of_list_here. Qed.

Lemma step_justified (s : sys S A) o e s' o' : exec s o → step s e = Step s' o' →
  ∀ o1 x o2, o' = o1 ++ x :: o2 → justified (o ++ o1) x.
Proof.
  intros He Hs. apply exec_inv in He as Hi. pose proof Hi as [H1 [Q1 Q2 Q3 Q4] H3 H4 H5 H6 H7 H8].
  assert (∀ id pre, w_msg (proc_of s) = Some id → (∀ x, x ∈ pre → x = OExecuted id ∨ x = ORefused id ∨ x = OCheckRejected id ∨ x = OExpired id ∨ x = OFailed id) →
            (OExecuted id ∈ pre ∨ ORefused id ∈ pre ∨ OCheckRejected id ∈ pre ∨ OExpired id ∈ pre) →
            ∀ o1 x o2, pre ++ [ORemoved id] = o1 ++ x :: o2 → justified (o ++ o1) x) as Hmsg.
  { intros id pre Ew Hpre Hset. unfold owned_msg in Q1. rewrite Ew in Q1. cbn [option_list app] in Q1.
    apply lists_cons in Q1 as (_ & (a & Ha & Hm) & _). destruct (inv_in _ _ _ _ Hi Ha) as [Hadd Hnr].
    apply justified_app.
    - apply justified_trivial. intros x Hx b. destruct (Hpre x Hx) as [->|[->|[->|[->| ->]]]]; exact I.
    - apply justified_one. exists a. split; [rewrite added_app; apply elem_of_app; by left|]. split.
      { intros [?|Hx]%elem_of_app; [done|]. destruct (Hpre _ Hx) as [?|[?|[?|[?|?]]]]; done. }
      rewrite Hm. unfold message_settled. rewrite !elem_of_app. tauto. }
  assert (∀ id pre, p_map (k_pending (proc_of s)) !! id = Some pre → is_message pre = false → True) as _ by done.
  assert (∀ id x, w_tx (proc_of s) = Some (id, false) → x = OFailed id ∨ x = OExpired id →
            ∀ o1 y o2, [x; ORemoved id] = o1 ++ y :: o2 → justified (o ++ o1) y) as Htx.
  { intros id x Ew Hx. unfold owned_tx in Q2. rewrite Ew in Q2. cbn [option_list fmap option_fmap option_map fst app] in Q2.
    apply lists_cons in Q2 as (_ & [(a & Ha & Hm) _] & _). destruct (inv_in _ _ _ _ Hi Ha) as [Hadd Hnr].
    apply (justified_app o [x] [ORemoved id]); apply justified_one; [by destruct Hx as [->| ->]|].
    exists a. split; [rewrite added_app; apply elem_of_app; by left|]. split.
    { intros [?|Hy%elem_of_list_singleton]%elem_of_app; [done|]. by destruct Hx; subst. }
    rewrite Hm. left. unfold tx_settled. rewrite !elem_of_app, !elem_of_list_singleton. destruct Hx; subst; tauto. }
  assert (∀ id pre, id ∈ flying (proc_of s) → (∀ x, x ∈ pre → x = OMined id) →
            ∀ o1 y o2, pre ++ [ORemoved id] = o1 ++ y :: o2 → justified (o ++ o1) y) as Hfly.
  { intros id pre Hid Hpre. rewrite Q3 in Hid. destruct (Q4 id Hid) as (a & Ha & Hm).
    destruct (inv_in _ _ _ _ Hi Ha) as [Hadd Hnr]. destruct (po_sent _ _ H3 _ Hid) as [Hsent _].
    apply justified_app.
    - apply justified_trivial. intros x Hx b. by rewrite (Hpre x Hx).
    - apply justified_one. exists a. split; [rewrite added_app; apply elem_of_app; by left|]. split.
      { intros [?|Hy]%elem_of_app; [done|]. by apply Hpre in Hy. }
      rewrite Hm. right. apply elem_of_app; by left. }
  destruct e; cbn [PendingModel.step] in Hs.
  - destruct (k_pc (proc_of s)), (cancelled (proc_of s)); try done. destruct (actions (k_state (proc_of s))); [|done].
    destruct (decide _ _). injection Hs as <- <-. apply justified_nil.
  - destruct (k_pc (proc_of s)); try done. injection Hs as <- <-. by apply justified_one.
  - destruct (k_pc (proc_of s)); try done. destruct (actions (k_state (proc_of s))); [injection Hs as <- <-; apply justified_nil|].
    destruct (add_actions _ _ _) as [[[p a1] b]|]; [|done]. injection Hs as <- <-.
    apply justified_trivial. intros x Hx b'. apply elem_of_list_omap in Hx as (id & _ & Hx).
    destruct (p_map p !! id); [|done]. cbn in Hx. by injection Hx as <-.
  - destruct (w_msg (proc_of s)) eqn:Ew; [done|]. destruct (q_msg (proc_of s)) as [|id q] eqn:Eq; [done|].
    injection Hs as <- <-. apply justified_one.
    unfold owned_msg in Q1. rewrite Ew, Eq in Q1. cbn [option_list app] in Q1.
    apply lists_cons in Q1 as (_ & (a & Ha & Hm) & Hlt). destruct (inv_in _ _ _ _ Hi Ha) as [Hadd Hnr].
    exists a. split_and!; [done|done|done|]. intros id' a' Hid' Hin' Hm'.
    destruct (inv_added _ _ _ _ Hi Hin') as [Hin|]; [|done].
    assert (id < id')%N; [|lia]. apply Hlt; [exists a'; done|lia].
  - destruct (w_msg (proc_of s)); [|done]. injection Hs as <- <-. apply justified_nil.
  - destruct (w_msg (proc_of s)) as [id|] eqn:Ew; [|done]. injection Hs as <- <-. cbn [app].
    intros o1 x o2 E.
    destruct check_ok, deliver_ok; cbn [app] in E.
    + apply (Hmsg id [OExecuted id] eq_refl) with (o2 := o2); [| |done]; [intros y ?%elem_of_list_singleton; tauto|rewrite !elem_of_list_singleton; tauto].
    + apply (Hmsg id [ORefused id; OFailed id] eq_refl) with (o2 := o2); [| |done].
      * intros y Hy. rewrite elem_of_cons, elem_of_list_singleton in Hy. tauto.
      * rewrite !elem_of_cons. tauto.
    + apply (Hmsg id [OCheckRejected id] eq_refl) with (o2 := o2); [| |done]; [intros y ?%elem_of_list_singleton; tauto|rewrite !elem_of_list_singleton; tauto].
    + apply (Hmsg id [OCheckRejected id] eq_refl) with (o2 := o2); [| |done]; [intros y ?%elem_of_list_singleton; tauto|rewrite !elem_of_list_singleton; tauto].
  - destruct (w_msg (proc_of s)) as [id|] eqn:Ew; [|done]. injection Hs as <- <-.
    intros o1 x o2 E.
    apply (Hmsg id [OExpired id] eq_refl) with (o2 := o2); [| |done]; [intros y ?%elem_of_list_singleton; tauto|rewrite !elem_of_list_singleton; tauto].
  - destruct (w_tx (proc_of s)); [done|]. destruct (q_tx (proc_of s)); [done|]. injection Hs as <- <-. apply justified_nil.
  - destruct (w_tx (proc_of s)) as [[id []]|] eqn:Ew; try done. destruct retriable; injection Hs as <- <-; [apply justified_nil|].
    apply Htx; tauto.
  - destruct (w_tx (proc_of s)) as [[id []]|] eqn:Ew; try done. injection Hs as <- <-. apply Htx; tauto.
  - destruct (w_tx (proc_of s)) as [[id []]|] eqn:Ew; try done. injection Hs as <- <-. apply justified_one.
    unfold owned_tx in Q2. rewrite Ew in Q2. cbn [option_list fmap option_fmap option_map fst app] in Q2.
    apply lists_cons in Q2 as (_ & [(a & Ha & Hm) Hns] & Hlt). destruct (inv_in _ _ _ _ Hi Ha) as [Hadd Hnr].
    exists a. split_and!; [done|done|done| | |].
    { intros Hr. destruct (po_recorded _ _ H3 _ Hr); done. }
    { apply H8. by left. }
    intros id' a' Hid' Hin' Hm'.
    destruct (inv_added _ _ _ _ Hi Hin') as [Hin|]; [|by left].
    destruct (decide_rel (∈) id' (p_sent (k_pending (proc_of s)))) as [Hsent|Hnsent].
    { right. by apply (po_sent _ _ H3). }
    assert (id < id')%N; [|lia]. apply Hlt; [split; [exists a'; done|done]|lia].
  - destruct (w_tx (proc_of s)) as [[id []]|] eqn:Ew; try done. injection Hs as <- <-. by apply justified_one.
  - destruct (bool_decide _) eqn:Eb; [|done]. apply bool_decide_eq_true in Eb. injection Hs as <- <-.
    apply (Hfly id [OMined id] Eb). by intros y ?%elem_of_list_singleton.
  - destruct (bool_decide _) eqn:Eb; [|done]. apply bool_decide_eq_true in Eb. injection Hs as <- <-.
    apply (Hfly id [] Eb). by intros y ?%elem_of_nil.
  - injection Hs as <- <-. apply justified_nil.
  - injection Hs as <- <-. by apply justified_one.
Qed.
Theorem exec_justified (s : sys S A) o : exec s o → ∀ o1 x o2, o = o1 ++ x :: o2 → justified o1 x.
Proof.
  induction 1 as [|s o e s' o' He IH Hs]; [intros [|? o1] x o2 E; done|].
  intros o1 x o2 E. apply (justified_app [] o o') with (o2 := o2); [|by apply (step_justified s o e s' o')|done].
  intros o3 y o4 E'. by apply IH with (o2 := o4).
Qed.

(** ** C19 *)
(** An action is removed at most once, after it was added; a message only after shuttermint executed it,
    executed it with an error or rejected it, or after it expired; a main chain transaction only after it was
    sent, expired or failed for good.
    Missing for C19 (and false, see C19_refuted): a message is not removed when shuttermint rejects it
    in CheckTx, and a sent transaction is not removed before it is mined. *)
Theorem C19_removal_partial (s : sys S A) o o1 o2 id : exec s o → o = o1 ++ ORemoved id :: o2 →
  ∃ a, (id, a) ∈ added o1 ∧ ORemoved id ∉ o1 ∧
    if is_message a then message_settled id o1 ∨ OCheckRejected id ∈ o1
    else tx_settled id o1 ∨ OTxSent id ∈ o1.
Proof. intros He E. apply (exec_justified s o He o1 (ORemoved id) o2 E). Qed.

(** An action that was added and not removed is in the file, so it survives a crash, and the running process
    will still handle it: it waits in the queue of a worker, a worker handles it, or its transaction is being
    waited for. *)
Theorem C19_not_lost (s : sys S A) o id a : exec s o → (id, a) ∈ added o → ORemoved id ∉ o →
  (∃ p, f_pending s = Some p ∧ p_map p !! id = Some a) ∧
  let k := proc_of s in
  if is_message a then w_msg k = Some id ∨ id ∈ q_msg k
  else (∃ sent, w_tx k = Some (id, sent)) ∨ id ∈ q_tx k ∨ id ∈ flying k.
Proof.
  intros He Hadd Hnr. apply exec_inv in He as Hi. destruct (inv_added _ _ _ _ Hi Hadd) as [Hin|]; [|done].
  pose proof Hi as [H1 [Q1 Q2 Q3 Q4] H3 H4 H5 H6 H7 H8]. split.
  - rewrite H1 in Hin. destruct (f_pending s) as [p|]; cbn in Hin; [eauto|]. by rewrite lookup_empty in Hin.
  - cbn. destruct (is_message a) eqn:Em.
    + assert (id ∈ owned_msg (proc_of s)) as H by (apply Q1; by exists a).
      unfold owned_msg in H. apply elem_of_app in H as [H|H]; [left|by right].
      destruct (w_msg (proc_of s)); cbn in H; [by apply elem_of_list_singleton in H as ->|by apply elem_of_nil in H].
    + destruct (decide_rel (∈) id (p_sent (k_pending (proc_of s)))) as [Hs|Hs]; [right; right; by rewrite Q3|].
      assert (id ∈ owned_tx (proc_of s)) as H by (apply Q2; split; [by exists a|done]).
      unfold owned_tx in H. apply elem_of_app in H as [H|H]; [left|right; by left].
      destruct (w_tx (proc_of s)) as [[x b]|]; cbn in H; [apply elem_of_list_singleton in H as ->; eauto|by apply elem_of_nil in H].
Qed.

(** In every reachable state with a transaction in flight that is not settled, a shutdown loses it: its
    action is removed although the transaction was neither mined nor failed nor expired *)
Theorem C19_shutdown_loses (s : sys S A) o id : exec s o → id ∈ flying (proc_of s) → ¬ tx_settled id o →
  ∃ s1 s2, step s ECancel = Step s1 [] ∧ step s1 (EWaitError id) = Step s2 [ORemoved id] ∧
    exec s2 (o ++ [ORemoved id]) ∧ ¬ tx_settled id (o ++ [ORemoved id]).
Proof.
  intros He Hid Hn.
  do 2 eexists. split; [done|]. split; [cbn; rewrite bool_decide_true by done; done|]. split.
  - replace (o ++ [ORemoved id]) with ((o ++ []) ++ [ORemoved id]) by (by rewrite app_nil_r).
    eapply (exec_step _ _ _ _ _ (EWaitError id)); [eapply (exec_step _ _ _ _ _ ECancel); [exact He|done]|].
    cbn. rewrite bool_decide_true by done. done.
  - unfold tx_settled in *. rewrite !elem_of_app, !elem_of_list_singleton.
    intros [[?|?]|[[?|?]|[?|?]]]; try done; apply Hn; tauto.
Qed.

(** ** C43 *)
(** A message is only sent while its action is pending, and only after every message decided earlier has left
    the list of pending actions; over all crashes. *)
Theorem C43_message_order (s : sys S A) o o1 o2 id : exec s o → o = o1 ++ OAttempt id :: o2 →
  ∃ a, (id, a) ∈ added o1 ∧ is_message a = true ∧ ORemoved id ∉ o1 ∧
    ∀ id' a', (id' < id)%N → (id', a') ∈ added o1 → is_message a' = true → ORemoved id' ∈ o1.
Proof. intros He E. apply (exec_justified s o He o1 (OAttempt id) o2 E). Qed.
(** A main chain transaction is only sent after every transaction decided earlier has been sent and recorded,
    or has left the list. *)
Theorem C43_tx_order (s : sys S A) o o1 o2 id : exec s o → o = o1 ++ OTxSent id :: o2 →
  ∃ a, (id, a) ∈ added o1 ∧ is_message a = false ∧
    ∀ id' a', (id' < id)%N → (id', a') ∈ added o1 → is_message a' = false → ORemoved id' ∈ o1 ∨ OTxRecorded id' ∈ o1.
Proof. intros He E. destruct (exec_justified s o He o1 (OTxSent id) o2 E) as (a & ? & ? & ? & ? & ? & ?). eauto. Qed.

(** ** C44 *)
(** Between two restarts no main chain transaction is sent twice, and a transaction whose hash was stored (or
    whose action was removed) is never sent again.  Missing for exactly-once (and false, see C44_refuted): a
    crash between sending and storing the hash. *)
Theorem C44_sent_once_per_run (s : sys S A) o : exec s o → NoDup (tx_sent (after_last_restart o)).
Proof. intros He. apply exec_inv in He. apply (i_once _ _ _ He). Qed.
Theorem C44_recorded_not_resent (s : sys S A) o o1 o2 id : exec s o → o = o1 ++ OTxSent id :: o2 →
  OTxRecorded id ∉ o1 ∧ ORemoved id ∉ o1.
Proof. intros He E. by destruct (exec_justified s o He o1 (OTxSent id) o2 E) as (a & ? & ? & ? & ? & ? & ?). Qed.
(** If a transaction is sent twice, the process was restarted in between. *)
Theorem C44_sent_twice (s : sys S A) o o1 o2 o3 id : exec s o →
  o = o1 ++ OTxSent id :: o2 ++ OTxSent id :: o3 → ORestarted ∈ o2 ∧ OTxRecorded id ∉ o2 ∧ ORemoved id ∉ o2.
Proof.
  intros He E. destruct (C44_recorded_not_resent s o (o1 ++ OTxSent id :: o2) o3 id He) as [H1 H2].
  { rewrite E. by rewrite <-(assoc_L (++)). }
  rewrite not_elem_of_app, not_elem_of_cons in H1, H2. split; [|tauto].
  assert (ORestarted ∈ o2 ∨ ORestarted ∉ o2) as [|Hn]; [|done|exfalso].
  { clear. induction o2 as [|x o2 IH]; [right; apply not_elem_of_nil|].
    destruct IH as [IH|IH]; [left; by apply elem_of_list_further|].
    destruct x; try (right; apply not_elem_of_cons; split; done). left. apply elem_of_list_here. }
  destruct (exec_justified s o He (o1 ++ OTxSent id :: o2) (OTxSent id) o3) as (a & ? & ? & ? & ? & Hns & ?).
  { rewrite E. by rewrite <-(assoc_L (++)). }
  apply Hns. rewrite after_app; [apply elem_of_app; right; apply elem_of_list_here|].
  unfold no_restart. apply not_elem_of_cons. split; done.
Qed.
End Props.

(** ** Witnesses and refutations, for a keyper whose decisions are the inputs; [true] is a message *)
Notation dec := (λ (_ : unit) (w : list bool), (tt, w)).
Notation runs evs := (foldl (λ r e, match r with
  | Some (s, o) => match step dec (λ b : bool, b) tt s e with Step s' o' => Some (s', o ++ o') | _ => None end
  | None => None end) (Some (start (λ b : bool, b) tt None None, [])) evs).
Lemma runs_exec (evs : list (event (list bool))) s o : runs evs = Some (s, o) → exec dec (λ b, b) tt s o.
Proof.
  revert s o. induction evs as [|e evs IH] using rev_ind; intros s o; cbn.
  - intros E. injection E as <- <-. constructor.
  - rewrite foldl_app. cbn. destruct (runs evs) as [[s1 o1]|] eqn:E1; [|done].
    destruct (step dec (λ b : bool, b) tt s1 e) as [| |s2 o2] eqn:E2; [done|done|].
    intros E. injection E as <- <-. eapply exec_step; [by apply IH|exact E2].
Qed.

(** crash after saving the decision, then the actions are added; then a crash after adding *)
Example C18_witness : ∃ s, exec dec (λ b : bool, b) tt s
  [OCommitted [true; false; true]; ORestarted; OAdded 0 true; OAdded 1 false; OAdded 2 true; ORestarted; OAttempt 0; OExecuted 0; ORemoved 0;
   OCommitted [false]; OAdded 3 false].
Proof.
  eexists. apply (runs_exec [EDecide [true; false; true]; ESave; ECrash; ERun; ECrash; ETakeMsg; ERun; EMsgResult true true;
    EDecide [false]; ESave; ERun]). vm_compute. reflexivity.
Qed.

(** A shutdown while a transaction is in flight: the action is removed, the transaction was not mined, did not
    fail and did not expire.  Likewise for a message that shuttermint rejected in CheckTx: it was not executed,
    but its action is removed as if it had been. *)
Theorem C19_refuted :
  ¬ (∀ (S A W : Type) (decide : S → W → S * list A) (is_message : A → bool) (s0 : S) s o o1 o2 id a,
      exec decide is_message s0 s o → o = o1 ++ ORemoved id :: o2 → (id, a) ∈ added o1 → is_message a = false → tx_settled id o1) ∧
  ¬ (∀ (S A W : Type) (decide : S → W → S * list A) (is_message : A → bool) (s0 : S) s o o1 o2 id a,
      exec decide is_message s0 s o → o = o1 ++ ORemoved id :: o2 → (id, a) ∈ added o1 → is_message a = true →
      message_settled id o1 ∨ OFailed id ∈ o1).
Proof.
  split; intros H.
  - destruct (runs [EDecide [false]; ESave; ERun; ETakeTx; ETxSend; ETxRecord; ECancel; EWaitError 0]) as [[s o]|] eqn:E; [|by vm_compute in E].
    apply runs_exec in E as He. vm_compute in E. injection E as <- <-.
    specialize (H _ _ _ _ _ _ _ _ [OCommitted [false]; OAdded 0%N false; OTxSent 0%N; OTxRecorded 0%N] [] 0%N false He eq_refl).
    destruct H as [H|[H|H]]; [by apply elem_of_list_singleton|done|..]; repeat (apply elem_of_cons in H as [H|H]; [done|]); by apply elem_of_nil in H.
  - destruct (runs [EDecide [true]; ESave; ERun; ETakeMsg; EMsgResult false true]) as [[s o]|] eqn:E; [|by vm_compute in E].
    apply runs_exec in E as He. vm_compute in E. injection E as <- <-.
    specialize (H _ _ _ _ _ _ _ _ [OCommitted [true]; OAdded 0%N true; OAttempt 0%N; OCheckRejected 0%N] [] 0%N true He eq_refl).
    destruct H as [[H|[H|H]]|H]; [by apply elem_of_list_singleton|done|..]; repeat (apply elem_of_cons in H as [H|H]; [done|]); by apply elem_of_nil in H.
Qed.

(** two messages and two transactions, sent in order, and a crash in between *)
Example C43_witness : ∃ s, exec dec (λ b : bool, b) tt s
  [OCommitted [true; false; true; false]; OAdded 0 true; OAdded 1 false; OAdded 2 true; OAdded 3 false;
   OAttempt 0; OTxSent 1; OTxRecorded 1; ORestarted; OAttempt 0; ORefused 0; OFailed 0; ORemoved 0; OAttempt 2; OTxSent 3; OMined 1; ORemoved 1].
Proof.
  eexists. apply (runs_exec [EDecide [true; false; true; false]; ESave; ERun; ETakeMsg; ETakeTx; ETxSend; ETxRecord; ECrash; ETakeMsg; EMsgRpcError;
    EMsgResult true false; ETakeMsg; ETakeTx; ETxSend; EMined 1]). vm_compute. reflexivity.
Qed.

(** A crash between sending a transaction and storing its hash: it is sent again. *)
Theorem C44_refuted :
  ¬ (∀ (S A W : Type) (decide : S → W → S * list A) (is_message : A → bool) (s0 : S) s o,
      exec decide is_message s0 s o → NoDup (tx_sent o)).
Proof.
  intros H.
  destruct (runs [EDecide [false]; ESave; ERun; ETakeTx; ETxSend; ECrash; ETakeTx; ETxSend]) as [[s o]|] eqn:E; [|by vm_compute in E].
  apply runs_exec in E as He. vm_compute in E. injection E as <- <-.
  specialize (H _ _ _ _ _ _ _ _ He). cbn in H. apply NoDup_cons in H as [H _]. apply H. apply elem_of_list_here.
Qed.

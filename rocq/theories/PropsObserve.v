(** Theorems for C20, C21, C45, C46: the keyper's view of shuttermint. *)
From stdpp Require Import list gmap sorting.
From Coq Require Import ZArith NArith Lia.
From Verif Require Import ObserveModel ObserveProofs SyncModel SyncProofs.

Section Props.
Context {B D K G : Type}.
Notation shutter := (shutter B D K G).
Notation eon := (eon B).
Implicit Types (s : shutter) (e : eon).
(** heights do not decrease along a list of events *)
Notation sorted_heights := (StronglySorted (λ x y : eon_event B, (ev_height x ≤ ev_height y)%Z)).

(** ** C20 *)
(** The getters return exactly the events at or above the height, in order. *)
Theorem C20_getter e k h : sorted_heights (events_of k e) →
  get_events k e h = filter (λ x, (h ≤ ev_height x)%Z) (events_of k e).
Proof. intros H. by apply from_height_spec. Qed.

(** Filtering keeps every eon with its number and start, keeps the batches from the batch index on, and does
    not change what the getters return from the filter's height on, for all kinds of events except epoch secret
    key shares.  Missing for C20 (and false, see C20_refuted): epoch secret key shares. *)
Theorem C20_partial s fh fb n e :
  StronglySorted (λ x y : eon, (eon_number x < eon_number y)%N) (eons s) →
  (∀ e' k, e' ∈ eons s → sorted_heights (events_of k e')) →
  find_eon s n = Some e →
  ∃ e', find_eon (apply_filter s fh fb) n = Some e' ∧
    eon_number e' = eon_number e ∧ start_height e' = start_height e ∧ start_batch e' = start_batch e ∧
    ∀ k h, k ≠ KeyShare → (fh ≤ h)%Z → get_events k e' h = get_events k e h.
Proof.
  intros HS Hs He. apply find_eon_spec in He as [Hin Hn]; [|done]. unfold apply_filter.
  destruct (_ || _)%bool.
  - exists (eon_apply_filter e fh). split; [|split_and!; [done|done|done|]].
    + apply find_eon_spec; [cbn; by apply sorted_eons_fmap|]. split; [|done]. cbn. apply elem_of_list_fmap. eauto.
    + intros k h Hk Hh.
      assert (events_of k (eon_apply_filter e fh) = since fh (events_of k e)) as Ev.
      { rewrite <-from_height_spec by (by apply Hs). by destruct k. }
      unfold get_events. rewrite Ev. rewrite !from_height_spec; [|by apply Hs|apply since_sorted; by apply Hs].
      by apply since_since.
  - exists e. split; [by apply find_eon_spec|]. done.
Qed.
Theorem C20_batches s fh fb i : (fb ≤ i)%N → batches (apply_filter s fh fb) !! i = batches s !! i.
Proof.
  intros Hi. unfold apply_filter. destruct (_ || _)%bool; [|done]. cbn.
  destruct (batches s !! i) as [x|] eqn:E.
  - by apply map_filter_lookup_Some.
  - apply map_filter_lookup_None. by left.
Qed.
Theorem C20_rest s fh fb :
  current_block (apply_filter s fh fb) = current_block s ∧ enc_keys (apply_filter s fh fb) = enc_keys s ∧
  configs (apply_filter s fh fb) = configs s ∧ eon_number <$> eons (apply_filter s fh fb) = eon_number <$> eons s.
Proof.
  unfold apply_filter. destruct (_ || _)%bool; [|done]. split_and!; [done..|]. cbn. rewrite <-list_fmap_compose.
  by apply list_fmap_ext; intros ? x ?.
Qed.

(** ** C21 *)
(** states built by applying events and filters, in any order *)
Inductive built : shutter → Prop :=
| built_new : built new_shutter
| built_event s ev : built s → built (apply_event s ev)
| built_filter s h b : built s → built (apply_filter s h b).
Lemma built_sorted s : built s → StronglySorted (λ x y : eon, (eon_number x < eon_number y)%N) (eons s).
Proof. induction 1; [constructor|by apply apply_event_sorted|by apply apply_filter_sorted]. Qed.

Theorem C21_by_number s n e : built s → find_eon s n = Some e ↔ e ∈ eons s ∧ eon_number e = n.
Proof. intros H. apply find_eon_spec. by apply built_sorted. Qed.
Theorem C21_by_batch s b e : built s →
  find_eon_by_batch_index s b = Some e ↔
  e ∈ eons s ∧ (start_batch e ≤ b)%N ∧ ∀ e', e' ∈ eons s → (start_batch e' ≤ b)%N → (eon_number e' ≤ eon_number e)%N.
Proof.
  intros Hb. pose proof (built_sorted s Hb) as HS. rewrite find_eon_by_batch_spec. split.
  - intros (l1 & l2 & E & Hle & Hall). split_and!; [rewrite E; apply elem_of_app; right; apply elem_of_list_here|done|].
    intros e' He' Hle'. apply elem_of_list_lookup in He' as (i & Hi).
    assert (eons s !! length l1 = Some e) as Hi1 by (rewrite E; by rewrite list_lookup_middle).
    destruct (Nat.lt_trichotomy i (length l1)) as [H|[->|H]].
    + pose proof (sorted_eons_lookup _ _ _ _ _ HS H Hi Hi1). lia.
    + rewrite Hi in Hi1. by injection Hi1 as ->.
    + exfalso. rewrite E, lookup_app_r in Hi by lia. destruct (i - length l1) as [|m] eqn:Em; [lia|]. cbn in Hi.
      rewrite Forall_forall in Hall. specialize (Hall e' (elem_of_list_lookup_2 _ _ _ Hi)). lia.
  - intros (Hin & Hle & Hmax). apply elem_of_list_split in Hin as (l1 & l2 & E). exists l1, l2. split_and!; [done|done|].
    apply Forall_forall. intros e' He'. destruct (N.lt_ge_cases b (start_batch e')) as [|Hle']; [done|exfalso].
    assert (e' ∈ eons s) as Hin' by (rewrite E; apply elem_of_app; right; by apply elem_of_list_further).
    specialize (Hmax e' Hin' Hle').
    apply elem_of_list_lookup in He' as (m & Hm).
    assert (eons s !! length l1 = Some e) as H1 by (rewrite E; by rewrite list_lookup_middle).
    assert (eons s !! (length l1 + S m) = Some e') as H2.
    { rewrite E, lookup_app_r by lia. by replace (length l1 + S m - length l1) with (S m) by lia. }
    pose proof (sorted_eons_lookup _ (length l1) (length l1 + S m) _ _ HS ltac:(lia) H1 H2). lia.
Qed.
(** a new eon is found from then on, under its number; an eon number that is not larger is ignored *)
Theorem C21_started s h n b : built s → (∀ e, e ∈ eons s → (eon_number e < n)%N) →
  find_eon (apply_event s (EonStarted h n b)) n = Some (mkEon n h b [] [] [] [] []).
Proof.
  intros Hb Hn. pose proof (built_sorted s Hb) as HS.
  apply C21_by_number; [by constructor|]. cbn [apply_event].
  destruct (search_eon_spec s n HS) as (S1 & S2 & S3).
  destruct (Nat.ltb_spec (search_eon s n) (length (eons s))) as [Hl|Hl].
  - destruct (lookup_lt_is_Some_2 _ _ Hl) as [e He]. specialize (S3 _ _ (Nat.le_refl _) He).
    specialize (Hn e (elem_of_list_lookup_2 _ _ _ He)). lia.
  - split; [|done]. cbn. apply elem_of_app; right. by apply elem_of_list_singleton.
Qed.
Theorem C21_stale s h n b e : built s → e ∈ eons s → (n ≤ eon_number e)%N → apply_event s (EonStarted h n b) = s.
Proof.
  intros Hb He Hn. pose proof (built_sorted s Hb) as HS. cbn [apply_event].
  destruct (search_eon_spec s n HS) as (S1 & S2 & S3).
  destruct (Nat.ltb_spec (search_eon s n) (length (eons s))) as [Hl|Hl]; [done|].
  apply elem_of_list_lookup in He as (i & Hi). assert (i < length (eons s)) by (by apply lookup_lt_Some in Hi).
  specialize (S2 i e ltac:(lia) Hi). lia.
Qed.
(** an event goes to the eon it names and to no other *)
Theorem C21_event s k x n : built s →
  find_eon (apply_event s (EonEvent k x)) n =
    if decide (n = ev_eon x) then add_event k x <$> find_eon s n else find_eon s n.
Proof.
  intros Hb. pose proof (built_sorted s Hb) as HS.
  assert (built (apply_event s (EonEvent k x))) as Hb' by (by constructor).
  assert (∀ e, find_eon (apply_event s (EonEvent k x)) n = Some e ↔
            (if decide (n = ev_eon x) then add_event k x <$> find_eon s n else find_eon s n) = Some e) as H.
  { intros e. rewrite C21_by_number by done. cbn [apply_event].
    destruct (find_eon_index s (ev_eon x)) as [i|] eqn:Ei.
    - apply find_eon_index_spec in Ei as (e0 & Hi & Hn0); [|done]. cbn [with_eons eons].
      assert (find_eon s (ev_eon x) = Some e0) as Hf0 by (apply find_eon_spec; [done|split; [by eapply elem_of_list_lookup_2|done]]).
      assert (e ∈ alter (add_event k x) i (eons s) ↔ e = add_event k x e0 ∨ (e ∈ eons s ∧ eon_number e ≠ ev_eon x)) as Halt.
      { split.
        - intros (j & Hj)%elem_of_list_lookup. destruct (decide (j = i)) as [->|Hne].
          + rewrite list_lookup_alter, Hi in Hj. cbn in Hj. injection Hj as <-. by left.
          + rewrite list_lookup_alter_ne in Hj by done. right. split; [by eapply elem_of_list_lookup_2|].
            intros E. destruct (Nat.lt_trichotomy i j) as [?|[?|?]]; [|done|].
            * pose proof (sorted_eons_lookup _ _ _ _ _ HS ltac:(eassumption) Hi Hj). lia.
            * pose proof (sorted_eons_lookup _ _ _ _ _ HS ltac:(eassumption) Hj Hi). lia.
        - intros [->|[Hin Hne]].
          + apply elem_of_list_lookup. exists i. by rewrite list_lookup_alter, Hi.
          + apply elem_of_list_lookup in Hin as (j & Hj). apply elem_of_list_lookup. exists j.
            destruct (decide (j = i)) as [->|?]; [rewrite Hi in Hj; injection Hj as ->; done|].
            by rewrite list_lookup_alter_ne. }
      rewrite Halt. destruct (decide (n = ev_eon x)) as [->|Hne].
      + rewrite Hf0. cbn. split.
        * intros [[->|[_ ?]] ?]; done.
        * intros [= <-]. rewrite add_event_number. eauto.
      + rewrite find_eon_spec by done. split.
        * intros [[->|[? _]] Hn]; [|done]. rewrite add_event_number in Hn. congruence.
        * intros [? <-]. eauto.
    - rewrite <-find_eon_spec by done. destruct (decide (n = ev_eon x)) as [->|Hne]; [|done].
      unfold find_eon. by rewrite Ei. }
  destruct (find_eon (apply_event s (EonEvent k x)) n) as [e|] eqn:E.
  - symmetry. by apply H.
  - destruct (if decide _ then _ else _) as [e|]; [|done]. by apply H.
Qed.
End Props.

Section Sync.
Context {B D K G R : Type} (make_event : R → Z → option (shutter_event B D K G)) (chain : nat → list (list R)).
Notation shutter := (shutter B D K G).
Notation P := (published make_event chain).
Notation history := (history make_event chain).

(** ** C46 *)
(** Fetching up to a height not below the current one ends, does not hit the internal errors, and applies exactly
    the events of the blocks in between, in order, whatever number of windows and pages it needs. *)
Theorem C46_fetch (s : shutter) target synced : (-1 ≤ current_block s ≤ target)%Z →
  ∃ needed evs, P (Z.to_nat (target + 1)) = P (Z.to_nat (current_block s + 1)) ++ evs ∧
    ∀ fuel pages, needed ≤ fuel → needed ≤ pages →
      ∃ s', sync_to_height make_event chain fuel pages s target synced = Some s' ∧
        current_block s' = target ∧ enc_keys s' = enc_keys (apply_events s evs) ∧ configs s' = configs (apply_events s evs) ∧
        batches s' = batches (apply_events s evs) ∧ eons s' = eons (apply_events s evs).
Proof.
  intros Hc.
  destruct (apply_blocks make_event chain s (Z.to_nat (current_block s + 1)) (Z.to_nat (target - current_block s))) as (evs & E1 & _ & E2).
  exists (S (Z.to_nat (target - current_block s) + length (txs_between chain (current_block s + 1) target))), evs. split.
  { rewrite <-E1. f_equal. lia. }
  intros fuel pages Hf Hp. unfold sync_to_height, fetch_and_apply.
  destruct (Z.ltb_spec target (current_block s)); [lia|].
  rewrite fetch_windows_spec by lia. eexists. split; [done|]. cbn.
  unfold txs_between. replace (target - (current_block s + 1) + 1)%Z with (target - current_block s)%Z by lia.
  rewrite E2. done.
Qed.
Theorem C46_only (s s' : shutter) fuel pages target synced : (-1 ≤ current_block s)%Z →
  sync_to_height make_event chain fuel pages s target synced = Some s' →
  (current_block s ≤ target)%Z ∧
  ∃ evs, P (Z.to_nat (target + 1)) = P (Z.to_nat (current_block s + 1)) ++ evs ∧ eons s' = eons (apply_events s evs) ∧
    configs s' = configs (apply_events s evs) ∧ enc_keys s' = enc_keys (apply_events s evs).
Proof. intros H1 H2. apply sync_to_height_some in H2 as (? & ? & ? & ?); [|done]. done. Qed.

(** ** C45 *)
(** The decisions are offered, in order and exactly once, every event published up to the sync height: if no
    decision is skipped (the nodes are in sync and we are a keyper whenever a decision is due), for all kinds of
    events; if decisions may be skipped, for all kinds except epoch secret key shares, provided every crash comes
    after some decision.  Missing for C45 (and false, see C45_refuted): the cases these conditions exclude. *)
Context (Hwf : ∀ n, well_formed (P n)) (Hho : heights_ok make_event).
Theorem C45_no_skip_partial y es o k n : history y es o → Forall no_skip es →
  concat (offered k n <$> o) = of_kind k n (P (Z.to_nat (sync_height y))).
Proof. intros H1 H2. pose proof (inv_no_skip make_event chain Hwf Hho y es o H1 H2) as Hi. by apply (i_seen _ _ _ _ _ Hi). Qed.
Theorem C45_dkg_partial y es o k n : history y es o → crash_after_decision make_event chain es → k ≠ KeyShare →
  concat (offered k n <$> o) = of_kind k n (P (Z.to_nat (sync_height y))).
Proof. intros H1 H2 Hk. pose proof (inv_crash make_event chain Hwf Hho y es o H1 H2) as Hi. by apply (i_seen _ _ _ _ _ Hi). Qed.
(** a decision that is not skipped covers everything up to the block its world has seen *)
Theorem C45_progress (y y' : system B D K G) w half o' : g_out y = Some w → looping y = true → node_synced w = true →
  sync_step make_event chain y (MShutter true half) = Some (y', o') →
  o' = [ODecide (sync_height y) w] ∧ sync_height y' = (current_block w + 1)%Z.
Proof.
  intros E1 E2 E3. cbn. rewrite E1, E2. unfold run_one_step. rewrite E3. cbn. intros [= <- <-]. done.
Qed.
End Sync.

(** ** Witnesses and refutations *)
(** one eon, started in block 0; [Some k] is an event of kind [k] of this eon *)
Notation raw := (option kind).
Notation mk := (λ (r : raw) (h : Z), match r with
  | None => Some (EonStarted h 0 0)
  | Some k => Some (EonEvent k (mkEv h 0%N tt)) end : option (shutter_event unit unit unit unit)).
(** the start, then one event of kind [k] in block 1, then empty blocks *)
Notation chain1 k := (λ n : nat, match n with O => [[None]] | 1 => [[Some k]] | _ => [] end : list (list raw)).

Lemma chain1_published k n : published mk (chain1 k) n = [] ∨ published mk (chain1 k) n = [EonStarted 0 0 0] ∨
  published mk (chain1 k) n = [EonStarted 0 0 0; EonEvent k (mkEv 1 0%N tt)].
Proof.
  destruct n as [|[|n]]; [by left|right; by left|right; right].
  induction n as [|n IH]; [done|]. cbn [published]. cbn [published] in IH. rewrite IH. done.
Qed.
Lemma chain1_wf k n : well_formed (published mk (chain1 k) n).
Proof.
  destruct (chain1_published k n) as [->|[->| ->]]; intros before ev after E.
  - by destruct before.
  - destruct before as [|? [|? ?]]; [|done|done]. injection E as <- <-. intros h m b. by intros ?%elem_of_nil.
  - destruct before as [|? [|? [|? ?]]]; [..|done|done].
    + injection E as <- <-. intros h m b. by intros ?%elem_of_nil.
    + by injection E as <- <- <-.
Qed.
Lemma chain1_heights : heights_ok mk.
Proof. intros r h k e. destruct r; [|done]. by intros [= <- <-]. Qed.

Notation runs ch evs := (foldl (λ r e, match r with
  | Some (y, o) => match sync_step mk ch y e with Some (y', o') => Some (y', o ++ o') | None => None end
  | None => None end) (Some (boot None, [])) evs).
Lemma runs_history ch evs y o : runs ch evs = Some (y, o) → history mk ch y evs o.
Proof.
  revert y o. induction evs as [|e evs IH] using rev_ind; intros y o; cbn [foldl].
  - intros [= <- <-]. constructor.
  - rewrite foldl_app. cbn [foldl]. destruct (runs ch evs) as [[y1 o1]|] eqn:E1; [|done].
    destruct (sync_step mk ch y1 e) as [[y2 o2]|] eqn:E2; [|done]. intros [= <- <-].
    econstructor; [by apply IH|exact E2].
Qed.
(** the trace used: decide at block 0, then block 1 arrives while a node is not in sync, the batch index grows, the filter
    is applied, then the node is in sync again *)
Definition skip_trace : list sync_event :=
  [GSync 9 9 0 true; MMain true 0; MShutter true 0; MMain true 0; GFilter;
   GSync 9 9 1 false; MShutter true 2; GFilter; GSync 9 9 2 true; MShutter true 2].
(** the same with a crash before the first decision *)
Definition restart_trace : list sync_event :=
  [GSync 9 9 2 false; MMain true 0; MShutter true 0; MMain true 0; Crash;
   GSync 9 9 3 true; MMain true 0; MShutter true 0; MMain true 0].

(** Both cases excluded above lose events: a key share that arrives while decisions are skipped, and DKG
    events that were observed before a restart without any decision. *)
Theorem C45_refuted :
  (∃ y o, history mk (chain1 KeyShare) y skip_trace o ∧ sync_height y = 3%Z ∧
     concat (offered KeyShare 0 <$> o) = [] ∧ of_kind KeyShare 0 (published mk (chain1 KeyShare) 3) = [mkEv 1 0%N tt]) ∧
  (∃ y o, history mk (chain1 Commitment) y restart_trace o ∧ sync_height y = 4%Z ∧
     concat (offered Commitment 0 <$> o) = [] ∧ of_kind Commitment 0 (published mk (chain1 Commitment) 4) = [mkEv 1 0%N tt]).
Proof.
  split.
  - destruct (runs (chain1 KeyShare) skip_trace) as [[y o]|] eqn:E; [|by vm_compute in E].
    exists y, o. split; [by apply runs_history|]. vm_compute in E. injection E as <- <-. vm_compute. done.
  - destruct (runs (chain1 Commitment) restart_trace) as [[y o]|] eqn:E; [|by vm_compute in E].
    exists y, o. split; [by apply runs_history|]. vm_compute in E. injection E as <- <-. vm_compute. done.
Qed.

(** ApplyFilter drops all epoch secret key shares, also those at or above the sync height. *)
Theorem C20_refuted : ∃ (s : shutter unit unit unit unit) e e',
  find_eon s 0 = Some e ∧ find_eon (apply_filter s 1 0) 0 = Some e' ∧
  get_events KeyShare e 5 = [mkEv 7 0%N tt] ∧ get_events KeyShare e' 5 = [].
Proof.
  exists (apply_events new_shutter [EonStarted 0 0 0; EonEvent KeyShare (mkEv 7 0%N tt)]).
  eexists _, _. split_and!; vm_compute; reflexivity.
Qed.

(** no decision skipped: the share in block 1 is offered once, also with a crash *)
Example C45_witness : ∃ y o, history mk (chain1 KeyShare) y
    [GSync 9 9 0 true; MMain true 0; MShutter true 0; MMain true 0; GFilter; GSync 9 9 1 true; MShutter true 2; GFilter; Crash;
     GSync 9 9 2 true; MShutter true 2; MMain true 2; MMain true 2] o ∧
  length o = 3 ∧ sync_height y = 3%Z ∧ concat (offered KeyShare 0 <$> o) = [mkEv 1 0%N tt].
Proof.
  match goal with |- ∃ y o, history _ _ _ ?es _ ∧ _ =>
    destruct (runs (chain1 KeyShare) es) as [[y o]|] eqn:E; [|by vm_compute in E] end.
  exists y, o. split; [by apply runs_history|]. vm_compute in E. injection E as <- <-. vm_compute. done.
Qed.
(** skipped decisions and a later crash: a commitment is offered once *)
Example C45_dkg_witness : ∃ y o, history mk (chain1 Commitment) y (skip_trace ++ [Crash; GSync 9 9 5 true; MShutter true 2; MMain true 2; MMain true 2]) o ∧
  length o = 3 ∧ sync_height y = 6%Z ∧ concat (offered Commitment 0 <$> o) = [mkEv 1 0%N tt].
Proof.
  match goal with |- ∃ y o, history _ _ _ ?es _ ∧ _ =>
    destruct (runs (chain1 Commitment) es) as [[y o]|] eqn:E; [|by vm_compute in E] end.
  exists y, o. split; [by apply runs_history|]. vm_compute in E. injection E as <- <-. vm_compute. done.
Qed.
(** three pages in the first of two windows *)
Example C46_witness : ∃ s', sync_to_height mk (λ n : nat, match n with O => [[None]] | 3 => replicate 250 [Some PolyEval] | 600 => [[Some Apology]] | _ => [] end)
    9 9 (new_shutter : shutter unit unit unit unit) 700 true = Some s' ∧
  (length ∘ poly_evals) <$> eons s' = [250] ∧ (length ∘ apologies) <$> eons s' = [1] ∧ current_block s' = 700%Z.
Proof. eexists. split_and!; vm_compute; reflexivity. Qed.
Example C21_witness : let s : shutter unit unit unit unit :=
    apply_filter (apply_events new_shutter [EonStarted 1 3 0; EonStarted 2 5 10; EonEvent Apology (mkEv 2 3%N tt); EonStarted 3 4 0; EonStarted 9 7 4]) 2 0 in
  built s ∧ eon_number <$> eons s = [3; 5; 7]%N ∧ eon_number <$> find_eon s 5 = Some 5%N ∧ find_eon s 4 = None ∧
  eon_number <$> find_eon_by_batch_index s 3 = Some 3%N ∧ eon_number <$> find_eon_by_batch_index s 10 = Some 7%N.
Proof.
  cbn zeta. split; [apply built_filter; unfold apply_events; cbn [foldl]; repeat apply built_event; constructor|]. vm_compute. done.
Qed.

(** Proofs about SyncModel.v: the decisions are given every published event once. *)
From stdpp Require Import list gmap sorting.
From Coq Require Import ZArith NArith Lia.
From Verif Require Import ObserveModel ObserveProofs SyncModel.

Section Fetch.
Context {B D K G R : Type} (make_event : R → Z → option (shutter_event B D K G)) (chain : nat → list (list R)).
Notation shutter := (shutter B D K G).
Notation apply_txs := (foldl (apply_tx_events make_event)).
Implicit Types (s : shutter).
Local Arguments Nat.mul : simpl never.
Local Arguments Nat.leb : simpl never.

(** whatever the fuel: a result is the right result *)
Lemma fetch_pages_some fuel s0 s a b page total first last_window s' fl :
  let T := txs_between chain a b in
  1 ≤ page → s = apply_txs s0 (take ((page - 1) * 100) T) → (first = true → page = 1) →
  fetch_pages make_event chain fuel s a b page total first last_window = Some (s', fl) →
  s' = apply_txs s0 T ∧ (fl = true → last_window = true).
Proof.
  intros T. revert s page total first. induction fuel as [|fuel IH]; intros s page total first Hp Hs Hfirst; [done|].
  cbn [fetch_pages]. unfold tx_search. fold T. cbn beta iota zeta.
  destruct (first && (length T =? 0) && last_window)%bool eqn:Eb.
  - apply andb_true_iff in Eb as [Eb1 Eb2]. apply andb_true_iff in Eb1 as [Ef El]. apply Nat.eqb_eq in El.
    apply nil_length_inv in El. rewrite El in *. rewrite take_nil in Hs. subst s. by intros [= <- <-].
  - assert (apply_txs s (take 100 (drop ((page - 1) * 100) T)) = apply_txs s0 (take (page * 100) T)) as ->.
    { rewrite Hs, <-foldl_app. f_equal. rewrite take_drop_commute.
      replace ((page - 1) * 100 + 100) with (page * 100) by lia.
      pose proof (take_drop ((page - 1) * 100) (take (page * 100) T)) as Et.
      rewrite take_take, Nat.min_l in Et by lia. exact Et. }
    destruct (Nat.leb_spec (length T) (page * 100)) as [Hle|Hgt].
    + rewrite (take_ge T) by done. match goal with |- context [if ?b then _ else _] => destruct b end; [|discriminate]. by intros [= <- <-].
    + apply IH; [lia| |done]. by replace (page + 1 - 1) with page by lia.
Qed.
Lemma fetch_windows_some fuel pf s cur target first s' :
  (-1 ≤ cur)%Z → (cur ≤ target)%Z →
  fetch_windows make_event chain fuel pf s cur target first = Some s' →
  s' = apply_txs s (txs_between chain (cur + 1) target).
Proof.
  revert s cur first. induction fuel as [|fuel IH]; intros s cur first Hc Ht; [done|].
  cbn [fetch_windows]. set (height := Z.min (cur + 500) target).
  destruct (fetch_pages _ _ _ _ _ _ _ _ _ _) as [[s1 fl]|] eqn:E; [|done].
  apply (fetch_pages_some _ s) in E as [-> Hfl]; [|lia|done|done].
  assert (txs_between chain (cur + 1) target = txs_between chain (cur + 1) height ++ txs_between chain (height + 1) target) as Esplit.
  { apply txs_between_split; lia. }
  destruct fl.
  - specialize (Hfl eq_refl). apply Z.eqb_eq in Hfl. rewrite <-Hfl. by intros [= <-].
  - destruct (Z.eqb_spec height target) as [Eh|Eh]; [rewrite <-Eh; by intros [= <-]|].
    intros H. apply IH in H; [|lia|lia]. rewrite Esplit, foldl_app. done.
Qed.

(** fetching applies exactly the published events of the new blocks *)
Lemma omap_app' {X Y : Type} (f : X → option Y) l1 l2 : omap f (l1 ++ l2) = omap f l1 ++ omap f l2.
Proof. induction l1 as [|x l1 IH]; cbn; [done|]. destruct (f x); cbn; by rewrite IH. Qed.
Lemma apply_block s h : apply_txs s (block_txs chain h) = apply_events s (omap (λ r, make_event r (Z.of_nat h)) (concat (chain h))).
Proof.
  unfold block_txs. generalize (chain h). intros l. revert s. induction l as [|t l IH]; intros s; [done|].
  cbn [fmap list_fmap foldl concat]. rewrite IH. unfold apply_tx_events, apply_events; cbn [fst snd].
  rewrite <-foldl_app, <-omap_app'. done.
Qed.
Lemma apply_blocks s c m : ∃ evs,
  published make_event chain (c + m) = published make_event chain c ++ evs ∧
  mjoin ((λ i, block_txs chain (c + i)) <$> seq 0 m) = mjoin ((λ i, block_txs chain (c + i)) <$> seq 0 m) ∧
  apply_txs s (mjoin ((λ i, block_txs chain (c + i)) <$> seq 0 m)) = apply_events s evs.
Proof.
  induction m as [|m (evs & E1 & _ & E2)].
  - exists []. rewrite Nat.add_0_r, app_nil_r. done.
  - rewrite Nat.add_succ_r. cbn [published]. exists (evs ++ omap (λ r, make_event r (Z.of_nat (c + m))) (concat (chain (c + m)))).
    split_and!; [by rewrite E1, (assoc_L (++))|done|].
    replace (S m) with (m + 1) by lia. rewrite join_seq_app, foldl_app, E2.
    unfold apply_events at 2. rewrite foldl_app. fold (apply_events s evs).
    cbn [Nat.add seq fmap list_fmap mjoin list_join]. rewrite app_nil_r. apply apply_block.
Qed.
Lemma sync_to_height_some fuel pf s target synced s' :
  (-1 ≤ current_block s)%Z → sync_to_height make_event chain fuel pf s target synced = Some s' →
  (current_block s ≤ target)%Z ∧ current_block s' = target ∧ node_synced s' = synced ∧
  ∃ evs, published make_event chain (Z.to_nat (target + 1)) = published make_event chain (Z.to_nat (current_block s + 1)) ++ evs ∧
         eons s' = eons (apply_events s evs) ∧ configs s' = configs (apply_events s evs) ∧ enc_keys s' = enc_keys (apply_events s evs).
Proof.
  intros Hc. unfold sync_to_height, fetch_and_apply. destruct (Z.ltb_spec target (current_block s)); [done|].
  destruct (fetch_windows _ _ _ _ _ _ _ _) as [s1|] eqn:E; [|done]. intros [= <-]. cbn.
  apply fetch_windows_some in E; [|done|done].
  destruct (apply_blocks s (Z.to_nat (current_block s + 1)) (Z.to_nat (target - current_block s))) as (evs & E1 & _ & E2).
  split_and!; [done|done|done|]. exists evs. split.
  - rewrite <-E1. f_equal. lia.
  - rewrite E. unfold txs_between. replace (target - (current_block s + 1) + 1)%Z with (target - current_block s)%Z by lia.
    rewrite E2. done.
Qed.
End Fetch.

Section Repr.
Context {B D K G : Type}.
Notation shutter := (shutter B D K G).
Notation eon := (eon B).
Notation event := (shutter_event B D K G).
Notation sorted_heights := (StronglySorted (λ x y : eon_event B, (ev_height x ≤ ev_height y)%Z)).
Implicit Types (s : shutter) (evs : list event) (e : eon).

Definition starts evs : list N := omap (λ ev, match ev with EonStarted _ n _ => Some n | _ => None end) evs.
(** number, height and batch index of the eons; the batch configs; the encryption keys *)
Definition eon_infos evs : list (N * Z * N) := omap (λ ev, match ev with EonStarted h n b => Some (n, h, b) | _ => None end) evs.
Definition eon_info e : N * Z * N := (eon_number e, start_height e, start_batch e).
Definition config_list evs : list D := omap (λ ev, match ev with BatchConfig c => Some c | _ => None end) evs.
Definition key_map evs : gmap N K := foldl (λ m ev, match ev with CheckIn a k => <[a := k]> m | _ => m end) ∅ evs.
Lemma starts_elem evs n : n ∈ starts evs ↔ ∃ h b, EonStarted h n b ∈ evs.
Proof.
  unfold starts. rewrite elem_of_list_omap. split.
  - intros ([] & Hin & E); try done. injection E as ->. eauto.
  - intros (h & b & Hin). eauto.
Qed.
Lemma well_formed_app evs evs' : well_formed (evs ++ evs') → well_formed evs.
Proof.
  intros H before ev after E. specialize (H before ev (after ++ evs')). apply H. by rewrite E, <-(assoc_L (++)).
Qed.
Lemma published_for_app k n evs evs' : published_for k n (evs ++ evs') = published_for k n evs ++ published_for k n evs'.
Proof. unfold published_for. apply omap_app'. Qed.
Lemma published_for_elem k n evs x : x ∈ published_for k n evs → EonEvent k x ∈ evs ∧ ev_eon x = n.
Proof.
  unfold published_for. rewrite elem_of_list_omap. intros ([| | | |k' e] & Hin & E); try done.
  destruct (bool_decide (k = k')) eqn:Ek; [|done]. cbn in E. destruct (N.eqb_spec (ev_eon e) n); [|done].
  injection E as ->. apply bool_decide_eq_true in Ek. by subst.
Qed.
Lemma after_start_suffix n evs : ∃ l, evs = l ++ after_start n evs.
Proof.
  induction evs as [|ev evs [l E]]; [by exists []|]. destruct ev as [| | |h m b|]; cbn [after_start]; [| | |destruct (m =? n)%N|].
  1-3,5-6: eexists (_ :: l); cbn; by f_equal. by eexists [_].
Qed.
Lemma after_start_app_in n evs evs' : n ∈ starts evs → after_start n (evs ++ evs') = after_start n evs ++ evs'.
Proof.
  induction evs as [|ev evs IH]; [by intros ?%elem_of_nil|]. intros Hn. destruct ev as [| | |h m b|]; cbn [app after_start]; try by apply IH.
  destruct (N.eqb_spec m n) as [|Hne]; [done|]. apply IH. unfold starts in Hn. cbn in Hn. apply elem_of_cons in Hn as [->|]; done.
Qed.
Lemma after_start_app_notin n evs evs' : n ∉ starts evs → after_start n (evs ++ evs') = after_start n evs'.
Proof.
  induction evs as [|ev evs IH]; [done|]. intros Hn. destruct ev as [| | |h m b|]; cbn [app after_start]; try by apply IH.
  unfold starts in Hn. cbn in Hn. apply not_elem_of_cons in Hn as [Hne Hn]. rewrite (proj2 (N.eqb_neq m n)) by congruence. by apply IH.
Qed.
Lemma of_kind_started k n evs evs' : n ∈ starts evs → of_kind k n (evs ++ evs') = of_kind k n evs ++ published_for k n evs'.
Proof. intros Hn. unfold of_kind. by rewrite after_start_app_in, published_for_app. Qed.
Lemma of_kind_unstarted k n evs : n ∉ starts evs → of_kind k n evs = [].
Proof. intros Hn. unfold of_kind. rewrite <-(app_nil_r evs), after_start_app_notin by done. done. Qed.
Lemma of_kind_elem k n evs x : x ∈ of_kind k n evs → EonEvent k x ∈ evs ∧ ev_eon x = n.
Proof.
  intros [Hx Hn]%published_for_elem. split; [|done]. destruct (after_start_suffix n evs) as [l ->]. apply elem_of_app. by right.
Qed.
Lemma of_kind_app k n evs evs' : ∃ l, of_kind k n (evs ++ evs') = of_kind k n evs ++ l ∧ ∀ x, x ∈ l → EonEvent k x ∈ evs'.
Proof.
  destruct (decide (n ∈ starts evs)) as [Hn|Hn].
  - exists (published_for k n evs'). split; [by apply of_kind_started|]. by intros x [? _]%published_for_elem.
  - exists (of_kind k n evs'). split; [|by intros x [? _]%of_kind_elem]. rewrite (of_kind_unstarted k n evs Hn). unfold of_kind.
    by rewrite after_start_app_notin.
Qed.
Lemma of_kind_other k n evs (ev : event) : (∀ k' (x : eon_event B), ev ≠ EonEvent k' x) → of_kind k n (evs ++ [ev]) = of_kind k n evs.
Proof.
  intros Hne. destruct (of_kind_app k n evs [ev]) as (l & -> & Hl). destruct l as [|x l]; [by rewrite app_nil_r|].
  specialize (Hl x (elem_of_list_here _ _)). apply elem_of_list_singleton in Hl. by destruct (Hne k x).
Qed.
Lemma starts_sorted evs : well_formed evs → StronglySorted N.lt (starts evs).
Proof.
  induction evs as [|ev evs IH] using rev_ind; intros Hw; [constructor|].
  unfold starts. rewrite omap_app'. fold (starts evs). specialize (IH (well_formed_app _ _ Hw)).
  specialize (Hw evs ev [] eq_refl). destruct ev; cbn; rewrite ?app_nil_r; try done.
  apply snoc_sorted; [done|]. intros x Hx. apply starts_elem in Hx as (h & b & Hin). by eapply Hw.
Qed.

(** [s] shows what [evs] published: all eons, and of each kind in [ks] the events from height [h] on; no
    event is above [top] *)
Record repr (ks : kind → Prop) s evs (h top : Z) : Prop := {
  r_nums : eon_number <$> eons s = starts evs;
  r_heights : ∀ e k, e ∈ eons s → sorted_heights (events_of k e) ∧ Forall (λ x, (ev_height x ≤ top)%Z) (events_of k e);
  r_since : ∀ e k, e ∈ eons s → ks k → since h (events_of k e) = since h (of_kind k (eon_number e) evs);
  r_infos : eon_info <$> eons s = eon_infos evs;
  r_configs : configs s = config_list evs;
  r_keys : enc_keys s = key_map evs;
  r_from : ∀ e k x, e ∈ eons s → x ∈ events_of k e → x ∈ of_kind k (eon_number e) evs
}.
Lemma repr_sorted ks s evs h top : well_formed evs → repr ks s evs h top →
  StronglySorted (λ x y : eon, (eon_number x < eon_number y)%N) (eons s).
Proof. intros Hw Hr. apply sorted_eons_numbers. rewrite (r_nums _ _ _ _ _ Hr). by apply starts_sorted. Qed.
Lemma repr_top ks s evs h top top' : (top ≤ top')%Z → repr ks s evs h top → repr ks s evs h top'.
Proof.
  intros Ht [H1 H2 H3 H4 H5 H6 H7]. split; [done| |done..]. intros e k He. destruct (H2 e k He) as [? HF]. split; [done|].
  eapply Forall_impl; [exact HF|]. cbn. intros. lia.
Qed.
Lemma repr_later ks s evs h h' top : (h ≤ h')%Z → repr ks s evs h top → repr ks s evs h' top.
Proof.
  intros Hh [H1 H2 H3 H4 H5 H6 H7]. split; [done|done| |done..]. intros e k He Hk.
  rewrite <-(since_since h h') by done. rewrite (H3 e k He Hk). by apply since_since.
Qed.
Lemma sorted_snoc (l : list (eon_event B)) x : sorted_heights l → Forall (λ y, (ev_height y ≤ ev_height x)%Z) l → sorted_heights (l ++ [x]).
Proof.
  induction 1 as [|y l HS IH HF]; intros Ha; cbn; constructor.
  - constructor.
  - constructor.
  - apply Forall_cons in Ha as [_ Ha]. by apply IH.
  - apply Forall_cons in Ha as [Hy _]. apply Forall_app. split; [done|]. by apply Forall_singleton.
Qed.
Definition height_ok (top : Z) (ev : event) : Prop := match ev with EonEvent _ x => (ev_height x = top)%Z | _ => True end.

Lemma repr_event ks s evs h top ev : well_formed (evs ++ [ev]) → height_ok top ev →
  repr ks s evs h top → repr ks (apply_event s ev) (evs ++ [ev]) h top.
Proof.
  intros Hw Ht Hr. pose proof (repr_sorted _ _ _ _ _ (well_formed_app _ _ Hw) Hr) as HS.
  pose proof (Hw evs ev [] eq_refl) as Hev.
  pose proof Hr as [H1 H2 H3 H4 H5 H6 H7].
  assert (∀ s', eons s' = eons s → starts [ev] = [] → eon_infos [ev] = [] → (∀ e k, e ∈ eons s → of_kind k (eon_number e) (evs ++ [ev]) = of_kind k (eon_number e) evs) →
    configs s' = config_list (evs ++ [ev]) → enc_keys s' = key_map (evs ++ [ev]) → repr ks s' (evs ++ [ev]) h top) as Hsame.
  { intros s' Es Est Est' Eok Ec Ek. split; rewrite ?Es; try done.
    - unfold starts in *. by rewrite omap_app', Est, app_nil_r.
    - intros e k He Hk. rewrite Eok by done. by apply H3.
    - unfold eon_infos in *. by rewrite omap_app', Est', app_nil_r.
    - intros e k x He Hx. rewrite Eok by done. by eapply H7. }
  assert (∀ ev', configs s ++ config_list [ev'] = config_list (evs ++ [ev'])) as Hcs.
  { intros ev'. unfold config_list in *. by rewrite omap_app', H5. }
  assert (∀ ev', (∀ a k, ev' ≠ CheckIn a k) → enc_keys s = key_map (evs ++ [ev'])) as Hks.
  { intros ev' Hne. rewrite H6. unfold key_map. rewrite foldl_app. cbn. destruct ev'; try done. by destruct (Hne sender key). }
  destruct ev as [sender key|bc|b sig|hh n b|k x]; cbn [apply_event].
  1:{ apply Hsame; try done; cbn [configs enc_keys]; [intros; by apply of_kind_other|rewrite <-Hcs; cbn; by rewrite app_nil_r|].
      rewrite H6. unfold key_map. by rewrite foldl_app. }
  1-2: apply Hsame; try done; cbn [configs enc_keys]; [intros; by apply of_kind_other|rewrite <-Hcs; cbn; by rewrite ?app_nil_r|by apply Hks].
  - destruct (search_eon_spec s n HS) as (S1 & S2 & S3).
    assert (∀ e, e ∈ eons s → (eon_number e < n)%N) as Hlt.
    { intros e He. assert (eon_number e ∈ starts evs) as Hin by (rewrite <-H1; by apply elem_of_list_fmap_1).
      apply starts_elem in Hin as (h' & b' & Hin). by eapply Hev. }
    destruct (Nat.ltb_spec (search_eon s n) (length (eons s))) as [Hl|Hl].
    { exfalso. destruct (lookup_lt_is_Some_2 _ _ Hl) as [e He]. specialize (S3 _ _ (Nat.le_refl _) He).
      specialize (Hlt e (elem_of_list_lookup_2 _ _ _ He)). lia. }
    split; cbn [with_eons eons].
    + unfold starts. rewrite fmap_app, omap_app', H1. done.
    + intros e k [He|He%elem_of_list_singleton]%elem_of_app; [by apply H2|]. subst e. destruct k; cbn; split; constructor.
    + intros e k [He|He%elem_of_list_singleton]%elem_of_app Hk; rewrite of_kind_other by done.
      * by apply H3.
      * subst e. cbn [eon_number]. rewrite (of_kind_unstarted k n evs); [by destruct k|].
        intros (h' & b' & Hin)%starts_elem. specialize (Hev _ _ _ Hin). lia.
    + unfold eon_infos. rewrite fmap_app, omap_app', H4. done.
    + rewrite <-Hcs. cbn. by rewrite app_nil_r.
    + by apply Hks.
    + intros e k x [He|He%elem_of_list_singleton]%elem_of_app Hx; rewrite of_kind_other by done; [by eapply H7|].
      subst e. destruct k; by apply elem_of_nil in Hx.
  - cbn [height_ok] in Ht.
    assert (∀ e, e ∈ eons s → eon_number e ∈ starts evs) as Hins by (intros; rewrite <-H1; by apply elem_of_list_fmap_1).
    destruct (find_eon_index s (ev_eon x)) as [i|] eqn:Efi.
    2:{ apply Hsame; try done; [|rewrite <-Hcs; cbn; by rewrite app_nil_r|by apply Hks]. intros e k' He. rewrite of_kind_started by (by apply Hins). cbn.
        destruct (N.eqb_spec (ev_eon x) (eon_number e)) as [E|E]; [|by rewrite andb_false_r, app_nil_r].
        apply elem_of_list_lookup in He as (i & Hi). assert (find_eon_index s (ev_eon x) = Some i) as E2 by (apply (find_eon_index_spec s (ev_eon x) i HS); eauto).
        by rewrite Efi in E2. }
    apply find_eon_index_spec in Efi as (e0 & Hi & Hn0); [|done].
    assert (∀ e, e ∈ alter (add_event k x) i (eons s) → e = add_event k x e0 ∨ (e ∈ eons s ∧ eon_number e ≠ ev_eon x)) as Halt.
    { intros e He. apply elem_of_list_lookup in He as (j & Hj). destruct (decide (j = i)) as [->|Hne].
      - rewrite list_lookup_alter, Hi in Hj. cbn in Hj. injection Hj as <-. by left.
      - rewrite list_lookup_alter_ne in Hj by done. right. split; [by eapply elem_of_list_lookup_2|].
        intros E. destruct (Nat.lt_trichotomy i j) as [?|[?|?]]; [|done|].
        + pose proof (sorted_eons_lookup _ _ _ _ _ HS ltac:(eassumption) Hi Hj). lia.
        + pose proof (sorted_eons_lookup _ _ _ _ _ HS ltac:(eassumption) Hj Hi). lia. }
    assert (e0 ∈ eons s) as Hin0 by (by eapply elem_of_list_lookup_2).
    assert (∀ k', events_of k' (add_event k x e0) = events_of k' e0 ++ (if decide (k' = k) then [x] else [])) as Hadd.
    { intros k'. destruct k, k'; cbn; rewrite ?app_nil_r; done. }
    split; cbn [with_eons eons].
    + unfold starts. rewrite alter_numbers by (intros; apply add_event_number). rewrite omap_app', H1. cbn. by rewrite app_nil_r.
    + intros e k' He. destruct (Halt e He) as [->|[? _]]; [|by apply H2].
      rewrite Hadd. destruct (H2 e0 k' Hin0) as [Hs1 Hs2]. destruct (decide (k' = k)); [|by rewrite app_nil_r].
      split.
      * apply sorted_snoc; [done|]. by rewrite Ht.
      * apply Forall_app. split; [done|]. apply Forall_singleton. lia.
    + intros e k' He Hk. destruct (Halt e He) as [->|[He' Hne]].
      * rewrite Hadd, add_event_number, of_kind_started by (by apply Hins).
        assert (published_for k' (eon_number e0) [EonEvent k x : event] = if decide (k' = k) then [x] else []) as ->.
        { cbn. rewrite Hn0, N.eqb_refl, andb_true_r. unfold bool_decide. destruct (decide_rel _ _ _), (decide _); done. }
        rewrite !since_app. f_equal. by apply H3.
      * rewrite of_kind_started by (by apply Hins). assert (published_for k' (eon_number e) [EonEvent k x : event] = []) as ->.
        { cbn. destruct (N.eqb_spec (ev_eon x) (eon_number e)) as [E|E]; [by rewrite E in Hne|]. by rewrite andb_false_r. }
        rewrite app_nil_r. by apply H3.
    + unfold eon_infos in H4 |- *. rewrite omap_app', <-H4. cbn. rewrite app_nil_r. clear. revert i.
      induction (eons s) as [|e l IH]; intros [|i]; [done|done| |]; cbn; f_equal; [|apply IH]. by destruct k.
    + rewrite <-Hcs. cbn. by rewrite app_nil_r.
    + by apply Hks.
    + intros e k' z He Hz. destruct (Halt e He) as [->|[He' Hne]]; [|rewrite of_kind_started by (by apply Hins); apply elem_of_app; left; by eapply H7].
      rewrite Hadd in Hz. rewrite add_event_number, of_kind_started by (by apply Hins). apply elem_of_app. apply elem_of_app in Hz as [Hz|Hz]; [left; by eapply H7|]. right.
      destruct (decide (k' = k)) as [->|]; [|by apply elem_of_nil in Hz]. apply elem_of_list_singleton in Hz as ->. cbn.
      rewrite Hn0, N.eqb_refl. rewrite bool_decide_eq_true_2 by done. apply elem_of_list_singleton. done.
Qed.
Lemma repr_eons ks s s' evs h top : eons s' = eons s → configs s' = configs s → enc_keys s' = enc_keys s →
  repr ks s evs h top → repr ks s' evs h top.
Proof. intros E E' E'' [H1 H2 H3 H4 H5 H6 H7]. split; rewrite ?E, ?E', ?E''; done. Qed.
End Repr.

Section System.
Context {B D K G R : Type} (make_event : R → Z → option (shutter_event B D K G)) (chain : nat → list (list R)).
Notation shutter := (shutter B D K G).
Notation system := (system B D K G).
Notation P := (published make_event chain).
Notation step := (sync_step make_event chain).
Notation history := (history make_event chain).
Implicit Types (s w : shutter) (y : system) (o : list (sync_obs B D K G)).
Context (Hwf : ∀ n, well_formed (P n)) (Hho : heights_ok make_event).

Lemma published_prefix c m : ∃ evs, P (c + m) = P c ++ evs ∧
  ∀ k x, EonEvent k x ∈ evs → (Z.of_nat c ≤ ev_height x < Z.of_nat (c + m))%Z.
Proof.
  induction m as [|m (evs & E & Hh)].
  - exists []. rewrite Nat.add_0_r, app_nil_r. split; [done|]. by intros k x ?%elem_of_nil.
  - rewrite Nat.add_succ_r. cbn [published]. eexists (evs ++ _). split; [by rewrite E, <-(assoc_L (++))|].
    intros k x [Hin|Hin]%elem_of_app; [specialize (Hh _ _ Hin); lia|].
    apply elem_of_list_omap in Hin as (r & _ & Hr). apply Hho in Hr. lia.
Qed.
Lemma repr_events ks s evs evs' h top : Forall (height_ok top) evs' → well_formed (evs ++ evs') →
  repr ks s evs h top → repr ks (apply_events s evs') (evs ++ evs') h top.
Proof.
  revert s evs. induction evs' as [|ev evs' IH]; intros s evs Hh Hw Hr; [by rewrite app_nil_r|].
  apply Forall_cons in Hh as [Hh1 Hh2].
  replace (evs ++ ev :: evs') with ((evs ++ [ev]) ++ evs') in * by (by rewrite <-(assoc_L (++))).
  cbn. apply IH; [done|done|]. apply repr_event; [by eapply well_formed_app|done|done].
Qed.
Lemma repr_blocks ks s h c m evs : repr ks s (P c) h (Z.of_nat c - 1) → P (c + m) = P c ++ evs →
  repr ks (apply_events s evs) (P (c + m)) h (Z.of_nat (c + m) - 1).
Proof.
  intros Hr. revert evs. induction m as [|m IH]; intros evs E.
  - rewrite Nat.add_0_r in E |- *. rewrite <-(app_nil_r (P c)) in E at 1. apply app_inv_head in E. by subst evs.
  - destruct (published_prefix c m) as (evs0 & E0 & _). specialize (IH evs0 E0).
    rewrite Nat.add_succ_r in E |- *. cbn [published] in E |- *. rewrite E0, <-(assoc_L (++)) in E. apply app_inv_head in E. subst evs.
    unfold apply_events. rewrite foldl_app. fold (apply_events s evs0).
    apply repr_events; [|apply (Hwf (S (c + m)))|].
    + apply Forall_forall. intros ev Hin. apply elem_of_list_omap in Hin as (r & _ & Hr'). destruct ev; try done.
      apply Hho in Hr'. cbn. rewrite Hr'. lia.
    + eapply repr_top; [|exact IH]. lia.
Qed.
Lemma of_kind_split k n (c c' : nat) : c ≤ c' →
  of_kind k n (P c') = of_kind k n (P c) ++ since (Z.of_nat c) (of_kind k n (P c')).
Proof.
  intros Hc. destruct (published_prefix c (c' - c)) as (evs & E & Hh). replace (c + (c' - c)) with c' in * by lia.
  destruct (published_prefix 0 c) as (evs0 & E0 & Hh0). cbn in E0. destruct (of_kind_app k n (P c) evs) as (l & El & Hl). rewrite E, El, since_app.
  rewrite (since_none _ (of_kind k n (P c))).
  - cbn. rewrite since_all; [done|]. intros x Hx%Hl. specialize (Hh _ _ Hx). lia.
  - intros x Hx. apply of_kind_elem in Hx as [Hx _]. rewrite E0 in Hx. specialize (Hh0 _ _ Hx). lia.
Qed.

(** the blocks a shutter state has seen *)
Definition seen_blocks s : nat := Z.to_nat (current_block s + 1).
Definition good (ks : kind → Prop) (h : Z) s : Prop :=
  (-1 ≤ current_block s)%Z ∧ (h ≤ current_block s + 1)%Z ∧ repr ks s (P (seen_blocks s)) h (current_block s).

Lemma good_new ks : good ks 0 new_shutter.
Proof.
  split; [done|]. split; [done|]. split; [done|..|done|done|done|]; cbn; [intros e k He; by apply elem_of_nil in He..|intros e k x He; by apply elem_of_nil in He].
Qed.
Lemma good_later ks h h' s : (h ≤ h')%Z → (h' ≤ current_block s + 1)%Z → good ks h s → good ks h' s.
Proof. intros H1 H2 (G1 & G2 & G3). split_and!; [done|done|]. by eapply repr_later. Qed.
Lemma good_sync ks h s fuel pf target synced s' :
  good ks h s → sync_to_height make_event chain fuel pf s target synced = Some s' →
  good ks h s' ∧ (current_block s ≤ current_block s')%Z ∧ node_synced s' = synced.
Proof.
  intros (G1 & G2 & G3) Hs. apply sync_to_height_some in Hs as (Hle & Hc & Hn & evs & Ep & Ee & Ec & Ek); [|done].
  split; [|split; [lia|done]]. unfold good. rewrite Hc. split_and!; [lia|lia|].
  eapply repr_eons; [exact Ee|exact Ec|exact Ek|]. unfold seen_blocks in *. rewrite Hc.
  pose proof (repr_blocks ks s h (Z.to_nat (current_block s + 1)) (Z.to_nat (target - current_block s)) evs) as H.
  replace (Z.to_nat (current_block s + 1) + Z.to_nat (target - current_block s)) with (Z.to_nat (target + 1)) in H by lia.
  eapply repr_top; [|apply H]; [lia| |done]. eapply repr_top; [|exact G3]. lia.
Qed.
Lemma good_filter (ks : kind → Prop) h s f b : (f ≤ h)%Z → (ks KeyShare → h = current_block s + 1)%Z →
  good ks h s → good ks h (apply_filter s f b).
Proof.
  intros Hf Hks (G1 & G2 & G3). unfold apply_filter. destruct (_ || _)%bool; [|done].
  split; [done|]. split; [done|]. unfold seen_blocks in *. cbn [current_block] in *.
  destruct G3 as [H1 H2 H3 H4 H5 H6 H7].
  assert (∀ k e, e ∈ eons s → k ≠ KeyShare → events_of k (eon_apply_filter e f) = since f (events_of k e)) as Hev.
  { intros k e He Hk. rewrite <-from_height_spec by (by apply H2). by destruct k. }
  split; cbn [eons configs enc_keys].
  - rewrite <-H1, <-list_fmap_compose. by apply list_fmap_ext; intros ? x ?.
  - intros e' k (e & -> & He)%elem_of_list_fmap. destruct (decide (k = KeyShare)) as [->|Hk].
    + cbn. split; constructor.
    + rewrite Hev by done. destruct (H2 e k He) as [S1 S2]. split; [by apply since_sorted|].
      rewrite Forall_forall in S2 |- *. intros x [_ Hx]%elem_of_list_filter. by apply S2.
  - intros e' k (e & -> & He)%elem_of_list_fmap Hk. change (eon_number (eon_apply_filter e f)) with (eon_number e).
    destruct (decide (k = KeyShare)) as [->|Hne].
    + cbn [events_of eon_apply_filter key_shares]. symmetry. apply since_none. intros x Hx.
      rewrite (Hks Hk). apply of_kind_elem in Hx as [Hx _].
      destruct (published_prefix 0 (Z.to_nat (current_block s + 1))) as (evs & E & Hh). cbn in E. rewrite E in Hx. specialize (Hh _ _ Hx). lia.
    + rewrite Hev by done. rewrite since_since by done. by apply H3.
  - rewrite <-H4, <-list_fmap_compose. by apply list_fmap_ext; intros ? x ?.
  - done.
  - done.
  - intros e' k x (e & -> & He)%elem_of_list_fmap Hx. change (eon_number (eon_apply_filter e f)) with (eon_number e).
    destruct (decide (k = KeyShare)) as [->|Hne]; [by apply elem_of_nil in Hx|]. rewrite Hev in Hx by done.
    apply elem_of_list_filter in Hx as [_ Hx]. by eapply H7.
Qed.
Lemma good_offered ks h w k n : good ks h w → ks k →
  offered k n (ODecide h w) = since h (of_kind k n (P (seen_blocks w))).
Proof.
  intros (G1 & G2 & G3) Hk. pose proof (repr_sorted _ _ _ _ _ (Hwf _) G3) as HS. destruct G3 as [H1 H2 H3 _ _ _ _]. cbn [offered].
  destruct (find_eon w n) as [e|] eqn:E.
  - apply find_eon_spec in E as [He Hn]; [|done]. unfold get_events. rewrite from_height_spec by (by apply H2).
    rewrite (H3 e k He Hk). by rewrite Hn.
  - rewrite of_kind_unstarted; [done|]. rewrite <-H1. intros (e & -> & He)%elem_of_list_fmap.
    assert (find_eon w (eon_number e) = Some e) as E' by (by apply find_eon_spec). by rewrite E in E'.
Qed.

(** a decision is never skipped *)
Definition no_skip (e : sync_event) : Prop :=
  match e with
  | GSync _ _ _ synced => synced = true
  | MShutter ok _ | MMain ok _ => ok = true
  | GFilter | Crash => True
  end.
Record share_inv y : Prop := {
  j_nodes : node_synced (g_shutter y) = true ∧ node_synced (world y) = true ∧
            (∀ s, g_out y = Some s → node_synced s = true) ∧ (∀ s, have_shutter y = Some s → node_synced s = true) ∧
            (∀ h s, disk y = Some (h, s) → node_synced s = true ∧ h = (current_block s + 1)%Z);
  j_filters : filters y ≠ [] → sync_height y = (current_block (g_shutter y) + 1)%Z;
  j_once : looping y = false → filters y = [];
  j_world : looping y = true → current_block (world y) = current_block (g_shutter y);
  j_have : ∀ w, have_shutter y = Some w → current_block w = current_block (g_shutter y)
}.
Record inv (ks : kind → Prop) y o : Prop := {
  i_pos : (0 ≤ sync_height y)%Z;
  i_g : good ks (sync_height y) (g_shutter y);
  i_out : ∀ s, g_out y = Some s → good ks (sync_height y) s ∧ (current_block (g_shutter y) ≤ current_block s)%Z;
  i_world : good ks (sync_height y) (world y);
  i_have : ∀ s, have_shutter y = Some s → good ks (sync_height y) s;
  i_filters : Forall (λ f, (f.1 ≤ sync_height y)%Z) (filters y);
  i_disk : match disk y with
           | None => sync_height y = 0%Z
           | Some (h, w) => h = sync_height y ∧ good ks h w
           end;
  i_seen : ∀ k n, ks k → concat (offered k n <$> o) = of_kind k n (P (Z.to_nat (sync_height y)));
  i_worldcur : looping y = true → (current_block (world y) ≤ current_block (g_shutter y))%Z;
  i_have_cur : ∀ s, have_shutter y = Some s → (current_block s ≤ current_block (g_shutter y))%Z;
  i_share : ks KeyShare → share_inv y
}.

Lemma inv_run ks y o w g out ok half y' o' :
  inv ks y o → good ks (sync_height y) w → good ks (sync_height y) g → (current_block w ≤ current_block g)%Z →
  (∀ s, out = Some s → good ks (sync_height y) s ∧ (current_block g ≤ current_block s)%Z) →
  (ks KeyShare → share_inv y ∧ ok = true ∧ node_synced w = true ∧ node_synced g = true ∧ (∀ s, out = Some s → node_synced s = true) ∧
                 current_block w = current_block g) →
  run_one_step y w g out ok half = (y', o') → inv ks y' (o ++ o').
Proof.
  intros [H1 H2 H3 H4 H5 H6 H7 H8 H9 H10 H11] Hw Hg Hle Hout Hks.
  set (h := if (node_synced w && ok)%bool then (current_block w + 1)%Z else sync_height y).
  assert (sync_height y ≤ h ≤ current_block w + 1)%Z as Hh.
  { destruct Hw as (? & ? & _). unfold h. destruct (_ && _)%bool; lia. }
  intros E. unfold run_one_step in E. fold h in E. injection E as <- <-.
  split; cbn [g_shutter g_out filters looping have_main have_shutter world sync_height disk].
  - lia.
  - eapply good_later; [| |exact Hg]; lia.
  - intros s Hs. destruct (Hout s Hs) as [Hs1 Hs2]. split; [|done]. eapply good_later; [| |exact Hs1]; lia.
  - eapply good_later; [| |exact Hw]; lia.
  - intros s [= <-]. eapply good_later; [| |exact Hw]; lia.
  - assert (Forall (λ f : Z * N, (f.1 ≤ h)%Z) (filters y)) as HF.
    { eapply Forall_impl; [exact H6|]. cbn. intros. lia. }
    destruct (_ <? _); [|done]. apply Forall_app. split; [done|]. apply Forall_singleton. cbn. lia.
  - split; [done|]. eapply good_later; [| |exact Hw]; lia.
  - intros k n Hk. rewrite fmap_app, concat_app. rewrite (H8 k n Hk).
    destruct (node_synced w && ok)%bool eqn:Ego.
    + cbn [fmap list_fmap concat]. rewrite app_nil_r. rewrite (good_offered ks) by done. unfold h, seen_blocks. rewrite ?Ego.
      pose proof (of_kind_split k n (Z.to_nat (sync_height y)) (Z.to_nat (current_block w + 1)) ltac:(lia)) as Esp.
      rewrite Z2Nat.id in Esp by done. symmetry. exact Esp.
    + cbn. unfold h. by rewrite ?Ego, app_nil_r.
  - done.
  - by intros s [= <-].
  - intros Hsh. destruct (Hks Hsh) as (Hj & -> & Hn1 & Hn2 & Hn3 & Hcur).
    assert (h = (current_block w + 1)%Z) as Eh by (unfold h; by rewrite Hn1).
    split; cbn [g_shutter g_out filters looping have_main have_shutter world sync_height disk].
    + split_and!; [done|done|done| |].
      * by intros s [= <-].
      * intros h' s [= <- <-]. done.
    + intros _. lia.
    + done.
    + done.
    + by intros s [= <-].
Qed.

Lemma inv_step ks y o e y' o' : inv ks y o → (ks KeyShare → no_skip e) →
  (e = Crash → ∀ w, disk y = Some (0%Z, w) → (current_block w ≤ 0)%Z) →
  step y e = Some (y', o') → inv ks y' (o ++ o').
Proof.
  intros Hi Hskip Hcrash. pose proof Hi as [H1 H2 H3 H4 H5 H6 H7 H8 H9 H10 H11].
  destruct e as [fuel pf target synced| |ok half|ok half|]; cbn [sync_step].
  - destruct (g_out y) as [s|] eqn:Eout; [done|].
    destruct (Z.eqb_spec target (current_block (g_shutter y))) as [Et|Et].
    + intros [= <- <-]. rewrite app_nil_r.
      split; cbn [g_shutter g_out filters looping have_main have_shutter world sync_height disk]; try done.
      * intros s [= <-]. split; [done|lia].
      * intros Hsh. destruct (H11 Hsh) as [(J1 & J2 & J3 & J4 & J5) J6 J9 J7 J8].
        split; cbn [g_shutter g_out filters looping have_main have_shutter world sync_height disk]; try done.
        split_and!; try done. by intros s [= <-].
    + destruct (sync_to_height _ _ _ _ _ _ _) as [s1|] eqn:Es; [|done]. intros [= <- <-]. rewrite app_nil_r.
      destruct (good_sync _ _ _ _ _ _ _ _ H2 Es) as (Hs1 & Hs2 & Hs3).
      split; cbn [g_shutter g_out filters looping have_main have_shutter world sync_height disk]; try done.
      * intros s [= <-]. done.
      * intros Hsh. destruct (H11 Hsh) as [(J1 & J2 & J3 & J4 & J5) J6 J9 J7 J8].
        split; cbn [g_shutter g_out filters looping have_main have_shutter world sync_height disk]; try done.
        split_and!; try done. intros s [= <-]. rewrite Hs3. by apply (Hskip Hsh).
  - destruct (g_out y) as [s|] eqn:Eout; [done|]. destruct (filters y) as [|f fs] eqn:Ef; [done|].
    intros [= <- <-]. rewrite app_nil_r. apply Forall_cons in H6 as [Hf1 Hf2].
    assert (current_block (apply_filter (g_shutter y) f.1 f.2) = current_block (g_shutter y)) as Ec.
    { unfold apply_filter. by destruct (_ || _)%bool. }
    assert (node_synced (apply_filter (g_shutter y) f.1 f.2) = node_synced (g_shutter y)) as En.
    { unfold apply_filter. by destruct (_ || _)%bool. }
    split; cbn [g_shutter g_out filters looping have_main have_shutter world sync_height disk]; rewrite ?Ec; try done.
    + apply good_filter; [done| |done]. intros Hsh. apply (j_filters _ (H11 Hsh)). by rewrite Ef.
    + intros Hsh. destruct (H11 Hsh) as [(J1 & J2 & J3 & J4 & J5) J6 J9 J7 J8].
      split; cbn [g_shutter g_out filters looping have_main have_shutter world sync_height disk]; rewrite ?Ec, ?En; try done.
      * intros _. apply J6. by rewrite Ef.
      * intros Hl. specialize (J9 Hl). by rewrite Ef in J9.
  - destruct (g_out y) as [s|] eqn:Eout; [|done]. destruct (H3 s eq_refl) as [Hs1 Hs2].
    destruct (looping y) eqn:El.
    + intros E. apply (inj Some) in E. apply (inv_run ks y o s s None ok half); [exact Hi|exact Hs1|exact Hs1|lia|done| |exact E].
      intros Hsh. destruct (H11 Hsh) as [(J1 & J2 & J3 & J4 & J5) J6 J9 J7 J8].
      split_and!; [by apply H11|by apply (Hskip Hsh)|by apply J3|by apply J3|done|done].
    + intros [= <- <-]. rewrite app_nil_r. unfold sync_once.
      assert (ks KeyShare → node_synced s = true ∧ sync_height y = sync_height y) as Hn.
      { intros Hsh. destruct (H11 Hsh) as [(J1 & J2 & J3 & J4 & J5) J6 J9 J7 J8]. split; [by apply J3|done]. }
      assert (ks KeyShare → filters y = []) as Hfn by (intros Hsh; by apply (j_once _ (H11 Hsh))).
      destruct (have_main y).
      * split; cbn [g_shutter g_out filters looping have_main have_shutter world sync_height disk]; try done.
        -- by intros s' [= <-].
        -- by intros s' [= <-].
        -- intros Hsh. destruct (H11 Hsh) as [(J1 & J2 & J3 & J4 & J5) J6 J9 J7 J8]. destruct (Hn Hsh) as [Hns _].
           split; cbn [g_shutter g_out filters looping have_main have_shutter world sync_height disk]; rewrite ?(Hfn Hsh); try done.
           ++ split_and!; try done. by intros s' [= <-].
           ++ by intros s' [= <-].
      * split; cbn [g_shutter g_out filters looping have_main have_shutter world sync_height disk]; try done.
        -- by intros s' [= <-].
        -- by intros s' [= <-].
        -- intros Hsh. destruct (H11 Hsh) as [(J1 & J2 & J3 & J4 & J5) J6 J9 J7 J8]. destruct (Hn Hsh) as [Hns _].
           split; cbn [g_shutter g_out filters looping have_main have_shutter world sync_height disk]; rewrite ?(Hfn Hsh); try done.
           ++ split_and!; try done. by intros s' [= <-].
           ++ by intros s' [= <-].
  - destruct (looping y) eqn:El.
    + intros E. apply (inj Some) in E. apply (inv_run ks y o (world y) (g_shutter y) (g_out y) ok half); [exact Hi|done|done|by apply H9|done| |exact E].
      intros Hsh. destruct (H11 Hsh) as [(J1 & J2 & J3 & J4 & J5) J6 J9 J7 J8].
      split_and!; [by apply H11|by apply (Hskip Hsh)|done|done|done|by apply J7].
    + intros [= <- <-]. rewrite app_nil_r. unfold sync_once. destruct (have_shutter y) as [w|] eqn:Eh.
      * split; cbn [g_shutter g_out filters looping have_main have_shutter world sync_height disk]; try done.
        -- by apply H5.
        -- intros _. by apply H10.
        -- intros Hsh. destruct (H11 Hsh) as [(J1 & J2 & J3 & J4 & J5) J6 J9 J7 J8].
           split; cbn [g_shutter g_out filters looping have_main have_shutter world sync_height disk]; try done.
           ++ split_and!; try done; rewrite Eh in J4; by apply J4.
           ++ intros _. rewrite Eh in J8. by apply J8.
           ++ intros w' [= <-]. rewrite Eh in J8. by apply J8.
      * split; cbn [g_shutter g_out filters looping have_main have_shutter world sync_height disk]; try done.
        intros Hsh. destruct (H11 Hsh) as [(J1 & J2 & J3 & J4 & J5) J6 J9 J7 J8].
        split; cbn [g_shutter g_out filters looping have_main have_shutter world sync_height disk]; try done.
        all: try (split_and!; done). intros _. by apply J9.
  - intros [= <- <-]. rewrite app_nil_r. unfold boot. destruct (disk y) as [[h w]|] eqn:Ed.
    + destruct H7 as [-> Hw].
      assert ((if ((sync_height y =? 0)%Z && (0 <? current_block w)%Z)%bool then current_block w else sync_height y) = sync_height y) as Efix.
      { destruct (Z.eqb_spec (sync_height y) 0) as [E0|E0]; [|done]. cbn. destruct (Z.ltb_spec 0 (current_block w)); [|done].
        specialize (Hcrash eq_refl w). rewrite E0 in Hcrash. specialize (Hcrash eq_refl). lia. }
      split; cbn [g_shutter g_out filters looping have_main have_shutter world sync_height disk]; rewrite ?Efix; try done.
      intros Hsh. destruct (H11 Hsh) as [(J1 & J2 & J3 & J4 & J5) J6 J9 J7 J8]. destruct (J5 _ _ Ed) as [Jn Jh].
      split; cbn [g_shutter g_out filters looping have_main have_shutter world sync_height disk]; rewrite ?Efix; try done.
      split_and!; try done. intros h' s' [= <- <-]. done.
    + rewrite H7 in *.
      split; cbn [g_shutter g_out filters looping have_main have_shutter world sync_height disk]; try done; try apply good_new.
Qed.

Lemma history_step_inv y es e o : history y (es ++ [e]) o →
  ∃ y0 o0 o1, history y0 es o0 ∧ step y0 e = Some (y, o1) ∧ o = o0 ++ o1.
Proof.
  intros H. remember (es ++ [e]) as l eqn:E. destruct H as [|y1 es1 o1 e1 y2 o2 Hh Hs]; [by destruct es|].
  apply app_inj_tail in E as [-> ->]. eauto 10.
Qed.
Lemma history_nil y o : history y [] o → y = boot None ∧ o = [].
Proof.
  intros H. remember [] as l eqn:E. destruct H as [|y1 es1 o1 e1 y2 o2 Hh Hs]; [done|]. by destruct es1.
Qed.
Lemma history_fun es : ∀ y o y' o', history y es o → history y' es o' → y = y' ∧ o = o'.
Proof.
  induction es as [|e es IH] using rev_ind; intros y o y' o' H H'.
  - apply history_nil in H as [-> ->]. by apply history_nil in H' as [-> ->].
  - apply history_step_inv in H as (y1 & o1 & o2 & H1 & Hs1 & ->). apply history_step_inv in H' as (y3 & o3 & o4 & H3 & Hs3 & ->).
    destruct (IH _ _ _ _ H1 H3) as [-> ->]. rewrite Hs1 in Hs3. by injection Hs3 as -> ->.
Qed.
Lemma inv_boot (ks : kind → Prop) : inv ks (boot None) [].
Proof.
  split; cbn [boot g_shutter g_out filters looping have_main have_shutter world sync_height disk]; try done; try apply good_new.
Qed.
(** the sync height grows, and is positive after a decision *)
Lemma inv_decided ks y es o : history y es o → inv ks y o → (∀ y0 es1 es2 o0, es = es1 ++ es2 → history y0 es1 o0 → inv ks y0 o0) →
  (∃ h w, ODecide h w ∈ o ∧ (0 ≤ current_block w)%Z) → (1 ≤ sync_height y)%Z ∧ ∃ w, disk y = Some (sync_height y, w).
Proof.
  intros Hh. induction Hh as [|y es o e y' o' Hh IH Hs]; intros Hi Hall; [by intros (h & w & ?%elem_of_nil & _)|].
  intros (h & w & Hin & Hw).
  assert (inv ks y o) as Hiy. { eapply Hall; [|exact Hh]. done. }
  assert (∀ w0 ok half, run_one_step y w0 (g_shutter y') (g_out y') ok half = (y', o') → (sync_height y ≤ current_block w0 + 1)%Z →
    (1 ≤ sync_height y')%Z ∧ ∃ w, disk y' = Some (sync_height y', w)) as Hrun.
  { intros w0 ok half E Hle. unfold run_one_step in E. injection E as Ey Eo. rewrite <-Ey. cbn [sync_height disk].
    split; [|eauto]. apply elem_of_app in Hin as [Hin|Hin].
    - destruct IH as [IH1 _]; [done| |by exists h, w|]. { intros y0 es1 es2 o0 E1 E2. apply (Hall y0 es1 (es2 ++ [e]) o0); [by rewrite E1, <-(assoc_L (++))|done]. }
      destruct (_ && _)%bool; lia.
    - rewrite <-Eo in Hin. destruct (_ && _)%bool; [|by apply elem_of_nil in Hin].
      apply elem_of_list_singleton in Hin. injection Hin as -> ->. lia. }
  assert (o' = [] → (1 ≤ sync_height y)%Z ∧ ∃ w, disk y = Some (sync_height y, w)) as Hnil.
  { intros ->. rewrite app_nil_r in Hin. apply IH; [done| |by exists h, w].
    intros y0 es1 es2 o0 E1 E2. apply (Hall y0 es1 (es2 ++ [e]) o0); [by rewrite E1, <-(assoc_L (++))|done]. }
  destruct e as [fuel pf target synced| |ok half|ok half|]; cbn [sync_step] in Hs.
  - destruct (g_out y); [done|]. destruct (_ =? _)%Z; [|destruct (sync_to_height _ _ _ _ _ _ _); [|done]]; injection Hs as <- <-; by apply Hnil.
  - destruct (g_out y); [done|]. destruct (filters y); [done|]. injection Hs as <- <-. by apply Hnil.
  - destruct (g_out y) as [s|] eqn:Eo; [|done]. destruct (looping y).
    + apply (inj Some) in Hs. apply (Hrun s ok half).
      * unfold run_one_step in Hs |- *. injection Hs as <- <-. done.
      * destruct (i_out _ _ _ Hiy s Eo) as [(_ & ? & _) _]. done.
    + injection Hs as <- <-. unfold sync_once. destruct (have_main y); by apply Hnil.
  - destruct (looping y).
    + apply (inj Some) in Hs. apply (Hrun (world y) ok half).
      * unfold run_one_step in Hs |- *. injection Hs as <- <-. done.
      * by destruct (i_world _ _ _ Hiy) as (_ & ? & _).
    + injection Hs as <- <-. unfold sync_once. destruct (have_shutter y); by apply Hnil.
  - injection Hs as <- <-. destruct (Hnil eq_refl) as [H1 (w' & H2)].
    rewrite H2. unfold boot. cbn [sync_height disk].
    destruct (Z.eqb_spec (sync_height y) 0) as [?|?]; [lia|]. cbn. eauto.
Qed.

(** no decision is skipped: everything is offered *)
Theorem inv_no_skip y es o : history y es o → Forall no_skip es → inv (λ _, True) y o.
Proof.
  induction 1 as [|y es o e y' o' Hh IH Hs]; intros HF; [apply inv_boot|].
  apply Forall_app in HF as [HF He]. rewrite Forall_singleton in He. specialize (IH HF).
  eapply inv_step; [exact IH|done| |exact Hs].
  intros _ w Ed. destruct (j_nodes _ (i_share _ _ _ IH I)) as (_ & _ & _ & _ & J). destruct (J _ _ Ed). lia.
Qed.
(** every crash comes after a decision: everything except key shares is offered *)
Definition crash_after_decision (es : list sync_event) : Prop :=
  ∀ es1 es2, es = es1 ++ Crash :: es2 → ∃ y o h w, history y es1 o ∧ ODecide h w ∈ o ∧ (0 ≤ current_block w)%Z.
Theorem inv_crash y es o : history y es o → crash_after_decision es → inv (λ k, k ≠ KeyShare) y o.
Proof.
  intros Hh Hc.
  assert (∀ n y0 es1 es2 o0, length es1 = n → es = es1 ++ es2 → history y0 es1 o0 → inv (λ k, k ≠ KeyShare) y0 o0) as H.
  2:{ eapply (H _ y es []); [done|by rewrite app_nil_r|done]. }
  induction n as [n IH] using lt_wf_ind. intros y0 es1 es2 o0 Hn Ees Hh1.
  destruct Hh1 as [|y1 es3 o1 e y0 o1' Hh2 Hs]; [apply inv_boot|]. subst n es.
  assert (inv (λ k, k ≠ KeyShare) y1 o1) as Hi1.
  { apply (IH (length es3)) with (es1 := es3) (es2 := [e] ++ es2); [rewrite app_length; cbn; lia|done|by rewrite <-(assoc_L (++))|done]. }
  eapply inv_step; [exact Hi1|done| |exact Hs].
  intros -> w Ed. destruct (Hc es3 es2) as (y2 & o2 & h & w2 & Hh3 & Hin & Hw2); [by rewrite <-(assoc_L (++))|].
  destruct (history_fun _ _ _ _ _ Hh2 Hh3) as [<- <-].
  destruct (inv_decided (λ k, k ≠ KeyShare) y1 es3 o1 Hh2 Hi1) as [H1 (w' & H2)]; [|by exists h, w2|].
  - intros y3 es4 es5 o3 E4 Hh4. apply (IH (length es4)) with (es1 := es4) (es2 := es5 ++ [Crash] ++ es2); [|done| |done].
    + rewrite app_length, E4, app_length. cbn. lia.
    + by rewrite E4, <-!(assoc_L (++)).
  - rewrite Ed in H2. injection H2 as E0 _. lia.
Qed.
End System.

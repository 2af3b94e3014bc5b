(** C53: voting for eon keys in the key broadcast contract. *)
From stdpp Require Import list gmap.
From Coq Require Import ZArith NArith Lia.
From Verif Require Import ArithModel ContractsModel ContractsProofs.
Local Open Scope Z_scope.

Section Votes.
Context (keccak : list N → list N) (ecrecover : list N → Z → Z → Z → option N) (addr_bytes : N → list N).
Context (batcher_address slasher_address deposit_address : N).
Notation run := (run keccak ecrecover addr_bytes batcher_address slasher_address deposit_address).
Notation steps := (steps keccak ecrecover addr_bytes batcher_address slasher_address deposit_address).
Notation deployed := (deployed slasher_address).

(** ** Specification *)
(** the (start batch, keyper, key) votes of a log *)
Definition votes (f : list effect) : list (Z * N * list N) :=
  omap (λ e, match e with FVoted a b key _ => Some (b, a, key) | _ => None end) f.
Definition count (b : Z) (h : list N) (f : list effect) : Z :=
  Z.of_nat (length (filter (λ v, v.1.1 = b ∧ keccak v.2 = h) (votes f))).
(** KeyBroadcastContract.sol:115-125 getBestKey *)
Definition best_key (s : state) (b : Z) : list N := default [] (keys s !! default zero32 (best_hash s !! b)).

Record counted (s : state) (f : list effect) : Prop := {
  c_voted : ∀ b a, (b, a) ∈ voted s ↔ (b, a) ∈ (votes f).*1;
  c_once : NoDup (votes f).*1;
  c_num : ∀ b h, votes_of s b h = count b h f;
  c_max : ∀ b h, votes_of s b h ≤ best_votes_of s b;
  c_zero : ∀ b, best_hash s !! b = None → best_votes_of s b = 0;
  c_best : ∀ b h, best_hash s !! b = Some h → votes_of s b h = best_votes_of s b ∧ ∃ key, keccak key = h ∧ b ∈ (votes f).*1.*1;
  c_keys : ∀ h key, keys s !! h = Some key → keccak key = h;
  c_has_key : ∀ v, v ∈ votes f → is_Some (keys s !! keccak v.2)
}.
Lemma votes_app f g : votes (f ++ g) = votes f ++ votes g.
Proof. apply omap_app. Qed.
Lemma counted_same s f s' g : voted s' = voted s → num_votes s' = num_votes s → keys s' = keys s → best_hash s' = best_hash s → best_votes s' = best_votes s →
  votes g = [] → counted s f → counted s' (f ++ g).
Proof.
  intros E1 E2 E3 E4 E5 Eg [H1 H2 H3 H4 H5 H6 H7 H8].
  assert (votes (f ++ g) = votes f) as Ev by (rewrite votes_app, Eg; apply app_nil_r).
  split; unfold votes_of, best_votes_of, count; rewrite ?Ev, ?E1, ?E2, ?E3, ?E4, ?E5; done.
Qed.
Definition any (a : N) (c : call) : Prop := True.
Lemma any_events l : Forall (ok_event any) l.
Proof. apply Forall_forall. by intros []. Qed.
Lemma votes_of_insert s v b0 h0 n k x y b h : votes_of (set_votes s v (<[(b0, h0) := n]> (num_votes s)) k x y) b h = if decide ((b0, h0) = (b, h)) then n else votes_of s b h.
Proof. unfold votes_of. cbn [num_votes set_votes]. destruct (decide _) as [<-|]; [by rewrite lookup_insert|by rewrite lookup_insert_ne]. Qed.
Lemma count_vote b h f a b0 key n :
  count b h (f ++ [FVoted a b0 key n]) = count b h f + (if decide ((b0, keccak key) = (b, h)) then 1 else 0).
Proof.
  unfold count. rewrite votes_app, filter_app, app_length, Nat2Z.inj_add. f_equal. cbn [votes omap list_omap].
  rewrite filter_cons. cbn [fst snd]. destruct (decide (b0 = b ∧ keccak key = h)) as [[-> <-]|Hn].
  - by rewrite decide_True.
  - rewrite decide_False by (intros E; injection E; auto). done.
Qed.
Lemma counted_vote s f a k b key s' g : counted s f → vote keccak s a k b key = Ok (s', g) → counted s' (f ++ g).
Proof.
  intros [H1 H2 H3 H4 H5 H6 H7 H8] Hv. apply vote_shape in Hv as (ks & Hn & Hr & -> & -> & ->).
  set (h := keccak key) in *. set (n := votes_of s b h + 1) in *.
  match goal with |- counted ?x _ => set (s' := x) end.
  assert (∀ b' h', votes_of s' b' h' = if decide ((b, h) = (b', h')) then n else votes_of s b' h') as Hvo by (intros; apply votes_of_insert).
  assert (∀ b', best_votes_of s' b' = if decide (b = b') then Z.max n (best_votes_of s b) else best_votes_of s b') as Hbv.
  { intros b'. unfold best_votes_of. cbn [s' set_votes best_votes]. fold (best_votes_of s b).
    destruct (Z.ltb_spec (best_votes_of s b) n).
    - destruct (decide (b = b')) as [<-|]; [rewrite lookup_insert; cbn; lia|by rewrite lookup_insert_ne].
    - destruct (decide (b = b')) as [<-|]; [fold (best_votes_of s b); lia|done]. }
  assert (∀ b', best_hash s' !! b' = if decide (b = b') then (if best_votes_of s b <? n then Some h else best_hash s !! b) else best_hash s !! b') as Hbh.
  { intros b'. cbn [s' set_votes best_hash]. destruct (best_votes_of s b <? n).
    - destruct (decide (b = b')) as [<-|]; [by rewrite lookup_insert|by rewrite lookup_insert_ne].
    - by destruct (decide (b = b')) as [<-|]. }
  assert (votes (f ++ [FVoted a b key n]) = votes f ++ [(b, a, key)]) as Ev by (by rewrite votes_app).
  split.
  - intros b' a'. rewrite Ev, fmap_app, elem_of_app, <-H1. cbn. rewrite elem_of_union, !elem_of_singleton, elem_of_list_singleton. tauto.
  - rewrite Ev, fmap_app. apply NoDup_app. split_and!; [done| |apply NoDup_singleton]. intros x Hx Hy.
    cbn in Hy. apply elem_of_list_singleton in Hy as ->. by apply H1 in Hx.
  - intros b' h'. rewrite count_vote, Hvo, <-H3. destruct (decide _) as [[= <- <-]|]; lia.
  - intros b' h'. rewrite Hvo, Hbv. specialize (H4 b' h'). destruct (decide ((b, h) = (b', h'))) as [[= <- <-]|].
    + rewrite decide_True by done. lia.
    + destruct (decide (b = b')) as [<-|]; lia.
  - intros b'. rewrite Hbh, Hbv. destruct (decide (b = b')) as [<-|]; [|apply H5].
    destruct (Z.ltb_spec (best_votes_of s b) n) as [|Hle]; [done|]. intros E. specialize (H5 _ E). pose proof (H4 b h). subst n. lia.
  - intros b' h'. rewrite Hbh, Hbv, Hvo. destruct (decide (b = b')) as [<-|Hb].
    + destruct (Z.ltb_spec (best_votes_of s b) n) as [Hlt|Hle].
      * intros [= <-]. rewrite decide_True by done. split; [lia|]. exists key. split; [done|]. rewrite Ev, !fmap_app. set_solver.
      * intros E. destruct (H6 _ _ E) as [E1 (k0 & E2 & E3)]. rewrite decide_False by (intros [= ->]; subst n; lia).
        split; [lia|]. exists k0. split; [done|]. rewrite Ev, !fmap_app. set_solver.
    + intros E. destruct (H6 _ _ E) as [E1 (k0 & E2 & E3)]. rewrite decide_False by congruence. split; [done|].
      exists k0. split; [done|]. rewrite Ev, !fmap_app. set_solver.
  - intros h' k'. cbn [s' set_votes keys]. destruct (keys s !! h) as [[|x l]|] eqn:E; [|apply H7|].
    + destruct (decide (h = h')) as [<-|]; [rewrite lookup_insert; by intros [= <-]|rewrite lookup_insert_ne by done; apply H7].
    + destruct (decide (h = h')) as [<-|]; [rewrite lookup_insert; by intros [= <-]|rewrite lookup_insert_ne by done; apply H7].
  - intros v. rewrite Ev, elem_of_app, elem_of_list_singleton. cbn [s' set_votes keys]. intros [Hv| ->].
    + specialize (H8 v Hv). destruct (keys s !! h) as [[|x l]|] eqn:E; try done; rewrite lookup_insert_is_Some; destruct (decide (h = keccak v.2)); auto.
    + cbn. fold h. destruct (keys s !! h) as [[|x l]|] eqn:E; [by rewrite lookup_insert|by rewrite E|by rewrite lookup_insert].
Qed.
Lemma counted_all s l : ∀ f, counted s f → counted (steps s l).1 (f ++ (steps s l).2).
Proof.
  apply (steps_rel keccak ecrecover addr_bytes batcher_address slasher_address deposit_address any ltac:(done)
    (λ s g s', ∀ f, counted s f → counted s' (f ++ g))); [..|apply any_events]; intros;
    try (match goal with H : vote _ _ _ _ _ _ = _ |- _ => by eapply counted_vote end); shapes;
    try (eapply counted_same; [..|done]; done).
  - rewrite app_assoc. auto.
  - rewrite app_assoc. eapply counted_same; [..|eauto]; done.
  - rewrite app_assoc. eapply counted_same; [..|eauto]; done.
  - eapply counted_same; [..|eauto]; try done. match goal with H : Forall skips _ |- _ => induction H as [|[]]; done end.
  - rewrite app_comm_cons, app_assoc. eapply counted_same; [..|match goal with H : ∀ f, _ → counted _ (f ++ _) |- _ => rewrite (cons_middle _ f0), app_assoc; apply H end]; try done.
    eapply counted_same; [..|eauto]; done.
Qed.
Lemma counted_deployed owner hu ap blk : counted (deployed owner hu ap blk) [].
Proof.
  split; unfold votes_of, best_votes_of; cbn; intros; rewrite ?lookup_empty in *; try done; try (by constructor).
  - split; intros H; [by apply not_elem_of_empty in H|by apply elem_of_nil in H].
  - by apply elem_of_nil in H.
Qed.

(** C53: in every history each keyper votes at most once for a start batch, and the counters are the numbers of votes *)
Theorem C53_counts owner hu ap blk l : let '(s, f) := steps (deployed owner hu ap blk) l in
  NoDup (votes f).*1 ∧ (∀ b h, votes_of s b h = count b h f) ∧ (∀ b a, (b, a) ∈ voted s ↔ ∃ key, (b, a, key) ∈ votes f).
Proof.
  pose proof (counted_all (deployed owner hu ap blk) l [] (counted_deployed owner hu ap blk)) as H. destruct (steps _ l) as [s f]. cbn [fst snd app] in H.
  split_and!; [apply H..|]. intros b a. rewrite (c_voted _ _ H). split.
  - intros ([[b' a'] key] & E & Hin)%elem_of_list_fmap. cbn in E. injection E as -> ->. eauto.
  - intros [key Hk]. apply elem_of_list_fmap. by exists (b, a, key).
Qed.
(** C53: whenever someone voted for a start batch, the best key is one that was voted for (up to collisions of the hash), with
    at least as many votes as any other *)
Theorem C53_best_key owner hu ap blk l b : let '(s, f) := steps (deployed owner hu ap blk) l in
  (∃ a key, (b, a, key) ∈ votes f) →
  ∃ a key, (b, a, key) ∈ votes f ∧ keccak (best_key s b) = keccak key ∧ best_votes_of s b = count b (keccak (best_key s b)) f ∧
    ∀ h, count b h f ≤ count b (keccak (best_key s b)) f.
Proof.
  pose proof (counted_all (deployed owner hu ap blk) l [] (counted_deployed owner hu ap blk)) as H. destruct (steps _ l) as [s f]. cbn [fst snd app] in H.
  intros (a0 & key0 & Hin).
  assert (0 < votes_of s b (keccak key0)) as Hpos.
  { rewrite (c_num _ _ H). unfold count. assert ((b, a0, key0) ∈ filter (λ v, v.1.1 = b ∧ keccak v.2 = keccak key0) (votes f)) as Hf
      by (by apply elem_of_list_filter). destruct (filter _ _); [by apply elem_of_nil in Hf|cbn; lia]. }
  pose proof (c_max _ _ H b (keccak key0)) as Hm.
  destruct (best_hash s !! b) as [h|] eqn:Eh; [|apply (c_zero _ _ H) in Eh; lia].
  destruct (c_best _ _ H _ _ Eh) as [Eb _].
  assert (∃ v, v ∈ filter (λ v, v.1.1 = b ∧ keccak v.2 = h) (votes f)) as [[[b1 a1] key1] Hv].
  { rewrite (c_num _ _ H) in Eb. unfold count in Eb. destruct (filter _ _) as [|v r]; [cbn in Eb; lia|]. exists v. apply elem_of_list_here. }
  apply elem_of_list_filter in Hv as [[E1 E2] Hv]. cbn in E1, E2. subst b1.
  destruct (c_has_key _ _ H _ Hv) as [k Ek]. cbn in Ek. rewrite E2 in Ek.
  assert (best_key s b = k) as -> by (unfold best_key; rewrite Eh; cbn; by rewrite Ek).
  pose proof (c_keys _ _ H _ _ Ek) as Ekk. exists a1, key1. rewrite Ekk. split_and!; [done|by rewrite E2|by rewrite <-(c_num _ _ H)|].
  intros h'. rewrite <-!(c_num _ _ H). rewrite Eb. apply (c_max _ _ H).
Qed.
(** C53: exactly the keypers of an active config can vote, each once *)
Theorem C53_who owner hu ap blk l sender k b key fuel : let s := (steps (deployed owner hu ap blk) l).1 in let f := (steps (deployed owner hu ap blk) l).2 in
  0 ≤ k < 2 ^ 64 → 0 ≤ b < 2 ^ 64 → count b (keccak key) f < 2 ^ 64 - 1 →
  (∃ r, run (S fuel) s sender (Vote k b key) = Ok r) ↔
  ∃ i c, config_index s b = Ok i ∧ scheduled (cc s) !! i = Some c ∧ 0 < span c ∧ keypers c !! Z.to_nat k = Some sender ∧ ¬ ∃ key', (b, sender, key') ∈ votes f.
Proof.
  intros s f Hk Hb Hc. pose proof (C53_counts owner hu ap blk l) as Hl. unfold s, f in *. destruct (steps _ l) as [s0 f0]. cbn [fst snd] in *. clear s f.
  destruct Hl as (_ & Hn & Hv).
  cbn [ContractsModel.run typed].
  assert (is64 k && is64 b = true) as -> by (unfold is64; rewrite !andb_true_iff, !Z.leb_le, !Z.ltb_lt; lia). cbn [negb]. unfold vote. split.
  - intros [r H]. inv_do H. unfold config_at in E0. destruct (scheduled (cc s0) !! a) as [c|] eqn:Ec; [|done]. injection E0 as ->.
    destruct (keypers a0 !! Z.to_nat k) as [x|] eqn:Ex; [|done]. injection E3 as ->. subst a1. eexists _, _. split_and!; [done|exact Ec|done|done|].
    apply negb_true_iff, bool_decide_eq_false in E5. by rewrite <-Hv.
  - intros (i & c & E1 & E2 & E3 & E4 & E5). rewrite E1. cbn [rbind]. unfold config_at. rewrite E2. cbn [rbind].
    destruct (Z.ltb_spec 0 (span c)); [|lia]. cbn [require rbind]. pose proof (lookup_lt_Some _ _ _ E4).
    destruct (Z.ltb_spec k (Z.of_nat (length (keypers c)))); [|lia]. cbn [require rbind]. rewrite E4. cbn [rbind]. rewrite N.eqb_refl. cbn [require rbind].
    rewrite <-Hv in E5. rewrite bool_decide_false by done. cbn [negb require rbind]. rewrite Hn, c64_eq; [cbn [rbind]; eauto|].
    unfold count in *. lia.
Qed.
End Votes.

(** C61: check-ins and votes for batch configs. *)
From stdpp Require Import list gmap.
From Coq Require Import ZArith NArith Lia Sorted.
From Verif Require Import Fq CryptoModel DkgModel EpochModel ObserveModel SyncModel SyncProofs ArithModel ContractsModel ContractsProofs PropsConfig MainModel MainProofs PropsMain
  DecideModel EncodingModel KeyperModel KeyperSpec KeyperRunProofs KeyperActionProofs KeyperSystem PropsExecution PropsShares.

Section CheckIn.
Context {P : pairing} {K : Type}.
Context (plen : phase_length) (epoch_point : N → G1 P).
Notation decisions_of := (KeyperSystem.decisions_of (K:=K) plen epoch_point).
Notation step_of := (PropsShares.step_of (K:=K) plen epoch_point).
Implicit Types (p : keyper_params P) (i : kinput P K).

(** the keyper does something in this decision: both nodes are in sync and it is a keyper of some config *)
Definition awake p i : Prop := node_synced (in_shutter i) = true ∧ v_synced (in_view i) = true ∧ shutter_is_keyper (in_shutter i) (kp_me p) = true.
Definition is_check_in (x : kaction P) : bool := match x with KCheckIn => true | _ => false end.
(** the votes for configs among the actions: index and content *)
Definition config_votes (A : list (kaction P)) : list (N * config) := omap (λ x, match x with KBatchConfig n c => Some (n, c) | _ => None end) A.
Lemma config_votes_elem A n c : (n, c) ∈ config_votes A ↔ KBatchConfig n c ∈ A.
Proof.
  unfold config_votes. rewrite elem_of_list_omap. split.
  - intros (x & Hx & E). destruct x; try done. by injection E as -> ->.
  - intros H. by exists (KBatchConfig n c).
Qed.
Lemma config_votes_app A B : config_votes (A ++ B) = config_votes A ++ config_votes B.
Proof. unfold config_votes. apply omap_app'. Qed.

(** no other part of a decision checks in or votes for a config *)
Definition other (x : kaction P) : Prop := match x with KCheckIn | KBatchConfig _ _ => False | _ => True end.
Local Ltac fin := repeat constructor.
Local Ltac split_if H := match type of H with (if ?b then _ else _) = _ => destruct b end.
Lemma handle_dkgs_other p i ks ks' gs acts : handle_dkgs (kp_ecies p) plen i ks = Some (ks', gs, acts) → Forall other acts.
Proof.
  revert ks' gs acts. induction ks as [|k ks IH]; intros ks' gs acts; cbn [handle_dkgs]; [intros [= _ _ <-]; fin|].
  destruct (is_finalized k).
  - intros ([[k1 g1] a1] & E1 & [= _ _ <-])%bind_Some. by eapply IH.
  - intros (e & _ & E)%bind_Some. apply bind_Some in E as ([[k1 g1] a1] & E1 & E). apply bind_Some in E as ([k2 a2] & E2 & E). apply bind_Some in E as ([[l1 gs1] a3] & E3 & [= _ _ <-]).
    apply Forall_app. split; [|apply Forall_app; split; [|by eapply IH]].
    + clear -E1. unfold sync_dkg in E1. apply bind_Some in E1 as ([k2 b1] & F1 & E). apply bind_Some in E as (k3 & _ & E). apply bind_Some in E as (k4 & _ & E).
      apply bind_Some in E as ([k5 b2] & F2 & E). apply bind_Some in E as (k6 & _ & E). apply bind_Some in E as ([k7 b3] & F3 & E). apply bind_Some in E as (k8 & _ & E).
      apply bind_Some in E as ([[k9 g] b4] & F4 & [= _ _ <-]). rewrite !Forall_app. split; [|split; [|split]].
      * split_if F1; [|injection F1 as _ <-; fin]. unfold start_dealing in F1. apply bind_Some in F1 as ([q [[c ev]|]] & _ & F1); [|done]. split_if F1; injection F1 as _ <-; fin.
      * split_if F2; [|injection F2 as _ <-; fin]. unfold start_accusing in F2. apply bind_Some in F2 as ([q l] & _ & F2). split_if F2; [injection F2 as _ <-; fin|].
        destruct l; [injection F2 as _ <-; fin|]. apply bind_Some in F2 as (acc & _ & F2). injection F2 as _ <-. fin.
      * split_if F3; [|injection F3 as _ <-; fin]. unfold start_apologizing in F3. apply bind_Some in F3 as ([q l] & _ & F3). split_if F3; [injection F3 as _ <-; fin|].
        destruct l; [injection F3 as _ <-; fin|]. apply bind_Some in F3 as (acc & _ & F3). injection F3 as _ <-. fin.
      * split_if F4; [|injection F4 as _ _ <-; fin]. unfold dkg_finalize in F4. apply bind_Some in F4 as (q & _ & F4). destruct (compute_result q); injection F4 as _ _ <-; fin.
    + clear -E2. unfold send_poly_evals in E2. destruct (k_outgoing k1); [injection E2 as _ <-; fin|]. destruct (_ <? _)%nat; [injection E2 as _ <-; fin|].
      apply bind_Some in E2 as (l' & _ & E2). cbv zeta in E2. destruct (omap _ l'); injection E2 as _ <-; fin.
Qed.
Lemma step_parts p s i s' a : step_of p s i = Some (s', a) →
  ¬ awake p i ∧ s' = s ∧ a = [] ∨
  awake p i ∧ ∃ s1 a1 s2 a2 rest, check_in (kp_me p) s (in_shutter i) = (s1, a1) ∧ send_config s1 (in_shutter i) (in_view i) = (s2, a2) ∧ a = a1 ++ a2 ++ rest ∧ Forall other rest ∧
    k_checked_in s' = k_checked_in s2 ∧ k_last_config s' = k_last_config s2.
Proof.
  unfold PropsShares.step_of, decide_step, awake. destruct (node_synced _); [|intros [= <- <-]; left; naive_solver]. destruct (v_synced _); [|intros [= <- <-]; left; naive_solver].
  destruct (shutter_is_keyper _ _); [|intros [= <- <-]; left; naive_solver]. cbn [negb].
  destruct (check_in _ s _) as [s1 a1] eqn:E1. destruct (send_config s1 _ _) as [s2 a2] eqn:E2. destruct (start_dkgs _ _ _ _ _) as [leon new].
  intros ([[dkgs ekgs1] a3] & E3 & E)%bind_Some. apply bind_Some in E as ([ekgs keys] & E4 & E).
  apply bind_Some in E as ([x1 a4] & E5 & E). apply bind_Some in E as ([next a5] & E6 & E). apply bind_Some in E as (x2 & E7 & E).
  apply bind_Some in E as ([x3 a6] & E8 & E). apply bind_Some in E as ([x4 a7] & E9 & E). apply bind_Some in E as ([x5 a8] & E10 & E).
  apply (inj Some), pair_equal_spec in E as [<- <-]. right. split; [done|]. exists s1, a1, s2, a2. eexists. split; [done|]. split; [done|]. split; [done|]. split; [|done].
  assert (Hk : ∀ l : list action, Forall other (KAction (P:=P) <$> l)) by (intros l; apply Forall_fmap, Forall_true; done).
  apply Forall_app. split; [|apply Forall_app; split; [done|]; apply Forall_app; split; [|done]].
  - by eapply handle_dkgs_other.
  - apply Forall_forall. intros x Hx. destruct (publish_shares_only _ _ _ _ _ _ _ E6 x Hx) as (? & ? & ? & ->). done.
Qed.

Lemma check_in_acts p s (w : ObserveModel.shutter (body P) sconfig K (N * list N)) s' a : check_in (kp_me p) s w = (s', a) → shutter_is_keyper w (kp_me p) = true →
  k_last_config s' = k_last_config s ∧
  (k_checked_in s = true ∧ k_checked_in s' = true ∧ a = [] ∨ k_checked_in s = false ∧ is_Some (enc_keys w !! kp_me p) ∧ k_checked_in s' = false ∧ a = [] ∨
   k_checked_in s = false ∧ enc_keys w !! kp_me p = None ∧ k_checked_in s' = true ∧ a = [KCheckIn]).
Proof.
  unfold check_in. intros E Hk. destruct (k_checked_in s) eqn:Hc; [injection E as <- <-; naive_solver|]. destruct (bool_decide _) eqn:Hb.
  - apply bool_decide_eq_true in Hb. injection E as <- <-. naive_solver.
  - apply bool_decide_eq_false, eq_None_not_Some in Hb. rewrite Hk in E. injection E as <- <-. naive_solver.
Qed.
Lemma send_config_acts s (w : ObserveModel.shutter (body P) sconfig K (N * list N)) v s' (a : list (kaction P)) : send_config s w v = (s', a) →
  k_checked_in s' = k_checked_in s ∧
  (k_last_config s' = k_last_config s ∧ a = [] ∧ (∀ d n, last (configs w) = Some d → n = Z.to_N (u64 (1 + Z.of_N (sc_index d))) → (k_last_config s < n)%N → v_configs v !! N.to_nat n = None) ∨
   ∃ d n c, last (configs w) = Some d ∧ n = Z.to_N (u64 (1 + Z.of_N (sc_index d))) ∧ (k_last_config s < n)%N ∧ v_configs v !! N.to_nat n = Some c ∧ k_last_config s' = n ∧ a = [KBatchConfig n c]).
Proof.
  unfold send_config. destruct (last (configs w)) as [d|]; [|intros [= <- <-]; split; [done|]; left; naive_solver]. cbv zeta. destruct (N.leb_spec (Z.to_N (u64 (1 + Z.of_N (sc_index d)))) (k_last_config s)) as [Hle|Hlt].
  - intros [= <- <-]. split; [done|]. left. split; [done|]. split; [done|]. intros d' n [= <-] -> ?. lia.
  - destruct (v_configs v !! _) as [c|] eqn:Ec; intros [= <- <-]; (split; [done|]).
    + right. by exists d, (Z.to_N (u64 (1 + Z.of_N (sc_index d)))), c.
    + left. split; [done|]. split; [done|]. intros d' n [= <-] -> _. done.
Qed.
Lemma other_no_check_in l : Forall other l → KCheckIn ∉ l ∧ List.filter is_check_in l = [] ∧ config_votes l = [].
Proof.
  induction 1 as [|x l Hx Hl (I1 & I2 & I3)]; [split; [by intros ?%elem_of_nil|done]|]. destruct x; try done; cbn [List.filter is_check_in config_votes omap list_omap]; (split; [|done]); by intros [?|?]%elem_of_cons.
Qed.
(** what a decision checks in or votes for *)
Lemma step_actions p s i s' a : step_of p s i = Some (s', a) →
  (KCheckIn ∈ a ↔ awake p i ∧ enc_keys (in_shutter i) !! kp_me p = None ∧ k_checked_in s = false) ∧
  (k_checked_in s' = true ↔ k_checked_in s = true ∨ KCheckIn ∈ a) ∧ ((length (List.filter is_check_in a) = 1)%nat ∧ KCheckIn ∈ a ∨ (length (List.filter is_check_in a) = 0)%nat ∧ KCheckIn ∉ a) ∧
  (config_votes a = [] ∧ k_last_config s' = k_last_config s ∧
     (awake p i → ∀ d n, last (configs (in_shutter i)) = Some d → n = Z.to_N (u64 (1 + Z.of_N (sc_index d))) → (k_last_config s < n)%N → v_configs (in_view i) !! N.to_nat n = None) ∨
   awake p i ∧ ∃ d n c, last (configs (in_shutter i)) = Some d ∧ n = Z.to_N (u64 (1 + Z.of_N (sc_index d))) ∧ (k_last_config s < n)%N ∧ v_configs (in_view i) !! N.to_nat n = Some c ∧ k_last_config s' = n ∧
     config_votes a = [(n, c)]).
Proof.
  intros E. destruct (step_parts _ _ _ _ _ E) as [(Hno & -> & ->)|(Haw & s1 & a1 & s2 & a2 & rest & E1 & E2 & -> & Hr & C1 & C2)].
  - split; [split; [by intros ?%elem_of_nil|naive_solver]|]. split; [split; [naive_solver|intros [?|?%elem_of_nil]; done]|]. split; [right; split; [done|by intros ?%elem_of_nil]|]. left. split; [done|]. split; [done|]. naive_solver.
  - destruct (other_no_check_in _ Hr) as (R1 & R2 & R3). destruct (check_in_acts _ _ _ _ _ E1 (proj2 (proj2 Haw))) as [L1 D1]. destruct (send_config_acts _ _ _ _ _ E2) as [L2 D2]. rewrite C1, C2, L2. rewrite L1 in D2.
    assert (Hc2 : KCheckIn ∉ a2 ∧ List.filter is_check_in a2 = []).
    { destruct D2 as [(_ & -> & _)|(? & ? & ? & _ & _ & _ & _ & _ & ->)]; split; try done; [by intros ?%elem_of_nil|by intros ?%elem_of_list_singleton]. }
    destruct Hc2 as [Hc2 Hf2].
    assert (Hin : KCheckIn ∈ a1 ++ a2 ++ rest ↔ a1 = [KCheckIn]).
    { rewrite !elem_of_app. split; [intros [H|[H|H]]; [|done|done]|intros ->; left; by left]. destruct D1 as [(_ & _ & ->)|[(_ & _ & _ & ->)|(_ & _ & _ & ->)]]; [by apply elem_of_nil in H..|done]. }
    split; [|split; [|split]].
    + rewrite Hin. destruct D1 as [(Q1 & Q2 & ->)|[(Q1 & [k Q2] & Q3 & ->)|(Q1 & Q2 & Q3 & ->)]]; [split; [done|]; intros (_ & ? & ?); congruence..|done].
    + rewrite Hin. destruct D1 as [(Q1 & Q2 & ->)|[(Q1 & Q2 & Q3 & ->)|(Q1 & Q2 & Q3 & ->)]]; rewrite ?Q1, ?Q2, ?Q3; naive_solver.
    + rewrite !List.filter_app, Hf2, R2, !app_nil_r. destruct D1 as [(Q1 & Q2 & ->)|[(Q1 & Q2 & Q3 & ->)|(Q1 & Q2 & Q3 & ->)]].
      * right. rewrite Hin. done.
      * right. rewrite Hin. done.
      * left. rewrite Hin. done.
    + assert (Hv : config_votes (a1 ++ a2 ++ rest) = config_votes a2).
      { rewrite !config_votes_app, R3, app_nil_r. destruct D1 as [(_ & _ & ->)|[(_ & _ & _ & ->)|(_ & _ & _ & ->)]]; done. }
      rewrite Hv. destruct D2 as [(Q1 & -> & Q3)|(d & n & c & Q1 & Q2 & Q3 & Q4 & Q5 & ->)].
      * left. split; [done|]. split; [done|]. intros _. done.
      * right. split; [done|]. by exists d, n, c.
Qed.

(** the state remembers what was sent *)
Lemma run_remembers p l s acts : decisions_of p new_kstate l = Some (s, acts) →
  (k_checked_in s = true ↔ KCheckIn ∈ mjoin acts) ∧ (length (List.filter is_check_in (mjoin acts)) = if k_checked_in s then 1 else 0)%nat ∧
  StronglySorted N.lt (config_votes (mjoin acts)).*1 ∧ k_last_config s = default 0%N (last (config_votes (mjoin acts)).*1) ∧ ∀ n c, (n, c) ∈ config_votes (mjoin acts) → (n ≤ k_last_config s)%N.
Proof.
  revert s acts. induction l as [|i l IH] using rev_ind; intros s acts E.
  - injection E as <- <-. cbn. split; [split; [done|by intros ?%elem_of_nil]|]. split; [done|]. split; [constructor|]. split; [done|]. by intros n c ?%elem_of_nil.
  - apply decisions_snoc in E as (s1 & acts1 & a & E1 & E2 & ->). destruct (IH _ _ E1) as (I1 & I2 & I3 & I4 & I5). destruct (step_actions _ _ _ _ _ E2) as (S1 & S2 & S3 & S4).
    rewrite mjoin_app. change (mjoin [a]) with (a ++ []). rewrite app_nil_r. rewrite elem_of_app, S2, I1. split; [done|]. split.
    + rewrite List.filter_app, app_length, I2. destruct (k_checked_in s1) eqn:Hc.
      * assert (KCheckIn ∉ a) by (rewrite S1; naive_solver). destruct S3 as [[_ ?]|[-> _]]; [done|]. assert (k_checked_in s = true) as -> by (apply S2; by left). done.
      * destruct S3 as [[L3 H]|[L3 H]]; rewrite L3; [assert (k_checked_in s = true) as -> by (apply S2; by right); done|]. destruct (k_checked_in s); [destruct (proj1 S2 eq_refl); done|done].
    + rewrite config_votes_app. destruct S4 as [(-> & -> & _)|(_ & d & n & c & _ & -> & Hlt & _ & -> & ->)].
      * rewrite app_nil_r. done.
      * rewrite fmap_app, last_app. cbn [fmap list_fmap fst last]. set (n := Z.to_N _) in *. split; [|split; [done|]].
        -- eapply sorted_app with (b := n); [exact epoch_point|done|repeat constructor| |].
           ++ intros x ([n' c'] & -> & Hx)%elem_of_list_fmap. specialize (I5 n' c' Hx). cbn. lia.
           ++ intros x ->%elem_of_list_singleton. done.
        -- intros n' c' [H|H]%elem_of_app; [specialize (I5 n' c' H); lia|]. apply elem_of_list_singleton in H. injection H as -> _. done.
Qed.

(** ** C61 *)
(** A keyper checks in at most once, and exactly when it is awake, the chain does not have its check-in, and it has not done so before. *)
Theorem C61_check_in_once p l s acts : decisions_of p new_kstate l = Some (s, acts) → (length (List.filter is_check_in (mjoin acts)) ≤ 1)%nat.
Proof. intros E. destruct (run_remembers _ _ _ _ E) as (_ & -> & _). destruct (k_checked_in s); lia. Qed.
Theorem C61_check_in_when p l i s acts a : decisions_of p new_kstate (l ++ [i]) = Some (s, acts ++ [a]) →
  KCheckIn ∈ a ↔ awake p i ∧ enc_keys (in_shutter i) !! kp_me p = None ∧ KCheckIn ∉ mjoin acts.
Proof.
  intros E. apply decisions_snoc in E as (s1 & acts1 & a1 & E1 & E2 & E). apply app_inj_tail in E as [-> ->]. destruct (run_remembers _ _ _ _ E1) as (I1 & _). destruct (step_actions _ _ _ _ _ E2) as (-> & _).
  rewrite <-I1. destruct (k_checked_in s1); naive_solver.
Qed.
(** It votes for configs in the order of their indices, for none twice. *)
Theorem C61_votes_once p l s acts : decisions_of p new_kstate l = Some (s, acts) → StronglySorted N.lt (config_votes (mjoin acts)).*1.
Proof. intros E. by destruct (run_remembers _ _ _ _ E) as (_ & _ & ? & _). Qed.
(** Config [n] with content [c] is voted for in a decision exactly when the keyper is awake, [n - 1] is the last config that shuttermint has, [c] is config [n] of the
    main chain as the keyper sees it, and no vote for [n] or a later config was sent before. *)
Theorem C61_votes_when p l i s acts a n c : decisions_of p new_kstate (l ++ [i]) = Some (s, acts ++ [a]) → (∀ d, last (configs (in_shutter i)) = Some d → (sc_index d < 2 ^ 64 - 1)%N) →
  KBatchConfig n c ∈ a ↔ awake p i ∧ (∃ d, last (configs (in_shutter i)) = Some d ∧ n = (sc_index d + 1)%N) ∧ v_configs (in_view i) !! N.to_nat n = Some c ∧
    ∀ n' c', KBatchConfig n' c' ∈ mjoin acts → (n' < n)%N.
Proof.
  intros E Hd. apply decisions_snoc in E as (s1 & acts1 & a1 & E1 & E2 & E). apply app_inj_tail in E as [-> ->]. destruct (run_remembers _ _ _ _ E1) as (_ & _ & _ & I4 & I5). destruct (step_actions _ _ _ _ _ E2) as (_ & _ & _ & S4).
  assert (Hu : ∀ d, last (configs (in_shutter i)) = Some d → Z.to_N (u64 (1 + Z.of_N (sc_index d))) = (sc_index d + 1)%N). { intros d H. specialize (Hd d H). unfold u64. rewrite Z.mod_small by lia. lia. }
  rewrite <-config_votes_elem. destruct S4 as [(-> & _ & S4)|(Haw & d & n1 & c1 & D1 & D2 & D3 & D4 & _ & ->)].
  - split; [by intros ?%elem_of_nil|]. intros (Haw & (d & D1 & D2) & D3 & D4). exfalso. specialize (S4 Haw d n D1). rewrite (Hu d D1) in S4. rewrite S4 in D3; [done|done|].
    rewrite I4. destruct (last (config_votes (mjoin acts1)).*1) as [x|] eqn:El; cbn; [|lia]. apply last_Some_elem_of, elem_of_list_fmap in El as ([x' c'] & -> & Hx). apply (D4 x' c'). by apply config_votes_elem.
  - rewrite (Hu d D1) in D2. rewrite elem_of_list_singleton. split.
    + intros [= -> ->]. split; [done|]. split; [by exists d|]. split; [done|]. intros n' c' H. apply config_votes_elem in H. specialize (I5 n' c' H). lia.
    + intros (_ & (d' & D1' & ->) & D4' & _). rewrite D1 in D1'. injection D1' as <-. subst n1. rewrite D4 in D4'. by injection D4' as ->.
Qed.
End CheckIn.

Section MainChain.
Context {P : pairing} {K : Type} (plen : phase_length) (epoch_point : N → G1 P).
Context (keccak : list N → list N) (ecrecover : list N → Z → Z → Z → option N) (addr_bytes : N → list N) (batcher_address slasher_address deposit_address owner : N) (hu ap : Z).
Notation decisions_of := (KeyperSystem.decisions_of (K:=K) plen epoch_point).
Notation state_at := (MainModel.state_at keccak ecrecover addr_bytes batcher_address slasher_address deposit_address owner hu ap).
Notation append_only := (append_only keccak ecrecover addr_bytes batcher_address slasher_address deposit_address owner hu ap).
Notation synced := (synced keccak ecrecover addr_bytes batcher_address slasher_address deposit_address owner hu ap).

(** What is voted for is config [n] of the config contract (with its keyper list as the keyper reads it): any two keypers that follow the same main chain vote the same. *)
Theorem C61_votes_agree_partial ch F F' p p' (l l' : list (kinput P K)) s s' acts acts' n c c' : decisions_of p new_kstate l = Some (s, acts) → decisions_of p' new_kstate l' = Some (s', acts') →
  append_only ch → (∀ x, x ∈ l → synced ch F (in_view x)) → (∀ x, x ∈ l' → synced ch F' (in_view x)) →
  KBatchConfig n c ∈ mjoin acts → KBatchConfig n c' ∈ mjoin acts' → c = c'.
Proof.
  intros E E' Hao Hs Hs' Hin Hin'.
  assert (G : ∀ F p (l : list (kinput P K)) s acts n c, decisions_of p new_kstate l = Some (s, acts) → (∀ x, x ∈ l → synced ch F (in_view x)) → KBatchConfig n c ∈ mjoin acts →
    ∃ m c0, scheduled (cc (state_at ch m)) !! N.to_nat n = Some c0 ∧ c = read_config c0).
  { clear -Hao. intros F p l s acts n c E Hs Hin. revert s acts E Hs Hin. induction l as [|i l IH] using rev_ind; intros s acts E Hs Hin; [injection E as _ <-; by apply elem_of_nil in Hin|].
    apply decisions_snoc in E as (s1 & acts1 & a & E1 & E2 & ->). rewrite mjoin_app in Hin. apply elem_of_app in Hin as [Hin|Hin]; [apply (IH s1 acts1); [done| |done]; intros x Hx; apply Hs, elem_of_app; by left|].
    change (mjoin [a]) with (a ++ []) in Hin. rewrite app_nil_r in Hin. apply config_votes_elem in Hin. destruct (step_actions _ _ _ _ _ _ _ E2) as (_ & _ & _ & [(V & _)|(_ & d & n1 & c1 & _ & _ & _ & D4 & _ & V)]); rewrite V in Hin; [by apply elem_of_nil in Hin|].
    apply elem_of_list_singleton in Hin. injection Hin as -> ->. destruct (Hs i ltac:(apply elem_of_app; right; by left)) as (S0 & HF & heads & S1 & Ev).
    destruct (sync_main_configs keccak ecrecover addr_bytes batcher_address slasher_address deposit_address owner hu ap ch F (new_view F) heads 0 HF ltac:(lia) Hao) as [Hc _]; [by apply new_view_ok|by right|cbn; lia|done|].
    rewrite <-Ev in Hc. destruct Hc as [Hc|[Hc _]]; rewrite Hc in D4; [|by rewrite lookup_nil in D4]. rewrite list_lookup_fmap in D4. apply fmap_Some in D4 as (c0 & D4 & ->). eauto. }
  destruct (G F p l s acts n c E Hs Hin) as (m & c0 & L & ->). destruct (G F' p' l' s' acts' n c' E' Hs' Hin') as (m' & c0' & L' & ->). f_equal.
  destruct (Hao m (Nat.max m m') ltac:(lia)) as [x Ex]. destruct (Hao m' (Nat.max m m') ltac:(lia)) as [x' Ex']. rewrite Ex in Ex'. apply (f_equal (lookup (N.to_nat n))) in Ex'.
  rewrite (lookup_app_l_Some _ _ _ _ L), (lookup_app_l_Some _ _ _ _ L') in Ex'. by injection Ex'.
Qed.
End MainChain.

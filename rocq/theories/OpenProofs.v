(** The main chain half of a keyper's decisions, as a run of DecideModel, and the keys it decrypts batches with. *)
From stdpp Require Import list gmap.
From Coq Require Import ZArith NArith Lia.
From Verif Require Import Fq CryptoModel DkgModel DkgSpec EpochModel ObserveModel SyncModel ArithModel PropsArith ContractsModel ContractsProofs PropsConfig PropsBatcher MainModel MainProofs PropsMain DecideModel EncodingModel KeyperModel KeyperSpec KeyperDkgProofs KeyperStepProofs KeyperHistProofs KeyperRunProofs KeyperLogProofs KeyperActionProofs KeyperSystem PropsExecution PropsShares.

Section Project.
Context {P : pairing} {K R : Type}.
Context (plen : phase_length) (epoch_point : N → G1 P).
Notation decisions_of := (decisions_of (K := K) plen epoch_point).
Notation bytes := (list N).

(** nothing is lost: the same eon and public key, and the keys it had *)
Definition extends (g g' : kekg P) : Prop :=
  g_eon g' = g_eon g ∧ g_keypers g' = g_keypers g ∧ ek_pk (g_epochkg g') = ek_pk (g_epochkg g) ∧ ek_threshold (g_epochkg g') = ek_threshold (g_epochkg g) ∧
  ∀ ep k, ek_keys (g_epochkg g) !! ep = Some k → ek_keys (g_epochkg g') !! ep = Some k.
Lemma extends_refl g : extends g g. Proof. done. Qed.
Lemma extends_trans g1 g2 g3 : extends g1 g2 → extends g2 g3 → extends g1 g3.
Proof. intros (A1 & A2 & A3 & A4 & A5) (B1 & B2 & B3 & B4 & B5). split_and!; try congruence. eauto. Qed.

(** a key for batch [b] is used: [g] holds it *)
Definition holds_for (open : G1 P → list bytes → list bytes) (gs : list (kekg P)) (k : Z * (list bytes → list bytes)) : Prop :=
  ∃ g ep key, g ∈ gs ∧ k = (Z.of_N ep, open key) ∧ ek_keys (g_epochkg g) !! ep = Some (Some key).
(** a share for epoch [ep] is in what is known of shuttermint *)
Definition share_seen (i : kinput P K) (ep : N) : Prop :=
  ∃ n eo e sender share, find_eon (in_shutter i) n = Some eo ∧ e ∈ get_events KeyShare eo (in_height i) ∧ ev_body e = BKeyShare sender ep share.

Lemma sync_share_key open g e g' out : sync_share epoch_point open g e = Some (g', out) →
  extends g g' ∧ ∀ k, k ∈ out → holds_for open [g'] k ∧ ∃ sender ep share, ev_body e = BKeyShare sender ep share ∧ k.1 = Z.of_N ep.
Proof.
  unfold sync_share. destruct (ev_body e) as [| | | |sender ep share]; try done.
  destruct (find_address _ _) as [j|]; [|intros [= <- <-]; split; [done|]; intros k Hk; by apply elem_of_nil in Hk].
  destruct (ek_keys (g_epochkg g) !! ep) eqn:Ek; [intros [= <- <-]; split; [done|]; intros k Hk; by apply elem_of_nil in Hk|].
  intros ([s err] & Eh & E)%bind_Some. injection E as <- <-. split.
  - unfold handle_share in Eh. cbn [es_epoch es_sender es_share] in Eh. rewrite Ek in Eh. destruct (ek_pkshares _ !! _); [|done].
    destruct (negb _); [injection Eh as <- _; unfold extends; cbn; done|]. injection Eh as Eh. unfold add_share in Eh. cbn [es_epoch es_sender] in Eh.
    destruct (existsb _ _); [injection Eh as <- _; unfold extends; cbn; done|].
    destruct (negb _); injection Eh as <- _; unfold extends; cbn; split_and!; try done.
    intros ep' k Hk. rewrite lookup_insert_ne; [done|]. intros <-. congruence.
  - intros k. destruct err; [by intros ?%elem_of_nil|]. destruct (ek_keys s !! ep) as [[key|]|] eqn:E2; [|by intros ?%elem_of_nil..].
    intros ->%elem_of_list_singleton. split; [|by exists sender, ep, share]. exists (mkKEkg (g_eon g) (g_keypers g) s), ep, key. split; [by left|]. done.
Qed.
Lemma holds_for_extends open gs gs' k : (∀ g, g ∈ gs → ∃ g', g' ∈ gs' ∧ extends g g') → holds_for open gs k → holds_for open gs' k.
Proof.
  intros H (g & ep & key & Hg & -> & Hk). destruct (H g Hg) as (g' & Hg' & (_ & _ & _ & _ & E)). exists g', ep, key. split; [done|]. split; [done|]. by apply E.
Qed.
Lemma collect_key open g es g' out : collect (sync_share epoch_point open) g es = Some (g', out) →
  extends g g' ∧ ∀ k, k ∈ out → holds_for open [g'] k ∧ ∃ e sender ep share, e ∈ es ∧ ev_body e = BKeyShare sender ep share ∧ k.1 = Z.of_N ep.
Proof.
  revert g out. induction es as [|e es IH]; intros g out; cbn [collect]; [intros [= <- <-]; split; [done|]; intros k Hk; by apply elem_of_nil in Hk|].
  intros ([g1 o1] & E1 & E)%bind_Some. apply bind_Some in E as ([g2 o2] & E2 & [= <- <-]).
  apply sync_share_key in E1 as [X1 K1]. apply IH in E2 as [X2 K2]. split; [by eapply extends_trans|]. intros k [Hk|Hk]%elem_of_app.
  - destruct (K1 k Hk) as [A (sender & ep & share & B1 & B2)]. split.
    + eapply holds_for_extends; [|exact A]. intros g0 ->%elem_of_list_singleton. exists g2. split; [by left|done].
    + exists e, sender, ep, share. split; [by left|]. done.
  - destruct (K2 k Hk) as [A (e' & sender & ep & share & B0 & B1 & B2)]. split; [done|]. exists e', sender, ep, share. split; [by right|]. done.
Qed.
Lemma sync_ekgs_key open (i : kinput P K) gs gs' keys : sync_ekgs epoch_point open i gs = Some (gs', keys) →
  (∀ g, g ∈ gs → ∃ g', g' ∈ gs' ∧ extends g g') ∧ ∀ k, k ∈ keys → holds_for open gs' k ∧ ∃ ep, k.1 = Z.of_N ep ∧ share_seen i ep.
Proof.
  revert gs' keys. induction gs as [|g gs IH]; intros gs' keys; cbn [sync_ekgs].
  - intros [= <- <-]. split; [intros g Hg; by apply elem_of_nil in Hg|intros k Hk; by apply elem_of_nil in Hk].
  - intros (e & Ee & E)%bind_Some. apply bind_Some in E as ([g1 k1] & E1 & E). apply bind_Some in E as ([gs1 k2] & E2 & [= <- <-]).
    apply collect_key in E1 as [X1 K1]. destruct (IH _ _ E2) as [X2 K2]. split.
    + intros g0 [->|Hg]%elem_of_cons; [exists g1; split; [by left|done]|]. destruct (X2 g0 Hg) as (g' & Hg' & ?). exists g'. split; [by right|done].
    + intros k [Hk|Hk]%elem_of_app.
      * destruct (K1 k Hk) as [A (ev & sender & ep & share & B0 & B1 & B2)]. split.
        -- eapply holds_for_extends; [|exact A]. intros g0 ->%elem_of_list_singleton. exists g1. split; [by left|done].
        -- exists ep. split; [done|]. by exists (g_eon g), e, ev, sender, share.
      * destruct (K2 k Hk) as [A B]. split; [|done]. eapply holds_for_extends; [|exact A]. intros g0 Hg. exists g0. split; [by right|done].
Qed.

Notation project_decisions p := (DecideModel.decisions (kp_keccak p) (kp_ecrecover p) (kp_addr_bytes p) (kp_batcher p) (kp_me p) (kp_sign p) (kp_staggering p) (kp_order p)).
Notation project_step p := (DecideModel.decision_step (kp_keccak p) (kp_ecrecover p) (kp_addr_bytes p) (kp_batcher p) (kp_me p) (kp_sign p) (kp_staggering p) (kp_order p)).
Definition main_actions (l : list (kaction P)) : list action := omap (λ a, match a with KAction a => Some a | _ => None end) l.

Lemma main_actions_app l1 l2 : main_actions (l1 ++ l2) = main_actions l1 ++ main_actions l2.
Proof. apply omap_app. Qed.
Lemma main_actions_KAction l : main_actions (KAction <$> l) = l.
Proof. induction l as [|a l IH]; [done|]. cbn. unfold main_actions in IH. by rewrite IH. Qed.
Lemma main_actions_elem a l : KAction a ∈ l ↔ a ∈ main_actions l.
Proof.
  unfold main_actions. rewrite elem_of_list_omap. split; [intros H; by exists (KAction a)|]. intros (x & Hx & E). destruct x; try done. by injection E as ->.
Qed.

Lemma handle_dkgs_actions ecies (i : kinput P K) ks ks' gs a3 : handle_dkgs ecies plen i ks = Some (ks', gs, a3) → main_actions a3 = [].
Proof.
  intros E2. assert (∀ x, KAction x ∉ a3) as G; [|destruct (main_actions a3) as [|x l] eqn:E; [done|]; exfalso; apply (G x), main_actions_elem; rewrite E; by left].
  intros x Hx.
  destruct (handle_dkgs_each _ _ _ _ _ _ _ E2) as (outs & O1 & _ & _ & ->). apply elem_of_list_bind in Hx as (o & Ho & Hin).
    apply elem_of_list_lookup in Hin as (j & Hj). destruct (Forall2_lookup_r _ _ _ _ _ O1 Hj) as (k & _ & Hone). unfold handle_one in Hone. destruct (is_finalized k); [injection Hone as <-; by apply elem_of_nil in Ho|].
    apply bind_Some in Hone as (e & _ & E). apply bind_Some in E as ([[k1 g1] a1] & E1 & E). apply bind_Some in E as ([k2 a2] & E2' & E). injection E as <-. cbn [snd] in Ho.
    apply elem_of_app in Ho as [Ho|Ho].
    - unfold sync_dkg in E1. cbv zeta in E1. apply bind_Some in E1 as ([x1 b1] & F1 & E1). apply bind_Some in E1 as (x2 & F2 & E1). apply bind_Some in E1 as (x3 & F3 & E1).
      apply bind_Some in E1 as ([x4 b2] & F4 & E1). apply bind_Some in E1 as (x5 & F5 & E1). apply bind_Some in E1 as ([x6 b3] & F6 & E1). apply bind_Some in E1 as (x7 & F7 & E1).
      apply bind_Some in E1 as ([[x8 g8] b4] & F8 & E1). injection E1 as <- <- <-. rewrite !elem_of_app in Ho. destruct Ho as [Ho|[Ho|[Ho|Ho]]].
      + split_if F1; [|injection F1 as <- <-; by apply elem_of_nil in Ho]. unfold start_dealing in F1. apply bind_Some in F1 as ([q o] & _ & F1). destruct o as [[cm evs]|]; [|done].
        split_if F1; injection F1 as <- <-; [by apply elem_of_nil in Ho|by apply elem_of_list_singleton in Ho].
      + split_if F4; [|injection F4 as <- <-; by apply elem_of_nil in Ho]. unfold start_accusing in F4. apply bind_Some in F4 as ([q o] & _ & F4).
        split_if F4; [injection F4 as <- <-; by apply elem_of_nil in Ho|]. destruct o; [injection F4 as <- <-; by apply elem_of_nil in Ho|]. apply bind_Some in F4 as (? & _ & F4). injection F4 as <- <-. by apply elem_of_list_singleton in Ho.
      + split_if F6; [|injection F6 as <- <-; by apply elem_of_nil in Ho]. unfold start_apologizing in F6. apply bind_Some in F6 as ([q o] & _ & F6).
        split_if F6; [injection F6 as <- <-; by apply elem_of_nil in Ho|]. destruct o; [injection F6 as <- <-; by apply elem_of_nil in Ho|]. apply bind_Some in F6 as (? & _ & F6). injection F6 as <- <-. by apply elem_of_list_singleton in Ho.
      + split_if F8; [|injection F8 as <- <- <-; by apply elem_of_nil in Ho]. unfold dkg_finalize in F8. apply bind_Some in F8 as (q & _ & F8). destruct (compute_result q); injection F8 as <- <- <-; by apply elem_of_list_singleton in Ho.
    - unfold send_poly_evals in E2'. destruct (k_outgoing k1); [injection E2' as <- <-; by apply elem_of_nil in Ho|]. destruct (_ <? _)%nat; [injection E2' as <- <-; by apply elem_of_nil in Ho|].
      apply bind_Some in E2' as (l' & _ & E2'). cbv zeta in E2'. destruct (omap _ l'); injection E2' as <- <-; [by apply elem_of_nil in Ho|by apply elem_of_list_singleton in Ho].
Qed.
Lemma publish_shares_actions me (i : kinput P K) gs next next' a : publish_shares me epoch_point i gs next = Some (next', a) → main_actions a = [].
Proof.
  unfold publish_shares. cbv zeta. intros (n & _ & E)%bind_Some. apply bind_Some in E as (c & _ & E). destruct (config_by_index _ _); [|by injection E as <- <-].
  apply bind_Some in E as (b & _ & E). apply bind_Some in E as (l & El & E). injection E as <- <-. clear -El. revert l El. generalize (seqZ next (b - next)).
  intros bs. induction bs as [|b0 bs IH]; intros l; [intros [= <-]; done|]. cbn [mapM]. intros (x & Ex & E)%bind_Some. apply bind_Some in E as (l' & El & E). injection E as <-.
  change (mjoin (x :: l')) with (x ++ mjoin l'). rewrite main_actions_app, (IH _ El), app_nil_r. apply bind_Some in Ex as (t & _ & Ex). injection Ex as <-. destruct t; [done|].
  unfold publish_share. destruct (negb _); [done|]. destruct (find_eon_by_batch_index _ _); [|done]. destruct (find_ekg _ _); [|done]. by destruct (ek_keys _ !! _).
Qed.
Lemma check_in_x me (s : kstate P) (w : ObserveModel.shutter (body P) sconfig K (N * list N)) s' a : check_in me s w = (s', a) → k_x s' = k_x s ∧ k_ekgs s' = k_ekgs s ∧ main_actions a = [].
Proof. unfold check_in. repeat case_match; intros [= <- <-]; done. Qed.
Lemma send_config_x (s : kstate P) (w : ObserveModel.shutter (body P) sconfig K (N * list N)) v s' a : send_config s w v = (s', a) → k_x s' = k_x s ∧ k_ekgs s' = k_ekgs s ∧ main_actions a = [].
Proof. unfold send_config. repeat case_match; intros [= <- <-]; done. Qed.

(** one decision: skipped, or a step of DecideModel *)
Lemma step_project p s (i : kinput P K) s' a : step_of plen epoch_point p s i = Some (s', a) →
  (s' = s ∧ a = []) ∨
  ∃ keys, project_step p (k_x s) (mkInput (in_view i) (sigs_of (in_shutter i)) keys) = Some (k_x s', main_actions a) ∧
    (∀ g, g ∈ k_ekgs s → ∃ g', g' ∈ k_ekgs s' ∧ extends g g') ∧
    ∀ k, k ∈ keys → holds_for (kp_open p) (k_ekgs s') k ∧ ∃ ep, k.1 = Z.of_N ep ∧ share_seen i ep.
Proof.
  unfold step_of, decide_step. cbv zeta. destruct (negb (node_synced _)); [intros [= <- <-]; by left|]. destruct (negb (v_synced _)); [intros [= <- <-]; by left|].
  destruct (negb (shutter_is_keyper _ _)); [intros [= <- <-]; by left|]. destruct (check_in _ _ _) as [s1 a1] eqn:E1. destruct (send_config _ _ _) as [s2 a2] eqn:E2.
  apply check_in_x in E1 as (X1 & G1' & M1). apply send_config_x in E2 as (X2 & G2' & M2). destruct (start_dkgs _ _ _ _ _) as [leon new].
  intros ([[dkgs ekgs1] a3] & E3 & E)%bind_Some. apply bind_Some in E as ([ekgs keys] & E4 & E).
  apply bind_Some in E as ([x1 a4] & E5 & E). apply bind_Some in E as ([next a5] & E6 & E). apply bind_Some in E as (x2 & E7 & E).
  apply bind_Some in E as ([x3 a6] & E8 & E). apply bind_Some in E as ([x4 a7] & E9 & E). apply bind_Some in E as ([x5 a8] & E10 & E). injection E as <- <-.
  right. exists keys. cbn [k_x k_ekgs]. apply handle_dkgs_actions in E3. apply publish_shares_actions in E6.
  apply sync_ekgs_key in E4 as [Y1 Y2]. rewrite G2', G1' in Y1. split_and!.
  - unfold DecideModel.decision_step. cbn [i_view i_sigs i_keys]. rewrite X2, X1 in E5. rewrite E5. cbn [mbind option_bind]. rewrite E7. cbn [mbind option_bind]. rewrite E8. cbn [mbind option_bind].
    rewrite E9. cbn [mbind option_bind]. rewrite E10. cbn [mbind option_bind]. rewrite !main_actions_app, M1, M2, E3, E6, !main_actions_KAction. by rewrite !app_nil_l.
  - intros g Hg. apply Y1. apply elem_of_app. by left.
  - exact Y2.
Qed.

(** the inputs of the main chain half of some decisions *)
Definition projects (p : keyper_params P) (l : list (kinput P K)) (gs : list (kekg P)) (l' : list input) : Prop :=
  ∀ i', i' ∈ l' → ∃ i, i ∈ l ∧ i_view i' = in_view i ∧ i_sigs i' = sigs_of (in_shutter i) ∧
    ∀ k, k ∈ i_keys i' → holds_for (kp_open p) gs k ∧ ∃ ep, k.1 = Z.of_N ep ∧ share_seen i ep.
Lemma decisions_snoc_intro (p : keyper_params P) s l i s1 al s2 a : project_decisions p s l = Some (s1, al) → project_step p s1 i = Some (s2, a) → project_decisions p s (l ++ [i]) = Some (s2, al ++ [a]).
Proof.
  revert s al. induction l as [|j l IH]; intros s al; cbn [app DecideModel.decisions].
  - intros [= <- <-] ->. done.
  - intros ([s0 a0] & E0 & E)%bind_Some E2. apply bind_Some in E as ([s3 al'] & E3 & [= <- <-]). rewrite E0. cbn [mbind option_bind]. rewrite (IH _ _ E3 E2). done.
Qed.
Lemma run_project p (l : list (kinput P K)) s acts : decisions_of p new_kstate l = Some (s, acts) →
  ∃ l' acts', project_decisions p new_x l' = Some (k_x s, acts') ∧ projects p l (k_ekgs s) l'.
Proof.
  revert s acts. induction l as [|i l IH] using rev_ind; intros s acts.
  - intros [= <- <-]. exists [], []. split; [done|]. intros i' Hi. by apply elem_of_nil in Hi.
  - intros (s1 & acts1 & a & D1 & D2 & ->)%(decisions_snoc plen epoch_point). destruct (IH _ _ D1) as (l' & acts' & Q1 & Q2).
    destruct (step_project _ _ _ _ _ D2) as [[-> ->]|(keys & S1 & S2 & S3)].
    + exists l', acts'. split; [done|]. intros i' Hi. destruct (Q2 i' Hi) as (i0 & ? & ?). exists i0. split; [apply elem_of_app; by left|done].
    + exists (l' ++ [mkInput (in_view i) (sigs_of (in_shutter i)) keys]), (acts' ++ [main_actions a]). split; [by eapply decisions_snoc_intro|].
      intros i' [Hi| ->%elem_of_list_singleton]%elem_of_app.
      * destruct (Q2 i' Hi) as (i0 & ? & ? & ? & H). exists i0. split; [apply elem_of_app; by left|]. split; [done|]. split; [done|].
        intros k Hk. destruct (H k Hk) as [A B]. split; [|done]. by eapply holds_for_extends.
      * exists i. split; [apply elem_of_app; right; by left|]. done.
Qed.
(** ... and the last decision *)
Lemma run_project_last p (l : list (kinput P K)) i s al a x : decisions_of p new_kstate (l ++ [i]) = Some (s, al ++ [a]) → KAction x ∈ a →
  ∃ l' i' al' a', project_decisions p new_x (l' ++ [i']) = Some (k_x s, al' ++ [a']) ∧ x ∈ a' ∧ i_view i' = in_view i ∧ projects p (l ++ [i]) (k_ekgs s) (l' ++ [i']).
Proof.
  intros (s1 & acts1 & a0 & D1 & D2 & E)%(decisions_snoc plen epoch_point) Hx. apply app_inj_tail in E as [<- <-].
  destruct (run_project _ _ _ _ D1) as (l' & acts' & Q1 & Q2). destruct (step_project _ _ _ _ _ D2) as [[-> ->]|(keys & S1 & S2 & S3)]; [by apply elem_of_nil in Hx|].
  exists l', (mkInput (in_view i) (sigs_of (in_shutter i)) keys), acts', (main_actions a). split; [by eapply decisions_snoc_intro|]. split; [by apply main_actions_elem|]. split; [done|].
  intros i' [Hi| ->%elem_of_list_singleton]%elem_of_app.
  - destruct (Q2 i' Hi) as (i0 & ? & ? & ? & H). exists i0. split; [apply elem_of_app; by left|]. split; [done|]. split; [done|].
    intros k Hk. destruct (H k Hk) as [A B]. split; [|done]. by eapply holds_for_extends.
  - exists i. split; [apply elem_of_app; right; by left|]. done.
Qed.
End Project.

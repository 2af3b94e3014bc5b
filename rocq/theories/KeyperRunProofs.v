(** All decisions of a keyper: the key generations and the epoch keys. *)
From stdpp Require Import list gmap.
From Coq Require Import ZArith NArith Lia.
From Verif Require Import Fq CryptoModel DkgModel DkgSpec DkgProofs EpochModel ObserveModel ObserveProofs SyncModel SyncProofs ArithModel MainModel DecideModel EncodingModel
  KeyperModel KeyperSpec KeyperDkgProofs KeyperStepProofs KeyperHistProofs.

Section Run.
Context {P : pairing} {K R : Type}.
Notation sig := (N * list N)%type.
Notation shutter := (ObserveModel.shutter (body P) sconfig K sig).
Notation obs := (sync_obs (body P) sconfig K sig).
Context (make_event : R → Z → option (shutter_event (body P) sconfig K sig)) (chain : nat → list (list R)).
Notation Pub := (published make_event chain).
Context (ecies_decrypt : list N → option (list N)) (plen : phase_length) (me : N).
Context (epoch_point : N → G1 P) (decrypt_batch : G1 P → list (list N) → list (list N)).
Context (keccak : list N → list N) (ecrecover : list N → Z → Z → Z → option N) (addr_bytes : N → list N) (batcher_address : N)
  (sign : list N → list N) (staggering : Z) (order : ∀ A, list A → list A).
Notation step := (decide_step ecies_decrypt plen me epoch_point decrypt_batch keccak ecrecover addr_bytes batcher_address sign staggering order).
Notation all := (decide_all ecies_decrypt plen me epoch_point decrypt_batch keccak ecrecover addr_bytes batcher_address sign staggering order).
Context (Hwf : ∀ m, well_formed (Pub m)) (Hho : heights_ok make_event).
Implicit Types (w : shutter) (k : kdkg P) (g : kekg P) (i : kinput P K) (x : execution P).
Notation good := (good make_event chain).
Notation seen := (@seen_blocks (body P) sconfig K sig).
Notation dkg_ok := (dkg_ok make_event chain ecies_decrypt plen me).
Notation dkg_ready := (dkg_ready make_event chain ecies_decrypt plen me).
Notation ekg_new := (ekg_new make_event chain ecies_decrypt plen me).
Notation ekg_from := (ekg_from make_event chain ecies_decrypt plen me).
Notation decisions := (decisions make_event chain).

(** the message in a key share event *)
Definition share_msg (keypers : list N) (ev : eon_event (body P)) : option (epoch_share P) :=
  match ev_body ev with
  | BKeyShare sender epoch share => j ← find_address keypers sender; Some (mkEpochShare (ev_eon ev) epoch j share)
  | _ => None
  end.
Definition ekg_ok (kds : kind → Prop) (H : nat) g : Prop := ∃ H0 r ms, H0 ≤ H ∧ ekg_from H0 g r ∧
  handle_shares epoch_point (new_epochkg r) ms = Some (g_epochkg g) ∧
  (∀ m, m ∈ ms → ∃ ev, ev ∈ of_kind KeyShare (g_eon g) (Pub H) ∧ share_msg (g_keypers g) ev = Some m) ∧
  (kds KeyShare → ∀ st b ev m, (g_eon g, st, b) ∈ eon_infos (Pub H) → ev ∈ of_kind KeyShare (g_eon g) (Pub H) →
     phase_at plen (ev_height ev) st = 4 → share_msg (g_keypers g) ev = Some m → m ∈ ms).
(** the same while shares are being handled: the shares in [l] are still to be handled *)
Definition ekg_mid (kds : kind → Prop) (Hs : nat) (l : list (eon_event (body P))) g : Prop := ∃ H0 r ms, H0 ≤ Hs ∧ ekg_from H0 g r ∧
  handle_shares epoch_point (new_epochkg r) ms = Some (g_epochkg g) ∧
  (∀ m, m ∈ ms → ∃ ev, ev ∈ of_kind KeyShare (g_eon g) (Pub Hs) ∧ share_msg (g_keypers g) ev = Some m) ∧
  (kds KeyShare → ∃ pre, of_kind KeyShare (g_eon g) (Pub Hs) = pre ++ l ∧ ∀ st b ev m, (g_eon g, st, b) ∈ eon_infos (Pub Hs) → ev ∈ pre →
     phase_at plen (ev_height ev) st = 4 → share_msg (g_keypers g) ev = Some m → m ∈ ms).

Lemma handle_shares_app (s : epochkg P) ms ms' : handle_shares epoch_point s (ms ++ ms') = handle_shares epoch_point s ms ≫= λ s', handle_shares epoch_point s' ms'.
Proof. revert s. induction ms as [|m ms IH]; intros s; [done|]. cbn [app handle_shares]. destruct (handle_share _ s m) as [[s' b]|]; [apply IH|done]. Qed.
Lemma sync_share_spec g ev g' out : sync_share epoch_point decrypt_batch g ev = Some (g', out) →
  g_eon g' = g_eon g ∧ g_keypers g' = g_keypers g ∧
  handle_shares epoch_point (g_epochkg g) (option_list (share_msg (g_keypers g) ev)) = Some (g_epochkg g') ∧
  ∀ b f, (b, f) ∈ out → ∃ ep key, b = Z.of_N ep ∧ f = decrypt_batch key ∧ ek_keys (g_epochkg g') !! ep = Some (Some key) ∧ ek_keys (g_epochkg g) !! ep = None.
Proof.
  unfold sync_share, share_msg. destruct (ev_body ev) as [| | | |sender ep share]; try done.
  destruct (find_address (g_keypers g) sender) as [j|]; cbn [mbind option_bind].
  2:{ intros [= <- <-]. repeat (split; [done|]). by intros b f ?%elem_of_nil. }
  destruct (ek_keys (g_epochkg g) !! ep) as [o|] eqn:Ek.
  - intros [= <- <-]. repeat (split; [done|]). split; [|by intros b f ?%elem_of_nil]. cbn. unfold handle_share. cbn [es_epoch]. by rewrite Ek.
  - intros ([s err] & E1 & E2)%bind_Some. change (option_list (Some ?a)) with [a]. cbn [handle_shares]. rewrite E1. apply (inj Some) in E2. apply pair_equal_spec in E2 as [<- <-].
    repeat (split; [done|]). intros b f Hin. destruct err; [by apply elem_of_nil in Hin|].
    cbn [g_epochkg]. destruct (ek_keys s !! ep) as [[key|]|] eqn:Es; try (by apply elem_of_nil in Hin).
    apply elem_of_list_singleton in Hin. injection Hin as -> ->. by exists ep, key.
Qed.
Lemma shares_decision (kds : kind → Prop) Hs l g g' out : (∀ ev, ev ∈ l → ev ∈ of_kind KeyShare (g_eon g) (Pub Hs)) →
  ekg_mid kds Hs l g → collect (sync_share epoch_point decrypt_batch) g l = Some (g', out) →
  ekg_ok kds Hs g' ∧ g_eon g' = g_eon g ∧ g_keypers g' = g_keypers g ∧
  ∀ b f, (b, f) ∈ out → ∃ ep key, b = Z.of_N ep ∧ f = decrypt_batch key ∧ ek_keys (g_epochkg g') !! ep = Some (Some key).
Proof.
  revert g out. induction l as [|ev l IH]; intros g out Hin Hm; cbn [collect].
  - intros [= <- <-]. split; [|split; [done|split; [done|by intros b f ?%elem_of_nil]]].
    destruct Hm as (H0 & r & ms & M1 & M2 & M3 & M4 & M5). exists H0, r, ms. repeat (split; [done|]). intros Hk st b e m Hi He. destruct (M5 Hk) as (pre & Epre & M6).
    rewrite app_nil_r in Epre. rewrite Epre in He. by apply (M6 st b).
  - intros ([g1 o1] & E1 & E)%bind_Some. apply bind_Some in E as ([g2 o2] & E2 & [= <- <-]).
    destruct (sync_share_spec _ _ _ _ E1) as (S1 & S2 & S3 & S4).
    assert (ekg_mid kds Hs l g1) as Hm1.
    { destruct Hm as (H0 & r & ms & M1 & M2 & M3 & M4 & M5). exists H0, r, (ms ++ option_list (share_msg (g_keypers g) ev)).
      split; [done|]. split. { destruct M2 as (k & st & c & idx & x & N1 & N2 & N3 & N4 & N5). exists k, st, c, idx, x. by rewrite S1, S2. }
      split; [rewrite handle_shares_app, M3; exact S3|]. rewrite S1, S2. split.
      - intros m [Hm|Hm]%elem_of_app; [by apply M4|]. exists ev. split; [apply Hin; by left|].
        destruct (share_msg _ ev); [|by apply elem_of_nil in Hm]. by apply elem_of_list_singleton in Hm as ->.
      - intros Hk. destruct (M5 Hk) as (pre & Epre & M6). exists (pre ++ [ev]). split; [by rewrite Epre, <-(assoc_L (++))|].
        intros st b e m Hi [He|He]%elem_of_app Hp Hs'; apply elem_of_app; [left; by eapply M6|].
        apply elem_of_list_singleton in He as ->. right. rewrite Hs'. by apply elem_of_list_singleton. }
    destruct (IH g1 o2) as (I1 & I2 & I3 & I4); [|done|done|].
    { intros e He. rewrite S1. apply Hin. by right. }
    split; [done|]. split; [congruence|]. split; [congruence|].
    intros b f [Hb|Hb]%elem_of_app; [|by apply I4]. destruct (S4 b f Hb) as (ep & key & -> & -> & Hkey & _). exists ep, key. split; [done|]. split; [done|].
    destruct I1 as (H0 & r & ms & _). assert (∃ ms, handle_shares epoch_point (g_epochkg g1) ms = Some (g_epochkg g2)) as (ms' & Hms).
    { clear -E2. revert g1 o2 E2. induction l as [|e l IH]; intros g1 o2; cbn [collect]; [intros [= -> _]; by exists []|].
      intros ([g3 o3] & E3 & E)%bind_Some. apply bind_Some in E as ([g4 o4] & E4 & [= <- <-]). destruct (IH _ _ E4) as (ms & Hms).
      destruct (sync_share_spec _ _ _ _ E3) as (_ & _ & S3 & _). eexists (_ ++ ms). rewrite handle_shares_app, S3. exact Hms. }
    clear -Hms Hkey. revert Hms Hkey. generalize (g_epochkg g1). induction ms' as [|m ms' IH]; intros s; cbn; [by intros [= ->]|].
    destruct (handle_share epoch_point s m) as [[s1 b]|] eqn:E; [|done]. intros H Hk. apply (IH s1 H). clear IH H.
    unfold handle_share in E. destruct (ek_keys s !! es_epoch m) as [k'|] eqn:Ek; [injection E as <- <-; done|].
    destruct (ek_pkshares s !! _) as [pks|]; [|done]. destruct (negb _); [injection E as <- <-; done|].
    injection E as E. unfold add_share in E. destruct (existsb _ _); [injection E as <- <-; done|].
    destruct (negb _); injection E as <- <-; cbn; [done|]. rewrite lookup_insert_ne; [done|]. congruence.
Qed.

Lemma events_from (kds : kind → Prop) H w m e kd ev : good kds H w → find_eon w m = Some e → ev ∈ get_events kd e H → ev ∈ of_kind kd m (Pub (seen w)).
Proof.
  intros Hg Hf Hev. pose proof Hg as (_ & _ & Hr). pose proof (repr_sorted _ _ _ _ _ (Hwf _) Hr) as HS.
  apply find_eon_spec in Hf as [He Hm]; [|done]. unfold get_events in Hev. rewrite from_height_spec in Hev by (by apply Hr).
  apply elem_of_list_filter in Hev as [_ Hev]. apply (r_from _ _ _ _ _ Hr) in Hev; [|done]. by rewrite Hm in Hev.
Qed.
Lemma of_kind_mono kd m (a b : nat) ev : a ≤ b → ev ∈ of_kind kd m (Pub a) → ev ∈ of_kind kd m (Pub b).
Proof. intros Hab H. rewrite (of_kind_split make_event chain Hho kd m a b Hab). apply elem_of_app. by left. Qed.
Lemma ekgs_decision (kds : kind → Prop) i gs gs' keys : good kds (in_height i) (in_shutter i) → (0 ≤ in_height i)%Z →
  let H := Z.to_nat (in_height i) in let Hs := seen (in_shutter i) in
  Forall (λ g, ekg_ok kds H g ∨ ekg_new H Hs g) gs → sync_ekgs epoch_point decrypt_batch i gs = Some (gs', keys) →
  Forall (ekg_ok kds Hs) gs' ∧ g_eon <$> gs' = g_eon <$> gs ∧
  ∀ b f, (b, f) ∈ keys → ∃ g ep key, g ∈ gs' ∧ b = Z.of_N ep ∧ f = decrypt_batch key ∧ ek_keys (g_epochkg g) !! ep = Some (Some key).
Proof.
  intros Hg Hpos H Hs. pose proof Hg as (Hg1 & Hg2 & _). assert (HH : H ≤ Hs) by (unfold H, Hs, seen_blocks; lia).
  assert (HHz : Z.of_nat H = in_height i) by (unfold H; lia).
  revert gs' keys. induction gs as [|g gs IH]; intros gs' keys HF; cbn [sync_ekgs].
  - intros [= <- <-]. split; [done|]. split; [done|]. by intros b f ?%elem_of_nil.
  - apply Forall_cons in HF as [Hgg HF]. intros (e & Ee & E)%bind_Some. apply bind_Some in E as ([g1 k1] & E1 & E). apply bind_Some in E as ([gs1 k2] & E2 & [= <- <-]).
    destruct (IH _ _ HF E2) as (I1 & I2 & I3).
    assert (∀ ev, ev ∈ get_events KeyShare e (in_height i) → ev ∈ of_kind KeyShare (g_eon g) (Pub Hs)) as Hfrom.
    { intros ev Hev. eapply events_from; [exact Hg|exact Ee|done]. }
    assert (kds KeyShare → of_kind KeyShare (g_eon g) (Pub Hs) = of_kind KeyShare (g_eon g) (Pub H) ++ get_events KeyShare e (in_height i)) as Hsplit.
    { intros Hk. rewrite (good_events make_event chain Hwf kds _ _ _ _ KeyShare Hg Hk Ee), <-HHz. by apply of_kind_split. }
    assert (Hmid : ekg_mid kds Hs (get_events KeyShare e (in_height i)) g).
    { destruct Hgg as [(H0 & r & ms & M1 & M2 & M3 & M4 & M5)|(r & N1 & N2 & N3)].
      - exists H0, r, ms. split; [lia|]. split; [done|]. split; [done|]. split.
        + intros m Hm. destruct (M4 m Hm) as (ev & ? & ?). exists ev. split; [by eapply of_kind_mono|done].
        + intros Hk. exists (of_kind KeyShare (g_eon g) (Pub H)). split; [by apply Hsplit|].
          intros st b ev m Hi He. apply (M5 Hk st b); [|done].
          destruct M2 as (k & st' & c & idx & x & N1 & _ & _ & N4 & _). pose proof (da_info _ _ _ _ _ _ _ _ _ _ _ _ _ N1) as Hinfo. rewrite <-N4 in Hinfo.
          pose proof (infos_mono _ _ Hho H0 H ltac:(lia) _ Hinfo) as H1. pose proof (infos_mono _ _ Hho H0 Hs ltac:(lia) _ Hinfo) as H2.
          destruct (eon_infos_unique _ _ _ _ _ _ (Hwf _) Hi H2) as [-> ->]. done.
      - exists Hs, r, []. split; [done|]. split; [done|]. split; [cbn; by rewrite N2|]. split; [by intros m ?%elem_of_nil|].
        intros Hk. exists (of_kind KeyShare (g_eon g) (Pub H)). split; [by apply Hsplit|].
        intros st b ev m Hi He Hp. specialize (N3 st b ev Hi He). lia. }
    destruct (shares_decision _ _ _ _ _ _ Hfrom Hmid E1) as (J1 & J2 & J3 & J4).
    split; [by constructor|]. split; [cbn; by rewrite J2, I2|].
    intros b f [Hb|Hb]%elem_of_app.
    + destruct (J4 b f Hb) as (ep & key & ? & ? & ?). exists g1, ep, key. split; [by left|done].
    + destruct (I3 b f Hb) as (g' & ep & key & ? & ? & ? & ?). exists g', ep, key. split; [by right|done].
Qed.

(** ** Decisions *)
Record kinv (kds : kind → Prop) (H : nat) (s : kstate P) : Prop := {
  ki_eons : ∀ m h b, (m, h, b) ∈ eon_infos (Pub H) → (m ≤ k_last_eon s)%N;
  ki_dkgs : Forall (dkg_ok H) (k_dkgs s);
  ki_ekgs : Forall (ekg_ok kds H) (k_ekgs s)
}.
(** a decision of a keyper that does not return early, as observed by [SyncModel] *)
Definition matches i (ob : obs) : Prop :=
  ob = ODecide (in_height i) (in_shutter i) ∧ v_synced (in_view i) = true ∧ shutter_is_keyper (in_shutter i) me = true.

Lemma check_in_frame (s : kstate P) w s' a : check_in me s w = (s', a) →
  k_last_eon s' = k_last_eon s ∧ k_dkgs s' = k_dkgs s ∧ k_ekgs s' = k_ekgs s ∧ k_next_share s' = k_next_share s ∧ k_x s' = k_x s ∧ k_last_config s' = k_last_config s.
Proof. unfold check_in. destruct (k_checked_in s); [by intros [= <- _]|]. destruct (bool_decide _); [by intros [= <- _]|]. by destruct (shutter_is_keyper _ _); intros [= <- _]. Qed.
Lemma send_config_frame (s : kstate P) w v s' a : send_config s w v = (s', a) →
  k_last_eon s' = k_last_eon s ∧ k_dkgs s' = k_dkgs s ∧ k_ekgs s' = k_ekgs s ∧ k_next_share s' = k_next_share s ∧ k_x s' = k_x s ∧ k_checked_in s' = k_checked_in s.
Proof.
  unfold send_config. destruct (last _) as [c|]; [|by intros [= <- _]]. cbv zeta. destruct (_ <=? _)%N; [by intros [= <- _]|].
  by destruct (v_configs v !! _); intros [= <- _].
Qed.

(** the parts of a full decision *)
Lemma decide_parts s i s' acts : node_synced (in_shutter i) = true → v_synced (in_view i) = true → shutter_is_keyper (in_shutter i) me = true →
  step s i = Some (s', acts) → ∃ a12 last new ekgs1 a3 keys a4 a5 a678,
    start_dkgs plen me (in_shutter i) (eons (in_shutter i)) (k_last_eon s) = (last, new) ∧
    handle_dkgs ecies_decrypt plen i (k_dkgs s ++ new) = Some (k_dkgs s', ekgs1, a3) ∧
    sync_ekgs epoch_point decrypt_batch i (k_ekgs s ++ ekgs1) = Some (k_ekgs s', keys) ∧
    publish_shares me epoch_point i (k_ekgs s') (k_next_share s) = Some (k_next_share s', a5) ∧
    k_last_eon s' = last ∧ acts = a12 ++ a3 ++ (KAction <$> a4) ++ a5 ++ (KAction <$> a678) ∧
    (∀ a, a ∈ a12 → a = KCheckIn ∨ ∃ m c, a = KBatchConfig m c).
Proof.
  intros Hn Hv Hk. unfold decide_step. rewrite Hn, Hv, Hk. cbn [negb].
  destruct (check_in me s (in_shutter i)) as [s1 a1] eqn:E1. destruct (send_config s1 (in_shutter i) (in_view i)) as [s2 a2] eqn:E2.
  pose proof (check_in_frame _ _ _ _ E1) as (C1 & C2 & C3 & C4 & C5 & _). pose proof (send_config_frame _ _ _ _ _ E2) as (D1 & D2 & D3 & D4 & D5 & _).
  rewrite D1, D2, D3, D4, D5, C1, C2, C3, C4, C5. destruct (start_dkgs _ _ _ _ _) as [leon new].
  intros ([[dkgs ekgs1] a3] & E3 & E)%bind_Some. apply bind_Some in E as ([ekgs keys] & E4 & E).
  apply bind_Some in E as ([x1 a4] & E5 & E). apply bind_Some in E as ([next a5] & E6 & E). apply bind_Some in E as (x2 & E7 & E).
  apply bind_Some in E as ([x3 a6] & E8 & E). apply bind_Some in E as ([x4 a7] & E9 & E). apply bind_Some in E as ([x5 a8] & E10 & E).
  apply (inj Some), pair_equal_spec in E as [<- <-]. cbn [k_dkgs k_ekgs k_next_share k_last_eon].
  exists (a1 ++ a2), leon, new, ekgs1, a3, keys, a4, a5, (a6 ++ a7 ++ a8). split; [done|]. split; [done|]. split; [done|]. split; [done|].
  split; [done|]. split; [by rewrite <-(assoc_L (++))|].
  intros a [Ha|Ha]%elem_of_app.
  - left. unfold check_in in E1. destruct (k_checked_in s); [injection E1 as _ <-; by apply elem_of_nil in Ha|].
    destruct (bool_decide _); [injection E1 as _ <-; by apply elem_of_nil in Ha|].
    destruct (shutter_is_keyper _ _); injection E1 as _ <-; [by apply elem_of_list_singleton in Ha|by apply elem_of_nil in Ha].
  - right. unfold send_config in E2. destruct (last _) as [c|]; [|injection E2 as _ <-; by apply elem_of_nil in Ha]. cbv zeta in E2.
    destruct (_ <=? _)%N; [injection E2 as _ <-; by apply elem_of_nil in Ha|].
    destruct (v_configs (in_view i) !! _); injection E2 as _ <-; [|by apply elem_of_nil in Ha]. apply elem_of_list_singleton in Ha as ->. eauto.
Qed.

Lemma decide_inv (kds : kind → Prop) s i s' acts : (∀ kd, kd ≠ KeyShare → kds kd) → good kds (in_height i) (in_shutter i) → (0 ≤ in_height i)%Z →
  node_synced (in_shutter i) = true → v_synced (in_view i) = true → shutter_is_keyper (in_shutter i) me = true →
  kinv kds (Z.to_nat (in_height i)) s → step s i = Some (s', acts) → kinv kds (seen (in_shutter i)) s'.
Proof.
  intros Hkds Hg Hpos Hn Hv Hk [I1 I2 I3] E. pose proof Hg as (Hg1 & Hg2 & _).
  set (H := Z.to_nat (in_height i)) in *. set (Hs := seen (in_shutter i)).
  assert (HH : H ≤ Hs) by (unfold H, Hs, seen_blocks; lia).
  destruct (decide_parts _ _ _ _ Hn Hv Hk E) as (a12 & last & new & ekgs1 & a3 & keys & a4 & a5 & a678 & E1 & E2 & E3 & E4 & E5 & _).
  destruct (start_dkgs_spec _ _ _ _ _ _ _ E1) as (S1 & S2 & S3 & S4).
  assert (Forall (dkg_ready H Hs) (k_dkgs s ++ new)) as Hready.
  { apply Forall_app. split.
    - eapply Forall_impl; [exact I2|]. intros k Hk'. by apply ok_ready.
    - apply Forall_forall. intros k Hk'. destruct (S4 k Hk') as (e & He & Hlt & Hst). eapply (new_ready make_event chain ecies_decrypt plen me kds); try done.
      intros m h b Hin. specialize (I1 m h b Hin). lia. }
  destruct (dkgs_decision make_event chain ecies_decrypt plen me Hwf Hho kds i _ _ _ _ Hkds Hg Hpos Hready E2) as (D1 & D2 & D3).
  destruct (ekgs_decision kds i (k_ekgs s ++ ekgs1) (k_ekgs s') keys Hg Hpos) as (G1 & G2 & G3); [|done|].
  { apply Forall_app. split; [eapply Forall_impl; [exact I3|]; intros; by left|eapply Forall_impl; [exact D3|]; intros; by right]. }
  split; [|done|done].
  intros m h b Hin. rewrite E5. unfold Hs in Hin. rewrite <-(good_infos make_event chain _ _ _ Hg) in Hin. apply elem_of_list_fmap in Hin as (e & Ee & He).
  injection Ee as -> _ _. by apply S2.
Qed.
Lemma all_snoc s l i : all s (l ++ [i]) = '(s1, al) ← all s l; '(s2, a) ← step s1 i; Some (s2, al ++ [a]).
Proof.
  revert s. induction l as [|j l IH]; intros s; cbn [app decide_all].
  - cbn. destruct (step s i) as [[s1 a]|]; done.
  - destruct (step s j) as [[s1 a]|]; [|done]. cbn [mbind option_bind]. rewrite IH.
    destruct (all s1 l) as [[s2 al]|]; [|done]. cbn [mbind option_bind]. destruct (step s2 i) as [[s3 a3]|]; done.
Qed.
Theorem run_inv (kds : kind → Prop) o H : (∀ kd, kd ≠ KeyShare → kds kd) → decisions kds o H →
  ∀ l s acts, Forall2 matches l o → all new_kstate l = Some (s, acts) → (0 ≤ H)%Z ∧ kinv kds (Z.to_nat H) s.
Proof.
  intros Hkds Hd. induction Hd as [|o H w Hd IH Hg Hn Hpos]; intros l s acts HF E.
  - apply Forall2_nil_inv_r in HF as ->. injection E as <- <-. split; [lia|]. split; [|constructor|constructor]. intros m h b Hin. by apply elem_of_nil in Hin.
  - apply Forall2_app_inv_r in HF as (l1 & l2 & HF1 & HF2 & ->). apply Forall2_cons_inv_r in HF2 as (i & l3 & (Eob & Hv & Hk) & HF3 & ->).
    apply Forall2_nil_inv_r in HF3 as ->. injection Eob as EH Ew. rewrite all_snoc in E.
    apply bind_Some in E as ([s1 al] & E1 & E). apply bind_Some in E as ([s2 a] & E2 & [= <- <-]).
    destruct (IH _ _ _ HF1 E1) as [_ IH']. destruct Hg as (Hg1 & Hg2 & Hg3). split; [lia|].
    subst H w. by apply (decide_inv kds s1 i s2 a).
Qed.
End Run.

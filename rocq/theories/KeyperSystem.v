(** Specification: the run of one keyper against the shuttermint chain, from its first start. *)
From stdpp Require Import list gmap.
From Coq Require Import ZArith NArith Lia.
From Verif Require Import Fq CryptoModel CryptoSpec PropsCrypto DkgModel DkgSpec DkgProofs PropsDkg EpochModel PropsEpoch ObserveModel ObserveProofs SyncModel SyncProofs ArithModel MainModel MainProofs
  DecideModel EncodingModel KeyperModel KeyperSpec KeyperDkgProofs DkgExact KeyperStepProofs KeyperHistProofs KeyperRunProofs KeyperLogProofs KeyperActionProofs.

(** what belongs to one keyper: address, decryption of evaluations, decryption of batches, signing, staggering, the order of Go's map
    iterations; and the functions of the main chain *)
Record keyper_params (P : pairing) := mkParams {
  kp_me : N; kp_ecies : list N → option (list N); kp_open : G1 P → list (list N) → list (list N);
  kp_keccak : list N → list N; kp_ecrecover : list N → Z → Z → Z → option N; kp_addr_bytes : N → list N; kp_batcher : N;
  kp_sign : list N → list N; kp_staggering : Z; kp_order : ∀ A, list A → list A
}.
Arguments kp_me {P}. Arguments kp_ecies {P}. Arguments kp_open {P}. Arguments kp_keccak {P}. Arguments kp_ecrecover {P}. Arguments kp_addr_bytes {P}.
Arguments kp_batcher {P}. Arguments kp_sign {P}. Arguments kp_staggering {P}. Arguments kp_order {P}. Arguments mkParams {P}.

Section System.
Context {P : pairing} {K R : Type}.
Notation sig := (N * list N)%type.
Notation shutter := (ObserveModel.shutter (body P) sconfig K sig).
Notation obs := (sync_obs (body P) sconfig K sig).
(** the chain: what [make_event] reads in its blocks *)
Context (make_event : R → Z → option (shutter_event (body P) sconfig K sig)) (chain : nat → list (list R)).
Notation Pub := (published make_event chain).
Context (plen : phase_length) (epoch_point : N → G1 P).

Definition decisions_of (p : keyper_params P) : kstate P → list (kinput P K) → option (kstate P * list (list (kaction P))) :=
  decide_all (kp_ecies p) plen (kp_me p) epoch_point (kp_open p) (kp_keccak p) (kp_ecrecover p) (kp_addr_bytes p) (kp_batcher p) (kp_sign p) (kp_staggering p) (kp_order p).

(** The keyper [p] has been running, with any number of restarts, until its shuttermint node was at block [height - 1]; [l] are the
    inputs of its decisions so far, [s] is its state, and it has submitted [acts], one list per decision.  Restarts only after the first decision (see
    C45). *)
Record keyper_run (p : keyper_params P) (height : nat) (l : list (kinput P K)) (s : kstate P) (acts : list (list (kaction P))) : Prop := {
  kr_history : ∃ y es o, SyncModel.history make_event chain y es o ∧ crash_after_decision make_event chain es ∧ sync_height y = Z.of_nat height ∧
    Forall2 (matches (kp_me p)) l o;
  kr_run : decisions_of p new_kstate l = Some (s, acts)
}.
(** the same, when no decision is skipped *)
Record keyper_run_no_skip (p : keyper_params P) (height : nat) (l : list (kinput P K)) (s : kstate P) (acts : list (list (kaction P))) : Prop := {
  kn_history : ∃ y es o, SyncModel.history make_event chain y es o ∧ Forall no_skip es ∧ sync_height y = Z.of_nat height ∧ Forall2 (matches (kp_me p)) l o;
  kn_run : decisions_of p new_kstate l = Some (s, acts)
}.
(** the block that is next when the decision with input [i] is made *)
Definition next_block (i : kinput P K) : nat := Z.to_nat (current_block (in_shutter i) + 1).
(** eon [n] was started in block [start] for the batches from [batch] on; the chain has [m] blocks *)
Definition started (m : nat) (n : N) (start : Z) (batch : N) : Prop := EonStarted start n batch ∈ Pub m.
(** [c] was the config for batch [b] when the chain had [m] blocks: the last one that starts at [b] or earlier *)
Definition config_at (m : nat) (b : N) (c : sconfig) : Prop :=
  ∃ pre post, Pub m = pre ++ BatchConfig c :: post ∧ (sc_start c ≤ b)%N ∧ ∀ c', BatchConfig c' ∈ post → (b < sc_start c')%N.
(** the config for eon [n]'s batches does not change after the eon is started *)
Definition settled (n : N) : Prop := ∀ m pre st b post c, Pub m = pre ++ EonStarted st n b :: post → BatchConfig c ∈ post → (b < sc_start c)%N.
(** the key generation of eon [n] as recorded in the first [m] blocks *)
Definition transcript_of (m : nat) (n : N) (start : Z) (keypers : list N) : list (public P) :=
  transcript plen start keypers (of_kind Commitment n (Pub m)) (of_kind Accusation n (Pub m)) (of_kind Apology n (Pub m)).
(** slices have a length that fits into a uint64 *)
Definition sized : Prop := ∀ m e sender gs, EonEvent Commitment e ∈ Pub m → ev_body e = BCommitment sender gs → (Z.of_nat (length gs) < 2 ^ 64)%Z.

(** a decision in [l] was made when eon [n] was known and the next block was in its phase [ph] *)
Definition decided_in (l : list (kinput P K)) (n : N) (ph : nat) : Prop :=
  ∃ i st b, i ∈ l ∧ started (next_block i) n st b ∧ phase_at plen (Z.of_nat (next_block i)) st = ph.
(** the first commitment with [t] coefficients that keyper [j] published in the dealing phase *)
Definition recorded_commitment (m : nat) (n : N) (st : Z) (keypers : list N) (t : N) (j : nat) : option (list (G2 P)) :=
  head (commitments_by t j (in_phase plen st dealing (of_kind Commitment n (Pub m)) ≫= commitment_public keypers)).
(** the first valid evaluation that keyper [j] published in the dealing phase for keyper [idx] *)
Definition recorded_eval (decrypt : list N → option (list N)) (m : nat) (n : N) (st : Z) (keypers : list N) (idx : N) (j : nat) : option Z :=
  head (evals_by j (in_phase plen st dealing (of_kind PolyEval n (Pub m)) ≫= evals_for decrypt keypers idx)).
(** keyper [j] dealt: the evaluation for keyper [idx] is the value at its point of the polynomial that [j] committed to *)
Definition dealt_to (decrypt : list N → option (list N)) (m : nat) (n : N) (st : Z) (keypers : list N) (t idx : N) (j : nat) : Prop :=
  ∃ gs v p, recorded_commitment m n st keypers t j = Some gs ∧ recorded_eval decrypt m n st keypers idx j = Some v ∧
    commits p gs ∧ congr v (poly_value p (Z.of_N idx + 1)).
(** keyper [j] accused keyper [idx] in the accusing phase *)
Definition accused_by (m : nat) (n : N) (st : Z) (keypers : list N) (idx : N) (j : nat) : Prop :=
  PAccusation (mkAccusationMsg n (N.of_nat j) idx) ∈ in_phase plen st accusing (of_kind Accusation n (Pub m)) ≫= accusation_public (P:=P) keypers.

(** * Proofs *)
Context (Hwf : ∀ m, well_formed (Pub m)) (Hho : heights_ok make_event).
Notation ks := (λ k : kind, k ≠ KeyShare).
Notation dkg_at := (dkg_at make_event chain).
Notation config_for := (config_for make_event chain).

Lemma run_facts p m l s acts : keyper_run p m l s acts →
  kinv make_event chain (kp_ecies p) plen (kp_me p) epoch_point ks m s ∧ linv make_event chain (kp_ecies p) plen (kp_me p) epoch_point m l (mjoin acts) s ∧
  Forall2 (λ i a, ∀ b, b ∈ a → on_time make_event chain plen i b) l acts.
Proof.
  intros [(y & es & o & H1 & H2 & H3 & H4) H5]. pose proof (history_decisions make_event chain Hwf Hho _ _ _ H1 H2) as Hd.
  unfold decisions_of in H5.
  destruct (run_inv make_event chain _ plen _ epoch_point _ _ _ _ _ _ _ _ Hwf Hho ks o (sync_height y) ltac:(done) Hd l s acts H4 H5) as [_ I1].
  destruct (run_linv make_event chain _ plen _ epoch_point _ _ _ _ _ _ _ _ Hwf Hho ks o (sync_height y) ltac:(done) Hd l s acts H4 H5) as (_ & I2 & I3).
  rewrite H3, Nat2Z.id in I1, I2. done.
Qed.
Lemma run_facts_no_skip p m l s acts : keyper_run_no_skip p m l s acts → kinv make_event chain (kp_ecies p) plen (kp_me p) epoch_point (λ _, True) m s.
Proof.
  intros [(y & es & o & H1 & H2 & H3 & H4) H5]. pose proof (history_decisions_no_skip make_event chain Hwf Hho _ _ _ H1 H2) as Hd.
  unfold decisions_of in H5.
  destruct (run_inv make_event chain _ plen _ epoch_point _ _ _ _ _ _ _ _ Hwf Hho (λ _, True) o (sync_height y) ltac:(done) Hd l s acts H4 H5) as [_ I1].
  by rewrite H3, Nat2Z.id in I1.
Qed.

(** ** Configs *)
Lemma last_config_app (cs new : list sconfig) b : (∀ c, c ∈ new → (b < sc_start c)%N) →
  last_config_for (cs ++ new) (length (cs ++ new)) b = last_config_for cs (length cs) b.
Proof.
  induction new as [|c new IH] using rev_ind; intros H; [by rewrite app_nil_r|]. rewrite (assoc_L (++)), app_length. cbn [length]. rewrite Nat.add_1_r. cbn [last_config_for].
  rewrite lookup_app_r, Nat.sub_diag by done. cbn [lookup list_lookup].
  destruct (N.leb_spec (sc_start c) b) as [Hle|_]; [exfalso; specialize (H c ltac:(apply elem_of_app; right; by left)); lia|].
  rewrite <-IH by (intros c' Hc'; apply H, elem_of_app; by left).
  assert (∀ n, n ≤ length (cs ++ new) → last_config_for ((cs ++ new) ++ [c]) n b = last_config_for (cs ++ new) n b) as G; [|by apply G].
  induction n as [|n IHn]; intros Hn; [done|]. cbn [last_config_for]. rewrite lookup_app_l by lia. rewrite IHn by lia. done.
Qed.
Lemma published_app (a b : nat) : a ≤ b → ∃ evs, Pub b = Pub a ++ evs.
Proof. intros H. destruct (published_prefix make_event chain Hho a (b - a)) as (evs & E & _). replace (a + (b - a)) with b in E by lia. by exists evs. Qed.
Lemma settled_config n st b c c' (a a' : nat) : settled n → (n, st, b) ∈ eon_infos (Pub a) → (n, st, b) ∈ eon_infos (Pub a') → config_for b c a → config_for b c' a' → c = c'.
Proof.
  assert (∀ a a' c c', a ≤ a' → settled n → (n, st, b) ∈ eon_infos (Pub a) → config_for b c a → config_for b c' a' → c = c') as G.
  { clear -Hwf Hho epoch_point. intros a a' c c' Ha Hs Hi -> ->. destruct (published_app a a' Ha) as (evs & E). unfold config_list at 3 4. rewrite E, omap_app'.
    symmetry. apply last_config_app. intros d (ev & Hev & Hd)%elem_of_list_omap. destruct ev as [|bc| | |]; try done. injection Hd as ->.
    apply eon_infos_elem, elem_of_list_split in Hi as (l1 & l2 & Ei). apply (Hs a' l1 st b (l2 ++ evs) d); [rewrite E, Ei; by rewrite <-(assoc_L (++))|].
    apply elem_of_app. by right. }
  intros Hs H1 H2 H3 H4. destruct (Nat.le_ge_cases a a'); [by eapply (G a a')|symmetry; by eapply (G a' a)].
Qed.
Lemma config_for_at m b c me idx : config_for b c m → find_address (sc_keypers c) me = Some idx → config_at m b c.
Proof.
  intros -> Hidx. unfold config_at.
  assert (∀ cs n, n ≤ length cs → (∀ c, c ∈ drop n cs → (b < sc_start c)%N) → find_address (sc_keypers (last_config_for cs n b)) me = Some idx →
    ∃ l1 l2, cs = l1 ++ last_config_for cs n b :: l2 ∧ (sc_start (last_config_for cs n b) ≤ b)%N ∧ ∀ c, c ∈ l2 → (b < sc_start c)%N) as G.
  { clear. intros cs. induction n as [|n IH]; intros Hn Hd; cbn [last_config_for]; [done|].
    destruct (cs !! n) as [c|] eqn:Ec; [|done]. destruct (N.leb_spec (sc_start c) b) as [Hle|Hlt].
    - intros _. exists (take n cs), (drop (S n) cs). split; [by rewrite take_drop_middle|done].
    - intros H. apply IH; [lia| |done]. intros c' Hc'. rewrite (drop_S _ _ _ Ec) in Hc'. apply elem_of_cons in Hc' as [->|Hc']; [done|by apply Hd]. }
  destruct (G (config_list (Pub m)) (length (config_list (Pub m)))) as (l1 & l2 & E & H1 & H2); [done| |done|].
  { intros c Hc. rewrite drop_all in Hc. by apply elem_of_nil in Hc. }
  clear G. set (c := last_config_for _ _ b) in *. clearbody c. clear Hidx. revert l1 l2 E H2. generalize (Pub m) as evs.
  induction evs as [|ev evs IH]; intros l1 l2 E H2; [by destruct l1|].
  destruct ev as [|bc| | |]; cbn [config_list omap list_omap] in E.
  2:{ destruct l1 as [|c1 l1]; cbn [app] in E; injection E as -> E.
      - exists [], evs. split; [done|]. split; [done|]. intros c' Hc'. apply H2. rewrite <-E. apply elem_of_list_omap. by exists (BatchConfig c').
      - destruct (IH l1 l2 E H2) as (pre & post & -> & ? & ?). exists (BatchConfig c1 :: pre), post. done. }
  all: destruct (IH l1 l2 E H2) as (pre & post & -> & ? & ?); eexists (_ :: pre), post; (split; [reflexivity|done]).
Qed.

(** ** The result of a key generation *)
(** [r] is the result, for the keyper with index [idx], of the key generation that the first [m] blocks record *)
Record generated (m : nat) (n : N) (st : Z) (c : sconfig) (idx : N) (r : result P) : Prop := {
  ge_run : ∃ cs d, run (new_dkg P n (N.of_nat (length (sc_keypers c))) (sc_threshold c) idx) cs = Some d ∧ compute_result d = Some r ∧
    broadcasts cs = transcript_of m n st (sc_keypers c) ∧ (sized → go_sized cs);
  ge_over : phase_at plen (Z.of_nat m) st = finalized
}.
Lemma transcript_stable n st keypers (a b : nat) : a ≤ b → phase_at plen (Z.of_nat a) st = finalized → transcript_of b n st keypers = transcript_of a n st keypers.
Proof.
  intros Hab Hp. unfold transcript_of, transcript.
  rewrite !(in_phase_later make_event chain plen Hho _ st _ n a b Hab) by (rewrite Hp; unfold finalized, dealing, accusing, apologizing; lia). done.
Qed.
Lemma dkg_at_generated dec m me k st c idx x r : dkg_at dec plen me m m 4 k st c idx x → phase_at plen (Z.of_nat m) st = 4 → compute_result (k_pure k) = Some r →
  generated m (k_eon k) st c idx r.
Proof.
  intros Hat Hp Hr. destruct Hat as [D1 D2 D3 D4 D5 D6 D7 D8 D9 D12]. split; [|done].
  destruct D5 as [R1 R2 R3 _ _ _]. exists (calls_upto 4 x), (k_pure k). split; [done|]. split; [done|].
  assert (Eb : broadcasts (calls_upto 4 x) = transcript_of m (k_eon k) st (sc_keypers c)).
  { unfold calls_upto. cbn [Nat.leb app]. unfold transcript_of, transcript. rewrite <-D6, <-D7, <-D8. unfold broadcasts.
    cbn [omap list_omap public_of]. rewrite omap_app'. cbn [omap list_omap public_of]. rewrite omap_app'. cbn [omap list_omap public_of]. by rewrite omap_app'. }
  split; [done|]. intros Hs cm Hcm.
  assert (PCommitment cm ∈ transcript_of m (k_eon k) st (sc_keypers c)) as Hin.
  { rewrite <-Eb. apply elem_of_list_omap. by exists (CCommitment cm). }
  unfold transcript_of, transcript in Hin.
  repeat match goal with
         | H : _ ∈ [_] ++ _ |- _ => apply elem_of_cons in H as [?|H]; [done|]
         | H : _ ∈ [_] |- _ => apply elem_of_list_singleton in H; done
         | H : _ ∈ _ ++ _ |- _ => apply elem_of_app in H as [H|H]
         end; apply elem_of_list_bind in Hin as (e & He & Hine).
  - unfold commitment_public in He. destruct (ev_body e) as [sender gs| | | |] eqn:Eb'; try (by apply elem_of_nil in He).
    destruct (find_address _ sender) as [j|]; [|by apply elem_of_nil in He]. apply elem_of_list_singleton in He. injection He as ->. cbn.
    apply elem_of_list_In, filter_In in Hine as [Hine _]. apply elem_of_list_In, of_kind_elem in Hine as [Hine _]. by eapply (Hs m).
  - unfold accusation_public in He. destruct (ev_body e); try (by apply elem_of_nil in He). apply elem_of_list_omap in He as (a & _ & He).
    apply bind_Some in He as (? & _ & He). by apply bind_Some in He as (? & _ & He).
  - unfold apology_public in He. destruct (ev_body e); try (by apply elem_of_nil in He). apply elem_of_list_omap in He as (a & _ & He).
    apply bind_Some in He as (? & _ & He). by apply bind_Some in He as (? & _ & He).
Qed.
Lemma generated_later m m' n st c idx r : m ≤ m' → generated m n st c idx r → generated m' n st c idx r.
Proof.
  intros Hm [(cs & d & R1 & R2 & R3 & R4) Hp]. split.
  - exists cs, d. split; [done|]. split; [done|]. split; [|done]. rewrite R3. symmetry. by apply transcript_stable.
  - pose proof (phase_mono plen (Z.of_nat m) (Z.of_nat m') st ltac:(lia)). pose proof (phase_le_4 plen (Z.of_nat m') st). rewrite Hp in H. unfold finalized in *. lia.
Qed.
End System.

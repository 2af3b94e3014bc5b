(** What the keyper submits for the key generations, over all decisions. *)
From stdpp Require Import list gmap.
From Coq Require Import ZArith NArith Lia.
From Verif Require Import Fq CryptoModel DkgModel DkgSpec DkgProofs EpochModel ObserveModel ObserveProofs SyncModel SyncProofs ArithModel MainModel DecideModel EncodingModel
  KeyperModel KeyperSpec KeyperDkgProofs KeyperStepProofs KeyperHistProofs KeyperRunProofs.

Section Log.
Context {P : pairing} {K R : Type}.
Notation sig := (N * list N)%type.
Notation shutter := (ObserveModel.shutter (body P) sconfig K sig).
Notation obs := (sync_obs (body P) sconfig K sig).
Context (make_event : R → Z → option (shutter_event (body P) sconfig K sig)) (chain : nat → list (list R)).
Notation Pub := (published make_event chain).
Context (ecies_decrypt : list N → option (list N)) (plen : phase_length) (me : N).
Context (Hwf : ∀ m, well_formed (Pub m)) (Hho : heights_ok make_event).
Implicit Types (w : shutter) (k : kdkg P) (g : kekg P) (i : kinput P K) (x : execution P) (acts : list (kaction P)).
Notation good := (good make_event chain).
Notation seen := (@seen_blocks (body P) sconfig K sig).
Notation dkg_at := (dkg_at make_event chain ecies_decrypt plen me).
Notation dkg_step := (dkg_step make_event chain plen me).

(** some decision was made when eon [n] was known and the next block was in phase [p] *)
Definition past (l : list (kinput P K)) (n : N) (p : nat) : Prop := ∃ i st b, i ∈ l ∧ (n, st, b) ∈ eon_infos (Pub (seen (in_shutter i))) ∧
  phase_at plen (Z.of_nat (seen (in_shutter i))) st = p.
Lemma past_snoc l i n p : past (l ++ [i]) n p ↔ past l n p ∨ ∃ st b, (n, st, b) ∈ eon_infos (Pub (seen (in_shutter i))) ∧ phase_at plen (Z.of_nat (seen (in_shutter i))) st = p.
Proof.
  split.
  - intros (j & st & b & [Hj|Hj]%elem_of_app & H1 & H2); [left; by exists j, st, b|]. apply elem_of_list_singleton in Hj as ->. right. by exists st, b.
  - intros [(j & st & b & Hj & H1 & H2)|(st & b & H1 & H2)]; [exists j, st, b; split; [apply elem_of_app; by left|done]|].
    exists i, st, b. split; [apply elem_of_app; right; by apply elem_of_list_singleton|done].
Qed.

(** the evaluations to send *)
Definition dealt (n num t idx : N) x (evals : list eval_msg) : Prop := ∃ p cm, start_phase1 (new_dkg P n num t idx) (ex_rnd x) = Some (p, Some (cm, evals)).
Definition addresses (keypers : list N) (ms : list eval_msg) : list N := omap (λ m, keypers !! N.to_nat (em_receiver m)) ms.
Record log_ok (l : list (kinput P K)) (n num t idx : N) (keypers : list N) (q : nat) x (out : list eval_msg) acts : Prop := {
  lo_commitment : (commitments_sent n acts = [] ∧ ¬ past l n 1) ∨ (1 ≤ q ∧ ∃ m, sent_commitment n num t idx x = Some m ∧ commitments_sent n acts = [cm_gammas m]);
  lo_accusation : (accusations_sent n acts = [] ∧ (past l n 2 → 2 ≤ q ∧ sent_accusations n num t idx x = [])) ∨
    (2 ≤ q ∧ ∃ a, accusations_sent n acts = [a] ∧ a ≠ [] ∧ Forall2 (λ a m, keypers !! N.to_nat (am_accused m) = Some a) a (sent_accusations n num t idx x));
  lo_apology : (apologies_sent n acts = [] ∧ (past l n 3 → 3 ≤ q ∧ sent_apologies n num t idx x = [])) ∨
    (3 ≤ q ∧ ∃ a, apologies_sent n acts = [(a, pm_eval <$> sent_apologies n num t idx x)] ∧
       a ≠ [] ∧ Forall2 (λ a m, keypers !! N.to_nat (pm_accuser m) = Some a) a (sent_apologies n num t idx x));
  lo_off : q = 0 → out = [] ∧ evals_sent n acts = [];
  lo_dealt : 1 ≤ q → ∃ evals, dealt n num t idx x evals ∧ (∀ m, m ∈ out → m ∈ evals) ∧
    (∀ r b, (r, b) ∈ evals_sent n acts → ∃ i key m, i ∈ l ∧ enc_keys (in_shutter i) !! r = Some key ∧ m ∈ evals ∧
       keypers !! N.to_nat (em_receiver m) = Some r ∧ b = in_enc i key (big_bytes (em_eval m))) ∧
    (q = 1 → ∀ m r, m ∈ evals → keypers !! N.to_nat (em_receiver m) = Some r → m ∈ out ∨ r ∈ (evals_sent n acts).*1) ∧
    (∀ i st b m r key, i ∈ l → (n, st, b) ∈ eon_infos (Pub (seen (in_shutter i))) → phase_at plen (Z.of_nat (seen (in_shutter i))) st = 1 →
       m ∈ evals → keypers !! N.to_nat (em_receiver m) = Some r → enc_keys (in_shutter i) !! r = Some key → r ∈ (evals_sent n acts).*1);
  lo_now : q ≠ 0 → past l n q;
  lo_past : ∀ p, past l n p → p ≤ q;
  lo_once : NoDup keypers → NoDup ((evals_sent n acts).*1 ++ addresses keypers out)
}.

Lemma sent_commitment_stable n num t idx x x' : ex_off x' = ex_off x → ex_rnd x' = ex_rnd x → sent_commitment n num t idx x' = sent_commitment n num t idx x.
Proof. intros H1 H2. unfold sent_commitment, until_start1. by rewrite H1, H2. Qed.
Lemma sent_accusations_stable n num t idx x x' : ex_off x' = ex_off x → ex_rnd x' = ex_rnd x → ex_dealing x' = ex_dealing x →
  sent_accusations n num t idx x' = sent_accusations n num t idx x.
Proof. intros H1 H2 H3. unfold sent_accusations, until_start2, until_start1. by rewrite H1, H2, H3. Qed.
Lemma sent_apologies_stable n num t idx x x' : ex_off x' = ex_off x → ex_rnd x' = ex_rnd x → ex_dealing x' = ex_dealing x → ex_accusing x' = ex_accusing x →
  sent_apologies n num t idx x' = sent_apologies n num t idx x.
Proof. intros H1 H2 H3 H4. unfold sent_apologies, until_start3, until_start2, until_start1. by rewrite H1, H2, H3, H4. Qed.

(** the evaluations go to distinct keypers *)
Lemma deal_evals_receivers (s : dkg P) p l s' ms : deal_evals s p l = Some (s', ms) →
  (em_receiver <$> ms) = List.filter (λ r, negb (r =? d_keyper s)%N) (N.of_nat <$> l).
Proof.
  revert s s' ms. induction l as [|r l IH]; intros s s' ms; cbn [deal_evals]; [by intros [= <- <-]|].
  destruct (eval_for_keyper _ _) as [v|]; [|done]. cbn [fmap list_fmap List.filter]. destruct (N.eqb_spec (N.of_nat r) (d_keyper s)) as [E|E]; cbn [negb].
  - destruct (handle_eval s _) as [s1| |] eqn:E1; [|done..]. intros H. rewrite (IH _ _ _ H). f_equal.
    assert (d_keyper s1 = d_keyper s) as ->; [|done].
    assert (run s [CEval (mkEvalMsg (d_eon s) (d_keyper s) (N.of_nat r) v)] = Some s1) as Hr by (cbn; by rewrite E1). by apply run_frame in Hr as (_ & _ & _ & -> & _).
  - destruct (deal_evals s p l) as [[s1 ms1]|] eqn:E1; [|done]. intros [= <- <-]. cbn [fmap list_fmap]. f_equal. by eapply IH.
Qed.
Lemma dealt_receivers n num t idx x evals : dealt n num t idx x evals → NoDup (em_receiver <$> evals) ∧ ∀ m, m ∈ evals → (em_receiver m < num)%N ∧ em_receiver m ≠ idx.
Proof.
  intros (p & cm & E). unfold start_phase1 in E. destruct (set_phase _ _) as [s1|] eqn:E1; [|done]. apply set_phase_inv in E1 as [_ ->].
  destruct (random_polynomial _ _) as [pl|]; [|done]. destruct (deal_evals _ _ _) as [[s3 ms]|] eqn:Ed; [|done]. injection E as _ _ <-.
  apply deal_evals_receivers in Ed. cbn in Ed. split.
  - rewrite Ed. apply NoDup_ListNoDup, List.NoDup_filter, NoDup_ListNoDup, NoDup_fmap_2; [intros a b ?; lia|]. apply NoDup_seq.
  - intros m Hm. apply (elem_of_list_fmap_1 em_receiver) in Hm. rewrite Ed in Hm. apply elem_of_list_In, filter_In in Hm as [Hm Hne].
    apply elem_of_list_In, elem_of_list_fmap in Hm as (r & Er & Hr%elem_of_seq). apply negb_true_iff, N.eqb_neq in Hne. split; [lia|congruence].
Qed.
Lemma addresses_nodup keypers ms : NoDup keypers → NoDup (em_receiver <$> ms) → NoDup (addresses keypers ms).
Proof.
  intros Hk. induction ms as [|m ms IH]; cbn; intros Hn; [constructor|]. apply NoDup_cons in Hn as [Hn1 Hn2].
  destruct (keypers !! N.to_nat (em_receiver m)) as [a|] eqn:Ea; [|by apply IH]. constructor; [|by apply IH].
  intros (m' & Hm' & E)%elem_of_list_omap. apply Hn1. apply elem_of_list_fmap. exists m'. split; [|done].
  pose proof (NoDup_lookup _ _ _ _ Hk Ea E). lia.
Qed.

(** ** One decision, one DKG *)
Definition eon_of (a : kaction P) : option N :=
  match a with KCommitment n _ | KPolyEval n _ _ | KAccusation n _ | KApology n _ _ => Some n | _ => None end.
Lemma none_sent n acts : (∀ a, a ∈ acts → eon_of a ≠ Some n) →
  commitments_sent n acts = [] ∧ evals_sent n acts = [] ∧ accusations_sent n acts = [] ∧ apologies_sent n acts = [].
Proof.
  intros H. split_and!; apply bind_nil; intros a Ha; specialize (H a Ha); destruct a as [| |m ?|m ? ?|m ?|m ? ?| | | |]; try done;
    destruct (N.eqb_spec m n); try done; subst; done.
Qed.
Lemma sent_app n (a b : list (kaction P)) : commitments_sent n (a ++ b) = commitments_sent n a ++ commitments_sent n b ∧ evals_sent n (a ++ b) = evals_sent n a ++ evals_sent n b ∧
  accusations_sent n (a ++ b) = accusations_sent n a ++ accusations_sent n b ∧ apologies_sent n (a ++ b) = apologies_sent n a ++ apologies_sent n b.
Proof. split_and!; apply bind_app. Qed.

(** sendPolyEvals *)
Lemma send_step i k k' a : send_poly_evals i k = Some (k', a) →
  (a = [] ∨ ∃ ready, a = [KPolyEval (k_eon k) ready.*1 ready.*2] ∧ ∀ r b, (r, b) ∈ ready → ∃ key m, enc_keys (in_shutter i) !! r = Some key ∧ m ∈ k_outgoing k ∧
     k_keypers k !! N.to_nat (em_receiver m) = Some r ∧ b = in_enc i key (big_bytes (em_eval m))) ∧
  (∀ m, m ∈ k_outgoing k' → m ∈ k_outgoing k) ∧
  (1 < d_phase (k_pure k) → a = []) ∧
  (d_phase (k_pure k) ≤ 1 → ∀ m r, m ∈ k_outgoing k → k_keypers k !! N.to_nat (em_receiver m) = Some r →
     (m ∈ k_outgoing k' ∧ enc_keys (in_shutter i) !! r = None) ∨ r ∈ (evals_sent (k_eon k) a).*1) ∧
  (∀ l, NoDup (l ++ addresses (k_keypers k) (k_outgoing k)) → NoDup (l ++ (evals_sent (k_eon k) a).*1 ++ addresses (k_keypers k) (k_outgoing k'))).
Proof.
  unfold send_poly_evals. destruct (k_outgoing k) as [|m0 out0] eqn:Eo.
  { intros [= <- <-]. split; [by left|]. rewrite Eo. split; [done|]. split; [done|]. split; [by intros _ m r ?%elem_of_nil|done]. }
  rewrite <-Eo. clear Eo. set (out := k_outgoing k). unfold dealing. destruct (Nat.ltb_spec 1 (d_phase (k_pure k))) as [Hlt|Hge].
  { intros [= <- <-]. cbn [set_outgoing k_outgoing]. split; [by left|]. split; [by intros m ?%elem_of_nil|]. split; [done|]. split; [lia|].
    intros l Hl. cbn. rewrite app_nil_r. by apply NoDup_app in Hl as [? _]. }
  intros (l' & El & E)%bind_Some. cbv zeta in E.
  set (ready := omap _ l') in E. set (still := omap _ l') in E.
  assert ((∀ r b, (r, b) ∈ ready → ∃ key m, enc_keys (in_shutter i) !! r = Some key ∧ m ∈ out ∧
     k_keypers k !! N.to_nat (em_receiver m) = Some r ∧ b = in_enc i key (big_bytes (em_eval m))) ∧
    (∀ m, m ∈ still → m ∈ out) ∧
    (∀ m r, m ∈ out → k_keypers k !! N.to_nat (em_receiver m) = Some r → (m ∈ still ∧ enc_keys (in_shutter i) !! r = None) ∨ r ∈ ready.*1) ∧
    ready.*1 ++ addresses (k_keypers k) still ≡ₚ addresses (k_keypers k) out) as (Hr & Hs & Hc & Hp).
  { subst ready still. revert El. clear E. generalize out. intros o. revert l'. induction o as [|m o IH]; intros l'; cbn [mapM].
    - intros [= <-]. split; [by intros r b ?%elem_of_nil|]. split; [done|]. split; [by intros m r ?%elem_of_nil|done].
    - intros (y & Ey & E)%bind_Some. apply bind_Some in E as (l1 & El & [= <-]). apply bind_Some in Ey as (a0 & Ea & [= <-]).
      destruct (IH _ El) as (I1 & I2 & I3 & I4). clear IH. cbn [omap list_omap]. destruct (enc_keys (in_shutter i) !! a0) as [key|] eqn:Ek.
      + split; [|split; [|split]].
        * intros r b [Hin|Hin]%elem_of_cons; [injection Hin as -> ->; exists key, m; split_and!; try done; by left|].
          destruct (I1 r b Hin) as (key' & m' & ? & ? & ? & ?). exists key', m'. split_and!; try done. by right.
        * intros m' Hm'. right. by apply I2.
        * intros m' r [->|Hm']%elem_of_cons Hr; [rewrite Ea in Hr; injection Hr as ->; right; by left|].
          destruct (I3 m' r Hm' Hr) as [?|?]; [by left|right; by right].
        * unfold addresses at 2. cbn [omap list_omap fmap list_fmap fst app]. rewrite Ea. by constructor.
      + split; [|split; [|split]].
        * intros r b Hin. destruct (I1 r b Hin) as (key' & m' & ? & ? & ? & ?). exists key', m'. split_and!; try done. by right.
        * intros m' [->|Hm']%elem_of_cons; [by left|right; by apply I2].
        * intros m' r [->|Hm']%elem_of_cons Hr; [rewrite Ea in Hr; injection Hr as ->; left; split; [by left|done]|].
          destruct (I3 m' r Hm' Hr) as [[? ?]|?]; [left; split; [by right|done]|by right].
        * unfold addresses. cbn [omap list_omap]. rewrite Ea. rewrite <-Permutation_middle. by constructor. }
  assert (∀ l, NoDup (l ++ addresses (k_keypers k) out) → NoDup (l ++ ready.*1 ++ addresses (k_keypers k) still)) as Hnd.
  { intros l Hl. by rewrite Hp. }
  destruct ready as [|rd ready'] eqn:Erd.
  - apply (inj Some) in E. apply pair_equal_spec in E as [<- <-]. split; [by left|]. split; [done|]. split; [done|]. split; [|done].
    intros _ m r Hm Hr'. destruct (Hc m r Hm Hr') as [[? ?]|Hin]; [left; done|by apply elem_of_nil in Hin].
  - apply (inj Some) in E. apply pair_equal_spec in E as [<- <-]. rewrite <-Erd in *. cbn [set_outgoing k_outgoing].
    assert (evals_sent (P:=P) (k_eon k) [KPolyEval (k_eon k) ready.*1 ready.*2] = ready) as Ee.
    { unfold evals_sent. cbn. rewrite N.eqb_refl, app_nil_r. apply zip_fst_snd. }
    rewrite Ee. split; [right; by exists ready|]. split; [done|]. split; [lia|]. split; [done|done].
Qed.

(** decide.go:603-616, one DKG *)
Definition handle_one i k : option (kdkg P * option (kekg P) * list (kaction P)) :=
  if is_finalized k then Some (k, None, [])
  else e ← find_eon (in_shutter i) (k_eon k); '(k1, g, a1) ← sync_dkg ecies_decrypt plen i k e; '(k2, a2) ← send_poly_evals i k1; Some (k2, g, a1 ++ a2).
(** when an action is submitted *)
Definition timely k (q next : nat) (p : dkg P) (a : kaction P) : Prop :=
  match a with
  | KCommitment n _ | KPolyEval n _ _ => n = k_eon k ∧ next = 1
  | KAccusation n _ => n = k_eon k ∧ next = 2
  | KApology n _ _ => n = k_eon k ∧ next = 3
  | KEonStartVote b => b = k_start_batch k ∧ q < 4 ∧ next = 4 ∧ compute_result p = None
  | KEonKey j b key => b = k_start_batch k ∧ q < 4 ∧ next = 4 ∧ ∃ r, compute_result p = Some r ∧ j = r_keyper r ∧ key = r_pk r
  | _ => False
  end.
Definition outcome_ok k (q next : nat) (p : dkg P) (g : option (kekg P)) acts : Prop :=
  if (q <? 4) && (next =? 4)
  then match compute_result p with
       | None => g = None ∧ restart_votes acts = [k_start_batch k] ∧ eon_keys acts = []
       | Some r => g = Some (mkKEkg (k_eon k) (k_keypers k) (new_epochkg r)) ∧ restart_votes acts = [] ∧ eon_keys acts = [(r_keyper r, k_start_batch k, r_pk r)]
       end
  else g = None ∧ restart_votes acts = [] ∧ eon_keys acts = [].

Lemma a1_shape n num t idx k q next x a : n = k_eon k → a1_ok n num t idx k q next x a →
  evals_sent n a = [] ∧ accusations_sent n a = [] ∧ apologies_sent n a = [] ∧
  commitments_sent n a = (if (q =? 0) && (next =? 1) then match sent_commitment n num t idx x with Some c => [cm_gammas c] | None => [] end else []) ∧
  ((q =? 0) && (next =? 1) = true → is_Some (sent_commitment n num t idx x)) ∧ (∀ b, b ∈ a → next = 1 ∧ ∃ gs, b = KCommitment n gs).
Proof.
  intros -> H. unfold a1_ok in H. destruct (_ && _) eqn:Eq.
  - destruct H as (c & Hc & ->). rewrite Hc. cbn. rewrite N.eqb_refl. apply andb_true_iff in Eq as [_ Eq%Nat.eqb_eq]. split_and!; try done.
    intros b Hb. apply elem_of_list_singleton in Hb as ->. eauto.
  - subst a. split_and!; try done. by intros b ?%elem_of_nil.
Qed.
Lemma a2_shape n num t idx k q next x a : n = k_eon k → a2_ok n num t idx k q next x a →
  commitments_sent n a = [] ∧ evals_sent n a = [] ∧ apologies_sent n a = [] ∧
  (if (q <? 2) && (next =? 2) then (sent_accusations n num t idx x = [] ∧ accusations_sent n a = []) ∨
     ∃ accused, accusations_sent n a = [accused] ∧ accused ≠ [] ∧ Forall2 (λ a m, k_keypers k !! N.to_nat (am_accused m) = Some a) accused (sent_accusations n num t idx x)
   else accusations_sent n a = []) ∧ (∀ b, b ∈ a → next = 2 ∧ ∃ l, b = KAccusation n l).
Proof.
  intros -> H. unfold a2_ok in H. destruct (_ && _) eqn:Eq.
  - apply andb_true_iff in Eq as [_ Eq%Nat.eqb_eq]. destruct H as [[H ->]|(l & -> & H)]; cbn; rewrite ?N.eqb_refl.
    + split_and!; try done; [by left|]. by intros b ?%elem_of_nil.
    + split_and!; try done; [right; by exists l|]. intros b Hb. apply elem_of_list_singleton in Hb as ->. eauto.
  - subst a. split_and!; try done. by intros b ?%elem_of_nil.
Qed.
Lemma a3_shape n num t idx k q next x a : n = k_eon k → a3_ok n num t idx k q next x a →
  commitments_sent n a = [] ∧ evals_sent n a = [] ∧ accusations_sent n a = [] ∧
  (if (q <? 3) && (next =? 3) then (sent_apologies n num t idx x = [] ∧ apologies_sent n a = []) ∨
     ∃ accusers, apologies_sent n a = [(accusers, pm_eval <$> sent_apologies n num t idx x)] ∧
       accusers ≠ [] ∧ Forall2 (λ a m, k_keypers k !! N.to_nat (pm_accuser m) = Some a) accusers (sent_apologies n num t idx x)
   else apologies_sent n a = []) ∧ (∀ b, b ∈ a → next = 3 ∧ ∃ l vs, b = KApology n l vs).
Proof.
  intros -> H. unfold a3_ok in H. destruct (_ && _) eqn:Eq.
  - apply andb_true_iff in Eq as [_ Eq%Nat.eqb_eq]. destruct H as [[H ->]|(l & -> & H)]; cbn; rewrite ?N.eqb_refl.
    + split_and!; try done; [by left|]. by intros b ?%elem_of_nil.
    + split_and!; try done; [right; by exists l|]. intros b Hb. apply elem_of_list_singleton in Hb as ->. eauto.
  - subst a. split_and!; try done. by intros b ?%elem_of_nil.
Qed.
Lemma a4_shape n k q next (p : dkg P) (g : option (kekg P)) a : a4_ok k q next p g a →
  commitments_sent n a = [] ∧ evals_sent n a = [] ∧ accusations_sent n a = [] ∧ apologies_sent n a = [] ∧ outcome_ok k q next p g a ∧ (∀ b, b ∈ a → timely k q next p b).
Proof.
  intros H. unfold a4_ok in H. unfold outcome_ok. destruct (_ && _) eqn:Eq.
  - apply andb_true_iff in Eq as [Eq1%Nat.ltb_lt Eq2%Nat.eqb_eq]. destruct (compute_result p) as [r|] eqn:Er; destruct H as [-> ->]; split_and!; try done; try by left.
    + intros b Hb. apply elem_of_list_singleton in Hb as ->. cbn. eauto 10.
    + intros b Hb. apply elem_of_list_singleton in Hb as ->. cbn. eauto 10.
  - destruct H as [-> ->]. split_and!; try done. by intros b ?%elem_of_nil.
Qed.
Lemma finished_at H Hs k q st c idx x : H ≤ Hs → is_finalized k = true → q ≤ phase_at plen (Z.of_nat H) st → dkg_at H Hs q k st c idx x →
  q = 4 ∧ phase_at plen (Z.of_nat Hs) st = 4 ∧ dkg_at Hs Hs 4 k st c idx x.
Proof.
  intros HH Hf Hq [D1 D2 D3 D4 D5 D6 D7 D8 D9 D12].
  unfold is_finalized in Hf. apply Nat.eqb_eq in Hf. rewrite (ru_phase _ _ _ _ _ _ _ D5) in Hf. unfold finalized in Hf. subst q.
  pose proof (phase_mono plen (Z.of_nat H) (Z.of_nat Hs) st ltac:(lia)) as Hm. pose proof (phase_le_4 plen (Z.of_nat Hs) st).
  split; [done|]. split; [lia|]. split; try done.
  - rewrite D6. f_equal. symmetry. apply in_phase_later; [done..|]. unfold dealing. lia.
  - rewrite D7. f_equal. symmetry. apply in_phase_later; [done..|]. unfold accusing. lia.
  - rewrite D8. f_equal. symmetry. apply in_phase_later; [done..|]. unfold apologizing. lia.
  - rewrite D12. f_equal. symmetry. apply in_phase_later; [done..|]. unfold dealing. lia.
Qed.
Definition the_log l k c idx q x acts : Prop :=
  log_ok l (k_eon k) (N.of_nat (length (sc_keypers c))) (sc_threshold c) idx (k_keypers k) q x (k_outgoing k) acts.

Lemma log_step (kds : kind → Prop) i k k' (g : option (kekg P)) a l acts q st c idx x : (∀ kd, kd ≠ KeyShare → kds kd) →
  good kds (in_height i) (in_shutter i) → (0 ≤ in_height i)%Z →
  let H := Z.to_nat (in_height i) in let Hs := seen (in_shutter i) in
  (q = phase_at plen (Z.of_nat H) st ∨ q = 0 ∧ ∀ kd, of_kind kd (k_eon k) (Pub H) = []) → dkg_at H Hs q k st c idx x →
  the_log l k c idx q x acts → handle_one i k = Some (k', g, a) →
  let next := phase_at plen (Z.of_nat Hs) st in
  ∃ x', dkg_at Hs Hs next k' st c idx x' ∧ the_log (l ++ [i]) k' c idx next x' (acts ++ a) ∧ frame k k' ∧
    outcome_ok k q next (k_pure k') g a ∧ ∀ b, b ∈ a → timely k q next (k_pure k') b.
Proof.
  intros Hkds Hg Hpos H Hs Hq0 Hat Hlog Hone next.
  destruct (Hg) as (Hg1 & Hg2 & _). assert (HH : (H ≤ Hs)%nat) by (unfold H, Hs, seen_blocks; lia).
  assert (Hq : (q ≤ phase_at plen (Z.of_nat H) st)%nat) by (destruct Hq0 as [->|[-> _]]; lia).
  assert (Hle : (q ≤ next)%nat) by (pose proof (phase_mono plen (Z.of_nat H) (Z.of_nat Hs) st ltac:(lia)); unfold next; lia).
  assert (Hpast : ∀ p, past (l ++ [i]) (k_eon k) p ↔ past l (k_eon k) p ∨ next = p).
  { intros p. rewrite past_snoc. pose proof (da_info _ _ _ _ _ _ _ _ _ _ _ _ _ Hat) as Hi. split.
    - intros [?|(st' & b & Hi' & Hp)]; [by left|]. right. destruct (eon_infos_unique _ _ _ _ _ _ (Hwf _) Hi Hi') as [<- _]. done.
    - intros [?|Hp]; [by left|]. right. by exists st, (k_start_batch k). }
  destruct Hlog as [L1 L2 L3 L4 L5 L6 L7 L8].
  unfold handle_one in Hone. destruct (is_finalized k) eqn:Ef.
  - apply (inj Some) in Hone. apply pair_equal_spec in Hone as [Hone <-]. apply pair_equal_spec in Hone as [<- <-].
    destruct (finished_at H Hs k q st c idx x HH Ef Hq Hat) as (-> & En & Hat'). unfold next in *. rewrite En in *.
    exists x. split; [done|]. split; [|split; [by split_and!|split; [done|by intros b ?%elem_of_nil]]].
    rewrite app_nil_r. split; try done.
    + destruct L1 as [[E1 E2]|?]; [left|by right]. split; [done|]. rewrite Hpast. intros [?|?]; [done|lia].
    + destruct L2 as [[E1 E2]|?]; [left|by right]. split; [done|]. rewrite Hpast. intros [?|?]; [by apply E2|lia].
    + destruct L3 as [[E1 E2]|?]; [left|by right]. split; [done|]. rewrite Hpast. intros [?|?]; [by apply E2|lia].
    + intros _. destruct (L5 ltac:(lia)) as (evals & M1 & M2 & M3 & M4 & M5). exists evals. split; [done|]. split; [done|]. split; [|split; [lia|]].
      * intros r b Hr. destruct (M3 r b Hr) as (j & key & m & ? & ?). exists j, key, m. split; [apply elem_of_app; by left|done].
      * intros j st' b m r key [Hj|Hj]%elem_of_app Hi Hp; [by eapply M5|]. apply elem_of_list_singleton in Hj as ->.
        pose proof (da_info _ _ _ _ _ _ _ _ _ _ _ _ _ Hat) as Hi'. destruct (eon_infos_unique _ _ _ _ _ _ (Hwf _) Hi' Hi) as [<- _]. fold Hs in Hp. lia.
    + intros _. rewrite Hpast. by right.
    + intros p. rewrite Hpast. intros [?|?]; [by apply L7|lia].
  - apply bind_Some in Hone as (e & Ee & E). apply bind_Some in E as ([[k1 g1] a1] & E1 & E). apply bind_Some in E as ([k2 a2] & E2 & E).
    apply (inj Some) in E. apply pair_equal_spec in E as [E <-]. apply pair_equal_spec in E as [<- <-].
    destruct (dkg_decision_full make_event chain ecies_decrypt plen me Hwf Hho _ _ _ _ _ _ _ _ _ _ _ _ Hkds Hg Hpos Hq0 Hat Ee E1) as (x' & Hok & F & Sr & Sd & Sa & S0 & Sn & b1 & b2 & b3 & b4 & -> & B1 & B2 & B3 & B4).
    fold Hs in Hok, S0, Sn, B1, B2, B3, B4. fold next in Hok, S0, Sn, B1, B2, B3, B4.
    pose proof F as (F1 & F2 & F3 & F4).
    pose proof (send_step _ _ _ _ E2) as (T1 & T2 & T3 & T4 & T5). destruct (send_evals_frame _ _ _ _ E2) as [F' Ep']. pose proof F' as (F1' & F2' & F3' & F4').
    rewrite F1 in T1, T4, T5. rewrite F3 in T1, T4, T5.
    assert (d_phase (k_pure k1) = next) as Eph. { apply (ru_phase _ _ _ _ _ _ _ (da_running _ _ _ _ _ _ _ _ _ _ _ _ _ Hok)). }
    rewrite Eph in T3, T4.
    assert (Hoff : ex_off x' = ex_off x).
    { rewrite (ru_off _ _ _ _ _ _ _ (da_running _ _ _ _ _ _ _ _ _ _ _ _ _ Hat)). apply (ru_off _ _ _ _ _ _ _ (da_running _ _ _ _ _ _ _ _ _ _ _ _ _ Hok)). }
    apply a1_shape in B1 as (C11 & C12 & C13 & C14 & C15 & C16); [|done].
    apply a2_shape in B2 as (C21 & C22 & C23 & C24 & C25); [|done].
    apply a3_shape in B3 as (C31 & C32 & C33 & C34 & C35); [|done].
    apply (a4_shape (k_eon k)) in B4 as (C41 & C42 & C43 & C44 & C45 & C46).
    set (n := k_eon k) in *. set (num := N.of_nat (length (sc_keypers c))) in *. set (t := sc_threshold c) in *.
    assert (commitments_sent n a2 = [] ∧ accusations_sent n a2 = [] ∧ apologies_sent n a2 = []) as (C51 & C52 & C53).
    { destruct T1 as [->|(ready & -> & _)]; [done|]. cbn. done. }
    destruct (sent_app n acts ((b1 ++ b2 ++ b3 ++ b4) ++ a2)) as (Z1 & Z2 & Z3 & Z4).
    destruct (sent_app n (b1 ++ b2 ++ b3 ++ b4) a2) as (Z5 & Z6 & Z7 & Z8).
    destruct (sent_app n b1 (b2 ++ b3 ++ b4)) as (Z9 & Z10 & Z11 & Z12).
    destruct (sent_app n b2 (b3 ++ b4)) as (Z13 & Z14 & Z15 & Z16).
    destruct (sent_app n b3 b4) as (Z17 & Z18 & Z19 & Z20).
    assert (V1 : commitments_sent n (acts ++ (b1 ++ b2 ++ b3 ++ b4) ++ a2) = commitments_sent n acts ++ commitments_sent n b1) by (rewrite Z1, Z5, Z9, Z13, Z17, C21, C31, C41, C51, !app_nil_r; done).
    assert (V2 : evals_sent n (acts ++ (b1 ++ b2 ++ b3 ++ b4) ++ a2) = evals_sent n acts ++ evals_sent n a2) by (rewrite Z2, Z6, Z10, Z14, Z18, C11, C22, C32, C42; done).
    assert (V3 : accusations_sent n (acts ++ (b1 ++ b2 ++ b3 ++ b4) ++ a2) = accusations_sent n acts ++ accusations_sent n b2) by (rewrite Z3, Z7, Z11, Z15, Z19, C12, C33, C43, C52, !app_nil_r; done).
    assert (V4 : apologies_sent n (acts ++ (b1 ++ b2 ++ b3 ++ b4) ++ a2) = apologies_sent n acts ++ apologies_sent n b3) by (rewrite Z4, Z8, Z12, Z16, Z20, C13, C23, C44, C53, !app_nil_r; done).
    clear Z1 Z2 Z3 Z4 Z5 Z6 Z7 Z8 Z9 Z10 Z11 Z12 Z13 Z14 Z15 Z16 Z17 Z18 Z19 Z20.
    (* evaluations, before they are sent *)
    assert (1 ≤ next → ∃ evals, dealt n num t idx x' evals ∧ (∀ m, m ∈ k_outgoing k1 → m ∈ evals) ∧
      (∀ r b, (r, b) ∈ evals_sent n acts → ∃ i key m, i ∈ l ∧ enc_keys (in_shutter i) !! r = Some key ∧ m ∈ evals ∧
         k_keypers k !! N.to_nat (em_receiver m) = Some r ∧ b = in_enc i key (big_bytes (em_eval m))) ∧
      (next = 1 → ∀ m r, m ∈ evals → k_keypers k !! N.to_nat (em_receiver m) = Some r → m ∈ k_outgoing k1 ∨ r ∈ (evals_sent n acts).*1) ∧
      (∀ i st b m r key, i ∈ l → (n, st, b) ∈ eon_infos (Pub (seen (in_shutter i))) → phase_at plen (Z.of_nat (seen (in_shutter i))) st = 1 →
         m ∈ evals → k_keypers k !! N.to_nat (em_receiver m) = Some r → enc_keys (in_shutter i) !! r = Some key → r ∈ (evals_sent n acts).*1)) as L5'.
    { intros Hn1. destruct (decide (q = 0)) as [Eq|Hne].
      - destruct (S0 Eq Hn1) as (Ernd & cm & evals & p & Es & Eout). destruct (L4 Eq) as [Eo Ee'].
        exists evals. split; [by exists p, cm|]. rewrite Ee'. split; [|split; [by intros r b ?%elem_of_nil|split]].
        + intros m. rewrite Eout. destruct (next =? 1); [done|]. rewrite Eo. by intros ?%elem_of_nil.
        + intros -> m r Hm Hr. left. rewrite Eout. done.
        + intros j st' b m r key Hj Hi Hp. exfalso. specialize (L7 1). assert (1 ≤ q) by (apply L7; by exists j, st', b). lia.
      - destruct (L5 ltac:(lia)) as (evals & (p & cm & M1) & M2 & M3 & M4 & M5). destruct (Sr ltac:(lia)) as [Er Eo].
        exists evals. split; [exists p, cm; by rewrite Er|]. rewrite Eo. split; [done|]. split; [done|]. split; [|done].
        intros En1. apply M4. lia. }
    assert (NoDup (k_keypers k) → NoDup ((evals_sent n acts).*1 ++ addresses (k_keypers k) (k_outgoing k1))) as L8'.
    { intros Hnd. destruct (decide (q = 0)) as [Eq|Hne].
      - destruct (L4 Eq) as [Eo Ee']. rewrite Ee'. cbn [fmap list_fmap app]. destruct (decide (next = 0)) as [E0|E0].
        + rewrite (Sn E0), Eo. constructor.
        + destruct (S0 Eq ltac:(lia)) as (Ernd & cm & evals & p & Es & Eout). rewrite Eout. destruct (next =? 1).
          * apply addresses_nodup; [done|]. eapply (dealt_receivers n num t idx x'). by exists p, cm.
          * rewrite Eo. constructor.
      - destruct (Sr ltac:(lia)) as [_ ->]. by apply L8. }
    exists x'. split; [by eapply dkg_at_frame|]. split; [|split; [by eapply frame_trans|split]].
    2:{ assert (restart_votes ((b1 ++ b2 ++ b3 ++ b4) ++ a2) = restart_votes b4 ∧ eon_keys ((b1 ++ b2 ++ b3 ++ b4) ++ a2) = eon_keys b4) as [Y1 Y2].
        { assert (∀ b : list (kaction P), (∀ a, a ∈ b → eon_of a ≠ None) → restart_votes b = [] ∧ eon_keys b = []) as Hz.
          { intros b Hb. split; apply bind_nil; intros a Ha; specialize (Hb a Ha); by destruct a. }
          destruct (Hz b1) as [Y3 Y4]; [intros a Ha; destruct (C16 a Ha) as [_ (? & ->)]; done|].
          destruct (Hz b2) as [Y5 Y6]; [intros a Ha; destruct (C25 a Ha) as [_ (? & ->)]; done|].
          destruct (Hz b3) as [Y7 Y8]; [intros a Ha; destruct (C35 a Ha) as [_ (? & ? & ->)]; done|].
          destruct (Hz a2) as [Y9 Y10]; [intros a Ha; destruct T1 as [->|(? & -> & _)]; [by apply elem_of_nil in Ha|by apply elem_of_list_singleton in Ha as ->]|].
          unfold restart_votes, eon_keys in *. rewrite !bind_app, Y3, Y4, Y5, Y6, Y7, Y8, Y9, Y10, !app_nil_r. done. }
        unfold outcome_ok in *. by rewrite Ep', Y1, Y2. }
    2:{ intros b. rewrite !elem_of_app. rewrite Ep'. intros [[Hb|[Hb|[Hb|Hb]]]|Hb].
        - destruct (C16 b Hb) as [? (gs & ->)]. done.
        - destruct (C25 b Hb) as [? (gs & ->)]. done.
        - destruct (C35 b Hb) as [? (l' & vs & ->)]. done.
        - by apply C46.
        - destruct T1 as [->|(ready & -> & Tr)]; [by apply elem_of_nil in Hb|]. apply elem_of_list_singleton in Hb as ->. cbn. split; [done|].
          destruct (decide (next = 1)) as [|Hn]; [done|exfalso]. destruct (decide (1 < next)) as [Hlt|Hge]; [by specialize (T3 Hlt)|].
          assert (next = 0) as E0 by lia. destruct (L4 ltac:(lia)) as [Eo _]. specialize (Sn E0). rewrite Eo in Sn.
          unfold send_poly_evals in E2. by rewrite Sn in E2. }
    unfold the_log. rewrite F1', F1, F3', F3. fold n num t. split; rewrite ?V1, ?V2, ?V3, ?V4.
    + destruct L1 as [[E3 E4]|(E3 & m & E4 & E5)].
      * rewrite E3, C14. cbn [app]. destruct ((q =? 0) && (next =? 1)) eqn:Eb.
        -- right. destruct (C15 eq_refl) as [m ->]. apply andb_true_iff in Eb as [_ Eb%Nat.eqb_eq]. split; [lia|]. by exists m.
        -- left. split; [done|]. rewrite Hpast. intros [?|E5]; [done|]. rewrite E5 in Eb. cbn in Eb. rewrite andb_true_r in Eb. apply Nat.eqb_neq in Eb.
           apply E4. replace 1 with q by lia. by apply L6.
      * right. split; [lia|]. exists m. destruct (Sr E3) as [Er _]. split; [by rewrite (sent_commitment_stable _ _ _ _ _ _ Hoff Er)|].
        rewrite E5, C14. by destruct (Nat.eqb_spec q 0); [lia|].
    + destruct L2 as [[E3 E4]|(E3 & m & E4 & E5)].
      * rewrite E3. cbn [app]. destruct ((q <? 2) && (next =? 2)) eqn:Eb.
        -- apply andb_true_iff in Eb as [_ Eb%Nat.eqb_eq]. destruct C24 as [[C24 C24']|(l' & C24 & C24')].
           ++ left. split; [done|]. intros _. split; [lia|done].
           ++ right. split; [lia|]. by exists l'.
        -- left. split; [done|]. rewrite Hpast. intros Hp. assert (past l n 2) as Hp2.
           { destruct Hp as [?|Hp]; [done|]. rewrite Hp, Nat.eqb_refl, andb_true_r in Eb. apply Nat.ltb_ge in Eb. replace 2 with q by lia. apply L6. lia. }
           destruct (E4 Hp2) as [E5 E6]. split; [lia|]. destruct (Sr ltac:(lia)) as [Er _]. by rewrite (sent_accusations_stable _ _ _ _ _ _ Hoff Er (Sd E5)).
      * right. split; [lia|]. exists m. destruct (Sr ltac:(lia)) as [Er _]. rewrite (sent_accusations_stable _ _ _ _ _ _ Hoff Er (Sd E3)). split; [|done].
        rewrite E4. destruct (Nat.ltb_spec q 2); [lia|]. cbn in C24. by rewrite C24.
    + destruct L3 as [[E3 E4]|(E3 & m & E4 & E5)].
      * rewrite E3. cbn [app]. destruct ((q <? 3) && (next =? 3)) eqn:Eb.
        -- apply andb_true_iff in Eb as [_ Eb%Nat.eqb_eq]. destruct C34 as [[C34 C34']|(l' & C34 & C34')].
           ++ left. split; [done|]. intros _. split; [lia|done].
           ++ right. split; [lia|]. by exists l'.
        -- left. split; [done|]. rewrite Hpast. intros Hp. assert (past l n 3) as Hp2.
           { destruct Hp as [?|Hp]; [done|]. rewrite Hp, Nat.eqb_refl, andb_true_r in Eb. apply Nat.ltb_ge in Eb. replace 3 with q by lia. apply L6. lia. }
           destruct (E4 Hp2) as [E5 E6]. split; [lia|]. destruct (Sr ltac:(lia)) as [Er _]. by rewrite (sent_apologies_stable _ _ _ _ _ _ Hoff Er (Sd ltac:(lia)) (Sa E5)).
      * right. split; [lia|]. exists m. destruct (Sr ltac:(lia)) as [Er _]. rewrite (sent_apologies_stable _ _ _ _ _ _ Hoff Er (Sd ltac:(lia)) (Sa E3)). split; [|done].
        rewrite E4. destruct (Nat.ltb_spec q 3); [lia|]. cbn in C34. by rewrite C34.
    + intros E0. destruct (L4 ltac:(lia)) as [Eo Ee']. specialize (Sn E0). rewrite Eo in Sn. unfold send_poly_evals in E2. rewrite Sn in E2.
      injection E2 as <- <-. rewrite Sn, Ee'. done.
    + intros Hn1. destruct (L5' Hn1) as (evals & M1 & M2 & M3 & M4 & M5). exists evals. split; [done|]. split; [|split; [|split]].
      * intros m Hm. apply M2, T2, Hm.
      * intros r b [Hr|Hr]%elem_of_app.
        -- destruct (M3 r b Hr) as (j & key & m & ? & ?). exists j, key, m. split; [apply elem_of_app; by left|done].
        -- destruct T1 as [->|(ready & -> & Tr)]; [by apply elem_of_nil in Hr|].
           unfold evals_sent in Hr. cbn in Hr. rewrite N.eqb_refl, app_nil_r, zip_fst_snd in Hr. destruct (Tr r b Hr) as (key & m & ? & ? & ? & ?).
           exists i, key, m. split; [apply elem_of_app; right; by apply elem_of_list_singleton|]. split; [done|]. split; [by apply M2|done].
      * intros E1' m r Hm Hr. rewrite fmap_app, elem_of_app. destruct (M4 E1' m r Hm Hr) as [Hin|?]; [|tauto].
        destruct (T4 ltac:(lia) m r Hin Hr) as [[? _]|?]; tauto.
      * intros j st' b m r key [Hj|Hj]%elem_of_app Hi Hp Hm Hr Hkey; rewrite fmap_app, elem_of_app; [left; by eapply M5|].
        apply elem_of_list_singleton in Hj as ->. fold Hs in Hi, Hp.
        pose proof (da_info _ _ _ _ _ _ _ _ _ _ _ _ _ Hat) as Hi'. destruct (eon_infos_unique _ _ _ _ _ _ (Hwf _) Hi' Hi) as [<- _]. fold next in Hp.
        destruct (M4 Hp m r Hm Hr) as [Hin|?]; [|tauto]. destruct (T4 ltac:(lia) m r Hin Hr) as [[_ Hnone]|?]; [congruence|tauto].
    + intros _. apply Hpast. by right.
    + intros p. rewrite Hpast. intros [Hp|?]; [|lia]. specialize (L7 p Hp). lia.
    + intros Hnd. rewrite fmap_app, <-(assoc_L (++)). by apply T5, L8'.
Qed.
End Log.

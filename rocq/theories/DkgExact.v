(** Exactly what a keyper has recorded after the calls of each phase, and what it sends. *)
From stdpp Require Import list gmap sets.
From Coq Require Import ZArith NArith Lia.
From Verif Require Import Fq CryptoModel CryptoSpec CryptoProofs PropsCrypto DkgModel DkgSpec DkgProofs PropsDkg KeyperSpec KeyperDkgProofs.

Section Exact.
Context {P : pairing}.
Implicit Types (s : dkg P) (c : call P) (cs : list (call P)).

(** the commitments of [j] with [t] coefficients among the messages; the valid evaluations from [j] *)
Definition commitments_by (t : N) (j : nat) (l : list (public P)) : list (list (G2 P)) :=
  omap (λ q, match q with PCommitment m => if (cm_sender m =? N.of_nat j)%N && (N.of_nat (length (cm_gammas m)) =? t)%N then Some (cm_gammas m) else None | _ => None end) l.
Definition evals_by (j : nat) (l : list eval_msg) : list Z :=
  omap (λ m, if (em_sender m =? N.of_nat j)%N && (0 <=? em_eval m)%Z && (em_eval m <? order)%Z then Some (em_eval m) else None) l.

Definition first {A} (o : option A) (l : list A) : option A := match o with Some a => Some a | None => head l end.
Lemma first_app {A} (o : option A) l l' : first o (l ++ l') = first (first o l) l'.
Proof. destruct o; [done|]. by destruct l. Qed.

Lemma run_dealing_exact s cs s' (j : nat) : run s cs = Some s' → d_phase s = dealing → d_phase s' = dealing →
  (∀ q, q ∈ broadcasts cs → ∃ m, q = PCommitment m ∧ cm_eon m = d_eon s ∧ (Z.of_nat (length (cm_gammas m)) < 2 ^ 64)%Z) →
  (∀ m, m ∈ received cs → em_eon m = d_eon s ∧ em_receiver m = d_keyper s) → (d_threshold s < 2 ^ 64)%N →
  (∀ o, d_commitments s !! j = Some o → d_commitments s' !! j = Some (first o (commitments_by (d_threshold s) j (broadcasts cs)))) ∧
  (∀ o, d_evals s !! j = Some o → d_evals s' !! j = Some (first o (evals_by j (received cs)))) ∧
  d_accusations s' = d_accusations s ∧ d_apologies s' = d_apologies s.
Proof.
  intros Hr Hp Hp' Hb Hv Ht. revert s Hr Hp Hb Hv Ht. induction cs as [|c cs IH]; intros s; cbn [run].
  - intros [= ->] _ _ _ _. split; [by intros [] ->|]. split; [by intros [] ->|]. done.
  - destruct (do_call s c) as [s1|] eqn:E; [|done]. intros Hr Hp Hb Hv Ht. pose proof (do_call_frame _ _ _ E) as (E1 & E2 & E3 & E4 & E5 & _).
    pose proof (run_frame _ _ _ Hr) as (_ & _ & _ & _ & E6 & _). assert (Hp1 : d_phase s1 = dealing) by lia.
    assert ((∃ m, c = CCommitment m) ∨ ∃ m, c = CEval m) as Hc.
    { destruct c as [rnd| | | |m|m|m|m]; try (by eauto); exfalso; (destruct (Hb _ (elem_of_list_here _ _)) as (? & ? & _); done). }
    specialize (IH s1 Hr Hp1). rewrite E1, E3, E4 in IH.
    assert (IHr : _) by (apply IH; [intros q Hq; apply Hb; unfold broadcasts; cbn [omap list_omap]; destruct (public_of c); [by right|done]|
      intros m Hm; apply Hv; unfold received; cbn [omap list_omap]; destruct c; try done; by right|done]). clear IH. destruct IHr as (I1 & I2 & I3 & I4).
    destruct Hc as [(m & ->)|(m & ->)]; cbn [do_call] in E; cbn [broadcasts received omap list_omap public_of].
    + fold (broadcasts cs) (received cs). destruct (Hb _ (elem_of_list_here _ _)) as (m' & [= <-] & He & Hl).
      change (PCommitment m :: broadcasts cs) with ([PCommitment m] ++ broadcasts cs). unfold commitments_by. rewrite omap_app. fold (commitments_by (d_threshold s) j (broadcasts cs)).
      assert (Hdeg : (degree (cm_gammas m) =? degree_from_threshold (Z.of_N (d_threshold s)))%Z = (N.of_nat (length (cm_gammas m)) =? d_threshold s)%N).
      { apply eq_true_iff_eq. rewrite Z.eqb_eq, N.eqb_eq, degree_eq by (unfold uint64; lia). lia. }
      unfold handle_commitment, check_eon_and_phase in E. rewrite He, N.eqb_refl, Hp in E. cbn [Nat.ltb Nat.leb dealing negb andb] in E. cbn [omap list_omap].
      destruct (N.eqb_spec (cm_sender m) (N.of_nat j)) as [Ej|Ej]; cbn [andb].
      * rewrite Ej, Nat2N.id in E. destruct (d_commitments s !! j) as [o|] eqn:Ej'; [|done]. split; [|].
        -- intros o' [= <-]. rewrite first_app. apply I1. destruct o as [g|]; [cbn in E; by injection E as <-|]. rewrite Hdeg in E.
           destruct (_ =? _)%N; cbn in E; injection E as <-; [|done]. cbn. apply list_lookup_insert. by apply lookup_lt_Some in Ej'.
        -- destruct o as [g|]; [cbn in E; by injection E as <-|]. destruct (negb _); cbn in E; injection E as <-; done.
      * assert (d_commitments s1 !! j = d_commitments s !! j ∧ d_evals s1 = d_evals s ∧ d_accusations s1 = d_accusations s ∧ d_apologies s1 = d_apologies s) as (Q1 & Q2 & Q3 & Q4).
        { destruct (d_commitments s !! N.to_nat (cm_sender m)) as [[g|]|]; [cbn in E; by injection E as <-| |done]. destruct (negb _); cbn in E; injection E as <-; [done|].
          cbn. rewrite list_lookup_insert_ne by lia. done. }
        rewrite Q1 in I1. rewrite Q2 in I2. rewrite Q3 in I3. rewrite Q4 in I4. done.
    + fold (broadcasts cs) (received cs). destruct (Hv _ (elem_of_list_here _ _)) as (He & Hl).
      change (m :: received cs) with ([m] ++ received cs). unfold evals_by. rewrite omap_app. fold (evals_by j (received cs)).
      assert (Hval : valid_eval (em_eval m) = ((0 <=? em_eval m)%Z && (em_eval m <? order)%Z)).
      { apply eq_true_iff_eq. rewrite C30_valid_eval, andb_true_iff, Z.leb_le, Z.ltb_lt. unfold residue. lia. }
      unfold handle_eval, check_eon_and_phase in E. rewrite He, Hl, !N.eqb_refl, Hp in E. cbn [Nat.ltb Nat.leb dealing negb andb] in E. cbn [omap list_omap].
      rewrite <-andb_assoc, <-Hval.
      destruct (N.eqb_spec (em_sender m) (N.of_nat j)) as [Ej|Ej]; cbn [andb].
      * rewrite Ej, Nat2N.id in E. destruct (d_evals s !! j) as [o|] eqn:Ej'; [|done].
        assert (d_commitments s1 = d_commitments s ∧ d_accusations s1 = d_accusations s ∧ d_apologies s1 = d_apologies s) as (Q1 & Q3 & Q4).
        { destruct o as [g|]; [cbn in E; by injection E as <-|]. destruct (valid_eval _); cbn in E; injection E as <-; done. }
        rewrite Q1 in I1. rewrite Q3 in I3. rewrite Q4 in I4. split; [done|]. split; [|done].
        intros o' [= <-]. rewrite first_app. apply I2. destruct o as [g|]; [cbn in E; by injection E as <-|].
        destruct (valid_eval _); cbn in E; injection E as <-; [|done]. cbn. apply list_lookup_insert. by apply lookup_lt_Some in Ej'.
      * assert (d_commitments s1 = d_commitments s ∧ d_evals s1 !! j = d_evals s !! j ∧ d_accusations s1 = d_accusations s ∧ d_apologies s1 = d_apologies s) as (Q1 & Q2 & Q3 & Q4).
        { destruct (d_evals s !! N.to_nat (em_sender m)) as [[g|]|]; [cbn in E; by injection E as <-| |done]. destruct (negb _); cbn in E; injection E as <-; [done|].
          cbn. rewrite list_lookup_insert_ne by lia. done. }
        rewrite Q1 in I1. rewrite Q2 in I2. rewrite Q3 in I3. rewrite Q4 in I4. done.
Qed.

Lemma run_accusing_exact s cs s' a b : run s cs = Some s' → d_phase s = accusing → d_phase s' = accusing →
  (∀ q, q ∈ broadcasts cs → ∃ m, q = PAccusation m ∧ am_eon m = d_eon s) →
  (a, b) ∈ d_accusations s' ↔ (a, b) ∈ d_accusations s ∨ PAccusation (mkAccusationMsg (d_eon s) a b) ∈ broadcasts cs.
Proof.
  intros Hr Hp Hp' Hb. revert s Hr Hp Hb. induction cs as [|c cs IH]; intros s; cbn [run].
  - intros [= ->] _ _. cbn. rewrite elem_of_nil. tauto.
  - destruct (do_call s c) as [s1|] eqn:E; [|done]. intros Hr Hp Hb. pose proof (do_call_frame _ _ _ E) as (E1 & E2 & E3 & E4 & E5 & _).
    pose proof (run_frame _ _ _ Hr) as (_ & _ & _ & _ & E6 & _). assert (Hp1 : d_phase s1 = accusing) by lia.
    assert ((∃ m, c = CAccusation m) ∨ ∃ m, c = CEval m) as Hc.
    { destruct c as [rnd| | | |m|m|m|m]; try (by eauto); exfalso; (destruct (Hb _ (elem_of_list_here _ _)) as (? & ? & _); done). }
    rewrite (IH s1 Hr Hp1), E1; [|intros q Hq; rewrite E1; apply Hb; unfold broadcasts; cbn [omap list_omap]; destruct (public_of c); [by right|done]]. clear IH.
    destruct Hc as [(m & ->)|(m & ->)]; cbn [do_call] in E; cbn [broadcasts omap list_omap public_of]; fold (broadcasts cs).
    + destruct (Hb _ (elem_of_list_here _ _)) as (m' & [= <-] & He). unfold handle_accusation, check_eon_and_phase in E. rewrite He, N.eqb_refl, Hp in E.
      cbn [Nat.ltb Nat.leb accusing negb andb] in E. rewrite elem_of_cons.
      assert (PAccusation (mkAccusationMsg (d_eon s) a b) = PAccusation (P:=P) m ↔ (a, b) = (am_accuser m, am_accused m)) as ->.
      { destruct m as [e x y]. cbn in *. subst e. split; congruence. }
      case_bool_decide as Hin; cbn in E; injection E as <-; cbn [d_accusations set_accusations].
      * split; [tauto|]. intros [?|[->|?]]; tauto.
      * rewrite elem_of_union, elem_of_singleton. tauto.
    + assert (d_accusations s1 = d_accusations s) as ->; [|tauto]. unfold handle_eval in E. destruct (negb _); [cbn in E; by injection E as <-|]. destruct (negb _); [cbn in E; by injection E as <-|].
      destruct (d_evals s !! _) as [[]|]; [cbn in E; by injection E as <-| |done]. destruct (negb _); cbn in E; by injection E as <-.
Qed.
End Exact.

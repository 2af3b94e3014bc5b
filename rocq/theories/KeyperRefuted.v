(** C58: why the eon's config must be settled. *)
From stdpp Require Import list gmap.
From Coq Require Import ZArith NArith Lia Sorted.
From Verif Require Import Fq CryptoModel CryptoSpec PropsCrypto DkgModel DkgSpec DkgProofs PropsDkg EpochModel PropsEpoch ObserveModel ObserveProofs SyncModel SyncProofs ArithModel ContractsModel ContractsProofs PropsConfig MainModel MainProofs PropsMain
  DecideModel EncodingModel KeyperModel KeyperSpec KeyperDkgProofs DkgExact KeyperStepProofs KeyperHistProofs KeyperRunProofs KeyperLogProofs KeyperActionProofs KeyperSystem PropsKeyper PropsKeyperDkg PropsKeyperLive PropsExecution PropsShares KeyperWitness.
Local Open Scope Z_scope.

(** ** Runs on any chain, checked by computation *)
Definition inputs_on blocks mch (a : N) (hs : list (Z * Z)) : list (kinput FP N) := zip_with (input_of mch a) (obs_at blocks hs) hs.*2.
Definition end_on blocks mch (a : N) (hs : list (Z * Z)) : kstate FP * list (list (kaction FP)) :=
  default (new_kstate, []) (decisions_of wplen wpoint (wpar a) new_kstate (inputs_on blocks mch a hs)).
Definition ready_on mch (a : N) (o : wobs) (n : Z) : bool := match o with ODecide h w => v_synced (mview mch n) && shutter_is_keyper w a end.
Definition run_ok blocks mch (a : N) (hs : list (Z * Z)) (h : Z) : bool :=
  match replay blocks (boot None) (wsteps_at hs.*1) with
  | Some (y, o) => (sync_height y =? h) && (length o =? length hs)%nat && forallb (λ x, ready_on mch a x.1 x.2) (zip o hs.*2) &&
      match decisions_of wplen wpoint (wpar a) new_kstate (zip_with (input_of mch a) o hs.*2) with Some _ => true | None => false end
  | None => false end.
Lemma matches_on mch a (os : list wobs) (ns : list Z) : length os = length ns → forallb (λ x, ready_on mch a x.1 x.2) (zip os ns) = true →
  Forall2 (matches a) (zip_with (input_of mch a) os ns) os.
Proof.
  revert ns. induction os as [|[h w] os IH]; intros [|n ns] Hl Hall; cbn [zip_with]; [constructor|discriminate Hl|discriminate Hl|]. cbn [zip zip_with forallb fst snd] in Hall. apply andb_true_iff in Hall as [H1 H2].
  constructor; [|apply IH; [by injection Hl|done]]. clear IH H2 Hl. unfold ready_on in H1. apply andb_true_iff in H1 as [H1 H2]. split; [done|]. split; [done|]. done.
Qed.
Lemma steps_no_crash hs : Forall no_skip (wsteps_at hs) ∧ Crash ∉ wsteps_at hs.
Proof.
  unfold wsteps_at. split.
  - apply Forall_app. split; [repeat constructor|]. induction hs as [|h hs IH]; [constructor|]. change ((h :: hs) ≫= ?f) with (f h ++ (hs ≫= f)). apply Forall_app. split; [repeat constructor|done].
  - rewrite elem_of_app. intros [H|H].
    + rewrite !elem_of_cons, elem_of_nil in H. destruct H as [H|[H|[H|[]]]]; discriminate H.
    + apply elem_of_list_bind in H as (h & H & _). rewrite !elem_of_cons, elem_of_nil in H. destruct H as [H|[H|[]]]; discriminate H.
Qed.
Lemma run_on blocks mch a hs (h : nat) : run_ok blocks mch a hs (Z.of_nat h) = true →
  keyper_run_no_skip wmake blocks wplen wpoint (wpar a) h (inputs_on blocks mch a hs) (end_on blocks mch a hs).1 (end_on blocks mch a hs).2 ∧
  keyper_run wmake blocks wplen wpoint (wpar a) h (inputs_on blocks mch a hs) (end_on blocks mch a hs).1 (end_on blocks mch a hs).2.
Proof.
  unfold run_ok, inputs_on, end_on, inputs_on, obs_at. destruct (replay _ _ _) as [[y o]|] eqn:E; [|intros H; discriminate H]. intros H. apply andb_true_iff in H as [H H4]. apply andb_true_iff in H as [H H3]. apply andb_true_iff in H as [H1 H2].
  apply Z.eqb_eq in H1. apply Nat.eqb_eq in H2. pose proof (replay_history blocks (boot None) [] [] _ y o (history_start _ _) E) as Hh. cbn [app] in Hh.
  assert (Hm : Forall2 (matches (kp_me (wpar a))) (zip_with (input_of mch a) o hs.*2) o) by (apply matches_on; [by rewrite fmap_length|done]).
  destruct (decisions_of _ _ _ _ _) as [[s acts]|] eqn:Ed; [|discriminate H4]. cbn [default fst snd]. split; (split; [|exact Ed]); exists y, (wsteps_at hs.*1), o; (split; [exact Hh|]); (split; [|split; [exact H1|exact Hm]]).
  - apply steps_no_crash.
  - intros es1 es2 Ee. exfalso. apply (proj2 (steps_no_crash hs.*1)). rewrite Ee. apply elem_of_app. right. left.
Qed.

(** ** Two keypers of one eon with different keys *)
(** config 2, for the same batches but with a third keyper, is accepted right after eon 1 was started *)
Definition ublocks : nat → list (list wevent) := λ n, match n with
  | 0 => [[BatchConfig wc0]] | 1 => [[BatchConfig wc1]] | 2 => [[CheckIn 7 70]; [CheckIn 8 80]; [CheckIn 9 90]]%N | 3 => [[EonStarted 3%Z 1%N 0%N]]
  | 4 => [[BatchConfig (mkSConfig 2 0 [7; 8; 9]%N 2)]]
  | 5 => [[dev Commitment (BCommitment 7%N (gammas FP [5; 7]%Z))]; [dev Commitment (BCommitment 8%N (gammas FP [11; 13]%Z))]; [dev Commitment (BCommitment 9%N (gammas FP [3; 2]%Z))];
          [dev PolyEval (BPolyEval 7%N [8]%N [[19]%N])]; [dev PolyEval (BPolyEval 8%N [7; 9]%N [[24]%N; [50]%N])]; [dev PolyEval (BPolyEval 9%N [7; 8]%N [[5]%N; [7]%N])]]
  | _ => [] end%nat.
Definition uhs7 : list (Z * Z) := [(0, 5); (1, 5); (3, 6); (6, 7); (14, 8); (24, 9); (33, 15)].
Definition uhs8 : list (Z * Z) := [(0, 5); (1, 5); (4, 6); (6, 7); (14, 8); (24, 9); (33, 15)].
Lemma u_run7 : run_ok ublocks kchain 7 uhs7 34 = true.
Proof. vm_cast_no_check (eq_refl true). Qed.
Lemma u_run8 : run_ok ublocks kchain 8 uhs8 34 = true.
Proof. vm_cast_no_check (eq_refl true). Qed.
Fixpoint wf_from (pre l : list wevent) : bool := match l with
  | [] => true
  | ev :: l => match ev with
               | EonStarted _ n _ => forallb (λ x, match x with EonStarted _ m _ => (m <? n)%N | _ => true end) pre
               | EonEvent _ e => existsb (λ x, match x with EonStarted _ n _ => (n =? ev_eon e)%N | _ => false end) pre
               | _ => true end && wf_from (pre ++ [ev]) l end.
Lemma wf_from_ok l pre : SyncModel.well_formed pre → wf_from pre l = true → SyncModel.well_formed (pre ++ l).
Proof.
  revert pre. induction l as [|ev l IH]; intros pre Hp; cbn [wf_from]; [intros _; by rewrite app_nil_r|]. intros [H1 H2]%andb_true_iff. change (pre ++ ev :: l) with (pre ++ [ev] ++ l). rewrite (assoc_L (++)). apply IH; [|exact H2].
  apply well_formed_snoc; [exact Hp|]. destruct ev; try exact I.
  - intros h m b Hin. rewrite forallb_forall in H1. apply elem_of_list_In in Hin. specialize (H1 _ Hin). by apply N.ltb_lt.
  - apply existsb_exists in H1 as (x & Hx & E). destruct x; try discriminate E. apply N.eqb_eq in E as <-. do 2 eexists. by apply elem_of_list_In.
Qed.
Lemma u_late m : (6 ≤ m)%nat → published wmake ublocks m = published wmake ublocks 6.
Proof.
  intros H. replace m with (6 + (m - 6))%nat by lia. generalize (m - 6)%nat as x. clear. induction x as [|x IH]; [by rewrite Nat.add_0_r|].
  rewrite Nat.add_succ_r. cbn [published]. rewrite IH. assert (ublocks (6 + x) = []) as -> by done. cbn [concat omap list_omap]. apply app_nil_r.
Qed.
Lemma u_wf m : SyncModel.well_formed (published wmake ublocks m).
Proof.
  assert (∃ l, published wmake ublocks 6 = published wmake ublocks m ++ l) as [l E].
  { destruct (decide (6 ≤ m)%nat) as [H|H]; [exists []; rewrite (u_late m H); by rewrite app_nil_r|]. apply (published_app wmake ublocks w_heights). lia. }
  apply (well_formed_prefix _ l). rewrite <-E. clear E l m. apply (wf_from_ok (published wmake ublocks 6) []); [by intros [|? ?] ? ?|]. vm_cast_no_check (eq_refl true).
Qed.
Definition key_of (s : kstate FP) : list (N * list N * G2 FP) := (λ g, (g_eon g, g_keypers g, ek_pk (g_epochkg g))) <$> k_ekgs s.
Lemma u_key7 : key_of (end_on ublocks kchain 7 uhs7).1 = [(1, [7; 8], toF 16 : G2 FP)]%N.
Proof. vm_cast_no_check (eq_refl (key_of (end_on ublocks kchain 7 uhs7).1)). Qed.
Lemma u_key8 : key_of (end_on ublocks kchain 8 uhs8).1 = [(1, [7; 8; 9], toF 19 : G2 FP)]%N.
Proof. vm_cast_no_check (eq_refl (key_of (end_on ublocks kchain 8 uhs8).1)). Qed.
Lemma key_inv s n ks (k : G2 FP) : key_of s = [(n, ks, k)] → ∃ g, g ∈ k_ekgs s ∧ g_eon g = n ∧ g_keypers g = ks ∧ ek_pk (g_epochkg g) = k.
Proof.
  unfold key_of. destruct (k_ekgs s) as [|g [|? ?]]; intros H; [discriminate H| |discriminate H]. apply (f_equal head) in H. cbn [fmap list_fmap head] in H. apply (inj Some) in H.
  apply pair_equal_spec in H as [H H3]. apply pair_equal_spec in H as [H1 H2]. exists g. split; [left|]. split; [exact H1|]. split; [exact H2|exact H3].
Qed.
(** Keypers 7 and 8 follow the same well-formed chain, neither is ever restarted or skips a decision; keyper 7 decides when the chain has 4 blocks and keyper 8 when it has 5.
    Both finish the key generation of eon 1, with different keyper sets and different keys: each decrypts with a key that nobody encrypts for, or that the others do not have. *)
Theorem C58_refuted : ∃ blocks l7 l8 s7 s8 acts7 acts8 (g7 g8 : kekg FP),
  (∀ m, SyncModel.well_formed (published wmake blocks m)) ∧ heights_ok wmake ∧
  keyper_run_no_skip wmake blocks wplen wpoint (wpar 7) 34 l7 s7 acts7 ∧ keyper_run_no_skip wmake blocks wplen wpoint (wpar 8) 34 l8 s8 acts8 ∧
  keyper_run wmake blocks wplen wpoint (wpar 7) 34 l7 s7 acts7 ∧ keyper_run wmake blocks wplen wpoint (wpar 8) 34 l8 s8 acts8 ∧
  g7 ∈ k_ekgs s7 ∧ g8 ∈ k_ekgs s8 ∧ g_eon g7 = 1%N ∧ g_eon g8 = 1%N ∧ g_keypers g7 ≠ g_keypers g8 ∧ ek_pk (g_epochkg g7) ≠ ek_pk (g_epochkg g8).
Proof.
  destruct (run_on ublocks kchain 7 uhs7 34 u_run7) as [R7 R7']. destruct (run_on ublocks kchain 8 uhs8 34 u_run8) as [R8 R8']. pose proof u_key7 as K7. pose proof u_key8 as K8.
  revert R7 R7' R8 R8' K7 K8. generalize (end_on ublocks kchain 7 uhs7), (end_on ublocks kchain 8 uhs8), (inputs_on ublocks kchain 7 uhs7), (inputs_on ublocks kchain 8 uhs8).
  intros [s7 acts7] [s8 acts8] l7 l8 R7 R7' R8 R8' K7 K8. cbn [fst snd] in *. apply key_inv in K7 as (g7 & G7 & E7 & F7 & H7). apply key_inv in K8 as (g8 & G8 & E8 & F8 & H8).
  exists ublocks, l7, l8, s7, s8, acts7, acts8, g7, g8. split; [exact u_wf|]. split; [exact w_heights|]. split; [exact R7|]. split; [exact R8|]. split; [exact R7'|]. split; [exact R8'|].
  split; [exact G7|]. split; [exact G8|]. split; [exact E7|]. split; [exact E8|]. split; [rewrite F7, F8; discriminate|]. rewrite H7, H8. intros H. apply (f_equal (λ x : G2 FP, ofF x)) in H. vm_compute in H. discriminate H.
Qed.

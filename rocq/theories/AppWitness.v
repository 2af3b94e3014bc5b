(** Concrete chain runs, used as witnesses that the theorems' hypotheses are met by reachable states
    and as counterexamples. *)
From stdpp Require Import gmap list sorting.
From Coq Require Import NArith ZArith Lia.
From Verif Require Import AppModel AppSpec AppSteps.

(** run a list of calls *)
Fixpoint run (O : oracles) (s : app) (cs : list call) : option (list (call * response) * app) :=
  match cs with
  | [] => Some ([], s)
  | c :: cs' =>
    match step O s c with
    | Some (s1, r) => match run O s1 cs' with Some (tr, s2) => Some ((c, r) :: tr, s2) | None => None end
    | None => None
    end
  end.

Lemma run_exec O s cs tr s' : Forall valid_call cs → run O s cs = Some (tr, s') → exec O s tr s' ∧ tr.*1 = cs.
Proof.
  revert s tr s'. induction cs as [|c cs IH]; intros s tr s' HF H; cbn in H.
  - simplify_eq. split; [constructor|done].
  - destruct (step O s c) as [[s1 r]|] eqn:E; [|done]. destruct (run O s1 cs) as [[tr1 s2]|] eqn:E2; [|done].
    simplify_eq. apply Forall_cons in HF as [Hv HF]. destruct (IH _ _ _ HF E2) as [He Hc]. split.
    + change ((c, r) :: tr1) with ([(c, r)] ++ tr1). eapply exec_app; [by eapply exec_one|done].
    + cbn. by rewrite Hc.
Qed.

(** transaction [i] is entry number [i] of a table of signed messages for chain "c" = [99] *)
Definition table_oracles (msgs : list (address * payload)) : oracles := mkOracles
  (λ tx, match tx with
         | [i] => match msgs !! N.to_nat i with
                  | Some (a, p) => Some (a, mkMessage p [99]%N i)
                  | None => None
                  end
         | _ => None
         end)
  (λ k, Some k) (λ k, Some k) (λ k, Some k).

(** deliver transaction [i]; maps iterated in list order *)
Definition tx (i : N) : call := CDeliverTx [i] id.
Lemma id_order : valid_order id. Proof. by intros l. Qed.

Definition addr20 (n : N) : bytes := replicate 19 0%N ++ [n].
Definition key32 (n : N) : bytes := replicate 31 0%N ++ [n].
Definition raw (start : N) (ks : list N) (thr idx : N) (st vu : bool) : payload :=
  MBatchConfig (mkRawConfig start (addr20 <$> ks) thr (addr20 77) idx st vu).
Definition cfg (start : N) (ks : list N) (thr idx : N) (st vu : bool) : config :=
  mkConfig start ks thr 77%N idx st vu.
Definition genesis (ks : list N) (thr : N) : call := CInitChain ks thr [(key32 200, 10%Z)] [99]%N.

(** a bool observation made after running a list of calls from a fresh application *)
Definition observe (O : oracles) (dev : bool) (cs : list call) (f : trace → app → bool) : bool :=
  match run O (new_app dev) cs with Some (tr, s) => f tr s | None => false end.
Lemma observe_history O dev cs f : Forall valid_call cs → observe O dev cs f = true →
  ∃ tr s, exec O (new_app dev) tr s ∧ history O tr s ∧ tr.*1 = cs ∧ f tr s = true.
Proof.
  intros HF H. unfold observe in H. destruct (run O (new_app dev) cs) as [[tr s]|] eqn:E; [|done].
  destruct (run_exec _ _ _ _ _ HF E). exists tr, s. split; [done|]. split; [by exists dev|done].
Qed.
Ltac valid_calls := repeat (apply Forall_cons; split; [try exact I; try exact id_order|]); try apply Forall_nil_2.

(** ** Witness for C14: a threshold of 2^63 is accepted, after which a single keyper can replace the
    configuration on its own. *)
Definition w14_msgs : list (address * payload) :=
  [(1, raw 10 [1; 2; 3] (2 ^ 63) 1 false false); (2, raw 10 [1; 2; 3] (2 ^ 63) 1 false false);
   (3, raw 10 [3] 1 2 false false)]%N.
Definition w14 : list call := [genesis [1; 2; 3]%N 2; tx 0; tx 1; tx 2].
Definition w14_check (tr : trace) (s : app) : bool :=
  bool_decide (configs s = [genesis_config [1; 2; 3]%N 2; cfg 10 [1; 2; 3]%N (2 ^ 63) 1 false false; cfg 10 [3]%N 1 2 false false]).
Lemma w14_ok : observe (table_oracles w14_msgs) false w14 w14_check = true.
Proof. vm_compute. reflexivity. Qed.

(** ** Witness for C12: a voted config whose message carries both flags takes over the validator set
    at the next EndBlock although nobody has checked in. *)
Definition w12_msgs : list (address * payload) :=
  [(1, raw 10 [1; 2; 3] 2 1 true true); (2, raw 10 [1; 2; 3] 2 1 true true)]%N.
Definition w12 : list call := [genesis [1; 2; 3]%N 2; tx 0; tx 1; CEndBlock 1].
Definition w12_check (tr : trace) (s : app) : bool :=
  bool_decide (configs s = [genesis_config [1; 2; 3]%N 2; cfg 10 [1; 2; 3]%N 2 1 true true]) &&
  bool_decide (validators s = {[ non_existent_validator := 30%Z ]}) && bool_decide (identities s = ∅).
Lemma w12_ok : observe (table_oracles w12_msgs) false w12 w12_check = true.
Proof. vm_compute. reflexivity. Qed.

(** ** Witness for C15: votes that config 1 has started also start config 2, announced in the same
    block, for which nobody voted. *)
Definition w15_msgs : list (address * payload) :=
  [(1, raw 10 [1; 2; 3] 2 1 false false); (2, raw 10 [1; 2; 3] 2 1 false false);
   (1, MBatchConfigStarted 1); (2, MBatchConfigStarted 1);
   (1, raw 20 [1; 2; 3] 2 2 false false); (2, raw 20 [1; 2; 3] 2 2 false false)]%N.
Definition w15_pre : list call := [genesis [1; 2; 3]%N 2; tx 0; tx 1; tx 2; tx 3; tx 4; tx 5].
Definition w15_pre_check (tr : trace) (s : app) : bool :=
  bool_decide (configs s = [genesis_config [1; 2; 3]%N 2; cfg 10 [1; 2; 3]%N 2 1 false false; cfg 20 [1; 2; 3]%N 2 2 false false]) &&
  match step (table_oracles w15_msgs) s (CEndBlock 1) with
  | Some (s', _) => bool_decide (configs s' = [genesis_config [1; 2; 3]%N 2; cfg 10 [1; 2; 3]%N 2 1 false false; cfg 20 [1; 2; 3]%N 2 2 true false])
  | None => false
  end.
Lemma w15_pre_ok : observe (table_oracles w15_msgs) false w15_pre w15_pre_check = true.
Proof. vm_compute. reflexivity. Qed.
Definition w15_check (tr : trace) (s : app) : bool :=
  bool_decide (configs s = [genesis_config [1; 2; 3]%N 2; cfg 10 [1; 2; 3]%N 2 1 false false; cfg 20 [1; 2; 3]%N 2 2 true false]).
Lemma w15_ok : observe (table_oracles w15_msgs) false (w15_pre ++ [CEndBlock 1]) w15_check = true.
Proof. vm_compute. reflexivity. Qed.

(** ** Witness for C16: two keypers vote for different configs; voting is blocked forever. *)
Definition w16_msgs : list (address * payload) :=
  [(1, raw 10 [1; 2] 2 1 false false); (2, raw 11 [1; 2] 2 1 false false)]%N.
Definition w16 : list call := [genesis [1; 2]%N 2; tx 0; tx 1].
Definition w16_check (tr : trace) (s : app) : bool :=
  bool_decide (configs s = [genesis_config [1; 2]%N 2]) &&
  forallb (λ a, bool_decide (is_Some (vt_votes (config_voting s) !! a))) [1; 2]%N &&
  bool_decide (Forall (λ p, rsp_code p.2 = 0%N) tr).
Lemma w16_ok : observe (table_oracles w16_msgs) false w16 w16_check = true.
Proof. vm_compute. reflexivity. Qed.

(** ** A full life cycle *)
Definition w1_msgs : list (address * payload) :=
  [(1, raw 10 [1; 2; 3] 2 1 false false); (2, raw 10 [1; 2; 3] 2 1 false false);   (* 0, 1: config 1, eon 1 *)
   (1, MCheckIn (key32 101) [5]); (2, MCheckIn (key32 102) [6]);                      (* 2, 3 *)
   (1, MBatchConfigStarted 1); (2, MBatchConfigStarted 1);                            (* 4, 5 *)
   (1, MPolyCommitment 1 [[7]; [8]]); (1, MPolyEval 1 [addr20 2; addr20 3] [[1]; [2]]); (* 6, 7 *)
   (2, MAccusation 1 [addr20 1]); (1, MApology 1 [addr20 2] [[9]]);                   (* 8, 9 *)
   (1, MEonStartVote 12); (3, MEonStartVote 12);                                      (* 10, 11: eon 2 *)
   (1, MDecryptionSignature 12 [42]); (3, MDecryptionSignature 12 [43]);              (* 12, 13 *)
   (1, MEpochSecretKeyShare 1 12 [44]); (1, MEonStartVote 13)]%N.                     (* 14, 15 *)
Definition w1 : list call :=
  [genesis [1; 2; 3]%N 2; CCheckTx [0]%N; CEndBlock 1; CCommit] ++
  [tx 0; tx 1; CEndBlock 2; CCommit; tx 2; tx 3; tx 4; tx 5; CEndBlock 3; CCommit] ++
  (tx <$> [6; 7; 8; 9; 10; 11; 12; 13; 14; 15]%N).
Definition w1_check (tr : trace) (s : app) : bool :=
  bool_decide (Forall (λ p, rsp_code p.2 = 0%N) tr) &&
  bool_decide (eons_of tr = [1; 2]%N) &&
  bool_decide (commitments_of tr = [(1, 1)]%N) && bool_decide (accusations_of tr = [(1, 2)]%N) &&
  bool_decide (apologies_of tr = [(1, 1)]%N) && bool_decide (evals_of tr = [(1, 1, 2); (1, 1, 3)]%N) &&
  bool_decide (signatures_of tr = [(12, 1); (12, 3)]%N) && bool_decide (checkins_of tr = [1; 2]%N) &&
  bool_decide (validators s = {[ key32 101 := 10%Z; key32 102 := 10%Z; non_existent_validator := 10%Z ]}) &&
  bool_decide (configs s = [genesis_config [1; 2; 3]%N 2; cfg 10 [1; 2; 3]%N 2 1 true true]) &&
  bool_decide (rsp_updates <$> tr.*2 !! 12 = Some [(key32 101, 10%Z); (key32 102, 10%Z); (key32 200, 0%Z); (non_existent_validator, 10%Z)]).
Lemma w1_ok : observe (table_oracles w1_msgs) false w1 w1_check = true.
Proof. vm_compute. reflexivity. Qed.

Lemma w14_valid : Forall valid_call w14. Proof. unfold w14; cbn; valid_calls. Qed.
Lemma w14_history : ∃ tr s, exec (table_oracles w14_msgs) (new_app false) tr s ∧ history (table_oracles w14_msgs) tr s ∧ tr.*1 = w14 ∧ w14_check tr s = true.
Proof. exact (observe_history (table_oracles w14_msgs) false w14 w14_check w14_valid w14_ok). Qed.

Lemma w12_valid : Forall valid_call w12. Proof. unfold w12; cbn; valid_calls. Qed.
Lemma w12_history : ∃ tr s, exec (table_oracles w12_msgs) (new_app false) tr s ∧ history (table_oracles w12_msgs) tr s ∧ tr.*1 = w12 ∧ w12_check tr s = true.
Proof. exact (observe_history (table_oracles w12_msgs) false w12 w12_check w12_valid w12_ok). Qed.

Lemma w15_valid : Forall valid_call w15_pre. Proof. unfold w15_pre; cbn; valid_calls. Qed.
Lemma w15_history : ∃ tr s, exec (table_oracles w15_msgs) (new_app false) tr s ∧ history (table_oracles w15_msgs) tr s ∧ tr.*1 = w15_pre ∧ w15_pre_check tr s = true.
Proof. exact (observe_history (table_oracles w15_msgs) false w15_pre w15_pre_check w15_valid w15_pre_ok). Qed.

Lemma w16_valid : Forall valid_call w16. Proof. unfold w16; cbn; valid_calls. Qed.
Lemma w16_history : ∃ tr s, exec (table_oracles w16_msgs) (new_app false) tr s ∧ history (table_oracles w16_msgs) tr s ∧ tr.*1 = w16 ∧ w16_check tr s = true.
Proof. exact (observe_history (table_oracles w16_msgs) false w16 w16_check w16_valid w16_ok). Qed.

Lemma w1_valid : Forall valid_call w1. Proof. unfold w1; cbn; valid_calls. Qed.
Lemma w1_history : ∃ tr s, exec (table_oracles w1_msgs) (new_app false) tr s ∧ history (table_oracles w1_msgs) tr s ∧ tr.*1 = w1 ∧ w1_check tr s = true.
Proof. exact (observe_history (table_oracles w1_msgs) false w1 w1_check w1_valid w1_ok). Qed.

(** the state of [w14] before its last transaction *)
Definition w14_pre : list call := [genesis [1; 2; 3]%N 2; tx 0; tx 1].
Definition w14_pre_check (tr : trace) (s : app) : bool :=
  bool_decide (configs s = [genesis_config [1; 2; 3]%N 2; cfg 10 [1; 2; 3]%N (2 ^ 63) 1 false false]) &&
  match step (table_oracles w14_msgs) s (tx 2) with
  | Some (s', r) => bool_decide (configs s' = configs s ++ [cfg 10 [3]%N 1 2 false false]) &&
      match rsp_events r with EvBatchConfig c :: _ => bool_decide (c = cfg 10 [3]%N 1 2 false false) | _ => false end
  | None => false
  end.
Lemma w14_pre_ok : observe (table_oracles w14_msgs) false w14_pre w14_pre_check = true.
Proof. vm_compute. reflexivity. Qed.
Lemma w14_pre_valid : Forall valid_call w14_pre. Proof. unfold w14_pre; cbn; valid_calls. Qed.
Lemma w14_pre_history : ∃ tr s, exec (table_oracles w14_msgs) (new_app false) tr s ∧
  history (table_oracles w14_msgs) tr s ∧ tr.*1 = w14_pre ∧ w14_pre_check tr s = true.
Proof. exact (observe_history (table_oracles w14_msgs) false w14_pre w14_pre_check w14_pre_valid w14_pre_ok). Qed.

(** in [w14] only keyper 3 votes for the last config *)
Lemma w14_voter cl x : votes_config (table_oracles w14_msgs) cl x (cfg 10 [3]%N 1 2 false false) → x = 3%N.
Proof.
  intros (m & (tx0 & ord0 & msg & _ & D & Hp) & Hm).
  cbn in D. destruct tx0 as [|i [|? ?]]; try done. destruct (w14_msgs !! N.to_nat i) as [[a p]|] eqn:El; [|done].
  injection D as -> <-. cbn in Hp. subst p. apply elem_of_list_lookup_2 in El. clear cl.
  assert (Hi : rc_index m = 2%N).
  { unfold config_from_message in Hm. destruct (mapM validate_address (rc_keypers m)); cbn [mbind option_bind] in Hm; [|done].
    destruct (unique_addresses l); [|done]. destruct (validate_address (rc_contract m)); cbn [mbind option_bind] in Hm; [|done].
    by injection Hm. }
  clear Hm. unfold w14_msgs in El.
  apply elem_of_cons in El as [El|El]; [injection El as -> ->; done|].
  apply elem_of_cons in El as [El|El]; [injection El as -> ->; done|].
  apply elem_of_cons in El as [El|El]; [by injection El as -> ->|by apply elem_of_nil in El].
Qed.

(** The run of FullWitness.v meets the hypotheses of the theorems of C70. *)
From stdpp Require Import list gmap strings.
From Coq Require Import ZArith NArith Lia.
From Verif Require Import Fq CryptoModel CryptoSpec PropsCrypto DkgModel DkgSpec EpochModel ObserveModel ObserveProofs SyncModel SyncProofs ArithModel ContractsModel MainModel MainProofs PropsMain
  DecideModel EncModel EncodingModel KeyperModel KeyperSpec KeyperRunProofs KeyperActionProofs KeyperSystem PropsKeyper PropsKeyperDkg PropsKeyperLive KeyperWitness
  AppModel AppSpec AppSteps AppWitness EventsModel EventsSpec EventsProofs PropsEvents PropsChain PropsFull EventsWitness FullWitness AcceptApp AcceptKeyper AcceptChain PropsAccept.
Local Open Scope Z_scope.

Local Transparent frun.
Definition fg : config := genesis_config [7; 8]%N 2%N.
Definition fcommitment (a : N) : payload := m_commitment FP x_point 1 (gammas FP (if (a =? 7)%N then [5; 7] else [11; 13])).
Definition fmsg (a : N) : message := mkMessage (fcommitment a) [99]%N 3.
Definition fpos (a : N) : nat := if (a =? 7)%N then 0 else 1.
Definition decoded (x : bytes * response) : option (N * message) * N := (parse_tx x_pb_parse (λ x, x) x_signer x.1, rsp_code x.2).
Lemma f_launched : launched [99]%N fg frun.
Proof.
  set (t := match frun with (c, r) :: tr => Some (c, forallb (λ x : call * response, match x.1 with CInitChain _ _ _ _ => false | _ => true end) tr) | [] => None end).
  assert (H : t = Some (genesis [7; 8]%N 2%N, true)) by (vm_cast_no_check (eq_refl (Some (genesis [7; 8]%N 2%N, true)))). unfold t in H. clear t.
  destruct frun as [|[c r] tr]; [discriminate H|]. injection H as -> H. exists [7; 8]%N, 2%N, [(key32 200, 10)], r, tr. split; [reflexivity|]. split; [|reflexivity].
  apply Forall_fmap, Forall_forall. intros x Hx. cbn. rewrite forallb_forall in H. specialize (H x (proj1 (elem_of_list_In _ _) Hx)). destruct x as [[] ?]; try discriminate H; exact I.
Qed.
(** the transactions before the commitments *)
Definition fbefore : list (option (N * message) * N) :=
  (λ x : N * (N * payload), (Some (x.1, mkMessage x.2.2 [99]%N x.2.1), 0%N)) <$>
  [(7, (1, raw 0 [7; 8] 2 1 false false)); (8, (1, raw 0 [7; 8] 2 1 false false)); (7, (2, m_check_in N (key32 7) x_pk 70)); (8, (2, m_check_in N (key32 8) x_pk 80))]%N.
Definition fbefore_of (a : N) : list (option (N * message) * N) := if (a =? 7)%N then fbefore else fbefore ++ [(Some (7%N, fmsg 7), 0%N)].
Lemma f_before a : a ∈ [7; 8]%N → decoded <$> txs_before frun 5 (fpos a) = fbefore_of a.
Proof. intros Ha. rewrite !elem_of_cons, elem_of_nil in Ha. destruct Ha as [->|[->|[]]]; [vm_cast_no_check (eq_refl (fbefore_of 7))|vm_cast_no_check (eq_refl (fbefore_of 8))]. Qed.
Lemma f_here a : a ∈ [7; 8]%N → decoded <$> (txs_at frun 5 !! fpos a) = Some (Some (a, fmsg a), 0%N).
Proof. intros Ha. rewrite !elem_of_cons, elem_of_nil in Ha. destruct Ha as [->|[->|[]]]; [vm_cast_no_check (eq_refl (Some (Some (7%N, fmsg 7), 0%N)))|vm_cast_no_check (eq_refl (Some (Some (8%N, fmsg 8), 0%N)))]. Qed.
Local Opaque frun fks facts finputs fobserved fend fchain gammas.

Lemma f_before_msg a tx r msg : a ∈ [7; 8]%N → (tx, r) ∈ txs_before frun 5 (fpos a) → parse_tx x_pb_parse (λ x, x) x_signer tx = Some (a, msg) → msg_nonce msg ≠ 3%N ∧ msg_payload msg ≠ fcommitment a ∧ dkg_eon_of (msg_payload msg) = None.
Proof.
  intros Ha Hin Hp. assert (Hd : decoded (tx, r) ∈ fbefore_of a) by (rewrite <-(f_before a Ha); apply elem_of_list_fmap; by exists (tx, r)).
  unfold decoded in Hd. cbn [fst snd] in Hd. rewrite Hp in Hd.
  assert (HF : ∀ y, y ∈ fbefore_of a → ∀ m c, y = (Some (a, m), c) → msg_nonce m ≠ 3%N ∧ msg_payload m ≠ fcommitment a ∧ dkg_eon_of (msg_payload m) = None).
  { clear. intros y Hy m c E. unfold fbefore_of, fbefore in Hy.
    assert (H4 : y ∈ fbefore → msg_nonce m ≠ 3%N ∧ msg_payload m ≠ fcommitment a ∧ dkg_eon_of (msg_payload m) = None).
    { unfold fbefore. intros (x & E' & Hx)%elem_of_list_fmap. rewrite E in E'. injection E' as -> -> ->. rewrite !elem_of_cons, elem_of_nil in Hx. destruct Hx as [->|[->|[->|[->|[]]]]]; cbn [fst snd msg_nonce msg_payload]; (split; [done|]); (split; [discriminate|reflexivity]). }
    destruct (a =? 7)%N eqn:Ea; [by apply H4|]. apply elem_of_app in Hy as [Hy|Hy]; [by apply H4|]. apply elem_of_list_singleton in Hy. rewrite E in Hy. injection Hy as -> _ _. discriminate Ea. }
  exact (HF _ Hd _ _ eq_refl).
Qed.
Notation ftransaction := (transaction x_pb_parse (λ x, x) x_signer).
Lemma f_transaction a : a ∈ [7; 8]%N → ∃ r, ftransaction frun [99]%N 5 (fpos a) a (fmsg a) r.
Proof.
  intros Ha. pose proof (f_here a Ha) as H. apply fmap_Some in H as ([tx r] & Htx & E). unfold decoded in E. cbn [fst snd] in E. injection E as E _. exists r, tx. split; [exact Htx|]. split; [by symmetry|]. split; [reflexivity|].
  intros tx' r' msg' Hin Hp. by destruct (f_before_msg a tx' r' msg' Ha Hin Hp).
Qed.
(** all that is signed by the keypers *)
Definition own (a : N) (x : option (N * payload) * N) : Prop :=
  ∀ p, x.1 = Some (a, p) → match p with MPolyCommitment _ _ => p = fcommitment a | MAccusation _ _ | MApology _ _ _ => False | _ => True end.
Lemma f_own a : a ∈ [7; 8]%N → Forall (own a) fwant.
Proof.
  intros Ha. rewrite !elem_of_cons, elem_of_nil in Ha. unfold fwant. destruct Ha as [->|[->|[]]]; repeat (apply Forall_cons; split; [intros p E; cbn [fst] in E; try discriminate E; injection E as <-; first [reflexivity|exact I]|]); apply Forall_nil_2.
Qed.
Lemma f_included a : a ∈ [7; 8]%N → included x_point x_pb_parse (λ x, x) x_signer (P:=FP) wplen frun [99]%N 34 1 1 a (mjoin (facts a)).
Proof.
  intros Ha. rewrite (f_submitted a Ha).
  assert (HA : ∃ r e j key, mjoin (fsent a) = [KCheckIn; KCommitment 1 (gammas FP (if (a =? 7)%N then [5; 7] else [11; 13])); KPolyEval 1 r e; KEonKey j 0 key]).
  { clear -Ha. rewrite !elem_of_cons, elem_of_nil in Ha. destruct f_joined as [J7 J8]. destruct Ha as [->|[->|[]]]; [rewrite J7|rewrite J8]; by eexists _, _, _, _. }
  destruct HA as (rs & es & j & key & ->). destruct (f_transaction a Ha) as (r & Ht). split.
  - intros x ph p Hx Hph Hne Hs. rewrite !elem_of_cons, elem_of_nil in Hx. destruct Hx as [->|[->|[->|[->|[]]]]]; try discriminate Hph; [|by destruct (Hne rs es)].
    cbn in Hph. injection Hph as <-. cbn [sent] in Hs. injection Hs as <-. exists 5%nat, (fpos a), (fmsg a), r. split; [lia|]. split; [done|]. split; [reflexivity|]. split; [exact Ht|]. split; [reflexivity|].
    intros tx' r' msg' Hin Hp. by destruct (f_before_msg a tx' r' msg' Ha Hin Hp) as (_ & ? & _).
  - intros h tx msg r0 Htx Hp. apply f_tx_cases in Htx. rewrite Hp in Htx. pose proof (f_own a Ha) as Ho. rewrite Forall_forall in Ho. specialize (Ho _ Htx (msg_payload msg) eq_refl).
    destruct (msg_payload msg); try exact I; try by destruct Ho. intros _. eexists. split; [right; left|]. by rewrite Ho.
Qed.
Notation ftakes := (@takes_part no_hash FP N x_pk x_pk_parse x_pk_parse x_point x_point_parse x_point x_point_parse x_pb_parse (λ x, x) x_signer wplen wpoint fchain).
Lemma f_takes a : a ∈ [7; 8]%N → ftakes 1 1 0%N (wpar a) 34 (finputs a) (fks a) (facts a) frun.
Proof. intros Ha. destruct (f_part a Ha). split; try done. exists [99]%N, fg. split; [exact f_launched|exact (f_included a Ha)]. Qed.
Example C70_key_generation_witness : ∀ a, a ∈ [7; 8]%N → ∃ g, g ∈ k_ekgs (fks a) ∧ g_eon g = 1%N ∧ g_keypers g = [7; 8]%N.
Proof.
  intros a Ha.
  destruct (@C70_key_generation no_hash FP N x_pk x_pk_parse x_pk_parse x_pk x_point x_point_parse x_point x_point_parse x_pb x_pb_parse (λ x, x) x_signer C25_witness wplen wpoint fchain 1 1 0%N (mkSConfig 1 0 [7; 8]%N 2)
    ((λ a, (wpar a, 34%nat, finputs a, fks a, facts a, frun)) <$> [7; 8]%N)) as [H _]; [exact (proj1 C65_witness)|exact f_settled|exact f_config|exact f_sized|exact f_lengths| | | |].
  - cbn [fmap list_fmap fst wpar kp_me]. apply NoDup_cons. split; [|apply NoDup_singleton]. rewrite elem_of_list_singleton. done.
  - reflexivity.
  - intros p m l s acts tr (x & E & Hx)%elem_of_list_fmap. apply pair_equal_spec in E as [E E6]. apply pair_equal_spec in E as [E E5]. apply pair_equal_spec in E as [E E4]. apply pair_equal_spec in E as [E E3]. apply pair_equal_spec in E as [E1 E2].
    rewrite E1, E2, E3, E4, E5, E6. split; [|exact (f_takes x Hx)]. cbn [wpar kp_me sc_keypers]. exact Hx.
  - apply (H (wpar a) 34%nat (finputs a) _ (facts a) frun). apply elem_of_list_fmap. exists a. split; [reflexivity|exact Ha].
Qed.
Lemma conflicts_dkg p q : conflicts p q → dkg_eon_of q ≠ None.
Proof. destruct p, q; cbn; done. Qed.
(** keyper 7 submits its commitment, which is in block 5 *)
Example C70_accepted_witness : ∃ r, ftransaction frun [99]%N 5 0 7%N (fmsg 7) r ∧ rsp_code r = 0%N.
Proof.
  assert (Ha : 7%N ∈ [7; 8]%N) by (by left). destruct (f_transaction 7 Ha) as (r & Ht). exists r. split; [exact Ht|].
  apply (@C70_accepted no_hash FP N x_pk x_pk_parse x_pk_parse x_pk x_point x_point_parse x_point x_point_parse x_pb x_pb_parse (λ x, x) x_signer C25_witness wplen wpoint fchain [99]%N fg 34 frun (wpar 7) 34 (finputs 7) (fks 7) (facts 7) 1 1 0%N
    (KCommitment 1 (gammas FP [5; 7])) dealing (fcommitment 7) 5 0 (fmsg 7) r);
    [exact (proj1 C65_witness)|exact (f_produced_by 34)|exact f_launched|exact f_settled|exact f_sized|exact f_lengths|exact (f_run 7 Ha)|apply f_started; lia|lia| |reflexivity|reflexivity|exact Ht|lia|done|reflexivity|].
  - rewrite (f_submitted 7 Ha), (proj1 f_joined). right. left.
  - intros tx' r' msg' Hin Hp _ Hc. destruct (f_before_msg 7 tx' r' msg' Ha Hin Hp) as (_ & _ & Hn). by apply conflicts_dkg in Hc.
Qed.
(** the app, after the first four blocks, gets keyper 7's commitment, and the accusation of a stranger *)
Definition judged (a k : N) (p : payload) (code : N) : Prop := ∃ tr s tx s' r msg, AppSpec.history fO tr s ∧ launched [99]%N fg tr ∧ (N.of_nat (length (eons_of tr)) < 2 ^ 64)%N ∧
  step fO s (CDeliverTx tx id) = Some (s', r) ∧ decode_tx fO tx = Some (a, msg) ∧ msg_payload msg = p ∧ dkg_eon_of (msg_payload msg) = Some 1%N ∧ rsp_code r = code.
Definition well_ordered (c : call) : Prop := match c with CDeliverTx _ ord => ord = id | _ => True end.
Lemma judged_run (cs : list call) (tx : bytes) (a k : N) (p : payload) (code : N) : dkg_eon_of p = Some 1%N → Forall well_ordered cs →
  (match run fO (new_app false) cs with
   | Some (tr, s) => bool_decide (length (eons_of tr) = 1%nat) && match tr with (c, _) :: tr' => forallb (λ x : call * response, match x.1 with CInitChain _ _ _ _ => false | _ => true end) tr' | [] => false end &&
      match step fO s (CDeliverTx tx id) with Some (_, r) => N.eqb (rsp_code r) code | None => false end
   | None => false end = true) →
  (match run fO (new_app false) cs with Some ((c, _) :: _, _) => Some c | _ => None end = Some (genesis [7; 8]%N 2%N)) →
  decode_tx fO tx = Some (a, mkMessage p [99]%N k) → judged a k p code.
Proof.
  intros Hn Hw H1 H2 H3. destruct (run fO (new_app false) cs) as [[tr s]|] eqn:E; [|discriminate H1]. apply andb_true_iff in H1 as [H1 H5]. apply andb_true_iff in H1 as [H1 H4]. apply bool_decide_eq_true in H1.
  destruct (step fO s _) as [[s' r]|] eqn:Es in H5; [|discriminate H5]. apply N.eqb_eq in H5. exists tr, s, tx, s', r, (mkMessage p [99]%N k). split.
  { exists false. apply (run_exec fO (new_app false) cs tr s); [|exact E]. eapply Forall_impl; [exact Hw|]. intros [] Hc; try exact I. cbn in Hc. rewrite Hc. exact id_order. }
  split.
  { destruct tr as [|[c r0] tr]; [discriminate H4|]. injection H2 as ->. exists [7; 8]%N, 2%N, [(key32 200, 10)], r0, tr. split; [reflexivity|]. split; [|reflexivity].
    apply Forall_fmap, Forall_forall. intros x Hx. cbn. rewrite forallb_forall in H4. specialize (H4 x (proj1 (elem_of_list_In _ _) Hx)). destruct x as [[] ?]; try discriminate H4; exact I. }
  split; [rewrite H1; done|]. split; [exact Es|]. split; [exact H3|]. split; [reflexivity|]. split; [exact Hn|exact H5].
Qed.
Definition fourcalls : list call := take 13 fcalls.
Lemma fourcalls_ordered : Forall well_ordered fourcalls.
Proof. apply Forall_take. unfold fcalls, fblock, genesis, ftx. repeat (apply Forall_app; split); repeat (apply Forall_cons; split; [first [exact I|reflexivity]|]); try apply Forall_nil_2. Qed.
Definition ftxb (a k : N) (p : payload) : bytes := make_tx x_pb (λ x, x) (x_sign a) (mkMessage p [99]%N k).
Local Transparent gammas.
Example C70_accepts_iff_witness : judged 7 3 (fcommitment 7) 0 ∧ judged 9 1 (m_accusation 1 [7]%N) 1 ∧ judged 7 2 (fcommitment 7) 1.
Proof.
  split; [|split].
  - apply (judged_run fourcalls (ftxb 7 3 (fcommitment 7))); [reflexivity|exact fourcalls_ordered|vm_cast_no_check (eq_refl true)|vm_cast_no_check (eq_refl (Some (genesis [7; 8]%N 2%N)))|vm_cast_no_check (eq_refl (Some (7%N, mkMessage (fcommitment 7) [99]%N 3)))].
  - apply (judged_run fourcalls (ftxb 9 1 (m_accusation 1 [7]%N))); [reflexivity|exact fourcalls_ordered|vm_cast_no_check (eq_refl true)|vm_cast_no_check (eq_refl (Some (genesis [7; 8]%N 2%N)))|vm_cast_no_check (eq_refl (Some (9%N, mkMessage (m_accusation 1 [7]%N) [99]%N 1)))].
  - apply (judged_run fourcalls (ftxb 7 2 (fcommitment 7))); [reflexivity|exact fourcalls_ordered|vm_cast_no_check (eq_refl true)|vm_cast_no_check (eq_refl (Some (genesis [7; 8]%N 2%N)))|vm_cast_no_check (eq_refl (Some (7%N, mkMessage (fcommitment 7) [99]%N 2)))].
Qed.

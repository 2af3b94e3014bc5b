(** C65: the chain that the shuttermint app produces is one on which the keypers can rely. *)
From stdpp Require Import gmap list strings sorting.
From Coq Require Import ZArith NArith Lia.
From RecordUpdate Require Import RecordUpdate.
From Verif Require Import CryptoModel EncModel EncodingModel PropsEncoding AppModel AppSpec AppSteps VotingProofs AppInv AppProofs1 AppProofs2 AppProofs3 PropsApp
  ObserveModel SyncModel SyncProofs MainModel MainProofs KeyperModel EventsModel EventsSpec EventsProofs PropsEvents.

(** ** Specification *)
(** the blocks of a history, each a list of the events of its transactions; [cur]: the block being built, which is not on the chain yet *)
Fixpoint blocks (tr : trace) (cur : list (list AppModel.event)) : list (list (list AppModel.event)) :=
  match tr with
  | [] => []
  | (CDeliverTx _ _, r) :: tr => blocks tr (cur ++ [rsp_events r])
  | (CEndBlock _, _) :: tr => cur :: blocks tr []
  | _ :: tr => blocks tr cur
  end.
(** the first block has height 1 *)
Definition block_at (tr : trace) (n : nat) : list (list AppModel.event) := match n with O => [] | S n => default [] (blocks tr [] !! n) end.

Section Chain.
Context (keccak : bytes → bytes) {P : pairing} {PK : Type}
  (pk_bytes : PK → bytes) (pk_parse decompress : bytes → option PK) (compress : PK → bytes)
  (g2_bytes : G2 P → bytes) (g2_parse : bytes → option (G2 P)) (g1_bytes : G1 P → bytes) (g1_parse : bytes → option (G1 P))
  (pb_bytes : message → bytes) (pb_parse : bytes → option message) (sha3 : bytes → bytes) (sig_signer : bytes → bytes → option N).
Notation O := (chain_oracles P PK pk_bytes g2_bytes g1_bytes pk_parse decompress g2_parse g1_parse pb_parse sha3 sig_signer).
Notation publish := (make_abci keccak).
Notation read := (make_event keccak P PK pk_parse g2_parse g1_parse).
Notation says := (says P PK pk_bytes g2_bytes g1_bytes).
(** the chain is one that the app can produce: however long one looks at it, its blocks are those of a history, with less than 2^64 eons *)
Definition produced (chain : nat → list (list abci)) : Prop :=
  ∀ m, ∃ tr s, AppSpec.history O tr s ∧ (N.of_nat (length (eons_of tr)) < 2 ^ 64)%N ∧ ∀ n, (n < m)%nat → chain n = (λ evs : list AppModel.event, publish <$> evs) <$> block_at tr n.

(** ** Proofs *)
Context (Hok : codecs P PK pk_bytes g2_bytes g1_bytes pk_parse decompress compress g2_parse g1_parse pb_bytes pb_parse sig_signer).
Notation sevent := (shutter_event (body P) sconfig PK (N * bytes)).
Notation typed := (typed_event pk_bytes g2_bytes g1_bytes).

Lemma heights : heights_ok read.
Proof using.
  intros e h k x H. unfold make_event in H.
  repeat match type of H with (if ?b then _ else _) = _ => destruct b end; try done;
    unfold make_batch_config, make_eon_started, make_check_in, make_decryption_signature, make_poly_eval, make_poly_commitment, make_accusation, make_apology, make_epoch_share in H;
    repeat (match type of H with
      | (if ?b then _ else _) = _ => destruct b
      | (?o ≫= _) = Some _ => destruct o; cbn [mbind option_bind] in H
      end; try done); by injection H as _ <-.
Qed.
Lemma events_of_cons c r tr : AppSpec.events_of ((c, r) :: tr) = rsp_events r ++ AppSpec.events_of tr.
Proof using. done. Qed.
(** the events on the chain are the first ones of the history *)
Lemma blocks_events tr cur : (∀ c r, (c, r) ∈ tr → match c with CDeliverTx _ _ => True | _ => rsp_events r = [] end) →
  ∃ rest, concat cur ++ AppSpec.events_of tr = concat (concat (blocks tr cur)) ++ rest.
Proof using.
  revert cur. induction tr as [|[c r] tr IH]; intros cur H; [by eexists|].
  assert (∀ c r, (c, r) ∈ tr → match c with CDeliverTx _ _ => True | _ => rsp_events r = [] end) as H' by (intros; apply H; by right).
  pose proof (H c r ltac:(by left)) as Hc. rewrite events_of_cons. destruct c; cbn [blocks]; rewrite ?Hc.
  - by apply IH.
  - by apply IH.
  - destruct (IH (cur ++ [rsp_events r]) H') as [rest E]. exists rest. rewrite <-E, concat_app. cbn. by rewrite app_nil_r, <-(assoc_L (++)).
  - destruct (IH [] H') as [rest E]. exists rest. cbn [concat]. rewrite concat_app, <-(assoc_L (++)). cbn in E. by rewrite <-E.
  - by apply IH.
Qed.
Lemma exec_silent s tr s' : exec O s tr s' → ∀ c r, (c, r) ∈ tr → match c with CDeliverTx _ _ => True | _ => rsp_events r = [] end.
Proof using.
  induction 1 as [|s tr s1 c r s2 He IH Hv Hs]; intros c' r' Hin; [by apply elem_of_nil in Hin|]. apply elem_of_app in Hin as [Hin|Hin]; [by apply IH|].
  apply elem_of_list_singleton in Hin. injection Hin as -> ->.
  apply step_not_delivered in Hs as [(_ & Hev & _)|(tx & ord & a & m & -> & _)]; [|done]. by destruct c.
Qed.
(** the events of the first [k] blocks *)
Definition first_events (tr : trace) (m : nat) : list AppModel.event := mjoin ((λ n, concat (block_at tr n)) <$> seq 0 m).
Lemma first_events_S tr m : first_events tr (S m) = first_events tr m ++ concat (block_at tr m).
Proof using. unfold first_events. rewrite seq_S, fmap_app. rewrite mjoin_app. cbn. by rewrite app_nil_r. Qed.
Lemma first_events_take tr m : first_events tr (S m) = concat (concat (take m (blocks tr []))).
Proof using.
  induction m as [|m IH]; [done|]. rewrite first_events_S, IH. cbn [block_at]. destruct (blocks tr [] !! m) as [b|] eqn:E.
  - rewrite (take_S_r _ _ _ E), !concat_app. cbn. by rewrite app_nil_r.
  - rewrite (take_ge _ (S m)), (take_ge _ m); [cbn; by rewrite app_nil_r|apply lookup_ge_None in E; lia|apply lookup_ge_None in E; lia].
Qed.
Lemma first_events_prefix tr s m : AppSpec.history O tr s → ∃ rest, AppSpec.events_of tr = first_events tr m ++ rest.
Proof using.
  intros [dev He]. destruct (blocks_events tr [] (exec_silent _ _ _ He)) as [rest E]. cbn in E. destruct m as [|m]; [by eexists|]. rewrite first_events_take.
  rewrite E. exists (concat (concat (drop m (blocks tr []))) ++ rest). rewrite (assoc_L (++)), <-!concat_app. by rewrite take_drop.
Qed.
(** reading the events of block [n] *)
Lemma published_ext (c1 c2 : nat → list (list abci)) m : (∀ n, (n < m)%nat → c1 n = c2 n) → published read c1 m = published read c2 m.
Proof using. intros H. induction m as [|m IH]; [done|]. cbn [published]. rewrite (H m) by lia. rewrite IH; [done|]. intros n Hn. apply H. lia. Qed.
Definition readings (tr : trace) (m : nat) : list sevent := mjoin ((λ n, omap (λ e, read (publish e) (Z.of_nat n)) (concat (block_at tr n))) <$> seq 0 m).
Lemma concat_fmap_fmap {A B} (f : A → B) (l : list (list A)) : concat ((λ x : list A, f <$> x) <$> l) = f <$> concat l.
Proof using. induction l as [|x l IH]; [done|]. cbn. rewrite fmap_app. change (list_fmap _ _ (λ x : list A, f <$> x) l) with ((λ x : list A, f <$> x) <$> l). by rewrite IH. Qed.
Lemma omap_fmap' {A B C} (f : B → option C) (g : A → B) (l : list A) : omap f (g <$> l) = omap (λ x, f (g x)) l.
Proof using. induction l as [|x l IH]; [done|]. cbn. destruct (f (g x)); [f_equal|]; apply IH. Qed.
Lemma published_readings tr m : published read (λ n, (λ evs : list AppModel.event, publish <$> evs) <$> block_at tr n) m = readings tr m.
Proof using.
  unfold readings. induction m as [|m IH]; [done|]. cbn [published]. rewrite IH, seq_S, fmap_app, mjoin_app. f_equal. cbn. rewrite app_nil_r, concat_fmap_fmap. apply omap_fmap'.
Qed.
(** what is read on a produced chain was said by an event of the history *)
Lemma published_said chain m ev : produced chain → ev ∈ published read chain m → ∃ tr s e h, AppSpec.history O tr s ∧ e ∈ AppSpec.events_of tr ∧ says h e ev ∧ ¬ empty_commitment e.
Proof using Hok.
  intros Hp Hin. destruct (Hp m) as (tr & s & Hh & _ & Hc). rewrite (published_ext _ _ _ Hc), published_readings in Hin. unfold readings in Hin.
  apply elem_of_list_join in Hin as (l & Hin & Hl). apply elem_of_list_fmap in Hl as (n & -> & Hn). apply elem_of_list_omap in Hin as (e & He & Hr).
  assert (e ∈ AppSpec.events_of tr) as He'.
  { destruct (first_events_prefix tr s m Hh) as [rest ->]. apply elem_of_app. left. unfold first_events. apply elem_of_list_join. exists (concat (block_at tr n)). split; [done|]. apply elem_of_list_fmap. eauto. }
  exists tr, s, e, (Z.of_nat n). split; [done|]. split; [done|].
  by eapply C25_read.
Qed.
Definition eon_numbers (evs : list sevent) : list N := omap (λ ev, match ev with EonStarted _ n _ => Some n | _ => None end) evs.
Definition eons_in (es : list AppModel.event) : list N := omap (λ e, match e with EvEonStarted n _ => Some n | _ => None end) es.
Lemma eon_numbers_app l1 l2 : eon_numbers (l1 ++ l2) = eon_numbers l1 ++ eon_numbers l2.
Proof using. apply omap_app. Qed.
Lemma eons_in_app l1 l2 : eons_in (l1 ++ l2) = eons_in l1 ++ eons_in l2.
Proof using. apply omap_app. Qed.
Lemma read_eons h es : Forall typed es → eon_numbers (omap (λ e, read (publish e) h) es) = eons_in es.
Proof using Hok.
  induction 1 as [|e es Ht HF IH]; [done|]. change (e :: es) with ([e] ++ es). rewrite omap_app, eon_numbers_app, eons_in_app, IH. f_equal. cbn [omap list_omap].
  destruct (read (publish e) h) as [ev|] eqn:E.
  - apply (C25_exact keccak pk_bytes pk_parse decompress compress g2_bytes g2_parse g1_bytes g1_parse pb_bytes pb_parse sig_signer Hok) in E as [Hs _]; [|done]. destruct Hs; reflexivity.
  - destruct e; try done. exfalso. cut (read (publish (EvEonStarted eon batch)) h = Some (EonStarted h eon batch)); [congruence|].
    eapply C25_roundtrip; [exact Hok|done|constructor|by intros (? & ? & ?)].
Qed.
Lemma readings_eons tr s m : AppSpec.history O tr s → eon_numbers (readings tr m) = eons_in (first_events tr m).
Proof using Hok.
  intros Hh. assert (Forall typed (first_events tr m)) as Ht.
  { destruct (first_events_prefix tr s m Hh) as [rest E]. pose proof (history_typed pk_bytes pk_parse decompress compress g2_bytes g2_parse g1_bytes g1_parse pb_bytes pb_parse sha3 sig_signer Hok tr s Hh) as H.
    rewrite E in H. by apply Forall_app in H as [H _]. }
  unfold readings. induction m as [|m IH]; [done|]. rewrite first_events_S in Ht |- *. apply Forall_app in Ht as [H1 H2].
  rewrite seq_S, fmap_app, mjoin_app, eon_numbers_app, eons_in_app. rewrite IH by done. f_equal. cbn. rewrite app_nil_r. by apply read_eons.
Qed.
Lemma sorted_well_formed evs : StronglySorted N.lt (eon_numbers evs) → well_formed evs.
Proof using.
  intros Hs before ev after ->. destruct ev; try done. intros h m b Hin. rewrite eon_numbers_app in Hs. cbn [eon_numbers omap list_omap] in Hs.
  assert (m ∈ eon_numbers before) as Hm. { apply elem_of_list_omap. by exists (EonStarted h m b). }
  clear Hin. induction (eon_numbers before) as [|x l IH]; [by apply elem_of_nil in Hm|]. cbn in Hs. apply StronglySorted_inv in Hs as [Hs HF]. apply elem_of_cons in Hm as [->|Hm]; [|by apply IH].
  rewrite Forall_forall in HF. apply HF. apply elem_of_app. right. by left.
Qed.
Lemma seq_sorted a n : StronglySorted N.lt (N.of_nat <$> seq a n).
Proof using.
  revert a. induction n as [|n IH]; intros a; [constructor|]. cbn. constructor; [apply IH|]. apply Forall_fmap, Forall_forall. intros x Hx. apply elem_of_seq in Hx. cbn. lia.
Qed.
Lemma sorted_app_l {A} (R : A → A → Prop) (l1 l2 : list A) : StronglySorted R (l1 ++ l2) → StronglySorted R l1.
Proof using. induction l1 as [|x l1 IH]; [constructor|]. cbn. intros H. apply StronglySorted_inv in H as [H HF]. apply Forall_app in HF as [HF _]. constructor; [by apply IH|done]. Qed.

(** the keypers' theorems (C43 to C63) assume this of the chain: the numbers of the eons announced increase, and events carry the height of their block *)
Theorem C65_well_formed chain : produced chain → heights_ok read ∧ ∀ m, well_formed (published read chain m).
Proof using Hok.
  intros Hp. split; [apply heights|]. intros m. destruct (Hp m) as (tr & s & Hh & He & Hc). rewrite (published_ext _ _ _ Hc), published_readings. apply sorted_well_formed.
  rewrite (readings_eons tr s) by done. destruct (first_events_prefix tr s m Hh) as [rest E]. eapply sorted_app_l. rewrite <-eons_in_app, <-E. change (eons_in (AppSpec.events_of tr)) with (eons_of tr).
  rewrite (C07_eons_consecutive O tr s Hh He). apply seq_sorted.
Qed.
End Chain.

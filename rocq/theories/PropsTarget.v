(** C76, C77: what a transaction of a batch does at the target contracts. *)
From stdpp Require Import list gmap.
From Coq Require Import ZArith NArith Lia.
From Verif Require Import EncModel EventsModel EventsProofs PropsEncoding TargetModel.
Local Open Scope Z_scope.
Local Set Default Timeout 60.

(** ** ABI coding *)
Lemma be_value_be_bytes n : ∀ a, (a < 256 ^ N.of_nat n)%N → be_value (be_bytes n a) = Z.of_N a.
Proof.
  induction n as [|n IH]; intros a Ha; [cbn in *; change (256 ^ 0)%N with 1%N in Ha; unfold be_value; cbn; lia|]. cbn [be_bytes]. rewrite be_value_app, IH.
  - pose proof (N.div_mod a 256 ltac:(done)). lia.
  - apply N.div_lt_upper_bound; [done|]. by rewrite Nnat.Nat2N.inj_succ, N.pow_succ_r' in Ha.
Qed.
Lemma word_length z : length (word z) = 32%nat.
Proof. apply be_bytes_length. Qed.
Lemma word_value z : 0 ≤ z < 2 ^ 256 → be_value (word z) = z.
Proof.
  intros H. unfold word. rewrite be_value_be_bytes; [lia|]. change (256 ^ N.of_nat 32)%N with (Z.to_N (2 ^ 256)). apply Z2N.inj_lt; lia.
Qed.
Lemma read_word pre z post off : 0 ≤ z < 2 ^ 256 → off = Z.of_nat (length pre) → read (pre ++ word z ++ post) off = z.
Proof.
  intros H ->. unfold read. rewrite Nat2Z.id, drop_app, take_app_alt by (by rewrite word_length). by apply word_value.
Qed.
Opaque word.
Lemma pow64 : 2 ^ 64 = 18446744073709551616. Proof. reflexivity. Qed.
Lemma pow256 z : 0 ≤ z < 2 ^ 64 → 0 ≤ z < 2 ^ 256. Proof. intros [H1 H2]. split; [done|]. eapply Z.lt_trans; [exact H2|]. reflexivity. Qed.
Lemma decode_encode_bytes pre b post : Z.of_nat (length pre) < 2 ^ 64 → Z.of_nat (length b) < 2 ^ 64 → ∀ off, off = Z.of_nat (length pre) →
  decode_bytes (pre ++ encode_bytes b ++ post) off = Some b.
Proof.
  intros Hp Hb off ->. unfold decode_bytes, encode_bytes. rewrite <-!app_assoc. rewrite !app_length, !word_length.
  destruct (Z.ltb_spec (2 ^ 64 - 1) (Z.of_nat (length pre))) as [|_]; [lia|].
  destruct (Z.ltb_spec (Z.of_nat (length pre) + 31) (Z.of_nat (length pre + (32 + (length b + (length (padding (length b)) + length post)))))) as [_|]; [|lia]. cbn [negb].
  rewrite read_word by (done || (apply pow256; lia)).
  destruct (Z.ltb_spec (2 ^ 64 - 1) (Z.of_nat (length b))) as [|_]; [lia|].
  destruct (Z.ltb_spec (Z.of_nat (length pre + (32 + (length b + (length (padding (length b)) + length post))))) (Z.of_nat (length pre) + 32 + Z.of_nat (length b))) as [|_]; [lia|].
  f_equal. rewrite (app_assoc pre), drop_app_alt by (rewrite app_length, word_length; lia). rewrite take_app_alt; [done|]. lia.
Qed.
Lemma decode_args_call_data tx : Z.of_nat (length tx) < 2 ^ 64 → decode_args (word 32 ++ encode_bytes tx) = Some tx.
Proof.
  intros H. unfold decode_args. rewrite app_length, word_length. destruct (Z.ltb_spec (Z.of_nat (32 + length (encode_bytes tx))) 32) as [|_]; [lia|].
  pose proof (read_word [] 32 (encode_bytes tx) 0 ltac:(by apply pow256) eq_refl) as Hr. cbn [app] in Hr. rewrite Hr.
  pose proof (decode_encode_bytes (word 32) tx [] ltac:(rewrite word_length; done) H 32 ltac:(by rewrite word_length)) as Hd. by rewrite app_nil_r in Hd.
Qed.
(** C76: the proxy decodes what a user encodes *)
Theorem C76_roundtrip receiver data : (receiver < 2 ^ 160)%N → Z.of_nat (length data) < 2 ^ 64 → decode_tx (encode_tx receiver data) = Some (receiver, data).
Proof.
  intros Hr Hd. assert (0 ≤ Z.of_N receiver < 2 ^ 160) as Ha by (split; [lia|]; change (2 ^ 160) with (Z.of_N (2 ^ 160)); lia).
  unfold decode_tx, encode_tx. rewrite !app_length, !word_length. destruct (Z.ltb_spec (Z.of_nat (32 + (32 + length (encode_bytes data)))) 64) as [|_]; [lia|].
  pose proof (read_word [] (Z.of_N receiver) (word 64 ++ encode_bytes data) 0 ltac:(split; [lia|]; eapply Z.lt_trans; [apply Ha|reflexivity]) eq_refl) as E. cbn [app] in E. rewrite E.
  destruct (Z.ltb_spec (Z.of_N receiver) (2 ^ 160)) as [_|]; [|lia]. cbn [negb].
  rewrite (read_word (word (Z.of_N receiver)) 64 (encode_bytes data) 32) by (done || (by apply pow256) || by rewrite word_length).
  pose proof (decode_encode_bytes (word (Z.of_N receiver) ++ word 64) data [] ltac:(rewrite app_length, !word_length; done) Hd 64 ltac:(by rewrite app_length, !word_length)) as Hx.
  rewrite app_nil_r, <-app_assoc in Hx. rewrite Hx. by rewrite N2Z.id.
Qed.
(** what is decoded was in the transaction *)
Lemma decode_bytes_inside d off x : decode_bytes d off = Some x → ∃ pre post, d = pre ++ x ++ post.
Proof.
  unfold decode_bytes. intros H. destruct (_ <? off); [done|]. destruct (Z.ltb_spec (off + 31) (Z.of_nat (length d))) as [H1|]; [|done]. cbn [negb] in H. destruct (_ <? _); [done|].
  destruct (Z.ltb_spec (Z.of_nat (length d)) (off + 32 + read d off)) as [|H2]; [done|]. injection H as <-.
  exists (take (Z.to_nat (off + 32)) d), (drop (Z.to_nat (read d off)) (drop (Z.to_nat (off + 32)) d)). by rewrite !take_drop.
Qed.

(** ** C76: what a batch does at the proxy *)
Section Proxy.
Context {W : Type} (code : N → N → bytes → W → W * bool) (gas : W → N → bytes → bool).

(** the batch, told without bytes: the calls of the users one after the other, as the proxy; a call that fails, or for which the gas does
    not suffice, is undone and its index reported *)
Fixpoint calls (proxy : N) (i : Z) (w : W) (l : list (N * bytes)) : W * list Z :=
  match l with
  | [] => (w, [])
  | (receiver, data) :: l =>
      let r := code proxy receiver data w in
      if r.2 && gas w proxy (call_data execute_selector (encode_tx receiver data)) then calls proxy (i + 1) r.1 l
      else let '(w', failed) := calls proxy (i + 1) w l in (w', i :: failed)
  end.
Lemma encode_bytes_length b : (length (encode_bytes b) ≤ 64 + length b)%nat.
Proof.
  unfold encode_bytes, padding. rewrite !app_length, word_length, replicate_length.
  assert (∀ k, (k mod 32 < 32)%nat) as H by (intros k; by apply Nat.mod_upper_bound). specialize (H (32 - length b mod 32)%nat). lia.
Qed.
Opaque encode_bytes.
Lemma encode_tx_length r d : (length (encode_tx r d) ≤ 128 + length d)%nat.
Proof. unfold encode_tx. rewrite !app_length, !word_length. pose proof (encode_bytes_length d). lia. Qed.
(** a user's call as the contracts can carry it *)
Definition sendable (x : N * bytes) : Prop := (x.1 < 2 ^ 160)%N ∧ Z.of_nat (length x.2) + 128 < 2 ^ 64.
Lemma execute_one_encoded proxy executor w r d : sendable (r, d) →
  execute_one code gas proxy executor execute_selector w (encode_tx r d) =
  if (code proxy r d w).2 && gas w proxy (call_data execute_selector (encode_tx r d)) then ((code proxy r d w).1, true) else (w, false).
Proof.
  intros [Hr Hd]. cbn [fst snd] in *. unfold execute_one, proxy_call. pose proof (encode_tx_length r d) as Hl.
  assert (take 4 (call_data execute_selector (encode_tx r d)) = execute_selector) as -> by reflexivity. rewrite bool_decide_true by done.
  assert (drop 4 (call_data execute_selector (encode_tx r d)) = word 32 ++ encode_bytes (encode_tx r d)) as -> by reflexivity.
  rewrite decode_args_call_data by lia. rewrite N.eqb_refl. cbn [negb]. rewrite C76_roundtrip by (done || lia).
  destruct (code proxy r d w) as [w' []]; cbn [fst snd andb]; [|done]. by destruct (gas _ _ _).
Qed.
Theorem C76_batch proxy executor l : Forall sendable l → ∀ w i,
  execute_all code gas proxy executor execute_selector i w ((λ x, encode_tx x.1 x.2) <$> l) = calls proxy i w l.
Proof.
  induction 1 as [|[r d] l Hx Hl IH]; intros w i; [done|]. cbn [fmap list_fmap fst snd execute_all]. rewrite execute_one_encoded by done. cbn [calls].
  destruct (_ && _); rewrite IH; [by destruct (calls _ _ _ _)|done].
Qed.
(** C76: whatever is in the batch: the number of calls is at most the number of transactions, each is made as the proxy with data that is
    contained in its transaction, and what fails changes nothing *)
Inductive traced (proxy : N) : W → list bytes → W → Prop :=
| traced_nil w : traced proxy w [] w
| traced_failed w tx txs w' : traced proxy w txs w' → traced proxy w (tx :: txs) w'
| traced_call w tx txs w1 w' receiver data : (∃ pre post, tx = pre ++ data ++ post) → (receiver < 2 ^ 160)%N → code proxy receiver data w = (w1, true) →
    traced proxy w1 txs w' → traced proxy w (tx :: txs) w'.
Lemma decode_tx_inside t r x : decode_tx t = Some (r, x) → (∃ pre post, t = pre ++ x ++ post) ∧ (r < 2 ^ 160)%N.
Proof.
  unfold decode_tx. intros H. destruct (_ <? 64); [done|]. destruct (Z.ltb_spec (read t 0) (2 ^ 160)) as [Hr|]; [|done]. cbn [negb] in H.
  destruct (decode_bytes t (read t 32)) as [y|] eqn:E; [|done]. injection H as <- <-. apply decode_bytes_inside in E as (pre & post & E). split; [by exists pre, post|].
  unfold read in *. pose proof (be_value_nonneg (take 32 (drop (Z.to_nat 0) t))). change (2 ^ 160)%N with (Z.to_N (2 ^ 160)). apply Z2N.inj_lt; lia.
Qed.
Lemma decode_args_inside t x : decode_args t = Some x → ∃ pre post, t = pre ++ x ++ post.
Proof. unfold decode_args. intros H. destruct (_ <? 32); [done|]. apply decode_bytes_inside in H as (pre & post & H). by exists pre, post. Qed.
Theorem C76_traced proxy executor txs : Forall (λ t, Z.of_nat (length t) < 2 ^ 64) txs → ∀ w i, traced proxy w txs (execute_all code gas proxy executor execute_selector i w txs).1.
Proof.
  induction 1 as [|tx txs Hlen _ IH]; intros w i; [constructor|]. cbn [execute_all]. unfold execute_one, proxy_call.
  assert (take 4 (call_data execute_selector tx) = execute_selector) as -> by reflexivity. rewrite bool_decide_true by done.
  assert (drop 4 (call_data execute_selector tx) = word 32 ++ encode_bytes tx) as -> by reflexivity.
  rewrite decode_args_call_data by done. rewrite N.eqb_refl. cbn [negb].
  destruct (decode_tx tx) as [[r x]|] eqn:Ex; [|].
  - destruct (code proxy r x w) as [w' ok] eqn:Ec. apply decode_tx_inside in Ex as [Hx Hr]. destruct ok.
    + destruct (gas _ _ _); [|].
      * specialize (IH w' (i + 1)). destruct (execute_all _ _ _ _ _ _ w' txs) as [w2 f]. cbn [fst] in *. by eapply traced_call.
      * specialize (IH w (i + 1)). destruct (execute_all _ _ _ _ _ _ w txs) as [w2 f]. by apply traced_failed.
    + specialize (IH w (i + 1)). destruct (execute_all _ _ _ _ _ _ w txs) as [w2 f]. by apply traced_failed.
  - specialize (IH w (i + 1)). destruct (execute_all _ _ _ _ _ _ w txs) as [w2 f]. by apply traced_failed.
Qed.
(** C76: nobody else gets the proxy to call anyone *)
Theorem C76_only_executor proxy executor sender data w w' e : sender ≠ executor → proxy_call code proxy executor sender data w = Some (w', e) → w' = w ∧ e = None.
Proof.
  intros Hs. unfold proxy_call. destruct (bool_decide _).
  - destruct (decode_args _); [|done]. by destruct (N.eqb_spec sender executor).
  - destruct (bool_decide _); [|done]. by injection 1 as <- <-.
Qed.
(** C76: with another function selector in the config than the proxy's, nothing is ever executed *)
Theorem C76_wrong_selector proxy executor selector txs : length selector = 4%nat → selector ≠ execute_selector → ∀ w i, (execute_all code gas proxy executor selector i w txs).1 = w.
Proof.
  intros Hl Hs. induction txs as [|tx txs IH]; intros w i; [done|]. cbn [execute_all]. unfold execute_one, proxy_call.
  assert (take 4 (call_data selector tx) = selector) as Ht by (unfold call_data; rewrite take_app_alt; done). rewrite Ht. rewrite bool_decide_false by done.
  assert (∀ b : bool, (if b then (w, true) else (w, false)).1 = w) as Hb by (by intros []).
  case_bool_decide.
  - destruct (gas _ _ _); specialize (IH w (i + 1)); destruct (execute_all _ _ _ _ _ _ w txs); done.
  - specialize (IH w (i + 1)). destruct (execute_all _ _ _ _ _ _ w txs); done.
Qed.
(** C76: different transactions may make the same call: bytes can be appended *)
Theorem C76_malleable_refuted : ∃ t1 t2 x, t1 ≠ t2 ∧ decode_tx t1 = Some x ∧ decode_tx t2 = Some x.
Proof.
  exists (encode_tx 5 [1; 2; 3]%N), (encode_tx 5 [1; 2; 3]%N ++ [7]%N), (5%N, [1; 2; 3]%N). split; [|split].
  - intros E. apply (f_equal length) in E. rewrite app_length in E. cbn [length] in E. lia.
  - by apply C76_roundtrip.
  - vm_compute. reflexivity.
Qed.
End Proxy.

(** ** C77: messages at the TestTargetContract *)
Section Test.
Context (keccak : bytes → bytes) (ecrecover : bytes → Z → bytes → bytes → N).
Notation test_call := (test_call keccak ecrecover). Notation signed_hash := (signed_hash keccak).

Lemma decode_payload_encode n m : 0 ≤ n < 2 ^ 64 → Z.of_nat (length m) < 2 ^ 64 → decode_payload (encode_payload n m) = Some (n, m).
Proof.
  intros Hn Hm. unfold decode_payload, encode_payload. rewrite app_length, (app_length (word 64)), !word_length.
  destruct (Z.ltb_spec (Z.of_nat (32 + (32 + length (encode_bytes m)))) 64) as [|_]; [lia|].
  pose proof (read_word [] n (word 64 ++ encode_bytes m) 0 ltac:(by apply pow256) eq_refl) as E. cbn [app] in E. rewrite E.
  destruct (Z.ltb_spec n (2 ^ 64)) as [_|]; [|lia]. cbn [negb].
  rewrite (read_word (word n) 64 (encode_bytes m) 32) by (done || (by apply pow256) || by rewrite word_length).
  pose proof (decode_encode_bytes (word n ++ word 64) m [] ltac:(rewrite app_length, !word_length; done) Hm 64 ltac:(by rewrite app_length, !word_length)) as Hx.
  rewrite app_nil_r, <-app_assoc in Hx. by rewrite Hx.
Qed.
Lemma decode_signed_encode p v r s : 0 ≤ v < 256 → length r = 32%nat → length s = 32%nat → Z.of_nat (length p) < 2 ^ 64 → decode_signed (encode_signed p v r s) = Some (p, v, r, s).
Proof.
  intros Hv Hr Hs Hp. unfold decode_signed.
  assert (length (encode_signed p v r s) = 128 + length (encode_bytes p))%nat as Hl. { unfold encode_signed. rewrite app_length, (app_length (word v)), (app_length r), (app_length s), !word_length. lia. }
  rewrite Hl. destruct (Z.ltb_spec (Z.of_nat (128 + length (encode_bytes p))) 128) as [|_]; [lia|]. unfold encode_signed.
  pose proof (read_word [] 128 (word v ++ r ++ s ++ encode_bytes p) 0 ltac:(by apply pow256) eq_refl) as E. cbn [app] in E. rewrite E.
  pose proof (decode_encode_bytes (word 128 ++ word v ++ r ++ s) p [] ltac:(rewrite app_length, (app_length (word v)), (app_length r), !word_length, Hr, Hs; done) Hp 128
    ltac:(rewrite app_length, (app_length (word v)), (app_length r), !word_length, Hr, Hs; done)) as Hx.
  rewrite app_nil_r, <-!app_assoc in Hx. rewrite Hx.
  rewrite (read_word (word 128) v (r ++ s ++ encode_bytes p) 32) by (rewrite ?word_length; done || (apply pow256; lia)).
  destruct (Z.ltb_spec v 256) as [_|]; [|lia]. cbn [negb]. f_equal. f_equal; [f_equal|].
  - rewrite (app_assoc (word 128)), drop_app_alt by (by rewrite app_length, !word_length). by rewrite take_app_alt.
  - rewrite (app_assoc (word 128)), (app_assoc _ r), drop_app_alt by (by rewrite !app_length, !word_length, Hr). by rewrite take_app_alt.
Qed.

(** *** Every history *)
(** the calls at the contract, whoever makes them; failed ones change nothing *)
Definition history (executor : N) (l : list (N * bytes)) : test_state :=
  foldl (λ t c, default t (test_call executor c.1 c.2 t)) no_messages l.
Lemma test_call_step executor sender data t t' : test_call executor sender data t = Some t' →
  t' = t ∨ ∃ tx p v r s n d, sender = executor ∧ (∃ pre post, data = pre ++ tx ++ post) ∧ decode_signed tx = Some (p, v, r, s) ∧ decode_payload p = Some (n, d) ∧
    let a := ecrecover (signed_hash p) v r s in (a, n) ∉ used t ∧ t' = mkTest ({[(a, n)]} ∪ used t) ((a, d, n) :: log t).
Proof.
  unfold TargetModel.test_call. intros H. destruct (bool_decide _).
  - destruct (decode_args _) as [tx|] eqn:Ea; [|done]. destruct (N.eqb_spec sender executor) as [->|]; [|done]. cbn [negb] in H.
    destruct (decode_signed tx) as [[[[p v] r] s]|] eqn:Es; [|done]. destruct (decode_payload p) as [[n d]|] eqn:Ep; [|done]. case_bool_decide as Hu; [done|]. injection H as <-.
    right. exists tx, p, v, r, s, n, d. split_and!; try done. apply decode_args_inside in Ea as (pre & post & Ea). exists (take 4 data ++ pre), post. by rewrite <-app_assoc, <-Ea, take_drop.
  - destruct (bool_decide _); [by injection H as <-; left|]. destruct (bool_decide _); [|done]. cbn zeta in H. destruct (_ && _); [|done]. injection H as <-. by left.
Qed.
(** C77: every sender's nonce is executed at most once *)
Theorem C77_once executor l : NoDup ((λ e, (e.1.1, e.2)) <$> log (history executor l)).
Proof.
  enough (NoDup ((λ e, (e.1.1, e.2)) <$> log (history executor l)) ∧ ∀ e, e ∈ log (history executor l) → (e.1.1, e.2) ∈ used (history executor l)) as [? _] by done.
  induction l as [|[c data] l IH] using rev_ind; [split; [constructor|intros e He; by apply elem_of_nil in He]|]. unfold history in *. rewrite foldl_app. cbn [foldl fst snd].
  set (t := foldl _ _ l) in *. destruct (test_call executor c data t) as [t'|] eqn:E; cbn [default from_option id]; [|done].
  apply test_call_step in E as [->|(tx & p & v & r & s & n & d & _ & _ & _ & _ & Hu & ->)]; [done|]. destruct IH as [IH1 IH2]. cbn [log used fmap list_fmap fst snd]. split.
  - constructor; [|done]. intros Hi. apply elem_of_list_fmap in Hi as (e & He & Hi). apply IH2 in Hi. rewrite <-He in Hi. done.
  - intros e [->|He]%elem_of_cons; [set_solver|]. apply IH2 in He. set_solver.
Qed.
(** C77: what is executed came from the executor in a transaction with a signature of the sender for this message and nonce *)
Theorem C77_authentic executor l a d n : (a, d, n) ∈ log (history executor l) →
  ∃ tx p v r s data, (executor, data) ∈ l ∧ (∃ pre post, data = pre ++ tx ++ post) ∧ decode_signed tx = Some (p, v, r, s) ∧ decode_payload p = Some (n, d) ∧ ecrecover (signed_hash p) v r s = a.
Proof.
  induction l as [|[c data] l IH] using rev_ind; [intros He; by apply elem_of_nil in He|]. unfold history in *. rewrite foldl_app. cbn [foldl fst snd]. set (t := foldl _ _ l) in *.
  assert ((a, d, n) ∈ log t → ∃ tx p v r s data', (executor, data') ∈ l ++ [(c, data)] ∧ (∃ pre post, data' = pre ++ tx ++ post) ∧ decode_signed tx = Some (p, v, r, s) ∧ decode_payload p = Some (n, d) ∧ ecrecover (signed_hash p) v r s = a) as IH'.
  { intros H. destruct (IH H) as (tx & p & v & r & s & data' & Hi & Hr). exists tx, p, v, r, s, data'. split; [apply elem_of_app; by left|done]. }
  destruct (test_call executor c data t) as [t'|] eqn:E; cbn [default from_option id]; [|done].
  apply test_call_step in E as [->|(tx & p & v & r & s & n' & d' & -> & Hd & Hs & Hp & Hu & ->)]; [done|]. cbn [log]. intros [E|He]%elem_of_cons; [|by apply IH'].
  injection E as -> -> ->. exists tx, p, v, r, s, data. split_and!; try done. apply elem_of_app. right. by apply elem_of_list_singleton.
Qed.
(** C77: nonces are below 2^64 *)
Theorem C77_nonces executor l a d n : (a, d, n) ∈ log (history executor l) → 0 ≤ n < 2 ^ 64.
Proof.
  intros H. apply C77_authentic in H as (tx & p & v & r & s & data & _ & _ & _ & Hp & _). unfold decode_payload in Hp. destruct (_ <? 64); [done|].
  destruct (Z.ltb_spec (read p 0) (2 ^ 64)); [|done]. cbn [negb] in Hp. destruct (decode_bytes _ _); [|done]. injection Hp as <- _. split; [|done].
  unfold read. apply be_value_nonneg.
Qed.
(** C77: so if the owner of [a] signs nothing but the messages [S], then nothing but these appears with the sender [a] - or Keccak-256 has
    a collision *)
Theorem C77_signed executor l a (S : list (Z * bytes)) d n : (∀ n m, (n, m) ∈ S → 0 ≤ n < 2 ^ 64 ∧ Z.of_nat (length m) < 2 ^ 64) →
  (∀ h v r s, ecrecover h v r s = a → ∃ n m, (n, m) ∈ S ∧ h = signed_hash (encode_payload n m)) →
  (a, d, n) ∈ log (history executor l) → (n, d) ∈ S ∨ ∃ x y, x ≠ y ∧ keccak x = keccak y.
Proof.
  intros HS Hu H. apply C77_authentic in H as (tx & p & v & r & s & data & _ & _ & _ & Hp & Hr). destruct (Hu _ _ _ _ Hr) as (n' & m' & Hin & Hh).
  destruct (HS _ _ Hin) as [Hn Hm]. destruct (decide (p = encode_payload n' m')) as [->|Hne].
  - rewrite decode_payload_encode in Hp by done. injection Hp as <- <-. by left.
  - right. unfold TargetModel.signed_hash in Hh. destruct (decide (keccak p = keccak (encode_payload n' m'))) as [He|He]; [by exists p, (encode_payload n' m')|].
    exists (signed_prefix ++ keccak p), (signed_prefix ++ keccak (encode_payload n' m')). split; [|done]. intros E. by apply app_inv_head in E.
Qed.
(** C77: nobody but the executor (the proxy) gets anything executed *)
Theorem C77_nobody_else executor sender data t t' : sender ≠ executor → test_call executor sender data t = Some t' → t' = t.
Proof. intros Hs H. apply test_call_step in H as [->|(tx & p & v & r & s & n & d & -> & _)]; done. Qed.

(** *** A message of the example application *)
Section Message.
Context (sign : bytes → Z * bytes * bytes) (a : N) (m : bytes) (n : Z).
(** the wallet signs the message and nonce properly *)
Context (sign_typed : ∀ v r s, sign (signed_hash (encode_payload n m)) = (v, r, s) → 0 ≤ v < 256 ∧ length r = 32%nat ∧ length s = 32%nat ∧ ecrecover (signed_hash (encode_payload n m)) v r s = a).

Lemma encode_payload_length n' m' : (length (encode_payload n' m') ≤ 128 + length m')%nat.
Proof. unfold encode_payload. rewrite app_length, (app_length (word 64)), !word_length. pose proof (encode_bytes_length m'). lia. Qed.
Lemma encode_target_length : Z.of_nat (length (encode_target_data keccak sign m n)) ≤ 320 + Z.of_nat (length m).
Proof.
  unfold encode_target_data. destruct (sign _) as [[v r] s] eqn:Es. destruct (sign_typed _ _ _ eq_refl) as (_ & Hr & Hs & _). unfold encode_signed.
  rewrite app_length, (app_length (word v)), (app_length r), (app_length s), !word_length, Hr, Hs. pose proof (encode_bytes_length (encode_payload n m)). pose proof (encode_payload_length n m). lia.
Qed.
(** C77: at the contract: it is executed iff the nonce is unused *)
Theorem C77_executes executor t : 0 ≤ n < 2 ^ 64 → Z.of_nat (length m) + 1024 < 2 ^ 64 →
  test_call executor executor (call_data execute_selector (encode_target_data keccak sign m n)) t =
  if bool_decide ((a, n) ∈ used t) then None else Some (mkTest ({[(a, n)]} ∪ used t) ((a, m, n) :: log t)).
Proof.
  intros Hn Hm. pose proof encode_target_length as Hl. unfold TargetModel.test_call.
  set (tx := encode_target_data keccak sign m n) in *.
  assert (take 4 (call_data execute_selector tx) = execute_selector) as -> by reflexivity. rewrite bool_decide_true by done.
  assert (drop 4 (call_data execute_selector tx) = word 32 ++ encode_bytes tx) as -> by reflexivity.
  rewrite decode_args_call_data by lia. rewrite N.eqb_refl. cbn [negb]. unfold tx, encode_target_data.
  destruct (sign _) as [[v r] s] eqn:Es. destruct (sign_typed _ _ _ eq_refl) as (Hv & Hr & Hs & He). pose proof (encode_payload_length n m).
  rewrite decode_signed_encode by (done || lia). cbn zeta. rewrite He, decode_payload_encode by (done || lia). done.
Qed.
(** C77: in a batch, with the proxy as target contract and the TestTargetContract deployed for the proxy: whatever the rest of the chain
    is, it is executed iff its nonce is unused and the gas suffices; else nothing changes, the failure is reported *)
Theorem C77_in_batch {X} test proxy executor (other : N → N → bytes → test_state * X → (test_state * X) * bool) gas t (x : X) :
  0 ≤ n < 2 ^ 64 → Z.of_nat (length m) + 1024 < 2 ^ 64 → (test < 2 ^ 160)%N →
  let tx := encode_message keccak sign test m n in
  execute_one (chain_code keccak ecrecover test proxy other) gas proxy executor execute_selector (t, x) tx =
  if bool_decide ((a, n) ∉ used t) && gas (t, x) proxy (call_data execute_selector tx) then ((mkTest ({[(a, n)]} ∪ used t) ((a, m, n) :: log t), x), true) else ((t, x), false).
Proof.
  intros Hn Hm Ht tx. pose proof encode_target_length as Hl. unfold tx, encode_message. rewrite execute_one_encoded.
  - unfold chain_code at 1 2. rewrite N.eqb_refl. cbn [fst snd]. rewrite C77_executes by done. destruct (decide ((a, n) ∈ used t)) as [Hu|Hu].
    + rewrite bool_decide_true, bool_decide_false by (done || by intros H). done.
    + rewrite bool_decide_false, bool_decide_true by done. done.
  - split; [done|]. cbn [snd]. unfold call_data. rewrite app_length, (app_length (word 32)), word_length. pose proof (encode_bytes_length (encode_target_data keccak sign m n)). change (length execute_selector) with 4%nat. lia.
Qed.
(** C77: the signature is for the message and the nonce, not for the chain or the contract: executed here, the same transaction is executed
    at another deployment, too *)
Theorem C77_replay_refuted executor1 executor2 : 0 ≤ n < 2 ^ 64 → Z.of_nat (length m) + 1024 < 2 ^ 64 →
  let data := call_data execute_selector (encode_target_data keccak sign m n) in
  log (history executor1 [(executor1, data)]) = [(a, m, n)] ∧ log (history executor2 [(executor2, data)]) = [(a, m, n)].
Proof. intros Hn Hm data. unfold history. cbn [foldl fst snd]. unfold data. rewrite !C77_executes by done. rewrite bool_decide_false by set_solver. done. Qed.
End Message.
(** C77: the zero address needs no signature: anyone can put any message with the sender 0 into a batch *)
Theorem C77_zero_refuted executor m n : (∀ h r s, ecrecover h 0 r s = 0%N) → 0 ≤ n < 2 ^ 64 → Z.of_nat (length m) + 1024 < 2 ^ 64 →
  ∃ data, log (history executor [(executor, data)]) = [(0%N, m, n)].
Proof.
  intros H0 Hn Hm. set (sign := λ _ : bytes, (0, replicate 32 0%N, replicate 32 0%N)). exists (call_data execute_selector (encode_target_data keccak sign m n)).
  unfold history. cbn [foldl fst snd]. rewrite (C77_executes sign 0 m n); [by rewrite bool_decide_false by set_solver| |done|done].
  intros v r s [= <- <- <-]. split_and!; done || apply H0.
Qed.
(** C77: with the config that `prepare configs` writes - the target is the TestTargetContract itself, which `deploy` has created for the
    proxy (prepare/configs.go:107, deploy.go:206-216) - the executor executes nothing, whatever is in the batch *)
Theorem C77_default_config_refuted proxy executor tx t : executor ≠ proxy → test_call proxy executor (call_data execute_selector tx) t = None.
Proof.
  intros Hne. unfold TargetModel.test_call. assert (take 4 (call_data execute_selector tx) = execute_selector) as -> by reflexivity. rewrite bool_decide_true by done.
  destruct (decode_args _); [|done]. by destruct (N.eqb_spec executor proxy).
Qed.
End Test.

(** a hash, signatures and a batch of two messages, the first of them twice *)
Example C77_witness : let keccak := λ b : bytes, take 32 b in let ecrecover := λ (h : bytes) (v : Z) (r s : bytes), if v =? 27 then 5%N else 0%N in
  let sign := λ _ : bytes, (27, replicate 32 1%N, replicate 32 2%N) in
  let txs := (λ x : bytes * Z, encode_message keccak sign 9 x.1 x.2) <$> [([1; 2]%N, 3); ([1; 2]%N, 3); ([7]%N, 4)] in
  let '(w, failed) := execute_all (chain_code keccak ecrecover 9 8 (λ _ _ _ w, (w, false))) (λ _ _ _, true) 8 6 execute_selector 0 (no_messages, tt) txs in
  log w.1 = [(5%N, [7]%N, 4); (5%N, [1; 2]%N, 3)] ∧ failed = [1].
Proof. vm_compute. done. Qed.

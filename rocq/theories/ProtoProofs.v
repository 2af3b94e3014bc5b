(** Proofs about the protobuf encoding (ProtoModel.v). *)
From stdpp Require Import list.
From Coq Require Import ZArith NArith Lia.
From Verif Require Import CryptoModel EncodingModel AppModel EventsModel EventsSpec ProtoModel.
Open Scope N_scope.

Lemma size_bound f n : (N.size_nat n ≤ f)%nat → n < 128 ^ N.of_nat (S f).
Proof.
  intros H. destruct (decide (n = 0)) as [->|Hn]; [apply N.neq_0_lt_0, N.pow_nonzero; done|].
  apply N.lt_le_trans with (2 ^ N.size n); [apply N.size_gt|].
  replace (N.size n) with (N.of_nat (N.size_nat n)) by (destruct n; [done|]; cbn; clear; induction p; cbn; lia).
  change 128 with (2 ^ 7). rewrite <- N.pow_mul_r. apply N.pow_le_mono_r; lia.
Qed.
Lemma put_varint_bytes f n : n < 128 ^ N.of_nat (S f) → is_bytes (put_varint_ f n).
Proof.
  revert n. induction f as [|f IH]; intros n H; cbn [put_varint_].
  { constructor; [change (128 ^ N.of_nat 1) with 128 in H; lia|constructor]. }
  destruct (N.ltb_spec n 128); [constructor; [lia|constructor]|]. constructor; [pose proof (N.mod_lt n 128); lia|]. apply IH.
  apply N.div_lt_upper_bound; [done|]. rewrite <- N.pow_succ_r'. by rewrite <- Nat2N.inj_succ.
Qed.
Lemma put_varint_is_bytes n : is_bytes (put_varint n).
Proof. apply put_varint_bytes, size_bound. done. Qed.
Lemma put_varint_length f n : (1 ≤ length (put_varint_ f n))%nat.
Proof. destruct f; cbn [put_varint_]; [cbn; lia|]. destruct (n <? 128); cbn; lia. Qed.
Lemma get_put_varint k f n r : (1 ≤ k)%nat → n < 128 ^ N.of_nat (S f) → n < 128 ^ N.of_nat k → get_varint k (put_varint_ f n ++ r) = Some (n, r).
Proof.
  revert k n. induction f as [|f IH]; intros k n H1 Hf Hk; (destruct k as [|k]; [lia|]).
  - cbn [put_varint_ get_varint Datatypes.app]. change (128 ^ N.of_nat 1) with 128 in Hf. by rewrite (proj2 (N.ltb_lt _ _) Hf).
  - cbn [put_varint_]. destruct (N.ltb_spec n 128) as [H|H].
    + cbn [get_varint Datatypes.app]. by rewrite (proj2 (N.ltb_lt _ _) H).
    + cbn [get_varint Datatypes.app].
      rewrite (proj2 (N.ltb_ge (128 + n mod 128) 128) (N.le_add_r 128 (n mod 128))).
      rewrite Nat2N.inj_succ, N.pow_succ_r' in Hf, Hk.
      assert (Hk1 : (1 ≤ k)%nat). { destruct k; [|lia]. change (n < 128 * 1) in Hk. lia. }
      assert (n / 128 < 128 ^ N.of_nat (S f)) by (apply N.div_lt_upper_bound; [done|exact Hf]).
      assert (n / 128 < 128 ^ N.of_nat k) by (apply N.div_lt_upper_bound; [done|exact Hk]).
      rewrite (IH k (n / 128) Hk1) by done. cbn [mbind option_bind]. f_equal. f_equal.
      pose proof (N.div_mod n 128 ltac:(done)) as Hdm. revert Hdm. generalize (n / 128) (n mod 128). intros q m ->. lia.
Qed.
Lemma u64_bound n : n < 2 ^ 64 → n < 128 ^ N.of_nat 10.
Proof. intros H. apply N.lt_trans with (2 ^ 64); [done|reflexivity]. Qed.
Lemma get_put_u64 n r : n < 2 ^ 64 → get_u64 (put_varint n ++ r) = Some (n, r).
Proof.
  intros H. unfold get_u64, put_varint. rewrite get_put_varint; [|lia|by apply size_bound|by apply u64_bound]. cbn [mbind option_bind].
  by rewrite (proj2 (N.ltb_lt _ _) H).
Qed.
Lemma of_nat_bound (n : nat) : N.of_nat n < 128 ^ N.of_nat n.
Proof.
  induction n as [|n IH]; [done|]. rewrite !Nat2N.inj_succ, N.pow_succ_r'. lia.
Qed.
Lemma get_put_length (b r : bytes) : get_length (put_varint (N.of_nat (length b)) ++ b ++ r) = Some (N.of_nat (length b), b ++ r).
Proof.
  unfold get_length. destruct (N.ltb_spec (N.of_nat (length (put_varint (N.of_nat (length b)) ++ b ++ r))) (2 ^ 64)) as [H|H].
  - apply get_put_u64. rewrite !app_length in H. lia.
  - unfold put_varint at 2. apply get_put_varint; [|by apply size_bound|].
    + rewrite app_length. pose proof (put_varint_length (N.size_nat (N.of_nat (length b))) (N.of_nat (length b))). unfold put_varint. lia.
    + eapply N.lt_le_trans; [apply of_nat_bound|]. apply N.pow_le_mono_r; [done|]. rewrite !app_length. lia.
Qed.
Lemma split_exact_app (a r : bytes) : split_exact (N.of_nat (length a)) (a ++ r) = Some (a, r).
Proof.
  unfold split_exact. rewrite (proj2 (N.leb_le _ _)) by (rewrite app_length; lia). rewrite Nat2N.id.
  by rewrite take_app, drop_app.
Qed.

(** a field as the messages have them *)
Definition ok_field (f : N * wire) : Prop :=
  1 ≤ f.1 ∧ f.1 < 2 ^ 29 ∧ match f.2 with WVarint n => n < 2 ^ 64 | WBytes b => True | WSkip => False end.
Lemma tag_ok num typ : 1 ≤ num → num < 2 ^ 29 → typ < 8 → 8 * num + typ < 2 ^ 64 ∧ (8 * num + typ) / 8 = num ∧ (8 * num + typ) mod 8 = typ.
Proof.
  intros H1 H2 H3. split_and!.
  - apply N.lt_trans with (8 * 2 ^ 29); [lia|reflexivity].
  - rewrite N.mul_comm, N.div_add_l, N.div_small by lia. lia.
  - rewrite N.mul_comm, N.add_comm, N.mod_add, N.mod_small by lia. done.
Qed.
Lemma num_ok num : 1 ≤ num → num < 2 ^ 29 → (num <? 1) || (2 ^ 29 - 1 <? num) = false.
Proof. intros H1 H2. apply orb_false_iff. rewrite !N.ltb_ge. split; [done|]. apply N.lt_le_pred in H2. by rewrite N.pred_sub in H2. Qed.
Lemma get_put_field f r : ok_field f → get_field (put_field f ++ r) = Some (f, r).
Proof.
  intros (H1 & H2 & H3). destruct f as [num [n|b|]]; cbn [fst snd] in *; [| |done]; unfold get_field; cbn [put_field]; rewrite <-!(assoc_L (++)).
  - destruct (tag_ok num 0 H1 H2) as (Ha & Hb & Hc); [lia|]. rewrite N.add_0_r in *. rewrite get_put_u64 by done. cbn [mbind option_bind]. rewrite Hb, Hc.
    rewrite (num_ok num H1 H2).
    unfold get_value. rewrite get_put_u64 by done. done.
  - destruct (tag_ok num 2 H1 H2) as (Ha & Hb & Hc); [lia|]. rewrite get_put_u64 by done. cbn [mbind option_bind]. rewrite Hb, Hc.
    rewrite (num_ok num H1 H2).
    unfold get_value. rewrite get_put_length. cbn [mbind option_bind]. rewrite split_exact_app. done.
Qed.

(** ** Reading consumes bytes, so the fuel does not matter *)
Lemma get_varint_len k b n r : get_varint k b = Some (n, r) → (length r < length b)%nat.
Proof.
  revert b n. induction k as [|k IH]; intros b n H; [by destruct b|]. destruct b as [|x b]; [done|]. cbn [get_varint] in H.
  destruct (x <? 128); [injection H as <- <-; cbn; lia|]. destruct (get_varint k b) as [[v r']|] eqn:E; [|done]. cbn in H. injection H as <- <-.
  apply IH in E. cbn. lia.
Qed.
Lemma get_u64_len b n r : get_u64 b = Some (n, r) → (length r < length b)%nat ∧ n < 2 ^ 64.
Proof.
  unfold get_u64. intros H. destruct (get_varint 10 b) as [[v r']|] eqn:E; [|done]. cbn [mbind option_bind] in H.
  destruct (N.ltb_spec v (2 ^ 64)); [|done]. injection H as <- <-. split; [by apply get_varint_len in E|done].
Qed.
Lemma get_length_len b n r : get_length b = Some (n, r) → (length r < length b)%nat.
Proof. unfold get_length. destruct (_ <? _); [intros H; by apply get_u64_len in H as [? _]|apply get_varint_len]. Qed.
Lemma split_exact_spec n b x r : split_exact n b = Some (x, r) → b = x ++ r.
Proof. unfold split_exact. destruct (_ <=? _); [|done]. intros [= <- <-]. by rewrite take_drop. Qed.
Lemma split_exact_len n b x r : split_exact n b = Some (x, r) → (length r ≤ length b)%nat.
Proof. intros ->%split_exact_spec. rewrite app_length. lia. Qed.
Lemma skip_group_len f d num b r : skip_group f d num b = Some r → (length r ≤ length b)%nat.
Proof.
  revert d num b r. induction f as [|f IH]; intros d num b r H; [done|]. cbn [skip_group] in H.
  destruct (get_u64 b) as [[t r1]|] eqn:E1; [|done]. cbn [mbind option_bind] in H. apply get_u64_len in E1 as [E1 _].
  destruct (_ || _); [done|]. destruct (t mod 8) as [|[[[]|[]|]|[[]|[]|]|]] eqn:E; try done.
  - destruct (get_u64 r1) as [[? r2]|] eqn:E2; [|done]. cbn in H. apply IH in H. apply get_u64_len in E2 as [? _]. lia.
  - destruct (split_exact 4 r1) as [[? r2]|] eqn:E2; [|done]. cbn [mbind option_bind] in H. apply IH in H. apply split_exact_len in E2. lia.
  - destruct (d =? 0); [done|]. destruct (skip_group f (d - 1) (t / 8) r1) as [r2|] eqn:E2; [|done]. cbn [mbind option_bind] in H. apply IH in H, E2. lia.
  - destruct (_ =? _); [|done]. injection H as <-. lia.
  - destruct (get_length r1) as [[l r2]|] eqn:E2; [|done]. cbn [mbind option_bind] in H. destruct (split_exact l r2) as [[? r3]|] eqn:E3; [|done].
    cbn in H. apply IH in H. apply get_length_len in E2. apply split_exact_len in E3. lia.
  - destruct (split_exact 8 r1) as [[? r2]|] eqn:E2; [|done]. cbn [mbind option_bind] in H. apply IH in H. apply split_exact_len in E2. lia.
Qed.
Lemma get_value_len num typ b v r : get_value num typ b = Some (v, r) → (length r ≤ length b)%nat.
Proof.
  unfold get_value. intros H. destruct typ as [|[[[]|[]|]|[[]|[]|]|]]; try done.
  - destruct (get_u64 b) as [[? r2]|] eqn:E2; [|done]. cbn in H. injection H as <- <-. apply get_u64_len in E2 as [? _]. lia.
  - destruct (split_exact 4 b) as [[? r2]|] eqn:E2; [|done]. cbn [mbind option_bind] in H. injection H as <- <-. by apply split_exact_len in E2.
  - destruct (skip_group (length b) 10000 num b) as [r2|] eqn:E2; [|done]. cbn [mbind option_bind] in H. injection H as <- <-. by apply skip_group_len in E2.
  - destruct (get_length b) as [[l r2]|] eqn:E2; [|done]. cbn [mbind option_bind] in H. destruct (split_exact l r2) as [[? r3]|] eqn:E3; [|done].
    cbn in H. injection H as <- <-. apply get_length_len in E2. apply split_exact_len in E3. lia.
  - destruct (split_exact 8 b) as [[? r2]|] eqn:E2; [|done]. cbn [mbind option_bind] in H. injection H as <- <-. by apply split_exact_len in E2.
Qed.
Lemma get_field_len b x r : get_field b = Some (x, r) → (length r < length b)%nat.
Proof.
  unfold get_field. intros H. destruct (get_u64 b) as [[t r1]|] eqn:E1; [|done]. cbn [mbind option_bind] in H. apply get_u64_len in E1 as [E1 _].
  destruct (_ || _); [done|]. destruct (get_value _ _ r1) as [[v r2]|] eqn:E2; [|done]. cbn in H. injection H as <- <-. apply get_value_len in E2. lia.
Qed.
Lemma get_fields_fuel f b : (length b ≤ f)%nat → get_fields_ f b = get_fields b.
Proof.
  unfold get_fields. cut (∀ n g b, (length b ≤ n)%nat → (n ≤ g)%nat → get_fields_ g b = get_fields_ n b).
  { intros Hn Hf. by apply Hn. }
  clear f b. induction n as [|n IH]; intros g b Hb Hg.
  - destruct b; [by destruct g|cbn in Hb; lia].
  - destruct g as [|g]; [lia|]. destruct b as [|x b]; [done|]. cbn [get_fields_]. destruct (get_field (x :: b)) as [[y r]|] eqn:E; [|done].
    cbn [mbind option_bind]. apply get_field_len in E. cbn in E, Hb. rewrite (IH g r) by lia. done.
Qed.
Lemma get_fields_step l f b : get_field l = Some (f, b) → get_fields l = (f ::.) <$> get_fields b.
Proof.
  intros H. pose proof (get_field_len _ _ _ H) as Hl. unfold get_fields at 1. destruct l as [|x l]; [cbn in Hl; lia|].
  cbn [length] in *. cbn [get_fields_]. rewrite H. cbn [mbind option_bind]. rewrite get_fields_fuel by lia. by destruct (get_fields b).
Qed.
Lemma get_fields_field f b : ok_field f → get_fields (put_field f ++ b) = (f ::.) <$> get_fields b.
Proof. intros Hf. by apply get_fields_step, get_put_field. Qed.
Lemma get_put_fields fs b : Forall ok_field fs → get_fields (put_fields fs ++ b) = (fs ++.) <$> get_fields b.
Proof.
  induction 1 as [|f fs Hf _ IH]; [change (put_fields [] ++ b) with b; by destruct (get_fields b)|].
  change (put_fields (f :: fs)) with (put_field f ++ put_fields fs). rewrite <-(assoc_L (++)).
  rewrite get_fields_field by done. rewrite IH. by destruct (get_fields b).
Qed.
Lemma get_put_fields_nil fs : Forall ok_field fs → get_fields (put_fields fs) = Some fs.
Proof. intros H. pose proof (get_put_fields fs [] H) as H'. rewrite app_nil_r in H'. rewrite H'. change (get_fields []) with (Some (@nil (N * wire))). cbn [fmap option_fmap option_map]. by rewrite app_nil_r. Qed.

(** ** The messages *)
Lemma ok_f_uint num n : 1 ≤ num → num < 2 ^ 29 → n < 2 ^ 64 → Forall ok_field (f_uint num n).
Proof. intros. unfold f_uint. destruct (n =? 0); [constructor|]. constructor; [by split_and!|constructor]. Qed.
Lemma ok_f_bool num b : 1 ≤ num → num < 2 ^ 29 → Forall ok_field (f_bool num b).
Proof. intros. destruct b; [|constructor]. constructor; [by split_and!|constructor]. Qed.
Lemma ok_f_bytes num b : 1 ≤ num → num < 2 ^ 29 → Forall ok_field (f_bytes num b).
Proof. intros. destruct b; [constructor|]. constructor; [by split_and!|constructor]. Qed.
Lemma ok_f_list num l : 1 ≤ num → num < 2 ^ 29 → Forall ok_field (f_list num l).
Proof. intros. induction l; constructor; [by split_and!|done]. Qed.
Ltac ok_fields := repeat first [apply Forall_app_2 | apply ok_f_uint | apply ok_f_bool | apply ok_f_bytes | apply ok_f_list | done].

Lemma fold_uint {A} (set : A → N * wire → A) (a : A) num n (upd : N → A) : (∀ x, set a (num, WVarint x) = upd x) → upd 0 = a → foldl set a (f_uint num n) = upd n.
Proof. intros H H0. unfold f_uint. destruct (N.eqb_spec n 0) as [->|]; [by rewrite <-H0|apply H]. Qed.
Lemma set_config_ok c : foldl set_config empty_config (config_fields c) = c.
Proof.
  destruct c as [s l t a i u v]. unfold config_fields. cbn [rc_start rc_keypers rc_threshold rc_contract rc_index rc_started rc_vupdated].
  rewrite !foldl_app.
  replace (foldl set_config empty_config (f_uint 1 s)) with (mkRawConfig s [] 0 [] 0 false false) by (unfold f_uint; by destruct (N.eqb_spec s 0) as [->|]).
  replace (foldl set_config (mkRawConfig s [] 0 [] 0 false false) (f_list 2 l)) with (mkRawConfig s l 0 [] 0 false false).
  2:{ rewrite <-(app_nil_l l) at 1. generalize (@nil bytes). induction l as [|x l IH]; intros l0; cbn; [by rewrite app_nil_r|].
      rewrite <-IH. by rewrite <-(assoc_L (++)). }
  replace (foldl set_config (mkRawConfig s l 0 [] 0 false false) (f_uint 3 t)) with (mkRawConfig s l t [] 0 false false) by (unfold f_uint; by destruct (N.eqb_spec t 0) as [->|]).
  replace (foldl set_config (mkRawConfig s l t [] 0 false false) (f_bytes 4 a)) with (mkRawConfig s l t a 0 false false) by (by destruct a).
  replace (foldl set_config (mkRawConfig s l t a 0 false false) (f_uint 5 i)) with (mkRawConfig s l t a i false false) by (unfold f_uint; by destruct (N.eqb_spec i 0) as [->|]).
  by destruct u, v.
Qed.
Lemma set_number_ok n : foldl set_number 0 (f_uint 1 n) = n.
Proof. unfold f_uint. by destruct (N.eqb_spec n 0) as [->|]. Qed.
Lemma set_two_ok v e : foldl set_two ([], []) (f_bytes 1 v ++ f_bytes 2 e) = (v, e).
Proof. by destruct v, e. Qed.
Lemma set_number_bytes_ok n b : foldl set_number_bytes (0, []) (f_uint 1 n ++ f_bytes 2 b) = (n, b).
Proof. unfold f_uint. destruct (N.eqb_spec n 0) as [->|], b; done. Qed.
Lemma set_number_list_ok n l : foldl set_number_list (0, []) (f_uint 1 n ++ f_list 2 l) = (n, l).
Proof.
  rewrite foldl_app. replace (foldl set_number_list (0, []) (f_uint 1 n)) with (n, @nil bytes) by (unfold f_uint; by destruct (N.eqb_spec n 0) as [->|]).
  rewrite <-(app_nil_l l) at 2. generalize (@nil bytes). induction l as [|x l IH]; intros l0; cbn; [by rewrite app_nil_r|].
  rewrite IH. by rewrite <-(assoc_L (++)).
Qed.
Lemma set_lists_2 n l l0 k : foldl set_number_lists (n, l0, k) (f_list 2 l) = (n, l0 ++ l, k).
Proof.
  revert l0. induction l as [|x l IH]; intros l0; cbn; [by rewrite app_nil_r|]. fold (f_list 2 l). rewrite IH. by rewrite <-(assoc_L (++)).
Qed.
Lemma set_lists_3 n l k k0 : foldl set_number_lists (n, l, k0) (f_list 3 k) = (n, l, k0 ++ k).
Proof.
  revert k0. induction k as [|x k IH]; intros k0; cbn; [by rewrite app_nil_r|]. fold (f_list 3 k). rewrite IH. by rewrite <-(assoc_L (++)).
Qed.
Lemma set_number_lists_ok n l k : foldl set_number_lists (0, [], []) (f_uint 1 n ++ f_list 2 l ++ f_list 3 k) = (n, l, k).
Proof.
  rewrite !foldl_app. replace (foldl set_number_lists (0, [], []) (f_uint 1 n)) with (n, @nil bytes, @nil bytes) by (unfold f_uint; by destruct (N.eqb_spec n 0) as [->|]).
  by rewrite set_lists_2, set_lists_3.
Qed.
Lemma set_share_ok n e b : foldl set_share (0, 0, []) (f_uint 1 n ++ f_uint 2 e ++ f_bytes 3 b) = (n, e, b).
Proof. unfold f_uint. destruct (N.eqb_spec n 0) as [->|], (N.eqb_spec e 0) as [->|], b; done. Qed.

Lemma merge_sub_ok {A} (set : A → N * wire → A) a fs : Forall ok_field fs → merge_sub set a (put_fields fs) = Some (foldl set a fs).
Proof. intros H. unfold merge_sub. by rewrite get_put_fields_nil. Qed.
Lemma ok_payload_fields p : Forall ok_field (payload_fields p).
Proof. destruct p; repeat constructor; done. Qed.
Lemma set_payload_ok p : typed_payload p → merge_all set_payload MOther (payload_fields p) = Some p.
Proof.
  destruct p; cbn [typed_payload payload_fields merge_all set_payload]; intros Ht; destruct_and?; unfold is_u64 in *; try done.
  all: rewrite merge_sub_ok by (unfold config_fields; ok_fields); cbn [fmap option_fmap option_map mbind option_bind].
  - by rewrite set_config_ok.
  - by rewrite set_number_ok.
  - by rewrite set_two_ok.
  - by rewrite set_number_ok.
  - by rewrite set_number_bytes_ok.
  - by rewrite set_number_lists_ok.
  - by rewrite set_number_list_ok.
  - by rewrite set_number_list_ok.
  - by rewrite set_number_lists_ok.
  - by rewrite set_share_ok.
Qed.
Lemma ok_message_fields m : is_u64 (msg_nonce m) → Forall ok_field (message_fields m).
Proof. intros. unfold message_fields. constructor; [by split_and!|]. ok_fields. Qed.
Lemma set_message_ok m : typed_payload (msg_payload m) → merge_all set_message (mkMessage MOther [] 0) (message_fields m) = Some m.
Proof.
  destruct m as [p c n]. intros Ht. unfold message_fields. cbn [msg_payload msg_chain_id msg_nonce merge_all set_message].
  rewrite get_put_fields_nil by apply ok_payload_fields. cbn [mbind option_bind]. rewrite set_payload_ok by done. cbn [mbind option_bind msg_payload msg_chain_id msg_nonce].
  unfold f_uint. destruct (N.eqb_spec n 0) as [->|], c; done.
Qed.

(** ** Only bytes, only uint64 numbers *)
Definition typed_wire (f : N * wire) : Prop := match f.2 with WVarint n => is_u64 n | WBytes b => is_bytes b | WSkip => True end.
Lemma put_field_bytes f : typed_wire f → is_bytes (put_field f).
Proof.
  destruct f as [num [n|b|]]; intros H; cbn [put_field]; [| |constructor].
  - apply Forall_app_2; apply put_varint_is_bytes.
  - apply Forall_app_2; [apply put_varint_is_bytes|]. apply Forall_app_2; [apply put_varint_is_bytes|done].
Qed.
Lemma put_fields_bytes fs : Forall typed_wire fs → is_bytes (put_fields fs).
Proof.
  induction 1 as [|f fs Hf _ IH]; [constructor|]. change (put_fields (f :: fs)) with (put_field f ++ put_fields fs).
  apply Forall_app_2; [by apply put_field_bytes|done].
Qed.
Lemma ty_f_uint num n : is_u64 n → Forall typed_wire (f_uint num n).
Proof. intros. unfold f_uint. destruct (n =? 0); [constructor|]. by constructor. Qed.
Lemma ty_f_bool num b : Forall typed_wire (f_bool num b).
Proof. destruct b; [|constructor]. by constructor. Qed.
Lemma ty_f_bytes num b : is_bytes b → Forall typed_wire (f_bytes num b).
Proof. intros. destruct b; [constructor|]. by constructor. Qed.
Lemma ty_f_list num l : Forall is_bytes l → Forall typed_wire (f_list num l).
Proof. induction 1; constructor; done. Qed.
Ltac ty_fields := repeat first [apply Forall_app_2 | apply ty_f_uint | apply ty_f_bool | apply ty_f_bytes | apply ty_f_list | done].
Lemma ty_message_fields m : typed_payload (msg_payload m) → is_bytes (msg_chain_id m) → is_u64 (msg_nonce m) → Forall typed_wire (message_fields m).
Proof.
  intros Hp Hc Hn. unfold message_fields. constructor; [|ty_fields]. unfold typed_wire. cbn [snd]. apply put_fields_bytes.
  destruct (msg_payload m); cbn [typed_payload payload_fields] in *; destruct_and?; [..|constructor].
  all: constructor; [|constructor]; unfold typed_wire; cbn [snd]; apply put_fields_bytes; unfold config_fields; ty_fields.
Qed.

Lemma get_varint_bytes k b n r : get_varint k b = Some (n, r) → is_bytes b → is_bytes r.
Proof.
  revert b n. induction k as [|k IH]; intros b n H Hb; [by destruct b|]. destruct b as [|x b]; [done|]. apply Forall_cons_1 in Hb as [_ Hb]. cbn [get_varint] in H.
  destruct (x <? 128); [by injection H as <- <-|]. destruct (get_varint k b) as [[v r']|] eqn:E; [|done]. cbn in H. injection H as <- <-. eauto.
Qed.
Lemma get_u64_bytes b n r : get_u64 b = Some (n, r) → is_bytes b → is_bytes r.
Proof.
  unfold get_u64. intros H. destruct (get_varint 10 b) as [[v r']|] eqn:E; [|done]. cbn [mbind option_bind] in H.
  destruct (N.ltb_spec v (2 ^ 64)); [|done]. injection H as <- <-. by eapply get_varint_bytes.
Qed.
Lemma get_length_bytes b n r : get_length b = Some (n, r) → is_bytes b → is_bytes r.
Proof. unfold get_length. destruct (_ <? _); [apply get_u64_bytes|apply get_varint_bytes]. Qed.
Lemma split_exact_bytes n b x r : split_exact n b = Some (x, r) → is_bytes b → is_bytes x ∧ is_bytes r.
Proof. intros ->%split_exact_spec H. by apply Forall_app in H. Qed.
Lemma skip_group_bytes f d num b r : skip_group f d num b = Some r → is_bytes b → is_bytes r.
Proof.
  revert d num b r. induction f as [|f IH]; intros d num b r H Hb; [done|]. cbn [skip_group] in H.
  destruct (get_u64 b) as [[t r1]|] eqn:E1; [|done]. cbn [mbind option_bind] in H. pose proof (get_u64_bytes _ _ _ E1 Hb).
  destruct (_ || _); [done|]. destruct (t mod 8) as [|[[[]|[]|]|[[]|[]|]|]] eqn:E; try done.
  - destruct (get_u64 r1) as [[? r2]|] eqn:E2; [|done]. cbn [mbind option_bind] in H. pose proof (get_u64_bytes _ _ _ E2). eauto.
  - destruct (split_exact 4 r1) as [[? r2]|] eqn:E2; [|done]. cbn [mbind option_bind] in H. apply split_exact_bytes in E2 as []; eauto.
  - destruct (d =? 0); [done|]. destruct (skip_group f (d - 1) (t / 8) r1) as [r2|] eqn:E2; [|done]. cbn [mbind option_bind] in H. eauto.
  - destruct (_ =? _); [|done]. by injection H as <-.
  - destruct (get_length r1) as [[l r2]|] eqn:E2; [|done]. cbn [mbind option_bind] in H. destruct (split_exact l r2) as [[? r3]|] eqn:E3; [|done].
    cbn [mbind option_bind] in H. pose proof (get_length_bytes _ _ _ E2). apply split_exact_bytes in E3 as []; eauto.
  - destruct (split_exact 8 r1) as [[? r2]|] eqn:E2; [|done]. cbn [mbind option_bind] in H. apply split_exact_bytes in E2 as []; eauto.
Qed.
Lemma get_value_typed num typ b v r : get_value num typ b = Some (v, r) → is_bytes b → typed_wire (num, v) ∧ is_bytes r.
Proof.
  unfold get_value. intros H Hb. destruct typ as [|[[[]|[]|]|[[]|[]|]|]]; try done.
  - destruct (get_u64 b) as [[? r2]|] eqn:E2; [|done]. cbn [mbind option_bind] in H. injection H as <- <-.
    split; [by apply get_u64_len in E2 as [_ ?]|by eapply get_u64_bytes].
  - destruct (split_exact 4 b) as [[? r2]|] eqn:E2; [|done]. cbn [mbind option_bind] in H. injection H as <- <-. by apply split_exact_bytes in E2 as [].
  - destruct (skip_group (length b) 10000 num b) as [r2|] eqn:E2; [|done]. cbn [mbind option_bind] in H. injection H as <- <-. split; [done|]. by eapply skip_group_bytes.
  - destruct (get_length b) as [[l r2]|] eqn:E2; [|done]. cbn [mbind option_bind] in H. destruct (split_exact l r2) as [[? r3]|] eqn:E3; [|done].
    cbn [mbind option_bind] in H. injection H as <- <-. apply split_exact_bytes in E3 as []; [done|]. by eapply get_length_bytes.
  - destruct (split_exact 8 b) as [[? r2]|] eqn:E2; [|done]. cbn [mbind option_bind] in H. injection H as <- <-. by apply split_exact_bytes in E2 as [].
Qed.
Lemma get_field_typed b f r : get_field b = Some (f, r) → is_bytes b → typed_wire f ∧ is_bytes r.
Proof.
  unfold get_field. intros H Hb. destruct (get_u64 b) as [[t r1]|] eqn:E1; [|done]. cbn [mbind option_bind] in H. pose proof (get_u64_bytes _ _ _ E1 Hb).
  destruct (_ || _); [done|]. destruct (get_value _ _ r1) as [[v r2]|] eqn:E2; [|done]. cbn [mbind option_bind] in H. injection H as <- <-.
  by eapply get_value_typed.
Qed.
Lemma get_fields_typed b fs : get_fields b = Some fs → is_bytes b → Forall typed_wire fs.
Proof.
  unfold get_fields. generalize (length b). intros n. revert b fs. induction n as [|n IH]; intros b fs H Hb.
  - destruct b; [|done]. cbn in H. injection H as <-. constructor.
  - destruct b as [|x b]; [cbn in H; injection H as <-; constructor|]. cbn [get_fields_] in H.
    destruct (get_field (x :: b)) as [[f r]|] eqn:E; [|done]. cbn [mbind option_bind] in H. destruct (get_fields_ n r) as [fs'|] eqn:E'; [|done].
    cbn [mbind option_bind] in H. injection H as <-. apply get_field_typed in E as [? ?]; [|done]. constructor; [done|eauto].
Qed.
Lemma merge_sub_typed {A} (I : A → Prop) (set : A → N * wire → A) a b a' : merge_sub set a b = Some a' → is_bytes b → I a →
  (∀ a f, I a → typed_wire f → I (set a f)) → I a'.
Proof.
  unfold merge_sub. intros H Hb Ha Hset. destruct (get_fields b) as [fs|] eqn:E; [|done]. cbn [mbind option_bind] in H. injection H as <-.
  apply get_fields_typed in E; [|done]. clear Hb. revert a Ha. induction E as [|f fs Hf _ IH]; intros a Ha; [done|]. cbn [foldl]. eauto.
Qed.
Lemma merge_all_typed {A} (I : A → Prop) (set : A → N * wire → option A) a fs a' : merge_all set a fs = Some a' → Forall typed_wire fs → I a →
  (∀ a f a', I a → typed_wire f → set a f = Some a' → I a') → I a'.
Proof.
  intros H Hfs Ha Hset. revert a Ha H. induction Hfs as [|f fs Hf _ IH]; intros a Ha H; cbn [merge_all] in H; [by injection H as <-|].
  destruct (set a f) as [a1|] eqn:E; [|done]. cbn [mbind option_bind] in H. eauto.
Qed.
Lemma set_payload_typed p f p' : typed_payload p → typed_wire f → set_payload p f = Some p' → typed_payload p'.
Proof.
  assert (Hnil : is_bytes []) by constructor. assert (Hnil' : Forall is_bytes []) by constructor. assert (H0 : is_u64 0) by done.
  assert (Hl : ∀ l b, Forall is_bytes l → is_bytes b → Forall is_bytes (l ++ [b])) by (intros; apply Forall_app_2; [done|by constructor]).
  assert (Hcfg : ∀ c f, typed_payload (MBatchConfig c) → typed_wire f → typed_payload (MBatchConfig (set_config c f))).
  { intros c [num v] Hc Hf. cbn in Hc. destruct_and!. destruct num as [|[[[]|[]|]|[[]|[]|]|]], v; cbn [set_config typed_payload rc_start rc_keypers rc_threshold rc_contract rc_index];
      unfold typed_wire in Hf; cbn in Hf; split_and!; eauto. }
  assert (Hnum : ∀ n f, is_u64 n → typed_wire f → is_u64 (set_number n f)).
  { intros n [num v] Hc Hf. destruct num as [|[]], v; done. }
  assert (Htwo : ∀ c f, is_bytes c.1 ∧ is_bytes c.2 → typed_wire f → is_bytes (set_two c f).1 ∧ is_bytes (set_two c f).2).
  { intros c [num v] [] Hf. destruct num as [|[[]|[]|]], v; done. }
  assert (Hnb : ∀ c f, is_u64 c.1 ∧ is_bytes c.2 → typed_wire f → is_u64 (set_number_bytes c f).1 ∧ is_bytes (set_number_bytes c f).2).
  { intros c [num v] [] Hf. destruct num as [|[[]|[]|]], v; done. }
  assert (Hnl : ∀ c f, is_u64 c.1 ∧ Forall is_bytes c.2 → typed_wire f → is_u64 (set_number_list c f).1 ∧ Forall is_bytes (set_number_list c f).2).
  { intros c [num v] [] Hf. destruct num as [|[[]|[]|]], v; cbn; split; eauto. }
  assert (Hnls : ∀ c f, is_u64 c.1.1 ∧ Forall is_bytes c.1.2 ∧ Forall is_bytes c.2 → typed_wire f →
    is_u64 (set_number_lists c f).1.1 ∧ Forall is_bytes (set_number_lists c f).1.2 ∧ Forall is_bytes (set_number_lists c f).2).
  { intros c [num v] (? & ? & ?) Hf. destruct num as [|[[]|[]|]], v; cbn; split_and!; eauto. }
  assert (Hsh : ∀ c f, is_u64 c.1.1 ∧ is_u64 c.1.2 ∧ is_bytes c.2 → typed_wire f →
    is_u64 (set_share c f).1.1 ∧ is_u64 (set_share c f).1.2 ∧ is_bytes (set_share c f).2).
  { intros c [num v] (? & ? & ?) Hf. destruct num as [|[[]|[]|]], v; cbn; split_and!; eauto. }
  destruct f as [num v]. intros Hp Hf H. destruct v as [n|b|]; [destruct num as [|[[[[]|[]|]|[[]|[]|]|]|[[[]|[]|]|[[]|[]|]|]|]]; cbn in H; by injection H as <-| |
    destruct num as [|[[[[]|[]|]|[[]|[]|]|]|[[[]|[]|]|[[]|[]|]|]|]]; cbn in H; by injection H as <-].
  unfold typed_wire in Hf. cbn [snd] in Hf.
  destruct num as [|[[[[]|[]|]|[[]|[]|]|]|[[[]|[]|]|[[]|[]|]|]|]]; cbn [set_payload] in H; try (by injection H as <-).
  all: apply fmap_Some in H as (c & H & ->).
  all: match type of H with merge_sub ?s _ _ = _ => match s with
    | set_config => eapply (merge_sub_typed (λ c, typed_payload (MBatchConfig c))) in H; [done|done| |done]
    | set_number => eapply (merge_sub_typed is_u64) in H; [done|done| |done]
    | set_two => eapply (merge_sub_typed (λ c, is_bytes c.1 ∧ is_bytes c.2)) in H; [done|done| |done]
    | set_number_bytes => eapply (merge_sub_typed (λ c, is_u64 c.1 ∧ is_bytes c.2)) in H; [done|done| |done]
    | set_number_list => eapply (merge_sub_typed (λ c, is_u64 c.1 ∧ Forall is_bytes c.2)) in H; [done|done| |done]
    | set_number_lists => eapply (merge_sub_typed (λ c, is_u64 c.1.1 ∧ Forall is_bytes c.1.2 ∧ Forall is_bytes c.2)) in H; [done|done| |done]
    | set_share => eapply (merge_sub_typed (λ c, is_u64 c.1.1 ∧ is_u64 c.1.2 ∧ is_bytes c.2)) in H; [done|done| |done]
    end end.
  all: destruct p; cbn [typed_payload fst snd] in *; repeat split; try done; try constructor; try (by apply Hp).
Qed.
Lemma proto_unmarshal_typed b m : proto_unmarshal b = Some m → typed_payload (msg_payload m) ∧ is_bytes (msg_chain_id m) ∧ is_u64 (msg_nonce m).
Proof.
  unfold proto_unmarshal. destruct (forallb _ b) eqn:E; [|done]. intros H.
  assert (Hb : is_bytes b) by (apply Forall_forall; intros x Hx; apply N.ltb_lt; apply elem_of_list_In in Hx; revert x Hx; by apply forallb_forall).
  destruct (get_fields b) as [fs|] eqn:Ef; [|done]. cbn [mbind option_bind] in H. apply get_fields_typed in Ef; [|done].
  eapply (merge_all_typed (λ m, typed_payload (msg_payload m) ∧ is_bytes (msg_chain_id m) ∧ is_u64 (msg_nonce m))) in H; [exact H|done|by repeat split; try constructor|].
  intros a [num v] a' (H1 & H2 & H3) Hf Hs. unfold typed_wire in Hf.
  destruct num as [|[[]|[]|]], v as [n|d|]; cbn [set_message snd] in *; try (by injection Hs as <-).
  destruct (get_fields d) as [gs|] eqn:Eg; [|done]. cbn [mbind option_bind] in Hs. destruct (merge_all set_payload (msg_payload a) gs) as [p|] eqn:Ep; [|done].
  cbn [mbind option_bind] in Hs. injection Hs as <-. split_and!; [|done..]. cbn [msg_payload].
  eapply (merge_all_typed typed_payload) in Ep; [exact Ep|by eapply get_fields_typed|done|]. intros. by eapply set_payload_typed.
Qed.

(** Lemmas about padding, the block cipher and the encryption scheme. *)
From stdpp Require Import list gmap.
From Coq Require Import ZArith NArith Lia.
From Verif Require Import Fq CryptoModel CryptoSpec CryptoProofs EncModel.

Local Arguments compute_block_key : simpl never.
Local Arguments xor_blocks : simpl never.
Local Arguments block_size : simpl never.

Lemma join_cons {A} (b : list A) bs : mjoin (b :: bs) = b ++ mjoin bs. Proof. done. Qed.
Lemma join_app {A} (l k : list (list A)) : mjoin (l ++ k) = mjoin l ++ mjoin k.
Proof. induction l as [|b l IH]; [done|]. cbn [app]. by rewrite !join_cons, IH, app_assoc. Qed.

(** * Padding *)
Lemma split_blocks_app a l : length a = block_size → split_blocks (a ++ l) = a :: split_blocks l.
Proof.
  intros Ha. unfold split_blocks. rewrite app_length, Ha.
  replace ((block_size + length l) / block_size) with (S (length l / block_size)).
  2:{ replace (block_size + length l) with (length l + 1 * block_size) by lia. rewrite Nat.div_add by done. lia. }
  cbn [seq fmap list_fmap]. f_equal.
  - rewrite Nat.mul_0_l, drop_0. rewrite <-Ha. apply take_app.
  - rewrite <-fmap_S_seq, <-list_fmap_compose. apply list_fmap_ext. intros _ i _. cbn [compose].
    unfold compose. f_equal. replace (S i * block_size) with (length a + i * block_size) by lia.
    rewrite <-drop_drop, drop_app. done.
Qed.
Lemma split_blocks_nil : split_blocks [] = []. Proof. done. Qed.
Lemma split_blocks_spec n l : length l = n * block_size →
  mjoin (split_blocks l) = l ∧ length (split_blocks l) = n ∧ Forall (λ b, length b = block_size) (split_blocks l).
Proof.
  revert l. induction n as [|n IH]; intros l Hl.
  - destruct l; [|done]. rewrite split_blocks_nil. done.
  - rewrite <-(take_drop block_size l) at 1 3 4.
    assert (length (take block_size l) = block_size) by (rewrite take_length; lia).
    rewrite split_blocks_app by done.
    destruct (IH (drop block_size l)) as (I1 & I2 & I3); [rewrite drop_length; lia|].
    split; [|split]; [|cbn [length]; by rewrite I2|by constructor].
    change (take block_size l ++ mjoin (split_blocks (drop block_size l)) = l). rewrite I1. apply take_drop.
Qed.
Lemma split_join bs : Forall (λ b, length b = block_size) bs → split_blocks (mjoin bs) = bs.
Proof. induction 1 as [|b bs Hb _ IH]; [done|]. rewrite join_cons, split_blocks_app by done. by rewrite IH. Qed.
Lemma join_length (bs : list (list N)) : Forall (λ b, length b = block_size) bs → length (mjoin bs) = length bs * block_size.
Proof. induction 1 as [|b bs Hb _ IH]; [done|]. rewrite join_cons, app_length, IH, Hb. cbn [length]. lia. Qed.

Lemma padding_length_bounds m : 1 ≤ padding_length m ≤ block_size.
Proof. unfold padding_length. pose proof (Nat.mod_upper_bound (length m) block_size ltac:(done)). lia. Qed.
Lemma padded_length m : length (m ++ padding m) = S (length m / block_size) * block_size.
Proof.
  rewrite app_length. unfold padding. rewrite replicate_length. unfold padding_length.
  pose proof (Nat.mod_upper_bound (length m) block_size ltac:(done)).
  pose proof (Nat.div_mod (length m) block_size ltac:(done)). lia.
Qed.
Lemma pad_message_spec m : mjoin (pad_message m) = m ++ padding m ∧ length (pad_message m) = S (length m / block_size) ∧
  Forall (λ b, length b = block_size) (pad_message m).
Proof. apply split_blocks_spec, padded_length. Qed.

(** unpadding in terms of the joined bytes *)
Lemma unpad_spec bs : Forall (λ b, length b = block_size) bs → bs ≠ [] →
  unpad_message bs =
    let l := mjoin bs in
    let p := N.to_nat (nth (length l - 1) l 0%N) in
    if Nat.eqb p 0 then None else if Nat.ltb block_size p then None else Some (take (length l - p) l).
Proof.
  intros Hb. destruct bs as [|b bs _] using rev_ind; [done|]. intros _.
  apply Forall_app in Hb as [Hb Hb1]. rewrite Forall_singleton in Hb1.
  unfold unpad_message. rewrite last_snoc. rewrite app_length. cbn [length].
  rewrite join_app, join_cons. change (mjoin (@nil (list N))) with (@nil N). rewrite app_nil_r. cbv zeta.
  pose proof (join_length bs Hb) as Lj. rewrite app_length, Hb1.
  assert (Hn : nth (length (mjoin bs) + block_size - 1) (mjoin bs ++ b) 0%N = nth (block_size - 1) b 0%N).
  { rewrite app_nth2 by (unfold block_size; lia). f_equal. unfold block_size. lia. }
  rewrite Hn. destruct (Nat.eqb _ 0) eqn:E0; [done|]. apply Nat.eqb_neq in E0.
  destruct (Nat.ltb block_size _) eqn:E1; [done|]. apply Nat.ltb_ge in E1. f_equal.
  replace (length bs + 1 - 1) with (length bs) by lia. rewrite take_app.
  replace (length (mjoin bs) + block_size - N.to_nat (nth (block_size - 1) b 0%N)) with (length (mjoin bs) + (block_size - N.to_nat (nth (block_size - 1) b 0%N))) by lia.
  symmetry. apply firstn_app_2.
Qed.
Lemma unpad_pad m : unpad_message (pad_message m) = Some m.
Proof.
  destruct (pad_message_spec m) as (J & L & F). rewrite unpad_spec; [|done|by destruct (pad_message m)].
  cbv zeta. rewrite J. pose proof (padding_length_bounds m).
  assert (Hl : length (m ++ padding m) = length m + padding_length m).
  { rewrite app_length. unfold padding. by rewrite replicate_length. }
  assert (Hn : nth (length (m ++ padding m) - 1) (m ++ padding m) 0%N = N.of_nat (padding_length m)).
  { rewrite Hl. rewrite app_nth2 by lia. unfold padding. rewrite nth_replicate || rewrite nth_lookup.
    rewrite lookup_replicate_2 by lia. done. }
  rewrite Hn, Nat2N.id. destruct (Nat.eqb_spec (padding_length m) 0); [lia|].
  destruct (Nat.ltb_spec block_size (padding_length m)); [lia|].
  rewrite Hl. f_equal. replace (length m + padding_length m - padding_length m) with (length m) by lia. apply take_app.
Qed.

(** * XOR *)
Lemma xor_length a b : length a = block_size → length b = block_size → length (xor_blocks a b) = block_size.
Proof. intros. unfold xor_blocks. rewrite zip_with_length. lia. Qed.
Lemma xor_comm a b : xor_blocks a b = xor_blocks b a.
Proof. unfold xor_blocks. revert b. induction a as [|x a IH]; intros [|y b]; cbn; try done. by rewrite IH, N.lxor_comm. Qed.
Lemma xor_cancel a b : length a = length b → xor_blocks (xor_blocks a b) b = a.
Proof.
  unfold xor_blocks. revert b. induction a as [|x a IH]; intros [|y b]; cbn; try done. intros [= ?].
  rewrite IH by done. by rewrite N.lxor_assoc, N.lxor_nilpotent, N.lxor_0_r.
Qed.
Lemma xor_inj a b k : length a = length k → length b = length k → xor_blocks a k = xor_blocks b k → a = b.
Proof. intros Ha Hb E. rewrite <-(xor_cancel a k), <-(xor_cancel b k) by done. by rewrite E. Qed.

(** * The exponentiation *)
Section Enc.
Context {P : pairing} (H : hashes P).
Lemma fp12_loop res base e : fp12_exp_loop (P := P) res base e = gadd res (gsmul (Z.pos e) base).
Proof.
  revert res base. induction e as [e IH|e IH|]; intros res base; cbn [fp12_exp_loop].
  - rewrite IH, Pos2Z.inj_xI. replace (2 * Z.pos e + 1)%Z with (1 + (Z.pos e + Z.pos e))%Z by lia.
    rewrite !gsmul_add, gsmul_1, gsmul_gadd, !gadd_assoc. done.
  - rewrite IH, Pos2Z.inj_xO. replace (2 * Z.pos e)%Z with (Z.pos e + Z.pos e)%Z by lia.
    rewrite !gsmul_add, gsmul_gadd. done.
  - by rewrite gsmul_1.
Qed.
Lemma fp12_exp_spec base e : (0 ≤ e)%Z → fp12_exp (P := P) base e = gsmul e base.
Proof.
  intros He. destruct e as [|e|e]; [by rewrite gsmul_0| |lia].
  cbn [fp12_exp]. rewrite fp12_loop, !gadd_0. done.
Qed.

(** * Hashes *)
Lemma hash2_length x : length (hash2 H x) = block_size.
Proof. unfold hash2, hash_with_prefix. rewrite take_length, keccak_length. done. Qed.
Lemma hash4_length x : length (hash4 H x) = block_size.
Proof. unfold hash4, hash_with_prefix. rewrite take_length, keccak_length. done. Qed.
Lemma hash3_residue x : residue (hash3 H x).
Proof. apply mod_residue. Qed.
Lemma block_key_length s i : length (compute_block_key H s i) = block_size. Proof. apply hash4_length. Qed.

(** * Blocks *)
Lemma c3_length bs s : length (compute_c3 H bs s) = length bs. Proof. apply imap_length. Qed.
Lemma decrypt_blocks_length bs s : length (decrypt_blocks H bs s) = length bs. Proof. apply imap_length. Qed.
Lemma c3_blocks bs s : Forall (λ b, length b = block_size) bs → Forall (λ b, length b = block_size) (compute_c3 H bs s).
Proof.
  intros F. apply Forall_lookup. intros i b. unfold compute_c3. rewrite list_lookup_imap.
  destruct (bs !! i) as [b'|] eqn:E; [|done]. cbn. intros [= <-]. apply xor_length; [apply block_key_length|].
  by apply (Forall_lookup_1 _ _ _ _ F E).
Qed.
Lemma decrypt_blocks_blocks bs s : Forall (λ b, length b = block_size) bs → Forall (λ b, length b = block_size) (decrypt_blocks H bs s).
Proof.
  intros F. apply Forall_lookup. intros i b. unfold decrypt_blocks. rewrite list_lookup_imap.
  destruct (bs !! i) as [b'|] eqn:E; [|done]. cbn. intros [= <-]. apply xor_length; [|apply block_key_length].
  by apply (Forall_lookup_1 _ _ _ _ F E).
Qed.
Lemma decrypt_c3 bs s : Forall (λ b, length b = block_size) bs → decrypt_blocks H (compute_c3 H bs s) s = bs.
Proof.
  intros F. unfold decrypt_blocks, compute_c3. apply list_eq. intros i. rewrite !list_lookup_imap.
  destruct (bs !! i) as [b|] eqn:E; [|done]. cbn. f_equal. rewrite (xor_comm _ b). apply xor_cancel.
  rewrite block_key_length. by apply (Forall_lookup_1 _ _ _ _ F E).
Qed.
Lemma c3_decrypt bs s : Forall (λ b, length b = block_size) bs → compute_c3 H (decrypt_blocks H bs s) s = bs.
Proof.
  intros F. unfold decrypt_blocks, compute_c3. apply list_eq. intros i. rewrite !list_lookup_imap.
  destruct (bs !! i) as [b|] eqn:E; [|done]. cbn. f_equal. rewrite xor_comm. apply xor_cancel.
  rewrite block_key_length. by apply (Forall_lookup_1 _ _ _ _ F E).
Qed.

(** * Encryption *)
Lemma sigma_of_encrypt m pk E sigma K : length sigma = block_size → pair ggen K = pair pk E →
  sigma_of H (encrypt H m pk E sigma) K = sigma.
Proof.
  intros Hs HK. unfold sigma_of, encrypt. cbn [c1 c2]. unfold compute_c2, compute_c1, generate_p2.
  pose proof (hash3_residue (sigma ++ m)) as [Hr _].
  rewrite fp12_exp_spec by exact Hr. rewrite pair_smul_l, HK. apply xor_cancel. by rewrite hash2_length.
Qed.
Lemma decrypt_encrypt m pk E sigma K : length sigma = block_size → pair ggen K = pair pk E →
  decrypt H (encrypt H m pk E sigma) K = Some m.
Proof.
  intros Hs HK. unfold decrypt. rewrite sigma_of_encrypt by done. cbn [encrypt c1 c3].
  rewrite decrypt_c3 by apply pad_message_spec. rewrite unpad_pad. by rewrite bool_decide_true.
Qed.
End Enc.

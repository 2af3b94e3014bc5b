(** Round trips of the text encodings in EventsModel. *)
From stdpp Require Import list strings.
From Coq Require Import ZArith NArith Lia.
From Verif Require Import CryptoModel EncModel EncodingModel PropsEncoding AppModel EventsModel EventsSpec.


(** ** numbers *)
Lemma parse_digits_app l1 l2 acc : foldl parse_digit acc (l1 ++ l2) = foldl parse_digit (foldl parse_digit acc l1) l2.
Proof. apply foldl_app. Qed.
Lemma format_parse fuel n : (n < 2 ^ N.of_nat fuel)%N → (0 < fuel)%nat → foldl parse_digit (Some 0%N) (format_fuel fuel n) = Some n ∧ format_fuel fuel n ≠ [].
Proof.
  revert n. induction fuel as [|fuel IH]; intros n Hn Hf; [lia|]. cbn [format_fuel]. destruct (N.ltb_spec n 10) as [H|H].
  - split; [|done]. cbn. rewrite (proj2 (N.leb_le _ _)), (proj2 (N.leb_le _ _)) by lia. cbn. f_equal. lia.
  - assert (n / 10 < 2 ^ N.of_nat fuel)%N as Hd.
    { apply N.div_lt_upper_bound; [lia|]. rewrite Nnat.Nat2N.inj_succ, N.pow_succ_r' in Hn. lia. }
    destruct fuel as [|fuel]; [change (2 ^ N.of_nat 1)%N with 2%N in Hn; lia|].
    destruct (IH (n / 10)%N Hd ltac:(lia)) as [E _]. rewrite foldl_app, E. cbn [foldl parse_digit mbind option_bind].
    pose proof (N.mod_lt n 10 ltac:(lia)) as Hm. set (r := (n mod 10)%N) in *. rewrite (proj2 (N.leb_le 48 (48 + r))), (proj2 (N.leb_le (48 + r) 57)) by lia. cbn [andb]. split.
    + f_equal. replace (48 + r - 48)%N with r by lia. unfold r. rewrite N.mul_comm. symmetry. by apply N.div_mod.
    + intros E2. apply (f_equal length) in E2. rewrite app_length in E2. cbn in E2. lia.
Qed.
Lemma size_bound n : (n < 2 ^ N.of_nat (S (N.size_nat n)))%N.
Proof.
  destruct n as [|p]; [reflexivity|]. rewrite Nnat.Nat2N.inj_succ, N.pow_succ_r'. cbn [N.size_nat].
  assert (N.pos p < 2 ^ N.of_nat (Pos.size_nat p))%N; [|lia]. induction p as [p IH|p IH|]; cbn [Pos.size_nat]; rewrite ?Nnat.Nat2N.inj_succ, ?N.pow_succ_r'; [lia|lia|reflexivity].
Qed.
Lemma uint64_roundtrip n : (n < 2 ^ 64)%N → decode_uint64 (encode_uint64 n) = Some n.
Proof.
  intros Hn. unfold decode_uint64, encode_uint64. destruct (format_parse (S (N.size_nat n)) n (size_bound n) ltac:(lia)) as [E Hne].
  set (f := format_fuel (S (N.size_nat n)) n) in *. clearbody f. destruct f as [|c l]; [done|]. rewrite E. cbn [mbind option_bind]. by rewrite (proj2 (N.ltb_lt _ _)) by done.
Qed.
(** ** lists *)
Lemma split_plain p : Forall (λ c, c ≠ comma) p → split p = [p].
Proof. induction 1 as [|c p Hc _ IH]; [done|]. cbn [split]. by rewrite (proj2 (N.eqb_neq _ _)), IH by done. Qed.
Lemma split_cons p s : Forall (λ c, c ≠ comma) p → split (p ++ comma :: s) = p :: split s.
Proof. induction 1 as [|c p Hc _ IH]; [done|]. change ((c :: p) ++ comma :: s) with (c :: (p ++ comma :: s)). cbn [split]. by rewrite (proj2 (N.eqb_neq _ _)), IH by done. Qed.
Lemma split_join l : l ≠ [] → Forall (Forall (λ c, c ≠ comma)) l → split (join l) = l.
Proof.
  intros Hne HF. induction HF as [|p l Hp HF IH]; [done|]. destruct l as [|q l]; [by apply split_plain|]. cbn [join].
  rewrite split_cons by done. f_equal. by apply IH.
Qed.
Lemma join_not_nil l : l ≠ [] → Forall (λ p, p ≠ []) l → join l ≠ [].
Proof. intros Hne HF. destruct HF as [|p l Hp HF]; [done|]. destruct l as [|q l]; [done|]. cbn [join]. by destruct p. Qed.
(** ** hexadecimal *)
Lemma hex_plain_pairs bs : is_bytes bs → hex_pairs (hex_plain bs) = Some bs.
Proof.
  intros Hb. pose proof (C37_hex bs Hb) as H. unfold hex_decode, hex_encode in H. cbn [N.eqb orb Pos.eqb] in H. exact H.
Qed.
Lemma hex_plain_cons b bs : hex_plain (b :: bs) = hex_digit (b / 16) :: hex_digit (b mod 16) :: hex_plain bs.
Proof. reflexivity. Qed.
Lemma hex_plain_length bs : length (hex_plain bs) = (2 * length bs)%nat.
Proof. induction bs as [|b bs IH]; [done|]. rewrite hex_plain_cons. cbn [length]. rewrite IH. lia. Qed.
(** the characters of the text of bytes *)
Definition is_hex_char (c : N) : Prop := ((48 ≤ c ∧ c ≤ 57) ∨ (97 ≤ c ∧ c ≤ 102))%N.
Lemma hex_digit_char d : (d < 16)%N → is_hex_char (hex_digit d).
Proof. intros H. unfold hex_digit, is_hex_char. destruct (N.ltb_spec d 10); lia. Qed.
Lemma hex_plain_chars bs : is_bytes bs → Forall is_hex_char (hex_plain bs).
Proof.
  induction 1 as [|b bs Hb _ IH]; [constructor|]. rewrite hex_plain_cons. constructor; [|constructor; [|done]]; apply hex_digit_char.
  - apply N.div_lt_upper_bound; lia.
  - by apply N.mod_lt.
Qed.
Lemma hex_encode_no_comma bs : is_bytes bs → Forall (λ c, c ≠ comma) (hex_encode bs).
Proof.
  intros Hb. change (hex_encode bs) with (48%N :: 120%N :: hex_plain bs). constructor; [done|]. constructor; [done|].
  eapply Forall_impl; [by apply hex_plain_chars|]. intros c Hc. unfold is_hex_char, comma in *. lia.
Qed.
Lemma hex_prefix_pairs l bs : hex_pairs l = Some bs → hex_prefix l = bs.
Proof.
  revert l. induction bs as [|x bs IH]; intros l H.
  - destruct l as [|a [|b l]]; [done|done|]. cbn in H. destruct (hex_value a), (hex_value b), (hex_pairs l); done.
  - destruct l as [|a [|b l]]; [done|done|]. cbn in H |- *. destruct (hex_value a), (hex_value b), (hex_pairs l) eqn:E; try done. injection H as <- <-. f_equal. by apply IH.
Qed.
(** ** byte sequences *)
Lemma mapM_fmap_roundtrip {A B} (f : A → option B) (g : B → A) (Q : B → Prop) l : (∀ x, Q x → f (g x) = Some x) → Forall Q l → mapM f (g <$> l) = Some l.
Proof. intros H HF. induction HF as [|x l Hx HF IH]; [done|]. cbn. rewrite (H x Hx). cbn. change (list_fmap B A g l) with (g <$> l). rewrite IH. done. Qed.
Lemma byte_sequence_roundtrip l : Forall is_bytes l → decode_byte_sequence (encode_byte_sequence l) = Some l.
Proof.
  intros HF. unfold decode_byte_sequence, encode_byte_sequence. destruct l as [|p l]; [done|]. set (q := p :: l) in *.
  assert (join (hex_encode <$> q) ≠ []) as Hne.
  { apply join_not_nil; [done|]. apply Forall_fmap, Forall_forall. intros x _. done. }
  assert (split (join (hex_encode <$> q)) = hex_encode <$> q) as Hs.
  { apply split_join; [done|]. apply Forall_fmap. eapply Forall_impl; [exact HF|]. intros x Hx. by apply hex_encode_no_comma. }
  destruct (join (hex_encode <$> q)) as [|c s]; [done|]. rewrite Hs. apply (mapM_fmap_roundtrip _ _ is_bytes); [apply C37_hex|done].
Qed.
(** ** addresses *)
Lemma be_bytes_length n a : length (be_bytes n a) = n.
Proof. revert a. induction n as [|n IH]; intros a; [done|]. cbn [be_bytes]. rewrite app_length, IH. cbn. lia. Qed.
Lemma be_bytes_bytes n a : is_bytes (be_bytes n a).
Proof. revert a. induction n as [|n IH]; intros a; [constructor|]. cbn [be_bytes]. apply Forall_app. split; [apply IH|]. apply Forall_singleton. by apply N.mod_lt. Qed.
Lemma bytes_to_address_app l b : bytes_to_address (l ++ [b]) = (bytes_to_address l * 256 + b)%N.
Proof. unfold bytes_to_address. by rewrite foldl_app. Qed.
Lemma be_bytes_value n a : (a < 256 ^ N.of_nat n)%N → bytes_to_address (be_bytes n a) = a.
Proof.
  revert a. induction n as [|n IH]; intros a Ha; [cbn in *; change (256 ^ 0)%N with 1%N in Ha; unfold bytes_to_address; cbn; lia|]. cbn [be_bytes]. rewrite bytes_to_address_app, IH.
  - rewrite N.mul_comm. symmetry. by apply N.div_mod.
  - apply N.div_lt_upper_bound; [done|]. by rewrite Nnat.Nat2N.inj_succ, N.pow_succ_r' in Ha.
Qed.
Lemma address_roundtrip a : is_address a → bytes_to_address (address_bytes a) = a.
Proof. intros H. apply be_bytes_value. exact H. Qed.
Lemma value_bound l : is_bytes l → (bytes_to_address l < 256 ^ N.of_nat (length l))%N.
Proof.
  induction l as [|b l IH] using rev_ind; intros HF; [reflexivity|]. apply Forall_app in HF as [HF Hb]. apply Forall_inv in Hb. cbn beta in Hb. specialize (IH HF).
  rewrite bytes_to_address_app, app_length. cbn [length]. rewrite Nat.add_1_r, Nnat.Nat2N.inj_succ, N.pow_succ_r'. set (q := (256 ^ N.of_nat (length l))%N) in *. clearbody q. cbn beta in Hb. lia.
Qed.
Lemma bytes_to_address_bound l : is_bytes l → length l = 20%nat → is_address (bytes_to_address l).
Proof. intros Hb Hl. pose proof (value_bound l Hb) as H. rewrite Hl in H. exact H. Qed.
Lemma bytes_to_address_inj l : is_bytes l → be_bytes (length l) (bytes_to_address l) = l.
Proof.
  induction l as [|b l IH] using rev_ind; intros HF; [done|]. apply Forall_app in HF as [HF Hb]. apply Forall_inv in Hb. cbn beta in Hb. specialize (IH HF).
  rewrite bytes_to_address_app, app_length. cbn [length]. rewrite Nat.add_1_r. cbn [be_bytes]. f_equal; [|f_equal].
  - rewrite N.div_add_l, (N.div_small b) by lia. by rewrite N.add_0_r.
  - rewrite N.add_comm, N.mod_add, N.mod_small by lia. done.
Qed.

Section Address.
Context (keccak : bytes → bytes).
Lemma checksum_value h i c : is_hex_char c → hex_value (checksum h i c) = hex_value c.
Proof.
  intros Hc. unfold checksum. destruct (N.ltb_spec 57 c); cbn [andb]; [|done]. destruct (7 <? _)%N; [|done]. unfold is_hex_char in Hc. unfold hex_value.
  repeat match goal with |- context [(?a <=? ?b)%N] => destruct (N.leb_spec a b); try lia end; cbn; f_equal; lia.
Qed.
Lemma checksum_char h i c : is_hex_char c → (48 ≤ checksum h i c ≤ 102)%N.
Proof. intros Hc. unfold checksum. unfold is_hex_char in Hc. destruct (N.ltb_spec 57 c); cbn [andb]; [|lia]. destruct (7 <? _)%N; lia. Qed.
Lemma imap_checksum_pairs h f l : Forall is_hex_char l → hex_pairs (imap (λ i, checksum h (f i)) l) = hex_pairs l.
Proof.
  intros HF. assert (∃ n, (length l ≤ n)%nat) as [n Hn] by eauto. revert f l HF Hn. induction n as [|n IH]; intros f l HF Hn.
  - destruct l; [done|cbn in Hn; lia].
  - destruct l as [|a [|b l]]; [done|done|].  apply Forall_cons in HF as [Ha HF]. apply Forall_cons in HF as [Hb HF].
    cbn. rewrite !checksum_value by done. specialize (IH (λ i, f (S (S i))) l HF ltac:(cbn in Hn; lia)). match type of IH with ?x = _ => match goal with |- context [hex_pairs (imap ?g l)] => change x with (hex_pairs (imap g l)) in IH end end. by rewrite IH.
Qed.
Lemma address_text a : ∃ l, address_hex keccak a = 48%N :: 120%N :: l ∧ length l = 40%nat ∧ hex_pairs l = Some (address_bytes a) ∧
  Forall (λ c, (48 ≤ c ≤ 102)%N ∧ is_Some (hex_value c)) l.
Proof.
  set (t := hex_plain (address_bytes a)). exists (imap (checksum (keccak t)) t). split; [done|].
  pose proof (hex_plain_chars (address_bytes a) (be_bytes_bytes 20 a)) as Hc. split; [|split].
  - rewrite imap_length. unfold t. by rewrite hex_plain_length.
  - rewrite (imap_checksum_pairs (keccak t) (λ i, i)) by done. apply hex_plain_pairs, be_bytes_bytes.
  - apply Forall_lookup. intros i x Hx. rewrite list_lookup_imap in Hx. apply fmap_Some in Hx as (c & Et & ->).
    rewrite Forall_lookup in Hc. specialize (Hc i c Et). split; [by apply checksum_char|]. rewrite checksum_value by done.
    unfold is_hex_char in Hc. unfold hex_value. repeat match goal with |- context [(?a <=? ?b)%N] => destruct (N.leb_spec a b); try lia end; cbn; eauto.
Qed.
Lemma hex_to_address_text a : is_address a → hex_to_address (address_hex keccak a) = a.
Proof.
  intros Ha. destruct (address_text a) as (l & -> & Hl & Hp & _). unfold hex_to_address. cbn [strip_0x N.eqb Pos.eqb orb]. rewrite Hl.
  change (Nat.eqb (40 mod 2) 1) with false. cbv iota. rewrite (hex_prefix_pairs _ _ Hp). unfold address_bytes. rewrite be_bytes_length. by apply address_roundtrip.
Qed.
Lemma is_hex_address_text a : is_hex_address (address_hex keccak a) = true.
Proof.
  destruct (address_text a) as (l & -> & Hl & _ & HF). unfold is_hex_address. cbn [strip_0x N.eqb Pos.eqb orb]. rewrite Hl. cbn [Nat.eqb andb].
  apply forallb_forall. intros c Hc. rewrite Forall_forall in HF. apply elem_of_list_In in Hc. destruct (HF c Hc) as [_ [v ->]]. done.
Qed.
Lemma decode_address_text a : is_address a → decode_address keccak (encode_address keccak a) = Some a.
Proof. intros Ha. unfold decode_address, encode_address. rewrite hex_to_address_text by done. by rewrite bool_decide_eq_true_2. Qed.
Lemma decode_address_canonical s a : decode_address keccak s = Some a → s = encode_address keccak a.
Proof. unfold decode_address. destruct (bool_decide _) eqn:E; [|done]. intros [= <-]. by apply bool_decide_eq_true in E. Qed.
Lemma addresses_roundtrip l : Forall is_address l → decode_addresses (encode_addresses keccak l) = Some l.
Proof.
  intros HF. unfold decode_addresses, encode_addresses. destruct l as [|p l]; [done|]. set (q := p :: l) in *.
  assert (join (address_hex keccak <$> q) ≠ []) as Hne.
  { apply join_not_nil; [done|]. apply Forall_fmap, Forall_forall. intros x _. done. }
  assert (split (join (address_hex keccak <$> q)) = address_hex keccak <$> q) as Hs.
  { apply split_join; [done|]. apply Forall_fmap. eapply Forall_impl; [exact HF|]. intros x Hx. cbn.
    destruct (address_text x) as (t & -> & _ & _ & Ht). constructor; [done|]. constructor; [done|]. eapply Forall_impl; [exact Ht|]. cbn. unfold comma. intros c [? _]. lia. }
  destruct (join (address_hex keccak <$> q)) as [|c s]; [done|]. rewrite Hs. apply (mapM_fmap_roundtrip _ _ is_address); [|done].
  intros x Hx. rewrite is_hex_address_text. by rewrite hex_to_address_text.
Qed.
End Address.

(** ** base64 *)
Lemma b64_char_value v : (v < 64)%N → b64_value (b64_char v) = Some v.
Proof.
  intros H. unfold b64_char, b64_value.
  repeat match goal with
  | |- context [(?a <? ?b)%N] => destruct (N.ltb_spec a b); try lia
  | |- context [(?a =? ?b)%N] => destruct (N.eqb_spec a b); try lia
  | |- context [(?a <=? ?b)%N] => destruct (N.leb_spec a b); try lia end; cbn; f_equal; lia.
Qed.
Lemma b64_char_break v : (v < 64)%N → negb (is_break (b64_char v)) = true.
Proof.
  intros H. unfold b64_char, is_break. destruct (N.eqb_spec v 62).
  all: repeat match goal with
  | |- context [(?a <? ?b)%N] => destruct (N.ltb_spec a b); try lia
  | |- context [(?a =? ?b)%N] => destruct (N.eqb_spec a b); try lia end; done.
Qed.
Lemma filter_id {A} (f : A → bool) l : Forall (λ x, f x = true) l → List.filter f l = l.
Proof. induction 1 as [|x l Hx _ IH]; [done|]. cbn. by rewrite Hx, IH. Qed.
Lemma b64_roundtrip l : is_bytes l → b64_decode (b64_encode l) = Some l.
Proof.
  intros HF. unfold b64_decode.
  assert (∃ vs, b64_encode l = b64_char <$> vs ∧ Forall (λ v, (v < 64)%N) vs ∧ b64_groups vs = Some l) as (vs & -> & Hv & Hg).
  { assert (∃ n, (length l < 3 * S n)%nat) as [n Hn] by (exists (length l); lia). revert l HF Hn. induction n as [|n IH]; intros l HF Hn.
    - destruct l as [|a [|b [|c l]]]; [..|cbn in Hn; lia].
      + exists []. split; [done|]. split; [constructor|done].
      + apply Forall_cons in HF as [Ha _]. exists [a / 4; (a mod 4) * 16]%N. split; [done|]. split.
        * assert (a / 4 < 64)%N by (apply N.div_lt_upper_bound; lia). pose proof (N.mod_lt a 4 ltac:(lia)). repeat constructor; lia.
        * cbn [b64_groups]. f_equal. f_equal. rewrite N.div_mul by lia. rewrite N.mul_comm. symmetry. by apply N.div_mod.
      + apply Forall_cons in HF as [Ha HF]. apply Forall_cons in HF as [Hb _]. exists [a / 4; (a mod 4) * 16 + b / 16; (b mod 16) * 4]%N. split; [done|].
        assert (a / 4 < 64)%N by (apply N.div_lt_upper_bound; lia). pose proof (N.mod_lt a 4 ltac:(lia)).
        assert (b / 16 < 16)%N by (apply N.div_lt_upper_bound; lia). pose proof (N.mod_lt b 16 ltac:(lia)). split; [repeat constructor; lia|].
        cbn [b64_groups]. do 2 f_equal; [|f_equal].
        * rewrite N.div_add_l, (N.div_small (b / 16)) by lia. rewrite N.add_0_r, N.mul_comm. symmetry. by apply N.div_mod.
        * rewrite (N.add_comm (a mod 4 * 16)), N.mod_add, (N.mod_small (b / 16)) by lia. rewrite N.div_mul by lia. rewrite N.mul_comm. symmetry. by apply N.div_mod.
    - destruct l as [|a [|b [|c l]]].
      1-3: apply IH; [done|cbn; lia].
      apply Forall_cons in HF as [Ha HF]. apply Forall_cons in HF as [Hb HF]. apply Forall_cons in HF as [Hc HF].
      destruct (IH l HF) as (vs & E & Hv & Hg); [cbn in Hn; lia|].
      exists (a / 4 :: (a mod 4) * 16 + b / 16 :: (b mod 16) * 4 + c / 64 :: c mod 64 :: vs)%N. split; [cbn [b64_encode]; by rewrite E|].
      assert (a / 4 < 64)%N by (apply N.div_lt_upper_bound; lia). pose proof (N.mod_lt a 4 ltac:(lia)).
      assert (b / 16 < 16)%N by (apply N.div_lt_upper_bound; lia). pose proof (N.mod_lt b 16 ltac:(lia)).
      assert (c / 64 < 4)%N by (apply N.div_lt_upper_bound; lia). pose proof (N.mod_lt c 64 ltac:(lia)). split; [repeat constructor; (done || lia)|].
      cbn [b64_groups]. rewrite Hg. cbn [mbind option_bind]. do 2 f_equal; [|f_equal; [|f_equal]].
      + rewrite N.div_add_l, (N.div_small (b / 16)) by lia. rewrite N.add_0_r, N.mul_comm. symmetry. by apply N.div_mod.
      + rewrite (N.add_comm (a mod 4 * 16)), N.mod_add, (N.mod_small (b / 16)) by lia. rewrite N.div_add_l, (N.div_small (c / 64)) by lia. rewrite N.add_0_r, N.mul_comm. symmetry. by apply N.div_mod.
      + rewrite (N.add_comm (b mod 16 * 4)), N.mod_add, (N.mod_small (c / 64)) by lia. rewrite N.mul_comm. symmetry. by apply N.div_mod. }
  rewrite filter_id.
  - rewrite (mapM_fmap_roundtrip b64_value b64_char (λ v, (v < 64)%N)); [done|apply b64_char_value|done].
  - apply Forall_fmap. eapply Forall_impl; [exact Hv|]. intros v ?. by apply b64_char_break.
Qed.

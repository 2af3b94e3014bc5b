(** Properties of the encryption scheme: C34, C35, C36, C38, C39, C41, C42. *)
From stdpp Require Import list gmap.
From Coq Require Import ZArith NArith Lia.
From Verif Require Import Fq CryptoModel CryptoSpec CryptoProofs DkgModel DkgSpec DkgProofs PropsDkg EpochModel PropsEpoch
  EncModel EncProofs GoHeap EncMemModel.

(** a Go value of type Block *)
Definition is_block (b : list N) : Prop := length b = 32%nat.

(** * C36: padding *)
Theorem C36_roundtrip m : unpad_message (pad_message m) = Some m.
Proof. exact (unpad_pad m). Qed.
(** the result consists of blocks, their number is the next multiple of the block size *)
Theorem C36_blocks m : Forall is_block (pad_message m) ∧ (length (pad_message m) * 32 = length m + (32 - length m mod 32))%nat.
Proof.
  destruct (pad_message_spec m) as (_ & L & F). split; [exact F|]. rewrite L.
  pose proof (Nat.div_mod (length m) 32 ltac:(done)). pose proof (Nat.mod_upper_bound (length m) 32 ltac:(done)).
  unfold block_size. lia.
Qed.
(** PKCS #7: n bytes of value n are appended *)
Theorem C36_pkcs7 m : ∃ n, (1 ≤ n ≤ 32)%nat ∧ mjoin (pad_message m) = m ++ replicate n (N.of_nat n).
Proof. exists (padding_length m). split; [apply padding_length_bounds|]. apply pad_message_spec. Qed.
Theorem C36_injective m m' : pad_message m = pad_message m' → m = m'.
Proof. intros E. pose proof (unpad_pad m) as H1. rewrite E, unpad_pad in H1. congruence. Qed.
(** unpadding fails exactly if the last byte is not between 1 and 32, and otherwise removes that many bytes *)
Theorem C36_unpad bs x l : Forall is_block bs → mjoin bs = l ++ [x] →
  unpad_message bs = if (bool_decide (1 ≤ x ≤ 32)%N) then Some (take (length l + 1 - N.to_nat x) (l ++ [x])) else None.
Proof.
  intros F E. rewrite unpad_spec; [|exact F|]. 2:{ intros ->. by destruct l. }
  cbv zeta. rewrite E, app_length. cbn [length]. rewrite app_nth2 by lia.
  replace (length l + 1 - 1 - length l)%nat with 0%nat by lia. cbn [nth]. unfold block_size.
  case_bool_decide as Hx.
  - destruct (Nat.eqb_spec (N.to_nat x) 0); [lia|]. destruct (Nat.ltb_spec 32 (N.to_nat x)); [lia|]. done.
  - destruct (Nat.eqb_spec (N.to_nat x) 0); [done|]. destruct (Nat.ltb_spec 32 (N.to_nat x)); [done|]. lia.
Qed.
Example C36_witness : pad_message [7;8]%N = [7 :: 8 :: replicate 30 30]%N ∧ unpad_message [replicate 32 33]%N = None ∧
  unpad_message [replicate 32 32]%N = Some [] ∧ length (pad_message (replicate 32 5%N)) = 2%nat.
Proof. vm_compute. done. Qed.

Section Enc.
Context {P : pairing} (H : hashes P).

(** * C34: decryption inverts encryption *)
(** with the eon secret key [s], eon public key s·g2 and epoch secret key s·E *)
Theorem C34_decrypt m s E sigma : is_block sigma →
  decrypt H (encrypt H m (gsmul s ggen) E sigma) (gsmul s E) = Some m.
Proof. intros Hs. apply decrypt_encrypt; [exact Hs|]. by rewrite pair_smul_l, pair_smul_r. Qed.
(** the whole protocol: a message encrypted for the eon public key of a distributed key generation can be
    decrypted with the epoch secret key any keyper of that key generation computes *)
Theorem C34_end_to_end eon n t k cs (d : dkg P) r ms (s : epochkg P) (epoch_bytes : N → list N) epoch key m sigma :
  (0 < t < 2 ^ 63)%N → (n < 2 ^ 63)%N → (k < n)%N → go_sized cs →
  run (new_dkg P eon n t k) cs = Some d → compute_result d = Some r →
  handle_shares (λ e, compute_epoch_id H (epoch_bytes e)) (new_epochkg r) ms = Some s →
  ek_keys s !! epoch = Some key →
  is_block sigma →
  ∃ K, key = Some K ∧
    decrypt H (encrypt H m (r_pk r) (compute_epoch_id H (epoch_bytes epoch)) sigma) K = Some m.
Proof.
  intros Ht Hn Hk Hg Hrun Hres Hms Hkey Hs.
  apply (C26_epoch_key _ eon n t k cs d r ms s epoch key Ht Hn Hk Hg Hrun Hres Hms) in Hkey as (_ & K & -> & HK).
  exists K. split; [done|]. by apply decrypt_encrypt.
Qed.
(** every block of a ciphertext is a block and their number reveals only the number of blocks of the message *)
Theorem C34_shape m pk E sigma : is_block sigma → let ct := encrypt H m pk E sigma in
  is_block (c2 ct) ∧ Forall is_block (c3 ct) ∧ length (c3 ct) = S (length m / 32).
Proof.
  intros Hs ct. unfold ct, encrypt. cbn [c2 c3]. split; [|split].
  - unfold compute_c2. apply xor_length; [exact Hs|apply hash2_length].
  - apply c3_blocks, pad_message_spec.
  - rewrite c3_length. apply pad_message_spec.
Qed.

(** * C42: verification of epoch secret keys *)
(** the right key is always accepted ... *)
Theorem C42_accepts K pk epoch_bytes sigma m : is_block sigma →
  pair ggen K = pair pk (compute_epoch_id H epoch_bytes) → verify_epoch_secret_key H K pk epoch_bytes sigma m = true.
Proof. intros Hs HK. unfold verify_epoch_secret_key. rewrite decrypt_encrypt by done. by rewrite bool_decide_true. Qed.
(** ... and if any key is accepted, then it is the right one, or the randomness r is 0, or two different
    elements of GT (respectively two different values of sigma) were hashed to the same value *)
Theorem C42_rejects K pk epoch_bytes sigma m : is_block sigma →
  verify_epoch_secret_key H K pk epoch_bytes sigma m = true →
  let E := compute_epoch_id H epoch_bytes in
  let r := hash3 H (sigma ++ m) in
  let sigma' := sigma_of H (encrypt H m pk E sigma) K in
  pair ggen K = pair pk E ∨
  r = 0%Z ∨
  (gsmul r (pair ggen K) ≠ gsmul r (pair pk E) ∧ hash2 H (gsmul r (pair ggen K)) = hash2 H (gsmul r (pair pk E))) ∨
  (sigma' ≠ sigma ∧ hash3 H (sigma' ++ m) = hash3 H (sigma ++ m)).
Proof.
  intros Hs Hv E r sigma'. unfold verify_epoch_secret_key in Hv. fold E in Hv.
  unfold decrypt in Hv. fold sigma' in Hv.
  destruct (unpad_message _) as [msg|] eqn:Eu; [|done].
  destruct (bool_decide _) eqn:Eb in Hv; [|done].
  apply bool_decide_eq_true_1 in Hv as ->. apply bool_decide_eq_true_1 in Eb.
  cbn [encrypt c1] in Eb. unfold compute_c1, generate_p2 in Eb. apply gsmul_gen_inj in Eb.
  assert (Er : hash3 H (sigma' ++ m) = hash3 H (sigma ++ m)).
  { apply congr_residue; [apply hash3_residue..|]. symmetry. exact Eb. }
  destruct (decide (sigma' = sigma)) as [Es|Es]; [|by right; right; right].
  destruct (decide (r = 0%Z)) as [|Hr]; [by right; left|].
  assert (E2 : hash2 H (gsmul r (pair ggen K)) = hash2 H (gsmul r (pair pk E))).
  { unfold sigma', sigma_of in Es. cbn [encrypt c1 c2] in Es. unfold compute_c2, compute_c1, generate_p2 in Es.
    rewrite fp12_exp_spec in Es by apply hash3_residue. rewrite pair_smul_l in Es.
    change (compute_r H sigma m) with r in Es.
    symmetry. apply (xor_inj _ _ sigma); [rewrite hash2_length; done..|].
    rewrite (xor_comm _ sigma). rewrite <-Es at 2.
    rewrite (xor_comm (hash2 H (gsmul r (pair ggen K)))). rewrite xor_cancel; [done|].
    unfold xor_blocks. rewrite zip_with_length, !hash2_length. rewrite Hs. done. }
  destruct (decide (gsmul r (pair ggen K) = gsmul r (pair pk E))) as [Eg|]; [|by right; right; left].
  left. assert (Hcop : (toF r ≠ f0)).
  { intros [q Hq]%toF_0. pose proof (hash3_residue H (sigma ++ m)) as Hres. fold r in Hres. unfold residue in Hres.
    assert (q = 0)%Z by nia. subst q. lia. }
  assert (Hinv : congr (invert r * r) 1). { apply congr_toF. rewrite toF_mul, invert_toF. by apply finv_l. }
  assert (Hg : ∀ x : GT P, x = gsmul (invert r) (gsmul r x)).
  { intros x. rewrite <-gsmul_mul, (gsmul_congr _ _ _ _ Hinv). symmetry. apply gsmul_1. }
  rewrite (Hg (pair ggen K)), (Hg (pair pk E)). by rewrite Eg.
Qed.

(** * C35: malleability *)
Definition key_byte_stream (sigma : list N) (n : nat) : list N :=
  mjoin ((λ i, compute_block_key H sigma (N.of_nat i)) <$> seq 0 n).
Lemma join_c3_aux sigma bs k : Forall (λ b, length b = block_size) bs →
  mjoin (imap (λ i b, xor_blocks (compute_block_key H sigma (N.of_nat (k + i))) b) bs) =
  zip_with N.lxor (mjoin ((λ i, compute_block_key H sigma (N.of_nat i)) <$> seq k (length bs))) (mjoin bs).
Proof.
  intros F. revert k. induction F as [|b bs Hb _ IH]; intros k; [done|].
  cbn [length seq fmap list_fmap]. rewrite imap_cons, !join_cons.
  rewrite (zip_with_app N.lxor) by (by rewrite block_key_length, Hb). rewrite Nat.add_0_r. f_equal.
  rewrite <-IH. f_equal. apply imap_ext. intros i x _. cbn [compose]. do 2 f_equal. lia.
Qed.
Lemma join_c3 sigma bs : Forall (λ b, length b = block_size) bs →
  mjoin (compute_c3 H bs sigma) = zip_with N.lxor (key_byte_stream sigma (length bs)) (mjoin bs).
Proof. intros F. exact (join_c3_aux sigma bs 0 F). Qed.

(** A ciphertext that decrypts to [m] has the C1, the C2 and the number of blocks Encrypt would have produced
    with the same sigma and agrees with it in every byte of the message and in the last byte.  Missing for C35:
    the other padding bytes, and the case of no blocks at all. *)
Theorem C35_partial ct K m pk E : is_block (c2 ct) → Forall is_block (c3 ct) → pair ggen K = pair pk E →
  decrypt H ct K = Some m →
  let ct0 := encrypt H m pk E (sigma_of H ct K) in
  c1 ct = c1 ct0 ∧ c2 ct = c2 ct0 ∧
  ((c3 ct = [] ∧ m = []) ∨
   (length (c3 ct) = length (c3 ct0) ∧
    ∀ i, (i < length m ∨ S i = 32 * length (c3 ct))%nat → mjoin (c3 ct) !! i = mjoin (c3 ct0) !! i)).
Proof.
  intros H2 H3 HK Hd ct0. unfold decrypt in Hd. set (sigma := sigma_of H ct K) in *.
  destruct (unpad_message _) as [msg|] eqn:Eu; [|done].
  destruct (bool_decide _) eqn:Eb in Hd; [|done]. injection Hd as <-. apply bool_decide_eq_true_1 in Eb.
  split; [exact Eb|]. split.
  { unfold ct0. cbn [encrypt c2]. unfold compute_c2. rewrite fp12_exp_spec by apply hash3_residue.
    rewrite <-HK, <-pair_smul_l. change (gsmul (compute_r H sigma msg) ggen) with (compute_c1 (P := P) (compute_r H sigma msg)).
    rewrite <-Eb. unfold sigma, sigma_of. symmetry. apply xor_cancel. rewrite hash2_length. exact H2. }
  destruct (decide (c3 ct = [])) as [E0|Hne].
  { left. split; [done|]. rewrite E0 in Eu. cbn in Eu. congruence. }
  right. set (bs := decrypt_blocks H (c3 ct) sigma) in *.
  assert (Fb : Forall (λ b, length b = block_size) bs) by (apply decrypt_blocks_blocks; exact H3).
  assert (Lb : length bs = length (c3 ct)) by apply decrypt_blocks_length.
  assert (Hbne : bs ≠ []). { intros E1. apply Hne. rewrite E1 in Lb. by destruct (c3 ct). }
  rewrite unpad_spec in Eu by done. cbv zeta in Eu.
  pose proof (join_length bs Fb) as Lj.
  set (p := N.to_nat (nth (length (mjoin bs) - 1) (mjoin bs) 0%N)) in *.
  destruct (Nat.eqb_spec p 0) as [|Hp0]; [done|]. destruct (Nat.ltb_spec block_size p) as [|Hp1]; [done|].
  injection Eu as <-. set (msg := take (length (mjoin bs) - p) (mjoin bs)) in *.
  assert (Hlb : (1 ≤ length bs)%nat) by (destruct bs; [done|cbn; lia]).
  assert (Lm : (length msg = length bs * block_size - p)%nat) by (unfold msg; rewrite take_length, Lj; lia).
  destruct (pad_message_spec msg) as (Jp & Lp & Fp).
  assert (Hdiv : ((length bs * block_size - p) / block_size = length bs - 1)%nat).
  { symmetry. apply (Nat.div_unique _ _ _ (block_size - p)); unfold block_size in *; nia. }
  assert (Lpb : length (pad_message msg) = length bs).
  { rewrite Lp, Lm, Hdiv. lia. }
  assert (Epl : padding_length msg = p).
  { unfold padding_length. pose proof (Nat.div_mod (length msg) block_size ltac:(done)).
    rewrite Lm, Hdiv in *. unfold block_size in *. nia. }
  assert (L0 : length (c3 ct0) = length (c3 ct)). { unfold ct0. cbn [encrypt c3]. rewrite c3_length. congruence. }
  split; [by rewrite L0|]. intros i Hi.
  assert (Ec3 : c3 ct = compute_c3 H bs sigma) by (symmetry; apply c3_decrypt; exact H3).
  rewrite Ec3. unfold ct0. cbn [encrypt c3]. rewrite !join_c3 by done. rewrite Lpb, !lookup_zip_with.
  destruct (key_byte_stream sigma (length bs) !! i); [|done]. cbn [mbind option_bind].
  f_equal. rewrite Jp. destruct Hi as [Hi|Hi].
  - rewrite lookup_app_l by done. unfold msg. rewrite lookup_take; [done|]. rewrite Lj, <-Lm. done.
  - assert (Hi' : i = (length bs * block_size - 1)%nat) by (unfold block_size; lia).
    rewrite lookup_app_r by (unfold block_size in *; lia). unfold padding. rewrite lookup_replicate_2.
    2:{ rewrite Epl. unfold block_size in *. lia. }
    rewrite Epl. subst p. rewrite N2Nat.id, Lj. rewrite Hi'. symmetry. 
    destruct (lookup_lt_is_Some_2 (mjoin bs) (length bs * block_size - 1)) as [x Hx]; [unfold block_size in *; lia|].
    rewrite (nth_lookup_Some _ _ 0%N x Hx). symmetry. exact Hx.
Qed.
(** The full property is false: every ciphertext whose message does not end one byte before a block boundary
    can be changed without changing the result of decryption. *)
Theorem C35_refuted m s E sigma : is_block sigma → (length m mod 32 ≠ 31)%nat →
  let K := gsmul s E in
  let ct := encrypt H m (gsmul s ggen) E sigma in
  ∃ ct', ct' ≠ ct ∧ Forall is_block (c3 ct') ∧ decrypt H ct' K = Some m.
Proof.
  intros Hs Hm K ct. set (k := padding_length m).
  assert (Hk : (2 ≤ k ≤ 32)%nat).
  { unfold k, padding_length, block_size. pose proof (Nat.mod_upper_bound (length m) 32 ltac:(done)). lia. }
  set (l := m ++ 0%N :: replicate (k - 1) (N.of_nat k)).
  assert (Ll : length l = (S (length m / block_size) * block_size)%nat).
  { rewrite <-(padded_length m). unfold l, padding. rewrite !app_length. cbn. rewrite !replicate_length. fold k. lia. }
  destruct (split_blocks_spec _ l Ll) as (J & L & F).
  set (bs := split_blocks l) in *.
  exists (mkEncrypted (c1 ct) (c2 ct) (compute_c3 H bs sigma)). split; [|split].
  - intros E1. apply (f_equal c3) in E1. cbn [c3] in E1. unfold ct in E1. cbn [encrypt c3] in E1.
    apply (f_equal (λ x, decrypt_blocks H x sigma)) in E1. rewrite !decrypt_c3 in E1; [|apply pad_message_spec|exact F].
    apply (f_equal mjoin) in E1. rewrite J in E1. destruct (pad_message_spec m) as (Jp & _). rewrite Jp in E1.
    unfold l in E1. apply app_inv_head in E1. unfold padding in E1. fold k in E1.
    clearbody k. destruct k as [|k']; [lia|]. rewrite replicate_S in E1. injection E1 as E1 _. lia.
  - cbn [c3]. by apply c3_blocks.
  - unfold decrypt. cbn [c1 c3].
    assert (Es : sigma_of H (mkEncrypted (c1 ct) (c2 ct) (compute_c3 H bs sigma)) K = sigma).
    { change (sigma_of H ct K = sigma). apply sigma_of_encrypt; [exact Hs|]. unfold K. by rewrite pair_smul_l, pair_smul_r. }
    rewrite Es. rewrite decrypt_c3 by exact F. rewrite unpad_spec; [|exact F|].
    2:{ intros E1. rewrite E1 in L. cbn in L. lia. }
    cbv zeta. rewrite J.
    assert (Hlen : length l = (length m + k)%nat). { unfold l. rewrite app_length. cbn. rewrite replicate_length. lia. }
    assert (Hlast : nth (length l - 1) l 0%N = N.of_nat k).
    { apply nth_lookup_Some. rewrite Hlen. unfold l. rewrite lookup_app_r by lia.
      rewrite lookup_cons_ne_0 by lia. apply lookup_replicate_2. lia. }
    rewrite Hlast, Nat2N.id, Hlen. destruct (Nat.eqb_spec k 0); [lia|]. unfold block_size. destruct (Nat.ltb_spec 32 k); [lia|].
    replace (length m + k - k)%nat with (length m) by lia. unfold l. rewrite take_app.
    rewrite bool_decide_true; [done|]. done.
Qed.

(** * C41: the keystream *)
(** the key of block [i] is the hash of the tag 4, sigma and the shortest big endian form of [i] *)
Theorem C41_block_key sigma i : compute_block_key H sigma i = keccak H (4%N :: sigma ++ uint64_to_bytes i).
Proof. unfold compute_block_key, hash4, hash_with_prefix. rewrite take_ge; [done|]. by rewrite keccak_length. Qed.
(** the blocks of the ciphertext: the blocks of the padded message, each masked with its own key *)
Theorem C41_blocks message pk epoch sigma i : c3 (encrypt H message pk epoch sigma) !! i =
  (λ b, xor_blocks (keccak H (4%N :: sigma ++ uint64_to_bytes (N.of_nat i))) b) <$> (pad_message message !! i).
Proof.
  unfold encrypt, compute_c3. cbn [c3]. rewrite list_lookup_imap. destruct (pad_message message !! i); [|done]. cbn [fmap option_fmap option_map].
  by rewrite C41_block_key.
Qed.
End Enc.

Definition be_valueN (l : list N) : N := foldl (λ acc b, acc * 256 + b)%N 0%N l.
Lemma be_valueN_drop l : be_valueN (drop_zeros l) = be_valueN l.
Proof.
  unfold be_valueN. induction l as [|x l IH]; [done|]. destruct x; [|done]. cbn [drop_zeros foldl]. rewrite IH. done.
Qed.
Lemma be8_value i : (i < 2 ^ 64)%N → be_valueN (be8 i) = i.
Proof.
  intros Hi. unfold be_valueN, be8. cbn [seq fmap list_fmap foldl].
  repeat match goal with |- context [N.of_nat (7 - ?k)] => let v := eval vm_compute in (N.of_nat (7 - k)) in change (N.of_nat (7 - k)) with v end.
  assert (D : ∀ k, (i / 256 ^ (N.succ k) = i / 256 ^ k / 256)%N).
  { intros k. rewrite N.pow_succ_r', N.mul_comm, N.div_div; [done| |done]. by apply N.pow_nonzero. }
  pose proof (D 0%N) as D0. pose proof (D 1%N) as D1. pose proof (D 2%N) as D2. pose proof (D 3%N) as D3.
  pose proof (D 4%N) as D4. pose proof (D 5%N) as D5. pose proof (D 6%N) as D6. pose proof (D 7%N) as D7. clear D.
  cbn [N.succ Pos.succ] in *.
  assert (Z8 : (i / 256 ^ 8 = 0)%N) by (apply N.div_small; exact Hi). rewrite Z8 in D7.
  replace (i / 256 ^ 0)%N with i in * by (symmetry; apply N.div_1_r).
  set (x1 := (i / 256 ^ 1)%N) in *. set (x2 := (i / 256 ^ 2)%N) in *. set (x3 := (i / 256 ^ 3)%N) in *.
  set (x4 := (i / 256 ^ 4)%N) in *. set (x5 := (i / 256 ^ 5)%N) in *. set (x6 := (i / 256 ^ 6)%N) in *. set (x7 := (i / 256 ^ 7)%N) in *.
  clearbody x1 x2 x3 x4 x5 x6 x7. clear Z8 Hi.
  pose proof (N.div_mod i 256 ltac:(done)). pose proof (N.div_mod x1 256 ltac:(done)). pose proof (N.div_mod x2 256 ltac:(done)).
  pose proof (N.div_mod x3 256 ltac:(done)). pose proof (N.div_mod x4 256 ltac:(done)). pose proof (N.div_mod x5 256 ltac:(done)).
  pose proof (N.div_mod x6 256 ltac:(done)). pose proof (N.div_mod x7 256 ltac:(done)).
  lia.
Qed.
Lemma uint64_to_bytes_value i : (i < 2 ^ 64)%N → be_valueN (uint64_to_bytes i) = i.
Proof. intros Hi. unfold uint64_to_bytes. destruct (N.eqb_spec i 0) as [->|]; [done|]. rewrite be_valueN_drop. by apply be8_value. Qed.
(** no two blocks, of the same or of different messages, share their hash input, unless sigma is the same *)
Theorem C41_inputs_distinct sigma sigma' i j : is_block sigma → is_block sigma' → (i < 2 ^ 64)%N → (j < 2 ^ 64)%N →
  4%N :: sigma ++ uint64_to_bytes i = 4%N :: sigma' ++ uint64_to_bytes j → sigma = sigma' ∧ i = j.
Proof.
  intros Hs Hs' Hi Hj [= E]. apply app_inj_1 in E as [-> E]; [|unfold is_block in *; congruence].
  split; [done|]. rewrite <-(uint64_to_bytes_value i Hi), <-(uint64_to_bytes_value j Hj). by rewrite E.
Qed.
(** and the other uses of the hash have other tags *)
Theorem C41_tags {P} (H : hashes P) (x : GT P) l : hash2 H x = keccak H (2%N :: gt_bytes H x) ∧
  hash3 H l = (be_value (keccak H (3%N :: l)) mod order)%Z.
Proof. split; [|done]. unfold hash2, hash_with_prefix. rewrite take_ge; [done|]. by rewrite keccak_length. Qed.

(** * C39: memory *)
Section Mem.
Context {P : pairing} (H : hashes P).
Lemma pad_mem_spec extra h m h' bs : slice_ok h m → pad_message_mem extra h m = (h', bs) →
  bs = pad_message (content h m) ∧ content h' m = content h m ∧
  (∀ i, i ∈ dom h → i ≠ s_arr m ∨ (s_cap m < s_len m + length (padding (content h m)))%nat → h' !! i = h !! i) ∧
  (∀ k, (k < s_off m + s_len m ∨ s_off m + s_len m + length (padding (content h m)) ≤ k)%nat →
     array h' (s_arr m) !! k = array h (s_arr m) !! k).
Proof.
  intros Hok. unfold pad_message_mem. destruct (go_append _ _ _ _) as [h1 m1] eqn:E. intros [= <- <-].
  pose proof (go_append_spec _ _ _ _ _ _ Hok E) as (_ & Hc & _ & Ho & Hl & Hk & _ & _).
  split; [by rewrite Hc|]. split; [|done].
  destruct Hok as (Hs & H1 & H2). apply list_eq. intros k. destruct (decide (k < s_len m)%nat) as [Hlt|Hge].
  - rewrite !content_lookup by done. apply Hk. lia.
  - rewrite !lookup_ge_None_2; [done|unfold content; rewrite take_length; lia..].
Qed.
(** What is true: the ciphertext is that of the message, the message itself stays the same, and the only cells
    of the caller's memory that may change are the at most 32 cells right behind the message, if they belong to
    its capacity.  Missing for C39: those cells. *)
Theorem C39_partial extra h m pk E sigma h' ct : slice_ok h m → encrypt_mem H extra h m pk E sigma = (h', ct) →
  ct = encrypt H (content h m) pk E sigma ∧ content h' m = content h m ∧
  (∀ i, i ∈ dom h → i ≠ s_arr m → h' !! i = h !! i) ∧
  (∀ k, (k < s_off m + s_len m ∨ s_off m + s_len m + 32 ≤ k)%nat → array h' (s_arr m) !! k = array h (s_arr m) !! k).
Proof.
  intros Hok. unfold encrypt_mem. destruct (pad_message_mem _ _ _) as [h1 bs] eqn:Ep. intros [= <- <-].
  pose proof (pad_mem_spec _ _ _ _ _ Hok Ep) as (-> & Hc & Ho & Hk). rewrite Hc. split; [done|]. split; [done|].
  split; [intros i Hi Hne; apply Ho; auto|]. intros k Hkk. apply Hk.
  pose proof (padding_length_bounds (content h m)) as Hb. unfold padding. rewrite replicate_length. unfold block_size in Hb. lia.
Qed.
(** nothing at all changes if the slice has no spare capacity *)
Theorem C39_no_spare_capacity extra h m pk E sigma h' ct : slice_ok h m → s_cap m = s_len m →
  encrypt_mem H extra h m pk E sigma = (h', ct) → ∀ i, i ∈ dom h → h' !! i = h !! i.
Proof.
  intros Hok Hcap. unfold encrypt_mem. destruct (pad_message_mem _ _ _) as [h1 bs] eqn:Ep. intros [= <- <-] i Hi.
  pose proof (pad_mem_spec _ _ _ _ _ Hok Ep) as (_ & _ & Ho & _). apply Ho; [done|]. right.
  pose proof (padding_length_bounds (content h m)) as Hb. unfold padding. rewrite replicate_length. lia.
Qed.
(** The full property is false: with spare capacity, a neighbouring slice of the same array is overwritten. *)
Theorem C39_refuted (pk : G2 P) (E : G1 P) sigma : ∃ (h : heap N) (m other : slice) extra,
  slice_ok h m ∧ slice_ok h other ∧ s_arr m = s_arr other ∧ s_off other = s_off m + s_len m ∧
  content (encrypt_mem H extra h m pk E sigma).1 other ≠ content h other.
Proof.
  exists {[ 0 := replicate 40 9%N ]}, (mkSlice 0 0 3 40), (mkSlice 0 3 37 37), [].
  split; [|split; [|split; [|split]]]; [..|done|done|].
  1,2: (split; [by eexists|]; vm_compute; lia).
  intros Hc. apply (f_equal (λ l, l !! 0%nat)) in Hc. revert Hc.
  unfold encrypt_mem. destruct (pad_message_mem _ _ _) as [h1 bs] eqn:Ep. cbn [fst].
  vm_compute in Ep. injection Ep as <- _. vm_compute. done.
Qed.
End Mem.

(** * C38: shuffling *)
Section Shuffle.
Context (R : rng).
Lemma swap_fmap {A B} (f : A → B) i j l : swap i j (f <$> l) = f <$> swap i j l.
Proof.
  unfold swap. rewrite !list_lookup_fmap. destruct (l !! i), (l !! j); cbn; try done. by rewrite !list_fmap_insert.
Qed.
Definition transp (i j k : nat) : nat := if decide (k = i) then j else if decide (k = j) then i else k.
Lemma swap_length {A} i j (l : list A) : length (swap i j l) = length l.
Proof. unfold swap. destruct (l !! i), (l !! j); try done. by rewrite !insert_length. Qed.
Lemma swap_perm {A} i j (l : list A) : swap i j l ≡ₚ l.
Proof.
  unfold swap. destruct (l !! i) as [x|] eqn:Ei; [|done]. destruct (l !! j) as [y|] eqn:Ej; [|done].
  apply Permutation_inj. split; [by rewrite !insert_length|]. exists (transp i j). split.
  { intros a b. unfold transp. repeat case_decide; congruence. }
  intros k. pose proof (lookup_lt_Some _ _ _ Ei). pose proof (lookup_lt_Some _ _ _ Ej). unfold transp.
  destruct (decide (k = i)) as [->|Hi].
  { rewrite list_lookup_insert by (rewrite insert_length; done). done. }
  rewrite list_lookup_insert_ne by done. destruct (decide (k = j)) as [->|Hj].
  { rewrite list_lookup_insert by done. done. }
  by rewrite list_lookup_insert_ne.
Qed.
Lemma rand_shuffle_perm {A} i s (l : list A) : rand_shuffle R i s l ≡ₚ l.
Proof.
  revert s l. induction i as [|i IH]; intros s l; cbn [rand_shuffle]; [done|].
  destruct (rng_next R s (S (S i))) as [j s']. rewrite IH. apply swap_perm.
Qed.
Lemma rand_shuffle_fmap {A B} (f : A → B) i s l : rand_shuffle R i s (f <$> l) = f <$> rand_shuffle R i s l.
Proof.
  revert s l. induction i as [|i IH]; intros s l; cbn [rand_shuffle]; [done|].
  destruct (rng_next R s (S (S i))) as [j s']. by rewrite swap_fmap, IH.
Qed.
Theorem C38_permutation {A} seed (txs : list A) : shuffle R seed txs ≡ₚ txs.
Proof. apply rand_shuffle_perm. Qed.
(** the order depends on the seed and the number of transactions only: the same positions for all lists *)
Theorem C38_positions seed n : ∃ pos : list nat, pos ≡ₚ seq 0 n ∧
  ∀ A (txs : list A), length txs = n → Some <$> shuffle R seed txs = (λ i, txs !! i) <$> pos.
Proof.
  exists (shuffle R seed (seq 0 n)). split; [apply C38_permutation|]. intros A txs Hl.
  unfold shuffle at 1 2. rewrite seq_length, Hl, <-!rand_shuffle_fmap. f_equal.
  apply list_eq. intros i. rewrite !list_lookup_fmap. destruct (decide (i < n)%nat) as [Hi|Hi].
  - rewrite lookup_seq_lt by done. cbn. destruct (lookup_lt_is_Some_2 txs i) as [x ->]; [lia|]. done.
  - rewrite lookup_seq_ge by lia. rewrite lookup_ge_None_2 by lia. done.
Qed.
(** every one of the positions below n is drawn from, none outside the list *)
Theorem C38_swaps_in_range s i : ((rng_next R s (S i)).1 ≤ i)%nat.
Proof. pose proof (rng_lt R s (S i)). lia. Qed.
(** the caller's memory stays the same, the result is a new array *)
Theorem C38_memory {A} extra (h : heap A) txs seed h' s : slice_ok h txs → shuffle_mem R extra h txs seed = (h', s) →
  content h' s = shuffle R seed (content h txs) ∧ s_arr s ∉ dom h ∧ ∀ i, i ∈ dom h → h' !! i = h !! i.
Proof.
  intros Hok. unfold shuffle_mem. set (i0 := fresh (dom h)). assert (Hi0 : i0 ∉ dom h) by apply is_fresh.
  set (h0 := <[i0:=[]]> h). set (s0 := mkSlice i0 0 0 0).
  assert (Hok0 : slice_ok h0 s0). { split; [unfold h0; cbn; rewrite lookup_insert; by eexists|]. cbn. lia. }
  destruct (go_append _ _ _ _) as [h1 s1] eqn:E. intros [= <- <-].
  assert (Hoff : s_off s1 = 0%nat). { unfold go_append in E. destruct (Nat.leb _ _); injection E as _ <-; done. }
  pose proof (go_append_spec _ _ _ _ _ _ Hok0 E) as (Hok1 & Hc & Hd & Ho & _ & _ & Hfr & Hlen).
  cbn [s0 s_len s_cap s_arr] in *.
  assert (Hnew : s_arr s1 ∉ dom h).
  { destruct (decide (content h txs = [])) as [E0|Hne].
    - unfold go_append in E. rewrite E0 in E. cbn in E. injection E as _ <-. done.
    - assert (s_arr s1 ∉ dom h0) as Hn. { apply Hfr. destruct (content h txs); [done|cbn; lia]. }
      unfold h0 in Hn. rewrite dom_insert_L in Hn. set_solver. }
  destruct Hok1 as (_ & Hl1 & Hl2). rewrite Hoff in Hl2.
  assert (Hcon : content h0 s0 = []) by done. rewrite Hcon in Hc. cbn [app] in Hc.
  unfold content in Hc at 1. rewrite Hoff, drop_0 in Hc.
  split; [|split; [done|]].
  - unfold content at 1. unfold array at 1. rewrite lookup_insert, Hoff, drop_0. cbn [default from_option].
    unfold id. rewrite Hc. apply take_app_alt. rewrite (Permutation_length (C38_permutation _ _)). rewrite <-Hc, take_length. lia.
  - intros i Hi. rewrite lookup_insert_ne by (intros E1; apply Hnew; rewrite E1; done). rewrite Ho.
    + unfold h0. rewrite lookup_insert_ne; [done|]. intros ->. done.
    + unfold h0. rewrite dom_insert_L. set_solver.
    + left. intros ->. done.
Qed.
End Shuffle.

(** * Witnesses *)
(** a generator that takes the seed and decrements it *)
Lemma wrng_lt s n : (0 < n)%nat → ((λ (s : Z) (n : nat), (Z.to_nat (s mod Z.of_nat n), s - 1)%Z) s n).1 < n.
Proof. intros. cbn. pose proof (Z.mod_pos_bound s (Z.of_nat n)). lia. Qed.
Definition wrng : rng := mkRng Z id (λ s n, (Z.to_nat (s mod Z.of_nat n), s - 1)%Z) wrng_lt.
Example C38_witness : shuffle wrng 6 [10;20;30;40]%N = [20;10;40;30]%N. Proof. vm_compute. reflexivity. Qed.

Definition wkeccak (l : list N) : list N :=
  (λ i, (be_valueN l * (N.of_nat i + 1) + 17 * N.of_nat i) mod 251)%N <$> seq 0 32.
Lemma wkeccak_length l : length (wkeccak l) = block_size. Proof. done. Qed.
Definition wgt_bytes (x : GT fq_pairing) : list N := [Z.to_N (ofF x)].
Lemma wgt_inj x y : wgt_bytes x = wgt_bytes y → x = y.
Proof.
  intros E. injection E as E. apply Fq_eq. pose proof (ofF_range x). pose proof (ofF_range y). lia.
Qed.
Definition whashes : hashes fq_pairing := mkHashes fq_pairing wkeccak wkeccak_length wgt_bytes wgt_inj (λ l, toF (be_value l)).
Definition wsigma : list N := replicate 32 5%N.
Definition wkey (k : Z) : G1 fq_pairing := toF (k * 77).
Definition wc1 : G2 fq_pairing := toF 3.
Definition wct : encrypted fq_pairing := encrypt whashes [1;2;3]%N (toF 12 : G2 fq_pairing) (toF 77 : G1 fq_pairing) wsigma.
Definition result_is (x y : option (list N)) : bool := bool_decide (x = y).
(** decrypting works with the right key, fails with another one or after changing C1, and does not notice a
    changed padding byte *)
Example C34_witness :
  result_is (decrypt whashes wct (wkey 12)) (Some [1;2;3]%N) &&
  result_is (decrypt whashes wct (wkey 13)) (None) &&
  result_is (decrypt whashes (mkEncrypted wc1 (c2 wct) (c3 wct)) (wkey 12)) (None) = true.
Proof. vm_compute. reflexivity. Qed.
Example C35_witness :
  result_is (decrypt whashes (mkEncrypted (c1 wct) (c2 wct) (alter (alter (λ b, N.lxor b 1) 3%nat) 0%nat (c3 wct))) (wkey 12)) (Some [1;2;3]%N) &&
  result_is (decrypt whashes (mkEncrypted (c1 wct) (c2 wct) (alter (alter (λ b, N.lxor b 1) 2%nat) 0%nat (c3 wct))) (wkey 12)) (None) = true.
Proof. vm_compute. reflexivity. Qed.
Example C42_witness :
  verify_epoch_secret_key whashes (gsmul 12 (compute_epoch_id whashes [9%N])) (toF 12 : G2 fq_pairing) [9%N] wsigma [1;2;3]%N &&
  negb (verify_epoch_secret_key whashes (gsmul 13 (compute_epoch_id whashes [9%N])) (toF 12 : G2 fq_pairing) [9%N] wsigma [1;2;3]%N) = true.
Proof. vm_compute. reflexivity. Qed.
Example C41_witness : uint64_to_bytes 0 = [0]%N ∧ uint64_to_bytes 258 = [1;2]%N ∧ uint64_to_bytes (2 ^ 64 - 1) = replicate 8 255%N.
Proof. vm_compute. done. Qed.
Example C39_witness : let h := {[ 0%nat := replicate 40 9%N ]} in let m := mkSlice 0 0 3 3 in
  slice_ok h m ∧ (encrypt_mem whashes [] h m (toF 12 : G2 fq_pairing) (toF 77 : G1 fq_pairing) wsigma).2 = encrypt whashes [9;9;9]%N (toF 12) (toF 77) wsigma.
Proof.
  intros h m. assert (Hok : slice_ok h m) by (split; [by eexists|]; vm_compute; lia). split; [done|].
  destruct (encrypt_mem _ _ _ _ _ _ _) as [h' ct] eqn:E. cbn [snd].
  exact (proj1 (C39_partial whashes [] h m (toF 12 : G2 fq_pairing) (toF 77 : G1 fq_pairing) wsigma h' ct Hok E)).
Qed.

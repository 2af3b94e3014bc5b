(** C37: serialisation. *)
From stdpp Require Import list gmap.
From Coq Require Import ZArith NArith Lia.
From Verif Require Import Fq CryptoSpec CryptoProofs EncModel EncProofs PropsEnc EncodingModel.

Notation is_bytes l := (Forall (λ b, (b < 256)%N) l).

(** * Big endian numbers *)
Lemma be_value_app l b : be_value (l ++ [b]) = (be_value l * 256 + Z.of_N b)%Z.
Proof. unfold be_value. by rewrite foldl_app. Qed.
Lemma be_value_nonneg l : (0 ≤ be_value l)%Z.
Proof. induction l as [|b l IH] using rev_ind; [done|]. rewrite be_value_app. lia. Qed.
Lemma le_bytes_fuel f f' n : (n < 2 ^ N.of_nat f)%N → (n < 2 ^ N.of_nat f')%N → le_bytes f n = le_bytes f' n.
Proof.
  revert f' n. induction f as [|f IH]; intros f' n Hf Hf'.
  - destruct f'; [done|]. cbn [le_bytes]. destruct (N.eqb_spec n 0); [done|]. cbn in Hf. lia.
  - destruct f' as [|f']; cbn [le_bytes]; (destruct (N.eqb_spec n 0) as [|Hn]; [done|]). { cbn in Hf'. lia. }
    f_equal. rewrite Nat2N.inj_succ, N.pow_succ_r' in Hf, Hf'.
    apply IH; apply N.div_lt_upper_bound; lia.
Qed.
Definition le_full (n : N) : list N := le_bytes (N.size_nat n) n.
Lemma size_nat_gt n : (n < 2 ^ N.of_nat (N.size_nat n))%N.
Proof.
  destruct n as [|p]; [done|]. pose proof (N.size_gt (N.pos p)) as Hs. 
  replace (N.of_nat (N.size_nat (N.pos p))) with (N.size (N.pos p)); [done|].
  cbn. induction p as [p IH|p IH|]; cbn; [rewrite Pos.of_nat_succ||idtac..|done].
  - specialize (IH (N.size_gt _)). lia.
  - specialize (IH (N.size_gt _)). lia.
Qed.
Lemma le_full_step n : n ≠ 0%N → le_full n = (n mod 256)%N :: le_full (n / 256).
Proof.
  intros Hn. unfold le_full. rewrite (le_bytes_fuel _ (S (N.size_nat n)) n).
  - cbn [le_bytes]. destruct (N.eqb_spec n 0); [done|]. f_equal. apply le_bytes_fuel; [|apply size_nat_gt].
    pose proof (size_nat_gt n). apply N.div_lt_upper_bound; lia.
  - apply size_nat_gt.
  - pose proof (size_nat_gt n). rewrite Nat2N.inj_succ, N.pow_succ_r'. lia.
Qed.
Lemma big_bytes_step x : (0 < x)%Z → big_bytes x = big_bytes (x / 256) ++ [Z.to_N (x mod 256)].
Proof.
  intros Hx. unfold big_bytes. pose proof (Z.div_pos x 256 ltac:(lia) ltac:(lia)). rewrite !Z.abs_eq by lia.
  fold (le_full (Z.to_N x)). rewrite le_full_step by lia. cbn [rev].
  rewrite Z2N.inj_div, Z2N.inj_mod by lia. done.
Qed.
Lemma drop_zeros_app l b : drop_zeros (l ++ [b]) = match drop_zeros l with [] => drop_zeros [b] | r => r ++ [b] end.
Proof. induction l as [|x l IH]; [done|]. destruct x; [exact IH|done]. Qed.
Lemma be_value_0 l : be_value l = 0%Z → drop_zeros l = [].
Proof.
  induction l as [|b l IH] using rev_ind; [done|]. rewrite be_value_app. pose proof (be_value_nonneg l). intros E.
  rewrite drop_zeros_app, IH by lia. destruct b; [done|lia].
Qed.
Lemma drop_zeros_0 l : drop_zeros l = [] → be_value l = 0%Z.
Proof.
  induction l as [|b l IH] using rev_ind; [done|]. rewrite be_value_app, drop_zeros_app.
  destruct (drop_zeros l) as [|y r] eqn:E; [|by destruct r]. intros Hb. rewrite IH by done. by destruct b.
Qed.
Lemma big_bytes_be l : is_bytes l → big_bytes (be_value l) = drop_zeros l.
Proof.
  induction l as [|b l IH] using rev_ind; [done|]. intros [Hl Hb]%Forall_app. rewrite Forall_singleton in Hb.
  rewrite drop_zeros_app, be_value_app. pose proof (be_value_nonneg l) as Hn.
  destruct (Z.eq_dec (be_value l * 256 + Z.of_N b) 0) as [E0|Hne].
  - rewrite E0. rewrite be_value_0 by lia. assert (b = 0%N) as -> by lia. done.
  - rewrite big_bytes_step by lia.
    assert (Hd : ((be_value l * 256 + Z.of_N b) / 256 = be_value l)%Z).
    { symmetry. apply (Z.div_unique _ _ _ (Z.of_N b)); lia. }
    assert (Hm : ((be_value l * 256 + Z.of_N b) mod 256 = Z.of_N b)%Z).
    { symmetry. apply (Z.mod_unique _ _ (be_value l)); lia. }
    rewrite Hd, Hm, N2Z.id, IH by done. destruct (drop_zeros l) eqn:E; [|done].
    apply drop_zeros_0 in E. destruct b; [lia|done].
Qed.
Lemma be_big_bytes x : (0 ≤ x)%Z → be_value (big_bytes x) = x.
Proof.
  revert x. apply (well_founded_ind (Z.lt_wf 0) (λ x, (0 ≤ x)%Z → be_value (big_bytes x) = x)). intros x IH Hx.
  destruct (Z.eq_dec x 0) as [->|Hne]; [done|]. rewrite big_bytes_step, be_value_app by lia.
  pose proof (Z.mod_pos_bound x 256 ltac:(lia)). pose proof (Z.div_mod x 256 ltac:(lia)).
  rewrite IH; [rewrite Z2N.id by lia; lia| |apply Z.div_pos; lia]. split; [apply Z.div_pos; lia|]. apply Z.div_lt; lia.
Qed.

(** ** Eon secret key shares *)
Theorem C37_share_roundtrip x : residue x → unmarshal_share (marshal_share x) = (x, true).
Proof.
  intros [H0 H1]. unfold unmarshal_share, marshal_share. rewrite be_big_bytes by done. f_equal.
  apply negb_true_iff, Z.leb_gt. done.
Qed.
(** accepted are exactly the numbers below the order; what is accepted is marshalled without leading zeros *)
Theorem C37_share_accepted bs x ok : is_bytes bs → unmarshal_share bs = (x, ok) →
  x = be_value bs ∧ (ok = true ↔ (x < order)%Z) ∧ marshal_share x = drop_zeros bs.
Proof.
  intros Hb [= <- <-]. split; [done|]. split; [|by apply big_bytes_be]. by rewrite negb_true_iff, Z.leb_gt.
Qed.
(** accepted bytes need not be those Marshal produces *)
Theorem C37_share_refuted : ∃ bs x, is_bytes bs ∧ unmarshal_share bs = (x, true) ∧ marshal_share x ≠ bs.
Proof.
  exists [0;7]%N, 7%Z. split; [repeat constructor|]. split; [|done]. unfold unmarshal_share. f_equal.
Qed.

(** * Points *)
Section Points.
Context {n : nat} (C : codec n).
Theorem C37_point_roundtrip (p0 p : raw C) : in_group p = true → unmarshal_point p0 (marshal_point p) = (p, true).
Proof. intros Hp. unfold unmarshal_point, marshal_point, uncompress. rewrite decode_compress by done. by rewrite Hp. Qed.
(** an accepted receiver is in the group; if the bytes are a compressed point, it is that point and marshals to
    the same bytes.  Missing: bytes that are not a compressed point should be rejected. *)
Theorem C37_point_partial (p0 p : raw C) bs : unmarshal_point p0 bs = (p, true) →
  in_group p = true ∧ (decode (c := C) bs ≠ None → marshal_point p = bs).
Proof.
  unfold unmarshal_point, uncompress, marshal_point. destruct (decode bs) as [q|] eqn:E; intros [= <- Hq].
  - split; [done|]. intros _. by apply decode_canonical.
  - split; done.
Qed.
(** false in general: bytes of the wrong length are accepted whenever the receiver holds a group element *)
Theorem C37_point_refuted (p0 : raw C) bs : in_group p0 = true → length bs ≠ n → unmarshal_point p0 bs = (p0, true) ∧ marshal_point p0 ≠ bs.
Proof.
  intros Hp Hl. unfold unmarshal_point, uncompress. destruct (receiver_untouched _ C p0 bs) as [-> ->]; [by left|].
  rewrite Hp. split; [done|]. intros <-. by rewrite compress_length in Hl.
Qed.
End Points.

(** * Encrypted messages *)
Section Msg.
Context (C : codec p2_bytes).
Definition good_msg (m : enc_msg C) : Prop :=
  (∃ p, m_c1 m = Some p ∧ in_group p = true) ∧ is_block (m_c2 m) ∧ Forall is_block (m_c3 m).
Theorem C37_message_roundtrip m0 (m : enc_msg C) : good_msg m →
  ∃ d, marshal_msg m = Some d ∧ unmarshal_msg m0 d = (m, true).
Proof.
  destruct m as [c1 c2 c3]. intros ((p & E1 & Hp) & H2 & H3). cbn in E1, H2, H3. subst c1.
  unfold marshal_msg. cbn [m_c1 m_c2 m_c3]. eexists. split; [done|].
  set (d := compress p ++ c2 ++ mjoin c3). pose proof (join_length c3 H3) as Lj.
  pose proof (compress_length _ C p) as Lc.
  assert (Ld : length d = (p2_bytes + (32 + length c3 * 32))%nat).
  { unfold d. rewrite !app_length, Lc, Lj. rewrite H2. done. }
  unfold unmarshal_msg. cbn [length]. rewrite N.eqb_refl. cbn [negb].
  destruct (Nat.ltb_spec (S (length d)) (1 + p2_bytes + block_size)) as [Hlt|_]; [unfold block_size in Hlt; lia|].
  assert (Hm : (S (length d) - 1 - p2_bytes - block_size) mod block_size = 0%nat).
  { replace (S (length d) - 1 - p2_bytes - block_size)%nat with (length c3 * block_size)%nat by (unfold block_size; lia).
    by apply Nat.mod_mul. }
  rewrite Hm. cbn [orb negb Nat.eqb].
  change (drop 1 (version_identifier :: d)) with d.
  change (drop (1 + p2_bytes) (version_identifier :: d)) with (drop p2_bytes d).
  change (drop (1 + p2_bytes + block_size) (version_identifier :: d)) with (drop (p2_bytes + block_size) d).
  assert (T1 : take p2_bytes d = compress p) by (apply take_app_alt; done).
  assert (D1 : drop p2_bytes d = c2 ++ mjoin c3) by (apply drop_app_alt; done).
  rewrite T1, <-drop_drop, D1. unfold uncompress. rewrite decode_compress, Hp by done. cbn [negb].
  rewrite take_app_alt by (rewrite H2; done). rewrite drop_app_alt by (rewrite H2; done).
  by rewrite split_join by exact H3.
Qed.
(** Marshal panics exactly if C1 is nil *)
Theorem C37_message_marshal_panic (m : enc_msg C) : marshal_msg m = None ↔ m_c1 m = None.
Proof. unfold marshal_msg. by destruct (m_c1 m). Qed.
(** what is accepted has the version byte, a valid length, a C1 in the group, and the blocks of the input *)
Theorem C37_message_accepted m0 (m : enc_msg C) d : unmarshal_msg m0 d = (m, true) →
  good_msg m ∧ ∃ k c, length c = p2_bytes ∧ length d = (129 + 32 * k)%nat ∧ d = 3%N :: c ++ m_c2 m ++ mjoin (m_c3 m).
Proof.
  unfold unmarshal_msg. destruct d as [|v d]; [done|]. destruct (N.eqb_spec v version_identifier) as [->|]; [|done]. cbn [negb].
  destruct (Nat.ltb_spec (length (version_identifier :: d)) (1 + p2_bytes + block_size)) as [|Hl]; [done|].
  destruct (Nat.eqb_spec ((length (version_identifier :: d) - 1 - p2_bytes - block_size) mod block_size) 0) as [Hm|]; [|done].
  cbn [orb negb]. destruct (uncompress _ _) as [p ok] eqn:Eu. destruct (in_group p) eqn:Hp; [|done]. intros [= <-].
  change (drop 1 (version_identifier :: d)) with d in Eu.
  change (drop (1 + p2_bytes) (version_identifier :: d)) with (drop p2_bytes d).
  change (drop (1 + p2_bytes + block_size) (version_identifier :: d)) with (drop (p2_bytes + block_size) d).
  cbn [length] in Hl, Hm. unfold block_size in Hl, Hm.
  apply Nat.mod_divides in Hm as [k Hk]; [|done].
  assert (Ld : (length d = p2_bytes + (32 + k * 32))%nat) by (unfold p2_bytes in *; lia).
  assert (Lr : length (drop (p2_bytes + block_size) d) = (k * block_size)%nat).
  { rewrite drop_length, Ld. unfold block_size. lia. }
  destruct (split_blocks_spec k _ Lr) as (J & L & F).
  split; [split; [by exists p|split]|].
  - cbn [m_c2]. unfold is_block. rewrite take_length, drop_length, Ld. unfold block_size. lia.
  - exact F.
  - exists k, (take p2_bytes d). split; [rewrite take_length; lia|]. cbn [length]. split; [rewrite Ld; unfold p2_bytes; lia|].
    cbn [m_c2 m_c3]. match goal with |- context [split_blocks ?x] => change x with (drop (p2_bytes + block_size) d) end. rewrite J. unfold version_identifier. f_equal.
    rewrite <-drop_drop, take_drop, take_drop. done.
Qed.
(** if C1 is a compressed point, the accepted message marshals to the bytes it was read from.
    Missing: inputs whose C1 is not a compressed point should be rejected. *)
Theorem C37_message_partial m0 (m : enc_msg C) d : unmarshal_msg m0 d = (m, true) →
  decode (c := C) (take p2_bytes (drop 1 d)) ≠ None → marshal_msg m = Some d.
Proof.
  intros Hu Hd. pose proof (C37_message_accepted _ _ _ Hu) as (_ & k & c & Lc & _ & Ed).
  rewrite Ed in Hd. set (e := c ++ _) in Hd. change (drop 1 (3%N :: e)) with e in Hd. unfold e in Hd. clear e. rewrite take_app_alt in Hd by done.
  assert (Hp : ∃ p, m_c1 m = Some p ∧ compress p = c).
  { unfold unmarshal_msg in Hu. rewrite Ed in Hu. destruct (negb _) in Hu; [done|]. destruct (_ || _) in Hu; [done|].
    set (e := c ++ _) in Hu. change (drop 1 (3%N :: e)) with e in Hu. unfold e in Hu at 1. rewrite take_app_alt in Hu by done. unfold uncompress in Hu.
    destruct (decode c) as [p|] eqn:E; [|done]. destruct (negb _) in Hu; [done|]. injection Hu as Hu. rewrite <-Hu. cbn [m_c1].
    exists p. split; [done|]. by apply decode_canonical. }
  destruct Hp as (p & Hp & Hc). unfold marshal_msg. rewrite Hp, Hc. by rewrite Ed at 1.
Qed.
(** The full property is false: a message whose C1 is garbage (here 96 zero bytes, not even marked as
    compressed) is accepted, with the point at infinity as C1. *)
Theorem C37_message_refuted : ∃ d (m : enc_msg C),
  decode (c := C) (take p2_bytes (drop 1 d)) = None ∧
  unmarshal_msg (mkEncMsg None [] []) d = (m, true) ∧ m_c1 m = Some infinity ∧ marshal_msg m ≠ Some d.
Proof.
  set (c := replicate 96 0%N). set (d := 3%N :: c ++ replicate 64 5%N).
  assert (Hc : length c ≠ p2_bytes ∨ ∃ b l, c = b :: l ∧ (b < 128)%N). { right. exists 0%N, (replicate 95 0%N). done. }
  destruct (receiver_untouched _ C infinity c Hc) as [Hd Hr].
  exists d, (mkEncMsg (Some infinity) (replicate 32 5%N) [replicate 32 5%N]).
  split; [exact Hd|]. split; [|split; [done|]].
  - unfold unmarshal_msg. change (take p2_bytes (drop 1 d)) with c. unfold uncompress. cbn [m_c1 default from_option].
    rewrite Hd, Hr, infinity_in_group. vm_compute. done.
  - unfold marshal_msg. cbn [m_c1]. intros [= E]. 
    apply (f_equal (take 96)) in E. rewrite take_app_alt in E by (rewrite compress_length; done).
    change (take 96 _) with c in E.
    pose proof (decode_compress _ C infinity (infinity_in_group _ C)) as Hi. rewrite E in Hi. congruence.
Qed.

(** * Commitments *)
Lemma chunk_app i (x d : list N) : length x = p2_bytes → chunk (S i) (x ++ d) = chunk i d.
Proof. intros Hx. unfold chunk. f_equal. replace (S i * p2_bytes)%nat with (p2_bytes + i * p2_bytes)%nat by lia.
  rewrite <-drop_drop. by rewrite drop_app_alt. Qed.
Lemma gammas_cons x d : length x = p2_bytes →
  unmarshal_gammas C (x ++ d) =
    match decode (c := C) x with
    | Some p => if in_group p then (λ g, p :: g) <$> unmarshal_gammas C d else None
    | None => None
    end ∨ (unmarshal_gammas C (x ++ d) = None ∧ unmarshal_gammas C d = None).
Proof.
  intros Hx. unfold unmarshal_gammas. rewrite app_length, Hx.
  assert (Hm : (p2_bytes + length d) mod p2_bytes = length d mod p2_bytes).
  { rewrite Nat.add_comm. replace p2_bytes with (1 * p2_bytes)%nat at 1 by lia. by apply Nat.mod_add. }
  rewrite Hm. destruct (negb _); [by right|]. left.
  assert (Hdv : (p2_bytes + length d) / p2_bytes = S (length d / p2_bytes)).
  { rewrite Nat.add_comm. replace p2_bytes with (1 * p2_bytes)%nat at 1 by lia. rewrite Nat.div_add by done. lia. }
  rewrite Hdv. cbn [seq]. assert (Ec : chunk 0 (x ++ d) = x) by (unfold chunk; rewrite Nat.mul_0_l, drop_0; by apply take_app_alt).
  cbn [mapM]. rewrite Ec.
  assert (Eu : uncompress (C := C) infinity x = match decode x with Some q => (q, true) | None => (receiver_after_failure infinity x, false) end) by done.
  rewrite Eu. destruct (decode x) as [p|]; [|done]. cbn [negb]. destruct (in_group p); [|done]. cbn [negb].
  cbn [mbind option_bind].
  rewrite <-fmap_S_seq.
  assert (E : ∀ (f : nat → option (raw C)) l, mapM f (S <$> l) = mapM (λ i, f (S i)) l).
  { intros f l. induction l as [|a l IH]; [done|]. cbn. by rewrite IH. }
  rewrite E.
  assert (E2 : ∀ l, mapM (λ i, let '(p, ok) := uncompress infinity (chunk (S i) (x ++ d)) in
      if negb ok then None else if negb (in_group (c := C) p) then None else Some p) l =
    mapM (λ i, let '(p, ok) := uncompress infinity (chunk i d) in
      if negb ok then None else if negb (in_group (c := C) p) then None else Some p) l).
  { intros l. induction l as [|a l IH]; [done|]. cbn [mapM]. rewrite IH, (chunk_app a x d Hx). done. }
  rewrite E2. destruct (mapM _ _); done.
Qed.
(** commitments: exactly the marshalled lists of group elements are accepted *)
Theorem C37_gammas d (g : list (raw C)) :
  unmarshal_gammas C d = Some g ↔ Forall (λ p, in_group p = true) g ∧ marshal_gammas g = d.
Proof.
  split.
  - intros Hu. assert (Hk : ∃ k, length d = (k * p2_bytes)%nat).
    { unfold unmarshal_gammas in Hu. destruct (Nat.eqb_spec (length d mod p2_bytes) 0) as [E|]; [|done].
      apply Nat.mod_divides in E as [k Hk]; [|done]. exists k. lia. }
    destruct Hk as [k Hk]. revert d g Hu Hk. induction k as [|k IH]; intros d g Hu Hk.
    + destruct d; [|done]. vm_compute in Hu. injection Hu as <-. done.
    + rewrite <-(take_drop p2_bytes d) in Hu |- *.
      assert (Lt : length (take p2_bytes d) = p2_bytes) by (rewrite take_length; lia).
      destruct (gammas_cons (take p2_bytes d) (drop p2_bytes d) Lt) as [E|[E _]]; [|congruence].
      rewrite E in Hu. destruct (decode _) as [p|] eqn:Ed; [|done]. destruct (in_group p) eqn:Hp; [|done].
      destruct (unmarshal_gammas C (drop p2_bytes d)) as [g'|] eqn:Eg; [|done]. injection Hu as <-.
      destruct (IH (drop p2_bytes d) g' Eg) as [F M]; [rewrite drop_length; lia|].
      split; [by constructor|]. unfold marshal_gammas. rewrite fmap_cons, join_cons.
      rewrite (decode_canonical _ C _ _ Ed). f_equal. exact M.
  - intros [F <-]. induction F as [|p g Hp _ IH]; [done|].
    unfold marshal_gammas. rewrite fmap_cons, join_cons. fold (marshal_gammas g).
    destruct (gammas_cons (compress p) (marshal_gammas g) (compress_length _ C p)) as [E|[_ E]]; [|congruence].
    rewrite E, decode_compress, Hp by done. by rewrite IH.
Qed.
(** the gob form: round trip, appended to what the receiver held *)
Theorem C37_gob_gammas g0 (g : list (raw C)) : Forall (λ p, in_group p = true) g →
  gob_decode_gammas C (length (marshal_gammas g)) g0 (marshal_gammas g) = Some (g0 ++ g, true).
Proof.
  intros F. assert (Hf : ∀ fuel, (length (marshal_gammas g) ≤ fuel)%nat → gob_decode_gammas C fuel g0 (marshal_gammas g) = Some (g0 ++ g, true)).
  { revert g0. induction F as [|p g Hp _ IH]; intros g0 fuel Hl.
    - change (marshal_gammas []) with (@nil N). rewrite app_nil_r. by destruct fuel.
    - assert (E : marshal_gammas (p :: g) = compress p ++ marshal_gammas g) by done. rewrite E in *. clear E.
      pose proof (compress_length _ C p) as Lc. rewrite app_length, Lc in Hl.
      destruct fuel as [|fuel]; [unfold p2_bytes in Hl; lia|].
      destruct (compress p ++ marshal_gammas g) as [|b l] eqn:Eq. { apply app_nil in Eq as [Eq _]. by rewrite Eq in Lc. }
      cbn [gob_decode_gammas]. rewrite <-Eq. rewrite app_length, Lc.
      destruct (Nat.ltb_spec (p2_bytes + length (marshal_gammas g)) p2_bytes); [lia|].
      rewrite take_app_alt, drop_app_alt by done. unfold uncompress. rewrite decode_compress, Hp by done. cbn [negb].
      rewrite IH by (unfold p2_bytes in Hl; lia). by rewrite <-app_assoc. }
  by apply Hf.
Qed.
(** ... but malformed gob data is not rejected cleanly: it panics if the length is wrong and accepts garbage *)
Theorem C37_gob_gammas_refuted :
  gob_decode_gammas C 1 [] [1%N] = None ∧
  ∃ d, length d = p2_bytes ∧ decode (c := C) d = None ∧ gob_decode_gammas C p2_bytes [] d = Some ([infinity], true).
Proof.
  split; [done|]. set (c := replicate 96 0%N). exists c. split; [done|].
  assert (Hc : length c ≠ p2_bytes ∨ ∃ b l, c = b :: l ∧ (b < 128)%N). { right. exists 0%N, (replicate 95 0%N). done. }
  destruct (receiver_untouched _ C infinity c Hc) as [Hd Hr]. split; [exact Hd|].
  assert (Lc : length c = p2_bytes) by done. assert (Hne : c ≠ []) by done. clearbody c.
  change (gob_decode_gammas C p2_bytes [] c) with (gob_decode_gammas C (S 95) [] c).
  assert (Es : gob_decode_gammas C (S 95) [] c = if Nat.ltb (length c) p2_bytes then None else
    let '(p, _) := uncompress (C := C) infinity (take p2_bytes c) in
    if negb (in_group p) then Some ([], false) else gob_decode_gammas C 95 [p] (drop p2_bytes c)) by (by destruct c).
  rewrite Es, Lc, Nat.ltb_irrefl, take_ge, drop_ge by lia. unfold uncompress. rewrite Hd, Hr, infinity_in_group. done.
Qed.
End Msg.

(** * Text *)
Lemma hex_digit_value d : (d < 16)%N → hex_value (hex_digit d) = Some d.
Proof.
  intros Hd. assert (d ∈ [0;1;2;3;4;5;6;7;8;9;10;11;12;13;14;15]%N) as Hin.
  { rewrite !elem_of_cons. lia. }
  repeat (apply elem_of_cons in Hin as [->|Hin]; [done|]). by apply elem_of_nil in Hin.
Qed.
Theorem C37_hex bs : is_bytes bs → hex_decode (hex_encode bs) = Some bs.
Proof.
  intros F. unfold hex_encode, hex_decode. cbn [N.eqb orb Pos.eqb].
  induction F as [|b bs Hb _ IH]; [done|]. rewrite fmap_cons, join_cons. cbn [app hex_pairs].
  rewrite !hex_digit_value, IH. 2:{ apply N.mod_lt. done. } 2:{ apply N.div_lt_upper_bound; lia. }
  f_equal. f_equal. pose proof (N.div_mod b 16 ltac:(done)). lia.
Qed.
Theorem C37_block_text b b0 : is_block b → is_bytes b → is_block b0 → block_unmarshal_text b0 (block_marshal_text b) = (b, true).
Proof.
  intros H1 H2 H3. unfold block_unmarshal_text, block_marshal_text. rewrite C37_hex by done.
  rewrite take_ge by (rewrite H1; done). rewrite drop_ge, app_nil_r; [done|]. rewrite H1, H3. done.
Qed.
Theorem C37_message_text (C : codec p2_bytes) m0 (m : enc_msg C) : good_msg C m → is_bytes (m_c2 m) → is_bytes (mjoin (m_c3 m)) →
  ∃ s, msg_marshal_text m = Some s ∧ msg_unmarshal_text m0 s = (m, true).
Proof.
  intros Hg H2 H3. destruct (C37_message_roundtrip C m0 m Hg) as (d & Hm & Hu). unfold msg_marshal_text. rewrite Hm.
  eexists. split; [done|]. unfold msg_unmarshal_text. rewrite C37_hex; [exact Hu|].
  unfold marshal_msg in Hm. destruct (m_c1 m); [|done]. injection Hm as <-. constructor; [done|].
  apply Forall_app. split; [apply compress_bytes|]. apply Forall_app. done.
Qed.
(** false for blocks: text of any length is accepted *)
Theorem C37_block_text_refuted : ∃ b0 s, is_block b0 ∧ block_unmarshal_text b0 s = (b0, true) ∧ hex_decode s = Some [].
Proof. exists (replicate 32 7%N), [48;120]%N. split; [done|]. by vm_compute. Qed.
(** the version of an input *)
Theorem C37_identify_version d : is_Some (identify_version d).
Proof. unfold identify_version. destruct d; [by eexists|]. destruct (Nat.eqb _ _); by eexists. Qed.
(** messages written by Marshal are recognised as the current version, and whole numbers of blocks (older messages) as version 0 *)
Theorem C37_version_current (C : codec p2_bytes) (m : enc_msg C) d : good_msg C m → marshal_msg m = Some d → identify_version d = Some version_identifier.
Proof.
  destruct m as [c1 c2 c3]. intros ((p & E1 & _) & H2 & H3). cbn in E1, H2, H3. subst c1. unfold marshal_msg. cbn [m_c1 m_c2 m_c3]. intros [= <-].
  unfold identify_version. assert (length (version_identifier :: compress p ++ c2 ++ mjoin c3) mod block_size = 1)%nat as ->; [|done].
  cbn [length]. rewrite !app_length, (compress_length _ C p), (join_length c3 H3), H2. unfold p2_bytes, block_size.
  replace (S (96 + (32 + length c3 * 32)))%nat with (1 + (4 + length c3) * 32)%nat by lia. by rewrite Nat.mod_add.
Qed.
Theorem C37_version_old d : length d mod block_size = 0%nat → identify_version d = Some 0%N.
Proof. intros E. unfold identify_version. by rewrite E. Qed.
Theorem C37_version_other d b : length d mod block_size ≠ 0%nat → d !! 0%nat = Some b → identify_version d = Some b.
Proof. intros E. unfold identify_version. by apply Nat.eqb_neq in E as ->. Qed.
(** the hex form: 0x, then two lower case digits per byte, the high one first *)
Definition digit_chars : list N := [48;49;50;51;52;53;54;55;56;57;97;98;99;100;101;102]%N.
Theorem C37_hex_form bs : is_bytes bs → length (hex_encode bs) = (2 + 2 * length bs)%nat ∧ take 2 (hex_encode bs) = [48; 120]%N ∧
  ∀ i b, bs !! i = Some b → hex_encode bs !! (2 + 2 * i)%nat = digit_chars !! N.to_nat (b / 16) ∧ hex_encode bs !! (3 + 2 * i)%nat = digit_chars !! N.to_nat (b mod 16).
Proof.
  assert (∀ d, (d < 16)%N → digit_chars !! N.to_nat d = Some (hex_digit d)) as Hd.
  { intros d Hd. assert (d ∈ [0;1;2;3;4;5;6;7;8;9;10;11;12;13;14;15]%N) as Hin by (rewrite !elem_of_cons; lia).
    rewrite !elem_of_cons in Hin. repeat (destruct Hin as [->|Hin]; [done|]). by apply elem_of_nil in Hin. }
  intros F. unfold hex_encode. cbn [length]. split; [|split; [done|]].
  - enough (length (mjoin ((λ b, [hex_digit (b / 16); hex_digit (b mod 16)]%N) <$> bs)) = (2 * length bs)%nat) as -> by done.
    clear F. induction bs as [|b bs IH]; [done|]. rewrite fmap_cons, join_cons, app_length, IH. cbn. lia.
  - intros i b E. pose proof (proj1 (Forall_lookup _ _) F _ _ E) as Hb. cbn in Hb. rewrite !Hd by first [by apply N.mod_lt|apply N.div_lt_upper_bound; lia].
    replace (3 + 2 * i)%nat with (S (S (S (2 * i)))) by lia. replace (2 + 2 * i)%nat with (S (S (2 * i))) by lia. cbn [lookup list_lookup].
    clear F Hb. revert bs E. induction i as [|i IH]; intros [|x bs] E; [done| |done|].
    + injection E as ->. done.
    + replace (2 * S i)%nat with (S (S (2 * i))) by lia. rewrite fmap_cons, join_cons. cbn [app lookup list_lookup]. by apply IH.
Qed.

(** what is accepted as hex: the hex form, but any of its letters, the x too, may be a capital one *)
Definition same_letter (c d : N) : Prop := c = d ∨ (97 ≤ d)%N ∧ (c + 32 = d)%N.
Lemma hex_value_letters c d : (d < 16)%N → hex_value c = Some d ↔ same_letter c (hex_digit d).
Proof.
  intros Hd. unfold same_letter, hex_value, hex_digit.
  destruct (N.ltb_spec d 10); repeat match goal with |- context [(?a <=? ?b)%N] => destruct (N.leb_spec a b) end; cbn [andb];
    split; intros Hc; repeat match goal with Hx : Some _ = Some _ |- _ => injection Hx as Hx end; try done; try (f_equal; lia); lia.
Qed.
Lemma hex_value_lt c d : hex_value c = Some d → (d < 16)%N.
Proof. unfold hex_value. repeat match goal with |- context [(?a <=? ?b)%N] => destruct (N.leb_spec a b) end; cbn [andb]; intros [= <-]; lia. Qed.
Theorem C37_hex_accepted s bs : hex_decode s = Some bs ↔ is_bytes bs ∧ Forall2 same_letter s (hex_encode bs).
Proof.
  assert (∀ bs l, hex_pairs l = Some bs ↔ is_bytes bs ∧ Forall2 same_letter l (mjoin ((λ b, [hex_digit (b / 16); hex_digit (b mod 16)]%N) <$> bs))) as Hp.
  { clear. induction bs as [|b bs IH]; intros l.
    - split.
      + destruct l as [|x [|y l]]; cbn; [split; constructor|done|]. destruct (hex_value x), (hex_value y), (hex_pairs l); done.
      + intros [_ Hl]. by apply Forall2_nil_inv_r in Hl as ->.
    - rewrite fmap_cons, join_cons. cbn [app]. split.
      + destruct l as [|x [|y l]]; [done|done|]. cbn [hex_pairs]. destruct (hex_value x) as [u|] eqn:Ex, (hex_value y) as [v|] eqn:Ey, (hex_pairs l) as [r|] eqn:El; try done.
        intros [= <- <-]. pose proof (hex_value_lt _ _ Ex). pose proof (hex_value_lt _ _ Ey). apply IH in El as [Hb Hl].
        assert ((u * 16 + v) / 16 = u)%N as Eu by (symmetry; apply (N.div_unique _ _ _ v); lia). assert ((u * 16 + v) mod 16 = v)%N as Ev by (symmetry; apply (N.mod_unique _ _ u); lia).
        split; [constructor; [lia|done]|]. rewrite Eu, Ev. constructor; [by apply hex_value_letters|]. constructor; [by apply hex_value_letters|done].
      + intros [Hb Hl]. apply Forall_cons in Hb as [Hb Hbs]. apply Forall2_cons_inv_r in Hl as (x & l1 & Hx & Hl & ->). apply Forall2_cons_inv_r in Hl as (y & l2 & Hy & Hl & ->).
        cbn [hex_pairs]. apply hex_value_letters in Hx as ->; [|apply N.div_lt_upper_bound; lia]. apply hex_value_letters in Hy as ->; [|by apply N.mod_lt].
        rewrite (proj2 (IH l2)) by done. f_equal. f_equal. pose proof (N.div_mod b 16 ltac:(done)). lia. }
  unfold hex_encode. split.
  - intros Hs. destruct s as [|a [|x l]]; [done| |].
    + exfalso. unfold hex_decode in Hs. destruct (N.eq_dec a 48) as [->|Ha]; [done|]. destruct a as [|q]; [done|]. do 6 (destruct q as [q|q|]; try done).
    + unfold hex_decode in Hs. destruct (N.eq_dec a 48) as [->|Ha].
      * destruct ((x =? 120) || (x =? 88))%N eqn:Ex; [|done]. apply Hp in Hs as [Hb Hl]. split; [done|]. constructor; [by left|]. constructor; [|done].
        apply orb_true_iff in Ex as [Ex|Ex]; apply N.eqb_eq in Ex as ->; [by left|]. right. lia.
      * exfalso. destruct a as [|q]; [done|]. do 6 (destruct q as [q|q|]; try done).
  - intros [Hb Hl]. apply Forall2_cons_inv_r in Hl as (a & l1 & Ha & Hl & ->). apply Forall2_cons_inv_r in Hl as (x & l2 & Hx & Hl & ->).
    assert (a = 48%N) as -> by (destruct Ha; lia). unfold hex_decode.
    assert (((x =? 120) || (x =? 88))%N = true) as ->. { apply orb_true_iff. rewrite !N.eqb_eq. destruct Hx; lia. }
    by apply Hp.
Qed.
Example C37_hex_witness : hex_decode [48; 88; 65; 102]%N = Some [175]%N ∧ hex_decode [48; 120; 65]%N = None ∧ hex_decode [48; 120; 71; 71]%N = None.
Proof. done. Qed.

(** * Witness: a codec with the point at infinity, a group element and a point outside the group *)
Inductive wpoint := WInf | WPt | WOff.
Global Instance wpoint_eq : EqDecision wpoint. Proof. solve_decision. Defined.
Definition wcompress (p : wpoint) : list N := match p with WInf => 192 | WPt => 128 | WOff => 129 end%N :: replicate 95 0%N.
Definition wdecode (bs : list N) : option wpoint :=
  if bool_decide (bs = wcompress WInf) then Some WInf else if bool_decide (bs = wcompress WPt) then Some WPt
  else if bool_decide (bs = wcompress WOff) then Some WOff else None.
Definition win_group (p : wpoint) : bool := match p with WOff => false | _ => true end.
Lemma wcompress_length p : length (wcompress p) = p2_bytes. Proof. by destruct p. Qed.
Lemma wcompress_bytes p : is_bytes (wcompress p). Proof. apply Forall_forall. intros x. destruct p; cbn [wcompress]; intros [->|Hx]%elem_of_cons; try done; by apply elem_of_replicate in Hx as [-> _]. Qed.
Lemma wdecode_compress p : win_group p = true → wdecode (wcompress p) = Some p. Proof. by destruct p. Qed.
Lemma wdecode_canonical bs p : wdecode bs = Some p → wcompress p = bs.
Proof. unfold wdecode. repeat case_bool_decide; intros [= <-]; done. Qed.
Lemma wuntouched (p : wpoint) bs : (length bs ≠ p2_bytes ∨ ∃ b l, bs = b :: l ∧ (b < 128)%N) → wdecode bs = None ∧ p = p.
Proof.
  intros Hb. split; [|done]. unfold wdecode. repeat case_bool_decide; try done; subst bs; destruct Hb as [Hl|(b & l & E & Hb)];
    (by rewrite wcompress_length in Hl) || (cbn [wcompress] in E; injection E as <- _; lia).
Qed.
Definition wcodec : codec p2_bytes := mkCodec p2_bytes wpoint wpoint_eq WInf win_group wcompress wdecode (λ p _, p)
  wcompress_length wcompress_bytes wdecode_compress wdecode_canonical eq_refl wuntouched.
Definition wmsg : enc_msg wcodec := mkEncMsg (C2 := wcodec) (Some WPt) (replicate 32 9%N) [replicate 32 1%N; replicate 32 2%N].
Example C37_witness : good_msg wcodec wmsg ∧
  (∃ d, marshal_msg wmsg = Some d ∧ length d = 193%nat ∧ unmarshal_msg (mkEncMsg None [] []) d = (wmsg, true) ∧
     (unmarshal_msg (C2 := wcodec) (mkEncMsg None [] []) (3%N :: wcompress WOff ++ replicate 32 0%N)).2 = false ∧
     (unmarshal_msg (C2 := wcodec) (mkEncMsg None [] []) (d ++ [1%N])).2 = false) ∧
  unmarshal_gammas wcodec (wcompress WPt ++ wcompress WInf) = Some [WPt; WInf] ∧
  unmarshal_gammas wcodec (wcompress WPt ++ wcompress WOff) = None ∧
  unmarshal_share [1;0]%N = (256%Z, true) ∧ (unmarshal_share (replicate 32 255%N)).2 = false.
Proof.
  split. { split; [by exists WPt|]. split; [done|]. repeat constructor. }
  split. { eexists. split; [reflexivity|]. vm_compute. done. }
  vm_compute. done.
Qed.

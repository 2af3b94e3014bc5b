(** C82: the keyper's configuration file: what is written can be read, and what is accepted. *)
From Coq Require Import ZArith NArith Lia String.
From stdpp Require Import list sets strings.
From Verif Require Import CryptoModel EncodingModel AppModel EventsModel EventsSpec EventsProofs ConfigFileModel.
Open Scope N_scope.

(** text without quotes, backslashes and control characters *)
Definition plain (c : N) : Prop := (32 ≤ c ∨ c = 9) ∧ c ≠ 34 ∧ c ≠ 92.

Lemma span_app p a b : Forall (λ c, p c = true) a → (∀ c, head b = Some c → p c = false) → span p (a ++ b) = (a, b).
Proof.
  intros Ha Hb. induction Ha as [|c a Hc _ IH]; cbn [Datatypes.app span].
  - destruct b as [|c b]; [done|]. cbn. by rewrite (Hb c).
  - by rewrite Hc, IH.
Qed.
Lemma span_nil p b : (∀ c, head b = Some c → p c = false) → span p b = ([], b).
Proof. intros H. by apply (span_app p [] b). Qed.
Lemma basic_plain v r : Forall plain v → basic (v ++ 34 :: r) = Some (v, r).
Proof.
  induction 1 as [|c v (H1 & H2 & H3) _ IH]; [done|]. cbn [Datatypes.app basic]. rewrite (proj2 (N.eqb_neq c 34) H2), (proj2 (N.eqb_neq c 92) H3).
  replace ((c <? 32) && negb (c =? 9)) with false.
  2:{ symmetry. apply andb_false_iff. destruct H1 as [H1|H1]; [left; by apply N.ltb_ge|right; by subst]. }
  by rewrite IH.
Qed.
Lemma value_str v r : Forall plain v → value (34 :: v ++ 34 :: 10 :: r) = Some (TStr v, 10 :: r).
Proof.
  intros H. unfold value. change (34 =? 34) with true. cbv iota. rewrite bool_decide_eq_false_2; [by rewrite basic_plain|].
  destruct v as [|c [|d v]]; cbn; try done. inversion_clear H as [|? ? (_ & H2 & _)]. congruence. 
  inversion_clear H as [|? ? (_ & H2 & _)]. congruence.
Qed.
Lemma value_num v r : v ≠ [] → Forall (λ c, in_number c = true) v → head v ≠ Some 34 → value (v ++ 10 :: r) = Some (TNum v, 10 :: r).
Proof.
  intros Hv H Hh. unfold value. destruct v as [|c v]; [done|]. cbn [Datatypes.app]. destruct (N.eqb_spec c 34) as [->|_]; [done|].
  change (c :: v ++ 10 :: r) with ((c :: v) ++ 10 :: r). rewrite span_app; [done|done|]. by intros ? [= <-].
Qed.

(** a line as the template has it *)
Definition ok_line (l : line) : Prop :=
  match l with
  | LComment b => Forall (λ c, c ≠ 10) b
  | LBlank => True
  | LStr k pad v => k ≠ [] ∧ Forall (λ c, is_bare c = true) k ∧ Forall (λ c, is_space c = true) pad ∧ pad ≠ [] ∧ Forall plain v
  | LNum k pad v => k ≠ [] ∧ Forall (λ c, is_bare c = true) k ∧ Forall (λ c, is_space c = true) pad ∧ pad ≠ [] ∧ v ≠ [] ∧
                    Forall (λ c, in_number c = true) v ∧ head v ≠ Some 34
  end.
Definition line_entry (l : line) : list (bytes * tvalue) :=
  match l with LStr k _ v => [(k, TStr v)] | LNum k _ v => [(k, TNum v)] | _ => [] end.
Lemma is_bare_not_blank c : is_bare c = true → (is_space c || (c =? 10)) = false ∧ (c =? 35) = false.
Proof.
  unfold is_bare, is_space. intros H.
  assert (48 ≤ c ∨ c = 45) as Hc.
  { repeat (apply orb_true_iff in H as [H|H]); try (apply andb_true_iff in H as [H _]; apply N.leb_le in H; lia); apply N.eqb_eq in H; lia. }
  split; [apply orb_false_iff; split; [apply orb_false_iff; split|]|]; apply N.eqb_neq; lia.
Qed.
Lemma is_space_not_bare c : is_space c = true → is_bare c = false.
Proof.
  unfold is_space. intros H. apply orb_true_iff in H as [H|H]; apply N.eqb_eq in H; by subst.
Qed.
(** a blank start of the text is skipped without cost *)
Lemma toml_newline f b : toml_ f (10 :: b) = toml_ f b.
Proof.
  destruct f; [done|]. cbn [toml_]. assert (E : (span (λ c, is_space c || (c =? 10)) (10 :: b)).2 = (span (λ c, is_space c || (c =? 10)) b).2).
  { cbn [span]. change (is_space 10 || (10 =? 10)) with true. cbv iota. by destruct (span (λ c, is_space c || (c =? 10)) b). }
  by rewrite E.
Qed.
Lemma toml_key f k pad rest v r : k ≠ [] → Forall (λ c, is_bare c = true) k → Forall (λ c, is_space c = true) pad → pad ≠ [] →
  value (span is_space rest).2 = Some (v, 10 :: r) →
  toml_ (S f) (k ++ pad ++ 61 :: rest) = (kvs ← toml_ f r; if bool_decide (k ∈ kvs.*1) then None else Some ((k, v) :: kvs)).
Proof.
  intros Hk Hbare Hpad Hpad0 Hv. destruct k as [|c k]; [done|]. pose proof Hbare as Hb. apply Forall_cons in Hb as [Hc _].
  apply is_bare_not_blank in Hc as [Hc1 Hc2].
  cbn [toml_]. rewrite (span_nil _ ((c :: k) ++ pad ++ 61 :: rest)) by (by intros ? [= <-]). cbn [snd].
  change ((c :: k) ++ pad ++ 61 :: rest) with (c :: (k ++ pad ++ 61 :: rest)). cbv iota. rewrite Hc2.
  change (c :: (k ++ pad ++ 61 :: rest)) with ((c :: k) ++ pad ++ 61 :: rest).
  rewrite (span_app is_bare (c :: k)); [|done|].
  2:{ destruct pad as [|s pad]; [done|]. apply Forall_cons in Hpad as [Hs _]. intros ? [= <-]. by apply is_space_not_bare. }
  cbn [fst snd]. rewrite (span_app is_space pad); [|done|by intros ? [= <-]]. cbn [fst snd]. change (61 =? 61) with true. cbn [negb orb].
  rewrite bool_decide_eq_false_2 by done. cbn [orb]. rewrite Hv. cbn [mbind option_bind]. rewrite (span_nil is_space (10 :: r)) by (by intros ? [= <-]).
  cbn [fst snd]. change ((10 =? 10) || (10 =? 35)) with true. cbv iota. by rewrite toml_newline.
Qed.
Lemma toml_lines ls f : Forall ok_line ls → NoDup (ls ≫= line_entry).*1 → (length (ls ≫= line_text) < f)%nat → toml_ f (ls ≫= line_text) = Some (ls ≫= line_entry).
Proof.
  intros H. revert f. induction H as [|l ls Hl _ IH]; intros f Hnd Hf; [destruct f; [cbn in Hf; lia|done]|].
  change ((l :: ls) ≫= line_text) with (line_text l ++ (ls ≫= line_text)) in *. change ((l :: ls) ≫= line_entry) with (line_entry l ++ (ls ≫= line_entry)) in *.
  rewrite app_length in Hf. destruct f as [|f]; [lia|]. destruct l as [b| |k pad v|k pad v]; cbn [line_text line_entry ok_line] in *.
  - cbn [Datatypes.app]. cbn [toml_]. rewrite (span_nil _ (35 :: _)) by (by intros ? [= <-]). cbn [snd]. change (35 =? 35) with true. cbv iota.
    rewrite <-(assoc_L (++)). rewrite span_app; [|eapply Forall_impl; [exact Hl|]; intros c Hc; cbn; by rewrite (proj2 (N.eqb_neq c 10) Hc)|by intros ? [= <-]].
    cbn [snd Datatypes.app]. rewrite toml_newline. apply IH; [done|]. cbn in Hf. lia.
  - cbn [Datatypes.app]. rewrite toml_newline. apply IH; [done|]. cbn in Hf. lia.
  - destruct Hl as (H1 & H2 & H3 & H4 & H5). rewrite <-!(assoc_L (++)). cbn [Datatypes.app].
    rewrite (toml_key f k pad _ (TStr v) (ls ≫= line_text)); [|done..|].
    2:{ change (32 :: 34 :: v ++ 34 :: 10 :: (ls ≫= line_text)) with ([32] ++ 34 :: v ++ 34 :: 10 :: (ls ≫= line_text)).
        rewrite span_app; [by apply value_str|by repeat constructor|by intros ? [= <-]]. }
    cbn in Hnd. apply NoDup_cons in Hnd as [Hk Hnd]. rewrite IH; [|done|]. { cbn [mbind option_bind]. by rewrite bool_decide_eq_false_2. }
    rewrite !app_length in Hf. destruct k; [done|]. cbn in Hf. lia.
  - destruct Hl as (H1 & H2 & H3 & H4 & H5 & H6 & H7). rewrite <-!(assoc_L (++)). cbn [Datatypes.app].
    rewrite (toml_key f k pad _ (TNum v) (ls ≫= line_text)); [|done..|].
    2:{ change (32 :: v ++ 10 :: (ls ≫= line_text)) with ([32] ++ v ++ 10 :: (ls ≫= line_text)).
        rewrite span_app; [by apply value_num|by repeat constructor|]. destruct v as [|c v]; [done|]. intros ? [= <-].
        apply Forall_cons in H6 as [H6 _]. unfold in_number in H6. apply negb_true_iff, orb_false_iff in H6 as [H6 _]. by apply orb_false_iff in H6 as [H6 _]. }
    cbn in Hnd. apply NoDup_cons in Hnd as [Hk Hnd]. rewrite IH; [|done|]. { cbn [mbind option_bind]. by rewrite bool_decide_eq_false_2. }
    rewrite !app_length in Hf. destruct k; [done|]. cbn in Hf. lia.
Qed.

(** ** The texts of the entries *)
Lemma hex_value_plain c v : hex_value c = Some v → plain c ∧ c ≠ 10.
Proof.
  unfold hex_value, plain. repeat match goal with |- context [(?a <=? ?b)%N] => destruct (N.leb_spec a b) end; cbn; intros H'; try discriminate H'; repeat split; lia.
Qed.
Lemma hex_text_plain bs : is_bytes bs → Forall plain (hex_plain bs).
Proof. intros H. eapply Forall_impl; [by apply hex_plain_chars|]. intros c Hc. unfold is_hex_char, plain in *. lia. Qed.
Lemma address_plain keccak a : Forall (λ c, plain c ∧ c ≠ 10) (address_hex keccak a).
Proof.
  destruct (address_text keccak a) as (l & -> & _ & _ & Hl). constructor; [unfold plain; lia|]. constructor; [unfold plain; lia|].
  eapply Forall_impl; [exact Hl|]. intros c [_ [v Hv]]. by eapply hex_value_plain.
Qed.
Lemma digits_format f n : Forall (λ c, 48 ≤ c ≤ 57) (format_fuel f n).
Proof.
  revert n. induction f as [|f IH]; intros n; cbn [format_fuel]; [constructor|]. destruct (N.ltb_spec n 10); [constructor; [lia|constructor]|].
  apply Forall_app_2; [apply IH|]. constructor; [|constructor]. pose proof (N.mod_lt n 10 ltac:(done)) as Hm. revert Hm. generalize (n mod 10). intros m Hm. split; [apply N.le_add_r|].
  apply N.lt_le_pred in Hm. cbn in Hm. lia.
Qed.
Lemma format_nonempty f n : (1 ≤ f)%nat → format_fuel f n ≠ [].
Proof. destruct f; [lia|]. intros _. cbn [format_fuel]. destruct (n <? 10); [done|]. intros H. apply app_eq_nil in H as [_ H]. done. Qed.
Lemma number_ok n : encode_uint64 n ≠ [] ∧ Forall (λ c, in_number c = true) (encode_uint64 n) ∧ head (encode_uint64 n) ≠ Some 34.
Proof.
  pose proof (digits_format (S (N.size_nat n)) n) as H. fold (encode_uint64 n) in H. split_and!.
  - apply format_nonempty. lia.
  - eapply Forall_impl; [exact H|]. intros c Hc. cbn beta in Hc. unfold in_number, is_space. apply negb_true_iff. repeat (apply orb_false_iff; split); apply N.eqb_neq; lia.
  - destruct (encode_uint64 n); [done|]. apply Forall_cons in H as [H _]. cbn beta in H. cbn. intros [= ->]. lia.
Qed.

Section Props.
Context (keccak : bytes → bytes) (signer : N → N) (F : Type) (fmt : F → bytes) (rd : bytes → option F).
Notation write := (write_toml keccak signer F fmt).
Notation read := (read_toml keccak F rd).

(** what a configuration has to be: keys of the curve, a seed of 32 bytes, addresses; numbers below 2^63, as TOML has them; paths and addresses of
    servers without quotes and backslashes; a multiplier whose printed form is a number and can be read back (strconv; not nan, inf) *)
Record good (c : kconfig F) : Prop := {
  g_url : Forall plain (kc_shuttermint_url c); g_eth : Forall plain (kc_ethereum_url c); g_db : Forall plain (kc_db_dir c);
  g_signing : 0 < kc_signing_key c < secp256k1_n; g_encryption : 0 < kc_encryption_key c < secp256k1_n;
  g_seed : is_bytes (kc_validator_seed c) ∧ length (kc_validator_seed c) = 32%nat;
  g_addresses : Forall is_address [kc_config c; kc_batcher c; kc_broadcast c; kc_executor c; kc_deposit c; kc_slasher c];
  g_numbers : Forall (λ n, n < 2 ^ 63) [kc_follow c; kc_staggering c; kc_phase c];
  g_multiplier : fmt (kc_multiplier c) ≠ [] ∧ Forall (λ x, in_number x = true) (fmt (kc_multiplier c)) ∧ head (fmt (kc_multiplier c)) ≠ Some 34 ∧
                 rd (fmt (kc_multiplier c)) = Some (kc_multiplier c)
}.
Lemma read_ecdsa_text d : 0 < d < secp256k1_n → read_ecdsa (hex_plain (be_bytes 32 d)) = Some d.
Proof.
  intros [H1 H2]. unfold read_ecdsa. rewrite hex_plain_pairs by apply be_bytes_bytes. cbn [mbind option_bind]. rewrite be_bytes_length.
  change (Nat.eqb 32 32) with true. cbv iota zeta. rewrite be_bytes_value.
  - rewrite (proj2 (N.eqb_neq d 0)) by lia. by rewrite (proj2 (N.leb_gt secp256k1_n d)).
  - eapply N.lt_trans; [exact H2|reflexivity].
Qed.
Lemma read_seed_text b : is_bytes b → length b = 32%nat → read_seed (hex_plain b) = Some b.
Proof. intros H1 H2. unfold read_seed. rewrite hex_plain_pairs by done. cbn [mbind option_bind]. by rewrite H2. Qed.
Lemma read_number_text n : n < 2 ^ 63 → read_number (encode_uint64 n) = Some n.
Proof.
  intros H. unfold read_number. rewrite uint64_roundtrip by (eapply N.lt_trans; [exact H|reflexivity]). cbn [mbind option_bind].
  by rewrite (proj2 (N.ltb_lt _ _) H).
Qed.
Lemma all_entries a1 a2 a3 a4 a5 a6 s1 s2 s3 n1 n2 n3 n4 k1 k2 k3 :
  read_entries keccak F rd [(txt "BatcherContract", TStr a1); (txt "ConfigContract", TStr a2); (txt "DepositContract", TStr a3); (txt "ExecutorContract", TStr a4);
    (txt "KeyBroadcastContract", TStr a5); (txt "KeyperSlasher", TStr a6); (txt "EthereumURL", TStr s1); (txt "ShuttermintURL", TStr s2); (txt "DBDir", TStr s3);
    (txt "DKGPhaseLength", TNum n1); (txt "ExecutionStaggering", TNum n2); (txt "MainChainFollowDistance", TNum n3); (txt "GasPriceMultiplier", TNum n4);
    (txt "EncryptionKey", TStr k1); (txt "SigningKey", TStr k2); (txt "ValidatorSeed", TStr k3)] =
  (sign ← read_ecdsa k2; seed ← read_seed k3; enc ← read_ecdsa k1; cc ← read_address keccak a2; bb ← read_address keccak a1; kb ← read_address keccak a5;
   ex ← read_address keccak a4; dp ← read_address keccak a3; sl ← read_address keccak a6; fo ← read_number n3; st ← read_number n2; ph ← read_number n1; mu ← rd n4;
   Some (mkKConfig s2 s1 s3 sign seed enc cc bb kb ex dp sl fo st ph mu)).
Proof. reflexivity. Qed.

(** ** What is written can be read *)
Lemma lines_ok c : good c → Forall ok_line (lines keccak signer F fmt c).
Proof.
  intros [Hu He Hd Hs Hn [Hv1 Hv2] Ha Hm (Hf1 & Hf2 & Hf3 & Hf4)].
  assert (Had : ∀ a, Forall plain (address_hex keccak a)) by (intros a; eapply Forall_impl; [apply address_plain|]; by intros ? []).
  pose proof (number_ok (kc_phase c)) as (Hp1 & Hp2 & Hp3). pose proof (number_ok (kc_staggering c)) as (Hq1 & Hq2 & Hq3).
  pose proof (number_ok (kc_follow c)) as (Hr1 & Hr2 & Hr3).
  assert (Hk : ∀ d, Forall plain (hex_plain (be_bytes 32 d))) by (intros; apply hex_text_plain, be_bytes_bytes).
  assert (Hsd := hex_text_plain _ Hv1).
  unfold lines. repeat match goal with |- Forall ok_line (_ :: _) => apply Forall_cons; split end; [..|apply Forall_nil; done].
  all: cbv beta iota delta [ok_line]; repeat match goal with |- _ ∧ _ => split end.
  all: match goal with
    | |- True => exact I
    | |- Forall plain (address_hex _ _) => apply Had
    | |- Forall plain (hex_plain (be_bytes 32 _)) => apply Hk
    | |- Forall _ (txt _ ++ _) => apply Forall_app_2; [apply (bool_decide_eq_true_1 _); vm_compute; reflexivity|];
                                 eapply Forall_impl; [apply address_plain|]; by intros ? []
    | |- Forall _ (txt _) => apply (bool_decide_eq_true_1 _); vm_compute; reflexivity
    | |- Forall (λ c, is_space c = true) _ => apply (bool_decide_eq_true_1 _); vm_compute; reflexivity
    | |- txt _ ≠ [] => discriminate
    | |- _ :: _ ≠ [] => discriminate
    | _ => assumption
    end.
Qed.
Lemma lines_entries c : lines keccak signer F fmt c ≫= line_entry =
  [(txt "BatcherContract", TStr (address_hex keccak (kc_batcher c))); (txt "ConfigContract", TStr (address_hex keccak (kc_config c)));
   (txt "DepositContract", TStr (address_hex keccak (kc_deposit c))); (txt "ExecutorContract", TStr (address_hex keccak (kc_executor c)));
   (txt "KeyBroadcastContract", TStr (address_hex keccak (kc_broadcast c))); (txt "KeyperSlasher", TStr (address_hex keccak (kc_slasher c)));
   (txt "EthereumURL", TStr (kc_ethereum_url c)); (txt "ShuttermintURL", TStr (kc_shuttermint_url c)); (txt "DBDir", TStr (kc_db_dir c));
   (txt "DKGPhaseLength", TNum (encode_uint64 (kc_phase c))); (txt "ExecutionStaggering", TNum (encode_uint64 (kc_staggering c)));
   (txt "MainChainFollowDistance", TNum (encode_uint64 (kc_follow c))); (txt "GasPriceMultiplier", TNum (fmt (kc_multiplier c)));
   (txt "EncryptionKey", TStr (hex_plain (be_bytes 32 (kc_encryption_key c)))); (txt "SigningKey", TStr (hex_plain (be_bytes 32 (kc_signing_key c))));
   (txt "ValidatorSeed", TStr (hex_plain (kc_validator_seed c)))].
Proof. reflexivity. Qed.
Lemma keys_distinct a1 a2 a3 a4 a5 a6 s1 s2 s3 n1 n2 n3 n4 k1 k2 k3 :
  NoDup [(txt "BatcherContract", TStr a1); (txt "ConfigContract", TStr a2); (txt "DepositContract", TStr a3); (txt "ExecutorContract", TStr a4);
    (txt "KeyBroadcastContract", TStr a5); (txt "KeyperSlasher", TStr a6); (txt "EthereumURL", TStr s1); (txt "ShuttermintURL", TStr s2); (txt "DBDir", TStr s3);
    (txt "DKGPhaseLength", TNum n1); (txt "ExecutionStaggering", TNum n2); (txt "MainChainFollowDistance", TNum n3); (txt "GasPriceMultiplier", TNum n4);
    (txt "EncryptionKey", TStr k1); (txt "SigningKey", TStr k2); (txt "ValidatorSeed", TStr k3)].*1.
Proof. apply (bool_decide_eq_true_1 _). vm_compute. reflexivity. Qed.
Lemma read_address_text a : is_address a → read_address keccak (address_hex keccak a) = Some a.
Proof. exact (decode_address_text keccak a). Qed.
(** WriteTOML and Unmarshal *)
Theorem C82_round_trip c : good c → read (write c) = Some c.
Proof.
  intros Hg. pose proof (lines_ok c Hg) as Hok. destruct Hg as [Hu He Hd Hs Hn [Hv1 Hv2] Ha Hm (Hf1 & Hf2 & Hf3 & Hf4)]. unfold read_toml, toml, write_toml.
  rewrite (toml_lines _ _ Hok); [|rewrite lines_entries; apply keys_distinct|lia].
  cbn [mbind option_bind]. rewrite lines_entries. rewrite all_entries.
  rewrite (read_ecdsa_text _ Hs), (read_ecdsa_text _ Hn), (read_seed_text _ Hv1 Hv2), Hf4.
  repeat (apply Forall_cons in Ha as [? Ha]). repeat (apply Forall_cons in Hm as [? Hm]).
  rewrite !read_address_text, !read_number_text by assumption. destruct c. reflexivity.
Qed.

(** ** What is accepted *)
Lemma hex_pairs_length l b : hex_pairs l = Some b → length l = (2 * length b)%nat ∧ is_bytes b.
Proof.
  revert b. induction l as [l IH] using (induction_ltof1 _ length). unfold ltof in IH. intros b H. destruct l as [|x [|y l]]; [by injection H as <-|done|].
  cbn [hex_pairs] in H. destruct (hex_value x) as [v|] eqn:Ex; [|done]. destruct (hex_value y) as [w|] eqn:Ey; [|done]. destruct (hex_pairs l) as [b'|] eqn:El; [|done].
  injection H as <-. destruct (IH l ltac:(cbn; lia) b' El) as [Hl Hb]. split; [cbn [length]; lia|]. constructor; [|done].
  assert (Hv : ∀ c u, hex_value c = Some u → u < 16).
  { intros c u. unfold hex_value. repeat match goal with |- context [(?a <=? ?b)%N] => destruct (N.leb_spec a b) end; cbn [andb]; intros Hu; try discriminate Hu; injection Hu as <-; lia. }
  apply Hv in Ex, Ey. lia.
Qed.
(** an address is accepted only with its checksum, and then it is the one *)
Theorem C82_address s a : read_address keccak s = Some a → s = address_hex keccak a.
Proof. apply decode_address_canonical. Qed.
Theorem C82_addresses s t a : read_address keccak s = Some a → read_address keccak t = Some a → s = t.
Proof. intros H1 H2. by rewrite (C82_address s a H1), (C82_address t a H2). Qed.
(** a signing or encryption key is 64 hexadecimal digits of a number the curve has keys for; a seed is 64 digits *)
Theorem C82_key s d : read_ecdsa s = Some d → 0 < d < secp256k1_n ∧ length s = 64%nat.
Proof.
  unfold read_ecdsa. destruct (hex_pairs s) as [b|] eqn:E; [|done]. cbn [mbind option_bind]. apply hex_pairs_length in E as [E _].
  destruct (Nat.eqb_spec (length b) 32) as [Hl|]; [|done]. cbv zeta. destruct (N.eqb_spec (bytes_to_address b) 0) as [|H0]; cbn [orb]; [done|].
  destruct (N.leb_spec secp256k1_n (bytes_to_address b)) as [|H1]; [done|]. intros [= <-]. split; [|lia]. split; [by apply N.neq_0_lt_0|done].
Qed.
Theorem C82_seed s b : read_seed s = Some b → is_bytes b ∧ length b = 32%nat ∧ length s = 64%nat.
Proof.
  unfold read_seed. destruct (hex_pairs s) as [x|] eqn:E; [|done]. cbn [mbind option_bind]. apply hex_pairs_length in E as [E Hb].
  destruct (Nat.eqb_spec (length x) 32) as [Hl|]; [|done]. intros [= <-]. split_and!; [done|done|lia].
Qed.
(** whatever file is read: keys, seed and numbers are in their ranges *)
Lemma read_entries_valid kvs c : read_entries keccak F rd kvs = Some c →
  0 < kc_signing_key c < secp256k1_n ∧ 0 < kc_encryption_key c < secp256k1_n ∧ length (kc_validator_seed c) = 32%nat ∧
  Forall (λ n, n < 2 ^ 63) [kc_follow c; kc_staggering c; kc_phase c].
Proof.
  assert (Hn : ∀ s n, read_number s = Some n → n < 2 ^ 63).
  { intros s n. unfold read_number. destruct (decode_uint64 s) as [x|]; [|done]. cbn [mbind option_bind]. destruct (N.ltb_spec x (2 ^ 63)); [|done]. by intros [= <-]. }
  unfold read_entries. intros H.
  repeat (apply bind_Some in H as (? & ? & H)). injection H as <-. cbn [kc_signing_key kc_encryption_key kc_validator_seed kc_follow kc_staggering kc_phase].
  repeat match goal with H : (_ ≫= read_ecdsa) = Some _ |- _ => apply bind_Some in H as (? & _ & H); apply C82_key in H as [? _]
    | H : (_ ≫= read_seed) = Some _ |- _ => apply bind_Some in H as (? & _ & H); apply C82_seed in H as (_ & ? & _)
    | H : (_ ≫= read_number) = Some _ |- _ => apply bind_Some in H as (? & _ & H); apply Hn in H end.
  split_and!; try done; lia || (repeat constructor; done).
Qed.
Theorem C82_valid b c : read b = Some c →
  0 < kc_signing_key c < secp256k1_n ∧ 0 < kc_encryption_key c < secp256k1_n ∧ length (kc_validator_seed c) = 32%nat ∧
  Forall (λ n, n < 2 ^ 63) [kc_follow c; kc_staggering c; kc_phase c].
Proof. unfold read_toml. destruct (toml b) as [kvs|]; [|done]. apply read_entries_valid. Qed.
End Props.

(** ** Examples, and what is not escaped *)
Definition ex_config (url db : bytes) (phase : N) : kconfig bytes :=
  mkKConfig url (txt "ws://localhost:8545/") db 1 (replicate 32 7) 2 (2 ^ 159 + 10) 11 12 13 14 15 3 5 phase (txt "1.5").
Notation ex_write := (write_toml (λ l, replicate 32 173) (λ k, k) bytes (λ t, t)).
Notation ex_read := (read_toml (λ l, replicate 32 173) bytes Some).
Example C82_witness :
  let c := ex_config (txt "http://localhost:26657") (txt "/var/lib/keyper db") 30 in
  good bytes (λ t, t) Some c ∧ ex_read (ex_write c) = Some c ∧
  (* the checksum: the address in lower case is refused *)
  read_address (λ l, replicate 32 173) (address_hex (λ l, replicate 32 173) 11) = Some 11 ∧
  read_address (λ l, replicate 32 173) (hex_encode (be_bytes 20 11)) = None ∧
  (* as is the key zero, and a key that is a byte short *)
  read_ecdsa (hex_plain (be_bytes 32 0)) = None ∧ read_ecdsa (hex_plain (be_bytes 31 5)) = None ∧ read_ecdsa (hex_plain (be_bytes 32 secp256k1_n)) = None.
Proof.
  cbv zeta. split; [|repeat match goal with |- _ ∧ _ => split end; vm_compute; reflexivity].
  constructor; try (apply (bool_decide_eq_true_1 _); vm_compute; reflexivity).
  all: cbn [kc_signing_key kc_encryption_key kc_multiplier kc_validator_seed ex_config]; repeat match goal with |- _ ∧ _ => split end; try reflexivity; try discriminate.
  all: apply (bool_decide_eq_true_1 _); vm_compute; reflexivity.
Qed.
(** A path with backslashes is read as another path: C:\new as "C:", a line break, "ew" *)
Theorem C82_path_refuted : ∃ c c' : kconfig bytes, ex_read (ex_write c) = Some c' ∧ kc_db_dir c = txt "C:\new" ∧ kc_db_dir c' = txt "C:" ++ [10] ++ txt "ew".
Proof.
  exists (ex_config (txt "http://localhost:26657") (txt "C:\new") 30), (ex_config (txt "http://localhost:26657") (txt "C:" ++ [10] ++ txt "ew") 30).
  split_and!; vm_compute; reflexivity.
Qed.
(** a quote in a path makes a file that cannot be read; so does a number from 2^63 *)
Theorem C82_quote_refuted : ex_read (ex_write (ex_config (txt "http://localhost:26657") (txt "/home/" ++ [34] ++ txt "x") 30)) = None.
Proof. vm_compute. reflexivity. Qed.
Theorem C82_number_refuted : ex_read (ex_write (ex_config (txt "http://localhost:26657") (txt "db") (2 ^ 63))) = None.
Proof. vm_compute. reflexivity. Qed.
(** the text of a value can contain other entries: with this address of the chain's node the file has an entry that is none of the
    configuration's, and another address *)
Theorem C82_injection_refuted : ∃ (c : kconfig bytes) kvs, kc_shuttermint_url c ≠ txt "a" ∧ toml (ex_write c) = Some kvs ∧ entry (txt "Extra") kvs = Some (TNum (txt "9")) ∧
  str_entry "ShuttermintURL" kvs = Some (txt "a").
Proof.
  eexists (ex_config (txt "a" ++ [34; 10] ++ txt "Extra = 9" ++ [10; 35]) (txt "db") 30), _. split; [discriminate|]. split_and!; vm_compute; reflexivity.
Qed.

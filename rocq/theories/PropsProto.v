(** C81: the bytes of a shuttermint message: what is written can be read back, unambiguously; unknown fields are ignored. *)
From stdpp Require Import list sets.
From Coq Require Import ZArith NArith Lia.
From Verif Require Import CryptoModel EncodingModel AppModel EventsModel EventsSpec ProtoModel ProtoProofs.
Open Scope N_scope.

(** ** What is written, in words *)
(** the protobuf documentation's varint: seven bits a byte, the least significant first, the high bit set in all bytes but the last *)
Inductive varint : N → bytes → Prop :=
| varint_last n : n < 128 → varint n [n]
| varint_more x n b : x < 128 → varint n b → varint (x + 128 * n) ((128 + x) :: b).
(** a field with its number: a varint with the tag 8·number, or a length-delimited byte string with the tag 8·number+2 *)
Inductive field_bytes : N → N + bytes → bytes → Prop :=
| field_varint num n t v : varint (8 * num) t → varint n v → field_bytes num (inl n) (t ++ v)
| field_string num b t l : varint (8 * num + 2) t → varint (N.of_nat (length b)) l → field_bytes num (inr b) (t ++ l ++ b).

Lemma varint_put_ f n : n < 128 ^ N.of_nat (S f) → varint n (put_varint_ f n).
Proof.
  revert n. induction f as [|f IH]; intros n H; cbn [put_varint_].
  { constructor. change (128 ^ N.of_nat 1) with 128 in H. lia. }
  destruct (N.ltb_spec n 128); [by constructor|].
  rewrite (N.div_mod n 128) at 1 by done. rewrite N.add_comm. constructor; [by apply N.mod_lt|]. apply IH.
  apply N.div_lt_upper_bound; [done|]. rewrite <- N.pow_succ_r'. by rewrite <- Nat2N.inj_succ.
Qed.
Lemma varint_put n : varint n (put_varint n).
Proof. apply varint_put_, size_bound. done. Qed.
Lemma get_varint_spec k b n r : get_varint k b = Some (n, r) → is_bytes b → ∃ v, b = v ++ r ∧ varint n v ∧ (length v ≤ k)%nat.
Proof.
  revert b n. induction k as [|k IH]; intros b n H Hb; [by destruct b|]. destruct b as [|x b]; [done|]. apply Forall_cons_1 in Hb as [Hx Hb]. cbn [get_varint] in H.
  destruct (N.ltb_spec x 128). { injection H as <- <-. exists [x]. split_and!; [done|by constructor|cbn; lia]. }
  destruct (get_varint k b) as [[v r']|] eqn:E; [|done]. cbn [mbind option_bind] in H. injection H as <- <-.
  apply IH in E as (w & -> & Hw & Hl); [|done]. exists ((128 + (x - 128)) :: w).
  split_and!; [replace (128 + (x - 128)) with x by lia; done|constructor; [lia|done]|cbn; lia].
Qed.
Lemma varint_get k n v r : varint n v → (length v ≤ k)%nat → get_varint k (v ++ r) = Some (n, r).
Proof.
  intros H. revert k. induction H as [n Hn|x n b Hx _ IH]; intros k Hk; (destruct k as [|k]; [cbn in Hk; lia|]).
  - cbn [get_varint Datatypes.app]. by rewrite (proj2 (N.ltb_lt _ _) Hn).
  - change ((128 + x :: b) ++ r) with (128 + x :: (b ++ r)). cbn [get_varint]. rewrite (proj2 (N.ltb_ge (128 + x) 128) (N.le_add_r 128 x)).
    rewrite IH by (cbn in Hk; lia). cbn [mbind option_bind]. do 3 f_equal. lia.
Qed.

(** a number is read from a varint of at most ten bytes, and only if it fits in 64 bits *)
Theorem C81_numbers b n r : is_bytes b → get_u64 b = Some (n, r) ↔ ∃ v, b = v ++ r ∧ varint n v ∧ (length v ≤ 10)%nat ∧ is_u64 n.
Proof.
  intros Hb. unfold get_u64. split.
  - destruct (get_varint 10 b) as [[x r']|] eqn:E; [|done]. cbn [mbind option_bind]. destruct (N.ltb_spec x (2 ^ 64)); [|done]. intros [= <- <-].
    apply get_varint_spec in E as (v & -> & Hv & Hl); [|done]. by exists v.
  - intros (v & -> & Hv & Hl & Hn). rewrite (varint_get 10 n v r) by done. cbn [mbind option_bind]. by rewrite (proj2 (N.ltb_lt _ _) Hn).
Qed.

(** every field is written in the documented form, in the order of the message's fields *)
Definition value_of (f : N * wire) : N + bytes := match f.2 with WVarint n => inl n | WBytes b => inr b | WSkip => inl 0 end.
Lemma put_field_form f : ok_field f → field_bytes f.1 (value_of f) (put_field f).
Proof. destruct f as [num [n|b|]]; intros (_ & _ & H); [| |done]; cbn; constructor; apply varint_put. Qed.
Lemma put_fields_form fs : Forall ok_field fs → ∃ bss, put_fields fs = mjoin bss ∧ Forall2 (λ f b, field_bytes f.1 (value_of f) b) fs bss.
Proof.
  induction 1 as [|f fs Hf _ (bss & IH & IH2)]; [by exists []|]. exists (put_field f :: bss). split; [|constructor; [by apply put_field_form|done]].
  change (put_fields (f :: fs)) with (put_field f ++ put_fields fs). by rewrite IH.
Qed.

(** the transaction format, field by field (shmsg.proto:95-99): the message as field 1, the chain id as field 2, the nonce as field 3; what has
    the default value is left out *)
Theorem C81_form m : is_u64 (msg_nonce m) → ∃ b1 b2 b3, proto_marshal m = b1 ++ b2 ++ b3 ∧
  field_bytes 1 (inr (put_fields (payload_fields (msg_payload m)))) b1 ∧
  (if decide (msg_chain_id m = []) then b2 = [] else field_bytes 2 (inr (msg_chain_id m)) b2) ∧
  (if decide (msg_nonce m = 0) then b3 = [] else field_bytes 3 (inl (msg_nonce m)) b3).
Proof.
  intros Hn. exists (put_field (1, WBytes (put_fields (payload_fields (msg_payload m))))), (put_fields (f_bytes 2 (msg_chain_id m))), (put_fields (f_uint 3 (msg_nonce m))).
  assert (Happ : ∀ a b, put_fields (a ++ b) = put_fields a ++ put_fields b) by (intros; apply bind_app).
  split_and!.
  - unfold proto_marshal, message_fields.
    rewrite <-Happ. done.
  - apply (put_field_form (1, WBytes (put_fields (payload_fields (msg_payload m))))). by split_and!.
  - destruct (msg_chain_id m) as [|x l]; [done|]. cbn [f_bytes]. case_decide; [done|]. unfold put_fields. cbn [mbind list_bind]. rewrite app_nil_r.
    apply (put_field_form (2, WBytes (x :: l))). by split_and!.
  - unfold f_uint. destruct (N.eqb_spec (msg_nonce m) 0); case_decide; try done. unfold put_fields. cbn [mbind list_bind]. rewrite app_nil_r.
    apply (put_field_form (3, WVarint (msg_nonce m))). by split_and!.
Qed.

(** ** Round trip *)
Lemma all_bytes b : is_bytes b → forallb (λ x, x <? 256) b = true.
Proof. intros H. apply forallb_forall. intros x Hx. apply N.ltb_lt. rewrite Forall_forall in H. apply H. by apply elem_of_list_In. Qed.
Lemma all_bytes_inv b : forallb (λ x, x <? 256) b = true → is_bytes b.
Proof. intros E. apply Forall_forall. intros x Hx. apply N.ltb_lt. apply elem_of_list_In in Hx. revert x Hx. by apply forallb_forall. Qed.

(** every message whose fields have the Go types is read back, whatever its lists' lengths *)
Theorem C81_round_trip m : typed_payload (msg_payload m) → is_bytes (msg_chain_id m) → is_u64 (msg_nonce m) →
  is_bytes (proto_marshal m) ∧ proto_unmarshal (proto_marshal m) = Some m.
Proof.
  intros Hp Hc Hn. assert (Hb : is_bytes (proto_marshal m)) by by apply put_fields_bytes, ty_message_fields.
  split; [done|]. unfold proto_unmarshal. rewrite all_bytes by done. unfold proto_marshal. rewrite get_put_fields_nil by by apply ok_message_fields.
  cbn [mbind option_bind]. by apply set_message_ok.
Qed.
(** no two messages have the same bytes (so a signature of the bytes is one of the message) *)
Theorem C81_unambiguous m m' : typed_payload (msg_payload m) → is_bytes (msg_chain_id m) → is_u64 (msg_nonce m) →
  typed_payload (msg_payload m') → is_bytes (msg_chain_id m') → is_u64 (msg_nonce m') → proto_marshal m = proto_marshal m' → m = m'.
Proof.
  intros H1 H2 H3 H4 H5 H6 H. destruct (C81_round_trip m H1 H2 H3) as [_ Hm]. destruct (C81_round_trip m' H4 H5 H6) as [_ Hm'].
  rewrite H, Hm' in Hm. by injection Hm.
Qed.
(** whatever bytes are read, the fields have their types *)
Theorem C81_typed b m : proto_unmarshal b = Some m → typed_payload (msg_payload m) ∧ is_bytes (msg_chain_id m) ∧ is_u64 (msg_nonce m).
Proof. apply proto_unmarshal_typed. Qed.

(** ** Versions: fields that are not known are ignored, before and behind the known ones *)
Lemma merge_all_app {A} (set : A → N * wire → option A) a fs gs : merge_all set a (fs ++ gs) = (a' ← merge_all set a fs; merge_all set a' gs).
Proof. revert a. induction fs as [|f fs IH]; intros a; [done|]. cbn [merge_all Datatypes.app]. destruct (set a f); [apply IH|done]. Qed.
Lemma set_message_unknown m f : f.1 ∉ [1; 2; 3] → set_message m f = Some m.
Proof. intros H. destruct f as [num v]. cbn in H. destruct num as [|[[]|[]|]]; try done; exfalso; apply H; set_solver. Qed.
Lemma set_payload_unknown p f : f.1 ∉ [4; 6; 7; 8; 9; 10; 11; 12; 13; 14] → set_payload p f = Some p.
Proof.
  intros H. destruct f as [num v]. cbn in H. destruct num as [|[[[[]|[]|]|[[]|[]|]|]|[[[]|[]|]|[[]|[]|]|]|]]; try (by destruct v); exfalso; apply H; set_solver.
Qed.
(** a field of a later version of the protocol *)
Definition later_field (f : N * wire) : Prop := ok_field f ∧ typed_wire f.
Theorem C81_unknown_before f b : later_field f → f.1 ∉ [1; 2; 3] → proto_unmarshal (put_field f ++ b) = proto_unmarshal b.
Proof.
  intros [Hok Ht] Hnum. unfold proto_unmarshal. rewrite forallb_app, (all_bytes (put_field f)) by by apply put_field_bytes. cbn [andb].
  destruct (forallb _ b); [|done]. rewrite get_fields_field by done. destruct (get_fields b) as [fs|]; [|done].
  cbn [fmap option_fmap option_map mbind option_bind merge_all]. by rewrite set_message_unknown.
Qed.
Lemma merge_unknown {A} (set : A → N * wire → option A) (bad : list N) a fs : (∀ a f, f.1 ∉ bad → set a f = Some a) →
  Forall (λ f : N * wire, f.1 ∉ bad) fs → merge_all set a fs = Some a.
Proof. intros H. induction 1 as [|f fs Hf _ IH]; [done|]. cbn [merge_all]. by rewrite H. Qed.
Theorem C81_unknown_behind m fs : typed_payload (msg_payload m) → is_bytes (msg_chain_id m) → is_u64 (msg_nonce m) →
  Forall later_field fs → Forall (λ f, f.1 ∉ [1; 2; 3]) fs → proto_unmarshal (proto_marshal m ++ put_fields fs) = Some m.
Proof.
  intros Hp Hc Hn Hfs Hnum. destruct (C81_round_trip m Hp Hc Hn) as [Hb _]. unfold proto_unmarshal.
  assert (Hok : Forall ok_field fs) by (eapply Forall_impl; [exact Hfs|]; by intros ? []).
  assert (Ht : Forall typed_wire fs) by (eapply Forall_impl; [exact Hfs|]; by intros ? []).
  rewrite forallb_app, (all_bytes (proto_marshal m)), (all_bytes (put_fields fs)) by (done || by apply put_fields_bytes).
  cbn [andb]. unfold proto_marshal. rewrite get_put_fields by by apply ok_message_fields.
  rewrite get_put_fields_nil by done. cbn [fmap option_fmap option_map mbind option_bind].
  rewrite merge_all_app, set_message_ok by done. cbn [mbind option_bind]. apply (merge_unknown set_message [1; 2; 3]); [apply set_message_unknown|done].
Qed.
(** a kind of message that is not known yet is read as a message of no known kind *)
Theorem C81_unknown_payload fs chain n : Forall later_field fs → Forall (λ f, f.1 ∉ [4; 6; 7; 8; 9; 10; 11; 12; 13; 14]) fs → is_bytes chain → is_u64 n →
  proto_unmarshal (put_fields ((1, WBytes (put_fields fs)) :: f_bytes 2 chain ++ f_uint 3 n)) = Some (mkMessage MOther chain n).
Proof.
  intros Hfs Hnum Hc Hn. assert (Ht : Forall typed_wire ((1, WBytes (put_fields fs)) :: f_bytes 2 chain ++ f_uint 3 n)).
  { constructor; [|ty_fields]. apply put_fields_bytes. eapply Forall_impl; [exact Hfs|]. by intros ? []. }
  assert (Hok : Forall ok_field ((1, WBytes (put_fields fs)) :: f_bytes 2 chain ++ f_uint 3 n)) by (constructor; [by split_and!|ok_fields]).
  unfold proto_unmarshal. rewrite all_bytes by by apply put_fields_bytes. rewrite get_put_fields_nil by done. cbn [mbind option_bind merge_all set_message].
  rewrite get_put_fields_nil by (eapply Forall_impl; [exact Hfs|]; by intros ? []). cbn [mbind option_bind].
  rewrite (merge_unknown set_payload [4; 6; 7; 8; 9; 10; 11; 12; 13; 14]) by (done || apply set_payload_unknown). cbn [mbind option_bind msg_payload msg_chain_id msg_nonce].
  unfold f_uint. destruct (N.eqb_spec n 0) as [->|], chain; done.
Qed.

(** ** The protobuf part of what the other properties rely on *)
(** C25, C37, C66, C69, C70, ...: with this encoding, only the keys', points' and signatures' encodings remain to be relied on *)
Theorem C81_codecs (P : pairing) (PK : Type) pk_bytes g2_bytes g1_bytes pk_parse decompress compress g2_parse g1_parse sig_signer :
  (∀ k : PK, is_bytes (pk_bytes k) ∧ pk_parse (pk_bytes k) = Some k) →
  (∀ k, is_bytes (compress k) ∧ decompress (compress k) = Some k) →
  (∀ g : G2 P, is_bytes (g2_bytes g) ∧ g2_parse (g2_bytes g) = Some g) → g2_parse [] = None →
  (∀ g : G1 P, is_bytes (g1_bytes g) ∧ g1_parse (g1_bytes g) = Some g) →
  (∀ d sig a, sig_signer d sig = Some a → is_address a) →
  codecs P PK pk_bytes g2_bytes g1_bytes pk_parse decompress compress g2_parse g1_parse proto_marshal proto_unmarshal sig_signer.
Proof. intros H1 H2 H3 H4 H5 H6. constructor; try done; [apply C81_round_trip|]. intros b m H. by destruct (C81_typed _ _ H). Qed.

(** ** A concrete message *)
(** the bytes protoc's encoding yields for a check-in with the keys 01 02 and 03, on chain "ab", with nonce 300; a later field (number 4) and an
    overlong varint are no obstacle; the bytes cut short, a field number 0 and a varint of more than 64 bits are errors *)
Example C81_witness :
  let m := mkMessage (MCheckIn [1; 2] [3]) [97; 98] 300 in
  let b := [10; 9; 58; 7; 10; 2; 1; 2; 18; 1; 3; 18; 2; 97; 98; 24; 172; 2] in
  proto_marshal m = b ∧ proto_unmarshal b = Some m ∧ typed_payload (msg_payload m) ∧ is_bytes (msg_chain_id m) ∧ is_u64 (msg_nonce m) ∧
  later_field (4, WBytes [7; 7]) ∧ proto_unmarshal (b ++ [34; 2; 7; 7]) = Some m ∧
  (* field 3 twice: the last counts, here an overlong 5 *)
  proto_unmarshal (b ++ [24; 133; 0]) = Some (mkMessage (MCheckIn [1; 2] [3]) [97; 98] 5) ∧
  (* a second payload of another kind replaces the first; one of the same kind is merged *)
  proto_unmarshal (b ++ [10; 4; 50; 2; 8; 9]) = Some (mkMessage (MBatchConfigStarted 9) [97; 98] 300) ∧
  proto_unmarshal (b ++ [10; 5; 58; 3; 18; 1; 4]) = Some (mkMessage (MCheckIn [1; 2] [4]) [97; 98] 300) ∧
  (* an unknown group (field 5) *)
  proto_unmarshal (b ++ [43; 8; 1; 44]) = Some m ∧
  proto_unmarshal (take 17 b) = None ∧ proto_unmarshal (b ++ [43; 8; 1]) = None ∧ proto_unmarshal (b ++ [0; 1]) = None ∧ proto_unmarshal [15] = None ∧
  proto_unmarshal [24; 255; 255; 255; 255; 255; 255; 255; 255; 255; 2] = None ∧
  proto_unmarshal [24; 255; 255; 255; 255; 255; 255; 255; 255; 255; 1] = Some (mkMessage MOther [] (2 ^ 64 - 1)).
Proof.
  cbv zeta. repeat match goal with |- _ ∧ _ => split end; try (vm_compute; reflexivity).
  all: unfold typed_payload, later_field, ok_field, typed_wire, is_u64; cbn; repeat split; repeat constructor; try lia.
Qed.

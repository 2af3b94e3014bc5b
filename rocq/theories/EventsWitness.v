(** Concrete encodings: the hypotheses about the libraries' encodings (C25, C64 to C66) can be met. *)
From stdpp Require Import list gmap strings.
From Coq Require Import ZArith NArith Lia.
From Verif Require Import Fq CryptoModel EncModel EncodingModel PropsEncoding AppModel ObserveModel KeyperModel EventsModel EventsSpec EventsProofs PropsEvents.

(** keys: numbers; points: elements of the field, behind a byte *)
Definition x_num (n : N) : bytes := big_bytes (Z.of_N n).
Definition x_read_num (b : bytes) : N := AppModel.be_value b.
Definition x_pk (k : N) : bytes := x_num k.
Definition x_pk_parse (b : bytes) : option N := Some (x_read_num b).
Definition x_point (x : Fq) : bytes := 1%N :: big_bytes (ofF x).
Definition x_point_parse (b : bytes) : option Fq := match b with 1%N :: b => Some (toF (EncModel.be_value b)) | _ => None end.
(** signatures: the signer, and 64 zeros *)
Definition x_sign (me : N) (_ : bytes) : bytes := me :: replicate 64 0%N.
Definition x_signer (_ sig : bytes) : option N := match sig with a :: _ => if (a <? 256)%N then Some a else None | [] => None end.

(** messages: a list of fields, each a list of byte strings *)
Fixpoint enc_fields (fs : list (list bytes)) : bytes := match fs with [] => [] | f :: fs => (f ≫= λ b : bytes, (b ≫= λ x, [0; x]%N) ++ [1%N]) ++ 2%N :: enc_fields fs end.
Fixpoint dec_fields (cur : bytes) (f : list bytes) (fs : list (list bytes)) (l : bytes) : option (list (list bytes)) :=
  match l with
  | [] => Some fs
  | 0%N :: x :: l => dec_fields (cur ++ [x]) f fs l
  | 1%N :: l => dec_fields [] (f ++ [cur]) fs l
  | 2%N :: l => dec_fields [] [] (fs ++ [f]) l
  | _ => None
  end.
Definition x_bool (b : bool) : bytes := if b then [1%N] else [0%N].
Definition to_fields (m : message) : list (list bytes) :=
  [msg_chain_id m; x_num (msg_nonce m)] ::
  match msg_payload m with
  | MBatchConfig c => [[[0%N]; x_num (rc_start c); x_num (rc_threshold c); rc_contract c; x_num (rc_index c); x_bool (rc_started c); x_bool (rc_vupdated c)]; rc_keypers c]
  | MBatchConfigStarted i => [[[1%N]; x_num i]]
  | MCheckIn v e => [[[2%N]; v; e]]
  | MEonStartVote b => [[[3%N]; x_num b]]
  | MDecryptionSignature b sig => [[[4%N]; x_num b; sig]]
  | MPolyEval n rs es => [[[5%N]; x_num n]; rs; es]
  | MPolyCommitment n gs => [[[6%N]; x_num n]; gs]
  | MAccusation n rs => [[[7%N]; x_num n]; rs]
  | MApology n rs es => [[[8%N]; x_num n]; rs; es]
  | MEpochSecretKeyShare n ep sh => [[[9%N]; x_num n; x_num ep; sh]]
  | MOther => [[[10%N]]]
  end.
Definition to_payload (fs : list (list bytes)) : option payload :=
  match fs with
  | [[[0%N]; a; b; c; d; [e]; [g]]; ks] => Some (MBatchConfig (mkRawConfig (x_read_num a) ks (x_read_num b) c (x_read_num d) (e =? 1)%N (g =? 1)%N))
  | [[[1%N]; i]] => Some (MBatchConfigStarted (x_read_num i))
  | [[[2%N]; v; e]] => Some (MCheckIn v e)
  | [[[3%N]; b]] => Some (MEonStartVote (x_read_num b))
  | [[[4%N]; b; sig]] => Some (MDecryptionSignature (x_read_num b) sig)
  | [[[5%N]; n]; rs; es] => Some (MPolyEval (x_read_num n) rs es)
  | [[[6%N]; n]; gs] => Some (MPolyCommitment (x_read_num n) gs)
  | [[[7%N]; n]; rs] => Some (MAccusation (x_read_num n) rs)
  | [[[8%N]; n]; rs; es] => Some (MApology (x_read_num n) rs es)
  | [[[9%N]; n; ep; sh]] => Some (MEpochSecretKeyShare (x_read_num n) (x_read_num ep) sh)
  | [[[10%N]]] => Some MOther
  | _ => None
  end.
Definition of_fields (fs : list (list bytes)) : option message :=
  match fs with [cid; n] :: fs => p ← to_payload fs; Some (mkMessage p cid (x_read_num n)) | _ => None end.
Global Instance typed_payload_dec p : Decision (typed_payload p).
Proof. destruct p; cbn; unfold is_u64; apply _. Defined.
Definition x_pb (m : message) : bytes := enc_fields (to_fields m).
Definition x_pb_parse (b : bytes) : option message := fs ← dec_fields [] [] [] b; m ← of_fields fs; if decide (typed_payload (msg_payload m)) then Some m else None.

Lemma x_num_ok n : is_bytes (x_num n) ∧ x_read_num (x_num n) = n.
Proof. split; [apply big_bytes_bytes|]. unfold x_read_num, x_num. pose proof (be_value_N (big_bytes (Z.of_N n))) as E. rewrite be_big_bytes in E by lia. lia. Qed.
Lemma x_point_ok x : is_bytes (x_point x) ∧ x_point_parse (x_point x) = Some x.
Proof.
  split; [apply Forall_cons; split; [done|apply big_bytes_bytes]|]. unfold x_point_parse, x_point. f_equal. rewrite be_big_bytes; [apply toF_ofF|].
  destruct x as [z Hz]. cbn. apply Z.eqb_eq in Hz. rewrite <-Hz. by apply Z.mod_pos_bound.
Qed.
Lemma dec_bytes b cur f fs l : dec_fields cur f fs ((b ≫= λ x, [0; x]%N) ++ l) = dec_fields (cur ++ b) f fs l.
Proof. revert cur. induction b as [|x b IH]; intros cur; [by rewrite app_nil_r|]. cbn. rewrite IH. by rewrite <-(assoc_L (++)). Qed.
Lemma dec_field f f0 fs l : dec_fields [] f0 fs ((f ≫= λ b : bytes, (b ≫= λ x, [0; x]%N) ++ [1%N]) ++ l) = dec_fields [] (f0 ++ f) fs l.
Proof.
  revert f0. induction f as [|b f IH]; intros f0; [by rewrite app_nil_r|]. rewrite bind_cons, <-!(assoc_L (++)), dec_bytes. cbn. change (list_bind _ _ ?g f) with (f ≫= g). rewrite IH. by rewrite <-(assoc_L (++)).
Qed.
Lemma dec_enc fs fs0 : dec_fields [] [] fs0 (enc_fields fs) = Some (fs0 ++ fs).
Proof. revert fs0. induction fs as [|f fs IH]; intros fs0; [by rewrite app_nil_r|]. cbn [enc_fields]. rewrite dec_field. cbn [dec_fields]. rewrite app_nil_l, IH. by rewrite <-(assoc_L (++)). Qed.
Lemma enc_bytes fs : Forall (Forall is_bytes) fs → is_bytes (enc_fields fs).
Proof.
  induction 1 as [|f fs Hf H IH]; [constructor|]. cbn [enc_fields]. apply Forall_app. split; [|by constructor]. apply Forall_bind. eapply Forall_impl; [exact Hf|]. intros b Hb.
  apply Forall_app. split; [|by repeat constructor]. apply Forall_bind. eapply Forall_impl; [exact Hb|]. intros x Hx. by repeat constructor.
Qed.
Lemma fields_typed m : typed_payload (msg_payload m) → is_bytes (msg_chain_id m) → Forall (Forall is_bytes) (to_fields m).
Proof.
  intros Ht Hc. assert (∀ n, is_bytes (x_num n)) as Hn by (intros; apply x_num_ok). assert (∀ b, is_bytes (x_bool b)) as Hb by (intros []; by repeat constructor).
  assert (∀ n, (n < 256)%N → is_bytes [n]) as H1 by (intros; by repeat constructor).
  unfold to_fields. apply Forall_cons. split; [by repeat constructor|]. destruct (msg_payload m); cbn in Ht; destruct_and?; repeat (apply Forall_cons; split); try apply Forall_nil_2; try done; try apply Hn; try apply Hb; try (by apply H1).
Qed.
Lemma fields_back m : of_fields (to_fields m) = Some m.
Proof.
  destruct m as [p cid n]. unfold of_fields, to_fields. cbn [msg_payload msg_chain_id msg_nonce]. rewrite (proj2 (x_num_ok n)).
  destruct p as [[c1 c2 c3 c4 c5 c6 c7]| | | | | | | | | |]; cbn [to_payload mbind option_bind]; rewrite ?(λ n, proj2 (x_num_ok n)); try done.
  cbn [AppModel.rc_start AppModel.rc_keypers AppModel.rc_threshold AppModel.rc_contract AppModel.rc_index AppModel.rc_started AppModel.rc_vupdated]. destruct c6, c7; cbn [x_bool to_payload mbind option_bind]; by rewrite ?(λ n, proj2 (x_num_ok n)).
Qed.
Notation xcodecs := (codecs fq_pairing N x_pk x_point x_point x_pk_parse x_pk_parse x_pk x_point_parse x_point_parse x_pb x_pb_parse x_signer).
Example C25_witness : xcodecs.
Proof.
  constructor.
  - intros k. unfold x_pk, x_pk_parse. destruct (x_num_ok k) as [H ->]. done.
  - intros k. unfold x_pk, x_pk_parse. destruct (x_num_ok k) as [H ->]. done.
  - exact x_point_ok.
  - done.
  - exact x_point_ok.
  - intros m H1 H2 _. split; [by apply enc_bytes, fields_typed|]. unfold x_pb_parse, x_pb. rewrite dec_enc. cbn [mbind option_bind]. rewrite app_nil_l, fields_back. cbn [mbind option_bind]. by rewrite decide_True.
  - intros b m. unfold x_pb_parse. destruct (dec_fields [] [] [] b) as [fs|]; [|done]. cbn [mbind option_bind]. destruct (of_fields fs) as [m'|]; [|done]. cbn [mbind option_bind].
    destruct (decide _) as [Ht|]; [|done]. by intros [= <-].
  - intros d [|a sig] a'; cbn; [done|]. destruct (N.ltb_spec a 256); [|done]. intros [= <-]. unfold is_address. lia.
Qed.
Example C64_witness me : (me < 256)%N → signs me (λ x, x) (x_sign me) x_signer.
Proof.
  intros H. constructor; intros d; unfold x_sign; [|by cbn; rewrite (proj2 (N.ltb_lt _ _) H)]. split; [done|]. apply Forall_cons. split; [done|]. by apply Forall_replicate.
Qed.

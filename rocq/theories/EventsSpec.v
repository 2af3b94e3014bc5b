(** What the events published by shuttermint say, and what the messages of an honest keyper announce.  Nothing here depends on proofs. *)
From stdpp Require Import list.
From Coq Require Import ZArith NArith.
From Verif Require Import CryptoModel EncodingModel AppModel ObserveModel KeyperModel EventsModel.

Notation is_bytes := (Forall (λ b, (b < 256)%N)).
(** 20 bytes *)
Definition is_address (a : N) : Prop := (a < 2 ^ 160)%N.
Definition is_u64 (n : N) : Prop := (n < 2 ^ 64)%N.

(** the Go (protobuf) types of a message's fields: uint64 numbers, byte strings *)
Definition typed_payload (p : payload) : Prop :=
  match p with
  | MBatchConfig m => is_u64 (rc_start m) ∧ Forall is_bytes (rc_keypers m) ∧ is_u64 (rc_threshold m) ∧ is_bytes (rc_contract m) ∧ is_u64 (rc_index m)
  | MBatchConfigStarted i => is_u64 i
  | MCheckIn v e => is_bytes v ∧ is_bytes e
  | MEonStartVote b => is_u64 b
  | MDecryptionSignature b sig => is_u64 b ∧ is_bytes sig
  | MPolyEval eon rs es => is_u64 eon ∧ Forall is_bytes rs ∧ Forall is_bytes es
  | MPolyCommitment eon gs => is_u64 eon ∧ Forall is_bytes gs
  | MAccusation eon rs => is_u64 eon ∧ Forall is_bytes rs
  | MApology eon rs es => is_u64 eon ∧ Forall is_bytes rs ∧ Forall is_bytes es
  | MEpochSecretKeyShare eon ep sh => is_u64 eon ∧ is_u64 ep ∧ is_bytes sh
  | MOther => True
  end.

Section Spec.
(** keys and points with their byte forms *)
Context (P : pairing) (PK : Type) (pk_bytes : PK → bytes) (g2_bytes : G2 P → bytes) (g1_bytes : G1 P → bytes).
Notation sevent := (shutter_event (body P) sconfig PK (N * bytes)).

(** what a published event means to its readers, [h] being the height of its block.  The config contract's address and the flags of a
    config are not transmitted. *)
Inductive says (h : Z) : AppModel.event → sevent → Prop :=
| says_config c : says h (EvBatchConfig c) (BatchConfig (mkSConfig (cf_index c) (cf_start c) (cf_keypers c) (cf_threshold c)))
| says_started n b : says h (EvEonStarted n b) (EonStarted h n b)
| says_check_in a k : says h (EvCheckIn a (pk_bytes k)) (CheckIn a k)
| says_signature b a sig : says h (EvDecryptionSignature b a sig) (DecryptionSignature b (a, sig))
| says_poly_eval a n rs es : says h (EvPolyEval a n rs es) (EonEvent PolyEval (mkEv h n (BPolyEval a rs es)))
| says_commitment a n gs : says h (EvPolyCommitment a n (g2_bytes <$> gs)) (EonEvent Commitment (mkEv h n (BCommitment a gs)))
| says_accusation a n rs : says h (EvAccusation a n rs) (EonEvent Accusation (mkEv h n (BAccusation a rs)))
| says_apology a n rs es : says h (EvApology a n rs es) (EonEvent Apology (mkEv h n (BApology a rs (Z.of_N <$> es))))
| says_share a n ep sh : says h (EvEpochSecretKeyShare a n ep (g1_bytes sh)) (EonEvent KeyShare (mkEv h n (BKeyShare a ep sh))).

(** a commitment to no coefficients *)
Definition empty_commitment (e : AppModel.event) : Prop := ∃ a n, e = EvPolyCommitment a n [].

(** the messages of the key generation and decryption an honest keyper [me] sends, and what the others shall read *)
Inductive announces (compress : PK → bytes) (me : N) (h : Z) : payload → sevent → Prop :=
| an_check_in v k : announces compress me h (m_check_in PK v compress k) (CheckIn me k)
| an_signature b sig : announces compress me h (m_signature b sig) (DecryptionSignature b (me, sig))
| an_poly_eval n rs es : Forall is_address rs → announces compress me h (m_poly_eval n rs es) (EonEvent PolyEval (mkEv h n (BPolyEval me rs es)))
| an_commitment n gs : gs ≠ [] → announces compress me h (m_commitment P g2_bytes n gs) (EonEvent Commitment (mkEv h n (BCommitment me gs)))
| an_accusation n rs : Forall is_address rs → announces compress me h (m_accusation n rs) (EonEvent Accusation (mkEv h n (BAccusation me rs)))
| an_apology n rs es : Forall is_address rs → Forall (λ x, 0 ≤ x)%Z es → announces compress me h (m_apology n rs es) (EonEvent Apology (mkEv h n (BApology me rs es)))
| an_share n ep sh : announces compress me h (m_share P g1_bytes n ep sh) (EonEvent KeyShare (mkEv h n (BKeyShare me ep sh))).

(** what is relied on: the libraries' encodings of keys, points, messages and signatures can be read back *)
Record codecs (pk_parse : bytes → option PK) (decompress : bytes → option PK) (compress : PK → bytes) (g2_parse : bytes → option (G2 P))
  (g1_parse : bytes → option (G1 P)) (pb_bytes : message → bytes) (pb_parse : bytes → option message)
  (sig_signer : bytes → bytes → option N) := {
  cd_pk k : is_bytes (pk_bytes k) ∧ pk_parse (pk_bytes k) = Some k;
  cd_compress k : is_bytes (compress k) ∧ decompress (compress k) = Some k;
  cd_g2 g : is_bytes (g2_bytes g) ∧ g2_parse (g2_bytes g) = Some g;
  (* hex.DecodeString yields the empty byte string for an empty part: not a point *)
  cd_g2_empty : g2_parse [] = None;
  cd_g1 g : is_bytes (g1_bytes g) ∧ g1_parse (g1_bytes g) = Some g;
  cd_pb m : typed_payload (msg_payload m) → is_bytes (msg_chain_id m) → is_u64 (msg_nonce m) → is_bytes (pb_bytes m) ∧ pb_parse (pb_bytes m) = Some m;
  (* parsed messages have the fields' types *)
  cd_typed b m : pb_parse b = Some m → typed_payload (msg_payload m);
  cd_signer d sig a : sig_signer d sig = Some a → is_address a
}.
(** crypto.Sign with the key of [me] *)
Record signs (me : N) (sha3 : bytes → bytes) (sign : bytes → bytes) (sig_signer : bytes → bytes → option N) : Prop := {
  sg_len d : length (sign d) = 65%nat ∧ is_bytes (sign d);
  sg_me d : sig_signer d (sign d) = Some me
}.
(** the app with these encodings: AppModel's external decoders *)
Definition chain_oracles (pk_parse : bytes → option PK) (decompress : bytes → option PK) (g2_parse : bytes → option (G2 P)) (g1_parse : bytes → option (G1 P))
  (pb_parse : bytes → option message) (sha3 : bytes → bytes) (sig_signer : bytes → bytes → option N) : oracles :=
  mkOracles (parse_tx pb_parse sha3 sig_signer) (λ b, pk_bytes <$> decompress b) (λ b, g2_bytes <$> g2_parse b) (λ b, g1_bytes <$> g1_parse b).
End Spec.

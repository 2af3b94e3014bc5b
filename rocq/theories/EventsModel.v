(** Model of /repo/shuttermint/keyper/shutterevents (marshal.go, helpers.go, events.go), /repo/shuttermint/shmsg (messages.go, encode.go)
    and of the transaction format (keyper/fx/messagesender.go, app/app.go decodeTx).

    Text is a list of ASCII codes.  Simplifications: the Index flag of attributes is dropped (it is for tendermint's indexer only); the
    errors of the decoders are [None]. *)
From stdpp Require Import list strings.
From Coq Require Import ZArith NArith Lia.
From Verif Require Import CryptoModel EncModel EncodingModel AppModel ObserveModel KeyperModel.

(** abcitypes.Event: type and attributes (key, value) *)
Record abci := mkAbci { a_type : string; a_attrs : list (string * bytes) }.

(** evtype/evtype.go:4-14 *)
Definition t_accusation : string := "shutter.accusation-registered".
Definition t_apology : string := "shutter.apology-registered".
Definition t_batch_config : string := "shutter.batch-config".
Definition t_check_in : string := "shutter.check-in".
Definition t_decryption_signature : string := "shutter.decryption-signature".
Definition t_eon_started : string := "shutter.eon-started".
Definition t_poly_commitment : string := "shutter.poly-commitment-registered".
Definition t_poly_eval : string := "shutter.poly-eval-registered".
Definition t_epoch_secret_key_share : string := "shutter.epoch-secret-key-share".

(** ** Numbers *)
(** strconv.FormatUint(n, 10), fmt.Sprintf("%d", n) *)
Fixpoint format_fuel (fuel : nat) (n : N) : bytes :=
  match fuel with
  | O => []
  | S fuel => if (n <? 10)%N then [(48 + n)%N] else format_fuel fuel (n / 10) ++ [(48 + n mod 10)%N]
  end.
(** marshal.go:20-22 encodeUint64 *)
Definition encode_uint64 (n : N) : bytes := format_fuel (S (N.size_nat n)) n.
(** strconv.ParseUint(s, 10, 64): only digits, at least one, and the value fits *)
Definition parse_digit (acc : option N) (c : N) : option N :=
  v ← acc; if ((48 <=? c) && (c <=? 57))%N then Some (v * 10 + (c - 48))%N else None.
(** marshal.go:24-30 decodeUint64 *)
Definition decode_uint64 (s : bytes) : option N :=
  match s with
  | [] => None
  | _ => v ← foldl parse_digit (Some 0%N) s; if (v <? 2 ^ 64)%N then Some v else None
  end.

(** ** Lists *)
Definition comma : N := 44.
(** strings.Join(l, ",") *)
Fixpoint join (l : list bytes) : bytes :=
  match l with [] => [] | [p] => p | p :: l => p ++ comma :: join l end.
(** strings.Split(s, ",") *)
Fixpoint split (s : bytes) : list bytes :=
  match s with
  | [] => [[]]
  | c :: s => if (c =? comma)%N then [] :: split s
              else match split s with p :: ps => (c :: p) :: ps | [] => [[c]] end
  end.

(** ** Hexadecimal *)
(** encoding/hex EncodeToString *)
Definition hex_plain (bs : bytes) : bytes := mjoin ((λ b, [hex_digit (b / 16); hex_digit (b mod 16)]%N) <$> bs).
(** encoding/hex DecodeString: [EncodingModel.hex_pairs]; here what it returns along with an error: the bytes before the first bad pair *)
Fixpoint hex_prefix (l : bytes) : bytes :=
  match l with
  | a :: b :: l' => match hex_value a, hex_value b with Some x, Some y => (x * 16 + y)%N :: hex_prefix l' | _, _ => [] end
  | _ => []
  end.
(** go-ethereum common.has0xPrefix *)
Definition strip_0x (s : bytes) : bytes :=
  match s with
  | 48%N :: x :: l => if ((x =? 120) || (x =? 88))%N then l else s
  | _ => s
  end.

(** ** Addresses *)
(** the [n] big endian bytes of a number *)
Fixpoint be_bytes (n : nat) (a : N) : bytes := match n with O => [] | S n => be_bytes n (a / 256) ++ [(a mod 256)%N] end.
(** common.Address.Bytes *)
Definition address_bytes (a : address) : bytes := be_bytes 20 a.
(** go-ethereum common.HexToAddress: FromHex (odd lengths get a leading zero, errors are dropped), BytesToAddress (the last 20 bytes) *)
Definition hex_to_address (s : bytes) : address :=
  let s := strip_0x s in
  let s := if Nat.eqb (length s mod 2) 1 then 48%N :: s else s in
  let b := hex_prefix s in
  bytes_to_address (drop (length b - 20) b).
(** go-ethereum common.IsHexAddress *)
Definition is_hex_address (s : bytes) : bool :=
  Nat.eqb (length (strip_0x s)) 40 && forallb (λ c, match hex_value c with Some _ => true | None => false end) (strip_0x s).

Section Events.
(** the hash behind EIP-55 checksums *)
Context (keccak : bytes → bytes).
(** go-ethereum common.Address.Hex (checksumHex): a letter is upper case if its nibble of the hash of the lower case text exceeds 7 *)
Definition nibble (h : bytes) (i : nat) : N :=
  let b := default 0%N (h !! (i / 2)) in if Nat.eqb (i mod 2) 0 then (b / 16)%N else (b mod 16)%N.
Definition checksum (h : bytes) (i : nat) (c : N) : N := if ((57 <? c) && (7 <? nibble h i))%N then (c - 32)%N else c.
Definition address_hex (a : address) : bytes :=
  let l := hex_plain (address_bytes a) in 48%N :: 120%N :: imap (checksum (keccak l)) l.
(** marshal.go:152-154 encodeAddress *)
Definition encode_address (a : address) : bytes := address_hex a.
(** marshal.go:156-163 decodeAddress *)
Definition decode_address (s : bytes) : option address :=
  let a := hex_to_address s in if bool_decide (address_hex a = s) then Some a else None.
(** marshal.go:33-39 encodeAddresses *)
Definition encode_addresses (l : list address) : bytes := join (address_hex <$> l).
(** marshal.go:43-57 decodeAddresses *)
Definition decode_addresses (s : bytes) : option (list address) :=
  match s with
  | [] => Some []
  | _ => mapM (λ p, if is_hex_address p then Some (hex_to_address p) else None) (split s)
  end.

(** ** Byte strings *)
(** marshal.go:86-92 encodeByteSequence *)
Definition encode_byte_sequence (l : list bytes) : bytes := join (hex_encode <$> l).
(** marshal.go:95-109 decodeByteSequence *)
Definition decode_byte_sequence (s : bytes) : option (list bytes) :=
  match s with [] => Some [] | _ => mapM hex_decode (split s) end.

(** base64.RawURLEncoding *)
Definition b64_char (v : N) : N :=
  if (v <? 26)%N then (65 + v)%N else if (v <? 52)%N then (71 + v)%N else if (v <? 62)%N then (v - 4)%N
  else if (v =? 62)%N then 45%N else 95%N.
Definition b64_value (c : N) : option N :=
  if ((65 <=? c) && (c <=? 90))%N then Some (c - 65)%N
  else if ((97 <=? c) && (c <=? 122))%N then Some (c - 71)%N
  else if ((48 <=? c) && (c <=? 57))%N then Some (c + 4)%N
  else if (c =? 45)%N then Some 62%N else if (c =? 95)%N then Some 63%N else None.
Fixpoint b64_encode (l : bytes) : bytes :=
  match l with
  | a :: b :: c :: l' => b64_char (a / 4) :: b64_char ((a mod 4) * 16 + b / 16) :: b64_char ((b mod 16) * 4 + c / 64) :: b64_char (c mod 64) :: b64_encode l'
  | [a; b] => [b64_char (a / 4); b64_char ((a mod 4) * 16 + b / 16); b64_char ((b mod 16) * 4)]%N
  | [a] => [b64_char (a / 4); b64_char ((a mod 4) * 16)]%N
  | [] => []
  end%N.
Fixpoint b64_groups (l : list N) : option bytes :=
  match l with
  | x :: y :: z :: w :: l' => r ← b64_groups l'; Some ((x * 4 + y / 16) :: ((y mod 16) * 16 + z / 4) :: ((z mod 4) * 64 + w) :: r)%N
  | [x; y; z] => Some [x * 4 + y / 16; (y mod 16) * 16 + z / 4]%N
  | [x; y] => Some [x * 4 + y / 16]%N
  | [x] => None
  | [] => Some []
  end.
(** the decoder skips line breaks, and ignores the unused bits of the last character *)
Definition is_break (c : N) : bool := ((c =? 10) || (c =? 13))%N.
Definition b64_decode (s : bytes) : option bytes :=
  vs ← mapM b64_value (List.filter (λ c, negb (is_break c)) s); b64_groups vs.

(** ** Keys and points *)
(** [pk_bytes], [pk_parse]: crypto.FromECDSAPub, crypto.UnmarshalPubkey; [g2_bytes], [g2_parse]: bn256.G2 Marshal, Unmarshal;
    [g1_bytes], [g1_parse]: EpochSecretKeyShare GobEncode, GobDecode *)
Context (P : pairing) (PK : Type) (pk_bytes : PK → bytes) (pk_parse : bytes → option PK)
  (g2_bytes : G2 P → bytes) (g2_parse : bytes → option (G2 P)) (g1_bytes : G1 P → bytes) (g1_parse : bytes → option (G1 P)).

(** marshal.go:126-134 encodeGammas; the app's event holds the marshalled points ([AppModel.g2_unmarshal]) *)
Definition encode_gammas (l : list bytes) : bytes := join (hex_plain <$> l).
(** marshal.go:136-152 decodeGammas; there is no special case for the empty text *)
Definition decode_gammas (s : bytes) : option (list (G2 P)) := mapM (λ p, b ← hex_pairs p; g2_parse b) (split s).
(** marshal.go:67-70, 72-83 encodeEpochSecretKeyShare, decodeEpochSecretKeyShare *)
Definition encode_share (sh : bytes) : bytes := hex_encode sh.
Definition decode_share (s : bytes) : option (G1 P) := b ← hex_decode s; g1_parse b.
(** marshal.go:113-124, 165-177 encodePubkey, decodePubkey, encodeECIESPublicKey, decodeECIESPublicKey *)
Definition encode_pubkey (k : bytes) : bytes := b64_encode k.
Definition decode_pubkey (s : bytes) : option PK := b ← b64_decode s; pk_parse b.

(** ** Events *)
(** events.go: the MakeABCIEvent methods (30-39, 97-112, 169-194, 235-246, 288-309, 350-359, 369-378, 417-427, 470-480) *)
Definition make_abci (e : AppModel.event) : abci :=
  match e with
  | EvAccusation sender eon accused =>
      mkAbci t_accusation [("Sender", encode_address sender); ("Eon", encode_uint64 eon); ("Accused", encode_addresses accused)]
  | EvApology sender eon accusers evals =>
      mkAbci t_apology [("Sender", encode_address sender); ("Eon", encode_uint64 eon); ("Accusers", encode_addresses accusers);
        ("PolyEvals", encode_byte_sequence ((λ x, big_bytes (Z.of_N x)) <$> evals))]
  | EvBatchConfig c =>
      mkAbci t_batch_config [("StartBatchIndex", encode_uint64 (cf_start c)); ("Threshold", encode_uint64 (cf_threshold c));
        ("Keypers", encode_addresses (cf_keypers c)); ("ConfigIndex", encode_uint64 (cf_index c))]
  | EvCheckIn sender key =>
      mkAbci t_check_in [("Sender", encode_address sender); ("EncryptionPublicKey", encode_pubkey key)]
  | EvDecryptionSignature batch sender sig =>
      mkAbci t_decryption_signature [("BatchIndex", encode_uint64 batch); ("Sender", address_hex sender); ("Signature", b64_encode sig)]
  | EvEonStarted eon batch =>
      mkAbci t_eon_started [("Eon", encode_uint64 eon); ("BatchIndex", encode_uint64 batch)]
  | EvPolyCommitment sender eon gammas =>
      mkAbci t_poly_commitment [("Sender", encode_address sender); ("Eon", encode_uint64 eon); ("Gammas", encode_gammas gammas)]
  | EvPolyEval sender eon receivers evals =>
      mkAbci t_poly_eval [("Sender", encode_address sender); ("Eon", encode_uint64 eon); ("Receivers", encode_addresses receivers);
        ("EncryptedEvals", encode_byte_sequence evals)]
  | EvEpochSecretKeyShare sender eon epoch share =>
      mkAbci t_epoch_secret_key_share [("Sender", encode_address sender); ("Eon", encode_uint64 eon); ("Epoch", encode_uint64 epoch);
        ("Share", encode_share share)]
  end%string.

(** events.go:42-59 expectAttributes: the first attributes must have these names *)
Fixpoint expect_attributes (attrs : list (string * bytes)) (names : list string) : bool :=
  match names, attrs with
  | [], _ => true
  | n :: names, (k, _) :: attrs => bool_decide (k = n) && expect_attributes attrs names
  | _, [] => false
  end.
(** ev.Attributes[i].Value *)
Definition val (attrs : list (string * bytes)) (i : nat) : bytes := default [] (snd <$> attrs !! i).

(** what observe/shutter.go applies *)
Notation sevent := (shutter_event (body P) sconfig PK (N * bytes)).
(** events.go:61-89 *)
Definition make_accusation (l : list (string * bytes)) (h : Z) : option sevent :=
  if negb (expect_attributes l ["Sender"; "Eon"; "Accused"]%string) then None else
  sender ← decode_address (val l 0); eon ← decode_uint64 (val l 1); accused ← decode_addresses (val l 2);
  Some (EonEvent Accusation (mkEv h eon (BAccusation sender accused))).
(** events.go:114-152; big.Int.SetBytes *)
Definition make_apology (l : list (string * bytes)) (h : Z) : option sevent :=
  if negb (expect_attributes l ["Sender"; "Eon"; "Accusers"; "PolyEvals"]%string) then None else
  sender ← decode_address (val l 0); eon ← decode_uint64 (val l 1); accusers ← decode_addresses (val l 2);
  evals ← decode_byte_sequence (val l 3);
  Some (EonEvent Apology (mkEv h eon (BApology sender accusers (EncModel.be_value <$> evals)))).
(** events.go:198-226; ConfigContractAddress, Started and ValidatorsUpdated are not transmitted *)
Definition make_batch_config (l : list (string * bytes)) (h : Z) : option sevent :=
  if negb (expect_attributes l ["StartBatchIndex"; "Threshold"; "Keypers"; "ConfigIndex"]%string) then None else
  start ← decode_uint64 (val l 0); threshold ← decode_uint64 (val l 1); keypers ← decode_addresses (val l 2);
  index ← decode_uint64 (val l 3); Some (BatchConfig (mkSConfig index start keypers threshold)).
(** events.go:249-268 *)
Definition make_check_in (l : list (string * bytes)) (h : Z) : option sevent :=
  if negb (expect_attributes l ["Sender"; "EncryptionPublicKey"]%string) then None else
  sender ← decode_address (val l 0); key ← decode_pubkey (val l 1); Some (CheckIn sender key).
(** events.go:313-340 *)
Definition make_decryption_signature (l : list (string * bytes)) (h : Z) : option sevent :=
  if negb (expect_attributes l ["BatchIndex"; "Sender"; "Signature"]%string) then None else
  batch ← decode_uint64 (val l 0); sender ← decode_address (val l 1); sig ← b64_decode (val l 2);
  Some (DecryptionSignature batch (sender, sig)).
(** events.go:519-539 *)
Definition make_eon_started (l : list (string * bytes)) (h : Z) : option sevent :=
  if negb (expect_attributes l ["Eon"; "BatchIndex"]%string) then None else
  eon ← decode_uint64 (val l 0); batch ← decode_uint64 (val l 1); Some (EonStarted h eon batch).
(** events.go:380-407 *)
Definition make_poly_commitment (l : list (string * bytes)) (h : Z) : option sevent :=
  if negb (expect_attributes l ["Sender"; "Eon"; "Gammas"]%string) then None else
  sender ← decode_address (val l 0); eon ← decode_uint64 (val l 1); gammas ← decode_gammas (val l 2);
  Some (EonEvent Commitment (mkEv h eon (BCommitment sender gammas))).
(** events.go:429-463 *)
Definition make_poly_eval (l : list (string * bytes)) (h : Z) : option sevent :=
  if negb (expect_attributes l ["Sender"; "Eon"; "Receivers"; "EncryptedEvals"]%string) then None else
  sender ← decode_address (val l 0); eon ← decode_uint64 (val l 1); receivers ← decode_addresses (val l 2);
  evals ← decode_byte_sequence (val l 3);
  Some (EonEvent PolyEval (mkEv h eon (BPolyEval sender receivers evals))).
(** events.go:482-512 *)
Definition make_epoch_share (l : list (string * bytes)) (h : Z) : option sevent :=
  if negb (expect_attributes l ["Sender"; "Eon"; "Epoch"; "Share"]%string) then None else
  sender ← decode_address (val l 0); eon ← decode_uint64 (val l 1); epoch ← decode_uint64 (val l 2); share ← decode_share (val l 3);
  Some (EonEvent KeyShare (mkEv h eon (BKeyShare sender epoch share))).
(** events.go:542-566 MakeEvent.  Simplification: the heights of check-in, config and signature events, which nothing reads, are dropped *)
Definition make_event (e : abci) (h : Z) : option sevent :=
  let l := a_attrs e in
  if bool_decide (a_type e = t_check_in) then make_check_in l h
  else if bool_decide (a_type e = t_batch_config) then make_batch_config l h
  else if bool_decide (a_type e = t_decryption_signature) then make_decryption_signature l h
  else if bool_decide (a_type e = t_eon_started) then make_eon_started l h
  else if bool_decide (a_type e = t_poly_commitment) then make_poly_commitment l h
  else if bool_decide (a_type e = t_poly_eval) then make_poly_eval l h
  else if bool_decide (a_type e = t_accusation) then make_accusation l h
  else if bool_decide (a_type e = t_apology) then make_apology l h
  else if bool_decide (a_type e = t_epoch_secret_key_share) then make_epoch_share l h
  else None.

(** ** Messages *)
(** what the keyper submits to shuttermint: shmsg/messages.go (NewPolyCommitment, NewPolyEval, NewAccusation, NewApology, NewEonStartVote,
    NewEpochSecretKeyShare, NewCheckIn, NewDecryptionSignature) as called in decide.go:88-109 (apology, accusation), 345-349 (check-in),
    488-491 (evaluations), 509-511 (commitment), 548-550 (eon start vote), 769 (signature), 827-830 (key share).
    [compress]: crypto.CompressPubkey.  [big_bytes] of a negative number is never sent: evaluations are in [0, q) *)
Definition m_commitment (eon : N) (gammas : list (G2 P)) : payload := MPolyCommitment eon (g2_bytes <$> gammas).
Definition m_poly_eval (eon : N) (receivers : list address) (evals : list bytes) : payload := MPolyEval eon (address_bytes <$> receivers) evals.
Definition m_accusation (eon : N) (accused : list address) : payload := MAccusation eon (address_bytes <$> accused).
Definition m_apology (eon : N) (accusers : list address) (evals : list Z) : payload := MApology eon (address_bytes <$> accusers) (big_bytes <$> evals).
Definition m_share (eon epoch : N) (share : G1 P) : payload := MEpochSecretKeyShare eon epoch (g1_bytes share).
Definition m_eon_start_vote (batch : N) : payload := MEonStartVote batch.
Definition m_check_in (validator_key : bytes) (compress : PK → bytes) (key : PK) : payload := MCheckIn validator_key (compress key).
Definition m_signature (batch : N) (sig : bytes) : payload := MDecryptionSignature batch sig.

(** ** Transactions *)
(** [pb_bytes], [pb_parse]: protobuf marshalling of MessageWithNonce; [sha3]: SHA3-256; [sign]: crypto.Sign with the keyper's key, 65 bytes;
    [sig_signer]: crypto.SigToPub and PubkeyToAddress *)
Context (pb_bytes : message → bytes) (pb_parse : bytes → option message) (sha3 : bytes → bytes) (sign : bytes → bytes)
  (sig_signer : bytes → bytes → option address).
(** shmsg/encode.go:17 hashPrefix *)
Definition hash_prefix : bytes := [25; 115; 104; 109; 115; 103]%N.
(** shmsg/encode.go:20-41 SignMessage, fx/messagesender.go:101-120 SendMessage *)
Definition make_tx (m : message) : bytes := b64_encode (sign (sha3 (hash_prefix ++ pb_bytes m)) ++ pb_bytes m).
(** shmsg/encode.go:44-75 GetSigner, GetMessage, app/app.go:275-292 decodeTx *)
Definition parse_tx (tx : bytes) : option (address * message) :=
  b ← b64_decode tx;
  if Nat.ltb (length b) 65 then None else
  a ← sig_signer (sha3 (hash_prefix ++ drop 65 b)) (take 65 b);
  m ← pb_parse (drop 65 b);
  Some (a, m).
End Events.

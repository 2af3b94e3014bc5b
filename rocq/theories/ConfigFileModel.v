(** keyper/config.go: the keyper's configuration file, as it is written (WriteTOML) and read (Unmarshal), on the level of characters. *)
From Coq Require Import ZArith NArith Ascii String.
From stdpp Require Import list strings.
From Verif Require Import EncodingModel AppModel EventsModel.
Open Scope N_scope.

(** the characters of a text *)
Fixpoint txt (s : string) : bytes := match s with EmptyString => [] | String c s => N_of_ascii c :: txt s end.

(** ** TOML files (github.com/pelletier/go-toml 1.8.1, by viper), as far as keyper files go *)
(** Modelled: comments, blank lines, [key = value] with bare keys, basic strings, unquoted values (numbers).  Not modelled, and an error
    in the model: tables, dotted and quoted keys, other strings, arrays, \u and \U escapes. *)
Inductive tvalue := TStr (b : bytes) | TNum (b : bytes).
Definition is_space (c : N) : bool := (c =? 32) || (c =? 9).
Definition is_bare (c : N) : bool :=
  ((48 <=? c) && (c <=? 57)) || ((65 <=? c) && (c <=? 90)) || ((97 <=? c) && (c <=? 122)) || (c =? 45) || (c =? 95).
Fixpoint span (p : N → bool) (b : bytes) : bytes * bytes :=
  match b with [] => ([], []) | c :: r => if p c then let '(a, d) := span p r in (c :: a, d) else ([], b) end.
(** what a backslash and a character stand for *)
Definition escape (c : N) : option N :=
  match c with 98 => Some 8 | 116 => Some 9 | 110 => Some 10 | 102 => Some 12 | 114 => Some 13 | 34 => Some 34 | 92 => Some 92 | _ => None end.
(** the rest of a basic string *)
Fixpoint basic (b : bytes) : option (bytes * bytes) :=
  match b with
  | [] => None
  | c :: r =>
      if c =? 34 then Some ([], r)
      else if c =? 92 then match r with [] => None | e :: r' => x ← escape e; '(s, r'') ← basic r'; Some (x :: s, r'') end
      else if (c <? 32) && negb (c =? 9) then None
      else '(s, r') ← basic r; Some (c :: s, r')
  end.
Definition in_number (c : N) : bool := negb (is_space c || (c =? 10) || (c =? 35)).
Definition value (b : bytes) : option (tvalue * bytes) :=
  match b with
  | c :: r =>
      if c =? 34 then (if bool_decide (take 2 r = [34; 34]) then None else '(s, r') ← basic r; Some (TStr s, r'))
      else let '(n, r) := span in_number b in match n with [] => None | _ => Some (TNum n, r) end
  | [] => None
  end.
Fixpoint toml_ (fuel : nat) (b : bytes) : option (list (bytes * tvalue)) :=
  match fuel with
  | O => None
  | S f =>
      match (span (λ c, is_space c || (c =? 10)) b).2 with
      | [] => Some []
      | c :: r =>
          if c =? 35 then toml_ f (span (λ c, negb (c =? 10)) r).2 else
          let kr := span is_bare (c :: r) in
          match (span is_space kr.2).2 with
          | e :: r' =>
              if bool_decide (kr.1 = []) || negb (e =? 61) then None else
              '(v, r'') ← value (span is_space r').2;
              match (span is_space r'').2 with
              | [] => Some [(kr.1, v)]
              | x :: r3 => if (x =? 10) || (x =? 35) then
                             kvs ← toml_ f (x :: r3); if bool_decide (kr.1 ∈ kvs.*1) then None else Some ((kr.1, v) :: kvs)
                           else None
              end
          | [] => None
          end
      end
  end.
Definition toml (b : bytes) : option (list (bytes * tvalue)) := toml_ (S (length b)) b.
Fixpoint entry (k : bytes) (kvs : list (bytes * tvalue)) : option tvalue :=
  match kvs with [] => None | (k', v) :: kvs => if bool_decide (k' = k) then Some v else entry k kvs end.

(** ** The configuration *)
(** config.go:21-38 Config.  Keys are their scalars (32 bytes); the validator key is its seed.  [F]: float64. *)
Record kconfig (F : Type) := mkKConfig {
  kc_shuttermint_url : bytes; kc_ethereum_url : bytes; kc_db_dir : bytes;
  kc_signing_key : N; kc_validator_seed : bytes; kc_encryption_key : N;
  kc_config : N; kc_batcher : N; kc_broadcast : N; kc_executor : N; kc_deposit : N; kc_slasher : N;
  kc_follow : N; kc_staggering : N; kc_phase : N; kc_multiplier : F
}.
Arguments mkKConfig {F}. Arguments kc_shuttermint_url {F}. Arguments kc_ethereum_url {F}. Arguments kc_db_dir {F}. Arguments kc_signing_key {F}.
Arguments kc_validator_seed {F}. Arguments kc_encryption_key {F}. Arguments kc_config {F}. Arguments kc_batcher {F}. Arguments kc_broadcast {F}.
Arguments kc_executor {F}. Arguments kc_deposit {F}. Arguments kc_slasher {F}. Arguments kc_follow {F}. Arguments kc_staggering {F}.
Arguments kc_phase {F}. Arguments kc_multiplier {F}.

(** lines of the file: a comment, an empty line, a string, a number; [pad] is the space before the sign *)
Inductive line := LComment (b : bytes) | LBlank | LStr (k pad v : bytes) | LNum (k pad v : bytes).
Definition line_text (l : line) : bytes :=
  match l with
  | LComment b => 35 :: b ++ [10]
  | LBlank => [10]
  | LStr k pad v => k ++ pad ++ [61; 32; 34] ++ v ++ [34; 10]
  | LNum k pad v => k ++ pad ++ [61; 32] ++ v ++ [10]
  end.

(** the order of the curve secp256k1 *)
Definition secp256k1_n : N := 0xFFFFFFFFFFFFFFFFFFFFFFFFFFFFFFFEBAAEDCE6AF48A03BBFD25E8CD0364141.

Section File.
(** [keccak]: for the addresses' checksums; [signer]: crypto.PubkeyToAddress; [fmt], [rd]: text/template's printing of a float64 and the parsing of it *)
Context (keccak : bytes → bytes) (signer : N → N) (F : Type) (fmt : F → bytes) (rd : bytes → option F).
Notation tab := [9].
(** config.go:40-64 configTemplate.  text/template inserts the values as they are, without escaping *)
Definition lines (c : kconfig F) : list line := [
  LComment (txt " Shutter keyper configuration for " ++ address_hex keccak (signer (kc_signing_key c)));
  LBlank;
  LComment (txt " Contract addresses");
  LStr (txt "BatcherContract") [9; 9] (address_hex keccak (kc_batcher c));
  LStr (txt "ConfigContract") [9; 9] (address_hex keccak (kc_config c));
  LStr (txt "DepositContract") [9; 9] (address_hex keccak (kc_deposit c));
  LStr (txt "ExecutorContract") tab (address_hex keccak (kc_executor c));
  LStr (txt "KeyBroadcastContract") tab (address_hex keccak (kc_broadcast c));
  LStr (txt "KeyperSlasher") [9; 9] (address_hex keccak (kc_slasher c));
  LBlank;
  LStr (txt "EthereumURL") [9; 9] (kc_ethereum_url c);
  LStr (txt "ShuttermintURL") [9; 9] (kc_shuttermint_url c);
  LStr (txt "DBDir") [9; 9] (kc_db_dir c);
  LNum (txt "DKGPhaseLength") [9; 9] (encode_uint64 (kc_phase c));
  LNum (txt "ExecutionStaggering") tab (encode_uint64 (kc_staggering c));
  LNum (txt "MainChainFollowDistance") [32] (encode_uint64 (kc_follow c));
  LNum (txt "GasPriceMultiplier") [32; 32; 32; 32; 32; 32] (fmt (kc_multiplier c));
  LBlank;
  LComment (txt " Secret Keys");
  LStr (txt "EncryptionKey") tab (hex_plain (be_bytes 32 (kc_encryption_key c)));
  LStr (txt "SigningKey") tab (hex_plain (be_bytes 32 (kc_signing_key c)));
  LStr (txt "ValidatorSeed") tab (hex_plain (kc_validator_seed c)) ].
(** config.go:197-199 WriteTOML *)
Definition write_toml (c : kconfig F) : bytes := lines c ≫= line_text.

(** config.go:104-115 stringToAddress *)
Definition read_address (s : bytes) : option N := decode_address keccak s.
(** config.go:86-102: crypto.HexToECDSA: 32 bytes, not zero and less than the curve's order *)
Definition read_ecdsa (s : bytes) : option N :=
  b ← hex_pairs s;
  if Nat.eqb (length b) 32 then let d := bytes_to_address b in if (d =? 0) || (secp256k1_n <=? d) then None else Some d else None.
(** config.go:72-84 stringToEd25519PrivateKey *)
Definition read_seed (s : bytes) : option bytes := b ← hex_pairs s; if Nat.eqb (length b) 32 then Some b else None.
(** go-toml reads integers as int64.  Simplified: decimal digits only *)
Definition read_number (s : bytes) : option N := n ← decode_uint64 s; if n <? 2 ^ 63 then Some n else None.
Definition str_entry (k : string) (kvs : list (bytes * tvalue)) : option bytes := match entry (txt k) kvs with Some (TStr b) => Some b | _ => None end.
Definition num_entry (k : string) (kvs : list (bytes * tvalue)) : option bytes := match entry (txt k) kvs with Some (TNum b) => Some b | _ => None end.
(** config.go:145-160 Unmarshal of a file (viper.ReadInConfig).  Simplified: all entries are present (Go leaves the others at their zero
    values) and have the type they are written with (viper converts); the keys are spelt as they are written (viper ignores case);
    environment variables are not set. *)
Definition read_entries (kvs : list (bytes * tvalue)) : option (kconfig F) :=
  shuttermint ← str_entry "ShuttermintURL" kvs; ethereum ← str_entry "EthereumURL" kvs; db ← str_entry "DBDir" kvs;
  sign ← str_entry "SigningKey" kvs ≫= read_ecdsa; seed ← str_entry "ValidatorSeed" kvs ≫= read_seed; enc ← str_entry "EncryptionKey" kvs ≫= read_ecdsa;
  config ← str_entry "ConfigContract" kvs ≫= read_address; batcher ← str_entry "BatcherContract" kvs ≫= read_address;
  broadcast ← str_entry "KeyBroadcastContract" kvs ≫= read_address; executor ← str_entry "ExecutorContract" kvs ≫= read_address;
  deposit ← str_entry "DepositContract" kvs ≫= read_address; slasher ← str_entry "KeyperSlasher" kvs ≫= read_address;
  follow ← num_entry "MainChainFollowDistance" kvs ≫= read_number; staggering ← num_entry "ExecutionStaggering" kvs ≫= read_number;
  phase ← num_entry "DKGPhaseLength" kvs ≫= read_number; mult ← num_entry "GasPriceMultiplier" kvs ≫= rd;
  Some (mkKConfig shuttermint ethereum db sign seed enc config batcher broadcast executor deposit slasher follow staggering phase mult).
Definition read_toml (b : bytes) : option (kconfig F) := kvs ← toml b; read_entries kvs.
End File.

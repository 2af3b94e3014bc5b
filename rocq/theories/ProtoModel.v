(** The protobuf encoding of shmsg messages: what proto.Marshal and proto.Unmarshal (google.golang.org/protobuf, at shuttermint/shmsg/encode.go:21
    and 72) do with the messages declared in shuttermint/shmsg/shmsg.proto.  The library itself is not in /repo: the definitions here follow the
    proto3 wire format it implements (table-driven unmarshal: the last value of a singular field wins, repeated fields append, sub-messages
    merge, a known field with another wire type and unknown fields are skipped). *)
From stdpp Require Import list.
From Coq Require Import ZArith NArith.
From Verif Require Import EncodingModel AppModel.
Open Scope N_scope.

(** ** Varints: 7 bits a byte, least significant first, the high bit set in all but the last *)
Fixpoint put_varint_ (fuel : nat) (n : N) : bytes :=
  match fuel with
  | O => [n]
  | S f => if n <? 128 then [n] else (128 + n mod 128) :: put_varint_ f (n / 128)
  end.
(** protowire.AppendVarint *)
Definition put_varint (n : N) : bytes := put_varint_ (N.size_nat n) n.
(** at most [k] bytes *)
Fixpoint get_varint (k : nat) (b : bytes) : option (N * bytes) :=
  match k, b with
  | S k', x :: r => if x <? 128 then Some (x, r) else '(v, r') ← get_varint k' r; Some (x - 128 + 128 * v, r')
  | _, _ => None
  end.
(** protowire.ConsumeVarint: at most ten bytes, no overflow of 64 bits *)
Definition get_u64 (b : bytes) : option (N * bytes) := '(n, r) ← get_varint 10 b; if n <? 2 ^ 64 then Some (n, r) else None.
(** the length of a length-delimited field: a varint as well.  Byte strings of 2^64 bytes and more, which no Go slice is, are given longer
    lengths, so that encoding is total. *)
Definition get_length (b : bytes) : option (N * bytes) := if N.of_nat (length b) <? 2 ^ 64 then get_u64 b else get_varint (length b) b.

(** ** Fields *)
(** the value of a field: a varint, a length-delimited byte string, or a fixed-size number or group (no field of shmsg.proto is one) *)
Inductive wire := WVarint (n : N) | WBytes (b : bytes) | WSkip.

(** the first [n] bytes and the rest *)
Definition split_exact (n : N) (b : bytes) : option (bytes * bytes) :=
  if n <=? N.of_nat (length b) then Some (take (N.to_nat n) b, drop (N.to_nat n) b) else None.

(** protowire.ConsumeFieldValue for a group: the rest after the end of group [num]; [depth]: the recursion limit, 10000 *)
Fixpoint skip_group (fuel : nat) (depth num : N) (b : bytes) : option bytes :=
  match fuel with
  | O => None
  | S f =>
      '(t, r) ← get_u64 b;
      let n := t / 8 in
      if (n <? 1) || (2 ^ 31 - 1 <? n) then None else
      match t mod 8 with
      | 4 => if n =? num then Some r else None
      | 0 => '(_, r') ← get_u64 r; skip_group f depth num r'
      | 1 => '(_, r') ← split_exact 8 r; skip_group f depth num r'
      | 2 => '(l, r') ← get_length r; '(_, r'') ← split_exact l r'; skip_group f depth num r''
      | 5 => '(_, r') ← split_exact 4 r; skip_group f depth num r'
      | 3 => if depth =? 0 then None else r' ← skip_group f (depth - 1) n r; skip_group f depth num r'
      | _ => None
      end
  end.

(** the value of field [num] with wire type [typ] *)
Definition get_value (num typ : N) (b : bytes) : option (wire * bytes) :=
  match typ with
  | 0 => '(n, r) ← get_u64 b; Some (WVarint n, r)
  | 1 => '(_, r) ← split_exact 8 b; Some (WSkip, r)
  | 2 => '(l, r) ← get_length b; '(x, r') ← split_exact l r; Some (WBytes x, r')
  | 3 => r ← skip_group (length b) 10000 num b; Some (WSkip, r)
  | 5 => '(_, r) ← split_exact 4 b; Some (WSkip, r)
  | _ => None
  end.
Definition get_field (b : bytes) : option ((N * wire) * bytes) :=
  '(t, r) ← get_u64 b;
  let num := t / 8 in
  if (num <? 1) || (2 ^ 29 - 1 <? num) then None else
  '(v, r') ← get_value num (t mod 8) r;
  Some ((num, v), r').
(** the loop of impl.unmarshalPointer: the fields of a message in the order they are written *)
Fixpoint get_fields_ (fuel : nat) (b : bytes) : option (list (N * wire)) :=
  match b, fuel with
  | [], _ => Some []
  | _, O => None
  | _, S f => '(x, r) ← get_field b; fs ← get_fields_ f r; Some (x :: fs)
  end.
Definition get_fields (b : bytes) : option (list (N * wire)) := get_fields_ (length b) b.

(** a field's tag and value *)
Definition put_field (f : N * wire) : bytes :=
  match f with
  | (num, WVarint n) => put_varint (8 * num) ++ put_varint n
  | (num, WBytes b) => put_varint (8 * num + 2) ++ put_varint (N.of_nat (length b)) ++ b
  | (_, WSkip) => []
  end.
Definition put_fields (fs : list (N * wire)) : bytes := fs ≫= put_field.

(** ** shmsg.proto *)
(** proto3 leaves out a singular field with the zero value; repeated fields are written element by element, sub-messages even if empty *)
Definition f_uint (num n : N) : list (N * wire) := if n =? 0 then [] else [(num, WVarint n)].
Definition f_bool (num : N) (b : bool) : list (N * wire) := if b then [(num, WVarint 1)] else [].
Definition f_bytes (num : N) (b : bytes) : list (N * wire) := match b with [] => [] | _ => [(num, WBytes b)] end.
Definition f_list (num : N) (l : list bytes) : list (N * wire) := (λ b, (num, WBytes b)) <$> l.

(** shmsg.proto:20-28 BatchConfig *)
Definition config_fields (c : raw_config) : list (N * wire) :=
  f_uint 1 (rc_start c) ++ f_list 2 (rc_keypers c) ++ f_uint 3 (rc_threshold c) ++ f_bytes 4 (rc_contract c) ++ f_uint 5 (rc_index c)
    ++ f_bool 6 (rc_started c) ++ f_bool 7 (rc_vupdated c).
Definition empty_config : raw_config := mkRawConfig 0 [] 0 [] 0 false false.
Definition set_config (c : raw_config) (f : N * wire) : raw_config :=
  match f with
  | (1, WVarint n) => mkRawConfig n (rc_keypers c) (rc_threshold c) (rc_contract c) (rc_index c) (rc_started c) (rc_vupdated c)
  | (2, WBytes b) => mkRawConfig (rc_start c) (rc_keypers c ++ [b]) (rc_threshold c) (rc_contract c) (rc_index c) (rc_started c) (rc_vupdated c)
  | (3, WVarint n) => mkRawConfig (rc_start c) (rc_keypers c) n (rc_contract c) (rc_index c) (rc_started c) (rc_vupdated c)
  | (4, WBytes b) => mkRawConfig (rc_start c) (rc_keypers c) (rc_threshold c) b (rc_index c) (rc_started c) (rc_vupdated c)
  | (5, WVarint n) => mkRawConfig (rc_start c) (rc_keypers c) (rc_threshold c) (rc_contract c) n (rc_started c) (rc_vupdated c)
  | (6, WVarint n) => mkRawConfig (rc_start c) (rc_keypers c) (rc_threshold c) (rc_contract c) (rc_index c) (negb (n =? 0)) (rc_vupdated c)
  | (7, WVarint n) => mkRawConfig (rc_start c) (rc_keypers c) (rc_threshold c) (rc_contract c) (rc_index c) (rc_started c) (negb (n =? 0))
  | _ => c
  end.
(** shmsg.proto:30-32 BatchConfigStarted, 72-74 EonStartVote: one number *)
Definition set_number (n : N) (f : N * wire) : N := match f with (1, WVarint x) => x | _ => n end.
(** shmsg.proto:34-37 CheckIn *)
Definition set_two (c : bytes * bytes) (f : N * wire) : bytes * bytes :=
  match f with (1, WBytes b) => (b, c.2) | (2, WBytes b) => (c.1, b) | _ => c end.
(** shmsg.proto:39-42 DecryptionSignature *)
Definition set_number_bytes (c : N * bytes) (f : N * wire) : N * bytes :=
  match f with (1, WVarint n) => (n, c.2) | (2, WBytes b) => (c.1, b) | _ => c end.
(** shmsg.proto:50-53 PolyCommitment, 55-58 Accusation *)
Definition set_number_list (c : N * list bytes) (f : N * wire) : N * list bytes :=
  match f with (1, WVarint n) => (n, c.2) | (2, WBytes b) => (c.1, c.2 ++ [b]) | _ => c end.
(** shmsg.proto:44-48 PolyEval, 60-64 Apology *)
Definition set_number_lists (c : N * list bytes * list bytes) (f : N * wire) : N * list bytes * list bytes :=
  match f with
  | (1, WVarint n) => (n, c.1.2, c.2)
  | (2, WBytes b) => (c.1.1, c.1.2 ++ [b], c.2)
  | (3, WBytes b) => (c.1.1, c.1.2, c.2 ++ [b])
  | _ => c
  end.
(** shmsg.proto:66-70 EpochSecretKeyShare *)
Definition set_share (c : N * N * bytes) (f : N * wire) : N * N * bytes :=
  match f with (1, WVarint n) => (n, c.1.2, c.2) | (2, WVarint n) => (c.1.1, n, c.2) | (3, WBytes b) => (c.1.1, c.1.2, b) | _ => c end.

(** a sub-message is merged into the value there is *)
Definition merge_sub {A} (set : A → N * wire → A) (a : A) (b : bytes) : option A := fs ← get_fields b; Some (foldl set a fs).
Fixpoint merge_all {A} (set : A → N * wire → option A) (a : A) (fs : list (N * wire)) : option A :=
  match fs with [] => Some a | f :: fs => a' ← set a f; merge_all set a' fs end.

(** shmsg.proto:76-93 Message: a sub-message of the oneof.  If the value there is belongs to another member of the oneof it is replaced. *)
Definition set_payload (p : payload) (f : N * wire) : option payload :=
  match f with
  | (4, WBytes b) => MBatchConfig <$> merge_sub set_config (match p with MBatchConfig c => c | _ => empty_config end) b
  | (6, WBytes b) => MBatchConfigStarted <$> merge_sub set_number (match p with MBatchConfigStarted i => i | _ => 0 end) b
  | (7, WBytes b) => (λ c, MCheckIn c.1 c.2) <$> merge_sub set_two (match p with MCheckIn v e => (v, e) | _ => ([], []) end) b
  | (8, WBytes b) => (λ c, MDecryptionSignature c.1 c.2) <$> merge_sub set_number_bytes (match p with MDecryptionSignature n s => (n, s) | _ => (0, []) end) b
  | (9, WBytes b) => (λ c, MPolyEval c.1.1 c.1.2 c.2) <$> merge_sub set_number_lists (match p with MPolyEval n l k => (n, l, k) | _ => (0, [], []) end) b
  | (10, WBytes b) => (λ c, MPolyCommitment c.1 c.2) <$> merge_sub set_number_list (match p with MPolyCommitment n l => (n, l) | _ => (0, []) end) b
  | (11, WBytes b) => (λ c, MAccusation c.1 c.2) <$> merge_sub set_number_list (match p with MAccusation n l => (n, l) | _ => (0, []) end) b
  | (12, WBytes b) => (λ c, MApology c.1.1 c.1.2 c.2) <$> merge_sub set_number_lists (match p with MApology n l k => (n, l, k) | _ => (0, [], []) end) b
  | (13, WBytes b) => MEonStartVote <$> merge_sub set_number (match p with MEonStartVote i => i | _ => 0 end) b
  | (14, WBytes b) => (λ c, MEpochSecretKeyShare c.1.1 c.1.2 c.2) <$> merge_sub set_share (match p with MEpochSecretKeyShare n e s => (n, e, s) | _ => (0, 0, []) end) b
  | _ => Some p
  end.
Definition payload_fields (p : payload) : list (N * wire) :=
  match p with
  | MBatchConfig c => [(4, WBytes (put_fields (config_fields c)))]
  | MBatchConfigStarted i => [(6, WBytes (put_fields (f_uint 1 i)))]
  | MCheckIn v e => [(7, WBytes (put_fields (f_bytes 1 v ++ f_bytes 2 e)))]
  | MDecryptionSignature n s => [(8, WBytes (put_fields (f_uint 1 n ++ f_bytes 2 s)))]
  | MPolyEval n l k => [(9, WBytes (put_fields (f_uint 1 n ++ f_list 2 l ++ f_list 3 k)))]
  | MPolyCommitment n l => [(10, WBytes (put_fields (f_uint 1 n ++ f_list 2 l)))]
  | MAccusation n l => [(11, WBytes (put_fields (f_uint 1 n ++ f_list 2 l)))]
  | MApology n l k => [(12, WBytes (put_fields (f_uint 1 n ++ f_list 2 l ++ f_list 3 k)))]
  | MEonStartVote i => [(13, WBytes (put_fields (f_uint 1 i)))]
  | MEpochSecretKeyShare n e s => [(14, WBytes (put_fields (f_uint 1 n ++ f_uint 2 e ++ f_bytes 3 s)))]
  | MOther => []
  end.

(** shmsg.proto:95-99 MessageWithNonce.  A message that is not set and one without payload are the same to the model ([MOther]); the keyper
    always sets it. *)
Definition set_message (m : message) (f : N * wire) : option message :=
  match f with
  | (1, WBytes b) => fs ← get_fields b; p ← merge_all set_payload (msg_payload m) fs; Some (mkMessage p (msg_chain_id m) (msg_nonce m))
  | (2, WBytes b) => Some (mkMessage (msg_payload m) b (msg_nonce m))
  | (3, WVarint n) => Some (mkMessage (msg_payload m) (msg_chain_id m) n)
  | _ => Some m
  end.
Definition message_fields (m : message) : list (N * wire) :=
  (1, WBytes (put_fields (payload_fields (msg_payload m)))) :: f_bytes 2 (msg_chain_id m) ++ f_uint 3 (msg_nonce m).

(** shmsg/encode.go:21 proto.Marshal *)
Definition proto_marshal (m : message) : bytes := put_fields (message_fields m).
(** shmsg/encode.go:72 proto.Unmarshal into an empty MessageWithNonce.  Lists with an element that is no byte are not among Go's inputs. *)
Definition proto_unmarshal (b : bytes) : option message :=
  if forallb (λ x, x <? 256) b then fs ← get_fields b; merge_all set_message (mkMessage MOther [] 0) fs else None.

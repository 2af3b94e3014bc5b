(** Model of /repo/shlib/shcrypto/encoding.go, version.go and the gob methods of feldman.go.

    Unmarshal methods change their receiver: the model returns the new receiver and whether the returned
    error is nil. *)
From stdpp Require Import list.
From Coq Require Import ZArith NArith Lia.
From Verif Require Import Fq EncModel.

(** blst points as they are stored: affine coordinates that need not lie in the group.  [n] is the number of
    bytes of the compressed form (48 for P1Affine, 96 for P2Affine).
    The Go binding: func (p *P2Affine) Uncompress(in []byte) *P2Affine returns nil if the length is wrong or
    blst_p2_uncompress fails, otherwise p, which then holds the point. *)
Record codec (n : nat) := mkCodec {
  raw : Type;
  raw_eq : EqDecision raw;
  infinity : raw;                              (** the zero value, e.g. new(P2Affine) *)
  in_group : raw → bool;                       (** InG1 / InG2 *)
  compress : raw → list N;
  decode : list N → option raw;
  receiver_after_failure : raw → list N → raw; (** what a failed Uncompress leaves in the receiver *)
  compress_length : ∀ p, length (compress p) = n;
  compress_bytes : ∀ p, Forall (λ b, (b < 256)%N) (compress p);
  decode_compress : ∀ p, in_group p = true → decode (compress p) = Some p;
  decode_canonical : ∀ bs p, decode bs = Some p → compress p = bs;
  infinity_in_group : in_group infinity = true;
  (** inputs of the wrong length or without the compression flag are rejected before the receiver is touched *)
  receiver_untouched : ∀ p bs, (length bs ≠ n ∨ ∃ b l, bs = b :: l ∧ (b < 128)%N) →
    decode bs = None ∧ receiver_after_failure p bs = p
}.
Global Existing Instance raw_eq.
Arguments raw {n}. Arguments infinity {n _}. Arguments in_group {n _}. Arguments compress {n _}. Arguments decode {n _}.
Arguments receiver_after_failure {n _}.

(** Uncompress: the receiver afterwards and whether the result is not nil *)
Definition uncompress {n} {C : codec n} (p : raw C) (bs : list N) : raw C * bool :=
  match decode bs with Some q => (q, true) | None => (receiver_after_failure p bs, false) end.

Definition p2_bytes : nat := 96.
Definition p1_bytes : nat := 48.

(** version.go:3 *)
Definition version_identifier : N := 3.
(** version.go:6-11 IdentifyVersion; [None] = index out of range (unreachable: the empty input has length 0) *)
Definition identify_version (d : list N) : option N :=
  if Nat.eqb (length d mod block_size) 0 then Some 0%N else d !! 0%nat.

Section Enc.
Context (C2 : codec p2_bytes).
(** an EncryptedMessage; C1 is nil or a point *)
Record enc_msg := mkEncMsg { m_c1 : option (raw C2); m_c2 : list N; m_c3 : list (list N) }.

(** encoding.go:22-36 Marshal; [None] = panic *)
Definition marshal_msg (m : enc_msg) : option (list N) :=
  match m_c1 m with
  | None => None
  | Some p => Some (version_identifier :: compress p ++ m_c2 m ++ mjoin (m_c3 m))
  end.
(** encoding.go:38-72 Unmarshal.  The result of Uncompress is dropped: only the receiver is looked at. *)
Definition unmarshal_msg (m : enc_msg) (d : list N) : enc_msg * bool :=
  match d with
  | [] => (m, false)
  | v :: _ =>
      if negb (v =? version_identifier)%N then (m, false)
      else if Nat.ltb (length d) (1 + p2_bytes + block_size) ||
              negb (Nat.eqb ((length d - 1 - p2_bytes - block_size) mod block_size) 0) then (m, false)
      else
        let p0 := default infinity (m_c1 m) in
        let '(p, _) := uncompress p0 (take p2_bytes (drop 1 d)) in
        if negb (in_group p) then (mkEncMsg (Some p) (m_c2 m) (m_c3 m), false)
        else (mkEncMsg (Some p) (take block_size (drop (1 + p2_bytes) d))
                (split_blocks (drop (1 + p2_bytes + block_size) d)), true)
  end.

(** encoding.go:234-246 Gammas.Marshal, feldman.go:161-170 GobEncode *)
Definition marshal_gammas (g : list (raw C2)) : list N := mjoin (compress <$> g).
(** encoding.go:248-267 Gammas.Unmarshal; [None] = error (the receiver is then not usable) *)
Definition chunk (i : nat) (d : list N) : list N := take p2_bytes (drop (i * p2_bytes) d).
Definition unmarshal_gammas (d : list N) : option (list (raw C2)) :=
  if negb (Nat.eqb (length d mod p2_bytes) 0) then None
  else mapM (λ i,
    let '(p, ok) := uncompress (C := C2) infinity (chunk i d) in
    if negb ok then None else if negb (in_group p) then None else Some p) (seq 0 (length d / p2_bytes)).
(** feldman.go:172-186 Gammas.GobDecode: appends to the receiver, does not look at the result of Uncompress.
    Outer [None]: slice bounds out of range (the capacity of data is taken to be its length). *)
Fixpoint gob_decode_gammas (fuel : nat) (g : list (raw C2)) (d : list N) : option (list (raw C2) * bool) :=
  match d, fuel with
  | [], _ => Some (g, true)
  | _, O => None
  | _, S fuel =>
      if Nat.ltb (length d) p2_bytes then None
      else
        let '(p, _) := uncompress (C := C2) infinity (take p2_bytes d) in
        if negb (in_group p) then Some (g, false)
        else gob_decode_gammas fuel (g ++ [p]) (drop p2_bytes d)
  end.
End Enc.
Arguments mkEncMsg {C2}. Arguments m_c1 {C2}. Arguments m_c2 {C2}. Arguments m_c3 {C2}.
Arguments marshal_msg {C2}. Arguments unmarshal_msg {C2}. Arguments marshal_gammas {C2}.

(** encoding.go:88-190: EonPublicKeyShare, EonPublicKey (P2), EpochID, EpochSecretKeyShare, EpochSecretKey (P1)
    are all marshalled by Compress and unmarshalled by this code; gob uses the same methods (keys.go:30-88) *)
Definition marshal_point {n} {C : codec n} (p : raw C) : list N := compress p.
Definition unmarshal_point {n} {C : codec n} (p : raw C) (bs : list N) : raw C * bool :=
  let '(q, _) := uncompress p bs in (q, in_group q).

(** big.Int.Bytes: big endian without leading zeros *)
Fixpoint le_bytes (fuel : nat) (n : N) : list N :=
  match fuel with
  | O => []
  | S fuel => if (n =? 0)%N then [] else (n mod 256)%N :: le_bytes fuel (n / 256)
  end.
Definition big_bytes (x : Z) : list N := rev (le_bytes (N.size_nat (Z.to_N (Z.abs x))) (Z.to_N (Z.abs x))).
(** encoding.go:74-86 EonSecretKeyShare *)
Definition marshal_share (x : Z) : list N := big_bytes x.
Definition unmarshal_share (bs : list N) : Z * bool :=
  let x := be_value bs in (x, negb (order <=? x)%Z).

(** hexutil: lower case digits with prefix 0x; characters are their ASCII codes *)
Definition hex_digit (d : N) : N := if (d <? 10)%N then (48 + d)%N else (87 + d)%N.
Definition hex_encode (bs : list N) : list N := 48%N :: 120%N :: mjoin ((λ b, [hex_digit (b / 16); hex_digit (b mod 16)]%N) <$> bs).
Definition hex_value (c : N) : option N :=
  if ((48 <=? c) && (c <=? 57))%N then Some (c - 48)%N
  else if ((97 <=? c) && (c <=? 102))%N then Some (c - 87)%N
  else if ((65 <=? c) && (c <=? 70))%N then Some (c - 55)%N
  else None.
Fixpoint hex_pairs (l : list N) : option (list N) :=
  match l with
  | [] => Some []
  | a :: b :: l' =>
      match hex_value a, hex_value b, hex_pairs l' with
      | Some x, Some y, Some r => Some (x * 16 + y :: r)%N
      | _, _, _ => None
      end
  | _ => None
  end.
(** hexutil.Decode: the prefix may be 0x or 0X; the empty string and a missing prefix are errors *)
Definition hex_decode (s : list N) : option (list N) :=
  match s with
  | 48%N :: x :: l => if ((x =? 120) || (x =? 88))%N then hex_pairs l else None
  | _ => None
  end.
(** hexutil.Bytes.UnmarshalText (used by the keys) accepts the empty string as no bytes *)
Definition point_marshal_text {n} {C : codec n} (p : raw C) : list N := hex_encode (marshal_point p).
Definition point_unmarshal_text {n} {C : codec n} (p : raw C) (s : list N) : raw C * bool :=
  match s with
  | [] => unmarshal_point p []
  | _ => match hex_decode s with Some d => unmarshal_point p d | None => (p, false) end
  end.
(** encoding.go:207-217 Block.MarshalText, UnmarshalText: copy min(32, length) bytes *)
Definition block_marshal_text (b : list N) : list N := hex_encode b.
Definition block_unmarshal_text (b s : list N) : list N * bool :=
  match hex_decode s with
  | Some d => (take block_size d ++ drop (length (take block_size d)) b, true)
  | None => (b, false)
  end.
(** encoding.go:219-232 EncryptedMessage.MarshalText, UnmarshalText *)
Definition msg_marshal_text {C2} (m : enc_msg C2) : option (list N) := hex_encode <$> marshal_msg m.
Definition msg_unmarshal_text {C2} (m : enc_msg C2) (s : list N) : enc_msg C2 * bool :=
  match hex_decode s with Some d => unmarshal_msg m d | None => (m, false) end.
(** encoding.go:269-282 Gammas.MarshalText, UnmarshalText *)
Definition gammas_marshal_text {C2} (g : list (raw C2)) : list N := hex_encode (marshal_gammas g).
Definition gammas_unmarshal_text C2 (s : list N) : option (list (raw C2)) := hex_decode s ≫= unmarshal_gammas C2.

(** Model of /repo/shuttermint/keyper/epochkg/epochkg.go. *)
From stdpp Require Import list gmap.
From Coq Require Import ZArith NArith Lia.
From Verif Require Import CryptoModel DkgModel.

Section Epoch.
Context (P : pairing).
(** shcrypto.ComputeEpochID of the big endian encoding of the epoch (epochkg.go:55-57, 99-101): the hash
    to G1 is left open *)
Context (epoch_point : N → G1 P).

(** epochkg.go:33-38 EpochSecretKeyShare *)
Record epoch_share := mkEpochShare { es_eon : N; es_epoch : N; es_sender : N; es_share : G1 P }.

(** epochkg.go:20-31 EpochKG; a nil secret key is [None] *)
Record epochkg := mkEpochKG {
  ek_eon : N; ek_num : N; ek_threshold : N; ek_keyper : N; ek_sk : Z; ek_pk : G2 P; ek_pkshares : list (G2 P);
  ek_shares : gmap N (list epoch_share);
  ek_keys : gmap N (option (G1 P))
}.

(** epochkg.go:40-53 NewEpochKG *)
Definition new_epochkg (r : result P) : epochkg :=
  mkEpochKG (r_eon r) (r_num r) (r_threshold r) (r_keyper r) (r_sk r) (r_pk r) (r_pkshares r) ∅ ∅.
Definition set_shares_keys (s : epochkg) shares keys : epochkg :=
  mkEpochKG (ek_eon s) (ek_num s) (ek_threshold s) (ek_keyper s) (ek_sk s) (ek_pk s) (ek_pkshares s) shares keys.

(** epochkg.go:55-60 ComputeEpochSecretKeyShare *)
Definition my_epoch_share (s : epochkg) (epoch : N) : G1 P := epoch_secret_key_share (ek_sk s) (epoch_point epoch).

(** epochkg.go:62-70 computeEpochSecretKey *)
Definition compute_key (s : epochkg) (shares : list epoch_share) : option (G1 P) :=
  compute_epoch_secret_key ((λ m, int_of (es_sender m)) <$> shares) (es_share <$> shares) (Z.of_N (ek_threshold s)).

(** epochkg.go:72-92 addEpochSecretKeyShare: the new state and whether an error is returned *)
Definition add_share (s : epochkg) (m : epoch_share) : epochkg * bool :=
  let shares := default [] (ek_shares s !! es_epoch m) in
  if existsb (λ m', es_sender m' =? es_sender m)%N shares then (s, true)
  else
    let shares' := shares ++ [m] in
    if negb (Z.of_nat (length shares') =? int_of (ek_threshold s))%Z then
      (set_shares_keys s (<[es_epoch m := shares']> (ek_shares s)) (ek_keys s), false)
    else
      let key := compute_key s shares' in
      (set_shares_keys s (delete (es_epoch m) (ek_shares s)) (<[es_epoch m := key]> (ek_keys s)),
       match key with None => true | Some _ => false end).

(** epochkg.go:94-118 HandleEpochSecretKeyShare; [None] = panic (sender out of range) *)
Definition handle_share (s : epochkg) (m : epoch_share) : option (epochkg * bool) :=
  match ek_keys s !! es_epoch m with
  | Some _ => Some (s, false)
  | None =>
      match ek_pkshares s !! N.to_nat (es_sender m) with
      | None => None
      | Some pkshare =>
          if negb (verify_epoch_secret_key_share (es_share m) pkshare (epoch_point (es_epoch m))) then Some (s, true)
          else Some (add_share s m)
      end
  end.

(** a sequence of messages *)
Fixpoint handle_shares (s : epochkg) (ms : list epoch_share) : option epochkg :=
  match ms with
  | [] => Some s
  | m :: ms' => match handle_share s m with Some (s', _) => handle_shares s' ms' | None => None end
  end.
End Epoch.
Arguments mkEpochShare {P}. Arguments es_eon {P}. Arguments es_epoch {P}. Arguments es_sender {P}. Arguments es_share {P}.
Arguments ek_eon {P}. Arguments ek_num {P}. Arguments ek_threshold {P}. Arguments ek_keyper {P}. Arguments ek_sk {P}.
Arguments ek_pk {P}. Arguments ek_pkshares {P}. Arguments ek_shares {P}. Arguments ek_keys {P}.
Arguments new_epochkg {P}. Arguments set_shares_keys {P}. Arguments my_epoch_share {P}. Arguments compute_key {P}.
Arguments add_share {P}. Arguments handle_share {P}. Arguments handle_shares {P}.

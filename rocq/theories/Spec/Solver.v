(** The reduction from X-Wing to the X25519 Diffie-Hellman problem: an attacker against X-Wing,
    turned into a solver that is given two public keys and an oracle which recognises results
    of the first secret key.  The solver generates the ML-KEM-768 keys itself. *)
From Coq Require Import List ZArith Bool QArith.
From Verif.Base Require Import Oracles.
From Verif.Spec Require Import FIPS203 Domains XWing Random Lwe Attacker Tables.
Import ListNotations.
Open Scope Z_scope.

(** the ciphertexts the attacker has decapsulated *)
Fixpoint sent (hs : hashes) (dec : list Z -> list Z) (a : attacker) : list (list Z) :=
  match a with
  | Answer p => []
  | Ask f x len next => sent hs dec (next (reply hs f x len))
  | Decaps c next => c :: sent hs dec (next (dec c))
  end.

(** The hash functions the solver shows: SHA3-256(label || ss_M || ss_X || ct_X || pk_X) is
    TB(ss_M || ct_X) if the oracle [ok] recognises ss_X as the result for ct_X, and an entry of
    TA otherwise. *)
Definition dh_hashes (hs : hashes) (ok : list Z -> list Z -> bool) (pkx : list Z) (LY LB TA TB : list (list Z)) : hashes := {|
  sha3_256 := fun x =>
    let y := skipn 6 x in
    let ss_X := bytes32 32 y in
    let ct_X := bytes32 64 y in
    if list_eq_dec Z.eq_dec (firstn 6 x) XWingLabel then
      match entry LY TA y, entry LB TB (bytes32 0 y ++ ct_X) with
      | Some v, Some w => if list_eq_dec Z.eq_dec (skipn 96 y) pkx then (if ok ct_X ss_X then w else v) else v
      | _, _ => sha3_256 hs x
      end
    else sha3_256 hs x;
  sha3_512 := sha3_512 hs;
  shake128 := shake128 hs;
  shake256 := shake256 hs
|}.
(** The decapsulation it shows, without the X25519 secret key; [dk] is the key of ML-KEM, [c0]
    the challenge *)
Definition dh_decaps (hs : hashes) (n : nat) (LB LXC TB : list (list Z)) (dk c0 c : list Z) : list Z :=
  if list_eq_dec Z.eq_dec c c0 then []
  else if in_dec (list_eq_dec Z.eq_dec) c LXC then
    match Decaps_internal hs ML_KEM_768 n dk (firstn 1088 c) with
    | Some ss_M => match entry LB TB (ss_M ++ skipn 1088 c) with Some v => v | None => [] end
    | None => []
    end
  else [].

Section Solver.
  Variables (hs : hashes) (n : nat) (LY LB LXC : list (list Z)) (att : list Z -> list Z -> list Z -> attacker).
  (** drawn by the solver: the ML-KEM keys [ek], [dk], a ciphertext [c0], tables, a string to
      show as the shared secret *)
  Variables (ek dk c0 : list Z) (TA TB : list (list Z)) (V : list Z).

  (** Given the public keys [pkx] and [cx0], output the first ss_X in a question of the attacker
      that the oracle recognises as the result for [cx0]. *)
  Definition dh_solver (ok : list Z -> list Z -> bool) (pkx cx0 : list Z) : option (list Z) :=
    find (ok cx0) (map (fun p => bytes32 38 (snd p))
      (asked (dh_hashes hs ok pkx LY LB TA TB) (dh_decaps hs n LB LXC TB dk (c0 ++ cx0)) (att (ek ++ pkx) (c0 ++ cx0) V))).
  (** the ciphertexts it was asked about, among those of the right length *)
  Definition dh_sent (ok : list Z -> list Z -> bool) (pkx cx0 : list Z) : list (list Z) :=
    filter (fun c => if in_dec (list_eq_dec Z.eq_dec) c LXC then true else false)
      (sent (dh_hashes hs ok pkx LY LB TA TB) (dh_decaps hs n LB LXC TB dk (c0 ++ cx0)) (att (ek ++ pkx) (c0 ++ cx0) V)).
End Solver.

(** Does the ML-KEM ciphertext [c] reveal a second preimage of the secret that [m] leads to under
    the key [dk]?  Either another message with the same secret, or z || c. *)
Definition second_preimage (hs : hashes) (dk m c : list Z) : bool :=
  let h := dk_sec_h ML_KEM_768 dk in
  let K := fst (G hs (m ++ h)) in
  let m' := KPKE_Decrypt ML_KEM_768 (dk_sec_pke ML_KEM_768 dk) c in
  (if list_eq_dec Z.eq_dec m' m then false else if list_eq_dec Z.eq_dec (fst (G hs (m' ++ h))) K then true else false) ||
  (if list_eq_dec Z.eq_dec (J hs (dk_sec_z ML_KEM_768 dk ++ c)) K then true else false).
(** is it sent in a ciphertext with an ML-KEM part other than [c0]? *)
Definition sends_second_preimage (hs : hashes) (dk m c0 : list Z) (cs : list (list Z)) : bool :=
  existsb (fun c => if list_eq_dec Z.eq_dec (firstn 1088 c) c0 then false else second_preimage hs dk m (firstn 1088 c)) cs.

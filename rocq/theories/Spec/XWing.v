(** X-Wing, transcribed from draft-connolly-cfrg-xwing-kem (the version the crate
    implements: SHAKE128 key expansion, label first in the combiner) on byte strings.
    [X25519] is any function; the draft uses RFC 7748. *)
From Coq Require Import List ZArith.
From Verif.Base Require Import Oracles.
From Verif.Spec Require Import FIPS203.
Import ListNotations.
Open Scope Z_scope.

Section XWing.
  Variable hs : hashes.
  Variable X25519 : list Z -> list Z -> list Z.

  (** the u-coordinate 9 *)
  Definition X25519_BASE : list Z := 9 :: repeat 0 31.
  (** XWingLabel = the six bytes 5c 2e 2f 2f 5e 5c *)
  Definition XWingLabel : list Z := [92; 46; 47; 47; 94; 92].

  Definition SHAKE128 (m : list Z) (n : nat) : list Z := tab n (shake128 hs m).
  (** bytes a .. a+31 of a string *)
  Definition bytes32 (a : nat) (l : list Z) : list Z := firstn 32 (skipn a l).

  (** expandDecapsulationKey: (sk_M, sk_X, pk_M, pk_X) *)
  Definition XW_expand (n : nat) (sk : list Z) : option (list Z * list Z * list Z * list Z) :=
    let expanded := SHAKE128 sk 96 in
    match KeyGen_internal hs ML_KEM_768 n (bytes32 0 expanded) (bytes32 32 expanded) with
    | None => None
    | Some (pk_M, sk_M) =>
        let sk_X := bytes32 64 expanded in
        let pk_X := X25519 sk_X X25519_BASE in
        Some (sk_M, sk_X, pk_M, pk_X)
    end.

  (** GenerateKeyPairDerand: the public key of sk *)
  Definition XW_public (n : nat) (sk : list Z) : option (list Z) :=
    match XW_expand n sk with
    | None => None
    | Some (_, _, pk_M, pk_X) => Some (pk_M ++ pk_X)
    end.

  Definition Combiner (ss_M ss_X ct_X pk_X : list Z) : list Z :=
    sha3_256 hs (XWingLabel ++ ss_M ++ ss_X ++ ct_X ++ pk_X).

  (** EncapsulateDerand with eseed = m || e: (ss, ct) *)
  Definition XW_Encaps (n : nat) (pk eseed : list Z) : option (list Z * list Z) :=
    let pk_M := firstn 1184 pk in
    let pk_X := bytes32 1184 pk in
    let ek_X := bytes32 32 eseed in
    let ct_X := X25519 ek_X X25519_BASE in
    let ss_X := X25519 ek_X pk_X in
    match Encaps_internal hs ML_KEM_768 n pk_M (bytes32 0 eseed) with
    | None => None
    | Some (ss_M, ct_M) => Some (Combiner ss_M ss_X ct_X pk_X, ct_M ++ ct_X)
    end.

  (** Decapsulate *)
  Definition XW_Decaps (n : nat) (ct sk : list Z) : option (list Z) :=
    match XW_expand n sk with
    | None => None
    | Some (sk_M, sk_X, pk_M, pk_X) =>
        let ct_M := firstn 1088 ct in
        let ct_X := bytes32 1088 ct in
        match Decaps_internal hs ML_KEM_768 n sk_M ct_M with
        | None => None
        | Some ss_M => Some (Combiner ss_M (X25519 sk_X ct_X) ct_X pk_X)
        end
    end.
End XWing.

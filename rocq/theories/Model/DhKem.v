(** Model of dhkem/src/lib.rs, dhkem/src/ecdh_kem.rs and dhkem/src/x25519_kem.rs.

    Outside the repository: the [elliptic-curve] crate, represented by the record
    [ec_curve] (a scalar type with a random sampler, and its action on points), and the
    [x25519-dalek] crate ([x25519_impl] of Model/XWing.v). *)
From Coq Require Import List ZArith Bool.
From Verif.Base Require Import Res Oracles.
From Verif.Model Require Import Machine Crypto XWing.
Import ListNotations.

(** lib.rs:55-60, the newtypes *)
Record DhEncapsulator (X : Type) := MkDhEncapsulator { dh_enc_0 : X }.
Record DhDecapsulator (X : Type) := MkDhDecapsulator { dh_dec_0 : X }.
Arguments MkDhEncapsulator {X} _.
Arguments MkDhDecapsulator {X} _.
Arguments dh_enc_0 {X} _.
Arguments dh_dec_0 {X} _.

(** lib.rs:62-84, [AsRef] and [From]; lib.rs:86-98, [into_inner] *)
Definition enc_as_ref {X} (e : DhEncapsulator X) : X := dh_enc_0 e.
Definition enc_from {X} (x : X) : DhEncapsulator X := MkDhEncapsulator x.
Definition enc_into_inner {X} (e : DhEncapsulator X) : X := dh_enc_0 e.
Definition dec_as_ref {X} (e : DhDecapsulator X) : X := dh_dec_0 e.
Definition dec_from {X} (x : X) : DhDecapsulator X := MkDhDecapsulator x.
Definition dec_into_inner {X} (e : DhDecapsulator X) : X := dh_dec_0 e.

(** lib.rs:112-124 (feature zeroize): delegates to the wrapped type's [zeroize] *)
Definition enc_zeroize {X} (zeroize : X -> X) (e : DhEncapsulator X) : DhEncapsulator X :=
  MkDhEncapsulator (zeroize (dh_enc_0 e)).
Definition dec_zeroize {X} (zeroize : X -> X) (e : DhDecapsulator X) : DhDecapsulator X :=
  MkDhDecapsulator (zeroize (dh_dec_0 e)).

(** lib.rs:56, 59: derived [PartialEq] and [PartialOrd]/[Ord] compare the only field *)
Definition enc_eqb {X} (eqb : X -> X -> bool) (a b : DhEncapsulator X) : bool :=
  eqb (dh_enc_0 a) (dh_enc_0 b).
Definition enc_cmp {X} (cmp : X -> X -> comparison) (a b : DhEncapsulator X) : comparison :=
  cmp (dh_enc_0 a) (dh_enc_0 b).
Definition dec_eqb {X} (eqb : X -> X -> bool) (a b : DhDecapsulator X) : bool :=
  eqb (dh_dec_0 a) (dh_dec_0 b).
Definition dec_cmp {X} (cmp : X -> X -> comparison) (a b : DhDecapsulator X) : comparison :=
  cmp (dh_dec_0 a) (dh_dec_0 b).

(** lib.rs:100-110: [to_encoded_point] delegates to the wrapped public key *)
Definition enc_to_encoded_point {X E} (to_encoded_point : X -> bool -> E)
  (e : DhEncapsulator X) (compress : bool) : E := to_encoded_point (dh_enc_0 e) compress.

(** An elliptic curve of the [elliptic-curve] crate, as far as its [ecdh] module uses it:
    [EphemeralSecret::random] draws a scalar, the public key is [scalar * generator], and
    [diffie_hellman] is the x-coordinate of [scalar * point]. *)
Record ec_curve := {
  ec_scalar : Type;
  ec_point : Type;
  ec_coord : Type;
  ec_gen : ec_point;
  ec_mul : ec_scalar -> ec_point -> ec_point;
  ec_x : ec_point -> ec_coord;
  ec_random : forall g : rng, rng_state g -> ec_scalar * rng_state g
}.

Section Ecdh.
  Variable C : ec_curve.

  Definition ecdh_public (sk : ec_scalar C) : ec_point C := ec_mul C sk (ec_gen C).
  Definition ecdh_diffie_hellman (sk : ec_scalar C) (p : ec_point C) : ec_coord C :=
    ec_x C (ec_mul C sk p).

  (** ecdh_kem.rs:24-34 *)
  Definition ecdh_encapsulate (e : DhEncapsulator (ec_point C)) (g : rng) (s : rng_state g)
    : (ec_point C * ec_coord C) * rng_state g :=
    let '(sk, s) := ec_random C g s in
    let pk := ecdh_public sk in
    let ss := ecdh_diffie_hellman sk (dh_enc_0 e) in
    ((pk, ss), s).

  (** ecdh_kem.rs:43-47 *)
  Definition ecdh_decapsulate (d : DhDecapsulator (ec_scalar C)) (encapsulated_key : ec_point C)
    : ec_coord C := ecdh_diffie_hellman (dh_dec_0 d) encapsulated_key.

  (** ecdh_kem.rs:59-66 *)
  Definition ecdh_random_keypair (g : rng) (s : rng_state g)
    : (DhDecapsulator (ec_scalar C) * DhEncapsulator (ec_point C)) * rng_state g :=
    let '(sk, s) := ec_random C g s in
    let pk := ecdh_public sk in
    ((MkDhDecapsulator sk, MkDhEncapsulator pk), s).
End Ecdh.

Section X25519.
  Variable X : x25519_impl.

  (** [ReusableSecret::random_from_rng]: 32 bytes *)
  Definition reusable_random (g : rng) (s : rng_state g) : list Z * rng_state g :=
    fill_bytes g s 32.

  (** x25519_kem.rs:15-25 *)
  Definition x25519_encapsulate (e : DhEncapsulator (list Z)) (g : rng) (s : rng_state g)
    : (list Z * list Z) * rng_state g :=
    let '(sk, s) := reusable_random g s in
    let pk := x25519_public X sk in
    let ss := x25519 X sk (dh_enc_0 e) in
    ((pk, ss), s).

  (** x25519_kem.rs:31-35 *)
  Definition x25519_decapsulate (d : DhDecapsulator (list Z)) (encapsulated_key : list Z)
    : list Z := x25519 X (dh_dec_0 d) encapsulated_key.

  (** x25519_kem.rs:44-51 *)
  Definition x25519_random_keypair (g : rng) (s : rng_state g)
    : (DhDecapsulator (list Z) * DhEncapsulator (list Z)) * rng_state g :=
    let '(sk, s) := reusable_random g s in
    let pk := x25519_public X sk in
    ((MkDhDecapsulator sk, MkDhEncapsulator pk), s).
End X25519.

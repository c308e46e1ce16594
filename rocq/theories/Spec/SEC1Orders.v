(** The orders of the base points of the four curves, as SEC 2 (version 2.0) lists them with the
    cofactor h = 1, and what SEC 1 section 3.1.1.2.1 asks of such an order. *)
From Coq Require Import ZArith Znumtheory List.
From Verif.Spec Require Import SEC1.
Import ListNotations.
Open Scope Z_scope.

(** n is prime, n times the base point is the point at infinity, and the curve has h n = n points *)
Definition order_ok (C : curve) (n : Z) : Prop :=
  prime n /\ multiple C (Z.to_nat n) (G C) = Infinity /\
  exists points, NoDup points /\ (forall P, In P points <-> on_curve C P) /\ Z.of_nat (length points) = n.

(** the scalars of a key pair, SEC 1 section 3.2.1: 1 <= d <= n - 1 *)
Definition scalar (n d : Z) : Prop := 1 <= d <= n - 1.

(** SEC 2 section 2.4.1 *)
Definition order_secp256k1 : Z := 0xfffffffffffffffffffffffffffffffebaaedce6af48a03bbfd25e8cd0364141.
(** SEC 2 section 2.4.2 *)
Definition order_P256 : Z := 0xffffffff00000000ffffffffffffffffbce6faada7179e84f3b9cac2fc632551.
(** SEC 2 section 2.5.1 *)
Definition order_P384 : Z := 0xffffffffffffffffffffffffffffffffffffffffffffffffc7634d81f4372ddf581a0db248b0a77aecec196accc52973.
(** SEC 2 section 2.6.1 *)
Definition order_P521 : Z := 0x1fffffffffffffffffffffffffffffffffffffffffffffffffffffffffffffffffa51868783bf2f966b7fcc0148f709a5d03bb5c9b8899c47aebb6fb71e91386409.

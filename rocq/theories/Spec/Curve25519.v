(** The curve of RFC 7748 section 4.1, v^2 = u^3 + 486662 u^2 + u over the integers modulo
    p = 2^255 - 19, with the chord-and-tangent addition of its points (B = 1 below), and its
    quadratic twist 2 v^2 = u^3 + 486662 u^2 + u (B = 2; 2 is not a square modulo p). *)
From Coq Require Import List ZArith.
From Verif.Spec Require Import RFC7748.
Import ListNotations.
Open Scope Z_scope.

Definition A : Z := 486662.

Inductive point : Type := Infinity | Point (u v : Z).

Definition on_curve (B : Z) (P : point) : Prop :=
  match P with
  | Infinity => True
  | Point u v => 0 <= u < p25519 /\ 0 <= v < p25519 /\
      (B * v ^ 2) mod p25519 = (u ^ 3 + A * u ^ 2 + u) mod p25519
  end.

Definition inverse (x : Z) : Z := x ^ (p25519 - 2) mod p25519.

(** the third intersection of the line of slope l through (u1, v1) and the point with
    u-coordinate u2, reflected *)
Definition third (B l u1 v1 u2 : Z) : point :=
  let u3 := (B * l ^ 2 - A - u1 - u2) mod p25519 in
  Point u3 ((l * (u1 - u3) - v1) mod p25519).

Definition add (B : Z) (P Q : point) : point :=
  match P, Q with
  | Infinity, _ => Q
  | _, Infinity => P
  | Point u1 v1, Point u2 v2 =>
      if u1 =? u2 then
        if (v1 + v2) mod p25519 =? 0 then Infinity
        else third B ((3 * u1 ^ 2 + 2 * A * u1 + 1) * inverse (2 * B * v1)) u1 v1 u1
      else third B ((v1 - v2) * inverse (u1 - u2)) u1 v1 u2
  end.

Fixpoint multiple (B : Z) (n : nat) (P : point) : point :=
  match n with O => Infinity | S n => add B P (multiple B n P) end.

(** RFC 7748 encodes the point at infinity as 0 *)
Definition u_coordinate (P : point) : Z := match P with Infinity => 0 | Point u _ => u end.

(** The integers modulo p that are u-coordinates of points of order at most 8 (C67); see
    RFC 7748 section 6.1 and the references there. *)
Definition low_order : list Z :=
  [0; 1; p25519 - 1;
   325606250916557431795983626356110631294008115727848805560023387167927233504;
   39382357235489614581723060781553021112529911719440698176882885853963445705823].

(** RFC 7748 section 4.1: the prime order of the base point; the cofactor is 8.  And the
    same for the twist, with cofactor 4. *)
Definition prime_order : Z := 2 ^ 252 + 27742317777372353535851937790883648493.
Definition twist_order : Z := 2 ^ 253 - 55484635554744707071703875581767296995.

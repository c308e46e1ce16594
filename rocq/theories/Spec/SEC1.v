(** Elliptic curves y^2 = x^3 + a x + b over the integers modulo a prime p, as in SEC 1 (version
    2.0) section 2.2.1: the points, their addition, the Diffie-Hellman primitive of section
    3.3.1 and the octet strings of sections 2.3.3 and 2.3.5; and the four curves behind the key
    encapsulation mechanisms of dhkem, with the parameters of SEC 2 (P-256 is secp256r1 there,
    P-384 secp384r1, P-521 secp521r1). *)
From Coq Require Import ZArith Znumtheory List.
Import ListNotations.
Open Scope Z_scope.

Record curve := {
  p : Z;
  a : Z;
  b : Z;
  gx : Z;
  gy : Z
}.

(** section 3.1.1.2.1, the conditions on p, a and b *)
Definition curve_ok (C : curve) : Prop :=
  prime (p C) /\ p C <> 2 /\ (4 * a C ^ 3 + 27 * b C ^ 2) mod p C <> 0.

Inductive point : Type := Infinity | Point (x y : Z).

Definition on_curve (C : curve) (P : point) : Prop :=
  match P with
  | Infinity => True
  | Point x y => 0 <= x < p C /\ 0 <= y < p C /\
      (y ^ 2) mod p C = (x ^ 3 + a C * x + b C) mod p C
  end.

Definition G (C : curve) : point := Point (gx C) (gy C).

Definition inverse (C : curve) (x : Z) : Z := x ^ (p C - 2) mod p C.

Definition negate (C : curve) (P : point) : point :=
  match P with Infinity => Infinity | Point x y => Point x ((- y) mod p C) end.

(** section 2.2.1, rules 4 and 5, with the slope l *)
Definition third (C : curve) (l x1 y1 x2 : Z) : point :=
  let x3 := (l ^ 2 - x1 - x2) mod p C in
  Point x3 ((l * (x1 - x3) - y1) mod p C).

(** section 2.2.1, rules 1-5 *)
Definition add (C : curve) (P Q : point) : point :=
  match P, Q with
  | Infinity, _ => Q
  | _, Infinity => P
  | Point x1 y1, Point x2 y2 =>
      if x1 =? x2 then
        if (y1 + y2) mod p C =? 0 then Infinity
        else third C ((3 * x1 ^ 2 + a C) * inverse C (2 * y1)) x1 y1 x2
      else third C ((y2 - y1) * inverse C (x2 - x1)) x1 y1 x2
  end.

Fixpoint multiple (C : curve) (n : nat) (P : point) : point :=
  match n with O => Infinity | S n => add C P (multiple C n P) end.

(** section 2.3.5: field elements as octet strings of ceil (log2 p / 8) octets, most significant
    octet first *)
Definition field_length (C : curve) : nat := Z.to_nat ((Z.log2_up (p C) + 7) / 8).
Fixpoint octets (n : nat) (x : Z) : list Z :=
  match n with O => [] | S n => octets n (x / 256) ++ [x mod 256] end.
Definition field_octets (C : curve) (x : Z) : list Z := octets (field_length C) x.

(** section 2.3.3: points as octet strings, with or without compression *)
Definition point_octets (C : curve) (compress : bool) (P : point) : list Z :=
  match P with
  | Infinity => [0]
  | Point x y =>
      if compress then (2 + y mod 2) :: field_octets C x
      else 4 :: field_octets C x ++ field_octets C y
  end.

(** section 3.3.1: the x-coordinate of the product.  The primitive fails on the point at
    infinity, where 0 stands here. *)
Definition x_coordinate (P : point) : Z := match P with Infinity => 0 | Point x _ => x end.
Definition diffie_hellman (C : curve) (k : Z) (P : point) : list Z :=
  field_octets C (x_coordinate (multiple C (Z.to_nat k) P)).

(** ** the curves *)

(** P-256, SEC 2 section 2.4.2; p = 2 ^ 256 - 2 ^ 224 + 2 ^ 192 + 2 ^ 96 - 1 *)
Definition P256 : curve := {|
  p := 0xffffffff00000001000000000000000000000000ffffffffffffffffffffffff;
  a := 0xffffffff00000001000000000000000000000000fffffffffffffffffffffffc;
  b := 0x5ac635d8aa3a93e7b3ebbd55769886bc651d06b0cc53b0f63bce3c3e27d2604b;
  gx := 0x6b17d1f2e12c4247f8bce6e563a440f277037d812deb33a0f4a13945d898c296;
  gy := 0x4fe342e2fe1a7f9b8ee7eb4a7c0f9e162bce33576b315ececbb6406837bf51f5
|}.
(** P-384, SEC 2 section 2.5.1; p = 2 ^ 384 - 2 ^ 128 - 2 ^ 96 + 2 ^ 32 - 1 *)
Definition P384 : curve := {|
  p := 0xfffffffffffffffffffffffffffffffffffffffffffffffffffffffffffffffeffffffff0000000000000000ffffffff;
  a := 0xfffffffffffffffffffffffffffffffffffffffffffffffffffffffffffffffeffffffff0000000000000000fffffffc;
  b := 0xb3312fa7e23ee7e4988e056be3f82d19181d9c6efe8141120314088f5013875ac656398d8a2ed19d2a85c8edd3ec2aef;
  gx := 0xaa87ca22be8b05378eb1c71ef320ad746e1d3b628ba79b9859f741e082542a385502f25dbf55296c3a545e3872760ab7;
  gy := 0x3617de4a96262c6f5d9e98bf9292dc29f8f41dbd289a147ce9da3113b5f0b8c00a60b1ce1d7e819d7a431d7c90ea0e5f
|}.
(** P-521, SEC 2 section 2.6.1; p = 2 ^ 521 - 1 *)
Definition P521 : curve := {|
  p := 0x1ffffffffffffffffffffffffffffffffffffffffffffffffffffffffffffffffffffffffffffffffffffffffffffffffffffffffffffffffffffffffffffffffff;
  a := 0x1fffffffffffffffffffffffffffffffffffffffffffffffffffffffffffffffffffffffffffffffffffffffffffffffffffffffffffffffffffffffffffffffffc;
  b := 0x51953eb9618e1c9a1f929a21a0b68540eea2da725b99b315f3b8b489918ef109e156193951ec7e937b1652c0bd3bb1bf073573df883d2c34f1ef451fd46b503f00;
  gx := 0xc6858e06b70404e9cd9e3ecb662395b4429c648139053fb521f828af606b4d3dbaa14b5e77efe75928fe1dc127a2ffa8de3348b3c1856a429bf97e7e31c2e5bd66;
  gy := 0x11839296a789a3bc0045c8a5fb42c7d1bd998f54449579b446817afbd17273e662c97ee72995ef42640c550b9013fad0761353c7086a272c24088be94769fd16650
|}.
(** secp256k1, SEC 2 section 2.4.1; p = 2 ^ 256 - 2 ^ 32 - 977 *)
Definition secp256k1 : curve := {|
  p := 0xfffffffffffffffffffffffffffffffffffffffffffffffffffffffefffffc2f;
  a := 0x0;
  b := 0x7;
  gx := 0x79be667ef9dcbbac55a06295ce870b07029bfcdb2dce28d959f2815b16f81798;
  gy := 0x483ada7726a3c4655da4fbfc0e1108a8fd17b448a68554199c47d08ffb10d4b8
|}.

(** Multiplication of binary numbers by windows of four bits: what the kernel's conversion, which
    has no faster arithmetic than this, can use in place of [Z.mul] in long computations. *)
From Coq Require Import ZArith Lia.
Open Scope positive_scope.

Fixpoint windows (t1 t3 t5 t7 t9 t11 t13 t15 x : positive) : positive :=
  match x with
  | xH => t1
  | xO x => (windows t1 t3 t5 t7 t9 t11 t13 t15 x)~0
  | xI xH => t3
  | xI (xO xH) => t5
  | xI (xI xH) => t7
  | xI (xO (xO xH)) => t9
  | xI (xI (xO xH)) => t11
  | xI (xO (xI xH)) => t13
  | xI (xI (xI xH)) => t15
  | xI (xO (xO (xO x))) => t1 + (windows t1 t3 t5 t7 t9 t11 t13 t15 x)~0~0~0~0
  | xI (xI (xO (xO x))) => t3 + (windows t1 t3 t5 t7 t9 t11 t13 t15 x)~0~0~0~0
  | xI (xO (xI (xO x))) => t5 + (windows t1 t3 t5 t7 t9 t11 t13 t15 x)~0~0~0~0
  | xI (xI (xI (xO x))) => t7 + (windows t1 t3 t5 t7 t9 t11 t13 t15 x)~0~0~0~0
  | xI (xO (xO (xI x))) => t9 + (windows t1 t3 t5 t7 t9 t11 t13 t15 x)~0~0~0~0
  | xI (xI (xO (xI x))) => t11 + (windows t1 t3 t5 t7 t9 t11 t13 t15 x)~0~0~0~0
  | xI (xO (xI (xI x))) => t13 + (windows t1 t3 t5 t7 t9 t11 t13 t15 x)~0~0~0~0
  | xI (xI (xI (xI x))) => t15 + (windows t1 t3 t5 t7 t9 t11 t13 t15 x)~0~0~0~0
  end.
Definition pmul (x y : positive) : positive :=
  let y2 := y~0 in
  let y3 := y + y2 in
  let y5 := y3 + y2 in
  let y7 := y5 + y2 in
  let y9 := y7 + y2 in
  let y11 := y9 + y2 in
  let y13 := y11 + y2 in
  let y15 := y13 + y2 in
  windows y y3 y5 y7 y9 y11 y13 y15 x.

Lemma windows_mul y : forall x, windows y (3 * y) (5 * y) (7 * y) (9 * y) (11 * y) (13 * y) (15 * y) x = x * y.
Proof.
  fix IH 1. intros [[[[x|x|]|[x|x|]|]|[[x|x|]|[x|x|]|]|]|x|]; cbn [windows]; rewrite ?IH; lia.
Qed.
Lemma pmul_mul x y : pmul x y = x * y.
Proof.
  rewrite <- windows_mul. unfold pmul. cbv zeta.
  assert (E3 : y + y~0 = 3 * y) by lia. assert (E5 : 3 * y + y~0 = 5 * y) by lia. assert (E7 : 5 * y + y~0 = 7 * y) by lia.
  assert (E9 : 7 * y + y~0 = 9 * y) by lia. assert (E11 : 9 * y + y~0 = 11 * y) by lia. assert (E13 : 11 * y + y~0 = 13 * y) by lia.
  assert (E15 : 13 * y + y~0 = 15 * y) by lia.
  rewrite E3, E5, E7, E9, E11, E13, E15. reflexivity.
Qed.

Open Scope Z_scope.
Definition zmul (x y : Z) : Z :=
  match x, y with
  | 0, _ => 0
  | _, 0 => 0
  | Zpos x, Zpos y => Zpos (pmul x y)
  | Zpos x, Zneg y => Zneg (pmul x y)
  | Zneg x, Zpos y => Zneg (pmul x y)
  | Zneg x, Zneg y => Zpos (pmul x y)
  end.
Lemma zmul_mul x y : zmul x y = x * y.
Proof. destruct x, y; cbn [zmul]; rewrite ?pmul_mul; reflexivity. Qed.

(** reduction modulo n, up to a few n, with a scaled reciprocal m of n *)
Definition barrett (n m s t x : Z) : Z := x - zmul n (Z.shiftr (zmul m (Z.shiftr x s)) t).
Lemma barrett_ok n m s t : n <> 0 -> forall x, barrett n m s t x mod n = x mod n.
Proof.
  intros Hn x. unfold barrett. rewrite zmul_mul. set (y := Z.shiftr _ t).
  replace (x - n * y) with (x + - y * n) by ring. apply Z.mod_add, Hn.
Qed.

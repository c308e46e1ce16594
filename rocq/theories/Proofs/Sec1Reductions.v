(** Reductions modulo the primes of the curves of Spec/SEC1.v, by shifts: subtracting a multiple of
    p near the argument, twice. *)
From Coq Require Import ZArith Lia.
From Verif.Proofs Require Import FastMul.
From Verif.Spec Require Import SEC1.
Open Scope Z_scope.

Definition subtract (mulp quotient : Z -> Z) (x : Z) : Z := x - mulp (quotient x).
Lemma subtract_ok n mulp quotient : n <> 0 -> (forall x, mulp x = x * n) -> forall x, subtract mulp quotient x mod n = x mod n.
Proof.
  intros Hn H x. unfold subtract. rewrite H. replace (x - quotient x * n) with (x + - quotient x * n) by ring.
  apply Z.mod_add, Hn.
Qed.

Definition mul_p256 (x : Z) : Z := Z.shiftl x 256 - Z.shiftl x 224 + Z.shiftl x 192 + Z.shiftl x 96 - x.
Definition quot_p256 (x : Z) : Z := let h := Z.shiftr x 256 in h + Z.shiftr h 32.
Definition quot_p256_first (x : Z) : Z := let h := Z.shiftr x 256 in h + Z.shiftr h 32 - Z.shiftr h 96 - Z.shiftr h 128 - Z.shiftr h 160.
Definition red_p256 (x : Z) : Z := subtract mul_p256 quot_p256 (subtract mul_p256 quot_p256_first x).
Lemma red_p256_ok x : red_p256 x mod p P256 = x mod p P256.
Proof.
  assert (M : forall x, mul_p256 x = x * p P256).
  { intros y. unfold mul_p256. rewrite ?zmul_mul, !Z.shiftl_mul_pow2 by discriminate.
    replace (p P256) with (2 ^ 256 - 2 ^ 224 + 2 ^ 192 + 2 ^ 96 - 1) by reflexivity. ring. }
  unfold red_p256. rewrite !(subtract_ok (p P256)) by (discriminate || exact M). reflexivity.
Qed.

Definition mul_k256 (x : Z) : Z := Z.shiftl x 256 - Z.shiftl x 32 - zmul 977 x.
Definition quot_k256 (x : Z) : Z := Z.shiftr x 256.
Definition red_k256 (x : Z) : Z := subtract mul_k256 quot_k256 (subtract mul_k256 quot_k256 x).
Lemma red_k256_ok x : red_k256 x mod p secp256k1 = x mod p secp256k1.
Proof.
  assert (M : forall x, mul_k256 x = x * p secp256k1).
  { intros y. unfold mul_k256. rewrite ?zmul_mul, !Z.shiftl_mul_pow2 by discriminate.
    replace (p secp256k1) with (2 ^ 256 - 2 ^ 32 - 977) by reflexivity. ring. }
  unfold red_k256. rewrite !(subtract_ok (p secp256k1)) by (discriminate || exact M). reflexivity.
Qed.

Definition mul_p384 (x : Z) : Z := Z.shiftl x 384 - Z.shiftl x 128 - Z.shiftl x 96 + Z.shiftl x 32 - x.
Definition quot_p384 (x : Z) : Z := Z.shiftr x 384.
Definition red_p384 (x : Z) : Z := subtract mul_p384 quot_p384 (subtract mul_p384 quot_p384 x).
Lemma red_p384_ok x : red_p384 x mod p P384 = x mod p P384.
Proof.
  assert (M : forall x, mul_p384 x = x * p P384).
  { intros y. unfold mul_p384. rewrite ?zmul_mul, !Z.shiftl_mul_pow2 by discriminate.
    replace (p P384) with (2 ^ 384 - 2 ^ 128 - 2 ^ 96 + 2 ^ 32 - 1) by reflexivity. ring. }
  unfold red_p384. rewrite !(subtract_ok (p P384)) by (discriminate || exact M). reflexivity.
Qed.

Definition mul_p521 (x : Z) : Z := Z.shiftl x 521 - x.
Definition quot_p521 (x : Z) : Z := Z.shiftr x 521.
Definition red_p521 (x : Z) : Z := subtract mul_p521 quot_p521 (subtract mul_p521 quot_p521 x).
Lemma red_p521_ok x : red_p521 x mod p P521 = x mod p P521.
Proof.
  assert (M : forall x, mul_p521 x = x * p P521).
  { intros y. unfold mul_p521. rewrite ?zmul_mul, !Z.shiftl_mul_pow2 by discriminate.
    replace (p P521) with (2 ^ 521 - 1) by reflexivity. ring. }
  unfold red_p521. rewrite !(subtract_ok (p P521)) by (discriminate || exact M). reflexivity.
Qed.

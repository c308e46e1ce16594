(** Model of ml-kem/src/algebra.rs: field elements, polynomials, NTT.
    (The samplers are in Model/Sample.v, because they also need encode.rs, param.rs and
    crypto.rs.)

    A [FieldElement(u16)] is an integer; a [Polynomial], [NttPolynomial] is a list of 256
    integers; a [PolynomialVector], [NttVector] a list of polynomials; an [NttMatrix] a
    list of rows.  The newtype wrappers are not represented. *)
From Coq Require Import List ZArith Bool.
From Verif.Base Require Import Res.
From Verif.Model Require Import Machine Util.
Import ListNotations.
Open Scope Z_scope.

(** algebra.rs:28-33 *)
Definition Q : Z := 3329.
Definition Q32 : Z := Q.
Definition Q64 : Z := Q.
Definition BARRETT_SHIFT : Z := 24.
Definition BARRETT_MULTIPLIER : Z := Z.shiftl 1 BARRETT_SHIFT / Q64.

(** algebra.rs:36-42 *)
Definition small_reduce (x : Z) : res Z :=
  if x <? Q then Ok x else usub W16 x Q.

(** algebra.rs:44-49 *)
Definition barrett_reduce (x : Z) : res Z :=
  let* product := umul W64 x BARRETT_MULTIPLIER in
  let* shifted := ushr W64 product BARRETT_SHIFT in
  let* quotient := truncate W32 shifted in
  let* qq := umul W32 quotient Q32 in
  let* remainder := usub W32 x qq in
  let* r16 := truncate W16 remainder in
  small_reduce r16.

(** algebra.rs:70-76 *)
Definition fe_add (x y : Z) : res Z :=
  let* s := uadd W16 x y in small_reduce s.

(** algebra.rs:78-85: [self.0 + Q - rhs.0], left to right *)
Definition fe_sub (x y : Z) : res Z :=
  let* s := uadd W16 x Q in
  let* d := usub W16 s y in
  small_reduce d.

(** algebra.rs:87-95 *)
Definition fe_mul (x y : Z) : res Z :=
  let* p := umul W32 x y in barrett_reduce p.

(** algebra.rs:286-319, [ZETA_POW_BITREV].  The local [bitrev7] (algebra.rs:290-298). *)
Definition bitrev7 (x : Z) : Z :=
  Z.lor (Z.shiftr x 6 mod 2)
 (Z.lor (Z.shiftl (Z.shiftr x 5 mod 2) 1)
 (Z.lor (Z.shiftl (Z.shiftr x 4 mod 2) 2)
 (Z.lor (Z.shiftl (Z.shiftr x 3 mod 2) 3)
 (Z.lor (Z.shiftl (Z.shiftr x 2 mod 2) 4)
 (Z.lor (Z.shiftl (Z.shiftr x 1 mod 2) 5)
        (Z.shiftl (x mod 2) 6)))))).

(** algebra.rs:300-309: the table of powers of zeta = 17, built by repeated
    multiplication.  (Evaluated at compile time; a compile-time overflow would be a
    compile error, so no overflow checks are modelled here.) *)
Fixpoint zeta_pows (n : nat) (curr : Z) : list Z :=
  match n with
  | O => []
  | S k => curr mod 65536 :: zeta_pows k ((curr * 17) mod Q64)
  end.
Definition ZETA_POW : list Z := zeta_pows 128 1.

(** algebra.rs:311-318 *)
Definition ZETA_POW_BITREV : list Z :=
  map (fun i => nth (Z.to_nat (bitrev7 (Z.of_nat i))) ZETA_POW 0) (seq 0 128).

(** algebra.rs:321-334 *)
Definition GAMMA : list Z :=
  map (fun zpr => ((zpr * zpr * 17) mod Q64) mod 65536) ZETA_POW_BITREV.

(** algebra.rs:55-67 *)
Definition base_case_multiply (a0 a1 b0 b1 : Z) (i : nat) : res (Z * Z) :=
  let* g := idx GAMMA i in
  let* m := umul W32 b1 g in
  let* b1g := barrett_reduce m in
  let* x := umul W32 a0 b0 in
  let* y := umul W32 a1 b1g in
  let* s := uadd W32 x y in
  let* c0 := barrett_reduce s in
  let* x := umul W32 a0 b1 in
  let* y := umul W32 a1 b0 in
  let* s := uadd W32 x y in
  let* c1 := barrett_reduce s in
  Ok (c0, c1).

(** [self.0.iter().zip(rhs.0.iter()).map(f).collect()] into an array of [n] *)
Definition zip_collect {A} (n : nat) (f : A -> A -> res A) (x y : list A) : res (list A) :=
  let* l := mapM (fun '(a, b) => f a b) (combine x y) in
  collect n l.

(** algebra.rs:101-113 and 196-208 (identical bodies for Polynomial and NttPolynomial) *)
Definition poly_add (x y : list Z) : res (list Z) := zip_collect 256 fe_add x y.

(** algebra.rs:115-127 *)
Definition poly_sub (x y : list Z) : res (list Z) := zip_collect 256 fe_sub x y.

(** algebra.rs:129-135, [FieldElement * &Polynomial] *)
Definition poly_scale (c : Z) (x : list Z) : res (list Z) :=
  let* l := mapM (fun a => fe_mul c a) x in collect 256 l.

(** algebra.rs:156-168, [PolynomialVector + PolynomialVector]; [k] is the array size *)
Definition vec_add (k : nat) (x y : list (list Z)) : res (list (list Z)) :=
  zip_collect k poly_add x y.

(** algebra.rs:444-456, [&NttVector + &NttVector] *)
Definition nttvec_add (k : nat) (x y : list (list Z)) : res (list (list Z)) :=
  zip_collect k poly_add x y.

(** algebra.rs:337-358, [&NttPolynomial * &NttPolynomial] *)
Definition ntt_mul (x y : list Z) : res (list Z) :=
  foldM (fun out i =>
           let* a0 := idx x (2 * i) in
           let* a1 := idx x (2 * i + 1) in
           let* b0 := idx y (2 * i) in
           let* b1 := idx y (2 * i + 1) in
           let* '(c0, c1) := base_case_multiply a0 a1 b0 b1 i in
           let* out := upd out (2 * i) c0 in
           upd out (2 * i + 1) c1)
        (seq 0 128) (repeat 0 256).

(** algebra.rs:383-387, the innermost loop body of [ntt] *)
Definition ntt_butterfly (zeta : Z) (len : nat) (f : list Z) (j : nat) : res (list Z) :=
  let* fl := idx f (j + len) in
  let* t := fe_mul zeta fl in
  let* fj := idx f j in
  let* lo := fe_sub fj t in
  let* f := upd f (j + len) lo in
  let* fj := idx f j in
  let* hi := fe_add fj t in
  upd f j hi.

(** algebra.rs:379-388, one block; the state is [(k, f)] *)
Definition ntt_block (len : nat) (st : nat * list Z) (start : nat) : res (nat * list Z) :=
  let '(k, f) := st in
  let* zeta := idx ZETA_POW_BITREV k in
  let* f := foldM (ntt_butterfly zeta len) (seq start len) f in
  Ok ((k + 1)%nat, f).

(** algebra.rs:378-389, one layer *)
Definition ntt_layer (st : nat * list Z) (len : nat) : res (nat * list Z) :=
  foldM (ntt_block len) (step_by 0 256 (2 * len)) st.

(** algebra.rs:374-392 *)
Definition ntt (f : list Z) : res (list Z) :=
  let* '(_, f) := foldM ntt_layer [128; 64; 32; 16; 8; 4; 2]%nat (1%nat, f) in
  Ok f.

(** algebra.rs:406-410, the innermost loop body of [ntt_inverse] *)
Definition inv_butterfly (zeta : Z) (len : nat) (f : list Z) (j : nat) : res (list Z) :=
  let* t := idx f j in
  let* fl := idx f (j + len) in
  let* s := fe_add t fl in
  let* f := upd f j s in
  let* fl := idx f (j + len) in
  let* d := fe_sub fl t in
  let* p := fe_mul zeta d in
  upd f (j + len) p.

(** algebra.rs:402-411; [k -= 1] on a [usize]: it goes 127, ..., 1 and ends at 0 *)
Definition inv_block (len : nat) (st : nat * list Z) (start : nat) : res (nat * list Z) :=
  let '(k, f) := st in
  let* zeta := idx ZETA_POW_BITREV k in
  let* k := (if Nat.eqb k 0 then Panic else Ok (k - 1)%nat) in
  let* f := foldM (inv_butterfly zeta len) (seq start len) f in
  Ok (k, f).

Definition inv_layer (st : nat * list Z) (len : nat) : res (nat * list Z) :=
  foldM (inv_block len) (step_by 0 256 (2 * len)) st.

(** algebra.rs:397-415 *)
Definition ntt_inverse (f : list Z) : res (list Z) :=
  let* '(_, f) := foldM inv_layer [2; 4; 8; 16; 32; 64; 128]%nat (127%nat, f) in
  poly_scale 3303 f.

(** algebra.rs:458-468, dot product of two [NttVector]s *)
Definition nttvec_dot (x y : list (list Z)) : res (list Z) :=
  let* prods := mapM (fun '(a, b) => ntt_mul a b) (combine x y) in
  foldM poly_add prods (repeat 0 256).

(** algebra.rs:470-474 *)
Definition vec_ntt (k : nat) (v : list (list Z)) : res (list (list Z)) :=
  let* l := mapM ntt v in collect k l.

(** algebra.rs:476-480 *)
Definition nttvec_inverse (k : nat) (v : list (list Z)) : res (list (list Z)) :=
  let* l := mapM ntt_inverse v in collect k l.

(** algebra.rs:487-493, [&NttMatrix * &NttVector] *)
Definition matrix_mul (k : nat) (m : list (list (list Z))) (v : list (list Z))
  : res (list (list Z)) :=
  let* l := mapM (fun row => nttvec_dot row v) m in collect k l.

(** algebra.rs:502-506 *)
Definition transpose (k : nat) (m : list (list (list Z))) : res (list (list (list Z))) :=
  from_fn k (fun i => from_fn k (fun j =>
    let* row := idx m j in idx row i)).

(** algebra.rs:20-25, 187-194, 432-442 (feature zeroize): every element becomes 0 *)
Definition fe_zeroize (_ : Z) : Z := 0.
Definition nttpoly_zeroize (p : list Z) : list Z := map fe_zeroize p.
Definition nttvec_zeroize (v : list (list Z)) : list (list Z) := map nttpoly_zeroize v.

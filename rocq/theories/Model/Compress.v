(** Model of ml-kem/src/compress.rs.  [d] is the typenum [D::USIZE]. *)
From Coq Require Import List ZArith Bool.
From Verif.Base Require Import Res.
From Verif.Model Require Import Machine Util Algebra.
Import ListNotations.
Open Scope Z_scope.

(** compress.rs:17-21, associated constants (evaluated at compile time) *)
Definition POW2_HALF (d : Z) : Z := Z.shiftl 1 (d - 1).
Definition MASK (d : Z) : Z := Z.shiftl 1 d - 1.
Definition DIV_SHIFT : Z := 34.
Definition DIV_MUL : Z := Z.shiftl 1 DIV_SHIFT / Q64.

(** compress.rs:37-43 *)
Definition Q_HALF : Z := Z.shiftr (Q64 + 1) 1.
Definition fe_compress (d : nat) (x : Z) : res Z :=
  let dz := Z.of_nat d in
  let* a := ushl W64 x dz in
  let* b := uadd W64 a Q_HALF in
  let* c := umul W64 b DIV_MUL in
  let* e := ushr W64 c DIV_SHIFT in
  let* y := truncate W32 e in
  let* t := truncate W16 y in
  Ok (Z.land t (MASK dz)).

(** compress.rs:46-51 *)
Definition fe_decompress (d : nat) (x : Z) : res Z :=
  let dz := Z.of_nat d in
  let* a := umul W32 x Q32 in
  let* b := uadd W32 a (POW2_HALF dz) in
  let* y := ushr W32 b dz in
  truncate W16 y.

(** compress.rs:53-69; the in-place loops become maps *)
Definition poly_compress (d : nat) (p : list Z) : res (list Z) := mapM (fe_compress d) p.
Definition poly_decompress (d : nat) (p : list Z) : res (list Z) := mapM (fe_decompress d) p.

(** compress.rs:71-87 *)
Definition vec_compress (d : nat) (v : list (list Z)) : res (list (list Z)) :=
  mapM (poly_compress d) v.
Definition vec_decompress (d : nat) (v : list (list Z)) : res (list (list Z)) :=
  mapM (poly_decompress d) v.

(** Model of ml-kem/src/encode.rs, and of the size arithmetic of ml-kem/src/param.rs it
    uses.  [d] is the typenum [D::USIZE]. *)
From Coq Require Import List ZArith Bool.
From Verif.Base Require Import Res.
From Verif.Model Require Import Machine Util Algebra.
Import ListNotations.
Open Scope Z_scope.

(** param.rs:41, [EncodingUnit<D> = (D * 8) / gcd(D, 8)] *)
Definition encoding_unit (d : nat) : nat := Nat.div (d * 8) (Nat.gcd d 8).
(** param.rs:55-57 *)
Definition encoded_poly_size (d : nat) : nat := (d * 32)%nat.
Definition value_step (d : nat) : nat := Nat.div (encoding_unit d) d.
Definition byte_step (d : nat) : nat := Nat.div (encoding_unit d) 8.
(** param.rs:83 *)
Definition encoded_vec_size (d k : nat) : nat := (encoded_poly_size d * k)%nat.

(** encode.rs:26-33: one iteration of the loop of [byte_encode]; [v] is the chunk of
    values, [b] the chunk of bytes that is overwritten *)
Definition encode_chunk (d : nat) (v b : list Z) : res (list Z) :=
  let* x := foldM (fun x '(j, vj) =>
                     let* t := ushl W128 vj (Z.of_nat (d * j)) in
                     Ok (Z.lor x t))
                  (enumerate v) 0 in
  let xb := to_le_bytes 16 x in
  let* src := slice xb 0 (byte_step d) in
  copy_from_slice b src.

(** encode.rs:17-36.  Byte chunks beyond the number of value chunks keep their default 0. *)
Definition byte_encode (d : nat) (vals : list Z) : res (list Z) :=
  let zeros := repeat 0 (encoded_poly_size d) in
  let* vc := chunks (value_step d) vals in
  let* bc := chunks (byte_step d) zeros in
  let* out := mapM (fun '(v, b) => encode_chunk d v b) (combine vc bc) in
  Ok (concat out ++ concat (skipn (length vc) bc)).

(** encode.rs:50-62: one iteration of the loop of [byte_decode]; [v] is the chunk of
    (default) values that is overwritten, [b] the chunk of bytes *)
Definition decode_chunk (d : nat) (mask : Z) (v b : list Z) : res (list Z) :=
  let* xb := copy_into (repeat 0 16) 0 (byte_step d) b in
  let x := from_le_bytes xb in
  mapM (fun '(j, _) =>
          let* s := ushr W128 x (Z.of_nat (d * j)) in
          let* val := truncate W16 s in
          let vj := Z.land val mask in
          if Nat.eqb d 12 then urem vj Q else Ok vj)
       (enumerate v).

(** encode.rs:41-66 *)
Definition byte_decode (d : nat) (bytes : list Z) : res (list Z) :=
  let* one := ushl W16 1 (Z.of_nat d) in
  let* mask := usub W16 one 1 in
  let zeros := repeat 0 256 in
  let* vc := chunks (value_step d) zeros in
  let* bc := chunks (byte_step d) bytes in
  let* out := mapM (fun '(v, b) => decode_chunk d mask v b) (combine vc bc) in
  Ok (concat out ++ concat (skipn (length bc) vc)).

(** encode.rs:74-84 and 109-119: Polynomial and NttPolynomial encode the same way *)
Definition poly_encode (d : nat) (p : list Z) : res (list Z) := byte_encode d p.
Definition poly_decode (d : nat) (b : list Z) : res (list Z) := byte_decode d b.

(** encode.rs:86-107 and 121-142: vectors; [flatten]/[unflatten] as in param.rs:85-91 *)
Definition vec_encode (d k : nat) (v : list (list Z)) : res (list Z) :=
  let* l := mapM (poly_encode d) v in
  let* polys := collect k l in
  flatten (encoded_poly_size d) k polys.
Definition vec_decode (d k : nat) (enc : list Z) : res (list (list Z)) :=
  let* unfold := unflatten_ref (encoded_vec_size d k) k enc in
  let* l := mapM (poly_decode d) unfold in
  collect k l.

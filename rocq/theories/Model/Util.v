(** Model of ml-kem/src/util.rs *)
From Coq Require Import List ZArith Bool.
From Verif.Base Require Import Res.
From Verif.Model Require Import Machine.
Import ListNotations.
Open Scope Z_scope.

(** util.rs:20-32, macro [define_truncate!]: mask with [$to::MAX], then
    [try_into().unwrap_unchecked()], which is undefined behaviour if the masked value
    does not fit.  Instances at util.rs:34-38. *)
Definition truncate (to : width) (x : Z) : res Z :=
  let y := Z.land x (max_of to) in
  if (0 <=? y) && (y <=? max_of to) then Ok y else UB.

(** util.rs:47-61, [Flatten for Array<Array<T, M>, N>]: a raw pointer read of [M * N]
    elements from the start of the array of arrays.  Arrays of arrays are laid out
    contiguously in row-major order (Rust layout guarantee), i.e. their memory is the
    concatenation of the rows. *)
Definition flatten {A} (m n : nat) (parts : list (list A)) : res (list A) :=
  ptr_read (concat parts) 0 (m * n).

(** util.rs:73-90, [Unflatten for Array<T, N>] into [m] parts: the i-th part is a raw
    pointer read of [N / m] elements at offset [i * (N / m)]. *)
Definition unflatten {A} (n m : nat) (whole : list A) : res (list (list A)) :=
  let part_size := Nat.div n m in
  from_fn m (fun i => ptr_read whole (i * part_size) part_size).

(** util.rs:92-113, [Unflatten for &Array<T, N>]: the same by advancing a pointer. The
    references it builds are modelled by the elements they refer to. *)
Definition unflatten_ref {A} (n m : nat) (whole : list A) : res (list (list A)) :=
  let part_size := Nat.div n m in
  let* '(parts, _) :=
    mapM_st (fun ptr (_ : nat) =>
               let* part := ptr_read whole ptr part_size in
               Ok (part, (ptr + part_size)%nat))
            (seq 0 m) 0%nat in
  Ok parts.

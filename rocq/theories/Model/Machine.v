(** Unsigned machine integers, as mathematical integers with explicit overflow.

    Arithmetic operators [+ - *] on Rust's unsigned integer types panic on overflow
    (with overflow checks; see Base/Res.v); [<<] and [>>] panic when the shift amount
    reaches the width and otherwise drop the bits shifted out; [&], [|], [^], [!] and the
    [wrapping_*] methods never panic.

    Simplification used throughout the model: [usize] expressions that only combine
    loop indices and type-level sizes (all far below 2^16) are computed in [nat] without
    overflow checks; all arithmetic on data is checked. *)
From Coq Require Import List ZArith Bool.
From Verif.Base Require Import Res.
Import ListNotations.
Open Scope Z_scope.

Inductive width := W8 | W16 | W32 | W64 | W128.

Definition bits_of (w : width) : Z :=
  match w with W8 => 8 | W16 => 16 | W32 => 32 | W64 => 64 | W128 => 128 end.

(** 2^width, written out so that it computes fast *)
Definition modulus (w : width) : Z :=
  match w with
  | W8 => 256
  | W16 => 65536
  | W32 => 4294967296
  | W64 => 18446744073709551616
  | W128 => 340282366920938463463374607431768211456
  end.

Definition max_of (w : width) : Z := modulus w - 1.

(** result of a checked operation *)
Definition chk (w : width) (x : Z) : res Z :=
  if (0 <=? x) && (x <? modulus w) then Ok x else Panic.

Definition uadd (w : width) (x y : Z) : res Z := chk w (x + y).
Definition usub (w : width) (x y : Z) : res Z := chk w (x - y).
Definition umul (w : width) (x y : Z) : res Z := chk w (x * y).
Definition urem (x y : Z) : res Z := if y =? 0 then Panic else Ok (x mod y).
Definition ushl (w : width) (x s : Z) : res Z :=
  if (0 <=? s) && (s <? bits_of w) then Ok (Z.shiftl x s mod modulus w) else Panic.
Definition ushr (w : width) (x s : Z) : res Z :=
  if (0 <=? s) && (s <? bits_of w) then Ok (Z.shiftr x s) else Panic.
(** [!x] *)
Definition unot (w : width) (x : Z) : Z := max_of w - x.
(** [x.wrapping_sub(y)] *)
Definition wrapping_sub (w : width) (x y : Z) : Z := (x - y) mod modulus w.

(** [x.count_ones()] for a [usize] value *)
Fixpoint count_ones_pos (p : positive) : Z :=
  match p with
  | xH => 1
  | xO p => count_ones_pos p
  | xI p => 1 + count_ones_pos p
  end.
Definition count_ones (x : Z) : Z :=
  match x with Zpos p => count_ones_pos p | _ => 0 end.

(** [x.to_le_bytes()] with [n] bytes *)
Fixpoint to_le_bytes (n : nat) (x : Z) : list Z :=
  match n with
  | O => []
  | S k => Z.land x 255 :: to_le_bytes k (Z.shiftr x 8)
  end.

(** [from_le_bytes(b)] *)
Fixpoint from_le_bytes (b : list Z) : Z :=
  match b with
  | [] => 0
  | x :: r => x + 256 * from_le_bytes r
  end.

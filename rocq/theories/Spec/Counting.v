(** Counting: used to state the distribution of the samplers on uniformly random bytes
    as exact numbers of byte strings. *)
From Coq Require Import List ZArith Bool.
From Verif.Base Require Import Res Oracles.
Import ListNotations.
Open Scope Z_scope.

(** [L] lists every byte string of length [n], each exactly once *)
Definition enumerates (n : nat) (L : list (list Z)) : Prop :=
  NoDup L /\ forall B, In B L <-> byte_string n B.

(** the number of elements of [l] on which the test [t] succeeds *)
Definition count {A} (t : A -> bool) (l : list A) : Z := Z.of_nat (length (filter t l)).

(** the test "the run [r] returned the list [p]" *)
Definition returns (r : res (list Z)) (p : list Z) : bool :=
  match r with
  | Ok x => if list_eq_dec Z.eq_dec x p then true else false
  | _ => false
  end.

(** binomial coefficients, by Pascal's rule *)
Fixpoint choose (n : nat) (k : Z) : Z :=
  match n with
  | O => if k =? 0 then 1 else 0
  | S n' => choose n' (k - 1) + choose n' k
  end.

(** f(0) * ... * f(n-1) *)
Fixpoint prod (n : nat) (f : nat -> Z) : Z :=
  match n with O => 1 | S k => prod k f * f k end.

(** The number of sequences of [n] values below 4096 whose first [r] entries below
    q = 3329 are a prescribed sequence: an entry is the next prescribed one, or one of
    the 767 values that are not below q. *)
Fixpoint accepting (n r : nat) : Z :=
  match r, n with
  | O, _ => 4096 ^ Z.of_nat n
  | S _, O => 0
  | S r', S n' => accepting n' r' + 767 * accepting n' r
  end.

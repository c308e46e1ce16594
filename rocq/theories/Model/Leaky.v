(** The tail of [decapsulate] (ml-kem/src/kem.rs:91-117) as a program of the language of
    Spec/Leakage.v, statement by statement.  Iterator chains become the loops they stand
    for: [a.iter().zip(b.iter())] advances both sides together and ends with the shorter;
    [map] and [fold] apply their closures in that order; [collect] writes the elements one
    after the other (its length check depends only on lengths). *)
From Coq Require Import List ZArith Bool String.
From Verif.Base Require Import Res.
From Verif.Spec Require Import Leakage.
Import ListNotations.
Open Scope string_scope.
Open Scope Z_scope.
Open Scope leak_scope.

(** kem.rs:79-83, [constant_time_eq(x, y)], result in [e] *)
Definition p_constant_time_eq : stmt :=
  "diff" <-- Bin Xor (Var "x") (Var "y") ;;
  "is_zero" <-- Bin And (Not8 (Var "diff")) (Bin WrappingSub8 (Var "diff") (Const 1)) ;;
  "e" <-- Bin WrappingSub8 (Const 0) (Bin ShiftRight (Var "is_zero") (Const 7)).

(** both iterators of a [zip] have a next element *)
Definition p_zip_next (a b : string) : expr :=
  Bin And (Bin Lt (Var "i") (Len a)) (Bin Lt (Var "i") (Len b)).

(** kem.rs:107-111 *)
Definition p_compare : stmt :=
  "equal" <-- Const 255 ;;
  "i" <-- Const 0 ;;
  While (p_zip_next "cp" "ct")
    ("x" <-- Load "cp" (Var "i") ;;
     "y" <-- Load "ct" (Var "i") ;;
     "i" <-- Bin Add (Var "i") (Const 1) ;;
     p_constant_time_eq ;;
     "equal" <-- Bin And (Var "equal") (Var "e")).

(** kem.rs:112-116 *)
Definition p_select : stmt :=
  "i" <-- Const 0 ;;
  While (p_zip_next "Kp" "Kbar")
    ("x" <-- Load "Kp" (Var "i") ;;
     "y" <-- Load "Kbar" (Var "i") ;;
     Store "out" (Var "i")
       (Bin Or (Bin And (Var "equal") (Var "x")) (Bin And (Not8 (Var "equal")) (Var "y"))) ;;
     "i" <-- Bin Add (Var "i") (Const 1)).

(** kem.rs:100-116 *)
Definition p_tail : stmt := p_compare ;; p_select.

(** Not in the repository: the code the comment at kem.rs:100-106 says it replaces, with a
    comparison that stops at the first difference and a branch on its outcome.  Used to
    show that the leakage theorems can fail. *)
Definition p_early_exit : stmt :=
  "equal" <-- Const 1 ;;
  "i" <-- Const 0 ;;
  While (Bin And (Var "equal") (p_zip_next "cp" "ct"))
    ("equal" <-- Bin Eq (Load "cp" (Var "i")) (Load "ct" (Var "i")) ;;
     "i" <-- Bin Add (Var "i") (Const 1)) ;;
  If (Var "equal") ("pick" <-- Const 1) ("pick" <-- Const 0).

(** initial memory: the two ciphertexts, the two candidate keys, and the output buffer *)
Definition tail_state (cp ct Kp Kbar out : list Z) : state :=
  {| vars := fun _ => 0;
     arrs := fun a => if String.eqb a "cp" then cp else if String.eqb a "ct" then ct
                      else if String.eqb a "Kp" then Kp else if String.eqb a "Kbar" then Kbar
                      else if String.eqb a "out" then out else [] |}.

(** What an observer of a program's control flow and memory accesses sees.

    A small imperative language with one array type, and an execution function that
    returns, beside the result, the list of everything the observer learns: the outcome of
    every branch and the array and index of every read and write.  Arithmetic and bitwise
    operations on values reveal nothing (each compiles to a fixed instruction).
    Executions of the language record the events themselves, so a program cannot branch or
    access memory without it being in the list. *)
From Coq Require Import List ZArith Bool String.
From Verif.Base Require Import Res.
Import ListNotations.
Open Scope Z_scope.

(** operations on 8-bit values, and [Add], [Lt] on indices *)
Inductive binop := Xor | And | Or | WrappingSub8 | ShiftRight | Add | Lt | Eq.

Inductive expr :=
| Const (z : Z)
| Var (x : string)
| Load (a : string) (i : expr)
| Len (a : string)
| Not8 (e : expr)
| Bin (o : binop) (e1 e2 : expr).

Inductive stmt :=
| Skip
| Assign (x : string) (e : expr)
| Store (a : string) (i e : expr)
| Seq (s1 s2 : stmt)
| If (e : expr) (s1 s2 : stmt)
| While (e : expr) (s : stmt).

Inductive event :=
| Branch (taken : bool)
| Read (a : string) (i : Z)
| Write (a : string) (i : Z).

Record state := { vars : string -> Z; arrs : string -> list Z }.

Definition set_var (s : state) (x : string) (v : Z) : state :=
  {| vars := fun y => if String.eqb x y then v else vars s y; arrs := arrs s |}.
Definition set_arr (s : state) (a : string) (l : list Z) : state :=
  {| vars := vars s; arrs := fun b => if String.eqb a b then l else arrs s b |}.

Definition binop_eval (o : binop) (x y : Z) : Z :=
  match o with
  | Xor => Z.lxor x y
  | And => Z.land x y
  | Or => Z.lor x y
  | WrappingSub8 => (x - y) mod 256
  | ShiftRight => Z.shiftr x y
  | Add => x + y
  | Lt => if x <? y then 1 else 0
  | Eq => if x =? y then 1 else 0
  end.

(** the events, and the outcome *)
Definition leaky (A : Type) : Type := (list event * res A)%type.
Definition lret {A} (a : A) : leaky A := ([], Ok a).
Definition lbind {A B} (m : leaky A) (f : A -> leaky B) : leaky B :=
  match snd m with
  | Ok a => let m' := f a in (fst m ++ fst m', snd m')
  | Panic => (fst m, Panic)
  | UB => (fst m, UB)
  | NoFuel => (fst m, NoFuel)
  end.
Definition emit (e : event) : leaky unit := ([e], Ok tt).

Definition load (s : state) (a : string) (i : Z) : leaky Z :=
  lbind (emit (Read a i)) (fun _ =>
    ([], if (0 <=? i) && (i <? Z.of_nat (List.length (arrs s a)))
         then Ok (nth (Z.to_nat i) (arrs s a) 0) else Panic)).
Definition store (s : state) (a : string) (i v : Z) : leaky state :=
  lbind (emit (Write a i)) (fun _ =>
    ([], if (0 <=? i) && (i <? Z.of_nat (List.length (arrs s a)))
         then Ok (set_arr s a (set_nth (arrs s a) (Z.to_nat i) v)) else Panic)).

Fixpoint eval (s : state) (e : expr) : leaky Z :=
  match e with
  | Const z => lret z
  | Var x => lret (vars s x)
  | Load a i => lbind (eval s i) (fun v => load s a v)
  | Len a => lret (Z.of_nat (List.length (arrs s a)))
  | Not8 e => lbind (eval s e) (fun v => lret (255 - v))
  | Bin o e1 e2 =>
      lbind (eval s e1) (fun v1 => lbind (eval s e2) (fun v2 => lret (binop_eval o v1 v2)))
  end.

(** [fuel] bounds the number of steps *)
Fixpoint exec (fuel : nat) (p : stmt) (s : state) : leaky state :=
  match fuel with
  | O => ([], NoFuel)
  | S fuel =>
      match p with
      | Skip => lret s
      | Assign x e => lbind (eval s e) (fun v => lret (set_var s x v))
      | Store a i e =>
          lbind (eval s i) (fun vi => lbind (eval s e) (fun v => store s a vi v))
      | Seq p1 p2 => lbind (exec fuel p1 s) (fun s1 => exec fuel p2 s1)
      | If e p1 p2 =>
          lbind (eval s e) (fun v =>
          lbind (emit (Branch (negb (v =? 0)))) (fun _ =>
          if v =? 0 then exec fuel p2 s else exec fuel p1 s))
      | While e q =>
          lbind (eval s e) (fun v =>
          lbind (emit (Branch (negb (v =? 0)))) (fun _ =>
          if v =? 0 then lret s
          else lbind (exec fuel q s) (fun s1 => exec fuel (While e q) s1)))
      end
  end.

(** [p] run from [s] ends in [s'], showing the observer [t] *)
Definition runs (p : stmt) (s : state) (t : list event) (s' : state) : Prop :=
  exists fuel, exec fuel p s = (t, Ok s').

Declare Scope leak_scope.
Delimit Scope leak_scope with leak.
Notation "p ;; q" := (Seq p q) (at level 90, right associativity) : leak_scope.
Notation "x <-- e" := (Assign x e) (at level 80) : leak_scope.

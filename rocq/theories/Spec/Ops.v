(** Programs as sequences of machine operations (C53, C54).

    A program is a tree of operations: arithmetic that may overflow, branches on data,
    memory accesses, divisions, loops, calls of hash functions.  Its execution returns the
    list of what an observer of control flow, addresses and variable-time instructions
    sees, and the outcome.  Overflow is handled as the build mode says: [Checked]
    (overflow checks on: panic) or [Release] (values wrap, shift amounts are masked). *)
From Coq Require Import List ZArith Bool.
From Verif.Base Require Import Res Oracles.
Import ListNotations.
Open Scope Z_scope.

Inductive build := Checked | Release.

(** Which part of the code an event comes from; only two places are distinguished. *)
Inductive site := SmallReduce | OnesTable | Elsewhere.

Inductive arith := Plus | Minus | Times | ShiftLeft | ShiftRight.

(** the same on [usize] *)
Inductive size_op := Sum | Difference | Product.

Inductive op : Type -> Type :=
(** [x + y], [x - y], [x * y], [x << y], [x >> y] on unsigned integers of [bits] bits *)
| Arith (o : arith) (bits : Z) (x y : Z) : op Z
(** [x + y], [x - y], [x * y] on [usize] *)
| Size (o : size_op) (x y : nat) : op nat
(** [x % y] *)
| Rem (x y : Z) : op Z
(** [y.try_into().unwrap_unchecked()] to an unsigned integer of [bits] bits *)
| Fit (bits : Z) (y : Z) : op Z
(** evaluation of a condition that is branched on *)
| Test (s : site) (b : bool) : op bool
(** a check that panics unless [b] *)
| Require (b : bool) : op unit
(** [l[i]], [l[i] = v], [&l[a..b]], raw pointer read of [n] elements *)
| Get {A : Type} (s : site) (l : list A) (i : nat) : op A
| Put {A : Type} (l : list A) (i : nat) (v : A) : op (list A)
| Slice {A : Type} (l : list A) (a b : nat) : op (list A)
| Ptr {A : Type} (l : list A) (off n : nat) : op (list A)
(** entry of a loop with [n] iterations *)
| Loop (n : nat) : op unit
(** a call of a hash function with [n] bytes of input *)
| Hash (n : nat) : op unit
(** a call of the RNG for [n] bytes *)
| Draw (n : nat) : op unit
(** an X25519 scalar multiplication, fixed time by its documentation *)
| Ladder : op unit
(** the value of a compile-time constant *)
| Constant {A : Type} (c : res A) : op A
(** the budget of the rejection loop is used up *)
| Give_up {A : Type} : op A.

Inductive prog (A : Type) : Type :=
| Ret (a : A)
| Step {X : Type} (o : op X) (k : X -> prog A).
Arguments Ret {A} a.
Arguments Step {A X} o k.

Inductive event :=
| Branched (s : site) (taken : bool)
| Touched (s : site) (offset count total : nat)
| Divided (x y : Z)
| Looped (n : nat)
| Hashed (n : nat)
| Drew (n : nat)
| Climbed.

(** what the observer learns.  Additions, multiplications, shifts and bitwise operations
    take the same time for all operands. *)
Definition see {A} (o : op A) : list event :=
  match o with
  | Arith _ _ _ _ => []
  | Size _ _ _ => []
  | Fit _ _ => []
  | Constant _ => []
  | Rem x y => [Divided x y]
  | Test s b => [Branched s b]
  | Require b => [Branched Elsewhere b]
  | Get s l i => [Touched s i 1 (length l)]
  | Put l i _ => [Touched Elsewhere i 1 (length l)]
  | Slice l a b => [Touched Elsewhere a (b - a) (length l)]
  | Ptr l off n => [Touched Elsewhere off n (length l)]
  | Loop n => [Looped n]
  | Hash n => [Hashed n]
  | Draw n => [Drew n]
  | Ladder => [Climbed]
  | Give_up => [Branched Elsewhere false]
  end.

Definition exact (o : arith) (bits x y : Z) : Z :=
  match o with
  | Plus => x + y
  | Minus => x - y
  | Times => x * y
  | ShiftLeft => Z.shiftl x y mod 2 ^ bits
  | ShiftRight => Z.shiftr x y
  end.
Definition fits (o : arith) (bits x y : Z) : bool :=
  match o with
  | Plus | Minus | Times => let v := exact o bits x y in (0 <=? v) && (v <? 2 ^ bits)
  | ShiftLeft | ShiftRight => (0 <=? y) && (y <? bits)
  end.
Definition wrapped (o : arith) (bits x y : Z) : Z :=
  match o with
  | Plus | Minus | Times => exact o bits x y mod 2 ^ bits
  | ShiftLeft | ShiftRight => exact o bits x (y mod bits)
  end.

(** [usize] arithmetic when [usize] has [bits] bits *)
Definition size_exact (o : size_op) (x y : Z) : Z :=
  match o with
  | Sum => x + y
  | Difference => x - y
  | Product => x * y
  end.
Definition size_arith (bits : Z) (m : build) (o : size_op) (x y : nat) : res nat :=
  let v := size_exact o (Z.of_nat x) (Z.of_nat y) in
  match m with
  | Checked => if (0 <=? v) && (v <? 2 ^ bits) then Ok (Z.to_nat v) else Panic
  | Release => Ok (Z.to_nat (v mod 2 ^ bits))
  end.
(** the narrowest [usize] that Rust has *)
Definition narrowest : Z := 16.

(** Execution is defined for the narrowest [usize]; [perform_at] below takes the width. *)
Definition perform {A} (m : build) (o : op A) : res A :=
  match o in op A return res A with
  | Arith o bits x y =>
      match m with
      | Checked => if fits o bits x y then Ok (exact o bits x y) else Panic
      | Release => Ok (wrapped o bits x y)
      end
  | Size o x y => size_arith narrowest m o x y
  | Rem x y => if y =? 0 then Panic else Ok (x mod y)
  | Fit bits y => if (0 <=? y) && (y <? 2 ^ bits) then Ok y else UB
  | Test _ b => Ok b
  | Require b => if b then Ok tt else Panic
  | Get _ l i => idx l i
  | Put l i v => upd l i v
  | Slice l a b => slice l a b
  | Ptr l off n => ptr_read l off n
  | Loop _ => Ok tt
  | Hash _ => Ok tt
  | Draw _ => Ok tt
  | Ladder => Ok tt
  | Constant c => c
  | Give_up => NoFuel
  end.

Fixpoint exec {A} (m : build) (p : prog A) : list event * res A :=
  match p with
  | Ret a => ([], Ok a)
  | Step o k =>
      match perform m o with
      | Ok x => let '(t, r) := exec m (k x) in (see o ++ t, r)
      | Panic => (see o, Panic)
      | UB => (see o, UB)
      | NoFuel => (see o, NoFuel)
      end
  end.

(** the outcome, and the observations *)
Definition result {A} (m : build) (p : prog A) : res A := snd (exec m p).
Definition trace {A} (m : build) (p : prog A) : list event := fst (exec m p).

(** execution on a machine whose [usize] has [bits] bits *)
Definition perform_at {A} (bits : Z) (m : build) (o : op A) : res A :=
  match o in op A return res A with
  | Size o x y => size_arith bits m o x y
  | o' => perform m o'
  end.
Fixpoint exec_at {A} (bits : Z) (m : build) (p : prog A) : list event * res A :=
  match p with
  | Ret a => ([], Ok a)
  | Step o k =>
      match perform_at bits m o with
      | Ok x => let '(t, r) := exec_at bits m (k x) in (see o ++ t, r)
      | Panic => (see o, Panic)
      | UB => (see o, UB)
      | NoFuel => (see o, NoFuel)
      end
  end.

(** the observations outside the given sites *)
Definition site_of (e : event) : site :=
  match e with Branched s _ => s | Touched s _ _ _ => s | _ => Elsewhere end.
Definition outside_sites (l : list event) : list event :=
  filter (fun e => match site_of e with Elsewhere => true | _ => false end) l.

(** two matrix seeds, under two hash functions, that are expanded from the same XOF output:
    all that the public matrix depends on *)
Definition same_expansion (k : nat) (hs hs' : hashes) (rho rho' : list Z) : Prop :=
  forall i j t, (i < k)%nat -> (j < k)%nat ->
    shake128 hs (rho ++ [Z.of_nat j; Z.of_nat i]) t = shake128 hs' (rho' ++ [Z.of_nat j; Z.of_nat i]) t.

(** ** building programs *)

Fixpoint pbind {A B} (p : prog A) (f : A -> prog B) : prog B :=
  match p with
  | Ret a => f a
  | Step o k => Step o (fun x => pbind (k x) f)
  end.
Notation "'do*' x ':=' e 'in' k" := (pbind e (fun x => k))
  (at level 200, x name, e at level 200, k at level 200, right associativity).
Notation "'do*' ' x ':=' e 'in' k" := (pbind e (fun x => k))
  (at level 200, x strict pattern, e at level 200, k at level 200, right associativity).
Definition act {A} (o : op A) : prog A := Step o Ret.

Section Loops.
  Context {A B S : Type}.
  Fixpoint pfold_ (f : S -> A -> prog S) (l : list A) (s : S) : prog S :=
    match l with
    | [] => Ret s
    | x :: r => do* s' := f s x in pfold_ f r s'
    end.
  Fixpoint pmap_ (f : A -> prog B) (l : list A) : prog (list B) :=
    match l with
    | [] => Ret []
    | x :: r => do* y := f x in do* ys := pmap_ f r in Ret (y :: ys)
    end.
  Fixpoint pmap_st_ (f : S -> A -> prog (B * S)) (l : list A) (s : S) : prog (list B * S) :=
    match l with
    | [] => Ret ([], s)
    | x :: r =>
        do* '(y, s1) := f s x in
        do* '(ys, s2) := pmap_st_ f r s1 in
        Ret (y :: ys, s2)
    end.
  (** the number of iterations is observable *)
  Definition pfold (f : S -> A -> prog S) (l : list A) (s : S) : prog S :=
    do* _ := act (Loop (length l)) in pfold_ f l s.
  Definition pmap (f : A -> prog B) (l : list A) : prog (list B) :=
    do* _ := act (Loop (length l)) in pmap_ f l.
  Definition pmap_st (f : S -> A -> prog (B * S)) (l : list A) (s : S) : prog (list B * S) :=
    do* _ := act (Loop (length l)) in pmap_st_ f l s.
End Loops.

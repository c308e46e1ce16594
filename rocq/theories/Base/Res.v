(** Outcomes of modelled Rust code, and the few combinators the model uses.

    [Ok a]    normal return;
    [Panic]   the code panics: a checked integer operation overflows, an index or
              slice is out of range, [copy_from_slice] or [collect] meets a length
              mismatch.  (Overflow is modelled as in a build with overflow checks;
              the theorems show it never happens, so a release build computes the
              same values.)
    [UB]      undefined behaviour: [unwrap_unchecked] on [Err], or a raw pointer read
              outside the object.
    [NoFuel]  the rejection-sampling loop (the only unbounded loop of the code base)
              has examined the given number of 3-byte groups without finishing. *)
From Coq Require Import List ZArith Bool.
Import ListNotations.

Inductive res (A : Type) : Type :=
| Ok (a : A)
| Panic
| UB
| NoFuel.
Arguments Ok {A} a.
Arguments Panic {A}.
Arguments UB {A}.
Arguments NoFuel {A}.

Definition bind {A B} (x : res A) (f : A -> res B) : res B :=
  match x with
  | Ok a => f a
  | Panic => Panic
  | UB => UB
  | NoFuel => NoFuel
  end.

Notation "'let*' x ':=' e 'in' k" := (bind e (fun x => k))
  (at level 200, x name, e at level 200, k at level 200, right associativity).
Notation "'let*' ' x ':=' e 'in' k" := (bind e (fun x => k))
  (at level 200, x strict pattern, e at level 200, k at level 200, right associativity).

(** A specification that may fail to terminate within the given number of loop
    iterations ([None]) seen as an outcome. *)
Definition lift {A} (o : option A) : res A :=
  match o with Some a => Ok a | None => NoFuel end.

Section Lists.
  Context {A B S : Type}.

  (** [for x in l { s = f(s, x)?; }] *)
  Fixpoint foldM (f : S -> A -> res S) (l : list A) (s : S) : res S :=
    match l with
    | [] => Ok s
    | x :: r => let* s' := f s x in foldM f r s'
    end.

  (** [l.iter().map(f)], left to right *)
  Fixpoint mapM (f : A -> res B) (l : list A) : res (list B) :=
    match l with
    | [] => Ok []
    | x :: r => let* y := f x in let* ys := mapM f r in Ok (y :: ys)
    end.

  (** same, threading a mutable state captured by the closure *)
  Fixpoint mapM_st (f : S -> A -> res (B * S)) (l : list A) (s : S) : res (list B * S) :=
    match l with
    | [] => Ok ([], s)
    | x :: r =>
        let* '(y, s1) := f s x in
        let* '(ys, s2) := mapM_st f r s1 in
        Ok (y :: ys, s2)
    end.

  (** [l[i]] *)
  Definition idx (l : list A) (i : nat) : res A :=
    match nth_error l i with Some x => Ok x | None => Panic end.

  (** [l[i] = v] *)
  Fixpoint set_nth (l : list A) (i : nat) (v : A) : list A :=
    match l, i with
    | [], _ => []
    | _ :: r, O => v :: r
    | x :: r, Datatypes.S j => x :: set_nth r j v
    end.
  Definition upd (l : list A) (i : nat) (v : A) : res (list A) :=
    if Nat.ltb i (length l) then Ok (set_nth l i v) else Panic.

  (** [&l[a..b]] *)
  Definition slice (l : list A) (a b : nat) : res (list A) :=
    if Nat.leb a b && Nat.leb b (length l) then Ok (firstn (b - a) (skipn a l)) else Panic.

  (** [dst.copy_from_slice(src)]: the new content of [dst] *)
  Definition copy_from_slice (dst src : list A) : res (list A) :=
    if Nat.eqb (length dst) (length src) then Ok src else Panic.

  (** [l[a..b].copy_from_slice(src)]: the new content of [l] *)
  Definition copy_into (l : list A) (a b : nat) (src : list A) : res (list A) :=
    let* old := slice l a b in
    let* new := copy_from_slice old src in
    Ok (firstn a l ++ new ++ skipn b l).

  (** [iter.collect::<Array<_, n>>()]: hybrid-array panics on a length mismatch *)
  Definition collect (n : nat) (l : list A) : res (list A) :=
    if Nat.eqb (length l) n then Ok l else Panic.

  (** raw pointer read of [n] consecutive elements at offset [off] of an object whose
      elements are [mem] *)
  Definition ptr_read (mem : list A) (off n : nat) : res (list A) :=
    if Nat.leb (off + n) (length mem) then Ok (firstn n (skipn off mem)) else UB.
End Lists.

(** [l.chunks(n)] (n = 0 panics); the last chunk may be shorter.  [fuel] bounds the
    number of chunks and is always taken to be the length of [l]. *)
Fixpoint chunks_aux {A} (fuel n : nat) (l : list A) : list (list A) :=
  match fuel with
  | O => []
  | S k => match l with
           | [] => []
           | _ => firstn n l :: chunks_aux k n (skipn n l)
           end
  end.
Definition chunks {A} (n : nat) (l : list A) : res (list (list A)) :=
  if Nat.eqb n 0 then Panic else Ok (chunks_aux (length l) n l).

(** [l.iter().enumerate()] *)
Definition enumerate {A} (l : list A) : list (nat * A) := combine (seq 0 (length l)) l.

(** [Array::from_fn(f)] for a closure without captured mutable state *)
Definition from_fn {A} (n : nat) (f : nat -> res A) : res (list A) := mapM f (seq 0 n).

(** [(a..b).step_by(s)] *)
Fixpoint step_by_aux (fuel a b s : nat) : list nat :=
  match fuel with
  | O => []
  | S k => if Nat.ltb a b then a :: step_by_aux k (a + s) b s else []
  end.
Definition step_by (a b s : nat) : list nat := step_by_aux (b - a) a b s.

(** [==] on decapsulation and encapsulation keys, with what it shows: the outcomes of the
    comparisons it branches on, in order.

    Outside the repository: [==] of hybrid-array's [Array] is that of slices, which compares
    elements in order and stops at the first difference; byte slices are compared by one
    [memcmp], which is taken to show its result only. *)
From Coq Require Import List ZArith Bool.
From Verif.Base Require Import Res Oracles.
From Verif.Model Require Import Machine Param Pke Kem.
Import ListNotations.
Open Scope Z_scope.

(** outcomes branched on, and the result *)
Definition seen : Type := (list bool * bool)%type.
(** [a && b] *)
Definition seen_and (a b : seen) : seen := if snd a then (fst a ++ fst b, snd b) else a.

Fixpoint slice_eq {A} (eq : A -> A -> seen) (l m : list A) : seen :=
  match l, m with
  | x :: l', y :: m' => seen_and (eq x y) (slice_eq eq l' m')
  | [], [] => ([], true)
  | _, _ => ([], false)
  end.
(** algebra.rs:17, derived *)
Definition fe_eq (x y : Z) : seen := ([x =? y], x =? y).
(** algebra.rs:184, 419, derived: [NttPolynomial], [NttVector] *)
Definition o_nttpoly_eq : list Z -> list Z -> seen := slice_eq fe_eq.
Definition o_nttvec_eq : list (list Z) -> list (list Z) -> seen := slice_eq o_nttpoly_eq.
Definition o_bytes_eq (x y : list Z) : seen := ([bytes_eqb x y], bytes_eqb x y).

(** pke.rs:93 and kem.rs:147, derived: the fields in the order of their declaration *)
Definition o_ek_eq (a b : encaps_key) : seen :=
  seen_and (seen_and (o_nttvec_eq (t_hat (ek_pke a)) (t_hat (ek_pke b))) (o_bytes_eq (rho (ek_pke a)) (rho (ek_pke b))))
    (o_bytes_eq (ek_h a) (ek_h b)).
(** pke.rs:15 and kem.rs:23, derived *)
Definition o_dk_eq (a b : decaps_key) : seen :=
  seen_and (seen_and (o_nttvec_eq (s_hat (dk_pke a)) (s_hat (dk_pke b))) (o_ek_eq (dk_ek a) (dk_ek b)))
    (o_bytes_eq (dk_z a) (dk_z b)).

(** a key of the observer's choice is parsed (kem.rs:53-68) and compared with [dk] *)
Definition shows (P : params) (dk : decaps_key) (b : list Z) : list bool :=
  match decaps_key_from_bytes P b with
  | Ok dk' => fst (o_dk_eq dk dk')
  | _ => []
  end.

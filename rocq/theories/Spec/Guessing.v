(** Finding a secret vector by asking for comparisons, one coefficient at a time.  [ask] takes
    the bytes of a decapsulation key and answers with the outcomes of the comparisons made. *)
From Coq Require Import List ZArith Bool Arith.
From Verif.Base Require Import Oracles.
From Verif.Spec Require Import FIPS203 Domains.
Import ListNotations.
Open Scope Z_scope.

Section Guessing.
  Variable P : params.
  Variable ask : list Z -> list bool.

  (** the encoded vector with these 256 k coefficients *)
  Definition vector_bytes (coefficients : list Z) : list Z :=
    encode_vec P 12 (tab (pk P) (fun i => part 256 i coefficients)).
  (** a decapsulation key with these first coefficients and zeros otherwise *)
  Definition key_with (first : list Z) : list Z :=
    vector_bytes (first ++ repeat 0 (256 * pk P - length first)) ++ repeat 0 (384 * pk P + 96).
  (** the first [n] comparisons were made and found equality *)
  Definition passed (n : nat) (t : list bool) : bool := Nat.eqb (length (firstn n t)) n && forallb (fun b => b) (firstn n t).

  (** one more coefficient, and how often it asked *)
  Fixpoint next_coefficient (candidates : list Z) (known : list Z) : list Z * nat :=
    match candidates with
    | [] => (known, 0%nat)
    | v :: rest =>
        if passed (S (length known)) (ask (key_with (known ++ [v]))) then (known ++ [v], 1%nat)
        else let '(r, c) := next_coefficient rest known in (r, S c)
    end.
  Fixpoint coefficients (n : nat) (known : list Z) : list Z * nat :=
    match n with
    | O => (known, 0%nat)
    | S n' =>
        let '(known, c) := next_coefficient (map Z.of_nat (seq 0 (Z.to_nat q))) known in
        let '(r, c') := coefficients n' known in
        (r, (c + c')%nat)
    end.
  (** the encoded secret vector, and how often it asked *)
  Definition find_secret : list Z * nat :=
    let '(r, c) := coefficients (256 * pk P) [] in (vector_bytes r, c).
End Guessing.

(** X25519, transcribed from RFC 7748 section 5.  The concrete Diffie-Hellman
    function of the X-Wing test vectors and of C57, C58; the other theorems quantify over the
    function. *)
From Coq Require Import List ZArith.
From Verif.Base Require Import Oracles.
From Verif.Spec Require Import FIPS203.
Import ListNotations.
Open Scope Z_scope.

Definition p25519 : Z := Eval compute in (2 ^ 255 - 19).
Definition a24 : Z := 121665.

Fixpoint le_decode (b : list Z) : Z :=
  match b with [] => 0 | x :: r => x + 256 * le_decode r end.
Definition le_encode (n : nat) (x : Z) : list Z :=
  tab n (fun i => (x / 256 ^ Z.of_nat i) mod 256).

Definition decodeScalar25519 (k : list Z) : Z :=
  le_decode (tab 32 (fun i =>
    if Nat.eqb i 0 then Z.land (nth 0 k 0) 248
    else if Nat.eqb i 31 then Z.lor (Z.land (nth 31 k 0) 127) 64
    else nth i k 0)).
Definition decodeUCoordinate (u : list Z) : Z := le_decode u mod 2 ^ 255.

(** Field operations reduce with [red]; [red x = x mod p25519] in [X25519] below. *)
Section Ladder.
  Variable red : Z -> Z.

  (** one iteration of the Montgomery ladder, t = bit index *)
  Definition ladder_step (k x1 : Z) (st : Z * Z * Z * Z * bool) (t : nat) : Z * Z * Z * Z * bool :=
    let '(x2, z2, x3, z3, swap) := st in
    let kt := Z.testbit k (Z.of_nat t) in
    let sw := xorb swap kt in
    let '(x2, x3) := if sw then (x3, x2) else (x2, x3) in
    let '(z2, z3) := if sw then (z3, z2) else (z2, z3) in
    let A := red (x2 + z2) in
    let AA := red (A * A) in
    let B := red (x2 - z2) in
    let BB := red (B * B) in
    let E := red (AA - BB) in
    let C := red (x3 + z3) in
    let D := red (x3 - z3) in
    let DA := red (D * A) in
    let CB := red (C * B) in
    let x3 := red ((DA + CB) * (DA + CB)) in
    let z3 := red (x1 * red ((DA - CB) * (DA - CB))) in
    let x2 := red (AA * BB) in
    let z2 := red (E * red (AA + a24 * E)) in
    (x2, z2, x3, z3, kt).

  (** x ^ n, for the final inversion by Fermat's little theorem *)
  Fixpoint pow_red (x : Z) (n : positive) : Z :=
    match n with
    | xH => red x
    | xO n => let y := pow_red x n in red (y * y)
    | xI n => let y := pow_red x n in red (red (y * y) * x)
    end.

  Definition X25519_with (k u : list Z) : list Z :=
    let k := decodeScalar25519 k in
    let u := decodeUCoordinate u in
    let '(x2, z2, x3, z3, swap) := fold_left (ladder_step k u) (rev (seq 0 255)) (1, 0, u, 1, false) in
    let '(x2, z2) := if swap then (x3, z3) else (x2, z2) in
    le_encode 32 (red (x2 * pow_red z2 (Z.to_pos (p25519 - 2)))).
End Ladder.

Definition X25519 : list Z -> list Z -> list Z := X25519_with (fun x => x mod p25519).

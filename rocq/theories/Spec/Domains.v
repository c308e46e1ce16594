(** The value domains the theorems quantify over, and a few views of byte strings. *)
From Coq Require Import List ZArith Arith.
From Verif.Base Require Import Oracles.
From Verif.Spec Require Import FIPS203.
Import ListNotations.
Open Scope Z_scope.

(** a canonical field element; a polynomial (or NTT representation): 256 of them; a vector
    of k polynomials; a k x k matrix *)
Definition fe (x : Z) : Prop := 0 <= x < q.
Definition poly (p : list Z) : Prop := length p = 256%nat /\ Forall fe p.
Definition vec (k : nat) (v : list (list Z)) : Prop := length v = k /\ Forall poly v.
Definition mat (k : nat) (m : list (list (list Z))) : Prop := length m = k /\ Forall (vec k) m.

(** 256 coefficients of d bits *)
Definition small (d : nat) (p : list Z) : Prop :=
  length p = 256%nat /\ Forall (fun x => 0 <= x < 2 ^ Z.of_nat d) p.

(** the modulus of ByteDecode_d: 2^d for d < 12, q for d = 12 *)
Definition dec_mod (d : nat) : Z := if Nat.ltb d 12 then 2 ^ Z.of_nat d else q.
(** 256 coefficients below that modulus *)
Definition canonical (d : nat) (F : list Z) : Prop :=
  length F = 256%nat /\ Forall (fun x => 0 <= x < dec_mod d) F.

(** the representative in [-1664, 1664] of a residue class modulo q *)
Definition centred (x : Z) : Z := (x + 1664) mod q - 1664.

(** the [i]-th d-bit little-endian field of a byte string *)
Definition field (d : nat) (B : list Z) (i : nat) : Z :=
  sum d (fun j => b2z (bit_of_bytes B (i * d + j)) * 2 ^ Z.of_nat j).

(** the [i]-th block of [s] elements of a list *)
Definition part {A} (s i : nat) (l : list A) : list A := firstn s (skipn (i * s) l).

(** every 12-bit field of an encoded vector of k polynomials is below q: the modulus check
    of FIPS 203 section 7.2 *)
Definition canonical_vec (k : nat) (B : list Z) : Prop :=
  forall i, (i < k)%nat -> forall j, (j < 256)%nat -> field 12 (part 384 i B) j < q.

(** FIPS 203 sizes: encapsulation key, decapsulation key, ciphertext *)
Definition ek_len (P : params) : nat := (384 * pk P + 32)%nat.
Definition dk_len (P : params) : nat := (768 * pk P + 96)%nat.
Definition ct_len (P : params) : nat := (32 * du P * pk P + 32 * dv P)%nat.

(** sections of an encoded decapsulation key: dk_PKE || ek || h || z *)
Definition dk_sec_pke (P : params) (b : list Z) : list Z := firstn (384 * pk P) b.
Definition dk_sec_ek (P : params) (b : list Z) : list Z := firstn (384 * pk P + 32) (skipn (384 * pk P) b).
Definition dk_sec_h (P : params) (b : list Z) : list Z := firstn 32 (skipn (768 * pk P + 32) b).
Definition dk_sec_z (P : params) (b : list Z) : list Z := skipn (768 * pk P + 64) b.

(** Idealised hash functions: a hash function whose answers to a list of queries are given
    by a byte string, so that statements can count the byte strings ("with uniformly random
    answers, with probability at most ..."). *)
From Coq Require Import List ZArith.
From Verif.Base Require Import Res Oracles.
From Verif.Spec Require Import FIPS203 Domains.
Import ListNotations.
Open Scope Z_scope.

(** The stream function [old], except that query [ask a] is answered by block [a] of [B],
    for the [m] blocks of [s] bytes. *)
Definition answer (ask : nat -> list Z) (m s : nat) (B : list Z) (old : list Z -> nat -> Z)
  (x : list Z) (t : nat) : Z :=
  match find (fun a => if list_eq_dec Z.eq_dec x (ask a) then true else false) (seq 0 m) with
  | Some a => nth t (part s a B) 0
  | None => old x t
  end.

(** the XOF input of matrix entry a = i k + j: rho, j, i; [s] bytes for each of the k^2 *)
Definition ask_matrix (k : nat) (rho : list Z) (a : nat) : list Z :=
  rho ++ [Z.of_nat (a mod k); Z.of_nat (a / k)].
Definition with_matrix (hs : hashes) (k s : nat) (rho B : list Z) : hashes := {|
  sha3_256 := sha3_256 hs; sha3_512 := sha3_512 hs;
  shake128 := answer (ask_matrix k rho) (k * k) s B (shake128 hs);
  shake256 := shake256 hs
|}.

(** the PRF inputs of key generation: sigma, a for the 2k polynomials of s and e *)
Definition ask_secrets (sigma : list Z) (a : nat) : list Z := sigma ++ [Z.of_nat a].
Definition with_secrets (hs : hashes) (P : params) (sigma B : list Z) : hashes := {|
  sha3_256 := sha3_256 hs; sha3_512 := sha3_512 hs; shake128 := shake128 hs;
  shake256 := answer (ask_secrets sigma) (2 * pk P) (64 * eta1 P) B (shake256 hs)
|}.

(** the test "the run returned nothing" *)
Definition no_result {A} (r : res A) : bool := match r with Ok _ => false | _ => true end.

(** the PRF inputs of encryption: r, a for the k polynomials of y; r, k + a for the k
    polynomials of e1 and, at a = k, for e2 *)
Definition with_coins (hs : hashes) (P : params) (r Y E : list Z) : hashes := {|
  sha3_256 := sha3_256 hs; sha3_512 := sha3_512 hs; shake128 := shake128 hs;
  shake256 := answer (ask_secrets r) (pk P) (64 * eta1 P) Y
    (answer (fun a => ask_secrets r (pk P + a)) (pk P + 1) (64 * eta2 P) E (shake256 hs))
|}.

(** MLWE with a random matrix, and the XOF and the PRF of ML-KEM as random functions. *)
From Coq Require Import List ZArith QArith.
From Verif.Base Require Import Oracles.
From Verif.Spec Require Import FIPS203 Domains Random Lwe Attacker Tables.
Import ListNotations.

(** [LA] lists every matrix with [l] rows of [k] polynomials, each exactly once *)
Definition all_matrices (l k : nat) (LA : list (list (list (list Z)))) : Prop :=
  NoDup LA /\ forall M, In M LA <-> length M = l /\ Forall (vec k) M.

(** The gap of the distinguisher [D], which is told the matrix, for a random matrix [M] with
    [l] rows and [k] columns: D on (M, M s + e) against D on (M, uniform). *)
Definition mlwe_gap (k l eta_s eta_e : nat) (LA : list (list (list (list Z))))
  (LS LE : list (list Z)) (LU : list (list (list Z))) (D : list (list (list Z)) -> list (list Z) -> Q) : Q :=
  average LA (fun M => lwe_gap k l eta_s eta_e M LS LE LU (D M)).

(** The hash functions [hs], except that for the 32-byte strings r of [L], the PRF answers
    that encryption with r asks for are the blocks of TY(r) and TW(r). *)
Definition with_prf_tables (hs : hashes) (P : params) (L TY TW : list (list Z)) : hashes := {|
  sha3_256 := sha3_256 hs;
  sha3_512 := sha3_512 hs;
  shake128 := shake128 hs;
  shake256 := fun x =>
    match entry L TY (firstn 32 x), entry L TW (firstn 32 x) with
    | Some Y, Some W => shake256 (with_coins hs P (firstn 32 x) Y W) x
    | _, _ => shake256 hs x
    end
|}.
(** and the XOF answers from which the matrix for [rho] is sampled are the blocks of [M] *)
Definition random_hashes (hs : hashes) (P : params) (n : nat) (rho : list Z) (L TY TW : list (list Z)) (M : list Z) : hashes :=
  with_matrix (with_prf_tables hs P L TY TW) (pk P) (3 * n) rho M.

(** ** The reduction *)

(** the XOF answers from which the matrix A is sampled (in its transformed form) *)
Definition matrix_tapes (hs : hashes) (P : params) (n : nat) (rho : list Z) (LM : list (list Z))
  (A : list (list (list Z))) : list (list Z) :=
  filter (fun M =>
    match A_hat (with_matrix hs (pk P) (3 * n) rho M) P n rho with
    | Some Ah => if list_eq_dec (list_eq_dec (list_eq_dec Z.eq_dec)) Ah (map (map NTT) A) then true else false
    | None => false
    end) LM.

(** Two distinguishers from the two of Spec/Tables.v.  They choose random PRF answers, and
    random XOF answers that give the matrix they are told. *)
Definition mlwe_key_test (hs : hashes) (P : params) (n : nat) (rho r : list Z) (L LC LM LY LW : list (list Z))
  (LTY LTW LR LF : list (list (list Z))) (att : list Z -> list Z -> list Z -> attacker)
  (A : list (list (list Z))) (t : list (list Z)) : Q :=
  average LTY (fun TY => average LTW (fun TW => average (matrix_tapes hs P n rho LM A) (fun M =>
    sim_key_test (random_hashes hs P n rho L TY TW M) P n rho r L LC LY LW LR LF att t))).
(** The rows of the second matrix are those of the transpose of A, and t. *)
Definition mlwe_ct_test (hs : hashes) (P : params) (n : nat) (rho : list Z) (L LC LM : list (list Z))
  (LTY LTW LR LF : list (list (list Z))) (att : list Z -> list Z -> list Z -> attacker)
  (B : list (list (list Z))) (w : list (list Z)) : Q :=
  let A := transposed (pk P) (firstn (pk P) B) in
  let t := nth (pk P) B [] in
  average LTY (fun TY => average LTW (fun TW => average (matrix_tapes hs P n rho LM A) (fun M =>
    sim_ct_test (random_hashes hs P n rho L TY TW M) P n rho L LC LR LF att t w))).

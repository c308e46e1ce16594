(** Averages over finite lists, and the module learning-with-errors (MLWE) problem over
    R_q = Z_q[X]/(X^256 + 1): the difference between the behaviour of a distinguisher on
    samples M s + e, with s and e from centred binomial distributions, and on uniform
    vectors. *)
From Coq Require Import List ZArith QArith.
From Verif.Base Require Import Oracles.
From Verif.Spec Require Import FIPS203 Domains Noise Random.
Import ListNotations.

(** the mean of [f] over [L] *)
Definition total {A} (L : list A) (f : A -> Q) : Q := fold_right (fun x a => f x + a)%Q 0%Q L.
Definition average {A} (L : list A) (f : A -> Q) : Q := (total L f / inject_Z (Z.of_nat (length L)))%Q.
(** 1 for success, 0 for failure *)
Definition one_if (b : bool) : Q := if b then 1%Q else 0%Q.

(** [n] polynomials from [n] blocks of uniform bytes *)
Definition cbd_vec (eta n : nat) (B : list Z) : list (list Z) :=
  tab n (fun a => SamplePolyCBD eta (part (64 * eta) a B)).
(** [l] samples for the matrix [M] with [l] rows and [k] columns *)
Definition lwe_samples (k l : nat) (M : list (list (list Z))) (s e : list (list Z)) : list (list Z) :=
  tab l (fun i => padd (inner k (nth i M []) s) (ent e i)).
(** [L] lists every vector of [l] polynomials, each exactly once *)
Definition all_vectors (l : nat) (L : list (list (list Z))) : Prop :=
  NoDup L /\ forall v, In v L <-> vec l v.

(** The gap of the distinguisher [D]: [D v] is the probability that it answers 1 on [v].
    [LS] and [LE] list the byte strings for s and e, [LU] the vectors. *)
Definition lwe_gap (k l eta_s eta_e : nat) (M : list (list (list Z)))
  (LS LE : list (list Z)) (LU : list (list (list Z))) (D : list (list Z) -> Q) : Q :=
  (average LS (fun S => average LE (fun E =>
     D (lwe_samples k l M (cbd_vec eta_s k S) (cbd_vec eta_e l E))))
   - average LU D)%Q.

(** ** The reduction for K-PKE *)

(** the bytes of the secret key for S, of a public key with vector t, and of a ciphertext with
    parts u and v *)
Definition secret_bytes (P : params) (S : list Z) : list Z :=
  encode_vec P 12 (map NTT (cbd_vec (eta1 P) (pk P) S)).
Definition key_bytes (P : params) (rho : list Z) (t : list (list Z)) : list Z :=
  encode_vec P 12 (map NTT t) ++ rho.
Definition ct_bytes (P : params) (u : list (list Z)) (v : list Z) : list Z :=
  encode_vec P (du P) (map (map (Compress (du P))) u) ++ ByteEncode (dv P) (map (Compress (dv P)) v).
(** the matrix of the samples in a ciphertext: the rows of A^T, and t *)
Definition ct_matrix (k : nat) (A : list (list (list Z))) (t : list (list Z)) : list (list (list Z)) :=
  transposed k A ++ [t].

(** Two distinguishers made from a test [T] of a public key and a ciphertext.  The first
    takes its input for the vector of a public key, encrypts [message] to that key
    with fresh randomness and asks [T]. *)
Definition key_test (hs : hashes) (P : params) (n : nat) (rho r : list Z) (LY LW : list (list Z))
  (message : list Z -> list Z) (T : list Z -> list Z -> Q) (t : list (list Z)) : Q :=
  let ek := key_bytes P rho t in
  average LY (fun Y => average LW (fun W =>
    match KPKE_Encrypt (with_coins hs P r Y W) P n ek (message ek) r with
    | Some c => T ek c
    | None => 0%Q
    end)).
(** The second takes its input for the two parts of a ciphertext under the key [t], adds
    the message and asks [T]. *)
Definition ct_test (P : params) (rho : list Z) (message : list Z -> list Z) (T : list Z -> list Z -> Q)
  (t w : list (list Z)) : Q :=
  let ek := key_bytes P rho t in
  T ek (ct_bytes P (firstn (pk P) w) (padd (nth (pk P) w []) (enc_mu (message ek)))).

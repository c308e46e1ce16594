(** ML-KEM, transcribed from NIST FIPS 203 (August 2024), as the specification the model
    of the Rust code is proved against.  It shares no definition with the model: it only
    uses the interface types of Base/Oracles.v and the standard library.

    Polynomials (of R_q and of T_q) are lists of 256 integers in [0, q).  Wherever FIPS 203
    describes an object mathematically (NTT, rounding, bit strings) the mathematical
    definition is used instead of the pseudocode. *)
From Coq Require Import List ZArith.
From Verif.Base Require Import Oracles.
Import ListNotations.
Open Scope Z_scope.

(** ** Notation *)

Definition q : Z := 3329.
Definition zeta : Z := 17.

(** the list [f 0; ...; f (n-1)] *)
Definition tab {A} (n : nat) (f : nat -> A) : list A := map f (seq 0 n).
(** coefficient i *)
Definition co (f : list Z) (i : nat) : Z := nth i f 0.
(** entry i of a vector of polynomials *)
Definition ent (v : list (list Z)) (i : nat) : list Z := nth i v [].
(** f 0 + ... + f (n-1) *)
Fixpoint sum (n : nat) (f : nat -> Z) : Z :=
  match n with O => 0 | S k => sum k f + f k end.
Definition b2z (b : bool) : Z := if b then 1 else 0.

(** polynomial addition and subtraction in R_q (and T_q) *)
Definition padd (f g : list Z) : list Z := tab 256 (fun i => (co f i + co g i) mod q).
Definition psub (f g : list Z) : list Z := tab 256 (fun i => (co f i - co g i) mod q).

(** ** Section 4.2.1: conversion, compression, encoding *)

(** bit [i] of a byte string, little-endian within bytes (Algorithm 4, BytesToBits) *)
Definition bit_of_bytes (B : list Z) (i : nat) : bool :=
  Z.testbit (nth (i / 8) B 0) (Z.of_nat (i mod 8)).
(** Algorithm 3, BitsToBytes, for [8 * n] bits *)
Definition BitsToBytes (n : nat) (b : nat -> bool) : list Z :=
  tab n (fun i => sum 8 (fun j => b2z (b (8 * i + j)%nat) * 2 ^ Z.of_nat j)).

(** Algorithm 5: bit [i * d + j] of the output is bit [j] of [F[i]] *)
Definition ByteEncode (d : nat) (F : list Z) : list Z :=
  BitsToBytes (32 * d) (fun t => Z.testbit (co F (t / d)) (Z.of_nat (t mod d))).
(** Algorithm 6: m = 2^d if d < 12, m = q if d = 12 *)
Definition ByteDecode (d : nat) (B : list Z) : list Z :=
  let m := if Nat.ltb d 12 then 2 ^ Z.of_nat d else q in
  tab 256 (fun i =>
    sum d (fun j => b2z (bit_of_bytes B (i * d + j)) * 2 ^ Z.of_nat j) mod m).

(** [round_div a b] is a/b rounded to the nearest integer, half up: the floor of
    a/b + 1/2 *)
Definition round_div (a b : Z) : Z := (2 * a + b) / (2 * b).
(** (4.7) and (4.8) *)
Definition Compress (d : nat) (x : Z) : Z :=
  round_div (2 ^ Z.of_nat d * x) q mod 2 ^ Z.of_nat d.
Definition Decompress (d : nat) (y : Z) : Z :=
  round_div (q * y) (2 ^ Z.of_nat d).

(** ** Section 4.2.2: sampling *)

(** Algorithm 7, one iteration of the loop: the at most two accepted 12-bit candidates
    of the [t]-th group of three bytes *)
Definition candidates (B : nat -> Z) (t : nat) : list Z :=
  let b0 := B (3 * t)%nat in
  let b1 := B (3 * t + 1)%nat in
  let b2 := B (3 * t + 2)%nat in
  let d1 := b0 + 256 * (b1 mod 16) in
  let d2 := b1 / 16 + 16 * b2 in
  (if d1 <? q then [d1] else []) ++ (if d2 <? q then [d2] else []).
(** Algorithm 7, SampleNTT, on the XOF output stream [B]: the first 256 accepted
    candidates, provided they are found within the first [n] iterations *)
Definition SampleNTT (n : nat) (B : nat -> Z) : option (list Z) :=
  let c := flat_map (candidates B) (seq 0 n) in
  if Nat.leb 256 (length c) then Some (firstn 256 c) else None.

(** Algorithm 8, SamplePolyCBD *)
Definition SamplePolyCBD (eta : nat) (B : list Z) : list Z :=
  tab 256 (fun i =>
    (sum eta (fun j => b2z (bit_of_bytes B (2 * i * eta + j))) -
     sum eta (fun j => b2z (bit_of_bytes B (2 * i * eta + eta + j)))) mod q).

(** ** Section 4.3: the number-theoretic transform *)

(** BitRev7: reverse the order of the seven bits *)
Definition BitRev7 (r : nat) : nat :=
  Z.to_nat (sum 7 (fun j => b2z (Z.testbit (Z.of_nat r) (Z.of_nat j)) * 2 ^ Z.of_nat (6 - j))).
(** the root of the i-th quadratic factor X^2 - gamma i *)
Definition gamma (i : nat) : Z := zeta ^ Z.of_nat (2 * BitRev7 i + 1).

(** NTT: f mod (X^2 - gamma i) = fhat[2i] + fhat[2i+1] X *)
Definition NTT (f : list Z) : list Z :=
  tab 256 (fun t => let i := (t / 2)%nat in
    sum 128 (fun j => co f (2 * j + t mod 2) * gamma i ^ Z.of_nat j) mod q).
(** The inverse transform in closed form.  3303 = 128^-1 mod q, and gamma i has order
    dividing 256, so gamma i ^ (256 - j) = gamma i ^ -j. *)
Definition NTTinv (g : list Z) : list Z :=
  tab 256 (fun t => let j := (t / 2)%nat in
    (3303 * sum 128 (fun i => co g (2 * i + t mod 2) * gamma i ^ Z.of_nat (256 - j))) mod q).
(** Algorithms 11 and 12: (a0 + a1 X)(b0 + b1 X) mod (X^2 - gamma i) *)
Definition MultiplyNTTs (f g : list Z) : list Z :=
  tab 256 (fun t => let i := (t / 2)%nat in
    let a0 := co f (2 * i) in let a1 := co f (2 * i + 1) in
    let b0 := co g (2 * i) in let b1 := co g (2 * i + 1) in
    if Nat.even t then (a0 * b0 + a1 * b1 * gamma i) mod q
    else (a0 * b1 + a1 * b0) mod q).

(** multiplication in R_q = Z_q[X]/(X^256 + 1) *)
Definition pmul (f g : list Z) : list Z :=
  tab 256 (fun c =>
    (sum 256 (fun i => sum 256 (fun j =>
       if Nat.eqb (i + j) c then co f i * co g j
       else if Nat.eqb (i + j) (c + 256) then - (co f i * co g j)
       else 0))) mod q).

(** vectors and matrices over T_q, of dimension k *)
Definition vadd (k : nat) (u v : list (list Z)) : list (list Z) :=
  tab k (fun i => padd (ent u i) (ent v i)).
Definition dot (k : nat) (u v : list (list Z)) : list Z :=
  tab 256 (fun c => sum k (fun i => co (MultiplyNTTs (ent u i) (ent v i)) c) mod q).
Definition matvec (k : nat) (A : list (list (list Z))) (v : list (list Z)) : list (list Z) :=
  tab k (fun i => dot k (nth i A []) v).
Definition transposed (k : nat) (A : list (list (list Z))) : list (list (list Z)) :=
  tab k (fun i => tab k (fun j => ent (nth j A []) i)).

(** all entries of a list of partial results *)
Fixpoint all_some {A} (l : list (option A)) : option (list A) :=
  match l with
  | [] => Some []
  | Some x :: r => match all_some r with Some xs => Some (x :: xs) | None => None end
  | None :: _ => None
  end.

Section ML_KEM.
  Variable hs : hashes.
  Variable P : params.
  Let k := pk P.

  (** ** Section 4.1: cryptographic functions *)
  Definition prefix (n : nat) (s : nat -> Z) : list Z := tab n s.
  Definition PRF (eta : nat) (s : list Z) (b : nat) : list Z :=
    prefix (64 * eta) (shake256 hs (s ++ [Z.of_nat b])).
  Definition H (s : list Z) : list Z := sha3_256 hs s.
  Definition J (s : list Z) : list Z := prefix 32 (shake256 hs s).
  Definition G (c : list Z) : list Z * list Z :=
    (firstn 32 (sha3_512 hs c), skipn 32 (sha3_512 hs c)).

  (** the matrix A-hat generated from rho; each SampleNTT gets at most [n] iterations *)
  Definition A_hat (n : nat) (rho : list Z) : option (list (list (list Z))) :=
    all_some (tab k (fun i => all_some (tab k (fun j =>
      SampleNTT n (shake128 hs (rho ++ [Z.of_nat j; Z.of_nat i])))))).

  (** ** Section 5: K-PKE *)

  (** the secret and error vectors: entry [i] uses nonce [N + i] *)
  Definition noise (eta : nat) (sigma : list Z) (N : nat) : list (list Z) :=
    tab k (fun i => SamplePolyCBD eta (PRF eta sigma (N + i))).

  (** encoding of vectors: concatenation of the encodings of the entries *)
  Definition encode_vec (d : nat) (v : list (list Z)) : list Z :=
    flat_map (fun i => ByteEncode d (ent v i)) (seq 0 k).
  Definition decode_vec (d : nat) (B : list Z) : list (list Z) :=
    tab k (fun i => ByteDecode d (firstn (32 * d) (skipn (32 * d * i) B))).

  (** Algorithm 13: returns (ek_PKE, dk_PKE) *)
  Definition KPKE_KeyGen (n : nat) (d : list Z) : option (list Z * list Z) :=
    let '(rho, sigma) := G (d ++ [Z.of_nat k]) in
    match A_hat n rho with
    | None => None
    | Some A =>
        let s := noise (eta1 P) sigma 0 in
        let e := noise (eta1 P) sigma k in
        let s_hat := map NTT s in
        let e_hat := map NTT e in
        let t_hat := vadd k (matvec k A s_hat) e_hat in
        Some (encode_vec 12 t_hat ++ rho, encode_vec 12 s_hat)
    end.

  (** Algorithm 14 *)
  Definition KPKE_Encrypt (n : nat) (ek m r : list Z) : option (list Z) :=
    let t_hat := decode_vec 12 (firstn (384 * k) ek) in
    let rho := skipn (384 * k) ek in
    match A_hat n rho with
    | None => None
    | Some A =>
        let y := noise (eta1 P) r 0 in
        let e1 := noise (eta2 P) r k in
        let e2 := SamplePolyCBD (eta2 P) (PRF (eta2 P) r (2 * k)) in
        let y_hat := map NTT y in
        let u := vadd k (map NTTinv (matvec k (transposed k A) y_hat)) e1 in
        let mu := map (Decompress 1) (ByteDecode 1 m) in
        let v := padd (padd (NTTinv (dot k t_hat y_hat)) e2) mu in
        let c1 := encode_vec (du P) (map (map (Compress (du P))) u) in
        let c2 := ByteEncode (dv P) (map (Compress (dv P)) v) in
        Some (c1 ++ c2)
    end.

  (** Algorithm 15 *)
  Definition KPKE_Decrypt (dk c : list Z) : list Z :=
    let c1 := firstn (32 * du P * k) c in
    let c2 := skipn (32 * du P * k) c in
    let u := map (map (Decompress (du P))) (decode_vec (du P) c1) in
    let v := map (Decompress (dv P)) (ByteDecode (dv P) c2) in
    let s_hat := decode_vec 12 dk in
    let w := psub v (NTTinv (dot k s_hat (map NTT u))) in
    ByteEncode 1 (map (Compress 1) w).

  (** ** Section 6: ML-KEM *)

  (** Algorithm 16: returns (ek, dk) *)
  Definition KeyGen_internal (n : nat) (d z : list Z) : option (list Z * list Z) :=
    match KPKE_KeyGen n d with
    | None => None
    | Some (ek, dk_pke) => Some (ek, dk_pke ++ ek ++ H ek ++ z)
    end.

  (** Algorithm 17, parametrised by the hash of the encapsulation key; returns (K, c) *)
  Definition Encaps_with (n : nat) (ek h m : list Z) : option (list Z * list Z) :=
    let '(K, r) := G (m ++ h) in
    match KPKE_Encrypt n ek m r with
    | None => None
    | Some c => Some (K, c)
    end.
  Definition Encaps_internal (n : nat) (ek m : list Z) : option (list Z * list Z) :=
    Encaps_with n ek (H ek) m.

  (** Algorithm 18 *)
  Definition Decaps_internal (n : nat) (dk c : list Z) : option (list Z) :=
    let dk_pke := firstn (384 * k) dk in
    let ek_pke := firstn (384 * k + 32) (skipn (384 * k) dk) in
    let h := firstn 32 (skipn (768 * k + 32) dk) in
    let z := skipn (768 * k + 64) dk in
    let m' := KPKE_Decrypt dk_pke c in
    let '(K', r') := G (m' ++ h) in
    let K_bar := J (z ++ c) in
    match KPKE_Encrypt n ek_pke m' r' with
    | None => None
    | Some c' => if list_eq_dec Z.eq_dec c c' then Some K' else Some K_bar
    end.
End ML_KEM.

(** ** Section 8: parameter sets (Table 2) *)
Definition ML_KEM_512 : params := {| pk := 2; eta1 := 3; eta2 := 2; du := 10; dv := 4 |}.
Definition ML_KEM_768 : params := {| pk := 3; eta1 := 2; eta2 := 2; du := 10; dv := 4 |}.
Definition ML_KEM_1024 : params := {| pk := 4; eta1 := 2; eta2 := 2; du := 11; dv := 5 |}.

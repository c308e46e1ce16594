(** Decryption noise of K-PKE, written over the ring R_q = Z_q[X]/(X^256 + 1) with the
    schoolbook product [pmul] of Spec/FIPS203.v: no transform is applied to the secrets,
    the errors or the message (only the matrix, which FIPS 203 samples in the NTT domain,
    is mapped back to R_q). *)
From Coq Require Import List ZArith.
From Verif.Base Require Import Oracles.
From Verif.Spec Require Import FIPS203 Domains.
Import ListNotations.
Open Scope Z_scope.

(** inner product and matrix-vector product over R_q *)
Definition inner (k : nat) (u v : list (list Z)) : list Z :=
  tab 256 (fun c => sum k (fun i => co (pmul (ent u i) (ent v i)) c) mod q).
Definition rmatvec (k : nat) (A : list (list (list Z))) (v : list (list Z)) : list (list Z) :=
  tab k (fun i => inner k (nth i A []) v).
(** the error made by compressing to d bits and decompressing again *)
Definition rounding (d : nat) (p : list Z) : list Z :=
  psub (map (fun x => Decompress d (Compress d x)) p) p.

(** the values that decode to bit [b] after adding it to the encoding of [b] *)
Definition decodable (b : bool) (x : Z) : Prop := -832 <= x <= (if b then 831 else 832).

Section Noise.
  Variable hs : hashes.
  Variable P : params.
  Let k := pk P.

  (** key generation from d *)
  Definition key_rho (d : list Z) : list Z := fst (G hs (d ++ [Z.of_nat k])).
  Definition key_s (d : list Z) : list (list Z) := noise hs P (eta1 P) (snd (G hs (d ++ [Z.of_nat k]))) 0.
  Definition key_e (d : list Z) : list (list Z) := noise hs P (eta1 P) (snd (G hs (d ++ [Z.of_nat k]))) k.
  (** encryption of m with randomness r *)
  Definition enc_y (r : list Z) : list (list Z) := noise hs P (eta1 P) r 0.
  Definition enc_e1 (r : list Z) : list (list Z) := noise hs P (eta2 P) r k.
  Definition enc_e2 (r : list Z) : list Z := SamplePolyCBD (eta2 P) (PRF hs (eta2 P) r (2 * k)).
  Definition enc_mu (m : list Z) : list Z := map (Decompress 1) (ByteDecode 1 m).

  (** the matrix over R_q *)
  Variable A : list (list (list Z)).

  (** t = A s + e;  u = A^T y + e1;  v = t.y + e2 + mu *)
  Definition key_t (d : list Z) : list (list Z) := vadd k (rmatvec k A (key_s d)) (key_e d).
  Definition enc_u (r : list Z) : list (list Z) := vadd k (rmatvec k (transposed k A) (enc_y r)) (enc_e1 r).
  Definition enc_v (d m r : list Z) : list Z :=
    padd (padd (inner k (key_t d) (enc_y r)) (enc_e2 r)) (enc_mu m).

  (** the ciphertext: u and v, compressed and encoded *)
  Definition enc_ct (d m r : list Z) : list Z :=
    encode_vec P (du P) (map (map (Compress (du P))) (enc_u r)) ++
    ByteEncode (dv P) (map (Compress (dv P)) (enc_v d m r)).

  (** e.y + e2 + c_v - s.(e1 + c_u) *)
  Definition decryption_noise (d m r : list Z) : list Z :=
    psub (padd (padd (inner k (key_e d) (enc_y r)) (enc_e2 r)) (rounding (dv P) (enc_v d m r)))
         (inner k (key_s d) (vadd k (enc_e1 r) (map (rounding (du P)) (enc_u r)))).

  (** every centred coefficient of the noise decodes together with its message bit *)
  Definition noise_in_range (d m r : list Z) : Prop :=
    forall i, (i < 256)%nat -> decodable (bit_of_bytes m i) (centred (co (decryption_noise d m r) i)).
End Noise.

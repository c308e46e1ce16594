(** Interfaces shared by the model and the specifications: byte strings, the hash
    functions of the external [sha3] crate, random number generators and ML-KEM
    parameter sets.  Nothing here is assumed: theorems quantify over every value of
    these types that satisfies the stated hypotheses. *)
From Coq Require Import List ZArith.
Import ListNotations.
Open Scope Z_scope.

(** a byte; a byte string; a byte string of a given length *)
Definition is_byte (x : Z) : Prop := 0 <= x < 256.
Definition bytes (l : list Z) : Prop := Forall is_byte l.
Definition byte_string (n : nat) (l : list Z) : Prop := length l = n /\ bytes l.

(** SHA3-256, SHA3-512 and the (infinite) output byte streams of SHAKE128 and SHAKE256 *)
Record hashes := {
  sha3_256 : list Z -> list Z;
  sha3_512 : list Z -> list Z;
  shake128 : list Z -> nat -> Z;
  shake256 : list Z -> nat -> Z
}.

(** On byte-string inputs the outputs have the right length and consist of bytes. *)
Definition hash_ok (hs : hashes) : Prop :=
  forall m, bytes m ->
    byte_string 32 (sha3_256 hs m) /\
    byte_string 64 (sha3_512 hs m) /\
    (forall i, is_byte (shake128 hs m i)) /\
    (forall i, is_byte (shake256 hs m i)).

(** A random number generator ([rand_core::CryptoRngCore]): any state with any
    [fill_bytes]; [fill_bytes s n] is the content of an [n]-byte buffer after the call,
    and the new state. *)
Record rng := {
  rng_state : Type;
  fill_bytes : rng_state -> nat -> list Z * rng_state
}.
Definition rng_ok (g : rng) : Prop :=
  forall s n, byte_string n (fst (fill_bytes g s n)).

(** An ML-KEM parameter set: k, eta1, eta2, du, dv *)
Record params := { pk : nat; eta1 : nat; eta2 : nat; du : nat; dv : nat }.

(** Parameter sets the code can be instantiated with: [CbdSamplingSize] exists for 2 and 3
    only, the nonce 2k must fit in a byte, coefficients fit in 12 bits. *)
Definition wf_params (P : params) : Prop :=
  (1 <= pk P <= 127)%nat /\
  (eta1 P = 2 \/ eta1 P = 3)%nat /\
  (eta2 P = 2 \/ eta2 P = 3)%nat /\
  (1 <= du P <= 12)%nat /\ (1 <= dv P <= 12)%nat.

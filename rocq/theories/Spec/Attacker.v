(** Attackers with access to the hash functions, and the game they play against ML-KEM's
    encapsulation in the random-oracle model. *)
From Coq Require Import List ZArith QArith.
From Verif.Base Require Import Oracles.
From Verif.Spec Require Import FIPS203 Random Lwe.
Import ListNotations.

(** An attacker asks hash functions about inputs of its choice, and the owner of a secret
    key to decapsulate ciphertexts, one after the other, and finally answers; [Answer p] is
    the answer 1 with probability p.  For SHAKE it says how many bytes of the stream it
    wants. *)
Inductive hash_name := Sha3_256 | Sha3_512 | Shake128 | Shake256.
Inductive attacker :=
  | Answer (p : Q)
  | Ask (f : hash_name) (x : list Z) (len : nat) (next : list Z -> attacker)
  | Decaps (c : list Z) (next : list Z -> attacker).

Definition reply (hs : hashes) (f : hash_name) (x : list Z) (len : nat) : list Z :=
  match f with
  | Sha3_256 => sha3_256 hs x
  | Sha3_512 => sha3_512 hs x
  | Shake128 => prefix len (shake128 hs x)
  | Shake256 => prefix len (shake256 hs x)
  end.
(** The probability of the answer 1, and the questions to hash functions asked on the way;
    [dec] decapsulates. *)
Fixpoint run (hs : hashes) (dec : list Z -> list Z) (a : attacker) : Q :=
  match a with
  | Answer p => p
  | Ask f x len next => run hs dec (next (reply hs f x len))
  | Decaps c next => run hs dec (next (dec c))
  end.
Fixpoint asked (hs : hashes) (dec : list Z -> list Z) (a : attacker) : list (hash_name * list Z) :=
  match a with
  | Answer p => []
  | Ask f x len next => (f, x) :: asked hs dec (next (reply hs f x len))
  | Decaps c next => asked hs dec (next (dec c))
  end.
(** At most [N] questions to hash functions and [D] to the owner, whatever the replies; and
    the answer is a probability. *)
Fixpoint within (N D : nat) (a : attacker) : Prop :=
  match a with
  | Answer p => (0 <= p <= 1)%Q
  | Ask f x len next => match N with O => False | S N' => forall y, within N' D (next y) end
  | Decaps c next => match D with O => False | S D' => forall y, within N D' (next y) end
  end.
(** nobody decapsulates *)
Definition no_answer (c : list Z) : list Z := [].

Definition query_eq (p p' : hash_name * list Z) : {p = p'} + {p <> p'}.
Proof. decide equality; [apply (list_eq_dec Z.eq_dec)|decide equality]. Defined.
Definition asks (hs : hashes) (dec : list Z -> list Z) (a : attacker) (f : hash_name) (x : list Z) : bool :=
  existsb (fun p => if query_eq p (f, x) then true else false) (asked hs dec a).

(** the hash function [hs], except that SHA3-512 of [x] is [y] *)
Definition with_sha3_512 (hs : hashes) (x y : list Z) : hashes := {|
  sha3_256 := sha3_256 hs;
  sha3_512 := fun x' => if list_eq_dec Z.eq_dec x' x then y else sha3_512 hs x';
  shake128 := shake128 hs;
  shake256 := shake256 hs
|}.

(** ** The reduction for ML-KEM *)

(** the test of C69's reduction: does the attacker, given [K], ask for G(m || H(ek))? *)
Definition finds (hs : hashes) (att : list Z -> list Z -> list Z -> attacker) (m K ek c : list Z) : Q :=
  one_if (asks hs no_answer (att ek c K) Sha3_512 (m ++ sha3_256 hs ek)).
(** the two distinguishers, with [m] and [K] drawn from [L] *)
Definition finds_key_test (hs : hashes) (P : params) (n : nat) (rho r : list Z) (L LY LW : list (list Z))
  (att : list Z -> list Z -> list Z -> attacker) (t : list (list Z)) : Q :=
  average L (fun m => average L (fun K =>
    key_test hs P n rho r LY LW (fun _ => m) (finds hs att m K) t)).
Definition finds_ct_test (hs : hashes) (P : params) (rho : list Z) (L : list (list Z))
  (att : list Z -> list Z -> list Z -> attacker) (t w : list (list Z)) : Q :=
  average L (fun m => average L (fun K =>
    ct_test P rho (fun _ => m) (finds hs att m K) t w)).

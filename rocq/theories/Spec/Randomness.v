(** FIPS 203, section 7: the randomised algorithms, whose random bit generator may fail; and
    X-Wing's, likewise.  A generator is a list of its answers, the first one first: 32 bytes,
    or NULL (here [None]). *)
From Coq Require Import List ZArith.
From Verif.Base Require Import Oracles.
From Verif.Spec Require Import FIPS203 XWing.
Import ListNotations.

(** the outcome: a value; the failure symbol; or (for the rejection-sampling budget) no value yet *)
Inductive outcome (A : Type) : Type :=
| Returns (a : A)
| Bottom
| Runs_on.
Arguments Returns {A} a.
Arguments Bottom {A}.
Arguments Runs_on {A}.
Definition of_option {A} (o : option A) : outcome A := match o with Some a => Returns a | None => Runs_on end.

(** Algorithm 19: d <- B^32; z <- B^32; if d = NULL or z = NULL then return bottom; return
    KeyGen_internal(d, z) *)
Definition ML_KEM_KeyGen (hs : hashes) (P : params) (n : nat) (d z : option (list Z)) : outcome (list Z * list Z) :=
  match d, z with
  | Some d, Some z => of_option (KeyGen_internal hs P n d z)
  | _, _ => Bottom
  end.
(** Algorithm 20: m <- B^32; if m = NULL then return bottom; return Encaps_internal(ek, m) *)
Definition ML_KEM_Encaps (hs : hashes) (P : params) (n : nat) (ek : list Z) (m : option (list Z)) : outcome (list Z * list Z) :=
  match m with
  | Some m => of_option (Encaps_internal hs P n ek m)
  | None => Bottom
  end.
(** X-Wing: GenerateKeyPair draws sk, Encapsulate draws the two halves of eseed *)
Definition XW_GenerateKeyPair (hs : hashes) (X25519 : list Z -> list Z -> list Z) (n : nat) (sk : option (list Z)) : outcome (list Z * list Z) :=
  match sk with
  | Some sk => match XW_public hs X25519 n sk with Some pk => Returns (sk, pk) | None => Runs_on end
  | None => Bottom
  end.
Definition XW_Encapsulate (hs : hashes) (X25519 : list Z -> list Z -> list Z) (n : nat) (pk : list Z) (m e : option (list Z)) : outcome (list Z * list Z) :=
  match m, e with
  | Some m, Some e => of_option (XW_Encaps hs X25519 n pk (m ++ e))
  | Some m, None =>
      (** the second draw comes after ML-KEM's encapsulation *)
      match Encaps_internal hs ML_KEM_768 n (firstn 1184 pk) m with Some _ => Bottom | None => Runs_on end
  | None, _ => Bottom
  end.

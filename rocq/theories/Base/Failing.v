(** Random number generators that get the buffer to fill and may panic. *)
From Coq Require Import List ZArith.
From Verif.Base Require Import Oracles.
Import ListNotations.
Open Scope Z_scope.

(** [mp_fill s buf]: the buffer after the call, [None] if the call panics; and the new state *)
Record mp_rng := {
  mp_state : Type;
  mp_fill : mp_state -> list Z -> option (list Z) * mp_state
}.
(** a call that returns leaves a buffer of bytes of the same length *)
Definition mp_ok (g : mp_rng) : Prop :=
  forall s n buf b s', byte_string n buf -> mp_fill g s buf = (Some b, s') -> byte_string n b.

(** A client program that catches panics ([std::panic::catch_unwind]) and goes on, with a
    generator that may panic.  The calls take [&self], so a call that panics leaves the keys
    as they were; keys that it was creating are dropped. *)
From Coq Require Import List ZArith Bool.
From Verif.Base Require Import Res Oracles.
From Verif.Model Require Import Machine Param Pke Kem Fallible Session.
From Verif.Spec Require Import Session FailingSession.
Import ListNotations.
Open Scope Z_scope.

Section Session.
  Variable hs : hashes.
  Variable P : params.
  Variable n : nat.
  Variable g : mp_rng.

  Record pa_state := { pa_keys : api_state no_rng; pa_rng : mp_state g }.

  (** [catch_unwind] around a call: a panic gives [None] and the keys from before *)
  Definition catch (s : pa_state) (x : res (obs * api_state no_rng) * mp_state g) : res (option obs * pa_state) :=
    match x with
    | (Ok (o, keys), r) => Ok (Some o, {| pa_keys := keys; pa_rng := r |})
    | (Panic, r) => Ok (None, {| pa_keys := pa_keys s; pa_rng := r |})
    | (UB, _) => UB
    | (NoFuel, _) => NoFuel
    end.

  Definition patient_api_step (s : pa_state) (o : op) : res (option obs * pa_state) :=
    let keys := pa_keys s in
    match o with
    | OpGenerate =>                                                    (** kem.rs:236-240 *)
        catch s ((let! '(dk, ek) := f_kem_generate g hs P n in
                  op_pure (Ok (Done, add_ek no_rng (add_dk no_rng keys dk) ek))) (pa_rng s))
    | OpEncapsulate i =>                                               (** kem.rs:193-199 *)
        match nth_error (a_eks no_rng keys) i with
        | None => Ok (Some NoSuchKey, s)
        | Some ek =>
            catch s ((let! '(c, K) := f_encapsulate g hs P n ek in
                      op_pure (Ok (Encapsulated c K, keys))) (pa_rng s))
        end
    | _ => catch s (api_step hs P n no_rng keys o, pa_rng s)
    end.

  Definition pa_start (r : mp_state g) : pa_state := {| pa_keys := api_start no_rng tt; pa_rng := r |}.
End Session.

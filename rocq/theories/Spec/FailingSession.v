(** Histories of API calls with a generator that may fail, by a client that goes on after a
    failure.  (The histories of Session.v, whose generator does not fail, end there.)

    The machine keeps keys as byte strings.  A failed call shows as [None], and changes nothing
    but the generator. *)
From Coq Require Import List ZArith Bool.
From Verif.Base Require Import Res Oracles Failing.
From Verif.Spec Require Import FIPS203 Domains Session.
Import ListNotations.
Open Scope Z_scope.

(** chooses each call from all earlier results *)
Definition patient_client (Call : Type) := list (option obs) -> Call.

Fixpoint run_on {S Call : Type} (step : S -> Call -> res (option obs * S)) (steps : nat) (cl : patient_client Call) (h : list (option obs)) (s : S)
  : list (option obs) :=
  match steps with
  | O => h
  | Datatypes.S steps' =>
      match step s (cl h) with
      | Ok (o, s') => run_on step steps' cl (h ++ [o]) s'
      | NoFuel => h ++ [Some Hangs]
      | Panic | UB => h ++ [Some Crashes]
      end
  end.

(** the machine of Session.v without a generator: it is asked for deterministic operations only *)
Definition no_rng : rng := {| rng_state := unit; fill_bytes := fun s n => (repeat 0 n, s) |}.

Section Fips.
  Variable hs : hashes.
  Variable P : params.
  Variable n : nat.
  Variable g : mp_rng.

  Record pf_state := { pf_keys : fips_state no_rng; pf_rng : mp_state g }.

  (** 32 random bytes, or NULL *)
  Definition random32 (r : mp_state g) : option (list Z) * mp_state g := mp_fill g r (repeat 0 32).
  Definition failed (s : pf_state) (r : mp_state g) : res (option obs * pf_state) :=
    Ok (None, {| pf_keys := pf_keys s; pf_rng := r |}).
  Definition fips_call (s : pf_state) (o : op) (r : mp_state g) : res (option obs * pf_state) :=
    let* '(ob, keys) := fips_step hs P n no_rng (pf_keys s) o in
    Ok (Some ob, {| pf_keys := keys; pf_rng := r |}).

  Definition patient_fips_step (s : pf_state) (o : op) : res (option obs * pf_state) :=
    match o with
    | OpGenerate =>
        match random32 (pf_rng s) with
        | (None, r) => failed s r
        | (Some d, r) =>
            match random32 r with
            | (None, r) => failed s r
            | (Some z, r) => fips_call s (OpGenerateDeterministic d z) r
            end
        end
    | OpEncapsulate i =>
        match nth_error (f_eks no_rng (pf_keys s)) i with
        | None => Ok (Some NoSuchKey, s)
        | Some _ =>
            match random32 (pf_rng s) with
            | (None, r) => failed s r
            | (Some m, r) => fips_call s (OpEncapsulateDeterministic i m) r
            end
        end
    | _ => fips_call s o (pf_rng s)
    end.

  Definition pf_start (r : mp_state g) : pf_state := {| pf_keys := fips_start no_rng tt; pf_rng := r |}.
End Fips.

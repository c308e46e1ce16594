(** A client program holding Rust X-Wing values that catches panics and goes on, with a
    generator that may panic; as FailingSession.v for ML-KEM. *)
From Coq Require Import List ZArith Bool.
From Verif.Base Require Import Res Oracles.
From Verif.Model Require Import Machine Param Pke Kem XWing Fallible XWingSession.
From Verif.Spec Require Import Session XWingSession FailingSession.
Import ListNotations.
Open Scope Z_scope.

Section Session.
  Variable hs : hashes.
  Variable X : x25519_impl.
  Variable point_eqb : list Z -> list Z -> bool.
  Variable n : nat.
  Variable g : mp_rng.

  Record px_state := { px_keys : xapi_state no_rng; px_rng : mp_state g }.

  (** [catch_unwind] around a call: a panic gives [None] and the objects from before *)
  Definition x_catch (s : px_state) (x : res (obs * xapi_state no_rng) * mp_state g) : res (option obs * px_state) :=
    match x with
    | (Ok (o, keys), r) => Ok (Some o, {| px_keys := keys; px_rng := r |})
    | (Panic, r) => Ok (None, {| px_keys := px_keys s; px_rng := r |})
    | (UB, _) => UB
    | (NoFuel, _) => NoFuel
    end.

  Definition patient_xapi_step (s : px_state) (o : xop) : res (option obs * px_state) :=
    let keys := px_keys s in
    match o with
    | XGenerateKeyPair =>                                              (** lib.rs:254-258 *)
        x_catch s ((let! '(dk, ek) := f_generate_key_pair g hs X n in
                    op_pure (Ok (Done, x_add_ek no_rng (x_add_dk no_rng keys dk) ek))) (px_rng s))
    | XGenerateDk =>                                                   (** lib.rs:163-167 *)
        x_catch s ((let! dk := f_xw_dk_generate g in
                    op_pure (Ok (Done, x_add_dk no_rng keys dk))) (px_rng s))
    | XEncapsulate i =>                                                (** lib.rs:80-101 *)
        match nth_error (x_eks no_rng keys) i with
        | None => Ok (Some NoSuchKey, s)
        | Some ek =>
            x_catch s ((let! '(ct, ss) := f_xw_encapsulate g hs X n ek in
                        let! b := op_pure (xw_ct_as_bytes ct) in
                        op_pure (Ok (Encapsulated b ss, x_add_ct no_rng keys ct))) (px_rng s))
        end
    | _ => x_catch s (xapi_step hs X point_eqb n no_rng keys o, px_rng s)
    end.

  Definition px_start (r : mp_state g) : px_state := {| px_keys := xapi_start no_rng tt; px_rng := r |}.
End Session.

(** Histories of X-Wing calls with a generator that may fail, as in FailingSession.v. *)
From Coq Require Import List ZArith Bool.
From Verif.Base Require Import Res Oracles Failing.
From Verif.Spec Require Import FIPS203 Domains XWing Session XWingSession FailingSession.
Import ListNotations.
Open Scope Z_scope.

Section Draft.
  Variable hs : hashes.
  Variable X25519 : list Z -> list Z -> list Z.
  Variable same_point : list Z -> list Z -> bool.
  Variable n : nat.
  Variable g : mp_rng.

  Record pd_state := { pd_keys : draft_state no_rng; pd_rng : mp_state g }.

  Definition x_failed (s : pd_state) (r : mp_state g) : res (option obs * pd_state) :=
    Ok (None, {| pd_keys := pd_keys s; pd_rng := r |}).
  Definition x_done (ob : obs) (keys : draft_state no_rng) (r : mp_state g) : res (option obs * pd_state) :=
    Ok (Some ob, {| pd_keys := keys; pd_rng := r |}).

  Definition patient_draft_step (s : pd_state) (o : xop) : res (option obs * pd_state) :=
    let keys := pd_keys s in
    match o with
    | XGenerateKeyPair =>
        match random32 g (pd_rng s) with
        | (None, r) => x_failed s r
        | (Some sk, r) =>
            match XW_public hs X25519 n sk with
            | None => NoFuel
            | Some ek => x_done Done (d_add_ek no_rng (d_add_dk no_rng keys sk) ek) r
            end
        end
    | XGenerateDk =>
        match random32 g (pd_rng s) with
        | (None, r) => x_failed s r
        | (Some sk, r) => x_done Done (d_add_dk no_rng keys sk) r
        end
    | XEncapsulate i =>
        match nth_error (d_eks no_rng keys) i with
        | None => Ok (Some NoSuchKey, s)
        | Some ek =>
            match random32 g (pd_rng s) with
            | (None, r) => x_failed s r
            | (Some m, r) =>
                (** the second draw comes after ML-KEM's encapsulation *)
                match Encaps_internal hs ML_KEM_768 n (firstn 1184 ek) m with
                | None => NoFuel
                | Some _ =>
                    match random32 g r with
                    | (None, r) => x_failed s r
                    | (Some e, r) =>
                        match XW_Encaps hs X25519 n ek (m ++ e) with
                        | None => NoFuel
                        | Some (ss, ct) => x_done (Encapsulated ct ss) (d_add_ct no_rng keys ct) r
                        end
                    end
                end
            end
        end
    | _ => let* '(ob, keys') := xw_draft_step hs X25519 same_point n no_rng keys o in x_done ob keys' (pd_rng s)
    end.

  Definition pd_start (r : mp_state g) : pd_state := {| pd_keys := draft_start no_rng tt; pd_rng := r |}.
End Draft.

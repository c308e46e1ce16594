(** A client program holding Rust X-Wing values: each operation of Spec/XWingSession.v is
    the call it names, on the definitions of XWing.v.

    Outside the repository: [point_eqb] is [x25519_dalek::PublicKey]'s [==]. *)
From Coq Require Import List ZArith Bool.
From Verif.Base Require Import Res Oracles.
From Verif.Spec Require Import Session XWingSession.
From Verif.Model Require Import Machine Param Pke Kem XWing.
Import ListNotations.
Open Scope Z_scope.

Section Session.
  Variable hs : hashes.
  Variable X : x25519_impl.
  Variable point_eqb : list Z -> list Z -> bool.
  Variable n : nat.
  Variable g : rng.

  (** lib.rs:71, derived [PartialEq] of [EncapsulationKey] *)
  Definition xw_ek_eqb (a b : xw_encaps_key) : bool :=
    encaps_key_eqb (pk_m a) (pk_m b) && point_eqb (pk_x a) (pk_x b).
  (** lib.rs:214, derived [PartialEq] of [Ciphertext] *)
  Definition xw_ct_eqb (a b : xw_ciphertext) : bool :=
    bytes_eqb (ct_m a) (ct_m b) && bytes_eqb (ct_x a) (ct_x b).

  Record xapi_state := {
    x_dks : list xw_decaps_key; x_eks : list xw_encaps_key; x_cts : list xw_ciphertext; x_rng : rng_state g }.

  Definition x_add_dk (s : xapi_state) (x : xw_decaps_key) : xapi_state :=
    {| x_dks := x_dks s ++ [x]; x_eks := x_eks s; x_cts := x_cts s; x_rng := x_rng s |}.
  Definition x_add_ek (s : xapi_state) (x : xw_encaps_key) : xapi_state :=
    {| x_dks := x_dks s; x_eks := x_eks s ++ [x]; x_cts := x_cts s; x_rng := x_rng s |}.
  Definition x_add_ct (s : xapi_state) (x : xw_ciphertext) : xapi_state :=
    {| x_dks := x_dks s; x_eks := x_eks s; x_cts := x_cts s ++ [x]; x_rng := x_rng s |}.
  Definition x_set_rng (s : xapi_state) (r : rng_state g) : xapi_state :=
    {| x_dks := x_dks s; x_eks := x_eks s; x_cts := x_cts s; x_rng := r |}.

  (** [f] on the object [i], if the client has it *)
  Definition with_object {A} (l : list A) (i : nat) (s : xapi_state) (f : A -> res (obs * xapi_state))
    : res (obs * xapi_state) :=
    match nth_error l i with None => Ok (NoSuchKey, s) | Some x => f x end.

  Definition xapi_step (s : xapi_state) (o : xop) : res (obs * xapi_state) :=
    match o with
    | XGenerateKeyPair =>                                              (** lib.rs:254-258 *)
        let* '(dk, ek, r) := generate_key_pair hs X n g (x_rng s) in
        Ok (Done, x_add_ek (x_add_dk (x_set_rng s r) dk) ek)
    | XGenerateDk =>                                                   (** lib.rs:163-167 *)
        let '(dk, r) := xw_dk_generate g (x_rng s) in
        Ok (Done, x_add_dk (x_set_rng s r) dk)
    | XParseDk b => Ok (Done, x_add_dk s (xw_dk_from b))               (** lib.rs:207-211 *)
    | XParseEk b => let* ek := xw_ek_from hs b in Ok (Done, x_add_ek s ek)   (** lib.rs:116-127 *)
    | XParseCt b => let* ct := xw_ct_from b in Ok (Done, x_add_ct s ct)      (** lib.rs:233-245 *)
    | XEncapsulationKey i =>                                           (** lib.rs:171-174 *)
        with_object (x_dks s) i s (fun dk =>
          let* ek := xw_encapsulation_key hs X n dk in Ok (Done, x_add_ek s ek))
    | XCloneDk i => with_object (x_dks s) i s (fun x => Ok (Done, x_add_dk s x))   (** lib.rs:130 *)
    | XCloneEk i => with_object (x_eks s) i s (fun x => Ok (Done, x_add_ek s x))   (** lib.rs:71 *)
    | XCloneCt i => with_object (x_cts s) i s (fun x => Ok (Done, x_add_ct s x))   (** lib.rs:214 *)
    | XReparseEk i =>
        with_object (x_eks s) i s (fun ek =>
          let* b := xw_ek_as_bytes ek in
          let* ek' := xw_ek_from hs b in
          Ok (Done, {| x_dks := x_dks s; x_eks := replace_nth i ek' (x_eks s); x_cts := x_cts s; x_rng := x_rng s |}))
    | XReparseCt i =>
        with_object (x_cts s) i s (fun ct =>
          let* b := xw_ct_as_bytes ct in
          let* ct' := xw_ct_from b in
          Ok (Done, {| x_dks := x_dks s; x_eks := x_eks s; x_cts := replace_nth i ct' (x_cts s); x_rng := x_rng s |}))
    | XDkBytes i =>                                                    (** lib.rs:202-204 *)
        with_object (x_dks s) i s (fun dk => Ok (Bytes (xw_dk_as_bytes dk), s))
    | XEkBytes i =>                                                    (** lib.rs:108-113 *)
        with_object (x_eks s) i s (fun ek => let* b := xw_ek_as_bytes ek in Ok (Bytes b, s))
    | XCtBytes i =>                                                    (** lib.rs:225-230 *)
        with_object (x_cts s) i s (fun ct => let* b := xw_ct_as_bytes ct in Ok (Bytes b, s))
    | XEqEk i j =>
        with_object (x_eks s) i s (fun a => with_object (x_eks s) j s (fun b => Ok (Answer (xw_ek_eqb a b), s)))
    | XEqCt i j =>
        with_object (x_cts s) i s (fun a => with_object (x_cts s) j s (fun b => Ok (Answer (xw_ct_eqb a b), s)))
    | XEncapsulate i =>                                                (** lib.rs:80-101 *)
        with_object (x_eks s) i s (fun ek =>
          let* '(ct, ss, r) := xw_encapsulate hs X n ek g (x_rng s) in
          let* b := xw_ct_as_bytes ct in
          Ok (Encapsulated b ss, x_add_ct (x_set_rng s r) ct))
    | XDecapsulate i j =>                                              (** lib.rs:140-153 *)
        with_object (x_dks s) i s (fun dk => with_object (x_cts s) j s (fun ct =>
          let* ss := xw_decapsulate hs X n dk ct in Ok (Bytes ss, s)))
    end.

  Definition xapi_start (r : rng_state g) : xapi_state :=
    {| x_dks := []; x_eks := []; x_cts := []; x_rng := r |}.
End Session.

(** A client program holding Rust key values: each operation of Spec/Session.v is the call
    it names, on the definitions of Kem.v. *)
From Coq Require Import List ZArith Bool.
From Verif.Base Require Import Res Oracles.
From Verif.Spec Require Import Session.
From Verif.Model Require Import Machine Param Pke Kem.
Import ListNotations.
Open Scope Z_scope.

Section Session.
  Variable hs : hashes.
  Variable P : params.
  Variable n : nat.
  Variable g : rng.

  Record api_state := { a_dks : list decaps_key; a_eks : list encaps_key; a_rng : rng_state g }.

  Definition add_dk (s : api_state) (x : decaps_key) : api_state :=
    {| a_dks := a_dks s ++ [x]; a_eks := a_eks s; a_rng := a_rng s |}.
  Definition add_ek (s : api_state) (x : encaps_key) : api_state :=
    {| a_dks := a_dks s; a_eks := a_eks s ++ [x]; a_rng := a_rng s |}.
  Definition set_rng (s : api_state) (r : rng_state g) : api_state :=
    {| a_dks := a_dks s; a_eks := a_eks s; a_rng := r |}.

  (** [f] on the key [i], if the client has it *)
  Definition on {A} (l : list A) (i : nat) (s : api_state) (f : A -> res (obs * api_state))
    : res (obs * api_state) :=
    match nth_error l i with None => Ok (NoSuchKey, s) | Some x => f x end.

  Definition api_step (s : api_state) (o : op) : res (obs * api_state) :=
    match o with
    | OpGenerate =>                                                    (** kem.rs:236-240 *)
        let* '(dk, ek, r) := kem_generate hs P n g (a_rng s) in
        Ok (Done, add_ek (add_dk (set_rng s r) dk) ek)
    | OpGenerateDeterministic d z =>                                   (** kem.rs:243-250 *)
        let* '(dk, ek) := kem_generate_deterministic hs P n d z in
        Ok (Done, add_ek (add_dk s dk) ek)
    | OpParseDk b =>                                                   (** kem.rs:54-69 *)
        let* dk := decaps_key_from_bytes P b in Ok (Done, add_dk s dk)
    | OpParseEk b =>                                                   (** kem.rs:178-180 *)
        let* ek := encaps_key_from_bytes hs P b in Ok (Done, add_ek s ek)
    | OpEncapsulationKey i =>                                          (** kem.rs:125-127 *)
        on (a_dks s) i s (fun dk => Ok (Done, add_ek s (encapsulation_key dk)))
    | OpCloneDk i => on (a_dks s) i s (fun dk => Ok (Done, add_dk s dk))   (** kem.rs:23 *)
    | OpCloneEk i => on (a_eks s) i s (fun ek => Ok (Done, add_ek s ek))   (** kem.rs:147 *)
    | OpReparseDk i =>
        on (a_dks s) i s (fun dk =>
          let* b := decaps_key_as_bytes P dk in
          let* dk' := decaps_key_from_bytes P b in
          Ok (Done, {| a_dks := replace_nth i dk' (a_dks s); a_eks := a_eks s; a_rng := a_rng s |}))
    | OpDkBytes i =>                                                   (** kem.rs:71-75 *)
        on (a_dks s) i s (fun dk => let* b := decaps_key_as_bytes P dk in Ok (Bytes b, s))
    | OpEkBytes i =>                                                   (** kem.rs:182-184 *)
        on (a_eks s) i s (fun ek => let* b := encaps_key_as_bytes P ek in Ok (Bytes b, s))
    | OpEqDk i j =>                                                    (** kem.rs:23 *)
        on (a_dks s) i s (fun a => on (a_dks s) j s (fun b => Ok (Answer (decaps_key_eqb a b), s)))
    | OpEqEk i j =>                                                    (** kem.rs:147 *)
        on (a_eks s) i s (fun a => on (a_eks s) j s (fun b => Ok (Answer (encaps_key_eqb a b), s)))
    | OpEncapsulate i =>                                               (** kem.rs:193-199 *)
        on (a_eks s) i s (fun ek =>
          let* '(c, K, r) := encapsulate hs P n ek g (a_rng s) in
          Ok (Encapsulated c K, set_rng s r))
    | OpEncapsulateDeterministic i m =>                                (** kem.rs:209-214 *)
        on (a_eks s) i s (fun ek =>
          let* '(c, K) := encapsulate_deterministic hs P n ek m in
          Ok (Encapsulated c K, s))
    | OpDecapsulate i c =>                                             (** kem.rs:91-117 *)
        on (a_dks s) i s (fun dk =>
          let* K := decapsulate hs P n dk c in Ok (Bytes K, s))
    end.

  Definition api_start (r : rng_state g) : api_state := {| a_dks := []; a_eks := []; a_rng := r |}.
End Session.

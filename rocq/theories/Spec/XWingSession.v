(** Histories of X-Wing calls.

    As in Spec/Session.v, a client holds any number of decapsulation keys, encapsulation
    keys and ciphertexts, shares one RNG between all calls, and chooses every call after
    seeing the results of the previous ones.  [xw_draft_step] is the machine that keeps
    everything as byte strings and answers with the algorithms of the draft
    (Spec/XWing.v). *)
From Coq Require Import List ZArith Bool.
From Verif.Base Require Import Res Oracles.
From Verif.Spec Require Import FIPS203 Domains XWing Session.
Import ListNotations.
Open Scope Z_scope.

(** Objects are named by their position in the client's lists; every call that creates one
    appends it. *)
Inductive xop :=
| XGenerateKeyPair
| XGenerateDk
| XParseDk (b : list Z)
| XParseEk (b : list Z)
| XParseCt (b : list Z)
| XEncapsulationKey (i : nat)
| XCloneDk (i : nat)
| XCloneEk (i : nat)
| XCloneCt (i : nat)
| XReparseEk (i : nat)       (** replaces ek [i] by from(as_bytes(ek [i])) *)
| XReparseCt (i : nat)
| XDkBytes (i : nat)
| XEkBytes (i : nat)
| XCtBytes (i : nat)
| XEqEk (i j : nat)
| XEqCt (i j : nat)
| XEncapsulate (i : nat)     (** keeps the ciphertext and shows it with the shared secret *)
| XDecapsulate (i j : nat).  (** ciphertext [j] under decapsulation key [i] *)

(** the Rust types fix the array lengths *)
Definition xop_ok (o : xop) : Prop :=
  match o with
  | XParseDk b => byte_string 32 b
  | XParseEk b => byte_string 1216 b
  | XParseCt b => byte_string 1120 b
  | _ => True
  end.

Definition xclient := list obs -> xop.

Fixpoint xrun {S : Type} (step : S -> xop -> res (obs * S)) (steps : nat) (cl : xclient) (h : list obs) (s : S)
  : list obs :=
  match steps with
  | O => h
  | Datatypes.S steps' =>
      match step s (cl h) with
      | Ok (o, s') => xrun step steps' cl (h ++ [o]) s'
      | NoFuel => h ++ [Hangs]
      | Panic | UB => h ++ [Crashes]
      end
  end.

Section Draft.
  Variable hs : hashes.
  Variable X25519 : list Z -> list Z -> list Z.
  (** [==] on x25519-dalek public keys: it need not be equality of their 32 bytes *)
  Variable same_point : list Z -> list Z -> bool.
  Variable n : nat.
  Variable g : rng.

  Record draft_state := {
    d_dks : list (list Z); d_eks : list (list Z); d_cts : list (list Z); d_rng : rng_state g }.

  Definition d_add_dk (s : draft_state) (b : list Z) : draft_state :=
    {| d_dks := d_dks s ++ [b]; d_eks := d_eks s; d_cts := d_cts s; d_rng := d_rng s |}.
  Definition d_add_ek (s : draft_state) (b : list Z) : draft_state :=
    {| d_dks := d_dks s; d_eks := d_eks s ++ [b]; d_cts := d_cts s; d_rng := d_rng s |}.
  Definition d_add_ct (s : draft_state) (b : list Z) : draft_state :=
    {| d_dks := d_dks s; d_eks := d_eks s; d_cts := d_cts s ++ [b]; d_rng := d_rng s |}.
  Definition d_set_rng (s : draft_state) (r : rng_state g) : draft_state :=
    {| d_dks := d_dks s; d_eks := d_eks s; d_cts := d_cts s; d_rng := r |}.

  Definition xw_draft_step (s : draft_state) (o : xop) : res (obs * draft_state) :=
    match o with
    | XGenerateKeyPair =>
        let '(sk, r) := fill_bytes g (d_rng s) 32 in
        match XW_public hs X25519 n sk with
        | None => NoFuel
        | Some ek => Ok (Done, d_add_ek (d_add_dk (d_set_rng s r) sk) ek)
        end
    | XGenerateDk =>
        let '(sk, r) := fill_bytes g (d_rng s) 32 in
        Ok (Done, d_add_dk (d_set_rng s r) sk)
    | XParseDk b => Ok (Done, d_add_dk s b)
    | XParseEk b => Ok (Done, d_add_ek s (reduce_ek ML_KEM_768 (firstn 1184 b) ++ skipn 1184 b))
    | XParseCt b => Ok (Done, d_add_ct s b)
    | XEncapsulationKey i =>
        match nth_error (d_dks s) i with
        | None => Ok (NoSuchKey, s)
        | Some sk =>
            match XW_public hs X25519 n sk with
            | None => NoFuel
            | Some ek => Ok (Done, d_add_ek s ek)
            end
        end
    | XCloneDk i =>
        match nth_error (d_dks s) i with None => Ok (NoSuchKey, s) | Some b => Ok (Done, d_add_dk s b) end
    | XCloneEk i =>
        match nth_error (d_eks s) i with None => Ok (NoSuchKey, s) | Some b => Ok (Done, d_add_ek s b) end
    | XCloneCt i =>
        match nth_error (d_cts s) i with None => Ok (NoSuchKey, s) | Some b => Ok (Done, d_add_ct s b) end
    | XReparseEk i => Ok (match nth_error (d_eks s) i with None => NoSuchKey | Some _ => Done end, s)
    | XReparseCt i => Ok (match nth_error (d_cts s) i with None => NoSuchKey | Some _ => Done end, s)
    | XDkBytes i => Ok (match nth_error (d_dks s) i with None => NoSuchKey | Some b => Bytes b end, s)
    | XEkBytes i => Ok (match nth_error (d_eks s) i with None => NoSuchKey | Some b => Bytes b end, s)
    | XCtBytes i => Ok (match nth_error (d_cts s) i with None => NoSuchKey | Some b => Bytes b end, s)
    | XEqEk i j =>
        Ok (match nth_error (d_eks s) i, nth_error (d_eks s) j with
            | Some a, Some b =>
                Answer (same_bytes (firstn 1184 a) (firstn 1184 b) && same_point (skipn 1184 a) (skipn 1184 b))
            | _, _ => NoSuchKey
            end, s)
    | XEqCt i j =>
        Ok (match nth_error (d_cts s) i, nth_error (d_cts s) j with
            | Some a, Some b => Answer (same_bytes a b)
            | _, _ => NoSuchKey
            end, s)
    | XEncapsulate i =>
        match nth_error (d_eks s) i with
        | None => Ok (NoSuchKey, s)
        | Some ek =>
            let '(m, r) := fill_bytes g (d_rng s) 32 in
            let '(e, r) := fill_bytes g r 32 in
            match XW_Encaps hs X25519 n ek (m ++ e) with
            | None => NoFuel
            | Some (ss, ct) => Ok (Encapsulated ct ss, d_add_ct (d_set_rng s r) ct)
            end
        end
    | XDecapsulate i j =>
        match nth_error (d_dks s) i, nth_error (d_cts s) j with
        | Some sk, Some ct =>
            match XW_Decaps hs X25519 n ct sk with
            | None => NoFuel
            | Some ss => Ok (Bytes ss, s)
            end
        | _, _ => Ok (NoSuchKey, s)
        end
    end.

  Definition draft_start (r : rng_state g) : draft_state :=
    {| d_dks := []; d_eks := []; d_cts := []; d_rng := r |}.
End Draft.

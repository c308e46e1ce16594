(** Histories of API calls.

    A client holds any number of keys, shares one RNG between all calls, and chooses every
    call after seeing the results of the previous ones.  [run] plays a client against a
    machine; [fips_step] is the machine that keeps keys as byte strings and answers with
    the algorithms of FIPS 203. *)
From Coq Require Import List ZArith Bool.
From Verif.Base Require Import Res Oracles.
From Verif.Spec Require Import FIPS203 Domains.
Import ListNotations.
Open Scope Z_scope.

(** Keys are named by their position in the client's list of decapsulation keys or of
    encapsulation keys; every call that creates a key appends it. *)
Inductive op :=
| OpGenerate
| OpGenerateDeterministic (d z : list Z)
| OpParseDk (b : list Z)
| OpParseEk (b : list Z)
| OpEncapsulationKey (i : nat)      (** appends the encapsulation key of dk [i] *)
| OpCloneDk (i : nat)
| OpCloneEk (i : nat)
| OpReparseDk (i : nat)             (** replaces dk [i] by from_bytes(as_bytes(dk [i])) *)
| OpDkBytes (i : nat)
| OpEkBytes (i : nat)
| OpEqDk (i j : nat)
| OpEqEk (i j : nat)
| OpEncapsulate (i : nat)
| OpEncapsulateDeterministic (i : nat) (m : list Z)
| OpDecapsulate (i : nat) (c : list Z).

(** what the client sees *)
Inductive obs :=
| Done
| NoSuchKey
| Bytes (b : list Z)
| Answer (b : bool)
| Encapsulated (c K : list Z)
| Hangs    (** sampling does not finish within the budget; nothing follows *)
| Crashes. (** a panic or undefined behaviour; nothing follows *)

(** the Rust types fix the array lengths *)
Definition op_ok (P : params) (o : op) : Prop :=
  match o with
  | OpGenerateDeterministic d z => byte_string 32 d /\ byte_string 32 z
  | OpParseDk b => byte_string (dk_len P) b
  | OpParseEk b => byte_string (ek_len P) b
  | OpEncapsulateDeterministic _ m => byte_string 32 m
  | OpDecapsulate _ c => byte_string (ct_len P) c
  | _ => True
  end.

Definition client := list obs -> op.

Fixpoint run {S : Type} (step : S -> op -> res (obs * S)) (steps : nat) (cl : client) (h : list obs) (s : S)
  : list obs :=
  match steps with
  | O => h
  | Datatypes.S steps' =>
      match step s (cl h) with
      | Ok (o, s') => run step steps' cl (h ++ [o]) s'
      | NoFuel => h ++ [Hangs]
      | Panic | UB => h ++ [Crashes]
      end
  end.

(** the first [i] elements, a new one, the rest *)
Definition replace_nth {A} (i : nat) (x : A) (l : list A) : list A := firstn i l ++ x :: skipn (S i) l.

Section Fips.
  Variable hs : hashes.
  Variable P : params.
  Variable n : nat.
  Variable g : rng.

  (** decoding and encoding again reduces each 12-bit field modulo q *)
  Definition reduce_vec (b : list Z) : list Z := encode_vec P 12 (decode_vec P 12 b).
  Definition reduce_ek (b : list Z) : list Z :=
    reduce_vec (firstn (384 * pk P) b) ++ skipn (384 * pk P) b.
  Definition reduce_dk (b : list Z) : list Z :=
    reduce_vec (dk_sec_pke P b) ++ reduce_ek (dk_sec_ek P b) ++ dk_sec_h P b ++ dk_sec_z P b.

  (** dks: encoded decapsulation keys; eks: encoded encapsulation keys, each with the hash
      used by encapsulation.  That hash is H(ek) except for an encapsulation key taken out
      of a parsed decapsulation key, where it is the h of that key (see C11). *)
  Record fips_state := { f_dks : list (list Z); f_eks : list (list Z * list Z); f_rng : rng_state g }.

  Definition f_add_dk (s : fips_state) (b : list Z) : fips_state :=
    {| f_dks := f_dks s ++ [b]; f_eks := f_eks s; f_rng := f_rng s |}.
  Definition f_add_ek (s : fips_state) (e : list Z * list Z) : fips_state :=
    {| f_dks := f_dks s; f_eks := f_eks s ++ [e]; f_rng := f_rng s |}.
  Definition f_set_rng (s : fips_state) (r : rng_state g) : fips_state :=
    {| f_dks := f_dks s; f_eks := f_eks s; f_rng := r |}.

  Definition same_bytes (a b : list Z) : bool := if list_eq_dec Z.eq_dec a b then true else false.

  Definition fips_step (s : fips_state) (o : op) : res (obs * fips_state) :=
    match o with
    | OpGenerate =>
        let '(d, r) := fill_bytes g (f_rng s) 32 in
        let '(z, r) := fill_bytes g r 32 in
        match KeyGen_internal hs P n d z with
        | None => NoFuel
        | Some (ek, dk) => Ok (Done, f_add_ek (f_add_dk (f_set_rng s r) dk) (ek, H hs ek))
        end
    | OpGenerateDeterministic d z =>
        match KeyGen_internal hs P n d z with
        | None => NoFuel
        | Some (ek, dk) => Ok (Done, f_add_ek (f_add_dk s dk) (ek, H hs ek))
        end
    | OpParseDk b => Ok (Done, f_add_dk s (reduce_dk b))
    | OpParseEk b => let b := reduce_ek b in Ok (Done, f_add_ek s (b, H hs b))
    | OpEncapsulationKey i =>
        match nth_error (f_dks s) i with
        | None => Ok (NoSuchKey, s)
        | Some dk => Ok (Done, f_add_ek s (dk_sec_ek P dk, dk_sec_h P dk))
        end
    | OpCloneDk i =>
        match nth_error (f_dks s) i with
        | None => Ok (NoSuchKey, s)
        | Some dk => Ok (Done, f_add_dk s dk)
        end
    | OpCloneEk i =>
        match nth_error (f_eks s) i with
        | None => Ok (NoSuchKey, s)
        | Some e => Ok (Done, f_add_ek s e)
        end
    | OpReparseDk i => Ok (match nth_error (f_dks s) i with None => NoSuchKey | Some _ => Done end, s)
    | OpDkBytes i =>
        Ok (match nth_error (f_dks s) i with None => NoSuchKey | Some dk => Bytes dk end, s)
    | OpEkBytes i =>
        Ok (match nth_error (f_eks s) i with None => NoSuchKey | Some (ek, _) => Bytes ek end, s)
    | OpEqDk i j =>
        Ok (match nth_error (f_dks s) i, nth_error (f_dks s) j with
            | Some a, Some b => Answer (same_bytes a b)
            | _, _ => NoSuchKey
            end, s)
    | OpEqEk i j =>
        Ok (match nth_error (f_eks s) i, nth_error (f_eks s) j with
            | Some (a, ha), Some (b, hb) => Answer (same_bytes a b && same_bytes ha hb)
            | _, _ => NoSuchKey
            end, s)
    | OpEncapsulate i =>
        match nth_error (f_eks s) i with
        | None => Ok (NoSuchKey, s)
        | Some (ek, h) =>
            let '(m, r) := fill_bytes g (f_rng s) 32 in
            match Encaps_with hs P n ek h m with
            | None => NoFuel
            | Some (K, c) => Ok (Encapsulated c K, f_set_rng s r)
            end
        end
    | OpEncapsulateDeterministic i m =>
        match nth_error (f_eks s) i with
        | None => Ok (NoSuchKey, s)
        | Some (ek, h) =>
            match Encaps_with hs P n ek h m with
            | None => NoFuel
            | Some (K, c) => Ok (Encapsulated c K, s)
            end
        end
    | OpDecapsulate i c =>
        match nth_error (f_dks s) i with
        | None => Ok (NoSuchKey, s)
        | Some dk =>
            match Decaps_internal hs P n dk c with
            | None => NoFuel
            | Some K => Ok (Bytes K, s)
            end
        end
    end.

  Definition fips_start (r : rng_state g) : fips_state := {| f_dks := []; f_eks := []; f_rng := r |}.
End Fips.

(** The randomised entry points of the three crates with a random number generator that may
    panic, and that is handed the real buffer: [RngCore::fill_bytes(&mut buf)] reports failure
    by a panic (the generator of the operating system does so), and what it does not write
    keeps its old content.

    Panics unwind: none of the modelled functions catches them, so the rest of the function
    does not run.  The state of the generator after the operation is part of the outcome, also
    when the operation panics. *)
From Coq Require Import List ZArith Bool.
From Verif.Base Require Import Res Oracles.
From Verif.Base Require Export Failing.
From Verif.Model Require Import Machine Util Algebra Compress Encode Crypto Sample Param Pke Kem XWing DhKem.
Import ListNotations.
Open Scope Z_scope.

(** operations on the state of the generator *)
Definition op (g : mp_rng) (A : Type) : Type := mp_state g -> res A * mp_state g.
Definition op_bind {g A B} (o : op g A) (f : A -> op g B) : op g B := fun s =>
  match o s with
  | (Ok a, s') => f a s'
  | (Panic, s') => (Panic, s')
  | (UB, s') => (UB, s')
  | (NoFuel, s') => (NoFuel, s')
  end.
Definition op_pure {g A} (r : res A) : op g A := fun s => (r, s).
Notation "'let!' x ':=' e 'in' k" := (op_bind e (fun x => k))
  (at level 200, x name, e at level 200, k at level 200, right associativity).
Notation "'let!' ' x ':=' e 'in' k" := (op_bind e (fun x => k))
  (at level 200, x strict pattern, e at level 200, k at level 200, right associativity).

Section Fallible.
  Variable g : mp_rng.

  (** [rng.fill_bytes(&mut buf)] *)
  Definition fill (buf : list Z) : op g (list Z) := fun s =>
    match mp_fill g s buf with
    | (Some b, s') => (Ok b, s')
    | (None, s') => (Panic, s')
    end.

  (** ml-kem/src/crypto.rs:13-17, with L = 32; [Array::default()] is all zeros *)
  Definition f_rand : op g (list Z) := let val := repeat 0 32 in fill val.
  (** x-wing/src/lib.rs:283-287, with N = 32 *)
  Definition f_xw_generate : op g (list Z) := let random := repeat 0 32 in fill random.
  (** x25519-dalek's [ReusableSecret::random_from_rng]: [let mut bytes = [0u8; 32];
      csprng.fill_bytes(&mut bytes)] (outside the repository) *)
  Definition f_reusable_random : op g (list Z) := fill (repeat 0 32).

  Section MlKem.
    Variable hs : hashes.
    Variable P : params.
    Variable fuel : nat.

    (** ml-kem/src/kem.rs:129-133 *)
    Definition f_decaps_key_generate : op g decaps_key :=
      let! d := f_rand in
      let! z := f_rand in
      op_pure (decaps_key_generate_deterministic hs P fuel d z).
    (** ml-kem/src/kem.rs:236-240 *)
    Definition f_kem_generate : op g (decaps_key * encaps_key) :=
      let! dk := f_decaps_key_generate in
      op_pure (Ok (dk, encapsulation_key dk)).
    (** ml-kem/src/kem.rs:193-199 *)
    Definition f_encapsulate (ek : encaps_key) : op g (list Z * list Z) :=
      let! m := f_rand in
      op_pure (encapsulate_deterministic_inner hs P fuel ek m).
  End MlKem.

  Section XW.
    Variable hs : hashes.
    Variable X : x25519_impl.
    Variable fuel : nat.

    (** x-wing/src/lib.rs:163-167 *)
    Definition f_xw_dk_generate : op g xw_decaps_key :=
      let! sk := f_xw_generate in
      op_pure (Ok {| xw_sk := sk |}).
    (** x-wing/src/lib.rs:254-258 *)
    Definition f_generate_key_pair : op g (xw_decaps_key * xw_encaps_key) :=
      let! sk := f_xw_dk_generate in
      let! pk := op_pure (xw_encapsulation_key hs X fuel sk) in
      op_pure (Ok (sk, pk)).
    (** x-wing/src/lib.rs:80-101 *)
    Definition f_xw_encapsulate (ek : xw_encaps_key) : op g (xw_ciphertext * list Z) :=
      let! '(ct_m, ss_m) := f_encapsulate hs MlKem768Params fuel (pk_m ek) in
      let! ek_x := f_xw_generate in
      let ct_x := x25519 X ek_x X25519_BASEPOINT_BYTES in
      let ss_x := x25519 X ek_x (pk_x ek) in
      let ss := combiner hs ss_m ss_x ct_x (pk_x ek) in
      op_pure (Ok ({| ct_m := ct_m; ct_x := ct_x |}, ss)).

    (** dhkem/src/x25519_kem.rs:15-25 *)
    Definition f_x25519_encapsulate (e : DhEncapsulator (list Z)) : op g (list Z * list Z) :=
      let! sk := f_reusable_random in
      let pk := x25519_public X sk in
      let ss := x25519 X sk (dh_enc_0 e) in
      op_pure (Ok (pk, ss)).
    (** dhkem/src/x25519_kem.rs:44-51 *)
    Definition f_x25519_random_keypair : op g (DhDecapsulator (list Z) * DhEncapsulator (list Z)) :=
      let! sk := f_reusable_random in
      let pk := x25519_public X sk in
      op_pure (Ok (MkDhDecapsulator sk, MkDhEncapsulator pk)).
  End XW.

  Section Ecdh.
    Variable C : ec_curve.
    (** [EphemeralSecret::random] (outside the repository): any use of the generator *)
    Variable f_ec_random : op g (ec_scalar C).

    (** dhkem/src/ecdh_kem.rs:24-34 *)
    Definition f_ecdh_encapsulate (e : DhEncapsulator (ec_point C)) : op g (ec_point C * ec_coord C) :=
      let! sk := f_ec_random in
      let pk := ecdh_public C sk in
      let ss := ecdh_diffie_hellman C sk (dh_enc_0 e) in
      op_pure (Ok (pk, ss)).
    (** dhkem/src/ecdh_kem.rs:59-66 *)
    Definition f_ecdh_random_keypair : op g (DhDecapsulator (ec_scalar C) * DhEncapsulator (ec_point C)) :=
      let! sk := f_ec_random in
      let pk := ecdh_public C sk in
      op_pure (Ok (MkDhDecapsulator sk, MkDhEncapsulator pk)).
  End Ecdh.
End Fallible.

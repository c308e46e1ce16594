(** x-wing/src/lib.rs once more, as programs of machine operations (Spec/Ops.v) on top of
    Model/Ops.v.  Each definition cites the same lines as the definition of Model/XWing.v
    without the prefix [o_].  Calls of the hash functions, of the RNG and of
    x25519-dalek are operations of which an observer sees that they happen (and how many
    bytes they process), not their operands: what happens inside those crates is outside
    the model. *)
From Coq Require Import List ZArith Bool.
From Verif.Base Require Import Res Oracles.
From Verif.Spec Require Import Ops.
From Verif.Model Require Import Machine Crypto Param Pke Kem XWing Ops.
Import ListNotations.
Open Scope Z_scope.

(** crypto.rs:13-17 of ml-kem *)
Definition o_rand (g : rng) (s : rng_state g) : prog (list Z * rng_state g) :=
  let size := 32%nat in do* _ := act (Draw size) in Ret (fill_bytes g s size).
(** lib.rs:277-281, 283-287 at N = 32 *)
Definition o_read_from (r : xof_reader) : prog (list Z * xof_reader) :=
  let size := 32%nat in do* _ := act (Hash size) in Ret (xof_read r size).
Definition o_xw_generate (g : rng) (s : rng_state g) : prog (list Z * rng_state g) :=
  let size := 32%nat in do* _ := act (Draw size) in Ret (fill_bytes g s size).

(** lib.rs:225-230 *)
Definition o_xw_ct_as_bytes (ct : xw_ciphertext) : prog (list Z) :=
  let buffer := repeat 0 CIPHERTEXT_SIZE in
  do* buffer := o_copy_into buffer 0 1088 (ct_m ct) in
  o_copy_into buffer 1088 (length buffer) (ct_x ct).
(** lib.rs:233-245 *)
Definition o_xw_ct_from (value : list Z) : prog xw_ciphertext :=
  do* a := o_slice value 0 1088 in
  do* ct_m := o_copy_from_slice (repeat 0 1088) a in
  do* b := o_slice value 1088 (length value) in
  do* ct_x := o_copy_from_slice (repeat 0 32) b in
  Ret {| ct_m := ct_m; ct_x := ct_x |}.
(** lib.rs:163-167 *)
Definition o_xw_dk_generate (g : rng) (s : rng_state g) : prog (xw_decaps_key * rng_state g) :=
  do* '(sk, s) := o_xw_generate g s in Ret ({| xw_sk := sk |}, s).

Section WithImpls.
  Variable hs : hashes.
  Variable X : x25519_impl.

  Definition o_x25519 (k u : list Z) : prog (list Z) :=
    do* _ := act Ladder in Ret (x25519 X k u).
  Definition o_x25519_public (k : list Z) : prog (list Z) :=
    do* _ := act Ladder in Ret (x25519_public X k).

  (** lib.rs:260-275 *)
  Definition o_combiner (ss_m ss_x ct_x pk_x : list Z) : prog (list Z) :=
    do* _ := act (Hash (length (concat [X_WING_LABEL; ss_m; ss_x; ct_x; pk_x]))) in
    Ret (combiner hs ss_m ss_x ct_x pk_x).

  (** lib.rs:108-113 *)
  Definition o_xw_ek_as_bytes (ek : xw_encaps_key) : prog (list Z) :=
    let buffer := repeat 0 ENCAPSULATION_KEY_SIZE in
    do* m := o_ek_as_bytes MlKem768Params (ek_pke (pk_m ek)) in
    do* buffer := o_copy_into buffer 0 1184 m in
    o_copy_into buffer 1184 1216 (pk_x ek).
  (** lib.rs:116-127 *)
  Definition o_xw_ek_from (value : list Z) : prog xw_encaps_key :=
    do* a := o_slice value 0 1184 in
    do* a := o_copy_from_slice (repeat 0 1184) a in
    do* pk_m := o_encaps_key_from_bytes hs MlKem768Params a in
    do* b := o_slice value 1184 (length value) in
    do* pk_x := o_copy_from_slice (repeat 0 32) b in
    Ret {| pk_m := pk_m; pk_x := pk_x |}.

  (** lib.rs:176-198 *)
  Definition o_expand_key (fuel : nat) (dk : xw_decaps_key)
    : prog (decaps_key * list Z * encaps_key * list Z) :=
    do* _ := act (Hash (length (xw_sk dk))) in
    let expanded := {| xof_stream := shake128 hs (xw_sk dk); xof_pos := 0 |} in
    do* '(d, expanded) := o_read_from expanded in
    do* '(z, expanded) := o_read_from expanded in
    do* sk_m := o_decaps_key_generate_deterministic hs MlKem768Params fuel d z in
    do* '(sk_x, _) := o_read_from expanded in
    do* pk_x := o_x25519_public sk_x in
    Ret (sk_m, sk_x, encapsulation_key sk_m, pk_x).

  (** lib.rs:171-174 *)
  Definition o_xw_encapsulation_key (fuel : nat) (dk : xw_decaps_key) : prog xw_encaps_key :=
    do* '(_, _, pk_m, pk_x) := o_expand_key fuel dk in
    Ret {| pk_m := pk_m; pk_x := pk_x |}.

  (** lib.rs:254-258 *)
  Definition o_generate_key_pair (fuel : nat) (g : rng) (s : rng_state g)
    : prog (xw_decaps_key * xw_encaps_key * rng_state g) :=
    do* '(sk, s) := o_xw_dk_generate g s in
    do* pk := o_xw_encapsulation_key fuel sk in
    Ret (sk, pk, s).

  (** kem.rs:193-199 of ml-kem *)
  Definition o_encapsulate (fuel : nat) (ek : encaps_key) (g : rng) (s : rng_state g)
    : prog (list Z * list Z * rng_state g) :=
    do* '(m, s) := o_rand g s in
    do* '(c, K) := o_encapsulate_deterministic hs MlKem768Params fuel ek m in
    Ret (c, K, s).

  (** lib.rs:80-101; the zeroize block clears a copy of 32 bytes *)
  Definition o_xw_encapsulate (fuel : nat) (ek : xw_encaps_key) (g : rng) (s : rng_state g)
    : prog (xw_ciphertext * list Z * rng_state g) :=
    do* '(ct_m, ss_m, s) := o_encapsulate fuel (pk_m ek) g s in
    do* '(ek_x, s) := o_xw_generate g s in
    do* ct_x := o_x25519 ek_x X25519_BASEPOINT_BYTES in
    do* ss_x := o_x25519 ek_x (pk_x ek) in
    do* ss := o_combiner ss_m ss_x ct_x (pk_x ek) in
    do* _ := act (Loop (length ss_x)) in
    Ret ({| ct_m := ct_m; ct_x := ct_x |}, ss, s).

  (** lib.rs:140-153 *)
  Definition o_xw_decapsulate (fuel : nat) (dk : xw_decaps_key) (ct : xw_ciphertext)
    : prog (list Z) :=
    do* '(sk_m, sk_x, _, pk_x) := o_expand_key fuel dk in
    do* ss_m := o_decapsulate hs MlKem768Params fuel sk_m (ct_m ct) in
    do* ss_x := o_x25519 sk_x (ct_x ct) in
    do* ss := o_combiner ss_m ss_x (ct_x ct) pk_x in
    do* _ := act (Loop (length ss_x)) in
    Ret ss.
End WithImpls.

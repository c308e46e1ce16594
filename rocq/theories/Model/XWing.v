(** Model of x-wing/src/lib.rs.

    Outside the repository: SHAKE128 and SHA3-256 (sha3 crate, see Model/Crypto.v) and
    the x25519-dalek crate, which is the record [x25519_impl]: [x25519 k u] is
    [x25519_dalek::x25519], [x25519_public k] is [PublicKey::from(&StaticSecret::from(k))].
    [StaticSecret] and [PublicKey] store the 32 bytes they are given ([from], [to_bytes],
    [as_bytes] are the identity on bytes), so they are not represented. *)
From Coq Require Import List ZArith Bool.
From Verif.Base Require Import Res Oracles.
From Verif.Model Require Import Machine Crypto Param Pke Kem.
Import ListNotations.
Open Scope Z_scope.

Record x25519_impl := {
  x25519 : list Z -> list Z -> list Z;
  x25519_public : list Z -> list Z
}.

(** lib.rs:48, [br"\.//^\"] *)
Definition X_WING_LABEL : list Z := [92; 46; 47; 47; 94; 92].
(** lib.rs:50-55 *)
Definition ENCAPSULATION_KEY_SIZE : nat := 1216.
Definition DECAPSULATION_KEY_SIZE : nat := 32.
Definition CIPHERTEXT_SIZE : nat := 1120.

(** [x25519_dalek::X25519_BASEPOINT_BYTES] *)
Definition X25519_BASEPOINT_BYTES : list Z := 9 :: repeat 0 31.

(** lib.rs:72-75 *)
Record xw_encaps_key := { pk_m : encaps_key; pk_x : list Z }.
(** lib.rs:133-135: the key is its 32-byte seed *)
Record xw_decaps_key := { xw_sk : list Z }.
(** lib.rs:216-219 *)
Record xw_ciphertext := { ct_m : list Z; ct_x : list Z }.

(** lib.rs:277-281 at N = 32 *)
Definition read_from (r : xof_reader) : list Z * xof_reader := xof_read r 32.
(** lib.rs:283-287 at N = 32 *)
Definition xw_generate (g : rng) (s : rng_state g) : list Z * rng_state g := fill_bytes g s 32.

(** lib.rs:225-230 *)
Definition xw_ct_as_bytes (ct : xw_ciphertext) : res (list Z) :=
  let buffer := repeat 0 CIPHERTEXT_SIZE in
  let* buffer := copy_into buffer 0 1088 (ct_m ct) in
  copy_into buffer 1088 (length buffer) (ct_x ct).

(** lib.rs:233-245 *)
Definition xw_ct_from (value : list Z) : res xw_ciphertext :=
  let* a := slice value 0 1088 in
  let* ct_m := copy_from_slice (repeat 0 1088) a in
  let* b := slice value 1088 (length value) in
  let* ct_x := copy_from_slice (repeat 0 32) b in
  Ok {| ct_m := ct_m; ct_x := ct_x |}.

(** lib.rs:202-204 and 207-211 *)
Definition xw_dk_as_bytes (dk : xw_decaps_key) : list Z := xw_sk dk.
Definition xw_dk_from (sk : list Z) : xw_decaps_key := {| xw_sk := sk |}.

(** lib.rs:163-167 *)
Definition xw_dk_generate (g : rng) (s : rng_state g) : xw_decaps_key * rng_state g :=
  let '(sk, s) := xw_generate g s in ({| xw_sk := sk |}, s).

Section WithImpls.
  Variable hs : hashes.
  Variable X : x25519_impl.

  (** lib.rs:260-275 *)
  Definition combiner (ss_m ss_x ct_x pk_x : list Z) : list Z :=
    sha3_256 hs (concat [X_WING_LABEL; ss_m; ss_x; ct_x; pk_x]).

  (** lib.rs:108-113 *)
  Definition xw_ek_as_bytes (ek : xw_encaps_key) : res (list Z) :=
    let buffer := repeat 0 ENCAPSULATION_KEY_SIZE in
    let* m := encaps_key_as_bytes MlKem768Params (pk_m ek) in
    let* buffer := copy_into buffer 0 1184 m in
    copy_into buffer 1184 1216 (pk_x ek).

  (** lib.rs:116-127 *)
  Definition xw_ek_from (value : list Z) : res xw_encaps_key :=
    let* a := slice value 0 1184 in
    let* a := copy_from_slice (repeat 0 1184) a in
    let* pk_m := encaps_key_from_bytes hs MlKem768Params a in
    let* b := slice value 1184 (length value) in
    let* pk_x := copy_from_slice (repeat 0 32) b in
    Ok {| pk_m := pk_m; pk_x := pk_x |}.

  (** lib.rs:176-198 *)
  Definition expand_key (fuel : nat) (dk : xw_decaps_key)
    : res (decaps_key * list Z * encaps_key * list Z) :=
    let expanded := {| xof_stream := shake128 hs (xw_sk dk); xof_pos := 0 |} in
    let '(d, expanded) := read_from expanded in
    let '(z, expanded) := read_from expanded in
    let* '(sk_m, pk_m) := kem_generate_deterministic hs MlKem768Params fuel d z in
    let '(sk_x, _) := read_from expanded in
    let pk_x := x25519_public X sk_x in
    Ok (sk_m, sk_x, pk_m, pk_x).

  (** lib.rs:171-174 *)
  Definition xw_encapsulation_key (fuel : nat) (dk : xw_decaps_key) : res xw_encaps_key :=
    let* '(_, _, pk_m, pk_x) := expand_key fuel dk in
    Ok {| pk_m := pk_m; pk_x := pk_x |}.

  (** lib.rs:254-258 *)
  Definition generate_key_pair (fuel : nat) (g : rng) (s : rng_state g)
    : res (xw_decaps_key * xw_encaps_key * rng_state g) :=
    let '(sk, s) := xw_dk_generate g s in
    let* pk := xw_encapsulation_key fuel sk in
    Ok (sk, pk, s).

  (** lib.rs:80-101 (the zeroize block acts on a local copy and has no observable
      effect) *)
  Definition xw_encapsulate (fuel : nat) (ek : xw_encaps_key) (g : rng) (s : rng_state g)
    : res (xw_ciphertext * list Z * rng_state g) :=
    let* '(ct_m, ss_m, s) := encapsulate hs MlKem768Params fuel (pk_m ek) g s in
    let '(ek_x, s) := xw_generate g s in
    let ct_x := x25519 X ek_x X25519_BASEPOINT_BYTES in
    let ss_x := x25519 X ek_x (pk_x ek) in
    let ss := combiner ss_m ss_x ct_x (pk_x ek) in
    Ok ({| ct_m := ct_m; ct_x := ct_x |}, ss, s).

  (** lib.rs:140-153 *)
  Definition xw_decapsulate (fuel : nat) (dk : xw_decaps_key) (ct : xw_ciphertext)
    : res (list Z) :=
    let* '(sk_m, sk_x, _, pk_x) := expand_key fuel dk in
    let* ss_m := decapsulate hs MlKem768Params fuel sk_m (ct_m ct) in
    let ss_x := x25519 X sk_x (ct_x ct) in
    Ok (combiner ss_m ss_x (ct_x ct) pk_x).
End WithImpls.

(** lib.rs:131, 215 (feature zeroize): derived [Zeroize] and [ZeroizeOnDrop] zero every
    field *)
Definition xw_dk_drop (dk : xw_decaps_key) : xw_decaps_key :=
  {| xw_sk := map (fun _ => 0) (xw_sk dk) |}.
Definition xw_ct_drop (ct : xw_ciphertext) : xw_ciphertext :=
  {| ct_m := map (fun _ => 0) (ct_m ct); ct_x := map (fun _ => 0) (ct_x ct) |}.

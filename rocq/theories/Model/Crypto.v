(** Model of ml-kem/src/crypto.rs.

    The [sha3] crate is outside the repository.  Its four functions are parameters of the
    model, collected in the record [hashes] (Base/Oracles.v): theorems quantify over all of them.  The
    assumptions on the crate built into the model are:
      - successive [update] calls absorb the concatenation of their arguments;
      - successive [read] calls on an XOF reader return successive segments of one
        infinite byte stream that depends only on the absorbed bytes;
    and, as the explicit hypothesis [hash_ok] of the theorems: digests have 32 / 64 bytes
    and all outputs are bytes.  Spec/FIPS202.v gives the real functions, which satisfy
    [hash_ok]. *)
From Coq Require Import List ZArith Bool.
From Verif.Base Require Import Res Oracles.
From Verif.Model Require Import Machine Util Encode.
Import ListNotations.
Open Scope Z_scope.

(** An XOF reader: the stream and the read position. *)
Record xof_reader := { xof_stream : nat -> Z; xof_pos : nat }.

(** [XofReader::read(&mut buf)] with a buffer of [n] bytes *)
Definition xof_read (r : xof_reader) (n : nat) : list Z * xof_reader :=
  (map (xof_stream r) (seq (xof_pos r) n),
   {| xof_stream := xof_stream r; xof_pos := xof_pos r + n |}).

(** crypto.rs:13-17, at the only size used, 32 *)
Definition rand (g : rng) (s : rng_state g) : list Z * rng_state g := fill_bytes g s 32.

Section WithHashes.
  Variable hs : hashes.

  (** crypto.rs:19-32 *)
  Definition G (inputs : list (list Z)) : res (list Z * list Z) :=
    let out := sha3_512 hs (concat inputs) in
    let* lo := slice out 0 32 in
    let* a := copy_from_slice (repeat 0 32) lo in
    let* hi := slice out 32 (length out) in
    let* b := copy_from_slice (repeat 0 32) hi in
    Ok (a, b).

  (** crypto.rs:34-44; [finalize_into] of a 32-byte buffer *)
  Definition H (x : list Z) : list Z := sha3_256 hs x.

  (** crypto.rs:46-56 *)
  Definition J (inputs : list (list Z)) : list Z :=
    let r := {| xof_stream := shake256 hs (concat inputs); xof_pos := 0 |} in
    fst (xof_read r 32).

  (** crypto.rs:58-72; the output size is the encoded polynomial size for [2 * eta] bits
      (param.rs:134, 140: [SampleSize]) *)
  Definition PRF (eta : nat) (s : list Z) (b : Z) : list Z :=
    let r := {| xof_stream := shake256 hs (concat [s; [b]]); xof_pos := 0 |} in
    fst (xof_read r (encoded_poly_size (2 * eta))).

  (** crypto.rs:74-79 *)
  Definition XOF (rho : list Z) (i j : Z) : xof_reader :=
    {| xof_stream := shake128 hs (concat [rho; [i; j]]); xof_pos := 0 |}.
End WithHashes.

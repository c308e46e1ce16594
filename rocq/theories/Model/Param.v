(** Model of the parameter sets (ml-kem/src/lib.rs) and of the derived sizes and
    concatenation/splitting functions of ml-kem/src/param.rs.

    [Array::concat] and [Array::split_ref] of hybrid-array are list concatenation and
    splitting at the (type-level) length of the first part. *)
From Coq Require Import List ZArith Bool.
From Verif.Base Require Import Res Oracles.
From Verif.Model Require Import Machine Util Encode.
Import ListNotations.
Open Scope Z_scope.

(** param.rs:148-165, trait [ParameterSet]: the record [params] of Base/Oracles.v *)

(** lib.rs:156-162 *)
Definition MlKem512Params : params := {| pk := 2; eta1 := 3; eta2 := 2; du := 10; dv := 4 |}.
(** lib.rs:169-175 *)
Definition MlKem768Params : params := {| pk := 3; eta1 := 2; eta2 := 2; du := 10; dv := 4 |}.
(** lib.rs:182-188 *)
Definition MlKem1024Params : params := {| pk := 4; eta1 := 2; eta2 := 2; du := 11; dv := 5 |}.

Section WithParams.
  Variable P : params.

  (** param.rs:167-168 *)
  Definition encoded_u_size : nat := encoded_vec_size (du P) (pk P).
  Definition encoded_v_size : nat := encoded_poly_size (dv P).
  (** param.rs:206-208 *)
  Definition ntt_vector_size : nat := encoded_vec_size 12 (pk P).
  Definition encryption_key_size : nat := (ntt_vector_size + 32)%nat.
  Definition ciphertext_size : nat := (encoded_u_size + encoded_v_size)%nat.
  (** param.rs:272 *)
  Definition decapsulation_key_size : nat :=
    (ntt_vector_size + encryption_key_size + 32 + 32)%nat.

  (** param.rs:210-216 *)
  Definition encode_u12 (p : list (list Z)) : res (list Z) := vec_encode 12 (pk P) p.
  Definition decode_u12 (v : list Z) : res (list (list Z)) := vec_decode 12 (pk P) v.

  (** param.rs:218-224 *)
  Definition concat_ct (u v : list Z) : list Z := u ++ v.
  Definition split_ct (ct : list Z) : list Z * list Z :=
    (firstn encoded_u_size ct, skipn encoded_u_size ct).

  (** param.rs:226-232 *)
  Definition concat_ek (t_hat rho : list Z) : list Z := t_hat ++ rho.
  Definition split_ek (ek : list Z) : list Z * list Z :=
    (firstn ntt_vector_size ek, skipn ntt_vector_size ek).

  (** param.rs:274-281 *)
  Definition concat_dk (dk ek h z : list Z) : list Z := ((dk ++ ek) ++ h) ++ z.
  (** param.rs:284-298: from right to left *)
  Definition split_dk (enc : list Z) : list Z * list Z * list Z * list Z :=
    let n3 := (ntt_vector_size + encryption_key_size + 32)%nat in
    let z := skipn n3 enc in
    let enc := firstn n3 enc in
    let n2 := (ntt_vector_size + encryption_key_size)%nat in
    let h := skipn n2 enc in
    let enc := firstn n2 enc in
    let n1 := ntt_vector_size in
    (firstn n1 enc, skipn n1 enc, h, z).
End WithParams.

(** Model of ml-kem/src/pke.rs. *)
From Coq Require Import List ZArith Bool.
From Verif.Base Require Import Res Oracles.
From Verif.Model Require Import Machine Util Algebra Compress Encode Crypto Sample Param.
Import ListNotations.
Open Scope Z_scope.

(** pke.rs:16-21 *)
Record DecryptionKey := { s_hat : list (list Z) }.
(** pke.rs:94-100 *)
Record EncryptionKey := { t_hat : list (list Z); rho : list Z }.

Section WithParams.
  Variable hs : hashes.
  Variable P : params.

  (** [P::K::U8] *)
  Definition K_U8 : Z := Z.of_nat (pk P).

  (** pke.rs:39-60 *)
  Definition pke_generate (fuel : nat) (d : list Z) : res (DecryptionKey * EncryptionKey) :=
    let* '(rho, sigma) := G hs [d; [K_U8]] in
    let* A_hat := matrix_sample_uniform hs fuel (pk P) rho false in
    let* s := vec_sample_cbd hs (pk P) (eta1 P) sigma 0 in
    let* e := vec_sample_cbd hs (pk P) (eta1 P) sigma K_U8 in
    let* s_hat := vec_ntt (pk P) s in
    let* e_hat := vec_ntt (pk P) e in
    let* As := matrix_mul (pk P) A_hat s_hat in
    let* t_hat := nttvec_add (pk P) As e_hat in
    Ok ({| s_hat := s_hat |}, {| t_hat := t_hat; rho := rho |}).

  (** pke.rs:64-77 *)
  Definition decrypt (dk : DecryptionKey) (ciphertext : list Z) : res (list Z) :=
    let '(c1, c2) := split_ct P ciphertext in
    let* u := vec_decode (du P) (pk P) c1 in
    let* u := vec_decompress (du P) u in
    let* v := poly_decode (dv P) c2 in
    let* v := poly_decompress (dv P) v in
    let* u_hat := vec_ntt (pk P) u in
    let* su := nttvec_dot (s_hat dk) u_hat in
    let* sTu := ntt_inverse su in
    let* w := poly_sub v sTu in
    let* w := poly_compress 1 w in
    poly_encode 1 w.

  (** pke.rs:80-82 *)
  Definition dk_as_bytes (dk : DecryptionKey) : res (list Z) := encode_u12 P (s_hat dk).

  (** pke.rs:85-88 *)
  Definition dk_from_bytes (enc : list Z) : res DecryptionKey :=
    let* s_hat := decode_u12 P enc in Ok {| s_hat := s_hat |}.

  (** pke.rs:108-129 *)
  Definition encrypt (fuel : nat) (ek : EncryptionKey) (message randomness : list Z)
    : res (list Z) :=
    let* r := vec_sample_cbd hs (pk P) (eta1 P) randomness 0 in
    let* e1 := vec_sample_cbd hs (pk P) (eta2 P) randomness K_U8 in
    let* n2 := umul W8 2 K_U8 in
    let prf_output := PRF hs (eta2 P) randomness n2 in
    let* e2 := poly_sample_cbd (eta2 P) prf_output in
    let* A_hat_t := matrix_sample_uniform hs fuel (pk P) (rho ek) true in
    let* r_hat := vec_ntt (pk P) r in
    let* Ar := matrix_mul (pk P) A_hat_t r_hat in
    let* ATr := nttvec_inverse (pk P) Ar in
    let* u := vec_add (pk P) ATr e1 in
    let* mu := poly_decode 1 message in
    let* mu := poly_decompress 1 mu in
    let* tr := nttvec_dot (t_hat ek) r_hat in
    let* tTr := ntt_inverse tr in
    let* te := poly_add tTr e2 in
    let* v := poly_add te mu in
    let* u := vec_compress (du P) u in
    let* c1 := vec_encode (du P) (pk P) u in
    let* v := poly_compress (dv P) v in
    let* c2 := poly_encode (dv P) v in
    Ok (concat_ct c1 c2).

  (** pke.rs:132-135 *)
  Definition ek_as_bytes (ek : EncryptionKey) : res (list Z) :=
    let* t := encode_u12 P (t_hat ek) in
    Ok (concat_ek t (rho ek)).

  (** pke.rs:138-145 *)
  Definition ek_from_bytes (enc : list Z) : res EncryptionKey :=
    let '(t, rho) := split_ek P enc in
    let* t_hat := decode_u12 P t in
    Ok {| t_hat := t_hat; rho := rho |}.
End WithParams.

(** pke.rs:23-31 (feature zeroize) *)
Definition dk_zeroize (dk : DecryptionKey) : DecryptionKey :=
  {| s_hat := nttvec_zeroize (s_hat dk) |}.

(** The model of ml-kem once more, recording every call of the hash functions (crypto.rs)
    in order.  Hash functions are reachable only through the [ask_*] operations, which log
    their arguments.  Proofs/TracedProofs.v shows that forgetting the log gives exactly the
    definitions of Sample.v, Pke.v and Kem.v. *)
From Coq Require Import List ZArith Bool.
From Verif.Base Require Import Res Oracles.
From Verif.Model Require Import Machine Util Algebra Compress Encode Crypto Sample Param Pke Kem.
Import ListNotations.
Open Scope Z_scope.

(** one call of a function of crypto.rs, with the bytes absorbed *)
Inductive query :=
| QG (input : list Z)
| QH (input : list Z)
| QJ (input : list Z)
| QPRF (s : list Z) (nonce : Z)
| QXOF (rho : list Z) (i j : Z).

Definition traced (A : Type) : Type := (list query * res A)%type.
Definition tbind {A B} (m : traced A) (f : A -> traced B) : traced B :=
  match snd m with
  | Ok a => let '(l, r) := f a in (fst m ++ l, r)
  | Panic => (fst m, Panic)
  | UB => (fst m, UB)
  | NoFuel => (fst m, NoFuel)
  end.
(** code that calls no hash function *)
Definition pure {A} (r : res A) : traced A := ([], r).

Notation "'let+' x ':=' e 'in' k" := (tbind e (fun x => k))
  (at level 200, x name, e at level 200, k at level 200, right associativity).
Notation "'let+' ' x ':=' e 'in' k" := (tbind e (fun x => k))
  (at level 200, x strict pattern, e at level 200, k at level 200, right associativity).

Fixpoint tmapM {A B} (f : A -> traced B) (l : list A) : traced (list B) :=
  match l with
  | [] => pure (Ok [])
  | x :: r => let+ y := f x in let+ ys := tmapM f r in pure (Ok (y :: ys))
  end.
Definition tfrom_fn {A} (n : nat) (f : nat -> traced A) : traced (list A) := tmapM f (seq 0 n).

Section Traced.
  Variable hs : hashes.
  Variable P : params.

  (** the only uses of [hs] *)
  Definition ask_G (inputs : list (list Z)) : traced (list Z * list Z) := ([QG (concat inputs)], G hs inputs).
  Definition ask_H (x : list Z) : traced (list Z) := ([QH x], Ok (H hs x)).
  Definition ask_J (inputs : list (list Z)) : traced (list Z) := ([QJ (concat inputs)], Ok (J hs inputs)).
  Definition ask_PRF (eta : nat) (s : list Z) (b : Z) : traced (list Z) := ([QPRF s b], Ok (PRF hs eta s b)).
  Definition ask_XOF (rho : list Z) (i j : Z) : traced xof_reader := ([QXOF rho i j], Ok (XOF hs rho i j)).

  (** algebra.rs:171-180 *)
  Definition t_vec_sample_cbd (k eta : nat) (sigma : list Z) (start_n : Z) : traced (list (list Z)) :=
    tfrom_fn k (fun i =>
      let+ i8 := pure (truncate W8 (Z.of_nat i)) in
      let+ n := pure (uadd W8 start_n i8) in
      let+ prf_output := ask_PRF eta sigma n in
      pure (poly_sample_cbd eta prf_output)).

  (** algebra.rs:423-429 *)
  Definition t_nttvec_sample_uniform (fuel k : nat) (rho : list Z) (i : nat) (tr : bool) : traced (list (list Z)) :=
    tfrom_fn k (fun j =>
      let '(i, j) := if tr then (j, i) else (i, j) in
      let+ j8 := pure (truncate W8 (Z.of_nat j)) in
      let+ i8 := pure (truncate W8 (Z.of_nat i)) in
      let+ xof := ask_XOF rho j8 i8 in
      pure (poly_sample_uniform fuel xof)).

  (** algebra.rs:496-500 *)
  Definition t_matrix_sample_uniform (fuel k : nat) (rho : list Z) (tr : bool) : traced (list (list (list Z))) :=
    tfrom_fn k (fun i => t_nttvec_sample_uniform fuel k rho i tr).

  (** pke.rs:39-60 *)
  Definition t_pke_generate (fuel : nat) (d : list Z) : traced (DecryptionKey * EncryptionKey) :=
    let+ '(rho, sigma) := ask_G [d; [K_U8 P]] in
    let+ A_hat := t_matrix_sample_uniform fuel (pk P) rho false in
    let+ s := t_vec_sample_cbd (pk P) (eta1 P) sigma 0 in
    let+ e := t_vec_sample_cbd (pk P) (eta1 P) sigma (K_U8 P) in
    let+ s_hat := pure (vec_ntt (pk P) s) in
    let+ e_hat := pure (vec_ntt (pk P) e) in
    let+ As := pure (matrix_mul (pk P) A_hat s_hat) in
    let+ t_hat := pure (nttvec_add (pk P) As e_hat) in
    pure (Ok ({| s_hat := s_hat |}, {| t_hat := t_hat; rho := rho |})).

  (** pke.rs:108-129 *)
  Definition t_encrypt (fuel : nat) (ek : EncryptionKey) (message randomness : list Z) : traced (list Z) :=
    let+ r := t_vec_sample_cbd (pk P) (eta1 P) randomness 0 in
    let+ e1 := t_vec_sample_cbd (pk P) (eta2 P) randomness (K_U8 P) in
    let+ n2 := pure (umul W8 2 (K_U8 P)) in
    let+ prf_output := ask_PRF (eta2 P) randomness n2 in
    let+ e2 := pure (poly_sample_cbd (eta2 P) prf_output) in
    let+ A_hat_t := t_matrix_sample_uniform fuel (pk P) (rho ek) true in
    let+ r_hat := pure (vec_ntt (pk P) r) in
    let+ Ar := pure (matrix_mul (pk P) A_hat_t r_hat) in
    let+ ATr := pure (nttvec_inverse (pk P) Ar) in
    let+ u := pure (vec_add (pk P) ATr e1) in
    let+ mu := pure (poly_decode 1 message) in
    let+ mu := pure (poly_decompress 1 mu) in
    let+ tr := pure (nttvec_dot (t_hat ek) r_hat) in
    let+ tTr := pure (ntt_inverse tr) in
    let+ te := pure (poly_add tTr e2) in
    let+ v := pure (poly_add te mu) in
    let+ u := pure (vec_compress (du P) u) in
    let+ c1 := pure (vec_encode (du P) (pk P) u) in
    let+ v := pure (poly_compress (dv P) v) in
    let+ c2 := pure (poly_encode (dv P) v) in
    pure (Ok (concat_ct c1 c2)).

  (** kem.rs:160-163 *)
  Definition t_encaps_key_new (ek : EncryptionKey) : traced encaps_key :=
    let+ b := pure (ek_as_bytes P ek) in
    let+ h := ask_H b in
    pure (Ok {| ek_pke := ek; ek_h := h |}).

  (** kem.rs:137-142, 243-250 *)
  Definition t_kem_generate_deterministic (fuel : nat) (d z : list Z) : traced (decaps_key * encaps_key) :=
    let+ '(dk_pke, ek_pke) := t_pke_generate fuel d in
    let+ ek := t_encaps_key_new ek_pke in
    let dk := {| dk_pke := dk_pke; dk_ek := ek; dk_z := z |} in
    pure (Ok (dk, encapsulation_key dk)).

  (** kem.rs:165-169 *)
  Definition t_encapsulate_deterministic (fuel : nat) (ek : encaps_key) (m : list Z) : traced (list Z * list Z) :=
    let+ '(K, r) := ask_G [m; ek_h ek] in
    let+ c := t_encrypt fuel (ek_pke ek) m r in
    pure (Ok (c, K)).

  (** kem.rs:91-117 *)
  Definition t_decapsulate (fuel : nat) (dk : decaps_key) (encapsulated_key : list Z) : traced (list Z) :=
    let+ mp := pure (decrypt P (dk_pke dk) encapsulated_key) in
    let+ '(Kp, rp) := ask_G [mp; ek_h (dk_ek dk)] in
    let+ Kbar := ask_J [dk_z dk; encapsulated_key] in
    let+ cp := t_encrypt fuel (ek_pke (dk_ek dk)) mp rp in
    let equal := ct_compare cp encapsulated_key in
    pure (ct_select equal Kp Kbar).
End Traced.

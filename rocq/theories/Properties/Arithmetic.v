(** C18-C22: field arithmetic, the number-theoretic transform, module products. *)
From Coq Require Import List ZArith Lia Bool Arith.
From Verif.Base Require Import Res Oracles.
From Verif.Spec Require Import FIPS203 Domains.
From Verif.Model Require Import Machine Util Algebra.
From Verif.Proofs Require Import Basics Field Poly NttProofs NttAlgebra NttDivision Inner.
Import ListNotations.
Open Scope Z_scope.

(** ** C18 *)
Theorem C18_field_arithmetic : forall x y, fe x -> fe y ->
  fe_add x y = Ok ((x + y) mod q) /\
  fe_sub x y = Ok ((x - y) mod q) /\
  fe_mul x y = Ok ((x * y) mod q).
Proof.
  intros x y Hx Hy.
  split; [apply fe_add_ok|split; [apply fe_sub_ok|apply fe_mul_ok]]; assumption.
Qed.

Theorem C18_barrett_reduce : forall x, 0 <= x <= 2 * (q - 1) * (q - 1) ->
  barrett_reduce x = Ok (x mod q).
Proof. exact barrett_reduce_ok. Qed.

(** the product of two linear polynomials modulo X^2 - gamma i *)
Theorem C18_base_case_multiply : forall a0 a1 b0 b1 i,
  fe a0 -> fe a1 -> fe b0 -> fe b1 -> (i < 128)%nat ->
  base_case_multiply a0 a1 b0 b1 i =
    Ok ((a0 * b0 + a1 * b1 * gamma i) mod q, (a0 * b1 + a1 * b0) mod q).
Proof. exact base_case_multiply_ok. Qed.

Example C18_case : fe 3328 /\ fe 3000 /\ fe_add 3328 3000 = Ok 2999 /\ fe_sub 3000 3328 = Ok 3001 /\
  fe_mul 3328 3328 = Ok 1 /\ barrett_reduce 22151168 = Ok 2 /\
  base_case_multiply 3328 3328 3328 3328 0 = Ok (18, 2).
Proof. unfold fe, q. repeat split; try lia; vm_compute; reflexivity. Qed.

(** ** C19 *)

(** [ntt f] has 256 canonical coefficients, and for each of the 128 moduli
    X^2 - zeta^(2 BitRev7(i) + 1), the pair at 2i, 2i+1 is the remainder of f: there is a
    quotient h of degree below 254 with f = (X^2 - gamma i) h + (r_2i + r_2i+1 X). *)
Theorem C19_ntt_evaluates : forall f, poly f ->
  exists r, ntt f = Ok r /\ poly r /\
  forall i, (i < 128)%nat ->
    exists h : nat -> Z, (forall c, (254 <= c)%nat -> h c = 0) /\
    forall c, (c < 256)%nat ->
      co f c = ((if Nat.ltb c 2 then co r (2 * i + c) else h (c - 2)%nat) - gamma i * h c) mod q.
Proof.
  intros f Hf. exists (NTT f). split; [apply ntt_ok, Hf|]. split; [apply NTT_poly|].
  intros i Hi. apply NTT_is_remainder; assumption.
Qed.

(** the same as a closed formula: evaluation of the even and odd halves at gamma i *)
Theorem C19_ntt_closed_form : forall f, poly f -> ntt f = Ok (NTT f).
Proof. exact ntt_ok. Qed.

(** the evaluation points are the 128 distinct square roots' squares: gamma i ^ 128 = -1 *)
Theorem C19_points : forall i j, (i < 128)%nat -> (j < 128)%nat ->
  gamma i ^ 128 mod q = (-1) mod q /\ (gamma i mod q = gamma j mod q -> i = j).
Proof. intros i j Hi Hj. split; [apply gamma_root, Hi|apply gamma_distinct; assumption]. Qed.

Definition sample_poly : list Z := tab 256 (fun i => (Z.of_nat i * 97 + 5) mod 3329).
Example sample_poly_ok : poly sample_poly.
Proof. apply (poly_tab_mod (fun i => Z.of_nat i * 97 + 5)). Qed.
Example C19_case : exists r, ntt sample_poly = Ok r /\ co r 0 = 1334 /\ co r 255 = 1607.
Proof. eexists. split; [vm_compute; reflexivity|]. split; reflexivity. Qed.

(** ** C20 *)
Theorem C20_ntt_inverse_ntt : forall f, poly f ->
  (let* g := ntt f in ntt_inverse g) = Ok f.
Proof.
  intros f Hf. rewrite ntt_ok by exact Hf. cbn [bind].
  rewrite ntt_inverse_ok by apply NTT_poly. rewrite NTTinv_NTT by exact Hf. reflexivity.
Qed.
Theorem C20_ntt_ntt_inverse : forall g, poly g ->
  (let* f := ntt_inverse g in ntt f) = Ok g.
Proof.
  intros g Hg. rewrite ntt_inverse_ok by exact Hg. cbn [bind].
  rewrite ntt_ok by apply NTTinv_poly. rewrite NTT_NTTinv by exact Hg. reflexivity.
Qed.
Example C20_case : poly sample_poly /\ (let* g := ntt sample_poly in ntt_inverse g) = Ok sample_poly.
Proof. split; [apply sample_poly_ok|vm_compute; reflexivity]. Qed.

(** ** C21 *)

(** [pmul] is schoolbook multiplication in Z_q[X]/(X^256 + 1) *)
Theorem C21_ntt_mul_is_ring_mul : forall f g, poly f -> poly g ->
  (let* f' := ntt f in let* g' := ntt g in let* p := ntt_mul f' g' in ntt_inverse p) = Ok (pmul f g).
Proof.
  intros f g Hf Hg. rewrite !ntt_ok by assumption. cbn [bind].
  rewrite ntt_mul_ok by apply NTT_poly. cbn [bind].
  rewrite ntt_inverse_ok by apply MultiplyNTTs_poly.
  rewrite <- NTT_pmul, NTTinv_NTT by apply pmul_poly. reflexivity.
Qed.
Theorem C21_ntt_add_is_ring_add : forall f g, poly f -> poly g ->
  (let* f' := ntt f in let* g' := ntt g in let* p := poly_add f' g' in ntt_inverse p) = Ok (padd f g).
Proof.
  intros f g Hf Hg. rewrite !ntt_ok by assumption. cbn [bind].
  rewrite poly_add_ok by apply NTT_poly. cbn [bind].
  rewrite ntt_inverse_ok by apply padd_poly.
  rewrite <- NTT_padd, NTTinv_NTT by apply padd_poly. reflexivity.
Qed.
(** X^255 * X^255 = X^510 = -X^254 *)
Example C21_case :
  let x255 := tab 256 (fun i => if Nat.eqb i 255 then 1 else 0) in
  poly x255 /\
  (let* f' := ntt x255 in let* p := ntt_mul f' f' in ntt_inverse p) =
    Ok (tab 256 (fun i => if Nat.eqb i 254 then 3328 else 0)).
Proof.
  cbv zeta. split; [|vm_compute; reflexivity].
  apply poly_tab. intros i Hi. destruct (Nat.eqb i 255); unfold fe, q; lia.
Qed.

(** ** C22 *)
Theorem C22_dot_product : forall k u v, vec k u -> vec k v ->
  nttvec_dot u v =
    Ok (tab 256 (fun c => sum k (fun i => co (MultiplyNTTs (ent u i) (ent v i)) c) mod q)).
Proof. exact nttvec_dot_ok. Qed.
Theorem C22_matrix_product : forall k A v, mat k A -> vec k v ->
  matrix_mul k A v =
    Ok (tab k (fun i => tab 256 (fun c =>
          sum k (fun j => co (MultiplyNTTs (ent (nth i A []) j) (ent v j)) c) mod q))).
Proof. exact matrix_mul_ok. Qed.
Theorem C22_vector_add : forall k u v, vec k u -> vec k v ->
  vec_add k u v = Ok (tab k (fun i => tab 256 (fun c => (co (ent u i) c + co (ent v i) c) mod q))).
Proof. exact vec_add_ok. Qed.

(** the dot product computed in the NTT domain is the inner product over R_q *)
Theorem C22_dot_is_ring_inner_product : forall k u v, vec k u -> vec k v ->
  (let* u' := vec_ntt k u in let* v' := vec_ntt k v in let* d := nttvec_dot u' v' in ntt_inverse d) =
  Ok (tab 256 (fun c => sum k (fun i => co (pmul (ent u i) (ent v i)) c) mod q)).
Proof.
  intros k u v Hu Hv.
  rewrite !vec_ntt_eq by assumption. cbn [bind].
  rewrite (nttvec_dot_ok k) by (apply vec_map; [assumption|intros; apply NTT_poly]). cbn [bind].
  rewrite ntt_inverse_ok by apply dot_poly. rewrite sum_pmul_NTT by assumption. reflexivity.
Qed.

Definition sample_vec : list (list Z) :=
  [sample_poly; tab 256 (fun i => Z.of_nat i mod q); sample_poly].
Example sample_vec_ok : vec 3 sample_vec.
Proof.
  split; [reflexivity|]. unfold sample_vec. constructor; [apply sample_poly_ok|].
  constructor; [apply poly_tab_mod|]. constructor; [apply sample_poly_ok|constructor].
Qed.
Example C22_case : exists r, nttvec_dot sample_vec sample_vec = Ok r /\ co r 7 = 1538.
Proof. eexists. split; [vm_compute; reflexivity|]. reflexivity. Qed.

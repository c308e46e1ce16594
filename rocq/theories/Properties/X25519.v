(** C57 and C58: X25519 as RFC 7748 defines it.

    The other theorems about X-Wing and the X25519 KEM take the Diffie-Hellman function as a
    parameter and assume of it what they need.  Here the function is the one of
    Spec/RFC7748.v: it multiplies points of the curve of Spec/Curve25519.v (or of its
    twist), so it commutes, and the assumption is discharged. *)
From Coq Require Import List ZArith Lia Bool.
From Verif.Base Require Import Res Oracles.
From Verif.Spec Require Import FIPS203 RFC7748 Curve25519 XWing Noise.
From Verif.Model Require Import Machine Param Crypto Pke Kem XWing DhKem.
From Verif.Proofs Require Import Basics XWingProofs Primes X25519Proofs Curve25519Proofs.
From Verif.Tests Require Import Toy.
From Verif.Properties Require Import Kem KemCases Correctness XWing Dh.
Import ListNotations.
Open Scope Z_scope.

(** ** C57: the points of each of the two curves form a commutative group *)
Theorem C57_group B : B = 1 \/ B = 2 ->
  (forall P Q, on_curve B P -> on_curve B Q -> on_curve B (add B P Q)) /\
  (forall P Q, on_curve B P -> on_curve B Q -> add B P Q = add B Q P) /\
  (forall P Q R, on_curve B P -> on_curve B Q -> on_curve B R -> add B (add B P Q) R = add B P (add B Q R)) /\
  (forall P, add B Infinity P = P) /\
  (forall u v, on_curve B (Point u v) ->
     let w := (- v) mod p25519 in on_curve B (Point u w) /\ add B (Point u v) (Point u w) = Infinity).
Proof.
  intros HB. destruct (curve_data B HB) as (C' & A' & e & s & D1 & D2 & D3 & D4 & D5 & D6 & D7).
  split; [intros; apply (add_on B C' e s); assumption|].
  split; [intros; apply (add_comm B C' e s); assumption|].
  split; [intros; apply (add_assoc B C' e s); assumption|].
  split; [reflexivity|].
  intros u v (Hu & Hv & E) w. assert (Rw : 0 <= w < p25519) by (apply Z.mod_pos_bound; reflexivity).
  split.
  - split; [exact Hu|]. split; [exact Rw|]. rewrite <- E. unfold w.
    rewrite <- Zmult_mod_idemp_r, <- Zpow_facts.Zpower_mod, Zmult_mod_idemp_r by reflexivity. f_equal. ring.
  - cbn [add]. rewrite Z.eqb_refl. unfold w. rewrite Zplus_mod_idemp_r. replace (v + - v) with 0 by ring. reflexivity.
Qed.

(** every integer modulo p is the u-coordinate of a point of one of them *)
Theorem C57_every_u u : 0 <= u < p25519 ->
  exists B v, (B = 1 \/ B = 2) /\ on_curve B (Point u v).
Proof. exact (every_u u). Qed.

(** X25519 multiplies by the decoded scalar.  Together with [C57_every_u] this describes the
    function on all inputs: [ub] may encode any integer, reduced or not, top bit set or not *)
Theorem C57_scalar_multiplication B k ub P : B = 1 \/ B = 2 -> byte_string 32 k -> on_curve B P ->
  decodeUCoordinate ub mod p25519 = u_coordinate P ->
  X25519 k ub = le_encode 32 (u_coordinate (multiple B (Z.to_nat (decodeScalar25519 k)) P)).
Proof.
  intros HB. destruct (curve_data B HB) as (C' & A' & e & s & D1 & D2 & D3 & D4 & D5 & D6 & D7).
  exact (X25519_multiple B C' A' e s D1 D2 D3 D4 D5 D6 D7 k ub P).
Qed.

Lemma le_encode_u x : 0 <= x < p25519 -> decodeUCoordinate (le_encode 32 x) mod p25519 = x.
Proof. intros H. rewrite decode_u by exact H. apply Z.mod_small. exact H. Qed.

(** two scalars act one after the other as their product does; so they commute *)
Theorem C57_composition B a b ub P : B = 1 \/ B = 2 -> byte_string 32 a -> byte_string 32 b -> on_curve B P ->
  decodeUCoordinate ub mod p25519 = u_coordinate P ->
  X25519 a (X25519 b ub) =
    le_encode 32 (u_coordinate (multiple B (Z.to_nat (decodeScalar25519 a) * Z.to_nat (decodeScalar25519 b)) P)).
Proof.
  intros HB Ha Hb HP Hu. destruct (curve_data B HB) as (C' & A' & e & s & D1 & D2 & D3 & D4 & D5 & D6 & D7).
  rewrite (C57_scalar_multiplication B b ub P HB Hb HP Hu).
  set (Q := multiple B _ P).
  assert (HQ : on_curve B Q) by (apply (multiple_on B C' e s); assumption).
  rewrite (C57_scalar_multiplication B a _ Q HB Ha HQ).
  - unfold Q. rewrite <- (multiple_mul B C' e s) by assumption. reflexivity.
  - apply le_encode_u. destruct Q; cbn [u_coordinate on_curve] in *; [split; [discriminate|reflexivity]|tauto].
Qed.

Theorem C57_commutes a b ub : byte_string 32 a -> byte_string 32 b ->
  X25519 a (X25519 b ub) = X25519 b (X25519 a ub).
Proof.
  intros Ha Hb.
  destruct (every_u (decodeUCoordinate ub mod p25519)) as (B & v & HB & HP); [apply Z.mod_pos_bound; reflexivity|].
  rewrite (C57_composition B a b ub _ HB Ha Hb HP eq_refl), (C57_composition B b a ub _ HB Hb Ha HP eq_refl).
  rewrite Nat.mul_comm. reflexivity.
Qed.

(** ** C58: the KEMs with this function *)

Definition rfc7748 : x25519_impl := {| x25519 := X25519; x25519_public := fun k => X25519 k X25519_BASE |}.

Lemma rfc7748_ok : x25519_ok rfc7748.
Proof.
  split; [|intros k _; cbn [x25519 x25519_public rfc7748]; exact eq_refl].
  intros k u _ _. cbn [x25519 rfc7748]. unfold X25519, X25519_with.
  destruct (fold_left _ _ _) as [[[[x2 z2] x3] z3] sw]. destruct sw; apply le_encode_bytes.
Qed.
Lemma rfc7748_commutes : x25519_commutes rfc7748.
Proof. intros a b Ha Hb. exact (C57_commutes a b X25519_BASE Ha Hb). Qed.

Theorem C58_xwing_round_trip hs n sk g s Ah : hash_ok hs -> byte_string 32 sk -> rng_ok g ->
  let d := bytes32 0 (SHAKE128 hs sk 96) in
  let m := fst (fill_bytes g s 32) in
  A_hat hs ML_KEM_768 n (key_rho hs ML_KEM_768 d) = Some Ah ->
  exists ek pkb,
    xw_encapsulation_key hs rfc7748 n (xw_dk_from sk) = Ok ek /\
    xw_ek_as_bytes ek = Ok pkb /\ xw_ek_from hs pkb = Ok ek /\
    (noise_in_range hs ML_KEM_768 (map (map NTTinv) Ah) d m
       (snd (FIPS203.G hs (m ++ FIPS203.H hs (firstn 1184 pkb)))) ->
     exists ct ctb ss s',
       xw_encapsulate hs rfc7748 n ek g s = Ok (ct, ss, s') /\
       xw_ct_as_bytes ct = Ok ctb /\ xw_ct_from ctb = Ok ct /\
       xw_decapsulate hs rfc7748 n (xw_dk_from sk) ct = Ok ss).
Proof.
  intros Hhs Hsk Hg. exact (C36_round_trip hs Hhs rfc7748 rfc7748_ok n sk g s Ah Hsk Hg rfc7748_commutes).
Qed.

Theorem C58_x25519_kem g s dk ek s1 g' s' pk ss s2 : rng_ok g -> rng_ok g' ->
  x25519_random_keypair rfc7748 g s = ((dk, ek), s1) ->
  x25519_encapsulate rfc7748 ek g' s' = ((pk, ss), s2) ->
  x25519_decapsulate rfc7748 dk pk = ss.
Proof. exact (C40_x25519 rfc7748 g s dk ek s1 g' s' pk ss s2 rfc7748_ok rfc7748_commutes). Qed.

(** ** Concrete cases *)

(** the base point of RFC 7748 and a point of the twist; the base point's encoding *)
Example C57_points :
  on_curve 1 (Point 9 14781619447589544791020593568409986887264606134616475288964881837755586237401) /\
  on_curve 2 (Point 2 53672597578580841041358990734034634090158459834010545766973949134811981134285) /\
  decodeUCoordinate X25519_BASE mod p25519 = 9.
Proof.
  split; [|split]; [| |vm_compute; reflexivity]; cbn [on_curve]; (split; [split; [discriminate|reflexivity]|]);
    (split; [split; [discriminate|reflexivity]|]); vm_compute; reflexivity.
Qed.
(** the two curves have different u-coordinates *)
Example C57_twist v : ~ on_curve 1 (Point 2 v).
Proof.
  intros (_ & Hv & E). destruct C57_points as (_ & (_ & _ & E2) & _). rewrite <- E2 in E. clear E2.
  set (w := 53672597578580841041358990734034634090158459834010545766973949134811981134285) in E.
  apply (two_nonsquare (Fmul (mkF v) (Finv (mkF w)))).
  assert (N : mkF w <> F0) by (apply mkF_nz; vm_compute; discriminate).
  assert (E' : mkF (1 * v ^ 2) = mkF (2 * w ^ 2)) by (apply mkF_eq; exact E).
  rewrite Z.mul_1_l, mkF_mul, !mkF_pow2 in E'.
  exact (square_quotient (mkF v) (mkF w) (mkF 2) N E').
Qed.
Example C57_case : X25519 (seed 1) (X25519 (seed 2) X25519_BASE) = X25519 (seed 2) (X25519 (seed 1) X25519_BASE).
Proof. apply C57_commutes; apply seed_ok. Qed.

(** all hypotheses of [C58_xwing_round_trip] hold for the functions of Tests/Toy.v *)
Example C58_case : exists ek ct ctb ss s',
  reachable_xek toy rfc7748 ek /\ reachable_xct toy rfc7748 ct /\
  xw_encapsulation_key toy rfc7748 300 (xw_dk_from (seed 1)) = Ok ek /\
  xw_encapsulate toy rfc7748 300 ek counter 5 = Ok (ct, ss, s') /\
  xw_ct_as_bytes ct = Ok ctb /\
  xw_decapsulate toy rfc7748 300 (xw_dk_from (seed 1)) ct = Ok ss /\
  (exists Ah, A_hat toy ML_KEM_768 300 (key_rho toy ML_KEM_768 toy_d) = Some Ah).
Proof. exact (xwing_case_for rfc7748 rfc7748_ok rfc7748_commutes). Qed.

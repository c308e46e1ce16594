(** C62-C63: the curves behind the four ECDH mechanisms of dhkem (lib.rs:156-170).

    [Spec/SEC1.v] states the curves and their point addition as SEC 1 and SEC 2 do.  The
    additive law is a commutative group on every such curve with an odd prime modulus and a
    discriminant other than 0; secp256k1, P-256, P-384 and P-521 are such curves.  So the
    hypothesis [ec_commutes] of C40 holds for them, and the Diffie-Hellman mechanisms agree. *)
From Coq Require Import List ZArith Lia Bool Arith Znumtheory.
From Verif.Base Require Import Res Oracles.
From Verif.Model Require Import Machine Crypto XWing DhKem.
From Verif.Proofs Require Import Primes CurvePrimes SEC1Proofs.
From Verif.Properties Require Import Kem KemCases Dh.
From Verif.Spec Require Import SEC1.
Import ListNotations.
Open Scope Z_scope.

(** ** C62: the group *)
Theorem C62_group C : curve_ok C ->
  (forall P Q, on_curve C P -> on_curve C Q -> on_curve C (add C P Q)) /\
  (forall P Q R, on_curve C P -> on_curve C Q -> on_curve C R -> add C (add C P Q) R = add C P (add C Q R)) /\
  (forall P Q, on_curve C P -> on_curve C Q -> add C P Q = add C Q P) /\
  (forall P, add C Infinity P = P /\ add C P Infinity = P) /\
  (forall P, on_curve C P -> on_curve C (negate C P) /\ add C P (negate C P) = Infinity).
Proof.
  intros Hok.
  split; [exact (add_on C Hok)|]. split; [exact (add_assoc C Hok)|]. split; [exact (add_comm C Hok)|].
  split; [intros P; split; [reflexivity|apply add_Infinity_r]|].
  intros P H. split; [apply (negate_on C Hok), H|apply (add_negate C Hok), H].
Qed.

(** the curves satisfy the hypotheses, and their base points lie on them *)
Definition dhkem_curves : list curve := [secp256k1; P256; P384; P521].
Theorem C62_curves C : In C dhkem_curves -> curve_ok C /\ on_curve C (G C) /\ G C <> Infinity.
Proof.
  intros H. assert (K : curve_ok C /\ on_curve C (G C)).
  { destruct H as [<-|[<-|[<-|[<-|[]]]]].
    - exact (conj secp256k1_ok secp256k1_G).
    - exact (conj P256_ok P256_G).
    - exact (conj P384_ok P384_G).
    - exact (conj P521_ok P521_G). }
  destruct K as [K1 K2]. repeat (split; [assumption|]). discriminate.
Qed.

(** multiples of multiples *)
Theorem C62_multiples C P m n : curve_ok C -> on_curve C P ->
  on_curve C (multiple C m P) /\
  multiple C (m + n) P = add C (multiple C m P) (multiple C n P) /\
  multiple C m (multiple C n P) = multiple C (m * n) P.
Proof.
  intros H HP. split; [apply (multiple_on C H), HP|].
  split; [apply (multiple_add C H), HP|apply (multiple_mul C H), HP].
Qed.

(** ** C62: the mechanisms *)

(** the curve crates compute the multiples of SEC 1, and the octet string of the x-coordinate;
    how they draw scalars is left open *)
Definition sec1 (C : curve) (draw : forall g : rng, rng_state g -> Z * rng_state g) : ec_curve := {|
  ec_scalar := Z; ec_point := point; ec_coord := list Z; ec_gen := G C;
  ec_mul := fun k => multiple C (Z.to_nat k);
  ec_x := fun P => field_octets C (x_coordinate P);
  ec_random := draw
|}.

Lemma pair_pair (A B D : Type) (x x' : A) (y y' : B) (z z' : D) : (x, y, z) = (x', y', z') -> x = x' /\ y = y' /\ z = z'.
Proof. intros E. injection E as -> -> ->. repeat split. Qed.
Lemma keys_eq (A B D : Type) (x : A) (y : B) dk ek (z z' : D) :
  (MkDhDecapsulator x, MkDhEncapsulator y, z) = (dk, ek, z') -> dec_into_inner dk = x /\ y = enc_into_inner ek.
Proof. intros E. injection E as <- <- _. split; reflexivity. Qed.

Theorem C62_commutes C draw : curve_ok C -> on_curve C (G C) -> ec_commutes (sec1 C draw).
Proof. intros H HG j k. apply (multiple_comm C H), HG. Qed.

(** C40 without its hypothesis: both sides compute the Diffie-Hellman primitive of SEC 1, and
    agree; nothing is assumed about the two random number generators or about the scalars *)
Theorem C62_ecdh C draw g s dk ek s1 g' s' pk ss s2 : curve_ok C -> on_curve C (G C) ->
  ecdh_random_keypair (sec1 C draw) g s = ((dk, ek), s1) ->
  ecdh_encapsulate (sec1 C draw) ek g' s' = ((pk, ss), s2) ->
  ecdh_decapsulate (sec1 C draw) dk pk = ss /\
  on_curve C (enc_into_inner ek) /\ on_curve C pk /\
  ss = diffie_hellman C (dec_into_inner dk) pk /\
  length ss = field_length C /\ Forall (fun b => 0 <= b < 256) ss.
Proof.
  intros Hok HG E1 E2. pose proof (C40_ecdh _ g s dk ek s1 g' s' pk ss s2 (C62_commutes C draw Hok HG) E1 E2) as E.
  split; [exact E|]. unfold ecdh_random_keypair, ecdh_encapsulate in E1, E2.
  destruct (ec_random (sec1 C draw) g s) as [x t]. destruct (ec_random (sec1 C draw) g' s') as [y t'].
  apply keys_eq in E1. destruct E1 as [_ E1]. apply pair_pair in E2. destruct E2 as (E2 & E3 & _).
  split; [rewrite <- E1; apply (multiple_on C Hok), HG|]. split; [rewrite <- E2; apply (multiple_on C Hok), HG|].
  split; [rewrite <- E; reflexivity|]. rewrite <- E3. split; [apply octets_length|apply octets_bytes].
Qed.
(** for the four mechanisms of lib.rs:156-170 *)
Theorem C62_dhkem C draw g s dk ek s1 g' s' pk ss s2 : In C dhkem_curves ->
  ecdh_random_keypair (sec1 C draw) g s = ((dk, ek), s1) ->
  ecdh_encapsulate (sec1 C draw) ek g' s' = ((pk, ss), s2) ->
  ecdh_decapsulate (sec1 C draw) dk pk = ss.
Proof.
  intros H E1 E2. destruct (C62_curves C H) as (Hok & HG & _).
  exact (proj1 (C62_ecdh C draw g s dk ek s1 g' s' pk ss s2 Hok HG E1 E2)).
Qed.
(** decapsulation of whatever point *)
Theorem C62_decapsulate C draw sk P : ecdh_decapsulate (sec1 C draw) (dec_from sk) P = diffie_hellman C sk P.
Proof. reflexivity. Qed.

(** ** C63: [to_encoded_point] distinguishes keys *)
Theorem C63_encoded_point C compress P Q : curve_ok C -> on_curve C P -> on_curve C Q ->
  enc_to_encoded_point (fun P c => point_octets C c P) (enc_from P) compress =
  enc_to_encoded_point (fun P c => point_octets C c P) (enc_from Q) compress -> P = Q.
Proof. exact (point_octets_inj C compress P Q). Qed.
Theorem C63_length C compress x y : 
  length (point_octets C compress (Point x y)) =
    if compress then (1 + field_length C)%nat else (1 + 2 * field_length C)%nat.
Proof.
  destruct compress; cbn [point_octets length]; rewrite ?app_length; unfold field_octets; rewrite ?octets_length; lia.
Qed.
(** the encodings of the four curves have 33, 33, 49 and 67 octets with compression, and 65,
    65, 97 and 133 without *)
Theorem C63_field_length : map field_length dhkem_curves = [32%nat; 32%nat; 48%nat; 66%nat].
Proof. vm_compute. reflexivity. Qed.

(** ** Concrete cases *)

(** y^2 = x^3 + 2 x + 2 modulo 17 has 19 points, all multiples of (5, 1) *)
Definition toy_sec1 : curve := {| p := 17; a := 2; b := 2; gx := 5; gy := 1 |}.
Definition byte_scalar (g : rng) (s : rng_state g) : Z * rng_state g :=
  let '(b, s') := fill_bytes g s 1 in (hd 0 b, s').
Lemma toy_sec1_ok : curve_ok toy_sec1.
Proof.
  split; [apply (trial_division 17 4); vm_compute; reflexivity|]. split; [discriminate|]. vm_compute. discriminate.
Qed.
Theorem C62_group_case : curve_ok toy_sec1 /\
  map (fun n => multiple toy_sec1 n (G toy_sec1)) (seq 0 20) =
    [Infinity; Point 5 1; Point 6 3; Point 10 6; Point 3 1; Point 9 16; Point 16 13; Point 0 6; Point 13 7; Point 7 6;
     Point 7 11; Point 13 10; Point 0 11; Point 16 4; Point 9 1; Point 3 16; Point 10 11; Point 6 14; Point 5 16; Infinity].
Proof. split; [exact toy_sec1_ok|]. vm_compute. reflexivity. Qed.
(** without a prime modulus, or with discriminant 0, the law fails *)
Theorem C62_group_needed :
  (let C := {| p := 15; a := 1; b := 1; gx := 0; gy := 1 |} in
   p C <> 2 /\ (4 * a C ^ 3 + 27 * b C ^ 2) mod p C <> 0 /\ on_curve C (G C) /\ ~ on_curve C (add C (G C) (G C))) /\
  (let C := {| p := 7; a := 4; b := 2; gx := 1; gy := 0 |} in
   prime (p C) /\ p C <> 2 /\ on_curve C (G C) /\ on_curve C (Point 0 3) /\
   add C (add C (G C) (G C)) (Point 0 3) <> add C (G C) (add C (G C) (Point 0 3))).
Proof.
  split.
  - split; [discriminate|]. split; [discriminate|]. split; [apply on_curveb_true; reflexivity|].
    vm_compute. intros (_ & _ & K). discriminate K.
  - split; [apply (trial_division 7 3); vm_compute; reflexivity|]. split; [discriminate|].
    split; [apply on_curveb_true; reflexivity|]. split; [apply on_curveb_true; reflexivity|]. vm_compute. discriminate.
Qed.
(** a key exchange on the toy curve: scalars 3 and 7, 3 (7 G) = 2 G = (6, 3) *)
Definition byte_rng (x : Z) : rng := {| rng_state := nat; fill_bytes := fun s n => (repeat x n, S s) |}.
Theorem C62_ecdh_case :
  exists dk ek pk ss, curve_ok toy_sec1 /\ on_curve toy_sec1 (G toy_sec1) /\
  ecdh_random_keypair (sec1 toy_sec1 byte_scalar) (byte_rng 3) 0%nat = ((dk, ek), 1%nat) /\
  ecdh_encapsulate (sec1 toy_sec1 byte_scalar) ek (byte_rng 7) 5%nat = ((pk, ss), 6%nat) /\
  enc_into_inner ek = Point 10 6 /\ pk = Point 0 6 /\ ss = [6] /\
  ecdh_decapsulate (sec1 toy_sec1 byte_scalar) dk pk = ss.
Proof.
  do 4 eexists. split; [exact toy_sec1_ok|]. split; [apply on_curveb_true; reflexivity|].
  split; [reflexivity|]. split; [reflexivity|]. repeat split; vm_compute; reflexivity.
Qed.
(** a key exchange on each of the four curves exists, whatever is drawn *)
Theorem C62_dhkem_case C : In C dhkem_curves ->
  exists dk ek pk ss,
  ecdh_random_keypair (sec1 C byte_scalar) (byte_rng 3) 0%nat = ((dk, ek), 1%nat) /\
  ecdh_encapsulate (sec1 C byte_scalar) ek (byte_rng 7) 5%nat = ((pk, ss), 6%nat) /\
  ecdh_decapsulate (sec1 C byte_scalar) dk pk = ss /\
  ss = field_octets C (x_coordinate (multiple C 21 (G C))).
Proof.
  intros H. destruct (C62_curves C H) as (Hok & HG & _). do 4 eexists. split; [reflexivity|]. split; [reflexivity|].
  cut (multiple C 3 (multiple C 7 (G C)) = multiple C 21 (G C)).
  - intros E. assert (E' : multiple C 7 (multiple C 3 (G C)) = multiple C 21 (G C)).
    { rewrite <- E. apply (multiple_comm C Hok), HG. }
    split; refine (f_equal (fun P => field_octets C (x_coordinate P)) _); [etransitivity; [exact E|symmetry; exact E']|exact E'].
  - apply (multiple_mul C Hok 3 7), HG.
Qed.
Theorem C63_case :
  on_curve toy_sec1 (Point 10 6) /\ on_curve toy_sec1 (Point 10 11) /\
  point_octets toy_sec1 false (Point 10 6) = [4; 10; 6] /\ point_octets toy_sec1 false (Point 10 11) = [4; 10; 11] /\
  point_octets toy_sec1 true (Point 10 6) = [2; 10] /\ point_octets toy_sec1 true (Point 10 11) = [3; 10].
Proof. split; [apply on_curveb_true; reflexivity|]. split; [apply on_curveb_true; reflexivity|]. repeat split. Qed.

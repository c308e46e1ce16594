(** C40-C42: the Diffie-Hellman KEM adapters.

    [C] is any curve of the elliptic-curve crate, [X] any behaviour of x25519-dalek
    ([x25519_ok] of XWing.v: 32-byte outputs, public key = secret applied to the base
    point); the Diffie-Hellman identity is a hypothesis exactly where it is needed. *)
From Coq Require Import List ZArith Lia Bool Arith.
From Verif.Base Require Import Res Oracles.
From Verif.Spec Require Import XWing.
From Verif.Model Require Import Machine Crypto XWing DhKem.
From Verif.Proofs Require Import Basics XWingProofs.
From Verif.Properties Require Import Kem KemCases XWing.
Import ListNotations.
Open Scope Z_scope.

(** [a (b G) = b (a G)] for the generator G *)
Definition ec_commutes (C : ec_curve) : Prop :=
  forall a b, ec_mul C a (ec_mul C b (ec_gen C)) = ec_mul C b (ec_mul C a (ec_gen C)).

(** ** C40: both sides may use different RNGs in arbitrary states *)
Theorem C40_ecdh C g s dk ek s1 g' s' pk ss s2 : ec_commutes C ->
  ecdh_random_keypair C g s = ((dk, ek), s1) ->
  ecdh_encapsulate C ek g' s' = ((pk, ss), s2) ->
  ecdh_decapsulate C dk pk = ss.
Proof.
  intros HC. unfold ecdh_random_keypair, ecdh_encapsulate, ecdh_decapsulate, ecdh_diffie_hellman, ecdh_public.
  destruct (ec_random C g s) as [a t]. destruct (ec_random C g' s') as [b t'].
  intros E1 E2. inversion E1. subst. inversion E2. subst. cbn [dh_enc_0 dh_dec_0]. rewrite HC. reflexivity.
Qed.

Theorem C40_x25519 X g s dk ek s1 g' s' pk ss s2 : x25519_ok X -> x25519_commutes X -> rng_ok g -> rng_ok g' ->
  x25519_random_keypair X g s = ((dk, ek), s1) ->
  x25519_encapsulate X ek g' s' = ((pk, ss), s2) ->
  x25519_decapsulate X dk pk = ss.
Proof.
  intros [_ HP] HC Hg Hg'. unfold x25519_random_keypair, x25519_encapsulate, x25519_decapsulate, reusable_random.
  pose proof (Hg s 32%nat) as Ha. destruct (fill_bytes g s 32) as [a t].
  pose proof (Hg' s' 32%nat) as Hb. destruct (fill_bytes g' s' 32) as [b t']. cbn [fst] in *.
  intros E1 E2. inversion E1. subst. inversion E2. subst. cbn [dh_enc_0 dh_dec_0].
  rewrite !HP by assumption. apply HC; assumption.
Qed.

(** The converse direction of the hypothesis: agreement for every RNG is agreement of the
    two scalar products, so the identity cannot be dropped. *)
Theorem C40_needs_commutation C :
  (forall g s dk ek s1 g' s' pk ss s2,
     ecdh_random_keypair C g s = ((dk, ek), s1) ->
     ecdh_encapsulate C ek g' s' = ((pk, ss), s2) -> ecdh_decapsulate C dk pk = ss) ->
  forall g s g' s', let a := fst (ec_random C g s) in let b := fst (ec_random C g' s') in
    ec_x C (ec_mul C a (ec_mul C b (ec_gen C))) = ec_x C (ec_mul C b (ec_mul C a (ec_gen C))).
Proof.
  intros H g s g' s'. specialize (H g s).
  unfold ecdh_random_keypair, ecdh_encapsulate, ecdh_decapsulate, ecdh_diffie_hellman, ecdh_public in H.
  destruct (ec_random C g s) as [a t] eqn:E1. specialize (fun dk ek s1 => H dk ek s1 g' s').
  destruct (ec_random C g' s') as [b t'] eqn:E2. cbn [fst]. exact (H _ _ _ _ _ _ eq_refl eq_refl).
Qed.

(** ** C41 *)
Theorem C41_ecdh C ek g s :
  exists sk s', ec_random C g s = (sk, s') /\
    ecdh_encapsulate C ek g s =
      ((ec_mul C sk (ec_gen C), ec_x C (ec_mul C sk (enc_into_inner ek))), s').
Proof.
  unfold ecdh_encapsulate. destruct (ec_random C g s) as [sk s'] eqn:E. exists sk, s'. split; reflexivity.
Qed.
Theorem C41_x25519 X ek g s l : x25519_ok X -> rng_ok g ->
  exists sk s', fill_bytes g s 32 = (sk, s') /\
    x25519_encapsulate X ek g s = ((x25519 X sk X25519_BASE, x25519 X sk (enc_into_inner ek)), s') /\
    x25519_encapsulate X ek (logged g) (s, l) =
      ((x25519 X sk X25519_BASE, x25519 X sk (enc_into_inner ek)), (s', l ++ [32%nat])).
Proof.
  intros [_ HP] Hg. unfold x25519_encapsulate, reusable_random. cbn [fill_bytes logged fst snd].
  pose proof (Hg s 32%nat) as H. destruct (fill_bytes g s 32) as [sk s']. cbn [fst] in H. exists sk, s'.
  rewrite HP by exact H. repeat split.
Qed.
(** key generation: the decapsulator holds the one drawn secret, the encapsulator its
    public key *)
Theorem C41_keypair C g s dk ek s' : ecdh_random_keypair C g s = ((dk, ek), s') ->
  ec_random C g s = (dec_into_inner dk, s') /\
  enc_into_inner ek = ec_mul C (dec_into_inner dk) (ec_gen C).
Proof.
  unfold ecdh_random_keypair. destruct (ec_random C g s) as [sk t]. intros E. inversion E. subst. split; reflexivity.
Qed.
Theorem C41_x25519_keypair X g s l dk ek s' l' : x25519_ok X -> rng_ok g ->
  x25519_random_keypair X (logged g) (s, l) = ((dk, ek), (s', l')) ->
  fill_bytes g s 32 = (dec_into_inner dk, s') /\ l' = l ++ [32%nat] /\
  enc_into_inner ek = x25519 X (dec_into_inner dk) X25519_BASE.
Proof.
  intros [_ HP] Hg. unfold x25519_random_keypair, reusable_random. cbn [fill_bytes logged fst snd].
  pose proof (Hg s 32%nat) as H. destruct (fill_bytes g s 32) as [sk t]. cbn [fst] in H.
  intros E. inversion E. subst. cbn [dec_into_inner dh_dec_0 enc_into_inner dh_enc_0].
  split; [reflexivity|]. split; [reflexivity|]. apply HP, H.
Qed.
(** decapsulation depends on the secret and the encapsulated key only *)
Theorem C41_decapsulate : forall C X,
  (forall sk p, ecdh_decapsulate C (dec_from sk) p = ec_x C (ec_mul C sk p)) /\
  (forall sk p, x25519_decapsulate X (dec_from sk) p = x25519 X sk p).
Proof. intros. split; reflexivity. Qed.

(** ** C42 *)
Theorem C42_wrappers A (x y : A) (eqb : A -> A -> bool) (cmp : A -> A -> comparison) (z : A -> A)
  E (enc : A -> bool -> E) (b : bool) :
  enc_as_ref (enc_from x) = x /\ enc_into_inner (enc_from x) = x /\
  dec_as_ref (dec_from x) = x /\ dec_into_inner (dec_from x) = x /\
  enc_eqb eqb (enc_from x) (enc_from y) = eqb x y /\ dec_eqb eqb (dec_from x) (dec_from y) = eqb x y /\
  enc_cmp cmp (enc_from x) (enc_from y) = cmp x y /\ dec_cmp cmp (dec_from x) (dec_from y) = cmp x y /\
  enc_into_inner (enc_zeroize z (enc_from x)) = z x /\ dec_into_inner (dec_zeroize z (dec_from x)) = z x /\
  enc_to_encoded_point enc (enc_from x) b = enc x b.
Proof. repeat split. Qed.
(** and every wrapper value is the wrapping of its content *)
Theorem C42_surjective A (e : DhEncapsulator A) (d : DhDecapsulator A) :
  enc_from (enc_into_inner e) = e /\ dec_from (dec_into_inner d) = d.
Proof. destruct e, d. split; reflexivity. Qed.

(** ** Concrete cases: the multiplicative group modulo 23 as a "curve" *)
Definition toy_curve : ec_curve := {|
  ec_scalar := nat; ec_point := Z; ec_coord := Z; ec_gen := 5;
  ec_mul := fun k p => (p ^ Z.of_nat k) mod 23;
  ec_x := fun p => p;
  ec_random := fun g s => let '(b, s') := fill_bytes g s 1 in (Nat.modulo (Z.to_nat (hd 0 b)) 22, s')
|}.
Lemma toy_curve_commutes : ec_commutes toy_curve.
Proof.
  intros a b. cbn [ec_mul ec_gen toy_curve].
  assert (P : forall x n, ((x mod 23) ^ Z.of_nat n) mod 23 = (x ^ Z.of_nat n) mod 23).
  { intros x n. induction n as [|n IH]; [reflexivity|].
    rewrite Nat2Z.inj_succ, !Z.pow_succ_r by lia. rewrite Z.mul_mod, IH, <- Z.mul_mod by lia.
    rewrite Zmult_mod_idemp_l. reflexivity. }
  rewrite !P, <- !Z.pow_mul_r by lia. rewrite Z.mul_comm. reflexivity.
Qed.
Example C40_case :
  let '((dk, ek), s) := ecdh_random_keypair toy_curve counter 3 in
  let '((pk, ss), s') := ecdh_encapsulate toy_curve ek counter 7 in
  (enc_into_inner ek, pk, ss, ecdh_decapsulate toy_curve dk pk, s, s') = (10, 17, 14, 14, 4, 8).
Proof. vm_compute. reflexivity. Qed.
Example C40_x25519_case : x25519_ok toy_x25519 /\ x25519_commutes toy_x25519 /\ rng_ok counter /\
  let '((dk, ek), s) := x25519_random_keypair toy_x25519 counter 3 in
  let '((pk, ss), s') := x25519_encapsulate toy_x25519 ek counter 7 in
  x25519_decapsulate toy_x25519 dk pk = ss /\ hd 0 ss = 127 /\ s' = 8.
Proof.
  split; [exact toy_x25519_ok|]. split; [exact toy_x25519_commutes|]. split; [exact counter_ok|].
  vm_compute. repeat split.
Qed.
Example C42_case : enc_cmp Z.compare (enc_from 3) (enc_from 5) = Lt /\ dec_eqb Z.eqb (dec_from 3) (dec_from 5) = false /\
  enc_zeroize (fun _ => 0) (enc_from 7) = enc_from 0.
Proof. repeat split. Qed.

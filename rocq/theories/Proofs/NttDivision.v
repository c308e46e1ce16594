(** The closed form [NTT] really is reduction modulo X^2 - gamma i, and the moduli are
    the 128 distinct irreducible-over-Z_q factors of X^256 + 1 used by FIPS 203. *)
From Coq Require Import List ZArith Lia Bool Arith.
From Verif.Base Require Import Res Oracles.
From Verif.Spec Require Import FIPS203 Domains.
From Verif.Proofs Require Import Basics Field Poly NttProofs NttAlgebra.
Import ListNotations.
Open Scope Z_scope.

Lemma co_overflow f i : (length f <= i)%nat -> co f i = 0.
Proof. apply nth_overflow. Qed.

(** the quotient of f by X^2 - g *)
Definition quot (f : list Z) (g : Z) (c : nat) : Z :=
  sum 127 (fun j => co f (c + 2 * S j) * g ^ Z.of_nat j).

Lemma sum_S n h : sum (S n) h = sum n h + h n.
Proof. reflexivity. Qed.

Lemma horner n a g :
  sum (S n) (fun j => a j * g ^ Z.of_nat j) = a 0%nat + g * sum n (fun j => a (S j) * g ^ Z.of_nat j).
Proof.
  rewrite sum_head. change (g ^ Z.of_nat 0) with 1. rewrite Z.mul_1_r. f_equal.
  rewrite <- sum_mul_l. apply sum_ext. intros i Hi. rewrite Nat2Z.inj_succ, Z.pow_succ_r by lia. ring.
Qed.

Lemma quot_step f g c : length f = 256%nat -> (2 <= c)%nat ->
  co f c = quot f g (c - 2) - g * quot f g c.
Proof.
  intros L Hc. unfold quot.
  rewrite (sum_ext 127 (fun j => co f (c - 2 + 2 * S j) * g ^ Z.of_nat j)
             (fun j => co f (c + 2 * j) * g ^ Z.of_nat j)).
  2:{ intros i Hi. replace (c - 2 + 2 * S i)%nat with (c + 2 * i)%nat by lia. reflexivity. }
  pose proof (horner 127 (fun j => co f (c + 2 * j)) g) as E. cbv beta in E.
  rewrite (sum_S 127) in E. cbv beta in E.
  rewrite (co_overflow f (c + 2 * 127)) in E by lia. rewrite Nat.add_0_r in E. lia.
Qed.

Lemma quot_last f g c : (c < 2)%nat ->
  co f c = sum 128 (fun j => co f (2 * j + c) * g ^ Z.of_nat j) - g * quot f g c.
Proof.
  intros Hc. unfold quot. pose proof (horner 127 (fun j => co f (2 * j + c)) g) as E. cbv beta in E.
  change (S 127) with 128%nat in E. rewrite E. change (2 * 0 + c)%nat with c.
  rewrite (sum_ext 127 (fun j => co f (c + 2 * S j) * g ^ Z.of_nat j)
             (fun j => co f (2 * S j + c) * g ^ Z.of_nat j)).
  - generalize (sum 127 (fun j => co f (2 * S j + c) * g ^ Z.of_nat j)). intros z. ring.
  - intros i Hi. replace (c + 2 * S i)%nat with (2 * S i + c)%nat by lia. reflexivity.
Qed.

Lemma quot_degree f g c : length f = 256%nat -> (254 <= c)%nat -> quot f g c = 0.
Proof.
  intros L Hc. unfold quot. apply sum_zero'. intros j Hj. rewrite co_overflow by lia. ring.
Qed.

Theorem NTT_is_remainder f i : poly f -> (i < 128)%nat ->
  exists h : nat -> Z, (forall c, (254 <= c)%nat -> h c = 0) /\
  forall c, (c < 256)%nat ->
    co f c = ((if Nat.ltb c 2 then co (NTT f) (2 * i + c) else h (c - 2)%nat) - gamma i * h c) mod q.
Proof.
  intros Hf Hi. exists (quot f (gamma i)). split; [intros c; apply quot_degree, Hf|].
  intros c Hc. pose proof (poly_co f c Hf Hc) as R.
  rewrite <- (fe_mod_id _ R). apply eqq_mod.
  destruct (Nat.ltb_spec c 2) as [H|H].
  - rewrite NTT_at by assumption. rewrite mod_eqq. apply eqq_of_eq. apply quot_last, H.
  - apply eqq_of_eq. apply quot_step; [apply Hf|exact H].
Qed.

Theorem gamma_root i : (i < 128)%nat -> gamma i ^ 128 mod q = (-1) mod q.
Proof. intros Hi. apply eqq_mod, gamma_128, Hi. Qed.

Theorem gamma_distinct i j : (i < 128)%nat -> (j < 128)%nat -> gamma i mod q = gamma j mod q -> i = j.
Proof.
  intros Hi Hj E.
  assert (H : forallb (fun i => forallb (fun j => orb (Nat.eqb i j)
    (negb (co Model.Algebra.GAMMA i =? co Model.Algebra.GAMMA j))) (seq 0 128)) (seq 0 128) = true) by (vm_compute; reflexivity).
  rewrite forallb_forall in H. specialize (H i ltac:(apply in_seq; lia)). rewrite forallb_forall in H.
  specialize (H j ltac:(apply in_seq; lia)). rewrite !GAMMA_gamma in H by assumption. rewrite E, Z.eqb_refl in H.
  cbn [negb] in H. rewrite orb_false_r in H. apply Nat.eqb_eq, H.
Qed.

(** The transform of FIPS 203 is a ring isomorphism: NTT and NTTinv are mutually inverse,
    additive, and turn multiplication modulo X^256 + 1 into MultiplyNTTs. *)
From Coq Require Import List ZArith Lia Bool Arith.
From Verif.Base Require Import Res Oracles.
From Verif.Spec Require Import FIPS203 Domains.
From Verif.Model Require Import Machine Algebra.
From Verif.Proofs Require Import Basics Field Poly NttProofs.
Import ListNotations.
Open Scope Z_scope.

(** ** Additivity *)

Lemma co_padd f g i : (i < 256)%nat -> co (padd f g) i = (co f i + co g i) mod q.
Proof. intros H. unfold padd. apply co_tab, H. Qed.
Lemma co_psub f g i : (i < 256)%nat -> co (psub f g) i = (co f i - co g i) mod q.
Proof. intros H. unfold psub. apply co_tab, H. Qed.

Theorem NTT_padd f g : NTT (padd f g) = padd (NTT f) (NTT g).
Proof.
  apply poly_ext; [apply NTT_poly|apply padd_poly|]. intros t Ht.
  rewrite co_padd by exact Ht. rewrite !NTT_w by exact Ht. apply eqq_mod.
  rewrite !mod_eqq. rewrite <- sum_add. apply sum_eqq. intros c Hc.
  rewrite co_padd by exact Hc. rewrite mod_eqq. apply eqq_of_eq. ring.
Qed.

Theorem NTTinv_padd f g : NTTinv (padd f g) = padd (NTTinv f) (NTTinv g).
Proof.
  apply poly_ext; [apply NTTinv_poly|apply padd_poly|]. intros t Ht.
  rewrite co_padd by exact Ht. rewrite !NTTinv_w by exact Ht. apply eqq_mod.
  rewrite !mod_eqq. rewrite <- Z.mul_add_distr_l. apply mul_eqq; [reflexivity|].
  rewrite <- sum_add. apply sum_eqq. intros c Hc.
  rewrite co_padd by exact Hc. rewrite mod_eqq. apply eqq_of_eq. ring.
Qed.

(** ** Multiplication *)

(** the factor with which f_a g_b enters coefficient c of the product *)
Definition chi (a b c : nat) : Z :=
  if Nat.eqb (a + b) c then 1 else if Nat.eqb (a + b) (c + 256) then -1 else 0.

Lemma co_pmul f g c : (c < 256)%nat ->
  co (pmul f g) c =
  sum 256 (fun a => sum 256 (fun b => co f a * co g b * chi a b c)) mod q.
Proof.
  intros H. unfold pmul. rewrite co_tab by exact H. f_equal.
  apply sum_ext. intros a Ha. apply sum_ext. intros b Hb. unfold chi.
  destruct (Nat.eqb (a + b) c); [ring|]. destruct (Nat.eqb (a + b) (c + 256)); ring.
Qed.

Lemma pmul_poly f g : poly (pmul f g).
Proof. apply poly_tab_mod. Qed.

Lemma w_plus256 c t : (t < 256)%nat -> eqq (w (c + 256) t) (- w c t).
Proof.
  intros Ht. unfold w. change 256%nat with (128 * 2)%nat.
  rewrite Nat.div_add, Nat.mod_add by lia.
  destruct (Nat.eqb (c mod 2) (t mod 2)); [|reflexivity].
  rewrite Nat2Z.inj_add, Z.pow_add_r by lia. change (Z.of_nat 128) with 128.
  rewrite gamma_128 by (apply div2_lt; exact Ht). apply eqq_of_eq. ring.
Qed.

Lemma chi_w a b t : (a < 256)%nat -> (b < 256)%nat -> (t < 256)%nat ->
  eqq (sum 256 (fun c => chi a b c * w c t)) (w (a + b) t).
Proof.
  intros Ha Hb Ht. destruct (Nat.ltb_spec (a + b) 256).
  - rewrite (sum_single 256 (a + b)).
    + unfold chi. rewrite Nat.eqb_refl. apply eqq_of_eq. ring.
    + assumption.
    + intros c Hc N. unfold chi. destruct (Nat.eqb_spec (a + b) c); [congruence|].
      destruct (Nat.eqb_spec (a + b) (c + 256)); [lia|]. ring.
  - rewrite (sum_single 256 (a + b - 256)).
    + unfold chi. destruct (Nat.eqb_spec (a + b) (a + b - 256)); [lia|].
      destruct (Nat.eqb_spec (a + b) (a + b - 256 + 256)); [|lia].
      replace (a + b)%nat with (a + b - 256 + 256)%nat at 2 by lia.
      rewrite w_plus256 by exact Ht. apply eqq_of_eq. ring.
    + lia.
    + intros c Hc N. unfold chi. destruct (Nat.eqb_spec (a + b) c); [lia|].
      destruct (Nat.eqb_spec (a + b) (c + 256)); [lia|]. ring.
Qed.

Lemma NTT_pmul_w f g t : (t < 256)%nat ->
  eqq (co (NTT (pmul f g)) t)
      (sum 256 (fun a => sum 256 (fun b => co f a * co g b * w (a + b) t))).
Proof.
  intros Ht. rewrite NTT_w by exact Ht. rewrite mod_eqq.
  transitivity (sum 256 (fun c => sum 256 (fun a => sum 256 (fun b =>
     co f a * co g b * (chi a b c * w c t))))).
  - apply sum_eqq. intros c Hc. rewrite co_pmul by exact Hc. rewrite mod_eqq.
    apply eqq_of_eq. rewrite <- sum_mul_r. apply sum_ext. intros a Ha.
    rewrite <- sum_mul_r. apply sum_ext. intros b Hb. ring.
  - rewrite sum_swap. apply sum_eqq. intros a Ha.
    rewrite sum_swap. apply sum_eqq. intros b Hb.
    rewrite sum_mul_l. apply mul_eqq; [reflexivity|]. apply chi_w; assumption.
Qed.

Lemma w_even a b i :
  w a (2 * i) * w b (2 * i) + w a (2 * i + 1) * w b (2 * i + 1) * gamma i = w (a + b) (2 * i).
Proof.
  unfold w. rewrite even_mod, odd_mod, even_div, odd_div.
  destruct (even_odd_cases a) as [x [-> | ->]]; destruct (even_odd_cases b) as [y [-> | ->]];
    rewrite ?even_mod, ?odd_mod, ?even_div, ?odd_div; cbn [Nat.eqb].
  - replace (2 * x + 2 * y)%nat with (2 * (x + y))%nat by lia.
    rewrite even_mod, even_div. cbn [Nat.eqb]. rewrite Nat2Z.inj_add, Z.pow_add_r by lia. ring.
  - replace (2 * x + (2 * y + 1))%nat with (2 * (x + y) + 1)%nat by lia.
    rewrite odd_mod. cbn [Nat.eqb]. ring.
  - replace (2 * x + 1 + 2 * y)%nat with (2 * (x + y) + 1)%nat by lia.
    rewrite odd_mod. cbn [Nat.eqb]. ring.
  - replace (2 * x + 1 + (2 * y + 1))%nat with (2 * (x + y + 1))%nat by lia.
    rewrite even_mod, even_div. cbn [Nat.eqb].
    rewrite !Nat2Z.inj_add, !Z.pow_add_r by lia. change (Z.of_nat 1) with 1. ring.
Qed.

Lemma w_odd a b i :
  w a (2 * i) * w b (2 * i + 1) + w a (2 * i + 1) * w b (2 * i) = w (a + b) (2 * i + 1).
Proof.
  unfold w. rewrite even_mod, odd_mod, even_div, odd_div.
  destruct (even_odd_cases a) as [x [-> | ->]]; destruct (even_odd_cases b) as [y [-> | ->]];
    rewrite ?even_mod, ?odd_mod, ?even_div, ?odd_div; cbn [Nat.eqb].
  - replace (2 * x + 2 * y)%nat with (2 * (x + y))%nat by lia.
    rewrite even_mod. cbn [Nat.eqb]. ring.
  - replace (2 * x + (2 * y + 1))%nat with (2 * (x + y) + 1)%nat by lia.
    rewrite odd_mod, odd_div. cbn [Nat.eqb]. rewrite Nat2Z.inj_add, Z.pow_add_r by lia. ring.
  - replace (2 * x + 1 + 2 * y)%nat with (2 * (x + y) + 1)%nat by lia.
    rewrite odd_mod, odd_div. cbn [Nat.eqb]. rewrite Nat2Z.inj_add, Z.pow_add_r by lia. ring.
  - replace (2 * x + 1 + (2 * y + 1))%nat with (2 * (x + y + 1))%nat by lia.
    rewrite even_mod. cbn [Nat.eqb]. ring.
Qed.

Lemma sum_prod n m f g : sum n f * sum m g = sum n (fun a => sum m (fun b => f a * g b)).
Proof.
  rewrite <- sum_mul_r. apply sum_ext. intros a Ha. rewrite <- sum_mul_l. reflexivity.
Qed.

Theorem NTT_pmul f g : NTT (pmul f g) = MultiplyNTTs (NTT f) (NTT g).
Proof.
  apply poly_ext; [apply NTT_poly|apply MultiplyNTTs_poly|]. intros t Ht.
  rewrite <- (fe_mod_id (co (NTT (pmul f g)) t)) by (apply poly_co; [apply NTT_poly|exact Ht]).
  destruct (even_odd_cases t) as [i [-> | ->]].
  - rewrite MultiplyNTTs_even by lia. apply eqq_mod. rewrite NTT_pmul_w by exact Ht.
    rewrite !NTT_w by lia. rewrite !mod_eqq. rewrite !sum_prod, <- sum_mul_r, <- sum_add.
    apply eqq_of_eq. apply sum_ext. intros a Ha. rewrite <- sum_mul_r, <- sum_add.
    apply sum_ext. intros b Hb. rewrite <- w_even. ring.
  - rewrite MultiplyNTTs_odd by lia. apply eqq_mod. rewrite NTT_pmul_w by exact Ht.
    rewrite !NTT_w by lia. rewrite !mod_eqq. rewrite !sum_prod, <- sum_add.
    apply eqq_of_eq. apply sum_ext. intros a Ha. rewrite <- sum_add.
    apply sum_ext. intros b Hb. rewrite <- w_odd. ring.
Qed.

Theorem NTTinv_MultiplyNTTs f g : poly f -> poly g ->
  NTTinv (MultiplyNTTs f g) = pmul (NTTinv f) (NTTinv g).
Proof.
  intros Hf Hg. rewrite <- (NTT_NTTinv f Hf), <- (NTT_NTTinv g Hg) at 1.
  rewrite <- NTT_pmul. apply NTTinv_NTT, pmul_poly.
Qed.

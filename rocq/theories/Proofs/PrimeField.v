(** The field of integers modulo a prime p. *)
From Coq Require Import List ZArith Lia Bool Field Znumtheory Zpow_facts Eqdep_dec.
From Verif.Proofs Require Import Primes.
Import ListNotations.
Open Scope Z_scope.

Section PrimeField.
  Variable P : Z.
  Hypothesis P_prime : prime P.
  Hypothesis P_odd : P <> 2.

  Lemma P_ge : 2 < P.
  Proof. pose proof (prime_ge_2 P P_prime). lia. Qed.
  Lemma P_nz : P <> 0.
  Proof. pose proof P_ge. lia. Qed.

  Definition F : Type := {z : Z | z mod P = z}.
  Definition val (x : F) : Z := proj1_sig x.
  Definition mkF (z : Z) : F := exist _ (z mod P) (Z.mod_mod z P P_nz).

  Lemma F_ext x y : val x = val y -> x = y.
  Proof.
    destruct x as [x Hx], y as [y Hy]. cbn. intros ->. f_equal. apply UIP_dec. exact Z.eq_dec.
  Qed.
  Lemma val_mkF z : val (mkF z) = z mod P.
  Proof. reflexivity. Qed.
  Lemma mkF_val x : mkF (val x) = x.
  Proof. apply F_ext. rewrite val_mkF. apply (proj2_sig x). Qed.
  Lemma mkF_eq a b : a mod P = b mod P -> mkF a = mkF b.
  Proof. intros H. apply F_ext. exact H. Qed.
  Lemma mkF_inj a b : mkF a = mkF b -> a mod P = b mod P.
  Proof. intros H. apply (f_equal val) in H. exact H. Qed.
  Lemma mkF_mod a : mkF (a mod P) = mkF a.
  Proof. apply mkF_eq. apply Z.mod_mod. exact P_nz. Qed.

  Definition F0 : F := mkF 0.
  Definition F1 : F := mkF 1.
  Definition Fadd (x y : F) : F := mkF (val x + val y).
  Definition Fmul (x y : F) : F := mkF (val x * val y).
  Definition Fsub (x y : F) : F := mkF (val x - val y).
  Definition Fopp (x : F) : F := mkF (- val x).
  Definition Finv (x : F) : F := mkF (val x ^ (P - 2)).
  Definition Fdiv (x y : F) : F := Fmul x (Finv y).

  Lemma mkF_add a b : mkF (a + b) = Fadd (mkF a) (mkF b).
  Proof. unfold Fadd. rewrite !val_mkF. apply mkF_eq. apply Zplus_mod. Qed.
  Lemma mkF_mul a b : mkF (a * b) = Fmul (mkF a) (mkF b).
  Proof. unfold Fmul. rewrite !val_mkF. apply mkF_eq. apply Zmult_mod. Qed.
  Lemma mkF_sub a b : mkF (a - b) = Fsub (mkF a) (mkF b).
  Proof. unfold Fsub. rewrite !val_mkF. apply mkF_eq. apply Zminus_mod. Qed.
  Lemma mkF_opp a : mkF (- a) = Fopp (mkF a).
  Proof.
    unfold Fopp. rewrite val_mkF. apply mkF_eq. replace (- a) with (0 - a) by ring. replace (- (a mod P)) with (0 - a mod P) by ring.
    rewrite Zminus_mod_idemp_r. reflexivity.
  Qed.
  Lemma mkF_nz z : z mod P <> 0 -> mkF z <> F0.
  Proof. intros H E. apply mkF_inj in E. apply H. rewrite E. apply Z.mod_0_l, P_nz. Qed.
  Lemma mkF_0 z : mkF z = F0 -> z mod P = 0.
  Proof. intros E. apply mkF_inj in E. rewrite E. apply Z.mod_0_l, P_nz. Qed.

  Lemma F_ring : ring_theory F0 F1 Fadd Fmul Fsub Fopp (@eq F).
  Proof.
    constructor; intros;
      repeat match goal with x : F |- _ => rewrite <- (mkF_val x); generalize (val x); clear x; intros x end;
      unfold F0, F1; rewrite <- ?mkF_opp, <- ?mkF_add, <- ?mkF_mul, <- ?mkF_sub, <- ?mkF_add, <- ?mkF_mul, <- ?mkF_add; f_equal; ring.
  Qed.
  Lemma F_field : field_theory F0 F1 Fadd Fmul Fsub Fopp Fdiv Finv (@eq F).
  Proof.
    pose proof P_ge as HP. constructor.
    - exact F_ring.
    - intros E. apply mkF_inj in E. rewrite !Z.mod_small in E by lia. discriminate.
    - reflexivity.
    - intros x H. rewrite <- (mkF_val x) in *. generalize dependent (val x). clear x. intros x H.
      unfold Finv. rewrite <- mkF_mul. apply mkF_eq. rewrite val_mkF.
      assert (N : x mod P <> 0).
      { intros E. apply H. apply mkF_eq. rewrite E. symmetry. apply Z.mod_0_l, P_nz. }
      pose proof (fermat P (x mod P) P_prime) as W. rewrite Z.mod_mod in W by exact P_nz. specialize (W N).
      replace (P - 1) with (Z.succ (P - 2)) in W by lia. rewrite Z.pow_succ_r in W by lia.
      rewrite <- (Z.mul_mod_idemp_r _ x), (Z.mul_comm _ (x mod P)) by exact P_nz. rewrite W.
      symmetry. apply Z.mod_small. lia.
  Qed.
  Lemma F_dec (x y : F) : {x = y} + {x <> y}.
  Proof.
    destruct (Z.eq_dec (val x) (val y)) as [E|E]; [left; apply F_ext; exact E|right; intros ->; apply E; reflexivity].
  Qed.
  Lemma F_two : Fadd F1 F1 <> F0.
  Proof. pose proof P_ge. unfold F1. rewrite <- mkF_add. apply mkF_nz. rewrite Z.mod_small; lia. Qed.
End PrimeField.

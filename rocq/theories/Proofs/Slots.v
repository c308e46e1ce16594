(** The slots of the NTT as fields: polynomials over Z_q have few roots, so a polynomial of R_q
    that vanishes in some slots is determined by its remaining coefficients; and multiplication
    in one slot by a nonzero element is injective. *)
From Coq Require Import List ZArith Lia Bool Arith Znumtheory.
From Verif.Base Require Import Res Oracles.
From Verif.Spec Require Import FIPS203 Domains.
From Verif.Model Require Import Machine Util Algebra.
From Verif.Proofs Require Import Basics Field Poly NttProofs NttAlgebra NttDivision Primes.
Import ListNotations.
Open Scope Z_scope.

Lemma prime_q : prime q.
Proof. apply (trial_division q 60); [reflexivity|reflexivity|reflexivity|vm_compute; reflexivity]. Qed.

Lemma eqq_0 a : eqq a 0 <-> (q | a).
Proof.
  rewrite eqq_iff. change (0 mod q) with 0. split; [apply Z.mod_divide; discriminate|apply Zdivide_mod].
Qed.
Lemma eqq_sub a b : eqq a b <-> eqq (a - b) 0.
Proof.
  split; intros H; [rewrite H; apply eqq_of_eq; ring|].
  assert (E : eqq a (a - b + b)) by (apply eqq_of_eq; ring). rewrite E, H. apply eqq_of_eq. ring.
Qed.
Lemma eqq_mul_0 a b : eqq (a * b) 0 -> eqq a 0 \/ eqq b 0.
Proof. rewrite !eqq_0. intros H. apply prime_mult; [exact prime_q|exact H]. Qed.
Lemma eqq_pow_0 a n : eqq (a ^ Z.of_nat n) 0 -> eqq a 0.
Proof.
  induction n as [|n IH]; intros H; [apply eqq_mod in H; discriminate H|].
  rewrite Nat2Z.inj_succ, Z.pow_succ_r in H by lia. apply eqq_mul_0 in H. destruct H; auto.
Qed.

(** ** a polynomial of degree below n with n roots is zero *)
Fixpoint eval (c : list Z) (x : Z) : Z := match c with [] => 0 | a :: c => a + x * eval c x end.
(** the quotient by X - x *)
Fixpoint dq (x : Z) (c : list Z) : list Z :=
  match c with
  | [] => []
  | _ :: c' => match c' with [] => [] | _ => eval c' x :: dq x c' end
  end.

Lemma dq_ok x y c : eval c y = eval c x + (y - x) * eval (dq x c) y.
Proof.
  induction c as [|a c IH]; [cbn [eval dq]; ring|]. destruct c as [|b c]; [cbn [eval dq]; ring|].
  change (dq x (a :: b :: c)) with (eval (b :: c) x :: dq x (b :: c)). set (c' := b :: c) in *. clearbody c'.
  cbn [eval]. rewrite IH. ring.
Qed.
Lemma dq_length x c : length (dq x c) = (length c - 1)%nat.
Proof. induction c as [|a c IH]; [reflexivity|]. destruct c as [|b c]; [reflexivity|]. change (dq x (a :: b :: c)) with (eval (b :: c) x :: dq x (b :: c)). cbn [length] in *. rewrite IH. lia. Qed.
Lemma eval_0 c x : Forall (fun a => eqq a 0) c -> eqq (eval c x) 0.
Proof.
  induction c as [|a c IH]; intros H; [reflexivity|]. inversion H; subst. cbn [eval].
  rewrite H2, (IH H3). apply eqq_of_eq. ring.
Qed.
Lemma dq_0 x a c : Forall (fun a => eqq a 0) (dq x (a :: c)) -> Forall (fun a => eqq a 0) c.
Proof.
  revert a. induction c as [|b c IH]; intros a H; [constructor|].
  assert (H' : Forall (fun a => eqq a 0) (eval (b :: c) x :: dq x (b :: c))) by exact H.
  inversion H' as [|? ? H1 H2]; subst. apply (IH b) in H2. constructor; [|exact H2].
  cbn [eval] in H1. rewrite (eval_0 c x H2) in H1. etransitivity; [|exact H1]. apply eqq_of_eq. ring.
Qed.

Definition distinct (xs : list Z) : Prop := ForallOrdPairs (fun x y => ~ eqq x y) xs.
Lemma few_roots xs : distinct xs -> forall c, (length c <= length xs)%nat ->
  Forall (fun x => eqq (eval c x) 0) xs -> Forall (fun a => eqq a 0) c.
Proof.
  induction 1 as [|x xs N D IH]; intros c L R.
  - destruct c; [constructor|cbn in L; lia].
  - destruct c as [|a c]; [constructor|]. inversion R as [|? ? R1 R2]; subst.
    assert (Q : Forall (fun a => eqq a 0) (dq x (a :: c))).
    { apply IH; [rewrite dq_length; cbn [length] in *; lia|]. apply Forall_forall. intros y Hy.
      rewrite Forall_forall in N, R2. specialize (N y Hy). specialize (R2 y Hy). cbv beta in R2.
      rewrite (dq_ok x y (a :: c)), R1 in R2.
      assert (Z0 : eqq ((y - x) * eval (dq x (a :: c)) y) 0) by (etransitivity; [|exact R2]; apply eqq_of_eq; ring).
      apply eqq_mul_0 in Z0. destruct Z0 as [Z0|Z0]; [|exact Z0]. exfalso. apply N. symmetry. apply eqq_sub, Z0. }
    apply (dq_0 x a) in Q. constructor; [|exact Q]. cbn [eval] in R1. rewrite (eval_0 c x Q) in R1. etransitivity; [|exact R1]. apply eqq_of_eq. ring.
Qed.

Lemma eval_app l m x : eval (l ++ m) x = eval l x + x ^ Z.of_nat (length l) * eval m x.
Proof.
  induction l as [|a l IH]; [cbn [app eval length]; rewrite Z.pow_0_r; ring|].
  cbn [app eval length]. rewrite IH, Nat2Z.inj_succ, Z.pow_succ_r by lia. ring.
Qed.
Lemma eval_tab n f x : eval (tab n f) x = sum n (fun i => f i * x ^ Z.of_nat i).
Proof.
  induction n as [|n IH]; [reflexivity|]. unfold tab in *. rewrite seq_S, map_app, eval_app, IH.
  cbn [map eval sum Nat.add]. rewrite map_length, seq_length. ring.
Qed.

(** ** coefficients of a polynomial that vanishes in some slots *)
Lemma gamma_nonzero i : (i < 128)%nat -> ~ eqq (gamma i) 0.
Proof.
  intros Hi H. pose proof (gamma_128 i Hi) as G. change 128 with (Z.of_nat 128) in G.
  rewrite (pow_eqq _ _ 128 H) in G. apply eqq_mod in G. discriminate G.
Qed.

Lemma distinct_gammas T : NoDup T -> (forall t, In t T -> (t < 128)%nat) -> distinct (map gamma T).
Proof.
  induction 1 as [|t T N D IH]; intros H; [constructor|]. cbn [map]. constructor.
  - apply Forall_forall. intros y Hy E. apply in_map_iff in Hy. destruct Hy as (u & <- & Hu). apply N.
    rewrite (gamma_distinct t u (H t (or_introl eq_refl)) (H u (or_intror Hu)) (eqq_mod _ _ E)). exact Hu.
  - apply IH. intros u Hu. apply H. right. exact Hu.
Qed.

Lemma slots_0 T (f : nat -> Z) : NoDup T -> (forall t, In t T -> (t < 128)%nat) ->
  (forall t, In t T -> eqq (sum 128 (fun j => f j * gamma t ^ Z.of_nat j)) 0) ->
  (forall j, (j < 128 - length T)%nat -> eqq (f j) 0) ->
  forall j, (j < 128)%nat -> eqq (f j) 0.
Proof.
  intros ND HT HS HF. set (p := (128 - length T)%nat) in *.
  assert (LT : (length T <= 128)%nat).
  { rewrite <- (seq_length 128 0). apply NoDup_incl_length; [exact ND|]. intros t Ht. apply in_seq. specialize (HT t Ht). lia. }
  assert (E : tab 128 f = tab p f ++ tab (length T) (fun i => f (p + i)%nat)).
  { replace 128%nat with (p + length T)%nat at 1 by lia. apply tab_app. }
  assert (F : Forall (fun a => eqq a 0) (tab (length T) (fun i => f (p + i)%nat))).
  { apply (few_roots (map gamma T)).
    - apply distinct_gammas; assumption.
    - unfold tab. rewrite !map_length, seq_length. apply Nat.le_refl.
    - apply Forall_forall. intros x Hx. apply in_map_iff in Hx. destruct Hx as (t & <- & Ht).
      pose proof (HS t Ht) as S0. rewrite <- eval_tab, E, eval_app in S0.
      assert (Z1 : eqq (eval (tab p f) (gamma t)) 0).
      { apply eval_0. apply Forall_forall. intros a Ha. apply in_map_iff in Ha. destruct Ha as (j & <- & Hj).
        apply in_seq in Hj. apply HF. lia. }
      rewrite Z1, Z.add_0_l in S0. apply eqq_mul_0 in S0. destruct S0 as [S0|S0]; [|exact S0].
      exfalso. apply eqq_pow_0 in S0. exact (gamma_nonzero t (HT t Ht) S0). }
  intros j Hj. destruct (Nat.lt_ge_cases j p) as [C|C]; [apply HF, C|].
  rewrite Forall_forall in F. apply F. apply in_map_iff. exists (j - p)%nat. split; [f_equal; lia|apply in_seq; lia].
Qed.

(** two polynomials that agree in the slots T and in the first 256 - 2 |T| coefficients *)
Lemma slots_determine T f g : NoDup T -> (forall t, In t T -> (t < 128)%nat) ->
  (forall t p, In t T -> (p < 2)%nat -> eqq (co (NTT f) (2 * t + p)) (co (NTT g) (2 * t + p))) ->
  (forall c, (c < 256 - 2 * length T)%nat -> eqq (co f c) (co g c)) ->
  forall c, (c < 256)%nat -> eqq (co f c) (co g c).
Proof.
  intros ND HT HS HC c Hc. destruct (index_split c Hc) as (i & p & Hi & Hp & ->). apply eqq_sub.
  apply (slots_0 T (fun j => co f (2 * j + p) - co g (2 * j + p)) ND HT); [| |exact Hi].
  - intros t Ht. pose proof (HS t p Ht Hp) as E. rewrite !NTT_at, !mod_eqq in E by (try apply HT; assumption).
    apply eqq_sub in E. etransitivity; [|exact E]. apply eqq_of_eq. rewrite <- sum_sub. apply sum_ext. intros. ring.
  - intros j Hj. apply (proj1 (eqq_sub _ _)). apply HC. lia.
Qed.

(** ** one slot is a field *)
Lemma gamma_nonsquare i s : (i < 128)%nat -> ~ eqq (s * s) (gamma i).
Proof.
  intros Hi H.
  assert (N : s mod q <> 0).
  { intros Z0. apply (gamma_nonzero i Hi). rewrite <- H. apply eqq_iff. rewrite Z.mul_mod, Z0 by discriminate. reflexivity. }
  pose proof (fermat q s prime_q N) as F. change (q - 1) with (2 * (128 * 13)) in F.
  rewrite Z.pow_mul_r, Z.pow_2_r, Z.pow_mul_r in F by lia.
  assert (G : eqq ((s * s) ^ 128) (-1)).
  { change 128 with (Z.of_nat 128). rewrite (pow_eqq _ _ 128 H). apply (gamma_128 i Hi). }
  change 13 with (Z.of_nat 13) in F.
  pose proof (eqq_mod _ _ (pow_eqq _ _ 13 G)) as G13. rewrite F in G13. discriminate G13.
Qed.

(** (u0 + u1 X) (v0 + v1 X) = 0 modulo X^2 - gamma *)
Lemma slot_field i u0 u1 v0 v1 : (i < 128)%nat ->
  eqq (u0 * v0 + u1 * v1 * gamma i) 0 -> eqq (u0 * v1 + u1 * v0) 0 ->
  (eqq u0 0 /\ eqq u1 0) \/ (eqq v0 0 /\ eqq v1 0).
Proof.
  intros Hi H0 H1. set (g := gamma i) in *.
  (* u0 (v0^2 - g v1^2) = 0 = u1 (v0^2 - g v1^2) *)
  assert (A0 : eqq (u0 * (v0 * v0 - g * (v1 * v1))) 0).
  { transitivity (v0 * (u0 * v0 + u1 * v1 * g) - g * v1 * (u0 * v1 + u1 * v0)); [apply eqq_of_eq; ring|].
    rewrite H0, H1. apply eqq_of_eq. ring. }
  assert (A1 : eqq (u1 * (v0 * v0 - g * (v1 * v1))) 0).
  { transitivity (v0 * (u0 * v1 + u1 * v0) - v1 * (u0 * v0 + u1 * v1 * g)); [apply eqq_of_eq; ring|].
    rewrite H0, H1. apply eqq_of_eq. ring. }
  apply eqq_mul_0 in A0. apply eqq_mul_0 in A1.
  assert (D : eqq (v0 * v0 - g * (v1 * v1)) 0 -> eqq v0 0 /\ eqq v1 0).
  { intros N. apply (proj2 (eqq_sub _ _)) in N.
    destruct (Z.eq_dec (v1 mod q) 0) as [Z1|Z1].
    - assert (E1 : eqq v1 0) by (apply eqq_iff; exact Z1). split; [|exact E1].
      rewrite E1 in N. assert (N' : eqq (v0 * v0) 0) by (rewrite N; apply eqq_of_eq; ring).
      apply eqq_mul_0 in N'. destruct N'; assumption.
    - exfalso. pose proof (fermat q v1 prime_q Z1) as F.
      assert (F' : eqq (v1 * v1 ^ (q - 2)) 1).
      { rewrite <- Z.pow_succ_r by discriminate. change (Z.succ (q - 2)) with (q - 1). apply eqq_iff. exact F. }
      set (w := v1 ^ (q - 2)) in *. clearbody w.
      apply (gamma_nonsquare i (v0 * w) Hi). fold g.
      transitivity (v0 * v0 * (w * w)); [apply eqq_of_eq; ring|]. rewrite N.
      transitivity (g * ((v1 * w) * (v1 * w))); [apply eqq_of_eq; ring|]. rewrite F'. apply eqq_of_eq. ring. }
  destruct A0 as [A0|A0]; [|right; apply D, A0]. destruct A1 as [A1|A1]; [left; split; assumption|right; apply D, A1].
Qed.

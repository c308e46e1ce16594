(** The affine points of Spec/Curve25519.v, mapped to the Edwards curves on which
    X25519Proofs.v follows the ladder. *)
From Coq Require Import List ZArith Lia Bool Field Znumtheory Zpow_facts.
From Verif.Base Require Import Oracles.
From Verif.Spec Require Import FIPS203 RFC7748 Curve25519.
From Verif.Proofs Require Import Primes Edwards Montgomery X25519Proofs.
Import ListNotations.
Open Scope Z_scope.

Add Field F25519' : F_field.

Lemma mkF_pow2 x : mkF (x ^ 2) = Fmul (mkF x) (mkF x).
Proof. rewrite Z.pow_2_r. apply mkF_mul. Qed.
Lemma mkF_pow3 x : mkF (x ^ 3) = Fmul (Fmul (mkF x) (mkF x)) (mkF x).
Proof. replace (x ^ 3) with (x * x * x) by ring. rewrite !mkF_mul. reflexivity. Qed.
Lemma mkF_inverse x : mkF (inverse x) = Finv (mkF x).
Proof.
  unfold inverse. change p25519 with P. rewrite mkF_mod. unfold Finv. apply mkF_eq. rewrite val_mkF, <- Zpower_mod by reflexivity. reflexivity.
Qed.
Lemma mkF_inj_range a b : 0 <= a < p25519 -> 0 <= b < p25519 -> mkF a = mkF b -> a = b.
Proof. change p25519 with P. intros Ha Hb H. apply mkF_inj in H. rewrite !Z.mod_small in H by assumption. exact H. Qed.
Lemma mkF_2 : mkF 2 = Fadd F1 F1.
Proof. unfold F1. rewrite <- mkF_add. reflexivity. Qed.
Lemma mkF_3 : mkF 3 = Fadd (Fadd F1 F1) F1.
Proof. unfold F1. rewrite <- !mkF_add. reflexivity. Qed.
Ltac toF := repeat first
  [ rewrite mkF_pow2 | rewrite mkF_pow3 | rewrite mkF_inverse | rewrite mkF_add | rewrite mkF_sub | rewrite mkF_mul
  | rewrite mkF_2 | rewrite mkF_3 | change (mkF 1) with F1 | change (mkF 0) with F0 ].

Lemma slope e n d : e <> F0 -> d <> F0 -> Fmul (Fmul e e) (Fdiv n (Fmul e d)) = Fmul e (Fmul n (Finv d)).
Proof. intros He Hd. field. split; assumption. Qed.

(** ** the curve B v^2 = u^3 + A u^2 + u, and the curve with e u for u *)

Section Curve.
  Variable B : Z.
  Variables C' A' e s : F.
  Hypothesis nonsquare' : forall x, Fmul x x <> C'.
  Hypothesis a24_def' : Fmul A' (Fsub F1 C') = C'.
  Hypothesis e_sq : Fmul e e = F1.
  Hypothesis flip_step : forall u kt st,
    lstep F Fadd Fmul Fsub A' (Fmul e u) kt (flip e st) = flip e (lstep F Fadd Fmul Fsub A24 u kt st).
  Hypothesis B_nz : mkF B <> F0.
  Hypothesis s_def : Fmul (Fmul (Fmul e (mkF B)) s) s = Fadd (Fmul e (mkF A)) (Fadd F1 F1).
  Hypothesis c_def : Fmul C' (Fadd (Fmul e (mkF A)) (Fadd F1 F1)) = Fsub (Fmul e (mkF A)) (Fadd F1 F1).

  Let e_nz : e <> F0 := e_nz e e_sq.
  Let eB_nz : Fmul e (mkF B) <> F0 :=
    mul_nz F F0 F1 Fadd Fmul Fsub Fopp Fdiv Finv F_field F_dec _ _ e_nz B_nz.

  Notation mplus' := (mplus F F0 F1 Fadd Fmul Fsub Fdiv F_dec (Fmul e (mkF A)) (Fmul e (mkF B))).
  Notation mon' := (mon F Fadd Fmul (Fmul e (mkF A)) (Fmul e (mkF B))).
  Notation phi' := (phi F F0 F1 Fadd Fmul Fsub Fopp Fdiv F_dec s).
  Notation on' := (on F F0 F1 Fadd Fmul Fsub C').
  Notation plus' := (plus F F1 Fadd Fmul Fsub Fdiv C').

  Definition toM (Q : Curve25519.point) : mpoint F :=
    match Q with Infinity => Inf F | Point u v => Aff F (Fmul e (mkF u)) (mkF v) end.
  Definition in_range (Q : Curve25519.point) : Prop :=
    match Q with Infinity => True | Point u v => 0 <= u < p25519 /\ 0 <= v < p25519 end.

  Lemma ee x : Fmul e (Fmul e x) = x.
  Proof. transitivity (Fmul (Fmul e e) x); [ring|]. rewrite e_sq. ring. Qed.
  Lemma e_inj x y : Fmul e x = Fmul e y -> x = y.
  Proof. intros H. rewrite <- (ee x), H. apply ee. Qed.

  Lemma toM_on Q : on_curve B Q <-> in_range Q /\ mon' (toM Q).
  Proof.
    destruct Q as [|u v]; cbn [on_curve in_range toM mon]; [tauto|].
    assert (E : (B * v ^ 2) mod p25519 = (u ^ 3 + A * u ^ 2 + u) mod p25519 <->
      Fmul (Fmul (Fmul e (mkF B)) (mkF v)) (mkF v) =
      Fadd (Fadd (Fmul (Fmul (Fmul e (mkF u)) (Fmul e (mkF u))) (Fmul e (mkF u)))
                 (Fmul (Fmul (Fmul e (mkF A)) (Fmul e (mkF u))) (Fmul e (mkF u)))) (Fmul e (mkF u))).
    { set (r := Fadd _ _).
      assert (R : r = Fmul e (mkF (u ^ 3 + A * u ^ 2 + u))).
      { unfold r. toF.
        transitivity (Fmul e (Fadd (Fadd (Fmul (Fmul e e) (Fmul (Fmul (mkF u) (mkF u)) (mkF u))) (Fmul (Fmul e e) (Fmul (mkF A) (Fmul (mkF u) (mkF u))))) (mkF u)));
          [ring|]. rewrite e_sq. ring. }
      rewrite R. clear r R.
      assert (L : Fmul (Fmul (Fmul e (mkF B)) (mkF v)) (mkF v) = Fmul e (mkF (B * v ^ 2))) by (toF; ring).
      rewrite L. split.
      - intros H. f_equal. apply mkF_eq. exact H.
      - intros H. apply e_inj in H. apply mkF_inj in H. exact H. }
    rewrite E. tauto.
  Qed.
  Lemma toM_inj Q R : in_range Q -> in_range R -> toM Q = toM R -> Q = R.
  Proof.
    destruct Q as [|u v], R as [|u' v']; cbn [toM in_range]; intros HQ HR E; try discriminate E; [reflexivity|].
    pose proof (f_equal (mu F F0) E) as E1. pose proof (f_equal (fun W => match W with Inf _ => F0 | Aff _ _ y => y end) E) as E2.
    cbn [mu] in E1. cbv beta iota in E2. apply e_inj in E1. f_equal; apply mkF_inj_range; tauto.
  Qed.

  Lemma toM_third l u1 v1 u2 l' : l' = Fmul e (mkF l) ->
    toM (third B l u1 v1 u2) = chord F Fmul Fsub (Fmul e (mkF A)) (Fmul e (mkF B)) l' (Fmul e (mkF u1)) (mkF v1) (Fmul e (mkF u2)).
  Proof.
    intros ->. unfold third, chord. cbv zeta. cbn [toM]. change p25519 with P. rewrite !mkF_mod.
    set (u3 := (_ mod P)).
    assert (E : Fmul e (mkF (B * l ^ 2 - A - u1 - u2)) =
      Fsub (Fsub (Fsub (Fmul (Fmul (Fmul e (mkF B)) (Fmul e (mkF l))) (Fmul e (mkF l))) (Fmul e (mkF A))) (Fmul e (mkF u1))) (Fmul e (mkF u2))).
    { toF. transitivity (Fmul e (Fsub (Fsub (Fsub (Fmul (mkF B) (Fmul (Fmul e e) (Fmul (mkF l) (mkF l)))) (mkF A)) (mkF u1)) (mkF u2))); [|ring].
      rewrite e_sq. ring. }
    rewrite <- E. f_equal.
    assert (E3 : mkF u3 = mkF (B * l ^ 2 - A - u1 - u2)) by (unfold u3; apply mkF_mod).
    rewrite mkF_sub, mkF_mul, mkF_sub, E3.
    transitivity (Fsub (Fmul (Fmul e e) (Fmul (mkF l) (Fsub (mkF u1) (mkF (B * l ^ 2 - A - u1 - u2))))) (mkF v1)); [|ring].
    rewrite e_sq. ring.
  Qed.
  Lemma third_range l u1 v1 u2 : in_range (third B l u1 v1 u2).
  Proof. unfold third, in_range. split; apply Z.mod_pos_bound; reflexivity. Qed.
  Lemma add_range Q R : in_range Q -> in_range R -> in_range (add B Q R).
  Proof.
    intros HQ HR. destruct Q as [|u1 v1]; [exact HR|]. destruct R as [|u2 v2]; [exact HQ|]. cbn [add].
    destruct (u1 =? u2); [destruct (_ =? 0); [exact I|]|]; apply third_range.
  Qed.

  Lemma toM_add Q R : on_curve B Q -> on_curve B R -> toM (add B Q R) = mplus' (toM Q) (toM R).
  Proof.
    intros HQ HR. apply toM_on in HQ. apply toM_on in HR. destruct HQ as [RQ MQ], HR as [RR MR].
    destruct Q as [|u1 v1]; [reflexivity|]. destruct R as [|u2 v2]; [reflexivity|]. cbn [add toM mplus].
    cbn [in_range] in RQ, RR.
    destruct (F_dec (Fmul e (mkF u1)) (Fmul e (mkF u2))) as [E|E].
    - apply e_inj in E. apply mkF_inj_range in E; [|tauto|tauto]. subst u2. rewrite Z.eqb_refl.
      destruct (F_dec (Fadd (mkF v1) (mkF v2)) F0) as [E|E].
      + rewrite <- mkF_add in E. apply mkF_inj in E. change (0 mod P) with 0 in E. change p25519 with P. rewrite E. reflexivity.
      + destruct (Z.eqb_spec ((v1 + v2) mod p25519) 0) as [Z0|_].
        * exfalso. apply E. rewrite <- mkF_add. apply mkF_eq. exact Z0.
        * apply toM_third. toF.
          assert (V : mkF v1 <> F0).
          { intros V. assert (V2 : mkF v2 <> F0) by (intros V2; apply E; rewrite V, V2; ring).
            cbn [toM mon] in MQ, MR. rewrite V in MQ.
            apply (mul_nz F F0 F1 Fadd Fmul Fsub Fopp Fdiv Finv F_field F_dec _ _ (mul_nz F F0 F1 Fadd Fmul Fsub Fopp Fdiv Finv F_field F_dec _ _ eB_nz V2) V2).
            rewrite MR, <- MQ. ring. }
          transitivity (Fdiv (Fadd (Fadd (Fmul (Fmul e e) (Fmul (Fadd (Fadd F1 F1) F1) (Fmul (mkF u1) (mkF u1)))) (Fmul (Fmul e e) (Fmul (Fmul (Fadd F1 F1) (mkF A)) (mkF u1)))) F1)
                             (Fmul e (Fmul (Fmul (Fadd F1 F1) (mkF B)) (mkF v1)))).
          -- f_equal; ring.
          -- rewrite e_sq.
             transitivity (Fmul (Fmul e e) (Fdiv (Fadd (Fadd (Fmul (Fadd (Fadd F1 F1) F1) (Fmul (mkF u1) (mkF u1))) (Fmul (Fmul (Fadd F1 F1) (mkF A)) (mkF u1))) F1)
                             (Fmul e (Fmul (Fmul (Fadd F1 F1) (mkF B)) (mkF v1))))).
             ++ rewrite e_sq. unfold Fdiv. ring.
             ++ apply slope; [exact e_nz|]. apply (mul_nz F F0 F1 Fadd Fmul Fsub Fopp Fdiv Finv F_field F_dec); [|exact V].
                apply (mul_nz F F0 F1 Fadd Fmul Fsub Fopp Fdiv Finv F_field F_dec); [exact F_two|exact B_nz].
    - destruct (Z.eqb_spec u1 u2) as [->|N]; [contradiction (E eq_refl)|].
      apply toM_third. toF.
      assert (D : Fsub (mkF u1) (mkF u2) <> F0).
      { intros D. apply E. f_equal. apply (sub_0 F F0 F1 Fadd Fmul Fsub Fopp Fdiv Finv F_field). exact D. }
      transitivity (Fmul (Fmul e e) (Fdiv (Fsub (mkF v1) (mkF v2)) (Fmul e (Fsub (mkF u1) (mkF u2))))).
      + rewrite e_sq. replace (Fsub (Fmul e (mkF u1)) (Fmul e (mkF u2))) with (Fmul e (Fsub (mkF u1) (mkF u2))) by ring. ring.
      + apply slope; assumption.
  Qed.

  Let hom Q R : mon' Q -> mon' R -> mon' (mplus' Q R) /\ phi' (mplus' Q R) = plus' (phi' Q) (phi' R) :=
    mplus_phi F F0 F1 Fadd Fmul Fsub Fopp Fdiv Finv F_field F_dec F_two C' nonsquare' _ _ s eB_nz s_def c_def Q R.

  Lemma add_on Q R : on_curve B Q -> on_curve B R -> on_curve B (add B Q R).
  Proof.
    intros HQ HR. apply toM_on. rewrite toM_add by assumption. apply toM_on in HQ. apply toM_on in HR.
    split; [apply add_range; tauto|]. apply hom; tauto.
  Qed.
  Lemma multiple_on n Q : on_curve B Q -> on_curve B (multiple B n Q).
  Proof. intros H. induction n; [exact I|]. cbn [multiple]. apply add_on; assumption. Qed.
  Lemma toM_multiple n Q : on_curve B Q ->
    toM (multiple B n Q) = msmul F F0 F1 Fadd Fmul Fsub Fdiv F_dec (Fmul e (mkF A)) (Fmul e (mkF B)) n (toM Q).
  Proof.
    intros H. induction n; [reflexivity|]. cbn [multiple msmul]. rewrite toM_add, IHn by (try apply multiple_on; exact H). reflexivity.
  Qed.

  (** ** X25519 *)

  Lemma u_range Q : in_range Q -> 0 <= u_coordinate Q < p25519.
  Proof. destruct Q; cbn [in_range u_coordinate]; [intros _; split; [discriminate|reflexivity]|tauto]. Qed.
  Lemma u_toM Q : in_range Q -> val (Fmul e (mu F F0 (toM Q))) = u_coordinate Q.
  Proof.
    intros H. pose proof (u_range Q H) as R. transitivity (val (mkF (u_coordinate Q))).
    - f_equal. destruct Q as [|u v]; cbn [toM mu u_coordinate]; [change (mkF 0) with F0; ring|apply ee].
    - rewrite val_mkF. apply Z.mod_small. exact R.
  Qed.

  Let on_phi' Q : mon' Q -> on' (phi' Q) :=
    on_phi F F0 F1 Fadd Fmul Fsub Fopp Fdiv Finv F_field F_dec F_two C' nonsquare' _ _ s eB_nz s_def c_def Q.
  Let u_phi' Q : mon' Q -> u_of F F1 Fadd Fmul Fsub Finv (phi' Q) = mu F F0 Q :=
    u_phi F F0 F1 Fadd Fmul Fsub Fopp Fdiv Finv F_field F_dec F_inv0 F_two C' nonsquare' _ _ s eB_nz s_def c_def Q.
  Let msmul_u' n Q := msmul_u F F0 F1 Fadd Fmul Fsub Fopp Fdiv Finv F_field F_dec F_inv0 F_two C' nonsquare' _ _ s eB_nz s_def c_def n Q.

  Lemma X25519_multiple k ub Q : byte_string 32 k -> on_curve B Q ->
    decodeUCoordinate ub mod p25519 = u_coordinate Q ->
    X25519 k ub = le_encode 32 (u_coordinate (multiple B (Z.to_nat (decodeScalar25519 k)) Q)).
  Proof.
    intros Hk HQ Hu. pose proof HQ as HQ'. apply toM_on in HQ'. destruct HQ' as [RQ MQ].
    rewrite (X25519_Edwards C' A' e nonsquare' a24_def' e_sq flip_step k ub (phi' (toM Q)) Hk).
    - rewrite msmul_u' by exact MQ. rewrite <- toM_multiple by exact HQ. f_equal. apply u_toM.
      apply toM_on. apply multiple_on. exact HQ.
    - apply on_phi'. exact MQ.
    - rewrite u_phi' by exact MQ. transitivity (mkF (u_coordinate Q)).
      + rewrite <- Hu. change p25519 with P. symmetry. apply mkF_mod.
      + destruct Q as [|u v]; cbn [toM mu u_coordinate]; [change (mkF 0) with F0; ring|symmetry; apply ee].
  Qed.

  (** the ladder's quotient, for any scalar *)
  Lemma ladder_multiple n u Q : 0 <= n < 2 ^ 255 -> on_curve B Q -> u = u_coordinate Q ->
    exists x z, (let '(x2, z2, x3, z3, swap) := fold_left (ladder_step red n u) (rev (seq 0 255)) (1, 0, u, 1, false) in
                 if swap : bool then (x3, z3) else (x2, z2)) = (x, z) /\
      (mkF z = F0 -> u_coordinate (multiple B (Z.to_nat n) Q) = 0).
  Proof.
    intros Hn HQ Hu. pose proof HQ as HQ'. apply toM_on in HQ'. destruct HQ' as [RQ MQ].
    destruct (ladder_ratio C' A' e nonsquare' a24_def' e_sq flip_step n u (phi' (toM Q)) Hn) as (x & z & E & G).
    - apply on_phi'. exact MQ.
    - rewrite u_phi' by exact MQ. rewrite Hu.
      destruct Q as [|u0 v0]; cbn [toM mu u_coordinate]; [change (mkF 0) with F0; ring|symmetry; apply ee].
    - exists x, z. split; [exact E|]. intros Z. rewrite msmul_u' in G by exact MQ. rewrite <- toM_multiple in G by exact HQ.
      rewrite Z in G. replace (Fmul e F0) with F0 in G by ring. rewrite F_inv0 in G.
      rewrite <- u_toM by (apply toM_on; apply multiple_on; exact HQ). rewrite <- G.
      replace (Fmul e (Fmul (mkF x) F0)) with F0 by ring. apply val_mkF.
  Qed.

  (** ** the group *)

  Lemma add_comm Q R : on_curve B Q -> on_curve B R -> add B Q R = add B R Q.
  Proof.
    intros HQ HR. pose proof (proj1 (toM_on Q) HQ) as [RQ MQ]. pose proof (proj1 (toM_on R) HR) as [RR MR].
    apply toM_inj; try (apply add_range; assumption). rewrite !toM_add by assumption.
    apply (mplus_comm F F0 F1 Fadd Fmul Fsub Fopp Fdiv Finv F_field F_dec F_inv0 F_two C' nonsquare' _ _ s eB_nz s_def c_def); assumption.
  Qed.
  Lemma add_assoc Q R S : on_curve B Q -> on_curve B R -> on_curve B S -> add B (add B Q R) S = add B Q (add B R S).
  Proof.
    intros HQ HR HS. pose proof (proj1 (toM_on Q) HQ) as [RQ MQ]. pose proof (proj1 (toM_on R) HR) as [RR MR].
    pose proof (proj1 (toM_on S) HS) as [RS MS].
    apply toM_inj; try (repeat apply add_range; assumption). rewrite !toM_add by (try apply add_on; assumption).
    apply (mplus_assoc F F0 F1 Fadd Fmul Fsub Fopp Fdiv Finv F_field F_dec F_inv0 F_two C' nonsquare' _ _ s eB_nz s_def c_def); assumption.
  Qed.
  Lemma multiple_add m n Q : on_curve B Q -> multiple B (m + n) Q = add B (multiple B m Q) (multiple B n Q).
  Proof.
    intros H. induction m; cbn [multiple Nat.add]; [reflexivity|].
    rewrite IHm, add_assoc by (try apply multiple_on; exact H). reflexivity.
  Qed.
  Lemma multiple_mul m n Q : on_curve B Q -> multiple B (m * n) Q = multiple B m (multiple B n Q).
  Proof.
    intros H. induction m; cbn [multiple Nat.mul]; [reflexivity|]. rewrite multiple_add, IHm by exact H. reflexivity.
  Qed.
End Curve.

(** ** the two curves *)

Definition s1 : F := mkF 48802004052532134862652268456126542835229456083994414501085850622543968879637.
Definition s2 : F := mkF 51433253462520500264212897900760618405213415304451317506555883227270826074491.

Lemma C_nz : C <> F0.
Proof. intros E. apply (C_nonsquare F0). rewrite E. ring. Qed.
Lemma CA : Fmul C (Fadd (mkF A) (mkF 2)) = Fsub (mkF A) (mkF 2).
Proof. unfold C. rewrite <- mkF_add, <- mkF_mul, <- mkF_sub. apply mkF_eq. vm_compute. reflexivity. Qed.
Lemma Finv_sq x : x <> F0 -> Fmul (Finv x) (Finv x) = Finv (Fmul x x).
Proof. intros N. field. exact N. Qed.
Lemma Finv_inv x : x <> F0 -> Finv (Finv x) = x.
Proof.
  intros N. assert (E : Fmul x (Finv x) = F1) by (transitivity (Fmul (Fmul F1 x) (Finv x)); [ring|apply Fmul_inv; exact N]).
  assert (N' : Finv x <> F0) by (intros Z; rewrite Z in E; apply (F_1_neq_0 F_field); rewrite <- E; ring).
  transitivity (Fmul (Fmul x (Finv x)) (Finv (Finv x))); [rewrite E; ring|apply Fmul_inv; exact N'].
Qed.
Lemma inv_nonsquare x : Fmul x x <> Finv C.
Proof.
  intros E. assert (N : x <> F0).
  { intros ->. assert (Z : Finv C = F0) by (rewrite <- E; ring). apply (F_1_neq_0 F_field).
    rewrite <- (Fmul_inv F1 C C_nz), Z. ring. }
  apply (C_nonsquare (Finv x)). transitivity (Finv (Fmul x x)); [exact (Finv_sq x N)|].
  rewrite E. exact (Finv_inv C C_nz).
Qed.

Lemma flip_1 u kt st : lstep F Fadd Fmul Fsub A24 (Fmul F1 u) kt (flip F1 st) = flip F1 (lstep F Fadd Fmul Fsub A24 u kt st).
Proof.
  assert (I : forall st, flip F1 st = st).
  { intros [[[[x2 z2] x3] z3] sw]. unfold flip. replace (Fmul F1 z2) with z2 by ring. replace (Fmul F1 z3) with z3 by ring. reflexivity. }
  rewrite !I. f_equal. ring.
Qed.
Lemma five (a b c d a' b' c' d' : F) (k : bool) : a = a' -> b = b' -> c = c' -> d = d' -> (a, b, c, d, k) = (a', b', c', d', k).
Proof. intros -> -> -> ->. reflexivity. Qed.
Definition A24' : F := Fsub (Fopp F1) A24.
Lemma flip_2 u kt st :
  lstep F Fadd Fmul Fsub A24' (Fmul (Fopp F1) u) kt (flip (Fopp F1) st) = flip (Fopp F1) (lstep F Fadd Fmul Fsub A24 u kt st).
Proof.
  destruct st as [[[[x2 z2] x3] z3] sw]. unfold flip, lstep, A24'. generalize A24. intros a.
  destruct (xorb sw kt); cbv beta iota zeta; unfold dbl, dadd; cbn [fst snd]; apply five; ring.
Qed.
Lemma A24'_def c a : c <> F0 -> Fmul a (Fsub F1 c) = c -> Fmul (Fsub (Fopp F1) a) (Fsub F1 (Finv c)) = Finv c.
Proof.
  intros N H. transitivity (Fdiv (Fadd (Fsub F1 c) (Fmul a (Fsub F1 c))) c); [field; exact N|]. rewrite H. field. exact N.
Qed.
Lemma C'_def c a t : c <> F0 -> Fmul c (Fadd a t) = Fsub a t -> Fmul (Finv c) (Fadd (Fmul (Fopp F1) a) t) = Fsub (Fmul (Fopp F1) a) t.
Proof.
  intros N H. transitivity (Fopp (Fdiv (Fsub a t) c)); [field; exact N|]. rewrite <- H. field. exact N.
Qed.

Lemma curve_data B : B = 1 \/ B = 2 -> exists C' A' e s,
  (forall x, Fmul x x <> C') /\ Fmul A' (Fsub F1 C') = C' /\ Fmul e e = F1 /\
  (forall u kt st, lstep F Fadd Fmul Fsub A' (Fmul e u) kt (flip e st) = flip e (lstep F Fadd Fmul Fsub A24 u kt st)) /\
  mkF B <> F0 /\
  Fmul (Fmul (Fmul e (mkF B)) s) s = Fadd (Fmul e (mkF A)) (Fadd F1 F1) /\
  Fmul C' (Fadd (Fmul e (mkF A)) (Fadd F1 F1)) = Fsub (Fmul e (mkF A)) (Fadd F1 F1).
Proof.
  intros [-> | ->].
  - exists C, A24, F1, s1. split; [exact C_nonsquare|]. split; [exact A24_def|]. split; [ring|]. split; [exact flip_1|].
    split; [apply mkF_nz; discriminate|]. rewrite <- mkF_2.
    replace (Fmul F1 (mkF A)) with (mkF A) by ring. replace (Fmul F1 (mkF 1)) with (mkF 1) by ring.
    split; [|exact CA]. unfold s1. rewrite <- !mkF_mul, <- mkF_add. apply mkF_eq. vm_compute. reflexivity.
  - exists (Finv C), A24', (Fopp F1), s2. split; [exact inv_nonsquare|]. split; [exact (A24'_def C A24 C_nz A24_def)|].
    split; [ring|]. split; [exact flip_2|].
    split; [apply mkF_nz; discriminate|]. rewrite <- mkF_2.
    split; [|exact (C'_def C (mkF A) (mkF 2) C_nz CA)].
    unfold s2, F1. rewrite <- mkF_opp, <- !mkF_mul, <- mkF_add. apply mkF_eq. vm_compute. reflexivity.
Qed.

(** ** every u is the u-coordinate of a point of one of them *)

Definition m5 : Z := (P - 5) / 8.

Lemma square_root w : w ^ (4 * m5 + 2) mod P = 1 -> exists v, 0 <= v < P /\ (v ^ 2) mod P = w mod P.
Proof.
  intros H. assert (M : 0 <= m5) by (vm_compute; discriminate).
  set (t := w ^ (2 * m5 + 1)). set (r := w ^ (m5 + 1)).
  assert (T : (t ^ 2) mod P = 1) by (unfold t; rewrite <- Z.pow_mul_r by lia; replace ((2 * m5 + 1) * 2) with (4 * m5 + 2) by ring; exact H).
  assert (R : r ^ 2 = w * t).
  { unfold r, t. rewrite <- Z.pow_mul_r by lia. rewrite <- (Z.pow_1_r w) at 2. rewrite <- Z.pow_add_r by lia. f_equal. }
  clearbody r t.
  assert (D : (P | (t - 1) * (t + 1))).
  { apply Z.mod_divide; [exact P_nz|]. replace ((t - 1) * (t + 1)) with (t ^ 2 - 1) by ring.
    rewrite Zminus_mod, T. reflexivity. }
  assert (G : exists x, (x ^ 2) mod P = w mod P).
  { apply prime_mult in D; [|exact P_prime]. destruct D as [[q D]|[q D]].
    - exists r. rewrite R. replace t with (1 + q * P) by lia. replace (w * (1 + q * P)) with (w + (w * q) * P) by ring.
      apply Z.mod_add. exact P_nz.
    - exists (r * 2 ^ (2 * m5 + 1)). rewrite Z.pow_mul_l, R, <- Z.pow_mul_r by lia.
      replace ((2 * m5 + 1) * 2) with 28948022309329048855892746252171976963317496166410141009864396001978282409974 by (vm_compute; reflexivity).
      rewrite Zmult_mod, two_half, <- Zmult_mod_idemp_l, Z.mod_mod, Zmult_mod_idemp_l by exact P_nz.
      replace t with (- (1) + q * P) by lia.
      replace (w * (- (1) + q * P) * (P - 1)) with (w + (- w + w * q * (P - 1)) * P) by ring.
      apply Z.mod_add. exact P_nz. }
  destruct G as [x G]. exists (x mod P). split; [apply Z.mod_pos_bound; reflexivity|].
  rewrite <- Zpower_mod by reflexivity. exact G.
Qed.

Lemma every_u u : 0 <= u < p25519 -> exists B v, (B = 1 \/ B = 2) /\ on_curve B (Point u v).
Proof.
  intros Hu. set (w := u ^ 3 + A * u ^ 2 + u). change p25519 with P in *.
  destruct (Z.eq_dec (w mod P) 0) as [E|N].
  { exists 1, 0. split; [left; reflexivity|]. cbn [on_curve]. change p25519 with P. split; [exact Hu|].
    split; [split; [discriminate|reflexivity]|]. fold w. rewrite E. reflexivity. }
  pose proof (fermat P w P_prime N) as W.
  replace (P - 1) with ((4 * m5 + 2) * 2) in W by (vm_compute; reflexivity).
  assert (M : 0 <= m5) by (vm_compute; discriminate). rewrite Z.pow_mul_r in W by lia.
  assert (D : (P | (w ^ (4 * m5 + 2) - 1) * (w ^ (4 * m5 + 2) + 1))).
  { apply Z.mod_divide; [exact P_nz|]. set (t := w ^ (4 * m5 + 2)) in *. replace ((t - 1) * (t + 1)) with (t ^ 2 - 1) by ring.
    rewrite Zminus_mod, W. reflexivity. }
  apply prime_mult in D; [|exact P_prime]. destruct D as [[q D]|[q D]].
  - destruct (square_root w) as (v & Rv & Ev).
    { replace (w ^ (4 * m5 + 2)) with (1 + q * P) by lia. rewrite Z.mod_add by exact P_nz. reflexivity. }
    exists 1, v. split; [left; reflexivity|]. cbn [on_curve]. change p25519 with P. split; [exact Hu|]. split; [exact Rv|].
    rewrite Z.mul_1_l. exact Ev.
  - set (h := (P + 1) / 2). destruct (square_root (w * h)) as (v & Rv & Ev).
    { rewrite Z.pow_mul_l. replace (w ^ (4 * m5 + 2)) with (- (1) + q * P) by lia.
      rewrite <- Zmult_mod_idemp_l, Z.mod_add, Zmult_mod_idemp_l by exact P_nz.
      assert (H2 : (2 ^ (4 * m5 + 2) * h ^ (4 * m5 + 2)) mod P = 1).
      { rewrite <- Z.pow_mul_l, Zpower_mod by reflexivity. replace ((2 * h) mod P) with 1 by (vm_compute; reflexivity).
        rewrite Z.pow_1_l by lia. reflexivity. }
      replace (4 * m5 + 2) with 28948022309329048855892746252171976963317496166410141009864396001978282409974 in * by (vm_compute; reflexivity).
      rewrite <- Zmult_mod_idemp_l, two_half in H2.
      generalize dependent (h ^ 28948022309329048855892746252171976963317496166410141009864396001978282409974). intros g H2.
      replace ((P - 1) * g) with (- (1) * g + g * P) in H2 by ring.
      rewrite Z.mod_add in H2 by exact P_nz. exact H2. }
    exists 2, v. split; [right; reflexivity|]. cbn [on_curve]. change p25519 with P. split; [exact Hu|]. split; [exact Rv|].
    fold w. rewrite <- Zmult_mod_idemp_r, Ev, Zmult_mod_idemp_r.
    replace (2 * (w * h)) with (w + w * P); [apply Z.mod_add; exact P_nz|].
    replace (2 * (w * h)) with (w * (2 * h)) by ring. replace (2 * h) with (1 + P) by (vm_compute; reflexivity). ring.
Qed.

Lemma square_quotient x y t : y <> F0 -> Fmul x x = Fmul t (Fmul y y) -> Fmul (Fmul x (Finv y)) (Fmul x (Finv y)) = t.
Proof.
  intros N E. transitivity (Fmul (Fmul x x) (Finv (Fmul y y))); [field; exact N|]. rewrite E. field. exact N.
Qed.

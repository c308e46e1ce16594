(** The points of order dividing 16 on Curve25519 and its twist. *)
From Coq Require Import List ZArith Lia Bool Field Znumtheory Zpow_facts.
From Verif.Base Require Import Oracles.
From Verif.Spec Require Import FIPS203 RFC7748 Curve25519.
From Verif.Proofs Require Import Primes X25519Proofs Curve25519Proofs.
Import ListNotations.
Open Scope Z_scope.

Add Field F25519'' : F_field.
Declare Scope F_scope.
Infix "+" := Fadd : F_scope.
Infix "*" := Fmul : F_scope.
Infix "-" := Fsub : F_scope.
Delimit Scope F_scope with F.

Lemma F_integral x y : (x * y)%F = F0 -> x = F0 \/ y = F0.
Proof.
  intros E. destruct (F_dec y F0) as [Y|Y]; [right; exact Y|left].
  rewrite <- (Fmul_inv x y Y), E. ring.
Qed.
Lemma F_cancel x y z : z <> F0 -> (x * z)%F = (y * z)%F -> x = y.
Proof. intros N E. rewrite <- (Fmul_inv x z N), E. apply Fmul_inv. exact N. Qed.
Lemma F_minus x y : (x - y)%F = F0 -> x = y.
Proof. intros E. transitivity ((x - y) + y)%F; [ring|]. rewrite E. ring. Qed.
Lemma F_square x : (x * x)%F = F0 -> x = F0.
Proof. intros E. destruct (F_integral _ _ E); assumption. Qed.
(** x^2 = y^2 *)
Lemma F_same_square x y : (x * x)%F = (y * y)%F -> x = y \/ x = Fopp y.
Proof.
  intros E. assert (W : ((x - y) * (x + y))%F = F0) by (transitivity (x * x - y * y)%F; [ring|rewrite E; ring]).
  destruct (F_integral _ _ W) as [D|D]; [left; apply F_minus; exact D|right].
  transitivity ((x + y) - y)%F; [ring|]. rewrite D. ring.
Qed.

(** numbers that are twice a square are not squares *)
Lemma nonsquare n t : (mkF t * mkF t)%F = (mkF 2 * mkF n)%F -> mkF n <> F0 -> forall x, (x * x)%F <> mkF n.
Proof.
  intros T N x E. assert (X : x <> F0) by (intros ->; apply N; rewrite <- E; ring).
  apply (two_nonsquare (Fdiv (mkF t) x)).
  transitivity (Fdiv (mkF t * mkF t)%F (x * x)%F); [field; exact X|].
  rewrite T, <- E. field. exact X.
Qed.

Definition fA : F := mkF A.
Notation two := (F1 + F1)%F.
Notation four := (two + two)%F.
Lemma four_nz : four <> F0.
Proof. unfold F1. rewrite <- !mkF_add. apply mkF_nz. discriminate. Qed.
Ltac numeral := unfold fA, A, F1; rewrite <- ?mkF_opp; repeat rewrite <- ?mkF_add, <- ?mkF_mul, <- ?mkF_sub; apply mkF_eq; vm_compute; reflexivity.

(** u^2 + A u + 1 has no root *)
Definition quad (u : F) : F := (u * u + fA * u + F1)%F.
Lemma quad_nz u : quad u <> F0.
Proof.
  intros E.
  apply (nonsquare (A * A - 4) 45629216922889440547185313171005308639961417566985686110801643095085438093874) with (x := (two * u + fA)%F).
  - numeral.
  - apply mkF_nz. vm_compute. discriminate.
  - transitivity (four * quad u + (fA * fA - four))%F; [unfold quad; ring|]. rewrite E.
    transitivity (fA * fA - four)%F; [ring|]. numeral.
Qed.

(** ** doubling *)
Definition den (u : F) : F := (four * (u * quad u))%F.
Lemma den_nz u : u <> F0 -> den u <> F0.
Proof.
  intros N E. destruct (F_integral _ _ E) as [E'|E']; [exact (four_nz E')|].
  destruct (F_integral _ _ E') as [E2|E2]; [exact (N E2)|exact (quad_nz u E2)].
Qed.

Section Curve.
  Variable B : Z.
  Hypothesis HB : B = 1 \/ B = 2.
  Lemma B_nz : mkF B <> F0.
  Proof. destruct HB as [-> | ->]; apply mkF_nz; discriminate. Qed.

  Lemma curve_F u v : on_curve B (Point u v) -> (mkF B * (mkF v * mkF v))%F = (mkF u * quad (mkF u))%F.
  Proof.
    intros (_ & _ & E). apply mkF_eq in E. rewrite mkF_mul, mkF_pow2, !mkF_add, mkF_mul, mkF_pow2, mkF_pow3 in E.
    rewrite E. unfold quad, fA. ring.
  Qed.
  Lemma in_F u v : on_curve B (Point u v) -> mkF u = F0 -> u = 0.
  Proof. intros (R & _) E. apply mkF_inj_range; [exact R|split; [discriminate|reflexivity]|exact E]. Qed.

  Lemma tangent b v n i u w a : (two * b * v * i)%F = F1 -> (b * (v * v))%F = w ->
    ((b * ((n * i) * (n * i)) - a - u - u) * (four * w))%F = (n * n - (a + two * u) * (four * w))%F.
  Proof.
    intros I <-.
    transitivity (n * n * ((two * b * v * i) * (two * b * v * i)) - (a + two * u) * (four * (b * (v * v))))%F; [ring|].
    rewrite I. ring.
  Qed.
  Lemma inverse_tangent b v : b <> F0 -> v <> F0 -> (two * b * v * Finv (two * b * v))%F = F1.
  Proof.
    intros Nb Nv. transitivity (F1 * (two * b * v) * Finv (two * b * v))%F; [ring|]. apply Fmul_inv. intros E.
    destruct (F_integral _ _ E) as [E'|E']; [|exact (Nv E')].
    destruct (F_integral _ _ E') as [E2|E2]; [exact (F_two E2)|exact (Nb E2)].
  Qed.

  Lemma double_cases u v : on_curve B (Point u v) ->
    (u = 0 /\ add B (Point u v) (Point u v) = Infinity) \/
    (u <> 0 /\ exists u' v', add B (Point u v) (Point u v) = Point u' v' /\ 0 <= u' < p25519 /\
      let U := mkF u in (mkF u' * den U)%F = ((U * U - F1) * (U * U - F1))%F).
  Proof.
    intros H. pose proof (curve_F u v H) as E. pose proof H as (Ru & Rv & _).
    cbn [add]. rewrite Z.eqb_refl. destruct (Z.eqb_spec ((v + v) mod p25519) 0) as [V|V].
    - left. split; [|reflexivity]. apply (in_F u v H).
      assert (V0 : mkF v = F0).
      { assert (W : (two * mkF v)%F = F0).
        { transitivity (mkF (v + v)); [rewrite mkF_add; ring|]. apply mkF_eq. exact V. }
        destruct (F_integral _ _ W) as [W'|W']; [contradiction (F_two W')|exact W']. }
      rewrite V0 in E. assert (W : (mkF u * quad (mkF u))%F = F0) by (rewrite <- E; ring).
      destruct (F_integral _ _ W) as [W'|W']; [exact W'|contradiction (quad_nz _ W')].
    - right. assert (Nv : mkF v <> F0).
      { intros V0. apply V. change p25519 with P. apply mkF_inj with (b := 0). rewrite mkF_add, V0. change (mkF 0) with F0. ring. }
      assert (Nu : u <> 0).
      { intros ->. assert (W : (mkF B * (mkF v * mkF v))%F = F0) by (rewrite E; change (mkF 0) with F0; ring).
        destruct (F_integral _ _ W) as [W'|W']; [exact (B_nz W')|]. exact (Nv (F_square _ W')). }
      split; [exact Nu|]. unfold third. eexists. eexists. split; [reflexivity|]. split; [apply Z.mod_pos_bound; reflexivity|].
      cbv zeta. change p25519 with P. rewrite mkF_mod. toF. unfold den. rewrite <- E.
      rewrite (tangent (mkF B) (mkF v) _ _ (mkF u) (mkF B * (mkF v * mkF v))%F _ (inverse_tangent _ _ B_nz Nv) eq_refl).
      rewrite E. unfold quad, fA. ring.
  Qed.

  Definition ord8a : Z := 325606250916557431795983626356110631294008115727848805560023387167927233504.
  Definition ord8b : Z := 39382357235489614581723060781553021112529911719440698176882885853963445705823.
  Definition root : Z := 48802004052532134862652268456126542835229456083994414501085850622543968879637.
  Let a := mkF ord8a.
  Let b := mkF ord8b.
  Let r := mkF root.

  Lemma r_sq : (r * r)%F = (fA + two)%F.
  Proof. unfold r, root. numeral. Qed.
  Lemma ab_sum : (a + b)%F = (two + two * r)%F.
  Proof. unfold a, b, r, ord8a, ord8b, root. numeral. Qed.
  Lemma ab_product : (a * b)%F = F1.
  Proof. unfold a, b, ord8a, ord8b. numeral. Qed.
  Lemma no_root_1 x : (x * x)%F <> (r * r - two * r)%F.
  Proof.
    replace (r * r - two * r)%F with (mkF (root * root - 2 * root)) by (unfold r, root; numeral).
    apply (nonsquare _ 27021177997954536007042456985036724742560110130219228089909549121274765565214); [unfold root; numeral|]. apply mkF_nz. vm_compute. discriminate.
  Qed.
  Lemma no_root_2 x : (x * x)%F <> (two - fA)%F.
  Proof.
    replace (two - fA)%F with (mkF (2 - A)) by numeral.
    apply (nonsquare _ 31006382315501081899463554512741035010749607743680830239850771516455213626632); [numeral|]. apply mkF_nz. vm_compute. discriminate.
  Qed.
  Lemma no_root_a x : (x * x)%F <> quad a.
  Proof.
    replace (quad a) with (mkF (ord8a * ord8a + A * ord8a + 1)) by (unfold quad, a, ord8a; numeral).
    apply (nonsquare _ 57284095862228957540983642203690397536257888835939613779087263737731455093697); [unfold ord8a; numeral|]. apply mkF_nz. vm_compute. discriminate.
  Qed.
  Lemma no_root_b x : (x * x)%F <> quad b.
  Proof.
    replace (quad b) with (mkF (ord8b * ord8b + A * ord8b + 1)) by (unfold quad, b, ord8b; numeral).
    apply (nonsquare _ 50205693621429905667865399883311118400134640011265526050177489947180663671443); [unfold ord8b; numeral|]. apply mkF_nz. vm_compute. discriminate.
  Qed.

  Lemma two_mul_nz x : x <> F0 -> (two * x)%F <> F0.
  Proof. intros N E. destruct (F_integral _ _ E) as [E'|E']; [exact (F_two E')|exact (N E')]. Qed.

  (** which u have 2 (u, v) of u-coordinate x, for x = 1, -1, and the u-coordinates of order 8 *)
  Lemma half_1 U : U <> F0 -> (F1 * den U)%F = ((U * U - F1) * (U * U - F1))%F -> U = a \/ U = b.
  Proof.
    intros N E.
    assert (S : ((U * U + F1 - two * U) * (U * U + F1 - two * U))%F = ((two * (r * U)) * (two * (r * U)))%F).
    { transitivity ((U * U - F1) * (U * U - F1) + four * (U * U) - four * (U * (U * U + F1)) + four * (U * U))%F; [ring|].
      rewrite <- E. transitivity (four * ((fA + two) * (U * U)))%F; [unfold den, quad; ring|]. rewrite <- r_sq. ring. }
    destruct (F_same_square _ _ S) as [D|D].
    - assert (W : ((U - a) * (U - b))%F = F0).
      { transitivity ((U * U + F1 - two * U) - (a + b - two) * U + (a * b - F1))%F; [ring|]. rewrite D, ab_sum, ab_product. ring. }
      destruct (F_integral _ _ W) as [W'|W']; [left|right]; apply F_minus; exact W'.
    - exfalso. apply (no_root_1 (U - (F1 - r))%F).
      transitivity ((U * U + F1 - two * U) + two * (r * U) + (r * r - two * r))%F; [ring|]. rewrite D. ring.
  Qed.
  Lemma half_m1 U : U <> F0 -> (Fopp F1 * den U)%F <> ((U * U - F1) * (U * U - F1))%F.
  Proof.
    intros N E.
    assert (S : ((U * U + F1 + two * U) * (U * U + F1 + two * U))%F = ((two - fA) * ((two * U) * (two * U)))%F).
    { transitivity ((U * U - F1) * (U * U - F1) + four * (U * U) + four * (U * (U * U + F1)) + four * (U * U))%F; [ring|].
      rewrite <- E. unfold den, quad. ring. }
    exact (no_root_2 _ (square_quotient _ _ _ (two_mul_nz U N) S)).
  Qed.
  Lemma half_8 c U : (forall x, (x * x)%F <> quad c) -> U <> F0 -> (c * den U)%F <> ((U * U - F1) * (U * U - F1))%F.
  Proof.
    intros Q N E.
    assert (S : ((U * U + F1 - two * (c * U)) * (U * U + F1 - two * (c * U)))%F = (quad c * ((two * U) * (two * U)))%F).
    { transitivity ((U * U - F1) * (U * U - F1) + four * (U * U) - four * (c * U * (U * U + F1)) + four * (c * U * (c * U)))%F; [ring|].
      rewrite <- E. unfold den, quad. ring. }
    exact (Q _ (square_quotient _ _ _ (two_mul_nz U N) S)).
  Qed.

  Lemma eq_F x y : 0 <= x < p25519 -> 0 <= y < p25519 -> mkF x = mkF y <-> x = y.
  Proof. intros Hx Hy. split; [apply mkF_inj_range; assumption|intros ->; reflexivity]. Qed.
  Lemma r0 : 0 <= 0 < p25519. Proof. split; [discriminate|reflexivity]. Qed.
  Lemma r1 : 0 <= 1 < p25519. Proof. split; [discriminate|reflexivity]. Qed.
  Lemma rm1 : 0 <= p25519 - 1 < p25519. Proof. split; [discriminate|reflexivity]. Qed.
  Lemma ra : 0 <= ord8a < p25519. Proof. split; [discriminate|reflexivity]. Qed.
  Lemma rb : 0 <= ord8b < p25519. Proof. split; [discriminate|reflexivity]. Qed.
  Lemma mkF_m1 : mkF (p25519 - 1) = Fopp F1.
  Proof. transitivity (F0 - F1)%F; [|ring]. unfold F0, F1. rewrite <- mkF_sub. apply mkF_eq. reflexivity. Qed.

  (** u-coordinates of the points of order dividing 2, 4 and 8 *)
  Definition order2 (u : Z) : Prop := u = 0.
  Definition order4 (u : Z) : Prop := u = 0 \/ u = 1 \/ u = p25519 - 1.
  Definition order8 (u : Z) : Prop := order4 u \/ u = ord8a \/ u = ord8b.

  Let dbl Q := add B Q Q.
  Lemma dbl_2 Q : on_curve B Q -> dbl Q = Infinity <-> order2 (u_coordinate Q).
  Proof.
    destruct Q as [|u v]; intros H; [split; reflexivity|]. cbn [u_coordinate]. unfold order2, dbl.
    destruct (double_cases u v H) as [(E & D)|(N & u' & v' & D & _)]; rewrite D; split; intros X; congruence.
  Qed.
  Lemma dbl_4 Q : on_curve B Q -> order2 (u_coordinate (dbl Q)) <-> order4 (u_coordinate Q).
  Proof.
    destruct Q as [|u v]; intros H; [split; intros _; [left|]; reflexivity|]. cbn [u_coordinate]. unfold order2, order4, dbl.
    destruct (double_cases u v H) as [(E & D)|(N & u' & v' & D & R' & X)]; rewrite D; cbn [u_coordinate]; [split; intros _; [left; exact E|reflexivity]|].
    cbv zeta in X. destruct H as (R & _).
    rewrite <- (eq_F u' 0 R' r0), <- (eq_F u 1 R r1), <- (eq_F u _ R rm1), mkF_m1. change (mkF 0) with F0. change (mkF 1) with F1.
    assert (NU : mkF u <> F0) by (intros Z; apply N; exact (mkF_inj_range u 0 R r0 Z)).
    set (U := mkF u) in *. split.
    - intros Z. right. rewrite Z in X.
      assert (S : ((U * U - F1) * (U * U - F1))%F = F0) by (rewrite <- X; ring).
      apply F_square in S. apply F_same_square. transitivity F1; [|ring]. transitivity (U * U - F1 + F1)%F; [ring|]. rewrite S. ring.
    - intros [Z|[Z|Z]]; [contradiction| |]; rewrite Z in X at 2 3 4 5;
        (destruct (F_integral (mkF u') (den U)) as [Y|Y]; [rewrite X; ring|exact Y|destruct (den_nz U NU Y)]).
  Qed.
  Lemma dbl_8 Q : on_curve B Q -> order4 (u_coordinate (dbl Q)) <-> order8 (u_coordinate Q).
  Proof.
    intros H. unfold order8. rewrite <- (dbl_4 Q H). unfold order4 at 1, order2.
    destruct Q as [|u v]; [cbn [u_coordinate dbl add]; tauto|]. cbn [u_coordinate]. unfold dbl.
    destruct (double_cases u v H) as [(E & D)|(N & u' & v' & D & R' & X)]; rewrite D; cbn [u_coordinate]; [tauto|].
    cbv zeta in X. destruct H as (R & _).
    assert (NU : mkF u <> F0) by (intros Z; apply N; exact (mkF_inj_range u 0 R r0 Z)).
    split; (intros [Z|Z]; [left; exact Z|right]).
    - destruct Z as [->| ->].
      + destruct (half_1 (mkF u) NU X) as [Y|Y]; [left|right]; (apply eq_F; [exact R| |exact Y]); [exact ra|exact rb].
      + rewrite mkF_m1 in X. destruct (half_m1 (mkF u) NU X).
    - left. apply eq_F; [exact R'|exact r1|]. apply (F_cancel _ _ (den (mkF u)) (den_nz _ NU)). rewrite X. change (mkF 1) with F1.
      destruct Z as [->| ->]; unfold den, quad, ord8a, ord8b; numeral.
  Qed.
  Lemma dbl_16 Q : on_curve B Q -> order8 (u_coordinate (dbl Q)) <-> order8 (u_coordinate Q).
  Proof.
    intros H. unfold order8 at 1. rewrite (dbl_8 Q H).
    destruct Q as [|u v]; [cbn [u_coordinate dbl add]; unfold order8, order4; tauto|]. cbn [u_coordinate]. unfold dbl.
    destruct (double_cases u v H) as [(E & D)|(N & u' & v' & D & R' & X)]; rewrite D; cbn [u_coordinate].
    { rewrite E. unfold order8, order4. tauto. }
    cbv zeta in X. destruct H as (R & _).
    assert (NU : mkF u <> F0) by (intros Z; apply N; exact (mkF_inj_range u 0 R r0 Z)).
    split; [|tauto]. intros [Z|[Z|Z]]; [exact Z| |]; rewrite Z in X; exfalso.
    - exact (half_8 a (mkF u) no_root_a NU X).
    - exact (half_8 b (mkF u) no_root_b NU X).
  Qed.
End Curve.

(** ** multiples *)
Section Multiples.
  Variable B : Z.
  Hypothesis HB : B = 1 \/ B = 2.
  Lemma m_on n Q : on_curve B Q -> on_curve B (multiple B n Q).
  Proof. intros H. destruct (curve_data B HB) as (C' & A' & e & s & D1 & D2 & D3 & D4 & D5 & D6 & D7). apply (multiple_on B C' e s); assumption. Qed.
  Lemma m_add m n Q : on_curve B Q -> multiple B (m + n) Q = add B (multiple B m Q) (multiple B n Q).
  Proof. intros H. destruct (curve_data B HB) as (C' & A' & e & s & D1 & D2 & D3 & D4 & D5 & D6 & D7). apply (multiple_add B C' e s); assumption. Qed.
  Lemma m_mul m n Q : on_curve B Q -> multiple B (m * n) Q = multiple B m (multiple B n Q).
  Proof. intros H. destruct (curve_data B HB) as (C' & A' & e & s & D1 & D2 & D3 & D4 & D5 & D6 & D7). apply (multiple_mul B C' e s); assumption. Qed.
  Lemma m_infinity n : multiple B n Infinity = Infinity.
  Proof. induction n; [reflexivity|]. cbn [multiple]. rewrite IHn. reflexivity. Qed.
  Lemma m_double n Q : on_curve B Q -> multiple B (2 * n) Q = add B (multiple B n Q) (multiple B n Q).
  Proof. intros H. rewrite <- m_add by exact H. f_equal. lia. Qed.

  Lemma torsion_2 n Q : on_curve B Q -> multiple B (2 * n) Q = Infinity <-> u_coordinate (multiple B n Q) = 0.
  Proof. intros H. rewrite m_double by exact H. apply (dbl_2 B HB). apply m_on, H. Qed.
  Lemma m_1 Q : multiple B 1 Q = Q.
  Proof. destruct Q; reflexivity. Qed.
  Lemma torsion_8 Q : on_curve B Q -> multiple B 8 Q = Infinity <-> order8 (u_coordinate Q).
  Proof.
    intros H. change 8%nat with (2 * (2 * (2 * 1)))%nat. rewrite torsion_2, (m_double (2 * 1)), (m_double 1), m_1 by exact H.
    rewrite <- (dbl_8 B HB Q H). rewrite <- (dbl_4 B HB); [reflexivity|]. rewrite <- (m_1 Q), <- m_double by exact H. apply m_on, H.
  Qed.
  Lemma torsion_16 Q : on_curve B Q -> multiple B 16 Q = Infinity -> order8 (u_coordinate Q).
  Proof.
    intros H E. rewrite <- (dbl_16 B HB Q H).
    assert (H2 : on_curve B (add B Q Q)) by (rewrite <- (m_1 Q), <- m_double by exact H; apply m_on, H).
    apply (torsion_8 _ H2). rewrite <- E. change 16%nat with (8 * 2)%nat. rewrite m_mul by exact H.
    change 2%nat with (2 * 1)%nat. rewrite m_double, m_1 by exact H. reflexivity.
  Qed.
End Multiples.

(** ** scalars are multiples of 8 *)
Lemma land_248 x : Z.land x 248 mod 8 = 0.
Proof.
  change 8 with (2 ^ 3). rewrite <- Z.land_ones by discriminate. rewrite <- Z.land_assoc. change (Z.land 248 (Z.ones 3)) with 0.
  apply Z.land_0_r.
Qed.
Lemma scalar_8 k : byte_string 32 k -> exists m, decodeScalar25519 k = 8 * m /\ 2 ^ 251 <= m < 2 ^ 252.
Proof.
  intros Hk. pose proof (scalar_range k Hk) as R.
  assert (M : decodeScalar25519 k mod 8 = 0).
  { unfold decodeScalar25519, tab. change (seq 0 32) with (0%nat :: seq 1 31). cbn [map le_decode Nat.eqb].
    rewrite Z.add_mod, land_248 by discriminate. set (z := le_decode _). rewrite <- Zmult_mod_idemp_l. reflexivity. }
  assert (L : 2 ^ 254 <= decodeScalar25519 k).
  { destruct Hk as [Hl Hb]. unfold decodeScalar25519.
    assert (B : forall i, (i < 32)%nat -> 0 <= nth i k 0 < 256).
    { intros i Hi. unfold bytes in Hb. rewrite Forall_forall in Hb. apply Hb. apply nth_In. lia. }
    set (f := fun i => _). unfold tab. replace (seq 0 32) with (seq 0 31 ++ [31%nat]) by reflexivity.
    rewrite map_app. cbn [map].
    assert (E : forall a b, le_decode (a ++ [b]) = le_decode a + 256 ^ Z.of_nat (length a) * b).
    { induction a as [|x a IH]; intros b; cbn [le_decode app length]; [rewrite Z.pow_0_r; ring|].
      rewrite IH, Nat2Z.inj_succ, Z.pow_succ_r by lia. ring. }
    rewrite E, map_length, seq_length.
    assert (T : 64 <= f 31%nat).
    { unfold f. cbn [Nat.eqb]. apply Z.ldiff_le; [apply Z.lor_nonneg; split; [apply Z.land_nonneg; right|]; discriminate|].
      apply Z.bits_inj'. intros n Hn. rewrite Z.ldiff_spec, Z.lor_spec, Z.bits_0.
      destruct (Z.testbit 64 n); [rewrite orb_true_r|]; reflexivity. }
    assert (L : 0 <= le_decode (map f (seq 0 31))).
    { pose proof (le_decode_bound (map f (seq 0 31))) as LB. apply LB. clear LB.
      apply Forall_forall. intros y Hy. apply in_map_iff in Hy. destruct Hy as (i & <- & Hi). apply in_seq in Hi.
      unfold f, is_byte. destruct (Nat.eqb i 0); [pose proof (land_byte (nth 0 k 0) 248 (B 0%nat ltac:(lia)) ltac:(lia)); lia|].
      destruct (Nat.eqb i 31) eqn:E31; [apply Nat.eqb_eq in E31; lia|]. apply B. lia. }
    replace (2 ^ 254) with (256 ^ Z.of_nat 31 * 64) by reflexivity.
    generalize dependent (le_decode (map f (seq 0 31))). generalize dependent (f 31%nat).
    assert (0 < 256 ^ Z.of_nat 31) by reflexivity. generalize dependent (256 ^ Z.of_nat 31). intros. nia. }
  exists (decodeScalar25519 k / 8). pose proof (Z.div_mod (decodeScalar25519 k) 8 ltac:(discriminate)) as D.
  rewrite M, Z.add_0_r in D. split; [exact D|]. rewrite D in R, L.
  change (2 ^ 255) with (8 * 2 ^ 252) in R. change (2 ^ 254) with (8 * 2 ^ 251) in L.
  generalize dependent (decodeScalar25519 k / 8). generalize (2 ^ 251) (2 ^ 252). intros. lia.
Qed.

(** The points of a curve of Spec/SEC1.v form a commutative group: transfer from
    Proofs/Weierstrass.v, and the four curves of dhkem. *)
From Coq Require Import List ZArith Lia Bool Field Znumtheory Zpow_facts.
From Verif.Proofs Require Import Primes Weierstrass PrimeField CurvePrimes.
From Verif.Spec Require Import SEC1.
Import ListNotations.
Open Scope Z_scope.

Lemma P_inj (A : Type) (x y x' y' : A) : Weierstrass.P A x y = Weierstrass.P A x' y' -> x = x' /\ y = y'.
Proof. intros E. injection E as -> ->. split; reflexivity. Qed.

Section Curve.
  Variable C : curve.
  Hypothesis C_ok : curve_ok C.

  Let HP : prime (p C) := proj1 C_ok.
  Let H2 : p C <> 2 := proj1 (proj2 C_ok).
  Let HD : (4 * a C ^ 3 + 27 * b C ^ 2) mod p C <> 0 := proj2 (proj2 C_ok).

  Notation F := (F (p C)).
  Notation mk := (mkF (p C) HP H2).
  Notation f0 := (F0 (p C) HP H2).
  Notation f1 := (F1 (p C) HP H2).
  Notation fadd := (Fadd (p C) HP H2).
  Notation fmul := (Fmul (p C) HP H2).
  Notation fsub := (Fsub (p C) HP H2).
  Notation fopp := (Fopp (p C) HP H2).
  Notation fdiv := (Fdiv (p C) HP H2).
  Notation finv := (Finv (p C) HP H2).
  Notation fdec := (F_dec (p C)).
  Let ffield := F_field (p C) HP H2.
  Let ftwo := F_two (p C) HP H2.
  Add Field F_field_C : ffield.
  Notation won := (on F fadd fmul (mk (a C)) (mk (b C))).
  Notation wplus := (plus F f0 f1 fadd fmul fsub fdiv fdec (mk (a C))).
  Notation wneg := (neg F fopp).
  Notation wsmul := (smul F f0 f1 fadd fmul fsub fdiv fdec (mk (a C))).

  Lemma p_nz : p C <> 0.
  Proof. exact (P_nz (p C) HP H2). Qed.
  Lemma p_pos : 2 < p C.
  Proof. exact (P_ge (p C) HP H2). Qed.

  Lemma mk_mul x y : mk (x * y) = fmul (mk x) (mk y). Proof. apply mkF_mul. Qed.
  Lemma mk_add x y : mk (x + y) = fadd (mk x) (mk y). Proof. apply mkF_add. Qed.
  Lemma mk_sub x y : mk (x - y) = fsub (mk x) (mk y). Proof. apply mkF_sub. Qed.
  Lemma mk_opp x : mk (- x) = fopp (mk x). Proof. apply mkF_opp. Qed.
  Lemma mk_modp x : mk (x mod p C) = mk x. Proof. apply mkF_mod. Qed.
  Lemma mk_2 : mk 2 = fadd f1 f1. Proof. apply (mk_add 1 1). Qed.
  Lemma mk_3 : mk 3 = fadd (fadd f1 f1) f1.
  Proof. rewrite <- mk_2. apply (mk_add 2 1). Qed.
  Lemma mk_sq x : mk (x ^ 2) = fmul (mk x) (mk x).
  Proof. rewrite <- mk_mul. f_equal. ring. Qed.
  Lemma mk_inverse x : mk (inverse C x) = finv (mk x).
  Proof.
    unfold inverse, Finv. rewrite mk_modp, val_mkF. apply mkF_eq.
    rewrite <- Zpower_mod by (pose proof p_pos; lia). reflexivity.
  Qed.
  Lemma mk_small x y : 0 <= x < p C -> 0 <= y < p C -> mk x = mk y -> x = y.
  Proof. intros Hx Hy E. apply mkF_inj in E. rewrite !Z.mod_small in E by assumption. exact E. Qed.

  Lemma smooth_C x : fadd (fadd (fmul (fmul x x) x) (fmul (mk (a C)) x)) (mk (b C)) = f0 ->
    fadd (fmul (fadd (fadd f1 f1) f1) (fmul x x)) (mk (a C)) <> f0.
  Proof.
    intros E D. apply HD. apply (mkF_0 (p C) HP H2).
    replace (4 * a C ^ 3 + 27 * b C ^ 2) with (2 * 2 * (a C * a C * a C) + 3 * 3 * 3 * (b C * b C)) by ring.
    rewrite !mk_add, !mk_mul, mk_2, mk_3. set (A := mk (a C)) in *. set (B := mk (b C)) in *.
    assert (EA : A = fopp (fmul (fadd (fadd f1 f1) f1) (fmul x x))).
    { transitivity (fsub (fadd (fmul (fadd (fadd f1 f1) f1) (fmul x x)) A) (fmul (fadd (fadd f1 f1) f1) (fmul x x))); [ring|].
      rewrite D. ring. }
    assert (EB : B = fopp (fadd (fmul (fmul x x) x) (fmul A x))).
    { transitivity (fsub (fadd (fadd (fmul (fmul x x) x) (fmul A x)) B) (fadd (fmul (fmul x x) x) (fmul A x))); [ring|].
      rewrite E. ring. }
    rewrite EB, EA. ring.
  Qed.

  (** ** from integers to field elements *)
  Definition reduced (P : point) : Prop :=
    match P with Infinity => True | Point x y => 0 <= x < p C /\ 0 <= y < p C end.
  Definition up (P : point) : Weierstrass.point F :=
    match P with Infinity => Weierstrass.O F | Point x y => Weierstrass.P F (mk x) (mk y) end.

  Lemma on_reduced P : on_curve C P -> reduced P.
  Proof. destruct P; [trivial|]. intros (H & H' & _). split; assumption. Qed.
  Lemma up_inj P Q : reduced P -> reduced Q -> up P = up Q -> P = Q.
  Proof.
    destruct P as [|x y], Q as [|x' y']; cbn [up reduced]; intros HP' HQ E; try discriminate; [reflexivity|].
    apply P_inj in E. destruct E as [E1 E2]. destruct HP', HQ. f_equal; apply mk_small; assumption.
  Qed.
  Lemma up_on P : reduced P -> won (up P) <-> on_curve C P.
  Proof.
    destruct P as [|x y]; [split; trivial|]. intros [Hx Hy]. cbn [up Weierstrass.on on_curve].
    rewrite <- !mk_mul, <- !mk_add. split.
    - intros E. split; [exact Hx|]. split; [exact Hy|]. apply mkF_inj in E.
      replace (y ^ 2) with (y * y) by ring. replace (x ^ 3) with (x * x * x) by ring. exact E.
    - intros (_ & _ & E). apply mkF_eq.
      replace (y ^ 2) with (y * y) in E by ring. replace (x ^ 3) with (x * x * x) in E by ring. exact E.
  Qed.
  Lemma third_reduced l x1 y1 x2 : reduced (third C l x1 y1 x2).
  Proof. pose proof p_pos. split; apply Z.mod_pos_bound; lia. Qed.
  Lemma up_third l x1 y1 x2 : up (third C l x1 y1 x2) = Weierstrass.third F fmul fsub (mk l) (mk x1) (mk y1) (mk x2).
  Proof.
    unfold third, Weierstrass.third. cbv zeta. cbn [up]. f_equal.
    - rewrite mk_modp, !mk_sub, mk_sq. reflexivity.
    - rewrite mk_modp, mk_sub, mk_mul, mk_sub, mk_modp, !mk_sub, mk_sq. reflexivity.
  Qed.
  Lemma add_reduced P Q : reduced P -> reduced Q -> reduced (add C P Q).
  Proof.
    destruct P as [|x y], Q as [|x' y']; intros HP' HQ; try assumption. cbn [add].
    destruct (x =? x'); [destruct ((y + y') mod p C =? 0)|]; try apply third_reduced. exact I.
  Qed.
  Lemma up_add P Q : reduced P -> reduced Q -> up (add C P Q) = wplus (up P) (up Q).
  Proof.
    destruct P as [|x y], Q as [|x' y']; intros HP' HQ; try reflexivity. destruct HP' as [Hx Hy], HQ as [Hx' Hy'].
    cbn [add up Weierstrass.plus].
    destruct (Z.eqb_spec x x') as [E|E]; destruct (fdec (mk x) (mk x')) as [E'|E'].
    - destruct (Z.eqb_spec ((y + y') mod p C) 0) as [Z|Z]; destruct (fdec (fadd (mk y) (mk y')) f0) as [Z'|Z'].
      + reflexivity.
      + exfalso. apply Z'. rewrite <- mk_add. apply mkF_eq. rewrite Z. symmetry. apply Z.mod_0_l, p_nz.
      + exfalso. apply Z. apply (mkF_0 (p C) HP H2). rewrite mk_add. exact Z'.
      + rewrite up_third. f_equal. unfold Fdiv. rewrite mk_mul, mk_inverse, mk_add, !mk_mul, mk_sq, mk_2, mk_3. reflexivity.
    - exfalso. apply E'. rewrite E. reflexivity.
    - exfalso. apply E. apply mk_small; assumption.
    - rewrite up_third. f_equal. rewrite mk_mul, mk_inverse, !mk_sub.
      field. split; [intros K; apply E' | intros K; apply E'].
      + transitivity (fadd (fsub (mk x) (mk x')) (mk x')); [ring|]. rewrite K. ring.
      + transitivity (fsub (mk x') (fsub (mk x') (mk x))); [ring|]. rewrite K. ring.
  Qed.
  Lemma negate_reduced P : reduced P -> reduced (negate C P).
  Proof.
    destruct P as [|x y]; [trivial|]. intros [H _]. pose proof p_pos.
    split; [exact H|apply Z.mod_pos_bound; lia].
  Qed.
  Lemma up_negate P : up (negate C P) = wneg (up P).
  Proof. destruct P as [|x y]; [reflexivity|]. cbn [negate up Weierstrass.neg]. rewrite mk_modp, mk_opp. reflexivity. Qed.

  (** ** the group *)
  Lemma add_on P Q : on_curve C P -> on_curve C Q -> on_curve C (add C P Q).
  Proof.
    intros H1 H3. pose proof (on_reduced _ H1) as R1. pose proof (on_reduced _ H3) as R3.
    apply up_on; [apply add_reduced; assumption|]. rewrite up_add by assumption.
    apply (plus_on F f0 f1 fadd fmul fsub fopp fdiv finv ffield fdec ftwo); apply up_on; assumption.
  Qed.
  Lemma negate_on P : on_curve C P -> on_curve C (negate C P).
  Proof.
    intros H1. pose proof (on_reduced _ H1) as R1. apply up_on; [apply negate_reduced; exact R1|]. rewrite up_negate.
    apply (neg_on F f0 f1 fadd fmul fsub fopp fdiv finv ffield). apply up_on; assumption.
  Qed.
  Lemma add_assoc P Q R : on_curve C P -> on_curve C Q -> on_curve C R -> add C (add C P Q) R = add C P (add C Q R).
  Proof.
    intros H1 H3 H4. pose proof (on_reduced _ H1) as R1. pose proof (on_reduced _ H3) as R3. pose proof (on_reduced _ H4) as R4.
    apply up_inj; try (repeat apply add_reduced; assumption). rewrite !up_add by (try apply add_reduced; assumption).
    apply (plus_assoc F f0 f1 fadd fmul fsub fopp fdiv finv ffield fdec ftwo _ (mk (b C)) smooth_C); apply up_on; assumption.
  Qed.
  Lemma add_comm P Q : on_curve C P -> on_curve C Q -> add C P Q = add C Q P.
  Proof.
    intros H1 H3. pose proof (on_reduced _ H1) as R1. pose proof (on_reduced _ H3) as R3.
    apply up_inj; try (apply add_reduced; assumption). rewrite !up_add by assumption.
    apply (plus_comm F f0 f1 fadd fmul fsub fopp fdiv finv ffield fdec ftwo _ (mk (b C))); apply up_on; assumption.
  Qed.
  Lemma add_Infinity_r P : add C P Infinity = P.
  Proof. destruct P; reflexivity. Qed.
  Lemma add_negate P : on_curve C P -> add C P (negate C P) = Infinity.
  Proof.
    intros H1. pose proof (on_reduced _ H1) as R1. pose proof (negate_reduced _ R1) as RN.
    apply up_inj; [apply add_reduced; assumption|exact I|]. rewrite up_add, up_negate by assumption.
    apply (plus_neg F f0 f1 fadd fmul fsub fopp fdiv finv ffield).
  Qed.

  Lemma multiple_on n P : on_curve C P -> on_curve C (multiple C n P).
  Proof. intros H. induction n; cbn [multiple]; [exact I|]. apply add_on; assumption. Qed.
  Lemma multiple_add n m P : on_curve C P -> multiple C (n + m) P = add C (multiple C n P) (multiple C m P).
  Proof.
    intros H. induction n as [|n IH]; [reflexivity|]. cbn [multiple Nat.add]. rewrite IH. symmetry.
    apply add_assoc; try apply multiple_on; exact H.
  Qed.
  Lemma multiple_mul n m P : on_curve C P -> multiple C n (multiple C m P) = multiple C (n * m) P.
  Proof.
    intros H. induction n as [|n IH]; [reflexivity|]. cbn [multiple Nat.mul]. rewrite IH. symmetry. apply multiple_add, H.
  Qed.
  Lemma multiple_comm n m P : on_curve C P -> multiple C n (multiple C m P) = multiple C m (multiple C n P).
  Proof. intros H. rewrite !multiple_mul by exact H. f_equal. apply Nat.mul_comm. Qed.

  (** double and add *)
  Fixpoint times (k : positive) (P : point) : point :=
    match k with
    | xH => P
    | xO k => let Q := times k P in add C Q Q
    | xI k => let Q := times k P in add C P (add C Q Q)
    end.
  Lemma times_multiple k P : on_curve C P -> times k P = multiple C (Pos.to_nat k) P.
  Proof.
    intros H. induction k as [k IH|k IH|]; cbn [times].
    - rewrite IH, <- multiple_add by exact H. rewrite Pos2Nat.inj_xI. cbn [multiple].
      f_equal. f_equal. lia.
    - rewrite IH, <- multiple_add by exact H. rewrite Pos2Nat.inj_xO. f_equal. lia.
    - symmetry. apply add_Infinity_r.
  Qed.

  (** equal x-coordinates: equal or opposite points *)
  Lemma same_x x y y' : on_curve C (Point x y) -> on_curve C (Point x y') -> y' = y \/ y' = (- y) mod p C.
  Proof.
    intros (Hx & Hy & E) (_ & Hy' & E'). rewrite <- E in E'. clear E.
    assert (D : (p C | (y' - y) * (y' + y))).
    { apply Z.mod_divide; [exact p_nz|]. replace ((y' - y) * (y' + y)) with (y' ^ 2 - y ^ 2) by ring.
      rewrite Zminus_mod, E', Z.sub_diag. apply Z.mod_0_l, p_nz. }
    apply prime_mult in D; [|exact HP]. destruct D as [[k D]|[k D]].
    - left. assert (k = 0) by (clear -D Hy Hy'; nia). subst k. lia.
    - right. apply (Z.mod_unique_pos _ _ (- k)); [exact Hy'|]. replace y' with (k * p C - y) by (rewrite <- D; ring). ring.
  Qed.
End Curve.

(** ** the four curves *)
Lemma P256_ok : curve_ok P256.
Proof. split; [exact prime_P256|]. split; [discriminate|]. vm_compute. discriminate. Qed.
Lemma P384_ok : curve_ok P384.
Proof. split; [exact prime_P384|]. split; [discriminate|]. vm_compute. discriminate. Qed.
Lemma P521_ok : curve_ok P521.
Proof. split; [exact prime_P521|]. split; [discriminate|]. vm_compute. discriminate. Qed.
Lemma secp256k1_ok : curve_ok secp256k1.
Proof. split; [exact prime_k256|]. split; [discriminate|]. vm_compute. discriminate. Qed.

Definition on_curveb (C : curve) (P : point) : bool :=
  match P with
  | Infinity => true
  | Point x y => (0 <=? x) && (x <? p C) && (0 <=? y) && (y <? p C) &&
      ((y ^ 2) mod p C =? (x ^ 3 + a C * x + b C) mod p C)
  end.
Lemma on_curveb_true C P : on_curveb C P = true -> on_curve C P.
Proof.
  destruct P as [|x y]; [intros _; exact I|]. intros H. cbn [on_curveb] in H.
  repeat (apply andb_true_iff in H; destruct H as [H ?]). cbn [on_curve].
  repeat match goal with K : (_ <=? _) = true |- _ => apply Z.leb_le in K | K : (_ <? _) = true |- _ => apply Z.ltb_lt in K
    | K : (_ =? _) = true |- _ => apply Z.eqb_eq in K end. auto.
Qed.
Lemma P256_G : on_curve P256 (G P256).
Proof. apply on_curveb_true. vm_compute. reflexivity. Qed.
Lemma P384_G : on_curve P384 (G P384).
Proof. apply on_curveb_true. vm_compute. reflexivity. Qed.
Lemma P521_G : on_curve P521 (G P521).
Proof. apply on_curveb_true. vm_compute. reflexivity. Qed.
Lemma secp256k1_G : on_curve secp256k1 (G secp256k1).
Proof. apply on_curveb_true. vm_compute. reflexivity. Qed.

(** ** octet strings *)
Fixpoint value (l : list Z) : Z := match l with [] => 0 | x :: l => x * 256 ^ Z.of_nat (length l) + value l end.
Lemma value_app l x : value (l ++ [x]) = value l * 256 + x.
Proof.
  induction l as [|y l IH]; [cbn; lia|]. cbn [app value]. rewrite IH, app_length. cbn [length].
  replace (Z.of_nat (length l + 1)) with (Z.succ (Z.of_nat (length l))) by lia. rewrite Z.pow_succ_r by lia. ring.
Qed.
Lemma octets_length n x : length (octets n x) = n.
Proof. revert x. induction n; intros x; cbn [octets]; [reflexivity|]. rewrite app_length, IHn. cbn [length]. lia. Qed.
Lemma octets_bytes n x : Forall (fun b => 0 <= b < 256) (octets n x).
Proof.
  revert x. induction n; intros x; cbn [octets]; [constructor|]. apply Forall_app. split; [apply IHn|].
  constructor; [apply Z.mod_pos_bound; reflexivity|constructor].
Qed.
Lemma value_octets n x : 0 <= x < 256 ^ Z.of_nat n -> value (octets n x) = x.
Proof.
  revert x. induction n; intros x H; [cbn in *; lia|]. cbn [octets]. rewrite value_app, IHn.
  - pose proof (Z.div_mod x 256). lia.
  - rewrite Nat2Z.inj_succ, Z.pow_succ_r in H by lia. split; [apply Z.div_pos; lia|]. apply Z.div_lt_upper_bound; lia.
Qed.
Lemma field_length_enough C : 1 < p C -> p C <= 256 ^ Z.of_nat (field_length C).
Proof.
  intros H. unfold field_length. pose proof (Z.log2_up_spec (p C) H) as [_ L].
  pose proof (Z.log2_up_nonneg (p C)). rewrite Z2Nat.id by (apply Z.div_pos; lia).
  change 256 with (2 ^ 8). rewrite <- Z.pow_mul_r by (try apply Z.div_pos; lia).
  etransitivity; [exact L|]. apply Z.pow_le_mono_r; [lia|].
  pose proof (Z.div_mod (Z.log2_up (p C) + 7) 8). pose proof (Z.mod_pos_bound (Z.log2_up (p C) + 7) 8). lia.
Qed.
Lemma field_octets_inj C x y : 1 < p C -> 0 <= x < p C -> 0 <= y < p C -> field_octets C x = field_octets C y -> x = y.
Proof.
  intros H Hx Hy E. pose proof (field_length_enough C H). apply (f_equal value) in E. unfold field_octets in E.
  rewrite !value_octets in E by lia. exact E.
Qed.
Lemma head_eq (l m : list Z) : l = m -> hd 0 l = hd 0 m.
Proof. intros ->. reflexivity. Qed.
Lemma cons_inj (x y : Z) l m : x :: l = y :: m -> x = y /\ l = m.
Proof. intros E. injection E as -> ->. split; reflexivity. Qed.
Lemma app_inj_len (A : Type) (l l' m m' : list A) : length l = length l' -> l ++ m = l' ++ m' -> l = l' /\ m = m'.
Proof.
  revert l'. induction l as [|x l IH]; intros [|x' l'] H E; try discriminate; [split; [reflexivity|exact E]|].
  injection E as -> E. injection H as H. destruct (IH l' H E) as [-> ->]. split; reflexivity.
Qed.
Lemma point_octets_inj C c P Q : curve_ok C -> on_curve C P -> on_curve C Q ->
  point_octets C c P = point_octets C c Q -> P = Q.
Proof.
  intros Hok HP HQ E. pose proof (p_pos C Hok) as Hp.
  destruct P as [|x y], Q as [|x' y']; [reflexivity| | |]; cbn [point_octets] in E.
  - exfalso. apply head_eq in E. destruct c; cbn [hd] in E; [|discriminate E].
    pose proof (Z.mod_pos_bound y' 2 eq_refl). lia.
  - exfalso. apply head_eq in E. destruct c; cbn [hd] in E; [|discriminate E].
    pose proof (Z.mod_pos_bound y 2 eq_refl). lia.
  - destruct (on_reduced _ _ HP) as [Hx Hy]. destruct (on_reduced _ _ HQ) as [Hx' Hy']. destruct c.
    + apply cons_inj in E. destruct E as [E1 E2]. apply field_octets_inj in E2; [|lia|assumption|assumption]. subst x'. f_equal.
      destruct (same_x C Hok x y y' HP HQ) as [K|K]; [congruence|].
      destruct (Z.eq_dec y 0) as [->|N]; [rewrite K, Z.mod_0_l by lia; reflexivity|].
      rewrite <- (Z.mod_unique_pos (- y) (p C) (-1) (p C - y)) in K by lia.
      exfalso. destruct Hok as (Hpr & H2 & _).
      assert (Odd : p C mod 2 = 1).
      { pose proof (Z.mod_pos_bound (p C) 2 eq_refl). destruct (Z.eq_dec (p C mod 2) 0) as [Z|Z]; [|lia].
        apply Z.mod_divide in Z; [|lia]. apply prime_divisors in Z; [|exact Hpr]. lia. }
      subst y'. rewrite Zminus_mod, Odd in E1. pose proof (Z.mod_pos_bound y 2 eq_refl).
      assert (D : y mod 2 = 0 \/ y mod 2 = 1) by lia. destruct D as [D|D]; rewrite D in E1; cbn in E1; lia.
    + apply cons_inj in E. destruct E as [_ E]. apply app_inj_len in E; [|unfold field_octets; rewrite !octets_length; reflexivity].
      destruct E as [E1 E2]. apply field_octets_inj in E1; [|lia|assumption|assumption].
      apply field_octets_inj in E2; [|lia|assumption|assumption]. subst. reflexivity.
Qed.

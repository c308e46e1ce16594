(** Cubic polynomials x^3 - 3 x + b without roots modulo a prime, from one value of a Lucas
    sequence; and x^3 + b, from one power. *)
From Coq Require Import List ZArith Lia Bool Ring Field Znumtheory Zpow_facts.
From Verif.Proofs Require Weierstrass.
From Verif.Proofs Require Import Primes FastMul CurvePrimes PrimeField.
Import ListNotations.
Open Scope Z_scope.

(** ** binomial coefficients *)
Fixpoint binom (n k : nat) : Z :=
  match n, k with
  | _, O => 1
  | O, S _ => 0
  | S n, S k => binom n k + binom n (S k)
  end.
Lemma binom_0 n : binom n 0 = 1. Proof. destruct n; reflexivity. Qed.
Lemma binom_large n : forall k, (n < k)%nat -> binom n k = 0.
Proof.
  induction n as [|n IH]; intros [|k] H; try lia; [reflexivity|]. cbn [binom]. rewrite !IH by lia. reflexivity.
Qed.
Lemma binom_diag n : binom n n = 1.
Proof. induction n as [|n IH]; [reflexivity|]. cbn [binom]. rewrite IH, binom_large by lia. reflexivity. Qed.
Lemma binom_absorb n : forall k, Z.of_nat (S k) * binom (S n) (S k) = Z.of_nat (S n) * binom n k.
Proof.
  induction n as [|n IH]; intros k.
  - destruct k as [|k]; [reflexivity|]. rewrite !binom_large by lia. lia.
  - destruct k as [|k].
    + change (binom (S (S n)) 1) with (binom (S n) 0 + binom (S n) 1). pose proof (IH O) as E. rewrite !binom_0 in *.
      rewrite !Nat2Z.inj_succ in *. lia.
    + change (binom (S (S n)) (S (S k))) with (binom (S n) (S k) + binom (S n) (S (S k))).
      pose proof (IH k) as E1. pose proof (IH (S k)) as E2. change (binom (S n) (S k)) with (binom n k + binom n (S k)) in E1 |- *.
      change (binom (S n) (S (S k))) with (binom n (S k) + binom n (S (S k))) in E2 |- *. rewrite !Nat2Z.inj_succ in *. nia.
Qed.
Lemma binom_prime n k : prime (Z.of_nat n) -> (0 < k < n)%nat -> (Z.of_nat n | binom n k).
Proof.
  intros Hp Hk. destruct n as [|n]; [lia|]. destruct k as [|k]; [lia|].
  assert (D : (Z.of_nat (S n) | Z.of_nat (S k) * binom (S n) (S k))).
  { rewrite binom_absorb. exists (binom n k). ring. }
  apply prime_mult in D; [|exact Hp]. destruct D as [D|D]; [|exact D]. apply Z.divide_pos_le in D; lia.
Qed.

Section Prime.
  Variable P : Z.
  Hypothesis P_prime : prime P.
  Hypothesis P_odd : P <> 2.
  Notation F := (F P).
  Notation mk := (mkF P P_prime P_odd).
  Notation f0 := (F0 P P_prime P_odd).
  Notation f1 := (F1 P P_prime P_odd).
  Notation fadd := (Fadd P P_prime P_odd).
  Notation fmul := (Fmul P P_prime P_odd).
  Notation fsub := (Fsub P P_prime P_odd).
  Notation fopp := (Fopp P P_prime P_odd).
  Let ffield := F_field P P_prime P_odd.
  Add Field F_field_cubic : ffield.
  Notation f2 := (fadd f1 f1).

  (** ** F [w], w^2 = x w - 1 *)
  Section Extension.
    Variable x : F.
    Definition R : Type := (F * F)%type.
    Definition r0 : R := (f0, f0).
    Definition r1 : R := (f1, f0).
    Definition radd (u v : R) : R := (fadd (fst u) (fst v), fadd (snd u) (snd v)).
    Definition rsub (u v : R) : R := (fsub (fst u) (fst v), fsub (snd u) (snd v)).
    Definition ropp (u : R) : R := (fopp (fst u), fopp (snd u)).
    Definition rmul (u v : R) : R :=
      (fsub (fmul (fst u) (fst v)) (fmul (snd u) (snd v)),
       fadd (fadd (fmul (fst u) (snd v)) (fmul (snd u) (fst v))) (fmul x (fmul (snd u) (snd v)))).
    Lemma R_ring : ring_theory r0 r1 radd rmul rsub ropp (@eq R).
    Proof.
      constructor; intros; repeat match goal with u : R |- _ => destruct u end;
        unfold radd, rmul, rsub, ropp, r0, r1; cbn [fst snd]; f_equal; ring.
    Qed.
    Add Ring R_ring_cubic : R_ring.

    Fixpoint pow (u : R) (n : nat) : R := match n with O => r1 | S n => rmul u (pow u n) end.
    Lemma pow_add u n m : pow u (n + m) = rmul (pow u n) (pow u m).
    Proof. induction n as [|n IH]; cbn [Nat.add pow]; [ring|]. rewrite IH. ring. Qed.
    Lemma pow_mul u n m : pow u (n * m) = pow (pow u m) n.
    Proof. induction n as [|n IH]; cbn [Nat.mul pow]; [reflexivity|]. rewrite pow_add, IH. reflexivity. Qed.
    Lemma pow_r1 n : pow r1 n = r1.
    Proof. induction n as [|n IH]; cbn [pow]; [reflexivity|]. rewrite IH. ring. Qed.
    Lemma pow_rmul u v n : pow (rmul u v) n = rmul (pow u n) (pow v n).
    Proof. induction n as [|n IH]; cbn [pow]; [ring|]. rewrite IH. ring. Qed.

    Definition emb (z : Z) : R := (mk z, f0).
    Lemma emb_add a b : emb (a + b) = radd (emb a) (emb b).
    Proof. unfold emb, radd. cbn [fst snd]. rewrite mkF_add. f_equal; ring. Qed.
    Lemma emb_mul a b : emb (a * b) = rmul (emb a) (emb b).
    Proof. unfold emb, rmul. cbn [fst snd]. rewrite mkF_mul. f_equal; ring. Qed.
    Lemma emb_divide z : (P | z) -> emb z = r0.
    Proof.
      intros [k ->]. unfold emb, r0. f_equal. apply mkF_eq. rewrite Z.mod_mul by exact (P_nz P P_prime P_odd).
      symmetry. apply Z.mod_0_l. exact (P_nz P P_prime P_odd).
    Qed.
    Lemma emb_pow z n : pow (emb z) n = emb (z ^ Z.of_nat n).
    Proof.
      induction n as [|n IH]; [reflexivity|]. cbn [pow]. rewrite IH, <- emb_mul. f_equal.
      rewrite Nat2Z.inj_succ, Z.pow_succ_r by lia. reflexivity.
    Qed.

    (** the binomial theorem *)
    Fixpoint sum (f : nat -> R) (n : nat) : R := match n with O => r0 | S n => radd (sum f n) (f n) end.
    Lemma sum_ext f g n : (forall k, (k < n)%nat -> f k = g k) -> sum f n = sum g n.
    Proof. induction n as [|n IH]; intros H; [reflexivity|]. cbn [sum]. rewrite IH, H by (lia || intros; apply H; lia). reflexivity. Qed.
    Lemma sum_add f g n : sum (fun k => radd (f k) (g k)) n = radd (sum f n) (sum g n).
    Proof. induction n as [|n IH]; cbn [sum]; [ring|]. rewrite IH. ring. Qed.
    Lemma sum_scale u f n : sum (fun k => rmul u (f k)) n = rmul u (sum f n).
    Proof. induction n as [|n IH]; cbn [sum]; [ring|]. rewrite IH. ring. Qed.
    Lemma sum_shift f n : sum f (S n) = radd (f O) (sum (fun k => f (S k)) n).
    Proof.
      induction n as [|n IH]; [cbn [sum]; ring|].
      change (sum f (S (S n))) with (radd (sum f (S n)) (f (S n))). rewrite IH. cbn [sum]. ring.
    Qed.
    Lemma sum_zero f n : (forall k, (k < n)%nat -> f k = r0) -> sum f n = r0.
    Proof. induction n as [|n IH]; intros H; [reflexivity|]. cbn [sum]. rewrite IH, H by (lia || intros; apply H; lia). ring. Qed.
    Lemma binomial u v n : pow (radd u v) n = sum (fun k => rmul (emb (binom n k)) (rmul (pow u k) (pow v (n - k)))) (S n).
    Proof.
      induction n as [|n IH].
      - cbn [sum binom pow Nat.sub]. change (emb 1) with r1. ring.
      - cbn [pow]. rewrite IH. rewrite (sum_shift _ (S n)). cbn [binom]. change (emb 1) with r1. cbn [pow Nat.sub].
        rewrite (sum_ext (fun k => rmul (emb (binom n k + binom n (S k))) (rmul (rmul u (pow u k)) (pow v (n - k))))
          (fun k => radd (rmul u (rmul (emb (binom n k)) (rmul (pow u k) (pow v (n - k)))))
                         (rmul (emb (binom n (S k))) (rmul (rmul u (pow u k)) (pow v (n - k)))))) by (intros k _; rewrite emb_add; ring).
        rewrite sum_add, sum_scale.
        set (A := sum _ (S n)) at 1 2. 
        assert (E : rmul v A = radd (rmul v (pow v n)) (sum (fun k => rmul (emb (binom n (S k))) (rmul (rmul u (pow u k)) (pow v (n - k)))) (S n))).
        { unfold A. rewrite sum_shift, binom_0. change (emb 1) with r1. cbn [pow Nat.sub]. rewrite Nat.sub_0_r.
          change (sum (fun k => rmul (emb (binom n (S k))) (rmul (rmul u (pow u k)) (pow v (n - k)))) (S n)) with
            (radd (sum (fun k => rmul (emb (binom n (S k))) (rmul (rmul u (pow u k)) (pow v (n - k)))) n)
              (rmul (emb (binom n (S n))) (rmul (rmul u (pow u n)) (pow v (n - n))))).
          rewrite (binom_large n (S n)) by lia. change (emb 0) with r0.
          rewrite (sum_ext (fun k => rmul (emb (binom n (S k))) (rmul (rmul u (pow u k)) (pow v (n - k))))
            (fun k => rmul v (rmul (emb (binom n (S k))) (rmul (rmul u (pow u k)) (pow v (n - S k))))) n).
          2: { intros k Hk. replace (n - k)%nat with (S (n - S k)) by lia. cbn [pow]. ring. }
          rewrite sum_scale. ring. }
        transitivity (radd (rmul u A) (rmul v A)); [ring|]. rewrite E. ring.
    Qed.
    Lemma frobenius u v : pow (radd u v) (Z.to_nat P) = radd (pow u (Z.to_nat P)) (pow v (Z.to_nat P)).
    Proof.
      pose proof (P_ge P P_prime P_odd) as G. rewrite binomial. remember (Z.to_nat P) as n eqn:En.
      assert (Hp : prime (Z.of_nat n)) by (rewrite En, Z2Nat.id by lia; exact P_prime).
      destruct n as [|n]; [lia|]. rewrite sum_shift. cbn [sum]. rewrite binom_0, binom_diag. change (emb 1) with r1.
      rewrite sum_zero.
      - rewrite Nat.sub_0_r, Nat.sub_diag. cbn [pow]. ring.
      - intros k Hk. rewrite emb_divide; [ring|]. replace P with (Z.of_nat (S n)) by (rewrite En, Z2Nat.id; lia).
        apply binom_prime; [exact Hp|lia].
    Qed.

    (** w and its inverse *)
    Definition w : R := (f0, f1).
    Definition w' : R := (x, fopp f1).
    Definition low (y : F) : R := (y, f0).
    Lemma w_prod : rmul w w' = r1.
    Proof. unfold rmul, w, w', r1. cbn [fst snd]. f_equal; ring. Qed.
    Lemma w_sum : radd w w' = low x.
    Proof. unfold radd, w, w', low. cbn [fst snd]. f_equal; ring. Qed.
    Lemma low_add y z : radd (low y) (low z) = low (fadd y z).
    Proof. unfold radd, low. cbn [fst snd]. f_equal; ring. Qed.
    Lemma low_sub y z : rsub (low y) (low z) = low (fsub y z).
    Proof. unfold rsub, low. cbn [fst snd]. f_equal; ring. Qed.
    Lemma low_mul y z : rmul (low y) (low z) = low (fmul y z).
    Proof. unfold rmul, low. cbn [fst snd]. f_equal; ring. Qed.
    Lemma low_inj y z : low y = low z -> y = z.
    Proof. intros E. exact (f_equal fst E). Qed.
    Lemma low_fermat : pow (low x) (Z.to_nat P) = low x.
    Proof.
      assert (E : low x = emb (val P x)) by (unfold low, emb; rewrite mkF_val; reflexivity).
      rewrite E, emb_pow. unfold emb. f_equal. apply mkF_eq. pose proof (P_ge P P_prime P_odd) as G. rewrite Z2Nat.id by lia.
      destruct (Z.eq_dec (val P x mod P) 0) as [Z0|N].
      - rewrite Zpower_mod, Z0, Z.pow_0_l by lia. apply Z.mod_0_l. lia.
      - assert (EP : forall v, v ^ P = v ^ (P - 1) * v).
        { intros v. rewrite Z.mul_comm, <- Z.pow_succ_r by lia. f_equal. lia. }
        rewrite EP, <- Zmult_mod_idemp_l, (fermat P _ P_prime N), Z.mul_1_l. reflexivity.
    Qed.
  End Extension.

  (** ** the Lucas sequence *)
  Fixpoint lucas (x : F) (n : nat) : F :=
    match n with
    | O => f2
    | S O => x
    | S (S n as m) => fsub (fmul x (lucas x m)) (lucas x n)
    end.
  Lemma lucas_pow x t u u' n : rmul x u u' = r1 -> radd u u' = low t ->
    radd (pow x u n) (pow x u' n) = low (lucas t n).
  Proof.
    intros HP HS. assert (A := R_ring x). 
    assert (W : radd (pow x u n) (pow x u' n) = low (lucas t n) /\ radd (pow x u (S n)) (pow x u' (S n)) = low (lucas t (S n))).
    { induction n as [|n [IH1 IH2]].
      - cbn [pow lucas]. split; [apply low_add|]. rewrite <- HS. unfold radd, rmul, r1. destruct u, u'; cbn [fst snd]; f_equal; ring.
      - split; [exact IH2|].
        change (lucas t (S (S n))) with (fsub (fmul t (lucas t (S n))) (lucas t n)).
        rewrite <- low_sub, <- (low_mul x), <- IH1, <- IH2, <- HS. cbn [pow].
        generalize (pow x u n) (pow x u' n). intros q q'.
        assert (E : rmul x (radd u u') (radd (rmul x u q) (rmul x u' q')) =
          radd (radd (rmul x u (rmul x u q)) (rmul x u' (rmul x u' q'))) (rmul x (rmul x u u') (radd q q'))).
        { unfold rmul, radd. cbn [fst snd]. f_equal; ring. }
        rewrite E, HP. unfold rmul, radd, rsub, r1. cbn [fst snd]. f_equal; ring. }
    exact (proj1 W).
  Qed.
  Lemma lucas_w x n : radd (pow x w n) (pow x (w' x) n) = low (lucas x n).
  Proof. apply lucas_pow; [apply w_prod|apply w_sum]. Qed.
  Lemma pow_inverse x u u' n : rmul x u u' = r1 -> rmul x (pow x u n) (pow x u' n) = r1.
  Proof. intros H. rewrite <- pow_rmul, H. apply pow_r1. Qed.
  Lemma lucas_mul x n m : lucas x (n * m) = lucas (lucas x m) n.
  Proof.
    apply low_inj. rewrite <- lucas_w, !pow_mul. symmetry. rewrite <- (lucas_pow x (lucas x m) (pow x w m) (pow x (w' x) m)).
    - reflexivity.
    - apply pow_inverse, w_prod.
    - apply lucas_w.
  Qed.
  Lemma lucas_frobenius x : lucas x (Z.to_nat P) = x.
  Proof. apply low_inj. rewrite <- lucas_w, <- frobenius, w_sum. apply low_fermat. Qed.

  (** V_(p-1) and V_(p+1) are 2 and x^2 - 2 in some order *)
  Lemma lucas_around x n : n = Z.to_nat (P - 1) \/ n = Z.to_nat (P + 1) ->
    fmul (fsub (lucas x n) f2) (fsub (lucas x n) (fsub (fmul x x) f2)) = f0.
  Proof.
    intros Hn. pose proof (P_ge P P_prime P_odd) as G.
    pose proof (lucas_frobenius x) as FR. remember (Z.to_nat (P - 1)) as m eqn:Em.
    assert (E1 : Z.to_nat P = S m) by lia. assert (E2 : Z.to_nat (P + 1) = S (S m)) by lia. rewrite E1 in FR. rewrite E2 in Hn.
    set (u := pow x w (S m)). set (u' := pow x (w' x) (S m)).
    assert (UU : rmul x u u' = r1) by (apply pow_inverse, w_prod).
    assert (US : radd u u' = low x) by (transitivity (low (lucas x (S m))); [apply lucas_w|rewrite FR; reflexivity]).
    assert (L1 : low (lucas x m) = radd (rmul x u (w' x)) (rmul x u' w)).
    { rewrite <- lucas_w. unfold u, u'. cbn [pow]. pose proof (w_prod x) as W. generalize (pow x w m) (pow x (w' x) m). intros q q'.
      transitivity (rmul x (rmul x w (w' x)) (radd q q')).
      - rewrite W. unfold rmul, radd, r1. cbn [fst snd]. destruct q, q'. cbn [fst snd]. f_equal; ring.
      - unfold rmul, radd. cbn [fst snd]. f_equal; ring. }
    assert (L2 : low (lucas x (S (S m))) = radd (rmul x u w) (rmul x u' (w' x))).
    { rewrite <- lucas_w. unfold u, u'. cbn [pow]. unfold rmul, radd. cbn [fst snd]. f_equal; ring. }
    assert (PR : fmul (lucas x m) (lucas x (S (S m))) = fsub (fadd (fmul x x) (fmul x x)) (fadd f2 f2)).
    { apply low_inj. rewrite <- (low_mul x), L1, L2.
      transitivity (radd (rmul x (rmul x w (w' x)) (rsub (rmul x (radd u u') (radd u u')) (radd (rmul x u u') (rmul x u u'))))
        (rmul x (rmul x u u') (rsub (rmul x (radd w (w' x)) (radd w (w' x))) (radd (rmul x w (w' x)) (rmul x w (w' x)))))).
      - clearbody u u'. generalize w (w' x). intros v v'. unfold rmul, radd, rsub. cbn [fst snd]. f_equal; ring.
      - rewrite UU, US, w_prod, w_sum. unfold rmul, radd, rsub, r1, low. cbn [fst snd]. f_equal; ring. }
    assert (SM : fadd (lucas x m) (lucas x (S (S m))) = fmul x x).
    { change (lucas x (S (S m))) with (fsub (fmul x (lucas x (S m))) (lucas x m)). rewrite FR. ring. }
    assert (SM1 : lucas x (S (S m)) = fsub (fmul x x) (lucas x m)) by (rewrite <- SM; ring).
    assert (SM2 : lucas x m = fsub (fmul x x) (lucas x (S (S m)))) by (rewrite <- SM; ring).
    destruct Hn as [->| ->].
    - rewrite SM1 in PR. transitivity (fsub (fsub (fadd (fmul x x) (fmul x x)) (fadd f2 f2)) (fmul (lucas x m) (fsub (fmul x x) (lucas x m)))); [ring|].
      rewrite PR. ring.
    - rewrite SM2 in PR. set (z := lucas x (S (S m))) in *. clearbody z.
      transitivity (fsub (fsub (fadd (fmul x x) (fmul x x)) (fadd f2 f2)) (fmul (fsub (fmul x x) z) z)); [ring|].
      rewrite PR. ring.
  Qed.

  (** ** no roots of x^3 - 3 x - t *)
  Lemma no_root_lucas x t n : (3 * n)%nat = Z.to_nat (P - 1) \/ (3 * n)%nat = Z.to_nat (P + 1) ->
    lucas x 3 = t -> lucas t n = f2 \/
      fmul t t = fmul (fadd (lucas t n) f2) (fmul (fsub (lucas t n) f1) (fsub (lucas t n) f1)).
  Proof.
    intros Hn Ht. pose proof (lucas_around x (3 * n) Hn) as E. rewrite Nat.mul_comm, lucas_mul, Ht in E.
    apply (Weierstrass.integral F f0 f1 fadd fmul fsub fopp (Fdiv P P_prime P_odd) (Finv P P_prime P_odd) ffield (F_dec P)) in E.
    set (s := lucas t n) in *. clearbody s. destruct E as [E|E].
    - left. transitivity (fadd (fsub s f2) f2); [ring|]. rewrite E. ring.
    - right. assert (X : fmul x x = fadd s f2) by (transitivity (fsub (fadd s f2) (fsub s (fsub (fmul x x) f2))); [ring|rewrite E; ring]).
      assert (T : t = fmul x (fsub s f1)).
      { rewrite <- Ht. cbn [lucas]. transitivity (fmul x (fsub (fmul x x) (fadd f2 f1))); [ring|]. rewrite X. ring. }
      rewrite T. transitivity (fmul (fmul x x) (fmul (fsub s f1) (fsub s f1))); [ring|]. rewrite X. reflexivity.
  Qed.

  (** ** the ladder *)
  Lemma lucas_double x n : lucas x (n + n) = fsub (fmul (lucas x n) (lucas x n)) f2.
  Proof.
    apply (low_inj). rewrite <- low_sub, <- (low_mul x), <- !lucas_w, !pow_add.
    pose proof (pow_inverse x w (w' x) n (w_prod x)) as E. revert E. generalize (pow x w n) (pow x (w' x) n). intros u u' E.
    transitivity (rsub (rmul x (radd u u') (radd u u')) (radd (rmul x u u') (rmul x u u'))).
    - unfold rmul, radd, rsub. cbn [fst snd]. f_equal; ring.
    - rewrite E. unfold rsub, radd, r1, low. cbn [fst snd]. f_equal; ring.
  Qed.
  Lemma lucas_double_1 x n : lucas x (S (n + n)) = fsub (fmul (lucas x n) (lucas x (S n))) x.
  Proof.
    apply (low_inj). rewrite <- low_sub, <- (low_mul x), <- !lucas_w. cbn [pow]. rewrite !pow_add, <- w_sum.
    pose proof (pow_inverse x w (w' x) n (w_prod x)) as E. revert E. generalize (pow x w n) (pow x (w' x) n). intros u u' E.
    transitivity (rsub (rmul x (radd u u') (radd (rmul x w u) (rmul x (w' x) u'))) (rmul x (rmul x u u') (radd w (w' x)))).
    - unfold rmul, radd, rsub. cbn [fst snd]. f_equal; ring.
    - rewrite E. unfold rmul, rsub, radd, r1. cbn [fst snd]. f_equal; ring.
  Qed.
End Prime.

Fixpoint ladder (red : Z -> Z) (t : Z) (k : positive) : Z * Z :=
  match k with
  | xH => (t, red (zmul t t - 2))
  | xO k => let '(u, v) := ladder red t k in (red (zmul u u - 2), red (zmul u v - t))
  | xI k => let '(u, v) := ladder red t k in (red (zmul u v - t), red (zmul v v - 2))
  end.
Lemma ladder_lucas P (HP : prime P) (H2 : P <> 2) red t k : (forall x, red x mod P = x mod P) ->
  mkF P HP H2 (fst (ladder red t k)) = lucas P HP H2 (mkF P HP H2 t) (Pos.to_nat k) /\
  mkF P HP H2 (snd (ladder red t k)) = lucas P HP H2 (mkF P HP H2 t) (S (Pos.to_nat k)).
Proof.
  intros Hr. assert (R : forall z, mkF P HP H2 (red z) = mkF P HP H2 z) by (intros z; apply mkF_eq, Hr).
  assert (T2 : mkF P HP H2 2 = Fadd P HP H2 (F1 P HP H2) (F1 P HP H2)) by apply (mkF_add P HP H2 1 1).
  assert (DD : forall u, mkF P HP H2 (red (zmul u u - 2)) =
    Fsub P HP H2 (Fmul P HP H2 (mkF P HP H2 u) (mkF P HP H2 u)) (Fadd P HP H2 (F1 P HP H2) (F1 P HP H2))).
  { intros u. rewrite R, zmul_mul, mkF_sub, mkF_mul, T2. reflexivity. }
  induction k as [k [IH1 IH2]|k [IH1 IH2]|]; cbn [ladder].
  - destruct (ladder red t k) as [u v]. cbn [fst snd] in *. rewrite DD, R, zmul_mul, mkF_sub, mkF_mul, IH1, IH2.
    rewrite Pos2Nat.inj_xI. replace (2 * Pos.to_nat k)%nat with (Pos.to_nat k + Pos.to_nat k)%nat by lia.
    split; [symmetry; apply lucas_double_1|]. replace (S (S (Pos.to_nat k + Pos.to_nat k))) with (S (Pos.to_nat k) + S (Pos.to_nat k))%nat by lia.
    symmetry. apply lucas_double.
  - destruct (ladder red t k) as [u v]. cbn [fst snd] in *. rewrite DD, R, zmul_mul, mkF_sub, mkF_mul, IH1, IH2.
    rewrite Pos2Nat.inj_xO. replace (2 * Pos.to_nat k)%nat with (Pos.to_nat k + Pos.to_nat k)%nat by lia.
    split; [symmetry; apply lucas_double|symmetry; apply lucas_double_1].
  - cbn [fst snd]. split; [reflexivity|]. rewrite DD. reflexivity.
Qed.

Definition no_root_check (P : Z) (red : Z -> Z) (t : Z) (k : positive) : bool :=
  ((3 * Zpos k =? P - 1) || (3 * Zpos k =? P + 1)) &&
  let s := fst (ladder red t k) in
  negb ((s - 2) mod P =? 0) && negb ((t * t - (s + 2) * ((s - 1) * (s - 1))) mod P =? 0).
Theorem no_root_cubic P red t k : prime P -> P <> 2 -> (forall x, red x mod P = x mod P) ->
  no_root_check P red t k = true -> forall x, (x ^ 3 - 3 * x - t) mod P <> 0.
Proof.
  intros HP H2 Hr HC x E. unfold no_root_check in HC. cbv zeta in HC.
  apply andb_true_iff in HC. destruct HC as [HK HC]. apply andb_true_iff in HC. destruct HC as [C1 C2].
  apply negb_true_iff in C1. apply negb_true_iff in C2. apply Z.eqb_neq in C1. apply Z.eqb_neq in C2.
  destruct (ladder_lucas P HP H2 red t k Hr) as [L _]. set (s := fst (ladder red t k)) in *. clearbody s.
  assert (T : lucas P HP H2 (mkF P HP H2 x) 3 = mkF P HP H2 t).
  { replace (mkF P HP H2 t) with (mkF P HP H2 (x ^ 3 - 3 * x)).
    - replace (x ^ 3 - 3 * x) with (x * (x * x - 2) - x) by ring. rewrite !mkF_sub, mkF_mul, mkF_sub, mkF_mul.
      change 2 with (1 + 1). rewrite mkF_add. reflexivity.
    - apply mkF_eq. replace (x ^ 3 - 3 * x) with ((x ^ 3 - 3 * x - t) + t) by ring. rewrite <- Zplus_mod_idemp_l, E. reflexivity. }
  assert (K : (3 * Pos.to_nat k)%nat = Z.to_nat (P - 1) \/ (3 * Pos.to_nat k)%nat = Z.to_nat (P + 1)).
  { apply orb_true_iff in HK. destruct HK as [HK|HK]; apply Z.eqb_eq in HK; [left|right]; rewrite <- HK; lia. }
  destruct (no_root_lucas P HP H2 _ _ _ K T) as [D|D]; rewrite <- L in D.
  - apply C1. apply (mkF_0 P HP H2). rewrite mkF_sub, D. change 2 with (1 + 1). unfold F1.
    rewrite <- !mkF_add, <- mkF_sub. reflexivity.
  - apply C2. apply (mkF_0 P HP H2). change 2 with (1 + 1). rewrite mkF_sub, !mkF_mul, !mkF_add, !mkF_sub, D.
    change (mkF P HP H2 1) with (F1 P HP H2). 
    match goal with |- Fsub _ _ _ ?u ?u = _ => generalize u end. intros u. rewrite <- (mkF_val P HP H2 u), <- mkF_sub, Z.sub_diag. reflexivity.
Qed.

(** ** no roots of x^3 + c *)
Definition no_cube_check (P : Z) (red : Z -> Z) (c : Z) (k : positive) : bool :=
  (3 * Zpos k =? P - 1) && negb (pow_red red (- c) k mod P =? 1) && negb (c mod P =? 0).
Theorem no_root_pure P red c k : prime P -> P <> 2 -> (forall x, red x mod P = x mod P) ->
  no_cube_check P red c k = true -> forall x, (x ^ 3 + c) mod P <> 0.
Proof.
  intros HP H2 Hr HC x E. unfold no_cube_check in HC.
  apply andb_true_iff in HC. destruct HC as [HC C2]. apply andb_true_iff in HC. destruct HC as [HK C1].
  apply negb_true_iff in C1. apply negb_true_iff in C2. apply Z.eqb_neq in C1. apply Z.eqb_neq in C2. apply Z.eqb_eq in HK.
  pose proof (P_ge P HP H2) as G.
  assert (X : x ^ 3 mod P = (- c) mod P).
  { replace (x ^ 3) with ((x ^ 3 + c) + - c) by ring. rewrite <- Zplus_mod_idemp_l, E. reflexivity. }
  apply C1. rewrite (pow_red_correct P) by (lia || exact Hr). rewrite Zpower_mod, <- X, <- Zpower_mod by lia.
  rewrite <- Z.pow_mul_r by lia. rewrite HK. apply (fermat P x HP). intros Z0. apply C2.
  rewrite Zpower_mod, Z0, Z.pow_0_l, Z.mod_0_l in X by lia.
  replace c with (0 - - c) by ring. rewrite Zminus_mod, <- X. apply Z.mod_0_l. lia.
Qed.

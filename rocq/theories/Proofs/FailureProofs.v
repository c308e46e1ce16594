(** A bound on the number of secrets for which decryption fails: the noise is a linear
    form in the bits that determine the secret vectors; a weight exponential in its value
    factors over the coefficients. *)
From Coq Require Import List ZArith Lia Bool Arith Permutation.
From Verif.Base Require Import Res Oracles.
From Verif.Spec Require Import FIPS203 Domains Noise Counting Random.
From Verif.Model Require Import Machine Util Algebra Encode Crypto Sample.
From Verif.Proofs Require Import Basics Field Poly CompressProofs NttAlgebra EncodeProofs SampleProofs CountProofs
  PkeProofs Correctness TailProofs.
Import ListNotations.
Open Scope Z_scope.

(** ** sums and products in blocks of 256 *)
Lemma sum_blocks k s (g : nat -> nat -> Z) : (0 < s)%nat ->
  sum k (fun a => sum s (fun i => g a i)) = sum (k * s) (fun t => g (t / s)%nat (t mod s)%nat).
Proof.
  intros Hs. induction k as [|k IH]; [reflexivity|]. cbn [sum Nat.mul]. rewrite Nat.add_comm, sum_split, <- IH.
  f_equal. apply sum_ext. intros i Hi.
  rewrite Nat.add_comm, Nat.div_add, Nat.mod_add, Nat.div_small, Nat.mod_small by lia. reflexivity.
Qed.
Lemma prod_split n m f : prod (n + m) f = prod n f * prod m (fun i => f (n + i)%nat).
Proof.
  induction m as [|m IH]; [rewrite Nat.add_0_r; cbn [prod]; ring|].
  rewrite Nat.add_succ_r. cbn [prod]. rewrite IH. ring.
Qed.
Lemma prod_blocks k s (g : nat -> nat -> Z) : (0 < s)%nat ->
  prod (k * s) (fun t => g (t / s)%nat (t mod s)%nat) = prod k (fun a => prod s (fun i => g a i)).
Proof.
  intros Hs. induction k as [|k IH]; [reflexivity|]. cbn [prod Nat.mul]. rewrite Nat.add_comm, prod_split, <- IH.
  f_equal. apply prod_ext. intros i Hi.
  rewrite Nat.add_comm, Nat.div_add, Nat.mod_add, Nat.div_small, Nat.mod_small by lia. reflexivity.
Qed.
Lemma prod_rev n f : prod n (fun i => f (n - 1 - i)%nat) = prod n f.
Proof.
  revert f. induction n as [|n IH]; intros f; [reflexivity|].
  rewrite prod_S. cbn [prod]. replace (S n - 1 - 0)%nat with n by lia. rewrite Z.mul_comm. f_equal.
  rewrite <- (IH f). apply prod_ext. intros i Hi. f_equal. lia.
Qed.

(** ** coefficients of products in R_q as linear forms *)
Definition twist (g : nat -> Z) (c i : nat) : Z :=
  if Nat.leb i c then g (c - i)%nat else - g (c + 256 - i)%nat.

Lemma co_pmul_twist f g c : (c < 256)%nat ->
  eqq (co (pmul f g) c) (sum 256 (fun i => co f i * twist (co g) c i)).
Proof.
  intros Hc. rewrite co_pmul by exact Hc. rewrite mod_eqq. apply eqq_of_eq. apply sum_ext. intros i Hi.
  unfold twist. destruct (Nat.leb_spec i c) as [L|L].
  - rewrite (sum_single 256 (c - i));
      [|lia|intros j Hj Ne; unfold chi; destruct (Nat.eqb_spec (i + j) c); [lia|]; destruct (Nat.eqb_spec (i + j) (c + 256)); [lia|ring]].
    unfold chi. replace (i + (c - i))%nat with c by lia. rewrite Nat.eqb_refl. ring.
  - rewrite (sum_single 256 (c + 256 - i));
      [|lia|intros j Hj Ne; unfold chi; destruct (Nat.eqb_spec (i + j) c); [lia|]; destruct (Nat.eqb_spec (i + j) (c + 256)); [lia|ring]].
    unfold chi. replace (i + (c + 256 - i))%nat with (c + 256)%nat by lia.
    destruct (Nat.eqb_spec (c + 256) c); [lia|]. rewrite Nat.eqb_refl. ring.
Qed.

Lemma twist_eqq g h c i : (c < 256)%nat -> (i < 256)%nat -> (forall j, (j < 256)%nat -> eqq (g j) (h j)) ->
  eqq (twist g c i) (twist h c i).
Proof.
  intros Hc Hi H. unfold twist. destruct (Nat.leb_spec i c); rewrite H by lia; reflexivity.
Qed.

Lemma co_inner_lin k u v (S V : nat -> nat -> Z) c : (c < 256)%nat ->
  (forall a i, (a < k)%nat -> (i < 256)%nat -> eqq (co (ent u a) i) (S a i)) ->
  (forall a i, (a < k)%nat -> (i < 256)%nat -> eqq (co (ent v a) i) (V a i)) ->
  eqq (co (inner k u v) c) (sum k (fun a => sum 256 (fun i => S a i * twist (V a) c i))).
Proof.
  intros Hc HS HV. rewrite co_inner by exact Hc. apply sum_eqq. intros a Ha.
  rewrite co_pmul_twist by exact Hc. apply sum_eqq. intros i Hi. apply mul_eqq; [apply HS; assumption|].
  apply twist_eqq; [exact Hc|exact Hi|]. intros j Hj. apply HV; assumption.
Qed.

(** a function of the absolute values sees the same values, in another order *)
Lemma twist_abs g c i (h : Z -> Z) : (forall x, h (- x) = h x) ->
  h (twist g c i) = h (if Nat.leb i c then g (c - i)%nat else g (c + 256 - i)%nat).
Proof. intros H. unfold twist. destruct (Nat.leb i c); [reflexivity|apply H]. Qed.
Lemma twist_prod g c (h : Z -> Z) : (c < 256)%nat -> (forall x, h (- x) = h x) ->
  prod 256 (fun i => h (twist g c i)) = prod 256 (fun i => h (g i)).
Proof.
  intros Hc Hh.
  rewrite (prod_ext 256 _ (fun i => h (if Nat.leb i c then g (c - i)%nat else g (c + 256 - i)%nat)))
    by (intros i _; apply twist_abs, Hh).
  assert (Sp : forall f, prod 256 f = prod (S c) f * prod (255 - c) (fun i => f (S c + i)%nat)).
  { intros f. rewrite <- prod_split. f_equal. lia. }
  rewrite (Sp (fun i => h (g i))), Sp. f_equal.
  - rewrite <- (prod_rev (S c) (fun i => h (g i))). apply prod_ext. intros i Hi.
    destruct (Nat.leb_spec i c); [|lia]. f_equal. f_equal. lia.
  - rewrite <- (prod_rev (255 - c) (fun i => h (g (S c + i)%nat))). apply prod_ext. intros i Hi.
    destruct (Nat.leb_spec (S c + i) c); [lia|]. f_equal. f_equal. lia.
Qed.
Lemma twist_bound g c i K : (c < 256)%nat -> (i < 256)%nat -> (forall j, (j < 256)%nat -> Z.abs (g j) <= K) ->
  Z.abs (twist g c i) <= K.
Proof.
  intros Hc Hi H. unfold twist. destruct (Nat.leb_spec i c).
  - apply H. lia.
  - rewrite Z.abs_opp. apply H. lia.
Qed.

(** ** the exponential weight of a linear form *)
Section Weight.
  Variable v : Z -> Z.
  Variable D : list Z.
  Variable eta : Z.
  Hypothesis v_bound : forall x, In x D -> Z.abs (v x) <= eta.
  Variables a b : Z.
  Hypothesis b_pos : 0 < b.
  Hypothesis ab : b <= a.

  Fixpoint linf (coef : nat -> Z) (l : list Z) : Z :=
    match l with [] => 0 | x :: l => coef O * v x + linf (fun t => coef (S t)) l end.
  Lemma linf_sum coef l : linf coef l = sum (length l) (fun t => coef t * v (nth t l 0)).
  Proof.
    revert coef. induction l as [|x l IH]; intros coef; [reflexivity|].
    cbn [linf length]. rewrite sum_head, IH. reflexivity.
  Qed.

  (** one factor *)
  Definition term (C c x : Z) : Z := a ^ (eta * C + c * v x) * b ^ (eta * C - c * v x).
  Definition gsum (C c : Z) : Z := wsum (term C c) D.

  Lemma eta_nonneg x : In x D -> 0 <= eta.
  Proof. intros H. pose proof (v_bound x H). lia. Qed.
  Lemma term_exp C c x : In x D -> Z.abs c <= C -> Z.abs (c * v x) <= eta * C.
  Proof. intros Hx Hc. rewrite Z.abs_mul. pose proof (v_bound x Hx). nia. Qed.

  Lemma pw_linf (C coef : nat -> Z) l :
    Forall (fun x => In x D) l -> (forall t, (t < length l)%nat -> Z.abs (coef t) <= C t) ->
    Z.abs (linf coef l) <= eta * sum (length l) C /\
    pw (fun t => term (C t) (coef t)) l =
    a ^ (eta * sum (length l) C + linf coef l) * b ^ (eta * sum (length l) C - linf coef l).
  Proof.
    revert C coef. induction l as [|x l IH]; intros C coef F H.
    - cbn [linf length sum pw]. rewrite Z.mul_0_r. cbn. split; [lia|reflexivity].
    - inversion F as [|? ? Hx F']; subst.
      destruct (IH (fun t => C (S t)) (fun t => coef (S t)) F') as [B E].
      { intros t Ht. apply H. cbn [length]. lia. }
      pose proof (term_exp (C O) (coef O) x Hx (H O ltac:(cbn [length]; lia))) as T.
      cbn [linf length pw]. rewrite E, sum_head.
      set (L := linf (fun t => coef (S t)) l) in *. set (M := eta * sum (length l) (fun t => C (S t))) in *.
      rewrite Z.mul_add_distr_l. fold M. unfold term.
      set (u := coef O * v x) in *. set (w := eta * C O) in *. clearbody L M u w.
      split; [lia|].
      replace (w + M + (u + L)) with ((w + u) + (M + L)) by ring.
      replace (w + M - (u + L)) with ((w - u) + (M - L)) by ring.
      rewrite (Z.pow_add_r a (w + u) (M + L)), (Z.pow_add_r b (w - u) (M - L)) by lia. ring.
  Qed.

  Lemma term_nonneg C c x : 0 <= term C c x.
  Proof. apply Z.mul_nonneg_nonneg; apply Z.pow_nonneg; lia. Qed.

  (** sequences on which the linear form is at least T *)
  Lemma chernoff N (C coef : nat -> Z) T :
    (forall t, (t < N)%nat -> Z.abs (coef t) <= C t) ->
    0 <= T <= eta * sum N C ->
    a ^ (eta * sum N C + T) * b ^ (eta * sum N C - T) * count (fun l => T <=? linf coef l) (tuples D N)
    <= prod N (fun t => gsum (C t) (coef t)).
  Proof.
    intros Hc HT. set (M := eta * sum N C) in *. unfold gsum. rewrite <- (wsum_tuples D N (fun t => term (C t) (coef t))).
    apply markov.
    - intros l _. apply pw_nonneg. intros. apply term_nonneg.
    - intros l Hl E. apply Z.leb_le in E. apply in_tuples in Hl. destruct Hl as [L F].
      destruct (pw_linf C coef l F) as [B W]; [intros t Ht; apply Hc; lia|]. rewrite W. rewrite L in B |- *. fold M in B |- *.
      set (X := linf coef l) in *. clearbody X M. 
      replace (M + X) with (M + T + (X - T)) by ring. replace (M - T) with (M - X + (X - T)) by ring.
      rewrite (Z.pow_add_r a (M + T) (X - T)), (Z.pow_add_r b (M - X) (X - T)) by lia.
      assert (P : b ^ (X - T) <= a ^ (X - T)) by (apply Z.pow_le_mono_l; lia).
      set (U := a ^ (M + T)). assert (0 <= U) by (apply Z.pow_nonneg; lia). 
      set (W' := b ^ (M - X)). assert (0 <= W') by (apply Z.pow_nonneg; lia).
      replace (U * (W' * b ^ (X - T))) with (U * W' * b ^ (X - T)) by ring.
      replace (U * a ^ (X - T) * W') with (U * W' * a ^ (X - T)) by ring.
      apply Z.mul_le_mono_nonneg_l; [apply Z.mul_nonneg_nonneg; assumption|exact P].
  Qed.

  (** both signs *)
  Lemma linf_opp coef l : linf (fun t => - coef t) l = - linf coef l.
  Proof. revert coef. induction l as [|x l IH]; intros coef; [reflexivity|]. cbn [linf]. rewrite (IH (fun t => coef (S t))). ring. Qed.

  Lemma chernoff_abs N (C coef : nat -> Z) T :
    (forall t c, (t < N)%nat -> Z.abs c <= C t -> gsum (C t) (- c) = gsum (C t) c) ->
    (forall t, (t < N)%nat -> Z.abs (coef t) <= C t) ->
    0 <= T <= eta * sum N C ->
    a ^ (eta * sum N C + T) * b ^ (eta * sum N C - T) * count (fun l => T <=? Z.abs (linf coef l)) (tuples D N)
    <= 2 * prod N (fun t => gsum (C t) (coef t)).
  Proof.
    intros gsum_even Hc HT. pose proof (chernoff N C coef T Hc HT) as P1.
    pose proof (chernoff N C (fun t => - coef t) T ltac:(intros t Ht; cbv beta; rewrite Z.abs_opp; apply Hc, Ht) HT) as P2.
    cbv beta in P2. rewrite (prod_ext N (fun t => gsum (C t) (- coef t)) (fun t => gsum (C t) (coef t))) in P2
      by (intros t Ht; apply gsum_even; [exact Ht|apply Hc, Ht]).
    set (K := a ^ _ * b ^ _) in *.
    assert (K0 : 0 <= K) by (apply Z.mul_nonneg_nonneg; apply Z.pow_nonneg; lia). clearbody K.
    assert (U : count (fun l => T <=? Z.abs (linf coef l)) (tuples D N) <=
                count (fun l => T <=? linf coef l) (tuples D N) +
                count (fun l => T <=? linf (fun t => - coef t) l) (tuples D N)).
    { eapply Z.le_trans; [|apply count_orb]. apply count_impl. intros l _ E. apply Z.leb_le in E.
      rewrite linf_opp. apply orb_true_iff. rewrite !Z.leb_le. lia. }
    nia.
  Qed.
End Weight.

(** ** the final comparison *)
Lemma assemble cnt total a b M T A1 A2 B1 B2 n r1 r2 r3 E V :
  0 <= V ->
  0 < a -> 0 < b -> 0 <= T <= M -> 0 <= A1 -> 0 <= A2 -> 0 <= B1 -> 0 <= B2 -> 0 <= E ->
  a ^ (M + T) * b ^ (M - T) * cnt <= 512 * (A1 ^ Zpos n * A2 ^ Zpos n * V) ->
  A1 * unity <= r1 * B1 -> A2 * unity <= r2 * B2 -> 0 <= r1 -> 0 <= r2 -> 0 <= r3 ->
  b ^ T * unity <= r3 * a ^ T ->
  total * (a * b) ^ M = B1 ^ Zpos n * B2 ^ Zpos n * V ->
  512 * E * (pow_up r1 n * pow_up r2 n * r3) <= unity * unity * unity ->
  E * cnt <= total.
Proof.
  intros V0 Ha Hb HT HA1 HA2 HB1 HB2 HE HC H1 H2 R1 R2 R3 H3 HT' HN.
  pose proof (pow_quotient A1 B1 r1 n _ HA1 HB1 H1 R1 (Z.le_refl _)) as Q1.
  pose proof (pow_quotient A2 B2 r2 n _ HA2 HB2 H2 R2 (Z.le_refl _)) as Q2.
  destruct (pow_up_ok r1 n R1) as [_ U1]. destruct (pow_up_ok r2 n R2) as [_ U2].
  set (u1 := pow_up r1 n) in *. set (u2 := pow_up r2 n) in *.
  assert (0 <= A1 ^ Zpos n) by (apply Z.pow_nonneg; lia). assert (0 <= A2 ^ Zpos n) by (apply Z.pow_nonneg; lia).
  assert (0 <= B1 ^ Zpos n) by (apply Z.pow_nonneg; lia). assert (0 <= B2 ^ Zpos n) by (apply Z.pow_nonneg; lia).
  assert (0 < b ^ T) by (apply Z.pow_pos_nonneg; lia). assert (0 < a ^ T) by (apply Z.pow_pos_nonneg; lia).
  assert (0 < (a * b) ^ M) by (apply Z.pow_pos_nonneg; [apply Z.mul_pos_pos; assumption|lia]).
  assert (EK : a ^ (M + T) * b ^ (M - T) * b ^ T = (a * b) ^ M * a ^ T).
  { rewrite <- Z.mul_assoc, <- Z.pow_add_r by lia. replace (M - T + T) with M by ring.
    rewrite Z.pow_add_r, Z.pow_mul_l by lia. ring. }
  assert (S0 : 0 < unity) by reflexivity.
  set (X1 := A1 ^ Zpos n) in *. set (X2 := A2 ^ Zpos n) in *. set (Y1 := B1 ^ Zpos n) in *. set (Y2 := B2 ^ Zpos n) in *.
  set (bT := b ^ T) in *. set (aT := a ^ T) in *. set (W := (a * b) ^ M) in *.
  set (K := a ^ (M + T) * b ^ (M - T)) in *. set (s := unity) in *.
  clearbody u1 u2 X1 X2 Y1 Y2 bT aT W K s. clear - V0 HC Q1 Q2 H3 HT' HN EK HE R3 U1 U2 H H0 H4 H5 H6 H7 H8 S0.
  (* multiply everything by W aT s^3 > 0 *)
  assert (Pos : 0 < W * aT * (s * s * s)) by (repeat apply Z.mul_pos_pos; assumption).
  apply (Z.mul_le_mono_pos_r _ _ _ Pos).
  assert (C1 : K * cnt * bT <= 512 * (X1 * X2 * V) * bT) by (apply Z.mul_le_mono_nonneg_r; lia).
  assert (C2 : W * aT * cnt <= 512 * (X1 * X2 * V) * bT).
  { eapply Z.le_trans; [|exact C1]. apply Z.eq_le_incl.
    transitivity (K * bT * cnt); [rewrite EK; reflexivity|ring]. }
  assert (C3 : (X1 * s) * (X2 * s) <= (u1 * Y1) * (u2 * Y2)).
  { apply Z.mul_le_mono_nonneg; [apply Z.mul_nonneg_nonneg; lia|exact Q1|apply Z.mul_nonneg_nonneg; lia|exact Q2]. }
  assert (C4 : (X1 * s) * (X2 * s) * (bT * s) * V <= (u1 * Y1) * (u2 * Y2) * (r3 * aT) * V).
  { apply Z.mul_le_mono_nonneg_r; [exact V0|].
    apply Z.mul_le_mono_nonneg; [|exact C3|apply Z.mul_nonneg_nonneg; lia|exact H3].
    repeat apply Z.mul_nonneg_nonneg; lia. }
  assert (C5 : E * (W * aT * cnt) * (s * s * s) <= E * (512 * (X1 * X2 * V) * bT) * (s * s * s)).
  { apply Z.mul_le_mono_nonneg_r; [repeat apply Z.mul_nonneg_nonneg; lia|]. apply Z.mul_le_mono_nonneg_l; assumption. }
  assert (C6 : 512 * E * ((X1 * s) * (X2 * s) * (bT * s) * V) <= 512 * E * ((u1 * Y1) * (u2 * Y2) * (r3 * aT) * V)).
  { apply Z.mul_le_mono_nonneg_l; [lia|exact C4]. }
  assert (C7 : 512 * E * (u1 * u2 * r3) * (Y1 * Y2 * aT * V) <= s * s * s * (Y1 * Y2 * aT * V)).
  { apply Z.mul_le_mono_nonneg_r; [repeat apply Z.mul_nonneg_nonneg; lia|exact HN]. }
  replace (E * cnt * (W * aT * (s * s * s))) with (E * (W * aT * cnt) * (s * s * s)) by ring.
  eapply Z.le_trans; [exact C5|].
  replace (E * (512 * (X1 * X2 * V) * bT) * (s * s * s)) with (512 * E * ((X1 * s) * (X2 * s) * (bT * s) * V)) by ring.
  eapply Z.le_trans; [exact C6|].
  replace (512 * E * ((u1 * Y1) * (u2 * Y2) * (r3 * aT) * V)) with (512 * E * (u1 * u2 * r3) * (Y1 * Y2 * aT * V)) by ring.
  eapply Z.le_trans; [exact C7|]. apply Z.eq_le_incl.
  replace (total * (W * aT * (s * s * s))) with (total * W * (aT * (s * s * s))) by ring. rewrite HT'. ring.
Qed.

(** ** the fields of a byte string *)

(** the integer value of the eta + eta bits of one coefficient *)
Definition cbdz (eta : nat) (x : Z) : Z :=
  sum eta (fun j => b2z (Z.testbit x (Z.of_nat j))) -
  sum eta (fun j => b2z (Z.testbit x (Z.of_nat (eta + j)))).
Lemma cbd_value_z eta x : cbd_value eta x = cbdz eta x mod q.
Proof. reflexivity. Qed.
Lemma cbdz_bound eta x : Z.abs (cbdz eta x) <= Z.of_nat eta.
Proof.
  unfold cbdz.
  assert (B : forall n (f : nat -> bool), 0 <= sum n (fun j => b2z (f j)) <= Z.of_nat n).
  { induction n as [|n IH]; intros f; [cbn [sum]; lia|]. cbn [sum]. pose proof (IH f). pose proof (b2z_range (f n)). lia. }
  pose proof (B eta (fun j => Z.testbit x (Z.of_nat j))).
  pose proof (B eta (fun j => Z.testbit x (Z.of_nat (eta + j)))). lia.
Qed.

Section Fields.
  Variable d : nat.
  Hypothesis Hd : (1 <= d <= 11)%nat.

  (** decode [m] blocks of 32 d bytes *)
  Fixpoint fields (m : nat) (B : list Z) : list Z :=
    match m with O => [] | S m => ByteDecode d (firstn (32 * d) B) ++ fields m (skipn (32 * d) B) end.
  Fixpoint unfields (m : nat) (F : list Z) : list Z :=
    match m with O => [] | S m => ByteEncode d (firstn 256 F) ++ unfields m (skipn 256 F) end.

  Lemma Forall_firstn_skipn {A} (Q : A -> Prop) n l : Forall Q l -> Forall Q (firstn n l) /\ Forall Q (skipn n l).
  Proof. intros F. rewrite <- (firstn_skipn n l) in F. apply Forall_app in F. exact F. Qed.

  Lemma fields_ok m B : byte_string (m * (32 * d)) B ->
    length (fields m B) = (m * 256)%nat /\ Forall (fun x => In x (upto (2 ^ Z.of_nat d))) (fields m B) /\
    unfields m (fields m B) = B.
  Proof.
    revert B. induction m as [|m IH]; intros B [L F].
    - destruct B; [|discriminate L]. repeat split. constructor.
    - cbn [fields unfields]. destruct (Forall_firstn_skipn _ (32 * d) B F) as [F1 F2].
      destruct (IH (skipn (32 * d) B)) as (I1 & I2 & I3).
      { split; [rewrite skipn_length; nia|exact F2]. }
      destruct (ByteDecode_small d (firstn (32 * d) B) ltac:(lia)) as [D1 D2].
      split; [rewrite app_length, I1, D1; lia|]. split.
      + apply Forall_app. split; [|exact I2]. eapply Forall_impl; [|exact D2]. intros x Hx. apply in_upto_iff. exact Hx.
      + rewrite firstn_app_exact, skipn_app_exact by exact D1. rewrite I3.
        rewrite ByteEncode_ByteDecode; [apply firstn_skipn|lia|].
        split; [rewrite firstn_length; nia|exact F1].
  Qed.
  Lemma unfields_ok m F : length F = (m * 256)%nat -> Forall (fun x => In x (upto (2 ^ Z.of_nat d))) F ->
    byte_string (m * (32 * d)) (unfields m F) /\ fields m (unfields m F) = F.
  Proof.
    revert F. induction m as [|m IH]; intros F L Q.
    - destruct F; [|discriminate L]. repeat split. constructor.
    - cbn [fields unfields]. destruct (Forall_firstn_skipn _ 256 F Q) as [Q1 Q2].
      destruct (IH (skipn 256 F)) as [[I1 I2] I3]; [rewrite skipn_length; lia|exact Q2|].
      destruct (ByteEncode_bytes d (firstn 256 F)) as [E1 E2].
      split; [split|].
      + rewrite app_length, I1, E1. lia.
      + apply Forall_app. split; assumption.
      + rewrite firstn_app_exact, skipn_app_exact by exact E1. rewrite I3.
        rewrite ByteDecode_ByteEncode; [apply firstn_skipn|lia|].
        apply small_canonical; [lia|]. split; [rewrite firstn_length; lia|].
        eapply Forall_impl; [|exact Q1]. intros x Hx. apply in_upto_iff. exact Hx.
  Qed.

  Lemma skipn_skipn_add {A} n p (l : list A) : skipn n (skipn p l) = skipn (p + n) l.
  Proof.
    revert l. induction p as [|p IH]; intros l; [reflexivity|]. destruct l as [|x l]; [|cbn [skipn Nat.add]; apply IH].
    rewrite !skipn_nil. reflexivity.
  Qed.

  Lemma fields_nth m B a i : (a < m)%nat -> (i < 256)%nat -> 
    nth (a * 256 + i) (fields m B) 0 = co (ByteDecode d (part (32 * d) a B)) i.
  Proof.
    revert B a. induction m as [|m IH]; intros B a Ha Hi; [lia|]. cbn [fields].
    assert (L : length (ByteDecode d (firstn (32 * d) B)) = 256%nat) by exact (proj1 (ByteDecode_small d _ ltac:(lia))).
    destruct a as [|a].
    - rewrite app_nth1 by lia. reflexivity.
    - rewrite app_nth2 by lia. rewrite L. replace (S a * 256 + i - 256)%nat with (a * 256 + i)%nat by lia.
      rewrite IH by lia. f_equal. f_equal. unfold part. rewrite skipn_skipn_add. reflexivity.
  Qed.

  Lemma count_fields m L t : enumerates (m * (32 * d)) L ->
    count (fun B => t (fields m B)) L = count t (tuples (upto (2 ^ Z.of_nat d)) (m * 256)).
  Proof.
    intros [NL HL]. apply (count_bij L (tuples (upto (2 ^ Z.of_nat d)) (m * 256)) (fields m) (unfields m) t).
    - exact NL.
    - apply NoDup_tuples, NoDup_upto.
    - intros B HB. apply HL in HB. destruct (fields_ok m B HB) as (I1 & I2 & I3). split; [|exact I3].
      apply in_tuples. split; assumption.
    - intros F HF. apply in_tuples in HF. destruct HF as [L1 L2]. destruct (unfields_ok m F L1 L2) as [U1 U2].
      split; [apply HL; exact U1|exact U2].
  Qed.
End Fields.

Lemma wsum_perm {A} (w : A -> Z) l m : Permutation l m -> wsum w l = wsum w m.
Proof. induction 1; rewrite ?wsum_cons in *; lia. Qed.

(** ** the noise as a linear form in the fields *)
Section Core.
  Variable hs : hashes.
  Variable P : params.
  Hypothesis HP : wf_params P.
  Hypothesis Hdu : (1 <= du P <= 11)%nat.
  Hypothesis Hdv : (1 <= dv P <= 11)%nat.
  Variable A : list (list (list Z)).
  Variables d r : list Z.
  Let k := pk P.
  Let e := eta1 P.
  Definition key_sigma : list Z := snd (FIPS203.G hs (d ++ [Z.of_nat (pk P)])).
  Hypothesis Hr : r <> key_sigma.

  Lemma HE : (e = 2 \/ e = 3)%nat.
  Proof. unfold e. apply HP. Qed.

  Definition small_y (a i : nat) : Z := centred (co (ent (enc_y hs P r) a) i).
  Definition small_w (a i : nat) : Z :=
    centred (co (ent (enc_e1 hs P r) a) i) + centred (co (ent (map (rounding (du P)) (enc_u hs P A r)) a) i).

  Definition coef (c t : nat) : Z :=
    if Nat.ltb t (k * 256) then - twist (small_w (t / 256)) c (t mod 256)
    else twist (small_y (t / 256 - k)) c (t mod 256).

  Section OneB.
    Variable B : list Z.
    Hypothesis HB : byte_string (2 * k * (64 * e)) B.
    Let hs' := with_secrets hs P key_sigma B.
    Let F := fields (2 * e) (2 * k) B.

    Lemma PRF_secret a : (a < 2 * k)%nat -> FIPS203.PRF hs' e key_sigma a = part (64 * e) a B.
    Proof.
      intros Ha. unfold FIPS203.PRF, prefix. cbn [hs' with_secrets shake256]. fold e k.
      change (key_sigma ++ [Z.of_nat a]) with (ask_secrets key_sigma a).
      transitivity (tab (64 * e) (fun t => nth t (part (64 * e) a B) 0)).
      - apply tab_ext. intros t Ht. apply answer_asked; [intros b _; apply ask_secrets_inj|exact Ha].
      - pose proof (part_length (64 * e) (2 * k) a B (proj1 HB) Ha) as L. 
        generalize dependent (part (64 * e) a B). intros l <-. clear. induction l as [|x l IH]; [reflexivity|].
        cbn [length]. rewrite tab_cons. cbn [nth]. f_equal. exact IH.
    Qed.

    Lemma secret_coeff a i : (a < 2 * k)%nat -> (i < 256)%nat ->
      eqq (co (SamplePolyCBD e (FIPS203.PRF hs' e key_sigma a)) i) (cbdz e (nth (a * 256 + i) F 0)).
    Proof.
      intros Ha Hi. pose proof HE. rewrite PRF_secret by exact Ha. rewrite SamplePolyCBD_map by exact HE.
      unfold co. rewrite (nth_indep _ 0 (cbd_value e 0)).
      - rewrite map_nth, cbd_value_z, mod_eqq. apply eqq_of_eq. f_equal.
        unfold F. rewrite fields_nth by lia. unfold co. f_equal. f_equal. f_equal. lia.
      - rewrite map_length, (proj1 (ByteDecode_small (2 * e) _ ltac:(lia))). exact Hi.
    Qed.

    Lemma PRF_other eta b : FIPS203.PRF hs' eta r b = FIPS203.PRF hs eta r b.
    Proof.
      unfold FIPS203.PRF, prefix. apply tab_ext. intros t Ht. cbn [hs' with_secrets shake256]. apply answer_other.
      intros a Ha E. unfold ask_secrets in E. apply app_inj_tail in E. apply Hr, E.
    Qed.
    Lemma noise_other eta N : noise hs' P eta r N = noise hs P eta r N.
    Proof. unfold noise. apply tab_ext. intros i Hi. rewrite PRF_other. reflexivity. Qed.
    Lemma y_other : enc_y hs' P r = enc_y hs P r.
    Proof. apply noise_other. Qed.
    Lemma e1_other : enc_e1 hs' P r = enc_e1 hs P r.
    Proof. apply noise_other. Qed.
    Lemma u_other : enc_u hs' P A r = enc_u hs P A r.
    Proof. unfold enc_u. rewrite y_other, e1_other. reflexivity. Qed.

    Lemma key_s_coeff a i : (a < k)%nat -> (i < 256)%nat ->
      eqq (co (ent (key_s hs' P d) a) i) (cbdz e (nth (a * 256 + i) F 0)).
    Proof.
      intros Ha Hi. unfold key_s, noise. fold k. rewrite ent_tab by exact Ha.
      change (snd (FIPS203.G hs' (d ++ [Z.of_nat k]))) with key_sigma. fold e. apply secret_coeff; [lia|exact Hi].
    Qed.
    Lemma key_e_coeff a i : (a < k)%nat -> (i < 256)%nat ->
      eqq (co (ent (key_e hs' P d) a) i) (cbdz e (nth (k * 256 + (a * 256 + i)) F 0)).
    Proof.
      intros Ha Hi. unfold key_e, noise. fold k. rewrite ent_tab by exact Ha.
      change (snd (FIPS203.G hs' (d ++ [Z.of_nat k]))) with key_sigma. fold e.
      replace (k * 256 + (a * 256 + i))%nat with ((k + a) * 256 + i)%nat by lia. apply secret_coeff; [lia|exact Hi].
    Qed.

    Lemma F_length : length F = (2 * k * 256)%nat.
    Proof. pose proof HE. apply (fields_ok (2 * e)); [lia|]. replace (32 * (2 * e))%nat with (64 * e)%nat by lia. exact HB. Qed.

    Lemma centred_eqq x : eqq x (centred x).
    Proof. apply eqq_iff. symmetry. apply centred_spec. Qed.

    Lemma noise_linear m c : (c < 256)%nat ->
      eqq (co (decryption_noise hs' P A d m r) c)
          (linf (cbdz e) (coef c) F + centred (co (enc_e2 hs' P r) c) + centred (co (rounding (dv P) (enc_v hs' P A d m r)) c)).
    Proof.
      intros Hc. unfold decryption_noise. fold k. rewrite co_psub by exact Hc. rewrite mod_eqq.
      rewrite !co_padd by exact Hc. rewrite !mod_eqq.
      rewrite y_other, e1_other, u_other.
      rewrite (co_inner_lin k (key_e hs' P d) (enc_y hs P r) (fun a i => cbdz e (nth (k * 256 + (a * 256 + i)) F 0)) small_y c Hc);
        [|exact key_e_coeff|intros a i _ _; apply centred_eqq].
      rewrite (co_inner_lin k (key_s hs' P d) (vadd k (enc_e1 hs P r) (map (rounding (du P)) (enc_u hs P A r)))
        (fun a i => cbdz e (nth (a * 256 + i) F 0)) small_w c Hc);
        [|exact key_s_coeff|].
      2:{ intros a i Ha Hi. unfold vadd. rewrite ent_tab by exact Ha. rewrite co_padd by exact Hi. rewrite mod_eqq.
          unfold small_w. rewrite <- !centred_eqq. reflexivity. }
      rewrite <- (centred_eqq (co (enc_e2 hs' P r) c)), <- (centred_eqq (co (rounding (dv P) (enc_v hs' P A d m r)) c)).
      apply eqq_of_eq.
      rewrite (sum_blocks k 256 (fun a i => cbdz e (nth (k * 256 + (a * 256 + i)) F 0) * twist (small_y a) c i)) by lia.
      rewrite (sum_blocks k 256 (fun a i => cbdz e (nth (a * 256 + i) F 0) * twist (small_w a) c i)) by lia.
      rewrite linf_sum, F_length. replace (2 * k * 256)%nat with (k * 256 + k * 256)%nat by lia. rewrite sum_split.
      assert (E1 : sum (k * 256) (fun t => coef c t * cbdz e (nth t F 0)) =
                   - sum (k * 256) (fun t => cbdz e (nth (t / 256 * 256 + t mod 256) F 0) * twist (small_w (t / 256)) c (t mod 256))).
      { rewrite Z.opp_eq_mul_m1, <- sum_mul_r. apply sum_ext. intros t Ht. unfold coef.
        destruct (Nat.ltb_spec t (k * 256)); [|lia].
        rewrite (Nat.mul_comm (t / 256)), <- Nat.div_mod_eq. ring. }
      assert (E2 : sum (k * 256) (fun i => coef c (k * 256 + i) * cbdz e (nth (k * 256 + i) F 0)) =
                   sum (k * 256) (fun t => cbdz e (nth (k * 256 + (t / 256 * 256 + t mod 256)) F 0) * twist (small_y (t / 256)) c (t mod 256))).
      { apply sum_ext. intros t Ht. unfold coef. destruct (Nat.ltb_spec (k * 256 + t) (k * 256)); [lia|].
        rewrite (Nat.mul_comm (t / 256)), <- Nat.div_mod_eq.
        rewrite (Nat.add_comm (k * 256) t), Nat.div_add, Nat.mod_add by lia.
        replace (t / 256 + k - k)%nat with (t / 256)%nat by lia. ring. }
      rewrite E1, E2. ring.
    Qed.
  End OneB.

  (** bounds of the coefficients *)
  Lemma centred_of_mod x : centred (x mod q) = centred x.
  Proof. unfold centred. f_equal. modq. Qed.
  Lemma cbd_small eta B i : (eta = 2 \/ eta = 3)%nat -> Z.abs (centred (co (SamplePolyCBD eta B) i)) <= Z.of_nat eta.
  Proof.
    intros He. destruct (Nat.lt_ge_cases i 256) as [Hi|Hi].
    - rewrite SamplePolyCBD_map by exact He. unfold co. rewrite (nth_indep _ 0 (cbd_value eta 0)).
      + rewrite map_nth, cbd_value_z, centred_of_mod. pose proof (cbdz_bound eta (nth i (ByteDecode (2 * eta) B) 0)).
        rewrite centred_small by lia. assumption.
      + rewrite map_length, (proj1 (ByteDecode_small (2 * eta) _ ltac:(lia))). exact Hi.
    - unfold co. rewrite nth_overflow; [cbn; lia|]. unfold SamplePolyCBD. rewrite tab_length. exact Hi.
  Qed.
  Lemma rounding_small dd p i : (1 <= dd <= 11)%nat -> poly p -> (i < 256)%nat ->
    Z.abs (centred (co (rounding dd p) i)) <= round_div q (2 ^ Z.of_nat (dd + 1)).
  Proof.
    intros Hdd Hp Hi. unfold rounding. rewrite co_psub by exact Hi. rewrite centred_of_mod.
    unfold co. rewrite (nth_indep (map _ p) 0 (Decompress dd (Compress dd 0))) by (rewrite map_length, (proj1 Hp); exact Hi).
    rewrite (map_nth (fun x => Decompress dd (Compress dd x))). apply Decompress_Compress_error; [lia|].
    apply (proj1 (Forall_forall _ _) (proj2 Hp)). apply nth_In. rewrite (proj1 Hp). exact Hi.
  Qed.

  Variables Cu Cv : Z.
  Hypothesis HCu : round_div q (2 ^ Z.of_nat (du P + 1)) = Cu.
  Hypothesis HCv : round_div q (2 ^ Z.of_nat (dv P + 1)) = Cv.
  Let C1 := Z.of_nat (eta1 P).
  Let C2 := Z.of_nat (eta2 P) + Cu.
  Let T := 832 - Z.of_nat (eta2 P) - Cv.

  Lemma small_y_bound a i : (a < k)%nat -> Z.abs (small_y a i) <= C1.
  Proof.
    intros Ha. unfold small_y, enc_y, noise. fold k. rewrite ent_tab by exact Ha. apply cbd_small. apply HP.
  Qed.
  Lemma small_w_bound a i : (a < k)%nat -> (i < 256)%nat ->
    Z.abs (small_w a i) <= Z.abs (centred (co (ent (enc_e1 hs P r) a) i)) + Cu /\ Z.abs (small_w a i) <= C2.
  Proof.
    intros Ha Hi. unfold small_w.
    assert (Hu : vec k (enc_u hs P A r)) by apply vadd_vec.
    rewrite (ent_map k) by (try apply Hu; exact Ha).
    assert (Hp : poly (ent (enc_u hs P A r) a)) by (eapply vec_ent; eassumption).
    pose proof (rounding_small (du P) _ i Hdu Hp Hi) as R. rewrite HCu in R.
    pose proof (cbd_small (eta2 P) (FIPS203.PRF hs (eta2 P) r (k + a)) i ltac:(apply HP)) as E.
    assert (EE : ent (enc_e1 hs P r) a = SamplePolyCBD (eta2 P) (FIPS203.PRF hs (eta2 P) r (k + a))).
    { unfold enc_e1, noise. fold k. rewrite ent_tab by exact Ha. reflexivity. }
    rewrite EE. unfold C2. lia.
  Qed.

  Definition Cf (t : nat) : Z := if Nat.ltb t (k * 256) then C2 else C1.
  Lemma coef_bound c t : (c < 256)%nat -> (t < 2 * k * 256)%nat -> Z.abs (coef c t) <= Cf t.
  Proof.
    intros Hc Ht. unfold coef, Cf.
    assert (M : (t mod 256 < 256)%nat) by (apply Nat.mod_upper_bound; lia).
    destruct (Nat.ltb_spec t (k * 256)) as [L|L].
    - rewrite Z.abs_opp. apply twist_bound; [exact Hc|exact M|]. intros j Hj. apply small_w_bound; [|exact Hj].
      apply Nat.div_lt_upper_bound; lia.
    - apply twist_bound; [exact Hc|exact M|]. intros j Hj. apply small_y_bound.
      assert (t / 256 < 2 * k)%nat by (apply Nat.div_lt_upper_bound; lia).
      assert (1 <= k)%nat by (unfold k; destruct HP as (W & _); lia). lia.
  Qed.

  Lemma in_range_if_small m B : byte_string (2 * k * (64 * e)) B ->
    (forall c, (c < 256)%nat -> Z.abs (linf (cbdz e) (coef c) (fields (2 * e) (2 * k) B)) < T) ->
    noise_in_range (with_secrets hs P key_sigma B) P A d m r.
  Proof.
    intros HB H c Hc. specialize (H c Hc). pose proof (noise_linear B HB m c Hc) as N.
    set (hs' := with_secrets hs P key_sigma B) in *.
    pose proof (cbd_small (eta2 P) (FIPS203.PRF hs' (eta2 P) r (2 * pk P)) c ltac:(apply HP)) as E2.
    change (SamplePolyCBD (eta2 P) (FIPS203.PRF hs' (eta2 P) r (2 * pk P))) with (enc_e2 hs' P r) in E2.
    pose proof (rounding_small (dv P) (enc_v hs' P A d m r) c Hdv (padd_poly _ _) Hc) as V. rewrite HCv in V.
    set (x := linf _ _ _) in *. set (e2 := centred (co (enc_e2 hs' P r) c)) in *.
    set (cv := centred (co (rounding (dv P) (enc_v hs' P A d m r)) c)) in *. clearbody x e2 cv.
    unfold T in H.
    assert (S : centred (co (decryption_noise hs' P A d m r) c) = x + e2 + cv).
    { rewrite <- (centred_small (x + e2 + cv)) by lia. rewrite <- centred_of_mod, (eqq_mod _ _ N). apply centred_of_mod. }
    rewrite S. unfold decodable. destruct (bit_of_bytes m c); lia.
  Qed.

  Lemma sum_Cf : sum (2 * k * 256) Cf = Z.of_nat (k * 256) * (C1 + C2).
  Proof.
    replace (2 * k * 256)%nat with (k * 256 + k * 256)%nat by lia. rewrite sum_split.
    assert (S : forall n f x, (forall i, (i < n)%nat -> f i = x) -> sum n f = Z.of_nat n * x).
    { induction n as [|n IH]; intros f x Hf; [reflexivity|]. cbn [sum]. rewrite (IH f x) by (intros; apply Hf; lia).
      rewrite Hf by lia. lia. }
    rewrite (S _ _ C2), (S _ _ C1); [ring| |].
    - intros i Hi. unfold Cf. destruct (Nat.ltb_spec (k * 256 + i) (k * 256)); [lia|reflexivity].
    - intros i Hi. unfold Cf. destruct (Nat.ltb_spec i (k * 256)); [reflexivity|lia].
  Qed.

  Variables a b : Z.
  Hypothesis b_pos : 0 < b.
  Hypothesis ab : b <= a.
  Definition gs (C c : Z) : Z := gsum (cbdz e) (upto (2 ^ Z.of_nat (2 * e))) (Z.of_nat e) a b C c.
  Hypothesis even1 : forall c, Z.abs c <= C1 -> gs C1 (- c) = gs C1 c.
  Hypothesis even2 : forall c, Z.abs c <= C2 -> gs C2 (- c) = gs C2 c.
  Let M := Z.of_nat e * (Z.of_nat (k * 256) * (C1 + C2)).
  Hypothesis HT : 0 <= T <= M.

  Lemma gs_abs C c : (forall x, Z.abs x <= C -> gs C (- x) = gs C x) -> Z.abs c <= C -> gs C c = gs C (Z.abs c).
  Proof. intros H L. destruct (Z.abs_eq_or_opp c) as [-> | E]; [reflexivity|]. rewrite E. symmetry. apply H, L. Qed.

  Lemma gs_product c : (c < 256)%nat ->
    prod (2 * k * 256) (fun t => gs (Cf t) (coef c t)) =
    prod k (fun i => prod 256 (fun j => gs C2 (Z.abs (small_w i j)))) *
    prod k (fun i => prod 256 (fun j => gs C1 (Z.abs (small_y i j)))).
  Proof.
    intros Hc. replace (2 * k * 256)%nat with (k * 256 + k * 256)%nat by lia. rewrite prod_split.
    assert (HA : forall C x, gs C (Z.abs (- x)) = gs C (Z.abs x)) by (intros; rewrite Z.abs_opp; reflexivity).
    f_equal.
    - rewrite (prod_ext _ _ (fun t => gs C2 (Z.abs (twist (small_w (t / 256)) c (t mod 256))))).
      + rewrite (prod_blocks k 256 (fun i j => gs C2 (Z.abs (twist (small_w i) c j)))) by lia.
        apply prod_ext. intros i Hi. apply (twist_prod (small_w i) c (fun x => gs C2 (Z.abs x)) Hc). apply HA.
      + intros t Ht. pose proof (coef_bound c t Hc ltac:(lia)) as B. unfold Cf, coef in *.
        destruct (Nat.ltb_spec t (k * 256)); [|lia]. rewrite (gs_abs C2 _ even2 B). apply HA.
    - rewrite (prod_ext _ _ (fun t => gs C1 (Z.abs (twist (small_y (t / 256)) c (t mod 256))))).
      + rewrite (prod_blocks k 256 (fun i j => gs C1 (Z.abs (twist (small_y i) c j)))) by lia.
        apply prod_ext. intros i Hi. apply (twist_prod (small_y i) c (fun x => gs C1 (Z.abs x)) Hc). apply HA.
      + intros t Ht. pose proof (coef_bound c (k * 256 + t) Hc ltac:(lia)) as B. unfold Cf, coef in *.
        destruct (Nat.ltb_spec (k * 256 + t) (k * 256)); [lia|]. rewrite (gs_abs C1 _ even1 B).
        rewrite (Nat.add_comm (k * 256) t), Nat.div_add, Nat.mod_add by lia.
        replace (t / 256 + k - k)%nat with (t / 256)%nat by lia. reflexivity.
  Qed.

  Theorem core_bound L t : enumerates (2 * k * (64 * e)) L ->
    (forall B, In B L -> t B = true -> exists m, ~ noise_in_range (with_secrets hs P key_sigma B) P A d m r) ->
    a ^ (M + T) * b ^ (M - T) * count t L <=
    512 * (prod k (fun i => prod 256 (fun j => gs C1 (Z.abs (small_y i j)))) *
           prod k (fun i => prod 256 (fun j => gs C2 (Z.abs (small_w i j))))).
  Proof.
    intros HL Ht. pose proof HE as He.
    set (K := a ^ (M + T) * b ^ (M - T)).
    assert (K0 : 0 <= K) by (apply Z.mul_nonneg_nonneg; apply Z.pow_nonneg; lia).
    assert (HL' : enumerates (2 * k * (32 * (2 * e))) L) by (replace (32 * (2 * e))%nat with (64 * e)%nat by lia; exact HL).
    set (big := fun c B => T <=? Z.abs (linf (cbdz e) (coef c) (fields (2 * e) (2 * k) B))).
    assert (S1 : count t L <= count (fun B => existsb (fun c => big c B) (seq 0 256)) L).
    { apply count_impl. intros B HB Et. destruct (Ht B HB Et) as [m N]. apply HL in HB.
      destruct (existsb (fun c => big c B) (seq 0 256)) eqn:Ex; [reflexivity|]. exfalso. apply N.
      apply in_range_if_small; [exact HB|]. intros c Hc.
      destruct (Z_lt_le_dec (Z.abs (linf (cbdz e) (coef c) (fields (2 * e) (2 * k) B))) T) as [Lt|Le]; [exact Lt|].
      rewrite <- not_true_iff_false in Ex. exfalso. apply Ex. apply existsb_exists. exists c.
      split; [apply in_seq; lia|]. apply Z.leb_le. exact Le. }
    set (U := prod k (fun i => prod 256 (fun j => gs C1 (Z.abs (small_y i j)))) *
              prod k (fun i => prod 256 (fun j => gs C2 (Z.abs (small_w i j))))).
    assert (S2 : forall c, In c (seq 0 256) -> K * count (big c) L <= 2 * U).
    { intros c Hc. apply in_seq in Hc. unfold big.
      rewrite (count_fields (2 * e) ltac:(lia) (2 * k) L (fun F => T <=? Z.abs (linf (cbdz e) (coef c) F)) HL').
      pose proof (chernoff_abs (cbdz e) (upto (2 ^ Z.of_nat (2 * e))) (Z.of_nat e) (fun x _ => cbdz_bound e x)
        a b b_pos ab (2 * k * 256) Cf (coef c) T) as CA.
      rewrite sum_Cf in CA. fold M K in CA. unfold U. rewrite Z.mul_comm with (n := prod k (fun i => prod 256 (fun j => gs C1 _))).
      rewrite <- (gs_product c ltac:(lia)). apply CA; [|intros t0 Ht0; apply coef_bound; lia|exact HT].
      intros t0 c0 Ht0. unfold Cf. destruct (Nat.ltb t0 (k * 256)); [apply even2|apply even1]. }
    assert (S3 : forall idx, (forall c, In c idx -> K * count (big c) L <= 2 * U) ->
       K * count (fun B => existsb (fun c => big c B) idx) L <= Z.of_nat (length idx) * (2 * U)).
    { induction idx as [|c idx IH]; intros H.
      - cbn [existsb length]. rewrite count_false. lia.
      - cbn [existsb length]. pose proof (count_orb (big c) (fun B => existsb (fun c => big c B) idx) L) as O.
        pose proof (IH (fun c' Hc' => H c' (or_intror Hc'))) as I. pose proof (H c (or_introl eq_refl)) as I'.
        rewrite Nat2Z.inj_succ. cbv beta in *.
        assert (O' := Z.mul_le_mono_nonneg_l _ _ K K0 O). lia. }
    pose proof (S3 (seq 0 256) S2) as S4. rewrite seq_length in S4. change (Z.of_nat 256) with 256 in S4.
    assert (S5 := Z.mul_le_mono_nonneg_l _ _ K K0 S1). lia.
  Qed.
End Core.

(** ** the shape of the weight of one coefficient, checked by computation *)
Definition g_at (eta : nat) (a b C c : Z) : Z :=
  gsum (cbdz eta) (upto (2 ^ Z.of_nat (2 * eta))) (Z.of_nat eta) a b C c.
Definition shape_ok (eta : nat) (a b C : Z) : bool :=
  forallb (fun c => (g_at eta a b C (- c) =? g_at eta a b C c)) (upto (C + 1)) &&
  forallb (fun c => (g_at eta a b C c <=? g_at eta a b C (c + 1))) (upto C).

Lemma shape_even eta a b C : shape_ok eta a b C = true ->
  forall c, Z.abs c <= C -> g_at eta a b C (- c) = g_at eta a b C c.
Proof.
  intros S c Hc. apply andb_true_iff in S. destruct S as [S _]. rewrite forallb_forall in S.
  destruct (Z.abs_eq_or_opp c) as [E|E].
  - apply Z.eqb_eq, S. apply in_upto_iff. lia.
  - symmetry. replace c with (- - c) at 1 by ring. apply Z.eqb_eq, (S (- c)). apply in_upto_iff. lia.
Qed.
Lemma shape_mono eta a b C : shape_ok eta a b C = true ->
  forall c c', 0 <= c <= c' -> c' <= C -> g_at eta a b C c <= g_at eta a b C c'.
Proof.
  intros Sh. apply andb_true_iff in Sh. destruct Sh as [_ Sh]. rewrite forallb_forall in Sh.
  assert (St : forall n c, 0 <= c -> c + Z.of_nat n <= C -> g_at eta a b C c <= g_at eta a b C (c + Z.of_nat n)).
  { induction n as [|n IH]; intros c H0 H1; [rewrite Z.add_0_r; apply Z.le_refl|].
    eapply Z.le_trans; [apply IH; lia|]. replace (c + Z.of_nat (S n)) with (c + Z.of_nat n + 1) by lia.
    apply Z.leb_le, Sh. apply in_upto_iff. lia. }
  intros c c' H0 H1. replace c' with (c + Z.of_nat (Z.to_nat (c' - c))) by lia. apply St; lia.
Qed.

Lemma g_at_nonneg eta a b C c : 0 < b -> b <= a -> 0 <= g_at eta a b C c.
Proof. intros Hb Ha. apply wsum_nonneg. intros x _. apply term_nonneg; assumption. Qed.

Lemma prod_prod_le k s (f : nat -> nat -> Z) U : (forall i j, (i < k)%nat -> (j < s)%nat -> 0 <= f i j <= U) ->
  prod k (fun i => prod s (fun j => f i j)) <= U ^ Z.of_nat (k * s).
Proof.
  intros H. rewrite Nat.mul_comm, Nat2Z.inj_mul, Z.pow_mul_r by lia.
  rewrite <- (prod_pow k). apply prod_le. intros i Hi. split.
  - apply prod_nonneg. intros j Hj. apply H; assumption.
  - rewrite <- (prod_pow s). apply prod_le. intros j Hj. apply H; assumption.
Qed.

(** ** every encryption *)
Section Worst.
  Variable P : params.
  Hypothesis HP : wf_params P.
  Hypothesis Hdu : (1 <= du P <= 11)%nat.
  Hypothesis Hdv : (1 <= dv P <= 11)%nat.
  Variables Cu Cv : Z.
  Hypothesis HCu : round_div q (2 ^ Z.of_nat (du P + 1)) = Cu.
  Hypothesis HCv : round_div q (2 ^ Z.of_nat (dv P + 1)) = Cv.
  Let C1 := Z.of_nat (eta1 P).
  Let C2 := Z.of_nat (eta2 P) + Cu.
  Let T := 832 - Z.of_nat (eta2 P) - Cv.
  Let e := eta1 P.
  Let k := pk P.
  Variables a b : Z.
  Hypothesis b_pos : 0 < b.
  Hypothesis ab : b <= a.
  Hypothesis Cu_pos : 0 <= Cu.
  Hypothesis sh1 : shape_ok e a b C1 = true.
  Hypothesis sh2 : shape_ok e a b C2 = true.
  Let M := Z.of_nat e * (Z.of_nat (k * 256) * (C1 + C2)).
  Hypothesis HT : 0 < T <= M.
  Variable n : positive.
  Hypothesis Hn : Zpos n = Z.of_nat (k * 256).
  Variable E : Z.
  Hypothesis HE0 : 0 <= E.
  Variables r1 r2 r3 : Z.
  Hypothesis R1 : 0 <= r1.
  Hypothesis R2 : 0 <= r2.
  Hypothesis R3 : 0 <= r3.
  Hypothesis Q3 : b * unity <= r3 * a.

  Lemma pow3 : b ^ T * unity <= pow_up r3 (Z.to_pos T) * a ^ T.
  Proof.
    pose proof (pow_quotient b a r3 (Z.to_pos T) _ ltac:(lia) ltac:(lia) Q3 R3 (Z.le_refl _)) as W.
    rewrite Z2Pos.id in W by lia. exact W.
  Qed.

  Lemma total_eq (X1 X2 : Z) : 0 <= C1 -> 0 <= C2 ->
    (X1 * X2) ^ Zpos n * (a * b) ^ M =
    (X1 * (a * b) ^ (Z.of_nat e * C1)) ^ Zpos n * (X2 * (a * b) ^ (Z.of_nat e * C2)) ^ Zpos n.
  Proof.
    intros H1 H2. generalize (a * b). intros w.
    rewrite (Z.pow_mul_l X1 X2), (Z.pow_mul_l X1 (w ^ _)), (Z.pow_mul_l X2 (w ^ _)), <- !Z.pow_mul_r by nia.
    assert (EM : w ^ M = w ^ (Z.of_nat e * C1 * Zpos n) * w ^ (Z.of_nat e * C2 * Zpos n)).
    { rewrite <- Z.pow_add_r by nia. f_equal. unfold M. rewrite <- Hn. ring. }
    rewrite EM. ring.
  Qed.

  Section WorstBound.
    Hypothesis Q1 : g_at e a b C1 C1 * unity <= r1 * (2 ^ Z.of_nat (2 * e) * (a * b) ^ (Z.of_nat e * C1)).
    Hypothesis Q2 : g_at e a b C2 C2 * unity <= r2 * (2 ^ Z.of_nat (2 * e) * (a * b) ^ (Z.of_nat e * C2)).
    Hypothesis HN : 512 * E * (pow_up r1 n * pow_up r2 n * pow_up r3 (Z.to_pos T)) <= unity * unity * unity.

    Theorem worst_bound hs A d m r L t :
      r <> key_sigma hs P d -> enumerates (2 * k * (64 * e)) L ->
      (forall B, In B L -> t B = true -> ~ noise_in_range (with_secrets hs P (key_sigma hs P d) B) P A d m r) ->
      E * count t L <= 256 ^ Z.of_nat (2 * k * (64 * e)).
    Proof.
      intros Hr HL Ht.
      assert (H1 : 0 <= C1) by apply Nat2Z.is_nonneg.
      assert (H2 : 0 <= C2) by (apply Z.add_nonneg_nonneg; [apply Nat2Z.is_nonneg|exact Cu_pos]).
      assert (HT0 : 0 <= T <= M) by (clear - HT; lia).
      assert (a_pos : 0 < a) by (clear - ab b_pos; lia).
      assert (BN : forall x, 0 <= 2 ^ Z.of_nat (2 * e) * (a * b) ^ x).
      { intros x. apply Z.mul_nonneg_nonneg; apply Z.pow_nonneg; [discriminate|].
        apply Z.mul_nonneg_nonneg; apply Z.lt_le_incl; assumption. }
      apply (assemble (count t L) (256 ^ Z.of_nat (2 * k * (64 * e))) a b M T (g_at e a b C1 C1) (g_at e a b C2 C2)
        (2 ^ Z.of_nat (2 * e) * (a * b) ^ (Z.of_nat e * C1)) (2 ^ Z.of_nat (2 * e) * (a * b) ^ (Z.of_nat e * C2))
        n r1 r2 (pow_up r3 (Z.to_pos T)) E 1 ltac:(discriminate) a_pos b_pos HT0 (g_at_nonneg _ _ _ _ _ b_pos ab) (g_at_nonneg _ _ _ _ _ b_pos ab)
        (BN _) (BN _) HE0).
      - eapply Z.le_trans.
        { exact (core_bound hs P HP Hdu Hdv A d r Hr Cu Cv HCu HCv a b b_pos ab
            (shape_even e a b C1 sh1) (shape_even e a b C2 sh2) HT0 L t HL (fun B IB F => ex_intro _ m (Ht B IB F))). }
        fold C1 C2 e k. apply Z.mul_le_mono_nonneg_l; [discriminate|]. rewrite Z.mul_1_r, Hn.
        apply Z.mul_le_mono_nonneg.
        + apply prod_nonneg. intros i Hi. apply prod_nonneg. intros j Hj. apply g_at_nonneg; assumption.
        + apply prod_prod_le. intros i j Hi Hj. split; [apply g_at_nonneg; assumption|].
          apply (shape_mono e a b C1 sh1); [|apply Z.le_refl].
          split; [apply Z.abs_nonneg|eapply small_y_bound; eassumption].
        + apply prod_nonneg. intros i Hi. apply prod_nonneg. intros j Hj. apply g_at_nonneg; assumption.
        + apply prod_prod_le. intros i j Hi Hj. split; [apply g_at_nonneg; assumption|].
          apply (shape_mono e a b C2 sh2); [|apply Z.le_refl].
          split; [apply Z.abs_nonneg|eapply small_w_bound; eassumption].
      - exact Q1.
      - exact Q2.
      - exact R1.
      - exact R2.
      - apply pow_up_ok, R3.
      - exact pow3.
      - rewrite Z.mul_1_r, <- total_eq by assumption. f_equal.
        rewrite Hn. change 256 with (2 ^ 8). rewrite <- Z.pow_mul_r by (try apply Nat2Z.is_nonneg; discriminate).
        rewrite <- Z.pow_add_r by apply Nat2Z.is_nonneg. rewrite <- Z.pow_mul_r.
        + f_equal. rewrite !Nat2Z.inj_mul. change (Z.of_nat 2) with 2. change (Z.of_nat 64) with 64.
          change (Z.of_nat 256) with 256. ring.
        + apply Z.add_nonneg_nonneg; apply Nat2Z.is_nonneg.
        + apply Nat2Z.is_nonneg.
      - exact HN.
    Qed.
  End WorstBound.
End Worst.

(** X25519 (RFC 7748) is scalar multiplication on the u-coordinates of Curve25519 and its
    twist: the field of 2^255 - 19 elements, both curves in Edwards form, and the ladder of
    Spec/RFC7748.v. *)
From Coq Require Import List ZArith Lia Bool Field Znumtheory Zpow_facts Eqdep_dec.
From Verif.Base Require Import Oracles.
From Verif.Spec Require Import FIPS203 RFC7748.
From Verif.Proofs Require Import Primes Edwards.
Import ListNotations.
Open Scope Z_scope.

(** ** the field *)

Definition F : Type := {z : Z | z mod P = z}.
Definition val (x : F) : Z := proj1_sig x.
Lemma P_nz : P <> 0.
Proof. discriminate. Qed.
Definition mkF (z : Z) : F := exist _ (z mod P) (Z.mod_mod z P P_nz).

Lemma F_ext x y : val x = val y -> x = y.
Proof.
  destruct x as [x Hx], y as [y Hy]. cbn. intros ->. f_equal. apply UIP_dec. exact Z.eq_dec.
Qed.
Lemma val_mkF z : val (mkF z) = z mod P.
Proof. reflexivity. Qed.
Lemma mkF_val x : mkF (val x) = x.
Proof. apply F_ext. rewrite val_mkF. apply (proj2_sig x). Qed.
Lemma mkF_eq a b : a mod P = b mod P -> mkF a = mkF b.
Proof. intros H. apply F_ext. exact H. Qed.
Lemma mkF_inj a b : mkF a = mkF b -> a mod P = b mod P.
Proof. intros H. apply (f_equal val) in H. exact H. Qed.
Lemma mkF_mod a : mkF (a mod P) = mkF a.
Proof. apply mkF_eq. apply Z.mod_mod. exact P_nz. Qed.
Lemma val_range x : 0 <= val x < P.
Proof. destruct x as [x H]. cbn. rewrite <- H. apply Z.mod_pos_bound. reflexivity. Qed.

Definition F0 : F := mkF 0.
Definition F1 : F := mkF 1.
Definition Fadd (x y : F) : F := mkF (val x + val y).
Definition Fmul (x y : F) : F := mkF (val x * val y).
Definition Fsub (x y : F) : F := mkF (val x - val y).
Definition Fopp (x : F) : F := mkF (- val x).
Definition Finv (x : F) : F := mkF (val x ^ (P - 2)).
Definition Fdiv (x y : F) : F := Fmul x (Finv y).

Lemma mkF_add a b : mkF (a + b) = Fadd (mkF a) (mkF b).
Proof. unfold Fadd. rewrite !val_mkF. apply mkF_eq. apply Zplus_mod. Qed.
Lemma mkF_mul a b : mkF (a * b) = Fmul (mkF a) (mkF b).
Proof. unfold Fmul. rewrite !val_mkF. apply mkF_eq. apply Zmult_mod. Qed.
Lemma mkF_sub a b : mkF (a - b) = Fsub (mkF a) (mkF b).
Proof. unfold Fsub. rewrite !val_mkF. apply mkF_eq. apply Zminus_mod. Qed.
Lemma mkF_opp a : mkF (- a) = Fopp (mkF a).
Proof.
  unfold Fopp. rewrite val_mkF. apply mkF_eq. replace (- a) with (0 - a) by ring. replace (- (a mod P)) with (0 - a mod P) by ring.
  rewrite Zminus_mod_idemp_r. reflexivity.
Qed.

Lemma P_prime : prime P.
Proof. exact prime_P. Qed.
Lemma mkF_nz z : z mod P <> 0 -> mkF z <> F0.
Proof. intros H E. apply mkF_inj in E. apply H. rewrite E. reflexivity. Qed.

Lemma F_ring : ring_theory F0 F1 Fadd Fmul Fsub Fopp (@eq F).
Proof.
  constructor; intros;
    repeat match goal with x : F |- _ => rewrite <- (mkF_val x); generalize (val x); clear x; intros x end;
    unfold F0, F1; rewrite <- ?mkF_opp, <- ?mkF_add, <- ?mkF_mul, <- ?mkF_sub, <- ?mkF_add, <- ?mkF_mul, <- ?mkF_add; f_equal; ring.
Qed.
Lemma F_field : field_theory F0 F1 Fadd Fmul Fsub Fopp Fdiv Finv (@eq F).
Proof.
  constructor.
  - exact F_ring.
  - intros E. apply mkF_inj in E. discriminate.
  - reflexivity.
  - intros x H. rewrite <- (mkF_val x) in *. generalize dependent (val x). clear x. intros x H.
    unfold Finv. rewrite <- mkF_mul. apply mkF_eq. rewrite val_mkF.
    assert (N : x mod P <> 0) by (intros E; apply H; apply mkF_eq; rewrite E; reflexivity).
    pose proof (fermat P (x mod P) P_prime) as W. rewrite Z.mod_mod in W by exact P_nz. specialize (W N).
    replace (P - 1) with (Z.succ (P - 2)) in W by reflexivity. rewrite Z.pow_succ_r in W by discriminate.
    rewrite <- (Z.mul_mod_idemp_r _ x), (Z.mul_comm _ (x mod P)) by exact P_nz. rewrite W. reflexivity.
Qed.
Lemma F_dec (x y : F) : {x = y} + {x <> y}.
Proof.
  destruct (Z.eq_dec (val x) (val y)) as [E|E]; [left; apply F_ext; exact E|right; intros ->; apply E; reflexivity].
Qed.
Lemma F_inv0 : Finv F0 = F0.
Proof. unfold Finv, F0. rewrite val_mkF, Z.mod_0_l by exact P_nz. rewrite Z.pow_0_l by reflexivity. reflexivity. Qed.

Add Field F25519 : F_field.

Lemma Fmul_inv x y : y <> F0 -> Fmul (Fmul x y) (Finv y) = x.
Proof. intros H. field. exact H. Qed.
Lemma F_two : Fadd F1 F1 <> F0.
Proof. unfold F1. rewrite <- mkF_add. apply mkF_nz. discriminate. Qed.

(** ** the curve: c = 121665 / 121666 *)

Definition c0 : Z := 20800338683988658368647408995589388737092878452977063003340006470870624536394.
Definition C : F := mkF c0.
Definition A24 : F := mkF a24.

Lemma C_def : Fmul C (Fadd A24 F1) = A24.
Proof. unfold C, A24, F1. rewrite <- mkF_add, <- mkF_mul. apply mkF_eq. vm_compute. reflexivity. Qed.
Lemma A24_1_nz : Fadd A24 F1 <> F0.
Proof. unfold A24, F1. rewrite <- mkF_add. apply mkF_nz. vm_compute. discriminate. Qed.
Lemma A24_def : Fmul A24 (Fsub F1 C) = C.
Proof.
  transitivity (Fsub (Fadd (Fmul C (Fadd A24 F1)) (Fmul C F0)) (Fmul A24 C)).
  - rewrite C_def. ring.
  - ring.
Qed.

(** 2 is not a square (Euler), 2 c is one up to squares, so c is none *)
Lemma two_nonsquare x : Fmul x x <> mkF 2.
Proof.
  rewrite <- (mkF_val x). generalize (val x). clear x. intros x. rewrite <- mkF_mul. intros E. apply mkF_inj in E.
  assert (N : x mod P <> 0).
  { intros Z0. rewrite Zmult_mod, Z0 in E. vm_compute in E. discriminate. }
  pose proof (fermat P x P_prime N) as W.
  replace (P - 1) with (2 * 28948022309329048855892746252171976963317496166410141009864396001978282409974) in W by reflexivity. rewrite Z.pow_mul_r, Z.pow_2_r in W by discriminate.
  rewrite Zpower_mod, E, <- Zpower_mod, two_half in W by reflexivity. vm_compute in W. discriminate.
Qed.
Definition t0 : Z := 17540718078606688719096417959420649803327141774663719482163985228206922886506.
Lemma C_nonsquare x : Fmul x x <> C.
Proof.
  intros E.
  assert (T : Fmul (mkF t0) (mkF t0) = Fmul (mkF 2) (Fmul A24 (Fadd A24 F1))).
  { unfold A24, F1. rewrite <- mkF_add, <- !mkF_mul. apply mkF_eq. vm_compute. reflexivity. }
  set (w := Fmul x (Fadd A24 F1)).
  assert (W : Fmul w w = Fmul A24 (Fadd A24 F1)).
  { unfold w. transitivity (Fmul (Fmul (Fmul x x) (Fadd A24 F1)) (Fadd A24 F1)); [ring|]. rewrite E, C_def. reflexivity. }
  assert (N : w <> F0).
  { intros Z0. rewrite Z0 in W. unfold A24, F1, F0 in W. rewrite <- mkF_add, <- !mkF_mul in W. apply mkF_inj in W. vm_compute in W. discriminate. }
  apply (two_nonsquare (Fdiv (mkF t0) w)).
  transitivity (Fdiv (Fmul (mkF t0) (mkF t0)) (Fmul w w)); [field; exact N|].
  rewrite T, <- W. field. exact N.
Qed.

(** ** the ladder of RFC 7748 computes in this field *)

Definition stF (st : Z * Z * Z * Z * bool) : F * F * F * F * bool :=
  let '(x2, z2, x3, z3, swap) := st in (mkF x2, mkF z2, mkF x3, mkF z3, swap).
Definition red (x : Z) : Z := x mod p25519.
Lemma red_mkF x : mkF (red x) = mkF x.
Proof. unfold red. change p25519 with P. apply mkF_mod. Qed.

Lemma step_F k x1 st t :
  stF (ladder_step red k x1 st t) = lstep F Fadd Fmul Fsub A24 (mkF x1) (Z.testbit k (Z.of_nat t)) (stF st).
Proof.
  destruct st as [[[[x2 z2] x3] z3] swap]. unfold ladder_step, stF, lstep.
  set (kt := Z.testbit k (Z.of_nat t)). destruct (xorb swap kt); unfold dbl, dadd; cbn [fst snd];
    repeat first [rewrite red_mkF | rewrite mkF_mul | rewrite mkF_add | rewrite mkF_sub]; reflexivity.
Qed.

Lemma pow_red_F x n : mkF (pow_red red x n) = mkF (x ^ Zpos n).
Proof.
  induction n; cbn [pow_red].
  - rewrite red_mkF, mkF_mul, red_mkF, mkF_mul, IHn. replace (Zpos n~1) with (Zpos n + Zpos n + 1) by lia.
    rewrite !Z.pow_add_r, Z.pow_1_r, !mkF_mul by lia. reflexivity.
  - rewrite red_mkF, mkF_mul, IHn. replace (Zpos n~0) with (Zpos n + Zpos n) by lia.
    rewrite Z.pow_add_r, mkF_mul by lia. reflexivity.
  - rewrite red_mkF, Z.pow_1_r. reflexivity.
Qed.

(** ** scalars and encodings *)

Lemma le_decode_bound l : bytes l -> 0 <= le_decode l < 256 ^ Z.of_nat (length l).
Proof.
  induction l as [|x l IH]; intros H; [cbn; lia|]. inversion H; subst. unfold is_byte in *. specialize (IH H3).
  cbn [le_decode length]. rewrite Nat2Z.inj_succ, Z.pow_succ_r by lia. lia.
Qed.
Lemma le_encode_bytes n x : byte_string n (le_encode n x).
Proof.
  unfold le_encode, tab. split; [rewrite map_length, seq_length; reflexivity|].
  apply Forall_forall. intros y Hy. apply in_map_iff in Hy. destruct Hy as (i & <- & _). apply Z.mod_pos_bound. lia.
Qed.
Lemma le_decode_encode n x : 0 <= x -> le_decode (le_encode n x) = x mod 256 ^ Z.of_nat n.
Proof.
  unfold le_encode, tab. revert x. induction n; intros x Hx; [rewrite Z.mod_1_r; reflexivity|].
  cbn [seq map le_decode]. rewrite <- seq_shift, map_map.
  rewrite (map_ext _ (fun i => ((x / 256) / 256 ^ Z.of_nat i) mod 256)).
  - rewrite IHn by (apply Z.div_pos; lia). rewrite Z.pow_0_r, Z.div_1_r.
    rewrite Nat2Z.inj_succ, Z.pow_succ_r by lia. rewrite Z.rem_mul_r by lia. reflexivity.
  - intros i. rewrite Nat2Z.inj_succ, Z.pow_succ_r, Z.div_div by lia. reflexivity.
Qed.
Lemma decode_u v : 0 <= v < P -> decodeUCoordinate (le_encode 32 v) = v.
Proof.
  intros H. unfold decodeUCoordinate. rewrite le_decode_encode by lia.
  assert (P < 2 ^ 255) by reflexivity. assert (2 ^ 255 < 256 ^ Z.of_nat 32) by reflexivity.
  rewrite (Z.mod_small v) by lia. apply Z.mod_small. lia.
Qed.

Lemma land_byte x m : 0 <= x < 256 -> 0 <= m -> 0 <= Z.land x m <= m.
Proof.
  intros Hx Hm. split; [apply Z.land_nonneg; lia|]. destruct (Z.eq_dec (Z.land x m) 0) as [E|E]; [lia|].
  apply Z.ldiff_le; [exact Hm|]. apply Z.bits_inj'. intros n Hn. rewrite Z.ldiff_spec, Z.land_spec, Z.bits_0.
  destruct (Z.testbit x n), (Z.testbit m n); reflexivity.
Qed.
Lemma top_byte x : 0 <= x < 256 -> 0 <= Z.lor (Z.land x 127) 64 < 128.
Proof.
  intros H. assert (L : 0 <= Z.land x 127 <= 127) by (apply land_byte; lia).
  split; [apply Z.lor_nonneg; lia|].
  destruct (Z.eq_dec (Z.land x 127) 0) as [->|N]; [reflexivity|].
  assert (0 < Z.lor (Z.land x 127) 64).
  { assert (0 <= Z.lor (Z.land x 127) 64) by (apply Z.lor_nonneg; lia).
    assert (Z.lor (Z.land x 127) 64 <> 0) by (intros E; apply Z.lor_eq_0_iff in E; lia). lia. }
  change 128 with (2 ^ 7). apply Z.log2_lt_pow2; [exact H0|]. rewrite Z.log2_lor by lia.
  apply Z.max_lub_lt; [|reflexivity]. apply Z.log2_lt_pow2; lia.
Qed.
Lemma scalar_range k : byte_string 32 k -> 0 <= decodeScalar25519 k < 2 ^ 255.
Proof.
  intros [Hl Hb]. unfold decodeScalar25519.
  assert (B : forall i, (i < 32)%nat -> 0 <= nth i k 0 < 256).
  { intros i Hi. unfold bytes in Hb. rewrite Forall_forall in Hb. apply Hb. apply nth_In. lia. }
  set (f := fun i => _). unfold tab. replace (seq 0 32) with (seq 0 31 ++ [31%nat]) by reflexivity.
  rewrite map_app. cbn [map].
  assert (E : forall a b, le_decode (a ++ [b]) = le_decode a + 256 ^ Z.of_nat (length a) * b).
  { induction a as [|x a IH]; intros b; cbn [le_decode app length]; [rewrite Z.pow_0_r; ring|].
    rewrite IH, Nat2Z.inj_succ, Z.pow_succ_r by lia. ring. }
  rewrite E, map_length, seq_length.
  assert (T : 0 <= f 31%nat < 128) by (apply top_byte; apply B; lia).
  assert (L : 0 <= le_decode (map f (seq 0 31)) < 256 ^ Z.of_nat 31).
  { pose proof (le_decode_bound (map f (seq 0 31))) as LB. rewrite map_length, seq_length in LB. apply LB. clear LB.
    apply Forall_forall. intros y Hy. apply in_map_iff in Hy. destruct Hy as (i & <- & Hi). apply in_seq in Hi.
    unfold f, is_byte. destruct (Nat.eqb i 0); [pose proof (land_byte (nth 0 k 0) 248 (B 0%nat ltac:(lia)) ltac:(lia)); lia|].
    destruct (Nat.eqb i 31) eqn:E31; [apply Nat.eqb_eq in E31; lia|]. apply B. lia. }
  replace (2 ^ 255) with (256 ^ Z.of_nat 31 * 128) by reflexivity.
  generalize dependent (le_decode (map f (seq 0 31))). generalize dependent (f 31%nat).
  assert (0 < 256 ^ Z.of_nat 31) by reflexivity. generalize dependent (256 ^ Z.of_nat 31). intros. nia.
Qed.

(** ** the theorem *)

Lemma bit_split k t : 0 <= k ->
  Z.to_nat (k / 2 ^ Z.of_nat t) =
    ((if Z.testbit k (Z.of_nat t) then 1 else 0) + 2 * Z.to_nat (k / 2 ^ Z.of_nat (S t)))%nat.
Proof.
  intros Hk. assert (0 < 2 ^ Z.of_nat t) by (apply Z.pow_pos_nonneg; lia).
  pose proof (Z.div_pos k (2 ^ Z.of_nat t) Hk H) as Q.
  rewrite Nat2Z.inj_succ, Z.pow_succ_r, (Z.mul_comm 2), <- Z.div_div by lia.
  rewrite Z.testbit_odd, Z.shiftr_div_pow2 by lia.
  set (n := k / 2 ^ Z.of_nat t) in *. clearbody n. pose proof (Z.div_pos n 2 Q ltac:(lia)).
  pose proof (Z.div2_odd n) as W. rewrite Z.div2_div in W. destruct (Z.odd n); cbn [Z.b2z] in W; lia.
Qed.

(** [e = 1]: the curve, Edwards form with parameter c, constant a24.  [e = -1]: the twist,
    whose u-coordinates are the negated ones of the Edwards curve with parameter 1/c; the
    ladder runs on it with the sign of every z changed. *)
Section Curve.
  Variables C' A' e : F.
  Hypothesis nonsquare' : forall x, Fmul x x <> C'.
  Hypothesis a24_def' : Fmul A' (Fsub F1 C') = C'.
  Hypothesis e_sq : Fmul e e = F1.

  Definition flip (st : F * F * F * F * bool) : F * F * F * F * bool :=
    let '(x2, z2, x3, z3, swap) := st in (x2, Fmul e z2, x3, Fmul e z3, swap).
  Hypothesis flip_step : forall u kt st,
    lstep F Fadd Fmul Fsub A' (Fmul e u) kt (flip st) = flip (lstep F Fadd Fmul Fsub A24 u kt st).

  Notation on' := (on F F0 F1 Fadd Fmul Fsub C').
  Notation smul' := (smul F F0 F1 Fadd Fmul Fsub Fdiv C').
  Notation u_of' := (u_of F F1 Fadd Fmul Fsub Finv).
  Notation holds' := (holds F F0 F1 Fadd Fmul Fsub Fdiv C').

  Lemma e_nz : e <> F0.
  Proof.
    intros E. rewrite E in e_sq. apply (F_1_neq_0 F_field). rewrite <- e_sq. ring.
  Qed.

  Section Ladder.
    Variable k : Z.
    Hypothesis Hk : 0 <= k.
    Variable Q : point F.
    Hypothesis HQ : on' Q.
    Variable u : Z.
    Hypothesis Hu : mkF u = Fmul e (u_of' Q).

    Lemma Hu' : Fmul e (mkF u) = u_of' Q.
    Proof. rewrite Hu. transitivity (Fmul (Fmul e e) (u_of' Q)); [ring|]. rewrite e_sq. ring. Qed.

    Lemma ladder_holds n st : Fsub F1 (snd Q) <> F0 -> Fadd F1 (snd Q) <> F0 ->
      holds' Q (Z.to_nat (k / 2 ^ Z.of_nat n)) (flip (stF st)) ->
      holds' Q (Z.to_nat k) (flip (stF (fold_left (ladder_step red k u) (rev (seq 0 n)) st))).
    Proof.
      intros N1 N2. revert st. induction n; intros st H.
      - cbn [seq rev fold_left]. rewrite Z.pow_0_r, Z.div_1_r in H. exact H.
      - rewrite seq_S, rev_app_distr. cbn [rev app fold_left Nat.add]. apply IHn.
        rewrite step_F, <- flip_step, Hu', bit_split by exact Hk.
        apply (lstep_holds F F0 F1 Fadd Fmul Fsub Fopp Fdiv Finv F_field F_dec F_two C' A' nonsquare' a24_def'); assumption.
    Qed.
    Lemma ladder_degenerate n st : u_of' Q = F0 -> degenerate F F0 Fmul (flip (stF st)) ->
      degenerate F F0 Fmul (flip (stF (fold_left (ladder_step red k u) (rev (seq 0 n)) st))).
    Proof.
      intros E. revert st. induction n; intros st H; [exact H|].
      rewrite seq_S, rev_app_distr. cbn [rev app fold_left Nat.add]. apply IHn.
      rewrite step_F, <- flip_step, Hu', E.
      apply (lstep_degenerate F F0 F1 Fadd Fmul Fsub Fopp Fdiv Finv F_field A'). exact H.
    Qed.
  End Ladder.

  Lemma y_cases Q : u_of' Q <> F0 -> Fsub F1 (snd Q) <> F0 /\ Fadd F1 (snd Q) <> F0.
  Proof.
    intros N. split; intros E; apply N; unfold u_of; rewrite E; [rewrite F_inv0|]; ring.
  Qed.
  Lemma rep_scale X Z Q : rep F F0 F1 Fadd Fmul Fsub X Z Q -> rep F F0 F1 Fadd Fmul Fsub (Fmul e X) (Fmul e Z) Q.
  Proof.
    intros (l & L & -> & ->). exists (Fmul e l). split; [|split; ring].
    apply (mul_nz F F0 F1 Fadd Fmul Fsub Fopp Fdiv Finv F_field F_dec); [exact e_nz|exact L].
  Qed.

  Lemma ladder_ratio n u Q : 0 <= n < 2 ^ 255 -> on' Q -> mkF u = Fmul e (u_of' Q) ->
    exists x z, (let '(x2, z2, x3, z3, swap) := fold_left (ladder_step red n u) (rev (seq 0 255)) (1, 0, u, 1, false) in
                 if swap : bool then (x3, z3) else (x2, z2)) = (x, z) /\
      Fmul (mkF x) (Finv (Fmul e (mkF z))) = u_of' (smul' (Z.to_nat n) Q).
  Proof.
    intros Hr HQ Hu. set (st := fold_left _ _ _).
    destruct (F_dec (u_of' Q) F0) as [E|E].
      - pose proof (ladder_degenerate n Q u Hu 255 (1, 0, u, 1, false) E) as W. fold st in W.
        destruct st as [[[[x2 z2] x3] z3] swap].
        assert (W0 : degenerate F F0 Fmul (flip (stF (1, 0, u, 1, false)))).
        { unfold degenerate, flip, stF. rewrite Hu, E. split; [change (mkF 0) with F0|]; ring. }
        specialize (W W0). unfold degenerate, flip, stF in W.
        assert (S0 : u_of' (smul' (Z.to_nat n) Q) = F0).
        { apply (smul_degenerate F F0 F1 Fadd Fmul Fsub Fopp Fdiv Finv F_field F_dec F_inv0 F_two C' nonsquare'); assumption. }
        rewrite S0. destruct swap; [exists x3, z3|exists x2, z2]; (split; [reflexivity|]);
          apply (degenerate_u F F0 F1 Fadd Fmul Fsub Fopp Fdiv Finv F_field F_dec F_inv0); tauto.
      - destruct (y_cases Q E) as [N1 N2].
        pose proof (ladder_holds n (proj1 Hr) Q HQ u Hu 255 (1, 0, u, 1, false) N1 N2) as W. fold st in W.
        destruct st as [[[[x2 z2] x3] z3] swap].
        assert (W0 : holds' Q (Z.to_nat (n / 2 ^ Z.of_nat 255)) (flip (stF (1, 0, u, 1, false)))).
        { rewrite Z.div_small by exact Hr. unfold flip, stF. rewrite Hu.
          pose proof (start_holds F F0 F1 Fadd Fmul Fsub Fopp Fdiv Finv F_field F_two C' Q N1) as [S1 S2].
          apply rep_scale in S2. split.
          - replace (Fmul e (mkF 0)) with F0 by (change (mkF 0) with F0; ring). exact S1.
          - exact S2. }
        specialize (W W0). unfold holds, flip, stF in W.
        destruct swap; [exists x3, z3|exists x2, z2]; (split; [reflexivity|]);
          apply (rep_u F F0 F1 Fadd Fmul Fsub Fopp Fdiv Finv F_field F_dec F_inv0); apply W.
  Qed.
  Lemma X25519_Edwards k ub Q : byte_string 32 k -> on' Q -> mkF (decodeUCoordinate ub) = Fmul e (u_of' Q) ->
    X25519 k ub = le_encode 32 (val (Fmul e (u_of' (smul' (Z.to_nat (decodeScalar25519 k)) Q)))).
  Proof.
    intros Hk HQ Hu. unfold X25519, X25519_with.
    pose proof (scalar_range k Hk) as Hr. set (n := decodeScalar25519 k) in *. clearbody n.
    set (u := decodeUCoordinate ub) in *. clearbody u.
    change (fun x => x mod p25519) with red.
    destruct (ladder_ratio n u Q Hr HQ Hu) as (x & z & E & G).
    set (st := fold_left _ _ _) in *.
    destruct st as [[[[x2 z2] x3] z3] swap]. rewrite E. f_equal.
    rewrite <- G. change (red ?a) with (a mod P). rewrite <- val_mkF. f_equal.
    assert (I : forall y, Fmul e (Finv (Fmul e y)) = Finv y).
    { intros y. destruct (F_dec y F0) as [->|Ny].
      - replace (Fmul e F0) with F0 by ring. rewrite F_inv0. ring.
      - field. split; [exact Ny|exact e_nz]. }
    transitivity (Fmul (mkF x) (Fmul e (Finv (Fmul e (mkF z))))); [|ring]. rewrite I.
    rewrite mkF_mul, pow_red_F. f_equal. unfold Finv. apply mkF_eq.
    rewrite val_mkF, <- Zpower_mod by reflexivity. reflexivity.
  Qed.
End Curve.

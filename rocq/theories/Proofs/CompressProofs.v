(** compress.rs computes the rounding functions of FIPS 203, for every d in 1..12 and
    every field element; the results are then lifted to polynomials and vectors. *)
From Coq Require Import List ZArith Lia Bool Arith.
From Verif.Base Require Import Res Oracles.
From Verif.Spec Require Import FIPS203 Domains.
From Verif.Model Require Import Machine Util Algebra Compress.
From Verif.Proofs Require Import Basics Field.
Import ListNotations.
Open Scope Z_scope.

(** all integers of [0, n) *)
Definition upto (n : Z) : list Z := map Z.of_nat (seq 0 (Z.to_nat n)).
Lemma in_upto n x : 0 <= x < n -> In x (upto n).
Proof.
  intros H. unfold upto. apply in_map_iff. exists (Z.to_nat x). split; [lia|].
  apply in_seq. lia.
Qed.

Lemma sweep (P : nat -> Z -> bool) (bound : nat -> Z) lo n :
  forallb (fun d => forallb (P d) (upto (bound d))) (seq lo n) = true ->
  forall d x, (lo <= d < lo + n)%nat -> 0 <= x < bound d -> P d x = true.
Proof.
  intros H d x Hd Hx. rewrite forallb_forall in H.
  specialize (H d (proj2 (in_seq _ _ _) Hd)). rewrite forallb_forall in H.
  apply H, in_upto, Hx.
Qed.

(** 2^d = 2 h with 1 <= h <= 2^11 *)
Lemma pow_half d : (1 <= d <= 12)%nat ->
  exists h, 2 ^ Z.of_nat d = 2 * h /\ h = 2 ^ (Z.of_nat d - 1) /\ 1 <= h <= 2048.
Proof.
  intros Hd. exists (2 ^ (Z.of_nat d - 1)).
  assert (E : 2 ^ Z.of_nat d = 2 * 2 ^ (Z.of_nat d - 1)).
  { rewrite <- Z.pow_succ_r by lia. f_equal. lia. }
  split; [exact E|]. split; [reflexivity|].
  split; [apply (Z.pow_le_mono_r 2 0); lia|apply (Z.pow_le_mono_r 2 _ 11); lia].
Qed.
Lemma pow_half11 d : (1 <= d <= 11)%nat ->
  exists h, 2 ^ Z.of_nat d = 2 * h /\ 1 <= h <= 1024.
Proof.
  intros Hd. destruct (pow_half d) as (h & E & -> & _); [lia|].
  eexists. split; [exact E|].
  split; [apply (Z.pow_le_mono_r 2 0); lia|apply (Z.pow_le_mono_r 2 _ 10); lia].
Qed.

(** division with a quotient and a remainder *)
Lemma div_unique_bounds a b t : 0 < b -> b * t <= a < b * (t + 1) -> a / b = t.
Proof. intros Hb H. symmetry. apply (Z.div_unique a b t (a - b * t)); lia. Qed.
Lemma div_bounds a b : 0 < b -> b * (a / b) <= a < b * (a / b + 1).
Proof.
  intros Hb. pose proof (Z.div_mod a b ltac:(lia)). pose proof (Z.mod_pos_bound a b Hb). lia.
Qed.

(** rounding: 2 b |round(a/b) - a/b| <= b *)
Lemma round_bounds a b : 0 < b ->
  2 * a - b < 2 * b * round_div a b <= 2 * a + b.
Proof.
  intros Hb. unfold round_div. pose proof (div_bounds (2 * a + b) (2 * b) ltac:(lia)). lia.
Qed.
Lemma round_unique a b t : 0 < b -> 2 * a - b < 2 * b * t <= 2 * a + b -> round_div a b = t.
Proof. intros Hb H. unfold round_div. apply div_unique_bounds; lia. Qed.

Lemma DIV_MUL_val : DIV_MUL = 5160669.
Proof. reflexivity. Qed.

(** Multiplying by floor(2^34 / q) and shifting right by 34 rounds a / q, after adding
    (q + 1) / 2: the sum is one too large for an exact division and the truncated
    reciprocal just too small for it, and for all 2^d x the two deviations cancel. *)
Lemma reciprocal p x : fe x -> 1 <= p <= 4096 -> (p <= 2048 \/ p = 4096) ->
  (x * p + 1665) * 5160669 / 2 ^ 34 = round_div (p * x) q.
Proof.
  unfold fe. intros Hx Hp Hc. symmetry. change (2 ^ 34) with 17179869184.
  set (s := (x * p + 1665) * 5160669 / 17179869184).
  pose proof (div_bounds ((x * p + 1665) * 5160669) 17179869184 ltac:(lia)) as B. fold s in B.
  unfold q in *. set (a := x * p) in *.
  assert (Ha : 0 <= a <= 3328 * p) by (unfold a; nia).
  apply round_unique; [lia|]. rewrite (Z.mul_comm p x). fold a.
  destruct Hc as [Hc|Hc]; [lia|].
  subst p. unfold a in *. lia.
Qed.

Lemma fe_compress_ok d x : (1 <= d <= 12)%nat -> fe x -> fe_compress d x = Ok (Compress d x).
Proof.
  intros Hd Hx. destruct (pow_half d Hd) as (h & E & Eh & Hh).
  assert (Hc : 2 ^ Z.of_nat d <= 2048 \/ 2 ^ Z.of_nat d = 4096).
  { destruct (Nat.eq_dec d 12) as [->|N]; [right; reflexivity|left].
    apply (Z.pow_le_mono_r 2 _ 11); lia. }
  pose proof (reciprocal (2 ^ Z.of_nat d) x Hx ltac:(lia) Hc) as R.
  unfold fe_compress. unfold fe, q in Hx.
  rewrite ushl_ok by (rewrite ?E; cbn [modulus bits_of]; nia). cbn [bind].
  change Q_HALF with 1665. rewrite uadd_ok by (rewrite ?E; cbn [modulus bits_of]; nia). cbn [bind].
  rewrite DIV_MUL_val. rewrite umul_ok by (rewrite ?E; cbn [modulus bits_of]; nia). cbn [bind].
  unfold DIV_SHIFT. rewrite ushr_ok by (cbn [bits_of]; lia). cbn [bind]. rewrite R.
  pose proof (round_bounds (2 ^ Z.of_nat d * x) q eq_refl) as B.
  assert (Hr : 0 <= round_div (2 ^ Z.of_nat d * x) q <= 4097) by (unfold q in *; rewrite E in *; nia).
  rewrite truncate_small by mlia. cbn [bind]. rewrite truncate_small by mlia. cbn [bind].
  f_equal. unfold Compress, MASK.
  replace (Z.shiftl 1 (Z.of_nat d) - 1) with (Z.ones (Z.of_nat d)) by reflexivity.
  apply Z.land_ones. lia.
Qed.

Lemma Decompress_half d h y : 2 ^ Z.of_nat d = 2 * h -> 1 <= h ->
  Decompress d y = (q * y + h) / (2 * h).
Proof.
  intros E Hh. unfold Decompress, round_div. rewrite E.
  replace (2 * (q * y) + 2 * h) with (2 * (q * y + h)) by ring.
  apply Z.div_mul_cancel_l; lia.
Qed.

Lemma fe_decompress_ok d y : (1 <= d <= 12)%nat -> 0 <= y < 2 ^ Z.of_nat d ->
  fe_decompress d y = Ok (Decompress d y).
Proof.
  intros Hd Hy. destruct (pow_half d Hd) as (h & E & Eh & Hh).
  rewrite (Decompress_half d h y E) by lia. unfold fe_decompress.
  rewrite E in Hy. change Q32 with 3329. unfold q.
  rewrite umul_ok by mlia. cbn [bind].
  unfold POW2_HALF. rewrite Z.shiftl_1_l. rewrite <- Eh.
  rewrite uadd_ok by mlia. cbn [bind].
  rewrite ushr_ok by (cbn [bits_of]; lia). cbn [bind]. rewrite E.
  rewrite (Z.mul_comm y). apply truncate_small. cbn [modulus].
  pose proof (div_bounds (3329 * y + h) (2 * h) ltac:(lia)) as B. split; [nia|].
  apply Z.div_lt_upper_bound; nia.
Qed.

Lemma Compress_range d x : 0 <= Compress d x < 2 ^ Z.of_nat d.
Proof. unfold Compress. apply Z.mod_pos_bound. apply Z.pow_pos_nonneg; lia. Qed.

(** A decompressed value is a field element: for d = 12 the argument must be one. *)
Lemma Decompress_fe d y : (1 <= d <= 12)%nat -> 0 <= y < 2 ^ Z.of_nat d ->
  (d = 12%nat -> fe y) -> fe (Decompress d y).
Proof.
  intros Hd Hy Hq. destruct (pow_half d Hd) as (h & E & Eh & Hh).
  rewrite (Decompress_half d h y E) by lia. unfold fe in *.
  split; [apply Z.div_pos; unfold q; lia|].
  destruct (Nat.eq_dec d 12) as [->|N].
  - specialize (Hq eq_refl). change (2 ^ Z.of_nat 12) with 4096 in E.
    replace h with 2048 by lia. apply Z.div_lt_upper_bound; unfold q in *; lia.
  - destruct (pow_half11 d ltac:(lia)) as (h' & E' & Hh').
    rewrite E in *. apply Z.div_lt_upper_bound; unfold q in *; nia.
Qed.

(** Round trips *)
Lemma Compress_Decompress d y : (1 <= d <= 11)%nat -> 0 <= y < 2 ^ Z.of_nat d ->
  Compress d (Decompress d y) = y.
Proof.
  intros Hd Hy. destruct (pow_half11 d Hd) as (h & E & Hh).
  pose proof (round_bounds (q * y) (2 ^ Z.of_nat d) ltac:(lia)) as B.
  fold (Decompress d y) in B. unfold Compress. rewrite E in *.
  rewrite (round_unique (2 * h * Decompress d y) q y).
  - apply Z.mod_small. exact Hy.
  - reflexivity.
  - unfold q in *. lia.
Qed.

(** distance modulo q: the absolute value of the centred representative *)
Lemma centred_spec x : -1664 <= centred x <= 1664 /\ centred x mod q = x mod q.
Proof.
  unfold centred. split.
  - pose proof (Z.mod_pos_bound (x + 1664) q eq_refl) as H. unfold q in *. lia.
  - modq.
Qed.
Lemma centred_small x : -1664 <= x <= 1664 -> centred x = x.
Proof. intros H. unfold centred. rewrite Z.mod_small by (unfold q; lia). lia. Qed.
Lemma centred_add_q x : centred (x + q) = centred x.
Proof.
  unfold centred. replace (x + q + 1664) with (x + 1664 + 1 * q) by ring.
  rewrite Z.mod_add by discriminate. reflexivity.
Qed.

Lemma Decompress_Compress_error d x : (1 <= d <= 12)%nat -> fe x ->
  Z.abs (centred (Decompress d (Compress d x) - x)) <= round_div q (2 ^ Z.of_nat (d + 1)).
Proof.
  intros Hd Hx. destruct (pow_half d Hd) as (h & E & Eh & Hh). unfold fe in Hx.
  assert (E2 : 2 ^ Z.of_nat (d + 1) = 4 * h).
  { rewrite Nat2Z.inj_add, Z.pow_add_r, E by lia. change (2 ^ Z.of_nat 1) with 2. ring. }
  rewrite E2.
  pose proof (round_bounds (2 * h * x) q eq_refl) as B.
  set (c := round_div (2 * h * x) q) in *.
  assert (Hc : 0 <= c <= 2 * h) by (unfold q in *; nia).
  assert (EC : Compress d x = c mod (2 * h)) by (unfold Compress; rewrite E; reflexivity).
  rewrite EC.
  (** the decompressed value of c itself *)
  pose proof (round_bounds (q * c) (2 * h) ltac:(lia)) as B2.
  set (y := round_div (q * c) (2 * h)) in *.
  pose proof (round_bounds q (4 * h) ltac:(lia)) as B3.
  set (e := round_div q (4 * h)) in *.
  assert (A : Z.abs (y - x) <= e) by (unfold q in *; nia).
  assert (He : e <= 833) by (unfold q in *; nia).
  assert (EY : exists j, Decompress d (c mod (2 * h)) = y + j * q /\ (j = 0 \/ j = -1)).
  { destruct (Z.eq_dec c (2 * h)) as [Ec|Nc].
    - exists (-1). split; [|right; reflexivity]. rewrite Ec, Z.mod_same by lia.
      rewrite (Decompress_half d h 0 E) by lia. rewrite Z.mul_0_r, Z.add_0_l.
      rewrite Z.div_small by lia.
      enough (y = q) by lia. subst y. apply round_unique; [lia|]. rewrite Ec. nia.
    - exists 0. split; [|left; reflexivity]. rewrite Z.mod_small by lia.
      unfold Decompress. rewrite E. fold y. ring. }
  destruct EY as (j & -> & [-> | ->]).
  - replace (y + 0 * q - x) with (y - x) by ring. rewrite centred_small by lia. exact A.
  - rewrite <- centred_add_q. replace (y + -1 * q - x + q) with (y - x) by ring.
    rewrite centred_small by lia. exact A.
Qed.

(** polynomials and vectors *)

Lemma poly_compress_ok d p : (1 <= d <= 12)%nat -> poly p ->
  poly_compress d p = Ok (map (Compress d) p).
Proof.
  intros Hd [_ F]. unfold poly_compress. apply mapM_ok. intros x Hx.
  rewrite Forall_forall in F. apply fe_compress_ok; auto.
Qed.

Lemma poly_decompress_ok d p : (1 <= d <= 12)%nat -> small d p ->
  poly_decompress d p = Ok (map (Decompress d) p).
Proof.
  intros Hd [_ F]. unfold poly_decompress. apply mapM_ok. intros x Hx.
  rewrite Forall_forall in F. apply fe_decompress_ok; auto.
Qed.

Lemma vec_compress_ok d k v : (1 <= d <= 12)%nat -> vec k v ->
  vec_compress d v = Ok (map (map (Compress d)) v).
Proof.
  intros Hd Hv. unfold vec_compress. apply mapM_ok. intros p Hp.
  apply poly_compress_ok; [exact Hd|]. eapply vec_in; eassumption.
Qed.

Lemma vec_decompress_ok d v : (1 <= d <= 12)%nat -> Forall (small d) v ->
  vec_decompress d v = Ok (map (map (Decompress d)) v).
Proof.
  intros Hd Hv. unfold vec_decompress. apply mapM_ok. intros p Hp.
  rewrite Forall_forall in Hv. apply poly_decompress_ok; auto.
Qed.

Lemma Compress_small d p : length p = 256%nat -> small d (map (Compress d) p).
Proof.
  intros L. split; [rewrite map_length; exact L|].
  apply Forall_forall. intros x (y & <- & _)%in_map_iff. apply Compress_range.
Qed.

Lemma Decompress_poly d p : (1 <= d <= 12)%nat -> small d p -> (d = 12%nat -> poly p) ->
  poly (map (Decompress d) p).
Proof.
  intros Hd [L F] Hq. split; [rewrite map_length; exact L|].
  rewrite Forall_forall in *. intros x (y & <- & Hy)%in_map_iff.
  apply Decompress_fe; auto. intros E. specialize (Hq E) as [_ G].
  rewrite Forall_forall in G. auto.
Qed.

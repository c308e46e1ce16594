(** C50, C51: the exact distributions of the samplers on uniformly random bytes, stated as
    numbers of byte strings.  [L] is any list of all byte strings of the given length
    without repetition. *)
From Coq Require Import List ZArith Lia Bool Arith.
From Verif.Base Require Import Res Oracles.
From Verif.Spec Require Import FIPS203 Domains Counting.
From Verif.Model Require Import Machine Util Algebra Encode Crypto Sample.
From Verif.Proofs Require Import Basics Field Poly CompressProofs EncodeProofs SampleProofs CountProofs.
Import ListNotations.
Open Scope Z_scope.

(** ** C50: [sample_cbd] is the centred binomial distribution, independently per
    coefficient *)

(** one coefficient: a sweep over the 2^(2 eta) fields and the q residues, arranged so
    that only the 2 eta + 1 residues that occur are examined *)
Lemma choose_0 n k : k < 0 \/ Z.of_nat n < k -> choose n k = 0.
Proof.
  revert k. induction n as [|n IH]; intros k H; cbn [choose].
  - destruct (Z.eqb_spec k 0); [lia|reflexivity].
  - rewrite !IH by lia. reflexivity.
Qed.

Lemma cbd_value_range eta x : (eta = 2 \/ eta = 3)%nat ->
  exists e, - Z.of_nat eta <= e <= Z.of_nat eta /\ cbd_value eta x = e mod q.
Proof.
  intros _. unfold cbd_value. eexists. split; [|reflexivity].
  pose proof (sum_bits_bound eta (fun j => Z.testbit x (Z.of_nat j))).
  pose proof (sum_bits_bound eta (fun j => Z.testbit x (Z.of_nat (eta + j)))). lia.
Qed.

Lemma count_none {A} (t : A -> bool) l : (forall x, In x l -> t x = false) -> count t l = 0.
Proof. intros H. rewrite (count_ext_in t (fun _ => false) l H). apply count_false. Qed.

Lemma centred_range x : -1664 <= centred x <= 1664.
Proof. unfold centred. pose proof (Z.mod_pos_bound (x + 1664) q ltac:(reflexivity)). unfold q in *. lia. Qed.
Lemma centred_mod x : centred x mod q = x mod q.
Proof.
  unfold centred. rewrite Zminus_mod_idemp_l. f_equal. lia.
Qed.

Lemma centred_unique a b : -1664 <= a <= 1664 -> -1664 <= b <= 1664 -> a mod q = b mod q -> a = b.
Proof.
  intros Ha Hb E. pose proof (Z.div_mod a q ltac:(discriminate)) as A.
  pose proof (Z.div_mod b q ltac:(discriminate)) as B. rewrite E in A. unfold q in *.
  generalize dependent (b mod 3329). intros. lia.
Qed.

Lemma one_coefficient eta y : (eta = 2 \/ eta = 3)%nat -> fe y ->
  count (fun x => cbd_value eta x =? y) (upto (2 ^ Z.of_nat (2 * eta))) =
  choose (2 * eta) (Z.of_nat eta + centred y).
Proof.
  intros He Hy. pose proof (centred_range y) as R. pose proof (centred_mod y) as M.
  rewrite (Z.mod_small y) in M by exact Hy.
  destruct (Z_le_dec (- Z.of_nat eta) (centred y)) as [H1|H1];
    [destruct (Z_le_dec (centred y) (Z.of_nat eta)) as [H2|H2]|].
  - rewrite <- M. clear M Hy R. revert H1 H2. generalize (centred y). intros c H1 H2.
    destruct He as [-> | ->].
    + assert (c = -2 \/ c = -1 \/ c = 0 \/ c = 1 \/ c = 2) as C by lia.
      destruct C as [-> | [-> | [-> | [-> | ->]]]]; vm_compute; reflexivity.
    + assert (c = -3 \/ c = -2 \/ c = -1 \/ c = 0 \/ c = 1 \/ c = 2 \/ c = 3) as C by lia.
      destruct C as [-> | [-> | [-> | [-> | [-> | [-> | ->]]]]]]; vm_compute; reflexivity.
  - rewrite choose_0 by lia. apply count_none. intros x _. apply Z.eqb_neq. intros E.
    destruct (cbd_value_range eta x He) as (e & He' & E'). 
    assert (M' : centred y mod q = e mod q) by congruence.
    apply centred_unique in M'; lia.
  - rewrite choose_0 by lia. apply count_none. intros x _. apply Z.eqb_neq. intros E.
    destruct (cbd_value_range eta x He) as (e & He' & E'). 
    assert (M' : centred y mod q = e mod q) by congruence.
    apply centred_unique in M'; lia.
Qed.

Theorem C50_binomial : forall eta p L, (eta = 2 \/ eta = 3)%nat -> poly p -> enumerates (64 * eta) L ->
  count (fun B => returns (poly_sample_cbd eta B) p) L =
  prod 256 (fun i => choose (2 * eta) (Z.of_nat eta + centred (co p i))).
Proof.
  intros eta p L He Hp HL. rewrite count_cbd by (try exact (proj1 Hp); assumption).
  apply prod_ext. intros i Hi. apply one_coefficient; [exact He|].
  apply (proj1 (Forall_forall _ _) (proj2 Hp)). apply nth_In. rewrite (proj1 Hp). exact Hi.
Qed.

(** the polynomials that occur at all *)
Lemma choose_pos n k : 0 <= k <= Z.of_nat n -> 0 < choose n k.
Proof.
  assert (NN : forall n k, 0 <= choose n k).
  { induction n0 as [|m IH]; intros j; cbn [choose]; [destruct (j =? 0); lia|].
    pose proof (IH (j - 1)). pose proof (IH j). lia. }
  revert k. induction n as [|n IH]; intros k H; cbn [choose].
  - destruct (Z.eqb_spec k 0); lia.
  - pose proof (NN n k). pose proof (NN n (k - 1)).
    destruct (Z.eq_dec k 0) as [->|Nz]; [pose proof (IH 0)|pose proof (IH (k - 1))]; lia.
Qed.
Lemma prod_pos n f : (forall i, (i < n)%nat -> 0 <= f i) ->
  (0 < prod n f <-> forall i, (i < n)%nat -> 0 < f i) /\ 0 <= prod n f.
Proof.
  induction n as [|n IH]; intros H; cbn [prod].
  - split; [|lia]. split; [intros; lia|reflexivity].
  - destruct IH as [[I1 I2] I3]; [intros; apply H; lia|]. pose proof (H n ltac:(lia)) as Hn. split; [|nia]. split.
    + intros P i Hi. destruct (Nat.eq_dec i n) as [->|Ne]; [nia|]. apply I1; [nia|lia].
    + intros F. pose proof (I2 ltac:(intros; apply F; lia)). pose proof (F n ltac:(lia)). nia.
Qed.

Theorem C50_support : forall eta p L, (eta = 2 \/ eta = 3)%nat -> poly p -> enumerates (64 * eta) L ->
  (0 < count (fun B => returns (poly_sample_cbd eta B) p) L <->
   forall i, (i < 256)%nat -> - Z.of_nat eta <= centred (co p i) <= Z.of_nat eta).
Proof.
  intros eta p L He Hp HL. rewrite (C50_binomial eta p L He Hp HL).
  assert (A : forall k, 0 <= choose (2 * eta) k /\ (0 < choose (2 * eta) k <-> 0 <= k <= 2 * Z.of_nat eta)).
  { intros k. destruct (Z_le_dec 0 k) as [H1|H1]; [destruct (Z_le_dec k (2 * Z.of_nat eta)) as [H2|H2]|].
    - pose proof (choose_pos (2 * eta) k ltac:(lia)). lia.
    - rewrite choose_0 by lia. lia.
    - rewrite choose_0 by lia. lia. }
  rewrite (proj1 (prod_pos 256 _ (fun i _ => proj1 (A _)))).
  split; intros H i Hi; specialize (H i Hi); [apply (proj2 (A _)) in H; lia|apply (proj2 (A _)); lia].
Qed.

(** ** C51: [sample_uniform] is uniform: every polynomial is returned on the same number of
    byte strings *)

Theorem C51_uniform : forall n p p' L, poly p -> poly p' -> enumerates (3 * n) L ->
  count (fun B => returns (poly_sample_uniform n {| xof_stream := fun i => nth i B 0; xof_pos := 0 |}) p) L =
  count (fun B => returns (poly_sample_uniform n {| xof_stream := fun i => nth i B 0; xof_pos := 0 |}) p') L.
Proof. intros n p p' L Hp Hp' HL. rewrite !count_uniform by assumption. reflexivity. Qed.

(** and that number is the number of sequences of 2n candidates whose first 256 accepted
    entries are prescribed *)
Theorem C51_exact : forall n p L, poly p -> enumerates (3 * n) L ->
  count (fun B => returns (poly_sample_uniform n {| xof_stream := fun i => nth i B 0; xof_pos := 0 |}) p) L =
  accepting (2 * n) 256.
Proof. intros n p L Hp HL. apply count_uniform; assumption. Qed.

(** ** cases: the enumerations exist *)

Example enumeration n : enumerates n (tuples (upto 256) n).
Proof.
  split; [apply NoDup_tuples, NoDup_upto|]. intros B. rewrite in_tuples. unfold byte_string, bytes.
  split; intros [H1 H2]; (split; [exact H1|]); (eapply Forall_impl; [|exact H2]); intros x Hx; apply in_upto_iff; exact Hx.
Qed.

Example zero_poly : poly (repeat 0 256).
Proof. split; [apply repeat_length|]. apply Forall_forall. intros x Hx. apply repeat_spec in Hx. subst x. split; reflexivity. Qed.

Lemma prod_const n c : prod n (fun _ => c) = c ^ Z.of_nat n.
Proof.
  induction n as [|n IH]; [reflexivity|]. cbn [prod]. rewrite IH, Nat2Z.inj_succ, Z.pow_succ_r by lia. ring.
Qed.

(** the zero polynomial: 6^256 of the 2^1024, 20^256 of the 2^1536 byte strings *)
Example C50_case :
  count (fun B => returns (poly_sample_cbd 2 B) (repeat 0 256)) (tuples (upto 256) 128) = 6 ^ 256 /\
  count (fun B => returns (poly_sample_cbd 3 B) (repeat 0 256)) (tuples (upto 256) 192) = 20 ^ 256.
Proof.
  split; (rewrite C50_binomial; [|lia|exact zero_poly|apply enumeration]).
  - rewrite (prod_ext 256 _ (fun _ => 6)); [exact (prod_const 256 6)|].
    intros i Hi. unfold co. rewrite nth_repeat. reflexivity.
  - rewrite (prod_ext 256 _ (fun _ => 20)); [exact (prod_const 256 20)|].
    intros i Hi. unfold co. rewrite nth_repeat. reflexivity.
Qed.

(** the extremes: one group too few returns nothing; with 384 bytes exactly one string gives
    the zero polynomial *)
Lemma accepting_short r n : (n < r)%nat -> accepting n r = 0.
Proof.
  revert r. induction n as [|n IH]; intros [|r] H; try lia; cbn [accepting]; [reflexivity|].
  rewrite !IH by lia. reflexivity.
Qed.
Lemma accepting_tight r : accepting r r = 1.
Proof. induction r as [|r IH]; [reflexivity|]. cbn [accepting]. rewrite IH, accepting_short by lia. reflexivity. Qed.

Example C51_case :
  count (fun B => returns (poly_sample_uniform 127 {| xof_stream := fun i => nth i B 0; xof_pos := 0 |}) (repeat 0 256))
    (tuples (upto 256) 381) = 0 /\
  count (fun B => returns (poly_sample_uniform 128 {| xof_stream := fun i => nth i B 0; xof_pos := 0 |}) (repeat 0 256))
    (tuples (upto 256) 384) = 1.
Proof.
  split.
  - rewrite (C51_exact 127); [|exact zero_poly|apply (enumeration 381)]. apply accepting_short. lia.
  - rewrite (C51_exact 128); [|exact zero_poly|apply (enumeration 384)]. apply (accepting_tight 256).
Qed.

(** from 384 bytes on every polynomial occurs *)
Lemma accepting_pos r n : (r <= n)%nat -> 0 < accepting n r.
Proof.
  assert (NN : forall n r, 0 <= accepting n r).
  { induction n0 as [|m IH]; intros [|j]; cbn [accepting]; try lia; try (apply Z.pow_nonneg; lia).
    pose proof (IH j). pose proof (IH (S j)). lia. }
  revert r. induction n as [|n IH]; intros [|r] H; cbn [accepting]; try lia; try (apply Z.pow_pos_nonneg; lia).
  pose proof (IH r ltac:(lia)). pose proof (NN n (S r)). lia.
Qed.
Theorem C51_all_occur : forall n p L, (128 <= n)%nat -> poly p -> enumerates (3 * n) L ->
  exists B, In B L /\
  poly_sample_uniform n {| xof_stream := fun i => nth i B 0; xof_pos := 0 |} = Ok p.
Proof.
  intros n p L Hn Hp HL. pose proof (C51_exact n p L Hp HL) as E.
  pose proof (accepting_pos 256 (2 * n) ltac:(lia)) as P. rewrite <- E in P. unfold count in P.
  destruct (filter _ L) as [|B rest] eqn:F; [cbn [length] in P; lia|].
  assert (I : In B (B :: rest)) by (left; reflexivity). rewrite <- F in I. apply filter_In in I.
  exists B. split; [apply I|]. destruct I as [_ R]. unfold returns in R.
  destruct (poly_sample_uniform n _) as [x| | |]; try discriminate R.
  destruct (list_eq_dec Z.eq_dec x p) as [->|_]; [reflexivity|discriminate R].
Qed.

(** Tail bounds by counting: weighted sums over sequences, the Markov inequality, and
    bounds of large powers by fixed-point arithmetic. *)
From Coq Require Import List ZArith Lia Bool Arith.
From Verif.Base Require Import Res Oracles.
From Verif.Spec Require Import FIPS203 Domains Counting Random.
From Verif.Model Require Import Machine Util Algebra Encode Crypto Sample.
From Verif.Proofs Require Import Basics Field Poly CompressProofs EncodeProofs SampleProofs CountProofs.
Import ListNotations.
Open Scope Z_scope.

(** ** weighted sums *)
Definition wsum {A} (w : A -> Z) (l : list A) : Z := fold_right Z.add 0 (map w l).

Lemma wsum_cons {A} (w : A -> Z) x l : wsum w (x :: l) = w x + wsum w l.
Proof. reflexivity. Qed.
Lemma wsum_app {A} (w : A -> Z) l m : wsum w (l ++ m) = wsum w l + wsum w m.
Proof. induction l as [|x l IH]; [reflexivity|]. cbn [app]. rewrite !wsum_cons, IH. ring. Qed.
Lemma wsum_map {A B} (w : B -> Z) (f : A -> B) l : wsum w (map f l) = wsum (fun x => w (f x)) l.
Proof. unfold wsum. rewrite map_map. reflexivity. Qed.
Lemma wsum_scale {A} (w : A -> Z) c l : wsum (fun x => c * w x) l = c * wsum w l.
Proof. induction l as [|x l IH]; [cbn; ring|]. rewrite !wsum_cons, IH. ring. Qed.
Lemma wsum_le {A} (w v : A -> Z) l : (forall x, In x l -> w x <= v x) -> wsum w l <= wsum v l.
Proof.
  induction l as [|x l IH]; intros H; [reflexivity|]. rewrite !wsum_cons.
  pose proof (H x (or_introl eq_refl)). pose proof (IH (fun y Hy => H y (or_intror Hy))). lia.
Qed.
Lemma wsum_ext {A} (w v : A -> Z) l : (forall x, In x l -> w x = v x) -> wsum w l = wsum v l.
Proof.
  induction l as [|x l IH]; intros H; [reflexivity|]. rewrite !wsum_cons.
  rewrite (H x (or_introl eq_refl)), (IH (fun y Hy => H y (or_intror Hy))). reflexivity.
Qed.
Lemma wsum_nonneg {A} (w : A -> Z) l : (forall x, In x l -> 0 <= w x) -> 0 <= wsum w l.
Proof.
  induction l as [|x l IH]; intros H; [reflexivity|]. rewrite !wsum_cons.
  pose proof (H x (or_introl eq_refl)). pose proof (IH (fun y Hy => H y (or_intror Hy))). lia.
Qed.
Lemma wsum_add {A} (w v : A -> Z) l : wsum (fun x => w x + v x) l = wsum w l + wsum v l.
Proof. induction l as [|x l IH]; [reflexivity|]. rewrite !wsum_cons, IH. ring. Qed.
Lemma count_wsum {A} (t : A -> bool) l : count t l = wsum (fun x => b2z (t x)) l.
Proof. induction l as [|x l IH]; [reflexivity|]. rewrite count_cons, wsum_cons, IH. reflexivity. Qed.

Lemma count_nonneg {A} (t : A -> bool) l : 0 <= count t l.
Proof. unfold count. lia. Qed.
Lemma count_impl {A} (t u : A -> bool) l : (forall x, In x l -> t x = true -> u x = true) -> count t l <= count u l.
Proof.
  intros H. rewrite !count_wsum. apply wsum_le. intros x Hx. specialize (H x Hx).
  destruct (t x); [rewrite H by reflexivity; reflexivity|]. destruct (u x); cbn [b2z]; lia.
Qed.
Lemma count_orb {A} (t u : A -> bool) l : count (fun x => t x || u x) l <= count t l + count u l.
Proof.
  rewrite !count_wsum, <- wsum_add. apply wsum_le. intros x _. destruct (t x); destruct (u x); cbn; lia.
Qed.
(** a finite union *)
Lemma count_exists {A I} (t : I -> A -> bool) (idx : list I) l K :
  (forall i, In i idx -> count (t i) l <= K) ->
  count (fun x => existsb (fun i => t i x) idx) l <= Z.of_nat (length idx) * K.
Proof.
  induction idx as [|i idx IH]; intros H.
  - cbn [existsb length]. rewrite count_false. lia.
  - cbn [existsb length]. pose proof (count_orb (t i) (fun x => existsb (fun i => t i x) idx) l) as O.
    pose proof (IH (fun j Hj => H j (or_intror Hj))). pose proof (H i (or_introl eq_refl)).
    eapply Z.le_trans; [exact O|]. rewrite Nat2Z.inj_succ. cbv beta in *. lia.
Qed.

(** Markov: elements that pass the test have weight at least [K] *)
Lemma markov {A} (t : A -> bool) (w : A -> Z) l K :
  (forall x, In x l -> 0 <= w x) -> (forall x, In x l -> t x = true -> K <= w x) ->
  K * count t l <= wsum w l.
Proof.
  intros H0 H1. rewrite count_wsum, <- wsum_scale. apply wsum_le. intros x Hx.
  specialize (H0 x Hx). specialize (H1 x Hx). destruct (t x); cbn [b2z]; [rewrite Z.mul_1_r; auto|lia].
Qed.

(** ** products over sequences *)
Fixpoint pw (f : nat -> Z -> Z) (l : list Z) : Z :=
  match l with [] => 1 | x :: l => f O x * pw (fun i => f (S i)) l end.

Lemma wsum_tuples D n f : wsum (pw f) (tuples D n) = prod n (fun i => wsum (f i) D).
Proof.
  revert f. induction n as [|n IH]; intros f; [reflexivity|].
  rewrite prod_S, <- (IH (fun i => f (S i))). cbn [tuples]. set (T := tuples D n). clearbody T. clear IH.
  induction D as [|x E IHE]; [cbn; ring|]. cbn [flat_map].
  rewrite wsum_app, IHE, wsum_cons, wsum_map. cbn [pw].
  rewrite wsum_scale. ring.
Qed.

Lemma pw_nonneg f l : (forall i x, 0 <= f i x) -> 0 <= pw f l.
Proof.
  revert f. induction l as [|x l IH]; intros f H; cbn [pw]; [lia|].
  pose proof (H O x). pose proof (IH (fun i => f (S i)) (fun i => H (S i))). nia.
Qed.
Lemma prod_nonneg n f : (forall i, (i < n)%nat -> 0 <= f i) -> 0 <= prod n f.
Proof.
  induction n as [|n IH]; intros H; cbn [prod]; [lia|].
  pose proof (H n ltac:(lia)). pose proof (IH (fun i Hi => H i ltac:(lia))). nia.
Qed.
Lemma prod_le n f g : (forall i, (i < n)%nat -> 0 <= f i <= g i) -> prod n f <= prod n g.
Proof.
  induction n as [|n IH]; intros H; cbn [prod]; [lia|].
  pose proof (H n ltac:(lia)) as Hn. pose proof (IH (fun i Hi => H i ltac:(lia))).
  pose proof (prod_nonneg n f (fun i Hi => proj1 (H i ltac:(lia)))). nia.
Qed.
Lemma prod_pow n c : prod n (fun _ => c) = c ^ Z.of_nat n.
Proof.
  induction n as [|n IH]; [reflexivity|]. cbn [prod]. rewrite IH, Nat2Z.inj_succ, Z.pow_succ_r by lia. ring.
Qed.

(** ** blocks of sequences *)
Lemma tuples_app D a b : tuples D (a + b) = flat_map (fun x => map (app x) (tuples D b)) (tuples D a).
Proof.
  induction a as [|a IH]; cbn [Nat.add tuples].
  - cbn [flat_map]. rewrite app_nil_r. symmetry. apply map_id.
  - rewrite IH. generalize (tuples D b) as Tb. generalize (tuples D a) as Ta. intros Ta Tb. clear IH.
    generalize D as E. intros E. induction E as [|x E IHE]; [reflexivity|].
    cbn [flat_map]. rewrite IHE, flat_map_app. f_equal.
    clear IHE. induction Ta as [|y Ta IHT]; [reflexivity|].
    cbn [flat_map map]. rewrite map_app, IHT, map_map. reflexivity.
Qed.
Lemma wsum_const {A} c (l : list A) : wsum (fun _ => c) l = Z.of_nat (length l) * c.
Proof. induction l as [|x l IH]; [reflexivity|]. rewrite wsum_cons, IH. cbn [length]. lia. Qed.
Lemma count_blocks {A B} (t : B -> bool) (f : A -> list B) l :
  count t (flat_map f l) = wsum (fun x => count t (f x)) l.
Proof. apply count_flat_map. Qed.

Lemma count_prefix D a b (t : list Z -> bool) :
  count (fun l => t (firstn a l)) (tuples D (a + b)) = count t (tuples D a) * Z.of_nat (length D) ^ Z.of_nat b.
Proof.
  rewrite tuples_app, count_blocks, (count_wsum t), Z.mul_comm, <- wsum_scale. apply wsum_ext.
  intros x Hx. apply in_tuples in Hx. destruct Hx as [L _]. rewrite count_map.
  rewrite (count_ext_in _ (fun _ => t x)).
  - rewrite <- tuples_length. destruct (t x); [rewrite count_true|rewrite count_false]; cbn [b2z]; lia.
  - intros y _. rewrite <- L, firstn_app, Nat.sub_diag, firstn_all, firstn_O, app_nil_r. reflexivity.
Qed.
Lemma count_suffix D a b (t : list Z -> bool) :
  count (fun l => t (skipn a l)) (tuples D (a + b)) = Z.of_nat (length D) ^ Z.of_nat a * count t (tuples D b).
Proof.
  rewrite tuples_app, count_blocks. rewrite (wsum_ext _ (fun _ => count t (tuples D b))).
  - rewrite wsum_const, tuples_length. reflexivity.
  - intros x Hx. apply in_tuples in Hx. destruct Hx as [L _]. rewrite count_map. apply count_ext_in.
    intros y _. rewrite <- L, skipn_app, Nat.sub_diag, skipn_all, skipn_O. reflexivity.
Qed.
(** block [i] of [m] blocks of length [s] *)
Lemma count_part D s m i (t : list Z -> bool) : (i < m)%nat ->
  count (fun l => t (part s i l)) (tuples D (m * s)) =
  count t (tuples D s) * Z.of_nat (length D) ^ Z.of_nat ((m - 1) * s).
Proof.
  intros H. unfold part. replace (m * s)%nat with (i * s + (s + (m - 1 - i) * s))%nat by nia.
  rewrite (count_suffix D (i * s) _ (fun l => t (firstn s l))), count_prefix.
  replace ((m - 1) * s)%nat with (i * s + (m - 1 - i) * s)%nat by nia.
  rewrite Nat2Z.inj_add, Z.pow_add_r by apply Nat2Z.is_nonneg. ring.
Qed.

(** an enumeration is a permutation of the sequences over 0..255 *)
Lemma in_bytes_tuples n B : In B (tuples (upto 256) n) <-> byte_string n B.
Proof.
  rewrite in_tuples. unfold byte_string, bytes.
  split; intros [H1 H2]; (split; [exact H1|]); (eapply Forall_impl; [|exact H2]); intros x Hx; apply in_upto_iff; exact Hx.
Qed.
Lemma enumerates_count n L t : enumerates n L -> count t L = count t (tuples (upto 256) n).
Proof.
  intros [NL HL]. apply (count_bij L (tuples (upto 256) n) (fun x => x) (fun x => x) t).
  - exact NL.
  - apply NoDup_tuples, NoDup_upto.
  - intros B HB. split; [|reflexivity]. apply in_bytes_tuples, HL, HB.
  - intros B HB. split; [|reflexivity]. apply HL, in_bytes_tuples, HB.
Qed.
Lemma upto_length n : 0 <= n -> Z.of_nat (length (upto n)) = n.
Proof. intros H. unfold upto. rewrite map_length, seq_length. apply Z2Nat.id, H. Qed.
Lemma enumerates_length n L : enumerates n L -> Z.of_nat (length L) = 256 ^ Z.of_nat n.
Proof.
  intros H. rewrite <- count_true, (enumerates_count n L _ H), count_true, tuples_length, upto_length by lia.
  reflexivity.
Qed.

(** ** powers in fixed point: [x / 2^200] raised to the power [n], rounded up *)
Definition unity : Z := 2 ^ 200.
Definition mul_up (x y : Z) : Z := x * y / unity + 1.
Fixpoint pow_up (x : Z) (n : positive) : Z :=
  match n with
  | xH => x
  | xO m => let y := pow_up x m in mul_up y y
  | xI m => let y := pow_up x m in mul_up (mul_up y y) x
  end.

Lemma mul_up_ok x y : 0 <= x -> 0 <= y -> x * y <= mul_up x y * unity /\ 0 <= mul_up x y.
Proof.
  intros Hx Hy. unfold mul_up. pose proof (Z.div_mod (x * y) unity ltac:(discriminate)) as D.
  pose proof (Z.mod_pos_bound (x * y) unity ltac:(reflexivity)).
  assert (0 <= x * y / unity) by (apply Z.div_pos; [nia|reflexivity]). split; nia.
Qed.

Lemma pow_up_ok x n : 0 <= x ->
  x ^ Zpos n * unity <= pow_up x n * unity ^ Zpos n /\ 0 <= pow_up x n.
Proof.
  intros Hx. assert (S0 : 0 < unity) by reflexivity.
  induction n as [m [IH P]|m [IH P]|]; cbn [pow_up]; cbv zeta.
  - set (y := pow_up x m) in *. destruct (mul_up_ok y y P P) as [M1 M2].
    destruct (mul_up_ok _ x M2 Hx) as [M3 M4]. split; [|exact M4].
    rewrite Pos2Z.inj_xI, !Z.pow_add_r, !Z.pow_1_r by lia.
    replace (2 * Z.pos m) with (Z.pos m + Z.pos m) by lia. rewrite !Z.pow_add_r by lia.
    set (X := x ^ Z.pos m) in *. set (S := unity ^ Z.pos m) in *.
    assert (0 <= X) by (apply Z.pow_nonneg; exact Hx). assert (0 < S) by (apply Z.pow_pos_nonneg; lia).
    set (z := mul_up y y) in *. set (v := mul_up z x) in *.
    assert (A : (X * unity) * (X * unity) <= (y * S) * (y * S)) by (apply Z.mul_le_mono_nonneg; nia).
    assert (B : (y * S) * (y * S) <= z * unity * (S * S)) by nia.
    assert (C : X * X * unity <= z * (S * S)) by nia.
    assert (D : X * X * unity * x <= z * (S * S) * x) by nia.
    assert (E : z * x * (S * S) <= v * unity * (S * S)) by nia. nia.
  - set (y := pow_up x m) in *. destruct (mul_up_ok y y P P) as [M1 M2]. split; [|exact M2].
    rewrite Pos2Z.inj_xO. replace (2 * Z.pos m) with (Z.pos m + Z.pos m) by lia. rewrite !Z.pow_add_r by lia.
    set (X := x ^ Z.pos m) in *. set (S := unity ^ Z.pos m) in *.
    assert (0 <= X) by (apply Z.pow_nonneg; exact Hx). assert (0 < S) by (apply Z.pow_pos_nonneg; lia).
    set (z := mul_up y y) in *.
    assert (A : (X * unity) * (X * unity) <= (y * S) * (y * S)) by (apply Z.mul_le_mono_nonneg; nia).
    assert (B : (y * S) * (y * S) <= z * unity * (S * S)) by nia. nia.
  - rewrite !Z.pow_1_r. split; [nia|exact Hx].
Qed.

(** a quotient a / b <= r / 2^60, raised to the power n *)
Lemma pow_quotient a b r n u : 0 <= a -> 0 <= b -> a * unity <= r * b -> 0 <= r -> pow_up r n <= u ->
  a ^ Zpos n * unity <= u * b ^ Zpos n.
Proof.
  intros Ha Hb H Hr Hu. destruct (pow_up_ok r n Hr) as [P1 P2].
  assert (S0 : 0 < unity) by reflexivity. assert (S1 : 0 < unity ^ Zpos n) by (apply Z.pow_pos_nonneg; lia).
  assert (A : (a * unity) ^ Zpos n <= (r * b) ^ Zpos n) by (apply Z.pow_le_mono_l; nia).
  rewrite !Z.pow_mul_l in A.
  assert (0 <= a ^ Zpos n) by (apply Z.pow_nonneg; lia). assert (0 <= b ^ Zpos n) by (apply Z.pow_nonneg; lia).
  set (X := a ^ Zpos n) in *. set (Y := b ^ Zpos n) in *. set (R := r ^ Zpos n) in *. set (S := unity ^ Zpos n) in *.
  assert (B : X * S * unity <= R * unity * Y) by nia.
  assert (C : R * unity * Y <= pow_up r n * S * Y) by nia.
  assert (D : pow_up r n * S * Y <= u * S * Y)
    by (apply Z.mul_le_mono_nonneg_r; [assumption|]; apply Z.mul_le_mono_nonneg_r; [lia|exact Hu]).
  apply (Z.mul_le_mono_pos_r _ _ S S1). apply Z.le_trans with (X * S * unity); [apply Z.eq_le_incl; ring|].
  apply Z.le_trans with (u * S * Y); [lia|apply Z.eq_le_incl; ring].
Qed.

(** ** rejection sampling: few accepted candidates *)

Lemma pw_const_pow (c : Z) (acc : Z -> bool) l :
  pw (fun _ x => if acc x then 1 else c) l = c ^ Z.of_nat (length (filter (fun x => negb (acc x)) l)).
Proof.
  induction l as [|x l IH]; [reflexivity|]. cbn [pw filter]. rewrite IH.
  destruct (acc x); cbn [negb length]; [ring|]. rewrite Nat2Z.inj_succ, Z.pow_succ_r by lia. ring.
Qed.
Lemma filter_split {A} (f : A -> bool) l :
  (length (filter f l) + length (filter (fun x => negb (f x)) l) = length l)%nat.
Proof. induction l as [|x l IH]; [reflexivity|]. cbn [filter]. destruct (f x); cbn [negb length]; lia. Qed.

Lemma wsum_reject (acc : Z -> bool) c D :
  wsum (fun x => if acc x then 1 else c) D =
  (Z.of_nat (length D) - count (fun x => negb (acc x)) D) + c * count (fun x => negb (acc x)) D.
Proof.
  induction D as [|x D IH]; [cbn; ring|]. rewrite wsum_cons, count_cons, IH. cbn [length].
  rewrite Nat2Z.inj_succ. destruct (acc x); cbn [negb b2z]; ring.
Qed.

Theorem few_accepted N r :
  4 ^ Z.of_nat N * count (fun l => Nat.ltb (length (filter (fun x => x <? q) l)) r) (tuples (upto 4096) N)
  <= 4 ^ Z.of_nat (r - 1) * 6397 ^ Z.of_nat N.
Proof.
  destruct (Nat.le_gt_cases (r - 1) N) as [H|H].
  - assert (M : 4 ^ Z.of_nat (N - (r - 1)) *
              count (fun l => Nat.ltb (length (filter (fun x => x <? q) l)) r) (tuples (upto 4096) N)
              <= wsum (pw (fun _ x => if x <? q then 1 else 4)) (tuples (upto 4096) N)).
    { apply markov.
      - intros l _. apply pw_nonneg. intros _ x. destruct (x <? q); lia.
      - intros l Hl E. apply Nat.ltb_lt in E. rewrite pw_const_pow. apply Z.pow_le_mono_r; [lia|].
        apply in_tuples in Hl. destruct Hl as [L _].
        pose proof (filter_split (fun x => x <? q) l). lia. }
    rewrite wsum_tuples, prod_pow, wsum_reject, rejected_count, upto_length in M by lia.
    change (4096 - 767 + 4 * 767) with 6397 in M.
    replace (Z.of_nat N) with (Z.of_nat (r - 1) + Z.of_nat (N - (r - 1))) at 1 by lia.
    rewrite Z.pow_add_r, <- Z.mul_assoc by lia. apply Z.mul_le_mono_nonneg_l; [apply Z.pow_nonneg; lia|exact M].
  - assert (C : count (fun l => Nat.ltb (length (filter (fun x => x <? q) l)) r) (tuples (upto 4096) N)
              <= 4096 ^ Z.of_nat N).
    { rewrite <- (upto_length 4096) at 2 by lia. rewrite <- tuples_length, <- count_true. apply count_impl. reflexivity. }
    pose proof (count_nonneg (fun l => Nat.ltb (length (filter (fun x => x <? q) l)) r) (tuples (upto 4096) N)).
    assert (4 ^ Z.of_nat N <= 4 ^ Z.of_nat (r - 1)) by (apply Z.pow_le_mono_r; lia).
    assert (4096 ^ Z.of_nat N <= 6397 ^ Z.of_nat N) by (apply Z.pow_le_mono_l; lia).
    assert (0 <= 4 ^ Z.of_nat N) by (apply Z.pow_nonneg; lia). nia.
Qed.

Lemma uniform_no_result n B : byte_string (3 * n) B ->
  no_result (poly_sample_uniform n {| xof_stream := fun i => nth i B 0; xof_pos := 0 |}) =
  Nat.ltb (length (filter (fun x => x <? q) (groups B))) 256.
Proof.
  intros HB. rewrite poly_sample_uniform_ok.
  - unfold SampleNTT. rewrite (candidates_groups n B (proj1 HB)).
    set (c := filter _ (groups B)). clearbody c.
    destruct (Nat.leb_spec 256 (length c)) as [Lc|Lc]; cbn [lift no_result];
      [symmetry; apply Nat.ltb_ge; exact Lc|symmetry; apply Nat.ltb_lt; exact Lc].
  - intros i. destruct (Nat.lt_ge_cases i (length B)) as [Hi|Hi].
    + apply (proj1 (Forall_forall _ _) (proj2 HB)). apply nth_In, Hi.
    + rewrite nth_overflow by exact Hi. red. lia.
Qed.

Lemma count_groups n L t : enumerates (3 * n) L ->
  count (fun B => t (groups B)) L = count t (tuples (upto 4096) (2 * n)).
Proof.
  intros [NL HL]. apply (count_bij L (tuples (upto 4096) (2 * n)) groups ungroups t).
  - exact NL.
  - apply NoDup_tuples, NoDup_upto.
  - intros B HB. apply HL in HB. destruct (groups_ok n B HB) as (G1 & G2 & G3). split; [|exact G3].
    apply in_tuples. split; [exact G1|]. eapply Forall_impl; [|exact G2]. intros x Hx. apply in_upto_iff. exact Hx.
  - intros C HC. apply in_tuples in HC. destruct HC as [LC FC].
    destruct (ungroups_ok n C LC) as [U1 U2].
    { eapply Forall_impl; [|exact FC]. intros x Hx. apply in_upto_iff. exact Hx. }
    split; [apply HL; exact U1|exact U2].
Qed.

Theorem uniform_tail n L : enumerates (3 * n) L ->
  4 ^ Z.of_nat (2 * n) *
  count (fun B => no_result (poly_sample_uniform n {| xof_stream := fun i => nth i B 0; xof_pos := 0 |})) L
  <= 4 ^ 255 * 6397 ^ Z.of_nat (2 * n).
Proof.
  intros HL. pose proof (few_accepted (2 * n) 256) as F. replace (Z.of_nat (256 - 1)) with 255 in F by reflexivity.
  rewrite <- (count_groups n L _ HL) in F.
  rewrite (count_ext_in _ (fun B => Nat.ltb (length (filter (fun x => x <? q) (groups B))) 256)); [exact F|].
  intros B HB. apply uniform_no_result. apply HL, HB.
Qed.

(** ** programmed answers *)
Lemma find_unique {A} (f : A -> bool) l x : In x l -> f x = true -> (forall y, In y l -> f y = true -> y = x) ->
  find f l = Some x.
Proof.
  induction l as [|y l IH]; intros I Fx U; [destruct I|]. cbn [find]. destruct (f y) eqn:Fy.
  - f_equal. apply U; [left; reflexivity|exact Fy].
  - destruct I as [->|I]; [congruence|]. apply IH; [exact I|exact Fx|]. intros z Hz. apply U. right. exact Hz.
Qed.
Lemma answer_asked ask m s B old a t : (forall b, (b < m)%nat -> ask b = ask a -> b = a) -> (a < m)%nat ->
  answer ask m s B old (ask a) t = nth t (part s a B) 0.
Proof.
  intros I Ha. unfold answer. rewrite (find_unique _ _ a); [reflexivity| | |].
  - apply in_seq. lia.
  - destruct (list_eq_dec Z.eq_dec (ask a) (ask a)); [reflexivity|contradiction].
  - intros b Hb E. apply in_seq in Hb. destruct (list_eq_dec Z.eq_dec (ask a) (ask b)) as [E'|_]; [|discriminate E].
    apply I; [lia|congruence].
Qed.
Lemma answer_other ask m s B old x t : (forall a, (a < m)%nat -> x <> ask a) ->
  answer ask m s B old x t = old x t.
Proof.
  intros N. unfold answer. destruct (find _ (seq 0 m)) as [a|] eqn:F; [|reflexivity].
  apply find_some in F. destruct F as [I E]. apply in_seq in I.
  destruct (list_eq_dec Z.eq_dec x (ask a)) as [->|_]; [|discriminate E]. exfalso. apply (N a); [lia|reflexivity].
Qed.
Lemma nth_byte B t : bytes B -> is_byte (nth t B 0).
Proof.
  intros F. destruct (Nat.lt_ge_cases t (length B)) as [Hi|Hi].
  - apply (proj1 (Forall_forall _ _) F). apply nth_In, Hi.
  - rewrite nth_overflow by exact Hi. red. lia.
Qed.
Lemma part_bytes s a B : bytes B -> bytes (part s a B).
Proof.
  intros F. unfold part, bytes in *. rewrite <- (firstn_skipn (a * s) B) in F. apply Forall_app in F.
  destruct F as [_ F]. rewrite <- (firstn_skipn s (skipn (a * s) B)) in F. apply Forall_app in F. apply F.
Qed.
Lemma part_length {A} s m a (B : list A) : length B = (m * s)%nat -> (a < m)%nat -> length (part s a B) = s.
Proof.
  intros L H. unfold part. rewrite firstn_length, skipn_length, L. nia.
Qed.
Lemma answer_byte ask m s B old x t : bytes B -> is_byte (old x t) -> is_byte (answer ask m s B old x t).
Proof. intros F O. unfold answer. destruct (find _ _); [apply nth_byte, part_bytes, F|exact O]. Qed.

Lemma with_matrix_ok hs k s rho B : hash_ok hs -> bytes B -> hash_ok (with_matrix hs k s rho B).
Proof.
  intros H F m Hm. destruct (H m Hm) as (H1 & H2 & H3 & H4). unfold with_matrix. cbn.
  split; [exact H1|]. split; [exact H2|]. split; [|exact H4]. intros i. apply answer_byte; [exact F|apply H3].
Qed.
Lemma with_secrets_ok hs P sigma B : hash_ok hs -> bytes B -> hash_ok (with_secrets hs P sigma B).
Proof.
  intros H F m Hm. destruct (H m Hm) as (H1 & H2 & H3 & H4). unfold with_secrets.
  cbn [sha3_256 sha3_512 shake128 shake256].
  split; [exact H1|]. split; [exact H2|]. split; [exact H3|]. intros i. apply answer_byte; [exact F|apply H4].
Qed.
Lemma ask_matrix_inj k rho a b : ask_matrix k rho b = ask_matrix k rho a -> b = a.
Proof.
  unfold ask_matrix. intros E. apply app_inv_head in E.
  assert (E1 : Z.of_nat (b mod k) = Z.of_nat (a mod k)) by congruence.
  assert (E2 : Z.of_nat (b / k) = Z.of_nat (a / k)) by congruence.
  apply Nat2Z.inj in E1. apply Nat2Z.inj in E2. rewrite (Nat.div_mod_eq b k), (Nat.div_mod_eq a k). congruence.
Qed.
Lemma ask_secrets_inj sigma a b : ask_secrets sigma b = ask_secrets sigma a -> b = a.
Proof. unfold ask_secrets. intros E. apply app_inv_head in E. apply Nat2Z.inj. congruence. Qed.

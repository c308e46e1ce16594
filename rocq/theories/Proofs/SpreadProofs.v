(** How many values of the randomness of encryption lead to one given ciphertext: the
    counting behind C64. *)
From Coq Require Import List ZArith Lia Bool Arith.
From Verif.Base Require Import Res Oracles.
From Verif.Spec Require Import FIPS203 Domains Noise Counting Random.
From Verif.Proofs Require Import Basics Field Poly CompressProofs NttAlgebra EncodeProofs VecEncode CountProofs
  PkeProofs KemProofs Inner Correctness
  TailProofs FailureProofs FailureAverage.
Import ListNotations.
Open Scope Z_scope.

(** ** tests on the entries of a tuple are independent *)
Fixpoint all_at (p : nat -> Z -> bool) (l : list Z) : bool :=
  match l with [] => true | x :: l => p 0%nat x && all_at (fun i => p (S i)) l end.

Lemma all_at_intro p l : (forall i, (i < length l)%nat -> p i (nth i l 0) = true) -> all_at p l = true.
Proof.
  revert p. induction l as [|x l IH]; intros p H; [reflexivity|]. cbn [all_at].
  pose proof (H 0%nat ltac:(cbn [length]; lia)) as H0. cbn [nth] in H0. rewrite H0. cbn [andb]. apply IH.
  intros i Hi. apply (H (S i)). cbn [length]. lia.
Qed.

Lemma count_all_at D n p : count (all_at p) (tuples D n) = prod n (fun i => count (p i) D).
Proof.
  revert p. induction n as [|n IH]; intros p; [reflexivity|]. rewrite prod_S. cbn [tuples].
  rewrite <- IH. set (T := tuples D n). set (c := count (all_at (fun i => p (S i))) T).
  clearbody T. clear IH. induction D as [|x E IHE]; [reflexivity|].
  cbn [flat_map]. rewrite count_app, IHE, count_cons, count_map. cbn [all_at].
  destruct (p 0%nat x); cbn [andb b2z]; [|rewrite count_false; ring].
  change (count (fun l => all_at (fun i => p (S i)) l) T) with c. ring.
Qed.

Lemma count_mono {A} (t u : A -> bool) l : (forall x, In x l -> t x = true -> u x = true) -> count t l <= count u l.
Proof.
  induction l as [|x l IH]; intros H; [reflexivity|]. rewrite !count_cons.
  pose proof (IH (fun y Hy => H y (or_intror Hy))). pose proof (H x (or_introl eq_refl)) as Hx.
  destruct (t x); [rewrite Hx by reflexivity; lia|]. pose proof (b2z_range (u x)). cbn [b2z]. lia.
Qed.
Lemma count_nonneg {A} (t : A -> bool) l : 0 <= count t l.
Proof. apply Nat2Z.is_nonneg. Qed.

Lemma prod_le_pow n f U : (forall i, (i < n)%nat -> 0 <= f i <= U) -> 0 <= prod n f <= U ^ Z.of_nat n.
Proof.
  induction n as [|n IH]; intros H; [cbn; lia|]. cbn [prod].
  rewrite Nat2Z.inj_succ, Z.pow_succ_r by lia.
  pose proof (IH (fun i Hi => H i (Nat.lt_lt_succ_r _ _ Hi))). pose proof (H n (Nat.lt_succ_diag_r n)). nia.
Qed.
Lemma prod_const n U : prod n (fun _ => U) = U ^ Z.of_nat n.
Proof.
  induction n as [|n IH]; [reflexivity|]. cbn [prod]. rewrite IH, Nat2Z.inj_succ, Z.pow_succ_r by lia. ring.
Qed.

(** ** one coefficient *)

(** compression sees [x] modulo q *)
Lemma Compress_mod d x : Compress d (x mod q) = Compress d x.
Proof.
  unfold Compress, round_div. pose proof (Z.pow_pos_nonneg 2 (Z.of_nat d) eq_refl (Nat2Z.is_nonneg _)) as HT.
  set (T := 2 ^ Z.of_nat d) in *. rewrite (Z.div_mod x q) at 2 by discriminate.
  replace (2 * (T * (q * (x / q) + x mod q)) + q) with (2 * (T * (x mod q)) + q + (T * (x / q)) * (2 * q)) by ring.
  rewrite Z.div_add by discriminate. rewrite (Z.mul_comm T (x / q)). rewrite Z_mod_plus_full. reflexivity.
Qed.

(** two values that are [g] apart are compressed differently if g 2^d / q lies strictly
    between 1 and 2^d - 1 *)
Lemma Compress_apart d x g : q <= 2 ^ Z.of_nat d * g -> 2 ^ Z.of_nat d * g < q * (2 ^ Z.of_nat d - 1) ->
  Compress d (x + g) <> Compress d x.
Proof.
  unfold Compress, round_div. set (T := 2 ^ Z.of_nat d). intros L U E.
  assert (HT : 0 < T) by (apply Z.pow_pos_nonneg; lia).
  assert (D : exists z, (2 * (T * (x + g)) + q) / (2 * q) - (2 * (T * x) + q) / (2 * q) = z * T).
  { exists ((2 * (T * (x + g)) + q) / (2 * q) / T - (2 * (T * x) + q) / (2 * q) / T).
    pose proof (Z.div_mod ((2 * (T * (x + g)) + q) / (2 * q)) T ltac:(lia)).
    pose proof (Z.div_mod ((2 * (T * x) + q) / (2 * q)) T ltac:(lia)). nia. }
  destruct D as [z D].
  pose proof (Z.div_mod (2 * (T * (x + g)) + q) (2 * q) ltac:(discriminate)).
  pose proof (Z.mod_pos_bound (2 * (T * (x + g)) + q) (2 * q) eq_refl).
  pose proof (Z.div_mod (2 * (T * x) + q) (2 * q) ltac:(discriminate)).
  pose proof (Z.mod_pos_bound (2 * (T * x) + q) (2 * q) eq_refl).
  set (a := (2 * (T * (x + g)) + q) / (2 * q)) in *. set (b := (2 * (T * x) + q) / (2 * q)) in *.
  unfold q in *. assert (a - b < T) by nia. assert (0 < a - b) by nia.
  assert (Z1 : 0 < z * T) by lia. assert (Z2 : z * T < T) by lia. clear - HT Z1 Z2.
  assert (0 < z) by nia. assert (z < 1) by nia. lia.
Qed.

(** the sixteen outcomes of the 2 + 2 bits of a coefficient of e1 *)
Lemma count_cbd2 (t : Z -> bool) :
  count (fun f => t (cbdz 2 f)) (upto 16) =
  b2z (t (-2)) + 4 * b2z (t (-1)) + 6 * b2z (t 0) + 4 * b2z (t 1) + b2z (t 2).
Proof.
  assert (E : count (fun f => t (cbdz 2 f)) (upto 16) = count t (map (cbdz 2) (upto 16))) by (symmetry; apply count_map).
  rewrite E.
  let l := eval vm_compute in (map (cbdz 2) (upto 16)) in change (map (cbdz 2) (upto 16)) with l.
  rewrite !count_cons, count_nil. ring.
Qed.

(** at most [best d] of the sixteen outcomes compress to a given value *)
Definition best (d : nat) : Z := if (d =? 11)%nat then 10 else 15.
Lemma one_coefficient d x y : (d = 10 \/ d = 11)%nat ->
  count (fun f => Compress d ((x + cbdz 2 f mod q) mod q) =? y) (upto 16) <= best d.
Proof.
  intros Hd.
  rewrite (count_ext_in _ (fun f => (fun e => Compress d (x + e) =? y) (cbdz 2 f))).
  2:{ intros f _. cbv beta. rewrite Z.add_mod_idemp_r by discriminate. rewrite Compress_mod. reflexivity. }
  rewrite (count_cbd2 (fun e => Compress d (x + e) =? y)). cbv beta.
  assert (A : forall e g, q <= 2 ^ Z.of_nat d * g -> 2 ^ Z.of_nat d * g < q * (2 ^ Z.of_nat d - 1) ->
    (Compress d (x + (e + g)) =? y) && (Compress d (x + e) =? y) = false).
  { intros e g L U. pose proof (Compress_apart d (x + e) g L U) as N. rewrite <- Z.add_assoc in N.
    destruct (Z.eqb_spec (Compress d (x + (e + g))) y), (Z.eqb_spec (Compress d (x + e)) y); try reflexivity. congruence. }
  destruct Hd as [-> | ->]; unfold best; cbn [Nat.eqb].
  - pose proof (A (-2) 4 ltac:(vm_compute; discriminate) ltac:(vm_compute; reflexivity)) as A1.
    change (-2 + 4) with 2 in A1. 
    destruct (Compress 10 (x + -2) =? y), (Compress 10 (x + -1) =? y), (Compress 10 (x + 0) =? y),
      (Compress 10 (x + 1) =? y), (Compress 10 (x + 2) =? y); cbn [andb b2z] in *; solve [discriminate|lia].
  - pose proof (A (-2) 4 ltac:(vm_compute; discriminate) ltac:(vm_compute; reflexivity)) as A1.
    pose proof (A (-2) 3 ltac:(vm_compute; discriminate) ltac:(vm_compute; reflexivity)) as A2.
    pose proof (A (-2) 2 ltac:(vm_compute; discriminate) ltac:(vm_compute; reflexivity)) as A3.
    pose proof (A (-1) 3 ltac:(vm_compute; discriminate) ltac:(vm_compute; reflexivity)) as A4.
    pose proof (A (-1) 2 ltac:(vm_compute; discriminate) ltac:(vm_compute; reflexivity)) as A5.
    pose proof (A 0 2 ltac:(vm_compute; discriminate) ltac:(vm_compute; reflexivity)) as A6.
    change (-2 + 4) with 2 in A1. change (-2 + 3) with 1 in A2. change (-2 + 2) with 0 in A3.
    change (-1 + 3) with 2 in A4. change (-1 + 2) with 1 in A5. change (0 + 2) with 2 in A6.
    destruct (Compress 11 (x + -2) =? y), (Compress 11 (x + -1) =? y), (Compress 11 (x + 0) =? y),
      (Compress 11 (x + 1) =? y), (Compress 11 (x + 2) =? y); cbn [andb b2z] in *; solve [discriminate|lia].
Qed.

(** ** the whole ciphertext *)
Section Spread.
  Variable hs : hashes.
  Variable P : params.
  Hypothesis HP : wf_params P.
  Hypothesis Heta : eta2 P = 2%nat.
  Hypothesis Hdu : (du P = 10 \/ du P = 11)%nat.
  Let k := pk P.

  Variable n : nat.
  Variables ekb m r Y c : list Z.
  Hypothesis HY : byte_string (k * (64 * eta1 P)) Y.
  Let hit (W : list Z) : bool :=
    match KPKE_Encrypt (with_coins hs P r Y W) P n ekb m r with
    | Some c' => if list_eq_dec Z.eq_dec c' c then true else false
    | None => false
    end.

  Let target (t : nat) : Z := co (ent (decode_vec P (du P) (firstn (32 * du P * k) c)) (t / 256)) (t mod 256).

  (** the coefficients of the ciphertext's first part, without e1 *)
  Let base (A : list (list (list Z))) (t : nat) : Z :=
    co (ent (map NTTinv (matvec k (transposed k A) (map NTT (yvec P Y)))) (t / 256)) (t mod 256).
  Let test (A : list (list (list Z))) (t : nat) (f : Z) : bool :=
    if (t <? k * 256)%nat then Compress (du P) ((base A t + cbdz 2 f mod q) mod q) =? target t else true.

  Lemma hit_test A W : A_hat hs P n (skipn (384 * k) ekb) = Some A -> byte_string ((k + 1) * (64 * eta2 P)) W ->
    hit W = true -> all_at (test A) (fields 4 (k + 1) W) = true.
  Proof.
    intros EA HW HH.
    assert (LF : length (fields 4 (k + 1) W) = ((k + 1) * 256)%nat).
    { apply (fields_ok 4); [lia|]. rewrite Heta in HW. exact HW. }
    apply all_at_intro. intros t Ht. rewrite LF in Ht. unfold test.
    destruct (Nat.ltb_spec t (k * 256)) as [Hk|]; [|reflexivity]. apply Z.eqb_eq.
    assert (Ha : (t / 256 < k)%nat) by (apply Nat.div_lt_upper_bound; lia).
    assert (Hi : (t mod 256 < 256)%nat) by (apply Nat.mod_upper_bound; discriminate).
    unfold hit, KPKE_Encrypt in HH. fold k in HH.
    change (A_hat (with_coins hs P r Y W) P n) with (A_hat hs P n) in HH. rewrite EA in HH.
    destruct (list_eq_dec Z.eq_dec _ c) as [E|]; [|discriminate HH]. clear HH.
    unfold target. rewrite <- E. clear E.
    pose proof (enc_y_coins hs P r Y W HY) as EY. unfold enc_y in EY. rewrite EY. clear EY.
    pose proof (enc_e1_coins hs P r Y W HW) as EE. unfold enc_e1 in EE. fold k in EE. rewrite EE. clear EE.
    set (u := vadd k _ _).
    assert (Vu : vec k u) by apply vadd_vec.
    rewrite firstn_app_exact by (apply encode_vec_bytes).
    rewrite (decode_encode_vec P (du P)).
    2:{ lia. }
    3:{ apply Forall_forall. intros p Hp. apply in_map_iff in Hp. destruct Hp as (p' & <- & Hp').
        apply small_canonical; [lia|]. apply Compress_small. eapply vec_in in Hp'; [|exact Vu]. apply Hp'. }
    2:{ rewrite map_length. apply Vu. }
    rewrite (ent_map k) by (try apply Vu; exact Ha).
    assert (Hp : poly (ent u (t / 256))) by (eapply vec_ent; eassumption).
    unfold co at 1. rewrite (nth_indep (map _ _) 0 (Compress (du P) 0)) by (rewrite map_length, (proj1 Hp); exact Hi).
    rewrite map_nth. f_equal. change (nth (t mod 256) (ent u (t / 256)) 0) with (co (ent u (t / 256)) (t mod 256)).
    unfold u, vadd. rewrite ent_tab by exact Ha. rewrite co_padd by exact Hi. unfold base. f_equal. f_equal.
    rewrite ent_tab by exact Ha. rewrite Heta.
    rewrite (cbd_coeff P 2 (k + 1) (t / 256) (t mod 256) W) by lia.
    f_equal. f_equal. f_equal. pose proof (Nat.div_mod t 256 ltac:(discriminate)). lia.
  Qed.

  Theorem spread L : enumerates ((k + 1) * (64 * eta2 P)) L ->
    16 ^ Z.of_nat (256 * k) * count hit L <= best (du P) ^ Z.of_nat (256 * k) * 256 ^ Z.of_nat ((k + 1) * (64 * eta2 P)).
  Proof.
    intros HL.
    assert (P1 : 0 < 16 ^ Z.of_nat (256 * k)) by (apply Z.pow_pos_nonneg; lia).
    assert (P2 : 0 < 256 ^ Z.of_nat ((k + 1) * (64 * eta2 P))) by (apply Z.pow_pos_nonneg; lia).
    assert (P3 : 0 <= best (du P) ^ Z.of_nat (256 * k)) by (apply Z.pow_nonneg; unfold best; destruct (du P =? 11)%nat; lia).
    destruct (A_hat hs P n (skipn (384 * k) ekb)) as [A|] eqn:EA.
    2:{ assert (Z0 : count hit L = 0).
        { rewrite (count_ext_in hit (fun _ => false)); [apply count_false|]. intros W _. unfold hit, KPKE_Encrypt. fold k.
          change (A_hat (with_coins hs P r Y W) P n) with (A_hat hs P n). rewrite EA. reflexivity. }
        rewrite Z0. nia. }
    assert (C : count hit L <= count (fun W => all_at (test A) (fields 4 (k + 1) W)) L).
    { apply count_mono. intros W HW. apply HL in HW. apply hit_test; assumption. }
    rewrite (count_fields 4 ltac:(lia) (k + 1) L (all_at (test A))) in C by (rewrite Heta in HL; exact HL).
    rewrite count_all_at in C. change (2 ^ Z.of_nat 4) with 16 in C.
    replace ((k + 1) * 256)%nat with (k * 256 + 256)%nat in C by lia. rewrite prod_split in C.
    rewrite (prod_ext 256 _ (fun _ => 16)) in C.
    2:{ intros i Hi. cbv beta. rewrite (count_ext_in _ (fun _ => true)).
        - rewrite count_true. reflexivity.
        - intros f _. unfold test. destruct (Nat.ltb_spec (k * 256 + i) (k * 256)); [lia|reflexivity]. }
    rewrite prod_const in C.
    destruct (prod_le_pow (k * 256) (fun i => count (test A i) (upto 16)) (best (du P))) as [_ B].
    { intros i Hi. split; [apply count_nonneg|]. unfold test. destruct (Nat.ltb_spec i (k * 256)) as [_|]; [|lia].
      apply one_coefficient, Hdu. }
    assert (E : 256 ^ Z.of_nat ((k + 1) * (64 * eta2 P)) = 16 ^ Z.of_nat (256 * k) * 16 ^ Z.of_nat 256).
    { rewrite Heta. change 256 with (16 ^ 2) at 1. rewrite <- Z.pow_mul_r, <- Z.pow_add_r by lia. f_equal. lia. }
    rewrite E. rewrite (Nat.mul_comm 256 k) in *.
    assert (P4 : 0 < 16 ^ Z.of_nat 256) by (apply Z.pow_pos_nonneg; lia).
    revert B C P1 P3 P4. generalize (prod (k * 256) (fun i => count (test A i) (upto 16))) (count hit L)
      (16 ^ Z.of_nat 256) (16 ^ Z.of_nat (k * 256)) (best (du P) ^ Z.of_nat (k * 256)). clear.
    intros p h S T B Hp Hh HT HB HS. apply Z.le_trans with (T * (p * S)); [apply Z.mul_le_mono_nonneg_l; lia|].
    replace (B * (T * S)) with (T * (B * S)) by ring. apply Z.mul_le_mono_nonneg_l; [lia|].
    apply Z.mul_le_mono_nonneg_r; lia.
  Qed.
End Spread.

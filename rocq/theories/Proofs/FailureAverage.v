(** The bound of Proofs/FailureProofs.v averaged over the randomness of encryption as well. *)
From Coq Require Import List ZArith Lia Bool Arith Permutation.
From Verif.Base Require Import Res Oracles.
From Verif.Spec Require Import FIPS203 Domains Noise Counting Random.
From Verif.Model Require Import Machine Util Algebra Encode Crypto Sample.
From Verif.Proofs Require Import Basics Field Poly CompressProofs NttAlgebra EncodeProofs SampleProofs CountProofs
  PkeProofs Correctness TailProofs FailureProofs.
Import ListNotations.
Open Scope Z_scope.

Lemma pw_prod f l : pw f l = prod (length l) (fun t => f t (nth t l 0)).
Proof.
  revert f. induction l as [|x l IH]; intros f; [reflexivity|]. cbn [pw length]. rewrite IH, prod_S. reflexivity.
Qed.

Lemma wsum_fields d m L f : (1 <= d <= 11)%nat -> enumerates (m * (32 * d)) L ->
  wsum (fun B => pw f (fields d m B)) L = prod (m * 256) (fun t => wsum (f t) (upto (2 ^ Z.of_nat d))).
Proof.
  intros Hd [NL HL]. rewrite <- wsum_tuples, <- (wsum_map (pw f)). apply wsum_perm.
  apply NoDup_Permutation.
  - assert (G : forall l, NoDup l -> (forall B, In B l -> In B L) -> NoDup (map (fields d m) l)).
    { induction l as [|B l IH]; intros N I; [constructor|]. inversion N as [|? ? N1 N2]; subst. cbn [map]. constructor.
      - intros H. apply in_map_iff in H. destruct H as (B' & E & HB'). apply N1.
        assert (W := fields_ok d Hd m B' (proj1 (HL B') (I B' (or_intror HB')))).
        assert (W' := fields_ok d Hd m B (proj1 (HL B) (I B (or_introl eq_refl)))).
        destruct W as (_ & _ & W). destruct W' as (_ & _ & W'). rewrite <- W', <- E, W. exact HB'.
      - apply IH; [exact N2|]. intros B' HB'. apply I. right. exact HB'. }
    apply G; [exact NL|]. intros B HB. exact HB.
  - apply NoDup_tuples, NoDup_upto.
  - intros F. split.
    + intros H. apply in_map_iff in H. destruct H as (B & <- & HB). apply HL in HB.
      destruct (fields_ok d Hd m B HB) as (I1 & I2 & _). apply in_tuples. split; assumption.
    + intros H. apply in_tuples in H. destruct H as [L1 L2]. destruct (unfields_ok d Hd m F L1 L2) as [U1 U2].
      apply in_map_iff. exists (unfields d m F). split; [exact U2|apply HL; exact U1].
Qed.

Lemma count_list_prod {A B} (t : A * B -> bool) l m :
  count t (list_prod l m) = wsum (fun x => count (fun y => t (x, y)) m) l.
Proof.
  induction l as [|x l IH]; [reflexivity|]. cbn [list_prod]. rewrite wsum_cons, <- IH.
  rewrite !count_wsum, wsum_app, wsum_map. reflexivity.
Qed.

(** what is left of the pair (e1, rounding of u): with X the value of A^T y, the
    difference between the decompressed coefficient and X *)
Definition wid (d : nat) (X c : Z) : Z :=
  c + centred (Decompress d (Compress d ((X + c) mod q)) - (X + c) mod q).

Section Coins.
  Variable hs : hashes.
  Variable P : params.
  Hypothesis HP : wf_params P.
  Let k := pk P.
  Let e := eta1 P.
  Let e' := eta2 P.

  Lemma HE1 : (e = 2 \/ e = 3)%nat.
  Proof. unfold e. apply HP. Qed.
  Lemma HE2 : (e' = 2 \/ e' = 3)%nat.
  Proof. unfold e'. apply HP. Qed.

  Lemma tab_nth_list s l : length l = s -> tab s (fun t => nth t l 0) = l.
  Proof.
    intros <-. induction l as [|x l IH]; [reflexivity|]. cbn [length]. rewrite tab_cons. cbn [nth]. f_equal. exact IH.
  Qed.

  Section OneYE.
    Variables r Y E : list Z.
    Hypothesis HY : byte_string (k * (64 * e)) Y.
    Hypothesis HEE : byte_string ((k + 1) * (64 * e')) E.
    Let hs' := with_coins hs P r Y E.

    Lemma PRF_y a : (a < k)%nat -> FIPS203.PRF hs' e r a = part (64 * e) a Y.
    Proof.
      intros Ha. unfold FIPS203.PRF, prefix. cbn [hs' with_coins shake256]. fold e k.
      change (r ++ [Z.of_nat a]) with (ask_secrets r a).
      rewrite <- (tab_nth_list (64 * e) (part (64 * e) a Y)) at 1 by (eapply part_length; [exact (proj1 HY)|exact Ha]).
      apply tab_ext. intros t Ht. apply answer_asked; [intros b _; apply ask_secrets_inj|exact Ha].
    Qed.
    Lemma PRF_e a : (a <= k)%nat -> FIPS203.PRF hs' e' r (k + a) = part (64 * e') a E.
    Proof.
      intros Ha. unfold FIPS203.PRF, prefix. cbn [hs' with_coins shake256]. fold e e' k.
      change (r ++ [Z.of_nat (k + a)]) with (ask_secrets r (k + a)).
      rewrite <- (tab_nth_list (64 * e') (part (64 * e') a E)) at 1 by (eapply part_length; [exact (proj1 HEE)|lia]).
      apply tab_ext. intros t Ht. rewrite answer_other.
      - apply (answer_asked (fun a => ask_secrets r (k + a))); [|lia].
        intros b _ Eb. apply ask_secrets_inj in Eb. lia.
      - intros b Hb Eb. apply ask_secrets_inj in Eb. lia.
    Qed.

    (** y, e1, e2 depend on Y and E only *)
    Definition yvec : list (list Z) := tab k (fun a => SamplePolyCBD e (part (64 * e) a Y)).
    Lemma enc_y_coins : enc_y hs' P r = yvec.
    Proof. unfold enc_y, noise, yvec. fold k e. apply tab_ext. intros a Ha. cbn [Nat.add]. rewrite PRF_y by exact Ha. reflexivity. Qed.
    Lemma enc_e1_coins : enc_e1 hs' P r = tab k (fun a => SamplePolyCBD e' (part (64 * e') a E)).
    Proof. unfold enc_e1, noise. fold k e'. apply tab_ext. intros a Ha. rewrite PRF_e by lia. reflexivity. Qed.
    Lemma enc_e2_coins : enc_e2 hs' P r = SamplePolyCBD e' (part (64 * e') k E).
    Proof. unfold enc_e2. fold k e'. replace (2 * k)%nat with (k + k)%nat by lia. rewrite PRF_e by lia. reflexivity. Qed.

    Lemma cbd_coeff eta m a i B : (eta = 2 \/ eta = 3)%nat -> (a < m)%nat -> (i < 256)%nat ->
      co (SamplePolyCBD eta (part (64 * eta) a B)) i = cbdz eta (nth (a * 256 + i) (fields (2 * eta) m B) 0) mod q.
    Proof.
      intros He Ha Hi. rewrite SamplePolyCBD_map by exact He.
      unfold co. rewrite (nth_indep _ 0 (cbd_value eta 0)).
      - rewrite map_nth, cbd_value_z. f_equal. f_equal.
        rewrite fields_nth by lia. unfold co. f_equal. f_equal. f_equal. lia.
      - rewrite map_length, (proj1 (ByteDecode_small (2 * eta) _ ltac:(lia))). exact Hi.
    Qed.
    Lemma centred_cbd eta x : (eta = 2 \/ eta = 3)%nat -> centred (cbdz eta x mod q) = cbdz eta x.
    Proof. intros He. rewrite centred_of_mod. apply centred_small. pose proof (cbdz_bound eta x). lia. Qed.

    Lemma small_y_coins a i : (a < k)%nat -> (i < 256)%nat ->
      small_y hs' P r a i = cbdz e (nth (a * 256 + i) (fields (2 * e) k Y) 0).
    Proof.
      intros Ha Hi. unfold small_y. rewrite enc_y_coins. unfold yvec. rewrite ent_tab by exact Ha.
      rewrite (cbd_coeff e k) by (try apply HE1; assumption). apply centred_cbd, HE1.
    Qed.

    Variable A : list (list (list Z)).
    Definition Aty (a i : nat) : Z := co (ent (rmatvec k (transposed k A) yvec) a) i.
    Lemma Aty_range a i : (a < k)%nat -> (i < 256)%nat -> 0 <= Aty a i < q.
    Proof.
      intros Ha Hi. unfold Aty, rmatvec. rewrite ent_tab by exact Ha. unfold inner, co. rewrite nth_tab by exact Hi.
      apply Z.mod_pos_bound. reflexivity.
    Qed.
    Lemma small_w_coins a i : (a < k)%nat -> (i < 256)%nat ->
      small_w hs' P A r a i = wid (du P) (Aty a i) (cbdz e' (nth (a * 256 + i) (fields (2 * e') (k + 1) E) 0)).
    Proof.
      intros Ha Hi. unfold small_w.
      assert (Hu : vec k (enc_u hs' P A r)) by apply vadd_vec.
      rewrite (ent_map k) by (try apply Hu; exact Ha).
      assert (E1 : co (ent (enc_e1 hs' P r) a) i = cbdz e' (nth (a * 256 + i) (fields (2 * e') (k + 1) E) 0) mod q).
      { rewrite enc_e1_coins, ent_tab by exact Ha. apply cbd_coeff; [exact HE2|lia|exact Hi]. }
      set (c := cbdz e' _) in *.
      assert (Hp : poly (ent (enc_u hs' P A r) a)) by (eapply vec_ent; eassumption).
      assert (EU : co (ent (enc_u hs' P A r) a) i = (Aty a i + c) mod q).
      { unfold enc_u, vadd. fold k. rewrite ent_tab by exact Ha. rewrite co_padd by exact Hi. rewrite E1.
        rewrite enc_y_coins. fold (Aty a i). rewrite Z.add_mod_idemp_r by discriminate. reflexivity. }
      unfold wid. f_equal.
      - rewrite E1. apply centred_cbd, HE2.
      - unfold rounding. rewrite co_psub by exact Hi. rewrite centred_of_mod. rewrite EU. f_equal. f_equal.
        rewrite <- EU. unfold co at 1.
        rewrite (nth_indep (map _ _) 0 (Decompress (du P) (Compress (du P) 0))) by (rewrite map_length, (proj1 Hp); exact Hi).
        rewrite (map_nth (fun x => Decompress (du P) (Compress (du P) x))). reflexivity.
    Qed.
  End OneYE.
End Coins.

Lemma prod_mono_split n m (f : nat -> Z) U V :
  (forall t, (t < n)%nat -> 0 <= f t <= U) -> (forall t, (n <= t < n + m)%nat -> 0 <= f t <= V) ->
  prod (n + m) f <= U ^ Z.of_nat n * V ^ Z.of_nat m.
Proof.
  intros H1 H2. rewrite prod_split. apply Z.mul_le_mono_nonneg.
  - apply prod_nonneg. intros i Hi. apply H1, Hi.
  - rewrite <- (prod_pow n). apply prod_le. exact H1.
  - apply prod_nonneg. intros i Hi. apply H2. lia.
  - rewrite <- (prod_pow m). apply prod_le. intros i Hi. apply H2. lia.
Qed.

Lemma eq32 x : (32 * (2 * x) = 64 * x)%nat.
Proof. lia. Qed.
Lemma pos256 : (0 < 256)%nat.
Proof. lia. Qed.
Lemma div256 k t : (t < k * 256)%nat -> (t / 256 < k)%nat.
Proof. intros H. apply Nat.div_lt_upper_bound; lia. Qed.
Lemma mod256 t : (t mod 256 < 256)%nat.
Proof. apply Nat.mod_upper_bound. lia. Qed.
Lemma divmod256 t : (t / 256 * 256 + t mod 256)%nat = t.
Proof. rewrite (Nat.mul_comm (t / 256)). symmetry. apply Nat.div_mod_eq. Qed.
Lemma ltb_true {A} t n (x y : A) : (t < n)%nat -> (if Nat.ltb t n then x else y) = x.
Proof. intros H. destruct (Nat.ltb_spec t n); [reflexivity|lia]. Qed.
Lemma ltb_false {A} t n (x y : A) : (n <= t)%nat -> (if Nat.ltb t n then x else y) = y.
Proof. intros H. destruct (Nat.ltb_spec t n); [lia|reflexivity]. Qed.
Lemma blocks1 k : ((k + 1) * 256 = k * 256 + 256)%nat.
Proof. lia. Qed.

Section Average.
  Variable P : params.
  Hypothesis HP : wf_params P.
  Hypothesis Hdu : (1 <= du P <= 11)%nat.
  Hypothesis Hdv : (1 <= dv P <= 11)%nat.
  Variables Cu Cv : Z.
  Hypothesis HCu : round_div q (2 ^ Z.of_nat (du P + 1)) = Cu.
  Hypothesis HCv : round_div q (2 ^ Z.of_nat (dv P + 1)) = Cv.
  Let C1 := Z.of_nat (eta1 P).
  Let C2 := Z.of_nat (eta2 P) + Cu.
  Let T := 832 - Z.of_nat (eta2 P) - Cv.
  Let e := eta1 P.
  Let e' := eta2 P.
  Let k := pk P.
  Variables a b : Z.
  Hypothesis b_pos : 0 < b.
  Hypothesis ab : b <= a.
  Hypothesis Cu_pos : 0 <= Cu.
  Hypothesis sh1 : shape_ok e a b C1 = true.
  Hypothesis sh2 : shape_ok e a b C2 = true.
  Let M := Z.of_nat e * (Z.of_nat (k * 256) * (C1 + C2)).
  Hypothesis HT : 0 < T <= M.
  Variable n : positive.
  Hypothesis Hn : Zpos n = Z.of_nat (k * 256).
  Variable E : Z.
  Hypothesis HE0 : 0 <= E.
  Variables r1 r2 r3 : Z.
  Hypothesis R1 : 0 <= r1.
  Hypothesis R2 : 0 <= r2.
  Hypothesis R3 : 0 <= r3.
  Hypothesis Q3 : b * unity <= r3 * a.
  Variables A1 A2 : Z.
  Hypothesis HA1 : wsum (fun x => g_at e a b C1 (Z.abs (cbdz e x))) (upto (2 ^ Z.of_nat (2 * e))) <= A1.
  Hypothesis HA2 : forall X, 0 <= X < q ->
    wsum (fun x => g_at e a b C2 (Z.abs (wid (du P) X (cbdz e' x)))) (upto (2 ^ Z.of_nat (2 * e'))) <= A2.
  Hypothesis Q1 : A1 * unity <= r1 * (2 ^ Z.of_nat (2 * e) * 2 ^ Z.of_nat (2 * e) * (a * b) ^ (Z.of_nat e * C1)).
  Hypothesis Q2 : A2 * unity <= r2 * (2 ^ Z.of_nat (2 * e) * 2 ^ Z.of_nat (2 * e') * (a * b) ^ (Z.of_nat e * C2)).
  Hypothesis HN : 512 * E * (pow_up r1 n * pow_up r2 n * pow_up r3 (Z.to_pos T)) <= unity * unity * unity.

  Let K := a ^ (M + T) * b ^ (M - T).

  Lemma He : (1 <= 2 * e <= 11)%nat.
  Proof. pose proof (HE1 P HP) as W. fold e in W. clear - W. lia. Qed.
  Lemma He' : (1 <= 2 * e' <= 11)%nat.
  Proof. pose proof (HE2 P HP) as W. fold e' in W. clear - W. lia. Qed.

  Definition f1 (t : nat) (x : Z) : Z := g_at e a b C1 (Z.abs (cbdz e x)).
  Definition f2 (A : list (list (list Z))) (Y : list Z) (t : nat) (x : Z) : Z :=
    if Nat.ltb t (k * 256) then g_at e a b C2 (Z.abs (wid (du P) (Aty P Y A (t / 256) (t mod 256)) (cbdz e' x))) else 1.

  (** one choice of the randomness of encryption *)
  Lemma one_choice hs A d r LB t Y W :
    r <> key_sigma hs P d -> enumerates (2 * k * (64 * e)) LB ->
    byte_string (k * (64 * e)) Y -> byte_string ((k + 1) * (64 * e')) W ->
    (forall B, In B LB -> t B = true -> exists m,
       ~ noise_in_range (with_secrets (with_coins hs P r Y W) P (key_sigma hs P d) B) P A d m r) ->
    K * count t LB <= 512 * (pw f1 (fields (2 * e) k Y) * pw (f2 A Y) (fields (2 * e') (k + 1) W)).
  Proof.
    intros Hr HL HY HW Ht.
    assert (HT0 : 0 <= T <= M) by (clear - HT; lia).
    pose proof (core_bound (with_coins hs P r Y W) P HP Hdu Hdv A d r Hr Cu Cv HCu HCv a b b_pos ab
      (shape_even e a b C1 sh1) (shape_even e a b C2 sh2) HT0 LB t HL Ht) as B.
    eapply Z.le_trans; [exact B|]. clear B. apply Z.mul_le_mono_nonneg_l; [discriminate|]. apply Z.eq_le_incl.
    fold C1 C2 k. f_equal.
    - rewrite pw_prod.
      replace (length (fields (2 * e) k Y)) with (k * 256)%nat.
      2:{ symmetry. apply (fields_ok (2 * e) He). rewrite eq32. exact HY. }
      rewrite <- (prod_blocks k 256 (fun i j => gs P a b C1 (Z.abs (small_y (with_coins hs P r Y W) P r i j)))) by exact pos256.
      apply prod_ext. intros t0 Ht0.
      rewrite (small_y_coins hs P HP) by (first [assumption|apply div256; assumption|apply mod256]).
      rewrite divmod256. reflexivity.
    - rewrite pw_prod.
      replace (length (fields (2 * e') (k + 1) W)) with (k * 256 + 256)%nat.
      2:{ symmetry. rewrite <- blocks1.
          apply (fields_ok (2 * e') He'). rewrite eq32. exact HW. }
      rewrite prod_split.
      assert (One : prod 256 (fun i => f2 A Y (k * 256 + i) (nth (k * 256 + i) (fields (2 * e') (k + 1) W) 0)) = 1).
      { rewrite (prod_ext 256 _ (fun _ => 1)); [rewrite prod_pow; apply Z.pow_1_l, Nat2Z.is_nonneg|].
        intros i Hi. unfold f2. apply ltb_false, Nat.le_add_r. }
      rewrite One, Z.mul_1_r.
      rewrite <- (prod_blocks k 256 (fun i j => gs P a b C2 (Z.abs (small_w (with_coins hs P r Y W) P A r i j)))) by exact pos256.
      apply prod_ext. intros t0 Ht0.
      rewrite (small_w_coins hs P HP) by (first [assumption|apply div256; assumption|apply mod256]).
      unfold f2. rewrite ltb_true by exact Ht0.
      rewrite divmod256. reflexivity.
  Qed.

  Theorem average_bound hs A d m r LY LW LB (t : list Z * (list Z * list Z) -> bool) :
    r <> key_sigma hs P d ->
    enumerates (k * (64 * e)) LY -> enumerates ((k + 1) * (64 * e')) LW -> enumerates (2 * k * (64 * e)) LB ->
    (forall Y W B, In Y LY -> In W LW -> In B LB -> t (Y, (W, B)) = true ->
       ~ noise_in_range (with_secrets (with_coins hs P r Y W) P (key_sigma hs P d) B) P A d m r) ->
    E * count t (list_prod LY (list_prod LW LB)) <=
    256 ^ Z.of_nat (k * (64 * e)) * 256 ^ Z.of_nat ((k + 1) * (64 * e')) * 256 ^ Z.of_nat (2 * k * (64 * e)).
  Proof.
    intros Hr HY HW HL Ht.
    assert (H1 : 0 <= C1) by apply Nat2Z.is_nonneg.
    assert (H2 : 0 <= C2) by (apply Z.add_nonneg_nonneg; [apply Nat2Z.is_nonneg|exact Cu_pos]).
    assert (HT0 : 0 <= T <= M) by (clear - HT; lia).
    assert (a_pos : 0 < a) by (clear - ab b_pos; lia).
    assert (K0 : 0 <= K) by (apply Z.mul_nonneg_nonneg; apply Z.pow_nonneg; clear - a_pos b_pos; lia).
    assert (BN : forall x y z, 0 <= 2 ^ y * 2 ^ z * (a * b) ^ x).
    { intros x y z. apply Z.mul_nonneg_nonneg; [apply Z.mul_nonneg_nonneg|]; apply Z.pow_nonneg; try discriminate.
      apply Z.mul_nonneg_nonneg; apply Z.lt_le_incl; assumption. }
    assert (G1 : 0 <= A1).
    { eapply Z.le_trans; [|exact HA1]. apply wsum_nonneg. intros. apply g_at_nonneg; assumption. }
    assert (G2 : 0 <= A2).
    { eapply Z.le_trans; [|apply (HA2 0); split; [discriminate|reflexivity]].
      apply wsum_nonneg. intros. apply g_at_nonneg; assumption. }
    assert (V0 : 0 <= (2 ^ Z.of_nat (2 * e')) ^ 256) by (apply Z.pow_nonneg, Z.pow_nonneg; discriminate).
    apply (assemble (count t (list_prod LY (list_prod LW LB)))
      (256 ^ Z.of_nat (k * (64 * e)) * 256 ^ Z.of_nat ((k + 1) * (64 * e')) * 256 ^ Z.of_nat (2 * k * (64 * e)))
      a b M T A1 A2
      (2 ^ Z.of_nat (2 * e) * 2 ^ Z.of_nat (2 * e) * (a * b) ^ (Z.of_nat e * C1))
      (2 ^ Z.of_nat (2 * e) * 2 ^ Z.of_nat (2 * e') * (a * b) ^ (Z.of_nat e * C2))
      n r1 r2 (pow_up r3 (Z.to_pos T)) E ((2 ^ Z.of_nat (2 * e')) ^ 256) V0 a_pos b_pos HT0 G1 G2
      (BN _ _ _) (BN _ _ _) HE0).
    - fold K. rewrite Hn.
      rewrite count_list_prod, <- wsum_scale.
      eapply Z.le_trans; [apply (wsum_le _ (fun Y => 512 * (pw f1 (fields (2 * e) k Y) *
         (A2 ^ Z.of_nat (k * 256) * (2 ^ Z.of_nat (2 * e')) ^ 256))))|].
      + intros Y IY. apply HY in IY as BY.
        rewrite count_list_prod, <- wsum_scale.
        eapply Z.le_trans; [apply (wsum_le _ (fun W => 512 * (pw f1 (fields (2 * e) k Y) * pw (f2 A Y) (fields (2 * e') (k + 1) W))))|].
        * intros W IW. apply HW in IW as BW. apply (one_choice hs A d r LB _ Y W Hr HL BY BW).
          intros B IB F. exists m. apply Ht; assumption.
        * rewrite wsum_scale, wsum_scale. apply Z.mul_le_mono_nonneg_l; [discriminate|].
          apply Z.mul_le_mono_nonneg_l; [apply pw_nonneg; intros; apply g_at_nonneg; assumption|].
          rewrite (wsum_fields (2 * e') (k + 1) LW _ He')
            by (rewrite eq32; exact HW).
          rewrite blocks1.
          apply (prod_mono_split (k * 256) 256).
          -- intros t0 Ht0. split.
             ++ apply wsum_nonneg. intros x _. unfold f2. destruct (Nat.ltb t0 (k * 256)); [apply g_at_nonneg; assumption|discriminate].
             ++ eapply Z.le_trans; [|apply (HA2 (Aty P Y A (t0 / 256) (t0 mod 256)))].
                ** apply Z.eq_le_incl. apply wsum_ext. intros x _. unfold f2. apply ltb_true, Ht0.
                ** apply Aty_range; [apply div256, Ht0|apply mod256].
          -- intros t0 Ht0. 
             assert (E1 : wsum (f2 A Y t0) (upto (2 ^ Z.of_nat (2 * e'))) = 2 ^ Z.of_nat (2 * e')).
             { rewrite (wsum_ext _ (fun _ => 1)).
               - rewrite wsum_const, Z.mul_1_r. apply upto_length. apply Z.pow_nonneg. discriminate.
               - intros x _. unfold f2. apply ltb_false, Ht0. }
             rewrite E1. split; [apply Z.pow_nonneg; discriminate|apply Z.le_refl].
      + rewrite wsum_scale. apply Z.mul_le_mono_nonneg_l; [discriminate|].
        rewrite (wsum_ext _ (fun Y => A2 ^ Z.of_nat (k * 256) * (2 ^ Z.of_nat (2 * e')) ^ 256 * pw f1 (fields (2 * e) k Y)))
          by (intros; apply Z.mul_comm).
        rewrite wsum_scale.
        rewrite (wsum_fields (2 * e) k LY _ He)
            by (rewrite eq32; exact HY).
        rewrite <- Z.mul_assoc, Z.mul_comm.
        rewrite Z.mul_comm, (Z.mul_comm _ (prod _ _)), Z.mul_assoc, (Z.mul_comm _ (prod _ _)).
        apply Z.mul_le_mono_nonneg_r; [exact V0|]. apply Z.mul_le_mono_nonneg_r; [apply Z.pow_nonneg, G2|].
        rewrite <- (prod_pow (k * 256)). apply prod_le. intros t0 Ht0. split; [|exact HA1].
        apply wsum_nonneg. intros. apply g_at_nonneg; assumption.
    - exact Q1.
    - exact Q2.
    - exact R1.
    - exact R2.
    - apply pow_up_ok, R3.
    - exact (pow3 P Hdu Hdv Cu Cv a b b_pos ab HT n Hn r3 R3 Q3).
    - rewrite <- (total_eq P Hdu Hdv Cu Cv HCu HCv a b Cu_pos HT n Hn) by assumption. fold C1 C2 e k M.
      rewrite <- (Z.mul_assoc _ ((a * b) ^ M)), (Z.mul_comm ((a * b) ^ M) (_ ^ 256)), (Z.mul_assoc _ (_ ^ 256)). f_equal.
      rewrite Hn. clearbody k e e'. clear. 
      change 256 with (2 ^ 8) at 1 2 3.
      rewrite <- !Z.pow_mul_r by lia. rewrite <- !Z.pow_add_r by lia. rewrite <- !Z.pow_mul_r by lia.
      rewrite <- !Z.pow_add_r by lia. f_equal. lia.
    - exact HN.
  Qed.
End Average.

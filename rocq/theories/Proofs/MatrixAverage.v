(** The bound of Proofs/FailureAverage.v averaged over the matrix A as well: for a random
    matrix the coefficients of A^T y are uniform in the NTT slots in which y is not zero. *)
From Coq Require Import List ZArith Lia Bool Arith Permutation.
From Verif.Base Require Import Res Oracles.
From Verif.Spec Require Import FIPS203 Domains Noise Counting Random.
From Verif.Model Require Import Machine Util Algebra Encode Crypto Sample.
From Verif.Proofs Require Import Basics Field Poly CompressProofs NttProofs NttAlgebra EncodeProofs SampleProofs CountProofs
  PkeProofs Correctness TailProofs Slots SlotSums FailureProofs FailureAverage MatrixColumn MatrixSum.
Import ListNotations.
Open Scope Z_scope.

Lemma wsum_fields_any d m L F : (1 <= d <= 11)%nat -> enumerates (m * (32 * d)) L ->
  wsum (fun B => F (fields d m B)) L = wsum F (tuples (upto (2 ^ Z.of_nat d)) (m * 256)).
Proof.
  intros Hd [NL HL]. rewrite <- (wsum_map F). apply wsum_perm.
  apply NoDup_Permutation.
  - assert (G : forall l, NoDup l -> (forall B, In B l -> In B L) -> NoDup (map (fields d m) l)).
    { induction l as [|B l IH]; intros N I; [constructor|]. inversion N as [|? ? N1 N2]; subst. cbn [map]. constructor.
      - intros H. apply in_map_iff in H. destruct H as (B' & E & HB'). apply N1.
        assert (W := fields_ok d Hd m B' (proj1 (HL B') (I B' (or_intror HB')))).
        assert (W' := fields_ok d Hd m B (proj1 (HL B) (I B (or_introl eq_refl)))).
        destruct W as (_ & _ & W). destruct W' as (_ & _ & W'). rewrite <- W', <- E, W. exact HB'.
      - apply IH; [exact N2|]. intros B' HB'. apply I. right. exact HB'. }
    apply G; [exact NL|]. intros B HB. exact HB.
  - apply NoDup_tuples, NoDup_upto.
  - intros F0. split.
    + intros H. apply in_map_iff in H. destruct H as (B & <- & HB). apply HL in HB.
      destruct (fields_ok d Hd m B HB) as (I1 & I2 & _). apply in_tuples. split; assumption.
    + intros H. apply in_tuples in H. destruct H as [L1 L2]. destruct (unfields_ok d Hd m F0 L1 L2) as [U1 U2].
      apply in_map_iff. exists (unfields d m F0). split; [exact U2|apply HL; exact U1].
Qed.

Lemma pw_parts w k s l : length l = (k * s)%nat -> pw (fun _ => w) l = prod k (fun j => pw (fun _ => w) (part s j l)).
Proof.
  revert l. induction k as [|k IH]; intros l L; [destruct l; [reflexivity|discriminate L]|].
  rewrite <- (firstn_skipn (k * s) l) at 1. rewrite pw_app_const. cbn [prod].
  assert (L1 : length (firstn (k * s) l) = (k * s)%nat) by (rewrite firstn_length; lia).
  rewrite (IH _ L1). f_equal.
  - apply prod_ext. intros j Hj. rewrite <- (firstn_skipn (k * s) l) at 2. rewrite (part_app_l s k) by assumption. reflexivity.
  - unfold part. rewrite firstn_all2; [reflexivity|]. rewrite skipn_length. lia.
Qed.

Lemma over_count {X} (bad : nat -> X -> bool) al be ts x :
  over bad al be ts x = be ^ Z.of_nat (length (filter (fun t => bad t x) ts)) *
    al ^ Z.of_nat (length ts - length (filter (fun t => bad t x) ts)).
Proof.
  induction ts as [|t ts IH]; [reflexivity|]. cbn [over filter length]. rewrite IH.
  assert (LF : (length (filter (fun t => bad t x) ts) <= length ts)%nat).
  { clear. induction ts as [|t ts IH]; [reflexivity|]. cbn [filter]. destruct (bad t x); cbn [length]; lia. }
  destruct (bad t x); cbn [length].
  - rewrite Nat2Z.inj_succ, Z.pow_succ_r by apply Nat2Z.is_nonneg. cbn [Nat.sub]. ring.
  - rewrite Nat.sub_succ_l by exact LF. rewrite Nat2Z.inj_succ, Z.pow_succ_r by apply Nat2Z.is_nonneg. ring.
Qed.

Lemma forallb_false {A} (f : A -> bool) l : forallb f l = false -> exists x, In x l /\ f x = false.
Proof.
  induction l as [|a l IH]; [discriminate|]. cbn [forallb]. destruct (f a) eqn:E; cbn [andb].
  - intros H. destruct (IH H) as (x & I & X). exists x. split; [right; exact I|exact X].
  - intros _. exists a. split; [left; reflexivity|exact E].
Qed.
Lemma prod_zero n f i : (i < n)%nat -> f i = 0 -> prod n f = 0.
Proof.
  intros Hi E. induction n as [|n IH]; [lia|]. cbn [prod]. destruct (Nat.eq_dec i n) as [->|N]; [rewrite E; ring|].
  rewrite IH by lia. ring.
Qed.

(** ** choices of y that are zero in given slots *)
Section Zeros.
  Variable k : nat.
  Variables (D : list Z) (v w : Z -> Z) (m A1 : Z).
  Hypothesis W0 : forall x, In x D -> 0 <= w x.
  Hypothesis Hm : forall z, wsum (fun x => if v x mod q =? z then w x else 0) D <= m.
  Hypothesis HA1 : wsum w D <= A1.

  Definition residues (l : list Z) : list Z := map (fun x => v x mod q) l.
  Definition ypoly (l : list Z) : list (list Z) := tab k (fun j => residues (part 256 j l)).

  Lemma residues_co l c : (c < length l)%nat -> co (residues l) c = v (nth c l 0) mod q.
  Proof.
    intros H. unfold residues, co. rewrite (nth_indep _ 0 (v 0 mod q)) by (rewrite map_length; exact H).
    rewrite (map_nth (fun x => v x mod q)). reflexivity.
  Qed.
  Lemma residues_poly l : length l = 256%nat -> poly (residues l).
  Proof.
    intros L. split; [unfold residues; rewrite map_length; exact L|]. apply Forall_forall. intros x Hx.
    apply in_map_iff in Hx. destruct Hx as (z & <- & _). apply fe_mod.
  Qed.

  Lemma one_poly_zeros S : NoDup S -> (forall t, In t S -> (t < 128)%nat) ->
    wsum (fun l => if forallb (fun t => zero_slot t (residues l)) S then pw (fun _ => w) l else 0) (tuples D 256) <=
    A1 ^ Z.of_nat (256 - 2 * length S) * m ^ Z.of_nat (2 * length S).
  Proof.
    intros NS HS.
    assert (LS : (length S <= 128)%nat).
    { rewrite <- (seq_length 128 0). apply NoDup_incl_length; [exact NS|]. intros t Ht. apply in_seq. specialize (HS t Ht). lia. }
    assert (m0 : 0 <= m).
    { eapply Z.le_trans; [|apply (Hm 0)]. apply wsum_nonneg. intros x Hx. destruct (_ =? 0); [apply W0, Hx|lia]. }
    pose proof (wsum_determined D (fun x => v x mod q) w (fun l => forallb (fun t => zero_slot t (residues l)) S)
      (256 - 2 * length S) (2 * length S) m W0 Hm) as WD.
    replace (256 - 2 * length S + 2 * length S)%nat with 256%nat in WD by lia.
    eapply Z.le_trans; [apply WD|].
    - intros x y y' Hx Hy Hy' Z1 Z2. apply in_tuples in Hx, Hy, Hy'. destruct Hx as [Lx _]. destruct Hy as [Ly _]. destruct Hy' as [Ly' _].
      assert (L1 : length (x ++ y) = 256%nat) by (rewrite app_length, Lx, Ly; lia).
      assert (L2 : length (x ++ y') = 256%nat) by (rewrite app_length, Lx, Ly'; lia).
      rewrite forallb_forall in Z1, Z2.
      assert (C : forall c, (c < 256)%nat -> eqq (co (residues (x ++ y)) c) (co (residues (x ++ y')) c)).
      { apply (slots_determine S _ _ NS HS).
        - intros t s Ht Hs. destruct (zero_slot_true t _ (Z1 t Ht)) as [A B]. destruct (zero_slot_true t _ (Z2 t Ht)) as [A' B'].
          destruct s as [|[|s]]; [rewrite Nat.add_0_r, A, A'|rewrite B, B'|lia]; reflexivity.
        - intros c Hc. apply eqq_of_eq. rewrite !residues_co by lia. rewrite !app_nth1 by (rewrite Lx; exact Hc). reflexivity. }
      apply (app_inv_head (map (fun x => v x mod q) x)). rewrite <- !map_app. fold (residues (x ++ y)) (residues (x ++ y')).
      apply poly_ext; [apply residues_poly, L1|apply residues_poly, L2|]. intros c Hc. specialize (C c Hc). apply eqq_mod in C.
      rewrite !fe_mod_id in C by (apply poly_co; [apply residues_poly; assumption|exact Hc]). exact C.
    - apply Z.mul_le_mono_nonneg_r; [apply Z.pow_nonneg, m0|]. apply Z.pow_le_mono_l. split; [apply wsum_nonneg, W0|exact HA1].
  Qed.

  Lemma zero_choices S : NoDup S -> (forall t, In t S -> (t < 128)%nat) ->
    wsum (fun l => if forallb (fun t => common_zero k (ypoly l) t) S then pw (fun _ => w) l else 0) (tuples D (k * 256)) <=
    (m ^ Z.of_nat (2 * k)) ^ Z.of_nat (length S) * (A1 ^ Z.of_nat (2 * k)) ^ Z.of_nat (128 - length S).
  Proof.
    intros NS HS.
    assert (LS : (length S <= 128)%nat).
    { rewrite <- (seq_length 128 0). apply NoDup_incl_length; [exact NS|]. intros t Ht. apply in_seq. specialize (HS t Ht). lia. }
    assert (PW : forall l, Forall (fun x => In x D) l -> 0 <= pw (fun _ => w) l).
    { induction 1 as [|a l Ha _ IH]; cbn [pw]; [lia|]. pose proof (W0 a Ha). nia. }
    rewrite (wsum_ext _ (fun l => prod k (fun j => if forallb (fun t => zero_slot t (residues (part 256 j l))) S
      then pw (fun _ => w) (part 256 j l) else 0))).
    - rewrite (wsum_blocks D 256 k (fun _ x => if forallb (fun t => zero_slot t (residues x)) S then pw (fun _ => w) x else 0)).
      eapply Z.le_trans; [apply (prod_le k _ (fun _ => A1 ^ Z.of_nat (256 - 2 * length S) * m ^ Z.of_nat (2 * length S)))|].
      + intros j Hj. split; [|apply one_poly_zeros; assumption]. apply wsum_nonneg. intros x Hx.
        apply in_tuples in Hx. destruct (forallb _ S); [apply PW, Hx|lia].
      + rewrite prod_pow. apply Z.eq_le_incl. rewrite Z.pow_mul_l, <- !Z.pow_mul_r by apply Nat2Z.is_nonneg.
        rewrite Z.mul_comm. clear - LS. rewrite <- !Nat2Z.inj_mul. f_equal; f_equal; f_equal; nia.
    - intros l Hl. apply in_tuples in Hl. destruct Hl as [L _].
      destruct (forallb (fun t => common_zero k (ypoly l) t) S) eqn:E.
      + rewrite (pw_parts w k 256 l L). apply prod_ext. intros j Hj.
        assert (Z1 : forallb (fun t => zero_slot t (residues (part 256 j l))) S = true).
        { rewrite forallb_forall in *. intros t Ht. specialize (E t Ht). unfold common_zero in E. rewrite forallb_forall in E.
          specialize (E j ltac:(apply in_seq; lia)). unfold ypoly in E. rewrite ent_tab in E by exact Hj. exact E. }
        rewrite Z1. reflexivity.
      + destruct (forallb_false _ _ E) as (t & Ht & E1). unfold common_zero in E1.
        destruct (forallb_false _ _ E1) as (j & Hj & E2). apply in_seq in Hj.
        assert (X : forallb (fun t => zero_slot t (residues (part 256 j l))) S = false).
        { apply not_true_iff_false. intros F. rewrite forallb_forall in F. specialize (F t Ht).
          unfold ypoly in E2. rewrite ent_tab in E2 by lia. congruence. }
        symmetry. apply (prod_zero k _ j); [lia|]. rewrite X. reflexivity.
  Qed.
End Zeros.

Lemma step_count QK K cnt V WS TM RR : 0 <= QK -> 0 <= V -> K * cnt <= 512 * (V * WS) -> QK * WS <= TM * RR ->
  K * (QK * cnt) <= 512 * (RR * (V * TM)).
Proof.
  intros HQ HV H1 H2. apply (Z.mul_le_mono_nonneg_l _ _ QK HQ) in H1.
  apply (Z.mul_le_mono_nonneg_l _ _ (512 * V)) in H2; [|lia]. lia.
Qed.
Lemma step_total QK TM tot W X Y V A : tot * W = X * Y * V -> A * QK * (TM * tot) * W = QK * (X * Y) * A * (V * TM).
Proof. intros H. replace (A * QK * (TM * tot) * W) with (A * QK * TM * (tot * W)) by ring. rewrite H. ring. Qed.
Lemma step_power K1 A K B QK cnt RR VT : K1 * A = K * B -> 0 <= B -> K * (QK * cnt) <= 512 * (RR * VT) ->
  K1 * (A * QK * cnt) <= 512 * (RR * B * VT).
Proof.
  intros E HB H. replace (K1 * (A * QK * cnt)) with (K1 * A * (QK * cnt)) by ring. rewrite E.
  apply (Z.mul_le_mono_nonneg_l _ _ B HB) in H. lia.
Qed.
Lemma step_cancel QK E cnt tot : 0 < QK -> E * (QK * cnt) <= QK * tot -> E * cnt <= tot.
Proof. intros HQ H. apply (Z.mul_le_mono_pos_l _ _ _ HQ). lia. Qed.
Lemma step_weight f QK x TM y : 0 <= f -> QK * x <= TM * y -> QK * (f * x) <= TM * (f * y).
Proof. intros Hf H. apply (Z.mul_le_mono_nonneg_l _ _ f Hf) in H. lia. Qed.

Section Average.
  Variable P : params.
  Hypothesis HP : wf_params P.
  Hypothesis Hdu : (1 <= du P <= 11)%nat.
  Hypothesis Hdv : (1 <= dv P <= 11)%nat.
  Variables Cu Cv : Z.
  Hypothesis HCu : round_div q (2 ^ Z.of_nat (du P + 1)) = Cu.
  Hypothesis HCv : round_div q (2 ^ Z.of_nat (dv P + 1)) = Cv.
  Let C1 := Z.of_nat (eta1 P).
  Let C2 := Z.of_nat (eta2 P) + Cu.
  Let T := 832 - Z.of_nat (eta2 P) - Cv.
  Let e := eta1 P.
  Let e' := eta2 P.
  Let k := pk P.
  Variables a b : Z.
  Hypothesis b_pos : 0 < b.
  Hypothesis ab : b <= a.
  Hypothesis Cu_pos : 0 <= Cu.
  Hypothesis sh1 : shape_ok e a b C1 = true.
  Hypothesis sh2 : shape_ok e a b C2 = true.
  Let M := Z.of_nat e * (Z.of_nat (k * 256) * (C1 + C2)).
  Hypothesis HT : 0 < T <= M.
  Variable n : positive.
  Hypothesis Hn : Zpos n = Z.of_nat (k * 256).
  Variable E : Z.
  Hypothesis HE0 : 0 <= E.
  Variables r1 r3 : Z.
  Hypothesis R1 : 0 <= r1.
  Hypothesis R3 : 0 <= r3.
  Hypothesis Q3 : b * unity <= r3 * a.
  (** A1: the whole weight of one coefficient of y; m1: the weight of one value of it; U: the weight of e1 and the rounding of u
      for the worst value of A^T y; Q: the same, summed over the values of A^T y *)
  Variables A1 m1 U Q : Z.
  Let D := upto (2 ^ Z.of_nat (2 * e)).
  Let w (x : Z) := g_at e a b C1 (Z.abs (cbdz e x)).
  Let G (X : Z) := wsum (fun x => g_at e a b C2 (Z.abs (wid (du P) X (cbdz e' x)))) (upto (2 ^ Z.of_nat (2 * e'))).
  Hypothesis HA1 : wsum w D <= A1.
  Hypothesis Hm1 : forall z, wsum (fun x => if cbdz e x mod q =? z then w x else 0) D <= m1.
  Hypothesis HU : forall X, 0 <= X < q -> G X <= U.
  Hypothesis HQ : wsum G (upto q) <= Q.
  Hypothesis HQU : Q <= q * U.
  Let R := Q ^ Z.of_nat (2 * k) * A1 ^ Z.of_nat (2 * k) + ((q * U) ^ Z.of_nat (2 * k) - Q ^ Z.of_nat (2 * k)) * m1 ^ Z.of_nat (2 * k).
  Let B1 := 2 ^ Z.of_nat (2 * e) * 2 ^ Z.of_nat (2 * e) * (a * b) ^ (Z.of_nat e * C1).
  Let B2 := 2 ^ Z.of_nat (2 * e) * 2 ^ Z.of_nat (2 * e') * (a * b) ^ (Z.of_nat e * C2).
  (** (b / a) ^ T, as 128 times t0 and t1 more *)
  Variable t0 : Z.
  Variable t1 : positive.
  Hypothesis Ht0 : 0 <= t0.
  Hypothesis Ht : T = 128 * t0 + Zpos t1.
  Hypothesis Q1 : R * b ^ t0 * unity <= r1 * ((q * (B1 * B2)) ^ Z.of_nat (2 * k) * a ^ t0).
  Hypothesis HN : 512 * E * (pow_up r1 128 * pow_up unity 128 * pow_up r3 t1) <= unity * unity * unity.

  Lemma w_nonneg x : 0 <= w x.
  Proof. apply g_at_nonneg; assumption. Qed.
  Lemma G_nonneg X : 0 <= G X.
  Proof. apply wsum_nonneg. intros. apply g_at_nonneg; assumption. Qed.
  Lemma G_bound X : 0 <= X < q -> 0 <= G X <= U.
  Proof. intros H. split; [apply G_nonneg|apply HU, H]. Qed.
  Lemma Q_nonneg : 0 <= Q.
  Proof. eapply Z.le_trans; [|exact HQ]. apply wsum_nonneg. intros. apply G_nonneg. Qed.
  Lemma U_nonneg : 0 <= U.
  Proof. eapply Z.le_trans; [apply (G_nonneg 0)|apply HU; split; [discriminate|reflexivity]]. Qed.
  Lemma k_pos : (0 < k)%nat.
  Proof. pose proof (k_range P HP) as X. unfold k. lia. Qed.

  (** y from the fields of Y *)
  Lemma yvec_fields Y : byte_string (k * (64 * e)) Y -> yvec P Y = ypoly k (cbdz e) (fields (2 * e) k Y).
  Proof.
    intros HY. pose proof (He P HP) as He'. fold e in He'. unfold yvec, ypoly. fold k e. apply tab_ext. intros j Hj.
    assert (LF : length (fields (2 * e) k Y) = (k * 256)%nat) by (apply (fields_ok (2 * e) He'); rewrite eq32; exact HY).
    assert (LP : length (part 256 j (fields (2 * e) k Y)) = 256%nat) by (apply (part_length 256 k); assumption).
    assert (E1 := HE1 P HP). fold e in E1.
    apply poly_ext.
    - rewrite SamplePolyCBD_map by exact E1. split; [rewrite map_length; exact (proj1 (ByteDecode_small (2 * e) _ ltac:(lia)))|].
      apply Forall_forall. intros x Hx. apply in_map_iff in Hx. destruct Hx as (z & <- & _). apply fe_mod.
    - apply residues_poly, LP.
    - intros c Hc. rewrite (cbd_coeff P e k) by assumption. rewrite residues_co by (rewrite LP; exact Hc).
      rewrite nth_part by exact Hc. reflexivity.
  Qed.
  Lemma yvec_vec Y : byte_string (k * (64 * e)) Y -> vec k (yvec P Y).
  Proof.
    intros HY. rewrite yvec_fields by exact HY. apply vec_tab. intros j Hj. apply residues_poly.
    apply (part_length 256 k); [|exact Hj]. pose proof (He P HP) as He'. fold e in He'.
    apply (fields_ok (2 * e) He'). rewrite eq32. exact HY.
  Qed.

  Definition slot_bad (t : nat) (Y : list Z) : bool := common_zero k (yvec P Y) t.
  Let al := Q ^ Z.of_nat (2 * k).
  Let be := (q * U) ^ Z.of_nat (2 * k).

  (** Part 1: the sum over the matrix, for one y *)
  Section OneY.
    Variable hs : hashes.
    Variable N : nat.
    Variable rho : list Z.
    Variable LM : list (list Z).
    Hypothesis HM : enumerates (k * k * (3 * N)) LM.
    Variable Y : list Z.
    Hypothesis HY : byte_string (k * (64 * e)) Y.

    Definition weight_of (Mx : list Z) : Z :=
      match A_hat (with_matrix hs k (3 * N) rho Mx) P N rho with
      | Some Ah => prod k (fun i => prod 256 (fun c => G (co (ent (rmatvec k (transposed k (map (map NTTinv) Ah)) (yvec P Y)) i) c)))
      | None => 0
      end.

    Lemma sum_over_matrix : q ^ Z.of_nat (k * 256) * wsum weight_of LM <=
      256 ^ Z.of_nat (k * k * (3 * N)) * over slot_bad al be (seq 0 128) Y.
    Proof.
      pose proof k_pos as K0. pose proof (yvec_vec Y HY) as VY. pose proof Q_nonneg as Q0. pose proof U_nonneg as U0.
      assert (S1 : q ^ Z.of_nat (k * k * 256) * wsum weight_of LM <=
        256 ^ Z.of_nat (k * k * (3 * N)) * wsum (all_entries k (yvec P Y) G) (tuples (upto q) (k * k * 256))).
      { apply (matrix_sum N (k * k) LM weight_of (all_entries k (yvec P Y) G) HM).
        - intros l _. apply prod_nonneg. intros i _. apply prod_nonneg. intros c _. apply G_nonneg.
        - intros Mx IM. unfold weight_of. destruct (A_hat _ P N rho) as [Ah|] eqn:EA; [right|left; apply Z.le_refl].
          destruct (A_hat_drawn hs P HP N rho Mx Ah (proj1 (proj2 HM Mx) IM) EA) as (l & H1 & H2 & H3). fold k in H1, H2, H3.
          exists l. split; [exact H1|]. split; [exact H2|]. apply Z.eq_le_incl. unfold all_entries. apply prod_ext. intros i Hi.
          apply prod_ext. intros c Hc. rewrite (H3 _ i Hi). reflexivity. }
      pose proof (columns_bound k K0 (yvec P Y) VY G U G_bound) as S2.
      set (tau := length (common_zeros k (yvec P Y))) in *.
      assert (TL : (tau <= 128)%nat) by apply tau_le.
      assert (S3 : wsum (all_entries k (yvec P Y) G) (tuples (upto q) (k * k * 256)) <=
        q ^ Z.of_nat (k * k * 256 - k * 256) * over slot_bad al be (seq 0 128) Y).
      { eapply Z.le_trans; [exact S2|].
        eapply Z.le_trans; [apply Z.pow_le_mono_l; split|].
        2:{ apply Z.mul_le_mono_nonneg_r; [apply Z.pow_nonneg; discriminate|].
            apply Z.mul_le_mono_nonneg_r; [apply Z.pow_nonneg, U0|].
            apply Z.pow_le_mono_l. split; [apply wsum_nonneg; intros; apply G_nonneg|exact HQ]. }
        { apply Z.mul_nonneg_nonneg; [apply Z.mul_nonneg_nonneg|]; apply Z.pow_nonneg; try discriminate; [|exact U0].
          apply wsum_nonneg. intros. apply G_nonneg. }
        apply Z.eq_le_incl. rewrite over_count, seq_length.
        replace (length (filter (fun t => slot_bad t Y) (seq 0 128))) with tau by reflexivity.
        unfold al, be. rewrite (Z.pow_mul_l q U), !Z.pow_mul_l, <- !Z.pow_mul_r by apply Nat2Z.is_nonneg. rewrite <- !Nat2Z.inj_mul.
        replace ((k * 256 - (256 - 2 * tau)) * k)%nat with ((k * k * 256 - k * 256) + 2 * k * tau)%nat by (clear - K0 TL; nia).
        replace ((256 - 2 * tau) * k)%nat with (2 * k * (128 - tau))%nat by (clear - K0 TL; nia).
        replace (2 * tau * k)%nat with (2 * k * tau)%nat by (clear; nia).
        rewrite (Nat2Z.inj_add (k * k * 256 - k * 256)), Z.pow_add_r by apply Nat2Z.is_nonneg. ring. }
      assert (QP : 0 < q ^ Z.of_nat (k * k * 256 - k * 256)) by (apply Z.pow_pos_nonneg; [reflexivity|apply Nat2Z.is_nonneg]).
      apply (Z.mul_le_mono_pos_l _ _ _ QP).
      replace (q ^ Z.of_nat (k * k * 256 - k * 256) * (q ^ Z.of_nat (k * 256) * wsum weight_of LM)) with (q ^ Z.of_nat (k * k * 256) * wsum weight_of LM).
      2:{ rewrite Z.mul_assoc, <- Z.pow_add_r by apply Nat2Z.is_nonneg. f_equal. f_equal. rewrite <- Nat2Z.inj_add. f_equal. clear - K0. nia. }
      eapply Z.le_trans; [exact S1|].
      apply (Z.mul_le_mono_nonneg_l _ _ (256 ^ Z.of_nat (k * k * (3 * N)))) in S3; [|apply Z.pow_nonneg; discriminate].
      eapply Z.le_trans; [exact S3|]. apply Z.eq_le_incl. ring.
    Qed.
  End OneY.

  (** Part 2: the sum over y *)
  Lemma sum_over_y LY : enumerates (k * (64 * e)) LY ->
    wsum (fun Y => pw (f1 P a b) (fields (2 * e) k Y) * over slot_bad al be (seq 0 128) Y) LY <= R ^ 128.
  Proof.
    intros HY. pose proof (He P HP) as He'. fold e in He'.
    assert (A10 : 0 <= A1) by (eapply Z.le_trans; [|exact HA1]; apply wsum_nonneg; intros; apply w_nonneg).
    assert (m10 : 0 <= m1).
    { eapply Z.le_trans; [|apply (Hm1 0)]. apply wsum_nonneg. intros x _. destruct (_ =? 0); [apply w_nonneg|lia]. }
    change 128 with (Z.of_nat 128).
    replace R with (al * A1 ^ Z.of_nat (2 * k) + (be - al) * m1 ^ Z.of_nat (2 * k)) by reflexivity.
    apply expand_all.
    - apply Z.pow_nonneg, Q_nonneg.
    - apply Z.pow_le_mono_l. split; [apply Q_nonneg|exact HQU].
    - apply Z.pow_nonneg, A10.
    - apply Z.pow_nonneg, m10.
    - intros S NS HS.
      pose proof (zero_choices k D (cbdz e) w m1 A1 (fun x _ => w_nonneg x) Hm1 HA1 S NS HS) as ZC.
      eapply Z.le_trans; [|exact ZC]. apply Z.eq_le_incl.
      unfold D. rewrite <- (wsum_fields_any (2 * e) k LY (fun l => if forallb (fun t => common_zero k (ypoly k (cbdz e) l) t) S then pw (fun _ => w) l else 0) He')
        by (rewrite eq32; exact HY).
      apply wsum_ext. intros Y IY. apply HY in IY. unfold slot_bad. rewrite (yvec_fields Y IY). reflexivity.
  Qed.

  Theorem matrix_average_bound hs N rho (hsM : list Z -> hashes) d r LM LY LW LB (f : list Z * (list Z * (list Z * list Z)) -> bool) :
    (forall Mx, In Mx LM -> r <> key_sigma (hsM Mx) P d) ->
    enumerates (k * k * (3 * N)) LM ->
    enumerates (k * (64 * e)) LY -> enumerates ((k + 1) * (64 * e')) LW -> enumerates (2 * k * (64 * e)) LB ->
    (forall Mx Y W B, In Mx LM -> In Y LY -> In W LW -> In B LB -> f (Mx, (Y, (W, B))) = true ->
       exists Ah, A_hat (with_matrix hs k (3 * N) rho Mx) P N rho = Some Ah /\ exists m,
       ~ noise_in_range (with_secrets (with_coins (hsM Mx) P r Y W) P (key_sigma (hsM Mx) P d) B) P (map (map NTTinv) Ah) d m r) ->
    E * count f (list_prod LM (list_prod LY (list_prod LW LB))) <=
    256 ^ Z.of_nat (k * k * (3 * N)) *
    (256 ^ Z.of_nat (k * (64 * e)) * 256 ^ Z.of_nat ((k + 1) * (64 * e')) * 256 ^ Z.of_nat (2 * k * (64 * e))).
  Proof.
    intros Hr HM HY HW HL Hf.
    assert (H1 : 0 <= C1) by apply Nat2Z.is_nonneg.
    assert (H2 : 0 <= C2) by (apply Z.add_nonneg_nonneg; [apply Nat2Z.is_nonneg|exact Cu_pos]).
    assert (HT0 : 0 <= T <= M) by (clear - HT; lia).
    assert (a_pos : 0 < a) by (clear - ab b_pos; lia).
    set (V := (2 ^ Z.of_nat (2 * e')) ^ 256).
    assert (V0 : 0 <= V) by (apply Z.pow_nonneg, Z.pow_nonneg; discriminate).
    set (K := a ^ (M + T) * b ^ (M - T)).
    assert (K0 : 0 <= K) by (apply Z.mul_nonneg_nonneg; apply Z.pow_nonneg; clear - a_pos b_pos; lia).
    pose proof (He P HP) as He1. fold e in He1. pose proof (He' P HP) as He2. fold e' in He2.
    (* one matrix *)
    assert (S1 : K * count f (list_prod LM (list_prod LY (list_prod LW LB))) <=
      512 * (V * wsum (fun Y => pw (f1 P a b) (fields (2 * e) k Y) * wsum (weight_of hs N rho Y) LM) LY)).
    { rewrite count_list_prod, <- wsum_scale.
      eapply Z.le_trans; [apply (wsum_le _ (fun Mx => wsum (fun Y => 512 * (V * (pw (f1 P a b) (fields (2 * e) k Y) * weight_of hs N rho Y Mx))) LY))|].
      - intros Mx IM. destruct (A_hat (with_matrix hs k (3 * N) rho Mx) P N rho) as [Ah|] eqn:EA.
        2:{ rewrite (count_ext_in _ (fun _ => false)).
            - rewrite count_false, Z.mul_0_r. apply wsum_nonneg. intros Y _. unfold weight_of. rewrite EA. rewrite !Z.mul_0_r. discriminate.
            - intros [Y [W B]] I. apply in_prod_iff in I. destruct I as [I1 I]. apply in_prod_iff in I.
              apply not_true_iff_false. intros F. destruct (Hf Mx Y W B IM I1 (proj1 I) (proj2 I) F) as (Ah & X & _). congruence. }
        rewrite count_list_prod, <- wsum_scale. apply wsum_le. intros Y IY. apply HY in IY as BY.
        rewrite count_list_prod, <- wsum_scale.
        eapply Z.le_trans; [apply (wsum_le _ (fun W => 512 * (pw (f1 P a b) (fields (2 * e) k Y) *
          pw (f2 P Cu a b (map (map NTTinv) Ah) Y) (fields (2 * e') (k + 1) W))))|].
        + intros W IW. apply HW in IW as BW.
          apply (one_choice P HP Hdu Hdv Cu Cv HCu HCv a b b_pos ab sh1 sh2 HT (hsM Mx) (map (map NTTinv) Ah) d r LB
            (fun B => f (Mx, (Y, (W, B)))) Y W (Hr Mx IM) HL BY BW).
          intros B IB F. destruct (Hf Mx Y W B IM IY IW IB F) as (Ah' & X & NR). rewrite EA in X. injection X as <-. exact NR.
        + rewrite wsum_scale, wsum_scale. apply Z.mul_le_mono_nonneg_l; [discriminate|].
          rewrite Z.mul_assoc, (Z.mul_comm V), <- Z.mul_assoc.
          apply Z.mul_le_mono_nonneg_l; [apply pw_nonneg; intros; apply g_at_nonneg; assumption|].
          rewrite (wsum_fields (2 * e') (k + 1) LW _ He2) by (rewrite eq32; exact HW).
          rewrite blocks1, prod_split, (Z.mul_comm V). apply Z.eq_le_incl. f_equal.
          * unfold weight_of. rewrite EA. rewrite <- prod_blocks by exact pos256. apply prod_ext. intros s0 Hs0.
            unfold G. apply wsum_ext. intros x _. unfold f2. fold k. rewrite ltb_true by exact Hs0. reflexivity.
          * unfold V. change 256 with (Z.of_nat 256). rewrite <- (prod_pow 256). apply prod_ext. intros s0 Hs0.
            rewrite (wsum_ext _ (fun _ => 1)).
            -- rewrite wsum_const, Z.mul_1_r. apply upto_length, Z.pow_nonneg. discriminate.
            -- intros x _. unfold f2. fold k. apply ltb_false, Nat.le_add_r.
      - rewrite wsum_swap. apply Z.eq_le_incl. rewrite <- !wsum_scale. apply wsum_ext. intros Y _.
        rewrite !wsum_scale. reflexivity. }
    (* the matrix *)
    set (QK := q ^ Z.of_nat (k * 256)). set (TM := 256 ^ Z.of_nat (k * k * (3 * N))) in *.
    assert (QP : 0 < QK) by (apply Z.pow_pos_nonneg; [reflexivity|apply Nat2Z.is_nonneg]).
    assert (S2 : QK * wsum (fun Y => pw (f1 P a b) (fields (2 * e) k Y) * wsum (weight_of hs N rho Y) LM) LY <= TM * R ^ 128).
    { eapply Z.le_trans; [|apply Z.mul_le_mono_nonneg_l; [apply Z.pow_nonneg; discriminate|apply (sum_over_y LY HY)]].
      rewrite <- !wsum_scale. apply wsum_le. intros Y IY. apply HY in IY.
      apply step_weight; [apply pw_nonneg; intros; apply g_at_nonneg; assumption|].
      exact (sum_over_matrix hs N rho LM HM Y IY). }
    assert (R0 : 0 <= R).
    { assert (A10 : 0 <= A1) by (eapply Z.le_trans; [|exact HA1]; apply wsum_nonneg; intros; apply w_nonneg).
      assert (m10 : 0 <= m1).
      { eapply Z.le_trans; [|apply (Hm1 0)]. apply wsum_nonneg. intros x _. destruct (_ =? 0); [apply w_nonneg|lia]. }
      apply Z.add_nonneg_nonneg; [apply Z.mul_nonneg_nonneg; apply Z.pow_nonneg; [apply Q_nonneg|exact A10]|].
      apply Z.mul_nonneg_nonneg; [|apply Z.pow_nonneg, m10]. apply Z.le_0_sub, Z.pow_le_mono_l. split; [apply Q_nonneg|exact HQU]. }
    set (cnt := count f _) in *. set (tot := 256 ^ Z.of_nat (k * (64 * e)) * _ * _).
    assert (BN : forall x y z, 0 <= 2 ^ y * 2 ^ z * (a * b) ^ x).
    { intros x y z. apply Z.mul_nonneg_nonneg; [apply Z.mul_nonneg_nonneg|]; apply Z.pow_nonneg; try discriminate.
      apply Z.mul_nonneg_nonneg; apply Z.lt_le_incl; assumption. }
    assert (AP : 0 < a ^ (128 * t0)) by (apply Z.pow_pos_nonneg; [exact a_pos|clear - Ht0; lia]).
    assert (Ht1 : 0 <= Zpos t1 <= M) by (clear - HT0 Ht Ht0; lia).
    assert (F : E * (a ^ (128 * t0) * QK * cnt) <= a ^ (128 * t0) * QK * (TM * tot)).
    { apply (assemble (a ^ (128 * t0) * QK * cnt) (a ^ (128 * t0) * QK * (TM * tot)) a b M (Zpos t1) (R * b ^ t0) 1
        ((q * (B1 * B2)) ^ Z.of_nat (2 * k) * a ^ t0) 1 128 r1 unity (pow_up r3 t1) E (V * TM)).
      - apply Z.mul_nonneg_nonneg; [exact V0|apply Z.pow_nonneg; discriminate].
      - exact a_pos.
      - exact b_pos.
      - exact Ht1.
      - apply Z.mul_nonneg_nonneg; [exact R0|apply Z.pow_nonneg, Z.lt_le_incl, b_pos].
      - discriminate.
      - apply Z.mul_nonneg_nonneg; [|apply Z.pow_nonneg, Z.lt_le_incl, a_pos].
        apply Z.pow_nonneg, Z.mul_nonneg_nonneg; [discriminate|apply Z.mul_nonneg_nonneg; apply BN].
      - discriminate.
      - exact HE0.
      - rewrite Z.pow_1_l by discriminate. rewrite Z.mul_1_r.
        pose proof (step_count QK K cnt V _ TM _ (Z.lt_le_incl _ _ QP) V0 S1 S2) as SC.
        assert (EK : a ^ (M + Zpos t1) * b ^ (M - Zpos t1) * a ^ (128 * t0) = K * b ^ (128 * t0)).
        { unfold K. rewrite Ht. clear - Ht0 Ht1 Ht HT0. rewrite <- (Z.mul_assoc (a ^ (M + (128 * t0 + _)))).
          rewrite <- (Z.pow_add_r b) by lia. rewrite <- Z.mul_assoc, (Z.mul_comm (b ^ _)), Z.mul_assoc, <- (Z.pow_add_r a) by lia.
          f_equal; f_equal; lia. }
        rewrite Z.pow_mul_l, <- (Z.pow_mul_r b), (Z.mul_comm t0) by (first [exact Ht0|discriminate]).
        apply (step_power _ _ _ _ _ _ _ _ EK); [apply Z.pow_nonneg, Z.lt_le_incl, b_pos|exact SC].
      - exact Q1.
      - rewrite Z.mul_1_l, Z.mul_1_r. apply Z.le_refl.
      - exact R1.
      - discriminate.
      - apply pow_up_ok, R3.
      - exact (pow_quotient b a r3 t1 _ (Z.lt_le_incl _ _ b_pos) (Z.lt_le_incl _ _ a_pos) Q3 R3 (Z.le_refl _)).
      - rewrite Z.pow_1_l by discriminate. rewrite Z.mul_1_r.
        assert (TE : tot * (a * b) ^ M = B1 ^ Zpos n * B2 ^ Zpos n * V).
        { unfold B1, B2. rewrite <- (total_eq P Hdu Hdv Cu Cv HCu HCv a b Cu_pos HT n Hn) by assumption. fold C1 C2 e k M.
          rewrite <- (Z.mul_assoc _ ((a * b) ^ M)), (Z.mul_comm ((a * b) ^ M) V), (Z.mul_assoc _ V). f_equal.
          rewrite Hn. unfold tot, V. clearbody k e e'. clear.
          change 256 with (2 ^ 8) at 1 2 3.
          rewrite <- !Z.pow_mul_r by lia. rewrite <- !Z.pow_add_r by lia. rewrite <- !Z.pow_mul_r by lia.
          rewrite <- !Z.pow_add_r by lia. f_equal. lia. }
        assert (PE : ((q * (B1 * B2)) ^ Z.of_nat (2 * k)) ^ 128 = QK * (B1 ^ Zpos n * B2 ^ Zpos n)).
        { rewrite <- Z.pow_mul_r by (first [discriminate|apply Nat2Z.is_nonneg]).
          replace (Z.of_nat (2 * k) * 128) with (Z.of_nat (k * 256)) by (clear; lia).
          rewrite Hn. unfold QK. rewrite !Z.pow_mul_l. reflexivity. }
        rewrite (Z.pow_mul_l _ (a ^ t0) 128), <- (Z.pow_mul_r a t0), (Z.mul_comm t0) by (first [exact Ht0|discriminate]). rewrite PE.
        exact (step_total QK TM tot _ _ _ V _ TE).
      - exact HN. }
    exact (step_cancel _ _ _ _ (Z.mul_pos_pos _ _ AP QP) F).
  Qed.
End Average.

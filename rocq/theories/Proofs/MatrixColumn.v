(** A^T y for a uniformly random matrix A and a fixed y: one entry of it, as a function of one
    column of A in the NTT domain.  In the slots in which y is not zero it is uniform. *)
From Coq Require Import List ZArith Lia Bool Arith.
From Verif.Base Require Import Res Oracles.
From Verif.Spec Require Import FIPS203 Domains Noise Counting.
From Verif.Model Require Import Machine Util Algebra.
From Verif.Proofs Require Import Basics Field Poly CompressProofs NttProofs NttAlgebra SampleProofs Inner CountProofs
  TailProofs Correctness Slots SlotSums FailureProofs FailureAverage.
Import ListNotations.
Open Scope Z_scope.

Lemma nth_part {A} s i c (l : list A) d : (c < s)%nat -> nth c (part s i l) d = nth (i * s + c) l d.
Proof. intros H. unfold part. rewrite nth_firstn by exact H. apply nth_skipn. Qed.

Lemma NTT_inner k u v : vec k u -> vec k v -> NTT (inner k u v) = dot k (map NTT u) (map NTT v).
Proof.
  intros Hu Hv. unfold inner. rewrite <- (sum_pmul_NTT k u v Hu Hv). apply NTT_NTTinv, dot_poly.
Qed.

Lemma flat_map_pieces {A B} (f g : A -> list B) l : (forall x, In x l -> length (f x) = length (g x)) ->
  flat_map f l = flat_map g l -> forall x, In x l -> f x = g x.
Proof.
  induction l as [|a l IH]; intros HL E x Hx; [contradiction|]. cbn [flat_map] in E.
  assert (E1 : f a = g a).
  { apply (f_equal (firstn (length (f a)))) in E. rewrite firstn_app, firstn_all, Nat.sub_diag, firstn_O, app_nil_r in E.
    rewrite (HL a (or_introl eq_refl)) in E. rewrite firstn_app, firstn_all, Nat.sub_diag, firstn_O, app_nil_r in E. exact E. }
  destruct Hx as [<-|Hx]; [exact E1|]. rewrite E1 in E. apply app_inv_head in E. apply IH; [|exact E|exact Hx].
  intros z Hz. apply HL. right. exact Hz.
Qed.

(** slot t of p is zero *)
Definition zero_slot (t : nat) (p : list Z) : bool := (co (NTT p) (2 * t) =? 0) && (co (NTT p) (2 * t + 1) =? 0).
(** slot t of all k polynomials is zero *)
Definition common_zero (k : nat) (y : list (list Z)) (t : nat) : bool := forallb (fun j => zero_slot t (ent y j)) (seq 0 k).
Definition common_zeros (k : nat) (y : list (list Z)) : list nat := filter (common_zero k y) (seq 0 128).

Section Column.
  Variable k : nat.
  Variable y : list (list Z).
  Hypothesis Hy : vec k y.

  (** the column of A, back in R_q, from the k 256 coefficients of its entries in the NTT domain *)
  Definition column (l : list Z) : list (list Z) := tab k (fun j => NTTinv (part 256 j l)).
  Definition entry (l : list Z) : list Z := inner k (column l) y.

  Let D := upto q.
  Let T := common_zeros k y.
  Let tau := length T.
  Let p := (256 - 2 * tau)%nat.

  Lemma tau_le : (tau <= 128)%nat.
  Proof.
    unfold tau, T, common_zeros. rewrite <- (seq_length 128 0) at 2.
    generalize (seq 0 128). intros l. induction l as [|a l IH]; [reflexivity|]. cbn [filter]. destruct (common_zero k y a); cbn [length]; lia.
  Qed.
  Lemma T_nodup : NoDup T.
  Proof. apply NoDup_filter, seq_NoDup. Qed.
  Lemma T_in t : In t T <-> (t < 128)%nat /\ common_zero k y t = true.
  Proof. unfold T, common_zeros. rewrite filter_In, in_seq. split; intros [H1 H2]; (split; [lia|exact H2]). Qed.

  (** an index j at which slot t of y is not zero *)
  Definition pivot (t : nat) : option nat := find (fun j => negb (zero_slot t (ent y j))) (seq 0 k).
  Lemma pivot_none t : pivot t = None <-> common_zero k y t = true.
  Proof.
    unfold pivot, common_zero. rewrite forallb_forall. split.
    - intros F x Hx. pose proof (find_none _ _ F x Hx) as N. apply negb_false_iff, N.
    - intros F. destruct (find _ _) as [j|] eqn:E; [|reflexivity]. apply find_some in E. destruct E as [E1 E2].
      rewrite (F j E1) in E2. discriminate E2.
  Qed.
  Definition others (t : nat) : list nat :=
    match pivot t with Some j0 => filter (fun j => negb (Nat.eqb j j0)) (seq 0 k) | None => seq 0 k end.
  Lemma remove_one j0 : forall n a, (a <= j0 < a + n)%nat -> length (filter (fun j => negb (Nat.eqb j j0)) (seq a n)) = (n - 1)%nat.
  Proof.
    induction n as [|n IH]; intros a H; [lia|]. cbn [seq filter]. destruct (Nat.eqb_spec a j0) as [->|N]; cbn [negb].
    - assert (E : forall m b, (j0 < b)%nat -> length (filter (fun j => negb (Nat.eqb j j0)) (seq b m)) = m).
      { induction m as [|m IHm]; intros b Hb; [reflexivity|]. cbn [seq filter]. destruct (Nat.eqb_spec b j0) as [X|_]; [lia|].
        cbn [negb length]. rewrite IHm by lia. reflexivity. }
      rewrite E by lia. lia.
    - cbn [length]. rewrite IH by lia. lia.
  Qed.
  Lemma others_length t : (length (others t) + (if common_zero k y t then 0 else 1) = k)%nat.
  Proof.
    unfold others. destruct (pivot t) as [j0|] eqn:E.
    - assert (N : common_zero k y t = false).
      { destruct (common_zero k y t) eqn:B; [|reflexivity]. apply pivot_none in B. rewrite B in E. discriminate E. }
      unfold pivot in E. apply find_some in E. destruct E as [E _]. apply in_seq in E. rewrite N, remove_one by lia. lia.
    - apply pivot_none in E. rewrite E, seq_length. lia.
  Qed.

  (** the coefficients of the column other than those at the pivots *)
  Definition rest (l : list Z) : list Z :=
    flat_map (fun t => flat_map (fun j => [co (part 256 j l) (2 * t); co (part 256 j l) (2 * t + 1)]) (others t)) (seq 0 128).
  Let r := (k * 256 - p)%nat.

  Lemma rest_length l : (0 < k)%nat -> length (rest l) = r.
  Proof.
    intros Hk.
    assert (P2 : forall (l0 : list nat), length (flat_map (fun j => [co (part 256 j l) (2 * j); 0]) l0) = (2 * length l0)%nat) by
      (induction l0 as [|a l0 IH]; [reflexivity|]; cbn [flat_map app length] in *; rewrite IH; lia).
    assert (G : forall ts, (length (flat_map (fun t => flat_map (fun j => [co (part 256 j l) (2 * t); co (part 256 j l) (2 * t + 1)]) (others t)) ts)
      + 2 * length ts = 2 * k * length ts + 2 * length (filter (common_zero k y) ts))%nat).
    { induction ts as [|t ts IH]; [cbn; lia|]. cbn [flat_map filter length]. rewrite app_length.
      assert (P3 : forall (l0 : list nat), length (flat_map (fun j => [co (part 256 j l) (2 * t); co (part 256 j l) (2 * t + 1)]) l0) = (2 * length l0)%nat) by
        (induction l0 as [|a l0 IH0]; [reflexivity|]; cbn [flat_map app length] in *; rewrite IH0; lia).
      rewrite P3. pose proof (others_length t) as O. destruct (common_zero k y t); cbn [length]; nia. }
    specialize (G (seq 0 128)). rewrite seq_length in G.
    assert (G' : (length (rest l) + 2 * 128 = 2 * k * 128 + 2 * tau)%nat) by exact G. clear G P2.
    pose proof tau_le as TL. unfold r, p. revert G' TL. generalize (length (rest l)) tau. clear - Hk. intros x t G' TL. lia.
  Qed.

  Lemma part_poly j l : In l (tuples D (k * 256)) -> (j < k)%nat -> poly (part 256 j l).
  Proof.
    intros Hl Hj. apply in_tuples in Hl. destruct Hl as [L F]. split; [apply (part_length 256 k); assumption|].
    unfold part. apply Forall_forall. intros x Hx. rewrite Forall_forall in F.
    assert (I : In x l).
    { apply In_firstn in Hx. rewrite <- (firstn_skipn (j * 256) l). apply in_app_iff. right. exact Hx. }
    apply F, in_upto_iff in I. exact I.
  Qed.
  Lemma column_vec l : vec k (column l).
  Proof. apply vec_tab. intros. apply NTTinv_poly. Qed.
  Lemma entry_poly l : poly (entry l).
  Proof. apply poly_tab_mod. Qed.

  Lemma entry_slot l t : In l (tuples D (k * 256)) -> (t < 128)%nat ->
    eqq (co (NTT (entry l)) (2 * t)) (sum k (fun j => co (part 256 j l) (2 * t) * co (NTT (ent y j)) (2 * t) +
       co (part 256 j l) (2 * t + 1) * co (NTT (ent y j)) (2 * t + 1) * gamma t)) /\
    eqq (co (NTT (entry l)) (2 * t + 1)) (sum k (fun j => co (part 256 j l) (2 * t) * co (NTT (ent y j)) (2 * t + 1) +
       co (part 256 j l) (2 * t + 1) * co (NTT (ent y j)) (2 * t))).
  Proof.
    intros Hl Ht. unfold entry. rewrite NTT_inner by (try apply column_vec; exact Hy).
    unfold dot. rewrite !co_tab by lia. rewrite !mod_eqq.
    assert (E : forall j, (j < k)%nat -> ent (map NTT (column l)) j = part 256 j l /\ ent (map NTT y) j = NTT (ent y j)).
    { intros j Hj. rewrite !(ent_map k) by (first [exact Hj|apply column_vec|apply Hy]). split; [|reflexivity].
      unfold column. rewrite ent_tab by exact Hj. apply NTT_NTTinv, part_poly; assumption. }
    split; apply sum_eqq; intros j Hj; destruct (E j Hj) as [-> ->].
    - rewrite MultiplyNTTs_even by exact Ht. apply mod_eqq.
    - rewrite MultiplyNTTs_odd by exact Ht. apply mod_eqq.
  Qed.

  Lemma zero_slot_true t f : zero_slot t f = true -> co (NTT f) (2 * t) = 0 /\ co (NTT f) (2 * t + 1) = 0.
  Proof. unfold zero_slot. rewrite andb_true_iff, !Z.eqb_eq. auto. Qed.

  Lemma entry_common_zero l t s : In l (tuples D (k * 256)) -> In t T -> (s < 2)%nat -> eqq (co (NTT (entry l)) (2 * t + s)) 0.
  Proof.
    intros Hl Ht Hs. destruct (proj1 (T_in t) Ht) as [Ht' Hz]. clear Ht. rename Ht' into Ht. unfold common_zero in Hz. rewrite forallb_forall in Hz.
    assert (Z0 : forall j, (j < k)%nat -> co (NTT (ent y j)) (2 * t) = 0 /\ co (NTT (ent y j)) (2 * t + 1) = 0).
    { intros j Hj. apply zero_slot_true, Hz, in_seq. lia. }
    destruct (entry_slot l t Hl Ht) as [E0 E1].
    destruct s as [|[|s]]; [rewrite Nat.add_0_r, E0|rewrite E1|lia]; apply eqq_of_eq; apply sum_zero'; intros j Hj;
      destruct (Z0 j Hj) as [-> ->]; ring.
  Qed.

  Lemma entry_injective l l' : In l (tuples D (k * 256)) -> In l' (tuples D (k * 256)) ->
    firstn p (entry l) = firstn p (entry l') -> rest l = rest l' -> l = l'.
  Proof.
    intros Hl Hl' EF ER.
    (* the entries agree *)
    assert (EA : entry l = entry l').
    { assert (C : forall c, (c < 256)%nat -> eqq (co (entry l) c) (co (entry l') c)).
      { apply (slots_determine T).
        - exact T_nodup.
        - intros t Ht. destruct (proj1 (T_in t) Ht) as [Ht' _]. exact Ht'.
        - intros t s Ht Hs. rewrite (entry_common_zero l t s Hl Ht Hs), (entry_common_zero l' t s Hl' Ht Hs). reflexivity.
        - intros c Hc. apply eqq_of_eq. unfold co.
          rewrite <- (nth_firstn _ p (entry l)), <- (nth_firstn _ p (entry l')) by exact Hc. rewrite EF. reflexivity. }
      apply poly_ext; [apply entry_poly|apply entry_poly|]. intros c Hc. pose proof (eqq_mod _ _ (C c Hc)) as E.
      rewrite !fe_mod_id in E by (apply poly_co; [apply entry_poly|exact Hc]). exact E. }
    (* the coefficients outside the pivots agree *)
    assert (EO : forall t j, (t < 128)%nat -> In j (others t) ->
      co (part 256 j l) (2 * t) = co (part 256 j l') (2 * t) /\ co (part 256 j l) (2 * t + 1) = co (part 256 j l') (2 * t + 1)).
    { intros t j Ht Hj. unfold rest in ER.
      assert (L2 : forall m n (f g f' g' : nat -> Z), n = m :> list nat ->
        length (flat_map (fun j => [f j; g j]) n) = length (flat_map (fun j => [f' j; g' j]) m)).
      { intros m n f g f' g' ->. induction m as [|a m IH]; [reflexivity|]. cbn [flat_map app length]. rewrite IH. reflexivity. }
      pose proof (flat_map_pieces _ _ _ (fun t0 _ => L2 (others t0) (others t0) _ _ _ _ eq_refl) ER t ltac:(apply in_seq; lia)) as E.
      cbv beta in E.
      pose proof (fun N => flat_map_pieces _ _ _ N E j Hj) as E'. cbv beta in E'. specialize (E' (fun _ _ => eq_refl)).
      injection E' as E1 E2. split; assumption. }
    (* all coefficients agree *)
    assert (EC : forall t j, (t < 128)%nat -> (j < k)%nat ->
      co (part 256 j l) (2 * t) = co (part 256 j l') (2 * t) /\ co (part 256 j l) (2 * t + 1) = co (part 256 j l') (2 * t + 1)).
    { intros t j Ht Hj. destruct (pivot t) as [j0|] eqn:EP.
      2:{ apply EO; [exact Ht|]. unfold others. rewrite EP. apply in_seq. lia. }
      destruct (Nat.eq_dec j j0) as [->|N].
      2:{ apply EO; [exact Ht|]. unfold others. rewrite EP. apply filter_In. split; [apply in_seq; lia|].
          apply negb_true_iff, Nat.eqb_neq, N. }
      pose proof EP as EP'. unfold pivot in EP'. apply find_some in EP'. destruct EP' as [_ NZ].
      destruct (entry_slot l t Hl Ht) as [A0 A1]. destruct (entry_slot l' t Hl' Ht) as [B0 B1].
      rewrite <- EA in B0, B1.
      set (u0 := co (part 256 j0 l) (2 * t) - co (part 256 j0 l') (2 * t)).
      set (u1 := co (part 256 j0 l) (2 * t + 1) - co (part 256 j0 l') (2 * t + 1)).
      set (v0 := co (NTT (ent y j0)) (2 * t)). set (v1 := co (NTT (ent y j0)) (2 * t + 1)).
      assert (O : forall i, (i < k)%nat -> i <> j0 ->
        co (part 256 i l) (2 * t) = co (part 256 i l') (2 * t) /\ co (part 256 i l) (2 * t + 1) = co (part 256 i l') (2 * t + 1)).
      { intros i Hi Ni. apply EO; [exact Ht|]. unfold others. rewrite EP. apply filter_In. split; [apply in_seq; lia|].
        apply negb_true_iff, Nat.eqb_neq, Ni. }
      assert (D0 : eqq (u0 * v0 + u1 * v1 * gamma t) 0).
      { rewrite A0 in B0. apply eqq_sub in B0. rewrite <- sum_sub in B0. rewrite (sum_single k j0) in B0.
        - etransitivity; [|exact B0]. apply eqq_of_eq. unfold u0, u1, v0, v1. ring.
        - exact Hj.
        - intros i Hi Ni. destruct (O i Hi Ni) as [-> ->]. ring. }
      assert (D1 : eqq (u0 * v1 + u1 * v0) 0).
      { rewrite A1 in B1. apply eqq_sub in B1. rewrite <- sum_sub in B1. rewrite (sum_single k j0) in B1.
        - etransitivity; [|exact B1]. apply eqq_of_eq. unfold u0, u1, v0, v1. ring.
        - exact Hj.
        - intros i Hi Ni. destruct (O i Hi Ni) as [-> ->]. ring. }
      assert (FP : forall c (x x' : Z), fe x -> fe x' -> c = x - x' -> eqq c 0 -> x = x').
      { intros c x x' Fx Fx' -> E. apply (proj2 (eqq_sub _ _)) in E. apply eqq_mod in E. rewrite !fe_mod_id in E by assumption. exact E. }
      assert (P1 := part_poly j0 l Hl Hj). assert (P2 := part_poly j0 l' Hl' Hj).
      destruct (slot_field t u0 u1 v0 v1 Ht D0 D1) as [[U0 U1]|[V0 V1]].
      - split; [eapply FP with (c := u0)|eapply FP with (c := u1)]; try reflexivity; try assumption; apply poly_co; try assumption; lia.
      - exfalso. apply negb_true_iff in NZ. unfold zero_slot in NZ. fold v0 v1 in NZ.
        assert (F0 : fe v0) by (apply poly_co; [apply NTT_poly|lia]). assert (F1 : fe v1) by (apply poly_co; [apply NTT_poly|lia]).
        apply eqq_mod in V0, V1. rewrite fe_mod_id in V0, V1 by assumption. change (0 mod q) with 0 in V0, V1.
        rewrite V0, V1 in NZ. discriminate NZ. }
    apply in_tuples in Hl, Hl'. destruct Hl as [L _]. destruct Hl' as [L' _].
    apply (nth_ext _ _ 0 0); [congruence|]. intros c Hc. rewrite L in Hc.
    rewrite <- (divmod256 c), <- !nth_part by apply mod256.
    destruct (index_split (c mod 256) (mod256 c)) as (t & s & Ht & Hs & ->).
    destruct (EC t (c / 256)%nat Ht (div256 k c Hc)) as [C0 C1]. unfold co in C0, C1.
    destruct s as [|[|s]]; [rewrite Nat.add_0_r; exact C0|exact C1|lia].
  Qed.

  Lemma column_bound (G : Z -> Z) (U : Z) : (0 < k)%nat -> (forall X, 0 <= X < q -> 0 <= G X <= U) ->
    wsum (fun l => prod 256 (fun c => G (co (entry l) c))) (tuples D (k * 256)) <=
    wsum G D ^ Z.of_nat p * U ^ Z.of_nat (2 * tau) * q ^ Z.of_nat r.
  Proof.
    intros Hk HG. pose proof tau_le as TL.
    assert (U0 : 0 <= U) by (pose proof (HG 0 ltac:(split; [discriminate|reflexivity])); lia).
    assert (GE : forall l c, (c < 256)%nat -> 0 <= G (co (entry l) c) <= U).
    { intros l c Hc. apply HG. apply (poly_co (entry l) c (entry_poly l) Hc). }
    rewrite <- Z.mul_assoc, (Z.mul_comm (U ^ _)), Z.mul_assoc.
    eapply Z.le_trans; [apply (wsum_le _ (fun l => pw (fun _ => G) (firstn p (entry l)) * U ^ Z.of_nat (2 * tau)))|].
    - intros l _. replace 256%nat with (p + 2 * tau)%nat by (unfold p; lia). rewrite FailureProofs.prod_split.
      rewrite pw_prod, firstn_length, (proj1 (entry_poly l)). replace (Nat.min p 256) with p by (unfold p; lia).
      rewrite (prod_ext p (fun t => G (nth t (firstn p (entry l)) 0)) (fun c => G (co (entry l) c)))
        by (intros i Hi; rewrite nth_firstn by exact Hi; reflexivity).
      apply Z.mul_le_mono_nonneg_l.
      + apply prod_nonneg. intros i Hi. apply GE. unfold p in Hi. lia.
      + rewrite <- prod_pow. apply prod_le. intros i Hi. apply GE. unfold p in *. lia.
    - rewrite wsum_scale_r. apply Z.mul_le_mono_nonneg_r; [apply Z.pow_nonneg, U0|].
      eapply Z.le_trans; [apply (wsum_inj2 (pw (fun _ => G)) (fun l => firstn p (entry l)) rest _ (tuples D p) (tuples D r))|].
      + apply NoDup_tuples, NoDup_upto.
      + intros l _. apply in_tuples. split; [rewrite firstn_length, (proj1 (entry_poly l)); unfold p; lia|].
        apply Forall_forall. intros x Hx. apply In_firstn in Hx. apply in_upto_iff.
        exact (proj1 (Forall_forall _ _) (proj2 (entry_poly l)) x Hx).
      + intros l Hl. apply in_tuples. split; [apply rest_length, Hk|]. apply Forall_forall. intros x Hx.
        unfold rest in Hx. apply in_flat_map in Hx. destruct Hx as (t & Ht & Hx). apply in_flat_map in Hx. destruct Hx as (j & Hj & Hx).
        apply in_seq in Ht. assert (Hj' : (j < k)%nat).
        { unfold others in Hj. destruct (pivot t); [apply filter_In in Hj; destruct Hj as [Hj _]|]; apply in_seq in Hj; lia. }
        apply in_upto_iff. pose proof (part_poly j l Hl Hj') as PP.
        destruct Hx as [<-|[<-|[]]]; apply (poly_co _ _ PP); lia.
      + intros l l' Hl Hl'. apply entry_injective; assumption.
      + intros x Hx. apply in_tuples in Hx. destruct Hx as [_ F]. clear - F HG. induction F as [|a x Ha _ IH]; cbn [pw]; [lia|].
        apply in_upto_iff in Ha. pose proof (HG a Ha). nia.
      + unfold D. rewrite wsum_tuples, prod_pow, tuples_length, upto_length by discriminate. apply Z.le_refl.
  Qed.
End Column.

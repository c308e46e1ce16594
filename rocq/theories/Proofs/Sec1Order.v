(** The number of points of a curve of Spec/SEC1.v whose base point has a large prime order. *)
From Coq Require Import List ZArith Lia Bool Znumtheory Zpow_facts Permutation.
From Verif.Proofs Require Import CompressProofs CountProofs Primes SEC1Proofs.
From Verif.Spec Require Import FIPS203 SEC1.
Import ListNotations.
Open Scope Z_scope.

Section Curve.
  Variable C : curve.
  Hypothesis C_ok : curve_ok C.
  Notation on := (on_curve C).
  Notation add := (add C).
  Notation multiple := (multiple C).

  Lemma o_cancel P Q R : on P -> on Q -> on R -> add P Q = add P R -> Q = R.
  Proof.
    intros HP HQ HR E. pose proof (negate_on C C_ok P HP) as HN. apply (f_equal (add (negate C P))) in E.
    rewrite <- !(add_assoc C C_ok), (add_comm C C_ok (negate C P)), (add_negate C C_ok) in E by assumption. exact E.
  Qed.
  Lemma o_infinity n : multiple n Infinity = Infinity.
  Proof. induction n; [reflexivity|]. cbn [SEC1.multiple]. rewrite IHn. reflexivity. Qed.

  (** a finite commutative group is killed by its size *)
  Definition total (l : list point) : point := fold_right add Infinity l.
  Lemma total_on l : Forall on l -> on (total l).
  Proof. induction 1; [exact I|]. apply (add_on C C_ok); assumption. Qed.
  Lemma total_perm l l' : Permutation l l' -> Forall on l -> total l = total l'.
  Proof.
    induction 1 as [|x l l' H IH|x y l|l l' l'' H IH H' IH']; intros F; cbn [total fold_right]; try reflexivity.
    - inversion F; subst. f_equal. apply IH. assumption.
    - inversion F as [|? ? Fx F']; subst. inversion F' as [|? ? Fy F'']; subst. fold (total l).
      pose proof (total_on l F''). rewrite <- !(add_assoc C C_ok) by assumption. f_equal. apply (add_comm C C_ok); assumption.
    - rewrite IH by exact F. apply IH'. exact (Permutation_Forall H F).
  Qed.
  Lemma total_map P l : on P -> Forall on l -> total (map (add P) l) = add (multiple (length l) P) (total l).
  Proof.
    intros HP. induction 1 as [|Q l HQ F IH]; [reflexivity|]. cbn [map length SEC1.multiple total fold_right].
    fold (total l). fold (total (map (add P) l)). rewrite IH.
    pose proof (total_on l F). pose proof (multiple_on C C_ok (length l) P HP).
    rewrite !(add_assoc C C_ok) by (repeat apply (add_on C C_ok); assumption). f_equal.
    rewrite <- !(add_assoc C C_ok) by assumption. f_equal. apply (add_comm C C_ok); assumption.
  Qed.
  Lemma all_killed l P : NoDup l -> (forall Q, In Q l <-> on Q) -> on P -> multiple (length l) P = Infinity.
  Proof.
    intros N H HP. assert (F : Forall on l) by (apply Forall_forall; intros Q; apply H).
    assert (PM : Permutation (map (add P) l) l).
    { apply NoDup_Permutation_bis; [|rewrite map_length; reflexivity|].
      - apply NoDup_map_inj; [exact N|]. intros Q R HQ HR. apply H in HQ. apply H in HR. apply o_cancel; assumption.
      - intros Q HQ. apply in_map_iff in HQ. destruct HQ as (R & <- & HR). apply H. apply (add_on C C_ok); [exact HP|apply H; exact HR]. }
    assert (F' : Forall on (map (add P) l)) by (apply Forall_forall; intros Q HQ; apply H; exact (Permutation_in _ PM HQ)).
    pose proof (total_perm _ _ PM F') as E. rewrite total_map in E by assumption.
    pose proof (total_on l F) as T. pose proof (multiple_on C C_ok (length l) P HP) as M.
    rewrite (add_comm C C_ok) in E by assumption. apply (o_cancel (total l)); [exact T|exact M|exact I|].
    rewrite add_Infinity_r. exact E.
  Qed.

  (** the numbers that kill a point other than infinity, when a prime n is among them *)
  Definition kills (n : Z) (Q : point) : Prop := 0 <= n /\ multiple (Z.to_nat n) Q = Infinity.
  Lemma kills_mul m n Q : on Q -> 0 <= m -> kills n Q -> kills (m * n) Q.
  Proof.
    intros H Hm [Hn E]. split; [nia|]. rewrite Z2Nat.inj_mul, <- (multiple_mul C C_ok), E by assumption. apply o_infinity.
  Qed.
  Lemma kills_mod m n Q : on Q -> 0 < n -> kills m Q -> kills n Q -> kills (m mod n) Q.
  Proof.
    intros H Hn K1 K2. destruct K1 as [Hm E]. pose proof (Z.mod_pos_bound m n Hn) as R. split; [lia|].
    destruct (kills_mul (m / n) n Q H (Z.div_pos m n Hm Hn) K2) as [HP E'].
    rewrite (Z.div_mod m n), (Z.mul_comm n) in E by lia. rewrite Z2Nat.inj_add, (multiple_add C C_ok), E' in E by (lia || assumption). exact E.
  Qed.
  Lemma kills_gcd m n Q : on Q -> kills m Q -> kills n Q -> kills (Z.gcd m n) Q.
  Proof.
    intros H. assert (G : forall k n, Z.to_nat n = k -> forall m, kills m Q -> kills n Q -> kills (Z.gcd m n) Q).
    { clear m n. induction k as [k IH] using (well_founded_induction lt_wf). intros n En m Km Kn.
      destruct (Z.eq_dec n 0) as [->|N]; [rewrite Z.gcd_0_r, Z.abs_eq by apply Km; exact Km|].
      assert (Hn : 0 < n) by (destruct Kn; lia). pose proof (Z.mod_pos_bound m n Hn) as R.
      rewrite Z.gcd_comm, <- Z.gcd_mod by exact N. rewrite Z.gcd_comm.
      apply (IH (Z.to_nat (m mod n)) ltac:(lia) (m mod n) eq_refl n Kn (kills_mod m n Q H Hn Km Kn)). }
    exact (G _ n eq_refl m).
  Qed.
  Lemma kills_1 Q : kills 1 Q -> Q = Infinity.
  Proof. intros [_ E]. change (Z.to_nat 1) with 1%nat in E. cbn [SEC1.multiple] in E. rewrite add_Infinity_r in E. exact E. Qed.
  Lemma prime_kills n m Q : prime n -> on Q -> Q <> Infinity -> kills n Q -> 0 <= m -> kills m Q <-> (n | m).
  Proof.
    intros Hn H N K Hm. split.
    - intros K'. destruct (Zdivide_dec n m) as [D|D]; [exact D|]. exfalso. apply N. apply kills_1.
      rewrite <- (proj2 (Zgcd_1_rel_prime m n)); [apply kills_gcd; assumption|].
      apply rel_prime_sym. apply prime_rel_prime; assumption.
    - intros [j ->]. apply kills_mul; [exact H| |exact K]. pose proof (prime_ge_2 n Hn). nia.
  Qed.

  (** ** the points, listed *)
  Definition onb (x y : Z) : bool := (y ^ 2) mod p C =? (x ^ 3 + a C * x + b C) mod p C.
  Definition fibre (ax : list Z) (x : Z) : list Z := filter (onb x) ax.
  Definition points_over (ax xs : list Z) : list point := flat_map (fun x => map (Point x) (fibre ax x)) xs.
  Definition points (ax : list Z) : list point := Infinity :: points_over ax ax.

  Section Axis.
    Variable ax : list Z.
    Hypothesis ax_nodup : NoDup ax.
    Hypothesis ax_in : forall x, In x ax <-> 0 <= x < p C.
    Hypothesis no_root : forall x, (x ^ 3 + a C * x + b C) mod p C <> 0.

    Lemma in_over xs Q : (forall x, In x xs -> In x ax) ->
      In Q (points_over ax xs) <-> exists x y, Q = Point x y /\ In x xs /\ on Q.
    Proof.
      intros HU. unfold points_over. rewrite in_flat_map. split.
      - intros (x & Hx & HQ). apply in_map_iff in HQ. destruct HQ as (y & <- & Hy). apply filter_In in Hy. destruct Hy as [Hy E].
        exists x, y. split; [reflexivity|]. split; [exact Hx|]. split; [apply ax_in, HU, Hx|]. split; [apply ax_in, Hy|].
        apply Z.eqb_eq. exact E.
      - intros (x & y & -> & Hx & (_ & Hy & E)). exists x. split; [exact Hx|]. apply in_map. apply filter_In.
        split; [apply ax_in; exact Hy|]. apply Z.eqb_eq. exact E.
    Qed.
    Lemma nodup_over xs : NoDup xs -> (forall x, In x xs -> In x ax) -> NoDup (points_over ax xs).
    Proof.
      induction xs as [|x xs IH]; intros N HU; [constructor|]. inversion N as [|? ? Nx N']; subst. unfold points_over. cbn [flat_map].
      apply NoDup_app_disj.
      - apply NoDup_map_inj; [apply NoDup_filter; exact ax_nodup|]. intros v w _ _ E. injection E. trivial.
      - apply IH; [exact N'|]. intros w Hw. apply HU. right. exact Hw.
      - intros Q H1 H2. apply in_map_iff in H1. destruct H1 as (v & <- & _).
        apply in_over in H2; [|intros w Hw; apply HU; right; exact Hw]. destruct H2 as (x' & v' & E & Hx' & _).
        injection E as E1 E2. subst. contradiction.
    Qed.
    Lemma points_in Q : In Q (points ax) <-> on Q.
    Proof.
      cbn [points In]. rewrite in_over by trivial. split.
      - intros [<-|(x & y & -> & _ & H)]; [exact I|exact H].
      - intros H. destruct Q as [|x y]; [left; reflexivity|right]. exists x, y. split; [reflexivity|]. split; [|exact H].
        apply ax_in. apply H.
    Qed.
    Lemma points_nodup : NoDup (points ax).
    Proof.
      constructor; [|apply nodup_over; [exact ax_nodup|trivial]].
      intros H. apply in_over in H; [|trivial]. destruct H as (x & y & E & _). discriminate E.
    Qed.

    Lemma fibre_length x : 0 <= x < p C -> length (fibre ax x) = 0%nat \/ length (fibre ax x) = 2%nat.
    Proof.
      intros Hx. assert (I : forall y, In y (fibre ax x) <-> on (Point x y)).
      { intros y. unfold fibre. rewrite filter_In, ax_in. unfold onb. rewrite Z.eqb_eq. cbn [on_curve]. tauto. }
      assert (N : NoDup (fibre ax x)) by (apply NoDup_filter; exact ax_nodup).
      assert (D : fibre ax x = [] \/ exists y, In y (fibre ax x)).
      { destruct (fibre ax x) as [|y l]; [left; reflexivity|right; exists y; left; reflexivity]. }
      destruct D as [D|[y D]]; [left; rewrite D; reflexivity|right].
      assert (Hy : on (Point x y)) by (apply I; exact D). clear D.
      assert (Ny : y <> 0).
      { intros ->. destruct Hy as (_ & _ & Hy). apply (no_root x). rewrite <- Hy. apply Z.mod_0_l, (p_nz C C_ok). }
      pose proof Hy as (_ & Ry & _).
      assert (M : (- y) mod p C = p C - y) by (symmetry; apply (Z.mod_unique_pos _ _ (-1)); lia).
      assert (PM : Permutation (fibre ax x) [y; p C - y]).
      { apply NoDup_Permutation; [exact N| |].
        - constructor; [|constructor; [intros []|constructor]]. intros [E|[]].
          destruct C_ok as (Hpr & H2 & _). apply H2.
          assert (D : (2 | p C)) by (exists y; lia). apply prime_divisors in D; [|exact Hpr]. lia.
        - intros z. rewrite I. cbn [In]. split.
          + intros Hz. destruct (same_x C C_ok x y z Hy Hz) as [->|Ez]; [left; reflexivity|right; left; rewrite Ez; exact (eq_sym M)].
          + intros [<-|[<-|[]]]; [exact Hy|]. rewrite <- M. exact (negate_on C C_ok _ Hy). }
      exact (Permutation_length PM).
    Qed.
    Lemma over_length xs : (forall x, In x xs -> In x ax) ->
      exists k, Z.of_nat (length (points_over ax xs)) = 2 * k /\ 0 <= k <= Z.of_nat (length xs).
    Proof.
      induction xs as [|x xs IH]; intros HU; [exists 0; cbn; lia|]. unfold points_over. cbn [flat_map length]. rewrite app_length, map_length.
      fold (points_over ax xs). destruct (IH (fun w Hw => HU w (or_intror Hw))) as (k & E & Hk).
      destruct (fibre_length x (proj1 (ax_in x) (HU x (or_introl eq_refl)))) as [L|L]; rewrite L; [exists k|exists (k + 1)]; lia.
    Qed.
  End Axis.

  (** at most two points over each x, whatever the curve *)
  Lemma fibre_le ax x : NoDup ax -> (forall x, In x ax <-> 0 <= x < p C) -> 0 <= x < p C -> (length (fibre ax x) <= 2)%nat.
  Proof.
    intros N I Hx. assert (J : forall y, In y (fibre ax x) -> on (Point x y)).
    { intros y Hy. apply filter_In in Hy. destruct Hy as [Hy E]. apply I in Hy. apply Z.eqb_eq in E. cbn [on_curve]. tauto. }
    assert (D : fibre ax x = [] \/ exists y, In y (fibre ax x)).
    { destruct (fibre ax x) as [|y l]; [left; reflexivity|right; exists y; left; reflexivity]. }
    destruct D as [D|[y D]]; [rewrite D; cbn; lia|].
    apply (NoDup_incl_length (l := fibre ax x) (l' := [y; (- y) mod p C])); [apply NoDup_filter; exact N|].
    intros z Hz. destruct (same_x C C_ok x y z (J y D) (J z Hz)) as [->| ->]; cbn [In]; tauto.
  Qed.
  Lemma few_points : exists l, NoDup l /\ (forall Q, In Q l <-> on Q) /\ Z.of_nat (length l) <= 2 * p C + 1.
  Proof.
    assert (AX : exists ax, NoDup ax /\ (forall x, In x ax <-> 0 <= x < p C) /\ Z.of_nat (length ax) = p C).
    { exists (upto (p C)). split; [apply NoDup_upto|]. split; [intros x; apply in_upto_iff|].
      unfold upto. rewrite map_length, seq_length. apply Z2Nat.id. pose proof (p_pos C C_ok). lia. }
    destruct AX as (ax & N & I & L). exists (points ax).
    split; [apply points_nodup; assumption|]. split; [intros Q; apply points_in; assumption|].
    assert (H : forall xs, (forall x, In x xs -> In x ax) -> (length (points_over ax xs) <= 2 * length xs)%nat).
    { induction xs as [|x xs IH]; intros HU; [cbn; lia|]. unfold points_over. cbn [flat_map length]. rewrite app_length, map_length.
      fold (points_over ax xs). specialize (IH (fun w Hw => HU w (or_intror Hw))).
      pose proof (fibre_le ax x N I (proj1 (I x) (HU x (or_introl eq_refl)))). lia. }
    specialize (H ax (fun x Hx => Hx)). cbn [points length]. lia.
  Qed.

  Theorem order_of_curve n : prime n -> 2 * p C + 1 < 3 * n -> on (G C) -> kills n (G C) ->
    (forall x, (x ^ 3 + a C * x + b C) mod p C <> 0) ->
    exists l, NoDup l /\ (forall Q, In Q l <-> on Q) /\ Z.of_nat (length l) = n.
  Proof.
    intros Hn Hs HG K NR.
    assert (AX : exists ax, NoDup ax /\ (forall x, In x ax <-> 0 <= x < p C) /\ Z.of_nat (length ax) = p C).
    { exists (upto (p C)). split; [apply NoDup_upto|]. split; [intros x; apply in_upto_iff|].
      unfold upto. rewrite map_length, seq_length. apply Z2Nat.id. pose proof (p_pos C C_ok). lia. }
    destruct AX as (ax & N & I & L). exists (points ax).
    split; [apply points_nodup; assumption|]. split; [intros Q; apply points_in; assumption|].
    destruct (over_length ax N I NR ax (fun x H => H)) as (k & E & Hk). rewrite L in Hk.
    assert (KN : kills (Z.of_nat (length (points ax))) (G C)).
    { split; [lia|]. rewrite Nat2Z.id. apply all_killed; [apply points_nodup; assumption| |exact HG].
      intros Q. apply points_in; assumption. }
    apply (prime_kills n) in KN; [|exact Hn|exact HG|discriminate|exact K|lia].
    cbn [points length] in KN |- *. rewrite Nat2Z.inj_succ, E in *. destruct KN as [j J].
    assert (0 < j) by nia. assert (j < 3) by nia. assert (j = 1 \/ j = 2) as [-> | ->] by lia; lia.
  Qed.

  (** every point other than infinity has order n *)
  Theorem order_of_points n l : prime n -> NoDup l -> (forall Q, In Q l <-> on Q) -> Z.of_nat (length l) = n ->
    forall Q m, on Q -> Q <> Infinity -> 0 <= m -> multiple (Z.to_nat m) Q = Infinity <-> (n | m).
  Proof.
    intros Hn N I L Q m HQ NQ Hm. assert (K : kills n Q).
    { split; [lia|]. rewrite <- L, Nat2Z.id. apply all_killed; assumption. }
    rewrite <- (prime_kills n m Q Hn HQ NQ K Hm). unfold kills. tauto.
  Qed.
End Curve.

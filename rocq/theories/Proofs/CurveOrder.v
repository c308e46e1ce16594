(** The number of points of Curve25519 and of its twist. *)
From Coq Require Import List ZArith Lia Bool Field Znumtheory Zpow_facts Permutation.
From Verif.Base Require Import Oracles.
From Verif.Spec Require Import FIPS203 RFC7748 Curve25519.
From Verif.Proofs Require Edwards.
From Verif.Proofs Require Import CompressProofs CountProofs Primes CurvePrimes OrderPrimes X25519Proofs Curve25519Proofs Torsion.
Import ListNotations.
Open Scope Z_scope.

Add Field F25519_3 : F_field.

(** ** a finite commutative group is killed by its size *)
Section Group.
  Variable B : Z.
  Hypothesis HB : B = 1 \/ B = 2.
  Notation on := (on_curve B).

  Lemma g_on P Q : on P -> on Q -> on (add B P Q).
  Proof. destruct (curve_data B HB) as (C' & A' & e & s & D1 & D2 & D3 & D4 & D5 & D6 & D7). apply (add_on B C' e s); assumption. Qed.
  Lemma g_comm P Q : on P -> on Q -> add B P Q = add B Q P.
  Proof. destruct (curve_data B HB) as (C' & A' & e & s & D1 & D2 & D3 & D4 & D5 & D6 & D7). apply (add_comm B C' e s); assumption. Qed.
  Lemma g_assoc P Q R : on P -> on Q -> on R -> add B (add B P Q) R = add B P (add B Q R).
  Proof. destruct (curve_data B HB) as (C' & A' & e & s & D1 & D2 & D3 & D4 & D5 & D6 & D7). apply (add_assoc B C' e s); assumption. Qed.
  Definition neg (Q : point) : point := match Q with Infinity => Infinity | Point u v => Point u ((- v) mod p25519) end.
  Lemma neg_on Q : on Q -> on (neg Q).
  Proof.
    destruct Q as [|u v]; [trivial|]. intros (Hu & Hv & E). split; [exact Hu|]. split; [apply Z.mod_pos_bound; reflexivity|].
    rewrite <- E. rewrite <- Zmult_mod_idemp_r, <- Zpow_facts.Zpower_mod, Zmult_mod_idemp_r by reflexivity. f_equal. ring.
  Qed.
  Lemma add_neg Q : on Q -> add B (neg Q) Q = Infinity.
  Proof.
    intros H. rewrite g_comm by (try apply neg_on; exact H). destruct Q as [|u v]; [reflexivity|]. cbn [add neg].
    rewrite Z.eqb_refl, Zplus_mod_idemp_r. replace (v + - v) with 0 by ring. reflexivity.
  Qed.
  Lemma add_inf Q : add B Q Infinity = Q.
  Proof. destruct Q; reflexivity. Qed.
  Lemma g_cancel P Q R : on P -> on Q -> on R -> add B P Q = add B P R -> Q = R.
  Proof.
    intros HP HQ HR E. apply (f_equal (add B (neg P))) in E.
    rewrite <- !g_assoc, add_neg in E by (try apply neg_on; assumption). exact E.
  Qed.

  Definition total (l : list point) : point := fold_right (add B) Infinity l.
  Lemma total_on l : Forall on l -> on (total l).
  Proof. induction 1; [exact I|]. apply g_on; assumption. Qed.
  Lemma total_perm l l' : Permutation l l' -> Forall on l -> total l = total l'.
  Proof.
    induction 1 as [|x l l' H IH|x y l|l l' l'' H IH H' IH']; intros F; cbn [total fold_right]; try reflexivity.
    - inversion F; subst. f_equal. apply IH. assumption.
    - inversion F as [|? ? Fx F']; subst. inversion F' as [|? ? Fy F'']; subst. fold (total l).
      pose proof (total_on l F''). rewrite <- !g_assoc by assumption. f_equal. apply g_comm; assumption.
    - rewrite IH by exact F. apply IH'. exact (Permutation_Forall H F).
  Qed.
  Lemma total_map P l : on P -> Forall on l -> total (map (add B P) l) = add B (multiple B (length l) P) (total l).
  Proof.
    intros HP. induction 1 as [|Q l HQ F IH]; [reflexivity|]. cbn [map length multiple total fold_right].
    fold (total l). fold (total (map (add B P) l)). rewrite IH.
    pose proof (total_on l F). pose proof (m_on B HB (length l) P HP).
    rewrite !g_assoc by (repeat apply g_on; assumption). f_equal.
    rewrite <- !g_assoc by assumption. f_equal. apply g_comm; assumption.
  Qed.
  Lemma all_killed l P : NoDup l -> (forall Q, In Q l <-> on Q) -> on P -> multiple B (length l) P = Infinity.
  Proof.
    intros N H HP. assert (F : Forall on l) by (apply Forall_forall; intros Q; apply H).
    assert (PM : Permutation (map (add B P) l) l).
    { apply NoDup_Permutation_bis; [|rewrite map_length; reflexivity|].
      - apply NoDup_map_inj; [exact N|]. intros Q R HQ HR. apply H in HQ. apply H in HR. apply g_cancel; assumption.
      - intros Q HQ. apply in_map_iff in HQ. destruct HQ as (R & <- & HR). apply H. apply g_on; [exact HP|apply H; exact HR]. }
    assert (F' : Forall on (map (add B P) l)) by (apply Forall_forall; intros Q HQ; apply H; exact (Permutation_in _ PM HQ)).
    pose proof (total_perm _ _ PM F') as E. rewrite total_map in E by assumption.
    pose proof (total_on l F) as T. pose proof (m_on B HB (length l) P HP) as M.
    rewrite g_comm in E by assumption. apply (g_cancel (total l)); [exact T|exact M|exact I|]. rewrite add_inf. exact E.
  Qed.

  (** the numbers that kill a point are closed under gcd *)
  Definition kills (n : Z) (Q : point) : Prop := 0 <= n /\ multiple B (Z.to_nat n) Q = Infinity.
  Lemma kills_mul m n Q : on Q -> 0 <= m -> kills n Q -> kills (m * n) Q.
  Proof.
    intros H Hm [Hn E]. split; [nia|]. rewrite Z2Nat.inj_mul, m_mul, E by assumption. apply m_infinity.
  Qed.
  Lemma kills_mod m n Q : on Q -> 0 < n -> kills m Q -> kills n Q -> kills (m mod n) Q.
  Proof.
    intros H Hn K1 K2. destruct K1 as [Hm E]. pose proof (Z.mod_pos_bound m n Hn) as R. split; [lia|].
    destruct (kills_mul (m / n) n Q H (Z.div_pos m n Hm Hn) K2) as [HP E'].
    rewrite (Z.div_mod m n), (Z.mul_comm n) in E by lia. rewrite Z2Nat.inj_add, m_add, E' in E by (lia || assumption). exact E.
  Qed.
  Lemma kills_gcd m n Q : on Q -> kills m Q -> kills n Q -> kills (Z.gcd m n) Q.
  Proof.
    intros H. assert (G : forall k n, Z.to_nat n = k -> forall m, kills m Q -> kills n Q -> kills (Z.gcd m n) Q).
    { clear m n. induction k as [k IH] using (well_founded_induction lt_wf). intros n En m Km Kn.
      destruct (Z.eq_dec n 0) as [->|N]; [rewrite Z.gcd_0_r, Z.abs_eq by apply Km; exact Km|].
      assert (Hn : 0 < n) by (destruct Kn; lia). pose proof (Z.mod_pos_bound m n Hn) as R.
      rewrite Z.gcd_comm, <- Z.gcd_mod by exact N. rewrite Z.gcd_comm.
      apply (IH (Z.to_nat (m mod n)) ltac:(lia) (m mod n) eq_refl n Kn (kills_mod m n Q H Hn Km Kn)). }
    exact (G _ n eq_refl m).
  Qed.
End Group.

(** ** the points, listed *)
Definition onb (B u v : Z) : bool := (B * v ^ 2) mod p25519 =? (u ^ 3 + A * u ^ 2 + u) mod p25519.
Definition points_over (ax : list Z) (B : Z) (us : list Z) : list point :=
  flat_map (fun u => map (Point u) (filter (onb B u) ax)) us.
Definition points (ax : list Z) (B : Z) : list point := Infinity :: points_over ax B ax.

Section Axis.
  Variable ax : list Z.
  Hypothesis ax_nodup : NoDup ax.
  Hypothesis ax_in : forall x, In x ax <-> 0 <= x < p25519.

  Lemma in_over B us Q : (forall u, In u us -> In u ax) ->
    In Q (points_over ax B us) <-> exists u v, Q = Point u v /\ In u us /\ on_curve B Q.
  Proof.
    intros HU. unfold points_over. rewrite in_flat_map. split.
    - intros (u & Hu & HQ). apply in_map_iff in HQ. destruct HQ as (v & <- & Hv). apply filter_In in Hv. destruct Hv as [Hv E].
      exists u, v. split; [reflexivity|]. split; [exact Hu|]. split; [apply ax_in, HU, Hu|]. split; [apply ax_in, Hv|].
      apply Z.eqb_eq. exact E.
    - intros (u & v & -> & Hu & (_ & Hv & E)). exists u. split; [exact Hu|]. apply in_map. apply filter_In.
      split; [apply ax_in; exact Hv|]. apply Z.eqb_eq. exact E.
  Qed.
  Lemma nodup_over B us : NoDup us -> (forall u, In u us -> In u ax) -> NoDup (points_over ax B us).
  Proof.
    induction us as [|u us IH]; intros N HU; [constructor|]. inversion N as [|? ? Nu N']; subst. unfold points_over. cbn [flat_map].
    apply NoDup_app_disj.
    - apply NoDup_map_inj; [apply NoDup_filter; exact ax_nodup|]. intros v w _ _ E. injection E. trivial.
    - apply IH; [exact N'|]. intros w Hw. apply HU. right. exact Hw.
    - intros Q H1 H2. apply in_map_iff in H1. destruct H1 as (v & <- & _).
      apply in_over in H2; [|intros w Hw; apply HU; right; exact Hw]. destruct H2 as (u' & v' & E & Hu' & _).
      injection E as E1 E2. subst. contradiction.
  Qed.
  Lemma points_in B Q : In Q (points ax B) <-> on_curve B Q.
  Proof.
    cbn [points In]. rewrite in_over by trivial. split.
    - intros [<-|(u & v & -> & _ & H)]; [exact I|exact H].
    - intros H. destruct Q as [|u v]; [left; reflexivity|right]. exists u, v. split; [reflexivity|]. split; [|exact H].
      apply ax_in. apply H.
  Qed.
  Lemma points_nodup B : NoDup (points ax B).
  Proof.
    constructor; [|apply nodup_over; [exact ax_nodup|trivial]].
    intros H. apply in_over in H; [|trivial]. destruct H as (u & v & E & _). discriminate E.
  Qed.

  Lemma count_filter (f : Z -> bool) l : NoDup l -> (forall v, In v l <-> 0 <= v < p25519 /\ f v = true) ->
    length (filter f ax) = length l.
  Proof.
    intros N H. apply Permutation_length. apply NoDup_Permutation; [apply NoDup_filter; exact ax_nodup|exact N|].
    intros v. rewrite filter_In, ax_in, H. reflexivity.
  Qed.
  Lemma onb_F B u v : onb B u v = true <-> (mkF B * (mkF v * mkF v))%F = (mkF u * quad (mkF u))%F.
  Proof.
    unfold onb. rewrite Z.eqb_eq.
    assert (E1 : (mkF B * (mkF v * mkF v))%F = mkF (B * v ^ 2)) by (toF; ring).
    assert (E2 : (mkF u * quad (mkF u))%F = mkF (u ^ 3 + A * u ^ 2 + u)) by (unfold quad, fA; toF; ring).
    rewrite E1, E2. change p25519 with P. split; [apply mkF_eq|apply mkF_inj].
  Qed.
  Lemma two_F : mkF 2 = two. Proof. apply mkF_2. Qed.

  Lemma fiber u : 0 <= u < p25519 -> (length (filter (onb 1%Z u) ax) + length (filter (onb 2%Z u) ax) = 2)%nat.
  Proof.
    intros Hu. destruct (F_dec (mkF u * quad (mkF u))%F F0) as [W|W].
    - rewrite !(count_filter _ [0]); [reflexivity| | | |]; try (apply NoDup_cons; [intros []|apply NoDup_nil]).
      + intros v. rewrite onb_F, W. split.
        * intros [<-|[]]. split; [apply r0|]. change (mkF 0) with F0. ring.
        * intros [Hv E]. left. apply F_integral in E. destruct E as [E|E]; [destruct (B_nz 2 (or_intror eq_refl) E)|].
          apply F_square in E. symmetry. exact (mkF_inj_range v 0 Hv r0 E).
      + intros v. rewrite onb_F, W. split.
        * intros [<-|[]]. split; [apply r0|]. change (mkF 0) with F0. ring.
        * intros [Hv E]. left. apply F_integral in E. destruct E as [E|E]; [destruct (B_nz 1 (or_introl eq_refl) E)|].
          apply F_square in E. symmetry. exact (mkF_inj_range v 0 Hv r0 E).
    - destruct (every_u u Hu) as (B0 & v0 & HB0 & H0). pose proof (curve_F B0 u v0 H0) as E0. destruct H0 as (_ & R0 & _).
      assert (N0 : mkF v0 <> F0) by (intros Z; apply W; rewrite <- E0, Z; ring).
      assert (S : length (filter (onb B0 u) ax) = 2%nat).
      { apply (count_filter _ [v0; p25519 - v0]).
        - constructor; [|constructor; [intros []|constructor]]. intros [E|[]]. apply N0.
          assert (T : (two * mkF v0)%F = F0).
          { rewrite <- two_F, <- mkF_mul. apply mkF_eq. replace (2 * v0) with P by (change P with p25519; lia). reflexivity. }
          apply F_integral in T. destruct T as [T|T]; [destruct (F_two T)|exact T].
        - assert (NV : v0 <> 0) by (intros Z; apply N0; rewrite Z; reflexivity).
          assert (O : mkF (p25519 - v0) = Fopp (mkF v0)).
          { rewrite mkF_sub. change (mkF p25519) with (mkF P). replace (mkF P) with F0; [ring|]. apply mkF_eq. reflexivity. }
          intros v. rewrite onb_F, <- E0. split.
          + intros [<-|[<-|[]]]; [split; [exact R0|reflexivity]|]. split; [lia|]. rewrite O. ring.
          + intros [Hv E].
            assert (E' : (mkF v * mkF v)%F = (mkF v0 * mkF v0)%F).
            { apply (F_cancel _ _ (mkF B0) (B_nz B0 HB0)). transitivity (mkF B0 * (mkF v * mkF v))%F; [ring|]. rewrite E. ring. }
            apply F_same_square in E'. destruct E' as [E'|E'].
            * left. symmetry. exact (mkF_inj_range v v0 Hv R0 E').
            * right. left. symmetry. rewrite <- O in E'. apply (mkF_inj_range v _ Hv); [lia|exact E']. }
      assert (T : forall B1, (B0 = 1 /\ B1 = 2 \/ B0 = 2 /\ B1 = 1) -> length (filter (onb B1 u) ax) = 0%nat).
      { intros B1 H1. apply (count_filter _ []); [constructor|]. intros v. split; [intros []|]. intros [Hv E].
        apply onb_F in E.
        assert (N : mkF v <> F0) by (intros Z; apply W; rewrite <- E, Z; ring).
        rewrite <- E in E0. change (mkF 1) with F1 in *. destruct H1 as [[-> ->]|[-> ->]].
        - apply (two_nonsquare (mkF v0 * Finv (mkF v))%F). apply square_quotient; [exact N|]. rewrite <- E0. change (mkF 1) with F1. ring.
        - apply (two_nonsquare (mkF v * Finv (mkF v0))%F). apply square_quotient; [exact N0|]. rewrite E0. change (mkF 1) with F1. ring. }
      destruct HB0 as [-> | ->]; rewrite S, T by tauto; reflexivity.
  Qed.
  Lemma over_length us : (forall u, In u us -> In u ax) ->
    (length (points_over ax 1 us) + length (points_over ax 2 us) = 2 * length us)%nat.
  Proof.
    induction us as [|u us IH]; intros HU; [reflexivity|]. unfold points_over. cbn [flat_map length]. rewrite !app_length, !map_length.
    fold (points_over ax 1 us). fold (points_over ax 2 us).
    specialize (IH (fun w Hw => HU w (or_intror Hw))). pose proof (fiber u (proj1 (ax_in u) (HU u (or_introl eq_refl)))). lia.
  Qed.
  Lemma points_length : (length (points ax 1) + length (points ax 2) = 2 + 2 * length ax)%nat.
  Proof. pose proof (over_length ax (fun u H => H)). cbn [points length]. lia. Qed.
End Axis.

(** ** points of large order: the ladder, computed *)
Definition fr (x : Z) : Z :=
  fold_red 255 19 57896044618658097711785492504343953926634992332820282019728792003956564819967
    (fold_red 255 19 57896044618658097711785492504343953926634992332820282019728792003956564819967 x).
Lemma fr_mkF x : mkF (fr x) = mkF x.
Proof.
  apply mkF_eq. unfold fr.
  apply (fold_red2_ok P 255 19); [discriminate|discriminate|reflexivity|reflexivity].
Qed.
Lemma step_fr k x1 st t :
  stF (ladder_step fr k x1 st t) = Edwards.lstep F Fadd Fmul Fsub A24 (mkF x1) (Z.testbit k (Z.of_nat t)) (stF st).
Proof.
  destruct st as [[[[x2 z2] x3] z3] swap]. unfold ladder_step, stF, Edwards.lstep.
  set (kt := Z.testbit k (Z.of_nat t)). destruct (xorb swap kt); unfold Edwards.lstep, Edwards.dbl, Edwards.dadd; cbn [fst snd];
    repeat first [rewrite fr_mkF | rewrite mkF_mul | rewrite mkF_add | rewrite mkF_sub]; reflexivity.
Qed.
Lemma fold_fr k u ts st st' : stF st = stF st' ->
  stF (fold_left (ladder_step fr k u) ts st) = stF (fold_left (ladder_step red k u) ts st').
Proof.
  revert st st'. induction ts as [|t ts IH]; intros st st' E; [exact E|]. cbn [fold_left]. apply IH.
  rewrite step_fr, step_F, E. reflexivity.
Qed.
Definition last_z (st : Z * Z * Z * Z * bool) : Z := let '(x2, z2, x3, z3, swap) := st in if swap : bool then z3 else z2.
Definition ladder_z (n u : Z) : Z := last_z (fold_left (ladder_step fr n u) (rev (seq 0 255)) (1, 0, u, 1, false)).

Lemma kills_ladder B n u Q : B = 1 \/ B = 2 -> 0 <= n < 2 ^ 255 -> on_curve B Q -> u = u_coordinate Q ->
  ladder_z n u mod p25519 = 0 -> kills B (2 * n) Q.
Proof.
  intros HB Hn HQ Hu E. split; [lia|]. rewrite Z2Nat.inj_mul by lia. change (Z.to_nat 2) with 2%nat.
  apply (torsion_2 B HB); [exact HQ|].
  destruct (curve_data B HB) as (C' & A' & e & s & D1 & D2 & D3 & D4 & D5 & D6 & D7).
  destruct (ladder_multiple B C' A' e s D1 D2 D3 D4 D5 D6 D7 n u Q Hn HQ Hu) as (x & z & Ez & H). apply H.
  assert (Z0 : mkF (ladder_z n u) = F0) by (apply mkF_eq; exact E). rewrite <- Z0. unfold ladder_z.
  pose proof (fold_fr n u (rev (seq 0 255)) (1, 0, u, 1, false) _ eq_refl) as W. revert Ez W.
  generalize (fold_left (ladder_step fr n u) (rev (seq 0 255)) (1, 0, u, 1, false)).
  generalize (fold_left (ladder_step red n u) (rev (seq 0 255)) (1, 0, u, 1, false)).
  intros [[[[x2 z2] x3] z3] sw] [[[[y2 w2] y3] w3] sw'] Ez W. unfold stF in W. cbn [last_z].
  pose proof (f_equal (fun t => snd (fst (fst (fst t)))) W) as W2. pose proof (f_equal (fun t => snd (fst t)) W) as W4.
  pose proof (f_equal snd W) as W5. cbn [fst snd] in W2, W4, W5. rewrite W5.
  destruct sw; injection Ez as _ <-; symmetry; assumption.
Qed.

Definition ell : Z := 7237005577332262213973186563042994240857116359379907606001950938285454250989.
Definition ell_twist : Z := 14474011154664524427946373126085988481603263447650325797860494125407373907997.
Definition base_point : point := Point 9 14781619447589544791020593568409986887264606134616475288964881837755586237401.
Definition twist_point : point := Point 2 53672597578580841041358990734034634090158459834010545766973949134811981134285.
Definition point8 : point := Point ord8a 32026303591712962751241307547882981359278212717910236697706316503764922500307.
Definition point4 : point := Point (p25519 - 1) 51433253462520500264212897900760618405213415304451317506555883227270826074491.

Ltac on_it := split; [split; [discriminate|reflexivity]|]; split; [split; [discriminate|reflexivity]|vm_compute; reflexivity].
Lemma base_on : on_curve 1 base_point. Proof. on_it. Qed.
Lemma twist_on : on_curve 2 twist_point. Proof. on_it. Qed.
Lemma point8_on : on_curve 1 point8. Proof. on_it. Qed.
Lemma point4_on : on_curve 2 point4. Proof. on_it. Qed.
Lemma base_killed : kills 1 (2 * ell) base_point.
Proof.
  apply (kills_ladder 1 ell 9 _ (or_introl eq_refl)); [split; [discriminate|reflexivity]|exact base_on|reflexivity|].
  vm_compute. reflexivity.
Qed.
Lemma twist_killed : kills 2 (2 * ell_twist) twist_point.
Proof.
  apply (kills_ladder 2 ell_twist 2 _ (or_intror eq_refl)); [split; [discriminate|reflexivity]|exact twist_on|reflexivity|].
  vm_compute. reflexivity.
Qed.

(** ** the orders *)
Lemma kills_2 B Q : B = 1 \/ B = 2 -> on_curve B Q -> kills B 2 Q -> u_coordinate Q = 0.
Proof.
  intros HB H [_ E]. change (Z.to_nat 2) with (2 * 1)%nat in E. apply (torsion_2 B HB) in E; [|exact H].
  rewrite (m_1 B) in E. exact E.
Qed.
Lemma kills_4 B Q : B = 1 \/ B = 2 -> on_curve B Q -> kills B 4 Q <-> order4 (u_coordinate Q).
Proof.
  intros HB H. unfold kills. change (Z.to_nat 4) with (2 * (2 * 1))%nat.
  rewrite (torsion_2 B HB), (m_double B HB), (m_1 B), <- (dbl_4 B HB) by exact H. unfold order2. split; [tauto|].
  intros E. split; [lia|exact E].
Qed.
Lemma kills_8 B Q : B = 1 \/ B = 2 -> on_curve B Q -> kills B 8 Q <-> order8 (u_coordinate Q).
Proof.
  intros HB H. unfold kills. change (Z.to_nat 8) with 8%nat. rewrite (torsion_8 B HB) by exact H. split; [tauto|].
  intros E. split; [lia|exact E].
Qed.
Lemma kills_divide B m n Q : B = 1 \/ B = 2 -> on_curve B Q -> 0 <= n -> (m | n) -> kills B m Q -> kills B n Q.
Proof.
  intros HB H Hn [k ->] K. pose proof (proj1 K). destruct (Z.eq_dec m 0) as [->|]; [rewrite Z.mul_0_r; exact K|].
  apply kills_mul; [exact HB|exact H|nia|exact K].
Qed.
Lemma large_order B q N Q : B = 1 \/ B = 2 -> prime q -> on_curve B Q -> u_coordinate Q <> 0 ->
  kills B (2 * q) Q -> kills B N Q -> (q | N).
Proof.
  intros HB Hq H Hu K2 KN. destruct (Zdivide_dec q N) as [D|D]; [exact D|]. exfalso. apply Hu. apply (kills_2 B); [exact HB|exact H|].
  apply (kills_divide B (Z.gcd N (2 * q))); [exact HB|exact H|lia| |apply kills_gcd; assumption].
  apply (Gauss _ q); [rewrite Z.mul_comm; apply Z.gcd_divide_r|]. apply rel_prime_sym. apply prime_rel_prime; [exact Hq|].
  intros D'. apply D. apply (Z.divide_trans _ _ _ D'). apply Z.gcd_divide_l.
Qed.
Lemma divisors_8 g : 0 <= g -> (g | 8) -> g = 8 \/ (g | 4).
Proof.
  intros Hg D. pose proof (Z.divide_pos_le g 8 ltac:(lia) D). destruct D as [k D].
  assert (C : g = 0 \/ g = 1 \/ g = 2 \/ g = 3 \/ g = 4 \/ g = 5 \/ g = 6 \/ g = 7 \/ g = 8) by lia.
  repeat (destruct C as [->|C]); try lia; right; [exists 4|exists 2|exists 1]; reflexivity.
Qed.
Lemma divisors_4 g : 0 <= g -> (g | 4) -> g = 4 \/ (g | 2).
Proof.
  intros Hg D. pose proof (Z.divide_pos_le g 4 ltac:(lia) D). destruct D as [k D].
  assert (C : g = 0 \/ g = 1 \/ g = 2 \/ g = 3 \/ g = 4) by lia.
  repeat (destruct C as [->|C]); try lia; right; [exists 2|exists 1]; reflexivity.
Qed.
Lemma order8_divides N : kills 1 N point8 -> (8 | N).
Proof.
  intros K. assert (K8 : kills 1 8 point8) by (apply (kills_8 1); [left; reflexivity|exact point8_on|right; left; reflexivity]).
  pose proof (kills_gcd 1 (or_introl eq_refl) N 8 _ point8_on K K8) as G.
  destruct (divisors_8 (Z.gcd N 8) (Z.gcd_nonneg _ _) (Z.gcd_divide_r _ _)) as [E|D].
  - rewrite <- E. apply Z.gcd_divide_l.
  - exfalso. apply (kills_divide 1 _ 4) in G; [|left; reflexivity|exact point8_on|lia|exact D].
    apply (kills_4 1) in G; [|left; reflexivity|exact point8_on]. destruct G as [G|[G|G]]; discriminate G.
Qed.
Lemma order4_divides N : kills 2 N point4 -> (4 | N).
Proof.
  intros K. assert (K4 : kills 2 4 point4) by (apply (kills_4 2); [right; reflexivity|exact point4_on|right; right; reflexivity]).
  pose proof (kills_gcd 2 (or_intror eq_refl) N 4 _ point4_on K K4) as G.
  destruct (divisors_4 (Z.gcd N 4) (Z.gcd_nonneg _ _) (Z.gcd_divide_r _ _)) as [E|D].
  - rewrite <- E. apply Z.gcd_divide_l.
  - exfalso. apply (kills_divide 2 _ 2) in G; [|right; reflexivity|exact point4_on|lia|exact D].
    apply kills_2 in G; [discriminate G|right; reflexivity|exact point4_on].
Qed.
Lemma odd_prime_product k q N : prime q -> rel_prime k q -> (k | N) -> (q | N) -> (k * q | N).
Proof.
  intros Hq R [a ->] D. rewrite Z.mul_comm in D. apply Gauss in D.
  - destruct D as [c ->]. exists c. ring.
  - apply rel_prime_sym. exact R.
Qed.

Theorem curve_orders : exists l1 l2,
  NoDup l1 /\ (forall Q, In Q l1 <-> on_curve 1 Q) /\ Z.of_nat (length l1) = 8 * ell /\
  NoDup l2 /\ (forall Q, In Q l2 <-> on_curve 2 Q) /\ Z.of_nat (length l2) = 4 * ell_twist.
Proof.
  assert (AX : exists ax, NoDup ax /\ (forall x, In x ax <-> 0 <= x < p25519) /\ Z.of_nat (length ax) = p25519).
  { assert (NN : 0 <= p25519) by discriminate. revert NN. generalize p25519. intros n Hn.
    exists (upto n). split; [apply NoDup_upto|]. split; [intros x; apply in_upto_iff|].
    unfold upto. rewrite map_length, seq_length. apply Z2Nat.id. exact Hn. }
  destruct AX as (ax & N & I & L). exists (points ax 1), (points ax 2).
  split; [apply points_nodup; assumption|]. split; [intros Q; apply points_in; assumption|].
  assert (T : Z.of_nat (length (points ax 1)) + Z.of_nat (length (points ax 2)) = 2 + 2 * p25519).
  { pose proof (points_length ax N I) as T. rewrite <- L. lia. }
  assert (K1 : forall Q, on_curve 1 Q -> kills 1 (Z.of_nat (length (points ax 1))) Q).
  { intros Q HQ. split; [lia|]. rewrite Nat2Z.id. apply (all_killed 1 (or_introl eq_refl)); [apply points_nodup; assumption| |exact HQ].
    intros R. apply points_in; assumption. }
  assert (K2 : forall Q, on_curve 2 Q -> kills 2 (Z.of_nat (length (points ax 2))) Q).
  { intros Q HQ. split; [lia|]. rewrite Nat2Z.id. apply (all_killed 2 (or_intror eq_refl)); [apply points_nodup; assumption| |exact HQ].
    intros R. apply points_in; assumption. }
  assert (G1 : 8 * ell <= Z.of_nat (length (points ax 1))).
  { apply Z.divide_pos_le; [cbn [points length]; lia|]. apply odd_prime_product; [exact prime_ell| |apply order8_divides, K1, point8_on|].
    - apply rel_prime_sym. apply prime_rel_prime; [exact prime_ell|]. intros D. apply Z.divide_pos_le in D; [|reflexivity].
      revert D. vm_compute. intros D. apply D. reflexivity.
    - apply (large_order 1 _ _ base_point (or_introl eq_refl) prime_ell base_on); [discriminate|exact base_killed|apply K1, base_on]. }
  assert (G2 : 4 * ell_twist <= Z.of_nat (length (points ax 2))).
  { apply Z.divide_pos_le; [cbn [points length]; lia|]. apply odd_prime_product; [exact prime_ell_twist| |apply order4_divides, K2, point4_on|].
    - apply rel_prime_sym. apply prime_rel_prime; [exact prime_ell_twist|]. intros D. apply Z.divide_pos_le in D; [|reflexivity].
      revert D. vm_compute. intros D. apply D. reflexivity.
    - apply (large_order 2 _ _ twist_point (or_intror eq_refl) prime_ell_twist twist_on); [discriminate|exact twist_killed|apply K2, twist_on]. }
  assert (S : 8 * ell + 4 * ell_twist = 2 + 2 * p25519) by reflexivity.
  revert T G1 G2 S. generalize (8 * ell) (4 * ell_twist) p25519. generalize (length (points ax 1)) (length (points ax 2)). intros a b c d p T G1 G2 S.
  split; [lia|]. split; [apply points_nodup; assumption|]. split; [intros Q; apply points_in; assumption|]. lia.
Qed.

(** every point is killed by the order of its curve *)
Definition cofactor (B : Z) : Z := if B =? 1 then 8 else 4.
Definition large_prime (B : Z) : Z := if B =? 1 then ell else ell_twist.
Lemma order_kills B Q : B = 1 \/ B = 2 -> on_curve B Q -> kills B (cofactor B * large_prime B) Q.
Proof.
  intros HB HQ. destruct curve_orders as (l1 & l2 & N1 & I1 & L1 & N2 & I2 & L2).
  destruct HB as [-> | ->].
  - change (kills 1 (8 * ell) Q). rewrite <- L1. split; [lia|]. rewrite Nat2Z.id. apply (all_killed 1 (or_introl eq_refl)); assumption.
  - change (kills 2 (4 * ell_twist) Q). rewrite <- L2. split; [lia|]. rewrite Nat2Z.id. apply (all_killed 2 (or_intror eq_refl)); assumption.
Qed.
(** a clamped scalar 8 m, m < 2^252, takes only points of order dividing 8 to u = 0 *)
Lemma clamped_kills B Q m : B = 1 \/ B = 2 -> on_curve B Q -> 0 < m < 2 ^ 252 ->
  u_coordinate (multiple B (Z.to_nat (8 * m)) Q) = 0 -> order8 (u_coordinate Q).
Proof.
  intros HB HQ Hm E.
  assert (K : kills B (2 * (8 * m)) Q).
  { split; [lia|]. rewrite Z2Nat.inj_mul by lia. change (Z.to_nat 2) with 2%nat. apply (torsion_2 B HB); assumption. }
  pose proof (kills_gcd B HB _ _ Q HQ K (order_kills B Q HB HQ)) as G.
  assert (H16 : kills B 16 Q).
  { apply (kills_divide B _ 16 Q HB HQ ltac:(lia)) in G; [exact G|].
    assert (Pq : prime (large_prime B)) by (destruct HB as [-> | ->]; [exact prime_ell|exact prime_ell_twist]).
    assert (Lq : 2 ^ 252 < large_prime B) by (destruct HB as [-> | ->]; reflexivity).
    assert (Dc : (cofactor B | 16)) by (destruct HB as [-> | ->]; [exists 2|exists 4]; reflexivity).
    set (q := large_prime B) in *. clearbody q. set (c := cofactor B) in *. clearbody c.
    set (g := Z.gcd _ _).
    assert (R : rel_prime g q).
    { apply rel_prime_sym. apply prime_rel_prime; [exact Pq|]. intros D.
      assert (D1 : (q | 2 * (8 * m))) by (apply (Z.divide_trans _ _ _ D); apply Z.gcd_divide_l).
      replace (2 * (8 * m)) with (16 * m) in D1 by ring. apply prime_mult in D1; [|exact Pq].
      assert (16 < 2 ^ 252) by reflexivity. destruct D1 as [D1|D1]; apply Z.divide_pos_le in D1; lia. }
    apply (Z.divide_trans _ c); [|exact Dc]. apply (Gauss _ q); [|exact R]. rewrite Z.mul_comm. apply Z.gcd_divide_r. }
  apply (torsion_16 B HB Q HQ). exact (proj2 H16).
Qed.

(** ** scalars with the same effect on a point *)
Lemma kills_8d B Q d : B = 1 \/ B = 2 -> on_curve B Q -> ~ order8 (u_coordinate Q) -> 0 <= d -> kills B (8 * d) Q -> (large_prime B | d).
Proof.
  intros HB HQ L Hd K. destruct (Zdivide_dec (large_prime B) d) as [D|D]; [exact D|]. exfalso. apply L.
  apply (kills_8 B Q HB HQ). pose proof (kills_gcd B HB _ _ Q HQ K (order_kills B Q HB HQ)) as G.
  apply (kills_divide B _ 8 Q HB HQ ltac:(lia)) in G; [exact G|].
  assert (Pq : prime (large_prime B)) by (destruct HB as [-> | ->]; [exact prime_ell|exact prime_ell_twist]).
  assert (Lq : 8 < large_prime B) by (destruct HB as [-> | ->]; reflexivity).
  assert (Dc : (cofactor B | 8)) by (destruct HB as [-> | ->]; [exists 1|exists 2]; reflexivity).
  set (q := large_prime B) in *. clearbody q. set (c := cofactor B) in *. clearbody c.
  apply (Z.divide_trans _ c); [|exact Dc]. apply (Gauss _ q); [rewrite (Z.mul_comm q c); apply Z.gcd_divide_r|].
  apply rel_prime_sym. apply prime_rel_prime; [exact Pq|]. intros D'.
  assert (D1 : (q | 8 * d)) by (apply (Z.divide_trans _ _ _ D'); apply Z.gcd_divide_l).
  apply prime_mult in D1; [|exact Pq]. destruct D1 as [D1|D1]; [apply Z.divide_pos_le in D1; lia|contradiction].
Qed.
Lemma same_u B Q R : B = 1 \/ B = 2 -> on_curve B Q -> on_curve B R -> u_coordinate Q = u_coordinate R -> u_coordinate Q <> 0 ->
  Q = R \/ add B Q R = Infinity.
Proof.
  intros HB HQ HR E N. destruct Q as [|u v]; [destruct (N eq_refl)|]. destruct R as [|u' v']; [destruct (N E)|].
  cbn [u_coordinate] in E. subst u'. pose proof (curve_F B u v HQ) as E1. pose proof (curve_F B u v' HR) as E2.
  destruct HQ as (_ & Rv & _), HR as (_ & Rv' & _).
  assert (S : (mkF v * mkF v)%F = (mkF v' * mkF v')%F).
  { apply (F_cancel _ _ (mkF B) (B_nz B HB)). transitivity (mkF B * (mkF v * mkF v))%F; [ring|]. rewrite E1, <- E2. ring. }
  apply F_same_square in S. destruct S as [S|S].
  - left. f_equal. exact (mkF_inj_range v v' Rv Rv' S).
  - right. cbn [add]. rewrite Z.eqb_refl.
    assert (Z0 : mkF (v + v') = mkF 0) by (rewrite mkF_add, S; change (mkF 0) with F0; ring).
    apply mkF_inj in Z0. change P with p25519 in Z0. rewrite Z0. reflexivity.
Qed.
Lemma same_multiple B Q m m' : B = 1 \/ B = 2 -> on_curve B Q -> ~ order8 (u_coordinate Q) ->
  2 ^ 251 <= m < 2 ^ 252 -> 2 ^ 251 <= m' < 2 ^ 252 ->
  u_coordinate (multiple B (Z.to_nat (8 * m)) Q) = u_coordinate (multiple B (Z.to_nat (8 * m')) Q) ->
  m = m' \/ m + m' = large_prime B.
Proof.
  intros HB HQ L Hm Hm' E. assert (P1 : 0 < 2 ^ 251) by reflexivity.
  assert (N : u_coordinate (multiple B (Z.to_nat (8 * m)) Q) <> 0).
  { intros Z0. apply L. apply (clamped_kills B Q m HB HQ); [lia|exact Z0]. }
  assert (HM := m_on B HB (Z.to_nat (8 * m)) Q HQ). assert (HM' := m_on B HB (Z.to_nat (8 * m')) Q HQ).
  destruct (same_u B _ _ HB HM HM' E N) as [S|S].
  - left. assert (W : forall a b, 2 ^ 251 <= b <= a -> a < 2 ^ 252 -> multiple B (Z.to_nat (8 * a)) Q = multiple B (Z.to_nat (8 * b)) Q -> a = b).
    { intros a b Hb Ha Eab. assert (K : kills B (8 * (a - b)) Q).
      { split; [lia|]. pose proof (m_on B HB (Z.to_nat (8 * b)) Q HQ) as Hb'. pose proof (m_on B HB (Z.to_nat (8 * (a - b))) Q HQ) as Hd'.
        apply (g_cancel B HB (multiple B (Z.to_nat (8 * b)) Q)); [exact Hb'|exact Hd'|exact I|].
        rewrite <- (m_add B HB) by exact HQ. rewrite <- Z2Nat.inj_add by lia. replace (8 * b + 8 * (a - b)) with (8 * a) by ring.
        rewrite Eab. symmetry. apply add_inf. }
      apply kills_8d in K; [|exact HB|exact HQ|exact L|lia].
      assert (Lq : 2 ^ 252 < large_prime B) by (destruct HB as [-> | ->]; reflexivity).
      destruct (Z.eq_dec (a - b) 0) as [Z0|NZ]; [lia|]. apply Z.divide_pos_le in K; lia. }
    destruct (Z.le_ge_cases m' m); [apply W|symmetry; apply W]; try lia; congruence.
  - right. rewrite <- (m_add B HB) in S by exact HQ. rewrite <- Z2Nat.inj_add in S by lia.
    assert (K : kills B (8 * (m + m')) Q) by (split; [lia|]; rewrite Z.mul_add_distr_l; exact S).
    apply kills_8d in K; [|exact HB|exact HQ|exact L|lia].
    assert (Lq : 2 ^ 252 < large_prime B) by (destruct HB as [-> | ->]; reflexivity).
    destruct K as [j K]. assert (T : 2 ^ 252 + 2 ^ 252 = 2 * 2 ^ 252) by reflexivity.
    assert (j = 1) by nia. subst j. lia.
Qed.

(** ** the base point is 8 times a point, so its order is the prime *)
Definition eighth : point := Point 55297975555738294264941177752182594043750864556142373390693024003651699524162 19670104668672582551627194971728564151786983286235067016809066853866866378509.
Lemma eighth_on : on_curve 1 eighth. Proof. on_it. Qed.
Lemma double_u u v u' : on_curve 1 (Point u v) -> u <> 0 -> 0 <= u' < p25519 ->
  (mkF u' * den (mkF u))%F = ((mkF u * mkF u - F1) * (mkF u * mkF u - F1))%F ->
  exists v', add 1 (Point u v) (Point u v) = Point u' v' /\ on_curve 1 (Point u' v').
Proof.
  intros H N R E. pose proof (g_on 1 (or_introl eq_refl) _ _ H H) as H2.
  destruct (double_cases 1 (or_introl eq_refl) u v H) as [(Z0 & _)|(_ & w & v' & D & Rw & X)]; [contradiction|].
  cbv zeta in X. assert (W : w = u').
  { apply (mkF_inj_range w u' Rw R). apply (F_cancel _ _ (den (mkF u))); [|rewrite X, E; reflexivity].
    apply den_nz. intros Z0. apply N. destruct H as (Ru & _). exact (mkF_inj_range u 0 Ru r0 Z0). }
  subst w. exists v'. rewrite <- D. split; [reflexivity|exact H2].
Qed.
Lemma eight_eighth : u_coordinate (multiple 1 8 eighth) = 9.
Proof.
  change 8%nat with (2 * (2 * (2 * 1)))%nat. assert (B1 : 1 = 1 \/ 1 = 2) by (left; reflexivity).
  rewrite !(m_double 1 B1), (m_1 1) by exact eighth_on.
  destruct (double_u _ _ 34926084556492753648770224847159269461383883830027501037147895944500717013519 eighth_on) as (v2 & E2 & O2);
    [discriminate|split; [discriminate|reflexivity]|unfold den, quad; numeral|].
  unfold eighth. rewrite E2.
  destruct (double_u _ _ 40391475569184299291209441349204726615653447325402477563206013415880557934908 O2) as (v4 & E4 & O4);
    [discriminate|split; [discriminate|reflexivity]|unfold den, quad; numeral|].
  rewrite E4.
  destruct (double_u _ _ 9 O4) as (v8 & E8 & O8);
    [discriminate|split; [discriminate|reflexivity]|unfold den, quad; numeral|].
  rewrite E8. reflexivity.
Qed.
Lemma m_dist B n Q R : B = 1 \/ B = 2 -> on_curve B Q -> on_curve B R ->
  multiple B n (add B Q R) = add B (multiple B n Q) (multiple B n R).
Proof.
  intros HB HQ HR. induction n; [reflexivity|]. cbn [multiple]. rewrite IHn.
  pose proof (m_on B HB n Q HQ). pose proof (m_on B HB n R HR).
  rewrite !(g_assoc B HB) by (try apply (g_on B HB); assumption). f_equal.
  rewrite <- !(g_assoc B HB) by assumption. f_equal. apply (g_comm B HB); assumption.
Qed.
Lemma base_order_for n : multiple 1 (n * 8) eighth = Infinity -> multiple 1 n base_point = Infinity.
Proof.
  assert (B1 : 1 = 1 \/ 1 = 2) by (left; reflexivity). intros K.
  pose proof (m_on 1 B1 8 eighth eighth_on) as H8. rewrite (m_mul 1 B1) in K by exact eighth_on.
  destruct (same_u 1 base_point (multiple 1 8 eighth) B1 base_on H8) as [E|E];
    [rewrite eight_eighth; reflexivity|discriminate|rewrite E; exact K|].
  pose proof (m_dist 1 n _ _ B1 base_on H8) as D. rewrite E, (m_infinity 1), K, add_inf in D. symmetry. exact D.
Qed.
Lemma base_order : kills 1 ell base_point.
Proof.
  assert (K0 : kills 1 (ell * 8) eighth).
  { pose proof (order_kills 1 eighth (or_introl eq_refl) eighth_on) as K0. rewrite Z.mul_comm. exact K0. }
  revert K0. assert (L0 : 0 <= ell) by discriminate. revert L0. generalize ell. intros l L0 [_ K].
  split; [exact L0|]. apply base_order_for. rewrite <- K. f_equal. symmetry. apply (Z2Nat.inj_mul l 8); [exact L0|discriminate].
Qed.

Lemma opposite_u B Q R : add B Q R = Infinity -> u_coordinate Q = u_coordinate R.
Proof.
  destruct Q as [|u v], R as [|u' v']; cbn [add]; try discriminate; [reflexivity|].
  destruct (u =? u') eqn:E; [intros _; apply Z.eqb_eq; exact E|]. unfold third. discriminate.
Qed.
Lemma order_kills8 B Q : B = 1 \/ B = 2 -> on_curve B Q -> multiple B (Z.to_nat (8 * large_prime B)) Q = Infinity.
Proof.
  intros HB HQ. assert (D : (cofactor B * large_prime B | 8 * large_prime B)).
  { apply Z.mul_divide_mono_r. destruct HB as [-> | ->]; [exists 1|exists 2]; reflexivity. }
  assert (NN : 0 <= 8 * large_prime B) by (destruct HB as [-> | ->]; discriminate).
  exact (proj2 (kills_divide B _ _ Q HB HQ NN D (order_kills B Q HB HQ))).
Qed.

(** Weighted sums over sequences with constraints: used to average over random matrices. *)
From Coq Require Import List ZArith Lia Bool Arith Permutation.
From Verif.Base Require Import Res Oracles.
From Verif.Spec Require Import FIPS203 Domains Counting.
From Verif.Proofs Require Import Basics CountProofs TailProofs.
Import ListNotations.
Open Scope Z_scope.

Lemma wsum_flat_map {A B} (w : B -> Z) (f : A -> list B) l : wsum w (flat_map f l) = wsum (fun x => wsum w (f x)) l.
Proof. induction l as [|x l IH]; [reflexivity|]. cbn [flat_map]. rewrite wsum_app, wsum_cons, IH. reflexivity. Qed.
Lemma wsum_list_prod {A B} (f : A * B -> Z) l m : wsum f (list_prod l m) = wsum (fun x => wsum (fun y => f (x, y)) m) l.
Proof. induction l as [|x l IH]; [reflexivity|]. cbn [list_prod]. rewrite wsum_app, wsum_map, wsum_cons, IH. reflexivity. Qed.
Lemma wsum_tuples_app D a b f :
  wsum f (tuples D (a + b)) = wsum (fun x => wsum (fun y => f (x ++ y)) (tuples D b)) (tuples D a).
Proof. rewrite tuples_app, wsum_flat_map. apply wsum_ext. intros x _. apply wsum_map. Qed.
Lemma wsum_swap {A B} (f : A -> B -> Z) l m :
  wsum (fun x => wsum (fun y => f x y) m) l = wsum (fun y => wsum (fun x => f x y) l) m.
Proof.
  induction l as [|x l IH].
  - rewrite (wsum_ext (fun y => wsum (fun x => f x y) []) (fun _ => 0) m) by reflexivity. rewrite wsum_const. unfold wsum at 1. cbn. ring.
  - rewrite wsum_cons, IH, <- wsum_add. apply wsum_ext. intros y _. rewrite wsum_cons. reflexivity.
Qed.
Lemma wsum_scale_r {A} (w : A -> Z) c l : wsum (fun x => w x * c) l = wsum w l * c.
Proof. rewrite (wsum_ext _ (fun x => c * w x)) by (intros; ring). rewrite wsum_scale. ring. Qed.

(** ** injections *)
Lemma wsum_incl {A} (f : A -> Z) l : forall m, NoDup l -> incl l m -> (forall x, In x m -> 0 <= f x) -> wsum f l <= wsum f m.
Proof.
  induction l as [|x l IH]; intros m N I H; [apply wsum_nonneg, H|].
  inversion N as [|? ? N1 N2]; subst. destruct (in_split x m (I x (or_introl eq_refl))) as (m1 & m2 & ->).
  assert (I' : incl l (m1 ++ m2)).
  { intros y Hy. assert (In y (m1 ++ x :: m2)) by (apply I; right; exact Hy).
    apply in_app_iff in H0. apply in_app_iff. destruct H0 as [|[->|]]; [left; assumption|contradiction|right; assumption]. }
  pose proof (IH (m1 ++ m2) N2 I') as W. rewrite wsum_cons. rewrite wsum_app in *. rewrite wsum_cons.
  enough (wsum f l <= wsum f m1 + wsum f m2) by lia. apply W.
  intros y Hy. apply H. apply in_app_iff in Hy. apply in_app_iff. destruct Hy; [left|right; right]; assumption.
Qed.

Lemma wsum_inj {A B} (f : B -> Z) (psi : A -> B) l m : NoDup l ->
  (forall x, In x l -> In (psi x) m) -> (forall x y, In x l -> In y l -> psi x = psi y -> x = y) ->
  (forall y, In y m -> 0 <= f y) -> wsum (fun x => f (psi x)) l <= wsum f m.
Proof.
  intros N I J H. rewrite <- (wsum_map f psi). apply wsum_incl; [| |exact H].
  - revert J. clear -N. induction N as [|x l N1 N2 IH]; intros J; [constructor|]. cbn [map]. constructor.
    + intros X. apply in_map_iff in X. destruct X as (y & E & Hy). apply N1.
      rewrite <- (J y x (or_intror Hy) (or_introl eq_refl) E). exact Hy.
    + apply IH. intros a b Ha Hb. apply J; right; assumption.
  - intros y Hy. apply in_map_iff in Hy. destruct Hy as (x & <- & Hx). apply I, Hx.
Qed.

Lemma wsum_inj2 {A B C} (f : B -> Z) (psi : A -> B) (psi' : A -> C) l m m' : NoDup l ->
  (forall x, In x l -> In (psi x) m) -> (forall x, In x l -> In (psi' x) m') ->
  (forall x y, In x l -> In y l -> psi x = psi y -> psi' x = psi' y -> x = y) ->
  (forall y, In y m -> 0 <= f y) -> wsum (fun x => f (psi x)) l <= wsum f m * Z.of_nat (length m').
Proof.
  intros N I I' J H.
  eapply Z.le_trans; [apply (wsum_inj (fun p => f (fst p)) (fun x => (psi x, psi' x)) l (list_prod m m') N)|].
  - intros x Hx. apply in_prod; [apply I|apply I']; exact Hx.
  - intros x y Hx Hy E. injection E as E1 E2. apply J; assumption.
  - intros [a b] Hp. apply in_prod_iff in Hp. apply H, Hp.
  - rewrite wsum_list_prod. cbn [fst]. rewrite <- wsum_scale_r. apply Z.eq_le_incl. apply wsum_ext.
    intros x _. rewrite wsum_const. ring.
Qed.

(** ** blocks *)
Lemma part_app_l {A} s k i (x y : list A) : (i < k)%nat -> length x = (k * s)%nat -> part s i (x ++ y) = part s i x.
Proof.
  intros Hi L. unfold part. rewrite skipn_app, firstn_app, skipn_length.
  replace (s - (length x - i * s))%nat with 0%nat by nia. rewrite firstn_O, app_nil_r. reflexivity.
Qed.
Lemma part_app_r {A} s k (x y : list A) : length x = (k * s)%nat -> length y = s -> part s k (x ++ y) = y.
Proof. intros L Ly. unfold part. rewrite <- L, skipn_app, Nat.sub_diag, skipn_all. cbn [app skipn]. rewrite <- Ly. apply firstn_all. Qed.

Lemma wsum_blocks D s k (h : nat -> list Z -> Z) :
  wsum (fun l => prod k (fun i => h i (part s i l))) (tuples D (k * s)) = prod k (fun i => wsum (h i) (tuples D s)).
Proof.
  induction k as [|k IH]; [reflexivity|].
  replace (S k * s)%nat with (k * s + s)%nat by lia. rewrite wsum_tuples_app. cbn [prod]. rewrite <- IH, <- wsum_scale_r.
  apply wsum_ext. intros x Hx. apply in_tuples in Hx. destruct Hx as [Lx _]. rewrite <- wsum_scale.
  apply wsum_ext. intros y Hy. apply in_tuples in Hy. destruct Hy as [Ly _].
  rewrite (part_app_r s k x y Lx Ly). f_equal. apply prod_ext. intros i Hi. rewrite (part_app_l s k i x y Hi Lx). reflexivity.
Qed.

(** ** the last [s] entries determined by the first [p] *)
Lemma pw_app_const w x y : pw (fun _ => w) (x ++ y) = pw (fun _ => w) x * pw (fun _ => w) y.
Proof. induction x as [|a x IH]; cbn [app pw]; [ring|]. rewrite IH. ring. Qed.

Lemma wsum_determined D (v w : Z -> Z) (phi : list Z -> bool) p s m :
  (forall x, In x D -> 0 <= w x) ->
  (forall z, wsum (fun x => if v x =? z then w x else 0) D <= m) ->
  (forall x y y', In x (tuples D p) -> In y (tuples D s) -> In y' (tuples D s) ->
     phi (x ++ y) = true -> phi (x ++ y') = true -> map v y = map v y') ->
  wsum (fun l => if phi l then pw (fun _ => w) l else 0) (tuples D (p + s)) <=
  wsum w D ^ Z.of_nat p * m ^ Z.of_nat s.
Proof.
  intros W0 Hm Det.
  assert (PW : forall l, Forall (fun x => In x D) l -> 0 <= pw (fun _ => w) l).
  { induction 1 as [|a l Ha _ IH]; cbn [pw]; [lia|]. pose proof (W0 a Ha). nia. }
  assert (IZ : forall z x, In x D -> 0 <= (if v x =? z then w x else 0)).
  { intros z x Hx. destruct (v x =? z); [apply W0, Hx|lia]. }
  rewrite wsum_tuples_app.
  assert (One : forall x, In x (tuples D p) ->
    wsum (fun y => if phi (x ++ y) then pw (fun _ => w) y else 0) (tuples D s) <= m ^ Z.of_nat s).
  { intros x Hx.
    assert (M0 : 0 <= m ^ Z.of_nat s).
    { apply Z.pow_nonneg. eapply Z.le_trans; [|apply (Hm 0)]. apply wsum_nonneg. intros; apply IZ; assumption. }
    destruct (existsb (fun y => phi (x ++ y)) (tuples D s)) eqn:EX.
    - apply existsb_exists in EX. destruct EX as (y0 & Hy0 & P0).
      eapply Z.le_trans.
      + apply (wsum_le _ (pw (fun t a => if v a =? nth t (map v y0) 0 then w a else 0))). intros y Hy.
        destruct (phi (x ++ y)) eqn:P1.
        * apply Z.eq_le_incl. pose proof (Det x y y0 Hx Hy Hy0 P1 P0) as E. rewrite <- E. clear.
          induction y as [|a y IH]; [reflexivity|]. cbn [pw map nth]. rewrite Z.eqb_refl. f_equal. exact IH.
        * apply in_tuples in Hy. destruct Hy as [_ Fy].
          assert (G : forall z : nat -> Z, 0 <= pw (fun t a => if v a =? z t then w a else 0) y).
          { clear - Fy IZ. induction Fy as [|a y Ha _ IH]; intros z; cbn [pw]; [lia|].
            pose proof (IZ (z O) a Ha). pose proof (IH (fun t => z (S t))). cbv beta in *. nia. }
          exact (G (fun t => nth t (map v y0) 0)).
      + rewrite wsum_tuples. rewrite <- prod_pow. apply prod_le. intros i _. split; [|apply Hm].
        apply wsum_nonneg. intros a Ha. apply IZ, Ha.
    - rewrite (wsum_ext _ (fun _ => 0)); [rewrite wsum_const; lia|]. intros y Hy.
      destruct (phi (x ++ y)) eqn:P1; [|reflexivity]. exfalso.
      assert (T : existsb (fun y => phi (x ++ y)) (tuples D s) = true) by (apply existsb_exists; exists y; split; assumption).
      rewrite T in EX. discriminate EX. }
  rewrite <- prod_pow, <- (wsum_tuples D p (fun _ => w)), <- wsum_scale_r.
  apply wsum_le. intros x Hx.
  rewrite (wsum_ext _ (fun y => pw (fun _ => w) x * (if phi (x ++ y) then pw (fun _ => w) y else 0))).
  - rewrite wsum_scale. apply Z.mul_le_mono_nonneg_l; [|apply One, Hx]. apply in_tuples in Hx. apply PW, Hx.
  - intros y _. rewrite pw_app_const. destruct (phi (x ++ y)); ring.
Qed.

(** ** expanding a product over slots *)
Section Expand.
  Context {X : Type}.
  Variable L : list X.
  Variable F : X -> Z.
  Variable bad : nat -> X -> bool.
  Variables al be w m : Z.
  Variable n : nat.
  Hypothesis Hal : 0 <= al.
  Hypothesis Hbe : al <= be.
  Hypothesis Hw : 0 <= w.
  Hypothesis Hm : 0 <= m.
  Hypothesis H : forall S, NoDup S -> (forall t, In t S -> (t < n)%nat) ->
    wsum (fun x => if forallb (fun t => bad t x) S then F x else 0) L <= m ^ Z.of_nat (length S) * w ^ Z.of_nat (n - length S).
  Let R := al * w + (be - al) * m.

  Fixpoint over (ts : list nat) (x : X) : Z :=
    match ts with [] => 1 | t :: ts => (if bad t x then be else al) * over ts x end.

  Lemma expand ts : forall S, NoDup (S ++ ts) -> (forall t, In t (S ++ ts) -> (t < n)%nat) ->
    wsum (fun x => (if forallb (fun t => bad t x) S then F x else 0) * over ts x) L <=
    R ^ Z.of_nat (length ts) * (m ^ Z.of_nat (length S) * w ^ Z.of_nat (n - length S - length ts)).
  Proof.
    induction ts as [|t ts IH]; intros S ND HB.
    - rewrite app_nil_r in *. cbn [over length]. rewrite Nat.sub_0_r, Z.mul_1_l.
      rewrite (wsum_ext _ (fun x => if forallb (fun t => bad t x) S then F x else 0)) by (intros; ring).
      apply H; assumption.
    - assert (LB : (length S + Datatypes.S (length ts) <= n)%nat).
      { rewrite <- (seq_length n 0). replace (length S + Datatypes.S (length ts))%nat with (length (S ++ t :: ts)) by (rewrite app_length; reflexivity).
        apply NoDup_incl_length; [exact ND|]. intros u Hu. apply in_seq. specialize (HB u Hu). lia. }
      assert (ND1 : NoDup (S ++ ts)) by (apply NoDup_remove_1 in ND; exact ND).
      assert (ND2 : NoDup ((t :: S) ++ ts)).
      { cbn [app]. constructor; [apply NoDup_remove_2 in ND; exact ND|exact ND1]. }
      assert (H1 : forall u, In u (S ++ ts) -> (u < n)%nat).
      { intros u Hu. apply HB. apply in_app_iff in Hu. apply in_app_iff. destruct Hu; [left|right; right]; assumption. }
      assert (H2 : forall u, In u ((t :: S) ++ ts) -> (u < n)%nat).
      { intros u [<-|Hu]; [apply HB, in_app_iff; right; left; reflexivity|apply H1, Hu]. }
      pose proof (IH S ND1 H1) as I1. pose proof (IH (t :: S) ND2 H2) as I2.
      rewrite (wsum_ext _ (fun x => al * ((if forallb (fun t => bad t x) S then F x else 0) * over ts x) +
        (be - al) * ((if forallb (fun t => bad t x) (t :: S) then F x else 0) * over ts x))).
      2:{ intros x _. cbn [over forallb]. destruct (bad t x); cbn [andb]; ring. }
      rewrite wsum_add, !wsum_scale.
      apply (Z.mul_le_mono_nonneg_l _ _ al Hal) in I1. apply (Z.mul_le_mono_nonneg_l _ _ (be - al) ltac:(lia)) in I2.
      eapply Z.le_trans; [exact (Z.add_le_mono _ _ _ _ I1 I2)|]. apply Z.eq_le_incl. cbn [length].
      clear I1 I2 IH H. rewrite !Nat2Z.inj_succ, !Z.pow_succ_r by apply Nat2Z.is_nonneg.
      replace (n - length S - length ts)%nat with (Datatypes.S (n - length S - Datatypes.S (length ts)))%nat by (clear - LB; lia).
      replace (n - Datatypes.S (length S) - length ts)%nat with (n - length S - Datatypes.S (length ts))%nat by (clear; lia).
      rewrite Nat2Z.inj_succ, Z.pow_succ_r by apply Nat2Z.is_nonneg. unfold R. ring.
  Qed.

  Lemma expand_all : wsum (fun x => F x * over (seq 0 n) x) L <= R ^ Z.of_nat n.
  Proof.
    pose proof (expand (seq 0 n) [] (seq_NoDup n 0)) as E. cbn [app length forallb] in E.
    rewrite seq_length, Nat.sub_0_r, Nat.sub_diag, !Z.mul_1_r in E. apply E.
    intros t Ht. apply in_seq in Ht. lia.
  Qed.
End Expand.

(** The group of a short Weierstrass curve y^2 = x^3 + a x + b without singular point, over
    any field of characteristic other than 2.

    A line through P and Q is described by two equations for its slope l, which hold for
    chords and tangents alike:
      (x2 - x1) l = y2 - y1   and   (y1 + y2) l = x1^2 + x1 x2 + x2^2 + a.
    If Q is not -P they determine l.  In these terms the associative law needs no distinction
    between chords and tangents: if l is the slope of A, B and m that of B, C, with l <> m,
    then with t = (x1 - x3) / (m - l) the slope of A + B, C is -(l + t) and that of A, B + C
    is -(m + t). *)
From Coq Require Import List Arith Lia Field Bool.
Import ListNotations.

Section Weierstrass.
  Variable F : Type.
  Variables (zero one : F) (add mul sub : F -> F -> F) (opp : F -> F) (div : F -> F -> F) (inv : F -> F).
  Hypothesis Fth : field_theory zero one add mul sub opp div inv (@eq F).
  Hypothesis Fdec : forall x y : F, {x = y} + {x <> y}.

  Declare Scope F_scope.
  Delimit Scope F_scope with F.
  Notation "0" := zero : F_scope.
  Notation "1" := one : F_scope.
  Infix "+" := add : F_scope.
  Infix "*" := mul : F_scope.
  Infix "-" := sub : F_scope.
  Infix "/" := div : F_scope.
  Notation "- x" := (opp x) : F_scope.
  Local Open Scope F_scope.
  Add Field F_field : Fth.

  Hypothesis two_nz : 1 + 1 <> 0.
  Variables a b : F.
  (** no point with y = 0 has a vanishing derivative *)
  Hypothesis smooth : forall x, x * x * x + a * x + b = 0 -> (1 + 1 + 1) * (x * x) + a <> 0.

  Lemma integral x y : x * y = 0 -> x = 0 \/ y = 0.
  Proof.
    intros H. destruct (Fdec x 0) as [E|E]; [left; exact E|right].
    replace y with (inv x * (x * y)) by (field; exact E). rewrite H. ring.
  Qed.
  Lemma sub_0 x y : x - y = 0 -> x = y.
  Proof. intros H. replace x with (x - y + y) by ring. rewrite H. ring. Qed.
  Lemma sub_nz x y : x <> y -> x - y <> 0.
  Proof. intros H E. apply H, sub_0, E. Qed.
  Lemma cancel k x y : k <> 0 -> k * x = k * y -> x = y.
  Proof.
    intros H E. apply sub_0. destruct (integral k (x - y)) as [K|K]; [|contradiction|exact K].
    replace (k * (x - y)) with (k * x - k * y) by ring. rewrite E. ring.
  Qed.

  (** ** points and their addition *)

  Inductive point : Type := O | P (x y : F).
  Definition on (A : point) : Prop :=
    match A with O => True | P x y => y * y = x * x * x + a * x + b end.
  Definition neg (A : point) : point := match A with O => O | P x y => P x (- y) end.
  Definition third (l x1 y1 x2 : F) : point :=
    let x3 := l * l - x1 - x2 in P x3 (l * (x1 - x3) - y1).
  Definition plus (A B : point) : point :=
    match A, B with
    | O, _ => B
    | _, O => A
    | P x1 y1, P x2 y2 =>
        if Fdec x1 x2 then
          if Fdec (y1 + y2) 0 then O
          else third (((1 + 1 + 1) * (x1 * x1) + a) / ((1 + 1) * y1)) x1 y1 x2
        else third ((y1 - y2) / (x1 - x2)) x1 y1 x2
    end.

  Definition slope (l x1 y1 x2 y2 : F) : Prop :=
    (x2 - x1) * l = y2 - y1 /\ (y1 + y2) * l = x1 * x1 + x1 * x2 + x2 * x2 + a.

  Lemma same_x x y z : on (P x y) -> on (P x z) -> y + z <> 0 -> y = z.
  Proof.
    cbn [on]. intros H1 H2 N. apply sub_0. destruct (integral (y + z) (y - z)) as [K|K]; [|contradiction|exact K].
    replace ((y + z) * (y - z)) with (y * y - z * z) by ring. rewrite H1, H2. ring.
  Qed.
  Lemma plus_opposite x y : plus (P x y) (P x (- y)) = O.
  Proof.
    cbn [plus]. destruct (Fdec x x) as [_|N]; [|contradiction]. destruct (Fdec (y + - y) 0) as [_|N]; [reflexivity|].
    exfalso. apply N. ring.
  Qed.
  Lemma slope_unique l m x1 y1 x2 y2 : on (P x1 y1) -> on (P x2 y2) -> P x2 y2 <> P x1 (- y1) ->
    slope l x1 y1 x2 y2 -> slope m x1 y1 x2 y2 -> l = m.
  Proof.
    intros H1 H2 N [L1 L2] [M1 M2]. destruct (Fdec x1 x2) as [E|E].
    - subst x2. apply (cancel (y1 + y2)).
      + intros Z. apply N. f_equal. apply sub_0. rewrite <- Z. ring.
      + rewrite L2, M2. reflexivity.
    - apply (cancel (x2 - x1)); [apply sub_nz; congruence|]. rewrite L1, M1. reflexivity.
  Qed.
  (** the sum, given the slope *)
  Lemma plus_slope l x1 y1 x2 y2 : on (P x1 y1) -> on (P x2 y2) -> P x2 y2 <> P x1 (- y1) ->
    slope l x1 y1 x2 y2 -> plus (P x1 y1) (P x2 y2) = third l x1 y1 x2.
  Proof.
    intros H1 H2 N L. cbn [plus]. destruct (Fdec x1 x2) as [E|E].
    - subst x2. destruct (Fdec (y1 + y2) 0) as [Z|Z].
      + exfalso. apply N. f_equal. apply sub_0. rewrite <- Z. ring.
      + pose proof (same_x _ _ _ H1 H2 Z) as <-. destruct L as [_ L]. f_equal.
        assert (N2 : (1 + 1) * y1 <> 0) by (intros K; apply Z; rewrite <- K; ring).
        apply (cancel ((1 + 1) * y1)); [exact N2|].
        transitivity ((1 + 1 + 1) * (x1 * x1) + a).
        * field. split; [intros K; apply N2; rewrite K; ring|exact two_nz].
        * transitivity ((y1 + y1) * l); [|ring]. rewrite L. ring.
    - destruct L as [L _]. f_equal. apply (cancel (x2 - x1)); [apply sub_nz; congruence|]. rewrite L. field. apply sub_nz, E.
  Qed.
  Lemma slope_exists x1 y1 x2 y2 : on (P x1 y1) -> on (P x2 y2) -> P x2 y2 <> P x1 (- y1) ->
    exists l, slope l x1 y1 x2 y2.
  Proof.
    intros H1 H2 N. destruct (Fdec x1 x2) as [E|E].
    - subst x2. destruct (Fdec (y1 + y2) 0) as [Z|Z].
      + exfalso. apply N. f_equal. apply sub_0. rewrite <- Z. ring.
      + pose proof (same_x _ _ _ H1 H2 Z) as <-. exists ((x1 * x1 + x1 * x1 + x1 * x1 + a) / (y1 + y1)). split; [ring|].
        field. exact Z.
    - exists ((y2 - y1) / (x2 - x1)). assert (D : x2 - x1 <> 0) by (apply sub_nz; congruence). split; [field; exact D|].
      cbn [on] in H1, H2. apply (cancel (x2 - x1)); [exact D|].
      transitivity ((y2 * y2 - y1 * y1)); [field; exact D|]. rewrite H1, H2. ring.
  Qed.
  Lemma slope_sym l x1 y1 x2 y2 : slope l x1 y1 x2 y2 -> slope l x2 y2 x1 y1.
  Proof.
    intros [L1 L2]. split.
    - replace ((x1 - x2) * l) with (- ((x2 - x1) * l)) by ring. rewrite L1. ring.
    - replace (y2 + y1) with (y1 + y2) by ring. rewrite L2. ring.
  Qed.
  Lemma third_sym l x1 y1 x2 y2 : slope l x1 y1 x2 y2 -> third l x1 y1 x2 = third l x2 y2 x1.
  Proof.
    intros [L1 _]. unfold third. cbv zeta. assert (E : l * l - x2 - x1 = l * l - x1 - x2) by ring. rewrite E. f_equal.
    replace y2 with ((y2 - y1) + y1) by ring. rewrite <- L1. ring.
  Qed.
  (** b in terms of one point *)
  Lemma third_on l x1 y1 x2 y2 : on (P x1 y1) -> slope l x1 y1 x2 y2 -> on (third l x1 y1 x2).
  Proof.
    intros H [L1 L2]. unfold third. cbn [on] in *.
    (* a = (y1 + y2) l - (x1^2 + x1 x2 + x2^2), y2 = y1 + (x2 - x1) l, b = y1^2 - x1^3 - a x1 *)
    assert (Y : y2 = y1 + (x2 - x1) * l) by (rewrite L1; ring).
    assert (A : a = (y1 + y2) * l - (x1 * x1 + x1 * x2 + x2 * x2)) by (rewrite L2; ring).
    assert (B : b = y1 * y1 - x1 * x1 * x1 - a * x1) by (rewrite H; ring).
    rewrite B, A, Y. ring.
  Qed.
  Lemma plus_on A B : on A -> on B -> on (plus A B).
  Proof.
    destruct A as [|x1 y1], B as [|x2 y2]; intros H1 H2; try assumption.
    destruct (Fdec x1 x2) as [E|E].
    - subst x2. destruct (Fdec (y1 + y2) 0) as [Z|Z].
      + assert (y2 = - y1) as -> by (apply sub_0; rewrite <- Z; ring). rewrite plus_opposite. exact I.
      + assert (N : P x1 y2 <> P x1 (- y1)) by (intros K; injection K as ->; apply Z; ring).
        destruct (slope_exists _ _ _ _ H1 H2 N) as [l L]. rewrite (plus_slope l) by assumption. exact (third_on _ _ _ _ _ H1 L).
    - assert (N : P x2 y2 <> P x1 (- y1)) by (intros K; injection K; intros; apply E; congruence).
      destruct (slope_exists _ _ _ _ H1 H2 N) as [l L]. rewrite (plus_slope l) by assumption. exact (third_on _ _ _ _ _ H1 L).
  Qed.
  Lemma neg_on A : on A -> on (neg A).
  Proof. destruct A as [|x y]; cbn [on neg]; [trivial|]. intros H. rewrite <- H. ring. Qed.
  Lemma neg_neg A : neg (neg A) = A.
  Proof. destruct A; cbn [neg]; [reflexivity|]. f_equal. ring. Qed.
  Lemma point_dec (A B : point) : {A = B} + {A <> B}.
  Proof. decide equality; apply Fdec. Qed.

  (** two points are opposite, or there is a slope *)
  Lemma plus_cases A B : on A -> on B ->
    A = O \/ B = O \/ B = neg A \/
    exists x1 y1 x2 y2 l, A = P x1 y1 /\ B = P x2 y2 /\ B <> neg A /\ slope l x1 y1 x2 y2 /\ plus A B = third l x1 y1 x2.
  Proof.
    destruct A as [|x1 y1], B as [|x2 y2]; intros H1 H2; auto. right. right.
    destruct (point_dec (P x2 y2) (neg (P x1 y1))) as [E|E]; [left; exact E|right]. cbn [neg] in E.
    destruct (slope_exists _ _ _ _ H1 H2 E) as [l L]. exists x1, y1, x2, y2, l.
    repeat split; try apply L; try exact E. apply plus_slope; assumption.
  Qed.

  Lemma plus_O_l A : plus O A = A. Proof. reflexivity. Qed.
  Lemma plus_O_r A : plus A O = A. Proof. destruct A; reflexivity. Qed.
  Lemma plus_neg A : plus A (neg A) = O.
  Proof. destruct A; [reflexivity|]. apply plus_opposite. Qed.
  Lemma neg_eq A B : B = neg A -> A = neg B.
  Proof. intros ->. symmetry. apply neg_neg. Qed.
  Lemma plus_comm A B : on A -> on B -> plus A B = plus B A.
  Proof.
    intros H1 H2. destruct (plus_cases A B H1 H2) as [->|[->|[->|(x1 & y1 & x2 & y2 & l & -> & -> & N & L & E)]]].
    - rewrite plus_O_r. reflexivity.
    - rewrite plus_O_r. reflexivity.
    - rewrite plus_neg. rewrite <- (neg_neg A) at 2. rewrite plus_neg. reflexivity.
    - rewrite E, (third_sym _ _ _ _ _ L). symmetry. apply plus_slope; [exact H2|exact H1| |apply slope_sym, L].
      intros K. apply N. rewrite K. cbn [neg]. f_equal. ring.
  Qed.
  Lemma neg_plus A B : on A -> on B -> neg (plus A B) = plus (neg A) (neg B).
  Proof.
    intros H1 H2. destruct (plus_cases A B H1 H2) as [->|[->|[->|(x1 & y1 & x2 & y2 & l & -> & -> & N & [L1 L2] & E)]]].
    - reflexivity.
    - rewrite !plus_O_r. reflexivity.
    - rewrite !plus_neg. reflexivity.
    - rewrite E. symmetry. cbn [neg]. rewrite (plus_slope (- l)).
      + unfold third. cbn [neg]. cbv zeta. f_equal; ring.
      + exact (neg_on _ H1).
      + exact (neg_on _ H2).
      + intros K. injection K as -> K. apply N. cbn [neg]. f_equal. replace y2 with (- - y2) by ring. rewrite K. ring.
      + split.
        * replace ((x2 - x1) * - l) with (- ((x2 - x1) * l)) by ring. rewrite L1. ring.
        * replace ((- y1 + - y2) * - l) with ((y1 + y2) * l) by ring. exact L2.
  Qed.

  (** ** cancellation *)
  Lemma plus_fixed A B : on A -> on B -> A <> O -> plus A B = A -> B = O.
  Proof.
    intros H1 H2 NA. destruct (plus_cases A B H1 H2) as [->|[->|[->|(x1 & y1 & x2 & y2 & l & -> & -> & N & [L1 L2] & E)]]].
    - contradiction.
    - reflexivity.
    - rewrite plus_neg. intros <-. contradiction.
    - rewrite E. unfold third. cbv zeta. intros K. injection K as K1 K2. exfalso. rewrite K1 in K2.
      assert (Y0 : y1 = 0).
      { apply (cancel (1 + 1)); [exact two_nz|]. transitivity (y1 + y1); [ring|]. rewrite <- K2 at 1. ring. }
      subst y1. cbn [on] in H1. apply (smooth x1); [rewrite <- H1; ring|].
      assert (X2 : x2 = l * l - x1 - x1) by (rewrite <- K1 at 2; ring).
      assert (Q : (x2 - x1) * (l * l) = x1 * x1 + x1 * x2 + x2 * x2 + a).
      { rewrite <- L2. transitivity ((x2 - x1) * l * l); [ring|]. rewrite L1. ring. }
      transitivity (x1 * x1 + x1 * x2 + x2 * x2 + a - (x2 - x1) * (x2 + x1 + x1)); [ring|].
      rewrite <- Q, X2. ring.
  Qed.
  Lemma plus_cancel A B : on A -> on B -> plus (neg A) (plus A B) = B.
  Proof.
    intros H1 H2. destruct (plus_cases A B H1 H2) as [->|[->|[->|(x1 & y1 & x2 & y2 & l & -> & -> & N & [L1 L2] & E)]]].
    - reflexivity.
    - rewrite plus_O_r. rewrite plus_comm by (try apply neg_on; assumption). apply plus_neg.
    - rewrite plus_neg, plus_O_r. reflexivity.
    - pose proof (plus_on _ _ H1 H2) as H3. destruct (point_dec (plus (P x1 y1) (P x2 y2)) (P x1 y1)) as [F1|F1].
      + exfalso. assert (Z : P x2 y2 = O) by (apply (plus_fixed (P x1 y1)); [exact H1|exact H2|discriminate|exact F1]). discriminate Z.
      + rewrite E in *. unfold third in *. cbv zeta in *. cbn [neg].
        set (x3 := l * l - x1 - x2) in *. set (y3 := l * (x1 - x3) - y1) in *.
        rewrite (plus_slope (- l)).
        * unfold third. cbv zeta. assert (X : - l * - l - x1 - x3 = x2) by (unfold x3; ring). rewrite X. f_equal.
          transitivity (y1 + (x2 - x1) * l); [ring|]. rewrite L1. ring.
        * exact (neg_on _ H1).
        * exact H3.
        * intros K. apply F1. rewrite K. f_equal. ring.
        * split; [unfold y3; ring|].
          (* a from L2 *)
          assert (Y : y2 = y1 + (x2 - x1) * l) by (rewrite L1; ring).
          assert (A : a = (y1 + y2) * l - (x1 * x1 + x1 * x2 + x2 * x2)) by (rewrite L2; ring).
          rewrite A, Y. unfold y3, x3. ring.
  Qed.

  (** ** associativity *)
  Lemma assoc_slopes x1 y1 x2 y2 x3 y3 l m : on (P x2 y2) ->
    slope l x1 y1 x2 y2 -> slope m x2 y2 x3 y3 -> l <> m ->
    on (P x1 y1) -> on (P x3 y3) ->
    let D := third l x1 y1 x2 in let E := third m x2 y2 x3 in
    P x3 y3 <> neg D -> E <> neg (P x1 y1) ->
    plus D (P x3 y3) = plus (P x1 y1) E.
  Proof.
    intros H2 Ll Lm Nlm H1 H3 D E ND NE.
    pose proof (third_on _ _ _ _ _ H1 Ll) as HD. pose proof (third_on _ _ _ _ _ H2 Lm) as HE. fold D in HD. fold E in HE.
    destruct Ll as [L1 L2]. destruct Lm as [M1 M2].
    assert (Nd : m - l <> 0) by (apply sub_nz; congruence).
    set (t := (x1 - x3) / (m - l)).
    assert (T : x1 = x3 + t * (m - l)) by (unfold t; field; exact Nd). clearbody t.
    assert (Y1 : y1 = y2 - (x2 - x1) * l) by (rewrite L1; ring).
    assert (Y3 : y3 = y2 + (x3 - x2) * m) by (rewrite M1; ring).
    (* the equations for a, from both slopes: their difference, divided by m - l, gives 2 y2 *)
    assert (A1 : a = (y1 + y2) * l - (x1 * x1 + x1 * x2 + x2 * x2)) by (rewrite L2; ring).
    assert (A2 : a = (y2 + y3) * m - (x2 * x2 + x2 * x3 + x3 * x3)) by (rewrite M2; ring).
    assert (Y2 : (1 + 1) * y2 = (l * l - x1 - x2 - x3) * t - (x3 - x2) * (l + m)).
    { apply (cancel (m - l)); [exact Nd|]. apply sub_0.
      transitivity (((y2 + y3) * m - (x2 * x2 + x2 * x3 + x3 * x3)) - ((y1 + y2) * l - (x1 * x1 + x1 * x2 + x2 * x2))).
      - rewrite Y1, Y3, T. ring.
      - rewrite <- A1, <- A2. ring. }
    assert (Y2' : y2 = ((l * l - x1 - x2 - x3) * t - (x3 - x2) * (l + m)) / (1 + 1)) by (rewrite <- Y2; field; exact two_nz).
    assert (S1 : slope (- (l + t)) (l * l - x1 - x2) (l * (x1 - (l * l - x1 - x2)) - y1) x3 y3).
    { split; [rewrite Y1|rewrite A2, Y1]; rewrite Y3, Y2', T; field; exact two_nz. }
    assert (S2 : slope (- (m + t)) x1 y1 (m * m - x2 - x3) (m * (x2 - (m * m - x2 - x3)) - y2)).
    { split; [rewrite Y1|rewrite A2, Y1, Y3]; rewrite Y2', T; field; exact two_nz. }
    unfold D, E, third in *. cbv zeta in *. clear D E.
    rewrite (plus_slope _ _ _ _ _ HD H3 ND S1), (plus_slope _ _ _ _ _ H1 HE NE S2). unfold third. cbv zeta.
    rewrite Y1, Y2', T. f_equal; field; exact two_nz.
  Qed.
  Lemma assoc_collinear x1 y1 x2 y2 x3 y3 l : slope l x1 y1 x2 y2 -> slope l x2 y2 x3 y3 ->
    P x1 y1 = P x3 y3 \/ P x3 y3 = neg (third l x1 y1 x2).
  Proof.
    intros [L1 L2] [M1 M2].
    assert (Y1 : y1 = y2 - (x2 - x1) * l) by (rewrite L1; ring).
    assert (Y3 : y3 = y2 + (x3 - x2) * l) by (rewrite M1; ring).
    destruct (integral (x1 - x3) (l * l - x1 - x2 - x3)) as [Z|Z].
    - transitivity (((y1 + y2) * l - (x1 * x1 + x1 * x2 + x2 * x2)) - ((y2 + y3) * l - (x2 * x2 + x2 * x3 + x3 * x3))).
      + rewrite Y1, Y3. ring.
      + rewrite L2, M2. ring.
    - left. apply sub_0 in Z. subst x3. f_equal. rewrite Y1, Y3. ring.
    - right. unfold third. cbn [neg]. cbv zeta. assert (X : l * l - x1 - x2 = x3) by (apply sub_0; exact Z).
      rewrite X. f_equal. rewrite Y1, Y3. ring.
  Qed.
  Theorem plus_assoc A B C : on A -> on B -> on C -> plus (plus A B) C = plus A (plus B C).
  Proof.
    intros HA HB HC. pose proof (neg_on A HA) as HA'. pose proof (neg_on B HB) as HB'. pose proof (neg_on C HC) as HC'.
    destruct (plus_cases A B HA HB) as [->|[->|[->|(x1 & y1 & x2 & y2 & l & EA & EB & NAB & L & EAB)]]].
    - reflexivity.
    - rewrite plus_O_r. reflexivity.
    - rewrite plus_neg, plus_O_l. rewrite <- (plus_cancel (neg A) C HA' HC) at 1. rewrite neg_neg. reflexivity.
    - destruct (plus_cases B C HB HC) as [->|[->|[->|(x2' & y2' & x3 & y3 & m & EB' & EC & NBC & M & EBC)]]].
      + rewrite plus_O_r. reflexivity.
      + rewrite !plus_O_r. reflexivity.
      + rewrite plus_neg, plus_O_r. rewrite (plus_comm A B HA HB). rewrite plus_comm by (try apply plus_on; assumption).
        apply plus_cancel; assumption.
      + rewrite EB' in EB. injection EB as -> ->.
        destruct (point_dec C (neg (plus A B))) as [N1|N1].
        { assert (E : plus B C = neg A).
          { rewrite N1, neg_plus, (plus_comm (neg A)) by assumption.
            rewrite <- (plus_cancel (neg B) (neg A) HB' HA') at 2. rewrite neg_neg. reflexivity. }
          rewrite E, plus_neg. rewrite N1. apply plus_neg. }
        destruct (point_dec (plus B C) (neg A)) as [N2|N2].
        { assert (E : plus A B = neg C).
          { rewrite (plus_comm A B) by assumption. rewrite <- (neg_neg A), <- N2, neg_plus by assumption.
            rewrite <- (plus_cancel (neg B) (neg C) HB' HC') at 2. rewrite neg_neg. reflexivity. }
          rewrite N2, plus_neg, E. rewrite plus_comm by assumption. apply plus_neg. }
        destruct (Fdec l m) as [<-|Nlm].
        * subst A B C. destruct (assoc_collinear _ _ _ _ _ _ _ L M) as [E|E].
          { rewrite <- E. rewrite (plus_comm (P x2 y2)) by assumption. apply plus_comm; [apply plus_on|]; assumption. }
          exfalso. apply N1. rewrite EAB. exact E.
        * subst A B C. rewrite EAB, EBC in *. apply assoc_slopes; assumption.
  Qed.

  (** ** multiples *)
  Fixpoint smul (n : nat) (A : point) : point :=
    match n with 0%nat => O | S n => plus A (smul n A) end.
  Lemma smul_on n A : on A -> on (smul n A).
  Proof. intros H. induction n; cbn [smul]; [exact I|]. apply plus_on; assumption. Qed.
  Lemma smul_add n m A : on A -> smul (n + m) A = plus (smul n A) (smul m A).
  Proof.
    intros H. induction n as [|n IH]; [reflexivity|]. cbn [smul Nat.add]. rewrite IH. symmetry.
    apply plus_assoc; try apply smul_on; exact H.
  Qed.
  Lemma smul_mul n m A : on A -> smul n (smul m A) = smul (n * m) A.
  Proof.
    intros H. induction n as [|n IH]; [reflexivity|]. cbn [smul Nat.mul]. rewrite IH. symmetry. apply smul_add, H.
  Qed.
End Weierstrass.

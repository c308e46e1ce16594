(** The group of an Edwards curve x^2 + y^2 = 1 + c x^2 y^2 with non-square c, over any
    field, and the Montgomery ladder on it.  The certificates of the polynomial identities
    were found by polynomial division; [ring] checks them. *)
From Coq Require Import List Arith Lia Field Bool.
Import ListNotations.

Section Edwards.
  Variable F : Type.
  Variables (zero one : F) (add mul sub : F -> F -> F) (opp : F -> F) (div : F -> F -> F) (inv : F -> F).
  Hypothesis Fth : field_theory zero one add mul sub opp div inv (@eq F).
  Hypothesis Fdec : forall x y : F, {x = y} + {x <> y}.
  Hypothesis inv0 : inv zero = zero.

  Declare Scope F_scope.
  Delimit Scope F_scope with F.
  Notation "0" := zero : F_scope.
  Notation "1" := one : F_scope.
  Infix "+" := add : F_scope.
  Infix "*" := mul : F_scope.
  Infix "-" := sub : F_scope.
  Infix "/" := div : F_scope.
  Notation "- x" := (opp x) : F_scope.
  Local Open Scope F_scope.
  Add Field F_field : Fth.

  Hypothesis two_nz : 1 + 1 <> 0.
  Variables c a24 : F.
  Hypothesis c_nonsquare : forall x, x * x <> c.
  Hypothesis a24_def : a24 * (1 - c) = c.

  Lemma one_nz : 1 <> 0.
  Proof. exact (F_1_neq_0 Fth). Qed.
  Lemma integral x y : x * y = 0 -> x = 0 \/ y = 0.
  Proof.
    intros H. destruct (Fdec x 0) as [E|E]; [left; exact E|right].
    replace y with (inv x * (x * y)) by (field; exact E). rewrite H. ring.
  Qed.
  Lemma mul_nz x y : x <> 0 -> y <> 0 -> x * y <> 0.
  Proof. intros A B C. apply integral in C. tauto. Qed.
  Lemma sub_0 x y : x - y = 0 -> x = y.
  Proof. intros H. replace x with (x - y + y) by ring. rewrite H. ring. Qed.
  Lemma c_nz : c <> 0.
  Proof. intros H. apply (c_nonsquare 0). rewrite H. ring. Qed.
  Lemma c_not_1 : 1 - c <> 0.
  Proof. intros H. apply (c_nonsquare 1). apply sub_0 in H. rewrite <- H. ring. Qed.
  Lemma fraction a b d e : b <> 0 -> e <> 0 -> a * e - d * b = 0 -> a / b = d / e.
  Proof.
    intros Hb He H. apply sub_0 in H. replace (a / b) with ((a * e) / (b * e)) by (field; split; assumption).
    rewrite H. field. split; assumption.
  Qed.

  (** ** points *)

  Definition point : Type := F * F.
  Definition on (P : point) : Prop :=
    let '(x, y) := P in x * x + y * y - 1 - c * x * x * y * y = 0.
  Definition O : point := (0, 1).
  Definition neg (P : point) : point := let '(x, y) := P in (- x, y).
  Definition kk (P Q : point) : F := c * fst P * fst Q * snd P * snd Q.
  Definition plus (P Q : point) : point :=
    ((fst P * snd Q + snd P * fst Q) / (1 + kk P Q), (snd P * snd Q - fst P * fst Q) / (1 - kk P Q)).

  (** ** the addition law is complete *)

  Lemma complete_sq P Q : on P -> on Q -> kk P Q * kk P Q <> 1.
  Proof.
    destruct P as [x1 y1], Q as [x2 y2]. unfold on, kk. cbn [fst snd]. intros H1 H2 E.
    set (k := c * x1 * x2 * y1 * y2) in *.
    assert (S1 : (x1 + k * y1) * (x1 + k * y1) = c * (x1 * y1 * (x2 + y2)) * (x1 * y1 * (x2 + y2))).
    { apply sub_0.
      replace (_ - _) with ((x1*x1 + y1*y1 - 1 - c*x1*x1*y1*y1) - c*x1*x1*y1*y1*(x2*x2 + y2*y2 - 1 - c*x2*x2*y2*y2) + (k*k - 1)*(y1*y1 - 1))
        by (unfold k; ring).
      rewrite H1, H2, E. ring. }
    assert (S2 : (x1 - k * y1) * (x1 - k * y1) = c * (x1 * y1 * (x2 - y2)) * (x1 * y1 * (x2 - y2))).
    { apply sub_0.
      replace (_ - _) with ((x1*x1 + y1*y1 - 1 - c*x1*x1*y1*y1) - c*x1*x1*y1*y1*(x2*x2 + y2*y2 - 1 - c*x2*x2*y2*y2) + (k*k - 1)*(y1*y1 - 1))
        by (unfold k; ring).
      rewrite H1, H2, E. ring. }
    assert (NZ : x1 * y1 <> 0).
    { intros Z. assert (K : k = 0) by (unfold k; replace (c * x1 * x2 * y1 * y2) with (c * (x1 * y1) * x2 * y2) by ring; rewrite Z; ring).
      rewrite K in E. apply one_nz. rewrite <- E. ring. }
    assert (SQ : forall a b, a * a = c * b * b -> b = 0).
    { intros a b Hab. destruct (Fdec b 0) as [B|B]; [exact B|]. exfalso. apply (c_nonsquare (a / b)).
      replace (a / b * (a / b)) with ((a * a) / (b * b)) by (field; exact B). rewrite Hab. field. exact B. }
    pose proof (SQ _ _ S1) as A1. pose proof (SQ _ _ S2) as A2.
    apply integral in A1. apply integral in A2. destruct A1 as [A1|A1]; [contradiction|]. destruct A2 as [A2|A2]; [contradiction|].
    assert (X2 : (1 + 1) * x2 = 0) by (replace ((1 + 1) * x2) with ((x2 + y2) + (x2 - y2)) by ring; rewrite A1, A2; ring).
    apply integral in X2. destruct X2 as [X2|X2]; [contradiction|].
    assert (K : k = 0) by (unfold k; rewrite X2; ring). rewrite K in E. apply one_nz. rewrite <- E. ring.
  Qed.
  Lemma complete P Q : on P -> on Q -> 1 + kk P Q <> 0 /\ 1 - kk P Q <> 0.
  Proof.
    intros H1 H2. pose proof (complete_sq P Q H1 H2) as W. split; intros E; apply W; apply sub_0.
    - replace (kk P Q * kk P Q - 1) with ((kk P Q - 1) * (1 + kk P Q)) by ring. rewrite E. ring.
    - replace (kk P Q * kk P Q - 1) with (- ((1 + kk P Q) * (1 - kk P Q))) by ring. rewrite E. ring.
  Qed.

  (** ** a commutative group *)

  Lemma on_O : on O.
  Proof. unfold on, O. ring. Qed.
  Lemma on_neg P : on P -> on (neg P).
  Proof. destruct P as [x y]. unfold on, neg. intros H. rewrite <- H. ring. Qed.
  Lemma on_plus P Q : on P -> on Q -> on (plus P Q).
  Proof.
    intros H1 H2. destruct (complete P Q H1 H2) as [A B]. destruct P as [x1 y1], Q as [x2 y2].
    unfold plus, on, kk in *. cbn [fst snd] in *.
    set (k := c * x1 * x2 * y1 * y2) in *.
    replace (_ - _) with (((x1*y2 + y1*x2)*(x1*y2 + y1*x2)*(1 - k)*(1 - k) + (y1*y2 - x1*x2)*(y1*y2 - x1*x2)*(1 + k)*(1 + k)
        - (1 + k)*(1 + k)*(1 - k)*(1 - k) - c*(x1*y2 + y1*x2)*(x1*y2 + y1*x2)*(y1*y2 - x1*x2)*(y1*y2 - x1*x2))
        / ((1 + k)*(1 + k)*(1 - k)*(1 - k))) by (field; split; assumption).
    replace (_ - _) with ((c*c*c*x1*x1*y1*y1*x2*x2*x2*x2*y2*y2*y2*y2 + c*c*x1*x1*x2*x2*x2*x2*y2*y2*y2*y2 + c*c*y1*y1*x2*x2*x2*x2*y2*y2*y2*y2 - c*c*x2*x2*x2*x2*y2*y2*y2*y2 - c*x1*x1*x2*x2*x2*x2*y2*y2 - c*x1*x1*x2*x2*y2*y2*y2*y2 - c*y1*y1*x2*x2*x2*x2*y2*y2 - c*y1*y1*x2*x2*y2*y2*y2*y2 + (1+1)*c*x2*x2*x2*x2*y2*y2*y2*y2 - (1+1)*c*x2*x2*y2*y2 - (1+1)*x2*x2*x2*x2*y2*y2 + x2*x2*x2*x2 - (1+1)*x2*x2*y2*y2*y2*y2 + (1+1+1+1)*x2*x2*y2*y2 + y2*y2*y2*y2) * (x1*x1 + y1*y1 - 1 - c*x1*x1*y1*y1) + (c*x1*x1*x1*x1*x2*x2*y2*y2 - (1+1)*c*x1*x1*x2*x2*y2*y2 + c*y1*y1*y1*y1*x2*x2*y2*y2 - (1+1)*c*y1*y1*x2*x2*y2*y2 + c*x2*x2*y2*y2 + (1+1)*x1*x1*x2*x2*y2*y2 - x1*x1*x2*x2 - x1*x1*y2*y2 + (1+1)*y1*y1*x2*x2*y2*y2 - y1*y1*x2*x2 - y1*y1*y2*y2 - (1+1)*x2*x2*y2*y2 + x2*x2 + y2*y2 + 1) * (x2*x2 + y2*y2 - 1 - c*x2*x2*y2*y2)) by (unfold k; ring).
    rewrite H1, H2. field. split; assumption.
  Qed.
  Lemma plus_comm P Q : plus P Q = plus Q P.
  Proof.
    destruct P as [x1 y1], Q as [x2 y2]. unfold plus, kk. cbn [fst snd].
    replace (c * x2 * x1 * y2 * y1) with (c * x1 * x2 * y1 * y2) by ring.
    f_equal; f_equal; ring.
  Qed.
  Lemma plus_O P : plus P O = P.
  Proof.
    destruct P as [x y]. unfold plus, kk, O. cbn [fst snd].
    replace (c * x * 0 * y * 1) with 0 by ring.
    f_equal; field; replace (1 + 0) with 1 by ring; replace (1 - 0) with 1 by ring; exact one_nz.
  Qed.
  Lemma plus_neg P : on P -> plus P (neg P) = O.
  Proof.
    intros H. destruct (complete P (neg P) H (on_neg P H)) as [A B]. destruct P as [x y].
    unfold plus, neg, kk, O in *. cbn [fst snd] in *. unfold on in H. f_equal.
    - replace (x * y + y * - x) with 0 by ring. field. exact A.
    - replace (y * y - x * - x) with (1 - c * x * - x * y * y + (x * x + y * y - 1 - c * x * x * y * y)) by ring.
      rewrite H. field. exact B.
  Qed.

  Lemma assoc_side P Q R : on P -> on Q -> on R ->
    let '(x1, y1) := P in let '(x2, y2) := Q in let '(x3, y3) := R in
    let k := c*x1*x2*y1*y2 in
    let X := x1*y2 + y1*x2 in let Y := y1*y2 - x1*x2 in
    let D := (1 + k)*(1 - k) + c*X*Y*x3*y3 in let E := (1 + k)*(1 - k) - c*X*Y*x3*y3 in
    D <> 0 /\ E <> 0 /\
    plus (plus P Q) R = ((X*(1 - k)*y3 + Y*(1 + k)*x3) / D, (Y*(1 + k)*y3 - X*(1 - k)*x3) / E).
  Proof.
    intros H1 H2 H3. destruct (complete P Q H1 H2) as [A B].
    destruct (complete (plus P Q) R (on_plus P Q H1 H2) H3) as [A' B'].
    destruct P as [x1 y1], Q as [x2 y2], R as [x3 y3]. cbn beta zeta.
    unfold plus, kk in *. cbn [fst snd] in *.
    set (k := c*x1*x2*y1*y2) in *. set (X := x1*y2 + y1*x2) in *. set (Y := y1*y2 - x1*x2) in *.
    assert (AB : (1 + k)*(1 - k) <> 0) by (apply mul_nz; assumption).
    assert (ED : 1 + c * (X / (1 + k)) * x3 * (Y / (1 - k)) * y3 = ((1 + k)*(1 - k) + c*X*Y*x3*y3) / ((1 + k)*(1 - k))) by (field; split; assumption).
    assert (EE : 1 - c * (X / (1 + k)) * x3 * (Y / (1 - k)) * y3 = ((1 + k)*(1 - k) - c*X*Y*x3*y3) / ((1 + k)*(1 - k))) by (field; split; assumption).
    assert (D : (1 + k)*(1 - k) + c*X*Y*x3*y3 <> 0).
    { intros Z. apply A'. rewrite ED, Z. field. split; assumption. }
    assert (E : (1 + k)*(1 - k) - c*X*Y*x3*y3 <> 0).
    { intros Z. apply B'. rewrite EE, Z. field. split; assumption. }
    split; [exact D|]. split; [exact E|]. rewrite ED, EE. f_equal; field; repeat split; assumption.
  Qed.

  Lemma plus_assoc P Q R : on P -> on Q -> on R -> plus (plus P Q) R = plus P (plus Q R).
  Proof.
    intros H1 H2 H3. rewrite (plus_comm P (plus Q R)).
    pose proof (assoc_side P Q R H1 H2 H3) as L. pose proof (assoc_side Q R P H2 H3 H1) as W.
    destruct P as [x1 y1], Q as [x2 y2], R as [x3 y3]. cbn beta zeta in L, W.
    destruct L as (L1 & L2 & ->), W as (R1 & R2 & ->). unfold on in H1, H2, H3. f_equal.
    - apply fraction; [exact L1|exact R1|].
      replace (_ - _) with ((c*c*x1*x2*x2*x2*x2*y2*y2*y2*x3*x3*y3 - c*c*x1*x2*x2*x2*y2*y2*y2*y2*x3*y3*y3 + c*c*y1*x2*x2*x2*x2*y2*y2*y2*x3*y3*y3 + c*c*y1*x2*x2*x2*y2*y2*y2*y2*x3*x3*y3 - c*x1*x2*x2*x2*x2*y2*x3*x3*y3 - c*x1*x2*x2*x2*y2*y2*x3*x3*x3 + c*x1*x2*x2*x2*y2*y2*x3 + c*x1*x2*x2*y2*y2*y2*y3*y3*y3 - c*x1*x2*x2*y2*y2*y2*y3 + c*x1*x2*y2*y2*y2*y2*x3*y3*y3 - c*y1*x2*x2*x2*x2*y2*x3*y3*y3 + c*y1*x2*x2*x2*y2*y2*y3*y3*y3 - c*y1*x2*x2*x2*y2*y2*y3 + c*y1*x2*x2*y2*y2*y2*x3*x3*x3 - c*y1*x2*x2*y2*y2*y2*x3 - c*y1*x2*y2*y2*y2*y2*x3*x3*y3) * (x1*x1 + y1*y1 - 1 - c*x1*x1*y1*y1)
        + (- c*c*x1*x1*y1*x2*x2*y2*x3*x3*x3*y3*y3 - c*c*x1*x1*y1*x2*y2*y2*x3*x3*y3*y3*y3 - c*c*x1*y1*y1*x2*x2*y2*x3*x3*y3*y3*y3 + c*c*x1*y1*y1*x2*y2*y2*x3*x3*x3*y3*y3 + c*x1*x1*x1*x2*x2*y2*x3*x3*y3 - c*x1*x1*x1*x2*y2*y2*x3*y3*y3 + c*x1*x1*x1*x2*x3*x3*x3*y3*y3 - c*x1*x1*x1*y2*x3*x3*y3*y3*y3 + c*x1*x1*y1*x2*x2*y2*x3*y3*y3 + c*x1*x1*y1*x2*y2*y2*x3*x3*y3 - c*x1*x1*y1*x2*x3*x3*y3*y3*y3 - c*x1*x1*y1*y2*x3*x3*x3*y3*y3 + c*x1*y1*y1*x2*x2*y2*x3*x3*y3 - c*x1*y1*y1*x2*y2*y2*x3*y3*y3 + c*x1*y1*y1*x2*x3*x3*x3*y3*y3 - c*x1*y1*y1*y2*x3*x3*y3*y3*y3 - c*x1*x2*x2*y2*x3*x3*y3 + c*x1*x2*y2*y2*x3*y3*y3 - c*x1*x2*x3*x3*x3*y3*y3 + c*x1*y2*x3*x3*y3*y3*y3 + c*y1*y1*y1*x2*x2*y2*x3*y3*y3 + c*y1*y1*y1*x2*y2*y2*x3*x3*y3 - c*y1*y1*y1*x2*x3*x3*y3*y3*y3 - c*y1*y1*y1*y2*x3*x3*x3*y3*y3 - c*y1*x2*x2*y2*x3*y3*y3 - c*y1*x2*y2*y2*x3*x3*y3 + c*y1*x2*x3*x3*y3*y3*y3 + c*y1*y2*x3*x3*x3*y3*y3 - x1*x1*x1*x2*x3*x3*x3 - x1*x1*x1*x2*x3*y3*y3 + x1*x1*x1*x2*x3 + x1*x1*x1*y2*x3*x3*y3 + x1*x1*x1*y2*y3*y3*y3 - x1*x1*x1*y2*y3 + x1*x1*y1*x2*x3*x3*y3 + x1*x1*y1*x2*y3*y3*y3 - x1*x1*y1*x2*y3 + x1*x1*y1*y2*x3*x3*x3 + x1*x1*y1*y2*x3*y3*y3 - x1*x1*y1*y2*x3 - x1*y1*y1*x2*x3*x3*x3 - x1*y1*y1*x2*x3*y3*y3 + x1*y1*y1*x2*x3 + x1*y1*y1*y2*x3*x3*y3 + x1*y1*y1*y2*y3*y3*y3 - x1*y1*y1*y2*y3 + x1*x2*x3*x3*x3 + x1*x2*x3*y3*y3 - x1*x2*x3 - x1*y2*x3*x3*y3 - x1*y2*y3*y3*y3 + x1*y2*y3 + y1*y1*y1*x2*x3*x3*y3 + y1*y1*y1*x2*y3*y3*y3 - y1*y1*y1*x2*y3 + y1*y1*y1*y2*x3*x3*x3 + y1*y1*y1*y2*x3*y3*y3 - y1*y1*y1*y2*x3 - y1*x2*x3*x3*y3 - y1*x2*y3*y3*y3 + y1*x2*y3 - y1*y2*x3*x3*x3 - y1*y2*x3*y3*y3 + y1*y2*x3) * (x2*x2 + y2*y2 - 1 - c*x2*x2*y2*y2)
        + (c*x1*x1*y1*x2*x2*y2*x3 + c*x1*x1*y1*x2*y2*y2*y3 + c*x1*y1*y1*x2*x2*y2*y3 - c*x1*y1*y1*x2*y2*y2*x3 + x1*x1*x1*x2*x2*x2*x3 - x1*x1*x1*x2*x2*y2*y3 + x1*x1*x1*x2*y2*y2*x3 - x1*x1*x1*x2*x3 - x1*x1*x1*y2*y2*y2*y3 + x1*x1*x1*y2*y3 - x1*x1*y1*x2*x2*x2*y3 - x1*x1*y1*x2*x2*y2*x3 - x1*x1*y1*x2*y2*y2*y3 + x1*x1*y1*x2*y3 - x1*x1*y1*y2*y2*y2*x3 + x1*x1*y1*y2*x3 + x1*y1*y1*x2*x2*x2*x3 - x1*y1*y1*x2*x2*y2*y3 + x1*y1*y1*x2*y2*y2*x3 - x1*y1*y1*x2*x3 - x1*y1*y1*y2*y2*y2*y3 + x1*y1*y1*y2*y3 - x1*x2*x2*x2*x3 + x1*x2*x2*y2*y3 - x1*x2*y2*y2*x3 + x1*x2*x3 + x1*y2*y2*y2*y3 - x1*y2*y3 - y1*y1*y1*x2*x2*x2*y3 - y1*y1*y1*x2*x2*y2*x3 - y1*y1*y1*x2*y2*y2*y3 + y1*y1*y1*x2*y3 - y1*y1*y1*y2*y2*y2*x3 + y1*y1*y1*y2*x3 + y1*x2*x2*x2*y3 + y1*x2*x2*y2*x3 + y1*x2*y2*y2*y3 - y1*x2*y3 + y1*y2*y2*y2*x3 - y1*y2*x3) * (x3*x3 + y3*y3 - 1 - c*x3*x3*y3*y3)) by ring.
      rewrite H1, H2, H3. ring.
    - apply fraction; [exact L2|exact R2|].
      replace (_ - _) with ((- c*c*x1*x2*x2*x2*x2*y2*y2*y2*x3*y3*y3 - c*c*x1*x2*x2*x2*y2*y2*y2*y2*x3*x3*y3 + c*c*y1*x2*x2*x2*x2*y2*y2*y2*x3*x3*y3 - c*c*y1*x2*x2*x2*y2*y2*y2*y2*x3*y3*y3 + c*x1*x2*x2*x2*x2*y2*x3*y3*y3 - c*x1*x2*x2*x2*y2*y2*y3*y3*y3 + c*x1*x2*x2*x2*y2*y2*y3 - c*x1*x2*x2*y2*y2*y2*x3*x3*x3 + c*x1*x2*x2*y2*y2*y2*x3 + c*x1*x2*y2*y2*y2*y2*x3*x3*y3 - c*y1*x2*x2*x2*x2*y2*x3*x3*y3 - c*y1*x2*x2*x2*y2*y2*x3*x3*x3 + c*y1*x2*x2*x2*y2*y2*x3 + c*y1*x2*x2*y2*y2*y2*y3*y3*y3 - c*y1*x2*x2*y2*y2*y2*y3 + c*y1*x2*y2*y2*y2*y2*x3*y3*y3) * (x1*x1 + y1*y1 - 1 - c*x1*x1*y1*y1)
        + (- c*c*x1*x1*y1*x2*x2*y2*x3*x3*y3*y3*y3 + c*c*x1*x1*y1*x2*y2*y2*x3*x3*x3*y3*y3 + c*c*x1*y1*y1*x2*x2*y2*x3*x3*x3*y3*y3 + c*c*x1*y1*y1*x2*y2*y2*x3*x3*y3*y3*y3 - c*x1*x1*x1*x2*x2*y2*x3*y3*y3 - c*x1*x1*x1*x2*y2*y2*x3*x3*y3 + c*x1*x1*x1*x2*x3*x3*y3*y3*y3 + c*x1*x1*x1*y2*x3*x3*x3*y3*y3 + c*x1*x1*y1*x2*x2*y2*x3*x3*y3 - c*x1*x1*y1*x2*y2*y2*x3*y3*y3 + c*x1*x1*y1*x2*x3*x3*x3*y3*y3 - c*x1*x1*y1*y2*x3*x3*y3*y3*y3 - c*x1*y1*y1*x2*x2*y2*x3*y3*y3 - c*x1*y1*y1*x2*y2*y2*x3*x3*y3 + c*x1*y1*y1*x2*x3*x3*y3*y3*y3 + c*x1*y1*y1*y2*x3*x3*x3*y3*y3 + c*x1*x2*x2*y2*x3*y3*y3 + c*x1*x2*y2*y2*x3*x3*y3 - c*x1*x2*x3*x3*y3*y3*y3 - c*x1*y2*x3*x3*x3*y3*y3 + c*y1*y1*y1*x2*x2*y2*x3*x3*y3 - c*y1*y1*y1*x2*y2*y2*x3*y3*y3 + c*y1*y1*y1*x2*x3*x3*x3*y3*y3 - c*y1*y1*y1*y2*x3*x3*y3*y3*y3 - c*y1*x2*x2*y2*x3*x3*y3 + c*y1*x2*y2*y2*x3*y3*y3 - c*y1*x2*x3*x3*x3*y3*y3 + c*y1*y2*x3*x3*y3*y3*y3 - x1*x1*x1*x2*x3*x3*y3 - x1*x1*x1*x2*y3*y3*y3 + x1*x1*x1*x2*y3 - x1*x1*x1*y2*x3*x3*x3 - x1*x1*x1*y2*x3*y3*y3 + x1*x1*x1*y2*x3 - x1*x1*y1*x2*x3*x3*x3 - x1*x1*y1*x2*x3*y3*y3 + x1*x1*y1*x2*x3 + x1*x1*y1*y2*x3*x3*y3 + x1*x1*y1*y2*y3*y3*y3 - x1*x1*y1*y2*y3 - x1*y1*y1*x2*x3*x3*y3 - x1*y1*y1*x2*y3*y3*y3 + x1*y1*y1*x2*y3 - x1*y1*y1*y2*x3*x3*x3 - x1*y1*y1*y2*x3*y3*y3 + x1*y1*y1*y2*x3 + x1*x2*x3*x3*y3 + x1*x2*y3*y3*y3 - x1*x2*y3 + x1*y2*x3*x3*x3 + x1*y2*x3*y3*y3 - x1*y2*x3 - y1*y1*y1*x2*x3*x3*x3 - y1*y1*y1*x2*x3*y3*y3 + y1*y1*y1*x2*x3 + y1*y1*y1*y2*x3*x3*y3 + y1*y1*y1*y2*y3*y3*y3 - y1*y1*y1*y2*y3 + y1*x2*x3*x3*x3 + y1*x2*x3*y3*y3 - y1*x2*x3 - y1*y2*x3*x3*y3 - y1*y2*y3*y3*y3 + y1*y2*y3) * (x2*x2 + y2*y2 - 1 - c*x2*x2*y2*y2)
        + (c*x1*x1*y1*x2*x2*y2*y3 - c*x1*x1*y1*x2*y2*y2*x3 - c*x1*y1*y1*x2*x2*y2*x3 - c*x1*y1*y1*x2*y2*y2*y3 + x1*x1*x1*x2*x2*x2*y3 + x1*x1*x1*x2*x2*y2*x3 + x1*x1*x1*x2*y2*y2*y3 - x1*x1*x1*x2*y3 + x1*x1*x1*y2*y2*y2*x3 - x1*x1*x1*y2*x3 + x1*x1*y1*x2*x2*x2*x3 - x1*x1*y1*x2*x2*y2*y3 + x1*x1*y1*x2*y2*y2*x3 - x1*x1*y1*x2*x3 - x1*x1*y1*y2*y2*y2*y3 + x1*x1*y1*y2*y3 + x1*y1*y1*x2*x2*x2*y3 + x1*y1*y1*x2*x2*y2*x3 + x1*y1*y1*x2*y2*y2*y3 - x1*y1*y1*x2*y3 + x1*y1*y1*y2*y2*y2*x3 - x1*y1*y1*y2*x3 - x1*x2*x2*x2*y3 - x1*x2*x2*y2*x3 - x1*x2*y2*y2*y3 + x1*x2*y3 - x1*y2*y2*y2*x3 + x1*y2*x3 + y1*y1*y1*x2*x2*x2*x3 - y1*y1*y1*x2*x2*y2*y3 + y1*y1*y1*x2*y2*y2*x3 - y1*y1*y1*x2*x3 - y1*y1*y1*y2*y2*y2*y3 + y1*y1*y1*y2*y3 - y1*x2*x2*x2*x3 + y1*x2*x2*y2*y3 - y1*x2*y2*y2*x3 + y1*x2*x3 + y1*y2*y2*y2*y3 - y1*y2*y3) * (x3*x3 + y3*y3 - 1 - c*x3*x3*y3*y3)) by ring.
      rewrite H1, H2, H3. ring.
  Qed.

  (** ** scalar multiplication *)

  Fixpoint smul (n : nat) (P : point) : point :=
    match n with 0%nat => O | S n => plus P (smul n P) end.
  Lemma on_smul n P : on P -> on (smul n P).
  Proof. intros H. induction n; cbn [smul]; [exact on_O|apply on_plus; assumption]. Qed.
  Lemma smul_add m n P : on P -> smul (m + n) P = plus (smul m P) (smul n P).
  Proof.
    intros H. induction m; cbn [smul Nat.add].
    - rewrite plus_comm, plus_O. reflexivity.
    - rewrite IHm, plus_assoc by (try apply on_smul; assumption). reflexivity.
  Qed.
  Lemma smul_mul m n P : on P -> smul (m * n) P = smul m (smul n P).
  Proof.
    intros H. induction m; cbn [smul Nat.mul]; [reflexivity|]. rewrite smul_add, IHm by exact H. reflexivity.
  Qed.
  Lemma smul_comm m n P : on P -> smul m (smul n P) = smul n (smul m P).
  Proof. intros H. rewrite <- !smul_mul by exact H. f_equal. apply Nat.mul_comm. Qed.

  (** ** the ladder: projective u-coordinates, u = (1 + y) / (1 - y) *)

  Definition u_of (P : point) : F := (1 + snd P) * inv (1 - snd P).
  Definition rep (X Z : F) (P : point) : Prop :=
    exists l, l <> 0 /\ X = l * (1 + snd P) /\ Z = l * (1 - snd P).

  Lemma rep_u X Z P : rep X Z P -> X * inv Z = u_of P.
  Proof.
    intros (l & L & -> & ->). unfold u_of. destruct (Fdec (1 - snd P) 0) as [E|E].
    - rewrite E. replace (l * 0) with 0 by ring. rewrite inv0. ring.
    - field. split; assumption.
  Qed.
  Lemma rep_intro X Z P : X * (1 - snd P) = Z * (1 + snd P) -> ~ (X = 0 /\ Z = 0) -> rep X Z P.
  Proof.
    intros H N. exists ((X + Z) / (1 + 1)).
    assert (EX : X = (X + Z) / (1 + 1) * (1 + snd P)).
    { apply sub_0. replace (X - _) with ((X * (1 - snd P) - Z * (1 + snd P)) / (1 + 1)) by (field; exact two_nz).
      rewrite H. field. exact two_nz. }
    assert (EZ : Z = (X + Z) / (1 + 1) * (1 - snd P)).
    { apply sub_0. replace (Z - _) with ((Z * (1 + snd P) - X * (1 - snd P)) / (1 + 1)) by (field; exact two_nz).
      rewrite H. field. exact two_nz. }
    split; [|split; assumption]. intros E. apply N. split; [rewrite EX|rewrite EZ]; rewrite E; ring.
  Qed.

  (** RFC 7748, the doubling and the differential addition of one ladder step *)
  Definition dbl (X Z : F) : F * F :=
    let AA := (X + Z) * (X + Z) in let BB := (X - Z) * (X - Z) in
    let E := AA - BB in (AA * BB, E * (AA + a24 * E)).
  Definition dadd (u X2 Z2 X3 Z3 : F) : F * F :=
    let DA := (X3 - Z3) * (X2 + Z2) in let CB := (X3 + Z3) * (X2 - Z2) in
    ((DA + CB) * (DA + CB), u * ((DA - CB) * (DA - CB))).

  Lemma nz4 l : l <> 0 -> (1+1)*(1+1)*(1+1)*(1+1)*(l*l*l*l) <> 0.
  Proof. intros H. repeat apply mul_nz; assumption. Qed.

  Lemma rep_dbl X Z P : on P -> rep X Z P -> rep (fst (dbl X Z)) (snd (dbl X Z)) (plus P P).
  Proof.
    intros HP (l & L & -> & ->). destruct (complete P P HP HP) as [_ B]. destruct P as [x y].
    unfold on in HP. unfold kk in B. cbn [fst snd] in *. cbv beta iota zeta delta [dbl fst snd].
    set (m := (1+1)*(1+1)*(1+1)*(1+1)*(l*l*l*l)). assert (M : m <> 0) by (apply nz4; exact L).
    apply rep_intro.
    - unfold plus, kk. cbn [fst snd]. set (B0 := 1 - c * x * x * y * y) in *.
      assert (ET : y * y * (1 - c) = (1 - c * y * y) * (1 - x * x)).
      { apply sub_0. replace (_ - _) with (x * x + y * y - 1 - c * x * x * y * y) by ring. exact HP. }
      assert (E24 : (1 - c) * (1 + a24 * (1 - y * y)) = 1 - c * y * y).
      { replace ((1 - c) * (1 + a24 * (1 - y * y))) with (1 - c + a24 * (1 - c) * (1 - y * y)) by ring. rewrite a24_def. ring. }
      assert (K1 : B0 - (y * y - x * x) = (1 + 1) * (1 - y * y)).
      { apply sub_0. replace (_ - _) with (x * x + y * y - 1 - c * x * x * y * y) by (unfold B0; ring). exact HP. }
      assert (K2 : B0 + (y * y - x * x) = (1 + 1) * (1 - x * x)).
      { apply sub_0. replace (_ - _) with (x * x + y * y - 1 - c * x * x * y * y) by (unfold B0; ring). exact HP. }
      assert (G : y * y = (1 + a24 * (1 - y * y)) * (1 - x * x)).
      { apply sub_0. assert (T : (1 - c) * (y * y - (1 + a24 * (1 - y * y)) * (1 - x * x)) = 0).
        { transitivity (y * y * (1 - c) - (1 - c) * (1 + a24 * (1 - y * y)) * (1 - x * x)); [ring|]. rewrite E24, ET. ring. }
        apply integral in T. destruct T as [T|T]; [destruct (c_not_1 T)|exact T]. }
      replace (1 - (y * y - x * x) / B0) with ((B0 - (y * y - x * x)) / B0) by (field; exact B).
      replace (1 + (y * y - x * x) / B0) with ((B0 + (y * y - x * x)) / B0) by (field; exact B).
      rewrite K1, K2.
      transitivity (m * ((1 + 1) * (1 - y * y) / B0) * (y * y)); [unfold m; field; exact B|].
      transitivity (m * ((1 + 1) * (1 - y * y) / B0) * ((1 + a24 * (1 - y * y)) * (1 - x * x))); [f_equal; exact G|].
      unfold m. field. exact B.
    - intros [Z1 Z2]. apply M.
      assert (Y : y = 0).
      { replace (_ * _ * (_ * _)) with (m * (y * y)) in Z1 by (unfold m; ring). apply integral in Z1. destruct Z1 as [Z1|Z1]; [contradiction|].
        apply integral in Z1. tauto. }
      rewrite Y in Z2.
      assert (ZZ : m * (1 + a24) = 0) by (rewrite <- Z2; unfold m; ring).
      apply integral in ZZ. destruct ZZ as [ZZ|ZZ]; [exact ZZ|]. exfalso. apply one_nz.
      replace 1 with ((1 + a24) * (1 - c) + (c - a24 * (1 - c))) by ring. rewrite a24_def, ZZ. ring.
  Qed.

  Lemma rep_dadd u X2 Z2 X3 Z3 P Q D : on P -> on Q -> on D -> Q = plus P D ->
    u * (1 - snd D) = 1 + snd D -> 1 - snd D <> 0 -> 1 + snd D <> 0 ->
    rep X2 Z2 P -> rep X3 Z3 Q -> rep (fst (dadd u X2 Z2 X3 Z3)) (snd (dadd u X2 Z2 X3 Z3)) (plus P Q).
  Proof.
    intros HP HQ HD EQ Hu D1 D2 (l & L & -> & ->) (m & M & -> & ->).
    assert (ED : D = plus Q (neg P)).
    { rewrite EQ, (plus_comm P D), plus_assoc, plus_neg, plus_O by (try apply on_neg; assumption). reflexivity. }
    destruct (complete P Q HP HQ) as [A B].
    destruct P as [x1 y1], Q as [x2 y2]. unfold on in HP, HQ. clear EQ.
    assert (Ey : snd D = (y1 * y2 + x1 * x2) / (1 + c * x1 * x2 * y1 * y2)).
    { rewrite ED. unfold plus, neg, kk. cbn [fst snd] in *. unfold kk in A. cbn [fst snd] in A.
      replace (1 - c * x2 * - x1 * y2 * y1) with (1 + c * x1 * x2 * y1 * y2) by ring. f_equal. ring. }
    set (w := snd D) in *. clearbody w. clear D ED HD.
    unfold plus, kk in *. cbn [fst snd] in *. set (k := c * x1 * x2 * y1 * y2) in *.
    cbv beta iota zeta delta [dadd fst snd].
    set (n := (1 + 1) * (1 + 1) * (l * m)). assert (Nn : n <> 0) by (unfold n; repeat apply mul_nz; assumption).
    replace ((m * (1 + y2) - m * (1 - y2)) * (l * (1 + y1) + l * (1 - y1)) + (m * (1 + y2) + m * (1 - y2)) * (l * (1 + y1) - l * (1 - y1)))
      with (n * (y1 + y2)) by (unfold n; ring).
    replace ((m * (1 + y2) - m * (1 - y2)) * (l * (1 + y1) + l * (1 - y1)) - (m * (1 + y2) + m * (1 - y2)) * (l * (1 + y1) - l * (1 - y1)))
      with (n * (y2 - y1)) by (unfold n; ring).
    assert (Eu : u = (1 + w) / (1 - w)).
    { replace u with (u * (1 - w) / (1 - w)) by (field; exact D1). rewrite Hu. reflexivity. }
    assert (ID : (1 - k + y1*y2 - x1*x2) * (1 + k + y1*y2 + x1*x2) * ((y2 - y1) * (y2 - y1)) =
                 (1 - k - y1*y2 + x1*x2) * (1 + k - y1*y2 - x1*x2) * ((y1 + y2) * (y1 + y2))).
    { apply sub_0. replace (_ - _) with ((- (1+1+1+1)*c*y1*x2*x2*y2*y2*y2 + (1+1+1+1)*y1*x2*x2*y2) * (x1*x1 + y1*y1 - 1 - c*x1*x1*y1*y1) + (- (1+1+1+1)*y1*y1*y1*y2 + (1+1+1+1)*y1*y2) * (x2*x2 + y2*y2 - 1 - c*x2*x2*y2*y2)) by (unfold k; ring).
      rewrite HP, HQ. ring. }
    apply rep_intro; cbn [snd].
    - assert (W1 : (1 + w) * (1 + k) = 1 + k + y1*y2 + x1*x2) by (rewrite Ey; field; exact A).
      assert (W2 : (1 - w) * (1 + k) = 1 + k - y1*y2 - x1*x2) by (rewrite Ey; field; exact A).
      rewrite <- W1, <- W2 in ID. rewrite Eu.
      assert (ID2 : (1 - k + y1*y2 - x1*x2) * (1 + w) * ((y2 - y1) * (y2 - y1)) = (1 - k - y1*y2 + x1*x2) * (1 - w) * ((y1 + y2) * (y1 + y2))).
      { apply sub_0. apply (f_equal (fun z => z / (1 + k))) in ID.
        replace (_ - _) with ((1 - k + y1*y2 - x1*x2) * ((1 + w) * (1 + k)) * ((y2 - y1) * (y2 - y1)) / (1 + k)
                            - (1 - k - y1*y2 + x1*x2) * ((1 - w) * (1 + k)) * ((y1 + y2) * (y1 + y2)) / (1 + k)) by (field; exact A).
        rewrite ID. ring. }
      replace (1 - (y1 * y2 - x1 * x2) / (1 - k)) with ((1 - k - y1*y2 + x1*x2) / (1 - k)) by (field; exact B).
      replace (1 + (y1 * y2 - x1 * x2) / (1 - k)) with ((1 - k + y1*y2 - x1*x2) / (1 - k)) by (field; exact B).
      replace (n * (y1 + y2) * (n * (y1 + y2)) * ((1 - k - y1*y2 + x1*x2) / (1 - k)))
        with (n * n * ((1 - k - y1*y2 + x1*x2) * (1 - w) * ((y1 + y2) * (y1 + y2))) / ((1 - k) * (1 - w))) by (field; split; assumption).
      rewrite <- ID2. field. split; assumption.
    - intros [Z1 Z2]. apply integral in Z1. assert (S1 : y1 + y2 = 0) by (destruct Z1 as [Z1|Z1]; apply integral in Z1; tauto).
      assert (S2 : y2 - y1 = 0).
      { apply integral in Z2. destruct Z2 as [Z2|Z2].
        - exfalso. apply D2. rewrite <- Hu, Z2. ring.
        - apply integral in Z2. destruct Z2 as [Z2|Z2]; apply integral in Z2; tauto. }
      assert (Y2 : y2 = 0).
      { assert (T : (1 + 1) * y2 = 0) by (replace ((1 + 1) * y2) with ((y1 + y2) + (y2 - y1)) by ring; rewrite S1, S2; ring).
        apply integral in T. tauto. }
      assert (Y1 : y1 = 0) by (rewrite Y2 in S1; rewrite <- S1; ring).
      (* both points have y = 0, so x1^2 = x2^2 = 1 and w = x1 x2 = 1 or -1 *)
      assert (X1 : x1 * x1 = 1) by (rewrite Y1 in HP; apply sub_0; rewrite <- HP; ring).
      assert (X2 : x2 * x2 = 1) by (rewrite Y2 in HQ; apply sub_0; rewrite <- HQ; ring).
      assert (W : w = x1 * x2).
      { rewrite Ey. assert (K : k = 0) by (unfold k; rewrite Y1; ring). rewrite K, Y1. field. replace (1 + 0) with 1 by ring. exact one_nz. }
      assert (WW : (1 - w) * (1 + w) = 0) by (replace ((1 - w) * (1 + w)) with (1 - (x1 * x1) * (x2 * x2)) by (rewrite W; ring); rewrite X1, X2; ring).
      apply integral in WW. tauto.
  Qed.

  (** ** one iteration, with the postponed swap *)

  Definition lstep (u : F) (kt : bool) (st : F * F * F * F * bool) : F * F * F * F * bool :=
    let '(X2, Z2, X3, Z3, swap) := st in
    let sw := xorb swap kt in
    let '(X2, X3) := if sw then (X3, X2) else (X2, X3) in
    let '(Z2, Z3) := if sw then (Z3, Z2) else (Z2, Z3) in
    (fst (dbl X2 Z2), snd (dbl X2 Z2), fst (dadd u X2 Z2 X3 Z3), snd (dadd u X2 Z2 X3 Z3), kt).
  Definition holds (P : point) (n : nat) (st : F * F * F * F * bool) : Prop :=
    let '(X2, Z2, X3, Z3, swap) := st in
    if swap : bool then rep X3 Z3 (smul n P) /\ rep X2 Z2 (smul (S n) P)
    else rep X2 Z2 (smul n P) /\ rep X3 Z3 (smul (S n) P).

  Lemma smul_1 P : smul 1 P = P.
  Proof. cbn [smul]. apply plus_O. Qed.
  Lemma u_of_eq P : 1 - snd P <> 0 -> u_of P * (1 - snd P) = 1 + snd P.
  Proof. intros H. unfold u_of. field. exact H. Qed.

  Lemma lstep_holds P n kt st : on P -> 1 - snd P <> 0 -> 1 + snd P <> 0 -> holds P n st ->
    holds P ((if kt : bool then 1 else 0) + 2 * n) (lstep (u_of P) kt st).
  Proof.
    intros HP N1 N2. pose proof (u_of_eq P N1) as Hu.
    assert (K : forall X2 Z2 X3 Z3, rep X2 Z2 (smul n P) -> rep X3 Z3 (smul (S n) P) ->
      rep (fst (dbl X2 Z2)) (snd (dbl X2 Z2)) (smul (2 * n) P) /\
      rep (fst (dbl X3 Z3)) (snd (dbl X3 Z3)) (smul (S (1 + 2 * n)) P) /\
      rep (fst (dadd (u_of P) X2 Z2 X3 Z3)) (snd (dadd (u_of P) X2 Z2 X3 Z3)) (smul (1 + 2 * n) P) /\
      rep (fst (dadd (u_of P) X3 Z3 X2 Z2)) (snd (dadd (u_of P) X3 Z3 X2 Z2)) (smul (1 + 2 * n) P)).
    { intros X2 Z2 X3 Z3 R0 R1.
      replace (2 * n)%nat with (n + n)%nat by lia.
      replace (S (1 + (n + n)))%nat with (S n + S n)%nat by lia.
      rewrite (smul_add n n P HP), (smul_add (S n) (S n) P HP).
      replace (1 + (n + n))%nat with (n + S n)%nat by lia.
      split; [apply rep_dbl; [apply on_smul; exact HP|exact R0]|].
      split; [apply rep_dbl; [apply on_smul; exact HP|exact R1]|].
      split.
      - rewrite (smul_add n (S n) P HP).
        apply (rep_dadd (u_of P) X2 Z2 X3 Z3 (smul n P) (smul (S n) P) P);
          [apply on_smul; exact HP|apply on_smul; exact HP|exact HP| |exact Hu|exact N1|exact N2|exact R0|exact R1].
        cbn [smul]. apply plus_comm.
      - rewrite (smul_add n (S n) P HP), plus_comm.
        apply (rep_dadd (u_of P) X3 Z3 X2 Z2 (smul (S n) P) (smul n P) (neg P));
          [apply on_smul; exact HP|apply on_smul; exact HP|apply on_neg; exact HP| | | | |exact R1|exact R0].
        + cbn [smul]. rewrite (plus_comm P (smul n P)), plus_assoc, plus_neg, plus_O by (try apply on_smul; try apply on_neg; exact HP). reflexivity.
        + destruct P; exact Hu.
        + destruct P; exact N1.
        + destruct P; exact N2. }
    destruct st as [[[[X2 Z2] X3] Z3] swap]. unfold holds, lstep.
    destruct swap, kt; cbn [xorb]; intros [R0 R1]; destruct (K _ _ _ _ R0 R1) as (K1 & K2 & K3 & K4); split; assumption.
  Qed.

  Lemma start_holds P : 1 - snd P <> 0 -> holds P 0 (1, 0, u_of P, 1, false).
  Proof.
    intros H. unfold holds. rewrite smul_1. cbn [smul]. split.
    - exists (inv (1 + 1)). unfold O. cbn [snd]. split; [|split; field; exact two_nz].
      intros E. apply one_nz. replace 1 with ((1 + 1) * inv (1 + 1)) by (field; exact two_nz). rewrite E. ring.
    - exists (inv (1 - snd P)). unfold u_of. split; [|split; field; exact H].
      intros E. apply one_nz. replace 1 with ((1 - snd P) * inv (1 - snd P)) by (field; exact H). rewrite E. ring.
  Qed.

  (** ** the points with u = 0 or u infinite *)

  Definition degenerate (st : F * F * F * F * bool) : Prop :=
    let '(X2, Z2, X3, Z3, _) := st in X2 * Z2 = 0 /\ X3 * Z3 = 0.
  Lemma lstep_degenerate kt st : degenerate st -> degenerate (lstep 0 kt st).
  Proof.
    destruct st as [[[[X2 Z2] X3] Z3] swap]. unfold degenerate, lstep. intros [A B].
    assert (K : forall X Z, X * Z = 0 -> snd (dbl X Z) = 0).
    { intros X Z H. unfold dbl. cbn [snd].
      replace ((X + Z) * (X + Z) - (X - Z) * (X - Z)) with ((1 + 1) * (1 + 1) * (X * Z)) by ring. rewrite H. ring. }
    assert (K' : forall X2 Z2 X3 Z3, snd (dadd 0 X2 Z2 X3 Z3) = 0) by (intros; unfold dadd; cbn [snd]; ring).
    destruct (xorb swap kt); cbv iota beta; rewrite K, K' by assumption; split; ring.
  Qed.
  Lemma degenerate_u X Z : X * Z = 0 -> X * inv Z = 0.
  Proof. intros H. apply integral in H. destruct H as [-> | ->]; [ring|rewrite inv0; ring]. Qed.

  Lemma u_of_0 P : u_of P = 0 <-> snd P * snd P = 1.
  Proof.
    unfold u_of. split.
    - intros H. apply sub_0. apply integral in H. destruct H as [H|H].
      + replace (snd P * snd P - 1) with ((snd P - 1) * (1 + snd P)) by ring. rewrite H. ring.
      + destruct (Fdec (1 - snd P) 0) as [E|E].
        * replace (snd P * snd P - 1) with (- ((1 - snd P) * (1 + snd P))) by ring. rewrite E. ring.
        * exfalso. apply one_nz. replace 1 with ((1 - snd P) * inv (1 - snd P)) by (field; exact E). rewrite H. ring.
    - intros H. destruct (Fdec (1 - snd P) 0) as [E|E]; [rewrite E, inv0; ring|].
      assert (T : (1 - snd P) * (1 + snd P) = 0) by (replace ((1 - snd P) * (1 + snd P)) with (1 - snd P * snd P) by ring; rewrite H; ring).
      apply integral in T. destruct T as [T|T]; [contradiction|]. rewrite T. ring.
  Qed.
  Lemma y_square_1 P : on P -> snd P * snd P = 1 -> fst P = 0.
  Proof.
    destruct P as [x y]. unfold on. cbn [fst snd]. intros H E.
    assert (T : (1 - c) * (x * x) = 0).
    { transitivity (x * x + y * y - 1 - c * x * x * y * y + (c * x * x - 1) * (y * y - 1)); [ring|]. rewrite H, E. ring. }
    apply integral in T. destruct T as [T|T]; [destruct (c_not_1 T)|]. apply integral in T. tauto.
  Qed.
  Lemma smul_degenerate n P : on P -> u_of P = 0 -> u_of (smul n P) = 0.
  Proof.
    intros H E. apply u_of_0 in E. pose proof (y_square_1 P H E) as X. apply u_of_0.
    induction n; cbn [smul]; [unfold O; cbn [snd]; ring|].
    pose proof (y_square_1 (smul n P) (on_smul n P H) IHn) as X'.
    unfold plus, kk. cbn [snd]. rewrite X, X'.
    replace (1 - c * 0 * 0 * snd P * snd (smul n P)) with 1 by ring.
    transitivity ((snd P * snd P) * (snd (smul n P) * snd (smul n P))); [field; exact one_nz|]. rewrite E, IHn. ring.
  Qed.
End Edwards.

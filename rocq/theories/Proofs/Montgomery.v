(** Montgomery curves B v^2 = u^3 + A u^2 + u with the chord-and-tangent group law, and the
    map to the Edwards curve x^2 + y^2 = 1 + c x^2 y^2 of Edwards.v, which is a homomorphism.
    The certificates of the polynomial identities were found by polynomial division; [ring]
    checks them. *)
From Coq Require Import List Arith Lia Field Bool.
From Verif.Proofs Require Import Edwards.
Import ListNotations.

Section Montgomery.
  Variable F : Type.
  Variables (zero one : F) (add mul sub : F -> F -> F) (opp : F -> F) (div : F -> F -> F) (inv : F -> F).
  Hypothesis Fth : field_theory zero one add mul sub opp div inv (@eq F).
  Hypothesis Fdec : forall x y : F, {x = y} + {x <> y}.
  Hypothesis inv0 : inv zero = zero.

  Declare Scope F_scope.
  Delimit Scope F_scope with F.
  Notation "0" := zero : F_scope.
  Notation "1" := one : F_scope.
  Infix "+" := add : F_scope.
  Infix "*" := mul : F_scope.
  Infix "-" := sub : F_scope.
  Infix "/" := div : F_scope.
  Notation "- x" := (opp x) : F_scope.
  Local Open Scope F_scope.
  Add Field F_field : Fth.

  Hypothesis two_nz : 1 + 1 <> 0.
  Variable c : F.
  Hypothesis c_nonsquare : forall x, x * x <> c.
  Variables A B s : F.
  Hypothesis B_nz : B <> 0.
  Hypothesis s_def : B * s * s = A + (1 + 1).
  Hypothesis c_def : c * (A + (1 + 1)) = A - (1 + 1).

  Notation point := (point F).
  Notation on := (on F zero one add mul sub c).
  Notation O := (O F zero one).
  Notation neg := (neg F opp).
  Notation kk := (kk F mul c).
  Notation plus := (plus F one add mul sub div c).
  Notation smul := (smul F zero one add mul sub div c).
  Notation u_of := (u_of F one add mul sub inv).

  Let complete := complete F zero one add mul sub opp div inv Fth Fdec two_nz c c_nonsquare.
  Let on_plus := on_plus F zero one add mul sub opp div inv Fth Fdec two_nz c c_nonsquare.
  Let plus_O := plus_O F zero one add mul sub opp div inv Fth c.
  Let plus_comm := plus_comm F zero one add mul sub opp div inv Fth c.
  Let plus_neg := plus_neg F zero one add mul sub opp div inv Fth Fdec two_nz c c_nonsquare.
  Let plus_assoc := plus_assoc F zero one add mul sub opp div inv Fth Fdec two_nz c c_nonsquare.
  Let integral := integral F zero one add mul sub opp div inv Fth Fdec.
  Let mul_nz := mul_nz F zero one add mul sub opp div inv Fth Fdec.
  Let sub_0 := sub_0 F zero one add mul sub opp div inv Fth.
  Let one_nz := one_nz F zero one add mul sub opp div inv Fth.
  Let y_square_1 := y_square_1 F zero one add mul sub opp div inv Fth Fdec c c_nonsquare.

  (** ** the curve and its group law *)

  Inductive mpoint : Type := Inf | Aff (u v : F).
  Definition mon (P : mpoint) : Prop :=
    match P with Inf => True | Aff u v => B * v * v = u * u * u + A * u * u + u end.
  Definition chord (l u1 v1 u2 : F) : mpoint :=
    let u3 := B * l * l - A - u1 - u2 in Aff u3 (l * (u1 - u3) - v1).
  Definition mplus (P Q : mpoint) : mpoint :=
    match P, Q with
    | Inf, _ => Q
    | _, Inf => P
    | Aff u1 v1, Aff u2 v2 =>
        if Fdec u1 u2 then
          if Fdec (v1 + v2) 0 then Inf
          else chord (((1+1+1) * u1 * u1 + (1+1) * A * u1 + 1) / ((1+1) * B * v1)) u1 v1 u1
        else chord ((v1 - v2) / (u1 - u2)) u1 v1 u2
    end.
  Fixpoint msmul (n : nat) (P : mpoint) : mpoint :=
    match n with 0%nat => Inf | S n => mplus P (msmul n P) end.
  Definition mu (P : mpoint) : F := match P with Inf => 0 | Aff u _ => u end.

  (** ** the map *)

  Definition phi (P : mpoint) : point :=
    match P with
    | Inf => O
    | Aff u v => if Fdec u 0 then (0, - (1)) else (s * u / v, (u - 1) / (u + 1))
    end.

  Lemma s_nz : s <> 0.
  Proof.
    intros E. assert (A2 : A + (1 + 1) = 0) by (rewrite <- s_def, E; ring).
    assert (A2' : A - (1 + 1) = 0) by (rewrite <- c_def, A2; ring).
    apply (mul_nz (1 + 1) (1 + 1)); try exact two_nz.
    replace ((1 + 1) * (1 + 1)) with ((A + (1 + 1)) - (A - (1 + 1))) by ring. rewrite A2, A2'. ring.
  Qed.
  Lemma c_square a b : a * a = c * (b * b) -> b = 0.
  Proof.
    intros H. destruct (Fdec b 0) as [E|E]; [exact E|]. exfalso. apply (c_nonsquare (a / b)).
    replace (a / b * (a / b)) with (a * a / (b * b)) by (field; exact E). rewrite H. field. exact E.
  Qed.
  Lemma u_not_minus_1 u v : mon (Aff u v) -> u + 1 <> 0.
  Proof.
    intros H E. cbn [mon] in H.
    assert (U : u = - (1)) by (apply sub_0; rewrite <- E; ring). rewrite U in H.
    apply s_nz. apply (c_square v). apply sub_0.
    assert (T : B * (v * v - c * (s * s)) = 0).
    { transitivity (B * v * v - c * (B * s * s)); [ring|]. rewrite s_def, c_def, H. ring. }
    apply integral in T. destruct T as [T|T]; [contradiction|exact T].
  Qed.
  Lemma v_nz u v : mon (Aff u v) -> u <> 0 -> v <> 0.
  Proof.
    intros H N E. cbn [mon] in H. rewrite E in H.
    assert (T : u * (u * u + A * u + 1) = 0).
    { transitivity (u * u * u + A * u * u + u); [ring|]. rewrite <- H. ring. }
    apply integral in T. destruct T as [T|T]; [contradiction|].
    assert (W : (u + 1) * (u + 1) = c * ((u - 1) * (u - 1))).
    { assert (T2 : (A + (1 + 1)) * ((u + 1) * (u + 1) - c * ((u - 1) * (u - 1))) = 0).
      { transitivity ((A + (1 + 1)) * ((u + 1) * (u + 1)) - c * (A + (1 + 1)) * ((u - 1) * (u - 1))); [ring|].
        rewrite c_def. transitivity ((1+1+1+1) * (u * u + A * u + 1)); [ring|]. rewrite T. ring. }
      apply integral in T2. destruct T2 as [T2|T2]; [|apply sub_0; exact T2].
      exfalso. apply s_nz. rewrite <- s_def in T2. apply integral in T2. destruct T2 as [T2|T2]; [|exact T2].
      apply integral in T2. destruct T2 as [T2|T2]; [contradiction|exact T2]. }
    pose proof (c_square _ _ W) as U. rewrite U in W. apply sub_0 in U. rewrite U in W.
    apply (mul_nz (1 + 1) (1 + 1) two_nz two_nz). rewrite W. ring.
  Qed.
  Lemma v_of_0 v : mon (Aff 0 v) -> v = 0.
  Proof.
    cbn [mon]. intros H. assert (T : B * (v * v) = 0) by (transitivity (B * v * v); [ring|]; rewrite H; ring).
    apply integral in T. destruct T as [T|T]; [contradiction|]. apply integral in T. tauto.
  Qed.

  Lemma on_phi P : mon P -> on (phi P).
  Proof.
    destruct P as [|u v]; [intros _; unfold phi, Edwards.on, Edwards.O; ring|]. intros H. unfold phi.
    destruct (Fdec u 0) as [E|E]; [unfold Edwards.on; ring|].
    pose proof (u_not_minus_1 u v H) as U. pose proof (v_nz u v H E) as V. unfold Edwards.on. cbn [mon] in H.
    assert (T : B * v * v * (s * u / v * (s * u / v) + (u - 1) / (u + 1) * ((u - 1) / (u + 1)) - 1
                - c * (s * u / v) * (s * u / v) * ((u - 1) / (u + 1)) * ((u - 1) / (u + 1))) = 0).
    { transitivity ((B * s * s * u * u * (u + 1) * (u + 1) - (1+1+1+1) * u * (B * v * v) - c * (B * s * s) * u * u * (u - 1) * (u - 1)) / ((u + 1) * (u + 1)));
        [field; split; assumption|].
      rewrite s_def, c_def, H. field. exact U. }
    apply integral in T. destruct T as [T|T]; [|exact T]. exfalso. revert T. repeat apply mul_nz; assumption.
  Qed.
  Lemma u_phi P : mon P -> u_of (phi P) = mu P.
  Proof.
    destruct P as [|u v]; intros H; unfold phi, Edwards.u_of, mu, Edwards.O.
    - cbn [snd]. replace (1 - 1) with 0 by ring. rewrite inv0. ring.
    - pose proof (u_not_minus_1 u v H) as U. destruct (Fdec u 0) as [E|E]; cbn [snd]; [rewrite E; ring|].
      replace (1 + (u - 1) / (u + 1)) with ((1 + 1) * u / (u + 1)) by (field; exact U).
      replace (1 - (u - 1) / (u + 1)) with ((1 + 1) / (u + 1)) by (field; exact U).
      field. repeat split; try assumption.
  Qed.

  (** a point of the Edwards curve is the image of (u, v) if the coordinates fit *)
  Lemma phi_intro R u v : on R -> mon (Aff u v) ->
    1 + snd R = u * (1 - snd R) -> fst R * v = s * u -> phi (Aff u v) = R.
  Proof.
    intros HR H H1 H2. pose proof (u_not_minus_1 u v H) as U. unfold phi. destruct R as [x y]. cbn [fst snd] in *.
    assert (Y : y = (u - 1) / (u + 1)).
    { apply sub_0. transitivity (((1 + y) - u * (1 - y)) / (u + 1)); [field; exact U|]. rewrite H1. field. exact U. }
    destruct (Fdec u 0) as [E|E].
    - assert (Y1 : y = - (1)) by (rewrite Y, E; field; replace (0 + 1) with 1 by ring; exact one_nz).
      assert (X : x = 0) by (apply (y_square_1 (x, y) HR); cbn [snd]; rewrite Y1; ring).
      rewrite X, Y1. reflexivity.
    - pose proof (v_nz u v H E) as V. f_equal; [|symmetry; exact Y].
      rewrite <- H2. field. exact V.
  Qed.

  (** ** two different u-coordinates *)

  Lemma phi_chord u1 v1 u2 v2 : mon (Aff u1 v1) -> mon (Aff u2 v2) -> u1 <> u2 -> u1 <> 0 -> u2 <> 0 ->
    mon (mplus (Aff u1 v1) (Aff u2 v2)) /\ phi (mplus (Aff u1 v1) (Aff u2 v2)) = plus (phi (Aff u1 v1)) (phi (Aff u2 v2)).
  Proof.
    intros H1 H2 N N1 N2.
    pose proof (on_phi _ H1) as O1. pose proof (on_phi _ H2) as O2.
    pose proof (on_plus _ _ O1 O2) as O3. destruct (complete _ _ O1 O2) as [C1 C2].
    pose proof (u_not_minus_1 u1 v1 H1) as U1. pose proof (v_nz u1 v1 H1 N1) as V1.
    pose proof (u_not_minus_1 u2 v2 H2) as U2. pose proof (v_nz u2 v2 H2 N2) as V2.
    cbn [mplus]. destruct (Fdec u1 u2) as [E|_]; [contradiction|].
    assert (D : u1 - u2 <> 0) by (intros E; apply N; apply sub_0; exact E).
    unfold chord. cbv zeta. set (l := (v1 - v2) / (u1 - u2)). set (u3 := B * l * l - A - u1 - u2). set (v3 := l * (u1 - u3) - v1).
    assert (Z1 : B*v1*v1 - (u1*u1*u1 + A*u1*u1 + u1) = 0) by (cbn [mon] in H1; rewrite H1; ring).
    assert (Z2 : B*v2*v2 - (u2*u2*u2 + A*u2*u2 + u2) = 0) by (cbn [mon] in H2; rewrite H2; ring).
    set (d := u1 - u2) in *. set (nn := B*(v1 - v2)*(v1 - v2) - (A + u1 + u2)*d*d).
    set (vv := (v1 - v2)*(u1*d*d - nn) - v1*d*d*d).
    assert (EU : u3 = nn / (d*d)) by (unfold u3, l, nn; field; exact D).
    assert (EV : v3 = vv / (d*d*d)) by (unfold v3, vv, l; rewrite EU; field; exact D).
    assert (H3 : mon (Aff u3 v3)).
    { cbn [mon]. apply sub_0. rewrite EU, EV.
      transitivity ((B*vv*vv - nn*nn*nn - A*nn*nn*d*d - nn*d*d*d*d) / (d*d*d*d*d*d)); [field; exact D|].
      replace (B*vv*vv - nn*nn*nn - A*nn*nn*d*d - nn*d*d*d*d) with ((- A*u1*u1*u1*u1*u1 + (1+1+1+1+1)*A*u1*u1*u1*u1*u2 - (1+1+1+1+1+1+1+1+1)*A*u1*u1*u1*u2*u2 + (1+1+1+1+1+1+1)*A*u1*u1*u2*u2*u2 - (1+1)*A*u1*u2*u2*u2*u2 + B*u1*u1*u1*v1*v1 - (1+1)*B*u1*u1*u1*v1*v2 - (1+1+1)*B*u1*u1*v1*v1*u2 + (1+1+1+1+1+1)*B*u1*u1*v1*u2*v2 + (1+1+1)*B*u1*v1*v1*u2*u2 - (1+1+1+1+1+1)*B*u1*v1*u2*u2*v2 - B*v1*v1*u2*u2*u2 + (1+1)*B*v1*u2*u2*u2*v2 - u1*u1*u1*u1*u1*u1 + (1+1+1)*u1*u1*u1*u1*u1*u2 - (1+1+1+1+1+1+1+1+1)*u1*u1*u1*u2*u2*u2 + u1*u1*u1*u2 + (1+1+1+1+1+1+1+1+1+1+1+1)*u1*u1*u2*u2*u2*u2 - (1+1+1)*u1*u1*u2*u2 - (1+1+1+1+1+1)*u1*u2*u2*u2*u2*u2 + (1+1+1)*u1*u2*u2*u2 + u2*u2*u2*u2*u2*u2 - u2*u2*u2*u2) * (B*v1*v1 - (u1*u1*u1 + A*u1*u1 + u1)) + (- (1+1)*A*u1*u1*u1*u1*u2 + (1+1+1+1+1+1+1)*A*u1*u1*u1*u2*u2 - (1+1+1+1+1+1+1+1+1)*A*u1*u1*u2*u2*u2 + (1+1+1+1+1)*A*u1*u2*u2*u2*u2 - A*u2*u2*u2*u2*u2 + (1+1)*B*u1*u1*u1*v1*v2 - B*u1*u1*u1*v2*v2 - (1+1+1+1+1+1)*B*u1*u1*v1*u2*v2 + (1+1+1)*B*u1*u1*u2*v2*v2 + (1+1+1+1+1+1)*B*u1*v1*u2*u2*v2 - (1+1+1)*B*u1*u2*u2*v2*v2 - (1+1)*B*v1*u2*u2*u2*v2 + B*u2*u2*u2*v2*v2 + u1*u1*u1*u1*u1*u1 - (1+1+1+1+1+1)*u1*u1*u1*u1*u1*u2 + (1+1+1+1+1+1+1+1+1+1+1+1)*u1*u1*u1*u1*u2*u2 - u1*u1*u1*u1 - (1+1+1+1+1+1+1+1+1)*u1*u1*u1*u2*u2*u2 + (1+1+1)*u1*u1*u1*u2 - (1+1+1)*u1*u1*u2*u2 + (1+1+1)*u1*u2*u2*u2*u2*u2 + u1*u2*u2*u2 - u2*u2*u2*u2*u2*u2) * (B*v2*v2 - (u2*u2*u2 + A*u2*u2 + u2))) by (unfold vv, nn, d; ring).
      rewrite Z1, Z2. field. exact D. }
    split; [exact H3|].
    unfold phi in C1, C2. fold (phi (Aff u3 v3)). 
    set (m := B*v1*v2*(u1+1)*(u2+1)). set (k := (A - (1+1))*u1*u2*(u1-1)*(u2-1)).
    assert (M : m <> 0) by (unfold m; repeat apply mul_nz; assumption).
    assert (EK : kk (phi (Aff u1 v1)) (phi (Aff u2 v2)) = k / m).
    { unfold Edwards.kk, phi. destruct (Fdec u1 0); [contradiction|]. destruct (Fdec u2 0); [contradiction|]. cbn [fst snd].
      unfold k. rewrite <- c_def, <- s_def. unfold m. field. repeat split; assumption. }
    fold (phi (Aff u1 v1)) in C1, C2. fold (phi (Aff u2 v2)) in C1, C2. rewrite EK in C1, C2.
    assert (P1 : m + k <> 0).
    { intros Z. apply C1. transitivity ((m + k) / m); [field; exact M|]. rewrite Z. field. exact M. }
    assert (P2 : m - k <> 0).
    { intros Z. apply C2. transitivity ((m - k) / m); [field; exact M|]. rewrite Z. field. exact M. }
    set (yn := B*v1*v2*(u1-1)*(u2-1) - (A + (1+1))*u1*u2*(u1+1)*(u2+1)).
    set (xn := B*(u1*v2*(u1+1)*(u2-1) + u2*v1*(u1-1)*(u2+1))).
    assert (ER : plus (phi (Aff u1 v1)) (phi (Aff u2 v2)) = (s * xn / (m + k), yn / (m - k))).
    { unfold Edwards.plus. rewrite EK. unfold phi. destruct (Fdec u1 0); [contradiction|]. destruct (Fdec u2 0); [contradiction|]. cbn [fst snd].
      assert (M' := M). unfold m in M'. f_equal.
      - transitivity (s * xn / m / (1 + k / m)); [|field; repeat split; assumption].
        f_equal. unfold xn, m. field. repeat split; assumption.
      - transitivity (yn / m / (1 - k / m)); [|field; repeat split; assumption].
        f_equal. unfold yn. rewrite <- s_def. unfold m. field. repeat split; assumption. }
    apply phi_intro; [exact O3|exact H3| |]; rewrite ER; cbn [fst snd].
    - apply sub_0. rewrite EU.
      transitivity (((m - k + yn)*d*d - nn*(m - k - yn)) / (d*d*(m - k))); [field; split; assumption|].
      replace ((m - k + yn)*d*d - nn*(m - k - yn)) with ((- (1+1)*A*u1*u1*u2 - (1+1)*A*u1*u2*u2 - (1+1)*B*u1*v1*v2 + (1+1+1+1)*B*u1*v2*v2 - (1+1)*B*v1*u2*v2 + (1+1+1+1)*B*u2*v2*v2 - (1+1+1+1)*u1*u1*u2*u2 - (1+1+1+1)*u1*u2) * (B*v1*v1 - (u1*u1*u1 + A*u1*u1 + u1)) + ((1+1+1+1)*A*u1*u1*u1 + (1+1)*A*u1*u1*u2 - (1+1)*A*u1*u2*u2 - (1+1)*B*u1*v1*v2 - (1+1)*B*v1*u2*v2 + (1+1+1+1)*u1*u1*u1*u1 + (1+1+1+1)*u1*u1*u1*u2 - (1+1+1+1)*u1*u1*u2*u2 + (1+1+1+1)*u1*u1) * (B*v2*v2 - (u2*u2*u2 + A*u2*u2 + u2))) by (unfold m, k, yn, nn, d; ring).
      rewrite Z1, Z2. field. split; assumption.
    - apply sub_0. rewrite EU, EV.
      transitivity (s*(xn*vv - nn*d*(m + k)) / (d*d*d*(m + k))); [field; split; assumption|].
      replace (xn*vv - nn*d*(m + k)) with ((- A*u1*u1*u1*u2*u2 + A*u1*u1*u1*u2 - A*u1*u1*u2*u2*u2 - (1+1)*A*u1*u1*u2*u2 - A*u1*u1*u2 + A*u1*u2*u2*u2*u2 + (1+1)*A*u1*u2*u2*u2 + (1+1+1)*A*u1*u2*u2 - A*u2*u2*u2*u2 - A*u2*u2*u2 - (1+1)*B*u1*u1*v1*u2*v2 + (1+1+1+1+1)*B*u1*u1*u2*v2*v2 - B*u1*u1*v2*v2 - B*u1*v1*v1*u2*u2 - B*u1*v1*v1*u2 + (1+1+1+1)*B*u1*v1*u2*u2*v2 + (1+1)*B*u1*v1*u2*v2 - (1+1+1+1+1)*B*u1*u2*u2*v2*v2 - B*u1*v2*v2 + B*v1*v1*u2*u2 + B*v1*v1*u2 - (1+1)*B*v1*u2*u2*v2 - (1+1)*B*v1*u2*v2 + B*u2*u2*v2*v2 + B*u2*v2*v2 + (1+1)*u1*u1*u1*u2*u2 - (1+1)*u1*u1*u1*u2 - (1+1+1)*u1*u1*u2*u2*u2*u2 - (1+1+1+1+1)*u1*u1*u2*u2*u2 - u1*u1*u2*u2 + u1*u1*u2 + (1+1)*u1*u2*u2*u2*u2*u2 + (1+1+1+1+1)*u1*u2*u2*u2*u2 + (1+1+1+1+1)*u1*u2*u2*u2 - u1*u2*u2 + u1*u2 - (1+1)*u2*u2*u2*u2*u2 - (1+1)*u2*u2*u2*u2) * (B*v1*v1 - (u1*u1*u1 + A*u1*u1 + u1)) + ((1+1+1+1)*A*u1*u1*u1*u1*u2 - (1+1+1+1)*A*u1*u1*u1*u2*u2 - (1+1)*A*u1*u1*u1*u2 + A*u1*u1*u2*u2*u2 + (1+1+1)*A*u1*u1*u2*u2 - (1+1)*A*u1*u1*u2 - A*u1*u2*u2*u2 + A*u1*u2*u2 - (1+1+1+1)*B*u1*u1*v1*u2*v2 + (1+1)*B*u1*u1*v1*v2 + B*u1*u1*u2*v2*v2 - B*u1*u1*v2*v2 + (1+1)*B*u1*v1*u2*u2*v2 - (1+1)*B*u1*v1*u2*v2 + (1+1)*B*u1*v1*v2 + B*u1*u2*v2*v2 - B*u1*v2*v2 + (1+1+1)*u1*u1*u1*u1*u1*u2 + u1*u1*u1*u1*u1 - (1+1)*u1*u1*u1*u1*u2*u2 - (1+1+1+1+1)*u1*u1*u1*u1*u2 + u1*u1*u1*u1 + (1+1+1+1+1+1)*u1*u1*u1*u2*u2 + u1*u1*u1*u2 - u1*u1*u1 - (1+1)*u1*u1*u2*u2*u2 - (1+1+1+1)*u1*u1*u2*u2 + u1*u1*u2 - u1*u1 + (1+1)*u1*u2*u2*u2) * (B*v2*v2 - (u2*u2*u2 + A*u2*u2 + u2))) by (unfold xn, vv, m, k, nn, d; ring).
      rewrite Z1, Z2. field. split; assumption.
  Qed.

  (** ** doubling *)

  Lemma phi_double u1 v1 : mon (Aff u1 v1) -> u1 <> 0 ->
    mon (mplus (Aff u1 v1) (Aff u1 v1)) /\ phi (mplus (Aff u1 v1) (Aff u1 v1)) = plus (phi (Aff u1 v1)) (phi (Aff u1 v1)).
  Proof.
    intros H1 N1.
    pose proof (on_phi _ H1) as O1.
    pose proof (on_plus _ _ O1 O1) as O3. destruct (complete _ _ O1 O1) as [C1 C2].
    pose proof (u_not_minus_1 u1 v1 H1) as U1. pose proof (v_nz u1 v1 H1 N1) as V1.
    cbn [mplus]. destruct (Fdec u1 u1) as [_|E]; [|contradiction (E eq_refl)].
    destruct (Fdec (v1 + v1) 0) as [E|_].
    { exfalso. apply (mul_nz (1 + 1) v1 two_nz V1). rewrite <- E. ring. }
    unfold chord. cbv zeta. set (l := _ / ((1+1) * B * v1)). set (u3 := B * l * l - A - u1 - u1). set (v3 := l * (u1 - u3) - v1).
    assert (Z1 : B*v1*v1 - (u1*u1*u1 + A*u1*u1 + u1) = 0) by (cbn [mon] in H1; rewrite H1; ring).
    set (t := (1+1) * B * v1) in *. assert (D : t <> 0) by (unfold t; repeat apply mul_nz; assumption).
    set (ll := (1+1+1) * u1 * u1 + (1+1) * A * u1 + 1) in *.
    set (nn := B*ll*ll - (A + (1+1)*u1)*t*t).
    set (vv := ll*(u1*t*t - nn) - v1*t*t*t).
    assert (EU : u3 = nn / (t*t)) by (unfold u3, l, nn; field; exact D).
    assert (EV : v3 = vv / (t*t*t)) by (unfold v3, vv, l; rewrite EU; field; exact D).
    assert (H3 : mon (Aff u3 v3)).
    { cbn [mon]. apply sub_0. rewrite EU, EV.
      transitivity ((B*vv*vv - nn*nn*nn - A*nn*nn*t*t - nn*t*t*t*t) / (t*t*t*t*t*t)); [field; exact D|].
      replace (B*vv*vv - nn*nn*nn - A*nn*nn*t*t - nn*t*t*t*t) with (((1+1+1+1+1+1+1+1+1+1+1+1+1+1+1+1+1+1+1+1+1+1+1+1+1+1+1+1+1+1+1+1+1+1+1+1+1+1+1+1+1+1+1+1+1+1+1+1+1+1+1+1+1+1+1+1+1+1+1+1+1+1+1+1)*B*B*B*B*B*B*v1*v1*v1*v1*v1*v1) * (B*v1*v1 - (u1*u1*u1 + A*u1*u1 + u1))) by (unfold vv, nn, t, ll; ring).
      rewrite Z1. field. exact D. }
    split; [exact H3|].
    set (m := B*v1*v1*(u1+1)*(u1+1)). set (k := (A - (1+1))*u1*u1*(u1-1)*(u1-1)).
    assert (M : m <> 0) by (unfold m; repeat apply mul_nz; assumption).
    assert (EK : kk (phi (Aff u1 v1)) (phi (Aff u1 v1)) = k / m).
    { unfold Edwards.kk, phi. destruct (Fdec u1 0); [contradiction|]. cbn [fst snd].
      unfold k. rewrite <- c_def, <- s_def. unfold m. field. repeat split; assumption. }
    rewrite EK in C1, C2.
    assert (P1 : m + k <> 0).
    { intros Z. apply C1. transitivity ((m + k) / m); [field; exact M|]. rewrite Z. field. exact M. }
    assert (P2 : m - k <> 0).
    { intros Z. apply C2. transitivity ((m - k) / m); [field; exact M|]. rewrite Z. field. exact M. }
    set (yn := B*v1*v1*(u1-1)*(u1-1) - (A + (1+1))*u1*u1*(u1+1)*(u1+1)).
    set (xn := (1+1)*B*u1*v1*(u1+1)*(u1-1)).
    assert (ER : plus (phi (Aff u1 v1)) (phi (Aff u1 v1)) = (s * xn / (m + k), yn / (m - k))).
    { unfold Edwards.plus. rewrite EK. unfold phi. destruct (Fdec u1 0); [contradiction|]. cbn [fst snd].
      assert (M' := M). unfold m in M'. f_equal.
      - transitivity (s * xn / m / (1 + k / m)); [|field; repeat split; assumption].
        f_equal. unfold xn, m. field. repeat split; assumption.
      - transitivity (yn / m / (1 - k / m)); [|field; repeat split; assumption].
        f_equal. unfold yn. rewrite <- s_def. unfold m. field. repeat split; assumption. }
    apply phi_intro; [exact O3|exact H3| |]; rewrite ER; cbn [fst snd].
    - apply sub_0. rewrite EU.
      transitivity (((m - k + yn)*t*t - nn*(m - k - yn)) / (t*t*(m - k))); [field; split; assumption|].
      replace ((m - k + yn)*t*t - nn*(m - k - yn)) with (((1+1+1+1+1+1+1+1+1+1+1+1+1+1+1+1)*A*A*B*u1*u1*u1 + (1+1+1+1+1+1+1+1+1+1+1+1+1+1+1+1)*A*B*B*u1*v1*v1 + (1+1+1+1+1+1+1+1+1+1+1+1+1+1+1+1+1+1+1+1+1+1+1+1+1+1+1+1+1+1+1+1+1+1+1+1+1+1+1+1+1+1+1+1+1+1+1+1)*A*B*u1*u1*u1*u1 + (1+1+1+1+1+1+1+1+1+1+1+1+1+1+1+1)*A*B*u1*u1 + (1+1+1+1+1+1+1+1+1+1+1+1+1+1+1+1+1+1+1+1+1+1+1+1+1+1+1+1+1+1+1+1+1+1+1+1+1+1+1+1)*B*B*u1*u1*v1*v1 + (1+1+1+1+1+1+1+1)*B*B*v1*v1 + (1+1+1+1+1+1+1+1+1+1+1+1+1+1+1+1+1+1+1+1+1+1+1+1+1+1+1+1+1+1+1+1+1+1+1+1)*B*u1*u1*u1*u1*u1 + (1+1+1+1+1+1+1+1+1+1+1+1+1+1+1+1+1+1+1+1+1+1+1+1)*B*u1*u1*u1 + (1+1+1+1)*B*u1) * (B*v1*v1 - (u1*u1*u1 + A*u1*u1 + u1))) by (unfold m, k, yn, nn, t, ll; ring).
      rewrite Z1. field. split; assumption.
    - apply sub_0. rewrite EU, EV.
      transitivity (s*(xn*vv - nn*t*(m + k)) / (t*t*t*(m + k))); [field; split; assumption|].
      replace (xn*vv - nn*t*(m + k)) with (((1+1+1+1+1+1+1+1+1+1+1+1+1+1+1+1+1+1+1+1+1+1+1+1)*A*A*B*B*u1*u1*u1*u1*v1 - (1+1+1+1+1+1+1+1+1+1+1+1+1+1+1+1)*A*A*B*B*u1*u1*u1*v1 - (1+1+1+1+1+1+1+1)*A*A*B*B*u1*u1*v1 + (1+1+1+1+1+1+1+1)*A*B*B*B*u1*u1*v1*v1*v1 + (1+1+1+1+1+1+1+1+1+1+1+1+1+1+1+1)*A*B*B*B*u1*v1*v1*v1 + (1+1+1+1+1+1+1+1)*A*B*B*B*v1*v1*v1 + (1+1+1+1+1+1+1+1+1+1+1+1+1+1+1+1+1+1+1+1+1+1+1+1+1+1+1+1+1+1+1+1+1+1+1+1+1+1+1+1+1+1+1+1+1+1+1+1+1+1+1+1+1+1+1+1+1+1+1+1+1+1+1+1+1+1+1+1+1+1+1+1)*A*B*B*u1*u1*u1*u1*u1*v1 - (1+1+1+1+1+1+1+1+1+1+1+1+1+1+1+1+1+1+1+1+1+1+1+1+1+1+1+1+1+1+1+1+1+1+1+1+1+1+1+1+1+1+1+1+1+1+1+1)*A*B*B*u1*u1*u1*u1*v1 - (1+1+1+1+1+1+1+1+1+1+1+1+1+1+1+1)*A*B*B*u1*u1*v1 - (1+1+1+1+1+1+1+1)*A*B*B*u1*v1 + (1+1+1+1+1+1+1+1+1+1+1+1+1+1+1+1+1+1+1+1+1+1+1+1+1+1+1+1+1+1+1+1)*B*B*B*u1*u1*v1*v1*v1 + (1+1+1+1+1+1+1+1+1+1+1+1+1+1+1+1+1+1+1+1+1+1+1+1+1+1+1+1+1+1+1+1)*B*B*B*u1*v1*v1*v1 + (1+1+1+1+1+1+1+1+1+1+1+1+1+1+1+1+1+1+1+1+1+1+1+1+1+1+1+1+1+1+1+1+1+1+1+1+1+1+1+1+1+1+1+1+1+1+1+1+1+1+1+1+1+1)*B*B*u1*u1*u1*u1*u1*u1*v1 - (1+1+1+1+1+1+1+1+1+1+1+1+1+1+1+1+1+1+1+1+1+1+1+1+1+1+1+1+1+1+1+1+1+1+1+1)*B*B*u1*u1*u1*u1*u1*v1 + (1+1+1+1+1+1+1+1+1+1+1+1+1+1+1+1+1+1)*B*B*u1*u1*u1*u1*v1 - (1+1+1+1+1+1+1+1+1+1+1+1+1+1+1+1+1+1+1+1+1+1+1+1)*B*B*u1*u1*u1*v1 - (1+1+1+1+1+1)*B*B*u1*u1*v1 - (1+1+1+1)*B*B*u1*v1 - (1+1)*B*B*v1) * (B*v1*v1 - (u1*u1*u1 + A*u1*u1 + u1))) by (unfold xn, vv, m, k, nn, t, ll; ring).
      rewrite Z1. field. split; assumption.
  Qed.

  (** ** the point (0, 0) *)

  Lemma phi_zero u v : mon (Aff u v) -> u <> 0 ->
    mon (chord (v / u) 0 0 u) /\ phi (chord (v / u) 0 0 u) = plus (0, - (1)) (phi (Aff u v)).
  Proof.
    intros H N. pose proof (u_not_minus_1 u v H) as U. pose proof (v_nz u v H N) as V.
    assert (E : chord (v / u) 0 0 u = Aff (inv u) (- (v / (u * u)))).
    { unfold chord. cbv zeta. cbn [mon] in H.
      assert (E : B * (v / u) * (v / u) - A - 0 - u = inv u).
      { transitivity ((B * v * v - A * u * u - u * u * u) / (u * u)); [field; exact N|]. rewrite H. field. exact N. }
      rewrite E. f_equal. field. exact N. }
    rewrite E.
    assert (H3 : mon (Aff (inv u) (- (v / (u * u))))).
    { cbn [mon] in *. transitivity ((B * v * v) / (u * u * u * u)); [field; exact N|]. rewrite H. field. exact N. }
    split; [exact H3|].
    assert (O0 : on (0, - (1))) by (unfold Edwards.on; ring).
    assert (ER : plus (0, - (1)) (phi (Aff u v)) = (- (s * u / v), - ((u - 1) / (u + 1)))).
    { unfold Edwards.plus, Edwards.kk, phi. destruct (Fdec u 0); [contradiction|]. cbn [fst snd].
      replace (c * 0 * (s * u / v) * - (1) * ((u - 1) / (u + 1))) with 0 by ring.
      replace (1 + 0) with 1 by ring. replace (1 - 0) with 1 by ring.
      f_equal; field; repeat split; assumption || exact one_nz. }
    apply phi_intro; [apply on_plus; [exact O0|apply on_phi; exact H]|exact H3| |]; rewrite ER; cbn [fst snd];
      field; repeat split; assumption.
  Qed.

  (** ** the homomorphism *)

  Lemma mplus_phi P Q : mon P -> mon Q -> mon (mplus P Q) /\ phi (mplus P Q) = plus (phi P) (phi Q).
  Proof.
    intros HP HQ. destruct P as [|u1 v1].
    { cbn [mplus]. split; [exact HQ|]. change (phi Inf) with O. rewrite plus_comm, plus_O. reflexivity. }
    destruct Q as [|u2 v2].
    { cbn [mplus]. split; [exact HP|]. change (phi Inf) with O. rewrite plus_O. reflexivity. }
    destruct (Fdec u1 u2) as [E|N].
    - subst u2. destruct (Fdec (v1 + v2) 0) as [E|N].
      + assert (EP : mplus (Aff u1 v1) (Aff u1 v2) = Inf).
        { cbn [mplus]. destruct (Fdec u1 u1) as [_|X]; [|contradiction (X eq_refl)].
          destruct (Fdec (v1 + v2) 0) as [_|X]; [reflexivity|contradiction]. }
        rewrite EP. split; [exact I|].
        assert (V : v2 = - v1) by (apply sub_0; rewrite <- E; ring).
        assert (EN : phi (Aff u1 v2) = neg (phi (Aff u1 v1))).
        { unfold phi, Edwards.neg. destruct (Fdec u1 0) as [Z|Z]; [f_equal; ring|].
          pose proof (v_nz u1 v1 HP Z). f_equal. rewrite V. field. repeat split; try assumption.
          intros W. apply H. replace v1 with (- - v1) by ring. rewrite W. ring. }
        rewrite EN, plus_neg by (apply on_phi; exact HP). reflexivity.
      + assert (EV : v1 = v2).
        { cbn [mon] in HP, HQ. apply sub_0.
          assert (T : B * (v1 - v2) * (v1 + v2) = 0) by (transitivity (B * v1 * v1 - B * v2 * v2); [ring|]; rewrite HP, HQ; ring).
          apply integral in T. destruct T as [T|T]; [|contradiction].
          apply integral in T. destruct T as [T|T]; [contradiction|exact T]. }
        subst v2. apply phi_double; [exact HP|].
        intros Z. subst u1. apply N. rewrite (v_of_0 v1 HP). ring.
    - destruct (Fdec u1 0) as [Z1|Z1].
      + subst u1. rewrite (v_of_0 v1 HP) in *.
        assert (Z2 : u2 <> 0) by (intros Z; apply N; symmetry; exact Z).
        assert (EP : mplus (Aff 0 0) (Aff u2 v2) = chord (v2 / u2) 0 0 u2).
        { cbn [mplus]. destruct (Fdec 0 u2) as [X|_]; [contradiction|]. f_equal. field. split; [exact Z2|].
          intros X. apply Z2. replace u2 with (- - u2) by ring. rewrite X. ring. }
        rewrite EP. replace (phi (Aff 0 0)) with ((0, - (1)) : point); [apply phi_zero; assumption|].
        unfold phi. destruct (Fdec 0 0) as [_|X]; [reflexivity|contradiction (X eq_refl)].
      + destruct (Fdec u2 0) as [Z2|Z2]; [|apply phi_chord; assumption].
        subst u2. rewrite (v_of_0 v2 HQ) in *.
        assert (EP : mplus (Aff u1 v1) (Aff 0 0) = chord (v1 / u1) 0 0 u1).
        { cbn [mplus]. destruct (Fdec u1 0) as [X|_]; [contradiction|]. unfold chord. cbv zeta. cbn [mon] in HP.
          f_equal.
          - field. exact Z1.
          - field. exact Z1. }
        rewrite EP, plus_comm. replace (phi (Aff 0 0)) with ((0, - (1)) : point); [apply phi_zero; assumption|].
        unfold phi. destruct (Fdec 0 0) as [_|Y]; [reflexivity|contradiction (Y eq_refl)].
  Qed.

  Lemma msmul_phi n P : mon P -> mon (msmul n P) /\ phi (msmul n P) = smul n (phi P).
  Proof.
    intros H. induction n as [|n [I1 I2]]; [split; [exact I|reflexivity]|].
    cbn [msmul Edwards.smul]. destruct (mplus_phi P (msmul n P) H I1) as [J1 J2].
    split; [exact J1|]. rewrite J2, I2. reflexivity.
  Qed.
  Lemma msmul_u n P : mon P -> u_of (smul n (phi P)) = mu (msmul n P).
  Proof. intros H. destruct (msmul_phi n P H) as [I1 I2]. rewrite <- I2. apply u_phi. exact I1. Qed.

  (** ** hence a commutative group *)

  Lemma phi_Inf u v : mon (Aff u v) -> phi (Aff u v) <> O.
  Proof.
    intros H E. pose proof (u_not_minus_1 u v H) as U. unfold phi, Edwards.O in E. apply (f_equal snd) in E.
    destruct (Fdec u 0) as [Z|Z]; cbn [snd] in E; apply two_nz.
    - transitivity (1 - - (1)); [ring|]. rewrite E. ring.
    - apply (f_equal (fun z => z * (u + 1))) in E. replace ((u - 1) / (u + 1) * (u + 1)) with (u - 1) in E by (field; exact U).
      transitivity (1 * (u + 1) - (u - 1)); [ring|]. rewrite E. ring.
  Qed.
  Lemma phi_inj P Q : mon P -> mon Q -> phi P = phi Q -> P = Q.
  Proof.
    intros HP HQ E. destruct P as [|u v], Q as [|u' v'].
    - reflexivity.
    - exfalso. apply (phi_Inf u' v' HQ). symmetry. exact E.
    - exfalso. apply (phi_Inf u v HP). exact E.
    - pose proof (f_equal u_of E) as EU. rewrite !u_phi in EU by assumption. cbn [mu] in EU. subst u'. f_equal.
      destruct (Fdec u 0) as [Z|Z].
      + subst u. rewrite (v_of_0 v HP), (v_of_0 v' HQ). reflexivity.
      + pose proof (v_nz u v HP Z) as V. pose proof (v_nz u v' HQ Z) as V'. unfold phi in E.
        destruct (Fdec u 0) as [X|_]; [contradiction|]. apply (f_equal fst) in E. cbn [fst] in E.
        transitivity (s * u / (s * u / v)); [field; repeat split; try assumption; exact s_nz|].
        rewrite E. field. repeat split; try assumption; exact s_nz.
  Qed.
  Lemma mplus_on P Q : mon P -> mon Q -> mon (mplus P Q).
  Proof. intros HP HQ. apply mplus_phi; assumption. Qed.
  Lemma mplus_comm P Q : mon P -> mon Q -> mplus P Q = mplus Q P.
  Proof.
    intros HP HQ. apply phi_inj; try (apply mplus_on; assumption).
    rewrite (proj2 (mplus_phi P Q HP HQ)), (proj2 (mplus_phi Q P HQ HP)). apply plus_comm.
  Qed.
  Lemma mplus_assoc P Q R : mon P -> mon Q -> mon R -> mplus (mplus P Q) R = mplus P (mplus Q R).
  Proof.
    intros HP HQ HR. apply phi_inj; try (repeat apply mplus_on; assumption).
    rewrite (proj2 (mplus_phi (mplus P Q) R (mplus_on P Q HP HQ) HR)), (proj2 (mplus_phi P Q HP HQ)).
    rewrite (proj2 (mplus_phi P (mplus Q R) HP (mplus_on Q R HQ HR))), (proj2 (mplus_phi Q R HQ HR)).
    apply plus_assoc; apply on_phi; assumption.
  Qed.
End Montgomery.

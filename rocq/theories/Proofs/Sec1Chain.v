(** Multiples of a point of a curve of Spec/SEC1.v, checked against given slopes: no inverse is
    computed, and each addition costs three or four products. *)
From Coq Require Import List ZArith Lia Bool Field Znumtheory Zpow_facts.
From Verif.Proofs Require Import Primes FastMul Weierstrass PrimeField CurvePrimes SEC1Proofs.
From Verif.Spec Require Import SEC1.
Import ListNotations.
Open Scope Z_scope.

(** one addition: the sum of (x1, y1) and (x2, y2), neither opposite, given the slope l; [red]
    reduces modulo p, up to a multiple of p that is at most one off *)
Definition canon (p r : Z) : Z := if r <? 0 then r + p else if r <? p then r else r - p.
Definition fits (p r : Z) : bool := (0 <=? r) && (r <? p).
Definition link (p a : Z) (red : Z -> Z) (l x1 y1 x2 y2 : Z) : option (Z * Z) :=
  let same := x1 =? x2 in
  let t := if same then zmul l (y1 + y1) - (zmul 3 (zmul x1 x1) + a) else zmul l (x2 - x1) - (y2 - y1) in
  if (if same then (y1 =? y2) && negb (y1 =? 0) else true) && (canon p (red t) =? 0) then
    let x3 := canon p (red (zmul l l - (x1 + x2))) in
    let y3 := canon p (red (zmul l (x1 - x3) - y1)) in
    if fits p x3 && fits p y3 then Some (x3, y3) else None
  else None.

(** a table of multiples of the base point, and a walk: [Double l] doubles the current point,
    [Plus i l] adds entry i of the table *)
Inductive move := Double (l : Z) | Plus (i : nat) (l : Z).
Definition entry : Type := positive * Z * Z.
Definition make (p a : Z) (red : Z -> Z) (l : Z) (e e' : entry) : option entry :=
  let '(m, x, y) := e in
  let '(m', x', y') := e' in
  match link p a red l x y x' y' with Some (x3, y3) => Some ((m + m')%positive, x3, y3) | None => None end.
Fixpoint build (p a : Z) (red : Z -> Z) (two : entry) (ls : list Z) (last : entry) : option (list entry) :=
  match ls with
  | [] => Some [last]
  | l :: ls =>
      match make p a red l last two with
      | Some e => match build p a red two ls e with Some t => Some (last :: t) | None => None end
      | None => None
      end
  end.
Fixpoint walk (p a : Z) (red : Z -> Z) (table : list entry) (ms : list move) (e : entry) : option entry :=
  match ms with
  | [] => Some e
  | Double l :: ms => match make p a red l e e with Some e => walk p a red table ms e | None => None end
  | Plus i l :: ms =>
      match nth_error table i with
      | Some f => match make p a red l e f with Some e => walk p a red table ms e | None => None end
      | None => None
      end
  end.
(** the last two moves reach the opposite of the base point *)
Definition reaches (p a gx gy : Z) (red : Z -> Z) (n : positive) (l2 : Z) (ls : list Z) (start : nat) (ms : list move) : bool :=
  match make p a red l2 (1%positive, gx, gy) (1%positive, gx, gy) with
  | None => false
  | Some two =>
      match build p a red two ls (1%positive, gx, gy) with
      | None => false
      | Some table =>
          match nth_error table start with
          | None => false
          | Some e =>
              match walk p a red table ms e with
              | None => false
              | Some (m, x, y) => (Pos.succ m =? n)%positive && (x =? gx) && (y =? p - gy)
              end
          end
      end
  end.

Section Curve.
  Variable C : curve.
  Hypothesis C_ok : curve_ok C.
  Variable red : Z -> Z.
  Hypothesis red_ok : forall x, red x mod p C = x mod p C.

  Notation HP := (proj1 C_ok).
  Notation H2 := (proj1 (proj2 C_ok)).
  Notation F := (F (p C)).
  Notation mk := (mkF (p C) HP H2).
  Notation f0 := (F0 (p C) HP H2).
  Notation f1 := (F1 (p C) HP H2).
  Notation fadd := (Fadd (p C) HP H2).
  Notation fmul := (Fmul (p C) HP H2).
  Notation fsub := (Fsub (p C) HP H2).
  Notation fopp := (Fopp (p C) HP H2).
  Notation fdiv := (Fdiv (p C) HP H2).
  Notation finv := (Finv (p C) HP H2).
  Notation fdec := (F_dec (p C)).
  Let ffield := F_field (p C) HP H2.
  Let ftwo := F_two (p C) HP H2.
  Add Field F_field_chain : ffield.

  Lemma canon_mod r : canon (p C) r mod p C = r mod p C.
  Proof.
    unfold canon. pose proof (p_nz C C_ok) as N. destruct (r <? 0); [|destruct (r <? p C); [reflexivity|]].
    - replace (r + p C) with (r + 1 * p C) by ring. apply Z.mod_add, N.
    - replace (r - p C) with (r + -1 * p C) by ring. apply Z.mod_add, N.
  Qed.
  Lemma canon_red r : canon (p C) (red r) mod p C = r mod p C.
  Proof. rewrite canon_mod. apply red_ok. Qed.
  Lemma canon_value r x : 0 <= x < p C -> x = canon (p C) (red r) -> x = r mod p C.
  Proof. intros H E. rewrite <- (Z.mod_small x (p C)) by exact H. rewrite E. apply canon_red. Qed.
  Lemma fits_true r : fits (p C) r = true -> 0 <= r < p C.
  Proof. unfold fits. intros H. apply andb_true_iff in H. destruct H as [H1 H3]. apply Z.leb_le in H1. apply Z.ltb_lt in H3. lia. Qed.

  (** the sum of two points, given the slope *)
  Lemma slope_add l x1 y1 x2 y2 : on_curve C (Point x1 y1) -> on_curve C (Point x2 y2) ->
    (x1 = x2 /\ y1 = y2 /\ y1 <> 0 /\ (l * (y1 + y1) - (3 * (x1 * x1) + a C)) mod p C = 0 \/
     x1 <> x2 /\ (l * (x2 - x1) - (y2 - y1)) mod p C = 0) ->
    let x3 := (l * l - (x1 + x2)) mod p C in
    add C (Point x1 y1) (Point x2 y2) = Point x3 ((l * (x1 - x3) - y1) mod p C).
  Proof.
    intros O1 O2 D x3. assert (E3 : x3 = (l * l - (x1 + x2)) mod p C) by reflexivity. clearbody x3.
    remember ((l * (x1 - x3) - y1) mod p C) as y3 eqn:E4.
    destruct (on_reduced C _ O1) as [R1 S1]. destruct (on_reduced C _ O2) as [R2 S2].
    assert (F3 : 0 <= x3 < p C) by (rewrite E3; apply Z.mod_pos_bound; pose proof (p_pos C C_ok); lia).
    assert (F4 : 0 <= y3 < p C) by (rewrite E4; apply Z.mod_pos_bound; pose proof (p_pos C C_ok); lia).
    apply (up_inj C C_ok); [apply (add_reduced C C_ok); split; assumption|split; assumption|].
    rewrite (up_add C C_ok) by (split; assumption). cbn [up].
    assert (T : Weierstrass.third F fmul fsub (mk l) (mk x1) (mk y1) (mk x2) = Weierstrass.P F (mk x3) (mk y3)).
    { unfold Weierstrass.third. cbv zeta.
      assert (X3 : mk x3 = fsub (fsub (fmul (mk l) (mk l)) (mk x1)) (mk x2)).
      { rewrite E3, (mk_modp C C_ok), (mk_sub C C_ok), (mk_mul C C_ok), (mk_add C C_ok). ring. }
      f_equal; [symmetry; exact X3|].
      rewrite <- X3, E4, (mk_modp C C_ok), (mk_sub C C_ok), (mk_mul C C_ok), (mk_sub C C_ok). reflexivity. }
    rewrite <- T. clear T.
    pose proof (proj2 (up_on C C_ok (Point x1 y1) (conj R1 S1)) O1) as U1. pose proof (proj2 (up_on C C_ok (Point x2 y2) (conj R2 S2)) O2) as U2.
    cbn [up] in U1, U2.
    assert (MZ : forall z, z mod p C = 0 -> mk z = f0) by (intros z Hz; apply mkF_eq; rewrite Hz; symmetry; apply Z.mod_0_l, (p_nz C C_ok)).
    destruct D as [(X & Y & N & E5)|(X & E5)]; apply MZ in E5.
    - subst x2 y2.
      assert (NY : fadd (mk y1) (mk y1) <> f0).
      { intros K. apply N. apply (mk_small C C_ok); [exact S1|pose proof (p_pos C C_ok); lia|]. change (mk 0) with f0.
        assert (K' : fmul (fadd f1 f1) (mk y1) = f0) by (rewrite <- K; ring).
        apply (Weierstrass.integral F f0 f1 fadd fmul fsub fopp fdiv finv ffield fdec) in K'. destruct K' as [K'|K']; [destruct (ftwo K')|exact K']. }
      apply (plus_slope F f0 f1 fadd fmul fsub fopp fdiv finv ffield fdec ftwo _ (mk (b C))); [exact U1|exact U1| |].
      + intros K. apply P_inj in K. destruct K as [_ K]. apply NY. rewrite K at 1. ring.
      + split; [ring|]. rewrite (mk_sub C C_ok), !(mk_mul C C_ok), !(mk_add C C_ok), !(mk_mul C C_ok), (mk_3 C C_ok) in E5.
        match type of E5 with fsub ?u ?v = f0 => assert (E6 : u = v) by (transitivity (fadd (fsub u v) v); [ring|rewrite E5; ring]) end.
        transitivity (fmul (mk l) (fadd (mk y1) (mk y1))); [ring|]. rewrite E6. ring.
    - assert (NX : mk x1 <> mk x2) by (intros K; apply X; apply (mk_small C C_ok); assumption).
      assert (L : fmul (fsub (mk x2) (mk x1)) (mk l) = fsub (mk y2) (mk y1)).
      { rewrite (mk_sub C C_ok), (mk_mul C C_ok), !(mk_sub C C_ok) in E5.
        match type of E5 with fsub ?u ?v = f0 => assert (E6 : u = v) by (transitivity (fadd (fsub u v) v); [ring|rewrite E5; ring]) end.
        rewrite <- E6. ring. }
      apply (plus_slope F f0 f1 fadd fmul fsub fopp fdiv finv ffield fdec ftwo _ (mk (b C))); [exact U1|exact U2| |].
      + intros K. apply P_inj in K. destruct K as [K _]. apply NX. symmetry. exact K.
      + split; [exact L|].
        apply (Weierstrass.cancel F f0 f1 fadd fmul fsub fopp fdiv finv ffield fdec (fsub (mk x2) (mk x1))).
        * apply (Weierstrass.sub_nz F f0 f1 fadd fmul fsub fopp fdiv finv ffield). intros K. apply NX. symmetry. exact K.
        * cbn [Weierstrass.on] in U1, U2.
          transitivity (fmul (fadd (mk y1) (mk y2)) (fmul (fsub (mk x2) (mk x1)) (mk l))); [ring|]. rewrite L.
          transitivity (fsub (fmul (mk y2) (mk y2)) (fmul (mk y1) (mk y1))); [ring|]. rewrite U1, U2. ring.
  Qed.

  Lemma link_add l x1 y1 x2 y2 x3 y3 : on_curve C (Point x1 y1) -> on_curve C (Point x2 y2) ->
    link (p C) (a C) red l x1 y1 x2 y2 = Some (x3, y3) -> add C (Point x1 y1) (Point x2 y2) = Point x3 y3.
  Proof.
    intros O1 O2 E. unfold link in E. cbv zeta in E.
    destruct (_ && _) eqn:E1 in E; [|discriminate]. destruct (_ && _) eqn:E2 in E; [|discriminate].
    injection E as E3 E4. rewrite E3 in *. rewrite E4 in E2. apply andb_true_iff in E1. destruct E1 as [E0 E1].
    apply andb_true_iff in E2. destruct E2 as [F3 F4]. apply fits_true in F3. apply fits_true in F4.
    symmetry in E3, E4. apply canon_value in E3; [|exact F3]. apply canon_value in E4; [|exact F4].
    apply Z.eqb_eq in E1. pose proof (f_equal (fun z => z mod p C) E1) as E5. cbv beta in E5.
    rewrite canon_red, Z.mod_0_l in E5 by exact (p_nz C C_ok). clear E1. rewrite !zmul_mul in *.
    assert (D : x1 = x2 /\ y1 = y2 /\ y1 <> 0 /\ (l * (y1 + y1) - (3 * (x1 * x1) + a C)) mod p C = 0 \/
      x1 <> x2 /\ (l * (x2 - x1) - (y2 - y1)) mod p C = 0).
    { destruct (Z.eqb_spec x1 x2) as [X|X]; [left|right; split; assumption].
      apply andb_true_iff in E0. destruct E0 as [Y N]. apply Z.eqb_eq in Y. apply negb_true_iff in N. apply Z.eqb_neq in N. auto. }
    pose proof (slope_add l x1 y1 x2 y2 O1 O2 D) as S. cbv zeta in S. rewrite <- E3, <- E4 in S. exact S.
  Qed.

  Hypothesis G_on : on_curve C (G C).
  Definition holds (e : entry) : Prop :=
    let '(m, x, y) := e in multiple C (Pos.to_nat m) (G C) = Point x y.
  Lemma make_holds l e e' e3 : holds e -> holds e' -> make (p C) (a C) red l e e' = Some e3 -> holds e3.
  Proof.
    destruct e as [[m x] y], e' as [[m' x'] y']. unfold make. cbn [holds]. intros H H' E.
    destruct (link _ _ _ _ _ _ _ _) as [[x3 y3]|] eqn:L; [|discriminate]. injection E as <-. cbn [holds].
    rewrite Pos2Nat.inj_add, (multiple_add C C_ok) by exact G_on. rewrite H, H'.
    apply (link_add l); [rewrite <- H; apply (multiple_on C C_ok), G_on|rewrite <- H'; apply (multiple_on C C_ok), G_on|exact L].
  Qed.
  Lemma build_holds two ls : holds two -> forall last t, holds last -> build (p C) (a C) red two ls last = Some t -> Forall holds t.
  Proof.
    intros H2'. induction ls as [|l ls IH]; intros last t HL E; cbn [build] in E.
    - injection E as <-. constructor; [exact HL|constructor].
    - destruct (make _ _ _ _ _ _) as [e|] eqn:M; [|discriminate]. destruct (build _ _ _ _ _ _) as [t'|] eqn:B; [|discriminate].
      injection E as <-. constructor; [exact HL|]. apply (IH e); [|exact B]. exact (make_holds l last two e HL H2' M).
  Qed.
  Lemma walk_holds table ms : Forall holds table -> forall e e', holds e -> walk (p C) (a C) red table ms e = Some e' -> holds e'.
  Proof.
    intros HT. induction ms as [|m ms IH]; intros e e' He E; cbn [walk] in E; [injection E as <-; exact He|].
    destruct m as [l|i l].
    - destruct (make _ _ _ _ _ _) as [f|] eqn:M; [|discriminate]. exact (IH f e' (make_holds l e e f He He M) E).
    - destruct (nth_error table i) as [f|] eqn:N; [|discriminate]. destruct (make _ _ _ _ _ _) as [f'|] eqn:M; [|discriminate].
      apply nth_error_In in N. rewrite Forall_forall in HT. exact (IH f' e' (make_holds l e f f' He (HT f N) M) E).
  Qed.
  Lemma reaches_order n l2 ls start ms : reaches (p C) (a C) (gx C) (gy C) red n l2 ls start ms = true ->
    multiple C (Pos.to_nat n) (G C) = Infinity.
  Proof.
    unfold reaches. assert (H1 : holds (1%positive, gx C, gy C)) by (cbn [holds]; apply add_Infinity_r).
    destruct (make _ _ _ l2 _ _) as [two|] eqn:M; [|discriminate]. apply make_holds in M; [|exact H1|exact H1].
    destruct (build _ _ _ _ _ _) as [table|] eqn:B; [|discriminate]. apply build_holds in B; [|exact M|exact H1].
    destruct (nth_error table start) as [e|] eqn:N; [|discriminate]. apply nth_error_In in N.
    pose proof (proj1 (Forall_forall _ _) B e N) as He.
    destruct (walk _ _ _ _ _ _) as [[[m x] y]|] eqn:W; [|discriminate]. apply (walk_holds table ms B) in W; [|exact He].
    intros E. apply andb_true_iff in E. destruct E as [E EY].
    apply andb_true_iff in E. destruct E as [E EX]. apply Pos.eqb_eq in E. subst n.
    cbn [holds] in W. rewrite Pos2Nat.inj_succ. cbn [multiple]. rewrite W.
    apply Z.eqb_eq in EX. apply Z.eqb_eq in EY. subst x y. unfold G. cbn [add]. rewrite Z.eqb_refl.
    replace (gy C + (p C - gy C)) with (p C) by ring. rewrite Z.mod_same by exact (p_nz C C_ok). reflexivity.
  Qed.
End Curve.

(** Primality of N from a point of prime order on an elliptic curve modulo N (Goldwasser and
    Kilian), with 2 r + 1 as the bound on the number of points modulo r. *)
From Coq Require Import List ZArith Lia Bool Znumtheory Zpow_facts.
From Verif.Proofs Require Import CompressProofs CountProofs Primes FastMul SEC1Proofs Sec1Chain Sec1Order.
From Verif.Spec Require Import SEC1.
Import ListNotations.
Open Scope Z_scope.

(** one addition modulo N, given the inverse i of the denominator of the slope *)
Definition jump (N a : Z) (red : Z -> Z) (i x1 y1 x2 y2 : Z) : option (Z * Z) :=
  let same := (x1 =? x2) && (y1 =? y2) in
  let den := if same then y1 + y1 else x2 - x1 in
  let num := if same then canon N (red (zmul 3 (zmul x1 x1) + a)) else y2 - y1 in
  if canon N (red (zmul i den)) =? 1 then
    let l := canon N (red (zmul i num)) in
    let x3 := canon N (red (zmul l l - (x1 + x2))) in
    Some (x3, canon N (red (zmul l (x1 - x3) - y1)))
  else None.
Definition jump_entry (N a : Z) (red : Z -> Z) (i : Z) (e e' : entry) : option entry :=
  let '(m, x, y) := e in
  let '(m', x', y') := e' in
  match jump N a red i x y x' y' with Some (x3, y3) => Some ((m + m')%positive, x3, y3) | None => None end.
Fixpoint travel (N a : Z) (red : Z -> Z) (base : entry) (ms : list move) (e : entry) : option entry :=
  match ms with
  | [] => Some e
  | Double i :: ms => match jump_entry N a red i e e with Some e => travel N a red base ms e | None => None end
  | Plus _ i :: ms => match jump_entry N a red i e base with Some e => travel N a red base ms e | None => None end
  end.
Definition arrives (N a x y : Z) (red : Z -> Z) (q : positive) (ms : list move) : bool :=
  match travel N a red (1%positive, x, y) ms (1%positive, x, y) with
  | None => false
  | Some (m, x', y') => (Pos.succ m =? q)%positive && (x' =? x) && ((y + y') mod N =? 0)
  end.

Section Factor.
  Variables N A B r : Z.
  Variable red : Z -> Z.
  Hypothesis red_ok : forall x, red x mod N = x mod N.
  Hypothesis N_pos : 1 < N.
  Hypothesis r_prime : prime r.
  Hypothesis r_odd : r <> 2.
  Hypothesis r_N : (r | N).
  Variables X Y : Z.
  Definition reduced_curve : curve := {| p := r; a := A; b := B; gx := X mod r; gy := Y mod r |}.
  Notation C := reduced_curve.
  Hypothesis disc : (4 * A ^ 3 + 27 * B ^ 2) mod r <> 0.

  Lemma r_pos : 2 < r.
  Proof. pose proof (prime_ge_2 r r_prime). lia. Qed.
  Lemma C_ok : curve_ok C.
  Proof. split; [exact r_prime|]. split; [exact r_odd|]. exact disc. Qed.
  Lemma mod_N_r x y : x mod N = y mod N -> x mod r = y mod r.
  Proof.
    intros E. pose proof r_pos. destruct r_N as [k K]. assert (D : (r | x - y)).
    { apply (Z.divide_trans _ N); [exists k; exact K|]. apply Z.mod_divide; [lia|].
      rewrite Zminus_mod, E, Z.sub_diag. apply Z.mod_0_l. lia. }
    destruct D as [j J]. replace x with (y + j * r) by lia. apply Z.mod_add. lia.
  Qed.
  Lemma canon_N x : canon N (red x) mod r = x mod r.
  Proof.
    transitivity (red x mod r); [|apply mod_N_r, red_ok]. apply mod_N_r. unfold canon.
    destruct (red x <? 0); [|destruct (red x <? N); [reflexivity|]].
    - replace (red x + N) with (red x + 1 * N) by ring. apply Z.mod_add. lia.
    - replace (red x - N) with (red x + -1 * N) by ring. apply Z.mod_add. lia.
  Qed.

  Lemma low_eq x : exists k, x mod r = x + k * r.
  Proof. exists (- (x / r)). pose proof (Z.div_mod x r). pose proof r_pos. lia. Qed.
  Lemma shift x y k : x = y + k * r -> x mod r = y mod r.
  Proof. intros ->. apply Z.mod_add. pose proof r_pos. lia. Qed.

  Definition lower (x y : Z) : point := Point (x mod r) (y mod r).
  Lemma jump_add i x1 y1 x2 y2 x3 y3 : on_curve C (lower x1 y1) -> on_curve C (lower x2 y2) ->
    jump N A red i x1 y1 x2 y2 = Some (x3, y3) -> add C (lower x1 y1) (lower x2 y2) = lower x3 y3.
  Proof.
    intros O1 O2 E. pose proof r_pos as RP. unfold jump in E. cbv zeta in E. rewrite !zmul_mul in E.
    set (same := (x1 =? x2) && (y1 =? y2)) in *.
    set (den := if same then y1 + y1 else x2 - x1) in *. set (num := if same then canon N (red (3 * (x1 * x1) + A)) else y2 - y1) in *.
    destruct (canon N (red (i * den)) =? 1) eqn:EI; [|discriminate]. apply Z.eqb_eq in EI.
    injection E as E3 E4. rewrite E3 in E4.
    set (l := canon N (red (i * num))) in *.
    assert (I1 : (i * den) mod r = 1) by (rewrite <- canon_N, EI; apply Z.mod_small; lia).
    assert (L : l mod r = (i * num) mod r) by (apply canon_N).
    assert (LD : (l * den) mod r = num mod r).
    { rewrite <- Zmult_mod_idemp_l, L, Zmult_mod_idemp_l. replace (i * num * den) with ((i * den) * num) by ring.
      rewrite <- Zmult_mod_idemp_l, I1, Z.mul_1_l. reflexivity. }
    assert (DN : den mod r <> 0).
    { intros Z0. rewrite <- Zmult_mod_idemp_r, Z0, Z.mul_0_r, Z.mod_0_l in I1 by lia. discriminate. }
    assert (X3 : x3 mod r = (l * l - (x1 mod r + x2 mod r)) mod r).
    { rewrite <- E3, canon_N. symmetry. destruct (low_eq x1) as [k1 ->]. destruct (low_eq x2) as [k2 ->].
      apply (shift _ _ (- k1 - k2)). ring. }
    assert (Y3 : y3 mod r = (l * (x1 mod r - x3 mod r) - y1 mod r) mod r).
    { rewrite <- E4, canon_N. symmetry. destruct (low_eq x1) as [k1 ->]. destruct (low_eq x3) as [k3 ->]. destruct (low_eq y1) as [k ->].
      apply (shift _ _ (l * (k1 - k3) - k)). ring. }
    unfold lower. rewrite X3 in Y3. rewrite Y3, X3.
    apply (slope_add C C_ok l (x1 mod r) (y1 mod r) (x2 mod r) (y2 mod r) O1 O2). cbn [p a reduced_curve].
    assert (SUB : forall u v, u mod r = v mod r -> (u - v) mod r = 0).
    { intros u v Euv. rewrite Zminus_mod, Euv, Z.sub_diag. apply Z.mod_0_l. lia. }
    subst den num. destruct same eqn:ES.
    - left. unfold same in ES. apply andb_true_iff in ES. destruct ES as [EX EY]. apply Z.eqb_eq in EX. apply Z.eqb_eq in EY. subst x2 y2.
      split; [reflexivity|]. split; [reflexivity|]. split.
      + intros Z0. apply DN. rewrite Zplus_mod, Z0. apply Z.mod_0_l. lia.
      + apply SUB. transitivity ((3 * (x1 * x1) + A) mod r).
        * rewrite canon_N in LD. rewrite <- LD. destruct (low_eq y1) as [k ->]. apply (shift _ _ (l * (k + k))). ring.
        * symmetry. destruct (low_eq x1) as [k ->]. apply (shift _ _ (3 * (2 * x1 * k + k * k * r))). ring.
    - right. split.
      + intros Z0. apply DN. rewrite Zminus_mod, Z0, Z.sub_diag. apply Z.mod_0_l. lia.
      + apply SUB. transitivity ((y2 - y1) mod r).
        * rewrite <- LD. destruct (low_eq x1) as [k1 ->]. destruct (low_eq x2) as [k2 ->]. apply (shift _ _ (l * (k2 - k1))). ring.
        * apply Zminus_mod.
  Qed.

  Hypothesis G_on : on_curve C (G C).
  Definition held (e : entry) : Prop := let '(m, x, y) := e in multiple C (Pos.to_nat m) (G C) = lower x y.
  Lemma jump_held i e e' e3 : held e -> held e' -> jump_entry N A red i e e' = Some e3 -> held e3.
  Proof.
    destruct e as [[m x] y], e' as [[m' x'] y']. unfold jump_entry. cbn [held]. intros H H' E.
    destruct (jump _ _ _ _ _ _ _ _) as [[x3 y3]|] eqn:L; [|discriminate]. injection E as <-. cbn [held].
    rewrite Pos2Nat.inj_add, (multiple_add C C_ok) by exact G_on. rewrite H, H'.
    apply (jump_add i); [rewrite <- H; apply (multiple_on C C_ok), G_on|rewrite <- H'; apply (multiple_on C C_ok), G_on|exact L].
  Qed.
  Lemma travel_held base ms : held base -> forall e e', held e -> travel N A red base ms e = Some e' -> held e'.
  Proof.
    intros HB. induction ms as [|m ms IH]; intros e e' He E; cbn [travel] in E; [injection E as <-; exact He|].
    destruct m as [l|i l]; (destruct (jump_entry _ _ _ _ _ _) as [f|] eqn:M; [|discriminate]).
    - exact (IH f e' (jump_held l e e f He He M) E).
    - exact (IH f e' (jump_held l e base f He HB M) E).
  Qed.
  Lemma arrives_kills q ms : arrives N A X Y red q ms = true -> kills C (Zpos q) (G C).
  Proof.
    unfold arrives. assert (H1 : held (1%positive, X, Y)) by (cbn [held]; apply add_Infinity_r).
    destruct (travel _ _ _ _ _ _) as [[[m x] y]|] eqn:W; [|discriminate]. apply (travel_held _ ms H1) in W; [|exact H1].
    intros E. apply andb_true_iff in E. destruct E as [E EY]. apply andb_true_iff in E. destruct E as [E EX].
    apply Pos.eqb_eq in E. apply Z.eqb_eq in EX. apply Z.eqb_eq in EY. subst q x. split; [lia|].
    change (Z.to_nat (Zpos (Pos.succ m))) with (Pos.to_nat (Pos.succ m)). cbn [held] in W.
    rewrite Pos2Nat.inj_succ. cbn [multiple]. rewrite W. pose proof r_pos.
    unfold G, lower. cbn [add gx gy reduced_curve p]. rewrite Z.eqb_refl.
    rewrite <- Zplus_mod. replace ((Y + y) mod r) with 0; [reflexivity|]. symmetry.
    rewrite (mod_N_r (Y + y) 0) by (rewrite EY, Z.mod_0_l; lia). apply Z.mod_0_l. lia.
  Qed.

  Lemma order_bound q ms : prime (Zpos q) -> arrives N A X Y red q ms = true -> Zpos q <= 2 * r + 1.
  Proof.
    intros Hq HA. pose proof (arrives_kills q ms HA) as K. pose proof r_pos as RP.
    destruct (few_points C C_ok) as (l & ND & I & L). cbn [p reduced_curve] in L.
    assert (KN : kills C (Z.of_nat (length l)) (G C)).
    { split; [lia|]. rewrite Nat2Z.id. apply all_killed; [exact C_ok|exact ND|exact I|exact G_on]. }
    apply (prime_kills C C_ok (Zpos q)) in KN; [|exact Hq|exact G_on|discriminate|exact K|lia].
    apply Z.divide_pos_le in KN; [lia|]. assert (In Infinity l) by (apply I; exact Logic.I). destruct l; [contradiction|]. cbn [length]. lia.
  Qed.
End Factor.

Theorem ecpp N A B X Y red q ms u v : (forall x, red x mod N = x mod N) ->
  1 < N -> N mod 2 = 1 -> u * (4 * A ^ 3 + 27 * B ^ 2) + v * N = 1 ->
  (Y ^ 2 - (X ^ 3 + A * X + B)) mod N = 0 -> prime (Zpos q) -> 4 * N < (Zpos q - 1) * (Zpos q - 1) ->
  arrives N A X Y red q ms = true -> prime N.
Proof.
  intros Hr HN H2 HD HO Hq HS HA. destruct (prime_dec N) as [H|H]; [exact H|exfalso].
  destruct (small_prime_divisor N HN H) as (r & Pr & Dr & Lr). pose proof (prime_ge_2 r Pr) as R2.
  assert (R2' : r <> 2) by (intros ->; apply Z.mod_divide in Dr; lia).
  assert (DD : (4 * A ^ 3 + 27 * B ^ 2) mod r <> 0).
  { intros Z0. apply Z.mod_divide in Z0; [|lia]. assert (D1 : (r | 1)).
    { rewrite <- HD. apply Z.divide_add_r; [apply Z.divide_mul_r; exact Z0|apply Z.divide_mul_r; exact Dr]. }
    apply Z.divide_1_r_nonneg in D1; lia. }
  assert (HG : on_curve (reduced_curve A B r X Y) (G (reduced_curve A B r X Y))).
  { split; [apply Z.mod_pos_bound; cbn; lia|]. split; [apply Z.mod_pos_bound; cbn; lia|]. cbn [p a b gx gy reduced_curve].
    assert (E : (Y ^ 2 - (X ^ 3 + A * X + B)) mod r = 0).
    { rewrite (mod_N_r N A B r HN Pr R2' Dr _ 0); [apply Z.mod_0_l; lia|]. rewrite HO. symmetry. apply Z.mod_0_l. lia. }
    rewrite <- Zpower_mod by lia.
    transitivity ((X ^ 3 + A * X + B) mod r).
    - replace (Y ^ 2) with ((Y ^ 2 - (X ^ 3 + A * X + B)) + (X ^ 3 + A * X + B)) by ring. rewrite <- Zplus_mod_idemp_l, E. reflexivity.
    - symmetry. destruct (low_eq A B r Pr R2' X) as [k ->].
      apply (shift A B r Pr R2' _ _ (3 * X * X * k + 3 * X * k * k * r + k * k * k * r * r + A * k)). ring. }
  pose proof (order_bound N A B r red Hr HN Pr R2' Dr X Y DD HG q ms Hq HA) as K. nia.
Qed.

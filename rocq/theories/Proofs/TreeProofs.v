(** Questions to two tables of random values, chosen adaptively: the probability that one of
    the answers is bad. *)
From Coq Require Import List ZArith QArith Qabs Lqa Lia Bool Arith Setoid.
From Verif.Base Require Import Res Oracles.
From Verif.Spec Require Import FIPS203 Domains Noise Counting Random Lwe Attacker Tables.
From Verif.Proofs Require Import Basics CountProofs TailProofs FailureProofs LweProofs AttackerProofs TableProofs.
Import ListNotations.
Open Scope Q_scope.

(** a question to the first or to the second table, and what follows it *)
Definition question : Type := (list Z + list Z)%type.
Inductive tree :=
  | Done
  | Look (x : question) (next : list Z -> tree).
Definition question_eq (x y : question) : {x = y} + {x <> y}.
Proof. decide equality; apply (list_eq_dec Z.eq_dec). Defined.

Section Trees.
  Variables D1 D2 L : list (list Z).
  Variables L1 L2 : list (list (list Z)).
  Hypothesis N1 : NoDup D1.
  Hypothesis N2 : NoDup D2.
  Hypothesis NL : NoDup L.
  Hypothesis HL : L <> [].
  Hypothesis H1 : all_tables D1 L L1.
  Hypothesis H2 : all_tables D2 L L2.

  Definition known (x : question) : Prop := match x with inl m => In m D1 | inr c => In c D2 end.
  Definition value (w : list (list Z) * list (list Z)) (x : question) : list Z :=
    match x with inl m => get D1 (fst w) m | inr c => get D2 (snd w) c end.
  Definition revise (w : list (list Z) * list (list Z)) (x : question) (v : list Z) : list (list Z) * list (list Z) :=
    match x with inl m => (update D1 (fst w) m v, snd w) | inr c => (fst w, update D2 (snd w) c v) end.
  Let LW := list_prod L1 L2.

  Lemma value_revise w x v y : known y -> value (revise w x v) y = if question_eq y x then v else value w y.
  Proof.
    intros Hy. destruct x as [m|c], y as [m'|c']; cbn [value revise fst snd known] in *;
      destruct (question_eq _ _) as [E|N]; try discriminate E; try reflexivity.
    - injection E as ->. apply get_updated, Hy.
    - apply get_other; [exact Hy|congruence].
    - injection E as ->. apply get_updated, Hy.
    - apply get_other; [exact Hy|congruence].
  Qed.
  Lemma revised x f : known x -> average LW f == average LW (fun w => average L (fun v => f (revise w x v))).
  Proof.
    intros Hx. unfold LW.
    assert (P : forall g : list (list Z) * list (list Z) -> Q, average (list_prod L1 L2) g == average L1 (fun a => average L2 (fun b => g (a, b)))).
    { intros g. rewrite <- (average_prod L1 L2 (fun a b => g (a, b))). apply average_ext. intros [a b] _. reflexivity. }
    rewrite !P. destruct x as [m|c]; cbn [known revise fst snd] in *.
    - rewrite (resample D1 L L1 N1 NL HL H1 m) by exact Hx. apply average_ext. intros a _. apply average_swap.
    - apply average_ext. intros a _. exact (resample D2 L L2 N2 NL HL H2 c (fun b => f (a, b)) Hx).
  Qed.

  Variable bad : question -> list Z -> bool.
  Variable delta : Q.
  Hypothesis Hdelta : 0 <= delta.
  Hypothesis Hbad : forall x, known x -> average L (fun v => one_if (bad x v)) <= delta.

  (** is one of the answers bad? *)
  Fixpoint hits (w : list (list Z) * list (list Z)) (t : tree) : bool :=
    match t with
    | Done => false
    | Look x next => bad x (value w x) || hits w (next (value w x))
    end.
  (** at most [q] questions, all known *)
  Fixpoint bounded (q : nat) (t : tree) {struct t} : Prop :=
    match t with
    | Done => True
    | Look x next => match q with O => False | S q' => known x /\ forall v, In v L -> bounded q' (next v) end
    end.
  Lemma bounded_more q q' t : (q <= q')%nat -> bounded q t -> bounded q' t.
  Proof.
    revert q q'. induction t as [|x next IH]; intros q q' Hq; [intros _; exact I|]. cbn [bounded].
    destruct q as [|q]; [intros []|]. destruct q' as [|q']; [inversion Hq|]. intros [Hx Hn]. split; [exact Hx|].
    intros v Hv. apply (IH v q); [lia|apply Hn, Hv].
  Qed.

  Definition fix_at (ps : list (question * list Z)) (w : list (list Z) * list (list Z)) :=
    fold_right (fun p w => revise w (fst p) (snd p)) w ps.
  Lemma fix_at_last ps x v w : fix_at (ps ++ [(x, v)]) w = fix_at ps (revise w x v).
  Proof. unfold fix_at. rewrite fold_right_app. reflexivity. Qed.
  Lemma fix_at_in ps x : known x -> In x (map fst ps) -> exists v, In (x, v) ps /\ forall w, value (fix_at ps w) x = v.
  Proof.
    intros Hx. induction ps as [|[y v] ps IH]; intros I; [contradiction|]. destruct (question_eq x y) as [->|N].
    - exists v. split; [left; reflexivity|]. intros w. cbn [fix_at fold_right fst snd]. rewrite value_revise by exact Hx.
      destruct (question_eq y y); [reflexivity|contradiction].
    - destruct I as [I|I]; [cbn [fst] in I; congruence|]. destruct (IH I) as (u & Iu & Eu). exists u. split; [right; exact Iu|].
      intros w. cbn [fix_at fold_right fst snd]. rewrite value_revise by exact Hx. destruct (question_eq x y); [contradiction|apply Eu].
  Qed.
  Lemma fix_at_out ps x w : known x -> ~ In x (map fst ps) -> value (fix_at ps w) x = value w x.
  Proof.
    intros Hx. induction ps as [|[y v] ps IH]; intros N; [reflexivity|]. cbn [fix_at fold_right fst snd].
    rewrite value_revise by exact Hx. destruct (question_eq x y) as [->|_]; [exfalso; apply N; left; reflexivity|].
    apply IH. intros I. apply N. right. exact I.
  Qed.

  Lemma hits_fixed t : forall q ps, bounded q t -> (forall p, In p ps -> In (snd p) L /\ bad (fst p) (snd p) = false) ->
    average LW (fun w => one_if (hits (fix_at ps w) t)) <= inject_Z (Z.of_nat q) * delta.
  Proof.
    assert (Q0 : forall q, 0 <= inject_Z (Z.of_nat q) * delta).
    { intros q. apply Qmult_le_0_compat; [|exact Hdelta]. unfold Qle. cbn [Qnum Qden inject_Z]. lia. }
    induction t as [|x next IH]; intros q ps Hb Hps.
    - apply average_bound; [apply Q0|]. intros w _. apply Q0.
    - cbn [bounded] in Hb. destruct q as [|q]; [contradiction|]. destruct Hb as [Hx Hn].
      assert (step : inject_Z (Z.of_nat (S q)) * delta == delta + inject_Z (Z.of_nat q) * delta).
      { rewrite Nat2Z.inj_succ, <- Z.add_1_r, inject_Z_plus. ring. }
      rewrite step. destruct (in_dec question_eq x (map fst ps)) as [I|N].
      + destruct (fix_at_in ps x Hx I) as (v & Iv & Ev). destruct (Hps _ Iv) as [Hv Fv]. cbn [fst snd] in Hv, Fv.
        apply Qle_trans with (0 + inject_Z (Z.of_nat q) * delta); [|apply Qplus_le_compat; [exact Hdelta|apply Qle_refl]].
        rewrite Qplus_0_l. eapply Qle_trans; [|exact (IH v q ps (Hn v Hv) Hps)].
        apply average_le. intros w _. cbn [hits]. rewrite Ev, Fv. apply Qle_refl.
      + rewrite (revised x _ Hx), average_swap.
        eapply Qle_trans; [|apply Qplus_le_compat; [exact (Hbad x Hx)|apply Qle_refl]].
        assert (up : forall g, (forall v, In v L -> g v <= one_if (bad x v) + inject_Z (Z.of_nat q) * delta) ->
          average L g <= average L (fun v => one_if (bad x v)) + inject_Z (Z.of_nat q) * delta).
        { intros g Hg. eapply Qle_trans; [apply average_le; exact Hg|]. rewrite average_plus, (average_const L _ HL). apply Qle_refl. }
        apply up. clear up. intros v Hv.
        assert (Ev : forall w, value (fix_at ps (revise w x v)) x = v).
        { intros w. rewrite (fix_at_out ps x _ Hx N), value_revise by exact Hx. destruct (question_eq x x); [reflexivity|contradiction]. }
        destruct (bad x v) eqn:Fv; cbn [one_if].
        * apply Qle_trans with (1 + 0); [|apply Qplus_le_compat; [apply Qle_refl|apply Q0]].
          apply average_bound; [discriminate|]. intros w _. rewrite Qplus_0_r. apply one_if_range.
        * rewrite Qplus_0_l. eapply Qle_trans; [|apply (IH v q (ps ++ [(x, v)]) (Hn v Hv))].
          -- apply average_le. intros w _. rewrite fix_at_last. cbn [hits]. rewrite Ev, Fv. apply Qle_refl.
          -- intros p Hp. apply in_app_or in Hp. destruct Hp as [Hp|[<-|[]]]; [apply Hps, Hp|]. split; [exact Hv|exact Fv].
  Qed.
End Trees.

(** The probability that one of [q] adaptive questions other than [x0] is answered with the
    value at [x0], where the questions may depend on that value. *)
Lemma repeats D1 D2 L L1 L2 x0 (t : list Z -> tree) q : NoDup D1 -> NoDup D2 -> enumerates 32 L ->
  all_tables D1 L L1 -> all_tables D2 L L2 -> known D1 D2 x0 -> (forall v, In v L -> bounded D1 D2 L q (t v)) ->
  average L1 (fun T1 => average L2 (fun T2 =>
    let v0 := value D1 D2 (T1, T2) x0 in
    one_if (hits D1 D2 (fun x v => if question_eq x x0 then false else if list_eq_dec Z.eq_dec v v0 then true else false) (T1, T2) (t v0)))) <=
  inject_Z (Z.of_nat q) / inject_Z (2 ^ 256).
Proof.
  intros N1 N2 HL H1 H2 Hx0 Hb. assert (NL : L <> []).
  { intros Q. pose proof (enumerates_length 32 L HL) as E. rewrite Q in E. discriminate E. }
  set (bad v0 := fun x v => if question_eq x x0 then false else if list_eq_dec Z.eq_dec v v0 then true else false).
  assert (E : average L1 (fun T1 => average L2 (fun T2 =>
    one_if (hits D1 D2 (bad (value D1 D2 (T1, T2) x0)) (T1, T2) (t (value D1 D2 (T1, T2) x0))))) ==
    average (list_prod L1 L2) (fun w => one_if (hits D1 D2 (bad (value D1 D2 w x0)) w (t (value D1 D2 w x0))))).
  { rewrite <- (average_prod L1 L2 (fun T1 T2 => one_if (hits D1 D2 (bad (value D1 D2 (T1, T2) x0)) (T1, T2) (t (value D1 D2 (T1, T2) x0))))).
    apply average_ext. intros [a b] _. reflexivity. }
  eapply Qle_trans; [apply Qle_lteq; right; exact E|]. clear E.
  rewrite (revised D1 D2 L L1 L2 N1 N2 (proj1 HL) NL H1 H2 x0 _ Hx0), average_swap.
  set (delta := 1 / inject_Z (2 ^ 256)).
  assert (Ed : inject_Z (Z.of_nat q) / inject_Z (2 ^ 256) == inject_Z (Z.of_nat q) * delta) by (unfold delta, Qdiv; ring).
  rewrite Ed.
  assert (D0 : 0 <= delta) by (unfold delta; discriminate).
  assert (Q0 : 0 <= inject_Z (Z.of_nat q) * delta).
  { apply Qmult_le_0_compat; [|exact D0]. unfold Qle. cbn [Qnum Qden inject_Z]. lia. }
  apply average_bound; [exact Q0|]. intros v0 Hv0.
  assert (Ev : forall w, value D1 D2 (revise D1 D2 w x0 v0) x0 = v0).
  { intros w. rewrite value_revise by exact Hx0. destruct (question_eq x0 x0); [reflexivity|contradiction]. }
  eapply Qle_trans; [|apply (hits_fixed D1 D2 L L1 L2 N1 N2 (proj1 HL) NL H1 H2 (bad v0) delta D0) with (t := t v0) (ps := [(x0, v0)])].
  - apply average_le. intros w _. rewrite Ev. apply Qle_refl.
  - intros x _. unfold bad, delta. destruct (question_eq x x0).
    + rewrite average_const by exact NL. discriminate.
    + pose proof (average_points (fun v => v) [v0] 1 L HL (le_n 1)) as Q. eapply Qle_trans; [|exact Q].
      apply average_le. intros v _. unfold points. cbn [existsb].
      destruct (list_eq_dec Z.eq_dec v v0) as [->|_]; [|apply one_if_range].
      destruct (list_eq_dec Z.eq_dec v0 v0); [apply Qle_refl|contradiction].
  - apply Hb, Hv0.
  - intros p [<-|[]]. cbn [fst snd]. split; [exact Hv0|]. unfold bad. destruct (question_eq x0 x0); [reflexivity|contradiction].
Qed.

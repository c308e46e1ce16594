(** A type system for the language of Spec/Leakage.v: in a typed program branch conditions
    and array indices depend only on public variables and array lengths.  Soundness: two
    runs of a typed program from states that agree on public variables and array lengths
    show the observer the same events. *)
From Coq Require Import List ZArith Lia Bool String Arith.
From Verif.Base Require Import Res.
From Verif.Spec Require Import Leakage.
From Verif.Proofs Require Import Basics.
Import ListNotations.
Open Scope Z_scope.

Section Typing.
  (** the public variables *)
  Variable pub : string -> bool.

  (** [Some true]: public value; [Some false]: secret value; [None]: leaks an index *)
  Fixpoint level (e : expr) : option bool :=
    match e with
    | Const _ | Len _ => Some true
    | Var x => Some (pub x)
    | Load _ i => match level i with Some true => Some false | _ => None end
    | Not8 e => level e
    | Bin _ e1 e2 =>
        match level e1, level e2 with
        | Some l1, Some l2 => Some (l1 && l2)
        | _, _ => None
        end
    end.

  Fixpoint typed (p : stmt) : bool :=
    match p with
    | Skip => true
    | Assign x e => match level e with Some l => l || negb (pub x) | None => false end
    | Store _ i e =>
        match level i, level e with Some true, Some _ => true | _, _ => false end
    | Seq p q => typed p && typed q
    | If e p q => match level e with Some true => typed p && typed q | _ => false end
    | While e p => match level e with Some true => typed p | _ => false end
    end.

  Definition low_eq (s1 s2 : state) : Prop :=
    (forall x, pub x = true -> vars s1 x = vars s2 x) /\
    (forall a, List.length (arrs s1 a) = List.length (arrs s2 a)).

  (** the same events, and outcomes related by [R] or equal failures *)
  Definition same {A} (R : A -> A -> Prop) (m1 m2 : leaky A) : Prop :=
    fst m1 = fst m2 /\
    match snd m1, snd m2 with
    | Ok a1, Ok a2 => R a1 a2
    | Panic, Panic | UB, UB | NoFuel, NoFuel => True
    | _, _ => False
    end.

  Lemma same_bind {A B} (R : A -> A -> Prop) (T : B -> B -> Prop) m1 m2 f1 f2 :
    same R m1 m2 -> (forall a1 a2, R a1 a2 -> same T (f1 a1) (f2 a2)) ->
    same T (lbind m1 f1) (lbind m2 f2).
  Proof.
    intros [E H] F. unfold same, lbind.
    destruct (snd m1) as [a1| | |], (snd m2) as [a2| | |]; try contradiction; cbn [fst snd].
    - destruct (F a1 a2 H) as [E' H']. rewrite E, E'. split; [reflexivity|exact H'].
    - split; [exact E|exact I].
    - split; [exact E|exact I].
    - split; [exact E|exact I].
  Qed.
  Lemma same_ret {A} (R : A -> A -> Prop) a1 a2 : R a1 a2 -> same R (lret a1) (lret a2).
  Proof. intros H. split; [reflexivity|exact H]. Qed.
  Lemma same_emit e : same (fun _ _ => True) (emit e) (emit e).
  Proof. split; [reflexivity|exact I]. Qed.

  Definition val_eq (l : bool) (v1 v2 : Z) : Prop := l = true -> v1 = v2.

  Lemma level_sound s1 s2 : low_eq s1 s2 -> forall e l, level e = Some l ->
    same (val_eq l) (eval s1 e) (eval s2 e).
  Proof.
    intros [Hv Ha]. induction e as [z|x|a i IH|a|e IH|o e1 IH1 e2 IH2]; intros l E; cbn [level eval] in *.
    - apply same_ret. intros _. reflexivity.
    - apply same_ret. injection E as <-. intros P. apply Hv, P.
    - destruct (level i) as [[|]|]; try discriminate. injection E as <-.
      eapply same_bind; [apply IH; reflexivity|]. intros v1 v2 V. rewrite (V eq_refl). unfold load.
      eapply same_bind; [apply same_emit|]. intros _ _ _. split; [reflexivity|]. cbn [snd]. rewrite (Ha a).
      destruct ((0 <=? v2) && (v2 <? Z.of_nat (List.length (arrs s2 a)))); [|exact I]. intros W. discriminate W.
    - apply same_ret. intros _. rewrite (Ha a). reflexivity.
    - eapply same_bind; [apply IH; exact E|]. intros v1 v2 V. apply same_ret. intros T. rewrite (V T). reflexivity.
    - destruct (level e1) as [l1|]; [|discriminate]. destruct (level e2) as [l2|]; [|discriminate].
      injection E as <-. eapply same_bind; [apply IH1; reflexivity|]. intros v1 v2 V.
      eapply same_bind; [apply IH2; reflexivity|]. intros w1 w2 W. apply same_ret. intros T.
      apply andb_true_iff in T. rewrite (V (proj1 T)), (W (proj2 T)). reflexivity.
  Qed.

  Lemma set_nth_length {A} (l : list A) : forall i v, List.length (set_nth l i v) = List.length l.
  Proof. induction l as [|x l IH]; intros [|i] v; cbn [set_nth List.length]; try reflexivity. now rewrite IH. Qed.

  Theorem typed_sound fuel : forall p s1 s2, typed p = true -> low_eq s1 s2 ->
    same low_eq (exec fuel p s1) (exec fuel p s2).
  Proof.
    induction fuel as [|fuel IH]; intros p s1 s2 T L; [split; [reflexivity|exact I]|].
    destruct p as [|x e|a i e|p q|e p q|e p]; cbn [typed] in T.
    - apply same_ret, L.
    - cbn [exec]. destruct (level e) as [l|] eqn:E; [|discriminate].
      eapply same_bind; [apply (level_sound _ _ L _ _ E)|]. intros v1 v2 V. apply same_ret.
      split; [|apply L]. intros y Py. cbn [vars set_var]. destruct (String.eqb_spec x y) as [<-|N]; [|apply L, Py].
      apply V. rewrite Py in T. destruct l; [reflexivity|discriminate].
    - cbn [exec]. destruct (level i) as [[|]|] eqn:Ei; try discriminate. destruct (level e) as [l|] eqn:Ee; [|discriminate].
      eapply same_bind; [apply (level_sound _ _ L _ _ Ei)|]. intros i1 i2 V. rewrite (V eq_refl).
      eapply same_bind; [apply (level_sound _ _ L _ _ Ee)|]. intros v1 v2 _. unfold store.
      eapply same_bind; [apply same_emit|]. intros _ _ _. split; [reflexivity|]. cbn [snd].
      pose proof (proj2 L) as La. rewrite (La a).
      destruct ((0 <=? i2) && (i2 <? Z.of_nat (List.length (arrs s2 a)))); [|exact I].
      split; [apply L|]. intros b. cbn [arrs set_arr]. destruct (String.eqb a b); [|apply La].
      rewrite !set_nth_length. apply La.
    - cbn [exec]. apply andb_true_iff in T. eapply same_bind; [apply IH; [apply T|exact L]|].
      intros t1 t2 L'. apply IH; [apply T|exact L'].
    - cbn [exec]. destruct (level e) as [[|]|] eqn:E; try discriminate. apply andb_true_iff in T.
      eapply same_bind; [apply (level_sound _ _ L _ _ E)|]. intros v1 v2 V. rewrite (V eq_refl).
      eapply same_bind; [apply same_emit|]. intros _ _ _. destruct (v2 =? 0); apply IH; try exact L; apply T.
    - cbn [exec]. destruct (level e) as [[|]|] eqn:E; try discriminate.
      eapply same_bind; [apply (level_sound _ _ L _ _ E)|]. intros v1 v2 V. rewrite (V eq_refl).
      eapply same_bind; [apply same_emit|]. intros _ _ _. destruct (v2 =? 0); [apply same_ret, L|].
      eapply same_bind; [apply IH; [exact T|exact L]|]. intros t1 t2 L'. apply IH; [|exact L'].
      cbn [typed]. rewrite E. exact T.
  Qed.
End Typing.

(** * Composition of runs *)
Lemma lbind_ok {A B} (m : leaky A) (f : A -> leaky B) t a : m = (t, Ok a) ->
  lbind m f = (t ++ fst (f a), snd (f a)).
Proof. intros ->. reflexivity. Qed.

Lemma lbind_inv {A B} (m : leaky A) (f : A -> leaky B) t b : lbind m f = (t, Ok b) ->
  exists t1 a t2, m = (t1, Ok a) /\ f a = (t2, Ok b) /\ t = t1 ++ t2.
Proof.
  destruct m as [t1 r]. unfold lbind. cbn [fst snd]. destruct r as [a| | |]; intros E; try discriminate.
  exists t1, a, (fst (f a)). split; [reflexivity|]. assert (E1 := f_equal fst E). assert (E2 := f_equal snd E).
  cbn [fst snd] in E1, E2. split; [|symmetry; exact E1]. rewrite <- E2. destruct (f a); reflexivity.
Qed.

Lemma exec_mono fuel : forall p s t s', exec fuel p s = (t, Ok s') ->
  forall fuel', (fuel <= fuel')%nat -> exec fuel' p s = (t, Ok s').
Proof.
  induction fuel as [|fuel IH]; intros p s t s' E fuel' Hle; [discriminate|].
  destruct fuel' as [|fuel']; [lia|]. apply le_S_n in Hle.
  destruct p as [|x e|a i e|p q|e p q|e p].
  - exact E.
  - exact E.
  - exact E.
  - cbn [exec] in *. apply lbind_inv in E as (t1 & s1 & t2 & E1 & E2 & ->).
    erewrite lbind_ok by (apply (IH _ _ _ _ E1 _ Hle)). rewrite (IH _ _ _ _ E2 _ Hle). reflexivity.
  - cbn [exec] in *. apply lbind_inv in E as (t1 & v & t2 & E1 & E2 & ->).
    apply lbind_inv in E2 as (t3 & u & t4 & E2 & E3 & ->).
    erewrite lbind_ok by exact E1. erewrite lbind_ok by exact E2.
    destruct (v =? 0); rewrite (IH _ _ _ _ E3 _ Hle); reflexivity.
  - cbn [exec] in *. apply lbind_inv in E as (t1 & v & t2 & E1 & E2 & ->).
    apply lbind_inv in E2 as (t3 & u & t4 & E2 & E3 & ->).
    erewrite lbind_ok by exact E1. erewrite lbind_ok by exact E2.
    destruct (v =? 0); [rewrite E3; reflexivity|].
    apply lbind_inv in E3 as (t5 & s1 & t6 & E3 & E4 & ->).
    erewrite lbind_ok by (apply (IH _ _ _ _ E3 _ Hle)). rewrite (IH _ _ _ _ E4 _ Hle). reflexivity.
Qed.

Lemma runs_seq p q s t1 s1 t2 s2 : runs p s t1 s1 -> runs q s1 t2 s2 -> runs (Seq p q) s (t1 ++ t2) s2.
Proof.
  intros [f1 E1] [f2 E2]. exists (S (Nat.max f1 f2)). cbn [exec].
  erewrite lbind_ok by (apply (exec_mono _ _ _ _ _ E1); lia).
  rewrite (exec_mono _ _ _ _ _ E2) by lia. reflexivity.
Qed.
Lemma runs_assign x e s t v : eval s e = (t, Ok v) -> runs (Assign x e) s t (set_var s x v).
Proof. intros E. exists 1%nat. cbn [exec]. rewrite E. cbn. rewrite app_nil_r. reflexivity. Qed.
Lemma runs_store a i e s t1 t2 vi v : eval s i = (t1, Ok vi) -> eval s e = (t2, Ok v) ->
  0 <= vi < Z.of_nat (List.length (arrs s a)) ->
  runs (Store a i e) s (t1 ++ t2 ++ [Write a vi]) (set_arr s a (set_nth (arrs s a) (Z.to_nat vi) v)).
Proof.
  intros E1 E2 Hv. exists 1%nat. cbn [exec]. rewrite (lbind_ok _ _ _ _ E1), (lbind_ok _ _ _ _ E2).
  unfold store, lbind, emit. cbn [fst snd].
  rewrite (proj2 (Z.leb_le _ _)) by lia. rewrite (proj2 (Z.ltb_lt _ _)) by lia. reflexivity.
Qed.
Lemma runs_while_stop e p s t : eval s e = (t, Ok 0) -> runs (While e p) s (t ++ [Branch false]) s.
Proof. intros E. exists 1%nat. cbn [exec]. rewrite (lbind_ok _ _ _ _ E). reflexivity. Qed.
Lemma runs_while_step e p s t v t1 s1 t2 s2 : eval s e = (t, Ok v) -> v <> 0 ->
  runs p s t1 s1 -> runs (While e p) s1 t2 s2 ->
  runs (While e p) s (t ++ [Branch true] ++ t1 ++ t2) s2.
Proof.
  intros E N [f1 E1] [f2 E2]. exists (S (Nat.max f1 f2)). cbn [exec]. rewrite (lbind_ok _ _ _ _ E).
  rewrite (proj2 (Z.eqb_neq _ _) N). rewrite (lbind_ok (emit (Branch (negb false))) _ [Branch true] tt eq_refl).
  erewrite lbind_ok by (apply (exec_mono _ _ _ _ _ E1); lia).
  rewrite (exec_mono _ _ _ _ _ E2) by lia. cbn [fst snd]. reflexivity.
Qed.
Lemma runs_det p s t1 s1 t2 s2 : runs p s t1 s1 -> runs p s t2 s2 -> t1 = t2 /\ s1 = s2.
Proof.
  intros [f1 E1] [f2 E2].
  pose proof (exec_mono _ _ _ _ _ E1 (Nat.max f1 f2) ltac:(lia)) as F1.
  pose proof (exec_mono _ _ _ _ _ E2 (Nat.max f1 f2) ltac:(lia)) as F2.
  rewrite F1 in F2. split; [exact (f_equal fst F2)|]. apply (f_equal snd) in F2. cbn [snd] in F2. apply Ok_inj, F2.
Qed.

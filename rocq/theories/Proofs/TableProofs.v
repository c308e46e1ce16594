(** Tables: entries, updates, resampling of one entry, exchanging entries of two tables, and
    questions to a table chosen adaptively. *)
From Coq Require Import List ZArith QArith Qabs Lqa Lia Bool Arith Setoid Permutation.
From Verif.Base Require Import Res Oracles.
From Verif.Spec Require Import FIPS203 Domains Noise Counting Random Lwe Attacker Tables.
From Verif.Proofs Require Import Basics CountProofs TailProofs FailureProofs LweProofs AttackerProofs.
Import ListNotations.
Open Scope Q_scope.

(** ** averages over pairs *)
Lemma total_app {A} (L M : list A) f : total (L ++ M) f == total L f + total M f.
Proof.
  induction L as [|x L IH]; cbn [app].
  - change (total [] f) with 0. ring.
  - change (f x + total (L ++ M) f == f x + total L f + total M f). rewrite IH. ring.
Qed.
Lemma average_prod {A B} (LA : list A) (LB : list B) f :
  average (list_prod LA LB) (fun p => f (fst p) (snd p)) == average LA (fun a => average LB (fun b => f a b)).
Proof.
  assert (T : total (list_prod LA LB) (fun p => f (fst p) (snd p)) == total LA (fun a => total LB (fun b => f a b))).
  { induction LA as [|a LA IH]; [reflexivity|]. cbn [list_prod]. rewrite total_app, IH, total_map. reflexivity. }
  unfold average at 1. rewrite T, prod_length, Nat2Z.inj_mul, inject_Z_mult.
  unfold average, Qdiv. rewrite Qinv_mult_distr.
  transitivity (total LA (fun a => / inject_Z (Z.of_nat (length LB)) * total LB (fun b => f a b)) * / inject_Z (Z.of_nat (length LA))).
  - rewrite total_scale. ring.
  - apply Qmult_comp; [|reflexivity]. apply total_ext. intros a _. ring.
Qed.
Lemma NoDup_prod {A B} (LA : list A) (LB : list B) : NoDup LA -> NoDup LB -> NoDup (list_prod LA LB).
Proof.
  intros NA NB. induction NA as [|a LA Ha NA IH]; cbn [list_prod]; [constructor|].
  apply NoDup_app_disj; [|exact IH|].
  - apply FinFun.Injective_map_NoDup; [|exact NB]. intros x y H. congruence.
  - intros [x y] H1 H2. apply in_map_iff in H1. destruct H1 as (b & E & _). apply in_prod_iff in H2.
    assert (x = a) by congruence. subst x. apply Ha, H2.
Qed.
(** an involution on pairs leaves averages unchanged *)
Lemma average_involution {A B} (LA : list A) (LB : list B) (g : A -> B -> A) (h : A -> B -> B) f : NoDup LA -> NoDup LB ->
  (forall a b, In a LA -> In b LB -> In (g a b) LA /\ In (h a b) LB /\ g (g a b) (h a b) = a /\ h (g a b) (h a b) = b) ->
  average LA (fun a => average LB (fun b => f a b)) == average LA (fun a => average LB (fun b => f (g a b) (h a b))).
Proof.
  intros NA NB H. rewrite <- !average_prod.
  pose (gh := fun p : A * B => (g (fst p) (snd p), h (fst p) (snd p))).
  symmetry. apply (average_bij (list_prod LA LB) (list_prod LA LB) gh gh (fun p => f (fst p) (snd p)));
    try (apply NoDup_prod; assumption); intros [a b] I; apply in_prod_iff in I; destruct I as [Ia Ib];
    destruct (H a b Ia Ib) as (H1 & H2 & H3 & H4); unfold gh; cbn [fst snd]; (split; [apply in_prod; assumption|rewrite H3, H4; reflexivity]).
Qed.
Lemma average_swap4 {A1 A2 A3 A4 J} (L1 : list A1) (L2 : list A2) (L3 : list A3) (L4 : list A4) (LJ : list J) f :
  average L1 (fun a => average L2 (fun b => average L3 (fun c => average L4 (fun d => average LJ (fun j => f a b c d j))))) ==
  average LJ (fun j => average L1 (fun a => average L2 (fun b => average L3 (fun c => average L4 (fun d => f a b c d j))))).
Proof.
  transitivity (average L1 (fun a => average L2 (fun b => average L3 (fun c => average LJ (fun j => average L4 (fun d => f a b c d j)))))).
  { do 3 (apply average_ext; intros ? _). apply average_swap. }
  transitivity (average L1 (fun a => average L2 (fun b => average LJ (fun j => average L3 (fun c => average L4 (fun d => f a b c d j)))))).
  { do 2 (apply average_ext; intros ? _). apply average_swap. }
  transitivity (average L1 (fun a => average LJ (fun j => average L2 (fun b => average L3 (fun c => average L4 (fun d => f a b c d j)))))).
  { apply average_ext; intros ? _. apply average_swap. }
  apply average_swap.
Qed.

(** ** entries *)
Definition get (D T : list (list Z)) (x : list Z) : list Z := match entry D T x with Some v => v | None => [] end.
Definition fill (D : list (list Z)) (f : list Z -> list Z) : list (list Z) := map f D.

Lemma entry_some D T x : length T = length D -> In x D -> exists v, entry D T x = Some v /\ In v T.
Proof.
  revert T. induction D as [|y D IH]; intros T E I; [contradiction|]. destruct T as [|v T]; [discriminate E|].
  cbn [entry]. destruct (list_eq_dec Z.eq_dec x y) as [->|N]; [exists v; split; [reflexivity|left; reflexivity]|].
  destruct I as [I|I]; [congruence|]. destruct (IH T) as (w & H1 & H2); [cbn [length] in E; lia|exact I|].
  exists w. split; [exact H1|right; exact H2].
Qed.
Lemma entry_none D T x : ~ In x D -> entry D T x = None.
Proof.
  revert T. induction D as [|y D IH]; intros T N; [reflexivity|]. destruct T as [|v T]; [reflexivity|]. cbn [entry].
  destruct (list_eq_dec Z.eq_dec x y) as [->|_]; [exfalso; apply N; left; reflexivity|]. apply IH. intros I. apply N. right. exact I.
Qed.
Lemma entry_in D T x v : entry D T x = Some v -> In x D.
Proof.
  intros E. destruct (in_dec (list_eq_dec Z.eq_dec) x D) as [I|N]; [exact I|]. rewrite entry_none in E by exact N. discriminate E.
Qed.
Lemma entry_get D L T x : table D L T -> In x D -> entry D T x = Some (get D T x).
Proof. intros [HT _] I. unfold get. destruct (entry_some D T x HT I) as (v & E & _). rewrite E. reflexivity. Qed.
Lemma get_in D L T x : table D L T -> In x D -> In (get D T x) L.
Proof.
  intros [HT F] I. unfold get. destruct (entry_some D T x HT I) as (v & E & J). rewrite E.
  rewrite Forall_forall in F. apply F, J.
Qed.
Lemma entry_fill D f x : In x D -> entry D (fill D f) x = Some (f x).
Proof.
  induction D as [|y D IH]; intros I; [contradiction|]. cbn [fill map entry].
  destruct (list_eq_dec Z.eq_dec x y) as [->|N]; [reflexivity|]. destruct I as [I|I]; [congruence|]. apply IH, I.
Qed.
Lemma get_fill D f x : In x D -> get D (fill D f) x = f x.
Proof. intros I. unfold get. rewrite entry_fill by exact I. reflexivity. Qed.
Lemma fill_table D L f : (forall x, In x D -> In (f x) L) -> table D L (fill D f).
Proof.
  intros H. split; [apply map_length|]. apply Forall_forall. intros y I. apply in_map_iff in I. destruct I as (x & <- & I). apply H, I.
Qed.
Lemma fill_ext D f g : (forall x, In x D -> f x = g x) -> fill D f = fill D g.
Proof. apply map_ext_in. Qed.
Lemma fill_get D L T : NoDup D -> table D L T -> fill D (get D T) = T.
Proof.
  intros N [HT _]. revert T HT. induction N as [|x D Hx N IH]; intros T HT; (destruct T as [|v T]; [try reflexivity; discriminate HT|]); [discriminate HT|].
  cbn [fill map]. f_equal.
  - unfold get. cbn [entry]. destruct (list_eq_dec Z.eq_dec x x); [reflexivity|contradiction].
  - rewrite <- (IH T) at 2 by (cbn [length] in HT; lia). apply map_ext_in. intros y Hy. unfold get. cbn [entry].
    destruct (list_eq_dec Z.eq_dec y x) as [->|_]; [contradiction|reflexivity].
Qed.
Lemma table_ext D L T T' : NoDup D -> table D L T -> table D L T' -> (forall x, In x D -> get D T x = get D T' x) -> T = T'.
Proof. intros N H H' E. rewrite <- (fill_get D L T N H), <- (fill_get D L T' N H'). apply fill_ext, E. Qed.

(** ** updates *)
Definition update (D T : list (list Z)) (x v : list Z) : list (list Z) :=
  fill D (fun y => if list_eq_dec Z.eq_dec y x then v else get D T y).
Lemma update_table D L T x v : table D L T -> In v L -> table D L (update D T x v).
Proof. intros H Hv. apply fill_table. intros y Hy. destruct (list_eq_dec Z.eq_dec y x); [exact Hv|apply (get_in D L); assumption]. Qed.
Lemma get_update D T x v y : In y D -> get D (update D T x v) y = if list_eq_dec Z.eq_dec y x then v else get D T y.
Proof. intros I. unfold update. rewrite get_fill by exact I. reflexivity. Qed.
Lemma get_updated D T x v : In x D -> get D (update D T x v) x = v.
Proof. intros I. rewrite get_update by exact I. destruct (list_eq_dec Z.eq_dec x x); [reflexivity|contradiction]. Qed.
Lemma get_other D T x v y : In y D -> y <> x -> get D (update D T x v) y = get D T y.
Proof. intros I N. rewrite get_update by exact I. destruct (list_eq_dec Z.eq_dec y x); [contradiction|reflexivity]. Qed.

Section Tables.
  Variables D L : list (list Z).
  Variable LT : list (list (list Z)).
  Hypothesis ND : NoDup D.
  Hypothesis NL : NoDup L.
  Hypothesis HL : L <> [].
  Hypothesis HLT : all_tables D L LT.

  Lemma tables_nonempty : LT <> [].
  Proof.
    destruct L as [|v L'] eqn:E; [contradiction|]. intros Q.
    assert (I : In (fill D (fun _ => v)) LT).
    { apply HLT. apply fill_table. intros x _. left. reflexivity. }
    rewrite Q in I. destruct I.
  Qed.
  (** one entry may be drawn on its own *)
  Lemma resample x f : In x D -> average LT f == average LT (fun T => average L (fun v => f (update D T x v))).
  Proof.
    intros I.
    transitivity (average LT (fun T => average L (fun _ => f T))).
    { apply average_ext. intros T _. symmetry. apply average_const, HL. }
    apply (average_involution LT L (fun T v => update D T x v) (fun T _ => get D T x) (fun T _ => f T) (proj1 HLT) NL).
    intros T v HT Hv. apply HLT in HT. split; [apply HLT, update_table; assumption|]. split; [apply (get_in D L); assumption|]. split.
    - apply (table_ext D L); [exact ND| |exact HT|].
      + apply update_table; [apply update_table; assumption|apply (get_in D L); assumption].
      + intros y Hy. rewrite get_update by exact Hy. destruct (list_eq_dec Z.eq_dec y x) as [->|N]; [reflexivity|].
        apply get_other; assumption.
    - apply get_updated, I.
  Qed.
End Tables.

(** ** exchanging the entries of two tables along ct : D -> C, where dec : C -> D inverts ct on
    the good elements *)
Section Swap.
  Variables D C L : list (list Z).
  Hypothesis ND : NoDup D.
  Hypothesis NC : NoDup C.
  Variables ct dec : list Z -> list Z.
  Hypothesis Hct : forall m, In m D -> In (ct m) C.
  Hypothesis Hdec : forall c, In c C -> In (dec c) D.
  Definition swapK (TK TF : list (list Z)) : list (list Z) :=
    fill D (fun m => if list_eq_dec Z.eq_dec (dec (ct m)) m then get C TF (ct m) else get D TK m).
  Definition swapF (TK TF : list (list Z)) : list (list Z) :=
    fill C (fun c => if list_eq_dec Z.eq_dec (ct (dec c)) c then get D TK (dec c) else get C TF c).
  Lemma swapK_table TK TF : table D L TK -> table C L TF -> table D L (swapK TK TF).
  Proof.
    intros H1 H2. apply fill_table. intros m Hm. destruct (list_eq_dec _ _ _); [apply (get_in C L); auto|apply (get_in D L); auto].
  Qed.
  Lemma swapF_table TK TF : table D L TK -> table C L TF -> table C L (swapF TK TF).
  Proof.
    intros H1 H2. apply fill_table. intros c Hc. destruct (list_eq_dec _ _ _); [apply (get_in D L); auto|apply (get_in C L); auto].
  Qed.
  Lemma get_swapK TK TF m : In m D -> get D (swapK TK TF) m =
    if list_eq_dec Z.eq_dec (dec (ct m)) m then get C TF (ct m) else get D TK m.
  Proof. intros I. unfold swapK. rewrite get_fill by exact I. reflexivity. Qed.
  Lemma get_swapF TK TF c : In c C -> get C (swapF TK TF) c =
    if list_eq_dec Z.eq_dec (ct (dec c)) c then get D TK (dec c) else get C TF c.
  Proof. intros I. unfold swapF. rewrite get_fill by exact I. reflexivity. Qed.
  (** what the owner answers after the exchange *)
  Lemma swapped TK TF c : In c C ->
    (if list_eq_dec Z.eq_dec c (ct (dec c)) then get D (swapK TK TF) (dec c) else get C (swapF TK TF) c) = get C TF c.
  Proof.
    intros I. rewrite get_swapK, get_swapF by auto.
    destruct (list_eq_dec Z.eq_dec c (ct (dec c))) as [E|N].
    - destruct (list_eq_dec Z.eq_dec (dec (ct (dec c))) (dec c)) as [_|N']; [congruence|].
      exfalso. apply N'. rewrite <- E. reflexivity.
    - destruct (list_eq_dec Z.eq_dec (ct (dec c)) c) as [E|_]; [congruence|reflexivity].
  Qed.
  Lemma swap_average LK LF f : all_tables D L LK -> all_tables C L LF ->
    average LK (fun TK => average LF (fun TF => f TK TF)) ==
    average LK (fun TK => average LF (fun TF => f (swapK TK TF) (swapF TK TF))).
  Proof.
    intros HK HF. apply average_involution; [apply HK|apply HF|]. intros TK TF H1 H2. apply HK in H1. apply HF in H2.
    pose proof (swapK_table TK TF H1 H2) as T1. pose proof (swapF_table TK TF H1 H2) as T2.
    split; [apply HK, T1|]. split; [apply HF, T2|]. split.
    - apply (table_ext D L); [exact ND|apply swapK_table; assumption|exact H1|]. intros m Hm.
      rewrite get_swapK by exact Hm. destruct (list_eq_dec Z.eq_dec (dec (ct m)) m) as [E|N].
      + rewrite get_swapF by auto. rewrite E. destruct (list_eq_dec Z.eq_dec (ct m) (ct m)); [reflexivity|contradiction].
      + rewrite get_swapK by exact Hm. destruct (list_eq_dec Z.eq_dec (dec (ct m)) m); [contradiction|reflexivity].
    - apply (table_ext C L); [exact NC|apply swapF_table; assumption|exact H2|]. intros c Hc.
      rewrite get_swapF by exact Hc. destruct (list_eq_dec Z.eq_dec (ct (dec c)) c) as [E|N].
      + rewrite get_swapK by auto. rewrite E. destruct (list_eq_dec Z.eq_dec (dec c) (dec c)); [reflexivity|contradiction].
      + rewrite get_swapF by exact Hc. destruct (list_eq_dec Z.eq_dec (ct (dec c)) c); [contradiction|reflexivity].
  Qed.
End Swap.

(** ** questions to a table, chosen adaptively *)
Section Adaptive.
  Variable hs : hashes.
  Variable P : params.
  Variable n : nat.
  Variable ek : list Z.
  Variables L LC TF : list (list Z).
  Variable LR : list (list (list Z)).
  Variable dec : list Z -> list Z.
  Variable fail : list Z -> list Z -> bool.
  Variable delta : Q.
  Hypothesis NL : NoDup L.
  Hypothesis HL : L <> [].
  Hypothesis HLR : all_tables L L LR.
  Hypothesis Hdelta : 0 <= delta.
  Hypothesis Hfail : forall m, In m L -> average L (fun r => one_if (fail m r)) <= delta.
  Let sim TR := sim_hashes hs P n ek L LC TR TF.

  (** a question m || H(ek) about an m on which the table fails *)
  Definition failing (TR : list (list Z)) (p : hash_name * list Z) : bool :=
    match fst p with
    | Sha3_512 =>
        if list_eq_dec Z.eq_dec (skipn 32 (snd p)) (sha3_256 hs ek) then
          match entry L TR (firstn 32 (snd p)) with Some r => fail (firstn 32 (snd p)) r | None => false end
        else false
    | _ => false
    end.

  Lemma sim_reply T T' f x len : entry L T (firstn 32 x) = entry L T' (firstn 32 x) ->
    reply (sim T) f x len = reply (sim T') f x len /\ failing T (f, x) = failing T' (f, x).
  Proof.
    intros E. destruct f; try (split; reflexivity). unfold failing. cbn [reply sim sim_hashes sha3_512 fst snd].
    unfold table_ct. rewrite E. split; reflexivity.
  Qed.
  Lemma sim_reply_other T f x len : (f = Sha3_512 -> skipn 32 x = sha3_256 hs ek -> ~ In (firstn 32 x) L) ->
    reply (sim T) f x len = reply hs f x len /\ failing T (f, x) = false.
  Proof.
    intros H. destruct f; try (split; reflexivity). unfold failing. cbn [reply sim sim_hashes sha3_512 fst snd].
    destruct (list_eq_dec Z.eq_dec (skipn 32 x) (sha3_256 hs ek)) as [E|_]; [|split; reflexivity].
    unfold table_ct. rewrite entry_none by (apply H; [reflexivity|exact E]). split; reflexivity.
  Qed.

  Definition pin (ps : list (list Z * list Z)) (T : list (list Z)) : list (list Z) :=
    fold_right (fun p T => update L T (fst p) (snd p)) T ps.
  Lemma pin_table ps T : (forall p, In p ps -> In (snd p) L) -> table L L T -> table L L (pin ps T).
  Proof.
    intros H HT. induction ps as [|p ps IH]; [exact HT|]. cbn [pin fold_right]. apply update_table.
    - apply IH. intros p' I. apply H. right. exact I.
    - apply H. left. reflexivity.
  Qed.
  Lemma pin_get ps m : In m L -> In m (map fst ps) -> exists v, In (m, v) ps /\ forall T, get L (pin ps T) m = v.
  Proof.
    intros I. induction ps as [|[x v] ps IH]; intros J; [contradiction|].
    destruct (list_eq_dec Z.eq_dec m x) as [->|N].
    - exists v. split; [left; reflexivity|]. intros T. cbn [pin fold_right fst snd]. apply get_updated, I.
    - cbn [map fst] in J. destruct J as [J|J]; [congruence|]. destruct (IH J) as (w & H1 & H2). exists w. split; [right; exact H1|].
      intros T. cbn [pin fold_right fst snd]. rewrite get_other by assumption. apply H2.
  Qed.
  Lemma pin_free ps m T : In m L -> ~ In m (map fst ps) -> get L (pin ps T) m = get L T m.
  Proof.
    intros I N. induction ps as [|[x v] ps IH]; [reflexivity|]. cbn [pin fold_right fst snd map] in *.
    rewrite get_other; [apply IH; intros Q; apply N; right; exact Q|exact I|]. intros E. apply N. left. congruence.
  Qed.
  Lemma pin_last ps m v T : pin (ps ++ [(m, v)]) T = pin ps (update L T m v).
  Proof. unfold pin. rewrite fold_right_app. reflexivity. Qed.

  Lemma adaptive_pinned a : forall N D ps, within N D a ->
    (forall p, In p ps -> In (snd p) L /\ fail (fst p) (snd p) = false) ->
    average LR (fun T => one_if (existsb (failing (pin ps T)) (asked (sim (pin ps T)) dec a))) <= inject_Z (Z.of_nat N) * delta.
  Proof.
    assert (N0 : forall N, 0 <= inject_Z (Z.of_nat N) * delta).
    { intros N. apply Qmult_le_0_compat; [|exact Hdelta]. unfold Qle. cbn [Qnum Qden inject_Z]. lia. }
    induction a as [p|f x len next IH|c next IH]; intros N D ps HW Hps.
    - apply average_bound; [apply N0|]. intros T _. cbn [asked existsb one_if]. apply N0.
    - cbn [within] in HW. destruct N as [|N]; [contradiction|].
      assert (step : inject_Z (Z.of_nat (S N)) * delta == delta + inject_Z (Z.of_nat N) * delta).
      { rewrite Nat2Z.inj_succ, <- Z.add_1_r, inject_Z_plus. ring. }
      (* a reply that does not depend on the table *)
      assert (same : forall y, (forall T, In T LR -> reply (sim (pin ps T)) f x len = y /\ failing (pin ps T) (f, x) = false) ->
        average LR (fun T => one_if (existsb (failing (pin ps T)) (asked (sim (pin ps T)) dec (Ask f x len next)))) <= inject_Z (Z.of_nat (S N)) * delta).
      { intros y Hy. rewrite step. apply Qle_trans with (0 + inject_Z (Z.of_nat N) * delta).
        - rewrite Qplus_0_l. eapply Qle_trans; [|exact (IH y N D ps (HW y) Hps)]. apply average_le. intros T HT. cbn [asked existsb].
          destruct (Hy T HT) as [E1 E2]. rewrite E1, E2. apply Qle_refl.
        - apply Qplus_le_compat; [exact Hdelta|apply Qle_refl]. }
      destruct (in_dec (list_eq_dec Z.eq_dec) (firstn 32 x) L) as [I|NI].
      2: { apply (same (reply hs f x len)). intros T _. apply sim_reply_other. intros _ _. exact NI. }
      set (m := firstn 32 x) in *.
      assert (entries : forall ps', (forall p, In p ps' -> In (snd p) L /\ fail (fst p) (snd p) = false) ->
        forall T, In T LR -> entry L (pin ps' T) m = Some (get L (pin ps' T) m)).
      { intros ps' H T HT. apply (entry_get L L); [|exact I]. apply pin_table; [intros p Hp; apply H, Hp|apply HLR, HT]. }
      destruct (in_dec (list_eq_dec Z.eq_dec) m (map fst ps)) as [J|NJ].
      + destruct (pin_get ps m I J) as (v & Iv & Hv).
        assert (Ev : forall T, In T LR -> entry L (pin ps T) m = entry L (fill L (fun _ => v)) m).
        { intros T HT. rewrite (entries ps Hps T HT), Hv, entry_fill by exact I. reflexivity. }
        apply (same (reply (sim (fill L (fun _ => v))) f x len)). intros T HT.
        destruct (sim_reply (pin ps T) (fill L (fun _ => v)) f x len (Ev T HT)) as [E1 E2]. split; [exact E1|].
        rewrite E2. unfold failing. cbn [fst snd]. destruct f; try reflexivity.
        destruct (list_eq_dec _ _ _); [|reflexivity]. fold m. rewrite entry_fill by exact I. apply (Hps (m, v) Iv).
      + rewrite step.
        rewrite (resample L L LR NL NL HL HLR m) by exact I. rewrite average_swap.
        eapply Qle_trans; [|apply Qplus_le_compat; [exact (Hfail m I)|apply Qle_refl]].
        assert (up : forall g, (forall v, In v L -> g v <= one_if (fail m v) + inject_Z (Z.of_nat N) * delta) ->
          average L g <= average L (fun r => one_if (fail m r)) + inject_Z (Z.of_nat N) * delta).
        { intros g Hg. eapply Qle_trans; [apply average_le; exact Hg|]. rewrite average_plus, (average_const L _ HL). apply Qle_refl. }
        apply up. clear up. intros v Hv. destruct (fail m v) eqn:Fv; cbn [one_if].
        * apply Qle_trans with (1 + 0); [|apply Qplus_le_compat; [apply Qle_refl|apply N0]].
          apply average_bound; [discriminate|]. intros T _. rewrite Qplus_0_r. apply one_if_range.
        * rewrite Qplus_0_l.
          assert (Hps' : forall p, In p (ps ++ [(m, v)]) -> In (snd p) L /\ fail (fst p) (snd p) = false).
          { intros p Hp. apply in_app_or in Hp. destruct Hp as [Hp|[<-|[]]]; [apply Hps, Hp|]. split; [exact Hv|exact Fv]. }
          assert (Ev : forall T, In T LR -> entry L (pin (ps ++ [(m, v)]) T) m = entry L (fill L (fun _ => v)) m).
          { intros T HT. rewrite (entries (ps ++ [(m, v)]) Hps' T HT), pin_last, (pin_free ps m _ I NJ), get_updated, entry_fill by exact I. reflexivity. }
          set (y := reply (sim (fill L (fun _ => v))) f x len).
          eapply Qle_trans; [|exact (IH y N D (ps ++ [(m, v)]) (HW y) Hps')].
          apply average_le. intros T HT. rewrite <- pin_last. cbn [asked existsb].
          destruct (sim_reply _ _ f x len (Ev T HT)) as [E1 E2]. fold y in E1. rewrite E1, E2.
          assert (E3 : failing (fill L (fun _ => v)) (f, x) = false).
          { unfold failing. cbn [fst snd]. destruct f; try reflexivity.
            destruct (list_eq_dec _ _ _); [|reflexivity]. fold m. rewrite entry_fill by exact I. exact Fv. }
          rewrite E3. apply Qle_refl.
    - cbn [within] in HW. destruct D as [|D]; [contradiction|]. cbn [asked].
      exact (IH (dec c) N D ps (HW (dec c)) Hps).
  Qed.

  Lemma adaptive a N D : within N D a ->
    average LR (fun T => one_if (existsb (failing T) (asked (sim T) dec a))) <= inject_Z (Z.of_nat N) * delta.
  Proof. intros HW. exact (adaptive_pinned a N D [] HW (fun p H => match H with end)). Qed.
End Adaptive.

(** Counting arguments for the samplers. *)
From Coq Require Import List ZArith Lia Bool Arith Permutation FinFun.
From Verif.Base Require Import Res Oracles.
From Verif.Spec Require Import FIPS203 Domains Counting.
From Verif.Model Require Import Machine Util Algebra Encode Crypto Sample.
From Verif.Proofs Require Import Basics Field Poly CompressProofs EncodeProofs SampleProofs.
Import ListNotations.
Open Scope Z_scope.

Lemma count_nil {A} (t : A -> bool) : count t [] = 0.
Proof. reflexivity. Qed.
Lemma count_cons {A} (t : A -> bool) x l : count t (x :: l) = b2z (t x) + count t l.
Proof. unfold count. cbn [filter]. destruct (t x); cbn [length b2z]; lia. Qed.
Lemma count_app {A} (t : A -> bool) l m : count t (l ++ m) = count t l + count t m.
Proof. unfold count. rewrite filter_app, app_length. lia. Qed.
Lemma count_map {A B} (t : B -> bool) (f : A -> B) l : count t (map f l) = count (fun x => t (f x)) l.
Proof. induction l as [|x l IH]; [reflexivity|]. cbn [map]. rewrite !count_cons, IH. reflexivity. Qed.
Lemma count_ext_in {A} (t u : A -> bool) l : (forall x, In x l -> t x = u x) -> count t l = count u l.
Proof.
  induction l as [|x l IH]; [reflexivity|]. intros H. rewrite !count_cons, IH, (H x).
  - reflexivity.
  - left; reflexivity.
  - intros y Hy. apply H. right. exact Hy.
Qed.
Lemma count_perm {A} (t : A -> bool) l m : Permutation l m -> count t l = count t m.
Proof.
  induction 1; rewrite ?count_cons; lia.
Qed.
Lemma count_false {A} (l : list A) : count (fun _ => false) l = 0.
Proof. induction l as [|x l IH]; [reflexivity|]. rewrite count_cons, IH. reflexivity. Qed.
Lemma count_true {A} (l : list A) : count (fun _ => true) l = Z.of_nat (length l).
Proof. induction l as [|x l IH]; [reflexivity|]. rewrite count_cons, IH. cbn [length b2z]. lia. Qed.

(** two duplicate-free lists matched by a pair of inverse maps *)
Lemma count_bij {A B} (L : list A) (M : list B) (f : A -> B) (g : B -> A) (t : B -> bool) :
  NoDup L -> NoDup M ->
  (forall x, In x L -> In (f x) M /\ g (f x) = x) ->
  (forall y, In y M -> In (g y) L /\ f (g y) = y) ->
  count (fun x => t (f x)) L = count t M.
Proof.
  intros NL NM HL HM. rewrite <- count_map. apply count_perm. apply NoDup_Permutation.
  - assert (G : forall l, (forall x, In x l -> In x L) -> NoDup l -> NoDup (map f l)).
    { induction l as [|x l IH]; intros S N; [constructor|]. inversion N as [|? ? N1 N2]; subst. cbn [map].
      constructor; [|apply IH; [intros; apply S; right; assumption|exact N2]].
      intros I. apply in_map_iff in I. destruct I as (y & E & Iy).
      assert (x = y); [|subst; contradiction].
      rewrite <- (proj2 (HL x (S x (or_introl eq_refl)))), <- (proj2 (HL y (S y (or_intror Iy)))).
      f_equal. symmetry. exact E. }
    apply G; [intros x Hx; exact Hx|exact NL].
  - exact NM.
  - intros y. rewrite in_map_iff. split.
    + intros (x & <- & Hx). apply (HL x Hx).
    + intros Hy. exists (g y). split; apply (HM y Hy).
Qed.

(** ** sequences over a finite alphabet *)
Fixpoint tuples (D : list Z) (n : nat) : list (list Z) :=
  match n with
  | O => [[]]
  | S m => flat_map (fun x => map (cons x) (tuples D m)) D
  end.

Lemma in_tuples D n l : In l (tuples D n) <-> length l = n /\ Forall (fun x => In x D) l.
Proof.
  revert l. induction n as [|n IH]; intros l; cbn [tuples].
  - split.
    + intros [<- | []]. split; [reflexivity|constructor].
    + intros [L _]. destruct l; [left; reflexivity|discriminate L].
  - rewrite in_flat_map. split.
    + intros (x & Hx & Hl). apply in_map_iff in Hl. destruct Hl as (m & <- & Hm).
      apply IH in Hm. destruct Hm as [L F]. split; [cbn [length]; lia|constructor; assumption].
    + intros [L F]. destruct l as [|x l]; [discriminate L|]. inversion F; subst. exists x. split; [assumption|].
      apply in_map. apply IH. split; [cbn [length] in L; lia|assumption].
Qed.

Lemma NoDup_app_disj {A} (l m : list A) : NoDup l -> NoDup m ->
  (forall x, In x l -> In x m -> False) -> NoDup (l ++ m).
Proof.
  induction l as [|x l IH]; intros Nl Nm Dj; [exact Nm|]. inversion Nl; subst. cbn [app]. constructor.
  - intros I. apply in_app_or in I. destruct I as [I|I]; [contradiction|].
    exact (Dj x (or_introl eq_refl) I).
  - apply IH; [assumption|assumption|]. intros y Hy1 Hy2. exact (Dj y (or_intror Hy1) Hy2).
Qed.

Lemma NoDup_tuples D n : NoDup D -> NoDup (tuples D n).
Proof.
  intros N. induction n as [|n IH]; cbn [tuples]; [constructor; [intros []|constructor]|].
  revert N. generalize D at 1 3. intros E N. induction N as [|x E Hx N IHE]; [constructor|]. cbn [flat_map].
  apply NoDup_app_disj.
  - apply Injective_map_NoDup; [|exact IH]. intros a b H. congruence.
  - exact IHE.
  - intros l H1 H2. apply in_map_iff in H1. destruct H1 as (m & <- & _).
    apply in_flat_map in H2. destruct H2 as (y & Hy & H2). apply in_map_iff in H2.
    destruct H2 as (m' & E' & _). assert (y = x) by congruence. subst y. contradiction.
Qed.

(** the number of sequences whose image is [p]: the product of the numbers of preimages *)
Definition is (p x : list Z) : bool := if list_eq_dec Z.eq_dec x p then true else false.

Lemma is_cons a p x l : is (a :: p) (x :: l) = (x =? a) && is p l.
Proof.
  unfold is. destruct (list_eq_dec Z.eq_dec (x :: l) (a :: p)) as [E|N];
    destruct (list_eq_dec Z.eq_dec l p) as [E'|N']; destruct (Z.eqb_spec x a) as [E''|N''];
    try reflexivity; exfalso; congruence.
Qed.

Lemma prod_ext n f g : (forall i, (i < n)%nat -> f i = g i) -> prod n f = prod n g.
Proof. induction n as [|n IH]; intros H; [reflexivity|]. cbn [prod]. rewrite IH, H; [reflexivity|lia|intros; apply H; lia]. Qed.
Lemma prod_S n f : prod (S n) f = f 0%nat * prod n (fun i => f (S i)).
Proof. induction n as [|n IH]; [cbn [prod]; ring|]. cbn [prod] in *. rewrite IH. ring. Qed.

Lemma count_tuples (g : Z -> Z) D n p : length p = n ->
  count (fun l => is p (map g l)) (tuples D n) =
  prod n (fun i => count (fun x => g x =? co p i) D).
Proof.
  revert p. induction n as [|n IH]; intros p L.
  - destruct p; [reflexivity|discriminate L].
  - destruct p as [|a p]; [discriminate L|]. rewrite prod_S. cbn [tuples].
    change (co (a :: p) 0%nat) with a. rewrite (prod_ext n _ (fun i => count (fun x => g x =? co p i) D)) by reflexivity.
    rewrite <- IH by (cbn [length] in L; lia).
    set (T := tuples D n). set (c := count (fun l => is p (map g l)) T).
    clearbody T. clear IH. induction D as [|x E IHE].
    + reflexivity.
    + cbn [flat_map]. rewrite count_app, IHE, count_cons, count_map.
      rewrite (count_ext_in _ (fun l => (g x =? a) && is p (map g l)))
        by (intros l _; cbn [map]; apply is_cons).
      destruct (g x =? a); cbn [andb b2z]; [|rewrite count_false; ring].
      fold c. ring.
Qed.

(** sequences whose accepted entries start with [p] *)
Fixpoint starts (p l : list Z) : bool :=
  match p, l with
  | [], _ => true
  | _ :: _, [] => false
  | a :: p, x :: l => (x =? a) && starts p l
  end.

Lemma starts_spec p l : starts p l = true <-> firstn (length p) l = p /\ (length p <= length l)%nat.
Proof.
  revert l. induction p as [|a p IH]; intros l; cbn [starts length firstn].
  - split; [split; [reflexivity|lia]|reflexivity].
  - destruct l as [|x l]; cbn [length].
    + split; [discriminate|]. intros [E _]. discriminate E.
    + rewrite andb_true_iff, IH. split.
      * intros [E [F L]]. apply Z.eqb_eq in E. subst x. split; [rewrite F; reflexivity|lia].
      * intros [E L]. assert (x = a /\ firstn (length p) l = p) as [-> F] by (split; congruence).
        rewrite Z.eqb_refl. split; [reflexivity|]. split; [exact F|lia].
Qed.

Section Accept.
  Variable D : list Z.
  Variable acc : Z -> bool.
  Hypothesis D_nodup : NoDup D.

  Fixpoint acc_count (n r : nat) : Z :=
    match r, n with
    | O, _ => Z.of_nat (length D) ^ Z.of_nat n
    | S _, O => 0
    | S r', S n' => acc_count n' r' + count (fun x => negb (acc x)) D * acc_count n' r
    end.

  Lemma tuples_length n : Z.of_nat (length (tuples D n)) = Z.of_nat (length D) ^ Z.of_nat n.
  Proof.
    induction n as [|n IH]; [reflexivity|]. rewrite Nat2Z.inj_succ, Z.pow_succ_r by lia. rewrite <- IH.
    cbn [tuples]. set (T := tuples D n). clearbody T. clear IH D_nodup. induction D as [|x E IHE]; [reflexivity|].
    cbn [flat_map length]. rewrite app_length, map_length.
    rewrite Nat2Z.inj_add, IHE, Nat2Z.inj_succ. ring.
  Qed.

  Lemma one_hit E y A C : NoDup E -> acc y = true ->
    (forall f : Z -> Z, (forall x, f x = if acc x then (if x =? y then A else 0) else C) ->
    fold_right Z.add 0 (map f E) = (if in_dec Z.eq_dec y E then A else 0) + count (fun x => negb (acc x)) E * C).
  Proof.
    intros N Hy f Hf. induction N as [|x E Hx N IH].
    - destruct (in_dec Z.eq_dec y []) as [[]|_]. reflexivity.
    - cbn [map fold_right]. rewrite IH, count_cons, Hf.
      destruct (in_dec Z.eq_dec y (x :: E)) as [I|I]; destruct (in_dec Z.eq_dec y E) as [I'|I'].
      + destruct (Z.eqb_spec x y) as [->|Ne]; [contradiction|]. destruct (acc x); cbn [negb b2z]; ring.
      + destruct I as [<-|I]; [|contradiction]. rewrite Hy, Z.eqb_refl. cbn [negb b2z]. ring.
      + exfalso. apply I. right. exact I'.
      + destruct (Z.eqb_spec x y) as [->|Ne]; [exfalso; apply I; left; reflexivity|].
        destruct (acc x); cbn [negb b2z]; ring.
  Qed.

  Lemma count_flat_map {A B} (t : B -> bool) (f : A -> list B) l :
    count t (flat_map f l) = fold_right Z.add 0 (map (fun x => count t (f x)) l).
  Proof. induction l as [|x l IH]; [reflexivity|]. cbn [flat_map map fold_right]. rewrite count_app, IH. reflexivity. Qed.

  Lemma count_accepting n p : Forall (fun x => In x D /\ acc x = true) p ->
    count (fun l => starts p (filter acc l)) (tuples D n) = acc_count n (length p).
  Proof.
    revert p. induction n as [|n IH]; intros p F.
    - destruct p; reflexivity.
    - destruct p as [|y p].
      + cbn [length acc_count starts]. rewrite (count_true (tuples D (S n))). apply tuples_length.
      + cbn [length acc_count tuples]. inversion F as [|? ? [Iy Ay] F']; subst.
        rewrite count_flat_map.
        rewrite (one_hit D y (acc_count n (length p)) (acc_count n (length (y :: p))) D_nodup Ay).
        * destruct (in_dec Z.eq_dec y D) as [_|N]; [reflexivity|contradiction].
        * intros x. rewrite count_map. cbn [filter]. destruct (acc x) eqn:Ax.
          -- cbn [starts]. destruct (x =? y); cbn [andb]; [apply IH, F'|apply count_false].
          -- apply IH, F.
  Qed.
End Accept.

(** ** byte strings and fields *)

Lemma NoDup_upto n : NoDup (upto n).
Proof. apply Injective_map_NoDup; [intros a b; apply Nat2Z.inj|apply seq_NoDup]. Qed.
Lemma in_upto_iff n x : In x (upto n) <-> 0 <= x < n.
Proof.
  split; [|apply in_upto]. unfold upto. rewrite in_map_iff. intros (m & <- & H). apply in_seq in H. lia.
Qed.

(** the value of the eta + eta bits of one coefficient *)
Definition cbd_value (eta : nat) (x : Z) : Z :=
  (sum eta (fun j => b2z (Z.testbit x (Z.of_nat j))) -
   sum eta (fun j => b2z (Z.testbit x (Z.of_nat (eta + j))))) mod q.

Lemma SamplePolyCBD_map eta B : (eta = 2 \/ eta = 3)%nat ->
  SamplePolyCBD eta B = map (cbd_value eta) (ByteDecode (2 * eta) B).
Proof.
  intros He. rewrite ByteDecode_field. unfold SamplePolyCBD, tab. rewrite map_map. apply map_ext_in.
  intros i Hi. apply in_seq in Hi. unfold cbd_value.
  assert (M : dec_mod (2 * eta) = 2 ^ Z.of_nat (2 * eta)) by (destruct He as [-> | ->]; reflexivity).
  rewrite M, (Z.mod_small (field (2 * eta) B i)) by apply field_range.
  f_equal. f_equal; apply sum_ext; intros j Hj; f_equal; rewrite field_bitsum; rewrite bitsum_testbit.
  - destruct (Nat.ltb_spec j (2 * eta)); [|lia]. cbn [andb]. f_equal. nia.
  - destruct (Nat.ltb_spec (eta + j) (2 * eta)); [|lia]. cbn [andb]. f_equal. nia.
Qed.

Lemma returns_lift_is r x p : r = Ok x -> returns r p = is p x.
Proof. intros ->. reflexivity. Qed.

Lemma small_canonical d F : (d < 12)%nat -> small d F <-> canonical d F.
Proof. intros H. unfold small, canonical, dec_mod. destruct (Nat.ltb_spec d 12); [reflexivity|lia]. Qed.

Theorem count_cbd eta L p : (eta = 2 \/ eta = 3)%nat -> enumerates (64 * eta) L -> length p = 256%nat ->
  count (fun B => returns (poly_sample_cbd eta B) p) L =
  prod 256 (fun i => count (fun x => cbd_value eta x =? co p i) (upto (2 ^ Z.of_nat (2 * eta)))).
Proof.
  intros He [NL HL] Lp. rewrite <- count_tuples by exact Lp.
  assert (E64 : (32 * (2 * eta) = 64 * eta)%nat) by lia.
  rewrite (count_ext_in _ (fun B => is p (map (cbd_value eta) (ByteDecode (2 * eta) B)))).
  - apply (count_bij L (tuples (upto (2 ^ Z.of_nat (2 * eta))) 256) (ByteDecode (2 * eta)) (ByteEncode (2 * eta))
             (fun l => is p (map (cbd_value eta) l))).
    + exact NL.
    + apply NoDup_tuples, NoDup_upto.
    + intros B HB. apply HL in HB. split.
      * apply in_tuples. destruct (ByteDecode_small (2 * eta) B ltac:(lia)) as [Ld Fd]. split; [exact Ld|].
        eapply Forall_impl; [|exact Fd]. intros x Hx. apply in_upto_iff. exact Hx.
      * apply ByteEncode_ByteDecode; [lia|rewrite E64; exact HB].
    + intros F HF. apply in_tuples in HF. destruct HF as [LF FF].
      assert (S : small (2 * eta) F).
      { split; [exact LF|]. eapply Forall_impl; [|exact FF]. intros x Hx. apply in_upto_iff. exact Hx. }
      split.
      * apply HL. rewrite <- E64. apply ByteEncode_bytes.
      * apply ByteDecode_ByteEncode; [lia|]. apply small_canonical; [lia|exact S].
  - intros B HB. apply HL in HB. rewrite <- SamplePolyCBD_map by exact He.
    apply returns_lift_is. apply poly_sample_cbd_ok; assumption.
Qed.

(** ** three bytes and two 12-bit candidates *)

Fixpoint groups (B : list Z) : list Z :=
  match B with
  | b0 :: b1 :: b2 :: r => (b0 + 256 * (b1 mod 16)) :: (b1 / 16 + 16 * b2) :: groups r
  | _ => []
  end.
Fixpoint ungroups (C : list Z) : list Z :=
  match C with
  | d1 :: d2 :: r => (d1 mod 256) :: (d1 / 256 + 16 * (d2 mod 16)) :: (d2 / 16) :: ungroups r
  | _ => []
  end.

Lemma groups_ok n B : byte_string (3 * n) B ->
  length (groups B) = (2 * n)%nat /\ Forall (fun x => 0 <= x < 4096) (groups B) /\ ungroups (groups B) = B.
Proof.
  revert B. induction n as [|n IH]; intros B [L F].
  - destruct B; [|discriminate L]. repeat split. constructor.
  - destruct B as [|b0 [|b1 [|b2 B]]]; cbn [length] in L; try lia.
    inversion F as [|? ? H0 F1]; subst. inversion F1 as [|? ? H1 F2]; subst. inversion F2 as [|? ? H2 F3]; subst.
    destruct (IH B) as (G1 & G2 & G3); [split; [lia|exact F3]|]. unfold is_byte in *.
    cbn [groups ungroups length]. rewrite G1, G3.
    pose proof (Z.div_mod b1 16). pose proof (Z.mod_pos_bound b1 16). pose proof (Z.div_pos b1 16).
    assert (b1 / 16 < 16) by (apply Z.div_lt_upper_bound; lia).
    split; [lia|]. split; [constructor; [lia|]; constructor; [lia|]; exact G2|].
    assert (E0 : (b0 + 256 * (b1 mod 16)) mod 256 = b0)
      by (rewrite Z.mul_comm, Z.mod_add by lia; apply Z.mod_small; lia).
    assert (E1 : (b0 + 256 * (b1 mod 16)) / 256 = b1 mod 16)
      by (rewrite Z.mul_comm, Z.div_add by lia; rewrite Z.div_small by lia; lia).
    assert (E2 : (b1 / 16 + 16 * b2) mod 16 = b1 / 16)
      by (rewrite (Z.mul_comm 16 b2), Z.mod_add by lia; apply Z.mod_small; lia).
    assert (E3 : (b1 / 16 + 16 * b2) / 16 = b2)
      by (rewrite (Z.mul_comm 16 b2), Z.div_add by lia; rewrite Z.div_small by lia; lia).
    rewrite E0, E1, E2, E3. f_equal. f_equal. lia.
Qed.

Lemma ungroups_ok n C : length C = (2 * n)%nat -> Forall (fun x => 0 <= x < 4096) C ->
  byte_string (3 * n) (ungroups C) /\ groups (ungroups C) = C.
Proof.
  revert C. induction n as [|n IH]; intros C L F.
  - destruct C; [|discriminate L]. repeat split. constructor.
  - destruct C as [|d1 [|d2 C]]; cbn [length] in L; try lia.
    inversion F as [|? ? H0 F1]; subst. inversion F1 as [|? ? H1 F2]; subst.
    destruct (IH C ltac:(lia) F2) as [[G1 G2] G3]. cbn [groups ungroups]. rewrite G3.
    pose proof (Z.div_mod d1 256). pose proof (Z.mod_pos_bound d1 256). pose proof (Z.div_pos d1 256).
    pose proof (Z.div_mod d2 16). pose proof (Z.mod_pos_bound d2 16). pose proof (Z.div_pos d2 16).
    assert (d1 / 256 < 16) by (apply Z.div_lt_upper_bound; lia).
    assert (d2 / 16 < 256) by (apply Z.div_lt_upper_bound; lia).
    split.
    + split; [cbn [length]; lia|]. constructor; [red; lia|]. constructor; [red; lia|]. constructor; [red; lia|exact G2].
    + assert (E0 : (d1 / 256 + 16 * (d2 mod 16)) mod 16 = d1 / 256)
        by (rewrite (Z.mul_comm 16), Z.mod_add by lia; apply Z.mod_small; lia).
      assert (E1 : (d1 / 256 + 16 * (d2 mod 16)) / 16 = d2 mod 16)
        by (rewrite (Z.mul_comm 16), Z.div_add by lia; rewrite Z.div_small by lia; lia).
      rewrite E0, E1. f_equal; [lia|]. f_equal. lia.
Qed.

Lemma candidates_groups n B : length B = (3 * n)%nat ->
  flat_map (candidates (fun i => nth i B 0)) (seq 0 n) = filter (fun x => x <? q) (groups B).
Proof.
  revert B. induction n as [|n IH]; intros B L.
  - destruct B; [reflexivity|discriminate L].
  - destruct B as [|b0 [|b1 [|b2 B]]]; cbn [length] in L; try lia.
    cbn [seq flat_map]. rewrite <- seq_shift, flat_map_concat_map, map_map, <- flat_map_concat_map.
    rewrite (flat_map_ext _ (candidates (fun i => nth i B 0))).
    + rewrite IH by lia. cbn [groups filter]. unfold candidates. cbn [Nat.mul Nat.add nth].
      destruct (b0 + 256 * (b1 mod 16) <? q); destruct (b1 / 16 + 16 * b2 <? q); reflexivity.
    + intros t. unfold candidates. replace (3 * S t)%nat with (S (S (S (3 * t)))) by lia. reflexivity.
Qed.

Lemma rejected_count : count (fun x => negb (x <? q)) (upto 4096) = 767.
Proof.
  assert (G : forall n, count (fun x => negb (x <? q)) (map Z.of_nat (seq 0 n)) = Z.max 0 (Z.of_nat n - q)).
  { induction n as [|n IH]; [reflexivity|].
    rewrite seq_S, map_app, count_app, IH. cbn [map]. rewrite count_cons, count_nil. cbn [Nat.add].
    destruct (Z.ltb_spec (Z.of_nat n) q); cbn [negb b2z]; unfold q in *; lia. }
  unfold upto. rewrite G, Z2Nat.id by lia. reflexivity.
Qed.

Lemma acc_count_gen D acc n r : Z.of_nat (length D) = 4096 -> count (fun x => negb (acc x)) D = 767 ->
  acc_count D acc n r = accepting n r.
Proof.
  intros L R. revert r. induction n as [|n IH]; intros [|r]; cbn [acc_count accepting]; rewrite ?L, ?R, ?IH; reflexivity.
Qed.

Lemma acc_count_eq n r : acc_count (upto 4096) (fun x => x <? q) n r = accepting n r.
Proof.
  apply acc_count_gen; [|exact rejected_count].
  unfold upto. rewrite map_length, seq_length. apply Z2Nat.id. lia.
Qed.

Theorem count_uniform n L p : enumerates (3 * n) L -> poly p ->
  count (fun B => returns (poly_sample_uniform n {| xof_stream := fun i => nth i B 0; xof_pos := 0 |}) p) L =
  accepting (2 * n) 256.
Proof.
  intros [NL HL] [Lp Fp]. rewrite <- acc_count_eq, <- Lp.
  rewrite <- (count_accepting (upto 4096) (fun x => x <? q) (NoDup_upto 4096) (2 * n) p).
  - rewrite (count_ext_in _ (fun B => starts p (filter (fun x => x <? q) (groups B)))).
    + apply (count_bij L (tuples (upto 4096) (2 * n)) groups ungroups
               (fun C => starts p (filter (fun x => x <? q) C))).
      * exact NL.
      * apply NoDup_tuples, NoDup_upto.
      * intros B HB. apply HL in HB. destruct (groups_ok n B HB) as (G1 & G2 & G3). split; [|exact G3].
        apply in_tuples. split; [exact G1|]. eapply Forall_impl; [|exact G2]. intros x Hx. apply in_upto_iff. exact Hx.
      * intros C HC. apply in_tuples in HC. destruct HC as [LC FC].
        destruct (ungroups_ok n C LC) as [U1 U2].
        { eapply Forall_impl; [|exact FC]. intros x Hx. apply in_upto_iff. exact Hx. }
        split; [apply HL; exact U1|exact U2].
    + intros B HB. apply HL in HB. rewrite poly_sample_uniform_ok.
      * unfold SampleNTT. rewrite (candidates_groups n B (proj1 HB)).
        set (c := filter _ (groups B)). clearbody c.
        destruct (starts p c) eqn:S.
        -- apply starts_spec in S. rewrite Lp in S. destruct S as [E Lc].
           apply Nat.leb_le in Lc. rewrite Lc. cbn [lift returns]. rewrite E.
           destruct (list_eq_dec Z.eq_dec p p) as [_|N]; [reflexivity|contradiction].
        -- destruct (Nat.leb_spec 256 (length c)) as [Lc|Lc]; cbn [lift returns]; [|reflexivity].
           destruct (list_eq_dec Z.eq_dec (firstn 256 c) p) as [E|N]; [|reflexivity].
           rewrite <- S. symmetry. apply starts_spec. rewrite Lp. split; [exact E|exact Lc].
      * intros i. destruct (Nat.lt_ge_cases i (length B)) as [Hi|Hi].
        -- apply (proj1 (Forall_forall _ _) (proj2 HB)). apply nth_In, Hi.
        -- rewrite nth_overflow by exact Hi. red. lia.
  - eapply Forall_impl; [|exact Fp]. intros x Hx. unfold fe in Hx. split.
    + apply in_upto_iff. unfold q in Hx. lia.
    + apply Z.ltb_lt. apply Hx.
Qed.

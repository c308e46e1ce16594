(** The matrix sampled from random XOF answers is uniform: averages over the answers as averages
    over the matrices and the answers that give each of them. *)
From Coq Require Import List ZArith Lia Bool Arith.
From Verif.Base Require Import Res Oracles.
From Verif.Spec Require Import FIPS203 Domains Noise Counting Random Lwe Attacker Tables RandomLwe.
From Verif.Model Require Import Machine Util Algebra Encode Crypto Sample.
From Verif.Proofs Require Import Basics Field Poly CompressProofs NttProofs NttAlgebra EncodeProofs SampleProofs CountProofs
  PkeProofs Correctness TailProofs Slots SlotSums FailureProofs FailureAverage MatrixSum LweProofs AttackerProofs TableProofs.
From Coq Require Import QArith Qabs Lqa.
Import ListNotations.
Open Scope Z_scope.

Lemma all_some_nth {A} k (f : nat -> option A) (l : list A) d : length l = k ->
  (forall i, (i < k)%nat -> f i = Some (nth i l d)) -> all_some (tab k f) = Some l.
Proof.
  revert f l. induction k as [|k IH]; intros f l L H.
  - destruct l; [reflexivity|discriminate L].
  - destruct l as [|x l]; [discriminate L|]. rewrite tab_cons. cbn [all_some].
    rewrite (H 0%nat) by lia. cbn [nth]. rewrite (IH (fun i => f (S i)) l); [reflexivity| |].
    + cbn [length] in L. lia.
    + intros i Hi. rewrite H by lia. reflexivity.
Qed.

Lemma drawn_sample n B p : bytes B -> drawn n B p = true <-> SampleNTT n (fun i => nth i B 0) = Some p.
Proof.
  intros HB. unfold drawn. rewrite poly_sample_uniform_ok by (intros t; apply nth_byte, HB).
  destruct (SampleNTT n (fun i => nth i B 0)) as [x|]; cbn [lift returns].
  - destruct (list_eq_dec Z.eq_dec x p) as [->|N]; split; intros E; try reflexivity; [discriminate E|congruence].
  - split; intros E; discriminate E.
Qed.

Section Tapes.
  Variable hs : hashes.
  Variable P : params.
  Variable n : nat.
  Variable rho : list Z.
  Let k := pk P.

  Lemma asked_block M i j t : byte_string (k * k * (3 * n)) M -> (i < k)%nat -> (j < k)%nat -> (t < 3 * n)%nat ->
    shake128 (with_matrix hs k (3 * n) rho M) (rho ++ [Z.of_nat j; Z.of_nat i]) t = nth t (part (3 * n) (i * k + j) M) 0.
  Proof.
    intros HM Hi Hj Ht. cbn [with_matrix shake128].
    assert (Q : rho ++ [Z.of_nat j; Z.of_nat i] = ask_matrix k rho (i * k + j)).
    { unfold ask_matrix. rewrite Nat.add_comm, Nat.mod_add, Nat.div_add, Nat.mod_small, Nat.div_small by lia. reflexivity. }
    rewrite Q, answer_asked; [reflexivity|intros b _; apply ask_matrix_inj|nia].
  Qed.

  Lemma A_hat_blocks M Ah : byte_string (k * k * (3 * n)) M -> mat k Ah ->
    A_hat (with_matrix hs k (3 * n) rho M) P n rho = Some Ah <->
    forall a, (a < k * k)%nat -> drawn n (part (3 * n) a M) (ent (nth (a / k) Ah []) (a mod k)) = true.
  Proof.
    intros HM HA.
    assert (SE : forall i j, (i < k)%nat -> (j < k)%nat ->
      SampleNTT n (shake128 (with_matrix hs k (3 * n) rho M) (rho ++ [Z.of_nat j; Z.of_nat i])) =
      SampleNTT n (fun t => nth t (part (3 * n) (i * k + j) M) 0)).
    { intros i j Hi Hj. apply SampleNTT_agrees. intros t Ht. apply asked_block; assumption. }
    split.
    - intros EA a Ha. destruct (A_hat_some _ _ _ _ _ EA) as [_ H]. fold k in H.
      assert (K : (0 < k)%nat) by nia.
      assert (Hi : (a / k < k)%nat) by (apply Nat.div_lt_upper_bound; lia).
      assert (Hj : (a mod k < k)%nat) by (apply Nat.mod_upper_bound; lia).
      assert (Ea : a = (a / k * k + a mod k)%nat) by (rewrite (Nat.mul_comm (a / k)); apply Nat.div_mod_eq).
      destruct (H _ _ Hi Hj) as [_ S]. rewrite SE, <- Ea in S by assumption.
      apply drawn_sample; [apply part_bytes, HM|exact S].
    - intros H. unfold A_hat. fold k. apply (all_some_nth k _ Ah []); [apply HA|]. intros i Hi.
      apply (all_some_nth k _ (nth i Ah []) []); [apply (mat_row k Ah i HA Hi)|]. intros j Hj.
      rewrite SE by assumption. specialize (H (i * k + j)%nat ltac:(nia)).
      apply drawn_sample in H; [|apply part_bytes, HM]. rewrite H.
      rewrite (Nat.add_comm (i * k)), Nat.div_add, Nat.mod_add, (Nat.div_small j), (Nat.mod_small j) by lia. reflexivity.
  Qed.

  Definition tape_of (M : list Z) (A : list (list (list Z))) : bool :=
    match A_hat (with_matrix hs (pk P) (3 * n) rho M) P n rho with
    | Some Ah => if list_eq_dec (list_eq_dec (list_eq_dec Z.eq_dec)) Ah (map (map NTT) A) then true else false
    | None => false
    end.
  Lemma tape_of_iff M A : tape_of M A = true <-> A_hat (with_matrix hs (pk P) (3 * n) rho M) P n rho = Some (map (map NTT) A).
  Proof.
    unfold tape_of. destruct (A_hat _ P n rho) as [Ah|]; [|split; intros E; discriminate E].
    destruct (list_eq_dec _ Ah _) as [->|N]; split; intros E; try reflexivity; [discriminate E|congruence].
  Qed.

  Lemma NTT_mat A : mat k A -> mat k (map (map NTT) A).
  Proof.
    intros [L F]. split; [rewrite map_length; exact L|]. apply Forall_map. eapply Forall_impl; [|exact F].
    intros v [Lv _]. split; [rewrite map_length; exact Lv|]. apply Forall_map, Forall_forall. intros p _. apply NTT_poly.
  Qed.
  Lemma NTTinv_mat A : mat k A -> mat k (map (map NTTinv) A).
  Proof.
    intros [L F]. split; [rewrite map_length; exact L|]. apply Forall_map. eapply Forall_impl; [|exact F].
    intros v [Lv _]. split; [rewrite map_length; exact Lv|]. apply Forall_map, Forall_forall. intros p _. apply NTTinv_poly.
  Qed.

  (** every matrix has the same number of tapes *)
  Lemma tapes_count LM A : enumerates (k * k * (3 * n)) LM -> mat k A ->
    Z.of_nat (length (matrix_tapes hs P n rho LM A)) = accepting (2 * n) 256 ^ Z.of_nat (k * k).
  Proof.
    intros HLM HA. pose proof (NTT_mat A HA) as HN.
    change (Z.of_nat (length (matrix_tapes hs P n rho LM A))) with (count (fun M => tape_of M A) LM).
    rewrite count_wsum.
    rewrite (wsum_ext _ (fun M => prod (k * k) (fun a => b2z (drawn n (part (3 * n) a M) (ent (nth (a / k) (map (map NTT) A) []) (a mod k)))))).
    - rewrite (wsum_enumerates _ HLM).
      rewrite (wsum_blocks (upto 256) (3 * n) (k * k) (fun a B => b2z (drawn n B (ent (nth (a / k) (map (map NTT) A) []) (a mod k))))).
      rewrite (prod_ext (k * k) _ (fun _ => accepting (2 * n) 256)); [apply prod_pow|].
      intros a Ha. apply drawn_mass.
      assert (K : (0 < k)%nat) by nia.
      eapply vec_ent; [apply mat_row; [exact HN|apply Nat.div_lt_upper_bound; lia]|apply Nat.mod_upper_bound; lia].
    - intros M IM. apply HLM in IM.
      set (g := fun a => drawn n (part (3 * n) a M) (ent (nth (a / k) (map (map NTT) A) []) (a mod k))).
      assert (PB : forall m, prod m (fun a => b2z (g a)) = b2z (forallb g (seq 0 m))).
      { induction m as [|m IH]; [reflexivity|]. rewrite seq_S, forallb_app. cbn [prod forallb]. rewrite IH, andb_true_r.
        cbn [Nat.add]. destruct (forallb g (seq 0 m)), (g m); reflexivity. }
      change (b2z (tape_of M A) = prod (k * k) (fun a => b2z (g a))). rewrite PB. f_equal.
      apply eq_iff_eq_true. rewrite tape_of_iff. fold k. rewrite (A_hat_blocks M _ IM HN).
      rewrite forallb_forall. split; intros H a Ha; apply H; [apply in_seq in Ha; lia|apply in_seq; lia].
  Qed.
End Tapes.

Open Scope Q_scope.

(** ** sums over a list, split by a function of its members *)
Lemma total_zero {X} (l : list X) : total l (fun _ => 0) == 0.
Proof. induction l as [|x l IH]; [reflexivity|]. change (0 + total l (fun _ => 0) == 0). rewrite IH. reflexivity. Qed.
Lemma total_single {X} (l : list X) (is : X -> bool) f y : NoDup l -> In y l -> (forall x, In x l -> is x = true <-> x = y) ->
  total l (fun x => if is x then f x else 0) == f y.
Proof.
  induction 1 as [|x l N ND IH]; intros I H; [contradiction|].
  change ((if is x then f x else 0) + total l (fun x => if is x then f x else 0) == f y).
  destruct I as [->|I].
  - rewrite (proj2 (H y (or_introl eq_refl)) eq_refl).
    rewrite (total_ext l _ (fun _ => 0)); [rewrite total_zero; ring|].
    intros x Hx. destruct (is x) eqn:E; [|reflexivity]. apply H in E; [|right; exact Hx]. subst x. contradiction.
  - rewrite IH; [|exact I|intros z Hz; apply H; right; exact Hz].
    destruct (is x) eqn:E; [|ring]. apply H in E; [|left; reflexivity]. subst x. contradiction.
Qed.
Lemma total_partition {X Y} (LX : list X) (LY : list Y) (g : X -> option Y) (is : X -> Y -> bool) (f : Y -> X -> Q) :
  NoDup LY ->
  (forall x y, In x LX -> g x = Some y -> In y LY /\ forall y', In y' LY -> is x y' = true <-> y' = y) ->
  (forall x, In x LX -> g x = None -> forall y', In y' LY -> is x y' = false) ->
  total LX (fun x => match g x with Some y => f y x | None => 0 end) ==
  total LY (fun y => total (filter (fun x => is x y) LX) (f y)).
Proof.
  intros ND. induction LX as [|x LX IH]; intros H1 H2.
  - symmetry. apply total_zero.
  - change (match g x with Some y => f y x | None => 0 end + total LX (fun x => match g x with Some y => f y x | None => 0 end) ==
      total LY (fun y => total (filter (fun x => is x y) (x :: LX)) (f y))).
    rewrite IH; [|intros z y Hz; apply H1; right; exact Hz|intros z Hz; apply H2; right; exact Hz].
    rewrite (total_ext LY (fun y => total (filter (fun x => is x y) (x :: LX)) (f y))
      (fun y => (if is x y then f y x else 0) + total (filter (fun x => is x y) LX) (f y))).
    2:{ intros y _. cbn [filter]. destruct (is x y); [reflexivity|ring]. }
    rewrite total_plus. apply Qplus_comp; [|reflexivity].
    destruct (g x) as [y|] eqn:E.
    + destruct (H1 x y (or_introl eq_refl) E) as [I H]. symmetry. apply (total_single LY (is x) (fun y => f y x) y ND I H).
    + rewrite (total_ext LY _ (fun _ => 0)); [symmetry; apply total_zero|].
      intros y Hy. rewrite (H2 x (or_introl eq_refl) E y Hy). reflexivity.
Qed.

Section Uniform.
  Variable hs : hashes.
  Hypothesis Hhs : hash_ok hs.
  Variable P : params.
  Hypothesis HP : wf_params P.
  Variable n : nat.
  Variable rho : list Z.
  Hypothesis Hrho : byte_string 32 rho.
  Let k := pk P.
  Variable LM : list (list Z).
  Hypothesis HLM : enumerates (k * k * (3 * n)) LM.
  Variable LA : list (list (list (list Z))).
  Hypothesis HLA : all_matrices k k LA.

  (** the probability that a matrix is found *)
  Definition found_matrix : Q :=
    average LM (fun M => match A_hat (with_matrix hs (pk P) (3 * n) rho M) P n rho with Some _ => 1 | None => 0 end).

  Lemma total_uniform f :
    total LM (fun M => match A_hat (with_matrix hs (pk P) (3 * n) rho M) P n rho with Some Ah => f (map (map NTTinv) Ah) M | None => 0 end) ==
    total LA (fun A => total (matrix_tapes hs P n rho LM A) (f A)).
  Proof.
    transitivity (total LM (fun M => match option_map (map (map NTTinv)) (A_hat (with_matrix hs (pk P) (3 * n) rho M) P n rho) with
      Some A => f A M | None => 0 end)).
    { apply total_ext. intros M _. destruct (A_hat _ P n rho); reflexivity. }
    apply (total_partition LM LA _ (tape_of hs P n rho)); [apply HLA| |].
    - intros M A IM E. apply HLM in IM.
      destruct (A_hat (with_matrix hs (pk P) (3 * n) rho M) P n rho) as [Ah|] eqn:EA; [|discriminate E].
      injection E as <-.
      assert (HM : hash_ok (with_matrix hs (pk P) (3 * n) rho M)) by (apply with_matrix_ok; [exact Hhs|apply IM]).
      pose proof (A_hat_mat _ HM P HP n rho Ah (proj2 Hrho) EA) as HA. fold k in HA.
      assert (Inv : map (map NTT) (map (map NTTinv) Ah) = Ah).
      { rewrite map_map. rewrite <- (map_id Ah) at 2. apply map_ext_in. intros v Iv.
        rewrite map_map. rewrite <- (map_id v) at 2. apply map_ext_in. intros p Ip.
        apply NTT_NTTinv. destruct HA as [_ F]. rewrite Forall_forall in F. destruct (F v Iv) as [_ Fv].
        rewrite Forall_forall in Fv. exact (Fv p Ip). }
      split; [apply HLA; apply (NTTinv_mat P); exact HA|].
      intros A' IA'. apply HLA in IA'. rewrite tape_of_iff, EA. split.
      + intros X. injection X as X. rewrite X. rewrite map_map. rewrite <- (map_id A') at 1. apply map_ext_in. intros v Iv.
        rewrite map_map. rewrite <- (map_id v) at 1. apply map_ext_in. intros p Ip.
        symmetry. apply NTTinv_NTT. destruct IA' as [_ F]. rewrite Forall_forall in F. destruct (F v Iv) as [_ Fv].
        rewrite Forall_forall in Fv. exact (Fv p Ip).
      + intros ->. rewrite Inv. reflexivity.
    - intros M IM E A' _. destruct (tape_of hs P n rho M A') eqn:T; [|reflexivity].
      apply tape_of_iff in T. rewrite T in E. discriminate E.
  Qed.

  Let c : Q := inject_Z (accepting (2 * n) 256 ^ Z.of_nat (k * k)).
  Lemma tapes_length A : In A LA -> inject_Z (Z.of_nat (length (matrix_tapes hs P n rho LM A))) == c.
  Proof. intros I. apply HLA in I. rewrite (tapes_count hs P n rho LM A HLM I). reflexivity. Qed.

  Lemma average_uniform f :
    average LM (fun M => match A_hat (with_matrix hs (pk P) (3 * n) rho M) P n rho with Some Ah => f (map (map NTTinv) Ah) M | None => 0 end) ==
    found_matrix * average LA (fun A => average (matrix_tapes hs P n rho LM A) (f A)).
  Proof.
    assert (S : forall g, total LA (fun A => total (matrix_tapes hs P n rho LM A) (g A)) ==
      c * total LA (fun A => average (matrix_tapes hs P n rho LM A) (g A))).
    { intros g. transitivity (total LA (fun A => c * average (matrix_tapes hs P n rho LM A) (g A))).
      - apply total_ext. intros A IA. rewrite <- (tapes_length A IA). unfold average.
        destruct (matrix_tapes hs P n rho LM A) as [|M l]; [reflexivity|].
        field. intros Z0. change 0 with (inject_Z 0) in Z0. apply (proj1 (inject_Z_injective _ _)) in Z0. cbn [length] in Z0. lia.
      - apply total_scale. }
    assert (EF : found_matrix == c * inject_Z (Z.of_nat (length LA)) / inject_Z (Z.of_nat (length LM))).
    { unfold found_matrix, average. rewrite (total_uniform (fun _ _ => 1)).
      assert (T1 : total LA (fun A => total (matrix_tapes hs P n rho LM A) (fun _ => 1)) == c * inject_Z (Z.of_nat (length LA))).
      { transitivity (total LA (fun _ => c)).
        - apply total_ext. intros A IA. rewrite <- (tapes_length A IA). rewrite total_const. ring.
        - rewrite total_const. ring. }
      rewrite T1. reflexivity. }
    rewrite EF. unfold average at 1. rewrite total_uniform, S. unfold average at 2.
    set (T := total LA _). set (b := inject_Z (Z.of_nat (length LM))).
    destruct LA as [|A0 l] eqn:EL.
    { unfold T. change (c * 0 / b == c * 0 / b * (0 / 0)). unfold Qdiv. ring. }
    unfold Qdiv. assert (N : ~ inject_Z (Z.of_nat (length (A0 :: l))) == 0).
    { intros Z0. change 0 with (inject_Z 0) in Z0. apply (proj1 (inject_Z_injective _ _)) in Z0. cbn [length] in Z0. lia. }
    set (a := inject_Z (Z.of_nat (length (A0 :: l)))) in *. clearbody T a b c. clear - N.
    transitivity (c * T * / b * (a * / a)); [rewrite (Qmult_inv_r a N)|]; ring.
  Qed.

  Lemma found_range : 0 <= found_matrix <= 1.
  Proof.
    unfold found_matrix. split.
    - destruct LM as [|M0 l]; [apply Qle_refl|]. rewrite <- (average_const (M0 :: l) 0) by discriminate. apply average_le.
      intros M _. destruct (A_hat _ P n rho); discriminate.
    - apply average_bound; [discriminate|]. intros M _. destruct (A_hat _ P n rho); discriminate.
  Qed.
End Uniform.

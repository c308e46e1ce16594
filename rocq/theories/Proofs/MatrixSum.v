(** Sums over the XOF answers from which the matrix A is drawn, as sums over the matrix. *)
From Coq Require Import List ZArith Lia Bool Arith Permutation.
From Verif.Base Require Import Res Oracles.
From Verif.Spec Require Import FIPS203 Domains Noise Counting Random.
From Verif.Model Require Import Machine Util Algebra Encode Crypto Sample.
From Verif.Proofs Require Import Basics Field Poly CompressProofs NttProofs NttAlgebra EncodeProofs SampleProofs CountProofs
  PkeProofs Correctness TailProofs Slots SlotSums FailureProofs FailureAverage MatrixColumn.
Import ListNotations.
Open Scope Z_scope.

(** the n XOF reads in B give the polynomial p *)
Definition drawn (n : nat) (B p : list Z) : bool :=
  returns (poly_sample_uniform n {| xof_stream := fun i => nth i B 0; xof_pos := 0 |}) p.

Lemma enumerates_tuples n : enumerates n (tuples (upto 256) n).
Proof. split; [apply NoDup_tuples, NoDup_upto|]. intros B. apply in_bytes_tuples. Qed.
Lemma wsum_enumerates {n L} (f : list Z -> Z) : enumerates n L -> wsum f L = wsum f (tuples (upto 256) n).
Proof.
  intros [NL HL]. apply wsum_perm, NoDup_Permutation; [exact NL|apply NoDup_tuples, NoDup_upto|].
  intros x. rewrite in_bytes_tuples. apply HL.
Qed.
Lemma poly_tuples p : In p (tuples (upto q) 256) <-> poly p.
Proof.
  rewrite in_tuples. unfold poly, fe. split; intros [L F]; (split; [exact L|]); (eapply Forall_impl; [|exact F]);
    intros x Hx; apply in_upto_iff; exact Hx.
Qed.

Lemma drawn_mass n p : poly p -> wsum (fun B => b2z (drawn n B p)) (tuples (upto 256) (3 * n)) = accepting (2 * n) 256.
Proof. intros Hp. rewrite <- count_wsum. apply count_uniform; [apply enumerates_tuples|exact Hp]. Qed.

Lemma returns_once r l : NoDup l -> wsum (fun p => b2z (returns r p)) l <= 1.
Proof.
  induction 1 as [|p l N _ IH]; [discriminate|]. rewrite wsum_cons. destruct (returns r p) eqn:E; [|cbn [b2z]; lia].
  rewrite (wsum_ext _ (fun _ => 0)).
  - rewrite wsum_const. cbn [b2z]. lia.
  - intros p' Hp'. destruct r as [x| | |]; cbn [returns] in *; try discriminate E.
    destruct (list_eq_dec Z.eq_dec x p) as [->|]; [|discriminate E].
    destruct (list_eq_dec Z.eq_dec p p') as [->|]; [contradiction|reflexivity].
Qed.

Lemma drawn_total n : accepting (2 * n) 256 * q ^ 256 <= 256 ^ Z.of_nat (3 * n).
Proof.
  assert (E : accepting (2 * n) 256 * q ^ 256 =
    wsum (fun p => wsum (fun B => b2z (drawn n B p)) (tuples (upto 256) (3 * n))) (tuples (upto q) 256)).
  { rewrite (wsum_ext _ (fun _ => accepting (2 * n) 256)) by (intros p Hp; exact (drawn_mass n p (proj1 (poly_tuples p) Hp))).
    rewrite wsum_const, tuples_length, upto_length by discriminate. rewrite Z.mul_comm. f_equal. }
  rewrite E, wsum_swap. eapply Z.le_trans; [apply (wsum_le _ (fun _ => 1))|].
  - intros B _. apply returns_once, NoDup_tuples, NoDup_upto.
  - rewrite wsum_const, tuples_length, upto_length by discriminate. rewrite Z.mul_1_r. apply Z.le_refl.
Qed.

Lemma wsum_one {A} (f : A -> Z) x l : In x l -> (forall y, In y l -> 0 <= f y) -> f x <= wsum f l.
Proof.
  induction l as [|a l IH]; intros I P; [contradiction|]. rewrite wsum_cons.
  assert (0 <= wsum f l) by (apply wsum_nonneg; intros; apply P; right; assumption).
  destruct I as [->|I]; [lia|]. pose proof (P a (or_introl eq_refl)). specialize (IH I (fun y Hy => P y (or_intror Hy))). lia.
Qed.

Lemma matrix_sum n m LM (val H : list Z -> Z) : enumerates (m * (3 * n)) LM ->
  (forall l, In l (tuples (upto q) (m * 256)) -> 0 <= H l) ->
  (forall M, In M LM -> val M <= 0 \/ exists l, In l (tuples (upto q) (m * 256)) /\
     (forall a, (a < m)%nat -> drawn n (part (3 * n) a M) (part 256 a l) = true) /\ val M <= H l) ->
  q ^ Z.of_nat (m * 256) * wsum val LM <= 256 ^ Z.of_nat (m * (3 * n)) * wsum H (tuples (upto q) (m * 256)).
Proof.
  intros HM H0 Hv.
  assert (B01 : forall b : bool, 0 <= b2z b) by (intros []; discriminate).
  assert (S1 : wsum val LM <= accepting (2 * n) 256 ^ Z.of_nat m * wsum H (tuples (upto q) (m * 256))).
  { eapply Z.le_trans; [apply (wsum_le _ (fun M => wsum (fun l => H l * prod m (fun a => b2z (drawn n (part (3 * n) a M) (part 256 a l))))
      (tuples (upto q) (m * 256))))|].
    - intros M IM.
      assert (PN : forall l, In l (tuples (upto q) (m * 256)) -> 0 <= H l * prod m (fun a => b2z (drawn n (part (3 * n) a M) (part 256 a l)))).
      { intros l Hl. apply Z.mul_nonneg_nonneg; [apply H0, Hl|]. apply prod_nonneg. intros. apply B01. }
      destruct (Hv M IM) as [N|(l & Hl & Hd & V)].
      + eapply Z.le_trans; [exact N|]. apply wsum_nonneg. exact PN.
      + eapply Z.le_trans; [exact V|]. eapply Z.le_trans; [|apply (wsum_one _ l _ Hl PN)]. cbv beta.
        rewrite (prod_ext m _ (fun _ => 1)) by (intros a Ha; rewrite (Hd a Ha); reflexivity).
        rewrite prod_pow, Z.pow_1_l by apply Nat2Z.is_nonneg. lia.
    - rewrite wsum_swap, <- wsum_scale. apply Z.eq_le_incl, wsum_ext. intros l Hl. rewrite wsum_scale, Z.mul_comm. f_equal.
      rewrite (wsum_enumerates _ HM).
      rewrite (wsum_blocks (upto 256) (3 * n) m (fun a B => b2z (drawn n B (part 256 a l)))).
      rewrite (prod_ext m _ (fun _ => accepting (2 * n) 256)); [apply prod_pow|].
      intros a Ha. apply drawn_mass. exact (part_poly m a l Hl Ha). }
  set (T := wsum H _) in *. assert (T0 : 0 <= T) by (apply wsum_nonneg, H0).
  apply (Z.mul_le_mono_nonneg_l _ _ (q ^ Z.of_nat (m * 256))) in S1; [|apply Z.pow_nonneg; discriminate].
  eapply Z.le_trans; [exact S1|]. rewrite Z.mul_assoc. apply Z.mul_le_mono_nonneg_r; [exact T0|].
  rewrite (Nat.mul_comm m 256), (Nat.mul_comm m (3 * n)), (Nat2Z.inj_mul 256), (Nat2Z.inj_mul (3 * n)).
  rewrite !Z.pow_mul_r, <- Z.pow_mul_l by apply Nat2Z.is_nonneg.
  apply Z.pow_le_mono_l. split.
  - apply Z.mul_nonneg_nonneg; [apply Z.pow_nonneg; discriminate|].
    rewrite <- (drawn_mass n (tab 256 (fun _ => 0 mod q))) by apply (poly_tab_mod (fun _ => 0)). apply wsum_nonneg. intros. apply B01.
  - rewrite Z.mul_comm. apply drawn_total.
Qed.

(** ** the matrix by columns *)
Definition by_columns (k : nat) (l : list Z) : list Z :=
  tab (k * (k * 256)) (fun t => nth ((t mod (k * 256) / 256 * k + t / (k * 256)) * 256 + t mod (k * 256) mod 256) l 0).

Lemma by_columns_nth k l a s : (a < k)%nat -> (s < k * 256)%nat ->
  nth (a * (k * 256) + s) (by_columns k l) 0 = nth ((s / 256 * k + a) * 256 + s mod 256) l 0.
Proof.
  intros Ha Hs. unfold by_columns. rewrite nth_tab by nia.
  rewrite (Nat.add_comm (a * (k * 256))), Nat.mod_add, Nat.div_add, (Nat.mod_small s (k * 256)), (Nat.div_small s (k * 256)) by lia. reflexivity.
Qed.
Lemma by_columns_part k l a j : (a < k)%nat -> (j < k)%nat -> length l = (k * k * 256)%nat ->
  part 256 j (part (k * 256) a (by_columns k l)) = part 256 (j * k + a) l.
Proof.
  intros Ha Hj L.
  assert (L1 : length (part (k * 256) a (by_columns k l)) = (k * 256)%nat).
  { apply (part_length (k * 256) k); [|exact Ha]. unfold by_columns. apply tab_length. }
  assert (L2 : length (part 256 (j * k + a) l) = 256%nat) by (apply (part_length 256 (k * k)); [exact L|nia]).
  apply (nth_ext _ _ 0 0).
  - rewrite L2. apply (part_length 256 k); assumption.
  - rewrite (part_length 256 k) by assumption. intros c Hc.
    rewrite !nth_part by (first [exact Hc|nia]). rewrite by_columns_nth by nia.
    rewrite (Nat.add_comm (j * 256)), Nat.div_add, Nat.mod_add, Nat.div_small, Nat.mod_small by lia. reflexivity.
Qed.

Lemma by_columns_tuple k l : In l (tuples (upto q) (k * k * 256)) -> In (by_columns k l) (tuples (upto q) (k * (k * 256))).
Proof.
  intros Hl. apply in_tuples in Hl. destruct Hl as [L F]. apply in_tuples. unfold by_columns. split; [apply tab_length|].
  apply Forall_forall. intros x Hx. apply in_tab in Hx. destruct Hx as (t & Ht & <-).
  rewrite Forall_forall in F. apply F, nth_In. rewrite L.
  assert (K : (0 < k)%nat) by nia.
  assert (t mod (k * 256) < k * 256)%nat by (apply Nat.mod_upper_bound; nia).
  pose proof (div256 k _ H). pose proof (mod256 (t mod (k * 256))).
  assert (t / (k * 256) < k)%nat by (apply Nat.div_lt_upper_bound; nia). nia.
Qed.

Lemma by_columns_inj k l l' : In l (tuples (upto q) (k * k * 256)) -> In l' (tuples (upto q) (k * k * 256)) ->
  by_columns k l = by_columns k l' -> l = l'.
Proof.
  intros Hl Hl' E. apply in_tuples in Hl, Hl'. destruct Hl as [L _]. destruct Hl' as [L' _].
  apply (nth_ext _ _ 0 0); [congruence|]. intros t Ht. rewrite L in Ht.
  assert (K : (0 < k)%nat) by nia.
  pose proof (div256 (k * k) t Ht) as D. pose proof (mod256 t) as M.
  assert (Hj : (t / 256 / k < k)%nat) by (apply Nat.div_lt_upper_bound; lia).
  assert (Ha : (t / 256 mod k < k)%nat) by (apply Nat.mod_upper_bound; lia).
  assert (S : t = ((t / 256 / k * k + t / 256 mod k) * 256 + t mod 256)%nat).
  { rewrite (Nat.mul_comm (t / 256 / k)), <- Nat.div_mod_eq. symmetry. apply divmod256. }
  pose proof (by_columns_part k l (t / 256 mod k) (t / 256 / k) Ha Hj L) as P1.
  pose proof (by_columns_part k l' (t / 256 mod k) (t / 256 / k) Ha Hj L') as P2.
  rewrite E, P2 in P1. rewrite S, <- !nth_part by exact M. rewrite P1. reflexivity.
Qed.

Section Columns.
  Variable k : nat.
  Hypothesis Hk : (0 < k)%nat.
  Variable y : list (list Z).
  Hypothesis Hy : vec k y.
  Variables (G : Z -> Z) (U : Z).
  Hypothesis HG : forall X, 0 <= X < q -> 0 <= G X <= U.
  Let tau := length (common_zeros k y).
  Let Q := wsum G (upto q).

  Definition all_entries (l : list Z) : Z :=
    prod k (fun a => prod 256 (fun c => G (co (entry k y (part (k * 256) a (by_columns k l))) c))).

  Lemma G_entry l c : (c < 256)%nat -> 0 <= G (co (entry k y l) c).
  Proof. intros Hc. apply HG. exact (poly_co _ c (entry_poly k y l) Hc). Qed.

  Lemma columns_bound : wsum all_entries (tuples (upto q) (k * k * 256)) <=
    (Q ^ Z.of_nat (256 - 2 * tau) * U ^ Z.of_nat (2 * tau) * q ^ Z.of_nat (k * 256 - (256 - 2 * tau))) ^ Z.of_nat k.
  Proof.
    unfold all_entries.
    eapply Z.le_trans; [apply (wsum_inj (fun l => prod k (fun a => prod 256 (fun c => G (co (entry k y (part (k * 256) a l)) c))))
      (by_columns k) _ (tuples (upto q) (k * (k * 256))))|].
    - apply NoDup_tuples, NoDup_upto.
    - apply by_columns_tuple.
    - intros l l'. apply by_columns_inj.
    - intros l _. apply prod_nonneg. intros a _. apply prod_nonneg. intros c Hc. apply G_entry, Hc.
    - rewrite (wsum_blocks (upto q) (k * 256) k (fun _ x => prod 256 (fun c => G (co (entry k y x) c)))).
      rewrite <- prod_pow. apply prod_le. intros a Ha. split.
      + apply wsum_nonneg. intros x _. apply prod_nonneg. intros c Hc. apply G_entry, Hc.
      + apply column_bound; assumption.
  Qed.
End Columns.

(** the matrix drawn from the XOF answers M *)
Lemma SampleNTT_agrees n B B' : (forall i, (i < 3 * n)%nat -> B i = B' i) -> SampleNTT n B = SampleNTT n B'.
Proof.
  intros H. unfold SampleNTT. rewrite !flat_map_concat_map, (map_ext_in (candidates B) (candidates B')); [reflexivity|].
  intros t Ht. apply in_seq in Ht. unfold candidates. rewrite !H by lia. reflexivity.
Qed.

Lemma A_hat_drawn hs P (HP : wf_params P) n rho M Ah : byte_string (pk P * pk P * (3 * n)) M ->
  A_hat (with_matrix hs (pk P) (3 * n) rho M) P n rho = Some Ah ->
  exists l, In l (tuples (upto q) (pk P * pk P * 256)) /\
    (forall a, (a < pk P * pk P)%nat -> drawn n (part (3 * n) a M) (part 256 a l) = true) /\
    (forall y a, (a < pk P)%nat -> ent (rmatvec (pk P) (transposed (pk P) (map (map NTTinv) Ah)) y) a =
       entry (pk P) y (part (pk P * 256) a (by_columns (pk P) l))).
Proof.
  set (k := pk P). intros [LM FM] EA.
  destruct (A_hat_some _ _ _ _ _ EA) as [LA HA]. fold k in LA, HA.
  assert (SA : forall i j, (i < k)%nat -> (j < k)%nat ->
    SampleNTT n (fun t => nth t (part (3 * n) (i * k + j) M) 0) = Some (ent (nth i Ah []) j)).
  { intros i j Hi Hj. destruct (HA i j Hi Hj) as [_ S]. rewrite <- S. apply SampleNTT_agrees. intros t Ht.
    cbn [with_matrix shake128].
    assert (Q : rho ++ [Z.of_nat j; Z.of_nat i] = ask_matrix k rho (i * k + j)).
    { unfold ask_matrix. rewrite Nat.add_comm, Nat.mod_add, Nat.div_add, Nat.mod_small, Nat.div_small by lia. reflexivity. }
    rewrite Q, answer_asked; [reflexivity|intros b _; apply ask_matrix_inj|nia]. }
  assert (PA : forall i j, (i < k)%nat -> (j < k)%nat -> poly (ent (nth i Ah []) j)).
  { intros i j Hi Hj. eapply SampleNTT_poly; [|exact (SA i j Hi Hj)]. intros t. apply nth_byte, part_bytes, FM. }
  set (l := tab (k * k * 256) (fun t => co (ent (nth (t / 256 / k) Ah []) (t / 256 mod k)) (t mod 256))).
  assert (LL : length l = (k * k * 256)%nat) by apply tab_length.
  assert (PL : forall i j, (i < k)%nat -> (j < k)%nat -> part 256 (i * k + j) l = ent (nth i Ah []) j).
  { intros i j Hi Hj. apply (nth_ext _ _ 0 0).
    - rewrite (part_length 256 (k * k)) by (first [exact LL|nia]). symmetry. apply (PA i j Hi Hj).
    - rewrite (part_length 256 (k * k)) by (first [exact LL|nia]). intros c Hc. rewrite nth_part by exact Hc.
      unfold l. rewrite nth_tab by nia.
      rewrite (Nat.add_comm (_ * 256)), Nat.div_add, Nat.mod_add, (Nat.div_small c), (Nat.mod_small c) by lia. cbn [Nat.add].
      rewrite (Nat.add_comm (i * k)), Nat.div_add, Nat.mod_add, (Nat.div_small j), (Nat.mod_small j) by lia. reflexivity. }
  exists l. split; [|split].
  - apply in_tuples. split; [exact LL|]. apply Forall_forall. intros x Hx. apply in_tab in Hx. destruct Hx as (t & Ht & <-).
    apply in_upto_iff. apply poly_co; [|apply mod256]. assert (K : (0 < k)%nat) by nia.
    pose proof (div256 (k * k) t Ht). apply PA; [apply Nat.div_lt_upper_bound; lia|apply Nat.mod_upper_bound; lia].
  - intros a Ha. assert (K : (0 < k)%nat) by nia.
    assert (Ea : a = (a / k * k + a mod k)%nat) by (rewrite (Nat.mul_comm (a / k)); apply Nat.div_mod_eq).
    assert (Hi : (a / k < k)%nat) by (apply Nat.div_lt_upper_bound; lia).
    assert (Hj : (a mod k < k)%nat) by (apply Nat.mod_upper_bound; lia).
    unfold drawn. rewrite Ea, (PL _ _ Hi Hj). rewrite poly_sample_uniform_ok by (intros t; apply nth_byte, part_bytes, FM).
    rewrite (SA _ _ Hi Hj). cbn [lift returns]. destruct (list_eq_dec Z.eq_dec _ _); [reflexivity|contradiction].
  - intros y a Ha. unfold rmatvec. rewrite ent_tab by exact Ha. unfold entry. f_equal.
    unfold transposed, column. rewrite nth_tab by exact Ha. apply tab_ext. intros j Hj.
    rewrite by_columns_part by assumption. rewrite (PL j a Hj Ha).
    assert (L1 : length (nth j Ah []) = k) by apply (HA j a Hj Ha).
    change (@nil (list Z)) with (map NTTinv []) at 1. rewrite map_nth. rewrite (ent_map k) by assumption. reflexivity.
Qed.

(** The bounds of FailureProofs.v and FailureAverage.v for the three parameter sets: the
    numbers [a / b] that give the best bound, and the comparisons of concrete integers. *)
From Coq Require Import List ZArith Lia Bool Arith.
From Verif.Base Require Import Res Oracles.
From Verif.Spec Require Import FIPS203 Domains Noise Counting Random.
From Verif.Model Require Import Machine Util Algebra Encode Crypto Sample Param.
From Verif.Proofs Require Import Basics Field Poly CompressProofs NttAlgebra EncodeProofs SampleProofs CountProofs
  PkeProofs Correctness TailProofs FailureProofs FailureAverage.
Import ListNotations.
Open Scope Z_scope.

Lemma le_by x y : (x <=? y) = true -> x <= y.
Proof. apply Z.leb_le. Qed.

(** the values of eta bits minus eta bits with their multiplicities *)
Definition vals (e : nat) : list (Z * Z) :=
  match e with
  | 2%nat => [(1, -2); (4, -1); (6, 0); (4, 1); (1, 2)]
  | _ => [(1, -3); (6, -2); (15, -1); (20, 0); (15, 1); (6, 2); (1, 3)]
  end.
Lemma cbd_vals e (h : Z -> Z) : (e = 2 \/ e = 3)%nat ->
  wsum (fun x => h (cbdz e x)) (upto (2 ^ Z.of_nat (2 * e))) = wsum (fun p => fst p * h (snd p)) (vals e).
Proof.
  intros [-> | ->]; rewrite <- (wsum_map h).
  - change (map (cbdz 2) (upto (2 ^ Z.of_nat (2 * 2)))) with
      [0; 1; 1; 2; -1; 0; 0; 1; -1; 0; 0; 1; -2; -1; -1; 0]. unfold wsum, vals. cbn [map fold_right fst snd]. ring.
  - change (map (cbdz 3) (upto (2 ^ Z.of_nat (2 * 3)))) with
      [0; 1; 1; 2; 1; 2; 2; 3; -1; 0; 0; 1; 0; 1; 1; 2; -1; 0; 0; 1; 0; 1; 1; 2; -2; -1; -1; 0; -1; 0; 0; 1;
       -1; 0; 0; 1; 0; 1; 1; 2; -2; -1; -1; 0; -1; 0; 0; 1; -2; -1; -1; 0; -1; 0; 0; 1; -3; -2; -2; -1; -2; -1; -1; 0].
    unfold wsum, vals. cbn [map fold_right fst snd]. ring.
Qed.

Definition g_bin (e : nat) (a b C c : Z) : Z :=
  wsum (fun p => fst p * (a ^ (Z.of_nat e * C + c * snd p) * b ^ (Z.of_nat e * C - c * snd p))) (vals e).
Lemma g_at_bin e a b C c : (e = 2 \/ e = 3)%nat -> g_at e a b C c = g_bin e a b C c.
Proof. intros He. exact (cbd_vals e (fun y => a ^ (Z.of_nat e * C + c * y) * b ^ (Z.of_nat e * C - c * y)) He). Qed.

Lemma shape_bin e a b C : (e = 2 \/ e = 3)%nat ->
  forallb (fun c => (g_bin e a b C (- c) =? g_bin e a b C c)) (upto (C + 1)) &&
  forallb (fun c => (g_bin e a b C c <=? g_bin e a b C (c + 1))) (upto C) = true -> shape_ok e a b C = true.
Proof.
  intros He H. apply andb_true_iff in H. destruct H as [H1 H2]. rewrite forallb_forall in H1, H2.
  apply andb_true_iff. split; apply forallb_forall; intros c Hc; rewrite !g_at_bin by exact He; [apply H1|apply H2]; exact Hc.
Qed.
Lemma le_bin e a b C c s y : (e = 2 \/ e = 3)%nat -> (g_bin e a b C c * s <=? y) = true -> g_at e a b C c * s <= y.
Proof. intros He H. rewrite g_at_bin by exact He. apply Z.leb_le, H. Qed.
Lemma sum_bin e a b C y : (e = 2 \/ e = 3)%nat ->
  (wsum (fun p => fst p * g_bin e a b C (Z.abs (snd p))) (vals e) <=? y) = true ->
  wsum (fun x => g_at e a b C (Z.abs (cbdz e x))) (upto (2 ^ Z.of_nat (2 * e))) <= y.
Proof.
  intros He H. apply Z.leb_le in H. rewrite (cbd_vals e (fun z => g_at e a b C (Z.abs z)) He).
  eapply Z.le_trans; [|exact H]. apply Z.eq_le_incl. apply wsum_ext. intros p _. rewrite g_at_bin by exact He. reflexivity.
Qed.
Lemma table_bin e a b C l : (e = 2 \/ e = 3)%nat -> map (g_bin e a b C) (upto (C + 1)) = l -> map (g_at e a b C) (upto (C + 1)) = l.
Proof. intros He <-. apply map_ext. intros c. apply g_at_bin, He. Qed.

(** ** for every value X of A^T y: the average weight of the decompressed coefficient minus X *)

(** the rounding errors of all field elements *)
Definition rounding_errors (d : nat) : list Z :=
  map (fun u => centred (Decompress d (Compress d u) - u)) (upto q).
Definition errors_10 : list Z := Eval vm_compute in rounding_errors 10.
Definition errors_11 : list Z := Eval vm_compute in rounding_errors 11.
Lemma errors_10_ok : rounding_errors 10 = errors_10.
Proof. vm_compute. reflexivity. Qed.
Lemma errors_11_ok : rounding_errors 11 = errors_11.
Proof. vm_compute. reflexivity. Qed.

(** a test on all windows of five entries *)
Fixpoint windows (ok : Z -> Z -> Z -> Z -> Z -> bool) (l : list Z) : bool :=
  match l with
  | x0 :: ((x1 :: x2 :: x3 :: x4 :: _) as t) => ok x0 x1 x2 x3 x4 && windows ok t
  | _ => true
  end.
Lemma windows_ok ok l i : windows ok l = true -> (i + 4 < length l)%nat ->
  ok (nth i l 0) (nth (i + 1) l 0) (nth (i + 2) l 0) (nth (i + 3) l 0) (nth (i + 4) l 0) = true.
Proof.
  revert i. induction l as [|x0 l IH]; intros i H Hi; [cbn [length] in Hi; lia|].
  destruct l as [|x1 l]; [cbn [length] in Hi; lia|]. destruct l as [|x2 l]; [cbn [length] in Hi; lia|].
  destruct l as [|x3 l]; [cbn [length] in Hi; lia|]. destruct l as [|x4 l]; [cbn [length] in Hi; lia|].
  assert (H' : ok x0 x1 x2 x3 x4 && windows ok (x1 :: x2 :: x3 :: x4 :: l) = true) by exact H.
  apply andb_true_iff in H'. destruct H' as [H1 H2]. destruct i as [|i]; [exact H1|].
  apply (IH i H2). cbn [length] in Hi |- *. lia.
Qed.

Definition window_check (C : Z) (G : list Z) (U x0 x1 x2 x3 x4 : Z) : bool :=
  let ws := [Z.abs (-2 + x0); Z.abs (-1 + x1); Z.abs x2; Z.abs (1 + x3); Z.abs (2 + x4)] in
  forallb (fun w => w <=? C) ws &&
  (wsum (fun p => fst p * nth (Z.to_nat (snd p)) G 0) (combine [1; 4; 6; 4; 1] ws) <=? U).

Lemma rounding_check_ok e a b d C G U L : 0 <= C -> map (g_at e a b C) (upto (C + 1)) = G ->
  rounding_errors d = L -> windows (window_check C G U) (skipn (Z.to_nat q - 2) L ++ L ++ firstn 2 L) = true ->
  forall X, 0 <= X < q ->
  wsum (fun x => g_at e a b C (Z.abs (wid d X (cbdz 2 x)))) (upto (2 ^ Z.of_nat (2 * 2))) <= U.
Proof.
  intros HC EG EL H X HX. rewrite (cbd_vals 2 (fun c => g_at e a b C (Z.abs (wid d X c))) (or_introl eq_refl)).
  assert (LL : length L = Z.to_nat q) by (rewrite <- EL; unfold rounding_errors, upto; rewrite !map_length, seq_length; reflexivity).
  set (Q := Z.to_nat q) in *. assert (EQ : Z.of_nat Q = q) by reflexivity. assert (Q4 : (4 < Q)%nat) by (apply Nat2Z.inj_lt; reflexivity).
  clearbody Q.
  assert (EN : forall u, (u < Q)%nat -> nth u L 0 = centred (Decompress d (Compress d (Z.of_nat u)) - Z.of_nat u)).
  { intros u Hu. rewrite <- EL. unfold rounding_errors, upto. rewrite map_map.
    set (f := fun x => centred (Decompress d (Compress d (Z.of_nat x)) - Z.of_nat x)).
    rewrite (nth_indep _ 0 (f 0%nat)) by (rewrite map_length, seq_length; lia).
    rewrite (map_nth f), seq_nth by lia. reflexivity. }
  (* the window at X *)
  assert (WN : forall j, (j <= 4)%nat -> 
     nth (Z.to_nat X + j) (skipn (Q - 2) L ++ L ++ firstn 2 L) 0 =
     centred (Decompress d (Compress d ((X + (Z.of_nat j - 2)) mod q)) - (X + (Z.of_nat j - 2)) mod q)).
  { intros j Hj. assert (LS : length (skipn (Q - 2) L) = 2%nat) by (rewrite skipn_length; lia).
    destruct (Nat.lt_ge_cases (Z.to_nat X + j) 2) as [C1|C1].
    - rewrite app_nth1 by lia.
      assert (SK : forall n m (l : list Z), nth n (skipn m l) 0 = nth (m + n) l 0).
      { intros n0 m0. induction m0 as [|m0 IHm]; intros l; [reflexivity|]. destruct l as [|y l]; [destruct n0; reflexivity|apply IHm]. }
      rewrite SK, EN by lia.
      assert (EX : (X + (Z.of_nat j - 2)) mod q = Z.of_nat (Q - 2 + (Z.to_nat X + j))).
      { rewrite <- (Z_mod_plus_full (X + (Z.of_nat j - 2)) 1 q). rewrite Z.mod_small by lia. lia. }
      rewrite EX. reflexivity.
    - rewrite app_nth2 by lia. rewrite LS.
      destruct (Nat.lt_ge_cases (Z.to_nat X + j - 2) Q) as [C2|C2].
      + rewrite app_nth1 by lia. rewrite EN by lia.
        assert (EX : (X + (Z.of_nat j - 2)) mod q = Z.of_nat (Z.to_nat X + j - 2)) by (rewrite Z.mod_small by lia; lia).
        rewrite EX. reflexivity.
      + rewrite app_nth2 by lia. rewrite LL.
        assert (FN : forall n m (l : list Z), (n < m)%nat -> nth n (firstn m l) 0 = nth n l 0).
        { intros n0 m0. revert n0. induction m0 as [|m0 IHm]; intros n0 l Hl; [lia|]. destruct l as [|y l]; [reflexivity|].
          destruct n0 as [|n0]; [reflexivity|]. exact (IHm n0 l ltac:(lia)). }
        rewrite FN, EN by lia.
        assert (EX : (X + (Z.of_nat j - 2)) mod q = Z.of_nat (Z.to_nat X + j - 2 - Q)).
        { rewrite <- (Z_mod_plus_full (X + (Z.of_nat j - 2)) (-1) q). rewrite Z.mod_small by lia. lia. }
        rewrite EX. reflexivity. }
  apply (windows_ok _ _ (Z.to_nat X)) in H.
  2:{ rewrite !app_length, skipn_length, firstn_length, LL. lia. }
  rewrite <- (Nat.add_0_r (Z.to_nat X)) in H at 1. rewrite !WN in H by lia.
  unfold window_check in H. apply andb_true_iff in H. destruct H as [H1 H2].
  apply Z.leb_le in H2. cbn [map combine] in H2. unfold wsum in H2. cbn [map fold_right fst snd] in H2.
  cbn [map forallb] in H1. rewrite !andb_true_iff, !Z.leb_le in H1. destruct H1 as (W1 & W2 & W3 & W4 & W5 & _).
  assert (N : forall w, 0 <= w <= C -> nth (Z.to_nat w) G 0 = g_at e a b C w).
  { intros w Hw. rewrite <- EG. unfold upto. rewrite map_map.
    rewrite (nth_indep _ 0 (g_at e a b C (Z.of_nat 0))) by (rewrite map_length, seq_length; lia).
    rewrite (map_nth (fun x => g_at e a b C (Z.of_nat x))), seq_nth by lia. f_equal. lia. }
  rewrite !N in H2 by (split; [apply Z.abs_nonneg|assumption]).
  unfold vals, wsum. cbn [map fold_right fst snd]. unfold wid.
  replace (Z.of_nat 0 - 2) with (-2) in H2 by reflexivity. replace (Z.of_nat 1 - 2) with (-1) in H2 by reflexivity.
  replace (Z.of_nat 2 - 2) with 0 in H2 by reflexivity. replace (Z.of_nat 3 - 2) with 1 in H2 by reflexivity.
  replace (Z.of_nat 4 - 2) with 2 in H2 by reflexivity. rewrite Z.add_0_l. exact H2.
Qed.

Lemma wf_512 : wf_params ML_KEM_512.
Proof. cbv; repeat split; lia. Qed.
Lemma range_512_u : (1 <= du ML_KEM_512 <= 11)%nat.
Proof. cbn. lia. Qed.
Lemma range_512_v : (1 <= dv ML_KEM_512 <= 11)%nat.
Proof. cbn. lia. Qed.
Lemma wf_768 : wf_params ML_KEM_768.
Proof. cbv; repeat split; lia. Qed.
Lemma range_768_u : (1 <= du ML_KEM_768 <= 11)%nat.
Proof. cbn. lia. Qed.
Lemma range_768_v : (1 <= dv ML_KEM_768 <= 11)%nat.
Proof. cbn. lia. Qed.
Lemma wf_1024 : wf_params ML_KEM_1024.
Proof. cbv; repeat split; lia. Qed.
Lemma range_1024_u : (1 <= du ML_KEM_1024 <= 11)%nat.
Proof. cbn. lia. Qed.
Lemma range_1024_v : (1 <= dv ML_KEM_1024 <= 11)%nat.
Proof. cbn. lia. Qed.

Lemma worst_512 hs A d m r L t :
  r <> key_sigma hs ML_KEM_512 d -> enumerates 768 L ->
  (forall B, In B L -> t B = true -> ~ noise_in_range (with_secrets hs ML_KEM_512 (key_sigma hs ML_KEM_512 d) B) ML_KEM_512 A d m r) ->
  2 ^ 10 * count t L <= 256 ^ 768.
Proof.
  intros Hr HL Ht.
  exact (worst_bound ML_KEM_512 wf_512 range_512_u range_512_v 2 104 eq_refl eq_refl 27 26 eq_refl
    ltac:(discriminate) ltac:(discriminate) (shape_bin 3 27 26 3 (or_intror eq_refl) ltac:(vm_compute; reflexivity)) (shape_bin 3 27 26 4 (or_intror eq_refl) ltac:(vm_compute; reflexivity))
    ltac:(split; [reflexivity|discriminate]) 512 eq_refl (2 ^ 10) ltac:(discriminate)
    1622453719391047333743605562583837038654799963100110095522991
    1634613386375012080686742107435778356240757768977778423759291
    1547421820397546191262630162995193617243602882901948656216140
    ltac:(discriminate) ltac:(discriminate) ltac:(discriminate)
    (le_by (26 * unity) (1547421820397546191262630162995193617243602882901948656216140 * 27) (ltac:(vm_compute; reflexivity)))
    (le_bin 3 27 26 3 3 unity (1622453719391047333743605562583837038654799963100110095522991 * (2 ^ Z.of_nat (2 * 3) * (27 * 26) ^ (Z.of_nat 3 * 3))) (or_intror eq_refl) (ltac:(vm_compute; reflexivity)))
    (le_bin 3 27 26 4 4 unity (1634613386375012080686742107435778356240757768977778423759291 * (2 ^ Z.of_nat (2 * 3) * (27 * 26) ^ (Z.of_nat 3 * 4))) (or_intror eq_refl) (ltac:(vm_compute; reflexivity)))
    (le_by (512 * (2 ^ 10) * (pow_up 1622453719391047333743605562583837038654799963100110095522991 512 * pow_up 1634613386375012080686742107435778356240757768977778423759291 512 * pow_up 1547421820397546191262630162995193617243602882901948656216140 726)) (unity * unity * unity) (ltac:(vm_compute; reflexivity)))
    hs A d m r L t Hr HL Ht).
Qed.

Definition table_512 : list Z := [34012224000000000000; 34869635163000000000; 37558352909169000000; 42451206532633107000; 50253254083270667521].
Lemma table_512_ok : map (g_at 3 6 5 4) (upto (4 + 1)) = table_512.
Proof. apply table_bin; [exact (or_intror eq_refl)|]. vm_compute. reflexivity. Qed.
Lemma check_512_ok : windows (window_check 4 table_512 600933646546704000000) (skipn (Z.to_nat q - 2) errors_10 ++ errors_10 ++ firstn 2 errors_10) = true.
Proof. vm_compute. reflexivity. Qed.

Lemma average_512 hs A d m r LY LW LB (t : list Z * (list Z * list Z) -> bool) :
  r <> key_sigma hs ML_KEM_512 d ->
  enumerates 384 LY -> enumerates 384 LW -> enumerates 768 LB ->
  (forall Y W B, In Y LY -> In W LW -> In B LB -> t (Y, (W, B)) = true ->
     ~ noise_in_range (with_secrets (with_coins hs ML_KEM_512 r Y W) ML_KEM_512 (key_sigma hs ML_KEM_512 d) B) ML_KEM_512 A d m r) ->
  2 ^ 80 * count t (list_prod LY (list_prod LW LB)) <= 256 ^ 384 * 256 ^ 384 * 256 ^ 768.
Proof.
  intros Hr HY HW HL Ht.
  exact (average_bound ML_KEM_512 wf_512 range_512_u range_512_v 2 104 eq_refl eq_refl 6 5 eq_refl
    ltac:(discriminate) ltac:(discriminate) (shape_bin 3 6 5 3 (or_intror eq_refl) ltac:(vm_compute; reflexivity)) (shape_bin 3 6 5 4 (or_intror eq_refl) ltac:(vm_compute; reflexivity))
    ltac:(split; [reflexivity|discriminate]) 512 eq_refl (2 ^ 80) ltac:(discriminate)
    1669800074090734295166705137599768859618492018111297380645540
    1774478086744606606562509198428659726764337728354862019779568
    1339115036882491896284968410284302168768502494818994029417814
    ltac:(discriminate) ltac:(discriminate) ltac:(discriminate)
    (le_by (5 * unity) (1339115036882491896284968410284302168768502494818994029417814 * 6) (ltac:(vm_compute; reflexivity)))
    83775414180196082 600933646546704000000
    (sum_bin 3 6 5 3 83775414180196082 (or_intror eq_refl) ltac:(vm_compute; reflexivity))
    (rounding_check_ok 3 6 5 10 4 table_512 600933646546704000000 errors_10 ltac:(discriminate) table_512_ok errors_10_ok check_512_ok)
    (le_by (83775414180196082 * unity) (1669800074090734295166705137599768859618492018111297380645540 * (2 ^ Z.of_nat (2 * 3) * 2 ^ Z.of_nat (2 * 3) * (6 * 5) ^ (Z.of_nat 3 * 3))) (ltac:(vm_compute; reflexivity)))
    (le_by (600933646546704000000 * unity) (1774478086744606606562509198428659726764337728354862019779568 * (2 ^ Z.of_nat (2 * 3) * 2 ^ Z.of_nat (2 * 2) * (6 * 5) ^ (Z.of_nat 3 * 4))) (ltac:(vm_compute; reflexivity)))
    (le_by (512 * (2 ^ 80) * (pow_up 1669800074090734295166705137599768859618492018111297380645540 512 * pow_up 1774478086744606606562509198428659726764337728354862019779568 512 * pow_up 1339115036882491896284968410284302168768502494818994029417814 726)) (unity * unity * unity) (ltac:(vm_compute; reflexivity)))
    hs A d m r LY LW LB t Hr HY HW HL Ht).
Qed.

Lemma worst_768 hs A d m r L t :
  r <> key_sigma hs ML_KEM_768 d -> enumerates 768 L ->
  (forall B, In B L -> t B = true -> ~ noise_in_range (with_secrets hs ML_KEM_768 (key_sigma hs ML_KEM_768 d) B) ML_KEM_768 A d m r) ->
  2 ^ 15 * count t L <= 256 ^ 768.
Proof.
  intros Hr HL Ht.
  exact (worst_bound ML_KEM_768 wf_768 range_768_u range_768_v 2 104 eq_refl eq_refl 22 21 eq_refl
    ltac:(discriminate) ltac:(discriminate) (shape_bin 2 22 21 2 (or_introl eq_refl) ltac:(vm_compute; reflexivity)) (shape_bin 2 22 21 4 (or_introl eq_refl) ltac:(vm_compute; reflexivity))
    ltac:(split; [reflexivity|discriminate]) 768 eq_refl (2 ^ 15) ltac:(discriminate)
    1613905787084006071479215357320706805748565681016480901900744
    1634960273767651971267630203592388415680213473662972599131813
    1533895405883581626653691088143837029680284675883574979151314
    ltac:(discriminate) ltac:(discriminate) ltac:(discriminate)
    (le_by (21 * unity) (1533895405883581626653691088143837029680284675883574979151314 * 22) (ltac:(vm_compute; reflexivity)))
    (le_bin 2 22 21 2 2 unity (1613905787084006071479215357320706805748565681016480901900744 * (2 ^ Z.of_nat (2 * 2) * (22 * 21) ^ (Z.of_nat 2 * 2))) (or_introl eq_refl) (ltac:(vm_compute; reflexivity)))
    (le_bin 2 22 21 4 4 unity (1634960273767651971267630203592388415680213473662972599131813 * (2 ^ Z.of_nat (2 * 2) * (22 * 21) ^ (Z.of_nat 2 * 4))) (or_introl eq_refl) (ltac:(vm_compute; reflexivity)))
    (le_by (512 * (2 ^ 15) * (pow_up 1613905787084006071479215357320706805748565681016480901900744 768 * pow_up 1634960273767651971267630203592388415680213473662972599131813 768 * pow_up 1533895405883581626653691088143837029680284675883574979151314 726)) (unity * unity * unity) (ltac:(vm_compute; reflexivity)))
    hs A d m r L t Hr HL Ht).
Qed.

Definition table_768 : list Z := [10497600000000; 10673289000000; 11215131210000; 12169143864900; 13617878638081].
Lemma table_768_ok : map (g_at 2 6 5 4) (upto (4 + 1)) = table_768.
Proof. apply table_bin; [exact (or_introl eq_refl)|]. vm_compute. reflexivity. Qed.
Lemma check_768_ok : windows (window_check 4 table_768 179442099360000) (skipn (Z.to_nat q - 2) errors_10 ++ errors_10 ++ firstn 2 errors_10) = true.
Proof. vm_compute. reflexivity. Qed.

Lemma average_768 hs A d m r LY LW LB (t : list Z * (list Z * list Z) -> bool) :
  r <> key_sigma hs ML_KEM_768 d ->
  enumerates 384 LY -> enumerates 512 LW -> enumerates 768 LB ->
  (forall Y W B, In Y LY -> In W LW -> In B LB -> t (Y, (W, B)) = true ->
     ~ noise_in_range (with_secrets (with_coins hs ML_KEM_768 r Y W) ML_KEM_768 (key_sigma hs ML_KEM_768 d) B) ML_KEM_768 A d m r) ->
  2 ^ 90 * count t (list_prod LY (list_prod LW LB)) <= 256 ^ 384 * 256 ^ 512 * 256 ^ 768.
Proof.
  intros Hr HY HW HL Ht.
  exact (average_bound ML_KEM_768 wf_768 range_768_u range_768_v 2 104 eq_refl eq_refl 6 5 eq_refl
    ltac:(discriminate) ltac:(discriminate) (shape_bin 2 6 5 2 (or_introl eq_refl) ltac:(vm_compute; reflexivity)) (shape_bin 2 6 5 4 (or_introl eq_refl) ltac:(vm_compute; reflexivity))
    ltac:(split; [reflexivity|discriminate]) 768 eq_refl (2 ^ 90) ltac:(discriminate)
    1634114655478738811110408982321455624271133685715870517129344
    1716775359387418377754644749890667835622578828830288436228553
    1339115036882491896284968410284302168768502494818994029417814
    ltac:(discriminate) ltac:(discriminate) ltac:(discriminate)
    (le_by (5 * unity) (1339115036882491896284968410284302168768502494818994029417814 * 6) (ltac:(vm_compute; reflexivity)))
    210866882 179442099360000
    (sum_bin 2 6 5 2 210866882 (or_introl eq_refl) ltac:(vm_compute; reflexivity))
    (rounding_check_ok 2 6 5 10 4 table_768 179442099360000 errors_10 ltac:(discriminate) table_768_ok errors_10_ok check_768_ok)
    (le_by (210866882 * unity) (1634114655478738811110408982321455624271133685715870517129344 * (2 ^ Z.of_nat (2 * 2) * 2 ^ Z.of_nat (2 * 2) * (6 * 5) ^ (Z.of_nat 2 * 2))) (ltac:(vm_compute; reflexivity)))
    (le_by (179442099360000 * unity) (1716775359387418377754644749890667835622578828830288436228553 * (2 ^ Z.of_nat (2 * 2) * 2 ^ Z.of_nat (2 * 2) * (6 * 5) ^ (Z.of_nat 2 * 4))) (ltac:(vm_compute; reflexivity)))
    (le_by (512 * (2 ^ 90) * (pow_up 1634114655478738811110408982321455624271133685715870517129344 768 * pow_up 1716775359387418377754644749890667835622578828830288436228553 768 * pow_up 1339115036882491896284968410284302168768502494818994029417814 726)) (unity * unity * unity) (ltac:(vm_compute; reflexivity)))
    hs A d m r LY LW LB t Hr HY HW HL Ht).
Qed.

Lemma worst_1024 hs A d m r L t :
  r <> key_sigma hs ML_KEM_1024 d -> enumerates 1024 L ->
  (forall B, In B L -> t B = true -> ~ noise_in_range (with_secrets hs ML_KEM_1024 (key_sigma hs ML_KEM_1024 d) B) ML_KEM_1024 A d m r) ->
  2 ^ 23 * count t L <= 256 ^ 1024.
Proof.
  intros Hr HL Ht.
  exact (worst_bound ML_KEM_1024 wf_1024 range_1024_u range_1024_v 1 52 eq_refl eq_refl 18 17 eq_refl
    ltac:(discriminate) ltac:(discriminate) (shape_bin 2 18 17 2 (or_introl eq_refl) ltac:(vm_compute; reflexivity)) (shape_bin 2 18 17 3 (or_introl eq_refl) ltac:(vm_compute; reflexivity))
    ltac:(split; [reflexivity|discriminate]) 1024 eq_refl (2 ^ 23) ltac:(discriminate)
    1617466677657909979862748928251587865605760100015838823839726
    1630708258234034509930389031048307724971761238982431692317137
    1517663708466824149122964198322209124604302827461526566673522
    ltac:(discriminate) ltac:(discriminate) ltac:(discriminate)
    (le_by (17 * unity) (1517663708466824149122964198322209124604302827461526566673522 * 18) (ltac:(vm_compute; reflexivity)))
    (le_bin 2 18 17 2 2 unity (1617466677657909979862748928251587865605760100015838823839726 * (2 ^ Z.of_nat (2 * 2) * (18 * 17) ^ (Z.of_nat 2 * 2))) (or_introl eq_refl) (ltac:(vm_compute; reflexivity)))
    (le_bin 2 18 17 3 3 unity (1630708258234034509930389031048307724971761238982431692317137 * (2 ^ Z.of_nat (2 * 2) * (18 * 17) ^ (Z.of_nat 2 * 3))) (or_introl eq_refl) (ltac:(vm_compute; reflexivity)))
    (le_by (512 * (2 ^ 23) * (pow_up 1617466677657909979862748928251587865605760100015838823839726 1024 * pow_up 1630708258234034509930389031048307724971761238982431692317137 1024 * pow_up 1517663708466824149122964198322209124604302827461526566673522 778)) (unity * unity * unity) (ltac:(vm_compute; reflexivity)))
    hs A d m r L t Hr HL Ht).
Qed.

Definition table_1024 : list Z := [12628782519156736; 12816413532160000; 13393306986055936; 14402886144600625].
Lemma table_1024_ok : map (g_at 2 19 16 3) (upto (3 + 1)) = table_1024.
Proof. apply table_bin; [exact (or_introl eq_refl)|]. vm_compute. reflexivity. Qed.
Lemma check_1024_ok : windows (window_check 3 table_1024 209705764975499776) (skipn (Z.to_nat q - 2) errors_11 ++ errors_11 ++ firstn 2 errors_11) = true.
Proof. vm_compute. reflexivity. Qed.

Lemma average_1024 hs A d m r LY LW LB (t : list Z * (list Z * list Z) -> bool) :
  r <> key_sigma hs ML_KEM_1024 d ->
  enumerates 512 LY -> enumerates 640 LW -> enumerates 1024 LB ->
  (forall Y W B, In Y LY -> In W LW -> In B LB -> t (Y, (W, B)) = true ->
     ~ noise_in_range (with_secrets (with_coins hs ML_KEM_1024 r Y W) ML_KEM_1024 (key_sigma hs ML_KEM_1024 d) B) ML_KEM_1024 A d m r) ->
  2 ^ 107 * count t (list_prod LY (list_prod LW LB)) <= 256 ^ 512 * 256 ^ 640 * 256 ^ 1024.
Proof.
  intros Hr HY HW HL Ht.
  exact (average_bound ML_KEM_1024 wf_1024 range_1024_u range_1024_v 1 52 eq_refl eq_refl 19 16 eq_refl
    ltac:(discriminate) ltac:(discriminate) (shape_bin 2 19 16 2 (or_introl eq_refl) ltac:(vm_compute; reflexivity)) (shape_bin 2 19 16 3 (or_introl eq_refl) ltac:(vm_compute; reflexivity))
    ltac:(split; [reflexivity|discriminate]) 1024 eq_refl (2 ^ 107) ltac:(discriminate)
    1631035667092439245255156532199846257434440432957962650568232
    1667738810770110647956311863553534641152229937425508958807654
    1353210984639149705719547025129400086334486731606562387622212
    ltac:(discriminate) ltac:(discriminate) ltac:(discriminate)
    (le_by (16 * unity) (1353210984639149705719547025129400086334486731606562387622212 * 19) (ltac:(vm_compute; reflexivity)))
    2219211146818 209705764975499776
    (sum_bin 2 19 16 2 2219211146818 (or_introl eq_refl) ltac:(vm_compute; reflexivity))
    (rounding_check_ok 2 19 16 11 3 table_1024 209705764975499776 errors_11 ltac:(discriminate) table_1024_ok errors_11_ok check_1024_ok)
    (le_by (2219211146818 * unity) (1631035667092439245255156532199846257434440432957962650568232 * (2 ^ Z.of_nat (2 * 2) * 2 ^ Z.of_nat (2 * 2) * (19 * 16) ^ (Z.of_nat 2 * 2))) (ltac:(vm_compute; reflexivity)))
    (le_by (209705764975499776 * unity) (1667738810770110647956311863553534641152229937425508958807654 * (2 ^ Z.of_nat (2 * 2) * 2 ^ Z.of_nat (2 * 2) * (19 * 16) ^ (Z.of_nat 2 * 3))) (ltac:(vm_compute; reflexivity)))
    (le_by (512 * (2 ^ 107) * (pow_up 1631035667092439245255156532199846257434440432957962650568232 1024 * pow_up 1667738810770110647956311863553534641152229937425508958807654 1024 * pow_up 1353210984639149705719547025129400086334486731606562387622212 778)) (unity * unity * unity) (ltac:(vm_compute; reflexivity)))
    hs A d m r LY LW LB t Hr HY HW HL Ht).
Qed.

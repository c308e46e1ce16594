(** The bound of MatrixAverage.v for the three parameter sets. *)
From Coq Require Import List ZArith Lia Bool Arith Permutation.
From Verif.Base Require Import Res Oracles.
From Verif.Spec Require Import FIPS203 Domains Noise Counting Random.
From Verif.Model Require Import Machine Util Algebra Encode Crypto Sample Param.
From Verif.Proofs Require Import Basics Field Poly CompressProofs NttAlgebra EncodeProofs SampleProofs CountProofs
  PkeProofs Correctness TailProofs SlotSums FailureProofs FailureAverage FailureNumbers MatrixAverage.
Import ListNotations.
Open Scope Z_scope.

(** ** the weight of one value of a coefficient of y *)
Lemma one_value (h : Z -> Z) m (l : list (Z * Z)) z : 0 <= m -> NoDup (map (fun p => snd p mod q) l) ->
  Forall (fun p => fst p * h (snd p) <= m) l ->
  wsum (fun p => fst p * (if snd p mod q =? z then h (snd p) else 0)) l <= m.
Proof.
  intros Hm. induction l as [|p l IH]; intros N F; [exact Hm|].
  inversion N as [|? ? N1 N2]; subst. inversion F as [|? ? F1 F2]; subst. rewrite wsum_cons.
  destruct (snd p mod q =? z) eqn:E.
  - apply Z.eqb_eq in E. rewrite (wsum_ext _ (fun _ => 0)).
    + rewrite wsum_const, Z.mul_0_r, Z.add_0_r. exact F1.
    + intros p' Hp'. destruct (snd p' mod q =? z) eqn:E'; [|apply Z.mul_0_r]. apply Z.eqb_eq in E'.
      exfalso. apply N1. rewrite E, <- E'. apply (in_map (fun p => snd p mod q)), Hp'.
  - rewrite Z.mul_0_r, Z.add_0_l. exact (IH N2 F2).
Qed.
Lemma vals_distinct e : (e = 2 \/ e = 3)%nat -> NoDup (map (fun p => snd p mod q) (vals e)).
Proof.
  intros [-> | ->]; cbn [vals map snd].
  - change (NoDup [3327; 3328; 0; 1; 2]). repeat (constructor; [cbn [In]; lia|]). constructor.
  - change (NoDup [3326; 3327; 3328; 0; 1; 2; 3]). repeat (constructor; [cbn [In]; lia|]). constructor.
Qed.
Lemma value_bin e a b C m : (e = 2 \/ e = 3)%nat ->
  (0 <=? m) && forallb (fun p => fst p * g_bin e a b C (Z.abs (snd p)) <=? m) (vals e) = true ->
  forall z, wsum (fun x => if cbdz e x mod q =? z then g_at e a b C (Z.abs (cbdz e x)) else 0) (upto (2 ^ Z.of_nat (2 * e))) <= m.
Proof.
  intros He H z. apply andb_true_iff in H. destruct H as [H0 H]. apply Z.leb_le in H0. rewrite forallb_forall in H.
  rewrite (cbd_vals e (fun c => if c mod q =? z then g_at e a b C (Z.abs c) else 0) He).
  apply (one_value (fun c => g_at e a b C (Z.abs c)) m _ z H0 (vals_distinct e He)).
  apply Forall_forall. intros p Hp. rewrite g_at_bin by exact He. apply Z.leb_le, H, Hp.
Qed.

(** ** the weight of e1 and the rounding of u, summed over the values of A^T y *)
Lemma wsum_shift (h : Z -> Z) c : wsum (fun X => h ((X + c) mod q)) (upto q) = wsum h (upto q).
Proof.
  rewrite <- (wsum_map h (fun X => (X + c) mod q)). apply wsum_perm, NoDup_Permutation_bis.
  - assert (G : forall l, NoDup l -> (forall x, In x l -> 0 <= x < q) -> NoDup (map (fun X => (X + c) mod q) l)).
    { induction l as [|x l IH]; intros N I; [constructor|]. inversion N as [|? ? N1 N2]; subst. cbn [map]. constructor.
      - intros H. apply in_map_iff in H. destruct H as (x' & E & Hx'). apply N1.
        assert (R : 0 <= x < q) by (apply I; left; reflexivity). assert (R' : 0 <= x' < q) by (apply I; right; exact Hx').
        replace x with x'; [exact Hx'|].
        pose proof (f_equal (fun t => (t - c) mod q) E) as E2. cbv beta in E2. rewrite !Zminus_mod_idemp_l in E2.
        replace (x' + c - c) with x' in E2 by ring. replace (x + c - c) with x in E2 by ring.
        rewrite !Z.mod_small in E2 by assumption. exact E2.
      - apply IH; [exact N2|]. intros y Hy. apply I. right. exact Hy. }
    apply G; [apply NoDup_upto|]. intros x Hx. apply in_upto_iff, Hx.
  - rewrite map_length. apply Nat.le_refl.
  - intros y Hy. apply in_map_iff in Hy. destruct Hy as (x & <- & _). apply in_upto_iff. apply Z.mod_pos_bound. reflexivity.
Qed.

Lemma wsum_tally (h : Z -> Z) (vs : list (Z * Z)) L : NoDup (map snd vs) ->
  forallb (fun x => existsb (fun p => snd p =? x) vs) L = true ->
  forallb (fun p => count (fun x => snd p =? x) L =? fst p) vs = true ->
  wsum h L = wsum (fun p => fst p * h (snd p)) vs.
Proof.
  intros N HI HC.
  transitivity (wsum (fun x => wsum (fun p => b2z (snd p =? x) * h (snd p)) vs) L).
  - apply wsum_ext. intros x Hx. rewrite forallb_forall in HI. specialize (HI x Hx). clear HC Hx.
    induction vs as [|p vs IH]; [discriminate HI|]. cbn [map] in N. inversion N as [|? ? N1 N2]; subst. rewrite wsum_cons. cbn [existsb] in HI.
    destruct (snd p =? x) eqn:E.
    + apply Z.eqb_eq in E. subst x. cbn [b2z]. rewrite (wsum_ext _ (fun _ => 0)).
      * rewrite wsum_const. ring.
      * intros p' Hp'. destruct (Z.eqb_spec (snd p') (snd p)) as [E'|]; [|reflexivity].
        exfalso. apply N1. rewrite <- E'. apply in_map, Hp'.
    + cbn [orb b2z] in *. rewrite <- (IH N2 HI). ring.
  - rewrite wsum_swap. apply wsum_ext. intros p Hp. rewrite wsum_scale_r, <- (count_wsum (fun x => snd p =? x)).
    rewrite forallb_forall in HC. specialize (HC p Hp). apply Z.eqb_eq in HC. rewrite HC. reflexivity.
Qed.

Definition tally_10 : list (Z * Z) := [(128, -2); (1024, -1); (1024, 0); (1024, 1); (129, 2)].
Definition tally_11 : list (Z * Z) := [(640, -1); (2048, 0); (641, 1)].
Lemma tally_10_ok h : wsum h (rounding_errors 10) = wsum (fun p => fst p * h (snd p)) tally_10.
Proof.
  rewrite errors_10_ok. apply wsum_tally.
  - cbn [tally_10 map snd]. repeat (constructor; [cbn [In]; lia|]). constructor.
  - vm_compute. reflexivity.
  - vm_compute. reflexivity.
Qed.
Lemma tally_11_ok h : wsum h (rounding_errors 11) = wsum (fun p => fst p * h (snd p)) tally_11.
Proof.
  rewrite errors_11_ok. apply wsum_tally.
  - cbn [tally_11 map snd]. repeat (constructor; [cbn [In]; lia|]). constructor.
  - vm_compute. reflexivity.
  - vm_compute. reflexivity.
Qed.

Lemma rounding_sum e a b d C Q tally : (e = 2 \/ e = 3)%nat ->
  (forall h, wsum h (rounding_errors d) = wsum (fun p => fst p * h (snd p)) tally) ->
  (wsum (fun p => fst p * wsum (fun p' => fst p' * g_bin e a b C (Z.abs (snd p + snd p'))) tally) (vals 2) <=? Q) = true ->
  wsum (fun X => wsum (fun x => g_at e a b C (Z.abs (wid d X (cbdz 2 x)))) (upto (2 ^ Z.of_nat (2 * 2)))) (upto q) <= Q.
Proof.
  intros He HT H. apply Z.leb_le in H. eapply Z.le_trans; [|exact H]. apply Z.eq_le_incl.
  rewrite (wsum_ext _ (fun X => wsum (fun p => fst p * g_at e a b C (Z.abs (wid d X (snd p)))) (vals 2))).
  2:{ intros X _. exact (cbd_vals 2 (fun c => g_at e a b C (Z.abs (wid d X c))) (or_introl eq_refl)). }
  rewrite wsum_swap. apply wsum_ext. intros p _. rewrite wsum_scale. f_equal.
  unfold wid.
  rewrite (wsum_shift (fun u => g_at e a b C (Z.abs (snd p + centred (Decompress d (Compress d u) - u)))) (snd p)).
  rewrite <- (wsum_map (fun v => g_at e a b C (Z.abs (snd p + v))) (fun u => centred (Decompress d (Compress d u) - u))).
  fold (rounding_errors d). rewrite HT. apply wsum_ext. intros p' _. rewrite g_at_bin by exact He. reflexivity.
Qed.

Definition mtable_512 : list Z := [250188053022644984299584; 262291877013394468896768; 301789003173921081000000; 379481283236348389490688; 518119141755404551864384].
Lemma mtable_512_ok : map (g_at 3 9 7 4) (upto (4 + 1)) = mtable_512.
Proof. apply table_bin; [exact (or_intror eq_refl)|]. vm_compute. reflexivity. Qed.
Lemma mcheck_512_ok : windows (window_check 4 mtable_512 4828624050782737296000000) (skipn (Z.to_nat q - 2) errors_10 ++ errors_10 ++ firstn 2 errors_10) = true.
Proof. vm_compute. reflexivity. Qed.

Lemma matrix_average_512 hs N rho hsM d r LM LY LW LB (f : list Z * (list Z * (list Z * list Z)) -> bool) :
  (forall Mx, In Mx LM -> r <> key_sigma (hsM Mx) ML_KEM_512 d) ->
  enumerates (2 * 2 * (3 * N)) LM -> enumerates 384 LY -> enumerates 384 LW -> enumerates 768 LB ->
  (forall Mx Y W B, In Mx LM -> In Y LY -> In W LW -> In B LB -> f (Mx, (Y, (W, B))) = true ->
     exists Ah, A_hat (with_matrix hs 2 (3 * N) rho Mx) ML_KEM_512 N rho = Some Ah /\ exists m,
     ~ noise_in_range (with_secrets (with_coins (hsM Mx) ML_KEM_512 r Y W) ML_KEM_512 (key_sigma (hsM Mx) ML_KEM_512 d) B) ML_KEM_512 (map (map NTTinv) Ah) d m r) ->
  2 ^ 126 * count f (list_prod LM (list_prod LY (list_prod LW LB))) <=
  256 ^ Z.of_nat (2 * 2 * (3 * N)) * (256 ^ 384 * 256 ^ 384 * 256 ^ 768).
Proof.
  intros Hr HM HY HW HL Hf.
  exact (matrix_average_bound ML_KEM_512 wf_512 range_512_u range_512_v 2 104 eq_refl eq_refl 9 7 eq_refl
    ltac:(discriminate) ltac:(discriminate) (shape_bin 3 9 7 3 (or_intror eq_refl) ltac:(vm_compute; reflexivity)) (shape_bin 3 9 7 4 (or_intror eq_refl) ltac:(vm_compute; reflexivity))
    ltac:(split; [reflexivity|discriminate]) 512 eq_refl (2 ^ 126) ltac:(discriminate)
    912120608287316623607599474286053582150357457760772260259609
    1249840701090325769865970516265348690850602328497727760789960
    ltac:(discriminate) ltac:(discriminate)
    (le_by (7 * unity) (1249840701090325769865970516265348690850602328497727760789960 * 9) (ltac:(vm_compute; reflexivity)))
    68998820123474720768 20011282120772893440 4828624050782737296000000 14685660794748263157460599296
    (sum_bin 3 9 7 3 68998820123474720768 (or_intror eq_refl) ltac:(vm_compute; reflexivity))
    (value_bin 3 9 7 3 20011282120772893440 (or_intror eq_refl) ltac:(vm_compute; reflexivity))
    (rounding_check_ok 3 9 7 10 4 mtable_512 4828624050782737296000000 errors_10 ltac:(discriminate) mtable_512_ok errors_10_ok mcheck_512_ok)
    (rounding_sum 3 9 7 10 4 14685660794748263157460599296 tally_10 (or_intror eq_refl) tally_10_ok ltac:(vm_compute; reflexivity))
    (le_by 14685660794748263157460599296 (q * 4828624050782737296000000) (ltac:(vm_compute; reflexivity)))
    5 86 ltac:(discriminate) eq_refl
    (le_by ((14685660794748263157460599296 ^ Z.of_nat (2 * 2) * 68998820123474720768 ^ Z.of_nat (2 * 2) + ((q * 4828624050782737296000000) ^ Z.of_nat (2 * 2) - 14685660794748263157460599296 ^ Z.of_nat (2 * 2)) * 20011282120772893440 ^ Z.of_nat (2 * 2)) * 7 ^ 5 * unity) (912120608287316623607599474286053582150357457760772260259609 * ((q * (2 ^ Z.of_nat (2 * 3) * 2 ^ Z.of_nat (2 * 3) * (9 * 7) ^ (Z.of_nat 3 * 3) * (2 ^ Z.of_nat (2 * 3) * 2 ^ Z.of_nat (2 * 2) * (9 * 7) ^ (Z.of_nat 3 * 4)))) ^ Z.of_nat (2 * 2) * 9 ^ 5)) (ltac:(vm_compute; reflexivity)))
    (le_by (512 * (2 ^ 126) * (pow_up 912120608287316623607599474286053582150357457760772260259609 128 * pow_up unity 128 * pow_up 1249840701090325769865970516265348690850602328497727760789960 86)) (unity * unity * unity) (ltac:(vm_compute; reflexivity)))
    hs N rho hsM d r LM LY LW LB f Hr HM HY HW HL Hf).
Qed.

Definition mtable_768 : list Z := [6879707136; 7169347584; 8100000000; 9874794384; 12897917761].
Lemma mtable_768_ok : map (g_at 2 4 3 4) (upto (4 + 1)) = mtable_768.
Proof. apply table_bin; [exact (or_introl eq_refl)|]. vm_compute. reflexivity. Qed.
Lemma mcheck_768_ok : windows (window_check 4 mtable_768 129600000000) (skipn (Z.to_nat q - 2) errors_10 ++ errors_10 ++ firstn 2 errors_10) = true.
Proof. vm_compute. reflexivity. Qed.

Lemma matrix_average_768 hs N rho hsM d r LM LY LW LB (f : list Z * (list Z * (list Z * list Z)) -> bool) :
  (forall Mx, In Mx LM -> r <> key_sigma (hsM Mx) ML_KEM_768 d) ->
  enumerates (3 * 3 * (3 * N)) LM -> enumerates 384 LY -> enumerates 512 LW -> enumerates 768 LB ->
  (forall Mx Y W B, In Mx LM -> In Y LY -> In W LW -> In B LB -> f (Mx, (Y, (W, B))) = true ->
     exists Ah, A_hat (with_matrix hs 3 (3 * N) rho Mx) ML_KEM_768 N rho = Some Ah /\ exists m,
     ~ noise_in_range (with_secrets (with_coins (hsM Mx) ML_KEM_768 r Y W) ML_KEM_768 (key_sigma (hsM Mx) ML_KEM_768 d) B) ML_KEM_768 (map (map NTTinv) Ah) d m r) ->
  2 ^ 152 * count f (list_prod LM (list_prod LY (list_prod LW LB))) <=
  256 ^ Z.of_nat (3 * 3 * (3 * N)) * (256 ^ 384 * 256 ^ 512 * 256 ^ 768).
Proof.
  intros Hr HM HY HW HL Hf.
  exact (matrix_average_bound ML_KEM_768 wf_768 range_768_u range_768_v 2 104 eq_refl eq_refl 4 3 eq_refl
    ltac:(discriminate) ltac:(discriminate) (shape_bin 2 4 3 2 (or_introl eq_refl) ltac:(vm_compute; reflexivity)) (shape_bin 2 4 3 4 (or_introl eq_refl) ltac:(vm_compute; reflexivity))
    ltac:(split; [reflexivity|discriminate]) 768 eq_refl (2 ^ 152) ltac:(discriminate)
    812901024536382662794887027127275665298701682291919425816980
    1205203533194242706656471569255871951891652245337094626476032
    ltac:(discriminate) ltac:(discriminate)
    (le_by (3 * unity) (1205203533194242706656471569255871951891652245337094626476032 * 4) (ltac:(vm_compute; reflexivity)))
    5537858 1990656 129600000000 398400550314113
    (sum_bin 2 4 3 2 5537858 (or_introl eq_refl) ltac:(vm_compute; reflexivity))
    (value_bin 2 4 3 2 1990656 (or_introl eq_refl) ltac:(vm_compute; reflexivity))
    (rounding_check_ok 2 4 3 10 4 mtable_768 129600000000 errors_10 ltac:(discriminate) mtable_768_ok errors_10_ok mcheck_768_ok)
    (rounding_sum 2 4 3 10 4 398400550314113 tally_10 (or_introl eq_refl) tally_10_ok ltac:(vm_compute; reflexivity))
    (le_by 398400550314113 (q * 129600000000) (ltac:(vm_compute; reflexivity)))
    5 86 ltac:(discriminate) eq_refl
    (le_by ((398400550314113 ^ Z.of_nat (2 * 3) * 5537858 ^ Z.of_nat (2 * 3) + ((q * 129600000000) ^ Z.of_nat (2 * 3) - 398400550314113 ^ Z.of_nat (2 * 3)) * 1990656 ^ Z.of_nat (2 * 3)) * 3 ^ 5 * unity) (812901024536382662794887027127275665298701682291919425816980 * ((q * (2 ^ Z.of_nat (2 * 2) * 2 ^ Z.of_nat (2 * 2) * (4 * 3) ^ (Z.of_nat 2 * 2) * (2 ^ Z.of_nat (2 * 2) * 2 ^ Z.of_nat (2 * 2) * (4 * 3) ^ (Z.of_nat 2 * 4)))) ^ Z.of_nat (2 * 3) * 4 ^ 5)) (ltac:(vm_compute; reflexivity)))
    (le_by (512 * (2 ^ 152) * (pow_up 812901024536382662794887027127275665298701682291919425816980 128 * pow_up unity 128 * pow_up 1205203533194242706656471569255871951891652245337094626476032 86)) (unity * unity * unity) (ltac:(vm_compute; reflexivity)))
    hs N rho hsM d r LM LY LW LB f Hr HM HY HW HL Hf).
Qed.

Definition mtable_1024 : list Z := [47775744; 49787136; 56250000; 68574961].
Lemma mtable_1024_ok : map (g_at 2 4 3 3) (upto (3 + 1)) = mtable_1024.
Proof. apply table_bin; [exact (or_introl eq_refl)|]. vm_compute. reflexivity. Qed.
Lemma mcheck_1024_ok : windows (window_check 3 mtable_1024 849154464) (skipn (Z.to_nat q - 2) errors_11 ++ errors_11 ++ firstn 2 errors_11) = true.
Proof. vm_compute. reflexivity. Qed.

Lemma matrix_average_1024 hs N rho hsM d r LM LY LW LB (f : list Z * (list Z * (list Z * list Z)) -> bool) :
  (forall Mx, In Mx LM -> r <> key_sigma (hsM Mx) ML_KEM_1024 d) ->
  enumerates (4 * 4 * (3 * N)) LM -> enumerates 512 LY -> enumerates 640 LW -> enumerates 1024 LB ->
  (forall Mx Y W B, In Mx LM -> In Y LY -> In W LW -> In B LB -> f (Mx, (Y, (W, B))) = true ->
     exists Ah, A_hat (with_matrix hs 4 (3 * N) rho Mx) ML_KEM_1024 N rho = Some Ah /\ exists m,
     ~ noise_in_range (with_secrets (with_coins (hsM Mx) ML_KEM_1024 r Y W) ML_KEM_1024 (key_sigma (hsM Mx) ML_KEM_1024 d) B) ML_KEM_1024 (map (map NTTinv) Ah) d m r) ->
  2 ^ 163 * count f (list_prod LM (list_prod LY (list_prod LW LB))) <=
  256 ^ Z.of_nat (4 * 4 * (3 * N)) * (256 ^ 512 * 256 ^ 640 * 256 ^ 1024).
Proof.
  intros Hr HM HY HW HL Hf.
  exact (matrix_average_bound ML_KEM_1024 wf_1024 range_1024_u range_1024_v 1 52 eq_refl eq_refl 4 3 eq_refl
    ltac:(discriminate) ltac:(discriminate) (shape_bin 2 4 3 2 (or_introl eq_refl) ltac:(vm_compute; reflexivity)) (shape_bin 2 4 3 3 (or_introl eq_refl) ltac:(vm_compute; reflexivity))
    ltac:(split; [reflexivity|discriminate]) 1024 eq_refl (2 ^ 163) ltac:(discriminate)
    645433558712171776593829485099202694933411684532759567346166
    1205203533194242706656471569255871951891652245337094626476032
    ltac:(discriminate) ltac:(discriminate)
    (le_by (3 * unity) (1205203533194242706656471569255871951891652245337094626476032 * 4) (ltac:(vm_compute; reflexivity)))
    5537858 1990656 849154464 2700494464305
    (sum_bin 2 4 3 2 5537858 (or_introl eq_refl) ltac:(vm_compute; reflexivity))
    (value_bin 2 4 3 2 1990656 (or_introl eq_refl) ltac:(vm_compute; reflexivity))
    (rounding_check_ok 2 4 3 11 3 mtable_1024 849154464 errors_11 ltac:(discriminate) mtable_1024_ok errors_11_ok mcheck_1024_ok)
    (rounding_sum 2 4 3 11 3 2700494464305 tally_11 (or_introl eq_refl) tally_11_ok ltac:(vm_compute; reflexivity))
    (le_by 2700494464305 (q * 849154464) (ltac:(vm_compute; reflexivity)))
    6 10 ltac:(discriminate) eq_refl
    (le_by ((2700494464305 ^ Z.of_nat (2 * 4) * 5537858 ^ Z.of_nat (2 * 4) + ((q * 849154464) ^ Z.of_nat (2 * 4) - 2700494464305 ^ Z.of_nat (2 * 4)) * 1990656 ^ Z.of_nat (2 * 4)) * 3 ^ 6 * unity) (645433558712171776593829485099202694933411684532759567346166 * ((q * (2 ^ Z.of_nat (2 * 2) * 2 ^ Z.of_nat (2 * 2) * (4 * 3) ^ (Z.of_nat 2 * 2) * (2 ^ Z.of_nat (2 * 2) * 2 ^ Z.of_nat (2 * 2) * (4 * 3) ^ (Z.of_nat 2 * 3)))) ^ Z.of_nat (2 * 4) * 4 ^ 6)) (ltac:(vm_compute; reflexivity)))
    (le_by (512 * (2 ^ 163) * (pow_up 645433558712171776593829485099202694933411684532759567346166 128 * pow_up unity 128 * pow_up 1205203533194242706656471569255871951891652245337094626476032 10)) (unity * unity * unity) (ltac:(vm_compute; reflexivity)))
    hs N rho hsM d r LM LY LW LB f Hr HM HY HW HL Hf).
Qed.

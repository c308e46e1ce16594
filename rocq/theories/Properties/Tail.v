(** C55: rejection sampling ends soon for almost all XOF outputs.

    "Almost all" is a number of byte strings, as in Properties/Distribution.v: [L] is any
    list of all byte strings of the given length without repetition. *)
From Coq Require Import List ZArith Lia Bool Arith.
From Verif.Base Require Import Res Oracles.
From Verif.Spec Require Import FIPS203 Domains Counting Random.
From Verif.Model Require Import Machine Util Algebra Encode Crypto Sample Param Pke Kem.
From Verif.Proofs Require Import Basics Field Poly CompressProofs EncodeProofs SampleProofs CountProofs TailProofs
  PkeProofs KemProofs.
From Verif.Tests Require Import Toy.
From Verif.Properties Require Import Kem KemCases Distribution.
Import ListNotations.
Open Scope Z_scope.

(** one polynomial, [n] groups of three bytes: at most 4^255 (6397/16384)^(2n) of all byte
    strings give no result *)
Theorem C55_tail : forall n L, enumerates (3 * n) L ->
  4 ^ Z.of_nat (2 * n) *
  count (fun B => no_result (poly_sample_uniform n {| xof_stream := fun i => nth i B 0; xof_pos := 0 |})) L
  <= 4 ^ 255 * 6397 ^ Z.of_nat (2 * n).
Proof. exact uniform_tail. Qed.

(** there are 256^(3n) byte strings in all *)
Theorem C55_total : forall n L, enumerates n L -> Z.of_nat (length L) = 256 ^ Z.of_nat n.
Proof. exact enumerates_length. Qed.

Lemma tail_fraction n L e : enumerates (3 * n) L ->
  2 ^ e * 4 ^ 255 * 6397 ^ Z.of_nat (2 * n) <= 16384 ^ Z.of_nat (2 * n) -> 0 <= e ->
  2 ^ e * count (fun B => no_result (poly_sample_uniform n {| xof_stream := fun i => nth i B 0; xof_pos := 0 |})) L
  <= 256 ^ Z.of_nat (3 * n).
Proof.
  intros HL HE He. pose proof (C55_tail n L HL) as T.
  set (c := count _ L) in *. assert (C0 : 0 <= c) by apply count_nonneg. clearbody c.
  replace (256 ^ Z.of_nat (3 * n)) with (4096 ^ Z.of_nat (2 * n)).
  2:{ change 4096 with (2 ^ 12). change 256 with (2 ^ 8). rewrite <- !Z.pow_mul_r by lia. f_equal. lia. }
  change 16384 with (4 * 4096) in HE. rewrite Z.pow_mul_l in HE.
  set (F := 4 ^ Z.of_nat (2 * n)) in *. assert (F0 : 0 < F) by (apply Z.pow_pos_nonneg; lia). clearbody F.
  set (X := 4096 ^ Z.of_nat (2 * n)) in *. set (Y := 6397 ^ Z.of_nat (2 * n)) in *. clearbody X Y.
  set (E := 2 ^ e) in *. assert (E0 : 0 <= E) by (apply Z.pow_nonneg; lia). clearbody E.
  set (G := 4 ^ 255) in *. clearbody G.
  apply (Z.mul_le_mono_pos_l _ _ F F0). apply Z.le_trans with (E * (F * c)); [apply Z.eq_le_incl; ring|].
  apply Z.le_trans with (E * (G * Y)); [apply Z.mul_le_mono_nonneg_l; assumption|].
  rewrite Z.mul_assoc. exact HE.
Qed.

Lemma five_blocks_bound x y z : 0 < x -> x ^ 17 <= z ^ 215 -> x ^ 16 <= z ^ 203 -> 0 <= z -> 0 <= y ->
  y * x ^ (17 * 32 + 16) <= y * z ^ (215 * 32 + 203).
Proof.
  intros Hx H1 H2 Hz Hy. apply Z.mul_le_mono_nonneg_l; [exact Hy|].
  rewrite !Z.pow_add_r, !Z.pow_mul_r by lia.
  apply Z.mul_le_mono_nonneg; [apply Z.pow_nonneg, Z.pow_nonneg; lia| |apply Z.pow_nonneg; lia|exact H2].
  apply Z.pow_le_mono_l. split; [apply Z.pow_nonneg; lia|exact H1].
Qed.

(** 840 bytes, five blocks of SHAKE128: a fraction of at most 2^-247 *)
Theorem C55_five_blocks : forall L, enumerates 840 L ->
  2 ^ 247 *
  count (fun B => no_result (poly_sample_uniform 280 {| xof_stream := fun i => nth i B 0; xof_pos := 0 |})) L
  <= 256 ^ 840.
Proof.
  intros L HL. apply (tail_fraction 280 L 247); [exact HL| |discriminate].
  replace (Z.of_nat (2 * 280)) with (17 * 32 + 16) by reflexivity.
  eapply Z.le_trans.
  - apply (five_blocks_bound 6397 _ 2); [reflexivity|vm_compute; discriminate|vm_compute; discriminate|discriminate|].
    apply Z.mul_nonneg_nonneg; apply Z.pow_nonneg; discriminate.
  - change 4 with (2 ^ 2). change 16384 with (2 ^ 14).
    rewrite <- !Z.pow_mul_r, <- !Z.pow_add_r by discriminate. apply Z.pow_le_mono_r; [reflexivity|]. cbv. discriminate.
Qed.

(** the fraction tends to 0: below 2^-e from 255 + e groups on *)
Theorem C55_vanishes : forall e n L, (255 + e <= n)%nat -> enumerates (3 * n) L ->
  2 ^ Z.of_nat e *
  count (fun B => no_result (poly_sample_uniform n {| xof_stream := fun i => nth i B 0; xof_pos := 0 |})) L
  <= 256 ^ Z.of_nat (3 * n).
Proof.
  intros e n L Hn HL. apply tail_fraction; [exact HL| |lia].
  assert (A : 4 ^ Z.of_nat n * 6397 ^ Z.of_nat (2 * n) <= 16384 ^ Z.of_nat (2 * n)).
  { rewrite Nat2Z.inj_mul, !Z.pow_mul_r by lia. rewrite <- Z.pow_mul_l. apply Z.pow_le_mono_l.
    split; [discriminate|vm_compute; discriminate]. }
  eapply Z.le_trans; [|exact A]. apply Z.mul_le_mono_nonneg_r; [apply Z.pow_nonneg; lia|].
  change 4 with (2 ^ 2). rewrite <- !Z.pow_mul_r, <- Z.pow_add_r by lia. apply Z.pow_le_mono_r; lia.
Qed.

(** ** the whole matrix: key generation from a seed, [s] = 3 n bytes of XOF output for each
    of the k^2 entries *)

Section Matrix.
  Variable hs : hashes.
  Hypothesis Hhs : hash_ok hs.
  Variable P : params.
  Hypothesis HP : wf_params P.
  Let k := pk P.

  Lemma SampleNTT_ext n B B' : (forall i, (i < 3 * n)%nat -> B i = B' i) -> SampleNTT n B = SampleNTT n B'.
  Proof.
    intros H. unfold SampleNTT. rewrite !flat_map_concat_map, (map_ext_in (candidates B) (candidates B')); [reflexivity|].
    intros t Ht. apply in_seq in Ht. unfold candidates. rewrite !H by lia. reflexivity.
  Qed.

  Lemma matrix_fails n rho B : byte_string (k * k * (3 * n)) B ->
    A_hat (with_matrix hs k (3 * n) rho B) P n rho = None ->
    existsb (fun a => no_result (poly_sample_uniform n {| xof_stream := fun i => nth i (part (3 * n) a B) 0; xof_pos := 0 |}))
      (seq 0 (k * k)) = true.
  Proof.
    intros [LB FB] E. unfold A_hat in E. apply all_some_none in E. destruct E as (i & Hi & E).
    apply all_some_none in E. destruct E as (j & Hj & E). fold k in Hi, Hj. apply existsb_exists.
    assert (Ha : (i * k + j < k * k)%nat) by nia.
    exists (i * k + j)%nat. split; [apply in_seq; lia|].
    rewrite poly_sample_uniform_ok by (intros t; apply nth_byte, part_bytes, FB).
    erewrite SampleNTT_ext; [rewrite E; reflexivity|]. intros t Ht. cbn [with_matrix shake128].
    assert (Q : rho ++ [Z.of_nat j; Z.of_nat i] = ask_matrix k rho (i * k + j)).
    { unfold ask_matrix. rewrite Nat.add_comm, Nat.mod_add, Nat.div_add, Nat.mod_small, Nat.div_small by lia. reflexivity. }
    rewrite Q, answer_asked; [reflexivity| |exact Ha]. intros b _. apply ask_matrix_inj.
  Qed.

  Theorem C55_key_generation n d z L :
    byte_string 32 d -> byte_string 32 z ->
    let rho := fst (FIPS203.G hs (d ++ [Z.of_nat k])) in
    enumerates (k * k * (3 * n)) L ->
    forall L1, enumerates (3 * n) L1 ->
    count (fun B => no_result (kem_generate_deterministic (with_matrix hs k (3 * n) rho B) P n d z)) L <=
    Z.of_nat (k * k) *
    (count (fun B => no_result (poly_sample_uniform n {| xof_stream := fun i => nth i B 0; xof_pos := 0 |})) L1 *
     256 ^ Z.of_nat ((k * k - 1) * (3 * n))).
  Proof.
    intros Hd Hz rho HL L1 HL1.
    eapply Z.le_trans.
    - apply (count_impl _ (fun B => existsb (fun a => no_result (poly_sample_uniform n
        {| xof_stream := fun i => nth i (part (3 * n) a B) 0; xof_pos := 0 |})) (seq 0 (k * k)))).
      intros B HB N. apply HL in HB. apply matrix_fails with (rho := rho); [exact HB|].
      pose proof (generate_ok (with_matrix hs k (3 * n) rho B) (with_matrix_ok hs k (3 * n) rho B Hhs (proj2 HB)) P HP n d z (proj2 Hd) Hz) as W.
      unfold KeyGen_internal, KPKE_KeyGen in W.
      assert (R : FIPS203.G (with_matrix hs k (3 * n) rho B) (d ++ [Z.of_nat (pk P)]) =
                  (rho, snd (FIPS203.G hs (d ++ [Z.of_nat k])))) by reflexivity.
      rewrite R in W.
      destruct (A_hat (with_matrix hs k (3 * n) rho B) P n rho) as [Ah|]; [|reflexivity].
      destruct W as (dk & W & _). rewrite W in N. discriminate N.
    - eapply Z.le_trans; [apply count_exists|].
      + intros a Ha. apply in_seq in Ha. rewrite (enumerates_count _ L _ HL).
        rewrite (count_part (upto 256) (3 * n) (k * k) a
          (fun B => no_result (poly_sample_uniform n {| xof_stream := fun i => nth i B 0; xof_pos := 0 |}))) by lia.
        rewrite <- (enumerates_count _ L1 _ HL1), upto_length by lia. apply Z.le_refl.
      + rewrite seq_length. apply Z.le_refl.
  Qed.

  Lemma union_arith c c' K R E T : 0 <= c -> 0 <= K <= 16 -> 0 <= R -> 0 <= E ->
    c' <= K * (c * R) -> E * 16 * c <= T -> E * c' <= T * R.
  Proof.
    intros C0 K2 R0 E0 G F.
    apply Z.le_trans with (E * (K * (c * R))); [apply Z.mul_le_mono_nonneg_l; [exact E0|exact G]|].
    apply Z.le_trans with (E * (16 * (c * R))).
    - apply Z.mul_le_mono_nonneg_l; [exact E0|]. apply Z.mul_le_mono_nonneg_r; [apply Z.mul_nonneg_nonneg; assumption|apply K2].
    - replace (E * (16 * (c * R))) with (E * 16 * c * R) by ring. apply Z.mul_le_mono_nonneg_r; assumption.
  Qed.

  Lemma key_generation_bound n e d z L :
    (k <= 4)%nat -> byte_string 32 d -> byte_string 32 z ->
    let rho := fst (FIPS203.G hs (d ++ [Z.of_nat k])) in
    enumerates (k * k * (3 * n)) L -> 0 <= e ->
    2 ^ (e + 4) * count (fun B => no_result (poly_sample_uniform n {| xof_stream := fun i => nth i B 0; xof_pos := 0 |}))
                    (tuples (upto 256) (3 * n)) <= 256 ^ Z.of_nat (3 * n) ->
    2 ^ e * count (fun B => no_result (kem_generate_deterministic (with_matrix hs k (3 * n) rho B) P n d z)) L
    <= 256 ^ Z.of_nat (k * k * (3 * n)).
  Proof.
    intros Hk Hd Hz rho HL He F.
    pose proof (C55_key_generation n d z L Hd Hz HL _ (enumeration (3 * n))) as G. cbv zeta in G. fold rho in G.
    assert (K1 : (1 <= k)%nat) by (unfold k; pose proof HP as (W & _); lia).
    replace (k * k * (3 * n))%nat with (3 * n + (k * k - 1) * (3 * n))%nat by nia.
    rewrite Nat2Z.inj_add, Z.pow_add_r by apply Nat2Z.is_nonneg.
    eapply union_arith; [| | | |exact G|].
    - apply count_nonneg.
    - nia.
    - apply Z.pow_nonneg. lia.
    - apply Z.pow_nonneg. lia.
    - rewrite Z.pow_add_r in F by lia. exact F.
  Qed.

  (** five blocks per entry: key generation needs more for at most 2^-243 of the XOF outputs *)
  Theorem C55_key_generation_five_blocks d z L :
    (k <= 4)%nat -> byte_string 32 d -> byte_string 32 z ->
    let rho := fst (FIPS203.G hs (d ++ [Z.of_nat k])) in
    enumerates (k * k * (3 * 280)) L ->
    2 ^ 243 * count (fun B => no_result (kem_generate_deterministic (with_matrix hs k (3 * 280) rho B) P 280 d z)) L
    <= 256 ^ Z.of_nat (k * k * (3 * 280)).
  Proof.
    intros Hk Hd Hz rho HL. apply key_generation_bound; try assumption; [discriminate|].
    exact (C55_five_blocks _ (enumeration 840)).
  Qed.
End Matrix.

(** ** cases *)

(** both outcomes occur among the 840-byte strings: [count] is neither 0 nor everything *)
Lemma all_rejected n : no_result (poly_sample_uniform n {| xof_stream := fun i => nth i (repeat 255 (3 * n)) 0; xof_pos := 0 |}) = true.
Proof.
  rewrite uniform_no_result.
  - assert (E : forall m, filter (fun x => x <? q) (groups (repeat 255 (3 * m))) = []).
    { induction m as [|m IH]; [reflexivity|]. replace (3 * S m)%nat with (S (S (S (3 * m)))) by lia.
      cbn [repeat groups]. cbn [filter]. exact IH. }
    rewrite E. reflexivity.
  - split; [apply repeat_length|]. apply Forall_forall. intros x Hx. apply repeat_spec in Hx. subst x. red. lia.
Qed.
Example C55_case : forall n, (128 <= n)%nat ->
  (exists B, byte_string (3 * n) B /\ no_result (poly_sample_uniform n {| xof_stream := fun i => nth i B 0; xof_pos := 0 |}) = true) /\
  (exists B, byte_string (3 * n) B /\ no_result (poly_sample_uniform n {| xof_stream := fun i => nth i B 0; xof_pos := 0 |}) = false).
Proof.
  intros n Hn. split.
  - exists (repeat 255 (3 * n)). split; [|apply all_rejected].
    split; [apply repeat_length|]. apply Forall_forall. intros x Hx. apply repeat_spec in Hx. subst x. red. lia.
  - destruct (C51_all_occur n (repeat 0 256) _ Hn zero_poly (enumeration (3 * n))) as (B & I & E).
    exists B. split; [apply enumeration; exact I|]. rewrite E. reflexivity.
Qed.

(** ML-KEM-768 with the toy hash *)
Example C55_case_768 :
  2 ^ 243 * count (fun B => no_result (kem_generate_deterministic
      (with_matrix toy 3 (3 * 280) (fst (FIPS203.G toy (seed 1 ++ [3]))) B) ML_KEM_768 280 (seed 1) (seed 2)))
    (tuples (upto 256) (3 * 3 * (3 * 280)))
  <= 256 ^ Z.of_nat (3 * 3 * (3 * 280)).
Proof.
  apply (C55_key_generation_five_blocks toy toy_ok ML_KEM_768 ltac:(apply C13_table_3) (seed 1) (seed 2)).
  - cbn. lia.
  - apply seed_ok.
  - apply seed_ok.
  - apply enumeration.
Qed.

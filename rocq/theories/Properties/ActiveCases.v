(** Cases for C71: the numbers for the three parameter sets, attackers that win, and hash
    functions that meet the hypotheses. *)
From Coq Require Import List ZArith Lia Bool Arith.
From Verif.Base Require Import Res Oracles.
From Verif.Spec Require Import FIPS203 Domains Noise Counting Random Lwe Attacker Tables.
From Verif.Model Require Import Machine Util Algebra Compress Encode Crypto Sample Param Pke Kem.
From Verif.Proofs Require Import Basics Field Poly CompressProofs NttAlgebra NttProofs EncodeProofs VecEncode SampleProofs CountProofs
  PkeProofs KemProofs Inner Correctness TailProofs FailureProofs FailureAverage FailureNumbers LweProofs AttackerProofs TableProofs.
From Verif.Tests Require Import Toy.
From Verif.Properties Require Import Kem KemCases Correctness Distribution Failure Secrecy KemSecrecy ActiveSecrecy.
From Coq Require Import QArith Qabs Lqa.
Import ListNotations.
Open Scope Z_scope.

(** ** A hash function under which no encryption fails *)
Definition quiet (k eta : nat) : hashes := {|
  sha3_256 := sha3_256 (unlucky k eta);
  sha3_512 := sha3_512 (unlucky k eta);
  shake128 := shake128 (unlucky k eta);
  shake256 := fun _ _ => 0
|}.
Lemma quiet_ok k eta : hash_ok (quiet k eta).
Proof.
  intros m Hm. destruct (unlucky_ok k eta m Hm) as (H1 & H2 & H3 & _).
  repeat split; try assumption; try apply H1; try apply H2; intros; try apply H3; cbn [quiet shake256]; lia.
Qed.

Lemma inner_zero_r k u v c : (c < 256)%nat ->
  (forall i, (i < k)%nat -> forall b, (b < 256)%nat -> eqq (co (ent v i) b) 0) -> eqq (co (inner k u v) c) 0.
Proof.
  intros Hc Hv. rewrite co_inner by exact Hc. transitivity (sum k (fun _ => 0)).
  - apply sum_eqq. intros i Hi. rewrite co_pmul by exact Hc. rewrite mod_eqq.
    transitivity (sum 256 (fun _ => 0)); [|apply eqq_of_eq, sum_zero]. apply sum_eqq. intros a Ha.
    transitivity (sum 256 (fun _ => 0)); [|apply eqq_of_eq, sum_zero]. apply sum_eqq. intros b Hb.
    rewrite (Hv i Hi b Hb). apply eqq_of_eq. ring.
  - apply eqq_of_eq, sum_zero.
Qed.

Section Quiet.
  Variable hs : hashes.
  Variable P : params.
  Hypothesis HP : wf_params P.
  Hypothesis Hdu : (du P <= 11)%nat.
  Hypothesis Hdv : (4 <= dv P <= 11)%nat.
  Let k := pk P.
  Variable r : list Z.
  Hypothesis Hr : forall eta b, FIPS203.PRF hs eta r b = tab (64 * eta) (fun _ => 0).

  Lemma co_zero b : (b < 256)%nat -> co (repeat 0 256) b = 0.
  Proof. intros Hb. unfold co. rewrite repeat_tab, nth_tab by exact Hb. reflexivity. Qed.
  Lemma quiet_noise eta N i : (eta = 2 \/ eta = 3)%nat -> (i < k)%nat -> ent (noise hs P eta r N) i = repeat 0 256.
  Proof. intros He Hi. unfold noise. fold k. rewrite ent_tab by exact Hi. rewrite Hr. apply cbd_zero, He. Qed.
  Lemma quiet_u A i b : (i < k)%nat -> (b < 256)%nat -> co (ent (enc_u hs P A r) i) b = 0.
  Proof.
    intros Hi Hb. unfold enc_u. fold k. unfold vadd. rewrite ent_tab by exact Hi. rewrite co_padd by exact Hb.
    unfold rmatvec. rewrite ent_tab by exact Hi. unfold enc_e1. rewrite quiet_noise by (try apply HP; exact Hi).
    rewrite co_zero by exact Hb.
    assert (Z0 : eqq (co (inner k (nth i (transposed k A) []) (enc_y hs P r)) b + 0) 0).
    { rewrite (inner_zero_r k) ; [reflexivity|exact Hb|]. intros j Hj b' Hb'. unfold enc_y.
      rewrite quiet_noise by (try apply HP; exact Hj). rewrite co_zero by exact Hb'. reflexivity. }
    rewrite (eqq_mod _ _ Z0). reflexivity.
  Qed.
  Lemma rounding_zero p b : poly p -> (b < 256)%nat -> co p b = 0 -> eqq (co (rounding (du P) p) b) 0.
  Proof.
    intros Hp Hb E. unfold rounding. rewrite co_psub by exact Hb. rewrite mod_eqq, E.
    unfold co. rewrite (nth_indep _ 0 (Decompress (du P) (Compress (du P) 0))) by (rewrite map_length; rewrite (proj1 Hp); exact Hb).
    rewrite (map_nth (fun x => Decompress (du P) (Compress (du P) x))). fold (co p b). rewrite E.
    assert (0 < 2 ^ Z.of_nat (du P)) by (apply Z.pow_pos_nonneg; lia).
    unfold Compress, Decompress, round_div.
    rewrite Z.mul_0_r. change ((2 * 0 + q) / (2 * q)) with 0. rewrite Z.mod_0_l by lia. rewrite Z.mul_0_r.
    rewrite Z.div_small by lia. reflexivity.
  Qed.
  Lemma quiet_range A d m : noise_in_range hs P A d m r.
  Proof.
    intros c Hc. set (v := enc_v hs P A d m r).
    assert (Hv : poly v) by apply padd_poly.
    pose proof (Decompress_Compress_error (dv P) (co v c) ltac:(lia) (poly_co _ _ Hv Hc)) as B.
    pose proof (round_bound P Hdu Hdv) as RB.
    set (dl := centred (Decompress (dv P) (Compress (dv P) (co v c)) - co v c)) in *.
    assert (Edl : eqq dl (Decompress (dv P) (Compress (dv P) (co v c)) - co v c))
      by (apply eqq_iff; apply centred_spec).
    assert (E : eqq (co (decryption_noise hs P A d m r) c) dl).
    { unfold decryption_noise. fold k. fold v. rewrite co_psub by exact Hc. rewrite mod_eqq.
      rewrite (inner_zero_r k (key_s hs P d)).
      2: exact Hc.
      2: { intros i Hi b Hb. unfold vadd. rewrite ent_tab by exact Hi. rewrite co_padd by exact Hb. rewrite mod_eqq.
           unfold enc_e1. rewrite quiet_noise by (try apply HP; exact Hi). rewrite co_zero by exact Hb.
           unfold ent at 1. rewrite (nth_indep _ [] (rounding (du P) [])) by (rewrite map_length; unfold enc_u, vadd; rewrite tab_length; exact Hi).
           rewrite map_nth. rewrite rounding_zero; [reflexivity| |exact Hb|apply quiet_u; assumption].
           unfold enc_u. fold k. change (poly (ent (vadd k (rmatvec k (transposed k A) (enc_y hs P r)) (enc_e1 hs P r)) i)).
           unfold vadd. rewrite ent_tab by exact Hi. apply padd_poly. }
      rewrite !co_padd by exact Hc. rewrite !mod_eqq.
      rewrite (inner_zero_r k (key_e hs P d)).
      2: exact Hc.
      2: { intros i Hi b Hb. unfold enc_y. rewrite quiet_noise by (try apply HP; exact Hi). rewrite co_zero by exact Hb. reflexivity. }
      unfold enc_e2. rewrite Hr, cbd_zero by apply HP. rewrite co_zero by exact Hc.
      unfold rounding. rewrite co_psub by exact Hc. rewrite mod_eqq. rewrite Edl.
      unfold co at 1. rewrite (nth_indep _ 0 (Decompress (dv P) (Compress (dv P) 0)))
        by (rewrite map_length; rewrite (proj1 Hv); exact Hc).
      rewrite (map_nth (fun x => Decompress (dv P) (Compress (dv P) x))). fold (co v c).
      apply eqq_of_eq. lia. }
    assert (EC : centred (co (decryption_noise hs P A d m r) c) = dl).
    { unfold centred. rewrite (eqq_mod _ (dl + 1664)); [apply centred_small; lia|]. rewrite E. reflexivity. }
    rewrite EC. unfold decodable. destruct (bit_of_bytes m c); lia.
  Qed.
End Quiet.

Lemma answer_zero ask m s b x t : answer ask m s (repeat 0 b) (fun _ _ => 0) x t = 0.
Proof.
  unfold answer. destruct (find _ _) as [a|]; [|reflexivity].
  destruct (nth_in_or_default t (part s a (repeat 0 b)) 0) as [I|E]; [|exact E].
  apply (repeat_spec b). revert I. generalize (nth t (part s a (repeat 0 b)) 0). intros y I. unfold part in I.
  rewrite <- (firstn_skipn (a * s) (repeat 0 b)). apply in_or_app. right.
  rewrite <- (firstn_skipn s (skipn _ (repeat 0 b))). apply in_or_app. left. exact I.
Qed.
Lemma repeat_zero n : byte_string n (repeat 0 n).
Proof. apply repeat_bytes. unfold is_byte. lia. Qed.
Lemma another r : exists sigma, byte_string 32 sigma /\ r <> sigma.
Proof.
  destruct (list_eq_dec Z.eq_dec r (repeat 0 32)) as [->|NE].
  - exists (repeat 1 32). split; [apply repeat_bytes; unfold is_byte; lia|discriminate].
  - exists (repeat 0 32). split; [apply repeat_zero|exact NE].
Qed.

Lemma silent_never_fails hs P n rho Ah S E m r : hash_ok hs -> (forall x i, shake256 hs x i = 0) -> wf_params P -> (du P <= 11)%nat -> (4 <= dv P <= 11)%nat ->
  byte_string 32 rho -> byte_string 32 m -> byte_string 32 r ->
  byte_string (pk P * (64 * eta1 P)) S -> byte_string (pk P * (64 * eta1 P)) E ->
  A_hat hs P n rho = Some Ah ->
  let A := map (map NTTinv) Ah in
  pke_fails hs P n (secret_bytes P S)
    (key_bytes P rho (lwe_samples (pk P) (pk P) A (cbd_vec (eta1 P) (pk P) S) (cbd_vec (eta1 P) (pk P) E))) m r = false.
Proof.
  intros Hhs H0 HP Hdu Hdv Hrho Hm Hr HS HE EA A.
  destruct (another r) as (sigma & Hs & Hne).
  set (d := repeat 0 32). assert (Hd : byte_string 32 d) by apply repeat_zero.
  set (Y := repeat 0 (pk P * (64 * eta1 P))). set (W := repeat 0 ((pk P + 1) * (64 * eta2 P))).
  assert (HY : byte_string (pk P * (64 * eta1 P)) Y) by apply repeat_zero.
  assert (HW : byte_string ((pk P + 1) * (64 * eta2 P)) W) by apply repeat_zero.
  assert (Q : forall h x i, shake256 h = shake256 hs -> shake256 (with_coins h P r Y W) x i = 0).
  { intros h x i Eh. cbn [with_coins shake256]. rewrite Eh.
    assert (A0 : forall ask m' s B, answer ask m' s B (shake256 hs) x i = answer ask m' s B (fun _ _ => 0) x i)
      by (intros; unfold answer; rewrite H0; reflexivity).
    unfold answer at 1. destruct (find _ _) as [a|] eqn:F.
    - pose proof (answer_zero (ask_secrets r) (pk P) (64 * eta1 P) (pk P * (64 * eta1 P)) x i) as X.
      unfold answer in X. rewrite F in X. exact X.
    - rewrite A0. apply answer_zero. }
  transitivity (pke_fails (with_coins hs P r Y W) P n (secret_bytes P S)
    (key_bytes P rho (lwe_samples (pk P) (pk P) A (cbd_vec (eta1 P) (pk P) S) (cbd_vec (eta1 P) (pk P) E))) m r).
  { unfold pke_fails. rewrite (encrypt_same hs (with_coins hs P r Y W)); [reflexivity|reflexivity|].
    intros eta b. unfold FIPS203.PRF, prefix. apply tab_ext. intros i _. rewrite Q by reflexivity. apply H0. }
  unfold A. rewrite (fails_decrypts hs Hhs P HP n rho d sigma r Hrho Hd Hs Hr Hne Ah EA S E Y W m Hm HS HE HY HW).
  set (hA := seeded hs P rho d sigma).
  assert (HA : hash_ok hA) by (apply seeded_ok; assumption).
  assert (Es : sigma_of hA P d = sigma) by (apply seeded_sigma; assumption).
  assert (Er : key_rho hA P d = rho) by (apply seeded_rho; assumption).
  set (h := with_secrets (with_coins hA P r Y W) P (sigma_of hA P d) (S ++ E)).
  assert (Hh : hash_ok h).
  { apply with_secrets_ok; [|apply bytes_app; [apply HS|apply HE]]. apply with_coins_ok; [exact HA|apply HY|apply HW]. }
  assert (EAh : A_hat h P n (key_rho h P d) = Some Ah).
  { change (A_hat h P n (key_rho hA P d) = Some Ah). rewrite Er. exact EA. }
  destruct (C04_kpke h Hh P HP Hdu ltac:(lia) n d m r Ah Hd Hm Hr EAh) as (dk & ek & c & E1 & E2 & E3).
  unfold decrypts. fold h. rewrite E1, E2.
  assert (HN : noise_in_range h P (map (map NTTinv) Ah) d m r).
  { apply (quiet_range h P HP Hdu Hdv r). intros eta b.
    transitivity (FIPS203.PRF (with_coins hA P r Y W) eta r b).
    - apply (PRF_other (with_coins hA P r Y W) P d r). change (r <> sigma_of hA P d). rewrite Es. exact Hne.
    - unfold FIPS203.PRF, prefix. apply tab_ext. intros i _. apply Q. reflexivity. }
  rewrite (proj2 E3 HN). unfold returns. destruct (list_eq_dec Z.eq_dec m m); [reflexivity|contradiction].
Qed.

Lemma quiet_never_fails P rho Ah S E m r : wf_params P -> (du P <= 11)%nat -> (4 <= dv P <= 11)%nat ->
  byte_string 32 rho -> byte_string 32 m -> byte_string 32 r ->
  byte_string (pk P * (64 * eta1 P)) S -> byte_string (pk P * (64 * eta1 P)) E ->
  let hs := quiet (pk P) (eta1 P) in
  A_hat hs P 128 rho = Some Ah ->
  let A := map (map NTTinv) Ah in
  pke_fails hs P 128 (secret_bytes P S)
    (key_bytes P rho (lwe_samples (pk P) (pk P) A (cbd_vec (eta1 P) (pk P) S) (cbd_vec (eta1 P) (pk P) E))) m r = false.
Proof.
  intros HP Hdu Hdv Hrho Hm Hr HS HE hs EA.
  exact (silent_never_fails hs P 128 rho Ah S E m r (quiet_ok _ _) (fun _ _ => eq_refl) HP Hdu Hdv Hrho Hm Hr HS HE EA).
Qed.

(** ** The numbers *)
Theorem C71_numbers P bits : In (P, bits) [(ML_KEM_512, 80); (ML_KEM_768, 90); (ML_KEM_1024, 107)] ->
  forall hs n rho Ah att N D L LC LS LE LY LW LR LK LF LT LV r0 delta,
  hash_ok hs -> byte_string 32 rho -> byte_string 32 r0 ->
  A_hat hs P n rho = Some Ah ->
  (forall ek c K, within N D (att ek c K)) ->
  enumerates 32 L -> enumerates (ct_len P) LC ->
  enumerates (pk P * (64 * eta1 P)) LS -> enumerates (pk P * (64 * eta1 P)) LE ->
  enumerates (pk P * (64 * eta1 P)) LY -> enumerates ((pk P + 1) * (64 * eta2 P)) LW ->
  all_tables L L LR -> all_tables L L LK -> all_tables LC L LF ->
  all_vectors (pk P) LT -> all_vectors (pk P + 1) LV ->
  let A := map (map NTTinv) Ah in
  let ek S E := key_bytes P rho (lwe_samples (pk P) (pk P) A (cbd_vec (eta1 P) (pk P) S) (cbd_vec (eta1 P) (pk P) E)) in
  (forall S E m, In S LS -> In E LE -> In m L ->
     (average L (fun r => one_if (pke_fails hs P n (secret_bytes P S) (ek S E) m r)) <= delta S E)%Q) ->
  let gap1 := lwe_gap (pk P) (pk P) (eta1 P) (eta1 P) A LS LE LT (sim_key_test hs P n rho r0 L LC LY LW LR LF att) in
  let gap2 := average LT (fun t => lwe_gap (pk P) (pk P + 1) (eta1 P) (eta2 P) (ct_matrix (pk P) A t)
                            LY LW LV (sim_ct_test hs P n rho L LC LR LF att t)) in
  (Qabs (active_experiment hs P n rho att L LC LS LE LY LW LR LK LF true -
         active_experiment hs P n rho att L LC LS LE LY LW LR LK LF false) <=
   2 * ((7 * inject_Z (Z.of_nat N) + 1) / inject_Z (2 ^ 256) +
        inject_Z (Z.of_nat N) * average LS (fun S => average LE (fun E => delta S E)) +
        1 / inject_Z (2 ^ bits) + gap1 + gap2))%Q.
Proof.
  intros HI hs n rho Ah att N D L LC LS LE LY LW LR LK LF LT LV r0 delta
    Hhs Hrho Hr0 EA Hatt HL HLC HLS HLE HLY HLW HLR HLK HLF HLT HLV A ek Hdl gap1 gap2.
  assert (HP : wf_params P).
  { destruct HI as [E|[E|[E|[]]]]; apply (f_equal fst) in E; cbn [fst] in E; subst P; [apply wf_512|apply wf_768|apply wf_1024]. }
  pose proof (C71_active hs P n rho Ah att N D L LC LS LE LY LW LR LK LF LT LV r0 delta
    Hhs HP Hrho EA Hatt HL HLC HLS HLE HLY HLW HLR HLK HLF HLT HLV Hdl) as B.
  pose proof (C71_failure P bits HI hs n rho Ah L LS LE LY LW r0 Hhs Hrho Hr0 EA HL HLS HLE HLY HLW) as F.
  cbv zeta in B, F. fold A in B, F. fold gap1 gap2 in B.
  eapply Qle_trans; [exact B|]. clear B.
  set (failure := average L _) in *. clearbody failure gap1 gap2.
  set (b := (1 / inject_Z (2 ^ bits))%Q) in *. clearbody b. lra.
Qed.

(** The hypotheses are met for the three parameter sets, with [delta] = 0 for the hash
    functions [quiet]. *)
Lemma tables_all D L : NoDup L -> all_tables D L (words L (length D)).
Proof. intros ND. split; [apply NoDup_words, ND|]. intros T. apply in_words. Qed.

Example C71_case P bits rho att N D : In (P, bits) [(ML_KEM_512, 80); (ML_KEM_768, 90); (ML_KEM_1024, 107)] ->
  byte_string 32 rho -> (forall ek c K, within N D (att ek c K)) ->
  let hs := quiet (pk P) (eta1 P) in
  let L := tuples (upto 256) 32 in
  let LC := tuples (upto 256) (ct_len P) in
  let LS := tuples (upto 256) (pk P * (64 * eta1 P)) in
  let LW := tuples (upto 256) ((pk P + 1) * (64 * eta2 P)) in
  let LR := words L (length L) in
  let LF := words L (length LC) in
  exists Ah, let A := map (map NTTinv) Ah in
  let gap1 := lwe_gap (pk P) (pk P) (eta1 P) (eta1 P) A LS LS (vectors (pk P)) (sim_key_test hs P 128 rho rho L LC LS LW LR LF att) in
  let gap2 := average (vectors (pk P)) (fun t => lwe_gap (pk P) (pk P + 1) (eta1 P) (eta2 P) (ct_matrix (pk P) A t)
                            LS LW (vectors (pk P + 1)) (sim_ct_test hs P 128 rho L LC LR LF att t)) in
  (Qabs (active_experiment hs P 128 rho att L LC LS LS LS LW LR LR LF true -
         active_experiment hs P 128 rho att L LC LS LS LS LW LR LR LF false) <=
   2 * ((7 * inject_Z (Z.of_nat N) + 1) / inject_Z (2 ^ 256) + 1 / inject_Z (2 ^ bits) + gap1 + gap2))%Q.
Proof.
  intros HI Hrho Hatt hs L LC LS LW LR LF.
  assert (HP : wf_params P /\ (du P <= 11)%nat /\ (4 <= dv P <= 11)%nat).
  { destruct HI as [E|[E|[E|[]]]]; apply (f_equal fst) in E; cbn [fst] in E; subst P; (split; [|cbn [du dv ML_KEM_512 ML_KEM_768 ML_KEM_1024]; lia]);
      [apply wf_512|apply wf_768|apply wf_1024]. }
  destruct HP as (HP & Hdu & Hdv).
  destruct (unlucky_A P rho) as [Ah EA0]. assert (EA : A_hat hs P 128 rho = Some Ah) by exact EA0. clear EA0. exists Ah.
  assert (HL : enumerates 32 L) by apply enumeration.
  assert (HLS : enumerates (pk P * (64 * eta1 P)) LS) by apply enumeration.
  assert (H0 : forall S E m, In S LS -> In E LS -> In m L ->
    (average L (fun r => one_if (pke_fails hs P 128 (secret_bytes P S)
       (key_bytes P rho (lwe_samples (pk P) (pk P) (map (map NTTinv) Ah) (cbd_vec (eta1 P) (pk P) S) (cbd_vec (eta1 P) (pk P) E))) m r)) <= 0)%Q).
  { intros S E m HS HE Hm. apply average_bound; [apply Qle_refl|]. intros r Hr.
    pose proof (quiet_never_fails P rho Ah S E m r HP Hdu Hdv Hrho (proj1 (proj2 HL m) Hm) (proj1 (proj2 HL r) Hr)
      (proj1 (proj2 HLS S) HS) (proj1 (proj2 HLS E) HE) EA) as F. cbv zeta in F. fold hs in F. rewrite F. apply Qle_refl. }
  pose proof (C71_numbers P bits HI hs 128 rho Ah att N D L LC LS LS LS LW LR LR LF (vectors (pk P)) (vectors (pk P + 1)) rho (fun _ _ => 0%Q)
    (quiet_ok _ _) Hrho Hrho EA Hatt HL (enumeration _) HLS HLS HLS (enumeration _)
    (tables_all L L (proj1 HL)) (tables_all L L (proj1 HL)) (tables_all LC L (proj1 HL)) (vectors_all _) (vectors_all _) H0) as B.
  cbv zeta in B |- *. eapply Qle_trans; [exact B|]. clear B H0.
  assert (Z0 : (average LS (fun _ => average LS (fun _ => 0)) <= 0)%Q).
  { apply average_bound; [apply Qle_refl|]. intros x _. apply average_bound; [apply Qle_refl|]. intros y _. apply Qle_refl. }
  set (av := average LS (fun _ : list Z => average LS (fun _ : list Z => 0%Q))) in *. clearbody av.
  set (g1 := lwe_gap _ _ _ _ _ _ _ _ _). set (g2 := average (vectors (pk P)) _). clearbody g1 g2.
  assert (N0 : (0 <= inject_Z (Z.of_nat N))%Q) by (change 0%Q with (inject_Z 0); rewrite <- Zle_Qle; lia).
  set (x := inject_Z (Z.of_nat N)) in *. clearbody x.
  assert (M : (x * av <= 0)%Q) by nra.
  set (b := (1 / inject_Z (2 ^ bits))%Q). set (a := ((7 * x + 1) / inject_Z (2 ^ 256))%Q). clearbody a b. lra.
Qed.

(** ** Attackers that win or are answered *)
Section Wins.
  Variable hs : hashes.
  Hypothesis Hhs : hash_ok hs.
  Variable P : params.
  Hypothesis HP : wf_params P.
  Variable n : nat.
  Variable rho : list Z.
  Hypothesis Hrho : byte_string 32 rho.
  Variable Ah : list (list (list Z)).
  Hypothesis EA : A_hat hs P n rho = Some Ah.
  Variables L LC : list (list Z).
  Hypothesis HL : enumerates 32 L.
  Hypothesis HLC : enumerates (ct_len P) LC.
  Variables S E Y W d sigma z r : list Z.
  Hypothesis HS : byte_string (pk P * (64 * eta1 P)) S.
  Hypothesis HE : byte_string (pk P * (64 * eta1 P)) E.
  Hypothesis HY : byte_string (pk P * (64 * eta1 P)) Y.
  Hypothesis HW : byte_string ((pk P + 1) * (64 * eta2 P)) W.
  Hypothesis Hd : byte_string 32 d.
  Hypothesis Hs : byte_string 32 sigma.
  Hypothesis Hz : byte_string 32 z.
  Variables TK TR TF : list (list Z).
  Hypothesis HTK : table L L TK.
  Hypothesis HTR : table L L TR.
  Hypothesis HTF : table LC L TF.
  Variable m : list Z.
  Hypothesis Hm : In m L.
  Hypothesis Er : entry L TR m = Some r.
  Hypothesis Hne : r <> sigma.

  Lemma get_r : get L TR m = r.
  Proof. unfold get. rewrite Er. reflexivity. Qed.
  Lemma r_bytes : byte_string 32 r.
  Proof. rewrite <- get_r. apply HL, (get_in L L TR m HTR Hm). Qed.
  Let view att real U := active_view hs Hhs P HP n rho Hrho Ah EA att L LC HL HLC S E Y W d sigma z r HS HE HY HW Hd Hs Hz r_bytes
    TK TR TF HTK HTR HTF real m U Hm get_r Hne.

  (** every such run reaches the attacker *)
  Example C71_reached p real U :
    active_game hs P n rho L LC (fun _ _ _ => Answer p) real m S E Y W TR d sigma z TK TF U = p.
  Proof. destruct (view (fun _ _ _ => Answer p) real U) as (dec & V & _). exact V. Qed.

  (** an attacker that knows m wins *)
  Example C71_case_knows U : entry L TK m <> Some U ->
    active_game hs P n rho L LC (knows m) true m S E Y W TR d sigma z TK TF U = 1%Q /\
    active_game hs P n rho L LC (knows m) false m S E Y W TR d sigma z TK TF U = 0%Q.
  Proof.
    intros HU. rewrite (entry_get L L TK m HTK Hm) in HU.
    destruct (view (knows m) true U) as (dec & V & _). destruct (view (knows m) false U) as (dec' & V' & _).
    rewrite V, V'. unfold knows. cbn [run reply].
    set (ek := key_bytes P rho _). set (h2 := active_world _ _ _ _ _ _ _ _ _ _ _ _ _ _ _ _ _).
    change (sha3_256 h2 ek) with (sha3_256 hs ek).
    assert (E1 : firstn 32 (sha3_512 h2 (m ++ sha3_256 hs ek)) = get L TK m).
    { unfold h2, active_world. cbn [with_J_table with_G_table sha3_512].
      rewrite skipn_app_exact, firstn_app_exact by apply (proj1 (proj2 HL m) Hm).
      destruct (list_eq_dec Z.eq_dec _ _) as [_|X]; [|contradiction].
      rewrite (entry_get L L TK _ HTK Hm), Er.
      apply firstn_app_exact. apply (proj1 (proj2 HL _) (get_in L L TK m HTK Hm)). }
    rewrite E1. destruct (list_eq_dec Z.eq_dec _ (get L TK m)) as [_|X]; [|contradiction].
    destruct (list_eq_dec Z.eq_dec (get L TK m) U) as [X|_]; [rewrite X in HU; contradiction|]. split; reflexivity.
  Qed.

  (** the owner answers every ciphertext but the challenge with 32 bytes, and the challenge
      with nothing *)
  Definition expects (c : list Z -> list Z) (len : nat) (ek c0 K : list Z) : attacker :=
    Decaps (c c0) (fun v => Answer (if Nat.eqb (length v) len then 1%Q else 0%Q)).
  Example C71_case_answered (c : list Z -> list Z) real U : (forall c0, byte_string (ct_len P) (c c0) /\ c c0 <> c0) ->
    active_game hs P n rho L LC (expects c 32) real m S E Y W TR d sigma z TK TF U = 1%Q /\
    active_game hs P n rho L LC (expects (fun c0 => c0) 0) real m S E Y W TR d sigma z TK TF U = 1%Q.
  Proof.
    intros Hc. split.
    - destruct (view (expects c 32) real U) as (dec & V & VD). rewrite V. unfold expects. cbn [run]. rewrite VD.
      set (c0 := ct_bytes _ _ _). change (let w := _ in _) with c0. destruct (Hc c0) as [Hb Hn].
      destruct (list_eq_dec Z.eq_dec (c c0) c0) as [X|_]; [contradiction|].
      destruct (in_dec (list_eq_dec Z.eq_dec) (c c0) LC) as [I|X]; [|exfalso; apply X, HLC, Hb].
      assert (G : forall x, In x L -> Nat.eqb (length x) 32 = true) by (intros x Hx; apply HL in Hx; rewrite (proj1 Hx); reflexivity).
      destruct (list_eq_dec Z.eq_dec _ _) as [_|_].
      + rewrite G; [reflexivity|]. apply (get_in L L TK); [exact HTK|]. exact (proj2 (proj2 HL _) (KPKE_Decrypt_bytes P _ _)).
      + rewrite G; [reflexivity|]. apply (get_in LC L TF); [exact HTF|exact I].
    - destruct (view (expects (fun c0 => c0) 0) real U) as (dec & V & VD). rewrite V. unfold expects. cbn [run]. rewrite VD.
      destruct (list_eq_dec Z.eq_dec _ _) as [_|X]; [reflexivity|contradiction].
  Qed.
End Wins.

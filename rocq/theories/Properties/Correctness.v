(** C04, C05: when decapsulation recovers the encapsulated key.

    The noise is the polynomial e.y + e2 + c_v - s.(e1 + c_u) of Spec/Noise.v; the theorems
    hold for every behaviour of the hash functions, i.e. for every outcome of sampling. *)
From Coq Require Import List ZArith Lia Bool Arith.
From Verif.Base Require Import Res Oracles.
From Verif.Spec Require Import FIPS203 Domains Noise.
From Verif.Model Require Import Machine Util Algebra Compress Encode Crypto Sample Param Pke Kem.
From Verif.Proofs Require Import Basics Field Poly CompressProofs NttAlgebra EncodeProofs VecEncode SampleProofs
  PkeProofs KemProofs Inner Correctness.
From Verif.Tests Require Import Toy.
From Verif.Properties Require Import Kem KemCases.
Import ListNotations.
Open Scope Z_scope.

Section C04.
  Variable hs : hashes.
  Hypothesis Hhs : hash_ok hs.
  Variable P : params.
  Hypothesis HP : wf_params P.
  (** as in all three parameter sets; d = 12 is not a compression but a reduction modulo q *)
  Hypothesis Hdu : (du P <= 11)%nat.
  Hypothesis Hdv : (dv P <= 11)%nat.

  (** successful generation means that the matrix was found *)
  Lemma generate_A n d x : bytes d -> pke_generate hs P n d = Ok x ->
    exists Ah, A_hat hs P n (key_rho hs P d) = Some Ah.
  Proof.
    intros Hd E. pose proof (pke_generate_ok hs Hhs P HP n d Hd) as W.
    unfold KPKE_KeyGen in W. unfold key_rho.
    destruct (FIPS203.G hs (d ++ [Z.of_nat (pk P)])) as [rho sigma]. cbn [fst].
    destruct (A_hat hs P n rho) as [Ah|]; [exists Ah; reflexivity|]. rewrite W in E. inversion E.
  Qed.

  (** K-PKE: decryption returns the message exactly when the noise is in range.  The only
      premise is that sampling the matrix ends within the budget. *)
  Theorem C04_kpke n d m r Ah :
    byte_string 32 d -> byte_string 32 m -> byte_string 32 r ->
    A_hat hs P n (key_rho hs P d) = Some Ah ->
    exists dk ek c,
      pke_generate hs P n d = Ok (dk, ek) /\
      encrypt hs P n ek m r = Ok c /\
      (decrypt P dk c = Ok m <-> noise_in_range hs P (map (map NTTinv) Ah) d m r).
  Proof.
    intros Hd Hm Hr EA.
    assert (Bdu : (1 <= du P <= 11)%nat) by (pose proof HP as (_ & _ & _ & W & _); lia).
    assert (Bdv : (1 <= dv P <= 11)%nat) by (pose proof HP as (_ & _ & _ & _ & W); lia).
    destruct (decrypt_encrypt hs Hhs P HP Bdu Bdv n d Ah (proj2 Hd) EA) as (ekb & dkb & E1 & E).
    destruct (E m r) as [E2 E3]. set (c := enc_ct hs P (map (map NTTinv) Ah) d m r) in *. clearbody c. clear E.
    pose proof (pke_generate_ok hs Hhs P HP n d (proj2 Hd)) as W. rewrite E1 in W.
    destruct W as (dk & ek & W1 & Vdk & Vek & <- & <-).
    exists dk, ek, c. split; [exact W1|]. split.
    - rewrite encrypt_ok by (try assumption; apply Hr). rewrite E2. reflexivity.
    - rewrite decrypt_ok by (try assumption; eapply KPKE_Encrypt_bytes; eassumption).
      rewrite E3. unfold noise_in_range. rewrite <- (decodes_iff m _ Hm).
      split; [apply Ok_inj|intros W; rewrite W; reflexivity].
  Qed.

  (** What an honest ciphertext decapsulates to, in every case. *)
  Lemma honest_session n d z m dk ek ekb Ah :
    byte_string 32 d -> byte_string 32 z -> byte_string 32 m ->
    kem_generate_deterministic hs P n d z = Ok (dk, ek) ->
    encaps_key_as_bytes P ek = Ok ekb ->
    A_hat hs P n (key_rho hs P d) = Some Ah ->
    let A := map (map NTTinv) Ah in
    let '(K, r) := FIPS203.G hs (m ++ FIPS203.H hs ekb) in
    let c := enc_ct hs P A d m r in
    let m' := ByteEncode 1 (map (Compress 1) (padd (enc_mu m) (decryption_noise hs P A d m r))) in
    let '(K', r') := FIPS203.G hs (m' ++ FIPS203.H hs ekb) in
    encapsulate_deterministic hs P n ek m = Ok (c, K) /\
    decapsulate hs P n dk c =
      Ok (if list_eq_dec Z.eq_dec c (enc_ct hs P A d m' r') then K' else FIPS203.J hs (z ++ c)).
  Proof.
    intros Hd Hz Hm Eg Eb EA A.
    assert (Bdu : (1 <= du P <= 11)%nat) by (pose proof HP as (_ & _ & _ & W & _); lia).
    assert (Bdv : (1 <= dv P <= 11)%nat) by (pose proof HP as (_ & _ & _ & _ & W); lia).
    pose proof (generate_ok hs Hhs P HP n d z (proj2 Hd) Hz) as W.
    destruct (decrypt_encrypt hs Hhs P HP Bdu Bdv n d Ah (proj2 Hd) EA) as (ekb' & dkb & E1 & E). fold A in E.
    unfold KeyGen_internal in W. rewrite E1 in W.
    destruct W as (dk' & W1 & V & W2 & W3 & W4 & W5). rewrite W1 in Eg. apply Ok_inj in Eg.
    pose proof (f_equal fst Eg) as Q1. pose proof (f_equal snd Eg) as Q2. cbn [fst snd] in Q1, Q2. subst dk' ek. clear Eg W1.
    rewrite encaps_key_as_bytes_ok in Eb by apply V. apply Ok_inj in Eb. rewrite W3 in Eb. subst ekb'.
    destruct (FIPS203.G hs (m ++ FIPS203.H hs ekb)) as [K r] eqn:EG.
    destruct (E m r) as [E2 E3]. intros c m'. fold c in E2, E3. fold m' in E3.
    destruct (FIPS203.G hs (m' ++ FIPS203.H hs ekb)) as [K' r'] eqn:EG'.
    assert (EN : Encaps_with hs P n (ekey_bytes P (dk_ek dk)) (ek_h (dk_ek dk)) m = Some (K, c)).
    { unfold Encaps_with. rewrite W4, W3, EG, E2. reflexivity. }
    split.
    - rewrite (encapsulate_deterministic_ok hs Hhs P HP) by (try assumption; apply V). rewrite EN. reflexivity.
    - assert (Hc : byte_string (32 * du P * pk P + 32 * dv P) c).
      { eapply (Encaps_with_bytes hs Hhs P); [apply Hm| |exact EN]. apply V. }
      rewrite (decapsulate_ok hs Hhs P HP) by assumption.
      destruct (dkey_sections P dk V) as (S1 & S2 & S3 & S4).
      unfold Decaps_internal. rewrite S1, S2, S3, S4.
      assert (Edk : dk_bytes P (dk_pke dk) = dkb).
      { rewrite <- S1, W2. apply firstn_app_exact. unfold KPKE_KeyGen in E1.
        destruct (FIPS203.G hs (d ++ [Z.of_nat (pk P)])) as [rho sigma].
        destruct (A_hat hs P n rho); [|discriminate]. apply Some_inj in E1.
        pose proof (f_equal snd E1) as E4. cbn [snd] in E4. rewrite <- E4. apply encode_vec12_bytes. }
      rewrite Edk, E3, W4, W3, EG', W5. rewrite (proj1 (E m' r')).
      destruct (list_eq_dec Z.eq_dec c _); reflexivity.
  Qed.

  (** ML-KEM: in range implies that both sides derive the same key. *)
  Theorem C04_round_trip n d z m dk ek ekb Ah :
    byte_string 32 d -> byte_string 32 z -> byte_string 32 m ->
    kem_generate_deterministic hs P n d z = Ok (dk, ek) ->
    encaps_key_as_bytes P ek = Ok ekb ->
    A_hat hs P n (key_rho hs P d) = Some Ah ->
    noise_in_range hs P (map (map NTTinv) Ah) d m (snd (FIPS203.G hs (m ++ FIPS203.H hs ekb))) ->
    exists c K, encapsulate_deterministic hs P n ek m = Ok (c, K) /\ decapsulate hs P n dk c = Ok K.
  Proof.
    intros Hd Hz Hm Eg Eb EA HN.
    pose proof (honest_session n d z m dk ek ekb Ah Hd Hz Hm Eg Eb EA) as W. cbv zeta in W.
    destruct (FIPS203.G hs (m ++ FIPS203.H hs ekb)) as [K r] eqn:EG. cbn [snd] in HN.
    rewrite (proj2 (decodes_iff m _ Hm) HN), EG in W. destruct W as [W1 W2].
    eexists _, K. split; [exact W1|]. rewrite W2.
    destruct (list_eq_dec Z.eq_dec _ _) as [_|N]; [reflexivity|]. exfalso. apply N. reflexivity.
  Qed.

  (** A bound on the absolute value suffices. *)
  Theorem C04_norm_bound Ah d m r :
    (forall i, (i < 256)%nat -> Z.abs (centred (co (decryption_noise hs P (map (map NTTinv) Ah) d m r) i)) <= 831) ->
    noise_in_range hs P (map (map NTTinv) Ah) d m r.
  Proof.
    intros H i Hi. specialize (H i Hi). unfold decodable. destruct (bit_of_bytes m i); lia.
  Qed.
End C04.

(** ** Concrete cases for C04 *)

Definition pke_session (gen : res (DecryptionKey * EncryptionKey)) (enc : EncryptionKey -> res (list Z))
  (dec : DecryptionKey -> list Z -> res (list Z)) (m : list Z) : bool :=
  match gen with Ok (dk, ek) =>
    match enc ek with Ok c =>
      match dec dk c with Ok m' => same m' m | _ => false end
    | _ => false end
  | _ => false end.

Lemma pke_session_inv gen enc dec m : pke_session gen enc dec m = true ->
  exists dk ek c, gen = Ok (dk, ek) /\ enc ek = Ok c /\ dec dk c = Ok m.
Proof.
  unfold pke_session, same. destruct gen as [[dk ek]| | |]; try discriminate.
  destruct (enc ek) as [c| | |] eqn:E2; try discriminate.
  destruct (dec dk c) as [m'| | |] eqn:E3; try discriminate.
  destruct (list_eq_dec Z.eq_dec m' m) as [->|]; [|discriminate]. intros _.
  exists dk, ek, c. auto.
Qed.

Lemma pke_session_runs : pke_session (pke_generate toy ML_KEM_512 300 (seed 1))
  (fun ek => encrypt toy ML_KEM_512 300 ek (seed 3) (seed 4)) (decrypt ML_KEM_512) (seed 3) = true.
Proof. vm_compute. reflexivity. Qed.

(** a message, seeds and matrix with in-range noise that is produced by sampling (not zero
    secrets): the hypotheses of C04_kpke and C04_round_trip are satisfiable *)
Example C04_case : exists Ah,
  A_hat toy ML_KEM_512 300 (key_rho toy ML_KEM_512 (seed 1)) = Some Ah /\
  noise_in_range toy ML_KEM_512 (map (map NTTinv) Ah) (seed 1) (seed 3) (seed 4) /\
  firstn 4 (ent (key_s toy ML_KEM_512 (seed 1)) 0) = [3328; 3328; 3327; 0].
Proof.
  destruct (pke_session_inv _ _ _ _ pke_session_runs) as (dk & ek & c & E1 & E2 & E3).
  assert (HP : wf_params ML_KEM_512) by apply C13_table_3.
  assert (EA : exists Ah, A_hat toy ML_KEM_512 300 (key_rho toy ML_KEM_512 (seed 1)) = Some Ah).
  { exact (generate_A toy toy_ok ML_KEM_512 HP 300 (seed 1) _ (proj2 (seed_ok 1)) E1). }
  destruct EA as [Ah EA]. exists Ah. split; [exact EA|]. split; [|vm_compute; reflexivity].
  destruct (C04_kpke toy toy_ok ML_KEM_512 HP ltac:(cbn; lia) ltac:(cbn; lia) 300 (seed 1) (seed 3) (seed 4) Ah
    (seed_ok 1) (seed_ok 3) (seed_ok 4) EA) as (dk' & ek' & c' & E1' & E2' & I).
  rewrite E1 in E1'. apply Ok_inj in E1'. pose proof (f_equal fst E1') as Q1. pose proof (f_equal snd E1') as Q2.
  cbn [fst snd] in Q1, Q2. subst dk' ek'.
  rewrite E2 in E2'. apply Ok_inj in E2'. subst c'. apply I. exact E3.
Qed.

(** ** C05: no unconditional round trip

    A hash behaviour [unlucky k eta] under which the sampled secrets are legal (every
    coefficient within [-eta, eta]) but the noise is too large: e and y have all
    coefficients equal to eta, s, e1 and e2 are zero. *)

(** bytes that make every coefficient of SamplePolyCBD equal to eta *)
Definition peak (eta : nat) (i : nat) : Z :=
  if Nat.eqb eta 2 then 51 else nth (i mod 3) [199; 113; 28] 0.

Definition unlucky (k eta : nat) : hashes := {|
  sha3_256 := fun _ => repeat 0 32;
  (** G: the 33-byte input of key generation gives (0.., 1..), the 64-byte input m || h of
      encapsulation gives (m, 2..) *)
  sha3_512 := fun x => if Nat.eqb (length x) 33 then repeat 0 32 ++ repeat 1 32
                       else firstn 32 (x ++ repeat 0 32) ++ repeat 2 32;
  shake128 := fun _ _ => 0;
  shake256 := fun x i =>
    let N := Z.to_nat (last x 0) in
    if (hd 0 x =? 1) && Nat.leb k N then peak eta i
    else if (hd 0 x =? 2) && Nat.ltb N k then peak eta i
    else 0
|}.

Lemma repeat_bytes x n : is_byte x -> byte_string n (repeat x n).
Proof.
  intros Hx. split; [apply repeat_length|]. apply Forall_forall. intros y Hy.
  apply repeat_spec in Hy. subst. exact Hx.
Qed.

Lemma peak_byte eta i : is_byte (peak eta i).
Proof.
  unfold peak, is_byte. destruct (Nat.eqb eta 2); [lia|].
  pose proof (Nat.mod_upper_bound i 3 ltac:(lia)).
  destruct (i mod 3)%nat as [|[|[|x]]]; cbn; lia.
Qed.

Lemma unlucky_ok k eta : hash_ok (unlucky k eta).
Proof.
  intros x Hx. cbn [sha3_256 sha3_512 shake128 shake256 unlucky].
  assert (B0 : is_byte 0) by (unfold is_byte; lia).
  assert (B1 : is_byte 1) by (unfold is_byte; lia).
  assert (B2 : is_byte 2) by (unfold is_byte; lia).
  split; [apply repeat_bytes, B0|]. split; [|split].
  - destruct (Nat.eqb (length x) 33).
    + apply (byte_string_app 32 32); apply repeat_bytes; assumption.
    + apply (byte_string_app 32 32); [|apply repeat_bytes, B2]. split.
      * rewrite firstn_length, app_length, repeat_length. lia.
      * apply bytes_firstn, bytes_app; [exact Hx|apply (repeat_bytes 0 32), B0].
  - intros _. exact B0.
  - intros i. cbv zeta. destruct (_ && _); [apply peak_byte|]. destruct (_ && _); [apply peak_byte|exact B0].
Qed.

(** products of constant polynomials *)
Lemma pmul_const a b c : (c < 256)%nat ->
  co (pmul (repeat a 256) (repeat b 256)) c =
  (a * b * sum 256 (fun i => if Nat.leb i c then 1 else -1)) mod q.
Proof.
  intros Hc. rewrite co_pmul by exact Hc. f_equal. rewrite <- sum_mul_l. apply sum_ext. intros i Hi.
  rewrite (sum_ext 256 _ (fun j => a * b * chi i j c)).
  2: { intros j Hj. unfold co. rewrite !repeat_tab, !nth_tab by assumption. reflexivity. }
  rewrite sum_mul_l. f_equal. destruct (Nat.leb_spec i c).
  - rewrite (sum_single 256 (c - i)); [|lia|].
    + unfold chi. destruct (Nat.eqb_spec (i + (c - i)) c); [reflexivity|lia].
    + intros j Hj N. unfold chi. destruct (Nat.eqb_spec (i + j) c); [lia|].
      destruct (Nat.eqb_spec (i + j) (c + 256)); [lia|reflexivity].
  - rewrite (sum_single 256 (c + 256 - i)); [|lia|].
    + unfold chi. destruct (Nat.eqb_spec (i + (c + 256 - i)) c); [lia|].
      destruct (Nat.eqb_spec (i + (c + 256 - i)) (c + 256)); [reflexivity|lia].
    + intros j Hj N. unfold chi. destruct (Nat.eqb_spec (i + j) c); [lia|].
      destruct (Nat.eqb_spec (i + j) (c + 256)); [lia|reflexivity].
Qed.

Lemma inner_const k u v a b c : (c < 256)%nat ->
  (forall i, (i < k)%nat -> ent u i = repeat a 256) -> (forall i, (i < k)%nat -> ent v i = repeat b 256) ->
  eqq (co (inner k u v) c) (Z.of_nat k * (a * b * sum 256 (fun i => if Nat.leb i c then 1 else -1))).
Proof.
  intros Hc Hu Hv. rewrite co_inner by exact Hc.
  transitivity (sum k (fun _ => a * b * sum 256 (fun i => if Nat.leb i c then 1 else -1))).
  - apply sum_eqq. intros i Hi. rewrite Hu, Hv by exact Hi. rewrite pmul_const by exact Hc. apply mod_eqq.
  - apply eqq_of_eq. generalize (a * b * sum 256 (fun i => if Nat.leb i c then 1 else -1)). intros t.
    clear Hu Hv. induction k as [|k IH]; [reflexivity|]. cbn [sum]. rewrite IH, Nat2Z.inj_succ. lia.
Qed.

Lemma inner_zero k u v c : (c < 256)%nat ->
  (forall i, (i < k)%nat -> ent u i = repeat 0 256) -> eqq (co (inner k u v) c) 0.
Proof.
  intros Hc Hu. rewrite co_inner by exact Hc. transitivity (sum k (fun _ => 0)).
  - apply sum_eqq. intros i Hi. rewrite Hu by exact Hi. rewrite co_pmul by exact Hc. rewrite mod_eqq.
    apply eqq_of_eq. apply sum_zero'. intros a Ha. apply sum_zero'. intros b Hb.
    unfold co at 1. rewrite repeat_tab, nth_tab by exact Ha. ring.
  - apply eqq_of_eq, sum_zero.
Qed.

Section C05.
  Variable P : params.
  Hypothesis HP : wf_params P.
  Hypothesis Hdu : (du P <= 11)%nat.
  Hypothesis Hdv : (4 <= dv P <= 11)%nat.
  Let k := pk P.
  Let eta := eta1 P.
  Let hs := unlucky k eta.
  (** a coefficient of e.y between 1000 and 1500 *)
  Variable c0 : nat.
  Hypothesis Hc0 : (c0 < 256)%nat.
  Let X := Z.of_nat k * (Z.of_nat eta * Z.of_nat eta * sum 256 (fun i => if Nat.leb i c0 then 1 else -1)).
  Hypothesis HX : 1000 <= X <= 1500.

  Lemma cbd_peak e : (e = 2 \/ e = 3)%nat -> SamplePolyCBD e (tab (64 * e) (peak e)) = repeat (Z.of_nat e) 256.
  Proof. clear. intros [->| ->]; vm_compute; reflexivity. Qed.
  Lemma cbd_zero e : (e = 2 \/ e = 3)%nat -> SamplePolyCBD e (tab (64 * e) (fun _ => 0)) = repeat 0 256.
  Proof. clear. intros [->| ->]; vm_compute; reflexivity. Qed.

  Lemma unlucky_stream a N i : (N < 256)%nat -> shake256 hs (repeat a 32 ++ [Z.of_nat N]) i =
    if (a =? 1) && Nat.leb k N then peak eta i
    else if (a =? 2) && Nat.ltb N k then peak eta i else 0.
  Proof.
    clear HX X Hc0. intros HN. unfold hs, unlucky. cbn [shake256]. rewrite last_last, Nat2Z.id.
    change (hd 0 (repeat a 32 ++ [Z.of_nat N])) with a. reflexivity.
  Qed.

  Lemma G_generate d : byte_string 32 d ->
    FIPS203.G hs (d ++ [Z.of_nat k]) = (repeat 0 32, repeat 1 32).
  Proof.
    clear HX X Hc0. intros [L _]. unfold FIPS203.G, hs, unlucky. cbn [sha3_512].
    replace (length (d ++ [Z.of_nat k])) with 33%nat by (rewrite app_length, L; reflexivity). reflexivity.
  Qed.

  Lemma G_encapsulate m h : byte_string 32 m -> byte_string 32 h -> FIPS203.G hs (m ++ h) = (m, repeat 2 32).
  Proof.
    clear HX X Hc0. intros [L _] [L' _]. unfold FIPS203.G, hs, unlucky. cbn [sha3_512].
    replace (length (m ++ h)) with 64%nat by (rewrite app_length, L, L'; reflexivity).
    cbn [Nat.eqb]. rewrite <- app_assoc. rewrite (firstn_app_exact _ 32 m) by exact L.
    rewrite firstn_app_exact, skipn_app_exact by exact L. reflexivity.
  Qed.

  Lemma s_zero d i : byte_string 32 d -> (i < k)%nat -> ent (key_s hs P d) i = repeat 0 256.
  Proof.
    clear HX X Hc0. intros Hd Hi. unfold key_s, noise. fold k. rewrite ent_tab by exact Hi.
    rewrite G_generate by exact Hd. cbn [snd]. unfold FIPS203.PRF, prefix.
    pose proof (k_range P HP). fold k in H.
    rewrite (tab_ext _ _ _ (fun _ => 0)); [apply cbd_zero, HP|].
    intros t Ht. rewrite unlucky_stream by lia. cbn [plus].
    destruct (Nat.leb_spec k i); [lia|]. reflexivity.
  Qed.

  Lemma e_peak d i : byte_string 32 d -> (i < k)%nat -> ent (key_e hs P d) i = repeat (Z.of_nat eta) 256.
  Proof.
    clear HX X Hc0. intros Hd Hi. unfold key_e, noise. fold k. rewrite ent_tab by exact Hi.
    rewrite G_generate by exact Hd. cbn [snd]. unfold FIPS203.PRF, prefix.
    pose proof (k_range P HP). fold k in H.
    rewrite (tab_ext _ _ _ (peak eta)); [apply cbd_peak, HP|].
    intros t Ht. rewrite unlucky_stream by lia.
    destruct (Nat.leb_spec k (k + i)); [|lia]. reflexivity.
  Qed.

  Lemma y_peak i : (i < k)%nat -> ent (enc_y hs P (repeat 2 32)) i = repeat (Z.of_nat eta) 256.
  Proof.
    clear HX X Hc0. intros Hi. unfold enc_y, noise. fold k. rewrite ent_tab by exact Hi.
    unfold FIPS203.PRF, prefix. pose proof (k_range P HP). fold k in H.
    rewrite (tab_ext _ _ _ (peak eta)); [apply cbd_peak, HP|].
    intros t Ht. rewrite unlucky_stream by lia. cbn [plus].
    destruct (Nat.ltb_spec i k); [|lia]. reflexivity.
  Qed.

  Lemma e2_zero : enc_e2 hs P (repeat 2 32) = repeat 0 256.
  Proof.
    clear HX X Hc0. unfold enc_e2. unfold FIPS203.PRF, prefix. pose proof (k_range P HP). fold k. fold k in H.
    rewrite (tab_ext _ _ _ (fun _ => 0)); [apply cbd_zero, HP|].
    intros t Ht. rewrite unlucky_stream by lia.
    destruct (Nat.ltb_spec (2 * k) k); [lia|]. reflexivity.
  Qed.

  Lemma round_bound : round_div q (2 ^ Z.of_nat (dv P + 1)) <= 104.
  Proof.
    clear HX X Hc0. destruct (pow_half (dv P) ltac:(lia)) as (h & E & Eh & Hh).
    assert (8 <= h) by (rewrite Eh; apply (Z.pow_le_mono_r 2 3); lia).
    rewrite Nat2Z.inj_add, Z.pow_add_r by lia. rewrite E. change (2 ^ Z.of_nat 1) with 2.
    pose proof (round_bounds q (2 * h * 2) ltac:(lia)). unfold q in *. nia.
  Qed.

  (** the noise is out of range, whatever the matrix and the message *)
  Lemma noise_too_large A d m : byte_string 32 d ->
    ~ noise_in_range hs P A d m (repeat 2 32).
  Proof.
    intros Hd HN. specialize (HN c0 Hc0).
    set (v := enc_v hs P A d m (repeat 2 32)) in *.
    assert (Hv : poly v) by apply padd_poly.
    pose proof (Decompress_Compress_error (dv P) (co v c0) ltac:(lia) (poly_co _ _ Hv Hc0)) as B.
    pose proof round_bound as RB.
    set (dl := centred (Decompress (dv P) (Compress (dv P) (co v c0)) - co v c0)) in *.
    assert (Edl : eqq dl (Decompress (dv P) (Compress (dv P) (co v c0)) - co v c0))
      by (apply eqq_iff; apply centred_spec).
    assert (E : eqq (co (decryption_noise hs P A d m (repeat 2 32)) c0) (X + dl)).
    { unfold decryption_noise. fold k. fold v. rewrite co_psub by exact Hc0. rewrite mod_eqq.
      rewrite inner_zero by (try exact Hc0; intros; apply s_zero; assumption).
      rewrite !co_padd by exact Hc0. rewrite !mod_eqq.
      rewrite (inner_const k _ _ (Z.of_nat eta) (Z.of_nat eta) c0 Hc0 (fun i => e_peak d i Hd) y_peak).
      fold X. clearbody X. rewrite e2_zero. unfold co at 1. rewrite repeat_tab, nth_tab by exact Hc0.
      unfold rounding. rewrite co_psub by exact Hc0. rewrite mod_eqq. rewrite Edl.
      unfold co at 1. rewrite (nth_indep _ 0 (Decompress (dv P) (Compress (dv P) 0)))
        by (rewrite map_length; rewrite (proj1 Hv); exact Hc0).
      rewrite (map_nth (fun x => Decompress (dv P) (Compress (dv P) x))). fold (co v c0).
      apply eqq_of_eq. lia. }
    assert (EC : centred (co (decryption_noise hs P A d m (repeat 2 32)) c0) = X + dl).
    { unfold centred. rewrite (eqq_mod _ (X + dl + 1664)); [apply centred_small; lia|].
      rewrite E. reflexivity. }
    rewrite EC in HN. unfold decodable in HN. destruct (bit_of_bytes m c0); lia.
  Qed.

  (** encryptions of different messages under the same randomness differ *)
  Lemma ct_differs A d m m' r : byte_string 32 m -> byte_string 32 m' ->
    enc_ct hs P A d m r = enc_ct hs P A d m' r -> m = m'.
  Proof.
    intros Hm Hm' E. unfold enc_ct in E. apply app_inv_head in E.
    apply ByteEncode_inj in E; [|lia| |].
    2: apply Compress_canonical; [lia|apply padd_poly].
    2: apply Compress_canonical; [lia|apply padd_poly].
    rewrite <- (ByteEncode_ByteDecode 1 m) by (try exact Hm; lia).
    rewrite <- (ByteEncode_ByteDecode 1 m') by (try exact Hm'; lia). f_equal.
    apply list_ext with (d := 0); [unfold ByteDecode; rewrite !tab_length; reflexivity|].
    unfold ByteDecode at 1. rewrite tab_length. intros i Hi.
    change (co (ByteDecode 1 m) i = co (ByteDecode 1 m') i). rewrite !canonical_bits by exact Hi. f_equal.
    assert (Ei : Compress (dv P) (co (enc_v hs P A d m r) i) = Compress (dv P) (co (enc_v hs P A d m' r) i)).
    { assert (L : forall x, poly x -> co (map (Compress (dv P)) x) i = Compress (dv P) (co x i)).
      { intros x Hx. unfold co. rewrite (nth_indep _ 0 (Compress (dv P) 0))
          by (rewrite map_length; rewrite (proj1 Hx); exact Hi). apply map_nth. }
      rewrite <- !L by apply padd_poly. rewrite E. reflexivity. }
    clear E. unfold enc_v in Ei.
    set (t := padd (inner (pk P) (key_t hs P A d) (enc_y hs P r)) (enc_e2 hs P r)) in Ei.
    rewrite !co_padd in Ei by exact Hi.
    assert (Em : forall x, co (enc_mu x) i = Decompress 1 (b2z (bit_of_bytes x i))).
    { intros x. unfold enc_mu. unfold co at 1.
      rewrite (nth_indep (map (Decompress 1) _) 0 (Decompress 1 0))
        by (rewrite map_length; unfold ByteDecode; rewrite tab_length; exact Hi).
      rewrite map_nth. f_equal. apply canonical_bits, Hi. }
    rewrite !Em in Ei. generalize dependent (co t i). clear t Em. intros t Ei.
    pose proof round_bound as RB.
    pose proof (Decompress_Compress_error (dv P) _ ltac:(lia) (fe_mod (t + Decompress 1 (b2z (bit_of_bytes m i))))) as B1.
    pose proof (Decompress_Compress_error (dv P) _ ltac:(lia) (fe_mod (t + Decompress 1 (b2z (bit_of_bytes m' i))))) as B2.
    rewrite <- Ei in B2.
    generalize dependent (Decompress (dv P) (Compress (dv P) ((t + Decompress 1 (b2z (bit_of_bytes m i))) mod q))).
    intros D B1 B2. unfold centred in B1, B2.
    destruct (bit_of_bytes m i), (bit_of_bytes m' i); try reflexivity; exfalso; cbn [b2z] in B1, B2;
      change (Decompress 1 0) with 0 in *; change (Decompress 1 1) with 1665 in *;
      pose proof (Z.le_trans _ _ _ B1 RB) as C1; pose proof (Z.le_trans _ _ _ B2 RB) as C2; clear -C1 C2;
      unfold q in *; Z.to_euclidean_division_equations; lia.
  Qed.

  Lemma unlucky_A rho : exists Ah, A_hat hs P 128 rho = Some Ah.
  Proof.
    clear HX X Hc0. exists (tab k (fun _ => tab k (fun _ => repeat 0 256))). unfold A_hat.
    apply all_some_intro. intros i Hi. apply all_some_intro. intros j Hj.
    change (SampleNTT 128 (fun _ => 0) = Some (repeat 0 256)). vm_compute. reflexivity.
  Qed.

  Theorem round_trip_fails d z m : byte_string 32 d -> byte_string 32 z -> byte_string 32 m ->
    hd 0 z = 0 -> m <> repeat 0 32 ->
    exists dk ek c K,
      kem_generate_deterministic hs P 128 d z = Ok (dk, ek) /\
      encapsulate_deterministic hs P 128 ek m = Ok (c, K) /\
      decapsulate hs P 128 dk c = Ok (FIPS203.J hs (z ++ c)) /\
      FIPS203.J hs (z ++ c) <> K.
  Proof.
    intros Hd Hz Hm Hz0 Hm0. pose proof (unlucky_ok k eta) as Hhs. fold hs in Hhs.
    destruct (unlucky_A (key_rho hs P d)) as [Ah EA].
    assert (EG : exists dk ek, kem_generate_deterministic hs P 128 d z = Ok (dk, ek)).
    { pose proof (generate_ok hs Hhs P HP 128 d z (proj2 Hd) Hz) as W.
      destruct (decrypt_encrypt hs Hhs P HP ltac:(pose proof HP as (_ & _ & _ & V & _); lia) ltac:(lia) 128 d Ah (proj2 Hd) EA)
        as (ekb & dkb & E1 & _).
      unfold KeyGen_internal in W. rewrite E1 in W. destruct W as (dk & W & _). eauto. }
    destruct EG as (dk & ek & EG).
    destruct (generated_valid hs Hhs P HP 128 d z dk ek (proj2 Hd) Hz EG) as (V & -> & _).
    assert (EB : encaps_key_as_bytes P (dk_ek dk) = Ok (ekey_bytes P (dk_ek dk)))
      by (apply encaps_key_as_bytes_ok, V).
    pose proof (honest_session hs Hhs P HP Hdu ltac:(lia) 128 d z m dk (dk_ek dk) _ Ah Hd Hz Hm EG EB EA) as W.
    cbv zeta in W.
    assert (Hh : byte_string 32 (FIPS203.H hs (ekey_bytes P (dk_ek dk)))).
    { apply H_bytes; [exact Hhs|]. apply ekey_bytes_ok, V. }
    rewrite G_encapsulate in W by assumption.
    set (A := map (map NTTinv) Ah) in *. set (c := enc_ct hs P A d m (repeat 2 32)) in *.
    set (m' := ByteEncode 1 (map (Compress 1) (padd (enc_mu m) (decryption_noise hs P A d m (repeat 2 32))))) in *.
    assert (Hm' : byte_string 32 m') by apply (ByteEncode_bytes 1).
    rewrite G_encapsulate in W by assumption. destruct W as [W1 W2].
    assert (N : m' <> m).
    { intros E. apply (noise_too_large A d m Hd). exact (proj1 (decodes_iff m _ Hm) E). }
    destruct (list_eq_dec Z.eq_dec c (enc_ct hs P A d m' (repeat 2 32))) as [Ec|_].
    { exfalso. apply N. symmetry. apply (ct_differs A d m m' (repeat 2 32)); assumption. }
    exists dk, (dk_ek dk), c, m. split; [exact EG|]. split; [exact W1|]. split; [exact W2|].
    clear W1 W2. intros E. apply Hm0. rewrite <- E. unfold FIPS203.J, prefix.
    rewrite repeat_tab. apply tab_ext. intros i Hi. unfold hs, unlucky. cbn [shake256].
    destruct z as [|z0 z]; [destruct Hz as [L _]; discriminate L|]. cbn [hd] in Hz0. subst z0. reflexivity.
  Qed.
End C05.

(** For each parameter set there is a hash behaviour under which encapsulation and
    decapsulation disagree for (almost) every key and message; the receiver gets the
    implicit-rejection key. *)
Theorem C05_no_unconditional_round_trip P : In P [ML_KEM_512; ML_KEM_768; ML_KEM_1024] ->
  exists hs, hash_ok hs /\ exists n, forall d z m,
    byte_string 32 d -> byte_string 32 z -> byte_string 32 m -> hd 0 z = 0 -> m <> repeat 0 32 ->
    exists dk ek c K,
      kem_generate_deterministic hs P n d z = Ok (dk, ek) /\
      encapsulate_deterministic hs P n ek m = Ok (c, K) /\
      decapsulate hs P n dk c = Ok (FIPS203.J hs (z ++ c)) /\
      FIPS203.J hs (z ++ c) <> K.
Proof.
  intros HP. exists (unlucky (pk P) (eta1 P)). split; [apply unlucky_ok|]. exists 128%nat.
  intros d z m Hd Hz Hm Hz0 Hm0.
  destruct HP as [<-|[<-|[<-|[]]]].
  - apply (round_trip_fails ML_KEM_512 (proj1 (proj2 (proj2 (proj2 C13_table_3)))) ltac:(cbn; lia) ltac:(cbn; lia) 162
      ltac:(lia)); try assumption. vm_compute. split; discriminate.
  - apply (round_trip_fails ML_KEM_768 (proj1 (proj2 (proj2 (proj2 (proj2 C13_table_3))))) ltac:(cbn; lia) ltac:(cbn; lia) 177
      ltac:(lia)); try assumption. vm_compute. split; discriminate.
  - apply (round_trip_fails ML_KEM_1024 (proj1 (proj2 (proj2 (proj2 (proj2 (proj2 C13_table_3)))))) ltac:(cbn; lia) ltac:(cbn; lia) 167
      ltac:(lia)); try assumption. vm_compute. split; discriminate.
Qed.

(** The premises are met; and the secrets of that run are within the range of the centred
    binomial distribution. *)
Example C05_case :
  byte_string 32 (seed 1) /\ byte_string 32 (seed 0) /\ byte_string 32 (seed 3) /\
  hd 0 (seed 0) = 0 /\ seed 3 <> repeat 0 32 /\
  (forall i, (i < 2)%nat -> ent (key_e (unlucky 2 3) ML_KEM_512 (seed 1)) i = repeat 3 256).
Proof.
  split; [apply seed_ok|]. split; [apply seed_ok|]. split; [apply seed_ok|].
  split; [reflexivity|]. split; [discriminate|].
  intros i Hi. apply (e_peak ML_KEM_512 (proj1 (proj2 (proj2 (proj2 C13_table_3)))) ltac:(cbn; lia) ltac:(cbn; lia) (seed 1) i (seed_ok 1) Hi).
Qed.

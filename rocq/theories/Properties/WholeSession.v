(** C76: how often a whole session fails, over everything that is random in it.

    C55 bounds how often key generation runs out of XOF output for random XOF answers, C56 how
    often a session fails for a given matrix A and given G values.  Here the matrix is random
    as well, as are the seeds sigma and r that G returns to the two honest parties, so that no
    hypothesis about the hash function remains. *)
From Coq Require Import List ZArith Lia Bool Arith.
From Verif.Base Require Import Res Oracles.
From Verif.Spec Require Import FIPS203 Domains Noise Counting Random Lwe Attacker Tables XWing.
From Verif.Model Require Import Machine Util Algebra Compress Encode Crypto Sample Param Pke Kem XWing.
From Verif.Proofs Require Import Basics Field Poly CompressProofs NttAlgebra NttProofs EncodeProofs VecEncode SampleProofs CountProofs
  PkeProofs KemProofs XWingProofs Inner Correctness TailProofs FailureProofs FailureAverage FailureNumbers LweProofs AttackerProofs.
From Verif.Tests Require Import Toy.
From Verif.Properties Require Import Kem KemCases Correctness Distribution Tail Failure Secrecy KemSecrecy ActiveSecrecy XWing X25519 XWingFailure.
From Coq Require Import QArith Qabs Lqa.
Import ListNotations.
Open Scope Z_scope.

(** The hash functions of one session: [hs], except that the XOF answers for rho are the blocks
    of [M], that G(d || k) = rho || sigma and G(m || H(ek)) = K || r for the public key ek
    which key generation then returns, and that the PRF outputs for sigma are S and E and those
    for r are Y and W. *)
Definition session_world (hs : hashes) (P : params) (n : nat) (rho d m K M S E Y W sigma r : list Z) : hashes :=
  let h1 := keys_world (with_matrix hs (pk P) (3 * n) rho M) P rho d sigma r S E Y W in
  match KPKE_KeyGen h1 P n d with
  | Some (ek, _) => with_sha3_512 h1 (m ++ sha3_256 hs ek) (K ++ r)
  | None => h1
  end.

(** generate, encapsulate and decapsulate, all through the API with one RNG: the same key? *)
Definition api_agree (hs : hashes) (P : params) (n : nat) (g : rng) (s : rng_state g) : bool :=
  match kem_generate hs P n g s with
  | Ok (dk, ek, s1) =>
      match encapsulate hs P n ek g s1 with
      | Ok (c, K, _) => returns (decapsulate hs P n dk c) K
      | _ => false
      end
  | _ => false
  end.

Section Session.
  Variable hs : hashes.
  Hypothesis Hhs : hash_ok hs.
  Variable P : params.
  Hypothesis HP : wf_params P.
  Let k := pk P.
  Variable n : nat.
  Variables rho d z m : list Z.
  Hypothesis Hrho : byte_string 32 rho.
  Hypothesis Hd : byte_string 32 d.
  Hypothesis Hz : byte_string 32 z.
  Hypothesis Hm : byte_string 32 m.

  Let hm M := with_matrix hs k (3 * n) rho M.
  Let no_matrix M := match A_hat (hm M) P n rho with Some _ => false | None => true end.
  Let pub M S E := match A_hat (hm M) P n rho with
    | Some Ah => key_bytes P rho (lwe_samples k k (map (map NTTinv) Ah) (cbd_vec (eta1 P) k S) (cbd_vec (eta1 P) k E))
    | None => [] end.
  Let wrong M S E Y W r := pke_fails (with_coins (hm M) P r Y W) P n (secret_bytes P S) (pub M S E) m r.

  Section Run.
    Variables K M S E Y W sigma r : list Z.
    Hypothesis HK : byte_string 32 K.
    Hypothesis HM : byte_string (k * k * (3 * n)) M.
    Hypothesis HS : byte_string (k * (64 * eta1 P)) S.
    Hypothesis HE : byte_string (k * (64 * eta1 P)) E.
    Hypothesis HY : byte_string (k * (64 * eta1 P)) Y.
    Hypothesis HW : byte_string ((k + 1) * (64 * eta2 P)) W.
    Hypothesis Hs : byte_string 32 sigma.
    Hypothesis Hr : byte_string 32 r.
    Let w := session_world hs P n rho d m K M S E Y W sigma r.
    Let h1 := keys_world (hm M) P rho d sigma r S E Y W.

    Lemma hm_ok : hash_ok (hm M).
    Proof. apply with_matrix_ok; [exact Hhs|apply HM]. Qed.

    Lemma session_world_ok : hash_ok w.
    Proof.
      pose proof (h1_ok (hm M) hm_ok P rho Hrho S E Y W d sigma r HS HE HY HW Hs) as O. fold h1 in O.
      unfold w, session_world. cbv zeta. fold k. fold (hm M). fold h1.
      destruct (KPKE_KeyGen h1 P n d) as [[ek sk]|]; [|exact O].
      apply with_sha3_512_ok; [exact O|]. apply (byte_string_app 32 32); assumption.
    Qed.

    Lemma session_agrees : no_matrix M = false -> r <> sigma -> wrong M S E Y W r = false ->
      agree w P n d z m = true.
    Proof.
      unfold no_matrix, wrong, pub. destruct (A_hat (hm M) P n rho) as [Ah|] eqn:EA; [|discriminate].
      intros _ Hne F.
      pose proof (keys_generated (hm M) hm_ok P HP n rho Hrho Ah EA S E Y W d sigma r HS HE Hd Hs) as EK. fold h1 in EK. cbv beta zeta in EK.
      pose proof (challenge (hm M) hm_ok P HP n rho Hrho Ah EA S E Y W d sigma r HY HW Hs m Hne) as EC. fold h1 in EC. cbv beta zeta in EC.
      fold k in EK, EC.
      set (ek := key_bytes P rho _) in *. set (c := ct_bytes P _ _) in *.
      pose proof session_world_ok as Ow.
      assert (Ew : w = with_sha3_512 h1 (m ++ sha3_256 hs ek) (K ++ r)).
      { unfold w, session_world. cbv zeta. fold k. fold (hm M). fold h1. rewrite EK. reflexivity. }
      assert (EKw : KPKE_KeyGen w P n d = Some (ek, secret_bytes P S)).
      { rewrite <- EK, Ew. unfold KPKE_KeyGen, FIPS203.G. cbn [with_sha3_512 sha3_512].
        destruct (list_eq_dec Z.eq_dec (d ++ _) (m ++ _)) as [X|_]; [|reflexivity].
        exfalso. apply (f_equal (@length Z)) in X. rewrite !app_length in X.
        assert (Hek : bytes ek) by (apply bytes_app; [apply encode_vec12_bytes|apply Hrho]).
        rewrite (proj1 Hd), (proj1 Hm), (proj1 (proj1 (Hhs ek Hek))) in X. discriminate X. }
      assert (Hek : bytes ek) by (apply bytes_app; [apply encode_vec12_bytes|apply Hrho]).
      assert (EG : FIPS203.G w (m ++ sha3_256 hs ek) = (K, r)).
      { rewrite Ew. unfold FIPS203.G. cbn [with_sha3_512 sha3_512].
        destruct (list_eq_dec Z.eq_dec _ _) as [_|X]; [|contradiction].
        rewrite firstn_app_exact, skipn_app_exact by apply HK. reflexivity. }
      assert (ECw : KPKE_Encrypt w P n ek m r = Some c) by (rewrite Ew; exact EC).
      pose proof (generate_ok w Ow P HP n d z (proj2 Hd) Hz) as G. unfold KeyGen_internal in G. rewrite EKw in G.
      assert (EH : FIPS203.H w ek = sha3_256 hs ek) by (rewrite Ew; reflexivity). rewrite EH in G.
      destruct G as (dk & E1 & V & E0 & E2 & E3 & _).
      assert (Ve : valid_encaps_key P (dk_ek dk)) by apply V.
      unfold agree. rewrite E1. rewrite (encapsulate_deterministic_ok w Ow P HP n (dk_ek dk) m Ve Hm).
      unfold Encaps_with. rewrite E2, E3, EG, ECw. cbn [lift].
      pose proof (KPKE_Encrypt_bytes w P n ek m r c ECw) as Hc.
      apply returns_ok. rewrite (decapsulate_ok w Ow P HP n dk c V Hc), E0. unfold Decaps_internal. fold k.
      pose proof (proj1 (encode_vec12_bytes P (map NTT (cbd_vec (eta1 P) (pk P) S)))) as L1.
      change (encode_vec P 12 (map NTT (cbd_vec (eta1 P) (pk P) S))) with (secret_bytes P S) in L1. fold k in L1.
      assert (L2 : length ek = (384 * k + 32)%nat).
      { unfold ek, key_bytes. rewrite app_length, (proj1 (encode_vec12_bytes P _)), (proj1 Hrho). reflexivity. }
      pose proof (proj1 (proj1 (Hhs ek Hek))) as L3.
      set (hh := sha3_256 hs ek) in *. set (sk := secret_bytes P S) in *.
      rewrite (firstn_app_exact Z (384 * k)%nat sk) by exact L1.
      rewrite (skipn_app_exact Z (384 * k)%nat sk) by exact L1.
      rewrite (firstn_app_exact Z (384 * k + 32)%nat ek) by exact L2.
      replace (skipn (768 * k + 32) (sk ++ ek ++ hh ++ z)) with (hh ++ z)
        by (rewrite (app_assoc sk); symmetry; apply skipn_app_exact; rewrite app_length; lia).
      replace (skipn (768 * k + 64) (sk ++ ek ++ hh ++ z)) with z
        by (rewrite (app_assoc sk), (app_assoc (sk ++ ek)); symmetry; apply skipn_app_exact; rewrite !app_length; lia).
      rewrite firstn_app_exact by exact L3.
      assert (ED : KPKE_Decrypt P sk c = m).
      { unfold pke_fails in F.
        assert (E4 : KPKE_Encrypt (with_coins (hm M) P r Y W) P n ek m r = Some c).
        { unfold ek, c. exact (encrypt_lwe (hm M) hm_ok P HP n rho Ah _ m r Y W (proj2 Hrho) (lwe_samples_vec _ _ _ _ _) HY HW EA). }
        rewrite E4 in F. destruct (list_eq_dec Z.eq_dec _ m) as [X|_] in F; [exact X|discriminate F]. }
      rewrite ED, EG, ECw. cbn [lift]. destruct (list_eq_dec Z.eq_dec c c) as [_|X]; [reflexivity|contradiction].
    Qed.
  End Run.

  (** ** averages *)
  Open Scope Q_scope.
  Variables L LM LS LE LY LW : list (list Z).
  Hypothesis HL : enumerates 32 L.
  Hypothesis HLM : enumerates (k * k * (3 * n)) LM.
  Hypothesis HLS : enumerates (k * (64 * eta1 P)) LS.
  Hypothesis HLE : enumerates (k * (64 * eta1 P)) LE.
  Hypothesis HLY : enumerates (k * (64 * eta1 P)) LY.
  Hypothesis HLW : enumerates ((k + 1) * (64 * eta2 P)) LW.
  Let tapes (f : list Z -> list Z -> list Z -> list Z -> Q) : Q :=
    average LS (fun S => average LE (fun E => average LY (fun Y => average LW (fun W => f S E Y W)))).
  Variables bm bd : Q.
  Hypothesis Hbm : average LM (fun M => one_if (no_matrix M)) <= bm.
  Hypothesis Hbd : 0 <= bd.
  Hypothesis Hwrong : forall M r, In M LM -> In r L -> no_matrix M = false ->
    tapes (fun S E Y W => one_if (wrong M S E Y W r)) <= bd.
  (** an event in which the two parties do not agree *)
  Variable bad : list Z -> list Z -> list Z -> list Z -> list Z -> list Z -> list Z -> list Z -> bool.
  Hypothesis Hbad : forall K sigma r M S E Y W, In K L -> In sigma L -> In r L -> In M LM -> In S LS -> In E LE -> In Y LY -> In W LW ->
    bad K sigma r M S E Y W = true -> agree (session_world hs P n rho d m K M S E Y W sigma r) P n d z m = false.

  Lemma session_average :
    average L (fun K => average L (fun sigma => average L (fun r => average LM (fun M =>
      tapes (fun S E Y W => one_if (bad K sigma r M S E Y W)))))) <= bd + bm + 1 / inject_Z (2 ^ 256).
  Proof.
    assert (B0 : 0 <= bm).
    { pose proof (average_const LM 0 (nonempty_enum P _ LM HLM)) as X0.
      assert (X1 : average LM (fun _ => 0) <= average LM (fun M => one_if (no_matrix M)))
        by (apply average_le; intros; apply one_if_range). lra. }
    assert (U0 : 0 <= 1 / inject_Z (2 ^ 256)) by discriminate.
    apply average_bound; [lra|]. intros K HK. apply average_bound; [lra|]. intros sigma Hs.
    apply Qle_trans with (average L (fun r => one_if (if list_eq_dec Z.eq_dec sigma r then true else false) + (bm + bd))).
    - apply average_le. intros r Hr.
      apply Qle_trans with (average LM (fun M => one_if (no_matrix M) + (one_if (if list_eq_dec Z.eq_dec sigma r then true else false) + bd))).
      + apply average_le. intros M HM.
        pose proof (one_if_range (no_matrix M)) as R1.
        pose proof (one_if_range (if list_eq_dec Z.eq_dec sigma r then true else false)) as R2.
        assert (T1 : forall c, 1 <= c -> tapes (fun S E Y W => one_if (bad K sigma r M S E Y W)) <= c).
        { intros c Hc. assert (0 <= c) by lra. do 4 (apply average_bound; [assumption|]; intros).
          match goal with |- one_if ?b <= _ => pose proof (one_if_range b) end. lra. }
        destruct (no_matrix M) eqn:NM; [apply T1; cbn [one_if] in *; lra|].
        destruct (list_eq_dec Z.eq_dec sigma r) as [X|Hne]; [apply T1; cbn [one_if] in *; lra|].
        cbn [one_if]. eapply Qle_trans; [|eapply Qle_trans; [exact (Hwrong M r HM Hr NM)|lra]].
        unfold tapes.
        apply average_le. intros S HS. apply average_le. intros E HE. apply average_le. intros Y HY. apply average_le. intros W HW.
        destruct (wrong M S E Y W r) eqn:EW; [apply one_if_range|].
        destruct (bad K sigma r M S E Y W) eqn:EB; [|apply Qle_refl]. exfalso.
        apply Hbad in EB; try assumption.
        rewrite session_agrees in EB; [discriminate EB|..]; try assumption;
          first [apply HL; assumption|apply HLM; assumption|apply HLS; assumption|apply HLE; assumption|apply HLY; assumption|apply HLW; assumption|idtac].
        intros X. apply Hne. symmetry. exact X.
      + rewrite average_plus, average_const by exact (nonempty_enum P _ LM HLM). lra.
    - rewrite average_plus, average_const by exact (nonempty_enum P _ L HL).
      pose proof (same_string L HL sigma) as X. lra.
  Qed.
End Session.

(** ** the matrix *)
Lemma fraction e X T : 0 < e -> 0 < T -> e * X <= T -> (inject_Z X / inject_Z T <= 1 / inject_Z e)%Q.
Proof.
  intros He HT H. apply Qle_shift_div_r; [change 0%Q with (inject_Z 0); rewrite <- Zlt_Qlt; exact HT|].
  apply Qle_trans with ((inject_Z e * inject_Z X) / inject_Z e)%Q.
  - apply Qle_lteq. right. field. intros Z0. change 0%Q with (inject_Z 0) in Z0. apply (proj1 (inject_Z_injective _ _)) in Z0. lia.
  - unfold Qdiv. rewrite Qmult_1_l, (Qmult_comm (/ inject_Z e)). apply Qmult_le_compat_r.
    + rewrite <- inject_Z_mult, <- Zle_Qle. exact H.
    + apply Qinv_le_0_compat. change 0%Q with (inject_Z 0). rewrite <- Zle_Qle. lia.
Qed.

Lemma no_matrix_generates hs P n rho d z M : hash_ok hs -> wf_params P -> byte_string 32 rho -> byte_string 32 d -> byte_string 32 z ->
  byte_string (pk P * pk P * (3 * n)) M ->
  A_hat (with_matrix hs (pk P) (3 * n) rho M) P n rho = None ->
  no_result (kem_generate_deterministic (with_matrix (seeded hs P rho d (repeat 0 32)) (pk P) (3 * n) rho M) P n d z) = true.
Proof.
  intros Hhs HP Hrho Hd Hz HM EA.
  assert (Hs : byte_string 32 (repeat 0 32)) by (apply repeat_bytes; unfold is_byte; lia).
  pose proof (seeded_G hs P rho d (repeat 0 32) Hrho) as EG.
  set (h := with_matrix _ _ _ _ _).
  assert (Hh : hash_ok h) by (apply with_matrix_ok; [apply seeded_ok; assumption|apply HM]).
  pose proof (generate_ok h Hh P HP n d z (proj2 Hd) Hz) as G. unfold KeyGen_internal, KPKE_KeyGen in G.
  change (FIPS203.G h (d ++ [Z.of_nat (pk P)])) with (FIPS203.G (seeded hs P rho d (repeat 0 32)) (d ++ [Z.of_nat (pk P)])) in G.
  rewrite EG in G. change (A_hat h P n rho) with (A_hat (with_matrix hs (pk P) (3 * n) rho M) P n rho) in G.
  rewrite EA in G. rewrite G. reflexivity.
Qed.

Lemma matrix_average hs P rho d z LM : hash_ok hs -> wf_params P -> (pk P <= 4)%nat -> byte_string 32 rho -> byte_string 32 d -> byte_string 32 z ->
  enumerates (pk P * pk P * (3 * 280)) LM ->
  (average LM (fun M => one_if (match A_hat (with_matrix hs (pk P) (3 * 280) rho M) P 280 rho with Some _ => false | None => true end))
   <= 1 / inject_Z (2 ^ 243))%Q.
Proof.
  intros Hhs HP Hk Hrho Hd Hz HLM.
  assert (Hs : byte_string 32 (repeat 0 32)) by (apply repeat_bytes; unfold is_byte; lia).
  pose proof (C55_key_generation_five_blocks (seeded hs P rho d (repeat 0 32)) (seeded_ok hs Hhs P rho d _ Hrho Hs) P HP d z LM Hk Hd Hz) as C.
  cbv zeta in C. rewrite (seeded_G hs P rho d (repeat 0 32) Hrho) in C. cbn [fst] in C. specialize (C HLM).
  unfold average. rewrite total_one_if, (enumerates_length _ LM HLM).
  apply fraction; [reflexivity|apply Z.pow_pos_nonneg; lia|].
  eapply Z.le_trans; [|exact C]. apply Z.mul_le_mono_nonneg_l; [lia|]. apply count_impl. intros M HM N.
  apply HLM in HM. apply no_matrix_generates; try assumption.
  destruct (A_hat _ _ _ _); [discriminate N|reflexivity].
Qed.

Lemma api_agree_agree hs P n g s : 
  api_agree hs P n g s =
  agree hs P n (fst (fill_bytes g s 32)) (fst (fill_bytes g (snd (fill_bytes g s 32)) 32))
    (fst (fill_bytes g (snd (fill_bytes g (snd (fill_bytes g s 32)) 32)) 32)).
Proof.
  unfold api_agree, agree, kem_generate, kem_generate_deterministic, decaps_key_generate, encapsulate, encapsulate_deterministic, rand.
  destruct (fill_bytes g s 32) as [d s1]. cbn [fst snd]. destruct (fill_bytes g s1 32) as [z s2]. cbn [fst snd].
  destruct (decaps_key_generate_deterministic hs P n d z) as [dk| | |]; try reflexivity. cbn [bind].
  destruct (fill_bytes g s2 32) as [m s3]. cbn [fst].
  destruct (encapsulate_deterministic_inner hs P n (encapsulation_key dk) m) as [[c K]| | |]; reflexivity.
Qed.

(** the probability of an event of the session, over the answers of the random oracles: K and r
    of G(m || H(ek)), sigma of G(d || k), the XOF output M, the PRF outputs S, E, Y, W *)
Definition session_probability (L LM LS LE LY LW : list (list Z))
  (event : list Z -> list Z -> list Z -> list Z -> list Z -> list Z -> list Z -> list Z -> bool) : Q :=
  average L (fun K => average L (fun sigma => average L (fun r => average LM (fun M =>
  average LS (fun S => average LE (fun E => average LY (fun Y => average LW (fun W =>
    one_if (event K sigma r M S E Y W))))))))).

Section Numbers.
  Variable P : params.
  Variable delta : Z.
  Hypothesis HIn : In (P, delta) [(ML_KEM_512, 80); (ML_KEM_768, 90); (ML_KEM_1024, 107)].
  Variable hs : hashes.
  Hypothesis Hhs : hash_ok hs.
  Variables rho d z m : list Z.
  Hypothesis Hrho : byte_string 32 rho.
  Hypothesis Hd : byte_string 32 d.
  Hypothesis Hz : byte_string 32 z.
  Hypothesis Hm : byte_string 32 m.
  Variables L LM LS LE LY LW : list (list Z).
  Hypothesis HL : enumerates 32 L.
  Hypothesis HLM : enumerates (pk P * pk P * (3 * 280)) LM.
  Hypothesis HLS : enumerates (pk P * (64 * eta1 P)) LS.
  Hypothesis HLE : enumerates (pk P * (64 * eta1 P)) LE.
  Hypothesis HLY : enumerates (pk P * (64 * eta1 P)) LY.
  Hypothesis HLW : enumerates ((pk P + 1) * (64 * eta2 P)) LW.

  Lemma session_bound bad :
    (forall K sigma r M S E Y W, In K L -> In sigma L -> In r L -> In M LM -> In S LS -> In E LE -> In Y LY -> In W LW ->
      bad K sigma r M S E Y W = true -> agree (session_world hs P 280 rho d m K M S E Y W sigma r) P 280 d z m = false) ->
    (session_probability L LM LS LE LY LW bad
     <= 1 / inject_Z (2 ^ delta) + 1 / inject_Z (2 ^ 243) + 1 / inject_Z (2 ^ 256))%Q.
  Proof.
    intros Hbad.
    assert (HP : wf_params P).
    { destruct HIn as [E|[E|[E|[]]]]; apply (f_equal fst) in E; cbn [fst] in E; subst P; [apply wf_512|apply wf_768|apply wf_1024]. }
    assert (Hk : (pk P <= 4)%nat).
    { destruct HIn as [E|[E|[E|[]]]]; apply (f_equal fst) in E; cbn [fst] in E; subst P; cbn; lia. }
    assert (Hdel : 0 < 2 ^ delta).
    { destruct HIn as [E|[E|[E|[]]]]; apply (f_equal snd) in E; cbn [snd] in E; subst delta; reflexivity. }
    apply (session_average hs Hhs P HP 280 rho d z m Hrho Hd Hz Hm L LM LS LE LY LW HL HLM HLS HLE HLY HLW); [| | |exact Hbad].
    - apply (matrix_average hs P rho d z LM); assumption.
    - unfold Qdiv. rewrite Qmult_1_l. apply Qinv_le_0_compat. change 0%Q with (inject_Z 0). rewrite <- Zle_Qle. lia.
    - intros M r HM Hr NM. apply HLM in HM. apply HL in Hr.
      destruct (A_hat (with_matrix hs (pk P) (3 * 280) rho M) P 280 rho) as [Ah|] eqn:EA; [|discriminate NM].
      apply (failure_average P delta HIn (with_matrix hs (pk P) (3 * 280) rho M) 280 rho Ah m LS LE LY LW r); try assumption.
      apply with_matrix_ok; [exact Hhs|apply HM].
  Qed.
End Numbers.

(** ** ML-KEM: a session through the API, with any RNG *)
Theorem C76_ml_kem P delta : In (P, delta) [(ML_KEM_512, 80); (ML_KEM_768, 90); (ML_KEM_1024, 107)] ->
  forall hs g s rho L LM LS LE LY LW, hash_ok hs -> rng_ok g -> byte_string 32 rho ->
  enumerates 32 L -> enumerates (pk P * pk P * 840) LM ->
  enumerates (pk P * (64 * eta1 P)) LS -> enumerates (pk P * (64 * eta1 P)) LE ->
  enumerates (pk P * (64 * eta1 P)) LY -> enumerates ((pk P + 1) * (64 * eta2 P)) LW ->
  let d := fst (fill_bytes g s 32) in
  let s1 := snd (fill_bytes g s 32) in
  let s2 := snd (fill_bytes g s1 32) in
  let m := fst (fill_bytes g s2 32) in
  (session_probability L LM LS LE LY LW (fun K sigma r M S E Y W =>
     negb (api_agree (session_world hs P 280 rho d m K M S E Y W sigma r) P 280 g s))
   <= 1 / inject_Z (2 ^ delta) + 1 / inject_Z (2 ^ 243) + 1 / inject_Z (2 ^ 256))%Q.
Proof.
  intros HIn hs g s rho L LM LS LE LY LW Hhs Hg Hrho HL HLM HLS HLE HLY HLW d s1 s2 m.
  apply (session_bound P delta HIn hs Hhs rho d (fst (fill_bytes g s1 32)) m Hrho (Hg s 32%nat) (Hg s1 32%nat) (Hg s2 32%nat)); try assumption.
  intros K sigma r M S E Y W _ _ _ _ _ _ _ _ N. rewrite api_agree_agree in N.
  apply negb_true_iff in N. exact N.
Qed.

(** ** X-Wing *)
Lemma session_shake hs P n rho d m K M S E Y W sigma r sk : byte_string 32 rho -> byte_string 32 sk ->
  SHAKE128 (session_world hs P n rho d m K M S E Y W sigma r) sk 96 = SHAKE128 hs sk 96.
Proof.
  intros Hrho Hsk.
  assert (E1 : forall i, shake128 (session_world hs P n rho d m K M S E Y W sigma r) sk i = shake128 (with_matrix hs (pk P) (3 * n) rho M) sk i).
  { intros i. unfold session_world. cbv zeta. destruct (KPKE_KeyGen _ P n d) as [[ek x]|]; reflexivity. }
  unfold SHAKE128. apply map_ext. intros i. rewrite E1. cbn [with_matrix shake128]. unfold answer.
  destruct (find _ _) as [a|] eqn:F; [|reflexivity]. exfalso.
  apply find_some in F. destruct F as [_ F]. destruct (list_eq_dec Z.eq_dec sk _) as [X|_]; [|discriminate F].
  apply (f_equal (@length Z)) in X. unfold ask_matrix in X. rewrite app_length, (proj1 Hrho), (proj1 Hsk) in X. discriminate X.
Qed.

Theorem C76_xwing hs X sk g s rho L LM LS LE LY LW :
  hash_ok hs -> x25519_ok X -> x25519_commutes X -> byte_string 32 sk -> rng_ok g -> byte_string 32 rho ->
  enumerates 32 L -> enumerates (9 * 840) LM -> enumerates 384 LS -> enumerates 384 LE -> enumerates 384 LY -> enumerates 512 LW ->
  let d := bytes32 0 (SHAKE128 hs sk 96) in
  let m := fst (fill_bytes g s 32) in
  (session_probability L LM LS LE LY LW (fun K sigma r M S E Y W =>
     negb (xw_agree (session_world hs ML_KEM_768 280 rho d m K M S E Y W sigma r) X 280 sk g s))
   <= 1 / inject_Z (2 ^ 90) + 1 / inject_Z (2 ^ 243) + 1 / inject_Z (2 ^ 256))%Q.
Proof.
  intros Hhs HX HC Hsk Hg Hrho HL HLM HLS HLE HLY HLW d m.
  pose proof (shake_parts hs Hhs sk 0 (proj2 Hsk) ltac:(lia)) as Hd. fold d in Hd.
  pose proof (shake_parts hs Hhs sk 32 (proj2 Hsk) ltac:(lia)) as Hz. set (z := bytes32 32 (SHAKE128 hs sk 96)) in Hz.
  pose proof (Hg s 32%nat) as Hm. fold m in Hm.
  apply (session_bound ML_KEM_768 90 ltac:(right; left; reflexivity) hs Hhs rho d z m Hrho Hd Hz Hm); try assumption.
  intros K sigma r M S E Y W IK Is Ir IM IS IE IY IW N. apply negb_true_iff in N.
  destruct (agree (session_world hs ML_KEM_768 280 rho d m K M S E Y W sigma r) ML_KEM_768 280 d z m) eqn:A; [|reflexivity].
  assert (Ow : hash_ok (session_world hs ML_KEM_768 280 rho d m K M S E Y W sigma r)).
  { exact (session_world_ok hs Hhs ML_KEM_768 280 rho d m Hrho K M S E Y W sigma r (proj1 (proj2 HL K) IK) (proj1 (proj2 HLM M) IM)
      (proj1 (proj2 HLS S) IS) (proj1 (proj2 HLE E) IE) (proj1 (proj2 HLY Y) IY) (proj1 (proj2 HLW W) IW) (proj1 (proj2 HL sigma) Is) (proj1 (proj2 HL r) Ir)). }
  pose proof (agree_xwing (session_world hs ML_KEM_768 280 rho d m K M S E Y W sigma r) X 280 sk g s Ow HX HC Hsk Hg) as AX.
  rewrite (session_shake hs ML_KEM_768 280 rho d m K M S E Y W sigma r sk Hrho Hsk) in AX.
  fold d in AX. fold z in AX. fold m in AX. rewrite (AX A) in N. discriminate N.
Qed.

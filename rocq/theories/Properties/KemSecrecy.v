(** C70: an attacker that sees a public key and a ciphertext cannot tell the shared secret
    of ML-KEM from a random string, in the random-oracle model, up to MLWE.

    The hash functions answer honest parties and the attacker alike.  They are arbitrary
    functions [hs], except at the points at which the honest parties evaluate them on secret
    inputs: there the answers are uniform.  The attacker may evaluate them everywhere. *)
From Coq Require Import List ZArith Lia Bool Arith.
From Verif.Base Require Import Res Oracles.
From Verif.Spec Require Import FIPS203 Domains Noise Counting Random Lwe Attacker.
From Verif.Model Require Import Machine Util Algebra Compress Encode Crypto Sample Param Pke Kem.
From Verif.Proofs Require Import Basics Field Poly CompressProofs NttAlgebra NttProofs EncodeProofs VecEncode SampleProofs CountProofs
  PkeProofs KemProofs Inner Correctness TailProofs FailureProofs FailureAverage FailureNumbers LweProofs AttackerProofs.
From Verif.Tests Require Import Toy.
From Verif.Properties Require Import Kem KemCases Correctness Distribution Failure Secrecy.
From Coq Require Import QArith Qabs Lqa.
Import ListNotations.
Open Scope Z_scope.

(** The hash functions during key generation from the seed [d]: G(d || k) is rho || sigma,
    and the PRF outputs for sigma are S (for s) and E (for e), those for r are Y and W. *)
Definition keys_world (hs : hashes) (P : params) (rho d sigma r S E Y W : list Z) : hashes :=
  with_secrets (with_coins (with_sha3_512 hs (d ++ [Z.of_nat (pk P)]) (rho ++ sigma)) P r Y W) P sigma (S ++ E).

(** Generate a key pair, encapsulate with [m] when G(m || H(ek)) is K || r, show the attacker
    the public key, the ciphertext, and the shared secret or (if not [real]) the string [U]. *)
Definition passive_game (hs : hashes) (P : params) (n : nat) (rho z : list Z)
  (att : list Z -> list Z -> list Z -> attacker) (real : bool)
  (m K U S E Y W d sigma r : list Z) : Q :=
  let h1 := keys_world hs P rho d sigma r S E Y W in
  match kem_generate_deterministic h1 P n d z with
  | Ok (_, ek) =>
      match encaps_key_as_bytes P ek with
      | Ok ekb =>
          let h2 := with_sha3_512 h1 (m ++ sha3_256 hs ekb) (K ++ r) in
          match encapsulate_deterministic h2 P n ek m with
          | Ok (c, key) => run h2 no_answer (att ekb c (if real then key else U))
          | _ => 0%Q
          end
      | _ => 0%Q
      end
  | _ => 0%Q
  end.

(** the probability that the attacker answers 1 *)
Definition passive_experiment (hs : hashes) (P : params) (n : nat) (rho z : list Z)
  (att : list Z -> list Z -> list Z -> attacker) (L LS LE LY LW : list (list Z)) (real : bool) : Q :=
  average L (fun m => average L (fun K => average L (fun U =>
  average LS (fun S => average LE (fun E => average LY (fun Y => average LW (fun W =>
  average L (fun d => average L (fun sigma => average L (fun r =>
    passive_game hs P n rho z att real m K U S E Y W d sigma r)))))))))).

Ltac weights := repeat match goal with |- context [one_if ?b] =>
  let v := fresh "v" in let H := fresh "H" in
  pose proof (one_if_range b) as H; set (v := one_if b) in *; clearbody v end.

Lemma with_sha3_512_ok hs x y : hash_ok hs -> byte_string 64 y -> hash_ok (with_sha3_512 hs x y).
Proof.
  intros H Hy m Hm. destruct (H m Hm) as (H1 & H2 & H3 & H4). cbn [with_sha3_512 sha3_256 sha3_512 shake128 shake256].
  split; [exact H1|]. split; [|split; assumption]. destruct (list_eq_dec Z.eq_dec m x); assumption.
Qed.

Section Passive.
  Variable hs : hashes.
  Hypothesis Hhs : hash_ok hs.
  Variable P : params.
  Hypothesis HP : wf_params P.
  Let k := pk P.
  Variable n : nat.
  Variables rho z : list Z.
  Hypothesis Hrho : byte_string 32 rho.
  Hypothesis Hz : byte_string 32 z.
  Variable Ah : list (list (list Z)).
  Hypothesis EA : A_hat hs P n rho = Some Ah.
  Let A := map (map NTTinv) Ah.
  Variable att : list Z -> list Z -> list Z -> attacker.
  Variable N : nat.
  Hypothesis Hatt : forall ek c K, within N 0 (att ek c K).

  (** the public key and the ciphertext *)
  Let pub S E := key_bytes P rho (lwe_samples k k A (cbd_vec (eta1 P) k S) (cbd_vec (eta1 P) k E)).
  Let cipher m S E Y W :=
    let w := lwe_samples k (k + 1) (ct_matrix k A (lwe_samples k k A (cbd_vec (eta1 P) k S) (cbd_vec (eta1 P) k E)))
               (cbd_vec (eta1 P) k Y) (cbd_vec (eta2 P) (k + 1) W) in
    ct_bytes P (firstn k w) (padd (nth k w []) (enc_mu m)).

  (** the hash function of the encapsulation *)
  Definition passive_world m K S E Y W d sigma r : hashes :=
    with_sha3_512 (keys_world hs P rho d sigma r S E Y W) (m ++ sha3_256 hs (pub S E)) (K ++ r).

  Lemma passive_world_ok m K S E Y W d sigma r : byte_string 32 K -> byte_string 32 sigma -> byte_string 32 r ->
    byte_string (k * (64 * eta1 P)) S -> byte_string (k * (64 * eta1 P)) E ->
    byte_string (k * (64 * eta1 P)) Y -> byte_string ((k + 1) * (64 * eta2 P)) W ->
    hash_ok (passive_world m K S E Y W d sigma r).
  Proof.
    intros HK Hs Hr HS HE HY HW. apply with_sha3_512_ok; [|apply (byte_string_app 32 32); assumption].
    apply with_secrets_ok; [|apply bytes_app; [apply HS|apply HE]].
    apply with_coins_ok; [|apply HY|apply HW]. apply with_sha3_512_ok; [exact Hhs|].
    apply (byte_string_app 32 32); assumption.
  Qed.

  (** what the attacker sees, if r and sigma differ *)
  Lemma passive_view real m K U S E Y W d sigma r : byte_string 32 m -> byte_string 32 K ->
    byte_string 32 d -> byte_string 32 sigma -> byte_string 32 r ->
    byte_string (k * (64 * eta1 P)) S -> byte_string (k * (64 * eta1 P)) E ->
    byte_string (k * (64 * eta1 P)) Y -> byte_string ((k + 1) * (64 * eta2 P)) W ->
    r <> sigma ->
    passive_game hs P n rho z att real m K U S E Y W d sigma r =
    run (passive_world m K S E Y W d sigma r) no_answer (att (pub S E) (cipher m S E Y W) (if real then K else U)).
  Proof.
    intros Hm HK Hd Hs Hr HS HE HY HW Hne.
    pose proof (passive_world_ok m K S E Y W d sigma r HK Hs Hr HS HE HY HW) as Hw.
    set (hsA := with_sha3_512 hs (d ++ [Z.of_nat (pk P)]) (rho ++ sigma)).
    assert (HA : hash_ok hsA) by (apply with_sha3_512_ok; [exact Hhs|apply (byte_string_app 32 32); assumption]).
    assert (HB : byte_string (2 * k * (64 * eta1 P)) (S ++ E)).
    { replace (2 * k * (64 * eta1 P))%nat with (k * (64 * eta1 P) + k * (64 * eta1 P))%nat by lia. apply byte_string_app; assumption. }
    assert (EG : FIPS203.G hsA (d ++ [Z.of_nat (pk P)]) = (rho, sigma)).
    { unfold FIPS203.G, hsA. cbn [with_sha3_512 sha3_512].
      destruct (list_eq_dec Z.eq_dec _ _) as [_|X]; [|contradiction].
      rewrite firstn_app_exact, skipn_app_exact by apply Hrho. reflexivity. }
    assert (Es : sigma_of hsA P d = sigma) by (unfold sigma_of; rewrite EG; reflexivity).
    assert (Er : key_rho hsA P d = rho) by (unfold key_rho; rewrite EG; reflexivity).
    set (h1 := keys_world hs P rho d sigma r S E Y W).
    assert (H1 : hash_ok h1).
    { apply with_secrets_ok; [|apply HB]. apply with_coins_ok; [exact HA|apply HY|apply HW]. }
    assert (EK : KPKE_KeyGen h1 P n d = Some (pub S E, secret_bytes P S)).
    { pose proof (keygen_lwe hsA HA P HP n d Ah S E (proj2 Hd) HS HE) as X. rewrite Er in X.
      pose proof (X EA) as EK.
      pose proof (keygen_world hsA P d Y W (S ++ E) HB r n) as KW. unfold world in KW.
      change (key_sigma hsA P d) with (sigma_of hsA P d) in KW, EK. rewrite Es in KW, EK.
      change (keys_world hs P rho d sigma r S E Y W) with (with_secrets (with_coins hsA P r Y W) P sigma (S ++ E)) in h1.
      fold h1 in KW. rewrite KW. exact EK. }
    pose proof (generate_ok h1 H1 P HP n d z (proj2 Hd) Hz) as G. unfold KeyGen_internal in G. rewrite EK in G.
    destruct G as (dk & E1 & V & _ & E2 & E3 & _).
    assert (Ve : valid_encaps_key P (dk_ek dk)) by apply V.
    unfold passive_game. cbv zeta. fold h1. rewrite E1. rewrite (encaps_key_as_bytes_ok P (dk_ek dk) Ve), E2.
    fold (passive_world m K S E Y W d sigma r).
    change (with_sha3_512 h1 (m ++ sha3_256 hs (pub S E)) (K ++ r)) with (passive_world m K S E Y W d sigma r).
    rewrite (encapsulate_deterministic_ok _ Hw P HP n (dk_ek dk) m Ve Hm).
    unfold Encaps_with. rewrite E2, E3.
    assert (EG2 : FIPS203.G (passive_world m K S E Y W d sigma r) (m ++ FIPS203.H h1 (pub S E)) = (K, r)).
    { unfold FIPS203.G, FIPS203.H, passive_world. cbn [with_sha3_512 sha3_512].
      change (sha3_256 h1) with (sha3_256 hs).
      destruct (list_eq_dec Z.eq_dec _ _) as [_|X]; [|contradiction].
      rewrite firstn_app_exact, skipn_app_exact by apply HK. reflexivity. }
    rewrite EG2.
    assert (EE : KPKE_Encrypt (passive_world m K S E Y W d sigma r) P n (pub S E) m r = Some (cipher m S E Y W)).
    { transitivity (KPKE_Encrypt (with_secrets (with_coins hsA P r Y W) P (sigma_of hsA P d) (S ++ E)) P n (pub S E) m r).
      { rewrite Es. reflexivity. }
      rewrite (encrypt_world hsA P n d r) by (rewrite Es; exact Hne).
      unfold pub. rewrite (encrypt_lwe hsA HA P HP n rho Ah _ m r Y W (proj2 Hrho) (lwe_samples_vec _ _ _ _ _) HY HW EA).
      reflexivity. }
    rewrite EE. reflexivity.
  Qed.
  Open Scope Q_scope.

  (** what the attacker does with the unprogrammed hash function *)
  Let view m X S E Y W := att (pub S E) (cipher m S E Y W) X.
  Let start (p : hash_name * list Z) := firstn 32 (snd p).
  Let lucky m X S E Y W d sigma r : Q :=
    let l := asked hs no_answer (view m X S E Y W) in
    finds hs att m X (pub S E) (cipher m S E Y W) +
    (one_if (points start d l) + one_if (points start sigma l) + one_if (points start r l) +
     one_if (if list_eq_dec Z.eq_dec sigma r then true else false)).

  Lemma lucky_nonneg m X S E Y W d sigma r : 0 <= lucky m X S E Y W d sigma r.
  Proof.
    unfold lucky, finds. cbv zeta.
    weights.
    lra.
  Qed.

  Lemma game_range real m K U S E Y W d sigma r : 0 <= passive_game hs P n rho z att real m K U S E Y W d sigma r <= 1.
  Proof.
    unfold passive_game. cbv zeta.
    repeat match goal with
    | |- context [match ?x with Ok _ => _ | _ => _ end] => destruct x as [[? ?]| | |]; try lra
    | |- context [match ?x with Ok _ => _ | _ => _ end] => destruct x as [?| | |]; try lra
    end.
    eapply run_range, Hatt.
  Qed.

  Lemma points_in m X S E Y W f x s : In (f, x) (asked hs no_answer (view m X S E Y W)) -> firstn 32 x = s ->
    points start s (asked hs no_answer (view m X S E Y W)) = true.
  Proof.
    intros I F. apply existsb_exists. exists (f, x). split; [exact I|]. unfold start. cbn [snd].
    destruct (list_eq_dec Z.eq_dec (firstn 32 x) s); [reflexivity|contradiction].
  Qed.

  Lemma passive_close real m K U S E Y W d sigma r : byte_string 32 m -> byte_string 32 K ->
    byte_string 32 d -> byte_string 32 sigma -> byte_string 32 r ->
    byte_string (k * (64 * eta1 P)) S -> byte_string (k * (64 * eta1 P)) E ->
    byte_string (k * (64 * eta1 P)) Y -> byte_string ((k + 1) * (64 * eta2 P)) W ->
    Qabs (passive_game hs P n rho z att real m K U S E Y W d sigma r -
          run hs no_answer (view m (if real then K else U) S E Y W)) <=
    lucky m (if real then K else U) S E Y W d sigma r.
  Proof.
    intros Hm HK Hd Hs Hr HS HE HY HW. set (X := if real then K else U).
    pose proof (game_range real m K U S E Y W d sigma r) as R1.
    pose proof (run_range hs no_answer N 0 (view m X S E Y W) (Hatt _ _ _)) as R2.
    assert (B : Qabs (passive_game hs P n rho z att real m K U S E Y W d sigma r - run hs no_answer (view m X S E Y W)) <= 1).
    { apply Qabs_Qle_condition. split; lra. }
    destruct (asks hs no_answer (view m X S E Y W) Sha3_512 (m ++ sha3_256 hs (pub S E))) eqn:B1.
    { eapply Qle_trans; [exact B|]. unfold lucky, finds. cbv zeta. fold (view m X S E Y W). rewrite B1. cbn [one_if].
      weights. lra. }
    destruct (points start d (asked hs no_answer (view m X S E Y W))) eqn:B2.
    { eapply Qle_trans; [exact B|]. unfold lucky, finds. cbv zeta. rewrite B2. cbn [one_if].
      weights. lra. }
    destruct (points start sigma (asked hs no_answer (view m X S E Y W))) eqn:B3.
    { eapply Qle_trans; [exact B|]. unfold lucky, finds. cbv zeta. rewrite B3. cbn [one_if].
      weights. lra. }
    destruct (points start r (asked hs no_answer (view m X S E Y W))) eqn:B4.
    { eapply Qle_trans; [exact B|]. unfold lucky, finds. cbv zeta. rewrite B4. cbn [one_if].
      weights. lra. }
    destruct (list_eq_dec Z.eq_dec sigma r) as [E5|N5].
    { eapply Qle_trans; [exact B|]. unfold lucky, finds. cbv zeta.
      destruct (list_eq_dec Z.eq_dec sigma r) as [_|X5]; [|contradiction]. cbn [one_if].
      weights. lra. }
    clear B R1 R2.
    rewrite passive_view by (try assumption; intros Q; apply N5; symmetry; exact Q).
    fold X. fold (view m X S E Y W).
    assert (ER : run (passive_world m K S E Y W d sigma r) no_answer (view m X S E Y W) = run hs no_answer (view m X S E Y W)).
    { apply run_same. intros f x I len. destruct f; cbn [reply].
      - reflexivity.
      - cbn [passive_world keys_world with_sha3_512 with_secrets with_coins sha3_512].
        destruct (list_eq_dec Z.eq_dec x (m ++ sha3_256 hs (pub S E))) as [Q|_].
        { subst x. rewrite (asks_in _ _ _ _ _ I) in B1. discriminate B1. }
        destruct (list_eq_dec Z.eq_dec x (d ++ [Z.of_nat (pk P)])) as [Q|_]; [|reflexivity].
        rewrite (points_in m X S E Y W _ x d I) in B2; [discriminate B2|]. subst x. apply firstn_app_exact, Hd.
      - reflexivity.
      - unfold prefix. apply tab_ext. intros i Hi.
        cbn [passive_world keys_world with_sha3_512 with_secrets with_coins shake256].
        assert (Y1 : firstn 32 x <> sigma).
        { intros Q. rewrite (points_in m X S E Y W _ x sigma I Q) in B3. discriminate B3. }
        assert (Y2 : firstn 32 x <> r).
        { intros Q. rewrite (points_in m X S E Y W _ x r I Q) in B4. discriminate B4. }
        assert (Y3 : forall s a, byte_string 32 s -> firstn 32 x <> s -> x <> ask_secrets s a).
        { intros s a [Hl _] Q Q'. apply Q. subst x. apply firstn_app_exact, Hl. }
        rewrite !answer_other by (intros a _; apply Y3; assumption). reflexivity. }
    rewrite ER. setoid_replace (run hs no_answer (view m X S E Y W) - run hs no_answer (view m X S E Y W)) with 0 by ring.
    apply lucky_nonneg.
  Qed.

  (** ** averages *)
  Variables L LS LE LY LW : list (list Z).
  Variables LT LV : list (list (list Z)).
  Hypothesis HL : enumerates 32 L.
  Hypothesis HLS : enumerates (k * (64 * eta1 P)) LS.
  Hypothesis HLE : enumerates (k * (64 * eta1 P)) LE.
  Hypothesis HLY : enumerates (k * (64 * eta1 P)) LY.
  Hypothesis HLW : enumerates ((k + 1) * (64 * eta2 P)) LW.
  Hypothesis HLT : all_vectors k LT.
  Hypothesis HLV : all_vectors (k + 1) LV.
  Variable r0 : list Z.

  Let tapes (f : list Z -> list Z -> list Z -> list Z -> Q) : Q :=
    average LS (fun S => average LE (fun E => average LY (fun Y => average LW (fun W => f S E Y W)))).
  Let unit := 1 / inject_Z (2 ^ 256).
  Let gap1 := lwe_gap k k (eta1 P) (eta1 P) A LS LE LT (finds_key_test hs P n rho r0 L LY LW att).
  Let gap2 := average LT (fun t => lwe_gap k (k + 1) (eta1 P) (eta2 P) (ct_matrix k A t) LY LW LV (finds_ct_test hs P rho L att t)).

  Lemma list_nonempty : L <> [].
  Proof. intros Q. pose proof (enumerates_length 32 L HL) as X. rewrite Q in X. discriminate X. Qed.

  (** the attacker finds m *)
  Lemma finds_bound :
    average L (fun m => average L (fun K => tapes (fun S E Y W => finds hs att m K (pub S E) (cipher m S E Y W)))) <=
    inject_Z (Z.of_nat N) * unit + gap1 + gap2.
  Proof.
    assert (E1 : forall m, In m L -> forall K, In K L ->
      tapes (fun S E Y W => finds hs att m K (pub S E) (cipher m S E Y W)) ==
      lwe_gap k k (eta1 P) (eta1 P) A LS LE LT (key_test hs P n rho r0 LY LW (fun _ => m) (finds hs att m K)) +
      average LT (fun t => lwe_gap k (k + 1) (eta1 P) (eta2 P) (ct_matrix k A t) LY LW LV (ct_test P rho (fun _ => m) (finds hs att m K) t)) +
      average LT (fun t => average LV (fun w => finds hs att m K (key_bytes P rho t) (ct_bytes P (firstn k w) (nth k w []))))).
    { intros m Hm K HK.
      eapply Qeq_trans; [|exact (hybrid hs Hhs P HP n rho (proj2 Hrho) Ah EA r0 LS LE LY LW LT LV HLY HLW HLT HLV (fun _ => m) (finds hs att m K))].
      unfold tapes, key_test. apply average_ext. intros S HS. apply average_ext. intros E HE.
      apply average_ext. intros Y HY. apply average_ext. intros W HW. apply HLY in HY. apply HLW in HW. cbv zeta.
      rewrite (encrypt_lwe hs Hhs P HP n rho Ah _ m r0 Y W (proj2 Hrho) (lwe_samples_vec _ _ _ _ _) HY HW EA).
      reflexivity. }
    rewrite (average_ext L _ _ (fun m Hm => average_ext L _ _ (fun K HK => E1 m Hm K HK))). clear E1.
    assert (E2 : average L (fun m => average L (fun K =>
        lwe_gap k k (eta1 P) (eta1 P) A LS LE LT (key_test hs P n rho r0 LY LW (fun _ => m) (finds hs att m K)))) == gap1).
    { unfold gap1, finds_key_test. rewrite gap_average. apply average_ext. intros m _. rewrite gap_average. reflexivity. }
    assert (E3 : average L (fun m => average L (fun K =>
        average LT (fun t => lwe_gap k (k + 1) (eta1 P) (eta2 P) (ct_matrix k A t) LY LW LV (ct_test P rho (fun _ => m) (finds hs att m K) t)))) == gap2).
    { unfold gap2, finds_ct_test.
      transitivity (average L (fun m => average LT (fun t => average L (fun K =>
        lwe_gap k (k + 1) (eta1 P) (eta2 P) (ct_matrix k A t) LY LW LV (ct_test P rho (fun _ => m) (finds hs att m K) t))))).
      { apply average_ext. intros m _. apply average_swap. }
      rewrite average_swap. apply average_ext. intros t _. rewrite gap_average. apply average_ext. intros m _.
      rewrite gap_average. reflexivity. }
    assert (E4 : average L (fun m => average L (fun K => average LT (fun t => average LV (fun w =>
        finds hs att m K (key_bytes P rho t) (ct_bytes P (firstn k w) (nth k w [])))))) <= inject_Z (Z.of_nat N) * unit).
    { rewrite average_swap. 
      assert (U0 : 0 <= inject_Z (Z.of_nat N) * unit).
      { apply Qmult_le_0_compat; [|discriminate]. unfold Qle. cbn [Qnum Qden inject_Z]. lia. }
      apply average_bound; [exact U0|]. intros K HK.
      rewrite average_swap. apply average_bound; [exact U0|]. intros t Ht.
      rewrite average_swap. apply average_bound; [exact U0|]. intros w Hw.
      set (a := att (key_bytes P rho t) (ct_bytes P (firstn k w) (nth k w [])) K).
      apply Qle_trans with (average L (fun m => one_if (points start m (asked hs no_answer a)))).
      - apply average_le. intros m Hm. apply HL in Hm. unfold finds. fold a. unfold asks.
        destruct (existsb _ (asked hs no_answer a)) eqn:X; [|apply one_if_range].
        apply existsb_exists in X. destruct X as (p & I & X).
        destruct (query_eq p (Sha3_512, m ++ sha3_256 hs (key_bytes P rho t))) as [->|_]; [|discriminate X].
        assert (Q : points start m (asked hs no_answer a) = true).
        { apply existsb_exists. eexists. split; [exact I|]. unfold start. cbn [snd].
          rewrite firstn_app_exact by apply Hm. destruct (list_eq_dec Z.eq_dec m m); [reflexivity|contradiction]. }
        rewrite Q. apply Qle_refl.
      - eapply Qle_trans; [apply (average_points start (asked hs no_answer a) N L HL), (asked_length _ _ N 0), Hatt|].
        unfold unit, Qdiv. rewrite Qmult_1_l. apply Qle_refl. }
    set (g1 := fun m K => lwe_gap k k (eta1 P) (eta1 P) A LS LE LT (key_test hs P n rho r0 LY LW (fun _ => m) (finds hs att m K))) in *.
    set (g2 := fun m K => average LT (fun t => lwe_gap k (k + 1) (eta1 P) (eta2 P) (ct_matrix k A t) LY LW LV (ct_test P rho (fun _ => m) (finds hs att m K) t))) in *.
    set (g3 := fun m K => average LT (fun t => average LV (fun w => finds hs att m K (key_bytes P rho t) (ct_bytes P (firstn k w) (nth k w []))))) in *.
    change (average L (fun m => average L (fun K => g1 m K + g2 m K + g3 m K)) <= inject_Z (Z.of_nat N) * unit + gap1 + gap2).
    rewrite (average_ext L _ (fun m => average L (g1 m) + average L (g2 m) + average L (g3 m)))
      by (intros m _; rewrite !average_plus; reflexivity).
    rewrite !average_plus.
    change (average L (fun m => average L (g1 m)) == gap1) in E2. change (average L (fun m => average L (g2 m)) == gap2) in E3.
    change (average L (fun m => average L (g3 m)) <= inject_Z (Z.of_nat N) * unit) in E4.
    rewrite E2, E3. lra.
  Qed.

  Lemma asked_points m X S E Y W : average L (fun x => one_if (points start x (asked hs no_answer (view m X S E Y W)))) <=
    inject_Z (Z.of_nat N) * unit.
  Proof.
    eapply Qle_trans; [apply (average_points start _ N L HL), (asked_length _ _ N 0), Hatt|].
    unfold unit, Qdiv. rewrite Qmult_1_l. apply Qle_refl.
  Qed.
  Lemma same_point sigma : average L (fun r => one_if (if list_eq_dec Z.eq_dec sigma r then true else false)) <= unit.
  Proof.
    unfold average, unit. rewrite (enumerates_length 32 L HL). change (256 ^ Z.of_nat 32)%Z with (2 ^ 256)%Z.
    unfold Qdiv. apply Qmult_le_compat_r; [apply total_one, HL|]. discriminate.
  Qed.
  Lemma average_shift c f b : average L f <= b -> average L (fun x => c + f x) <= c + b.
  Proof. intros H. rewrite average_plus, (average_const L c list_nonempty). lra. Qed.

  Lemma lucky_average m X S E Y W :
    average L (fun d => average L (fun sigma => average L (fun r => lucky m X S E Y W d sigma r))) <=
    finds hs att m X (pub S E) (cipher m S E Y W) + (3 * inject_Z (Z.of_nat N) * unit + unit).
  Proof.
    set (F := finds hs att m X (pub S E) (cipher m S E Y W)).
    set (l := asked hs no_answer (view m X S E Y W)).
    pose proof (asked_points m X S E Y W) as HPt. fold l in HPt. set (u := inject_Z (Z.of_nat N) * unit) in *.
    assert (I1 : forall d sigma, average L (fun r => lucky m X S E Y W d sigma r) <=
      (F + one_if (points start d l) + u + unit) + one_if (points start sigma l)).
    { intros d sigma.
      apply Qle_trans with (average L (fun r => (F + one_if (points start d l) + one_if (points start sigma l)) +
        (one_if (points start r l) + one_if (if list_eq_dec Z.eq_dec sigma r then true else false)))).
      - apply average_le. intros r _. unfold lucky. cbv zeta. fold F l. lra.
      - eapply Qle_trans; [apply average_shift; rewrite average_plus; apply Qplus_le_compat; [exact HPt|apply same_point]|]. lra. }
    assert (I2 : forall d, average L (fun sigma => average L (fun r => lucky m X S E Y W d sigma r)) <=
      (F + u + unit + u) + one_if (points start d l)).
    { intros d. eapply Qle_trans; [apply average_le; intros sigma _; apply I1|].
      eapply Qle_trans; [apply average_shift; exact HPt|]. lra. }
    eapply Qle_trans; [apply average_le; intros d _; apply I2|].
    eapply Qle_trans; [apply average_shift; exact HPt|]. 
    apply Qle_trans with (F + (3 * u + unit)); [lra|]. unfold u.
    setoid_replace (3 * inject_Z (Z.of_nat N) * unit) with (3 * (inject_Z (Z.of_nat N) * unit)) by ring. apply Qle_refl.
  Qed.

  Lemma average_real (real : bool) (f : list Z -> Q) :
    average L (fun K => average L (fun U => f (if real then K else U))) == average L f.
  Proof.
    destruct real.
    - apply average_ext. intros K _. apply average_const, list_nonempty.
    - apply average_const, list_nonempty.
  Qed.

  Definition passive_bound : Q := (4 * inject_Z (Z.of_nat N) + 1) * unit + gap1 + gap2.

  Lemma passive_ideal real :
    Qabs (passive_experiment hs P n rho z att L LS LE LY LW real -
          average L (fun m => average L (fun K => tapes (fun S E Y W => run hs no_answer (view m K S E Y W))))) <= passive_bound.
  Proof.
    assert (E1 : average L (fun m => average L (fun K => tapes (fun S E Y W => run hs no_answer (view m K S E Y W)))) ==
      average L (fun m => average L (fun K => average L (fun U => average LS (fun S => average LE (fun E => average LY (fun Y => average LW (fun W =>
        average L (fun d => average L (fun sigma => average L (fun r => run hs no_answer (view m (if real then K else U) S E Y W)))))))))))).
    { apply average_ext. intros m _.
      rewrite <- (average_real real (fun X => tapes (fun S E Y W => run hs no_answer (view m X S E Y W)))).
      unfold tapes. do 6 (apply average_ext; intros ? _). rewrite !average_const by apply list_nonempty. reflexivity. }
    rewrite E1. clear E1.
    apply Qle_trans with (average L (fun m => average L (fun K => average L (fun U => average LS (fun S => average LE (fun E => average LY (fun Y => average LW (fun W =>
        average L (fun d => average L (fun sigma => average L (fun r => lucky m (if real then K else U) S E Y W d sigma r))))))))))).
    { unfold passive_experiment.
      apply average_close. intros m Hm. apply average_close. intros K HK. apply average_close. intros U HU.
      apply average_close. intros S HS. apply average_close. intros E HE. apply average_close. intros Y HY. apply average_close. intros W HW.
      apply average_close. intros d Hd. apply average_close. intros sigma Hs. apply average_close. intros r Hr.
      apply HL in Hm. apply HL in HK. apply HL in Hd. apply HL in Hs. apply HL in Hr.
      apply HLS in HS. apply HLE in HE. apply HLY in HY. apply HLW in HW.
      apply passive_close; assumption. }
    set (c := 3 * inject_Z (Z.of_nat N) * unit + unit).
    assert (C0 : 0 <= c).
    { unfold c. apply Qle_trans with (0 + 0); [discriminate|]. apply Qplus_le_compat; [|discriminate].
      apply Qmult_le_0_compat; [|discriminate]. apply Qmult_le_0_compat; [discriminate|]. unfold Qle. cbn [Qnum Qden inject_Z]. lia. }
    assert (up : forall (L0 : list (list Z)) f g, (forall x, In x L0 -> f x <= g x + c) -> average L0 f <= average L0 g + c).
    { intros L0 f g H. eapply Qle_trans; [apply average_le; exact H|]. rewrite average_plus.
      apply Qplus_le_compat; [apply Qle_refl|]. apply average_bound; [exact C0|]. intros; apply Qle_refl. }
    apply Qle_trans with (average L (fun m => average L (fun K => tapes (fun S E Y W => finds hs att m K (pub S E) (cipher m S E Y W)))) + c).
    { apply up. intros m _.
      rewrite <- (average_real real (fun X => tapes (fun S E Y W => finds hs att m X (pub S E) (cipher m S E Y W)))).
      unfold tapes. do 6 (apply up; intros ? _). apply lucky_average. }
    eapply Qle_trans; [apply Qplus_le_compat; [apply finds_bound|apply Qle_refl]|].
    unfold passive_bound, c.
    setoid_replace ((4 * inject_Z (Z.of_nat N) + 1) * unit) with (4 * (inject_Z (Z.of_nat N) * unit) + unit) by ring.
    setoid_replace (3 * inject_Z (Z.of_nat N) * unit) with (3 * (inject_Z (Z.of_nat N) * unit)) by ring.
    set (x := inject_Z (Z.of_nat N) * unit). clearbody x. lra.
  Qed.

  Lemma passive_bounded :
    Qabs (passive_experiment hs P n rho z att L LS LE LY LW true - passive_experiment hs P n rho z att L LS LE LY LW false) <=
    2 * passive_bound.
  Proof.
    pose proof (passive_ideal true) as B1. pose proof (passive_ideal false) as B0.
    set (e1 := passive_experiment _ _ _ _ _ _ _ _ _ _ _ true) in *. set (e0 := passive_experiment _ _ _ _ _ _ _ _ _ _ _ false) in *.
    set (i := average L _) in *. set (b := passive_bound) in *. clearbody e1 e0 i b. clear - B1 B0.
    apply Qabs_Qle_condition in B1. apply Qabs_Qle_condition in B0. apply Qabs_Qle_condition. split; lra.
  Qed.
End Passive.

(** ** The theorem *)

(** All steps of the game use one hash function: key generation with the final hash function
    gives the same key pair. *)
Theorem C70_one_hash_function hs P n rho z d sigma r S E Y W m h y :
  byte_string 32 d -> byte_string 32 m -> byte_string 32 h ->
  let h1 := keys_world hs P rho d sigma r S E Y W in
  kem_generate_deterministic (with_sha3_512 h1 (m ++ h) y) P n d z = kem_generate_deterministic h1 P n d z.
Proof.
  intros Hd Hm Hh. cbv zeta. set (h1 := keys_world hs P rho d sigma r S E Y W).
  unfold kem_generate_deterministic, decaps_key_generate_deterministic, pke_generate.
  assert (EG : G (with_sha3_512 h1 (m ++ h) y) [d; [K_U8 P]] = G h1 [d; [K_U8 P]]).
  { unfold G. cbn [with_sha3_512 sha3_512 concat app].
    destruct (list_eq_dec Z.eq_dec _ (m ++ h)) as [Q|_]; [|reflexivity].
    apply (f_equal (@length Z)) in Q. rewrite !app_length in Q. rewrite (proj1 Hd), (proj1 Hm), (proj1 Hh) in Q. discriminate Q. }
  rewrite EG. reflexivity.
Qed.

(** An attacker that asks at most N hash questions tells the shared secret from a random
    string with probability at most 2 ((4 N + 1) / 2^256 + gap1 + gap2): the gaps are those
    of two distinguishers against MLWE, which run the attacker and watch its questions. *)
Theorem C70_passive hs P n rho z Ah att N L LS LE LY LW LT LV r0 :
  hash_ok hs -> wf_params P -> byte_string 32 rho -> byte_string 32 z ->
  A_hat hs P n rho = Some Ah ->
  (forall ek c K, within N 0 (att ek c K)) ->
  enumerates 32 L ->
  enumerates (pk P * (64 * eta1 P)) LS -> enumerates (pk P * (64 * eta1 P)) LE ->
  enumerates (pk P * (64 * eta1 P)) LY -> enumerates ((pk P + 1) * (64 * eta2 P)) LW ->
  all_vectors (pk P) LT -> all_vectors (pk P + 1) LV ->
  let A := map (map NTTinv) Ah in
  let gap1 := lwe_gap (pk P) (pk P) (eta1 P) (eta1 P) A LS LE LT (finds_key_test hs P n rho r0 L LY LW att) in
  let gap2 := average LT (fun t => lwe_gap (pk P) (pk P + 1) (eta1 P) (eta2 P) (ct_matrix (pk P) A t)
                            LY LW LV (finds_ct_test hs P rho L att t)) in
  (Qabs (passive_experiment hs P n rho z att L LS LE LY LW true - passive_experiment hs P n rho z att L LS LE LY LW false) <=
   2 * ((4 * inject_Z (Z.of_nat N) + 1) / inject_Z (2 ^ 256) + gap1 + gap2))%Q.
Proof.
  intros Hhs HP Hrho Hz EA Hatt HL HLS HLE HLY HLW HLT HLV. cbv zeta.
  eapply Qle_trans; [exact (passive_bounded hs Hhs P HP n rho z Hrho Hz Ah EA att N Hatt L LS LE LY LW LT LV HL HLS HLE HLY HLW HLT HLV r0)|].
  unfold passive_bound. unfold Qdiv. rewrite Qmult_1_l. apply Qle_refl.
Qed.

(** ** cases *)

(** An attacker that knows [m] recomputes the shared secret: it answers 1 on the shared
    secret and 0 on every other string.  The theorem says that [m] stays hidden, not that the
    game cannot be won. *)
Definition knows (m : list Z) (ek c K : list Z) : attacker :=
  Ask Sha3_256 ek 32 (fun h => Ask Sha3_512 (m ++ h) 64 (fun y =>
    Answer (if list_eq_dec Z.eq_dec (firstn 32 y) K then 1%Q else 0%Q))).

Example C70_case_knows hs P n rho z Ah m K U S E Y W d sigma r :
  hash_ok hs -> wf_params P -> byte_string 32 rho -> byte_string 32 z -> A_hat hs P n rho = Some Ah ->
  byte_string 32 m -> byte_string 32 K -> byte_string 32 d -> byte_string 32 sigma -> byte_string 32 r ->
  byte_string (pk P * (64 * eta1 P)) S -> byte_string (pk P * (64 * eta1 P)) E ->
  byte_string (pk P * (64 * eta1 P)) Y -> byte_string ((pk P + 1) * (64 * eta2 P)) W ->
  r <> sigma -> U <> K ->
  within 2 0 (knows m (sha3_256 hs []) [] K) /\
  passive_game hs P n rho z (knows m) true m K U S E Y W d sigma r = 1%Q /\
  passive_game hs P n rho z (knows m) false m K U S E Y W d sigma r = 0%Q.
Proof.
  intros Hhs HP Hrho Hz EA Hm HK Hd Hs Hr HS HE HY HW Hne HU.
  split.
  { cbn [knows within]. intros h y. destruct (list_eq_dec _ _ _); split; discriminate. }
  rewrite !(passive_view hs Hhs P HP n rho z Hrho Hz Ah EA) by assumption.
  unfold knows. cbn [run reply].
  set (ek := key_bytes P rho _).
  change (sha3_256 (passive_world hs P rho Ah m K S E Y W d sigma r) ek) with (sha3_256 hs ek).
  assert (E1 : sha3_512 (passive_world hs P rho Ah m K S E Y W d sigma r) (m ++ sha3_256 hs ek) = K ++ r).
  { unfold passive_world. cbn [with_sha3_512 sha3_512]. fold ek.
    destruct (list_eq_dec Z.eq_dec _ _) as [_|X]; [reflexivity|contradiction]. }
  rewrite E1, firstn_app_exact by apply HK.
  destruct (list_eq_dec Z.eq_dec K K) as [_|X]; [|contradiction].
  destruct (list_eq_dec Z.eq_dec K U) as [X|_]; [subst U; contradiction|]. split; reflexivity.
Qed.

(** Every run reaches the attacker, except possibly those with r = sigma. *)
Example C70_reached hs P n rho z Ah p real m K U S E Y W d sigma r :
  hash_ok hs -> wf_params P -> byte_string 32 rho -> byte_string 32 z -> A_hat hs P n rho = Some Ah ->
  byte_string 32 m -> byte_string 32 K -> byte_string 32 d -> byte_string 32 sigma -> byte_string 32 r ->
  byte_string (pk P * (64 * eta1 P)) S -> byte_string (pk P * (64 * eta1 P)) E ->
  byte_string (pk P * (64 * eta1 P)) Y -> byte_string ((pk P + 1) * (64 * eta2 P)) W -> r <> sigma ->
  passive_game hs P n rho z (fun _ _ _ => Answer p) real m K U S E Y W d sigma r = p.
Proof.
  intros Hhs HP Hrho Hz EA Hm HK Hd Hs Hr HS HE HY HW Hne.
  rewrite (passive_view hs Hhs P HP n rho z Hrho Hz Ah EA) by assumption. reflexivity.
Qed.

(** The hypotheses are met for the three parameter sets with the hash function of C05. *)
Example C70_case P rho z att N : In P [ML_KEM_512; ML_KEM_768; ML_KEM_1024] ->
  byte_string 32 rho -> byte_string 32 z -> (forall ek c K, within N 0 (att ek c K)) ->
  let hs := unlucky (pk P) (eta1 P) in
  let L := tuples (upto 256) 32 in
  let LS := tuples (upto 256) (pk P * (64 * eta1 P)) in
  let LW := tuples (upto 256) ((pk P + 1) * (64 * eta2 P)) in
  exists Ah, let A := map (map NTTinv) Ah in
  let gap1 := lwe_gap (pk P) (pk P) (eta1 P) (eta1 P) A LS LS (vectors (pk P)) (finds_key_test hs P 128 rho rho L LS LW att) in
  let gap2 := average (vectors (pk P)) (fun t => lwe_gap (pk P) (pk P + 1) (eta1 P) (eta2 P) (ct_matrix (pk P) A t)
                            LS LW (vectors (pk P + 1)) (finds_ct_test hs P rho L att t)) in
  (Qabs (passive_experiment hs P 128 rho z att L LS LS LS LW true - passive_experiment hs P 128 rho z att L LS LS LS LW false) <=
   2 * ((4 * inject_Z (Z.of_nat N) + 1) / inject_Z (2 ^ 256) + gap1 + gap2))%Q.
Proof.
  intros HI Hrho Hz Hatt hs L LS LW. destruct (unlucky_A P rho) as [Ah EA]. exists Ah.
  assert (HP : wf_params P) by (destruct HI as [<-|[<-|[<-|[]]]]; [apply wf_512|apply wf_768|apply wf_1024]).
  exact (C70_passive hs P 128 rho z Ah att N L LS LS LS LW (vectors (pk P)) (vectors (pk P + 1)) rho
    (unlucky_ok _ _) HP Hrho Hz EA Hatt (enumeration _) (enumeration _) (enumeration _) (enumeration _) (enumeration _)
    (vectors_all _) (vectors_all _)).
Qed.

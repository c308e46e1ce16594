(** C82: ML-KEM encapsulations do not tell for whom they are, in the random-oracle model, up
    to MLWE.

    Two key pairs are generated; the attacker sees both public keys, and a ciphertext with its
    shared secret that was encapsulated to one of them.  It may evaluate the hash functions
    everywhere; as in C70, their answers are uniform where the honest parties evaluate them on
    secret inputs, and arbitrary elsewhere. *)
From Coq Require Import List ZArith Lia Bool Arith.
From Verif.Base Require Import Res Oracles.
From Verif.Spec Require Import FIPS203 Domains Noise Counting Random Lwe Attacker.
From Verif.Model Require Import Machine Util Algebra Compress Encode Crypto Sample Param Pke Kem.
From Verif.Proofs Require Import Basics Field Poly CompressProofs NttAlgebra NttProofs EncodeProofs VecEncode SampleProofs CountProofs
  PkeProofs KemProofs Inner Correctness TailProofs FailureProofs FailureAverage FailureNumbers LweProofs AttackerProofs TableProofs.
From Verif.Tests Require Import Toy.
From Verif.Properties Require Import Kem KemCases Correctness Distribution Failure Secrecy KemSecrecy Anonymity.
From Coq Require Import QArith Qabs Lqa.
Import ListNotations.
Open Scope Z_scope.

(** The hash functions of the key generation of one party: G(d || k) is rho || sigma, and the
    PRF outputs for sigma are S and E. *)
Definition party_world (hs : hashes) (P : params) (rho d sigma S E : list Z) : hashes :=
  with_secrets (with_sha3_512 hs (d ++ [Z.of_nat (pk P)]) (rho ++ sigma)) P sigma (S ++ E).

(** Generate the key pair of the other party from d' and that of the recipient from d,
    encapsulate to the recipient with [m] when G(m || H(ek)) is K || r, and show the attacker
    the two public keys, the ciphertext and the shared secret. *)
Definition kem_anon_game (hs : hashes) (P : params) (n : nat) (rho rho' z z' : list Z)
  (att : list Z -> list Z -> list Z -> list Z -> attacker)
  (S' E' d' sigma' m K S E Y W d sigma r : list Z) : Q :=
  let h1 := keys_world (party_world hs P rho' d' sigma' S' E') P rho d sigma r S E Y W in
  match kem_generate_deterministic h1 P n d' z', kem_generate_deterministic h1 P n d z with
  | Ok (_, other), Ok (_, ek) =>
      match encaps_key_as_bytes P other, encaps_key_as_bytes P ek with
      | Ok ob, Ok ekb =>
          let h2 := with_sha3_512 h1 (m ++ sha3_256 hs ekb) (K ++ r) in
          match encapsulate_deterministic h2 P n ek m with
          | Ok (c, key) => run h2 no_answer (att ob ekb c key)
          | _ => 0%Q
          end
      | _, _ => 0%Q
      end
  | _, _ => 0%Q
  end.

(** the probability of the answer 1 *)
Definition kem_anon_average (hs : hashes) (P : params) (n : nat) (rho rho' z z' : list Z)
  (att : list Z -> list Z -> list Z -> list Z -> attacker) (L LS LE LY LW : list (list Z)) : Q :=
  average LS (fun S' => average LE (fun E' => average L (fun d' => average L (fun sigma' =>
  average L (fun m => average L (fun K =>
  average LS (fun S => average LE (fun E => average LY (fun Y => average LW (fun W =>
  average L (fun d => average L (fun sigma => average L (fun r =>
    kem_anon_game hs P n rho rho' z z' att S' E' d' sigma' m K S E Y W d sigma r))))))))))))).
(** parties 0 and 1; the recipient is party 1 if [b], party 0 otherwise, and the attacker sees
    the key of party 0 first *)
Definition kem_anon_experiment (hs : hashes) (P : params) (n : nat) (rho0 rho1 z0 z1 : list Z)
  (att : list Z -> list Z -> list Z -> list Z -> attacker) (L LS LE LY LW : list (list Z)) (b : bool) : Q :=
  kem_anon_average hs P n (if b then rho1 else rho0) (if b then rho0 else rho1) (if b then z1 else z0) (if b then z0 else z1)
    (seen b att) L LS LE LY LW.

(** ** The distinguishers *)

Definition recipient_key (P : params) (rho : list Z) (A : list (list (list Z))) (S E : list Z) : list Z :=
  key_bytes P rho (lwe_samples (pk P) (pk P) A (cbd_vec (eta1 P) (pk P) S) (cbd_vec (eta1 P) (pk P) E)).
(** what the attacker answers *)
Definition judge (h : hashes) (att : list Z -> list Z -> list Z -> attacker) (K ek c : list Z) : Q := run h no_answer (att ek c K).
(** Run the attacker on a key and a ciphertext for a random message; on the key and a ciphertext
    of uniform polynomials. *)
Definition judge_key_test (h : hashes) (P : params) (n : nat) (rho r : list Z) (L LY LW : list (list Z))
  (att : list Z -> list Z -> list Z -> attacker) (t : list (list Z)) : Q :=
  average L (fun m => average L (fun K => key_test h P n rho r LY LW (fun _ => m) (judge h att K) t)).
Definition judge_ct_test (h : hashes) (P : params) (rho : list Z) (L : list (list Z))
  (att : list Z -> list Z -> list Z -> attacker) (t w : list (list Z)) : Q :=
  average L (fun m => average L (fun K => ct_test P rho (fun _ => m) (judge h att K) t w)).
Definition judge_blind_test (h : hashes) (P : params) (rho : list Z) (L : list (list Z)) (LV : list (list (list Z)))
  (att : list Z -> list Z -> list Z -> attacker) (t : list (list Z)) : Q :=
  average LV (fun w => average L (fun K => judge h att K (key_bytes P rho t) (uniform_ct P w))).

(** the gaps of the five distinguishers *)
Definition finds_key_gap h P n rho r A L LS LE LY LW LT att : Q :=
  lwe_gap (pk P) (pk P) (eta1 P) (eta1 P) A LS LE LT (finds_key_test h P n rho r L LY LW att).
Definition finds_ct_gap h P rho A L LY LW LT LV att : Q :=
  average LT (fun t => lwe_gap (pk P) (pk P + 1) (eta1 P) (eta2 P) (ct_matrix (pk P) A t) LY LW LV (finds_ct_test h P rho L att t)).
Definition judge_key_gap h P n rho r A L LS LE LY LW LT att : Q :=
  lwe_gap (pk P) (pk P) (eta1 P) (eta1 P) A LS LE LT (judge_key_test h P n rho r L LY LW att).
Definition judge_ct_gap h P rho A L LY LW LT LV att : Q :=
  average LT (fun t => lwe_gap (pk P) (pk P + 1) (eta1 P) (eta2 P) (ct_matrix (pk P) A t) LY LW LV (judge_ct_test h P rho L att t)).
Definition judge_blind_gap h P rho A L LS LE LT LV att : Q :=
  lwe_gap (pk P) (pk P) (eta1 P) (eta1 P) A LS LE LT (judge_blind_test h P rho L LV att).
Definition kem_anon_loss h P n rho r A L LS LE LY LW LT LV att : Q :=
  (finds_key_gap h P n rho r A L LS LE LY LW LT att + finds_ct_gap h P rho A L LY LW LT LV att +
   Qabs (judge_key_gap h P n rho r A L LS LE LY LW LT att) + Qabs (judge_ct_gap h P rho A L LY LW LT LV att) +
   Qabs (judge_blind_gap h P rho A L LS LE LT LV att))%Q.

Lemma average_near {X} (L : list X) f g c : (0 <= c)%Q -> (forall x, In x L -> Qabs (f x - g x) <= c)%Q ->
  (Qabs (average L f - average L g) <= c)%Q.
Proof. intros C0 H. eapply Qle_trans; [apply (average_close L f g (fun _ => c)), H|]. apply average_bound; [exact C0|]. intros; apply Qle_refl. Qed.
Lemma near_trans x y z a b : (Qabs (x - y) <= a)%Q -> (Qabs (y - z) <= b)%Q -> (Qabs (x - z) <= a + b)%Q.
Proof.
  intros H1 H2. apply Qabs_Qle_condition in H1. apply Qabs_Qle_condition in H2. apply Qabs_Qle_condition. split; lra.
Qed.

Section Recipient.
  Variable hs : hashes.
  Hypothesis Hhs : hash_ok hs.
  Variable P : params.
  Hypothesis HP : wf_params P.
  Let k := pk P.
  Variable n : nat.
  Variables rho rho' z z' : list Z.
  Hypothesis Hrho : byte_string 32 rho.
  Hypothesis Hrho' : byte_string 32 rho'.
  Hypothesis Hz : byte_string 32 z.
  Hypothesis Hz' : byte_string 32 z'.
  Variables Ah Ah' : list (list (list Z)).
  Hypothesis EA : A_hat hs P n rho = Some Ah.
  Hypothesis EA' : A_hat hs P n rho' = Some Ah'.
  Let A := map (map NTTinv) Ah.
  Let A' := map (map NTTinv) Ah'.
  Variable att : list Z -> list Z -> list Z -> list Z -> attacker.
  Variable N : nat.
  Hypothesis Hatt : forall o ek c K, within N 0 (att o ek c K).
  Let pub := recipient_key P rho A.
  Let pub' := recipient_key P rho' A'.
  Let hO d' sigma' S' E' := party_world hs P rho' d' sigma' S' E'.

  Lemma party_ok d' sigma' S' E' : byte_string 32 sigma' ->
    byte_string (k * (64 * eta1 P)) S' -> byte_string (k * (64 * eta1 P)) E' -> hash_ok (hO d' sigma' S' E').
  Proof.
    intros Hs HS HE. apply with_secrets_ok; [|apply bytes_app; [apply HS|apply HE]].
    apply with_sha3_512_ok; [exact Hhs|apply (byte_string_app 32 32); assumption].
  Qed.

  (** the key pair of the other party, with its own hash functions and with those of the game *)
  Lemma party_key d' sigma' S' E' : byte_string 32 d' -> byte_string 32 sigma' ->
    byte_string (k * (64 * eta1 P)) S' -> byte_string (k * (64 * eta1 P)) E' ->
    KPKE_KeyGen (hO d' sigma' S' E') P n d' = Some (pub' S' E', secret_bytes P S').
  Proof.
    intros Hd Hs HS HE. set (h := with_sha3_512 hs (d' ++ [Z.of_nat (pk P)]) (rho' ++ sigma')).
    assert (Hh : hash_ok h) by (apply with_sha3_512_ok; [exact Hhs|apply (byte_string_app 32 32); assumption]).
    assert (EG : FIPS203.G h (d' ++ [Z.of_nat (pk P)]) = (rho', sigma')).
    { unfold FIPS203.G, h. cbn [with_sha3_512 sha3_512].
      destruct (list_eq_dec Z.eq_dec _ _) as [_|X]; [|contradiction].
      rewrite firstn_app_exact, skipn_app_exact by apply Hrho'. reflexivity. }
    assert (Es : key_sigma h P d' = sigma') by (unfold key_sigma; rewrite EG; reflexivity).
    assert (Er : key_rho h P d' = rho') by (unfold key_rho; rewrite EG; reflexivity).
    pose proof (keygen_lwe h Hh P HP n d' Ah' S' E' (proj2 Hd) HS HE) as X. rewrite Er, Es in X. exact (X EA').
  Qed.
  Lemma keygen_same h h' d : shake128 h' = shake128 h ->
    sha3_512 h' (d ++ [Z.of_nat (pk P)]) = sha3_512 h (d ++ [Z.of_nat (pk P)]) ->
    (forall a t, shake256 h' (ask_secrets (sigma_of h P d) a) t = shake256 h (ask_secrets (sigma_of h P d) a) t) ->
    KPKE_KeyGen h' P n d = KPKE_KeyGen h P n d.
  Proof.
    intros E1 E2 E3. unfold KPKE_KeyGen.
    assert (EG : FIPS203.G h' (d ++ [Z.of_nat (pk P)]) = FIPS203.G h (d ++ [Z.of_nat (pk P)])) by (unfold FIPS203.G; rewrite E2; reflexivity).
    rewrite EG.
    assert (EN : forall eta N0, noise h' P eta (sigma_of h P d) N0 = noise h P eta (sigma_of h P d) N0).
    { intros eta N0. unfold noise. apply tab_ext. intros i Hi. f_equal.
      unfold FIPS203.PRF, prefix. apply tab_ext. intros t Ht. apply E3. }
    change (sigma_of h P d) with (snd (FIPS203.G h (d ++ [Z.of_nat (pk P)]))) in EN.
    destruct (FIPS203.G h (d ++ [Z.of_nat (pk P)])) as [rh sig]. cbn [snd] in EN.
    assert (EH : A_hat h' P n rh = A_hat h P n rh) by (unfold A_hat, SampleNTT; rewrite E1; reflexivity).
    rewrite EH, !EN. reflexivity.
  Qed.
  Lemma other_key d' sigma' S' E' d sigma r S E Y W : byte_string 32 d' -> byte_string 32 sigma' ->
    byte_string (k * (64 * eta1 P)) S' -> byte_string (k * (64 * eta1 P)) E' ->
    d <> d' -> sigma <> sigma' -> r <> sigma' ->
    KPKE_KeyGen (keys_world (hO d' sigma' S' E') P rho d sigma r S E Y W) P n d' = Some (pub' S' E', secret_bytes P S').
  Proof.
    intros Hd' Hs' HS' HE' N1 N2 N3. rewrite <- (party_key d' sigma' S' E') by assumption.
    assert (Es : sigma_of (hO d' sigma' S' E') P d' = sigma').
    { unfold sigma_of, FIPS203.G, hO. cbn [party_world with_secrets with_sha3_512 sha3_512].
      destruct (list_eq_dec Z.eq_dec _ _) as [_|X]; [|contradiction].
      rewrite skipn_app_exact by apply Hrho'. reflexivity. }
    apply keygen_same.
    - reflexivity.
    - cbn [keys_world with_secrets with_coins with_sha3_512 sha3_512].
      destruct (list_eq_dec Z.eq_dec (d' ++ [Z.of_nat (pk P)]) (d ++ [Z.of_nat (pk P)])) as [Q|_]; [|reflexivity].
      apply app_inj_tail in Q. destruct Q as [Q _]. congruence.
    - intros a t. rewrite Es. cbn [keys_world with_secrets with_coins with_sha3_512 shake256].
      assert (D : forall s, s <> sigma' -> forall b, ask_secrets sigma' a <> ask_secrets s b).
      { intros s Hne b Q. unfold ask_secrets in Q. apply app_inj_tail in Q. destruct Q as [Q _]. congruence. }
      rewrite !answer_other by (intros b _; apply D; assumption). reflexivity.
  Qed.

  (** without collisions, the game is the one of C70 *)
  Lemma game_passive S' E' d' sigma' m K U S E Y W d sigma r : byte_string 32 d' -> byte_string 32 sigma' ->
    byte_string (k * (64 * eta1 P)) S' -> byte_string (k * (64 * eta1 P)) E' ->
    byte_string 32 sigma -> 
    byte_string (k * (64 * eta1 P)) S -> byte_string (k * (64 * eta1 P)) E ->
    byte_string (k * (64 * eta1 P)) Y -> byte_string ((k + 1) * (64 * eta2 P)) W ->
    d <> d' -> sigma <> sigma' -> r <> sigma' ->
    kem_anon_game hs P n rho rho' z z' att S' E' d' sigma' m K S E Y W d sigma r =
    passive_game (hO d' sigma' S' E') P n rho z (att (pub' S' E')) true m K U S E Y W d sigma r.
  Proof.
    intros Hd' Hs' HS' HE' Hs HS HE HY HW N1 N2 N3.
    unfold kem_anon_game, passive_game. cbv zeta. fold (hO d' sigma' S' E').
    set (h1 := keys_world (hO d' sigma' S' E') P rho d sigma r S E Y W).
    assert (H1 : hash_ok h1).
    { apply with_secrets_ok; [|apply bytes_app; [apply HS|apply HE]]. apply with_coins_ok; [|apply HY|apply HW].
      apply with_sha3_512_ok; [apply party_ok; assumption|apply (byte_string_app 32 32); assumption]. }
    pose proof (generate_ok h1 H1 P HP n d' z' (proj2 Hd') Hz') as G. unfold KeyGen_internal in G.
    unfold h1 in G at 1. rewrite other_key in G by assumption. fold h1 in G.
    destruct G as (dk & E1 & V & _ & E2 & _).
    assert (Ve : valid_encaps_key P (dk_ek dk)) by apply V.
    rewrite E1, (encaps_key_as_bytes_ok P (dk_ek dk) Ve), E2.
    change (sha3_256 (hO d' sigma' S' E')) with (sha3_256 hs).
    destruct (kem_generate_deterministic h1 P n d z) as [[dk0 ek]| | |]; try reflexivity.
  Qed.
  Open Scope Q_scope.

  Lemma anon_game_range S' E' d' sigma' m K S E Y W d sigma r :
    0 <= kem_anon_game hs P n rho rho' z z' att S' E' d' sigma' m K S E Y W d sigma r <= 1.
  Proof.
    unfold kem_anon_game. cbv zeta.
    repeat match goal with
    | |- context [match ?x with Ok _ => _ | _ => _ end] => destruct x as [[? ?]| | |]; try lra
    | |- context [match ?x with Ok _ => _ | _ => _ end] => destruct x as [?| | |]; try lra
    end.
    eapply run_range, Hatt.
  Qed.
  Lemma passive_game_range h (a : list Z -> list Z -> list Z -> attacker) real m K U S E Y W d sigma r :
    (forall ek c X, within N 0 (a ek c X)) -> 0 <= passive_game h P n rho z a real m K U S E Y W d sigma r <= 1.
  Proof. intros H. apply (game_range h P n rho z a N H). Qed.

  Let same (x y : list Z) : Q := one_if (if list_eq_dec Z.eq_dec x y then true else false).
  Let collide (d' sigma' d sigma r : list Z) : Q := same d' d + same sigma' sigma + same sigma' r.
  Lemma same_refl x : same x x = 1.
  Proof. unfold same. destruct (list_eq_dec Z.eq_dec x x); [reflexivity|contradiction]. Qed.
  Lemma same_range x y : 0 <= same x y <= 1.
  Proof. apply one_if_range. Qed.
  Lemma game_close S' E' d' sigma' m K U S E Y W d sigma r : byte_string 32 d' -> byte_string 32 sigma' ->
    byte_string (k * (64 * eta1 P)) S' -> byte_string (k * (64 * eta1 P)) E' ->
    byte_string 32 sigma ->
    byte_string (k * (64 * eta1 P)) S -> byte_string (k * (64 * eta1 P)) E ->
    byte_string (k * (64 * eta1 P)) Y -> byte_string ((k + 1) * (64 * eta2 P)) W ->
    Qabs (kem_anon_game hs P n rho rho' z z' att S' E' d' sigma' m K S E Y W d sigma r -
      passive_game (hO d' sigma' S' E') P n rho z (att (pub' S' E')) true m K U S E Y W d sigma r) <= collide d' sigma' d sigma r.
  Proof.
    intros Hd' Hs' HS' HE' Hs HS HE HY HW.
    pose proof (anon_game_range S' E' d' sigma' m K S E Y W d sigma r) as R1.
    pose proof (passive_game_range (hO d' sigma' S' E') (att (pub' S' E')) true m K U S E Y W d sigma r (Hatt _)) as R2.
    pose proof (same_range d' d) as C1. pose proof (same_range sigma' sigma) as C2. pose proof (same_range sigma' r) as C3.
    unfold collide.
    destruct (list_eq_dec Z.eq_dec d d') as [->|N1]; [rewrite same_refl; apply Qabs_Qle_condition; split; lra|].
    destruct (list_eq_dec Z.eq_dec sigma sigma') as [->|N2]; [rewrite same_refl; apply Qabs_Qle_condition; split; lra|].
    destruct (list_eq_dec Z.eq_dec r sigma') as [->|N3]; [rewrite same_refl; apply Qabs_Qle_condition; split; lra|].
    rewrite (game_passive S' E' d' sigma' m K U) by assumption.
    apply Qabs_Qle_condition. split; lra.
  Qed.

  (** ** averages *)
  Variables L LS LE LY LW : list (list Z).
  Variables LT LV : list (list (list Z)).
  Hypothesis HL : enumerates 32 L.
  Hypothesis HLS : enumerates (k * (64 * eta1 P)) LS.
  Hypothesis HLE : enumerates (k * (64 * eta1 P)) LE.
  Hypothesis HLY : enumerates (k * (64 * eta1 P)) LY.
  Hypothesis HLW : enumerates ((k + 1) * (64 * eta2 P)) LW.
  Hypothesis HLT : all_vectors k LT.
  Hypothesis HLV : all_vectors (k + 1) LV.
  Variable r0 : list Z.
  Let unit := 1 / inject_Z (2 ^ 256).
  Let u := inject_Z (Z.of_nat N) * unit.
  Lemma u_nonneg : 0 <= u.
  Proof. apply Qmult_le_0_compat; [|discriminate]. unfold Qle. cbn [Qnum Qden inject_Z]. lia. Qed.
  Lemma unit_nonneg : 0 <= unit.
  Proof. discriminate. Qed.

  Lemma collide_average d' sigma' :
    average L (fun d => average L (fun sigma => average L (fun r => collide d' sigma' d sigma r))) <= 3 * unit.
  Proof.
    pose proof (fun x => same_point L HL x) as SP. fold unit in SP.
    assert (I1 : forall d sigma, average L (fun r => collide d' sigma' d sigma r) <= (same d' d + unit) + same sigma' sigma).
    { intros d sigma. unfold collide. eapply Qle_trans; [apply (average_shift L HL _ (fun r => same sigma' r)); apply SP|]. lra. }
    assert (I2 : forall d, average L (fun sigma => average L (fun r => collide d' sigma' d sigma r)) <= 2 * unit + same d' d).
    { intros d. eapply Qle_trans; [apply average_le; intros sigma _; apply I1|].
      eapply Qle_trans; [apply (average_shift L HL _ (fun sigma => same sigma' sigma)); apply SP|]. lra. }
    eapply Qle_trans; [apply average_le; intros d _; apply I2|].
    eapply Qle_trans; [apply (average_shift L HL _ (fun d => same d' d)); apply SP|]. lra.
  Qed.

  Let game_average S' E' d' sigma' :=
    average L (fun m => average L (fun K => average LS (fun S => average LE (fun E => average LY (fun Y => average LW (fun W =>
    average L (fun d => average L (fun sigma => average L (fun r =>
      kem_anon_game hs P n rho rho' z z' att S' E' d' sigma' m K S E Y W d sigma r))))))))).
  Let cipher m S E Y W :=
    let w := lwe_samples k (k + 1) (ct_matrix k A (lwe_samples k k A (cbd_vec (eta1 P) k S) (cbd_vec (eta1 P) k E)))
               (cbd_vec (eta1 P) k Y) (cbd_vec (eta2 P) (k + 1) W) in
    ct_bytes P (firstn k w) (padd (nth k w []) (enc_mu m)).
  Let ideal h o := average L (fun m => average L (fun K => average LS (fun S => average LE (fun E => average LY (fun Y => average LW (fun W =>
    judge h (att o) K (pub S E) (cipher m S E Y W))))))).
  Let blind h o := average LS (fun S => average LE (fun E => average LV (fun w => average L (fun K =>
    judge h (att o) K (pub S E) (uniform_ct P w))))).

  Lemma L_inhabited : L <> [].
  Proof. exact (list_nonempty L HL). Qed.

  (** the game of the two parties and C70's *)
  Lemma game_ideal S' E' d' sigma' : byte_string 32 d' -> byte_string 32 sigma' ->
    byte_string (k * (64 * eta1 P)) S' -> byte_string (k * (64 * eta1 P)) E' ->
    let h := hO d' sigma' S' E' in
    let o := pub' S' E' in
    Qabs (game_average S' E' d' sigma' - ideal h o) <=
    3 * unit + (4 * u + unit + finds_key_gap h P n rho r0 A L LS LE LY LW LT (att o) + finds_ct_gap h P rho A L LY LW LT LV (att o)).
  Proof.
    intros Hd' Hs' HS' HE' h o.
    apply (near_trans _ (passive_experiment h P n rho z (att o) L LS LE LY LW true)).
    - unfold passive_experiment, game_average. 
      assert (U3 : 0 <= 3 * unit) by (pose proof unit_nonneg; lra).
      apply average_near; [exact U3|]. intros m Hm. apply average_near; [exact U3|]. intros K HK.
      match goal with |- Qabs (?f - _) <= _ => rewrite <- (average_const L f L_inhabited) end.
      apply average_near; [exact U3|]. intros U _.
      apply average_near; [exact U3|]. intros S HS. apply average_near; [exact U3|]. intros E HE.
      apply average_near; [exact U3|]. intros Y HY. apply average_near; [exact U3|]. intros W HW.
      eapply Qle_trans; [|apply (collide_average d' sigma')].
      apply average_close. intros d Hd. apply average_close. intros sigma Hs. apply average_close. intros r Hr.
      apply HL in Hs. apply HLS in HS. apply HLE in HE. apply HLY in HY. apply HLW in HW.
      apply game_close; assumption.
    - pose proof (passive_ideal h (party_ok d' sigma' S' E' Hs' HS' HE') P HP n rho z Hrho Hz Ah EA (att o) N (Hatt o)
        L LS LE LY LW LT LV HL HLS HLE HLY HLW HLT HLV r0 true) as X.
      eapply Qle_trans; [exact X|]. unfold passive_bound, finds_key_gap, finds_ct_gap. fold A k unit u.
      match goal with |- ?a + ?b + ?c <= _ => set (g1 := b); set (g2 := c) end.
      setoid_replace ((4 * inject_Z (Z.of_nat N) + 1) * unit) with (4 * u + unit) by (unfold u; ring). lra.
  Qed.

  (** C69's hybrid: from the ciphertext to one of uniform polynomials *)
  Lemma average_swap3 {A1 A2 A3 J} (L1 : list A1) (L2 : list A2) (L3 : list A3) (LJ : list J) f :
    average LJ (fun j => average L1 (fun a => average L2 (fun b => average L3 (fun c => f a b c j)))) ==
    average L1 (fun a => average L2 (fun b => average L3 (fun c => average LJ (fun j => f a b c j)))).
  Proof.
    rewrite average_swap. apply average_ext. intros a _. rewrite average_swap. apply average_ext. intros b _. apply average_swap.
  Qed.
  Lemma ideal_blind h o : hash_ok h -> A_hat h P n rho = Some Ah ->
    ideal h o == judge_key_gap h P n rho r0 A L LS LE LY LW LT (att o) + judge_ct_gap h P rho A L LY LW LT LV (att o)
      - judge_blind_gap h P rho A L LS LE LT LV (att o) + blind h o.
  Proof.
    intros Hh EAh.
    assert (E1 : forall m, In m L -> forall K, In K L ->
      average LS (fun S => average LE (fun E => average LY (fun Y => average LW (fun W =>
        judge h (att o) K (pub S E) (cipher m S E Y W))))) ==
      lwe_gap k k (eta1 P) (eta1 P) A LS LE LT (key_test h P n rho r0 LY LW (fun _ => m) (judge h (att o) K)) +
      average LT (fun t => lwe_gap k (k + 1) (eta1 P) (eta2 P) (ct_matrix k A t) LY LW LV (ct_test P rho (fun _ => m) (judge h (att o) K) t)) +
      average LT (fun t => average LV (fun w => judge h (att o) K (key_bytes P rho t) (uniform_ct P w)))).
    { intros m Hm K HK.
      eapply Qeq_trans; [|exact (hybrid h Hh P HP n rho (proj2 Hrho) Ah EAh r0 LS LE LY LW LT LV HLY HLW HLT HLV (fun _ => m) (judge h (att o) K))].
      unfold key_test. apply average_ext. intros S HS. apply average_ext. intros E HE.
      apply average_ext. intros Y HY. apply average_ext. intros W HW. apply HLY in HY. apply HLW in HW. cbv zeta.
      rewrite (encrypt_lwe h Hh P HP n rho Ah _ m r0 Y W (proj2 Hrho) (lwe_samples_vec _ _ _ _ _) HY HW EAh).
      reflexivity. }
    unfold ideal.
    rewrite (average_ext L _ _ (fun m Hm => average_ext L _ _ (fun K HK => E1 m Hm K HK))). clear E1.
    set (g1 := fun m K => lwe_gap k k (eta1 P) (eta1 P) A LS LE LT (key_test h P n rho r0 LY LW (fun _ => m) (judge h (att o) K))).
    set (g2 := fun m K => average LT (fun t => lwe_gap k (k + 1) (eta1 P) (eta2 P) (ct_matrix k A t) LY LW LV (ct_test P rho (fun _ => m) (judge h (att o) K) t))).
    set (g3 := fun K => average LT (fun t => average LV (fun w => judge h (att o) K (key_bytes P rho t) (uniform_ct P w)))).
    change (average L (fun m => average L (fun K => g1 m K + g2 m K + g3 K)) ==
      judge_key_gap h P n rho r0 A L LS LE LY LW LT (att o) + judge_ct_gap h P rho A L LY LW LT LV (att o)
      - judge_blind_gap h P rho A L LS LE LT LV (att o) + blind h o).
    rewrite (average_ext L _ (fun m => average L (g1 m) + average L (g2 m) + average L g3))
      by (intros m _; rewrite !average_plus; reflexivity).
    rewrite !average_plus, (average_const L _ L_inhabited).
    assert (E2 : average L (fun m => average L (g1 m)) == judge_key_gap h P n rho r0 A L LS LE LY LW LT (att o)).
    { unfold judge_key_gap, judge_key_test, g1. rewrite gap_average. apply average_ext. intros m _. rewrite gap_average. reflexivity. }
    assert (E3 : average L (fun m => average L (g2 m)) == judge_ct_gap h P rho A L LY LW LT LV (att o)).
    { unfold judge_ct_gap, judge_ct_test, g2.
      transitivity (average L (fun m => average LT (fun t => average L (fun K =>
        lwe_gap k (k + 1) (eta1 P) (eta2 P) (ct_matrix k A t) LY LW LV (ct_test P rho (fun _ => m) (judge h (att o) K) t))))).
      { apply average_ext. intros m _. apply average_swap. }
      rewrite average_swap. apply average_ext. intros t _. rewrite gap_average. apply average_ext. intros m _.
      rewrite gap_average. reflexivity. }
    assert (E4 : average L g3 == blind h o - judge_blind_gap h P rho A L LS LE LT LV (att o)).
    { unfold judge_blind_gap, lwe_gap, judge_blind_test.
      assert (B1 : average LS (fun S => average LE (fun E => average LV (fun w => average L (fun K =>
          judge h (att o) K (key_bytes P rho (lwe_samples (pk P) (pk P) A (cbd_vec (eta1 P) (pk P) S) (cbd_vec (eta1 P) (pk P) E))) (uniform_ct P w))))) ==
        blind h o) by reflexivity.
      rewrite B1.
      assert (B2 : average L g3 == average LT (fun t => average LV (fun w => average L (fun K => judge h (att o) K (key_bytes P rho t) (uniform_ct P w))))).
      { unfold g3. rewrite average_swap. apply average_ext. intros t _. apply average_swap. }
      rewrite B2. ring. }
    rewrite E2, E3, E4. ring.
  Qed.

  (** the hash functions of the other party do not matter to an attacker that does not guess
      its seeds *)
  Let start (p : hash_name * list Z) := firstn 32 (snd p).
  Lemma unprogrammed d' sigma' S' E' a : byte_string 32 d' -> byte_string 32 sigma' -> within N 0 a ->
    Qabs (run (hO d' sigma' S' E') no_answer a - run hs no_answer a) <=
    one_if (points start d' (asked hs no_answer a)) + one_if (points start sigma' (asked hs no_answer a)).
  Proof.
    intros Hd' Hs' Ha.
    pose proof (run_range (hO d' sigma' S' E') no_answer N 0 a Ha) as R1. pose proof (run_range hs no_answer N 0 a Ha) as R2.
    destruct (points start d' (asked hs no_answer a)) eqn:B1.
    { cbn [one_if]. weights. apply Qabs_Qle_condition. split; lra. }
    destruct (points start sigma' (asked hs no_answer a)) eqn:B2.
    { cbn [one_if]. apply Qabs_Qle_condition. split; lra. }
    assert (PI : forall f x s, In (f, x) (asked hs no_answer a) -> firstn 32 x = s -> points start s (asked hs no_answer a) = true).
    { intros f x s I F. apply existsb_exists. exists (f, x). split; [exact I|]. unfold start. cbn [snd].
      destruct (list_eq_dec Z.eq_dec (firstn 32 x) s); [reflexivity|contradiction]. }
    assert (ER : run (hO d' sigma' S' E') no_answer a = run hs no_answer a).
    { apply run_same. intros f x I len. destruct f; cbn [reply]; try reflexivity.
      - unfold hO. cbn [party_world with_secrets with_sha3_512 sha3_512].
        destruct (list_eq_dec Z.eq_dec x (d' ++ [Z.of_nat (pk P)])) as [Q|_]; [|reflexivity].
        rewrite (PI _ x d' I) in B1; [discriminate B1|]. subst x. apply firstn_app_exact, Hd'.
      - unfold prefix. apply tab_ext. intros i Hi. unfold hO. cbn [party_world with_secrets with_sha3_512 shake256].
        rewrite answer_other; [reflexivity|]. intros b _ Q.
        rewrite (PI _ x sigma' I) in B2; [discriminate B2|]. subst x. apply firstn_app_exact, Hs'. }
    rewrite ER. cbn [one_if]. apply Qabs_Qle_condition. split; lra.
  Qed.
  Lemma unprogrammed_average S' E' a : within N 0 a ->
    Qabs (average L (fun d' => average L (fun sigma' => run (hO d' sigma' S' E') no_answer a)) - run hs no_answer a) <= 2 * u.
  Proof.
    intros Ha. rewrite <- (average_const L (run hs no_answer a) L_inhabited) at 1.
    assert (AP : average L (fun x => one_if (points start x (asked hs no_answer a))) <= u).
    { eapply Qle_trans; [apply (average_points start _ N L HL), (asked_length _ _ N 0), Ha|].
      unfold u, unit, Qdiv. rewrite Qmult_1_l. apply Qle_refl. }
    apply Qle_trans with (average L (fun d' => average L (fun sigma' =>
      one_if (points start d' (asked hs no_answer a)) + one_if (points start sigma' (asked hs no_answer a))))).
    - apply average_close. intros d' Hd'. rewrite <- (average_const L (run hs no_answer a) L_inhabited) at 1.
      apply average_close. intros sigma' Hs'. apply HL in Hd'. apply HL in Hs'. apply unprogrammed; assumption.
    - eapply Qle_trans; [apply average_le; intros d' _; apply (average_shift L HL _ (fun x => one_if (points start x (asked hs no_answer a)))); exact AP|].
      apply Qle_trans with (average L (fun d' => u + one_if (points start d' (asked hs no_answer a)))).
      { apply average_le. intros d' _. lra. }
      eapply Qle_trans; [apply (average_shift L HL _ (fun x => one_if (points start x (asked hs no_answer a)))); exact AP|]. lra.
  Qed.
  Lemma blind_close S' E' o :
    Qabs (average L (fun d' => average L (fun sigma' => blind (hO d' sigma' S' E') o)) - blind hs o) <= 2 * u.
  Proof.
    assert (U2 : 0 <= 2 * u) by (pose proof u_nonneg; lra).
    assert (X : average L (fun d' => average L (fun sigma' => blind (hO d' sigma' S' E') o)) ==
      average LS (fun S => average LE (fun E => average LV (fun w => average L (fun K =>
        average L (fun d' => average L (fun sigma' => judge (hO d' sigma' S' E') (att o) K (pub S E) (uniform_ct P w)))))))).
    { rewrite average_swap4. apply average_ext. intros d' _. rewrite average_swap4. reflexivity. }
    rewrite X. unfold blind.
    apply average_near; [exact U2|]. intros S _. apply average_near; [exact U2|]. intros E _.
    apply average_near; [exact U2|]. intros w _. apply average_near; [exact U2|]. intros K _.
    unfold judge. apply unprogrammed_average, Hatt.
  Qed.

  (** ** one recipient *)
  Lemma recipient_blind :
    Qabs (kem_anon_average hs P n rho rho' z z' att L LS LE LY LW -
          average LS (fun S' => average LE (fun E' => blind hs (pub' S' E')))) <=
    6 * u + 4 * unit +
    average LS (fun S' => average LE (fun E' => average L (fun d' => average L (fun sigma' =>
      kem_anon_loss (hO d' sigma' S' E') P n rho r0 A L LS LE LY LW LT LV (att (pub' S' E')))))).
  Proof.
    set (loss := fun S' E' d' sigma' => kem_anon_loss (hO d' sigma' S' E') P n rho r0 A L LS LE LY LW LT LV (att (pub' S' E'))).
    set (c := 4 * u + 4 * unit).
    assert (I0 : forall S' E' d' sigma', In S' LS -> In E' LE -> In d' L -> In sigma' L ->
      Qabs (game_average S' E' d' sigma' - blind (hO d' sigma' S' E') (pub' S' E')) <= c + loss S' E' d' sigma').
    { intros S' E' d' sigma' HS HE Hd Hs. apply HLS in HS. apply HLE in HE. apply HL in Hd. apply HL in Hs.
      pose proof (game_ideal S' E' d' sigma' Hd Hs HS HE) as G. cbv zeta in G.
      pose proof (ideal_blind (hO d' sigma' S' E') (pub' S' E') (party_ok d' sigma' S' E' Hs HS HE) EA) as I.
      unfold loss, kem_anon_loss, c.
      set (x := game_average S' E' d' sigma') in *. set (y := ideal _ _) in *. set (b := blind _ _) in *.
      set (f1 := finds_key_gap _ _ _ _ _ _ _ _ _ _ _ _ _) in *. set (f2 := finds_ct_gap _ _ _ _ _ _ _ _ _ _) in *.
      set (j1 := judge_key_gap _ _ _ _ _ _ _ _ _ _ _ _ _) in *. set (j2 := judge_ct_gap _ _ _ _ _ _ _ _ _ _) in *.
      set (j3 := judge_blind_gap _ _ _ _ _ _ _ _ _ _) in *.
      clearbody x y b f1 f2 j1 j2 j3.
      apply Qabs_Qle_condition in G.
      pose proof (Qle_Qabs j1) as A1. pose proof (Qle_Qabs j2) as A2. pose proof (Qle_Qabs j3) as A3.
      pose proof (Qle_Qabs (- j1)) as B1. pose proof (Qle_Qabs (- j2)) as B2. pose proof (Qle_Qabs (- j3)) as B3.
      rewrite Qabs_opp in B1, B2, B3.
      apply Qabs_Qle_condition. clearbody u unit. split; lra. }
    assert (I1 : Qabs (kem_anon_average hs P n rho rho' z z' att L LS LE LY LW -
        average LS (fun S' => average LE (fun E' => average L (fun d' => average L (fun sigma' => blind (hO d' sigma' S' E') (pub' S' E')))))) <=
      average LS (fun S' => average LE (fun E' => average L (fun d' => average L (fun sigma' => c + loss S' E' d' sigma'))))).
    { unfold kem_anon_average.
      apply average_close. intros S' HS. apply average_close. intros E' HE. apply average_close. intros d' Hd.
      apply average_close. intros sigma' Hs. apply I0; assumption. }
    assert (I2 : Qabs (average LS (fun S' => average LE (fun E' => average L (fun d' => average L (fun sigma' => blind (hO d' sigma' S' E') (pub' S' E'))))) -
        average LS (fun S' => average LE (fun E' => blind hs (pub' S' E')))) <= 2 * u).
    { assert (U2 : 0 <= 2 * u) by (pose proof u_nonneg; lra).
      apply average_near; [exact U2|]. intros S' _. apply average_near; [exact U2|]. intros E' _. apply blind_close. }
    eapply Qle_trans; [exact (near_trans _ _ _ _ _ I1 I2)|].
    assert (C0 : 0 <= c) by (unfold c; pose proof u_nonneg; pose proof unit_nonneg; lra).
    assert (up : forall (L0 : list (list Z)) f g, (forall x, In x L0 -> f x <= c + g x) -> average L0 f <= c + average L0 g).
    { intros L0 f g H. eapply Qle_trans; [apply average_le; exact H|]. rewrite average_plus.
      apply Qplus_le_compat; [|apply Qle_refl]. apply average_bound; [exact C0|]. intros; apply Qle_refl. }
    assert (I3 : average LS (fun S' => average LE (fun E' => average L (fun d' => average L (fun sigma' => c + loss S' E' d' sigma')))) <=
      c + average LS (fun S' => average LE (fun E' => average L (fun d' => average L (fun sigma' => loss S' E' d' sigma'))))).
    { do 4 (apply up; intros ? _). apply Qle_refl. }
    unfold loss, c in *. clearbody u unit. lra.
  Qed.
End Recipient.

(** ** the theorems *)

(** what C82 assumes: well-formed parameters and public values, an attacker that asks at most N
    hash questions, and lists of everything that is averaged over *)
Definition kem_anon_setting (hs : hashes) (P : params) (n : nat) (rho0 rho1 z0 z1 : list Z) (Ah0 Ah1 : list (list (list Z)))
  (att : list Z -> list Z -> list Z -> list Z -> attacker) (N : nat)
  (L LS LE LY LW : list (list Z)) (LT LV : list (list (list Z))) : Prop :=
  hash_ok hs /\ wf_params P /\ byte_string 32 rho0 /\ byte_string 32 rho1 /\ byte_string 32 z0 /\ byte_string 32 z1 /\
  A_hat hs P n rho0 = Some Ah0 /\ A_hat hs P n rho1 = Some Ah1 /\
  (forall ek0 ek1 c K, within N 0 (att ek0 ek1 c K)) /\ enumerates 32 L /\
  enumerates (pk P * (64 * eta1 P)) LS /\ enumerates (pk P * (64 * eta1 P)) LE /\
  enumerates (pk P * (64 * eta1 P)) LY /\ enumerates ((pk P + 1) * (64 * eta2 P)) LW /\
  all_vectors (pk P) LT /\ all_vectors (pk P + 1) LV.

(** The experiment without a recipient: two public keys, a ciphertext of uniform polynomials, a
    uniform shared secret, and hash functions in which nothing depends on them. *)
Definition kem_blind_experiment (hs : hashes) (P : params) (rho0 rho1 : list Z) (A0 A1 : list (list (list Z)))
  (att : list Z -> list Z -> list Z -> list Z -> attacker) (L LS LE : list (list Z)) (LV : list (list (list Z))) : Q :=
  average LS (fun S0 => average LE (fun E0 => average LS (fun S1 => average LE (fun E1 => average LV (fun w => average L (fun K =>
    run hs no_answer (att (recipient_key P rho0 A0 S0 E0) (recipient_key P rho1 A1 S1 E1) (uniform_ct P w) K))))))).

(** the gaps, averaged over the secrets of the party that is not the recipient *)
Definition kem_anon_gaps (hs : hashes) (P : params) (n : nat) (rho0 rho1 r : list Z) (A0 A1 : list (list (list Z)))
  (att : list Z -> list Z -> list Z -> list Z -> attacker) (L LS LE LY LW : list (list Z)) (LT LV : list (list (list Z))) (b : bool) : Q :=
  let rho := if b then rho1 else rho0 in
  let A := if b then A1 else A0 in
  let rho' := if b then rho0 else rho1 in
  let A' := if b then A0 else A1 in
  average LS (fun S => average LE (fun E => average L (fun d => average L (fun sigma =>
    kem_anon_loss (party_world hs P rho' d sigma S E) P n rho r A L LS LE LY LW LT LV
      (seen b att (recipient_key P rho' A' S E)))))).

Lemma six_swap {X Y} (LS LE : list (list Z)) (LV : list X) (L : list Y) f :
  (average LS (fun a => average LE (fun b => average LS (fun c => average LE (fun d => average LV (fun w => average L (fun K => f c d a b w K)))))) ==
   average LS (fun a => average LE (fun b => average LS (fun c => average LE (fun d => average LV (fun w => average L (fun K => f a b c d w K)))))))%Q.
Proof. exact (four_swap LS LE (fun a b c d => average LV (fun w => average L (fun K => f c d a b w K)))). Qed.

(** With either recipient, the game is as good as the one without. *)
Theorem C82_blind hs P n rho0 rho1 z0 z1 Ah0 Ah1 att N L LS LE LY LW LT LV r (b : bool) :
  kem_anon_setting hs P n rho0 rho1 z0 z1 Ah0 Ah1 att N L LS LE LY LW LT LV ->
  let A0 := map (map NTTinv) Ah0 in
  let A1 := map (map NTTinv) Ah1 in
  (Qabs (kem_anon_experiment hs P n rho0 rho1 z0 z1 att L LS LE LY LW b -
         kem_blind_experiment hs P rho0 rho1 A0 A1 att L LS LE LV) <=
   (6 * inject_Z (Z.of_nat N) + 4) / inject_Z (2 ^ 256) +
   kem_anon_gaps hs P n rho0 rho1 r A0 A1 att L LS LE LY LW LT LV b)%Q.
Proof.
  intros (H1 & H2 & H3 & H4 & H5 & H6 & H7 & H8 & H9 & H10 & H11 & H12 & H13 & H14 & H15 & H16) A0 A1.
  assert (U : ((6 * inject_Z (Z.of_nat N) + 4) / inject_Z (2 ^ 256) ==
               6 * (inject_Z (Z.of_nat N) * (1 / inject_Z (2 ^ 256))) + 4 * (1 / inject_Z (2 ^ 256)))%Q)
    by (unfold Qdiv; ring).
  rewrite U. unfold kem_anon_experiment, kem_anon_gaps. cbv zeta. destruct b.
  - exact (recipient_blind hs H1 P H2 n rho1 rho0 z1 z0 H4 H3 H6 H5 Ah1 Ah0 H8 H7 (seen true att) N H9
      L LS LE LY LW LT LV H10 H11 H12 H13 H14 H15 H16 r).
  - unfold kem_blind_experiment.
    rewrite <- (six_swap LS LE LV L (fun S0 E0 S1 E1 w K =>
      run hs no_answer (att (recipient_key P rho0 A0 S0 E0) (recipient_key P rho1 A1 S1 E1) (uniform_ct P w) K))).
    exact (recipient_blind hs H1 P H2 n rho0 rho1 z0 z1 H3 H4 H5 H6 Ah0 Ah1 H7 H8 (seen false att) N (fun o ek c K => H9 ek o c K)
      L LS LE LY LW LT LV H10 H11 H12 H13 H14 H15 H16 r).
Qed.

(** The attacker tells the two recipients apart with probability at most
    (12 N + 8) / 2^256 and the gaps. *)
Theorem C82_anonymous hs P n rho0 rho1 z0 z1 Ah0 Ah1 att N L LS LE LY LW LT LV r :
  kem_anon_setting hs P n rho0 rho1 z0 z1 Ah0 Ah1 att N L LS LE LY LW LT LV ->
  let gaps := kem_anon_gaps hs P n rho0 rho1 r (map (map NTTinv) Ah0) (map (map NTTinv) Ah1) att L LS LE LY LW LT LV in
  (Qabs (kem_anon_experiment hs P n rho0 rho1 z0 z1 att L LS LE LY LW true -
         kem_anon_experiment hs P n rho0 rho1 z0 z1 att L LS LE LY LW false) <=
   (12 * inject_Z (Z.of_nat N) + 8) / inject_Z (2 ^ 256) + gaps true + gaps false)%Q.
Proof.
  intros HS. cbv zeta.
  pose proof (C82_blind hs P n rho0 rho1 z0 z1 Ah0 Ah1 att N L LS LE LY LW LT LV r true HS) as B1.
  pose proof (C82_blind hs P n rho0 rho1 z0 z1 Ah0 Ah1 att N L LS LE LY LW LT LV r false HS) as B0. cbv zeta in B1, B0.
  assert (U : ((12 * inject_Z (Z.of_nat N) + 8) / inject_Z (2 ^ 256) == 2 * ((6 * inject_Z (Z.of_nat N) + 4) / inject_Z (2 ^ 256)))%Q)
    by (unfold Qdiv; ring).
  rewrite U. apply Qabs_Qle_condition in B1. apply Qabs_Qle_condition in B0.
  set (x := kem_anon_experiment _ _ _ _ _ _ _ _ _ _ _ _ _ true) in *. set (y := kem_anon_experiment _ _ _ _ _ _ _ _ _ _ _ _ _ false) in *.
  set (w := kem_blind_experiment _ _ _ _ _ _ _ _ _ _ _) in *. set (g1 := kem_anon_gaps _ _ _ _ _ _ _ _ _ _ _ _ _ _ _ _ true) in *.
  set (g0 := kem_anon_gaps _ _ _ _ _ _ _ _ _ _ _ _ _ _ _ _ false) in *. set (c := ((6 * _ + 4) / _)%Q) in *.
  clearbody x y w g1 g0 c. apply Qabs_Qle_condition. split; lra.
Qed.

(** If every one of the distinguishers has a gap of at most eps1 (for keys) or eps2 (for
    ciphertexts), whatever the secrets of the other party. *)
Theorem C82_bound hs P n rho0 rho1 z0 z1 Ah0 Ah1 att N L LS LE LY LW LT LV r eps1 eps2 :
  kem_anon_setting hs P n rho0 rho1 z0 z1 Ah0 Ah1 att N L LS LE LY LW LT LV ->
  let A0 := map (map NTTinv) Ah0 in
  let A1 := map (map NTTinv) Ah1 in
  (0 <= eps1)%Q -> (0 <= eps2)%Q ->
  (forall (b : bool) S E d sigma, In S LS -> In E LE -> In d L -> In sigma L ->
   let rho := if b then rho1 else rho0 in
   let A := if b then A1 else A0 in
   let rho' := if b then rho0 else rho1 in
   let h := party_world hs P rho' d sigma S E in
   let a := seen b att (recipient_key P rho' (if b then A0 else A1) S E) in
   finds_key_gap h P n rho r A L LS LE LY LW LT a <= eps1 /\ finds_ct_gap h P rho A L LY LW LT LV a <= eps2 /\
   Qabs (judge_key_gap h P n rho r A L LS LE LY LW LT a) <= eps1 /\ Qabs (judge_ct_gap h P rho A L LY LW LT LV a) <= eps2 /\
   Qabs (judge_blind_gap h P rho A L LS LE LT LV a) <= eps1)%Q ->
  (Qabs (kem_anon_experiment hs P n rho0 rho1 z0 z1 att L LS LE LY LW true -
         kem_anon_experiment hs P n rho0 rho1 z0 z1 att L LS LE LY LW false) <=
   (12 * inject_Z (Z.of_nat N) + 8) / inject_Z (2 ^ 256) + 6 * eps1 + 4 * eps2)%Q.
Proof.
  intros HS A0 A1 P1 P2 B.
  eapply Qle_trans; [exact (C82_anonymous hs P n rho0 rho1 z0 z1 Ah0 Ah1 att N L LS LE LY LW LT LV r HS)|]. cbv zeta. fold A0 A1.
  assert (K : forall b, (kem_anon_gaps hs P n rho0 rho1 r A0 A1 att L LS LE LY LW LT LV b <= 3 * eps1 + 2 * eps2)%Q).
  { intros b. assert (C0 : (0 <= 3 * eps1 + 2 * eps2)%Q) by lra. unfold kem_anon_gaps. cbv zeta.
    apply average_bound; [exact C0|]. intros S I1. apply average_bound; [exact C0|]. intros E I2.
    apply average_bound; [exact C0|]. intros d I3. apply average_bound; [exact C0|]. intros sigma I4.
    destruct (B b S E d sigma I1 I2 I3 I4) as (G1 & G2 & G3 & G4 & G5). unfold kem_anon_loss.
    set (f1 := finds_key_gap _ _ _ _ _ _ _ _ _ _ _ _ _) in *. set (f2 := finds_ct_gap _ _ _ _ _ _ _ _ _ _) in *.
    set (j1 := Qabs (judge_key_gap _ _ _ _ _ _ _ _ _ _ _ _ _)) in *. set (j2 := Qabs (judge_ct_gap _ _ _ _ _ _ _ _ _ _)) in *.
    set (j3 := Qabs (judge_blind_gap _ _ _ _ _ _ _ _ _ _)) in *. clearbody f1 f2 j1 j2 j3. lra. }
  pose proof (K true) as K1. pose proof (K false) as K0.
  set (g1 := kem_anon_gaps _ _ _ _ _ _ _ _ _ _ _ _ _ _ _ _ true) in *. set (g0 := kem_anon_gaps _ _ _ _ _ _ _ _ _ _ _ _ _ _ _ _ false) in *.
  set (c := ((12 * _ + 8) / _)%Q). clearbody g1 g0 c. lra.
Qed.

(** ** cases *)

(** Every run without collisions reaches the attacker. *)
Example C82_reached hs P n rho rho' z z' Ah Ah' p S' E' d' sigma' m K S E Y W d sigma r :
  hash_ok hs -> wf_params P -> byte_string 32 rho -> byte_string 32 rho' -> byte_string 32 z -> byte_string 32 z' ->
  A_hat hs P n rho = Some Ah -> A_hat hs P n rho' = Some Ah' ->
  byte_string 32 m -> byte_string 32 K -> byte_string 32 d -> byte_string 32 sigma -> byte_string 32 r ->
  byte_string 32 d' -> byte_string 32 sigma' ->
  byte_string (pk P * (64 * eta1 P)) S' -> byte_string (pk P * (64 * eta1 P)) E' ->
  byte_string (pk P * (64 * eta1 P)) S -> byte_string (pk P * (64 * eta1 P)) E ->
  byte_string (pk P * (64 * eta1 P)) Y -> byte_string ((pk P + 1) * (64 * eta2 P)) W ->
  r <> sigma -> d <> d' -> sigma <> sigma' -> r <> sigma' ->
  kem_anon_game hs P n rho rho' z z' (fun _ _ _ _ => Answer p) S' E' d' sigma' m K S E Y W d sigma r = p.
Proof.
  intros Hhs HP Hrho Hrho' Hz Hz' EA EA' Hm HK Hd Hs Hr Hd' Hs' HS' HE' HS HE HY HW N0 N1 N2 N3.
  rewrite (game_passive hs Hhs P HP n rho rho' z z' Hrho Hrho' Hz' Ah' EA' (fun _ _ _ _ => Answer p) S' E' d' sigma' m K K) by assumption.
  rewrite (passive_view _ (party_ok hs Hhs P rho' Hrho' d' sigma' S' E' Hs' HS' HE') P HP n rho z Hrho Hz Ah EA) by assumption.
  reflexivity.
Qed.

(** An attacker that knows [m] recomputes the shared secret for party 1 and wins: it answers 1
    if party 1 is the recipient, and 0 if party 0 is. *)
Definition knows_recipient (m ek0 ek1 c K : list Z) : attacker := knows m ek1 c K.
Example C82_case_knows hs P n rho rho' z z' Ah Ah' S' E' d' sigma' m K S E Y W d sigma r :
  hash_ok hs -> wf_params P -> byte_string 32 rho -> byte_string 32 rho' -> byte_string 32 z -> byte_string 32 z' ->
  A_hat hs P n rho = Some Ah -> A_hat hs P n rho' = Some Ah' ->
  byte_string 32 m -> byte_string 32 K -> byte_string 32 d -> byte_string 32 sigma -> byte_string 32 r ->
  byte_string 32 d' -> byte_string 32 sigma' ->
  byte_string (pk P * (64 * eta1 P)) S' -> byte_string (pk P * (64 * eta1 P)) E' ->
  byte_string (pk P * (64 * eta1 P)) S -> byte_string (pk P * (64 * eta1 P)) E ->
  byte_string (pk P * (64 * eta1 P)) Y -> byte_string ((pk P + 1) * (64 * eta2 P)) W ->
  r <> sigma -> d <> d' -> sigma <> sigma' -> r <> sigma' ->
  let ek := recipient_key P rho (map (map NTTinv) Ah) S E in
  let other := recipient_key P rho' (map (map NTTinv) Ah') S' E' in
  sha3_256 hs ek <> sha3_256 hs other -> byte_string 32 (sha3_256 hs other) -> firstn 32 (sha3_512 hs (m ++ sha3_256 hs other)) <> K ->
  kem_anon_game hs P n rho rho' z z' (seen true (knows_recipient m)) S' E' d' sigma' m K S E Y W d sigma r = 1%Q /\
  kem_anon_game hs P n rho rho' z z' (seen false (knows_recipient m)) S' E' d' sigma' m K S E Y W d sigma r = 0%Q.
Proof.
  intros Hhs HP Hrho Hrho' Hz Hz' EA EA' Hm HK Hd Hs Hr Hd' Hs' HS' HE' HS HE HY HW N0 N1 N2 N3 ek other NH HO NK.
  rewrite !(game_passive hs Hhs P HP n rho rho' z z' Hrho Hrho' Hz' Ah' EA' _ S' E' d' sigma' m K K) by assumption.
  rewrite !(passive_view _ (party_ok hs Hhs P rho' Hrho' d' sigma' S' E' Hs' HS' HE') P HP n rho z Hrho Hz Ah EA) by assumption.
  unfold seen, knows_recipient, knows. cbn [run reply]. 
  change (key_bytes P rho _) with ek. fold other.
  set (w := passive_world _ _ _ _ _ _ _ _ _ _ _ _ _).
  change (sha3_256 w) with (sha3_256 hs).
  assert (E1 : sha3_512 w (m ++ sha3_256 hs ek) = K ++ r).
  { unfold w, passive_world. cbn [with_sha3_512 sha3_512]. change (sha3_256 (party_world hs P rho' d' sigma' S' E')) with (sha3_256 hs).
    change (key_bytes P rho _) with ek. destruct (list_eq_dec Z.eq_dec _ _) as [_|X]; [reflexivity|contradiction]. }
  assert (LEN : forall x, byte_string 32 x -> m ++ sha3_256 hs other <> x ++ [Z.of_nat (pk P)]).
  { intros x Hx Q. apply (f_equal (@length Z)) in Q. rewrite !app_length, (proj1 Hm), (proj1 Hx), (proj1 HO) in Q. discriminate Q. }
  assert (E2 : sha3_512 w (m ++ sha3_256 hs other) = sha3_512 hs (m ++ sha3_256 hs other)).
  { unfold w, passive_world, keys_world, party_world. cbn [with_sha3_512 with_secrets with_coins sha3_512 sha3_256].
    change (key_bytes P rho _) with ek.
    destruct (list_eq_dec Z.eq_dec _ (m ++ sha3_256 hs ek)) as [Q|_]; [apply app_inv_head in Q; congruence|].
    destruct (list_eq_dec Z.eq_dec _ (d ++ _)) as [Q|_]; [destruct (LEN d Hd Q)|].
    destruct (list_eq_dec Z.eq_dec _ (d' ++ _)) as [Q|_]; [destruct (LEN d' Hd' Q)|]. reflexivity. }
  rewrite E1, E2, firstn_app_exact by apply HK.
  destruct (list_eq_dec Z.eq_dec K K) as [_|X]; [|contradiction].
  destruct (list_eq_dec Z.eq_dec _ K) as [X|_]; [contradiction|]. split; reflexivity.
Qed.

(** The setting exists for the three parameter sets with the hash function of C05, any public
    seeds and any attacker that asks finitely many questions. *)
Example C82_case P rho0 rho1 z0 z1 att N : In P [ML_KEM_512; ML_KEM_768; ML_KEM_1024] ->
  byte_string 32 rho0 -> byte_string 32 rho1 -> byte_string 32 z0 -> byte_string 32 z1 ->
  (forall ek0 ek1 c K, within N 0 (att ek0 ek1 c K)) ->
  let LS := tuples (upto 256) (pk P * (64 * eta1 P)) in
  let LW := tuples (upto 256) ((pk P + 1) * (64 * eta2 P)) in
  exists Ah0 Ah1, kem_anon_setting (unlucky (pk P) (eta1 P)) P 128 rho0 rho1 z0 z1 Ah0 Ah1 att N
    (tuples (upto 256) 32) LS LS LS LW (vectors (pk P)) (vectors (pk P + 1)).
Proof.
  intros HI H0 H1 H2 H3 Hatt LS LW. destruct (unlucky_A P rho0) as [Ah0 EA0]. destruct (unlucky_A P rho1) as [Ah1 EA1].
  exists Ah0, Ah1. unfold kem_anon_setting.
  assert (HP : wf_params P) by (destruct HI as [<-|[<-|[<-|[]]]]; [apply wf_512|apply wf_768|apply wf_1024]).
  split; [apply unlucky_ok|]. split; [exact HP|]. repeat (split; [assumption|]).
  repeat (split; [apply enumeration|]). split; apply vectors_all.
Qed.

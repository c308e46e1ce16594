(** C56: how often decapsulation fails.

    The hash function is arbitrary except that its answers to the PRF queries of key
    generation (and of encapsulation) are read from byte strings; the theorems count the
    byte strings for which the session fails.  C05 shows that there are such failures. *)
From Coq Require Import List ZArith Lia Bool Arith.
From Verif.Base Require Import Res Oracles.
From Verif.Spec Require Import FIPS203 Domains Noise Counting Random.
From Verif.Model Require Import Machine Util Algebra Compress Encode Crypto Sample Param Pke Kem.
From Verif.Proofs Require Import Basics Field Poly CompressProofs NttAlgebra EncodeProofs VecEncode SampleProofs CountProofs
  PkeProofs KemProofs Inner Correctness TailProofs FailureProofs FailureAverage FailureNumbers.
From Verif.Tests Require Import Toy.
From Verif.Properties Require Import Kem KemCases Correctness Distribution.
Import ListNotations.
Open Scope Z_scope.

(** generate a K-PKE key pair from [d], encrypt [m] with randomness [r], decrypt: [m] again? *)
Definition decrypts (hs : hashes) (P : params) (n : nat) (d m r : list Z) : bool :=
  match pke_generate hs P n d with
  | Ok (dk, ek) =>
      match encrypt hs P n ek m r with
      | Ok c => returns (decrypt P dk c) m
      | _ => false
      end
  | _ => false
  end.

(** generate an ML-KEM key pair from [d], [z], encapsulate with [m], decapsulate: the same key? *)
Definition agree (hs : hashes) (P : params) (n : nat) (d z m : list Z) : bool :=
  match kem_generate_deterministic hs P n d z with
  | Ok (dk, ek) =>
      match encapsulate_deterministic hs P n ek m with
      | Ok (c, K) => returns (decapsulate hs P n dk c) K
      | _ => false
      end
  | _ => false
  end.

(** the PRF key of key generation and the randomness that encapsulation derives from [m] *)
Definition sigma_of (hs : hashes) (P : params) (d : list Z) : list Z :=
  snd (FIPS203.G hs (d ++ [Z.of_nat (pk P)])).
Definition coins_of (hs : hashes) (P : params) (n : nat) (d m : list Z) : list Z :=
  match KPKE_KeyGen hs P n d with
  | Some (ek, _) => snd (FIPS203.G hs (m ++ FIPS203.H hs ek))
  | None => []
  end.

Lemma returns_ok r p : r = Ok p -> returns r p = true.
Proof. intros ->. unfold returns. destruct (list_eq_dec Z.eq_dec p p); [reflexivity|contradiction]. Qed.

Lemma with_coins_ok hs P r Y W : hash_ok hs -> bytes Y -> bytes W -> hash_ok (with_coins hs P r Y W).
Proof.
  intros H F F' m Hm. destruct (H m Hm) as (H1 & H2 & H3 & H4). unfold with_coins.
  cbn [sha3_256 sha3_512 shake128 shake256].
  split; [exact H1|]. split; [exact H2|]. split; [exact H3|]. intros i.
  apply answer_byte; [exact F|]. apply answer_byte; [exact F'|apply H4].
Qed.

Section Session.
  Variable hs : hashes.
  Hypothesis Hhs : hash_ok hs.
  Variable P : params.
  Hypothesis HP : wf_params P.
  Hypothesis Hdu : (1 <= du P <= 11)%nat.
  Hypothesis Hdv : (1 <= dv P <= 11)%nat.
  Let k := pk P.
  Let e := eta1 P.
  Let e' := eta2 P.

  Lemma fails_pke n d m r Ah : byte_string 32 d -> byte_string 32 m -> byte_string 32 r ->
    A_hat hs P n (key_rho hs P d) = Some Ah ->
    negb (decrypts hs P n d m r) = true -> ~ noise_in_range hs P (map (map NTTinv) Ah) d m r.
  Proof.
    intros Hd Hm Hr EA N HN.
    destruct (C04_kpke hs Hhs P HP (proj2 Hdu) (proj2 Hdv) n d m r Ah Hd Hm Hr EA) as (dk & ek & c & E1 & E2 & E3).
    unfold decrypts in N. rewrite E1, E2, (returns_ok _ _ (proj2 E3 HN)) in N. discriminate N.
  Qed.

  Lemma fails_kem n d z m Ah : byte_string 32 d -> byte_string 32 z -> byte_string 32 m ->
    A_hat hs P n (key_rho hs P d) = Some Ah ->
    negb (agree hs P n d z m) = true -> ~ noise_in_range hs P (map (map NTTinv) Ah) d m (coins_of hs P n d m).
  Proof.
    intros Hd Hz Hm EA N HN.
    pose proof (generate_ok hs Hhs P HP n d z (proj2 Hd) Hz) as W. unfold KeyGen_internal in W.
    destruct (decrypt_encrypt hs Hhs P HP Hdu Hdv n d Ah (proj2 Hd) EA) as (ekb & dkb & E1 & _).
    unfold coins_of in HN. rewrite E1 in W, HN. destruct W as (dk & W1 & V & W2 & W3 & _).
    destruct (C04_round_trip hs Hhs P HP (proj2 Hdu) (proj2 Hdv) n d z m dk (dk_ek dk) ekb Ah Hd Hz Hm W1) as (c & K & R1 & R2).
    - rewrite <- W3. apply encaps_key_as_bytes_ok, V.
    - exact EA.
    - exact HN.
    - unfold agree in N. rewrite W1, R1, (returns_ok _ _ R2) in N. discriminate N.
  Qed.
End Session.

(** *** the randomness of encryption enters through Y and W only *)
Section Independent.
  Variable hs : hashes.
  Variable P : params.
  Variable d : list Z.
  Variables Y W B : list Z.
  Let k := pk P.
  Let sigma := key_sigma hs P d.
  Hypothesis HY : byte_string (k * (64 * eta1 P)) Y.
  Hypothesis HW : byte_string ((k + 1) * (64 * eta2 P)) W.
  Hypothesis HB : byte_string (2 * k * (64 * eta1 P)) B.
  Definition world (r : list Z) : hashes := with_secrets (with_coins hs P r Y W) P (key_sigma hs P d) B.

  Lemma secret_noise r N : (N = 0 \/ N = k)%nat ->
    noise (world r) P (eta1 P) sigma N = noise (with_secrets hs P sigma B) P (eta1 P) sigma N.
  Proof.
    intros HN. unfold noise. apply tab_ext. intros i Hi. f_equal.
    assert (HI : (N + i < 2 * k)%nat) by (fold k in Hi; destruct HN; lia).
    transitivity (part (64 * eta1 P) (N + i) B); [|symmetry; exact (PRF_secret hs P d B HB (N + i) HI)].
    exact (PRF_secret (with_coins hs P r Y W) P d B HB (N + i) HI).
  Qed.
  Lemma keygen_world r n : KPKE_KeyGen (world r) P n d = KPKE_KeyGen (with_secrets hs P sigma B) P n d.
  Proof.
    unfold KPKE_KeyGen.
    change (FIPS203.G (world r) (d ++ [Z.of_nat (pk P)])) with (FIPS203.G hs (d ++ [Z.of_nat (pk P)])).
    change (FIPS203.G (with_secrets hs P sigma B) (d ++ [Z.of_nat (pk P)])) with (FIPS203.G hs (d ++ [Z.of_nat (pk P)])).
    pose proof (secret_noise r 0 (or_introl eq_refl)) as N0. pose proof (secret_noise r k (or_intror eq_refl)) as N1.
    unfold sigma, key_sigma in N0, N1 |- *.
    change (A_hat (world r)) with (A_hat hs). change (A_hat (with_secrets hs P _ B)) with (A_hat hs).
    destruct (FIPS203.G hs (d ++ [Z.of_nat (pk P)])) as [rho sig]. cbn [snd] in *.
    rewrite N0. fold k. rewrite N1. reflexivity.
  Qed.
  Lemma noise_world A m r r' : r <> sigma -> r' <> sigma ->
    decryption_noise (world r) P A d m r = decryption_noise (world r') P A d m r'.
  Proof.
    intros H H'.
    assert (S0 : forall x, key_s (world x) P d = noise (with_secrets hs P sigma B) P (eta1 P) sigma 0)
      by (intros x; exact (secret_noise x 0 (or_introl eq_refl))).
    assert (S1 : forall x, key_e (world x) P d = noise (with_secrets hs P sigma B) P (eta1 P) sigma k)
      by (intros x; exact (secret_noise x k (or_intror eq_refl))).
    assert (Ey : forall x, x <> sigma -> enc_y (world x) P x = yvec P Y).
    { intros x Hx. rewrite <- (enc_y_coins hs P x Y W HY). exact (noise_other (with_coins hs P x Y W) P d x Hx B (eta1 P) 0). }
    assert (E1 : forall x, x <> sigma -> enc_e1 (world x) P x = tab k (fun a => SamplePolyCBD (eta2 P) (part (64 * eta2 P) a W))).
    { intros x Hx. unfold k. rewrite <- (enc_e1_coins hs P x Y W HW). exact (noise_other (with_coins hs P x Y W) P d x Hx B (eta2 P) (pk P)). }
    assert (E2 : forall x, x <> sigma -> enc_e2 (world x) P x = SamplePolyCBD (eta2 P) (part (64 * eta2 P) k W)).
    { intros x Hx. unfold k. rewrite <- (enc_e2_coins hs P x Y W HW). unfold enc_e2. f_equal.
      exact (PRF_other (with_coins hs P x Y W) P d x Hx B (eta2 P) (2 * pk P)). }
    unfold decryption_noise, enc_v, enc_u, key_t.
    rewrite (S0 r), (S0 r'), (S1 r), (S1 r'), (Ey r H), (Ey r' H'), (E1 r H), (E1 r' H'), (E2 r H), (E2 r' H').
    reflexivity.
  Qed.
End Independent.

(** ** K-PKE, for every encryption: a fixed message and fixed randomness, random secrets *)
Theorem C56_every_encryption : forall P delta,
  In (P, delta) [(ML_KEM_512, 10); (ML_KEM_768, 15); (ML_KEM_1024, 23)] ->
  forall hs n d m r Ah L, hash_ok hs ->
  byte_string 32 d -> byte_string 32 m -> byte_string 32 r ->
  A_hat hs P n (key_rho hs P d) = Some Ah ->
  r <> sigma_of hs P d ->
  enumerates (2 * pk P * (64 * eta1 P)) L ->
  2 ^ delta * count (fun B => negb (decrypts (with_secrets hs P (sigma_of hs P d) B) P n d m r)) L
  <= 256 ^ Z.of_nat (2 * pk P * (64 * eta1 P)).
Proof.
  intros P delta HIn hs n d m r Ah L Hhs Hd Hm Hr EA Hne HL.
  assert (G : wf_params P -> (1 <= du P <= 11)%nat -> (1 <= dv P <= 11)%nat -> forall B, In B L ->
    negb (decrypts (with_secrets hs P (sigma_of hs P d) B) P n d m r) = true ->
    ~ noise_in_range (with_secrets hs P (key_sigma hs P d) B) P (map (map NTTinv) Ah) d m r).
  { intros HP Hu Hv B HB. apply HL in HB.
    apply (fails_pke (with_secrets hs P (sigma_of hs P d) B) (with_secrets_ok hs P _ B Hhs (proj2 HB)) P HP Hu Hv n d m r Ah Hd Hm Hr).
    exact EA. }
  destruct HIn as [E|[E|[E|[]]]]; pose proof (f_equal fst E) as E1; pose proof (f_equal snd E) as E2;
    cbn [fst snd] in E1, E2; subst P delta; clear E.
  - exact (worst_512 hs _ d m r L _ Hne HL (G wf_512 range_512_u range_512_v)).
  - exact (worst_768 hs _ d m r L _ Hne HL (G wf_768 range_768_u range_768_v)).
  - exact (worst_1024 hs _ d m r L _ Hne HL (G wf_1024 range_1024_u range_1024_v)).
Qed.

(** ** K-PKE with random secrets and random y, e1, e2 *)
Theorem C56_kpke : forall P delta,
  In (P, delta) [(ML_KEM_512, 80); (ML_KEM_768, 90); (ML_KEM_1024, 107)] ->
  forall hs n d m r Ah LY LW LB, hash_ok hs ->
  byte_string 32 d -> byte_string 32 m -> byte_string 32 r ->
  A_hat hs P n (key_rho hs P d) = Some Ah ->
  r <> sigma_of hs P d ->
  enumerates (pk P * (64 * eta1 P)) LY -> enumerates ((pk P + 1) * (64 * eta2 P)) LW ->
  enumerates (2 * pk P * (64 * eta1 P)) LB ->
  2 ^ delta *
  count (fun '(Y, (W, B)) =>
      negb (decrypts (with_secrets (with_coins hs P r Y W) P (sigma_of hs P d) B) P n d m r))
    (list_prod LY (list_prod LW LB))
  <= 256 ^ Z.of_nat (pk P * (64 * eta1 P)) * 256 ^ Z.of_nat ((pk P + 1) * (64 * eta2 P)) *
     256 ^ Z.of_nat (2 * pk P * (64 * eta1 P)).
Proof.
  intros P delta HIn hs n d m r Ah LY LW LB Hhs Hd Hm Hr EA Hne HY HW HL.
  assert (G : wf_params P -> (1 <= du P <= 11)%nat -> (1 <= dv P <= 11)%nat ->
    forall Y W B, In Y LY -> In W LW -> In B LB ->
    negb (decrypts (with_secrets (with_coins hs P r Y W) P (sigma_of hs P d) B) P n d m r) = true ->
    ~ noise_in_range (with_secrets (with_coins hs P r Y W) P (key_sigma hs P d) B) P (map (map NTTinv) Ah) d m r).
  { intros HP Hu Hv Y W B IY IW IB. apply HL in IB. apply HY in IY. apply HW in IW.
    apply (fails_pke (with_secrets (with_coins hs P r Y W) P (sigma_of hs P d) B)
      (with_secrets_ok _ P _ B (with_coins_ok hs P r Y W Hhs (proj2 IY) (proj2 IW)) (proj2 IB)) P HP Hu Hv n d m r Ah Hd Hm Hr).
    exact EA. }
  destruct HIn as [E|[E|[E|[]]]]; pose proof (f_equal fst E) as E1; pose proof (f_equal snd E) as E2;
    cbn [fst snd] in E1, E2; subst P delta; clear E.
  - exact (average_512 hs _ d m r LY LW LB _ Hne HY HW HL (G wf_512 range_512_u range_512_v)).
  - exact (average_768 hs _ d m r LY LW LB _ Hne HY HW HL (G wf_768 range_768_u range_768_v)).
  - exact (average_1024 hs _ d m r LY LW LB _ Hne HY HW HL (G wf_1024 range_1024_u range_1024_v)).
Qed.

(** ** ML-KEM: the sender and the receiver derive different keys *)
Theorem C56_kem : forall P delta,
  In (P, delta) [(ML_KEM_512, 80); (ML_KEM_768, 90); (ML_KEM_1024, 107)] ->
  forall hs n d z m Ah LY LW LB, hash_ok hs ->
  byte_string 32 d -> byte_string 32 z -> byte_string 32 m ->
  A_hat hs P n (key_rho hs P d) = Some Ah ->
  let sigma := sigma_of hs P d in
  let coins B := coins_of (with_secrets hs P sigma B) P n d m in
  (forall B, byte_string (2 * pk P * (64 * eta1 P)) B -> coins B <> sigma) ->
  enumerates (pk P * (64 * eta1 P)) LY -> enumerates ((pk P + 1) * (64 * eta2 P)) LW ->
  enumerates (2 * pk P * (64 * eta1 P)) LB ->
  2 ^ delta *
  count (fun '(Y, (W, B)) =>
      negb (agree (with_secrets (with_coins hs P (coins B) Y W) P sigma B) P n d z m))
    (list_prod LY (list_prod LW LB))
  <= 256 ^ Z.of_nat (pk P * (64 * eta1 P)) * 256 ^ Z.of_nat ((pk P + 1) * (64 * eta2 P)) *
     256 ^ Z.of_nat (2 * pk P * (64 * eta1 P)).
Proof.
  intros P delta HIn hs n d z m Ah LY LW LB Hhs Hd Hz Hm EA sigma coins Hne HY HW HL.
  assert (Hne0 : [] <> key_sigma hs P d).
  { intros E. assert (L : length (key_sigma hs P d) = 32%nat).
    { unfold key_sigma, FIPS203.G. cbn [snd]. rewrite skipn_length.
      destruct (Hhs (d ++ [Z.of_nat (pk P)])) as (_ & [H2 _] & _).
      - apply bytes_app; [apply Hd|]. apply bytes_cons; [|apply bytes_nil].
        destruct HIn as [E1|[E1|[E1|[]]]]; pose proof (f_equal fst E1) as E2; cbn [fst] in E2; subst P; cbn; unfold is_byte; lia.
      - rewrite H2. reflexivity. }
    rewrite <- E in L. discriminate L. }
  assert (G : wf_params P -> (1 <= du P <= 11)%nat -> (1 <= dv P <= 11)%nat ->
    forall Y W B, In Y LY -> In W LW -> In B LB ->
    negb (agree (with_secrets (with_coins hs P (coins B) Y W) P sigma B) P n d z m) = true ->
    ~ noise_in_range (with_secrets (with_coins hs P [] Y W) P (key_sigma hs P d) B) P (map (map NTTinv) Ah) d m []).
  { intros HP Hu Hv Y W B IY IW IB N. apply HL in IB. apply HY in IY. apply HW in IW.
    pose proof (fails_kem (with_secrets (with_coins hs P (coins B) Y W) P sigma B)
      (with_secrets_ok _ P _ B (with_coins_ok hs P (coins B) Y W Hhs (proj2 IY) (proj2 IW)) (proj2 IB)) P HP Hu Hv n d z m Ah Hd Hz Hm EA N) as F.
    assert (EC : coins_of (with_secrets (with_coins hs P (coins B) Y W) P sigma B) P n d m = coins B).
    { unfold coins, coins_of at 1.
      pose proof (keygen_world hs P d Y W B IB (coins B) n) as KW. unfold world in KW.
      unfold coins in KW. fold (sigma_of hs P d) in KW. fold sigma in KW.
      change (key_sigma hs P d) with sigma in KW. rewrite KW. reflexivity. }
    rewrite EC in F. unfold noise_in_range in F |- *.
    pose proof (noise_world hs P d Y W B IY IW IB (map (map NTTinv) Ah) m (coins B) [] (Hne B IB) Hne0) as NW.
    unfold world in NW. change (key_sigma hs P d) with sigma in NW |- *. rewrite <- NW. exact F. }
  destruct HIn as [E|[E|[E|[]]]]; pose proof (f_equal fst E) as E1; pose proof (f_equal snd E) as E2;
    cbn [fst snd] in E1, E2; subst P delta; clear E.
  - exact (average_512 hs _ d m [] LY LW LB _ Hne0 HY HW HL (G wf_512 range_512_u range_512_v)).
  - exact (average_768 hs _ d m [] LY LW LB _ Hne0 HY HW HL (G wf_768 range_768_u range_768_v)).
  - exact (average_1024 hs _ d m [] LY LW LB _ Hne0 HY HW HL (G wf_1024 range_1024_u range_1024_v)).
Qed.

(** ** cases *)

(** The hash function of C05 meets the hypotheses, for every parameter set, seed and message. *)
Example C56_case : forall P delta d z m LY LW LB,
  In (P, delta) [(ML_KEM_512, 80); (ML_KEM_768, 90); (ML_KEM_1024, 107)] ->
  byte_string 32 d -> byte_string 32 z -> byte_string 32 m ->
  let hs := unlucky (pk P) (eta1 P) in
  let sigma := repeat 1 32 in
  enumerates (pk P * (64 * eta1 P)) LY -> enumerates ((pk P + 1) * (64 * eta2 P)) LW ->
  enumerates (2 * pk P * (64 * eta1 P)) LB ->
  2 ^ delta *
  count (fun '(Y, (W, B)) =>
      negb (agree (with_secrets (with_coins hs P (coins_of (with_secrets hs P sigma B) P 128 d m) Y W) P sigma B) P 128 d z m))
    (list_prod LY (list_prod LW LB))
  <= 256 ^ Z.of_nat (pk P * (64 * eta1 P)) * 256 ^ Z.of_nat ((pk P + 1) * (64 * eta2 P)) *
     256 ^ Z.of_nat (2 * pk P * (64 * eta1 P)).
Proof.
  intros P delta d z m LY LW LB HIn Hd Hz Hm hs sigma HY HW HL.
  assert (HP : wf_params P).
  { destruct HIn as [E|[E|[E|[]]]]; pose proof (f_equal fst E) as E1; cbn [fst] in E1; rewrite <- E1; [apply wf_512|apply wf_768|apply wf_1024]. }
  assert (ES : sigma_of hs P d = sigma) by exact (f_equal snd (G_generate P d Hd)).
  destruct (unlucky_A P (key_rho hs P d)) as [Ah EA].
  pose proof (C56_kem P delta HIn hs 128 d z m Ah LY LW LB (unlucky_ok _ _) Hd Hz Hm EA) as C.
  cbv zeta in C. rewrite ES in C. apply C; [|exact HY|exact HW|exact HL].
  intros B HB. unfold coins_of.
  destruct (KPKE_KeyGen (with_secrets hs P sigma B) P 128 d) as [[ek dk]|]; [|discriminate].
  assert (E : FIPS203.G (with_secrets hs P sigma B) (m ++ FIPS203.H (with_secrets hs P sigma B) ek) = (m, repeat 2 32)).
  { apply (G_encapsulate P m (repeat 0 32) Hm). apply repeat_bytes. unfold is_byte. lia. }
  rewrite E. discriminate.
Qed.

(** the enumerations exist *)
Example C56_case_enumerations : forall P,
  enumerates (pk P * (64 * eta1 P)) (tuples (upto 256) (pk P * (64 * eta1 P))) /\
  enumerates ((pk P + 1) * (64 * eta2 P)) (tuples (upto 256) ((pk P + 1) * (64 * eta2 P))) /\
  enumerates (2 * pk P * (64 * eta1 P)) (tuples (upto 256) (2 * pk P * (64 * eta1 P))).
Proof. intros P. split; [|split]; apply enumeration. Qed.

(** the fixed-randomness theorem on the same hash function, ML-KEM-768 *)
Example C56_case_768 : forall m, byte_string 32 m ->
  2 ^ 15 * count (fun B => negb (decrypts (with_secrets (unlucky 3 2) ML_KEM_768 (repeat 1 32) B) ML_KEM_768 128 (seed 1) m (repeat 2 32)))
    (tuples (upto 256) (2 * 3 * (64 * 2)))
  <= 256 ^ Z.of_nat (2 * 3 * (64 * 2)).
Proof.
  intros m Hm. destruct (unlucky_A ML_KEM_768 (key_rho (unlucky 3 2) ML_KEM_768 (seed 1))) as [Ah EA].
  apply (C56_every_encryption ML_KEM_768 15 ltac:(right; left; reflexivity) (unlucky 3 2) 128 (seed 1) m (repeat 2 32) Ah).
  - apply unlucky_ok.
  - apply seed_ok.
  - exact Hm.
  - apply repeat_bytes. unfold is_byte. lia.
  - exact EA.
  - discriminate.
  - apply enumeration.
Qed.

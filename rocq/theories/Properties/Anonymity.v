(** C81: K-PKE ciphertexts do not tell for whom they are, up to MLWE.

    Two key pairs are generated; the attacker sees both public keys, chooses a message, and sees
    its encryption to one of them.  Whichever it is, the ciphertext looks like one made of
    uniform polynomials, which depends on neither key: the differences are gaps of
    distinguishers for MLWE (Spec/Lwe.v). *)
From Coq Require Import List ZArith Lia Bool Arith.
From Verif.Base Require Import Res Oracles.
From Verif.Spec Require Import FIPS203 Domains Noise Counting Random Lwe.
From Verif.Model Require Import Machine Util Algebra Compress Encode Crypto Sample Param Pke Kem.
From Verif.Proofs Require Import Basics Field Poly CompressProofs NttAlgebra NttProofs EncodeProofs VecEncode SampleProofs CountProofs
  PkeProofs KemProofs Inner Correctness TailProofs FailureProofs FailureAverage FailureNumbers LweProofs.
From Verif.Tests Require Import Toy.
From Verif.Properties Require Import Kem KemCases Correctness Distribution Failure Secrecy.
From Coq Require Import QArith Qabs Lqa.
Import ListNotations.
Open Scope Z_scope.

(** Generate key pairs from [d0] and [d1], let the attacker choose a message for the two public
    keys, encrypt it to the second if [b], to the first otherwise, with randomness [r], and let
    the attacker judge. *)
Definition anon_run (hs : hashes) (P : params) (n : nat) (d0 d1 r : list Z) (b : bool)
  (message : list Z -> list Z -> list Z) (D : list Z -> list Z -> list Z -> Q) : Q :=
  match pke_generate hs P n d0, pke_generate hs P n d1 with
  | Ok (_, ek0), Ok (_, ek1) =>
      match ek_as_bytes P ek0, ek_as_bytes P ek1 with
      | Ok b0, Ok b1 =>
          match encrypt hs P n (if b then ek1 else ek0) (message b0 b1) r with
          | Ok c => D b0 b1 c
          | _ => 0%Q
          end
      | _, _ => 0%Q
      end
  | _, _ => 0%Q
  end.

(** the hash functions, when the PRF outputs of the run are S0, E0 and S1, E1 (key generation)
    and Y, W (encryption) *)
Definition anon_world (hs : hashes) (P : params) (d0 d1 r S0 E0 S1 E1 Y W : list Z) : hashes :=
  with_secrets (with_secrets (with_coins hs P r Y W) P (sigma_of hs P d1) (S1 ++ E1)) P (sigma_of hs P d0) (S0 ++ E0).
(** the probability of the answer 1, when these are uniform *)
Definition anon_experiment (hs : hashes) (P : params) (n : nat) (d0 d1 r : list Z) (LS LE LY LW : list (list Z)) (b : bool)
  (message : list Z -> list Z -> list Z) (D : list Z -> list Z -> list Z -> Q) : Q :=
  average LS (fun S0 => average LE (fun E0 => average LS (fun S1 => average LE (fun E1 =>
  average LY (fun Y => average LW (fun W =>
    anon_run (anon_world hs P d0 d1 r S0 E0 S1 E1 Y W) P n d0 d1 r b message D)))))).

(** The attacker from the recipient's point of view: [other] is the public key of the party to
    which the ciphertext is not addressed. *)
Definition seen {X} (b : bool) (f : list Z -> list Z -> X) (other ek : list Z) : X := if b then f other ek else f ek other.
(** the public key of [d] with the secrets S and E, for the matrix A *)
Definition public_key (hs : hashes) (P : params) (d : list Z) (A : list (list (list Z))) (S E : list Z) : list Z :=
  key_bytes P (key_rho hs P d) (lwe_samples (pk P) (pk P) A (cbd_vec (eta1 P) (pk P) S) (cbd_vec (eta1 P) (pk P) E)).
(** the ciphertext made of the polynomials [w] *)
Definition uniform_ct (P : params) (w : list (list Z)) : list Z := ct_bytes P (firstn (pk P) w) (nth (pk P) w []).

(** The distinguishers: for the keys of the recipient, for the ciphertext, and for the keys of
    the recipient once more, beside a ciphertext that is uniform. *)
Definition recipient_gap (hs : hashes) (P : params) (n : nat) (d r : list Z) (A : list (list (list Z))) (LS LE LY LW : list (list Z))
  (LT : list (list (list Z))) (message : list Z -> list Z) (T : list Z -> list Z -> Q) : Q :=
  lwe_gap (pk P) (pk P) (eta1 P) (eta1 P) A LS LE LT (key_test hs P n (key_rho hs P d) r LY LW message T).
Definition ciphertext_gap (hs : hashes) (P : params) (d : list Z) (A : list (list (list Z))) (LY LW : list (list Z))
  (LT LV : list (list (list Z))) (message : list Z -> list Z) (T : list Z -> list Z -> Q) : Q :=
  average LT (fun t => lwe_gap (pk P) (pk P + 1) (eta1 P) (eta2 P) (ct_matrix (pk P) A t) LY LW LV (ct_test P (key_rho hs P d) message T t)).
Definition bystander_gap (hs : hashes) (P : params) (d : list Z) (A : list (list (list Z))) (LS LE : list (list Z))
  (LT LV : list (list (list Z))) (T : list Z -> list Z -> Q) : Q :=
  lwe_gap (pk P) (pk P) (eta1 P) (eta1 P) A LS LE LT
    (fun t => average LV (fun w => T (key_bytes P (key_rho hs P d) t) (uniform_ct P w))).

(** the experiment in which the ciphertext is made of uniform polynomials *)
Definition blind_experiment (hs : hashes) (P : params) (d0 d1 : list Z) (A0 A1 : list (list (list Z))) (LS LE : list (list Z))
  (LV : list (list (list Z))) (D : list Z -> list Z -> list Z -> Q) : Q :=
  average LS (fun S0 => average LE (fun E0 => average LS (fun S1 => average LE (fun E1 =>
    average LV (fun w => D (public_key hs P d0 A0 S0 E0) (public_key hs P d1 A1 S1 E1) (uniform_ct P w)))))).

(** the sum of the three gaps, averaged over the keys of the other party *)
Definition anon_gap (hs : hashes) (P : params) (n : nat) (d0 d1 r : list Z) (A0 A1 : list (list (list Z))) (LS LE LY LW : list (list Z))
  (LT LV : list (list (list Z))) (b : bool) (message : list Z -> list Z -> list Z) (D : list Z -> list Z -> list Z -> Q) : Q :=
  let d := if b then d1 else d0 in
  let A := if b then A1 else A0 in
  let other := public_key hs P (if b then d0 else d1) (if b then A0 else A1) in
  average LS (fun S => average LE (fun E =>
    recipient_gap hs P n d r A LS LE LY LW LT (seen b message (other S E)) (seen b D (other S E)) +
    ciphertext_gap hs P d A LY LW LT LV (seen b message (other S E)) (seen b D (other S E)) -
    bystander_gap hs P d A LS LE LT LV (seen b D (other S E))))%Q.

Section Anonymous.
  Variable hs : hashes.
  Hypothesis Hhs : hash_ok hs.
  Variable P : params.
  Hypothesis HP : wf_params P.
  Let k := pk P.
  Variable n : nat.

  Lemma sum_bytes S E : byte_string (k * (64 * eta1 P)) S -> byte_string (k * (64 * eta1 P)) E ->
    byte_string (2 * k * (64 * eta1 P)) (S ++ E).
  Proof.
    intros HS HE. replace (2 * k * (64 * eta1 P))%nat with (k * (64 * eta1 P) + k * (64 * eta1 P))%nat by lia.
    apply byte_string_app; assumption.
  Qed.
  (** programmed answers for one key do not matter for encryption and for the other key *)
  Lemma encrypt_other h d B ekb m r : r <> sigma_of h P d ->
    KPKE_Encrypt (with_secrets h P (sigma_of h P d) B) P n ekb m r = KPKE_Encrypt h P n ekb m r.
  Proof.
    intros Hne. unfold KPKE_Encrypt.
    change (A_hat (with_secrets h P (sigma_of h P d) B)) with (A_hat h).
    assert (EN : forall eta N, noise (with_secrets h P (sigma_of h P d) B) P eta r N = noise h P eta r N)
      by (intros eta N; exact (noise_other h P d r Hne B eta N)).
    assert (EP : forall eta N, FIPS203.PRF (with_secrets h P (sigma_of h P d) B) eta r N = FIPS203.PRF h eta r N)
      by (intros eta N; exact (PRF_other h P d r Hne B eta N)).
    destruct (A_hat h P n (skipn (384 * pk P) ekb)); [|reflexivity].
    rewrite !EN, !EP. reflexivity.
  Qed.
  Lemma keygen_other h d d' B : sigma_of h P d' <> sigma_of h P d ->
    KPKE_KeyGen (with_secrets h P (sigma_of h P d) B) P n d' = KPKE_KeyGen h P n d'.
  Proof.
    intros Hne. unfold KPKE_KeyGen.
    change (FIPS203.G (with_secrets h P (sigma_of h P d) B) (d' ++ [Z.of_nat (pk P)])) with (FIPS203.G h (d' ++ [Z.of_nat (pk P)])).
    change (A_hat (with_secrets h P (sigma_of h P d) B)) with (A_hat h).
    assert (EN : forall eta N, noise (with_secrets h P (sigma_of h P d) B) P eta (sigma_of h P d') N = noise h P eta (sigma_of h P d') N)
      by (intros eta N; exact (noise_other h P d (sigma_of h P d') Hne B eta N)).
    change (sigma_of h P d') with (snd (FIPS203.G h (d' ++ [Z.of_nat (pk P)]))) in EN.
    destruct (FIPS203.G h (d' ++ [Z.of_nat (pk P)])) as [rho sig]. cbn [snd] in EN. rewrite !EN. reflexivity.
  Qed.

  Variables d0 d1 r : list Z.
  Hypothesis Hd0 : byte_string 32 d0.
  Hypothesis Hd1 : byte_string 32 d1.
  Hypothesis Hr : byte_string 32 r.
  Hypothesis Hne0 : r <> sigma_of hs P d0.
  Hypothesis Hne1 : r <> sigma_of hs P d1.
  Hypothesis Hne : sigma_of hs P d1 <> sigma_of hs P d0.
  Variables Ah0 Ah1 : list (list (list Z)).
  Hypothesis EA0 : A_hat hs P n (key_rho hs P d0) = Some Ah0.
  Hypothesis EA1 : A_hat hs P n (key_rho hs P d1) = Some Ah1.
  Let A0 := map (map NTTinv) Ah0.
  Let A1 := map (map NTTinv) Ah1.
  Let pub0 := public_key hs P d0 A0.
  Let pub1 := public_key hs P d1 A1.

  Lemma anon_run_lwe S0 E0 S1 E1 Y W b message D :
    byte_string (k * (64 * eta1 P)) S0 -> byte_string (k * (64 * eta1 P)) E0 ->
    byte_string (k * (64 * eta1 P)) S1 -> byte_string (k * (64 * eta1 P)) E1 ->
    byte_string (k * (64 * eta1 P)) Y -> byte_string ((k + 1) * (64 * eta2 P)) W ->
    (forall x y, byte_string 32 (message x y)) ->
    anon_run (anon_world hs P d0 d1 r S0 E0 S1 E1 Y W) P n d0 d1 r b message D =
    match KPKE_Encrypt (with_coins hs P r Y W) P n (if b then pub1 S1 E1 else pub0 S0 E0) (message (pub0 S0 E0) (pub1 S1 E1)) r with
    | Some c => D (pub0 S0 E0) (pub1 S1 E1) c
    | None => 0%Q
    end.
  Proof.
    intros HS0 HE0 HS1 HE1 HY HW Hm.
    set (hc := with_coins hs P r Y W). set (h1 := with_secrets hc P (sigma_of hs P d1) (S1 ++ E1)).
    change (anon_world hs P d0 d1 r S0 E0 S1 E1 Y W) with (with_secrets h1 P (sigma_of hs P d0) (S0 ++ E0)).
    set (h := with_secrets h1 P (sigma_of hs P d0) (S0 ++ E0)).
    assert (Hc : hash_ok hc) by (apply with_coins_ok; [exact Hhs|apply HY|apply HW]).
    assert (H1 : hash_ok h1) by (apply with_secrets_ok; [exact Hc|apply (sum_bytes S1 E1); assumption]).
    assert (Hh : hash_ok h) by (apply with_secrets_ok; [exact H1|apply (sum_bytes S0 E0); assumption]).
    assert (K0 : KPKE_KeyGen h P n d0 = Some (pub0 S0 E0, secret_bytes P S0))
      by exact (keygen_lwe h1 H1 P HP n d0 Ah0 S0 E0 (proj2 Hd0) HS0 HE0 EA0).
    assert (K1 : KPKE_KeyGen h P n d1 = Some (pub1 S1 E1, secret_bytes P S1)).
    { transitivity (KPKE_KeyGen h1 P n d1).
      - exact (keygen_other h1 d0 d1 (S0 ++ E0) Hne).
      - exact (keygen_lwe hc Hc P HP n d1 Ah1 S1 E1 (proj2 Hd1) HS1 HE1 EA1). }
    assert (EN : forall ekb m, KPKE_Encrypt h P n ekb m r = KPKE_Encrypt hc P n ekb m r).
    { intros ekb m. transitivity (KPKE_Encrypt h1 P n ekb m r).
      - exact (encrypt_other h1 d0 (S0 ++ E0) ekb m r Hne0).
      - exact (encrypt_other hc d1 (S1 ++ E1) ekb m r Hne1). }
    pose proof (pke_generate_ok h Hh P HP n d0 (proj2 Hd0)) as G0. rewrite K0 in G0.
    destruct G0 as (dk0 & ek0 & X1 & _ & V0 & _ & B0).
    pose proof (pke_generate_ok h Hh P HP n d1 (proj2 Hd1)) as G1. rewrite K1 in G1.
    destruct G1 as (dk1 & ek1 & Y1 & _ & V1 & _ & B1).
    unfold anon_run. rewrite X1, Y1, (ek_as_bytes_ok P ek0 V0), (ek_as_bytes_ok P ek1 V1), B0, B1.
    assert (VB : PkeProofs.valid_ek P (if b then ek1 else ek0)) by (destruct b; assumption).
    rewrite (encrypt_ok h Hh P HP n _ (message (pub0 S0 E0) (pub1 S1 E1)) r VB (Hm _ _) (proj2 Hr)).
    rewrite EN. replace (ek_bytes P (if b then ek1 else ek0)) with (if b then pub1 S1 E1 else pub0 S0 E0) by (destruct b; symmetry; assumption).
    destruct (KPKE_Encrypt hc P n _ _ r); reflexivity.
  Qed.

  Variables LS LE LY LW : list (list Z).
  Variables LT LV : list (list (list Z)).
  Hypothesis HLS : enumerates (k * (64 * eta1 P)) LS.
  Hypothesis HLE : enumerates (k * (64 * eta1 P)) LE.
  Hypothesis HLY : enumerates (k * (64 * eta1 P)) LY.
  Hypothesis HLW : enumerates ((k + 1) * (64 * eta2 P)) LW.
  Hypothesis HLT : all_vectors k LT.
  Hypothesis HLV : all_vectors (k + 1) LV.
  Open Scope Q_scope.

  (** one recipient, for a fixed key of the other party *)
  Lemma one_recipient d Ah message T : byte_string 32 d -> A_hat hs P n (key_rho hs P d) = Some Ah ->
    let A := map (map NTTinv) Ah in
    average LS (fun S => average LE (fun E => key_test hs P n (key_rho hs P d) r LY LW message T
      (lwe_samples k k A (cbd_vec (eta1 P) k S) (cbd_vec (eta1 P) k E)))) ==
    recipient_gap hs P n d r A LS LE LY LW LT message T + ciphertext_gap hs P d A LY LW LT LV message T
      - bystander_gap hs P d A LS LE LT LV T
    + average LS (fun S => average LE (fun E => average LV (fun w => T (public_key hs P d A S E) (uniform_ct P w)))).
  Proof.
    intros Hd EA A.
    pose proof (hybrid hs Hhs P HP n (key_rho hs P d) (rho_bytes hs Hhs P HP d Hd) Ah EA r LS LE LY LW LT LV HLY HLW HLT HLV message T) as HY.
    eapply Qeq_trans; [exact HY|].
    unfold recipient_gap, ciphertext_gap, bystander_gap, public_key, uniform_ct. fold A k.
    unfold lwe_gap at 5. ring.
  Qed.

  Lemma four_ext (f g : list Z -> list Z -> list Z -> list Z -> Q) :
    (forall a b c d, In a LS -> In b LE -> In c LS -> In d LE -> f a b c d == g a b c d) ->
    average LS (fun a => average LE (fun b => average LS (fun c => average LE (fun d => f a b c d)))) ==
    average LS (fun a => average LE (fun b => average LS (fun c => average LE (fun d => g a b c d)))).
  Proof.
    intros H. apply average_ext. intros a Ha. apply average_ext. intros b Hb. apply average_ext. intros c Hc.
    apply average_ext. intros d Hd. apply H; assumption.
  Qed.
  Lemma four_swap (f : list Z -> list Z -> list Z -> list Z -> Q) :
    average LS (fun a => average LE (fun b => average LS (fun c => average LE (fun d => f a b c d)))) ==
    average LS (fun c => average LE (fun d => average LS (fun a => average LE (fun b => f a b c d)))).
  Proof.
    rewrite (average_ext LS _ (fun a => average LS (fun c => average LE (fun d => average LE (fun b => f a b c d))))).
    - rewrite average_swap. apply average_ext. intros c _. apply average_swap.
    - intros a _. rewrite average_swap. apply average_ext. intros c _. apply average_swap.
  Qed.

  Theorem anon_hybrid b message D : (forall x y, byte_string 32 (message x y)) ->
    anon_experiment hs P n d0 d1 r LS LE LY LW b message D ==
    anon_gap hs P n d0 d1 r A0 A1 LS LE LY LW LT LV b message D + blind_experiment hs P d0 d1 A0 A1 LS LE LV D.
  Proof.
    intros Hm. unfold anon_experiment.
    rewrite (four_ext _ (fun S0 E0 S1 E1 =>
      if b then key_test hs P n (key_rho hs P d1) r LY LW (seen b message (pub0 S0 E0)) (seen b D (pub0 S0 E0))
                  (lwe_samples k k A1 (cbd_vec (eta1 P) k S1) (cbd_vec (eta1 P) k E1))
      else key_test hs P n (key_rho hs P d0) r LY LW (seen b message (pub1 S1 E1)) (seen b D (pub1 S1 E1))
                  (lwe_samples k k A0 (cbd_vec (eta1 P) k S0) (cbd_vec (eta1 P) k E0)))).
    2:{ intros S0 E0 S1 E1 HS0 HE0 HS1 HE1. apply HLS in HS0. apply HLE in HE0. apply HLS in HS1. apply HLE in HE1.
        rewrite (average_ext LY _ (fun Y => average LW (fun W =>
          match KPKE_Encrypt (with_coins hs P r Y W) P n (if b then pub1 S1 E1 else pub0 S0 E0) (message (pub0 S0 E0) (pub1 S1 E1)) r with
          | Some c => D (pub0 S0 E0) (pub1 S1 E1) c
          | None => 0
          end))).
        - destruct b; reflexivity.
        - intros Y HY. apply average_ext. intros W HW. apply HLY in HY. apply HLW in HW.
          rewrite anon_run_lwe by assumption. reflexivity. }
    unfold anon_gap, blind_experiment. destruct b; cbv zeta; cbn [seen].
    - rewrite (average_ext LS _ (fun S0 => average LE (fun E0 =>
        recipient_gap hs P n d1 r A1 LS LE LY LW LT (seen true message (pub0 S0 E0)) (seen true D (pub0 S0 E0)) +
        ciphertext_gap hs P d1 A1 LY LW LT LV (seen true message (pub0 S0 E0)) (seen true D (pub0 S0 E0)) -
        bystander_gap hs P d1 A1 LS LE LT LV (seen true D (pub0 S0 E0))) +
        average LE (fun E0 => average LS (fun S1 => average LE (fun E1 => average LV (fun w =>
          D (pub0 S0 E0) (pub1 S1 E1) (uniform_ct P w))))))).
      + rewrite average_plus. reflexivity.
      + intros S0 _. rewrite <- average_plus. apply average_ext. intros E0 _. exact (one_recipient d1 Ah1 _ _ Hd1 EA1).
    - rewrite four_swap. rewrite (four_swap (fun S0 E0 S1 E1 => average LV (fun w => D _ _ _))).
      rewrite (average_ext LS _ (fun S1 => average LE (fun E1 =>
        recipient_gap hs P n d0 r A0 LS LE LY LW LT (seen false message (pub1 S1 E1)) (seen false D (pub1 S1 E1)) +
        ciphertext_gap hs P d0 A0 LY LW LT LV (seen false message (pub1 S1 E1)) (seen false D (pub1 S1 E1)) -
        bystander_gap hs P d0 A0 LS LE LT LV (seen false D (pub1 S1 E1))) +
        average LE (fun E1 => average LS (fun S0 => average LE (fun E0 => average LV (fun w =>
          D (pub0 S0 E0) (pub1 S1 E1) (uniform_ct P w))))))).
      + rewrite average_plus. reflexivity.
      + intros S1 _. rewrite <- average_plus. apply average_ext. intros E1 _. exact (one_recipient d0 Ah0 _ _ Hd0 EA0).
  Qed.
End Anonymous.

(** ** the theorems *)

(** what C81 assumes: two seeds whose expansions differ from one another and from the randomness
    of the encryption, and lists of everything that is averaged over *)
Definition anon_setting (hs : hashes) (P : params) (n : nat) (d0 d1 r : list Z) (Ah0 Ah1 : list (list (list Z)))
  (LS LE LY LW : list (list Z)) (LT LV : list (list (list Z))) : Prop :=
  hash_ok hs /\ wf_params P /\ byte_string 32 d0 /\ byte_string 32 d1 /\ byte_string 32 r /\
  r <> sigma_of hs P d0 /\ r <> sigma_of hs P d1 /\ sigma_of hs P d1 <> sigma_of hs P d0 /\
  A_hat hs P n (key_rho hs P d0) = Some Ah0 /\ A_hat hs P n (key_rho hs P d1) = Some Ah1 /\
  enumerates (pk P * (64 * eta1 P)) LS /\ enumerates (pk P * (64 * eta1 P)) LE /\
  enumerates (pk P * (64 * eta1 P)) LY /\ enumerates ((pk P + 1) * (64 * eta2 P)) LW /\
  all_vectors (pk P) LT /\ all_vectors (pk P + 1) LV.

(** The experiment is a sum of gaps, and an experiment in which neither the recipient nor the
    message occurs. *)
Theorem C81_hybrid hs P n d0 d1 r Ah0 Ah1 LS LE LY LW LT LV b message D :
  anon_setting hs P n d0 d1 r Ah0 Ah1 LS LE LY LW LT LV -> (forall x y, byte_string 32 (message x y)) ->
  let A0 := map (map NTTinv) Ah0 in
  let A1 := map (map NTTinv) Ah1 in
  (anon_experiment hs P n d0 d1 r LS LE LY LW b message D ==
   anon_gap hs P n d0 d1 r A0 A1 LS LE LY LW LT LV b message D + blind_experiment hs P d0 d1 A0 A1 LS LE LV D)%Q.
Proof.
  intros (H1 & H2 & H3 & H4 & H5 & H6 & H7 & H8 & H9 & H10 & H11 & H12 & H13 & H14 & H15 & H16) Hm.
  exact (anon_hybrid hs H1 P H2 n d0 d1 r H3 H4 H5 H6 H7 H8 Ah0 Ah1 H9 H10 LS LE LY LW LT LV H11 H12 H13 H14 H15 H16 b message D Hm).
Qed.

(** Two recipients, or two messages, or both: the difference consists of gaps alone. *)
Theorem C81_anonymous hs P n d0 d1 r Ah0 Ah1 LS LE LY LW LT LV b message b' message' D :
  anon_setting hs P n d0 d1 r Ah0 Ah1 LS LE LY LW LT LV ->
  (forall x y, byte_string 32 (message x y)) -> (forall x y, byte_string 32 (message' x y)) ->
  let gap := anon_gap hs P n d0 d1 r (map (map NTTinv) Ah0) (map (map NTTinv) Ah1) LS LE LY LW LT LV in
  (anon_experiment hs P n d0 d1 r LS LE LY LW b message D - anon_experiment hs P n d0 d1 r LS LE LY LW b' message' D ==
   gap b message D - gap b' message' D)%Q.
Proof.
  intros HS Hm Hm'. cbv zeta.
  rewrite (C81_hybrid hs P n d0 d1 r Ah0 Ah1 LS LE LY LW LT LV b message D HS Hm).
  rewrite (C81_hybrid hs P n d0 d1 r Ah0 Ah1 LS LE LY LW LT LV b' message' D HS Hm'). ring.
Qed.

(** If the distinguishers have gaps of at most eps1 (for keys) and eps2 (for ciphertexts),
    whatever the key of the other party, the attacker's advantage is at most 4 eps1 + 2 eps2. *)
Theorem C81_bound hs P n d0 d1 r Ah0 Ah1 LS LE LY LW LT LV message D eps1 eps2 :
  anon_setting hs P n d0 d1 r Ah0 Ah1 LS LE LY LW LT LV -> (forall x y, byte_string 32 (message x y)) ->
  let A0 := map (map NTTinv) Ah0 in
  let A1 := map (map NTTinv) Ah1 in
  (0 <= eps1)%Q -> (0 <= eps2)%Q ->
  (forall (b : bool) S E, In S LS -> In E LE ->
   let d := if b then d1 else d0 in
   let A := if b then A1 else A0 in
   let other := public_key hs P (if b then d0 else d1) (if b then A0 else A1) S E in
   Qabs (recipient_gap hs P n d r A LS LE LY LW LT (seen b message other) (seen b D other)) <= eps1 /\
   Qabs (ciphertext_gap hs P d A LY LW LT LV (seen b message other) (seen b D other)) <= eps2 /\
   Qabs (bystander_gap hs P d A LS LE LT LV (seen b D other)) <= eps1)%Q ->
  (Qabs (anon_experiment hs P n d0 d1 r LS LE LY LW true message D -
         anon_experiment hs P n d0 d1 r LS LE LY LW false message D) <= 4 * eps1 + 2 * eps2)%Q.
Proof.
  intros HS Hm A0 A1 P1 P2 B.
  rewrite (C81_anonymous hs P n d0 d1 r Ah0 Ah1 LS LE LY LW LT LV true message false message D HS Hm Hm). cbv zeta. fold A0 A1.
  assert (K : forall b, (Qabs (anon_gap hs P n d0 d1 r A0 A1 LS LE LY LW LT LV b message D) <= 2 * eps1 + eps2)%Q).
  { intros b. assert (C0 : (0 <= 2 * eps1 + eps2)%Q) by lra. unfold anon_gap. cbv zeta.
    assert (AV : forall (L : list (list Z)) f, (forall x, In x L -> Qabs (f x) <= 2 * eps1 + eps2)%Q -> (Qabs (average L f) <= 2 * eps1 + eps2)%Q).
    { intros L f H. apply Qabs_Qle_condition. split.
      - setoid_replace (average L f) with (- average L (fun x => - f x))%Q.
        + apply Qopp_le_compat. apply average_bound; [exact C0|]. intros x Hx. specialize (H x Hx). apply Qabs_Qle_condition in H. lra.
        + rewrite (average_ext L (fun x => - f x)%Q (fun x => (-1) * f x)%Q) by (intros; ring). rewrite average_scale. ring.
      - apply average_bound; [exact C0|]. intros x Hx. specialize (H x Hx). apply Qabs_Qle_condition in H. lra. }
    apply AV. intros S HIS. apply AV. intros E HIE. destruct (B b S E HIS HIE) as (B1 & B2 & B3).
    match goal with |- (Qabs (?x + ?y - ?z) <= _)%Q => set (u := x) in *; set (v := y) in *; set (w := z) in * end.
    clearbody u v w. apply Qabs_Qle_condition in B1. apply Qabs_Qle_condition in B2. apply Qabs_Qle_condition in B3.
    apply Qabs_Qle_condition. split; lra. }
  pose proof (K true) as K1. pose proof (K false) as K0.
  match goal with |- (Qabs (?x - ?y) <= _)%Q => set (u := x) in *; set (v := y) in * end. clearbody u v.
  apply Qabs_Qle_condition in K1. apply Qabs_Qle_condition in K0. apply Qabs_Qle_condition. split; lra.
Qed.

(** ** cases *)

(** every run reaches the attacker, which sees the two keys and an encryption to the chosen one *)
Example C81_reached hs P n d0 d1 r Ah0 Ah1 LS LE LY LW LT LV (b : bool) message D S0 E0 S1 E1 Y W :
  anon_setting hs P n d0 d1 r Ah0 Ah1 LS LE LY LW LT LV -> (forall x y, byte_string 32 (message x y)) ->
  In S0 LS -> In E0 LE -> In S1 LS -> In E1 LE -> In Y LY -> In W LW ->
  let A0 := map (map NTTinv) Ah0 in
  let A1 := map (map NTTinv) Ah1 in
  let ek0 := public_key hs P d0 A0 S0 E0 in
  let ek1 := public_key hs P d1 A1 S1 E1 in
  exists c, KPKE_Encrypt (with_coins hs P r Y W) P n (if b then ek1 else ek0) (message ek0 ek1) r = Some c /\
    anon_run (anon_world hs P d0 d1 r S0 E0 S1 E1 Y W) P n d0 d1 r b message D = D ek0 ek1 c.
Proof.
  intros (H1 & H2 & H3 & H4 & H5 & H6 & H7 & H8 & H9 & H10 & H11 & H12 & H13 & H14 & _) Hm I1 I2 I3 I4 I5 I6. cbv zeta.
  apply H11 in I1. apply H12 in I2. apply H11 in I3. apply H12 in I4. apply H13 in I5. apply H14 in I6.
  rewrite (anon_run_lwe hs H1 P H2 n d0 d1 r H3 H4 H5 H6 H7 H8 Ah0 Ah1 H9 H10) by assumption.
  destruct b; unfold public_key.
  - rewrite (encrypt_lwe hs H1 P H2 n _ Ah1 _ _ r Y W (rho_bytes hs H1 P H2 d1 H4) (lwe_samples_vec _ _ _ _ _) I5 I6 H10).
    cbv zeta. eexists. split; reflexivity.
  - rewrite (encrypt_lwe hs H1 P H2 n _ Ah0 _ _ r Y W (rho_bytes hs H1 P H2 d0 H3) (lwe_samples_vec _ _ _ _ _) I5 I6 H9).
    cbv zeta. eexists. split; reflexivity.
Qed.

(** a hash function whose expansion of d is (0.., d): the setting exists for all three parameter
    sets and any three distinct strings *)
Definition mirror : hashes := {|
  sha3_256 := fun _ => repeat 0 32;
  sha3_512 := fun x => repeat 0 32 ++ firstn 32 (x ++ repeat 0 32);
  shake128 := fun _ _ => 0;
  shake256 := fun _ _ => 0
|}.
Lemma mirror_ok : hash_ok mirror.
Proof.
  intros m Hm. cbn [mirror sha3_256 sha3_512 shake128 shake256].
  split; [apply repeat_bytes; unfold is_byte; lia|]. split; [|split; intros; unfold is_byte; lia].
  apply (byte_string_app 32 32); [apply repeat_bytes; unfold is_byte; lia|]. split.
  - rewrite firstn_length, app_length, repeat_length. lia.
  - apply bytes_firstn, bytes_app; [exact Hm|]. apply (proj2 (repeat_bytes 0 32 ltac:(unfold is_byte; lia))).
Qed.
Lemma mirror_sigma P d : byte_string 32 d -> sigma_of mirror P d = d.
Proof.
  intros [L _]. unfold sigma_of, FIPS203.G. cbn [mirror sha3_512 snd].
  rewrite skipn_app_exact by apply repeat_length. rewrite <- app_assoc. apply firstn_app_exact, L.
Qed.
Example C81_case P d0 d1 r : In P [ML_KEM_512; ML_KEM_768; ML_KEM_1024] ->
  byte_string 32 d0 -> byte_string 32 d1 -> byte_string 32 r -> r <> d0 -> r <> d1 -> d1 <> d0 ->
  let LS := tuples (upto 256) (pk P * (64 * eta1 P)) in
  let LW := tuples (upto 256) ((pk P + 1) * (64 * eta2 P)) in
  exists Ah0 Ah1, anon_setting mirror P 128 d0 d1 r Ah0 Ah1 LS LS LS LW (vectors (pk P)) (vectors (pk P + 1)).
Proof.
  intros HI H0 H1 Hr N0 N1 N LS LW. destruct (unlucky_A P (key_rho mirror P d0)) as [Ah0 EA0].
  destruct (unlucky_A P (key_rho mirror P d1)) as [Ah1 EA1]. exists Ah0, Ah1. unfold anon_setting.
  assert (HP : wf_params P) by (destruct HI as [<-|[<-|[<-|[]]]]; [apply wf_512|apply wf_768|apply wf_1024]).
  rewrite !mirror_sigma by assumption.
  split; [exact mirror_ok|]. split; [exact HP|]. repeat (split; [assumption|]).
  repeat (split; [apply enumeration|]). split; apply vectors_all.
Qed.

(** C77: the failure probability when the matrix is random too.  C56 and C76 bound it by 2^-80,
    2^-90 and 2^-107 for every matrix, the worst one included.  Over the output of the XOF from
    which the matrix is sampled, together with the tapes of key generation and encryption, it is
    at most 2^-126, 2^-152 and 2^-163 (FIPS 203 quotes 2^-138.8, 2^-164.8 and 2^-174.8). *)
From Coq Require Import List ZArith Lia Bool Arith.
From Verif.Base Require Import Res Oracles.
From Verif.Spec Require Import FIPS203 Domains Noise Counting Random Lwe Attacker Tables XWing.
From Verif.Model Require Import Machine Util Algebra Compress Encode Crypto Sample Param Pke Kem XWing.
From Verif.Proofs Require Import Basics Field Poly CompressProofs NttAlgebra NttProofs EncodeProofs VecEncode SampleProofs CountProofs
  PkeProofs KemProofs XWingProofs Inner Correctness TailProofs FailureProofs FailureAverage FailureNumbers LweProofs AttackerProofs TableProofs
  MatrixNumbers.
From Verif.Properties Require Import Kem Correctness Distribution Tail Failure Secrecy KemSecrecy ActiveSecrecy
  XWing X25519 XWingFailure WholeSession.
From Coq Require Import QArith Qabs Lqa.
Import ListNotations.
Open Scope Z_scope.

(** ** K-PKE *)
(** key generation from [d] returns a key pair, and the encryption of [m] with [r] does not
    decrypt to [m] *)
Definition misdecrypts (hs : hashes) (P : params) (n : nat) (d m r : list Z) : bool :=
  negb (no_result (pke_generate hs P n d)) && negb (decrypts hs P n d m r).

Definition matrix_deltas : list (params * Z) := [(ML_KEM_512, 126); (ML_KEM_768, 152); (ML_KEM_1024, 163)].

Lemma matrix_wf P delta : In (P, delta) matrix_deltas -> wf_params P.
Proof. intros [E|[E|[E|[]]]]; apply (f_equal fst) in E; cbn [fst] in E; subst P; [apply wf_512|apply wf_768|apply wf_1024]. Qed.

Lemma generates_matrix hs P n d : hash_ok hs -> wf_params P -> bytes d -> no_result (pke_generate hs P n d) = false ->
  exists Ah, A_hat hs P n (key_rho hs P d) = Some Ah.
Proof.
  intros Hhs HP Hd G. pose proof (pke_generate_ok hs Hhs P HP n d Hd) as X.
  unfold KPKE_KeyGen in X. unfold key_rho.
  destruct (FIPS203.G hs (d ++ [Z.of_nat (pk P)])) as [rho sigma]. cbn [fst].
  destruct (A_hat hs P n rho) as [Ah|]; [exists Ah; reflexivity|].
  rewrite X in G. discriminate G.
Qed.

(** [hsM M]: hash functions whose XOF answers the queries for the matrix by [M].  The bound
    holds for the event that some message, chosen after all coins, does not decrypt. *)
Lemma matrix_count_any P delta : In (P, delta) matrix_deltas ->
  forall hs n rho (hsM : list Z -> hashes) d r LM LY LW LB (F : list Z * (list Z * (list Z * list Z)) -> bool),
  byte_string 32 d -> byte_string 32 r ->
  enumerates (pk P * pk P * (3 * n)) LM ->
  enumerates (pk P * (64 * eta1 P)) LY -> enumerates ((pk P + 1) * (64 * eta2 P)) LW ->
  enumerates (2 * pk P * (64 * eta1 P)) LB ->
  (forall M, In M LM -> hash_ok (hsM M)) ->
  (forall M, In M LM -> key_rho (hsM M) P d = rho) ->
  (forall M, In M LM -> r <> sigma_of (hsM M) P d) ->
  (forall M, In M LM -> A_hat (hsM M) P n rho = A_hat (with_matrix hs (pk P) (3 * n) rho M) P n rho) ->
  (forall M Y W B, In M LM -> In Y LY -> In W LW -> In B LB -> F (M, (Y, (W, B))) = true ->
     exists m, byte_string 32 m /\
     misdecrypts (with_secrets (with_coins (hsM M) P r Y W) P (sigma_of (hsM M) P d) B) P n d m r = true) ->
  2 ^ delta * count F
    (list_prod LM (list_prod LY (list_prod LW LB)))
  <= 256 ^ Z.of_nat (pk P * pk P * (3 * n)) *
     (256 ^ Z.of_nat (pk P * (64 * eta1 P)) * 256 ^ Z.of_nat ((pk P + 1) * (64 * eta2 P)) *
      256 ^ Z.of_nat (2 * pk P * (64 * eta1 P))).
Proof.
  intros HIn hs n rho hsM d r LM LY LW LB F Hd Hr HLM HY HW HL Hok Hrho Hne HA HF.
  assert (G : wf_params P -> (1 <= du P <= 11)%nat -> (1 <= dv P <= 11)%nat ->
    forall M Y W B, In M LM -> In Y LY -> In W LW -> In B LB ->
    F (M, (Y, (W, B))) = true ->
    exists Ah, A_hat (with_matrix hs (pk P) (3 * n) rho M) P n rho = Some Ah /\ exists m,
    ~ noise_in_range (with_secrets (with_coins (hsM M) P r Y W) P (key_sigma (hsM M) P d) B) P (map (map NTTinv) Ah) d m r).
  { intros HP Hu Hv M Y W B IM IY IW IB N. destruct (HF M Y W B IM IY IW IB N) as (m & Hm & N'). clear N. rename N' into N. apply HL in IB. apply HY in IY. apply HW in IW.
    unfold misdecrypts in N. apply andb_true_iff in N. destruct N as [N1 N2]. apply negb_true_iff in N1.
    assert (Hh : hash_ok (with_secrets (with_coins (hsM M) P r Y W) P (sigma_of (hsM M) P d) B)).
    { apply with_secrets_ok; [apply with_coins_ok; [apply Hok, IM|apply IY|apply IW]|apply IB]. }
    destruct (generates_matrix _ P n d Hh HP (proj2 Hd) N1) as [Ah EA].
    exists Ah. split.
    - rewrite <- (HA M IM), <- EA. change (key_rho (with_secrets _ _ _ _) P d) with (key_rho (hsM M) P d). rewrite (Hrho M IM). reflexivity.
    - exists m. exact (fails_pke _ Hh P HP Hu Hv n d m r Ah Hd Hm Hr EA N2). }
  destruct HIn as [E|[E|[E|[]]]]; pose proof (f_equal fst E) as E1; pose proof (f_equal snd E) as E2;
    cbn [fst snd] in E1, E2; subst P delta; clear E.
  - exact (matrix_average_512 hs n rho hsM d r LM LY LW LB _ Hne HLM HY HW HL (G wf_512 range_512_u range_512_v)).
  - exact (matrix_average_768 hs n rho hsM d r LM LY LW LB _ Hne HLM HY HW HL (G wf_768 range_768_u range_768_v)).
  - exact (matrix_average_1024 hs n rho hsM d r LM LY LW LB _ Hne HLM HY HW HL (G wf_1024 range_1024_u range_1024_v)).
Qed.

Lemma matrix_count P delta : In (P, delta) matrix_deltas ->
  forall hs n rho (hsM : list Z -> hashes) d m r LM LY LW LB,
  byte_string 32 d -> byte_string 32 m -> byte_string 32 r ->
  enumerates (pk P * pk P * (3 * n)) LM ->
  enumerates (pk P * (64 * eta1 P)) LY -> enumerates ((pk P + 1) * (64 * eta2 P)) LW ->
  enumerates (2 * pk P * (64 * eta1 P)) LB ->
  (forall M, In M LM -> hash_ok (hsM M)) ->
  (forall M, In M LM -> key_rho (hsM M) P d = rho) ->
  (forall M, In M LM -> r <> sigma_of (hsM M) P d) ->
  (forall M, In M LM -> A_hat (hsM M) P n rho = A_hat (with_matrix hs (pk P) (3 * n) rho M) P n rho) ->
  2 ^ delta *
  count (fun '(M, (Y, (W, B))) =>
      misdecrypts (with_secrets (with_coins (hsM M) P r Y W) P (sigma_of (hsM M) P d) B) P n d m r)
    (list_prod LM (list_prod LY (list_prod LW LB)))
  <= 256 ^ Z.of_nat (pk P * pk P * (3 * n)) *
     (256 ^ Z.of_nat (pk P * (64 * eta1 P)) * 256 ^ Z.of_nat ((pk P + 1) * (64 * eta2 P)) *
      256 ^ Z.of_nat (2 * pk P * (64 * eta1 P))).
Proof.
  intros HIn hs n rho hsM d m r LM LY LW LB Hd Hm Hr HLM HY HW HL Hok Hrho Hne HA.
  apply (matrix_count_any P delta HIn hs n rho hsM d r LM LY LW LB); try assumption.
  intros M Y W B _ _ _ _ N. exists m. split; [exact Hm|exact N].
Qed.

Theorem C77_kpke P delta : In (P, delta) [(ML_KEM_512, 126); (ML_KEM_768, 152); (ML_KEM_1024, 163)] ->
  forall hs n d m r LM LY LW LB, hash_ok hs ->
  byte_string 32 d -> byte_string 32 m -> byte_string 32 r ->
  r <> sigma_of hs P d ->
  enumerates (pk P * pk P * (3 * n)) LM ->
  enumerates (pk P * (64 * eta1 P)) LY -> enumerates ((pk P + 1) * (64 * eta2 P)) LW ->
  enumerates (2 * pk P * (64 * eta1 P)) LB ->
  let world M Y W B := with_secrets (with_coins (with_matrix hs (pk P) (3 * n) (key_rho hs P d) M) P r Y W) P (sigma_of hs P d) B in
  2 ^ delta *
  count (fun '(M, (Y, (W, B))) => misdecrypts (world M Y W B) P n d m r)
    (list_prod LM (list_prod LY (list_prod LW LB)))
  <= 256 ^ Z.of_nat (pk P * pk P * (3 * n)) *
     (256 ^ Z.of_nat (pk P * (64 * eta1 P)) * 256 ^ Z.of_nat ((pk P + 1) * (64 * eta2 P)) *
      256 ^ Z.of_nat (2 * pk P * (64 * eta1 P))).
Proof.
  intros HIn hs n d m r LM LY LW LB Hhs Hd Hm Hr Hne HLM HY HW HL world.
  apply (matrix_count P delta HIn hs n (key_rho hs P d) (fun M => with_matrix hs (pk P) (3 * n) (key_rho hs P d) M)); try assumption.
  - intros M IM. apply HLM in IM. apply with_matrix_ok; [exact Hhs|apply IM].
  - reflexivity.
  - intros M _. exact Hne.
  - reflexivity.
Qed.

(** ** averages over matrix and tapes *)
Lemma pair_enumerates a LS LE : enumerates a LS -> enumerates a LE ->
  enumerates (2 * a) (map (fun p => fst p ++ snd p) (list_prod LS LE)).
Proof.
  intros HLS HLE. split.
  - assert (ND : NoDup (list_prod LS LE)) by (apply NoDup_prod; [apply HLS|apply HLE]).
    assert (IL : forall p, In p (list_prod LS LE) -> length (fst p) = a).
    { intros [x b] I. apply in_prod_iff in I. apply HLS. apply I. }
    clear -ND IL. induction ND as [|p l Hp ND IH]; [constructor|]. cbn [map]. constructor.
    + intros I. apply in_map_iff in I. destruct I as (p' & E & I). apply Hp.
      assert (E1 : fst p' = fst p).
      { apply (f_equal (firstn a)) in E. rewrite !firstn_app_exact in E by (apply IL; auto using in_eq, in_cons). exact E. }
      rewrite E1 in E. apply app_inv_head in E. destruct p, p'. cbn [fst snd] in *. subst. exact I.
    + apply IH. intros p' I. apply IL. right. exact I.
  - intros B. rewrite in_map_iff. split.
    + intros ([x b] & <- & I). apply in_prod_iff in I. destruct I as [Ia Ib]. apply HLS in Ia. apply HLE in Ib.
      replace (2 * a)%nat with (a + a)%nat by lia. apply byte_string_app; assumption.
    + intros [Hl Hb]. exists (firstn a B, skipn a B). cbn [fst snd].
      split; [apply firstn_skipn|]. apply in_prod; [apply HLS|apply HLE].
      * split; [rewrite firstn_length; lia|apply bytes_firstn, Hb].
      * split; [rewrite skipn_length; lia|apply bytes_skipn, Hb].
Qed.

Lemma average_nonneg {A} (l : list A) f : (forall x, In x l -> 0 <= f x)%Q -> (0 <= average l f)%Q.
Proof.
  intros H. destruct l as [|x l]; [apply Qle_refl|].
  apply Qle_trans with (average (x :: l) (fun _ => 0%Q)); [|apply average_le; exact H].
  rewrite average_const by discriminate. apply Qle_refl.
Qed.

(** the average over LS and LE, then LY and LW, as one over LY, LW and the pairs *)
Lemma tapes_prod LS LE LY LW (F : list Z -> list Z -> list Z -> bool) :
  (average LS (fun S => average LE (fun E => average LY (fun Y => average LW (fun W => one_if (F Y W (S ++ E)))))) ==
   average (list_prod LY (list_prod LW (map (fun p => fst p ++ snd p) (list_prod LS LE))))
     (fun p => one_if (F (fst p) (fst (snd p)) (snd (snd p)))))%Q.
Proof.
  set (LB := map _ (list_prod LS LE)).
  transitivity (average LY (fun Y => average LW (fun W => average LB (fun B => one_if (F Y W B)))))%Q.
  - transitivity (average LY (fun Y => average LW (fun W => average LS (fun S => average LE (fun E => one_if (F Y W (S ++ E)))))))%Q.
    { transitivity (average LS (fun S => average LY (fun Y => average LW (fun W => average LE (fun E => one_if (F Y W (S ++ E)))))))%Q.
      - apply average_ext. intros S _. rewrite average_swap. apply average_ext. intros Y _. rewrite average_swap. reflexivity.
      - rewrite average_swap. apply average_ext. intros Y _. rewrite average_swap. reflexivity. }
    apply average_ext. intros Y _. apply average_ext. intros W _.
    rewrite <- (average_prod LS LE (fun S E => one_if (F Y W (S ++ E)))). unfold LB, average. rewrite total_map, map_length. reflexivity.
  - transitivity (average LY (fun Y => average (list_prod LW LB) (fun p => one_if (F Y (fst p) (snd p)))))%Q.
    { apply average_ext. intros Y _. symmetry. exact (average_prod LW LB (fun W B => one_if (F Y W B))). }
    rewrite <- (average_prod LY (list_prod LW LB) (fun Y p => one_if (F Y (fst p) (snd p)))). reflexivity.
Qed.

(** the matrix can be sampled from [M] and the ciphertext does not decrypt to [m] *)
Definition wrong_with (hs : hashes) (P : params) (n : nat) (rho m M S E Y W r : list Z) : bool :=
  match A_hat (with_matrix hs (pk P) (3 * n) rho M) P n rho with
  | Some Ah => pke_fails (with_coins (with_matrix hs (pk P) (3 * n) rho M) P r Y W) P n (secret_bytes P S)
      (key_bytes P rho (lwe_samples (pk P) (pk P) (map (map NTTinv) Ah) (cbd_vec (eta1 P) (pk P) S) (cbd_vec (eta1 P) (pk P) E))) m r
  | None => false
  end.

Lemma one_if_mono (b c : bool) : (b = true -> c = true) -> (one_if b <= one_if c)%Q.
Proof. destruct b; [intros H; rewrite H by reflexivity; apply Qle_refl|intros _; apply one_if_range]. Qed.
Lemma existsb_mono {A} (f g : A -> bool) l : (forall x, In x l -> f x = true -> g x = true) -> existsb f l = true -> existsb g l = true.
Proof. rewrite !existsb_exists. intros H (x & I & E). exists x. split; [exact I|apply H; assumption]. Qed.
Lemma misdecrypts_any hs P n d r L : (forall m, In m L -> byte_string 32 m) ->
  (existsb (fun m => misdecrypts hs P n d m r) L = true -> exists m, byte_string 32 m /\ misdecrypts hs P n d m r = true).
Proof.
  intros H E. apply existsb_exists in E. destruct E as (m & Im & E). exists m. split; [apply H, Im|exact E].
Qed.

(** The probability that, after all coins, there is a message in [L] that does not decrypt *)
Lemma wrong_any_average P delta : In (P, delta) matrix_deltas ->
  forall hs n rho L LM LS LE LY LW r, hash_ok hs -> byte_string 32 rho -> (forall m, In m L -> byte_string 32 m) -> byte_string 32 r ->
  enumerates (pk P * pk P * (3 * n)) LM ->
  enumerates (pk P * (64 * eta1 P)) LS -> enumerates (pk P * (64 * eta1 P)) LE ->
  enumerates (pk P * (64 * eta1 P)) LY -> enumerates ((pk P + 1) * (64 * eta2 P)) LW ->
  (average LM (fun M => average LS (fun S => average LE (fun E => average LY (fun Y => average LW (fun W =>
     one_if (existsb (fun m => wrong_with hs P n rho m M S E Y W r) L)))))) <= 1 / inject_Z (2 ^ delta))%Q.
Proof.
  intros HIn hs n rho L LM LS LE LY LW r Hhs Hrho Hm Hr HLM HLS HLE HLY HLW.
  pose proof (matrix_wf P delta HIn) as HP.
  assert (Hdel : 0 < 2 ^ delta).
  { destruct HIn as [E|[E|[E|[]]]]; apply (f_equal snd) in E; cbn [snd] in E; subst delta; reflexivity. }
  assert (Hsig : exists sigma, byte_string 32 sigma /\ r <> sigma).
  { destruct (list_eq_dec Z.eq_dec r (repeat 0 32)) as [->|NE].
    - exists (repeat 1 32). split; [apply repeat_bytes; unfold is_byte; lia|discriminate].
    - exists (repeat 0 32). split; [apply repeat_bytes; unfold is_byte; lia|exact NE]. }
  destruct Hsig as (sigma & Hs & Hne).
  set (d := repeat 0 32). assert (Hd : byte_string 32 d) by (apply repeat_bytes; unfold is_byte; lia).
  set (hm := fun M => with_matrix hs (pk P) (3 * n) rho M).
  set (hsM := fun M => seeded (hm M) P rho d sigma).
  pose (LB := map (fun p => fst p ++ snd p) (list_prod LS LE)).
  assert (HLB : enumerates (2 * pk P * (64 * eta1 P)) LB).
  { replace (2 * pk P * (64 * eta1 P))%nat with (2 * (pk P * (64 * eta1 P)))%nat by lia. apply pair_enumerates; assumption. }
  assert (Hok : forall M, In M LM -> hash_ok (hm M)).
  { intros M IM. apply HLM in IM. apply with_matrix_ok; [exact Hhs|apply IM]. }
  set (F := fun M Y W B => existsb (fun m => misdecrypts (with_secrets (with_coins (hsM M) P r Y W) P (sigma_of (hsM M) P d) B) P n d m r) L).
  pose proof (matrix_count_any P delta HIn hs n rho hsM d r LM LY LW LB (fun '(M, (Y, (W, B))) => F M Y W B) Hd Hr HLM HLY HLW HLB
    (fun M IM => seeded_ok (hm M) (Hok M IM) P rho d sigma Hrho Hs)
    (fun M _ => seeded_rho (hm M) P rho d sigma Hrho)
    (fun M _ => eq_ind_r (fun x => r <> x) Hne (seeded_sigma (hm M) P rho d sigma Hrho))
    (fun M _ => eq_refl)) as C.
  specialize (C (fun M Y W B _ _ _ _ => misdecrypts_any _ P n d r L Hm)).
  apply Qle_trans with (average (list_prod LM (list_prod LY (list_prod LW LB)))
    (fun p => one_if (F (fst p) (fst (snd p)) (fst (snd (snd p))) (snd (snd (snd p)))))).
  - rewrite (average_prod LM (list_prod LY (list_prod LW LB)) (fun M p => one_if (F M (fst p) (fst (snd p)) (snd (snd p))))).
    apply average_le. intros M IM.
    pose proof (tapes_prod LS LE LY LW (F M)) as T. fold LB in T. rewrite <- T. clear T.
    apply average_le. intros S IS. apply average_le. intros E IE. apply average_le. intros Y IY. apply average_le. intros W IW.
    apply HLS in IS. apply HLE in IE. apply HLY in IY. apply HLW in IW.
    apply one_if_mono, existsb_mono. intros m Im. apply Hm in Im.
    unfold wrong_with. fold (hm M).
    destruct (A_hat (hm M) P n rho) as [Ah|] eqn:EA; [|discriminate].
    rewrite (fails_decrypts (hm M) (Hok M IM) P HP n rho d sigma r Hrho Hd Hs Hr Hne Ah EA S E Y W m Im IS IE IY IW).
    fold (hsM M). unfold misdecrypts.
    assert (HB : byte_string (2 * pk P * (64 * eta1 P)) (S ++ E)).
    { replace (2 * pk P * (64 * eta1 P))%nat with (pk P * (64 * eta1 P) + pk P * (64 * eta1 P))%nat by lia. apply byte_string_app; assumption. }
    set (h := with_secrets _ _ _ _).
    assert (Hh : hash_ok h).
    { apply with_secrets_ok; [|apply HB]. apply with_coins_ok; [apply seeded_ok; [apply Hok, IM|assumption|assumption]|apply IY|apply IW]. }
    assert (G : no_result (pke_generate h P n d) = false).
    { pose proof (pke_generate_ok h Hh P HP n d (proj2 Hd)) as X. unfold KPKE_KeyGen in X.
      assert (EG : FIPS203.G h (d ++ [Z.of_nat (pk P)]) = (rho, sigma)) by exact (seeded_G (hm M) P rho d sigma Hrho).
      rewrite EG in X. change (A_hat h P n rho) with (A_hat (hm M) P n rho) in X. rewrite EA in X.
      destruct X as (dk & ek & X & _). rewrite X. reflexivity. }
    rewrite G. intros X. exact X.
  - unfold average. rewrite total_one_if, !prod_length, !Nat2Z.inj_mul.
    rewrite (enumerates_length _ LM HLM), (enumerates_length _ LY HLY), (enumerates_length _ LW HLW), (enumerates_length _ LB HLB).
    rewrite (count_ext_in _ (fun '(M, (Y, (W, B))) => F M Y W B)) by (intros [M [Y [W B]]] _; reflexivity).
    set (X := count _ _) in *. clearbody X.
    assert (P1 : forall e, 0 < 256 ^ Z.of_nat e) by (intros e; apply Z.pow_pos_nonneg; lia).
    pose proof (P1 (pk P * (64 * eta1 P))%nat) as Q1. pose proof (P1 ((pk P + 1) * (64 * eta2 P))%nat) as Q2.
    pose proof (P1 (2 * pk P * (64 * eta1 P))%nat) as Q3. pose proof (P1 (pk P * pk P * (3 * n))%nat) as Q4.
    set (a := 256 ^ Z.of_nat (pk P * (64 * eta1 P))) in *. set (b := 256 ^ Z.of_nat ((pk P + 1) * (64 * eta2 P))) in *.
    set (c := 256 ^ Z.of_nat (2 * pk P * (64 * eta1 P))) in *. set (w := 256 ^ Z.of_nat (pk P * pk P * (3 * n))) in *.
    apply fraction; [exact Hdel| |].
    + clear -Q1 Q2 Q3 Q4. clearbody a b c w. assert (0 < b * c) by nia. assert (0 < a * (b * c)) by nia. nia.
    + rewrite (Z.mul_assoc a). exact C.
Qed.

Lemma wrong_average P delta : In (P, delta) matrix_deltas ->
  forall hs n rho m LM LS LE LY LW r, hash_ok hs -> byte_string 32 rho -> byte_string 32 m -> byte_string 32 r ->
  enumerates (pk P * pk P * (3 * n)) LM ->
  enumerates (pk P * (64 * eta1 P)) LS -> enumerates (pk P * (64 * eta1 P)) LE ->
  enumerates (pk P * (64 * eta1 P)) LY -> enumerates ((pk P + 1) * (64 * eta2 P)) LW ->
  (average LM (fun M => average LS (fun S => average LE (fun E => average LY (fun Y => average LW (fun W =>
     one_if (wrong_with hs P n rho m M S E Y W r)))))) <= 1 / inject_Z (2 ^ delta))%Q.
Proof.
  intros HIn hs n rho m LM LS LE LY LW r Hhs Hrho Hm Hr HLM HLS HLE HLY HLW.
  eapply Qle_trans; [|apply (wrong_any_average P delta HIn hs n rho [m] LM LS LE LY LW r); try assumption].
  - do 5 (apply average_le; intros ? _). apply one_if_mono. intros E. cbn [existsb]. rewrite E. reflexivity.
  - intros m' [<-|[]]. exact Hm.
Qed.

(** ** sessions *)
Section Session.
  Variable P : params.
  Variable delta : Z.
  Hypothesis HIn : In (P, delta) matrix_deltas.
  Variable hs : hashes.
  Hypothesis Hhs : hash_ok hs.
  Variables rho d z m : list Z.
  Hypothesis Hrho : byte_string 32 rho.
  Hypothesis Hd : byte_string 32 d.
  Hypothesis Hz : byte_string 32 z.
  Hypothesis Hm : byte_string 32 m.
  Variables L LM LS LE LY LW : list (list Z).
  Hypothesis HL : enumerates 32 L.
  Hypothesis HLM : enumerates (pk P * pk P * (3 * 280)) LM.
  Hypothesis HLS : enumerates (pk P * (64 * eta1 P)) LS.
  Hypothesis HLE : enumerates (pk P * (64 * eta1 P)) LE.
  Hypothesis HLY : enumerates (pk P * (64 * eta1 P)) LY.
  Hypothesis HLW : enumerates ((pk P + 1) * (64 * eta2 P)) LW.
  Open Scope Q_scope.

  Lemma random_matrix_bound bad :
    (forall K sigma r M S E Y W, In K L -> In sigma L -> In r L -> In M LM -> In S LS -> In E LE -> In Y LY -> In W LW ->
      bad K sigma r M S E Y W = true -> agree (session_world hs P 280 rho d m K M S E Y W sigma r) P 280 d z m = false) ->
    session_probability L LM LS LE LY LW bad
    <= 1 / inject_Z (2 ^ delta) + 1 / inject_Z (2 ^ 243) + 1 / inject_Z (2 ^ 256).
  Proof.
    intros Hbad.
    pose proof (matrix_wf P delta HIn) as HP.
    assert (Hk : (pk P <= 4)%nat).
    { destruct HIn as [E|[E|[E|[]]]]; apply (f_equal fst) in E; cbn [fst] in E; subst P; cbn; lia. }
    assert (Hdel : (0 < 2 ^ delta)%Z).
    { destruct HIn as [E|[E|[E|[]]]]; apply (f_equal snd) in E; cbn [snd] in E; subst delta; reflexivity. }
    pose proof (matrix_average hs P rho d z LM Hhs HP Hk Hrho Hd Hz HLM) as NM.
    set (none := fun M => match A_hat (with_matrix hs (pk P) (3 * 280) rho M) P 280 rho with Some _ => false | None => true end).
    change (average LM (fun M => one_if (none M)) <= 1 / inject_Z (2 ^ 243)) in NM.
    assert (W0 : 0 <= 1 / inject_Z (2 ^ delta)).
    { unfold Qdiv. rewrite Qmult_1_l. apply Qinv_le_0_compat. change 0 with (inject_Z 0). rewrite <- Zle_Qle. lia. }
    assert (U0 : 0 <= 1 / inject_Z (2 ^ 256)) by discriminate.
    assert (V0 : 0 <= 1 / inject_Z (2 ^ 243)) by discriminate.
    assert (WR : forall r, In r L -> average LM (fun M => average LS (fun S => average LE (fun E => average LY (fun Y => average LW (fun W =>
       one_if (wrong_with hs P 280 rho m M S E Y W r)))))) <= 1 / inject_Z (2 ^ delta)).
    { intros r Ir. apply HL in Ir. apply (wrong_average P delta HIn); assumption. }
    set (wd := 1 / inject_Z (2 ^ delta)) in *. set (u := 1 / inject_Z (2 ^ 256)) in *. set (v := 1 / inject_Z (2 ^ 243)) in *.
    unfold session_probability.
    apply average_bound; [lra|]. intros K HK. apply average_bound; [lra|]. intros sigma Hs.
    apply Qle_trans with (average L (fun r => one_if (if list_eq_dec Z.eq_dec sigma r then true else false) + (v + wd))).
    - apply average_le. intros r Hr.
      set (same := if list_eq_dec Z.eq_dec sigma r then true else false).
      apply Qle_trans with (average LM (fun M => one_if (none M) + one_if same) + wd).
      + pose proof (WR r Hr) as WR1.
        eapply Qle_trans; [|apply Qplus_le_r; exact WR1]. rewrite <- average_plus. apply average_le. intros M HM.
        assert (T1 : 1 <= one_if (none M) + one_if same ->
          average LS (fun S => average LE (fun E => average LY (fun Y => average LW (fun W => one_if (bad K sigma r M S E Y W)))))
          <= one_if (none M) + one_if same + average LS (fun S => average LE (fun E => average LY (fun Y => average LW (fun W =>
               one_if (wrong_with hs P 280 rho m M S E Y W r)))))).
        { intros Hc.
          assert (Z0 : 0 <= average LS (fun S => average LE (fun E => average LY (fun Y => average LW (fun W =>
               one_if (wrong_with hs P 280 rho m M S E Y W r)))))).
          { do 4 (apply average_nonneg; intros). apply one_if_range. }
          apply Qle_trans with (1 + 0); [|apply Qplus_le_compat; [exact Hc|exact Z0]]. apply Qle_trans with 1; [|discriminate].
          do 4 (apply average_bound; [lra|]; intros). apply one_if_range. }
        pose proof (one_if_range (none M)) as R1. pose proof (one_if_range same) as R2.
        destruct (none M) eqn:NM1; [apply T1; cbn [one_if] in *; lra|].
        destruct same eqn:SM; [apply T1; cbn [one_if] in *; lra|]. clear T1.
        assert (Hne : r <> sigma).
        { intros X. unfold same in SM. destruct (list_eq_dec Z.eq_dec sigma r) as [_|Y]; [discriminate SM|]. apply Y. symmetry. exact X. }
        cbn [one_if]. rewrite Qplus_0_l, Qplus_0_l.
        apply average_le. intros S HS. apply average_le. intros E HE. apply average_le. intros Y HY. apply average_le. intros W HW.
        destruct (wrong_with hs P 280 rho m M S E Y W r) eqn:EW; [apply one_if_range|].
        destruct (bad K sigma r M S E Y W) eqn:EB; [|apply Qle_refl]. exfalso.
        apply Hbad in EB; try assumption.
        rewrite (session_agrees hs Hhs P HP 280 rho d z m Hrho Hd Hz Hm) in EB; [discriminate EB|..]; try assumption;
          first [apply HL; assumption|apply HLM; assumption|apply HLS; assumption|apply HLE; assumption|apply HLY; assumption|apply HLW; assumption|idtac].
        unfold wrong_with in EW. unfold none in NM1.
        destruct (A_hat (with_matrix hs (pk P) (3 * 280) rho M) P 280 rho) as [Ah|]; [exact EW|discriminate NM1].
      + rewrite average_plus, average_const by exact (nonempty_enum P _ LM HLM). lra.
    - rewrite average_plus, average_const by exact (nonempty_enum P _ L HL).
      pose proof (same_string L HL sigma) as X. fold u in X. lra.
  Qed.
End Session.

Theorem C77_ml_kem P delta : In (P, delta) [(ML_KEM_512, 126); (ML_KEM_768, 152); (ML_KEM_1024, 163)] ->
  forall hs g s rho L LM LS LE LY LW, hash_ok hs -> rng_ok g -> byte_string 32 rho ->
  enumerates 32 L -> enumerates (pk P * pk P * 840) LM ->
  enumerates (pk P * (64 * eta1 P)) LS -> enumerates (pk P * (64 * eta1 P)) LE ->
  enumerates (pk P * (64 * eta1 P)) LY -> enumerates ((pk P + 1) * (64 * eta2 P)) LW ->
  let d := fst (fill_bytes g s 32) in
  let s1 := snd (fill_bytes g s 32) in
  let s2 := snd (fill_bytes g s1 32) in
  let m := fst (fill_bytes g s2 32) in
  (session_probability L LM LS LE LY LW (fun K sigma r M S E Y W =>
     negb (api_agree (session_world hs P 280 rho d m K M S E Y W sigma r) P 280 g s))
   <= 1 / inject_Z (2 ^ delta) + 1 / inject_Z (2 ^ 243) + 1 / inject_Z (2 ^ 256))%Q.
Proof.
  intros HIn hs g s rho L LM LS LE LY LW Hhs Hg Hrho HL HLM HLS HLE HLY HLW d s1 s2 m.
  apply (random_matrix_bound P delta HIn hs Hhs rho d (fst (fill_bytes g s1 32)) m Hrho (Hg s 32%nat) (Hg s1 32%nat) (Hg s2 32%nat)); try assumption.
  intros K sigma r M S E Y W _ _ _ _ _ _ _ _ N. rewrite api_agree_agree in N.
  apply negb_true_iff in N. exact N.
Qed.

Theorem C77_xwing hs X sk g s rho L LM LS LE LY LW :
  hash_ok hs -> x25519_ok X -> x25519_commutes X -> byte_string 32 sk -> rng_ok g -> byte_string 32 rho ->
  enumerates 32 L -> enumerates (9 * 840) LM -> enumerates 384 LS -> enumerates 384 LE -> enumerates 384 LY -> enumerates 512 LW ->
  let d := bytes32 0 (SHAKE128 hs sk 96) in
  let m := fst (fill_bytes g s 32) in
  (session_probability L LM LS LE LY LW (fun K sigma r M S E Y W =>
     negb (xw_agree (session_world hs ML_KEM_768 280 rho d m K M S E Y W sigma r) X 280 sk g s))
   <= 1 / inject_Z (2 ^ 152) + 1 / inject_Z (2 ^ 243) + 1 / inject_Z (2 ^ 256))%Q.
Proof.
  intros Hhs HX HC Hsk Hg Hrho HL HLM HLS HLE HLY HLW d m.
  pose proof (shake_parts hs Hhs sk 0 (proj2 Hsk) ltac:(lia)) as Hd. fold d in Hd.
  pose proof (shake_parts hs Hhs sk 32 (proj2 Hsk) ltac:(lia)) as Hz. set (z := bytes32 32 (SHAKE128 hs sk 96)) in Hz.
  pose proof (Hg s 32%nat) as Hm. fold m in Hm.
  apply (random_matrix_bound ML_KEM_768 152 ltac:(right; left; reflexivity) hs Hhs rho d z m Hrho Hd Hz Hm); try assumption.
  intros K sigma r M S E Y W IK Is Ir IM IS IE IY IW N. apply negb_true_iff in N.
  destruct (agree (session_world hs ML_KEM_768 280 rho d m K M S E Y W sigma r) ML_KEM_768 280 d z m) eqn:A; [|reflexivity].
  assert (Ow : hash_ok (session_world hs ML_KEM_768 280 rho d m K M S E Y W sigma r)).
  { exact (session_world_ok hs Hhs ML_KEM_768 280 rho d m Hrho K M S E Y W sigma r (proj1 (proj2 HL K) IK) (proj1 (proj2 HLM M) IM)
      (proj1 (proj2 HLS S) IS) (proj1 (proj2 HLE E) IE) (proj1 (proj2 HLY Y) IY) (proj1 (proj2 HLW W) IW) (proj1 (proj2 HL sigma) Is) (proj1 (proj2 HL r) Ir)). }
  pose proof (agree_xwing (session_world hs ML_KEM_768 280 rho d m K M S E Y W sigma r) X 280 sk g s Ow HX HC Hsk Hg) as AX.
  rewrite (session_shake hs ML_KEM_768 280 rho d m K M S E Y W sigma r sk Hrho Hsk) in AX.
  fold d in AX. fold z in AX. fold m in AX. rewrite (AX A) in N. discriminate N.
Qed.

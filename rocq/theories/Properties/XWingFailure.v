(** C59: how often X-Wing's sender and receiver derive different secrets. *)
From Coq Require Import List ZArith Lia Bool Arith.
From Verif.Base Require Import Res Oracles.
From Verif.Spec Require Import FIPS203 Domains Noise Counting Random XWing.
From Verif.Model Require Import Machine Util Algebra Compress Encode Crypto Sample Param Pke Kem XWing.
From Verif.Proofs Require Import Basics KemProofs XWingProofs TailProofs.
From Verif.Tests Require Import Toy.
From Verif.Properties Require Import Kem KemCases Correctness Failure XWing X25519.
Import ListNotations.
Open Scope Z_scope.

(** expand the seed [sk], encapsulate to its public key with the RNG, decapsulate: the same
    secret? *)
Definition xw_agree (hs : hashes) (X : x25519_impl) (n : nat) (sk : list Z) (g : rng) (s : rng_state g) : bool :=
  match xw_encapsulation_key hs X n (xw_dk_from sk) with
  | Ok ek =>
      match xw_encapsulate hs X n ek g s with
      | Ok (ct, ss, _) => returns (xw_decapsulate hs X n (xw_dk_from sk) ct) ss
      | _ => false
      end
  | _ => false
  end.

Lemma returns_inv r p : returns r p = true -> r = Ok p.
Proof.
  unfold returns. destruct r as [x| | |]; try discriminate. destruct (list_eq_dec Z.eq_dec x p) as [->|]; [reflexivity|discriminate].
Qed.

(** if ML-KEM agrees then so does X-Wing *)
Lemma agree_xwing hs X n sk g s : hash_ok hs -> x25519_ok X -> x25519_commutes X -> byte_string 32 sk -> rng_ok g ->
  agree hs ML_KEM_768 n (bytes32 0 (SHAKE128 hs sk 96)) (bytes32 32 (SHAKE128 hs sk 96)) (fst (fill_bytes g s 32)) = true ->
  xw_agree hs X n sk g s = true.
Proof.
  intros Hhs [HX1 HX2] HC Hsk Hg A. unfold agree in A.
  pose proof (expand_ok hs Hhs X HX1 HX2 n sk Hsk) as W.
  destruct (XW_expand hs (x25519 X) n sk) as [[[[skm skx] pkm] pkx]|].
  - destruct W as (dk & W1 & W2 & _ & _ & _ & _ & _ & Epk & Hskx & _). rewrite W2 in A.
    unfold xw_agree, xw_encapsulation_key, xw_decapsulate, xw_encapsulate. rewrite W1. cbn [bind pk_m pk_x].
    unfold encapsulate, rand. change MlKem768Params with ML_KEM_768.
    destruct (fill_bytes g s 32) as [m s1] eqn:Em. cbn [fst] in A.
    unfold encapsulate_deterministic in A.
    destruct (encapsulate_deterministic_inner hs ML_KEM_768 n (dk_ek dk) m) as [[c K]| | |]; try discriminate A.
    cbn [bind]. unfold xw_generate.
    pose proof (Hg s1 32%nat) as Hx. destruct (fill_bytes g s1 32) as [ek_x s2]. cbn [fst] in Hx. cbn [ct_m ct_x].
    apply returns_inv in A. rewrite A. cbn [bind]. apply returns_ok. f_equal. f_equal.
    rewrite Epk. change X25519_BASEPOINT_BYTES with X25519_BASE. apply HC; assumption.
  - exfalso. unfold expand_key in W. destruct (xof_parts (shake128 hs sk)) as (E1 & E2 & _).
    fold (SHAKE128 hs sk 96) in E1, E2. cbn [xw_sk xw_dk_from] in W.
    set (r0 := {| xof_stream := shake128 hs sk; xof_pos := 0 |}) in *. clearbody r0.
    destruct (read_from r0) as [d r1]. cbn [fst snd] in *. destruct (read_from r1) as [z r2]. cbn [fst snd] in *. subst d z.
    change MlKem768Params with ML_KEM_768 in W.
    destruct (kem_generate_deterministic hs ML_KEM_768 n _ _) as [[dk ek]| | |]; try discriminate A.
    cbn [bind] in W. destruct (read_from r2). discriminate W.
Qed.

(** the seeds that X-Wing hands to ML-KEM: the first and the second 32 bytes of the expanded key *)
Theorem C59_xwing hs X n sk g s Ah LY LW LB :
  hash_ok hs -> x25519_ok X -> x25519_commutes X -> byte_string 32 sk -> rng_ok g ->
  let d := bytes32 0 (SHAKE128 hs sk 96) in
  let m := fst (fill_bytes g s 32) in
  let sigma := sigma_of hs ML_KEM_768 d in
  let coins B := coins_of (with_secrets hs ML_KEM_768 sigma B) ML_KEM_768 n d m in
  A_hat hs ML_KEM_768 n (key_rho hs ML_KEM_768 d) = Some Ah ->
  (forall B, byte_string 768 B -> coins B <> sigma) ->
  enumerates 384 LY -> enumerates 512 LW -> enumerates 768 LB ->
  2 ^ 90 *
  count (fun '(Y, (W, B)) =>
      negb (xw_agree (with_secrets (with_coins hs ML_KEM_768 (coins B) Y W) ML_KEM_768 sigma B) X n sk g s))
    (list_prod LY (list_prod LW LB))
  <= 256 ^ (384 + 512 + 768).
Proof.
  intros Hhs HX HC Hsk Hg d m sigma coins EA Hne HY HW HB.
  pose proof (shake_parts hs Hhs sk 0 (proj2 Hsk) ltac:(lia)) as Hd. fold d in Hd.
  pose proof (shake_parts hs Hhs sk 32 (proj2 Hsk) ltac:(lia)) as Hz. set (z := bytes32 32 (SHAKE128 hs sk 96)) in Hz.
  pose proof (Hg s 32%nat) as Hm. fold m in Hm.
  pose proof (C56_kem ML_KEM_768 90 ltac:(right; left; reflexivity) hs n d z m Ah LY LW LB Hhs Hd Hz Hm EA Hne HY HW HB) as C.
  change (256 ^ Z.of_nat (pk ML_KEM_768 * (64 * eta1 ML_KEM_768)) * 256 ^ Z.of_nat ((pk ML_KEM_768 + 1) * (64 * eta2 ML_KEM_768)) *
     256 ^ Z.of_nat (2 * pk ML_KEM_768 * (64 * eta1 ML_KEM_768))) with (256 ^ 384 * 256 ^ 512 * 256 ^ 768) in C.
  rewrite <- !Z.pow_add_r in C by lia. eapply Z.le_trans; [|exact C]. clear C.
  apply Z.mul_le_mono_nonneg_l; [lia|]. apply count_impl. intros [Y [W B]] HIn N.
  apply in_prod_iff in HIn. destruct HIn as [IY HIn]. apply in_prod_iff in HIn. destruct HIn as [IW IB].
  apply HY in IY. apply HW in IW. apply HB in IB.
  set (hs' := with_secrets (with_coins hs ML_KEM_768 (coins B) Y W) ML_KEM_768 sigma B) in *.
  assert (Hhs' : hash_ok hs').
  { apply with_secrets_ok; [|exact (proj2 IB)]. apply with_coins_ok; [exact Hhs|exact (proj2 IY)|exact (proj2 IW)]. }
  match goal with |- ?R = true => change R with (negb (agree hs' ML_KEM_768 n d z m)) end.
  destruct (agree hs' ML_KEM_768 n d z m) eqn:E; [|reflexivity].
  rewrite (agree_xwing hs' X n sk g s Hhs' HX HC Hsk Hg E) in N. discriminate N.
Qed.

(** with RFC 7748's X25519 nothing is assumed of the group *)
Theorem C59_xwing_rfc7748 hs n sk g s Ah LY LW LB :
  hash_ok hs -> byte_string 32 sk -> rng_ok g ->
  let d := bytes32 0 (SHAKE128 hs sk 96) in
  let m := fst (fill_bytes g s 32) in
  let sigma := sigma_of hs ML_KEM_768 d in
  let coins B := coins_of (with_secrets hs ML_KEM_768 sigma B) ML_KEM_768 n d m in
  A_hat hs ML_KEM_768 n (key_rho hs ML_KEM_768 d) = Some Ah ->
  (forall B, byte_string 768 B -> coins B <> sigma) ->
  enumerates 384 LY -> enumerates 512 LW -> enumerates 768 LB ->
  2 ^ 90 *
  count (fun '(Y, (W, B)) =>
      negb (xw_agree (with_secrets (with_coins hs ML_KEM_768 (coins B) Y W) ML_KEM_768 sigma B) rfc7748 n sk g s))
    (list_prod LY (list_prod LW LB))
  <= 256 ^ (384 + 512 + 768).
Proof.
  intros Hhs. exact (C59_xwing hs rfc7748 n sk g s Ah LY LW LB Hhs rfc7748_ok rfc7748_commutes).
Qed.

(** ** A case: the hash function of C05, every seed and every RNG *)
Example C59_case : forall sk g s LY LW LB, byte_string 32 sk -> rng_ok g ->
  let hs := unlucky 3 2 in
  let d := bytes32 0 (SHAKE128 hs sk 96) in
  let m := fst (fill_bytes g s 32) in
  let sigma := repeat 1 32 in
  enumerates 384 LY -> enumerates 512 LW -> enumerates 768 LB ->
  2 ^ 90 *
  count (fun '(Y, (W, B)) =>
      negb (xw_agree (with_secrets (with_coins hs ML_KEM_768 (coins_of (with_secrets hs ML_KEM_768 sigma B) ML_KEM_768 128 d m) Y W)
              ML_KEM_768 sigma B) rfc7748 128 sk g s))
    (list_prod LY (list_prod LW LB))
  <= 256 ^ (384 + 512 + 768).
Proof.
  intros sk g s LY LW LB Hsk Hg hs d m sigma HY HW HB.
  assert (Hhs : hash_ok hs) by apply unlucky_ok.
  pose proof (shake_parts hs Hhs sk 0 (proj2 Hsk) ltac:(lia)) as Hd. fold d in Hd.
  assert (ES : sigma_of hs ML_KEM_768 d = sigma) by exact (f_equal snd (G_generate ML_KEM_768 d Hd)).
  destruct (unlucky_A ML_KEM_768 (key_rho hs ML_KEM_768 d)) as [Ah EA].
  pose proof (C59_xwing_rfc7748 hs 128 sk g s Ah LY LW LB Hhs Hsk Hg) as C. cbv zeta in C. fold d in C. fold m in C.
  rewrite ES in C. apply C; [exact EA| |exact HY|exact HW|exact HB].
  intros B HB'. unfold coins_of.
  destruct (KPKE_KeyGen (with_secrets hs ML_KEM_768 sigma B) ML_KEM_768 128 d) as [[ek dk]|]; [|discriminate].
  assert (E : FIPS203.G (with_secrets hs ML_KEM_768 sigma B) (m ++ FIPS203.H (with_secrets hs ML_KEM_768 sigma B) ek) = (m, repeat 2 32)).
  { apply (G_encapsulate ML_KEM_768 m (repeat 0 32) (Hg s 32%nat)). apply repeat_bytes. unfold is_byte. lia. }
  rewrite E. discriminate.
Qed.

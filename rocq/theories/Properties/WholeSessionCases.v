(** Cases for C76: X-Wing with RFC 7748's function, and answers with which a session succeeds
    and fails. *)
From Coq Require Import List ZArith Lia Bool Arith.
From Verif.Base Require Import Res Oracles.
From Verif.Spec Require Import FIPS203 Domains Noise Counting Random Lwe Attacker Tables XWing.
From Verif.Model Require Import Machine Util Algebra Compress Encode Crypto Sample Param Pke Kem XWing.
From Verif.Proofs Require Import Basics Field Poly CompressProofs NttAlgebra NttProofs EncodeProofs VecEncode SampleProofs CountProofs
  PkeProofs KemProofs XWingProofs Inner Correctness TailProofs FailureProofs FailureAverage FailureNumbers LweProofs AttackerProofs.
From Verif.Tests Require Import Toy.
From Verif.Properties Require Import Kem KemCases Correctness Distribution Tail Failure Secrecy KemSecrecy ActiveSecrecy ActiveCases
  XWing X25519 XWingFailure WholeSession.
From Coq Require Import QArith Qabs Lqa.
Import ListNotations.
Open Scope Z_scope.

Theorem C76_xwing_rfc7748 hs sk g s rho L LM LS LE LY LW :
  hash_ok hs -> byte_string 32 sk -> rng_ok g -> byte_string 32 rho ->
  enumerates 32 L -> enumerates (9 * 840) LM -> enumerates 384 LS -> enumerates 384 LE -> enumerates 384 LY -> enumerates 512 LW ->
  let d := bytes32 0 (SHAKE128 hs sk 96) in
  let m := fst (fill_bytes g s 32) in
  (session_probability L LM LS LE LY LW (fun K sigma r M S E Y W =>
     negb (xw_agree (session_world hs ML_KEM_768 280 rho d m K M S E Y W sigma r) rfc7748 280 sk g s))
   <= 1 / inject_Z (2 ^ 90) + 1 / inject_Z (2 ^ 243) + 1 / inject_Z (2 ^ 256))%Q.
Proof.
  intros Hhs. exact (C76_xwing hs rfc7748 sk g s rho L LM LS LE LY LW Hhs rfc7748_ok rfc7748_commutes).
Qed.

(** XOF output that is a constant byte *)
Lemma constant_matrix hs P n rho x i j t : (i < pk P)%nat -> (j < pk P)%nat -> (t < 3 * n)%nat ->
  shake128 (with_matrix hs (pk P) (3 * n) rho (repeat x (pk P * pk P * (3 * n)))) (rho ++ [Z.of_nat j; Z.of_nat i]) t = x.
Proof.
  intros Hi Hj Ht. cbn [with_matrix shake128]. set (k := pk P) in *. clearbody k.
  assert (Q : rho ++ [Z.of_nat j; Z.of_nat i] = ask_matrix k rho (i * k + j)).
  { unfold ask_matrix. rewrite Nat.add_comm, Nat.mod_add, Nat.div_add, Nat.mod_small, Nat.div_small by lia. reflexivity. }
  assert (Ha : (i * k + j < k * k)%nat) by nia.
  rewrite Q, answer_asked; [|intros b _; apply ask_matrix_inj|exact Ha].
  unfold part. rewrite nth_firstn by exact Ht. rewrite nth_skipn. set (a := (i * k + j)%nat) in *. clearbody a.
  assert (a * (3 * n) + 3 * n <= k * k * (3 * n))%nat by nia.
  rewrite (nth_indep _ 0 x) by (rewrite repeat_length; lia). apply nth_repeat.
Qed.
Lemma accepting_matrix hs P (HP : wf_params P) rho : exists Ah,
  A_hat (with_matrix hs (pk P) (3 * 280) rho (repeat 0 (pk P * pk P * (3 * 280)))) P 280 rho = Some Ah.
Proof.
  exists (tab (pk P) (fun _ => tab (pk P) (fun _ => repeat 0 256))). unfold A_hat.
  apply all_some_intro. intros i Hi. apply all_some_intro. intros j Hj.
  transitivity (SampleNTT 280 (fun _ => 0)); [|vm_compute; reflexivity].
  apply (Tail.SampleNTT_ext P). intros t Ht. apply constant_matrix; assumption.
Qed.
Lemma rejecting_matrix hs P (HP : wf_params P) rho :
  A_hat (with_matrix hs (pk P) (3 * 280) rho (repeat 255 (pk P * pk P * (3 * 280)))) P 280 rho = None.
Proof.
  assert (Hk : (1 <= pk P)%nat) by apply HP.
  destruct (A_hat _ P 280 rho) as [Ah|] eqn:E; [exfalso|reflexivity]. unfold A_hat in E.
  destruct (all_some_tab _ _ _ _ E) as [_ E0]. specialize (E0 0%nat [] Hk).
  destruct (all_some_tab _ _ _ _ E0) as [_ E1]. specialize (E1 0%nat [] Hk).
  assert (X : SampleNTT 280 (fun _ => 255) = None) by (vm_compute; reflexivity).
  erewrite (Tail.SampleNTT_ext P) in E1; [rewrite X in E1; discriminate E1|].
  intros t Ht. apply (constant_matrix hs P 280 rho 255 0 0 t); assumption.
Qed.

(** The hash function under which the noise is always 0.  With XOF output 0 and no noise the session
    succeeds, with XOF output 255 it does not, for every RNG and whatever else G and the PRF answer. *)
Example C76_case : forall P g s rho K sigma r S E,
  In P [ML_KEM_512; ML_KEM_768; ML_KEM_1024] -> rng_ok g ->
  byte_string 32 rho -> byte_string 32 K -> byte_string 32 sigma -> byte_string 32 r -> r <> sigma ->
  byte_string (pk P * (64 * eta1 P)) S -> byte_string (pk P * (64 * eta1 P)) E ->
  let d := fst (fill_bytes g s 32) in
  let s1 := snd (fill_bytes g s 32) in
  let s2 := snd (fill_bytes g s1 32) in
  let m := fst (fill_bytes g s2 32) in
  let w x := session_world (quiet (pk P) (eta1 P)) P 280 rho d m K (repeat x (pk P * pk P * 840)) S E
    (repeat 0 (pk P * (64 * eta1 P))) (repeat 0 ((pk P + 1) * (64 * eta2 P))) sigma r in
  api_agree (w 0) P 280 g s = true /\ api_agree (w 255) P 280 g s = false.
Proof.
  intros P g s rho K sigma r S E HIn Hg Hrho HK Hs Hr Hne HS HE d s1 s2 m w.
  assert (HP : wf_params P) by (destruct HIn as [<-|[<-|[<-|[]]]]; [apply wf_512|apply wf_768|apply wf_1024]).
  assert (Hdu : (du P <= 11)%nat) by (destruct HIn as [<-|[<-|[<-|[]]]]; cbn; lia).
  assert (Hdv : (4 <= dv P <= 11)%nat) by (destruct HIn as [<-|[<-|[<-|[]]]]; cbn; lia).
  pose proof (Hg s 32%nat) as Hd. fold d in Hd. pose proof (Hg s1 32%nat) as Hz. pose proof (Hg s2 32%nat) as Hm. fold m in Hm.
  pose proof (quiet_ok (pk P) (eta1 P)) as Hhs.
  assert (BM : forall x, is_byte x -> byte_string (pk P * pk P * (3 * 280)) (repeat x (pk P * pk P * (3 * 280)))) by (intros; apply repeat_bytes; assumption).
  split; rewrite api_agree_agree; fold d; fold s1; fold s2; fold m; unfold w; change 840%nat with (3 * 280)%nat.
  - destruct (accepting_matrix (quiet (pk P) (eta1 P)) P HP rho) as [Ah EA].
    apply session_agrees; try assumption; try apply repeat_zero.
    + rewrite EA. reflexivity.
    + rewrite EA. apply silent_never_fails; try assumption.
      * apply with_coins_ok; [apply with_matrix_ok; [exact Hhs|apply (BM 0); unfold is_byte; lia]| |]; apply repeat_zero.
      * intros x i. cbn [with_coins shake256 with_matrix quiet].
        unfold answer at 1. destruct (find _ _) as [a|] eqn:F; [|apply answer_zero].
        pose proof (answer_zero (ask_secrets r) (pk P) (64 * eta1 P) (pk P * (64 * eta1 P)) x i) as X.
        unfold answer in X. rewrite F in X. exact X.
  - set (M := repeat 255 _).
    assert (HM : byte_string (pk P * pk P * (3 * 280)) M) by (apply BM; unfold is_byte; lia).
    pose proof (rejecting_matrix (quiet (pk P) (eta1 P)) P HP rho) as EA. fold M in EA.
    set (Y := repeat 0 (pk P * (64 * eta1 P))). set (W := repeat 0 ((pk P + 1) * (64 * eta2 P))).
    set (h1 := keys_world (with_matrix (quiet (pk P) (eta1 P)) (pk P) (3 * 280) rho M) P rho d sigma r S E Y W).
    assert (O1 : hash_ok h1).
    { apply (h1_ok (with_matrix (quiet (pk P) (eta1 P)) (pk P) (3 * 280) rho M)); try assumption; try apply repeat_zero.
      apply with_matrix_ok; [exact Hhs|apply HM]. }
    assert (EG : FIPS203.G h1 (d ++ [Z.of_nat (pk P)]) = (rho, sigma)).
    { unfold FIPS203.G, h1. cbn [keys_world with_secrets with_coins with_sha3_512 sha3_512].
      destruct (list_eq_dec Z.eq_dec _ _) as [_|X]; [|contradiction].
      rewrite firstn_app_exact, skipn_app_exact by apply Hrho. reflexivity. }
    assert (EK : KPKE_KeyGen h1 P 280 d = None).
    { unfold KPKE_KeyGen. rewrite EG.
      change (A_hat h1 P 280 rho) with (A_hat (with_matrix (quiet (pk P) (eta1 P)) (pk P) (3 * 280) rho M) P 280 rho).
      rewrite EA. reflexivity. }
    unfold session_world. cbv zeta. fold h1. rewrite EK.
    set (z := fst (fill_bytes g s1 32)) in *.
    pose proof (generate_ok h1 O1 P HP 280 d z (proj2 Hd) Hz) as G. unfold KeyGen_internal in G. rewrite EK in G.
    unfold agree. rewrite G. reflexivity.
Qed.

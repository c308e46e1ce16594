(** Cases for C77: X-Wing with RFC 7748's function, and answers with which decryption fails and
    succeeds. *)
From Coq Require Import List ZArith Lia Bool Arith.
From Verif.Base Require Import Res Oracles.
From Verif.Spec Require Import FIPS203 Domains Noise Counting Random Lwe Attacker Tables XWing.
From Verif.Model Require Import Machine Util Algebra Compress Encode Crypto Sample Param Pke Kem XWing.
From Verif.Proofs Require Import Basics Field Poly CompressProofs NttAlgebra NttProofs EncodeProofs VecEncode SampleProofs CountProofs
  PkeProofs KemProofs XWingProofs Inner Correctness TailProofs FailureProofs FailureAverage FailureNumbers LweProofs AttackerProofs.
From Verif.Tests Require Import Toy.
From Verif.Properties Require Import Kem KemCases Correctness Distribution Tail Failure Secrecy KemSecrecy ActiveSecrecy ActiveCases
  XWing X25519 XWingFailure WholeSession WholeSessionCases RandomMatrix.
From Coq Require Import QArith Qabs Lqa.
Import ListNotations.
Open Scope Z_scope.

Theorem C77_xwing_rfc7748 hs sk g s rho L LM LS LE LY LW :
  hash_ok hs -> byte_string 32 sk -> rng_ok g -> byte_string 32 rho ->
  enumerates 32 L -> enumerates (9 * 840) LM -> enumerates 384 LS -> enumerates 384 LE -> enumerates 384 LY -> enumerates 512 LW ->
  let d := bytes32 0 (SHAKE128 hs sk 96) in
  let m := fst (fill_bytes g s 32) in
  (session_probability L LM LS LE LY LW (fun K sigma r M S E Y W =>
     negb (xw_agree (session_world hs ML_KEM_768 280 rho d m K M S E Y W sigma r) rfc7748 280 sk g s))
   <= 1 / inject_Z (2 ^ 152) + 1 / inject_Z (2 ^ 243) + 1 / inject_Z (2 ^ 256))%Q.
Proof.
  intros Hhs. exact (C77_xwing hs rfc7748 sk g s rho L LM LS LE LY LW Hhs rfc7748_ok rfc7748_commutes).
Qed.

(** ** a byte string made of the outputs of a function *)
Lemma part_flat_map {A} (f : nat -> list A) s m b a : (forall i, length (f i) = s) -> (a < m)%nat ->
  part s a (flat_map f (seq b m)) = f (b + a)%nat.
Proof.
  intros HL. revert b a. induction m as [|m IH]; intros b a Ha; [lia|]. cbn [seq flat_map]. unfold part.
  destruct a as [|a].
  - cbn [Nat.mul skipn]. rewrite firstn_app_exact by apply HL. f_equal. lia.
  - replace (S a * s)%nat with (length (f b) + a * s)%nat by (rewrite HL; lia).
    rewrite skipn_app, skipn_all2 by lia. rewrite app_nil_l.
    replace (length (f b) + a * s - length (f b))%nat with (a * s)%nat by lia.
    pose proof (IH (Datatypes.S b) a ltac:(lia)) as E. unfold part in E. rewrite E. f_equal. lia.
Qed.
Lemma skipn_repeat {A} (x : A) a b : skipn a (repeat x b) = repeat x (b - a).
Proof. revert b. induction a as [|a IH]; intros [|b]; try reflexivity. cbn [repeat skipn Nat.sub]. apply IH. Qed.
Lemma firstn_repeat {A} (x : A) a b : (a <= b)%nat -> firstn a (repeat x b) = repeat x a.
Proof. revert b. induction a as [|a IH]; intros [|b] H; try reflexivity; try lia. cbn [repeat firstn]. f_equal. apply IH. lia. Qed.
Lemma part_zero s a b : (a * s + s <= b)%nat -> part s a (repeat 0 b) = tab s (fun _ => 0).
Proof. intros H. unfold part. rewrite skipn_repeat, firstn_repeat by lia. apply repeat_tab. Qed.
Lemma flat_map_string f s m b : (forall i, byte_string s (f i)) -> byte_string (m * s) (flat_map f (seq b m)).
Proof.
  intros H. revert b. induction m as [|m IH]; intros b; [split; [reflexivity|constructor]|].
  cbn [seq flat_map]. apply (byte_string_app s (m * s)); [apply H|apply IH].
Qed.

(** the noise depends on G and the PRF only *)
Lemma noise_same hs hs' P A d m r :
  FIPS203.G hs' (d ++ [Z.of_nat (pk P)]) = FIPS203.G hs (d ++ [Z.of_nat (pk P)]) ->
  (forall a, (a < 2 * pk P)%nat -> FIPS203.PRF hs' (eta1 P) (sigma_of hs P d) a = FIPS203.PRF hs (eta1 P) (sigma_of hs P d) a) ->
  (forall a, (a < pk P)%nat -> FIPS203.PRF hs' (eta1 P) r a = FIPS203.PRF hs (eta1 P) r a) ->
  (forall a, (a <= pk P)%nat -> FIPS203.PRF hs' (eta2 P) r (pk P + a) = FIPS203.PRF hs (eta2 P) r (pk P + a)) ->
  decryption_noise hs' P A d m r = decryption_noise hs P A d m r.
Proof.
  intros EG H1 H2 H3. unfold sigma_of in H1.
  assert (E1 : key_s hs' P d = key_s hs P d).
  { unfold key_s, noise. rewrite EG. apply tab_ext. intros i Hi. rewrite H1 by lia. reflexivity. }
  assert (E2 : key_e hs' P d = key_e hs P d).
  { unfold key_e, noise. rewrite EG. apply tab_ext. intros i Hi. rewrite H1 by lia. reflexivity. }
  assert (E3 : enc_y hs' P r = enc_y hs P r).
  { unfold enc_y, noise. apply tab_ext. intros i Hi. rewrite H2 by lia. reflexivity. }
  assert (E4 : enc_e1 hs' P r = enc_e1 hs P r).
  { unfold enc_e1, noise. apply tab_ext. intros i Hi. rewrite H3 by lia. reflexivity. }
  assert (E5 : enc_e2 hs' P r = enc_e2 hs P r).
  { unfold enc_e2. replace (2 * pk P)%nat with (pk P + pk P)%nat by lia. rewrite H3 by lia. reflexivity. }
  unfold decryption_noise, enc_v, enc_u, key_t. rewrite E1, E2, E3, E4, E5. reflexivity.
Qed.

Section Tape.
  Variable P : params.
  Hypothesis HP : wf_params P.
  Variable hs : hashes.
  Hypothesis Hhs : hash_ok hs.
  Variables d r : list Z.
  Hypothesis Hd : byte_string 32 d.
  Hypothesis Hr : byte_string 32 r.
  Hypothesis Hne : r <> sigma_of hs P d.
  Definition own_Y : list Z := flat_map (fun a => FIPS203.PRF hs (eta1 P) r a) (seq 0 (pk P)).
  Definition own_W : list Z := flat_map (fun a => FIPS203.PRF hs (eta2 P) r a) (seq (pk P) (pk P + 1)).
  Definition own_B : list Z := flat_map (fun a => FIPS203.PRF hs (eta1 P) (sigma_of hs P d) a) (seq 0 (2 * pk P)).
  Hypothesis Hprf : forall eta x b, byte_string (64 * eta) (FIPS203.PRF hs eta x b).

  Lemma own_Y_ok : byte_string (pk P * (64 * eta1 P)) own_Y.
  Proof. apply flat_map_string. intros; apply Hprf. Qed.
  Lemma own_W_ok : byte_string ((pk P + 1) * (64 * eta2 P)) own_W.
  Proof. apply flat_map_string. intros; apply Hprf. Qed.
  Lemma own_B_ok : byte_string (2 * pk P * (64 * eta1 P)) own_B.
  Proof. apply flat_map_string. intros; apply Hprf. Qed.

  (** answering by the hash functions' own outputs changes nothing *)
  Lemma own_noise M n rho A m :
    decryption_noise (with_secrets (with_coins (with_matrix hs (pk P) (3 * n) rho M) P r own_Y own_W) P (sigma_of hs P d) own_B) P A d m r =
    decryption_noise hs P A d m r.
  Proof.
    apply noise_same; [reflexivity|..].
    - intros a Ha.
      etransitivity; [|exact (part_flat_map (fun a => FIPS203.PRF hs (eta1 P) (sigma_of hs P d) a) (64 * eta1 P) (2 * pk P) 0 a
        (fun i => proj1 (Hprf _ _ i)) Ha)].
      exact (PRF_secret (with_coins (with_matrix hs (pk P) (3 * n) rho M) P r own_Y own_W) P d own_B own_B_ok a Ha).
    - intros a Ha.
      transitivity (FIPS203.PRF (with_coins (with_matrix hs (pk P) (3 * n) rho M) P r own_Y own_W) (eta1 P) r a).
      { exact (PRF_other (with_coins (with_matrix hs (pk P) (3 * n) rho M) P r own_Y own_W) P d r Hne own_B (eta1 P) a). }
      etransitivity; [|exact (part_flat_map (fun a => FIPS203.PRF hs (eta1 P) r a) (64 * eta1 P) (pk P) 0 a (fun i => proj1 (Hprf _ _ i)) Ha)].
      exact (PRF_y (with_matrix hs (pk P) (3 * n) rho M) P r own_Y own_W own_Y_ok a Ha).
    - intros a Ha.
      transitivity (FIPS203.PRF (with_coins (with_matrix hs (pk P) (3 * n) rho M) P r own_Y own_W) (eta2 P) r (pk P + a)).
      { exact (PRF_other (with_coins (with_matrix hs (pk P) (3 * n) rho M) P r own_Y own_W) P d r Hne own_B (eta2 P) (pk P + a)). }
      etransitivity; [|exact (part_flat_map (fun a => FIPS203.PRF hs (eta2 P) r a) (64 * eta2 P) (pk P + 1) (pk P) a (fun i => proj1 (Hprf _ _ i)) ltac:(lia))].
      exact (PRF_e (with_matrix hs (pk P) (3 * n) rho M) P r own_Y own_W own_W_ok a Ha).
  Qed.
End Tape.

(** For every seed d, every message and every XOF output M from which the matrix can be sampled
    there are tapes with which decryption fails and, with Y and W zero, tapes with which it does
    not; M = 0 is such an XOF output. *)
Example C77_case : forall P d m M,
  In P [ML_KEM_512; ML_KEM_768; ML_KEM_1024] -> byte_string 32 d -> byte_string 32 m ->
  byte_string (pk P * pk P * 840) M ->
  let hs := unlucky (pk P) (eta1 P) in
  let r := repeat 2 32 in
  let rho := key_rho hs P d in
  let world Y W B := with_secrets (with_coins (with_matrix hs (pk P) 840 rho M) P r Y W) P (sigma_of hs P d) B in
  r <> sigma_of hs P d /\
  (A_hat (with_matrix hs (pk P) 840 rho M) P 280 rho <> None ->
   (exists Y W B, byte_string (pk P * (64 * eta1 P)) Y /\ byte_string ((pk P + 1) * (64 * eta2 P)) W /\
      byte_string (2 * pk P * (64 * eta1 P)) B /\ misdecrypts (world Y W B) P 280 d m r = true) /\
   (forall B, byte_string (2 * pk P * (64 * eta1 P)) B ->
      misdecrypts (world (repeat 0 (pk P * (64 * eta1 P))) (repeat 0 ((pk P + 1) * (64 * eta2 P))) B) P 280 d m r = false)) /\
  A_hat (with_matrix hs (pk P) 840 rho (repeat 0 (pk P * pk P * 840))) P 280 rho <> None.
Proof.
  intros P d m M HIn Hd Hm HM hs r rho world.
  assert (HP : wf_params P) by (destruct HIn as [<-|[<-|[<-|[]]]]; [apply wf_512|apply wf_768|apply wf_1024]).
  assert (Hdu : (du P <= 11)%nat) by (destruct HIn as [<-|[<-|[<-|[]]]]; cbn; lia).
  assert (Hdv : (4 <= dv P <= 11)%nat) by (destruct HIn as [<-|[<-|[<-|[]]]]; cbn; lia).
  assert (Hhs : hash_ok hs) by apply unlucky_ok.
  assert (ES : sigma_of hs P d = repeat 1 32) by exact (f_equal snd (G_generate P d Hd)).
  assert (Hne : r <> sigma_of hs P d) by (rewrite ES; discriminate).
  assert (Hr : byte_string 32 r) by (apply repeat_bytes; unfold is_byte; lia).
  split; [exact Hne|]. split; [|destruct (accepting_matrix hs P HP rho) as [Ah EA]; change (3 * 280)%nat with 840%nat in EA; rewrite EA; discriminate].
  intros HA. destruct (A_hat (with_matrix hs (pk P) 840 rho M) P 280 rho) as [Ah|] eqn:EA; [clear HA|contradiction].
  assert (Hw : forall Y W B, byte_string (pk P * (64 * eta1 P)) Y -> byte_string ((pk P + 1) * (64 * eta2 P)) W ->
    byte_string (2 * pk P * (64 * eta1 P)) B -> hash_ok (world Y W B)).
  { intros Y W B HY HW HB. apply with_secrets_ok; [|apply HB]. apply with_coins_ok; [|apply HY|apply HW].
    apply with_matrix_ok; [exact Hhs|apply HM]. }
  assert (EW : forall Y W B, A_hat (world Y W B) P 280 (key_rho (world Y W B) P d) = Some Ah) by (intros; exact EA).
  assert (Hprf : forall eta x b, byte_string (64 * eta) (FIPS203.PRF hs eta x b)).
  { intros eta x b. unfold FIPS203.PRF, prefix. split; [apply tab_length|]. unfold tab. apply Forall_forall. intros y Iy.
    apply in_map_iff in Iy. destruct Iy as (t & <- & _). unfold hs, unlucky. cbn [shake256].
    match goal with |- context [if ?c then _ else _] => destruct c end; [apply peak_byte|].
    match goal with |- context [if ?c then _ else _] => destruct c end; [apply peak_byte|unfold is_byte; lia]. }
  split.
  - set (Y := own_Y P hs r). set (W := own_W P hs r). set (B := own_B P hs d).
    pose proof (own_Y_ok P hs r Hprf : byte_string _ Y) as HY. pose proof (own_W_ok P hs r Hprf : byte_string _ W) as HW. pose proof (own_B_ok P hs d Hprf : byte_string _ B) as HB.
    exists Y, W, B. split; [exact HY|]. split; [exact HW|]. split; [exact HB|].
    destruct (C04_kpke (world Y W B) (Hw Y W B HY HW HB) P HP Hdu ltac:(lia) 280 d m r Ah Hd Hm Hr (EW Y W B)) as (dk & ek & c & E1 & E2 & E3).
    unfold misdecrypts, decrypts. rewrite E1, E2. cbn [no_result negb andb]. apply negb_true_iff.
    destruct (returns (decrypt P dk c) m) eqn:R; [exfalso|reflexivity].
    assert (D : decrypt P dk c = Ok m).
    { unfold returns in R. destruct (decrypt P dk c) as [m'| | |]; try discriminate R.
      destruct (list_eq_dec Z.eq_dec m' m) as [->|]; [reflexivity|discriminate R]. }
    apply E3 in D. unfold noise_in_range in D. unfold world in D. change 840%nat with (3 * 280)%nat in D.
    rewrite (own_noise P hs d r Hne Hprf M 280 rho) in D. revert D.
    fold (noise_in_range hs P (map (map NTTinv) Ah) d m r).
    destruct HIn as [<-|[<-|[<-|[]]]].
    + apply (noise_too_large ML_KEM_512 HP Hdu Hdv 162 ltac:(lia)); [vm_compute; split; discriminate|exact Hd].
    + apply (noise_too_large ML_KEM_768 HP Hdu Hdv 177 ltac:(lia)); [vm_compute; split; discriminate|exact Hd].
    + apply (noise_too_large ML_KEM_1024 HP Hdu Hdv 167 ltac:(lia)); [vm_compute; split; discriminate|exact Hd].
  - intros B HB. set (Y := repeat 0 _). set (W := repeat 0 _).
    assert (HY : byte_string (pk P * (64 * eta1 P)) Y) by apply repeat_zero.
    assert (HW : byte_string ((pk P + 1) * (64 * eta2 P)) W) by apply repeat_zero.
    assert (HN : decryption_noise (world Y W B) P (map (map NTTinv) Ah) d m r =
                 decryption_noise (with_secrets (quiet (pk P) (eta1 P)) P (sigma_of hs P d) B) P (map (map NTTinv) Ah) d m r).
    { assert (Q : forall a, (a < 2 * pk P)%nat -> FIPS203.PRF (with_secrets (quiet (pk P) (eta1 P)) P (sigma_of hs P d) B) (eta1 P) (sigma_of hs P d) a = part (64 * eta1 P) a B)
        by (intros a Ha; exact (PRF_secret (quiet (pk P) (eta1 P)) P d B HB a Ha)).
      assert (Q' : forall eta b, FIPS203.PRF (with_secrets (quiet (pk P) (eta1 P)) P (sigma_of hs P d) B) eta r b = tab (64 * eta) (fun _ => 0))
        by (intros eta b; exact (PRF_other (quiet (pk P) (eta1 P)) P d r Hne B eta b)).
      apply noise_same; [reflexivity|..].
      - intros a Ha. etransitivity; [|symmetry; exact (Q a Ha)].
        exact (PRF_secret (with_coins (with_matrix hs (pk P) 840 rho M) P r Y W) P d B HB a Ha).
      - intros a Ha. etransitivity; [|symmetry; exact (Q' (eta1 P) a)].
        etransitivity; [exact (PRF_other (with_coins (with_matrix hs (pk P) 840 rho M) P r Y W) P d r Hne B (eta1 P) a)|].
        rewrite (PRF_y (with_matrix hs (pk P) 840 rho M) P r Y W HY a Ha). apply part_zero. nia.
      - intros a Ha. etransitivity; [|symmetry; exact (Q' (eta2 P) (pk P + a)%nat)].
        etransitivity; [exact (PRF_other (with_coins (with_matrix hs (pk P) 840 rho M) P r Y W) P d r Hne B (eta2 P) (pk P + a))|].
        rewrite (PRF_e (with_matrix hs (pk P) 840 rho M) P r Y W HW a Ha). apply part_zero. nia. }
    destruct (C04_kpke (world Y W B) (Hw Y W B HY HW HB) P HP Hdu ltac:(lia) 280 d m r Ah Hd Hm Hr (EW Y W B)) as (dk & ek & c & E1 & E2 & E3).
    unfold misdecrypts, decrypts. rewrite E1, E2. cbn [no_result negb andb]. apply negb_false_iff. apply returns_ok. apply E3.
    unfold noise_in_range. rewrite HN. fold (noise_in_range (with_secrets (quiet (pk P) (eta1 P)) P (sigma_of hs P d) B) P (map (map NTTinv) Ah) d m r).
    apply (quiet_range _ P HP Hdu Hdv r). intros eta b. exact (PRF_other (quiet (pk P) (eta1 P)) P d r Hne B eta b).
Qed.

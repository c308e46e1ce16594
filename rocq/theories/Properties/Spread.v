(** C64: ciphertexts cannot be hit by chance.

    The hash function is arbitrary except that its answers to the 2k + 1 PRF queries of one
    encryption are read from the byte strings [Y] (for y) and [W] (for e1 and e2).  [Y] is
    any byte string; the theorems count the byte strings [W]. *)
From Coq Require Import List ZArith Lia Bool Arith.
From Verif.Base Require Import Res Oracles.
From Verif.Spec Require Import FIPS203 Domains Noise Counting Random.
From Verif.Model Require Import Machine Util Algebra Compress Encode Crypto Sample Param Pke Kem.
From Verif.Proofs Require Import Basics Field Poly CompressProofs EncodeProofs VecEncode CountProofs PkeProofs KemProofs HashProofs
  TailProofs FailureProofs FailureAverage FailureNumbers SpreadProofs.
From Verif.Tests Require Import Toy.
From Verif.Properties Require Import Kem KemCases Correctness Distribution Failure.
Import ListNotations.
Open Scope Z_scope.

(** the test "encapsulation returned the ciphertext [c]" *)
Definition produces (r : res (list Z * list Z)) (c : list Z) : bool :=
  match r with
  | Ok (c', _) => if list_eq_dec Z.eq_dec c' c then true else false
  | _ => false
  end.

Lemma powers_512 : 2 ^ 47 * 15 ^ Z.of_nat (256 * 2) <= 16 ^ Z.of_nat (256 * 2).
Proof. apply Z.leb_le. vm_compute. reflexivity. Qed.
Lemma powers_768 : 2 ^ 71 * 15 ^ Z.of_nat (256 * 3) <= 16 ^ Z.of_nat (256 * 3).
Proof. apply Z.leb_le. vm_compute. reflexivity. Qed.
Lemma powers_1024 : 2 ^ 694 * 10 ^ Z.of_nat (256 * 4) <= 16 ^ Z.of_nat (256 * 4).
Proof. apply Z.leb_le. vm_compute. reflexivity. Qed.

Lemma scale a b c t x : 0 < c -> 0 <= t -> 0 <= a -> a * b <= c -> 0 <= x -> c * t <= b * x -> a * t <= x.
Proof.
  intros Hc Ht Ha H Hx H'. apply (Zmult_le_reg_r _ _ c); [lia|].
  replace (a * t * c) with (a * (c * t)) by ring.
  apply Z.le_trans with (a * (b * x)); [apply Z.mul_le_mono_nonneg_l; assumption|].
  replace (a * (b * x)) with (a * b * x) by ring. rewrite (Z.mul_comm x c). apply Z.mul_le_mono_nonneg_r; assumption.
Qed.

Lemma C64_spread : forall P delta, In (P, delta) [(ML_KEM_512, 47); (ML_KEM_768, 71); (ML_KEM_1024, 694)] ->
  wf_params P /\
  forall hs n ekb m r Y c L, byte_string (pk P * (64 * eta1 P)) Y -> enumerates ((pk P + 1) * (64 * eta2 P)) L ->
  2 ^ delta * count (fun W =>
    match KPKE_Encrypt (with_coins hs P r Y W) P n ekb m r with
    | Some c' => if list_eq_dec Z.eq_dec c' c then true else false
    | None => false
    end) L <= 256 ^ Z.of_nat ((pk P + 1) * (64 * eta2 P)).
Proof.
  assert (Q : forall P delta U, wf_params P -> eta2 P = 2%nat -> (du P = 10 \/ du P = 11)%nat -> 0 <= delta ->
    best (du P) = U -> 2 ^ delta * U ^ Z.of_nat (256 * pk P) <= 16 ^ Z.of_nat (256 * pk P) ->
    wf_params P /\
    forall hs n ekb m r Y c L, byte_string (pk P * (64 * eta1 P)) Y -> enumerates ((pk P + 1) * (64 * eta2 P)) L ->
    2 ^ delta * count (fun W =>
      match KPKE_Encrypt (with_coins hs P r Y W) P n ekb m r with
      | Some c' => if list_eq_dec Z.eq_dec c' c then true else false
      | None => false
      end) L <= 256 ^ Z.of_nat ((pk P + 1) * (64 * eta2 P))).
  { intros P delta U HP He Hd HD HU HB. split; [exact HP|]. intros hs n ekb m r Y c L HY HL.
    pose proof (spread hs P He Hd n ekb m r Y c HY L HL) as S. rewrite HU in S. refine (scale _ _ _ _ _ _ _ _ HB _ S).
    - apply Z.pow_pos_nonneg; lia.
    - apply count_nonneg.
    - apply Z.pow_nonneg; lia.
    - apply Z.pow_nonneg; lia. }
  intros P delta [E|[E|[E|[]]]]; pose proof (f_equal fst E) as E1; pose proof (f_equal snd E) as E2;
    cbn [fst snd] in E1, E2; subst P delta; clear E.
  - exact (Q ML_KEM_512 47 15 wf_512 eq_refl (or_introl eq_refl) ltac:(lia) eq_refl powers_512).
  - exact (Q ML_KEM_768 71 15 wf_768 eq_refl (or_introl eq_refl) ltac:(lia) eq_refl powers_768).
  - exact (Q ML_KEM_1024 694 10 wf_1024 eq_refl (or_intror eq_refl) ltac:(lia) eq_refl powers_1024).
Qed.

(** ** K-PKE: for every key, message, randomness, y and ciphertext *)
Theorem C64_encrypt : forall P delta, In (P, delta) [(ML_KEM_512, 47); (ML_KEM_768, 71); (ML_KEM_1024, 694)] ->
  forall hs n b ek m r Y c L, hash_ok hs ->
  byte_string (384 * pk P + 32) b -> ek_from_bytes P b = Ok ek ->
  byte_string 32 m -> byte_string 32 r ->
  byte_string (pk P * (64 * eta1 P)) Y -> enumerates ((pk P + 1) * (64 * eta2 P)) L ->
  2 ^ delta * count (fun W => returns (encrypt (with_coins hs P r Y W) P n ek m r) c) L
  <= 256 ^ Z.of_nat ((pk P + 1) * (64 * eta2 P)).
Proof.
  intros P delta HIn hs n b ek m r Y c L Hhs Hb Eb Hm Hr HY HL.
  destruct (C64_spread P delta HIn) as [HP S].
  rewrite (ek_from_bytes_ok P HP) in Eb by exact Hb. apply Ok_inj in Eb. subst ek.
  refine (Z.le_trans _ _ _ _ (S hs n (ek_bytes P (ek_parse P b)) m r Y c L HY HL)).
  apply Z.mul_le_mono_nonneg_l; [apply Z.pow_nonneg; lia|].
  apply count_mono. intros W HW. apply HL in HW.
  rewrite (encrypt_ok _ (with_coins_ok hs P r Y W Hhs (proj2 HY) (proj2 HW)) P HP);
    [|apply ek_parse_valid; exact Hb|exact Hm|apply Hr].
  destruct (KPKE_Encrypt _ P n _ m r); exact (fun E => E).
Qed.

(** ** ML-KEM: encapsulation rarely returns a given ciphertext *)
Theorem C64_encapsulate : forall P delta, In (P, delta) [(ML_KEM_512, 47); (ML_KEM_768, 71); (ML_KEM_1024, 694)] ->
  forall hs n ek m K r Y c L, hash_ok hs -> reachable_ek hs P ek -> byte_string 32 m ->
  FIPS203.G hs (m ++ ek_h ek) = (K, r) ->
  byte_string (pk P * (64 * eta1 P)) Y -> enumerates ((pk P + 1) * (64 * eta2 P)) L ->
  2 ^ delta * count (fun W => produces (encapsulate_deterministic (with_coins hs P r Y W) P n ek m) c) L
  <= 256 ^ Z.of_nat ((pk P + 1) * (64 * eta2 P)).
Proof.
  intros P delta HIn hs n ek m K r Y c L Hhs Hek Hm EG HY HL.
  destruct (C64_spread P delta HIn) as [HP S].
  pose proof (reachable_ek_valid hs Hhs P HP ek Hek) as V.
  refine (Z.le_trans _ _ _ _ (S hs n (ekey_bytes P ek) m r Y c L HY HL)).
  apply Z.mul_le_mono_nonneg_l; [apply Z.pow_nonneg; lia|].
  apply count_mono. intros W HW. apply HL in HW.
  rewrite (encapsulate_deterministic_ok _ (with_coins_ok hs P r Y W Hhs (proj2 HY) (proj2 HW)) P HP) by assumption.
  unfold Encaps_with. change (FIPS203.G (with_coins hs P r Y W)) with (FIPS203.G hs). rewrite EG.
  destruct (KPKE_Encrypt _ P n _ m r); exact (fun E => E).
Qed.

(** ** ML-KEM: decapsulation rejects ciphertexts that were chosen without knowing the
    answers: for every key and ciphertext, it returns the rejection key J(z, c) *)
Theorem C64_rejects : forall P delta, In (P, delta) [(ML_KEM_512, 47); (ML_KEM_768, 71); (ML_KEM_1024, 694)] ->
  forall hs n dk c m K r A Y L, hash_ok hs -> reachable_dk hs P dk ->
  byte_string (32 * du P * pk P + 32 * dv P) c ->
  A_hat hs P n (rho (ek_pke (dk_ek dk))) = Some A ->
  decrypt P (dk_pke dk) c = Ok m -> FIPS203.G hs (m ++ ek_h (dk_ek dk)) = (K, r) ->
  byte_string (pk P * (64 * eta1 P)) Y -> enumerates ((pk P + 1) * (64 * eta2 P)) L ->
  2 ^ delta *
  count (fun W => negb (returns (decapsulate (with_coins hs P r Y W) P n dk c) (FIPS203.J hs (dk_z dk ++ c)))) L
  <= 256 ^ Z.of_nat ((pk P + 1) * (64 * eta2 P)).
Proof.
  intros P delta HIn hs n dk c m K r A Y L Hhs Hdk Hc EA ED EG HY HL.
  destruct (C64_spread P delta HIn) as [HP S].
  pose proof (reachable_dk_valid hs Hhs P HP dk Hdk) as V.
  pose proof V as (Vd & [Ve Vh] & Vz).
  rewrite (decrypt_ok P HP) in ED by assumption. apply Ok_inj in ED.
  assert (Hr : byte_string 32 r).
  { pose proof (G_bytes hs Hhs (m ++ ek_h (dk_ek dk))) as [_ HR].
    - apply bytes_app; [|apply Vh]. rewrite <- ED. apply KPKE_Decrypt_bytes.
    - rewrite EG in HR. exact HR. }
  refine (Z.le_trans _ _ _ _ (S hs n (ekey_bytes P (dk_ek dk)) m r Y c L HY HL)).
  apply Z.mul_le_mono_nonneg_l; [apply Z.pow_nonneg; lia|].
  apply count_mono. intros W HW. apply HL in HW.
  assert (EJ : FIPS203.J (with_coins hs P r Y W) (dk_z dk ++ c) = FIPS203.J hs (dk_z dk ++ c)).
  { assert (LJ : forall a, dk_z dk ++ c <> ask_secrets r a).
    { intros a E. apply (f_equal (@length Z)) in E. unfold ask_secrets in E.
      rewrite !app_length, (proj1 Vz), (proj1 Hr), (proj1 Hc) in E. cbn [length] in E.
      pose proof (du_range P HP). pose proof (k_range P HP). pose proof (dv_range P HP). nia. }
    unfold FIPS203.J, prefix. apply tab_ext. intros t _. unfold with_coins. cbn [shake256].
    rewrite answer_other by (intros a _; apply LJ). apply answer_other. intros a _. apply LJ. }
  rewrite (decapsulate_ok _ (with_coins_ok hs P r Y W Hhs (proj2 HY) (proj2 HW)) P HP n dk c V Hc).
  destruct (dkey_sections P dk V) as (S1 & S2 & S3 & S4).
  unfold Decaps_internal. rewrite S1, S2, S3, S4. rewrite ED.
  change (FIPS203.G (with_coins hs P r Y W)) with (FIPS203.G hs). rewrite EG, EJ.
  destruct (KPKE_Encrypt (with_coins hs P r Y W) P n (ekey_bytes P (dk_ek dk)) m r) as [c'|] eqn:EE.
  - cbn [lift]. destruct (list_eq_dec Z.eq_dec c c') as [E|N].
    + intros _. destruct (list_eq_dec Z.eq_dec c' c); [reflexivity|congruence].
    + rewrite returns_ok by reflexivity. discriminate.
  - exfalso. unfold KPKE_Encrypt in EE.
    change (A_hat (with_coins hs P r Y W) P n) with (A_hat hs P n) in EE.
    pose proof (ek_parse_bytes P _ Ve) as EP. apply (f_equal Pke.rho) in EP. unfold ek_parse in EP. cbn [Pke.rho] in EP.
    unfold ekey_bytes in EE. rewrite EP, EA in EE. discriminate EE.
Qed.

(** ** cases *)

(** With the hash function of C05, every key, every ciphertext and every y meets the
    hypotheses of the rejection theorem. *)
Example C64_case : forall P delta b c Y,
  In (P, delta) [(ML_KEM_512, 47); (ML_KEM_768, 71); (ML_KEM_1024, 694)] ->
  byte_string (768 * pk P + 96) b -> byte_string (32 * du P * pk P + 32 * dv P) c ->
  byte_string (pk P * (64 * eta1 P)) Y ->
  let hs := unlucky (pk P) (eta1 P) in
  let L := tuples (upto 256) ((pk P + 1) * (64 * eta2 P)) in
  exists dk r, decaps_key_from_bytes P b = Ok dk /\
  2 ^ delta *
  count (fun W => negb (returns (decapsulate (with_coins hs P r Y W) P 128 dk c) (FIPS203.J hs (dk_z dk ++ c)))) L
  <= 256 ^ Z.of_nat ((pk P + 1) * (64 * eta2 P)).
Proof.
  intros P delta b c Y HIn Hb Hc HY hs L. destruct (C64_spread P delta HIn) as [HP _].
  pose proof (decaps_key_from_bytes_ok P HP b Hb) as E. pose proof (dkey_parse_valid P b Hb) as (V & _).
  set (dk := dkey_parse P b) in *.
  destruct (FIPS203.G hs (KPKE_Decrypt P (dk_bytes P (dk_pke dk)) c ++ ek_h (dk_ek dk))) as [K r] eqn:EG.
  exists dk, r. split; [exact E|].
  destruct (unlucky_A P (rho (ek_pke (dk_ek dk)))) as [A EA].
  refine (C64_rejects P delta HIn hs 128 dk c _ K r A Y L (unlucky_ok _ _) (dk_parsed _ _ _ _ Hb E) Hc EA _ EG HY (enumeration _)).
  apply decrypt_ok; assumption.
Qed.

(** The bound is about something that happens: every choice of W hits some ciphertext. *)
Example C64_case_hit : forall P delta b m r Y W,
  In (P, delta) [(ML_KEM_512, 47); (ML_KEM_768, 71); (ML_KEM_1024, 694)] ->
  byte_string (384 * pk P + 32) b -> byte_string 32 m -> byte_string 32 r ->
  byte_string (pk P * (64 * eta1 P)) Y -> byte_string ((pk P + 1) * (64 * eta2 P)) W ->
  let hs := unlucky (pk P) (eta1 P) in
  let L := tuples (upto 256) ((pk P + 1) * (64 * eta2 P)) in
  exists ek c, ek_from_bytes P b = Ok ek /\
  0 < count (fun W => returns (encrypt (with_coins hs P r Y W) P 128 ek m r) c) L /\
  2 ^ delta * count (fun W => returns (encrypt (with_coins hs P r Y W) P 128 ek m r) c) L
  <= 256 ^ Z.of_nat ((pk P + 1) * (64 * eta2 P)).
Proof.
  intros P delta b m r Y W HIn Hb Hm Hr HY HW hs L. destruct (C64_spread P delta HIn) as [HP _].
  pose proof (ek_from_bytes_ok P HP b Hb) as E. pose proof (ek_parse_valid P b Hb) as V.
  set (ek := ek_parse P b) in *.
  destruct (unlucky_A P (skipn (384 * pk P) (ek_bytes P ek))) as [A EA].
  assert (EN : exists c, encrypt (with_coins hs P r Y W) P 128 ek m r = Ok c).
  { rewrite (encrypt_ok _ (with_coins_ok hs P r Y W (unlucky_ok _ _) (proj2 HY) (proj2 HW)) P HP);
      [|exact V|exact Hm|apply Hr].
    unfold KPKE_Encrypt. change (A_hat (with_coins hs P r Y W) P 128) with (A_hat hs P 128). unfold hs.
    rewrite EA. eexists. reflexivity. }
  destruct EN as [c EN]. exists ek, c. split; [exact E|]. split.
  - assert (I : In W L) by (apply enumeration; exact HW).
    apply in_split in I. destruct I as (l1 & l2 & ->). rewrite count_app, count_cons.
    rewrite (returns_ok _ _ EN). cbn [b2z].
    pose proof (count_nonneg (fun W => returns (encrypt (with_coins hs P r Y W) P 128 ek m r) c) l1).
    pose proof (count_nonneg (fun W => returns (encrypt (with_coins hs P r Y W) P 128 ek m r) c) l2). lia.
  - exact (C64_encrypt P delta HIn hs 128 b ek m r Y c L (unlucky_ok _ _) Hb E Hm Hr HY (enumeration _)).
Qed.

(** The numbers of outcomes per coefficient of e1 are attained: 15 of 16 outcomes compress
    to the same value for d_u = 10, and 10 of 16 for d_u = 11. *)
Example C64_case_attained :
  (exists x y, count (fun f => Compress 10 ((x + cbdz 2 f mod q) mod q) =? y) (upto 16) = 15) /\
  (exists x y, count (fun f => Compress 11 ((x + cbdz 2 f mod q) mod q) =? y) (upto 16) = 10).
Proof.
  split; [exists 6, 2|exists 1, 1]; vm_compute; reflexivity.
Qed.

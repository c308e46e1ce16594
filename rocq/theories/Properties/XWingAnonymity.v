(** C83: X-Wing encapsulations do not tell for whom they are, in the random-oracle model, up to
    MLWE; even to an attacker that knows all X25519 secrets, whatever X25519 is.

    The game is that of C82 with X-Wing's key generation and encapsulation.  X-Wing adds secret
    inputs of hash functions: the two seeds, expanded by SHAKE128, and the ML-KEM secret, hashed
    with the X25519 values by SHA3-256.  There, too, the answers are uniform. *)
From Coq Require Import List ZArith Lia Bool Arith.
From Verif.Base Require Import Res Oracles.
From Verif.Spec Require Import FIPS203 XWing Domains Noise Counting Random Lwe Attacker Tables Hybrid.
From Verif.Model Require Import Machine Util Algebra Compress Encode Crypto Sample Param Pke Kem XWing.
From Verif.Proofs Require Import Basics Field Poly CompressProofs NttAlgebra NttProofs EncodeProofs VecEncode SampleProofs CountProofs
  PkeProofs KemProofs Inner Correctness TailProofs FailureProofs FailureAverage FailureNumbers XWingProofs LweProofs AttackerProofs TableProofs HybridProofs.
From Verif.Tests Require Import Toy.
From Verif.Properties Require Import Kem KemCases XWing Correctness Distribution Failure Secrecy KemSecrecy ActiveSecrecy Anonymity KemAnonymity.
From Coq Require Import QArith Qabs Lqa.
Import ListNotations.
Open Scope Z_scope.

(** the hash function [hs], except that SHA3-256 of [x] is [y] *)
Definition with_sha3_256 (hs : hashes) (x y : list Z) : hashes := {|
  sha3_256 := fun x' => if list_eq_dec Z.eq_dec x' x then y else sha3_256 hs x';
  sha3_512 := sha3_512 hs; shake128 := shake128 hs; shake256 := shake256 hs
|}.

(** Generate the key pair of the other party from the seed sk' and that of the recipient from
    the seed sk, encapsulate to the recipient with [m] and the X25519 secret [ekx], and show the
    attacker the two public keys, the ciphertext and the shared secret.  The hash functions are
    those of C82's game; SHAKE128 expands sk' to d' || z' || skx' and sk to d || z || skx; and
    the shared secret is U.  (The ML-KEM key generation at the start says at which point the
    answer of G is K || r.) *)
Definition xw_anon_game (hs : hashes) (X : x25519_impl) (n : nat) (rho rho' z z' skx skx' ekx : list Z)
  (att : list Z -> list Z -> list Z -> list Z -> attacker) (U : list Z)
  (S' E' d' sigma' m K S E Y W d sigma r sk' sk : list Z) : Q :=
  let P := ML_KEM_768 in
  let h1 := keys_world (party_world hs P rho' d' sigma' S' E') P rho d sigma r S E Y W in
  match kem_generate_deterministic h1 P n d z with
  | Ok (_, ek1) =>
      match encaps_key_as_bytes P ek1 with
      | Ok ekb =>
          let pkx := x25519_public X skx in
          let h2 := with_sha3_512 h1 (m ++ sha3_256 hs ekb) (K ++ r) in
          let h3 := with_sha3_256 h2 (XWingLabel ++ K ++ x25519 X ekx pkx ++ x25519 X ekx X25519_BASE ++ pkx) U in
          let h := with_seed (with_seed h3 sk' (d' ++ z' ++ skx')) sk (d ++ z ++ skx) in
          match generate_key_pair h X n reader sk', generate_key_pair h X n reader sk with
          | Ok (_, other, _), Ok (_, ek, _) =>
              match xw_ek_as_bytes other, xw_ek_as_bytes ek, xw_encapsulate h X n ek reader (m ++ ekx) with
              | Ok ob, Ok pkb, Ok (ct, ss, _) =>
                  match xw_ct_as_bytes ct with
                  | Ok ctb => run h no_answer (att ob pkb ctb ss)
                  | _ => 0%Q
                  end
              | _, _, _ => 0%Q
              end
          | _, _ => 0%Q
          end
      | _ => 0%Q
      end
  | _ => 0%Q
  end.

(** the probability of the answer 1, for given X25519 secrets *)
Definition xw_anon_average (hs : hashes) (X : x25519_impl) (n : nat) (rho rho' z z' skx skx' ekx : list Z)
  (att : list Z -> list Z -> list Z -> list Z -> attacker) (L LS LE LY LW : list (list Z)) (U : list Z) : Q :=
  average LS (fun S' => average LE (fun E' => average L (fun d' => average L (fun sigma' =>
  average L (fun m => average L (fun K =>
  average LS (fun S => average LE (fun E => average LY (fun Y => average LW (fun W =>
  average L (fun d => average L (fun sigma => average L (fun r =>
  average L (fun sk' => average L (fun sk =>
    xw_anon_game hs X n rho rho' z z' skx skx' ekx att U S' E' d' sigma' m K S E Y W d sigma r sk' sk))))))))))))))).
Definition xw_anon_experiment (hs : hashes) (X : x25519_impl) (n : nat) (rho0 rho1 z0 z1 skx0 skx1 ekx : list Z)
  (att : list Z -> list Z -> list Z -> list Z -> attacker) (L LS LE LY LW : list (list Z)) (b : bool) : Q :=
  average L (fun U => xw_anon_average hs X n (if b then rho1 else rho0) (if b then rho0 else rho1) (if b then z1 else z0) (if b then z0 else z1)
    (if b then skx1 else skx0) (if b then skx0 else skx1) ekx (seen b att) L LS LE LY LW U).

(** ** The two attackers against ML-KEM *)

(** Show the X-Wing attacker the secret [U]. *)
Definition xw_lift (pkx0 pkx1 cx U : list Z) (att : list Z -> list Z -> list Z -> list Z -> attacker) (ek0 ek1 c K : list Z) : attacker :=
  att (ek0 ++ pkx0) (ek1 ++ pkx1) (c ++ cx) U.
(** Run an attacker, but answer 1 if it asks for the hash of a string that has K after six bytes. *)
Definition middle (p : hash_name * list Z) : list Z := firstn 32 (skipn 6 (snd p)).
Fixpoint spy (K : list Z) (found : bool) (a : attacker) : attacker :=
  match a with
  | Answer _ => Answer (one_if found)
  | Ask f x len next => Ask f x len (fun y => spy K (found || if list_eq_dec Z.eq_dec (middle (f, x)) K then true else false) (next y))
  | Decaps c next => Decaps c (fun y => spy K found (next y))
  end.
Definition xw_spy (pkx0 pkx1 cx U : list Z) (att : list Z -> list Z -> list Z -> list Z -> attacker) (ek0 ek1 c K : list Z) : attacker :=
  spy K false (xw_lift pkx0 pkx1 cx U att ek0 ek1 c K).

Lemma run_spy h dec K a : forall found, run h dec (spy K found a) = one_if (found || points middle K (asked h dec a)).
Proof.
  induction a as [p|f x len next IH|c next IH]; intros found; cbn [spy run asked points existsb].
  - rewrite orb_false_r. reflexivity.
  - rewrite IH. f_equal. rewrite <- orb_assoc. reflexivity.
  - apply IH.
Qed.
Lemma within_spy K a : forall N D found, within N D a -> within N D (spy K found a).
Proof.
  induction a as [p|f x len next IH|c next IH]; intros N D found H; cbn [spy within] in *.
  - apply one_if_range.
  - destruct N; [contradiction|]. intros y. apply IH, H.
  - destruct D; [contradiction|]. intros y. apply IH, H.
Qed.

(** ** one run *)
Section Run.
  Variable hs : hashes.
  Hypothesis Hhs : hash_ok hs.
  Variable X : x25519_impl.
  Hypothesis HX : forall k u, byte_string 32 k -> byte_string 32 u -> byte_string 32 (x25519 X k u).
  Hypothesis HXpub : forall k, byte_string 32 k -> x25519_public X k = x25519 X k X25519_BASE.
  Let P := ML_KEM_768.
  Let HP : wf_params P := wf_768.
  Let k := pk P.
  Variable n : nat.
  Variables rho rho' z z' skx skx' ekx : list Z.
  Hypothesis Hrho : byte_string 32 rho.
  Hypothesis Hrho' : byte_string 32 rho'.
  Hypothesis Hz : byte_string 32 z.
  Hypothesis Hz' : byte_string 32 z'.
  Hypothesis Hskx : byte_string 32 skx.
  Hypothesis Hskx' : byte_string 32 skx'.
  Hypothesis Hekx : byte_string 32 ekx.
  Variables Ah Ah' : list (list (list Z)).
  Hypothesis EA : A_hat hs P n rho = Some Ah.
  Hypothesis EA' : A_hat hs P n rho' = Some Ah'.
  Let A := map (map NTTinv) Ah.
  Let A' := map (map NTTinv) Ah'.
  Variable att : list Z -> list Z -> list Z -> list Z -> attacker.
  Variable N : nat.
  Hypothesis Hatt : forall o ek c K, within N 0 (att o ek c K).
  Variable U : list Z.
  Hypothesis HU : byte_string 32 U.
  Let pub := recipient_key P rho A.
  Let pub' := recipient_key P rho' A'.
  Let pkx := x25519 X skx X25519_BASE.
  Let pkx' := x25519 X skx' X25519_BASE.
  Let cx := x25519 X ekx X25519_BASE.
  Let cipher m S E Y W :=
    let w := lwe_samples k (k + 1) (ct_matrix k A (lwe_samples k k A (cbd_vec (eta1 P) k S) (cbd_vec (eta1 P) k E)))
               (cbd_vec (eta1 P) k Y) (cbd_vec (eta2 P) (k + 1) W) in
    ct_bytes P (firstn k w) (padd (nth k w []) (enc_mu m)).

  Variables S' E' d' sigma' m K S E Y W d sigma r : list Z.
  Hypothesis Hd' : byte_string 32 d'.
  Hypothesis Hs' : byte_string 32 sigma'.
  Hypothesis HS' : byte_string (k * (64 * eta1 P)) S'.
  Hypothesis HE' : byte_string (k * (64 * eta1 P)) E'.
  Hypothesis Hm : byte_string 32 m.
  Hypothesis HK : byte_string 32 K.
  Hypothesis HS : byte_string (k * (64 * eta1 P)) S.
  Hypothesis HE : byte_string (k * (64 * eta1 P)) E.
  Hypothesis HY : byte_string (k * (64 * eta1 P)) Y.
  Hypothesis HW : byte_string ((k + 1) * (64 * eta2 P)) W.
  Hypothesis Hd : byte_string 32 d.
  Hypothesis Hs : byte_string 32 sigma.
  Hypothesis Hr : byte_string 32 r.
  Let hO := party_world hs P rho' d' sigma' S' E'.
  Let h1 := keys_world hO P rho d sigma r S E Y W.
  Let h2 := passive_world hO P rho Ah m K S E Y W d sigma r.
  Let pt := XWingLabel ++ K ++ x25519 X ekx pkx ++ cx ++ pkx.
  Let h3 := with_sha3_256 h2 pt U.

  Lemma hO_ok : hash_ok hO.
  Proof. apply (party_ok hs Hhs P rho' Hrho'); assumption. Qed.
  Lemma h1_good : hash_ok h1.
  Proof. apply (h1_ok hO hO_ok P rho Hrho); assumption. Qed.
  Lemma h2_good : hash_ok h2.
  Proof. apply (passive_world_ok hO hO_ok P rho Hrho); assumption. Qed.
  Lemma h3_good : hash_ok h3.
  Proof.
    intros x Hx. destruct (h2_good x Hx) as (H1 & H2). split; [|exact H2].
    unfold h3. cbn [with_sha3_256 sha3_256]. destruct (list_eq_dec Z.eq_dec x pt); [exact HU|exact H1].
  Qed.
  Lemma pkx_good : byte_string 32 pkx.
  Proof. apply HX; [exact Hskx|exact base_ok]. Qed.
  Lemma pkx'_good : byte_string 32 pkx'.
  Proof. apply HX; [exact Hskx'|exact base_ok]. Qed.
  Lemma cx_good : byte_string 32 cx.
  Proof. apply HX; [exact Hekx|exact base_ok]. Qed.
  Lemma pub_len : length (pub S E) = 1184%nat.
  Proof. exact (proj1 (pub_bytes P rho Hrho Ah S E)). Qed.
  Lemma pub'_len : length (pub' S' E') = 1184%nat.
  Proof. exact (proj1 (pub_bytes P rho' Hrho' Ah' S' E')). Qed.
  Lemma hash_3 x : length x = 1184%nat -> sha3_256 h3 x = sha3_256 hs x.
  Proof.
    intros Hx. unfold h3. cbn [with_sha3_256 sha3_256]. destruct (list_eq_dec Z.eq_dec x pt) as [Q|_]; [|reflexivity].
    exfalso. apply (f_equal (@length Z)) in Q. unfold pt in Q.
    rewrite !app_length, (proj1 HK), (proj1 pkx_good), (proj1 cx_good), (proj1 (HX ekx pkx Hekx pkx_good)), Hx in Q. discriminate Q.
  Qed.

  Section Seeds.
    Variables sk' sk : list Z.
    Hypothesis Hsk' : byte_string 32 sk'.
    Hypothesis Hsk : byte_string 32 sk.
    Hypothesis N1 : d <> d'.
    Hypothesis N2 : sigma <> sigma'.
    Hypothesis N3 : r <> sigma'.
    Hypothesis N4 : r <> sigma.
    Hypothesis N5 : sk' <> sk.
    Let h := with_seed (with_seed h3 sk' (d' ++ z' ++ skx')) sk (d ++ z ++ skx).

    Lemma seed_good a b c : byte_string 32 a -> byte_string 32 b -> byte_string 32 c -> byte_string 96 (a ++ b ++ c).
    Proof. intros Ha Hb Hc. apply (byte_string_app 32 64); [exact Ha|]. apply (byte_string_app 32 32); assumption. Qed.
    Lemma h_good : hash_ok h.
    Proof.
      apply with_seed_ok; [|apply seed_good; assumption]. apply with_seed_ok; [exact h3_good|apply seed_good; assumption].
    Qed.
    Lemma A_hat_h i : length i = 32%nat -> A_hat h P n i = A_hat h2 P n i.
    Proof. intros Hi. unfold h. rewrite !A_hat_seed by (exact Hi || apply Hsk || apply Hsk'). reflexivity. Qed.
    Lemma G_h2 x : byte_string 32 x -> FIPS203.G h2 (x ++ [Z.of_nat (pk P)]) = FIPS203.G h1 (x ++ [Z.of_nat (pk P)]).
    Proof.
      intros Hx. unfold FIPS203.G, h2, passive_world. cbn [with_sha3_512 sha3_512].
      destruct (list_eq_dec Z.eq_dec _ (m ++ _)) as [Q|_]; [|reflexivity]. exfalso. apply (f_equal (@length Z)) in Q.
      rewrite !app_length, (proj1 Hx), (proj1 Hm) in Q.
      assert (HB : byte_string 32 (sha3_256 hO (pub S E))) by (apply hO_ok; exact (proj2 (pub_bytes P rho Hrho Ah S E))).
      change (key_bytes P rho _) with (pub S E) in Q. rewrite (proj1 HB) in Q. discriminate Q.
    Qed.
    Lemma keygen_h x : byte_string 32 x -> KPKE_KeyGen h P n x = KPKE_KeyGen h1 P n x.
    Proof.
      intros Hx. unfold KPKE_KeyGen. change (FIPS203.G h (x ++ [Z.of_nat (pk P)])) with (FIPS203.G h2 (x ++ [Z.of_nat (pk P)])).
      rewrite (G_h2 x Hx).
      assert (Hb : bytes (x ++ [Z.of_nat (pk P)])).
      { apply bytes_app; [apply Hx|]. apply bytes_cons; [|apply bytes_nil]. pose proof (k_range P HP). unfold is_byte. lia. }
      destruct (G_bytes h1 h1_good _ Hb) as [[Hrh _] _]. destruct (FIPS203.G h1 (x ++ [Z.of_nat (pk P)])) as [rh sg]. cbn [fst] in Hrh.
      rewrite A_hat_h by exact Hrh. reflexivity.
    Qed.
    Lemma keys_h : KPKE_KeyGen h P n d = Some (pub S E, secret_bytes P S).
    Proof. rewrite keygen_h by exact Hd. exact (keys_generated hO hO_ok P HP n rho Hrho Ah EA S E Y W d sigma r HS HE Hd Hs). Qed.
    Lemma keys_h' : KPKE_KeyGen h P n d' = Some (pub' S' E', secret_bytes P S').
    Proof.
      rewrite keygen_h by exact Hd'.
      exact (other_key hs Hhs P HP n rho rho' Hrho' Ah' EA' d' sigma' S' E' d sigma r S E Y W Hd' Hs' HS' HE' N1 N2 N3).
    Qed.
    (** the expansion of a seed *)
    Lemma expand_h s a b c pubk sec : SHAKE128 h s 96 = a ++ b ++ c -> byte_string 32 a -> byte_string 32 b -> byte_string 32 c ->
      KPKE_KeyGen h P n a = Some (pubk, sec) -> XW_public h (x25519 X) n s = Some (pubk ++ x25519 X c X25519_BASE).
    Proof.
      intros E0 Ha Hb Hc EK. unfold XW_public, XW_expand. rewrite E0. unfold bytes32.
      assert (E1 : firstn 32 (skipn 0 (a ++ b ++ c)) = a) by (apply firstn_app_exact, Ha).
      assert (E2 : firstn 32 (skipn 64 (a ++ b ++ c)) = c).
      { rewrite app_assoc. rewrite skipn_app_exact by (rewrite app_length, (proj1 Ha), (proj1 Hb); reflexivity).
        apply firstn_all2. rewrite (proj1 Hc). apply Nat.le_refl. }
      rewrite E1, E2. change ML_KEM_768 with P. unfold KeyGen_internal. rewrite EK. reflexivity.
    Qed.
    Lemma public_h : XW_public h (x25519 X) n sk = Some (pub S E ++ pkx).
    Proof.
      eapply expand_h; [|exact Hd|exact Hz|exact Hskx|exact keys_h].
      transitivity (SHAKE128 h sk (length (d ++ z ++ skx))); [rewrite (proj1 (seed_good d z skx Hd Hz Hskx)); reflexivity|]. apply seed_prefix.
    Qed.
    Lemma public_h' : XW_public h (x25519 X) n sk' = Some (pub' S' E' ++ pkx').
    Proof.
      eapply expand_h; [|exact Hd'|exact Hz'|exact Hskx'|exact keys_h'].
      transitivity (SHAKE128 (with_seed h3 sk' (d' ++ z' ++ skx')) sk' 96).
      { unfold SHAKE128. apply tab_ext. intros i Hi. unfold h. cbn [with_seed shake128].
        destruct (list_eq_dec Z.eq_dec sk' sk) as [Q|_]; [contradiction|]. reflexivity. }
      transitivity (SHAKE128 (with_seed h3 sk' (d' ++ z' ++ skx')) sk' (length (d' ++ z' ++ skx')));
        [rewrite (proj1 (seed_good d' z' skx' Hd' Hz' Hskx')); reflexivity|]. apply seed_prefix.
    Qed.
    Lemma party_pair s pkb : byte_string 32 s -> XW_public h (x25519 X) n s = Some pkb ->
      exists ek, generate_key_pair h X n reader s = Ok (xw_dk_from s, ek, []) /\ valid_xek h ek /\ xek_bytes ek = pkb.
    Proof.
      intros Hs0 EP. unfold generate_key_pair, xw_dk_generate, xw_generate.
      assert (ER : fill_bytes reader s 32 = (s, [])).
      { pose proof (reader_reads s [] 32 Hs0) as Q. rewrite app_nil_r in Q. exact Q. }
      rewrite ER. fold (xw_dk_from s).
      pose proof (xek_of_dk_ok h h_good X HX HXpub n s Hs0) as G. rewrite EP in G.
      destruct G as (ek & G1 & G2 & G3). rewrite G1. cbn [bind]. exists ek. split; [reflexivity|]. split; assumption.
    Qed.

    Lemma anon_view : xw_anon_game hs X n rho rho' z z' skx skx' ekx att U S' E' d' sigma' m K S E Y W d sigma r sk' sk =
      run h no_answer (att (pub' S' E' ++ pkx') (pub S E ++ pkx) (cipher m S E Y W ++ cx) U).
    Proof.
      unfold xw_anon_game. cbv zeta. rewrite (HXpub skx Hskx). fold P. fold hO. fold h1. fold pkx cx. fold pt.
      pose proof (generate_ok h1 h1_good P HP n d z (proj2 Hd) Hz) as G. unfold KeyGen_internal in G.
      rewrite <- keygen_h, keys_h in G by exact Hd. destruct G as (dk1 & F1 & V1 & _ & F2 & _).
      rewrite F1. rewrite (encaps_key_as_bytes_ok P (dk_ek dk1)) by apply V1. rewrite F2.
      change (with_sha3_512 h1 (m ++ sha3_256 hs (pub S E)) (K ++ r)) with h2. fold h3. fold h.
      destruct (party_pair sk' _ Hsk' public_h') as (other & O1 & O2 & O3).
      destruct (party_pair sk _ Hsk public_h) as (ek & G1 & G2 & G3).
      rewrite O1, G1, (xek_as_bytes_ok h other O2), (xek_as_bytes_ok h ek G2), O3, G3.
      pose proof (xw_encapsulate_ok h h_good X HX n ek reader (m ++ ekx) G2 reader_ok) as C.
      rewrite (reader_reads m ekx 32 Hm) in C.
      assert (ER2 : fill_bytes reader ekx 32 = (ekx, [])).
      { pose proof (reader_reads ekx [] 32 Hekx) as Q. rewrite app_nil_r in Q. exact Q. }
      rewrite ER2 in C. rewrite G3 in C. unfold XW_Encaps in C.
      rewrite (firstn_app_exact Z 1184 (pub S E)) in C by exact pub_len.
      assert (B1 : bytes32 1184 (pub S E ++ pkx) = pkx).
      { unfold bytes32. rewrite skipn_app_exact by exact pub_len. apply firstn_all2. rewrite (proj1 pkx_good). apply Nat.le_refl. }
      assert (B2 : bytes32 32 (m ++ ekx) = ekx).
      { unfold bytes32. rewrite skipn_app_exact by apply Hm. apply firstn_all2. rewrite (proj1 Hekx). apply Nat.le_refl. }
      assert (B3 : bytes32 0 (m ++ ekx) = m) by (apply firstn_app_exact, Hm).
      rewrite B1, B2, B3 in C. fold cx in C.
      assert (EI : Encaps_internal h ML_KEM_768 n (pub S E) m = Some (K, cipher m S E Y W)).
      { unfold Encaps_internal, Encaps_with, FIPS203.H. change (sha3_256 h) with (sha3_256 h3). rewrite (hash_3 _ pub_len).
        change (FIPS203.G h) with (FIPS203.G h2).
        assert (EG : FIPS203.G h2 (m ++ sha3_256 hs (pub S E)) = (K, r)).
        { unfold FIPS203.G, h2, passive_world. cbn [with_sha3_512 sha3_512].
          change (sha3_256 hO (key_bytes P rho _)) with (sha3_256 hs (pub S E)).
          destruct (list_eq_dec Z.eq_dec _ _) as [_|Q]; [|contradiction].
          rewrite firstn_app_exact, skipn_app_exact by apply HK. reflexivity. }
        rewrite EG. change ML_KEM_768 with P.
        assert (ET : KPKE_Encrypt h P n (pub S E) m r = KPKE_Encrypt h1 P n (pub S E) m r).
        { unfold KPKE_Encrypt.
          assert (ER : skipn (384 * pk P) (pub S E) = rho) by exact (pub_rho P rho Ah S E).
          rewrite ER, A_hat_h by apply Hrho. reflexivity. }
        rewrite ET. 
        assert (C0 : KPKE_Encrypt h1 P n (pub S E) m r = Some (cipher m S E Y W))
          by exact (challenge hO hO_ok P HP n rho Hrho Ah EA S E Y W d sigma r HY HW Hs m N4).
        rewrite C0. reflexivity. }
      rewrite EI in C. destruct C as (ct & C1 & C2 & C3 & _). rewrite C1. rewrite (ct_as_bytes_ok ct C2), C3.
      assert (ES : Combiner h K (x25519 X ekx pkx) cx pkx = U).
      { unfold Combiner. change (sha3_256 h) with (sha3_256 h3). unfold h3. cbn [with_sha3_256 sha3_256]. fold pt.
        destruct (list_eq_dec Z.eq_dec pt pt) as [_|Q]; [reflexivity|contradiction]. }
      rewrite ES. reflexivity.
    Qed.
  End Seeds.

  (** ** X-Wing's game and ML-KEM's *)
  Let attU := xw_lift pkx' pkx cx U att.
  Let spyU := xw_spy pkx' pkx cx U att.
  Let a0 := att (pub' S' E' ++ pkx') (pub S E ++ pkx) (cipher m S E Y W ++ cx) U.
  Let start (p : hash_name * list Z) := firstn 32 (snd p).
  Let same (x y : list Z) := one_if (if list_eq_dec Z.eq_dec x y then true else false).
  Let kem := kem_anon_game hs P n rho rho' z z'.
  Open Scope Q_scope.

  Lemma kem_view B : d <> d' -> sigma <> sigma' -> r <> sigma' -> r <> sigma ->
    kem B S' E' d' sigma' m K S E Y W d sigma r = run h2 no_answer (B (pub' S' E') (pub S E) (cipher m S E Y W) K).
  Proof.
    intros N1 N2 N3 N4. unfold kem.
    rewrite (game_passive hs Hhs P HP n rho rho' z z' Hrho Hrho' Hz' Ah' EA' B S' E' d' sigma' m K K) by assumption.
    rewrite (passive_view _ hO_ok P HP n rho z Hrho Hz Ah EA) by assumption. reflexivity.
  Qed.
  Lemma xw_game_range sk' sk : 0 <= xw_anon_game hs X n rho rho' z z' skx skx' ekx att U S' E' d' sigma' m K S E Y W d sigma r sk' sk <= 1.
  Proof.
    unfold xw_anon_game. cbv zeta.
    repeat match goal with
    | |- context [match ?x with Ok _ => _ | _ => _ end] => destruct x as [[[? ?] ?]| | |]; try lra
    | |- context [match ?x with Ok _ => _ | _ => _ end] => destruct x as [[? ?]| | |]; try lra
    | |- context [match ?x with Ok _ => _ | _ => _ end] => destruct x as [?| | |]; try lra
    end.
    eapply run_range, Hatt.
  Qed.
  Lemma kem_range B : (forall o ek c K0, within N 0 (B o ek c K0)) -> 0 <= kem B S' E' d' sigma' m K S E Y W d sigma r <= 1.
  Proof. intros H. apply (anon_game_range hs P n rho rho' z z' B N H). Qed.

  Lemma xw_kem sk' sk : byte_string 32 sk' -> byte_string 32 sk ->
    Qabs (xw_anon_game hs X n rho rho' z z' skx skx' ekx att U S' E' d' sigma' m K S E Y W d sigma r sk' sk -
          kem attU S' E' d' sigma' m K S E Y W d sigma r) <=
    (kem spyU S' E' d' sigma' m K S E Y W d sigma r + ((same d' d + same sigma' sigma) + (same sigma' r + same sigma r))) +
    (one_if (points start sk' (asked h2 no_answer a0)) + (one_if (points start sk (asked h2 no_answer a0)) + same sk' sk)).
  Proof.
    intros Hsk' Hsk.
    pose proof (xw_game_range sk' sk) as R1. pose proof (kem_range attU (fun _ _ _ _ => Hatt _ _ _ _)) as R2.
    pose proof (kem_range spyU (fun _ _ _ _ => within_spy _ _ _ _ _ (Hatt _ _ _ _))) as R3.
    assert (SR : forall x y, x = y -> 1 <= same x y)
      by (intros x y ->; unfold same; destruct (list_eq_dec Z.eq_dec y y); [apply Qle_refl|contradiction]).
    pose proof (one_if_range (if list_eq_dec Z.eq_dec d' d then true else false)) as C1. fold (same d' d) in C1.
    pose proof (one_if_range (if list_eq_dec Z.eq_dec sigma' sigma then true else false)) as C2. fold (same sigma' sigma) in C2.
    pose proof (one_if_range (if list_eq_dec Z.eq_dec sigma' r then true else false)) as C3. fold (same sigma' r) in C3.
    pose proof (one_if_range (if list_eq_dec Z.eq_dec sigma r then true else false)) as C4. fold (same sigma r) in C4.
    pose proof (one_if_range (if list_eq_dec Z.eq_dec sk' sk then true else false)) as C5. fold (same sk' sk) in C5.
    pose proof (one_if_range (points start sk' (asked h2 no_answer a0))) as C6.
    pose proof (one_if_range (points start sk (asked h2 no_answer a0))) as C7.
    assert (one : forall x y z0 : Q, 0 <= x <= 1 -> 0 <= y <= 1 -> 1 <= z0 -> Qabs (x - y) <= z0).
    { intros x y z0 Hx Hy Hz0. apply Qabs_Qle_condition. split; lra. }
    destruct (list_eq_dec Z.eq_dec d' d) as [Q1|N1].
    { apply one; [exact R1|exact R2|]. pose proof (SR _ _ Q1) as SR1. lra. }
    destruct (list_eq_dec Z.eq_dec sigma' sigma) as [Q2|N2].
    { apply one; [exact R1|exact R2|]. pose proof (SR _ _ Q2) as SR1. lra. }
    destruct (list_eq_dec Z.eq_dec sigma' r) as [Q3|N3].
    { apply one; [exact R1|exact R2|]. pose proof (SR _ _ Q3) as SR1. lra. }
    destruct (list_eq_dec Z.eq_dec sigma r) as [Q4|N4].
    { apply one; [exact R1|exact R2|]. pose proof (SR _ _ Q4) as SR1. lra. }
    destruct (list_eq_dec Z.eq_dec sk' sk) as [Q5|N5].
    { apply one; [exact R1|exact R2|]. pose proof (SR _ _ Q5) as SR1. lra. }
    destruct (points start sk' (asked h2 no_answer a0)) eqn:B1.
    { apply one; [exact R1|exact R2|]. cbn [one_if]. lra. }
    destruct (points start sk (asked h2 no_answer a0)) eqn:B2.
    { apply one; [exact R1|exact R2|]. cbn [one_if]. lra. }
    assert (M1 : d <> d') by congruence. assert (M2 : sigma <> sigma') by congruence.
    assert (M3 : r <> sigma') by congruence. assert (M4 : r <> sigma) by congruence.
    assert (EK : kem spyU S' E' d' sigma' m K S E Y W d sigma r = one_if (points middle K (asked h2 no_answer a0))).
    { rewrite kem_view by assumption. unfold spyU, xw_spy. rewrite run_spy. reflexivity. }
    destruct (points middle K (asked h2 no_answer a0)) eqn:B3.
    { apply one; [exact R1|exact R2|]. rewrite EK. cbn [one_if] in *. lra. }
    assert (EQ : xw_anon_game hs X n rho rho' z z' skx skx' ekx att U S' E' d' sigma' m K S E Y W d sigma r sk' sk =
                 kem attU S' E' d' sigma' m K S E Y W d sigma r).
    { rewrite (anon_view sk' sk Hsk' Hsk M1 M2 M3 M4 N5), kem_view by assumption.
      change (attU (pub' S' E') (pub S E) (cipher m S E Y W) K) with a0.
      fold a0. apply run_same.
      assert (PI : forall key f x s, In (f, x) (asked h2 no_answer a0) -> key (f, x) = s -> points key s (asked h2 no_answer a0) = true).
      { intros key f x s I F. apply existsb_exists. exists (f, x). split; [exact I|]. 
        destruct (list_eq_dec Z.eq_dec (key (f, x)) s); [reflexivity|contradiction]. }
      intros f x I len. destruct f; cbn [reply].
      - cbn [with_seed sha3_256]. unfold h3. cbn [with_sha3_256 sha3_256].
        destruct (list_eq_dec Z.eq_dec x pt) as [Q|_]; [|reflexivity]. exfalso.
        rewrite (PI middle _ x K I) in B3; [discriminate B3|]. subst x. unfold middle, pt. cbn [snd].
        change 6%nat with (length XWingLabel). rewrite skipn_app_exact by reflexivity. apply firstn_app_exact, HK.
      - reflexivity.
      - unfold prefix. apply tab_ext. intros i Hi. cbn [with_seed shake128].
        destruct (list_eq_dec Z.eq_dec x sk) as [Q|_].
        { exfalso. rewrite (PI start _ x sk I) in B2; [discriminate B2|]. subst x. unfold start. cbn [snd]. apply firstn_all2. rewrite (proj1 Hsk). apply Nat.le_refl. }
        destruct (list_eq_dec Z.eq_dec x sk') as [Q|_].
        { exfalso. rewrite (PI start _ x sk' I) in B1; [discriminate B1|]. subst x. unfold start. cbn [snd]. apply firstn_all2. rewrite (proj1 Hsk'). apply Nat.le_refl. }
        reflexivity.
      - reflexivity. }
    rewrite EQ. cbn [one_if]. apply Qabs_Qle_condition. cbn [one_if] in *. split; lra.
  Qed.

  (** averaged over the seeds *)
  Variable L : list (list Z).
  Hypothesis HL : enumerates 32 L.
  Let unit := 1 / inject_Z (2 ^ 256).
  Let u := inject_Z (Z.of_nat N) * unit.
  Lemma xw_kem_seeds :
    Qabs (average L (fun sk' => average L (fun sk =>
            xw_anon_game hs X n rho rho' z z' skx skx' ekx att U S' E' d' sigma' m K S E Y W d sigma r sk' sk)) -
          kem attU S' E' d' sigma' m K S E Y W d sigma r) <=
    (kem spyU S' E' d' sigma' m K S E Y W d sigma r + ((same d' d + same sigma' sigma) + (same sigma' r + same sigma r))) + (2 * u + unit).
  Proof.
    pose proof (list_nonempty L HL) as NE.
    set (x0 := kem attU S' E' d' sigma' m K S E Y W d sigma r).
    set (c := kem spyU S' E' d' sigma' m K S E Y W d sigma r + ((same d' d + same sigma' sigma) + (same sigma' r + same sigma r))).
    rewrite <- (average_const L x0 NE).
    assert (AP : average L (fun x => one_if (points start x (asked h2 no_answer a0))) <= u).
    { eapply Qle_trans; [apply (average_points start _ N L HL), (asked_length _ _ N 0), Hatt|].
      unfold u, unit, Qdiv. rewrite Qmult_1_l. apply Qle_refl. }
    apply Qle_trans with (average L (fun sk' => (c + (u + unit)) + one_if (points start sk' (asked h2 no_answer a0)))).
    - apply average_close. intros sk' Hsk'. apply HL in Hsk'. rewrite <- (average_const L x0 NE).
      apply Qle_trans with (average L (fun sk => (c + one_if (points start sk' (asked h2 no_answer a0))) +
        (one_if (points start sk (asked h2 no_answer a0)) + same sk' sk))).
      + apply average_close. intros sk Hsk. apply HL in Hsk. eapply Qle_trans; [apply xw_kem; assumption|]. fold c. lra.
      + eapply Qle_trans; [apply (average_shift L HL _ (fun sk => one_if (points start sk (asked h2 no_answer a0)) + same sk' sk) (u + unit))|lra].
        rewrite average_plus. apply Qplus_le_compat; [exact AP|exact (same_point L HL sk')].
    - eapply Qle_trans; [apply (average_shift L HL _ (fun x => one_if (points start x (asked h2 no_answer a0))) u AP)|]. lra.
  Qed.
End Run.

(** ** averages *)
Section Averages.
  Variable hs : hashes.
  Hypothesis Hhs : hash_ok hs.
  Variable X : x25519_impl.
  Hypothesis HX : forall k u, byte_string 32 k -> byte_string 32 u -> byte_string 32 (x25519 X k u).
  Hypothesis HXpub : forall k, byte_string 32 k -> x25519_public X k = x25519 X k X25519_BASE.
  Let P := ML_KEM_768.
  Variable n : nat.
  Variables rho rho' z z' skx skx' ekx : list Z.
  Hypothesis Hrho : byte_string 32 rho.
  Hypothesis Hrho' : byte_string 32 rho'.
  Hypothesis Hz : byte_string 32 z.
  Hypothesis Hz' : byte_string 32 z'.
  Hypothesis Hskx : byte_string 32 skx.
  Hypothesis Hskx' : byte_string 32 skx'.
  Hypothesis Hekx : byte_string 32 ekx.
  Variables Ah Ah' : list (list (list Z)).
  Hypothesis EA : A_hat hs P n rho = Some Ah.
  Hypothesis EA' : A_hat hs P n rho' = Some Ah'.
  Variable att : list Z -> list Z -> list Z -> list Z -> attacker.
  Variable N : nat.
  Hypothesis Hatt : forall o ek c K, within N 0 (att o ek c K).
  Variables L LS LE LY LW : list (list Z).
  Hypothesis HL : enumerates 32 L.
  Hypothesis HLS : enumerates (pk P * (64 * eta1 P)) LS.
  Hypothesis HLE : enumerates (pk P * (64 * eta1 P)) LE.
  Hypothesis HLY : enumerates (pk P * (64 * eta1 P)) LY.
  Hypothesis HLW : enumerates ((pk P + 1) * (64 * eta2 P)) LW.
  Variable U : list Z.
  Hypothesis HU : byte_string 32 U.
  Let pkx := x25519 X skx X25519_BASE.
  Let pkx' := x25519 X skx' X25519_BASE.
  Let cx := x25519 X ekx X25519_BASE.
  Let same (x y : list Z) := one_if (if list_eq_dec Z.eq_dec x y then true else false).
  Open Scope Q_scope.
  Let unit := 1 / inject_Z (2 ^ 256).
  Let u := inject_Z (Z.of_nat N) * unit.

  Lemma slack_average d' sigma' :
    average L (fun d => average L (fun sigma => average L (fun r =>
      ((same d' d + same sigma' sigma) + (same sigma' r + same sigma r)) + (2 * u + unit)))) <= 2 * u + 5 * unit.
  Proof.
    pose proof (fun x => same_point L HL x) as SP. fold unit in SP.
    assert (I1 : forall d sigma, average L (fun r => ((same d' d + same sigma' sigma) + (same sigma' r + same sigma r)) + (2 * u + unit)) <=
      (same d' d + (2 * u + 3 * unit)) + same sigma' sigma).
    { intros d sigma.
      apply Qle_trans with (average L (fun r => (same d' d + same sigma' sigma + (2 * u + unit)) + (same sigma' r + same sigma r))).
      { apply average_le. intros r _. lra. }
      eapply Qle_trans; [apply (average_shift L HL _ (fun r => same sigma' r + same sigma r) (unit + unit))|lra].
      rewrite average_plus. apply Qplus_le_compat; apply SP. }
    assert (I2 : forall d, average L (fun sigma => average L (fun r => ((same d' d + same sigma' sigma) + (same sigma' r + same sigma r)) + (2 * u + unit))) <=
      (2 * u + 4 * unit) + same d' d).
    { intros d. eapply Qle_trans; [apply average_le; intros sigma _; apply I1|].
      eapply Qle_trans; [apply (average_shift L HL _ (fun sigma => same sigma' sigma)); apply SP|]. lra. }
    eapply Qle_trans; [apply average_le; intros d _; apply I2|].
    eapply Qle_trans; [apply (average_shift L HL _ (fun d => same d' d)); apply SP|]. lra.
  Qed.

  (** X-Wing's game is ML-KEM's, unless the attacker finds the ML-KEM secret *)
  Lemma xw_kem_average :
    Qabs (xw_anon_average hs X n rho rho' z z' skx skx' ekx att L LS LE LY LW U -
          kem_anon_average hs P n rho rho' z z' (xw_lift pkx' pkx cx U att) L LS LE LY LW) <=
    kem_anon_average hs P n rho rho' z z' (xw_spy pkx' pkx cx U att) L LS LE LY LW + (2 * u + 5 * unit).
  Proof.
    set (c := 2 * u + 5 * unit).
    assert (C0 : 0 <= c).
    { assert (0 <= u) by (apply Qmult_le_0_compat; [unfold Qle; cbn [Qnum Qden inject_Z]; lia|discriminate]).
      assert (0 <= unit) by discriminate. unfold c. clearbody u unit. lra. }
    assert (near : forall (L0 : list (list Z)) f g h, (forall x, In x L0 -> Qabs (f x - g x) <= h x + c) ->
      Qabs (average L0 f - average L0 g) <= average L0 h + c).
    { intros L0 f g h H. eapply Qle_trans; [apply (average_close L0 f g (fun x => h x + c)), H|]. rewrite average_plus.
      apply Qplus_le_compat; [apply Qle_refl|]. apply average_bound; [exact C0|]. intros; apply Qle_refl. }
    unfold xw_anon_average, kem_anon_average.
    apply near. intros S' HS'. apply near. intros E' HE'. apply near. intros d' Hd'. apply near. intros sigma' Hs'.
    apply near. intros m Hm. apply near. intros K HK. apply near. intros S HS. apply near. intros E HE. apply near. intros Y HY. apply near. intros W HW.
    apply HLS in HS'. apply HLE in HE'. apply HL in Hd'. apply HL in Hs'. apply HL in Hm. apply HL in HK.
    apply HLS in HS. apply HLE in HE. apply HLY in HY. apply HLW in HW.
    set (f := kem_anon_game hs P n rho rho' z z' (xw_spy pkx' pkx cx U att) S' E' d' sigma' m K S E Y W).
    apply Qle_trans with (average L (fun d => average L (fun sigma => average L (fun r =>
      f d sigma r + (((same d' d + same sigma' sigma) + (same sigma' r + same sigma r)) + (2 * u + unit)))))).
    - apply average_close. intros d Hd. apply average_close. intros sigma Hs. apply average_close. intros r Hr.
      apply HL in Hd. apply HL in Hs. apply HL in Hr.
      eapply Qle_trans; [exact (xw_kem_seeds hs Hhs X HX HXpub n rho rho' z z' skx skx' ekx Hrho Hrho' Hz Hz' Hskx Hskx' Hekx Ah Ah' EA EA' att N Hatt U HU
        S' E' d' sigma' m K S E Y W d sigma r Hd' Hs' HS' HE' Hm HK HS HE HY HW Hd Hs Hr L HL)|].
      fold P. fold pkx pkx' cx. fold f. fold unit. fold u. unfold same.
      repeat match goal with |- context [one_if ?a] => generalize (one_if a); intro end. clearbody f. clear. lra.
    - rewrite (average_ext L _ (fun d => average L (fun sigma => average L (fun r => f d sigma r)) +
        average L (fun sigma => average L (fun r => ((same d' d + same sigma' sigma) + (same sigma' r + same sigma r)) + (2 * u + unit))))).
      + rewrite average_plus. apply Qplus_le_compat; [apply Qle_refl|apply slack_average].
      + intros d _. rewrite <- average_plus. apply average_ext. intros sigma _. rewrite <- average_plus. reflexivity.
  Qed.
End Averages.

(** ** the theorems *)

(** what C83 assumes: C82's setting for ML-KEM-768, an X25519 whose values have 32 bytes, and
    X25519 secrets *)
Definition xw_anon_setting (hs : hashes) (X : x25519_impl) (n : nat) (rho0 rho1 z0 z1 skx0 skx1 ekx : list Z) (Ah0 Ah1 : list (list (list Z)))
  (att : list Z -> list Z -> list Z -> list Z -> attacker) (N : nat)
  (L LS LE LY LW : list (list Z)) (LT LV : list (list (list Z))) : Prop :=
  kem_anon_setting hs ML_KEM_768 n rho0 rho1 z0 z1 Ah0 Ah1 att N L LS LE LY LW LT LV /\ x25519_ok X /\
  byte_string 32 skx0 /\ byte_string 32 skx1 /\ byte_string 32 ekx.

(** The experiment without a recipient: two public keys, a ciphertext of uniform polynomials and
    the X25519 value of the encapsulation, and a uniform shared secret. *)
Definition xw_blind_experiment (hs : hashes) (X : x25519_impl) (rho0 rho1 skx0 skx1 ekx : list Z) (A0 A1 : list (list (list Z)))
  (att : list Z -> list Z -> list Z -> list Z -> attacker) (L LS LE : list (list Z)) (LV : list (list (list Z))) : Q :=
  average L (fun U => kem_blind_experiment hs ML_KEM_768 rho0 rho1 A0 A1
    (xw_lift (x25519 X skx0 X25519_BASE) (x25519 X skx1 X25519_BASE) (x25519 X ekx X25519_BASE) U att) L LS LE LV).
(** C82's gaps of the two attackers *)
Definition xw_anon_gaps (hs : hashes) (X : x25519_impl) (n : nat) (rho0 rho1 skx0 skx1 ekx r : list Z) (A0 A1 : list (list (list Z)))
  (att : list Z -> list Z -> list Z -> list Z -> attacker) (L LS LE LY LW : list (list Z)) (LT LV : list (list (list Z))) (b : bool) (U : list Z) : Q :=
  let lift := xw_lift (x25519 X skx0 X25519_BASE) (x25519 X skx1 X25519_BASE) (x25519 X ekx X25519_BASE) U att in
  let spy := xw_spy (x25519 X skx0 X25519_BASE) (x25519 X skx1 X25519_BASE) (x25519 X ekx X25519_BASE) U att in
  (kem_anon_gaps hs ML_KEM_768 n rho0 rho1 r A0 A1 lift L LS LE LY LW LT LV b +
   kem_anon_gaps hs ML_KEM_768 n rho0 rho1 r A0 A1 spy L LS LE LY LW LT LV b)%Q.

Lemma spy_blind hs P rho0 rho1 A0 A1 att N L LS LE LV pkx0 pkx1 cx U :
  (forall ek0 ek1 c K, within N 0 (att ek0 ek1 c K)) -> enumerates 32 L ->
  (kem_blind_experiment hs P rho0 rho1 A0 A1 (xw_spy pkx0 pkx1 cx U att) L LS LE LV <= inject_Z (Z.of_nat N) / inject_Z (2 ^ 256))%Q.
Proof.
  intros Hatt HL. assert (C0 : (0 <= inject_Z (Z.of_nat N) / inject_Z (2 ^ 256))%Q).
  { unfold Qdiv. apply Qmult_le_0_compat; [unfold Qle; cbn [Qnum Qden inject_Z]; lia|discriminate]. }
  unfold kem_blind_experiment. do 5 (apply average_bound; [exact C0|]; intros ? _).
  unfold xw_spy, xw_lift. match goal with |- context [spy _ false ?a] => set (a0 := a) end.
  rewrite (average_ext L _ (fun K => one_if (points middle K (asked hs no_answer a0)))) by (intros K _; rewrite run_spy; reflexivity).
  apply (average_points middle _ N L HL), (asked_length _ _ N 0), Hatt.
Qed.

(** With either recipient, the game is as good as the one without. *)
Theorem C83_blind hs X n rho0 rho1 z0 z1 skx0 skx1 ekx Ah0 Ah1 att N L LS LE LY LW LT LV r (b : bool) :
  xw_anon_setting hs X n rho0 rho1 z0 z1 skx0 skx1 ekx Ah0 Ah1 att N L LS LE LY LW LT LV ->
  let A0 := map (map NTTinv) Ah0 in
  let A1 := map (map NTTinv) Ah1 in
  (Qabs (xw_anon_experiment hs X n rho0 rho1 z0 z1 skx0 skx1 ekx att L LS LE LY LW b -
         xw_blind_experiment hs X rho0 rho1 skx0 skx1 ekx A0 A1 att L LS LE LV) <=
   (15 * inject_Z (Z.of_nat N) + 13) / inject_Z (2 ^ 256) +
   average L (xw_anon_gaps hs X n rho0 rho1 skx0 skx1 ekx r A0 A1 att L LS LE LY LW LT LV b))%Q.
Proof.
  intros ((H1 & H2 & H3 & H4 & H5 & H6 & H7 & H8 & H9 & H10 & H11 & H12 & H13 & H14 & H15 & H16) & (HX & HXpub) & K0 & K1 & K2) A0 A1.
  set (unit := (1 / inject_Z (2 ^ 256))%Q). set (u := (inject_Z (Z.of_nat N) * unit)%Q).
  assert (E1 : ((15 * inject_Z (Z.of_nat N) + 13) / inject_Z (2 ^ 256) == 15 * u + 13 * unit)%Q) by (unfold u, unit, Qdiv; ring).
  assert (E2 : ((6 * inject_Z (Z.of_nat N) + 4) / inject_Z (2 ^ 256) == 6 * u + 4 * unit)%Q) by (unfold u, unit, Qdiv; ring).
  assert (E3 : (inject_Z (Z.of_nat N) / inject_Z (2 ^ 256) == u)%Q) by (unfold u, unit, Qdiv; ring).
  rewrite E1. set (c := (15 * u + 13 * unit)%Q).
  unfold xw_anon_experiment, xw_blind_experiment.
  assert (C1 : (average L (fun U => c + xw_anon_gaps hs X n rho0 rho1 skx0 skx1 ekx r A0 A1 att L LS LE LY LW LT LV b U) ==
    c + average L (xw_anon_gaps hs X n rho0 rho1 skx0 skx1 ekx r A0 A1 att L LS LE LY LW LT LV b))%Q).
  { rewrite average_plus, (average_const L c (list_nonempty L H10)). reflexivity. }
  rewrite <- C1. apply average_close. intros U HU. apply H10 in HU.
  set (px0 := x25519 X skx0 X25519_BASE). set (px1 := x25519 X skx1 X25519_BASE). set (cx := x25519 X ekx X25519_BASE).
  assert (HS1 : kem_anon_setting hs ML_KEM_768 n rho0 rho1 z0 z1 Ah0 Ah1 (xw_lift px0 px1 cx U att) N L LS LE LY LW LT LV).
  { unfold kem_anon_setting. repeat (split; [assumption|]). split; [intros; apply H9|]. repeat (split; [assumption|]). assumption. }
  assert (HS2 : kem_anon_setting hs ML_KEM_768 n rho0 rho1 z0 z1 Ah0 Ah1 (xw_spy px0 px1 cx U att) N L LS LE LY LW LT LV).
  { unfold kem_anon_setting. repeat (split; [assumption|]). split; [intros; apply within_spy, H9|]. repeat (split; [assumption|]). assumption. }
  pose proof (C82_blind _ _ _ _ _ _ _ _ _ _ _ _ _ _ _ _ _ _ r b HS1) as B1. pose proof (C82_blind _ _ _ _ _ _ _ _ _ _ _ _ _ _ _ _ _ _ r b HS2) as B2.
  cbv zeta in B1, B2. fold A0 A1 in B1, B2.
  pose proof (spy_blind hs ML_KEM_768 rho0 rho1 A0 A1 att N L LS LE LV px0 px1 cx U H9 H10) as B3.
  rewrite E2 in B1, B2. rewrite E3 in B3.
  assert (B0 : (Qabs (xw_anon_average hs X n (if b then rho1 else rho0) (if b then rho0 else rho1) (if b then z1 else z0) (if b then z0 else z1)
      (if b then skx1 else skx0) (if b then skx0 else skx1) ekx (seen b att) L LS LE LY LW U -
      kem_anon_experiment hs ML_KEM_768 n rho0 rho1 z0 z1 (xw_lift px0 px1 cx U att) L LS LE LY LW b) <=
    kem_anon_experiment hs ML_KEM_768 n rho0 rho1 z0 z1 (xw_spy px0 px1 cx U att) L LS LE LY LW b + (2 * u + 5 * unit))%Q).
  { destruct b.
    - exact (xw_kem_average hs H1 X HX HXpub n rho1 rho0 z1 z0 skx1 skx0 ekx H4 H3 H6 H5 K1 K0 K2 Ah1 Ah0 H8 H7 (seen true att) N H9
        L LS LE LY LW H10 H11 H12 H13 H14 U HU).
    - exact (xw_kem_average hs H1 X HX HXpub n rho0 rho1 z0 z1 skx0 skx1 ekx H3 H4 H5 H6 K0 K1 K2 Ah0 Ah1 H7 H8 (seen false att) N (fun o ek c0 K => H9 ek o c0 K)
        L LS LE LY LW H10 H11 H12 H13 H14 U HU). }
  unfold xw_anon_gaps. cbv zeta. fold px0 px1 cx. unfold c.
  set (x := xw_anon_average _ _ _ _ _ _ _ _ _ _ _ _ _ _ _ _ _) in *.
  set (y1 := kem_anon_experiment _ _ _ _ _ _ _ (xw_lift _ _ _ _ _) _ _ _ _ _ _) in *.
  set (y2 := kem_anon_experiment _ _ _ _ _ _ _ (xw_spy _ _ _ _ _) _ _ _ _ _ _) in *.
  set (w1 := kem_blind_experiment _ _ _ _ _ _ (xw_lift _ _ _ _ _) _ _ _ _) in *. set (w2 := kem_blind_experiment _ _ _ _ _ _ (xw_spy _ _ _ _ _) _ _ _ _) in *.
  set (g1 := kem_anon_gaps _ _ _ _ _ _ _ _ (xw_lift _ _ _ _ _) _ _ _ _ _ _ _ _) in *.
  set (g2 := kem_anon_gaps _ _ _ _ _ _ _ _ (xw_spy _ _ _ _ _) _ _ _ _ _ _ _ _) in *.
  clearbody x y1 y2 w1 w2 g1 g2 u unit.
  apply Qabs_Qle_condition in B0. apply Qabs_Qle_condition in B1. apply Qabs_Qle_condition in B2.
  apply Qabs_Qle_condition. clear - B0 B1 B2 B3. split; lra.
Qed.

(** The attacker tells the two recipients apart with probability at most (30 N + 26) / 2^256 and
    the gaps. *)
Theorem C83_anonymous hs X n rho0 rho1 z0 z1 skx0 skx1 ekx Ah0 Ah1 att N L LS LE LY LW LT LV r :
  xw_anon_setting hs X n rho0 rho1 z0 z1 skx0 skx1 ekx Ah0 Ah1 att N L LS LE LY LW LT LV ->
  let gaps := xw_anon_gaps hs X n rho0 rho1 skx0 skx1 ekx r (map (map NTTinv) Ah0) (map (map NTTinv) Ah1) att L LS LE LY LW LT LV in
  (Qabs (xw_anon_experiment hs X n rho0 rho1 z0 z1 skx0 skx1 ekx att L LS LE LY LW true -
         xw_anon_experiment hs X n rho0 rho1 z0 z1 skx0 skx1 ekx att L LS LE LY LW false) <=
   (30 * inject_Z (Z.of_nat N) + 26) / inject_Z (2 ^ 256) + average L (gaps true) + average L (gaps false))%Q.
Proof.
  intros HS. cbv zeta.
  pose proof (C83_blind hs X n rho0 rho1 z0 z1 skx0 skx1 ekx Ah0 Ah1 att N L LS LE LY LW LT LV r true HS) as B1.
  pose proof (C83_blind hs X n rho0 rho1 z0 z1 skx0 skx1 ekx Ah0 Ah1 att N L LS LE LY LW LT LV r false HS) as B0. cbv zeta in B1, B0.
  assert (U : ((30 * inject_Z (Z.of_nat N) + 26) / inject_Z (2 ^ 256) == 2 * ((15 * inject_Z (Z.of_nat N) + 13) / inject_Z (2 ^ 256)))%Q)
    by (unfold Qdiv; ring).
  rewrite U. apply Qabs_Qle_condition in B1. apply Qabs_Qle_condition in B0.
  set (x := xw_anon_experiment _ _ _ _ _ _ _ _ _ _ _ _ _ _ _ _ true) in *. set (y := xw_anon_experiment _ _ _ _ _ _ _ _ _ _ _ _ _ _ _ _ false) in *.
  set (w := xw_blind_experiment _ _ _ _ _ _ _ _ _ _ _ _ _ _) in *. set (g1 := average L (xw_anon_gaps _ _ _ _ _ _ _ _ _ _ _ _ _ _ _ _ _ _ _ true)) in *.
  set (g0 := average L (xw_anon_gaps _ _ _ _ _ _ _ _ _ _ _ _ _ _ _ _ _ _ _ false)) in *. set (c := ((15 * _ + 13) / _)%Q) in *.
  clearbody x y w g1 g0 c. apply Qabs_Qle_condition. split; lra.
Qed.

(** The distinguishers of C82 for the attacker [att] have gaps of at most eps1, for public keys,
    and eps2, for ciphertexts. *)
Definition anon_gaps_small (hs : hashes) (P : params) (n : nat) (rho0 rho1 r : list Z) (A0 A1 : list (list (list Z)))
  (att : list Z -> list Z -> list Z -> list Z -> attacker) (L LS LE LY LW : list (list Z)) (LT LV : list (list (list Z))) (eps1 eps2 : Q) : Prop :=
  (forall (b : bool) S E d sigma, In S LS -> In E LE -> In d L -> In sigma L ->
   let rho := if b then rho1 else rho0 in
   let A := if b then A1 else A0 in
   let rho' := if b then rho0 else rho1 in
   let h := party_world hs P rho' d sigma S E in
   let a := seen b att (recipient_key P rho' (if b then A0 else A1) S E) in
   finds_key_gap h P n rho r A L LS LE LY LW LT a <= eps1 /\ finds_ct_gap h P rho A L LY LW LT LV a <= eps2 /\
   Qabs (judge_key_gap h P n rho r A L LS LE LY LW LT a) <= eps1 /\ Qabs (judge_ct_gap h P rho A L LY LW LT LV a) <= eps2 /\
   Qabs (judge_blind_gap h P rho A L LS LE LT LV a) <= eps1)%Q.

Lemma small_gaps hs P n rho0 rho1 r A0 A1 att L LS LE LY LW LT LV eps1 eps2 b : (0 <= eps1)%Q -> (0 <= eps2)%Q ->
  anon_gaps_small hs P n rho0 rho1 r A0 A1 att L LS LE LY LW LT LV eps1 eps2 ->
  (kem_anon_gaps hs P n rho0 rho1 r A0 A1 att L LS LE LY LW LT LV b <= 3 * eps1 + 2 * eps2)%Q.
Proof.
  intros P1 P2 B. assert (C0 : (0 <= 3 * eps1 + 2 * eps2)%Q) by lra. unfold kem_anon_gaps. cbv zeta.
  apply average_bound; [exact C0|]. intros S I1. apply average_bound; [exact C0|]. intros E I2.
  apply average_bound; [exact C0|]. intros d I3. apply average_bound; [exact C0|]. intros sigma I4.
  destruct (B b S E d sigma I1 I2 I3 I4) as (G1 & G2 & G3 & G4 & G5). unfold kem_anon_loss.
  set (f1 := finds_key_gap _ _ _ _ _ _ _ _ _ _ _ _ _) in *. set (f2 := finds_ct_gap _ _ _ _ _ _ _ _ _ _) in *.
  set (j1 := Qabs (judge_key_gap _ _ _ _ _ _ _ _ _ _ _ _ _)) in *. set (j2 := Qabs (judge_ct_gap _ _ _ _ _ _ _ _ _ _)) in *.
  set (j3 := Qabs (judge_blind_gap _ _ _ _ _ _ _ _ _ _)) in *. clearbody f1 f2 j1 j2 j3. lra.
Qed.

(** In numbers, if module-LWE is hard for these distinguishers. *)
Theorem C83_bound hs X n rho0 rho1 z0 z1 skx0 skx1 ekx Ah0 Ah1 att N L LS LE LY LW LT LV r eps1 eps2 :
  xw_anon_setting hs X n rho0 rho1 z0 z1 skx0 skx1 ekx Ah0 Ah1 att N L LS LE LY LW LT LV ->
  let A0 := map (map NTTinv) Ah0 in
  let A1 := map (map NTTinv) Ah1 in
  let px0 := x25519 X skx0 X25519_BASE in
  let px1 := x25519 X skx1 X25519_BASE in
  let cx := x25519 X ekx X25519_BASE in
  (0 <= eps1)%Q -> (0 <= eps2)%Q ->
  (forall U, In U L ->
   anon_gaps_small hs ML_KEM_768 n rho0 rho1 r A0 A1 (xw_lift px0 px1 cx U att) L LS LE LY LW LT LV eps1 eps2 /\
   anon_gaps_small hs ML_KEM_768 n rho0 rho1 r A0 A1 (xw_spy px0 px1 cx U att) L LS LE LY LW LT LV eps1 eps2) ->
  (Qabs (xw_anon_experiment hs X n rho0 rho1 z0 z1 skx0 skx1 ekx att L LS LE LY LW true -
         xw_anon_experiment hs X n rho0 rho1 z0 z1 skx0 skx1 ekx att L LS LE LY LW false) <=
   (30 * inject_Z (Z.of_nat N) + 26) / inject_Z (2 ^ 256) + 12 * eps1 + 8 * eps2)%Q.
Proof.
  intros HS A0 A1 px0 px1 cx P1 P2 B.
  eapply Qle_trans; [exact (C83_anonymous hs X n rho0 rho1 z0 z1 skx0 skx1 ekx Ah0 Ah1 att N L LS LE LY LW LT LV r HS)|]. cbv zeta. fold A0 A1.
  assert (K : forall b, (average L (xw_anon_gaps hs X n rho0 rho1 skx0 skx1 ekx r A0 A1 att L LS LE LY LW LT LV b) <= 6 * eps1 + 4 * eps2)%Q).
  { intros b. apply average_bound; [lra|]. intros U HU. destruct (B U HU) as [B1 B2].
    pose proof (small_gaps _ _ _ _ _ _ _ _ _ _ _ _ _ _ _ _ _ _ b P1 P2 B1) as G1.
    pose proof (small_gaps _ _ _ _ _ _ _ _ _ _ _ _ _ _ _ _ _ _ b P1 P2 B2) as G2.
    unfold xw_anon_gaps. cbv zeta. fold px0 px1 cx.
    set (g1 := kem_anon_gaps _ _ _ _ _ _ _ _ (xw_lift _ _ _ _ _) _ _ _ _ _ _ _ _) in *.
    set (g2 := kem_anon_gaps _ _ _ _ _ _ _ _ (xw_spy _ _ _ _ _) _ _ _ _ _ _ _ _) in *. clearbody g1 g2. lra. }
  pose proof (K true) as K1. pose proof (K false) as K0.
  set (g1 := average L (xw_anon_gaps _ _ _ _ _ _ _ _ _ _ _ _ _ _ _ _ _ _ _ true)) in *.
  set (g0 := average L (xw_anon_gaps _ _ _ _ _ _ _ _ _ _ _ _ _ _ _ _ _ _ _ false)) in *.
  set (c := ((30 * _ + 26) / _)%Q). clearbody g1 g0 c. lra.
Qed.

(** ** cases *)

(** Every run without collisions shows the attacker both public keys and a ciphertext that
    decomposes into ML-KEM's and X25519's. *)
Example C83_reached hs X n rho rho' z z' skx skx' ekx Ah Ah' att U S' E' d' sigma' m K S E Y W d sigma r sk' sk :
  hash_ok hs -> x25519_ok X -> byte_string 32 rho -> byte_string 32 rho' -> byte_string 32 z -> byte_string 32 z' ->
  byte_string 32 skx -> byte_string 32 skx' -> byte_string 32 ekx -> byte_string 32 U ->
  A_hat hs ML_KEM_768 n rho = Some Ah -> A_hat hs ML_KEM_768 n rho' = Some Ah' ->
  byte_string 32 m -> byte_string 32 K -> byte_string 32 d -> byte_string 32 sigma -> byte_string 32 r ->
  byte_string 32 d' -> byte_string 32 sigma' -> byte_string 32 sk' -> byte_string 32 sk ->
  byte_string 384 S' -> byte_string 384 E' -> byte_string 384 S -> byte_string 384 E -> byte_string 384 Y -> byte_string 512 W ->
  r <> sigma -> d <> d' -> sigma <> sigma' -> r <> sigma' -> sk' <> sk ->
  exists h c, length c = 1088%nat /\
    xw_anon_game hs X n rho rho' z z' skx skx' ekx att U S' E' d' sigma' m K S E Y W d sigma r sk' sk =
    run h no_answer (att (recipient_key ML_KEM_768 rho' (map (map NTTinv) Ah') S' E' ++ x25519 X skx' X25519_BASE)
                         (recipient_key ML_KEM_768 rho (map (map NTTinv) Ah) S E ++ x25519 X skx X25519_BASE)
                         (c ++ x25519 X ekx X25519_BASE) U).
Proof.
  intros Hhs [HX HXpub] Hrho Hrho' Hz Hz' Hskx Hskx' Hekx HU EA EA' Hm HK Hd Hs Hr Hd' Hs' Hsk' Hsk HS' HE' HS HE HY HW N0 N1 N2 N3 N4.
  rewrite (anon_view hs Hhs X HX HXpub n rho rho' z z' skx skx' ekx Hrho Hrho' Hz Hz' Hskx Hskx' Hekx Ah Ah' EA EA' att U HU
    S' E' d' sigma' m K S E Y W d sigma r Hd' Hs' HS' HE' Hm HK HS HE HY HW Hd Hs Hr sk' sk Hsk' Hsk N1 N2 N3 N0 N4).
  eexists. eexists. split; [|reflexivity]. cbv zeta. unfold ct_bytes.
  exact (proj1 (byte_string_app _ _ _ _ (encode_vec_bytes _ _ _) (ByteEncode_bytes _ _))).
Qed.

(** The setting exists, with the hash function of C05, for any X25519 with values of 32 bytes. *)
Example C83_case X rho0 rho1 z0 z1 skx0 skx1 ekx att N : x25519_ok X ->
  byte_string 32 rho0 -> byte_string 32 rho1 -> byte_string 32 z0 -> byte_string 32 z1 ->
  byte_string 32 skx0 -> byte_string 32 skx1 -> byte_string 32 ekx ->
  (forall ek0 ek1 c K, within N 0 (att ek0 ek1 c K)) ->
  let P := ML_KEM_768 in
  let LS := tuples (upto 256) (pk P * (64 * eta1 P)) in
  let LW := tuples (upto 256) ((pk P + 1) * (64 * eta2 P)) in
  exists Ah0 Ah1, xw_anon_setting (unlucky (pk P) (eta1 P)) X 128 rho0 rho1 z0 z1 skx0 skx1 ekx Ah0 Ah1 att N
    (tuples (upto 256) 32) LS LS LS LW (vectors (pk P)) (vectors (pk P + 1)).
Proof.
  intros HX H0 H1 H2 H3 K0 K1 K2 Hatt P LS LW.
  destruct (C82_case P rho0 rho1 z0 z1 att N (or_intror (or_introl eq_refl)) H0 H1 H2 H3 Hatt) as (Ah0 & Ah1 & HS).
  exists Ah0, Ah1. split; [exact HS|]. split; [exact HX|]. split; [exact K0|]. split; assumption.
Qed.

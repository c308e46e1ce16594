(** C72: an attacker that may have ciphertexts of its choice decapsulated cannot tell the
    shared secret of X-Wing from a random string, in the random-oracle model, up to the
    secrecy of ML-KEM-768 and its decryption failures; whatever X25519 is.

    The hash functions are those of C71, arbitrary except where the honest parties evaluate
    them on secret inputs.  X-Wing adds two such inputs: the seed, expanded by SHAKE128, and
    the ML-KEM secret, hashed with the X25519 values by SHA3-256. *)
From Coq Require Import List ZArith Lia Bool Arith.
From Verif.Base Require Import Res Oracles.
From Verif.Spec Require Import FIPS203 XWing Domains Noise Counting Random Lwe Attacker Tables Hybrid.
From Verif.Model Require Import Machine Util Algebra Compress Encode Crypto Sample Param Pke Kem XWing.
From Verif.Proofs Require Import Basics Field Poly CompressProofs NttAlgebra NttProofs EncodeProofs VecEncode SampleProofs CountProofs
  PkeProofs KemProofs Inner Correctness TailProofs FailureProofs FailureAverage FailureNumbers XWingProofs LweProofs AttackerProofs TableProofs HybridProofs.
From Verif.Properties Require Import Kem KemCases XWing Correctness Distribution Failure Secrecy KemSecrecy ActiveSecrecy ActiveCases.
From Coq Require Import QArith Qabs Lqa.
Import ListNotations.
Open Scope Z_scope.

(** The hash functions of the game: those of C71, with SHA3-256(label || K || x) = TH(x) for
    all x of 96 bytes, and with d || z || skx as the expansion of the seed [sk]. *)
Definition xw_world (hs : hashes) (L LC LX : list (list Z)) (rho d sigma r z S E Y W h : list Z)
  (TK TR TF TH : list (list Z)) (K sk skx : list Z) : hashes :=
  with_seed (with_H_table (active_world hs ML_KEM_768 L LC rho d sigma r z S E Y W h TK TR TF) (XWingLabel ++ K) LX TH)
    sk (d ++ z ++ skx).

(** The owner of the secret key decapsulates every ciphertext but the challenge [c0]. *)
Definition xw_owner (h : hashes) (X : x25519_impl) (n : nat) (dk : xw_decaps_key) (LXC : list (list Z)) (c0 c : list Z) : list Z :=
  if list_eq_dec Z.eq_dec c c0 then []
  else if in_dec (list_eq_dec Z.eq_dec) c LXC then
    match xw_ct_from c with
    | Ok ct => match xw_decapsulate h X n dk ct with Ok K => K | _ => [] end
    | _ => []
    end
  else [].

(** Generate a key pair from the seed [sk], encapsulate with [m] and the X25519 secret [ekx],
    show the attacker the public key, the ciphertext, and the shared secret or (if not
    [real]) the string [V].  [r] and [K] are the randomness and the secret that G assigns to
    [m]; the ML-KEM key generation at the start says for which h the answers G(m || h) are
    random. *)
Definition xw_game (hs : hashes) (X : x25519_impl) (n : nat) (rho : list Z) (L LC LX LXC : list (list Z))
  (att : list Z -> list Z -> list Z -> attacker) (real : bool) (skx ekx : list Z) (TH : list (list Z)) (V : list Z)
  (m S E Y W : list Z) (TR : list (list Z)) (d sigma z : list Z) (TK TF : list (list Z)) (sk : list Z) : Q :=
  match entry L TR m, entry L TK m with
  | Some r, Some K =>
      match kem_generate_deterministic (keys_world hs ML_KEM_768 rho d sigma r S E Y W) ML_KEM_768 n d z with
      | Ok (_, ek1) =>
          match encaps_key_as_bytes ML_KEM_768 ek1 with
          | Ok ekb =>
              let h := xw_world hs L LC LX rho d sigma r z S E Y W (sha3_256 hs ekb) TK TR TF TH K sk skx in
              match generate_key_pair h X n reader sk with
              | Ok (dk, ek, _) =>
                  match xw_ek_as_bytes ek, xw_encapsulate h X n ek reader (m ++ ekx) with
                  | Ok pkb, Ok (ct, ss, _) =>
                      match xw_ct_as_bytes ct with
                      | Ok ctb => run h (xw_owner h X n dk LXC ctb) (att pkb ctb (if real then ss else V))
                      | _ => 0%Q
                      end
                  | _, _ => 0%Q
                  end
              | _ => 0%Q
              end
          | _ => 0%Q
          end
      | _ => 0%Q
      end
  | _, _ => 0%Q
  end.

(** the probability that the attacker answers 1; it is told the X25519 secrets *)
Definition xw_experiment (hs : hashes) (X : x25519_impl) (n : nat) (rho : list Z)
  (att : list Z -> list Z -> list Z -> list Z -> list Z -> attacker) (L LC LX LXC LS LE LY LW : list (list Z)) (LR LK LF LH : list (list (list Z))) (real : bool) : Q :=
  average L (fun skx => average L (fun ekx => average LH (fun TH => average L (fun V =>
  average L (fun m =>
  average LS (fun S => average LE (fun E => average LY (fun Y => average LW (fun W =>
  average LR (fun TR => average L (fun d => average L (fun sigma => average L (fun z =>
  average LK (fun TK => average LF (fun TF => average L (fun sk =>
    xw_game hs X n rho L LC LX LXC (att skx ekx) real skx ekx TH V m S E Y W TR d sigma z TK TF sk)))))))))))))))).

(** ** one run *)
Lemma lookup_hash h K LX TH x : length K = 32%nat ->
  sha3_256 (with_H_table h (XWingLabel ++ K) LX TH) x = match lookup LX TH K x with Some v => v | None => sha3_256 h x end.
Proof.
  intros HK. cbn [with_H_table sha3_256]. unfold lookup.
  replace (length (XWingLabel ++ K)) with 38%nat by (rewrite app_length, HK; reflexivity).
  destruct (list_eq_dec Z.eq_dec (firstn 38 x) (XWingLabel ++ K)); reflexivity.
Qed.

Section Run.
  Variable hs : hashes.
  Hypothesis Hhs : hash_ok hs.
  Variable X : x25519_impl.
  Hypothesis HX : forall k u, byte_string 32 k -> byte_string 32 u -> byte_string 32 (x25519 X k u).
  Hypothesis HXpub : forall k, byte_string 32 k -> x25519_public X k = x25519 X k X25519_BASE.
  Let P := ML_KEM_768.
  Let HP : wf_params P := wf_768.
  Let k := pk P.
  Variable n : nat.
  Variables rho : list Z.
  Hypothesis Hrho : byte_string 32 rho.
  Variable Ah : list (list (list Z)).
  Hypothesis EA : A_hat hs P n rho = Some Ah.
  Let A := map (map NTTinv) Ah.
  Variable att : list Z -> list Z -> list Z -> attacker.
  Variables N D : nat.
  Hypothesis Hatt : forall ek c K, within N D (att ek c K).
  Variables L LC LX LXC : list (list Z).
  Hypothesis HL : enumerates 32 L.
  Hypothesis HLC : enumerates (ct_len P) LC.
  Hypothesis HLX : enumerates 96 LX.
  Hypothesis HLXC : enumerates 1120 LXC.

  Let pub S E := key_bytes P rho (lwe_samples k k A (cbd_vec (eta1 P) k S) (cbd_vec (eta1 P) k E)).
  Let cipher m S E Y W :=
    let w := lwe_samples k (k + 1) (ct_matrix k A (lwe_samples k k A (cbd_vec (eta1 P) k S) (cbd_vec (eta1 P) k E)))
               (cbd_vec (eta1 P) k Y) (cbd_vec (eta2 P) (k + 1) W) in
    ct_bytes P (firstn k w) (padd (nth k w []) (enc_mu m)).
  Let plain S c := KPKE_Decrypt P (secret_bytes P S) c.

  Variables S E Y W d sigma z : list Z.
  Hypothesis HS : byte_string (k * (64 * eta1 P)) S.
  Hypothesis HE : byte_string (k * (64 * eta1 P)) E.
  Hypothesis HY : byte_string (k * (64 * eta1 P)) Y.
  Hypothesis HW : byte_string ((k + 1) * (64 * eta2 P)) W.
  Hypothesis Hd : byte_string 32 d.
  Hypothesis Hs : byte_string 32 sigma.
  Hypothesis Hz : byte_string 32 z.
  Variables TK TR TF TH : list (list Z).
  Hypothesis HTK : table L L TK.
  Hypothesis HTR : table L L TR.
  Hypothesis HTF : table LC L TF.
  Hypothesis HTH : table LX L TH.
  Variable m : list Z.
  Hypothesis Hm : In m L.
  Let r := get L TR m.
  Let K := get L TK m.
  Hypothesis Hne : r <> sigma.
  Variables sk skx ekx : list Z.
  Hypothesis Hsk : byte_string 32 sk.
  Hypothesis Hskx : byte_string 32 skx.
  Hypothesis Hekx : byte_string 32 ekx.

  Let bL x := proj1 (proj2 HL x).
  Let Hr : byte_string 32 r := bL _ (get_in L L TR m HTR Hm).
  Let HK : byte_string 32 K := bL _ (get_in L L TK m HTK Hm).
  Let Hm' : byte_string 32 m := bL m Hm.
  Let h1 := keys_world hs P rho d sigma r S E Y W.
  Let h2 := active_world hs P L LC rho d sigma r z S E Y W (sha3_256 hs (pub S E)) TK TR TF.
  Let hX := xw_world hs L LC LX rho d sigma r z S E Y W (sha3_256 hs (pub S E)) TK TR TF TH K sk skx.
  Let dkb := secret_bytes P S ++ pub S E ++ sha3_256 hs (pub S E) ++ z.
  Let pkx := x25519 X skx X25519_BASE.
  Let cx0 := x25519 X ekx X25519_BASE.
  Let c0 := cipher m S E Y W.
  Let rest0 := x25519 X ekx pkx ++ cx0 ++ pkx.
  Let ctof := ct_of hs P n rho Ah L S E Y W d sigma r TR.
  Let value c := if list_eq_dec Z.eq_dec c (ctof (plain S c)) then get L TK (plain S c) else get LC TF c.

  Lemma h2ok : hash_ok h2.
  Proof. unfold h2, pub, A, k. eapply h2_ok; eassumption. Qed.
  Lemma seed_bytes : byte_string 96 (d ++ z ++ skx).
  Proof. apply (byte_string_app 32 64); [exact Hd|]. apply (byte_string_app 32 32); assumption. Qed.
  Lemma hXok : hash_ok hX.
  Proof.
    apply with_seed_ok; [|apply seed_bytes]. apply (with_H_table_ok _ _ LX L); [exact h2ok|exact bL|exact HTH].
  Qed.
  Lemma pkx_ok : byte_string 32 pkx.
  Proof. apply HX; [exact Hskx|exact base_ok]. Qed.
  Lemma cx0_ok : byte_string 32 cx0.
  Proof. apply HX; [exact Hekx|exact base_ok]. Qed.
  Lemma rest_in k' u : byte_string 32 k' -> byte_string 32 u -> forall cx, byte_string 32 cx -> In (x25519 X k' u ++ cx ++ pkx) LX.
  Proof.
    intros Hk Hu cx Hcx. apply HLX. apply (byte_string_app 32 64); [apply HX; assumption|]. apply (byte_string_app 32 32); [exact Hcx|exact pkx_ok].
  Qed.

  (** ML-KEM does not notice the two additions *)
  Lemma pub_len : length (pub S E) = 1184%nat.
  Proof. exact (proj1 (pub_bytes P rho Hrho Ah S E)). Qed.
  Lemma K_prefix : length (XWingLabel ++ K) = 38%nat.
  Proof. rewrite app_length, (proj1 HK). reflexivity. Qed.
  Lemma hash_pub : sha3_256 hX (pub S E) = sha3_256 hs (pub S E).
  Proof.
    unfold hX, xw_world. cbn [with_seed sha3_256].
    rewrite (with_H_other _ _ LX TH _ 96 HLX) by (rewrite K_prefix, pub_len; discriminate). reflexivity.
  Qed.
  Lemma A_hat_X i : length i = 32%nat -> A_hat hX P n i = A_hat h2 P n i.
  Proof. intros Hi. unfold hX, xw_world. rewrite A_hat_seed by (exact Hi || apply Hsk). reflexivity. Qed.
  Lemma encrypt_X ek m' r' : skipn (384 * k) ek = rho -> KPKE_Encrypt hX P n ek m' r' = KPKE_Encrypt h2 P n ek m' r'.
  Proof.
    intros Hek. unfold KPKE_Encrypt. fold k. rewrite Hek, A_hat_X by apply Hrho. reflexivity.
  Qed.
  Lemma keys_X : KPKE_KeyGen hX P n d = Some (pub S E, secret_bytes P S).
  Proof.
    assert (KT : KPKE_KeyGen h2 P n d = Some (pub S E, secret_bytes P S)).
    { unfold h2, pub, A, k. eapply keys_tables; eassumption. }
    rewrite <- KT.
    unfold KPKE_KeyGen. change (FIPS203.G hX) with (FIPS203.G h2).
    assert (Hb : bytes (d ++ [Z.of_nat (pk P)])).
    { apply bytes_app; [apply Hd|]. apply bytes_cons; [|apply bytes_nil]. pose proof (k_range P HP). unfold is_byte. lia. }
    destruct (G_bytes h2 h2ok _ Hb) as [[Hrh _] _]. destruct (FIPS203.G h2 (d ++ [Z.of_nat (pk P)])) as [rho' sigma']. cbn [fst] in Hrh.
    rewrite A_hat_X by exact Hrh. reflexivity.
  Qed.
  Lemma kem_X : KeyGen_internal hX P n d z = Some (pub S E, dkb).
  Proof. unfold KeyGen_internal. rewrite keys_X. unfold FIPS203.H. rewrite hash_pub. reflexivity. Qed.
  Lemma c0_in : In c0 LC.
  Proof.
    apply (proj2 HLC). unfold c0, cipher. cbv zeta. unfold ct_bytes, ct_len. apply byte_string_app; [apply encode_vec_bytes|apply ByteEncode_bytes].
  Qed.
  Lemma ctof_m : ctof m = c0.
  Proof.
    assert (Q : KPKE_Encrypt h1 P n (pub S E) m r = Some (ctof m)).
    { unfold h1, pub, A, k, ctof, r. eapply ct_of_ok; eassumption. }
    assert (C : KPKE_Encrypt h1 P n (pub S E) m r = Some c0).
    { unfold h1, pub, A, k, c0, cipher. eapply challenge; eassumption. }
    congruence.
  Qed.

  (** decapsulation of ML-KEM *)
  Lemma value_bytes c : In c LC -> byte_string 32 (value c).
  Proof.
    intros I. unfold value. destruct (list_eq_dec Z.eq_dec c _).
    - apply bL, (get_in L L TK _ HTK). exact (proj2 (proj2 HL _) (KPKE_Decrypt_bytes P (secret_bytes P S) c)).
    - apply bL, (get_in LC L TF _ HTF I).
  Qed.
  Lemma decaps_X c : In c LC -> Decaps_internal hX P n dkb c = Some (value c).
  Proof.
    intros I.
    assert (E1 : Decaps_internal hX P n dkb c = Decaps_internal h2 P n dkb c).
    { unfold Decaps_internal. fold k. change (FIPS203.G hX) with (FIPS203.G h2). change (FIPS203.J hX) with (FIPS203.J h2).
      destruct (FIPS203.G h2 _) as [K' r'].
      assert (EP : firstn (384 * k + 32) (skipn (384 * k) dkb) = pub S E).
      { unfold dkb. rewrite (skipn_app_exact Z (384 * k)%nat (secret_bytes P S)) by exact (proj1 (encode_vec12_bytes P (map NTT (cbd_vec (eta1 P) (pk P) S)))).
        apply firstn_app_exact. exact pub_len. }
      rewrite EP. rewrite encrypt_X; [reflexivity|]. unfold pub, A, k. apply pub_rho; assumption. }
    rewrite E1.
    assert (KP : exists dk, kem_generate_deterministic h2 P n d z = Ok (dk, dk_ek dk) /\ valid_decaps_key P dk /\ dkey_bytes P dk = dkb).
    { destruct (key_pair hs Hhs P HP n rho Hrho Ah EA L LC HL HLC S E Y W d sigma z r) with (TK := TK) (TR := TR) (TF := TF) as (dk & F1 & F2 & F3 & _); try assumption.
      exists dk. split; [exact F1|]. split; [exact F2|exact F3]. }
    destruct KP as (dk & _ & V & F3).
    assert (OA : owner h2 P n dk LC [] c = value c).
    { unfold h2, pub, A, k. erewrite owner_answer; try eassumption.
      destruct (list_eq_dec Z.eq_dec c []) as [Q|_].
      { subst c. apply HLC in I. apply proj1 in I. discriminate I. }
      destruct (in_dec (list_eq_dec Z.eq_dec) c LC) as [_|Q]; [reflexivity|contradiction]. }
    unfold owner in OA. destruct (list_eq_dec Z.eq_dec c []) as [Q|_].
    { subst c. apply HLC in I. apply proj1 in I. discriminate I. }
    destruct (in_dec (list_eq_dec Z.eq_dec) c LC) as [_|Q]; [|contradiction].
    rewrite (decapsulate_ok h2 h2ok P HP n dk c V (proj1 (proj2 HLC c) I)), F3 in OA.
    destruct (Decaps_internal h2 P n dkb c) as [K'|]; cbn [lift] in OA; [rewrite OA; reflexivity|].
    exfalso. pose proof (proj1 (value_bytes c I)) as Q. rewrite <- OA in Q. discriminate Q.
  Qed.

  (** the key pair and the challenge *)
  Lemma expand_X : XW_expand hX (x25519 X) n sk = Some (dkb, skx, pub S E, pkx).
  Proof.
    unfold XW_expand.
    assert (E0 : SHAKE128 hX sk 96 = d ++ z ++ skx).
    { transitivity (SHAKE128 hX sk (length (d ++ z ++ skx))); [rewrite (proj1 seed_bytes); reflexivity|]. apply seed_prefix. }
    rewrite E0. unfold bytes32.
    assert (E1 : firstn 32 (skipn 0 (d ++ z ++ skx)) = d) by (apply firstn_app_exact, Hd).
    assert (E2 : firstn 32 (skipn 32 (d ++ z ++ skx)) = z).
    { rewrite skipn_app_exact by apply Hd. apply firstn_app_exact, Hz. }
    assert (E3 : firstn 32 (skipn 64 (d ++ z ++ skx)) = skx).
    { rewrite app_assoc. rewrite skipn_app_exact by (rewrite app_length, (proj1 Hd), (proj1 Hz); reflexivity).
      apply firstn_all2. rewrite (proj1 Hskx). apply Nat.le_refl. }
    rewrite E1, E2, E3. change ML_KEM_768 with P. rewrite kem_X. reflexivity.
  Qed.
  Lemma hash_X x : sha3_256 hX x = match lookup LX TH K x with Some v => v | None => sha3_256 hs x end.
  Proof. unfold hX, xw_world. cbn [with_seed sha3_256]. rewrite lookup_hash by apply HK. reflexivity. Qed.
  Lemma hash_K x : In x LX -> sha3_256 hX (XWingLabel ++ K ++ x) = get LX TH x.
  Proof. intros I. rewrite app_assoc. unfold hX, xw_world. cbn [with_seed sha3_256]. apply (with_H_table_at _ _ LX L TH x HTH I). Qed.

  Lemma xw_view real V : exists dec,
    xw_game hs X n rho L LC LX LXC att real skx ekx TH V m S E Y W TR d sigma z TK TF sk =
    run hX dec (att (pub S E ++ pkx) (c0 ++ cx0) (if real then get LX TH rest0 else V)) /\
    forall c, dec c =
      if list_eq_dec Z.eq_dec c (c0 ++ cx0) then []
      else if in_dec (list_eq_dec Z.eq_dec) c LXC then
        sha3_256 hX (XWingLabel ++ value (firstn 1088 c) ++ x25519 X skx (skipn 1088 c) ++ skipn 1088 c ++ pkx)
      else [].
  Proof.
    exists (xw_owner hX X n (xw_dk_from sk) LXC (c0 ++ cx0)). split.
    - unfold xw_game. rewrite (entry_get L L TR m HTR Hm), (entry_get L L TK m HTK Hm). fold r K.
      assert (H1 : hash_ok h1) by (unfold h1; eapply h1_ok; eassumption).
      pose proof (generate_ok h1 H1 P HP n d z (proj2 Hd) Hz) as G. unfold KeyGen_internal in G.
      assert (KG : KPKE_KeyGen h1 P n d = Some (pub S E, secret_bytes P S)).
      { unfold h1, pub, A, k. eapply keys_generated; eassumption. }
      rewrite KG in G. destruct G as (dk1 & F1 & V1 & _ & F2 & _).
      change ML_KEM_768 with P. fold h1. rewrite F1. rewrite (encaps_key_as_bytes_ok P (dk_ek dk1)) by apply V1. rewrite F2. cbv zeta. fold hX.
      unfold generate_key_pair, xw_dk_generate, xw_generate.
      assert (ER : fill_bytes reader sk 32 = (sk, [])).
      { pose proof (reader_reads sk [] 32 Hsk) as Q. rewrite app_nil_r in Q. exact Q. }
      rewrite ER. fold (xw_dk_from sk).
      pose proof (xek_of_dk_ok hX hXok X HX HXpub n sk Hsk) as G. unfold XW_public in G. rewrite expand_X in G.
      destruct G as (ek & G1 & G2 & G3). rewrite G1. cbn [bind].
      rewrite (xek_as_bytes_ok hX ek G2), G3.
      pose proof (xw_encapsulate_ok hX hXok X HX n ek reader (m ++ ekx) G2 reader_ok) as C.
      rewrite (reader_reads m ekx 32 Hm') in C.
      assert (ER2 : fill_bytes reader ekx 32 = (ekx, [])).
      { pose proof (reader_reads ekx [] 32 Hekx) as Q. rewrite app_nil_r in Q. exact Q. }
      rewrite ER2 in C. rewrite G3 in C. unfold XW_Encaps in C.
      rewrite (firstn_app_exact Z 1184 (pub S E)) in C by exact pub_len.
      assert (B1 : bytes32 1184 (pub S E ++ pkx) = pkx).
      { unfold bytes32. rewrite skipn_app_exact by exact pub_len. apply firstn_all2. rewrite (proj1 pkx_ok). apply Nat.le_refl. }
      assert (B2 : bytes32 32 (m ++ ekx) = ekx).
      { unfold bytes32. rewrite skipn_app_exact by apply Hm'. apply firstn_all2. rewrite (proj1 Hekx). apply Nat.le_refl. }
      assert (B3 : bytes32 0 (m ++ ekx) = m) by (apply firstn_app_exact, Hm').
      rewrite B1, B2, B3 in C. fold cx0 in C.
      assert (EI : Encaps_internal hX ML_KEM_768 n (pub S E) m = Some (K, c0)).
      { unfold Encaps_internal, Encaps_with, FIPS203.H. rewrite hash_pub. change (FIPS203.G hX) with (FIPS203.G h2).
        assert (EG : FIPS203.G h2 (m ++ sha3_256 hs (pub S E)) = (K, r)).
        { unfold h2, pub, A, k, K, r. eapply G_tables; eassumption. }
        rewrite EG. change ML_KEM_768 with P. rewrite encrypt_X by (unfold pub, A, k; apply pub_rho; assumption).
        assert (ET : KPKE_Encrypt h2 P n (pub S E) m r = KPKE_Encrypt h1 P n (pub S E) m r).
        { unfold h2, h1, pub, A, k. eapply encrypt_tables; try eassumption. apply Hr. }
        rewrite ET.
        assert (C0 : KPKE_Encrypt h1 P n (pub S E) m r = Some c0).
        { unfold h1, pub, A, k, c0, cipher. eapply challenge; eassumption. }
        rewrite C0. reflexivity. }
      rewrite EI in C. destruct C as (ct & C1 & C2 & C3 & _). rewrite C1. rewrite (ct_as_bytes_ok ct C2), C3.
      assert (ES : Combiner hX K (x25519 X ekx pkx) cx0 pkx = get LX TH rest0).
      { unfold Combiner. apply hash_K. apply rest_in; [exact Hekx|exact pkx_ok|exact cx0_ok]. }
      rewrite ES. reflexivity.
    - intros c. unfold xw_owner. destruct (list_eq_dec Z.eq_dec c (c0 ++ cx0)); [reflexivity|].
      destruct (in_dec (list_eq_dec Z.eq_dec) c LXC) as [I|_]; [|reflexivity]. apply HLXC in I.
      assert (Hcm : byte_string 1088 (firstn 1088 c)) by (apply (byte_string_firstn 1088 1120); [exact I|lia]).
      assert (Hcx : byte_string 32 (skipn 1088 c)) by (apply (byte_string_skipn 1088 32), I).
      destruct (ct_from_ok c I) as (C1 & C2). rewrite C1.
      rewrite (xw_decapsulate_ok hX hXok X HX HXpub n sk _ Hsk C2). cbn [ct_m ct_x].
      unfold XW_Decaps. rewrite expand_X. rewrite firstn_app_exact by apply Hcm.
      assert (B1 : bytes32 1088 (firstn 1088 c ++ skipn 1088 c) = skipn 1088 c).
      { unfold bytes32. rewrite skipn_app_exact by apply Hcm. apply firstn_all2. rewrite (proj1 Hcx). apply Nat.le_refl. }
      rewrite B1. change ML_KEM_768 with P. rewrite decaps_X by (apply HLC; exact Hcm). reflexivity.
  Qed.

  (** the attacker against ML-KEM *)
  Let questions a dec := asked h2 dec a.
  Lemma wrap_simulates dec own a : plain S c0 = m ->
    (forall c, dec c = if list_eq_dec Z.eq_dec c c0 then [] else if in_dec (list_eq_dec Z.eq_dec) c LC then value c else []) ->
    (forall c, own c =
      if list_eq_dec Z.eq_dec c (c0 ++ cx0) then []
      else if in_dec (list_eq_dec Z.eq_dec) c LXC then
        sha3_256 hX (XWingLabel ++ value (firstn 1088 c) ++ x25519 X skx (skipn 1088 c) ++ skipn 1088 c ++ pkx)
      else []) ->
    points snd sk (asked h2 dec (wrap (x25519 X) LX TH LXC (lookup LX TH K) skx pkx c0 cx0 a)) = false ->
    run hX own a = run h2 dec (wrap (x25519 X) LX TH LXC (lookup LX TH K) skx pkx c0 cx0 a).
  Proof.
    intros Hp HD HO.
    assert (HA : forall x next next', (forall y, points snd sk (asked h2 dec (next' y)) = false -> run hX own (next y) = run h2 dec (next' y)) ->
      points snd sk (asked h2 dec (ask (lookup LX TH K) x next')) = false ->
      run hX own (next (sha3_256 hX x)) = run h2 dec (ask (lookup LX TH K) x next')).
    { intros x next next' IH Q. rewrite hash_X. unfold ask in *. destruct (lookup LX TH K x) as [v|]; [apply IH, Q|].
      cbn [run reply asked] in *. change (sha3_256 h2 x) with (sha3_256 hs x) in *. apply IH.
      unfold points in *. cbn [existsb] in Q. apply orb_false_iff in Q. apply Q. }
    induction a as [p|f x len next IH|c next IH]; intros Q; [reflexivity| |].
    - destruct f; cbn [wrap run reply] in *.
      + apply (HA x next (fun y => wrap (x25519 X) LX TH LXC (lookup LX TH K) skx pkx c0 cx0 (next y))); assumption.
      + cbn [asked] in Q. unfold points in Q. cbn [existsb] in Q. apply orb_false_iff in Q. destruct Q as [_ Q].
        change (sha3_512 hX x) with (sha3_512 h2 x). apply IH, Q.
      + cbn [asked] in Q. unfold points in Q. cbn [existsb] in Q. apply orb_false_iff in Q. destruct Q as [Q1 Q].
        assert (E1 : prefix len (shake128 hX x) = prefix len (shake128 h2 x)).
        { unfold prefix. apply tab_ext. intros i _. unfold hX, xw_world. cbn [with_seed shake128].
          cbn [snd] in Q1. destruct (list_eq_dec Z.eq_dec x sk); [discriminate Q1|reflexivity]. }
        rewrite E1. apply IH, Q.
      + cbn [asked] in Q. unfold points in Q. cbn [existsb] in Q. apply orb_false_iff in Q. destruct Q as [_ Q].
        change (shake256 hX x) with (shake256 h2 x). apply IH, Q.
    - cbn [wrap run] in *. cbv zeta in *. rewrite HO.
      destruct (list_eq_dec Z.eq_dec c (c0 ++ cx0)) as [|Nc]; [apply IH, Q|].
      destruct (in_dec (list_eq_dec Z.eq_dec) c LXC) as [I|]; [|apply IH, Q]. apply HLXC in I.
      assert (Hcm : byte_string 1088 (firstn 1088 c)) by (apply (byte_string_firstn 1088 1120); [exact I|lia]).
      assert (Hcx : byte_string 32 (skipn 1088 c)) by (apply (byte_string_skipn 1088 32), I).
      destruct (list_eq_dec Z.eq_dec (firstn 1088 c) c0) as [E0|N0].
      + rewrite E0.
        assert (EV : value c0 = K).
        { unfold value. rewrite Hp, ctof_m. destruct (list_eq_dec Z.eq_dec c0 c0) as [_|X0]; [reflexivity|contradiction]. }
        assert (Ir : In (x25519 X skx (skipn 1088 c) ++ skipn 1088 c ++ pkx) LX) by (apply rest_in; assumption).
        rewrite EV, (hash_K _ Ir). unfold get. apply IH, Q.
      + cbn [run asked] in *. rewrite HD in *. destruct (list_eq_dec Z.eq_dec (firstn 1088 c) c0) as [X0|_]; [contradiction|].
        destruct (in_dec (list_eq_dec Z.eq_dec) (firstn 1088 c) LC) as [_|X0]; [|exfalso; apply X0, HLC; exact Hcm].
        apply (HA _ next (fun y => wrap (x25519 X) LX TH LXC (lookup LX TH K) skx pkx c0 cx0 (next y))); assumption.
  Qed.
End Run.

(** ** averages *)
Lemma game_form hs P n rho L LC m S E Y W TR d sigma z TK TF :
  (forall att real U, active_game hs P n rho L LC att real m S E Y W TR d sigma z TK TF U = 0%Q) \/
  exists h dec ek c K, forall att real U, active_game hs P n rho L LC att real m S E Y W TR d sigma z TK TF U =
    run h dec (att ek c (if real then K else U)).
Proof.
  unfold active_game. cbv zeta. destruct (entry L TR m) as [r'|]; [|left; reflexivity].
  repeat match goal with
  | |- context [match ?x with Ok _ => _ | _ => _ end] => destruct x as [[? ?]| | |]; try (left; reflexivity)
  | |- context [match ?x with Ok _ => _ | _ => _ end] => destruct x as [?| | |]; try (left; reflexivity)
  end.
  right. do 5 eexists. reflexivity.
Qed.

Section XwBound.
  Variable hs : hashes.
  Hypothesis Hhs : hash_ok hs.
  Variable X : x25519_impl.
  Hypothesis HX : forall k u, byte_string 32 k -> byte_string 32 u -> byte_string 32 (x25519 X k u).
  Hypothesis HXpub : forall k, byte_string 32 k -> x25519_public X k = x25519 X k X25519_BASE.
  Let P := ML_KEM_768.
  Let HP : wf_params P := wf_768.
  Let k := pk P.
  Variable n : nat.
  Variables rho : list Z.
  Hypothesis Hrho : byte_string 32 rho.
  Variable Ah : list (list (list Z)).
  Hypothesis EA : A_hat hs P n rho = Some Ah.
  Let A := map (map NTTinv) Ah.
  Variable att : list Z -> list Z -> list Z -> attacker.
  Variables N D : nat.
  Hypothesis Hatt : forall ek c K, within N D (att ek c K).
  Variables L LC LX LXC LS LE LY LW : list (list Z).
  Variables LR LK LF LH : list (list (list Z)).
  Hypothesis HL : enumerates 32 L.
  Hypothesis HLC : enumerates (ct_len P) LC.
  Hypothesis HLX : enumerates 96 LX.
  Hypothesis HLXC : enumerates 1120 LXC.
  Hypothesis HLS : enumerates (k * (64 * eta1 P)) LS.
  Hypothesis HLE : enumerates (k * (64 * eta1 P)) LE.
  Hypothesis HLY : enumerates (k * (64 * eta1 P)) LY.
  Hypothesis HLW : enumerates ((k + 1) * (64 * eta2 P)) LW.
  Hypothesis HLR : all_tables L L LR.
  Hypothesis HLK : all_tables L L LK.
  Hypothesis HLF : all_tables LC L LF.
  Hypothesis HLH : all_tables LX L LH.
  Variable r0 : list Z.

  Let pub S E := key_bytes P rho (lwe_samples k k A (cbd_vec (eta1 P) k S) (cbd_vec (eta1 P) k E)).
  Let cipher m S E Y W :=
    let w := lwe_samples k (k + 1) (ct_matrix k A (lwe_samples k k A (cbd_vec (eta1 P) k S) (cbd_vec (eta1 P) k E)))
               (cbd_vec (eta1 P) k Y) (cbd_vec (eta2 P) (k + 1) W) in
    ct_bytes P (firstn k w) (padd (nth k w []) (enc_mu m)).
  Let plain S c := KPKE_Decrypt P (secret_bytes P S) c.
  Let wrong m S E Y W : bool := pke_fails (with_coins hs P r0 Y W) P n (secret_bytes P S) (pub S E) m r0.
  Open Scope Q_scope.
  Let unit := 1 / inject_Z (2 ^ 256).
  Let quest := inject_Z (Z.of_nat (N + D)) * unit.
  Let B := xw_attacker (x25519 X) LX LXC att.

  Lemma B_within real skx ekx TH V ek c K : within (N + D) D (B real skx ekx TH V ek c K).
  Proof. apply wrap_within, Hatt. Qed.
  Lemma unit_pos : 0 <= unit.
  Proof. unfold unit. discriminate. Qed.
  Lemma quest_pos : 0 <= quest.
  Proof. apply Qmult_le_0_compat; [|exact unit_pos]. change 0 with (inject_Z 0). rewrite <- Zle_Qle. lia. Qed.
  Lemma few_questions {T} (key : T -> list Z) l : (length l <= N + D)%nat -> average L (fun x => one_if (points key x l)) <= quest.
  Proof. intros Hl. apply few; assumption. Qed.
  Lemma L_full : L <> [].
  Proof. apply L_nonempty, HL. Qed.
  Lemma xw_range real skx ekx TH V m S E Y W TR d sigma z TK TF sk :
    0 <= xw_game hs X n rho L LC LX LXC att real skx ekx TH V m S E Y W TR d sigma z TK TF sk <= 1.
  Proof.
    unfold xw_game. cbv zeta. destruct (entry L TR m) as [r'|]; [|lra]. destruct (entry L TK m) as [K'|]; [|lra].
    repeat match goal with
    | |- context [match ?x with Ok _ => _ | _ => _ end] => destruct x as [[[? ?] ?]| | |]; try lra
    | |- context [match ?x with Ok _ => _ | _ => _ end] => destruct x as [[? ?]| | |]; try lra
    | |- context [match ?x with Ok _ => _ | _ => _ end] => destruct x as [?| | |]; try lra
    end.
    eapply run_range, Hatt.
  Qed.
  Lemma wrong_plain m S E Y W : byte_string (k * (64 * eta1 P)) Y -> byte_string ((k + 1) * (64 * eta2 P)) W ->
    wrong m S E Y W = false -> plain S (cipher m S E Y W) = m.
  Proof.
    intros HY HW. unfold wrong, pke_fails, pub. unfold A at 1.
    rewrite (encrypt_lwe hs Hhs P HP n rho Ah _ m r0 Y W (proj2 Hrho) (lwe_samples_vec _ _ _ _ _) HY HW EA).
    cbv zeta. fold A k. intros Q. unfold plain, cipher. cbv zeta beta iota in *.
    destruct (list_eq_dec Z.eq_dec (KPKE_Decrypt P (secret_bytes P S) (ct_bytes P _ _)) m) as [G|_] in Q; [exact G|discriminate Q].
  Qed.

  (** the game of X-Wing and that of ML-KEM *)
  Lemma xw_close (real : bool) skx ekx TH V m S E Y W TR d sigma z TK TF :
    byte_string 32 skx -> byte_string 32 ekx -> table LX L TH -> In m L -> In S LS -> In E LE -> In Y LY -> In W LW ->
    table L L TR -> In d L -> In sigma L -> In z L -> table L L TK -> table LC L TF ->
    Qabs (average L (fun sk => xw_game hs X n rho L LC LX LXC att real skx ekx TH V m S E Y W TR d sigma z TK TF sk) -
          average L (fun U => active_game hs P n rho L LC (B real skx ekx TH V) true m S E Y W TR d sigma z TK TF U)) <=
    quest + one_if (wrong m S E Y W) + one_if (if list_eq_dec Z.eq_dec (get L TR m) sigma then true else false).
  Proof.
    intros Hskx Hekx HTH Hm HS HE HY HW HTR Hd Hs Hz HTK HTF.
    apply HLS in HS. apply HLE in HE. apply HLY in HY. apply HLW in HW. apply HL in Hd. apply HL in Hs. apply HL in Hz.
    set (G := fun U => active_game hs P n rho L LC (B real skx ekx TH V) true m S E Y W TR d sigma z TK TF U).
    set (F := fun sk => xw_game hs X n rho L LC LX LXC att real skx ekx TH V m S E Y W TR d sigma z TK TF sk).
    assert (RF : forall sk, 0 <= F sk <= 1) by (intros; apply xw_range).
    assert (RG : forall U, 0 <= G U <= 1) by (intros; eapply game_range_active; intros; apply B_within).
    assert (B1 : Qabs (average L F - average L G) <= average L (fun _ => 1)).
    { apply average_close. intros x _. specialize (RF x). specialize (RG x). apply Qabs_Qle_condition. split; lra. }
    rewrite (average_const L 1 L_full) in B1.
    pose proof quest_pos as Q0. pose proof (one_if_range (wrong m S E Y W)) as Q1.
    destruct (list_eq_dec Z.eq_dec (get L TR m) sigma) as [_|Hne].
    { change (one_if true) with 1. lra. }
    change (one_if false) with 0. 
    destruct (wrong m S E Y W) eqn:Ew.
    { change (one_if true) with 1 in *. lra. }
    change (one_if false) with 0 in *. clear B1 RF RG.
    pose proof (wrong_plain m S E Y W HY HW Ew) as Hp.
    set (h2 := active_world hs P L LC rho d sigma (get L TR m) z S E Y W (sha3_256 hs (pub S E)) TK TR TF).
    set (pkx := x25519 X skx X25519_BASE). set (cx0 := x25519 X ekx X25519_BASE). set (c0 := cipher m S E Y W) in *.
    set (shown := if real then get LX TH (x25519 X ekx pkx ++ cx0 ++ pkx) else V).
    set (a := att (pub S E ++ pkx) (c0 ++ cx0) shown).
    set (w := wrap (x25519 X) LX TH LXC (lookup LX TH (get L TK m)) skx pkx c0 cx0 a).
    assert (Hrr : byte_string 32 (get L TR m)) by (apply HL, (get_in L L TR m HTR Hm)).
    destruct (active_view hs Hhs P HP n rho Hrho Ah EA (B real skx ekx TH V) L LC HL HLC S E Y W d sigma z (get L TR m)
      HS HE HY HW Hd Hs Hz Hrr TK TR TF HTK HTR HTF true m [] Hm eq_refl Hne) as (dec & V1 & V2).
    assert (EG : forall U, G U = run h2 dec w).
    { intros U. transitivity (G []); [|exact V1]. unfold G.
      destruct (game_form hs P n rho L LC m S E Y W TR d sigma z TK TF) as [Z0|(? & ? & ? & ? & ? & Z0)]; rewrite !Z0; reflexivity. }
    assert (EF : forall sk, In sk L -> points snd sk (asked h2 dec w) = false -> F sk = run h2 dec w).
    { intros sk Hsk Q. apply HL in Hsk.
      destruct (xw_view hs Hhs X HX HXpub n rho Hrho Ah EA att L LC LX LXC HL HLC HLX HLXC S E Y W d sigma z HS HE HY HW Hd Hs Hz
        TK TR TF TH HTK HTR HTF HTH m Hm Hne sk skx ekx Hsk Hskx Hekx real V) as (own & W1 & W2).
      unfold F. rewrite W1.
      eapply (wrap_simulates hs Hhs X HX n rho Hrho Ah EA L LC LX LXC HL HLC HLX HLXC S E Y W d sigma z); try eassumption. }
    eapply Qle_trans; [apply (average_close L F G (fun sk => one_if (points snd sk (asked h2 dec w))))|].
    - intros sk Hsk. rewrite EG. destruct (points snd sk (asked h2 dec w)) eqn:Ep.
      + assert (R1 : 0 <= F sk <= 1) by apply xw_range.
        assert (R2 : 0 <= run h2 dec w <= 1) by (eapply run_range, B_within with (K := get L TK m)).
        change (one_if true) with 1. apply Qabs_Qle_condition. split; lra.
      + rewrite (EF sk Hsk Ep). setoid_replace (run h2 dec w - run h2 dec w) with 0 by ring. apply Qle_refl.
    - pose proof (few_questions (@snd hash_name (list Z)) (asked h2 dec w)) as FQ.
      rewrite !Qplus_0_r. apply FQ. eapply asked_length. apply B_within with (K := get L TK m).
  Qed.

  Lemma close_const {T} (M : list T) f g c : 0 <= c -> (forall x, In x M -> Qabs (f x - g x) <= c) -> Qabs (average M f - average M g) <= c.
  Proof. intros Hc H. eapply Qle_trans; [apply (average_close M f g (fun _ => c)), H|]. apply average_bound; [exact Hc|]. intros. apply Qle_refl. Qed.

  Let failure := average L (fun m => average LS (fun S => average LE (fun E => average LY (fun Y => average LW (fun W => one_if (wrong m S E Y W)))))).
  Let inner real skx ekx TH V :=
    average L (fun m =>
    average LS (fun S => average LE (fun E => average LY (fun Y => average LW (fun W =>
    average LR (fun TR => average L (fun d => average L (fun sigma => average L (fun z =>
    average LK (fun TK => average LF (fun TF => average L (fun sk =>
      xw_game hs X n rho L LC LX LXC att real skx ekx TH V m S E Y W TR d sigma z TK TF sk)))))))))))).
  Let kem att' real := active_experiment hs P n rho att' L LC LS LE LY LW LR LK LF real.

  Lemma xw_average real skx ekx TH V : byte_string 32 skx -> byte_string 32 ekx -> table LX L TH ->
    Qabs (inner real skx ekx TH V - kem (B real skx ekx TH V) true) <= quest + failure + unit.
  Proof.
    intros Hskx Hekx HTH. unfold inner, kem, active_experiment.
    assert (SH : forall T (M : list T) f a b, M <> [] -> average M (fun x => a + f x + b) == a + average M f + b).
    { intros T M f a b NM. rewrite !average_plus, !(average_const M _ NM). reflexivity. }
    apply Qle_trans with (average L (fun m => average LS (fun S => average LE (fun E => average LY (fun Y => average LW (fun W =>
      quest + one_if (wrong m S E Y W) + unit)))))).
    - apply average_close. intros m Hm. apply average_close. intros S HS. apply average_close. intros E HE.
      apply average_close. intros Y HY. apply average_close. intros W HW.
      pose proof quest_pos as Q0. pose proof unit_pos as Q2. pose proof (one_if_range (wrong m S E Y W)) as Q1.
      apply close_const; [lra|]. intros TR HTR. apply close_const; [lra|]. intros d Hd. apply HLR in HTR.
      apply Qle_trans with (average L (fun sigma => quest + one_if (wrong m S E Y W) + one_if (if list_eq_dec Z.eq_dec (get L TR m) sigma then true else false))).
      + apply average_close. intros sigma Hs. 
        pose proof (one_if_range (if list_eq_dec Z.eq_dec (get L TR m) sigma then true else false)) as Q3.
        apply close_const; [lra|]. intros z Hz. apply close_const; [lra|]. intros TK HTK. apply close_const; [lra|]. intros TF HTF.
        apply HLK in HTK. apply HLF in HTF. apply xw_close; assumption.
      + rewrite average_plus, (average_const L _ L_full). pose proof (same_string L HL (get L TR m)) as SS. fold unit in SS. lra.
    - apply Qle_lteq. right. unfold failure.
      rewrite <- SH by exact L_full. apply average_ext. intros m _.
      rewrite <- SH by (eapply nonempty_enum; eassumption). apply average_ext. intros S _.
      rewrite <- SH by (eapply nonempty_enum; eassumption). apply average_ext. intros E _.
      rewrite <- SH by (eapply nonempty_enum; eassumption). apply average_ext. intros Y _.
      rewrite <- SH by (eapply nonempty_enum; eassumption). reflexivity.
  Qed.

  (** with a random string instead of K, the tables are no longer needed *)
  Let B0 (real : bool) skx ekx TH V (ek c _ : list Z) :=
    let pkx := x25519 X skx X25519_BASE in
    let cx := x25519 X ekx X25519_BASE in
    wrap (x25519 X) LX TH LXC (fun _ => None) skx pkx c cx
      (att (ek ++ pkx) (c ++ cx) (if real then get LX TH (x25519 X ekx pkx ++ cx ++ pkx) else V)).
  Lemma none_close real skx ekx TH V : Qabs (kem (B real skx ekx TH V) false - kem (B0 real skx ekx TH V) false) <= quest.
  Proof.
    unfold kem, active_experiment. pose proof quest_pos as Q0.
    do 11 (apply close_const; [exact Q0|]; intros ? _).
    match goal with |- Qabs (average L (fun U => active_game _ _ _ _ _ _ _ _ ?m ?S ?E ?Y ?W ?TR ?d ?sigma ?z ?TK ?TF U) - _) <= _ =>
      destruct (game_form hs P n rho L LC m S E Y W TR d sigma z TK TF) as [Z0|(h & dec & ek & c & K & Z0)] end.
    - apply close_const; [exact Q0|]. intros U _. rewrite !Z0. exact Q0.
    - set (w := B0 real skx ekx TH V ek c []).
      eapply Qle_trans; [apply (average_close L _ _ (fun U => one_if (points shown_K U (asked h dec w))))|].
      + intros U _. rewrite !Z0. change (B0 real skx ekx TH V ek c U) with w.
        destruct (points shown_K U (asked h dec w)) eqn:Ep.
        * assert (R1 : 0 <= run h dec (B real skx ekx TH V ek c U) <= 1) by (eapply run_range, B_within).
          assert (R2 : 0 <= run h dec w <= 1) by (eapply run_range, wrap_within, Hatt).
          change (one_if true) with 1. apply Qabs_Qle_condition. split; lra.
        * assert (EE : run h dec (B real skx ekx TH V ek c U) = run h dec w) by (apply wrap_none; exact Ep).
          rewrite EE. setoid_replace (run h dec w - run h dec w) with 0 by ring. apply Qle_refl.
      + apply few_questions. eapply asked_length, wrap_within, Hatt.
  Qed.
  Lemma kem_ext att1 att2 real : (forall h dec ek c K, run h dec (att1 ek c K) = run h dec (att2 ek c K)) -> kem att1 real == kem att2 real.
  Proof.
    intros H. unfold kem, active_experiment. do 12 (apply average_ext; intros ? _).
    match goal with |- active_game _ _ _ _ _ _ _ _ ?m ?S ?E ?Y ?W ?TR ?d ?sigma ?z ?TK ?TF _ == _ =>
      destruct (game_form hs P n rho L LC m S E Y W TR d sigma z TK TF) as [Z0|(h & dec & ek & c & K & Z0)]; rewrite !Z0 end.
    - reflexivity.
    - rewrite H. reflexivity.
  Qed.
  Lemma shown_random skx ekx : byte_string 32 skx -> byte_string 32 ekx ->
    average LH (fun TH => average L (fun V => kem (B0 true skx ekx TH V) false)) ==
    average LH (fun TH => average L (fun V => kem (B0 false skx ekx TH V) false)).
  Proof.
    intros Hskx Hekx.
    set (pkx := x25519 X skx X25519_BASE). set (cx := x25519 X ekx X25519_BASE).
    set (rest := x25519 X ekx pkx ++ cx ++ pkx).
    assert (Hpkx : byte_string 32 pkx) by (apply HX; [exact Hskx|exact base_ok]).
    assert (Hcx : byte_string 32 cx) by (apply HX; [exact Hekx|exact base_ok]).
    assert (Hss : byte_string 32 (x25519 X ekx pkx)) by (apply HX; assumption).
    assert (Ir : In rest LX).
    { apply HLX. apply (byte_string_app 32 64); [exact Hss|]. apply (byte_string_app 32 32); assumption. }
    transitivity (average LH (fun TH => kem (B0 true skx ekx TH []) false)).
    { apply average_ext. intros TH _. transitivity (average L (fun _ => kem (B0 true skx ekx TH []) false)).
      - apply average_ext. intros V _. reflexivity.
      - apply average_const, L_full. }
    rewrite (resample LX L LH (proj1 HLX) (proj1 HL) L_full HLH rest) by exact Ir.
    apply average_ext. intros TH HTH. apply HLH in HTH. apply average_ext. intros v _. apply kem_ext. intros h dec ek c K.
    unfold B0. cbv zeta. fold pkx cx rest. rewrite get_updated by exact Ir.
    unfold rest. apply (wrap_update (x25519 X) LX LXC h dec TH v skx pkx c cx (x25519 X ekx pkx) _ L); assumption.
  Qed.
  Lemma random_K skx ekx : byte_string 32 skx -> byte_string 32 ekx ->
    Qabs (average LH (fun TH => average L (fun V => kem (B true skx ekx TH V) false)) -
          average LH (fun TH => average L (fun V => kem (B false skx ekx TH V) false))) <= 2 * quest.
  Proof.
    intros Hskx Hekx. pose proof (shown_random skx ekx Hskx Hekx) as E.
    assert (C : forall real, Qabs (average LH (fun TH => average L (fun V => kem (B real skx ekx TH V) false)) -
      average LH (fun TH => average L (fun V => kem (B0 real skx ekx TH V) false))) <= quest).
    { intros real. do 2 (apply close_const; [exact quest_pos|]; intros ? _). apply none_close. }
    pose proof (C true) as C1. pose proof (C false) as C0. clear C. rewrite E in C1. clear E.
    set (f1 := average LH (fun TH => average L (fun V => kem (B true skx ekx TH V) false))) in *.
    set (f0 := average LH (fun TH => average L (fun V => kem (B false skx ekx TH V) false))) in *.
    set (g := average LH (fun TH => average L (fun V => kem (B0 false skx ekx TH V) false))) in *.
    clearbody f1 f0 g. apply Qabs_Qle_condition in C1. apply Qabs_Qle_condition in C0. apply Qabs_Qle_condition. split; lra.
  Qed.

  Let adv real skx ekx TH V := Qabs (kem (B real skx ekx TH V) true - kem (B real skx ekx TH V) false).
  Lemma xw_pair skx ekx : byte_string 32 skx -> byte_string 32 ekx ->
    Qabs (average LH (fun TH => average L (fun V => inner true skx ekx TH V)) -
          average LH (fun TH => average L (fun V => inner false skx ekx TH V))) <=
    average LH (fun TH => average L (fun V => adv true skx ekx TH V + adv false skx ekx TH V)) +
    (4 * quest + 2 * failure + 2 * unit).
  Proof.
    intros Hskx Hekx. set (c := 4 * quest + 2 * failure + 2 * unit).
    pose proof (random_K skx ekx Hskx Hekx) as RK.
    assert (F0 : 0 <= failure).
    { unfold failure. do 5 (match goal with |- 0 <= average ?M ?f => rewrite <- (average_const M 0); [apply average_le; intros ? _|] end;
        [|first [exact L_full|eapply nonempty_enum; eassumption]]). apply one_if_range. }
    pose proof quest_pos as Q0. pose proof unit_pos as Q2.
    assert (C1 : forall real, Qabs (average LH (fun TH => average L (fun V => inner real skx ekx TH V)) -
      average LH (fun TH => average L (fun V => kem (B real skx ekx TH V) true))) <= quest + failure + unit).
    { intros real. apply close_const; [lra|]. intros TH HTH. apply HLH in HTH. apply close_const; [lra|]. intros V _.
      apply xw_average; assumption. }
    assert (C2 : forall real, Qabs (average LH (fun TH => average L (fun V => kem (B real skx ekx TH V) true)) -
      average LH (fun TH => average L (fun V => kem (B real skx ekx TH V) false))) <=
      average LH (fun TH => average L (fun V => adv real skx ekx TH V))).
    { intros real. do 2 (apply average_close; intros ? _). apply Qle_refl. }
    assert (EA2 : average LH (fun TH => average L (fun V => adv true skx ekx TH V + adv false skx ekx TH V)) ==
      average LH (fun TH => average L (fun V => adv true skx ekx TH V)) + average LH (fun TH => average L (fun V => adv false skx ekx TH V))).
    { rewrite <- average_plus. apply average_ext. intros TH _. apply average_plus. }
    rewrite EA2. clear EA2.
    pose proof (C1 true) as D1. pose proof (C1 false) as D0. pose proof (C2 true) as D3. pose proof (C2 false) as D2. clear C1 C2.
    set (x1 := average LH (fun TH => average L (fun V => inner true skx ekx TH V))) in *.
    set (x0 := average LH (fun TH => average L (fun V => inner false skx ekx TH V))) in *.
    set (y1 := average LH (fun TH => average L (fun V => kem (B true skx ekx TH V) true))) in *.
    set (y0 := average LH (fun TH => average L (fun V => kem (B false skx ekx TH V) true))) in *.
    set (z1 := average LH (fun TH => average L (fun V => kem (B true skx ekx TH V) false))) in *.
    set (z0 := average LH (fun TH => average L (fun V => kem (B false skx ekx TH V) false))) in *.
    set (a1 := average LH (fun TH => average L (fun V => adv true skx ekx TH V))) in *.
    set (a0 := average LH (fun TH => average L (fun V => adv false skx ekx TH V))) in *.
    unfold c. clearbody x1 x0 y1 y0 z1 z0 a1 a0 failure quest unit. clear - RK D0 D1 D2 D3.
    apply Qabs_Qle_condition in RK. apply Qabs_Qle_condition in D0. apply Qabs_Qle_condition in D1.
    apply Qabs_Qle_condition in D2. apply Qabs_Qle_condition in D3. apply Qabs_Qle_condition. split; lra.
  Qed.
End XwBound.

(** ** The theorems *)

(** An attacker that asks at most N hash questions and D decapsulations, and knows the X25519
    secrets of the key and of the challenge, tells the shared secret from a random string
    with probability at most
      E[adv(true) + adv(false)] + (4 (N + D) + 2) / 2^256 + 2 failure.
    Here adv(b) is the advantage against ML-KEM-768 of an attacker that runs the given one and
    asks at most N + D hash questions and D decapsulations; and failure is the probability
    that the challenge fails to decrypt. *)
Theorem C72_reduction hs X n rho Ah att N D L LC LX LXC LS LE LY LW LR LK LF LH r0 :
  hash_ok hs -> byte_string 32 rho ->
  x25519_ok X ->
  let P := ML_KEM_768 in
  A_hat hs P n rho = Some Ah ->
  (forall skx ekx ek c K, within N D (att skx ekx ek c K)) ->
  enumerates 32 L -> enumerates 1088 LC -> enumerates 96 LX -> enumerates 1120 LXC ->
  enumerates (pk P * (64 * eta1 P)) LS -> enumerates (pk P * (64 * eta1 P)) LE ->
  enumerates (pk P * (64 * eta1 P)) LY -> enumerates ((pk P + 1) * (64 * eta2 P)) LW ->
  all_tables L L LR -> all_tables L L LK -> all_tables LC L LF -> all_tables LX L LH ->
  let A := map (map NTTinv) Ah in
  let ek S E := key_bytes P rho (lwe_samples (pk P) (pk P) A (cbd_vec (eta1 P) (pk P) S) (cbd_vec (eta1 P) (pk P) E)) in
  let failure := average L (fun m => average LS (fun S => average LE (fun E => average LY (fun Y => average LW (fun W =>
    one_if (pke_fails (with_coins hs P r0 Y W) P n (secret_bytes P S) (ek S E) m r0)))))) in
  let B real skx ekx TH V := xw_attacker (x25519 X) LX LXC (att skx ekx) real skx ekx TH V in
  let adv real skx ekx TH V :=
    Qabs (active_experiment hs P n rho (B real skx ekx TH V) L LC LS LE LY LW LR LK LF true -
          active_experiment hs P n rho (B real skx ekx TH V) L LC LS LE LY LW LR LK LF false) in
  (forall real skx ekx TH V ek c K, within (N + D) D (B real skx ekx TH V ek c K)) /\
  (Qabs (xw_experiment hs X n rho att L LC LX LXC LS LE LY LW LR LK LF LH true -
         xw_experiment hs X n rho att L LC LX LXC LS LE LY LW LR LK LF LH false) <=
   average L (fun skx => average L (fun ekx => average LH (fun TH => average L (fun V =>
     adv true skx ekx TH V + adv false skx ekx TH V)))) +
   (4 * inject_Z (Z.of_nat (N + D)) + 2) / inject_Z (2 ^ 256) + 2 * failure)%Q.
Proof.
  intros Hhs Hrho HXX P EA Hatt HL HLC HLX HLXC HLS HLE HLY HLW HLR HLK HLF HLH A ek failure B adv.
  split; [intros; apply wrap_within, Hatt|]. destruct HXX as [HX HXpub].
  set (c := ((4 * inject_Z (Z.of_nat (N + D)) + 2) / inject_Z (2 ^ 256) + 2 * failure)%Q).
  pose proof (L_nonempty L HL) as NL.
  assert (SH : forall f, (average L (fun x => f x + c) == average L f + c)%Q).
  { intros f. rewrite average_plus, (average_const L _ NL). reflexivity. }
  apply Qle_trans with (average L (fun skx => average L (fun ekx => average LH (fun TH => average L (fun V =>
    adv true skx ekx TH V + adv false skx ekx TH V)) + c)))%Q.
  2: { apply Qle_lteq. right. transitivity (average L (fun skx => average L (fun ekx => average LH (fun TH => average L (fun V =>
         adv true skx ekx TH V + adv false skx ekx TH V)))) + c)%Q; [|unfold c; ring].
       rewrite <- SH. apply average_ext. intros skx _. rewrite SH. reflexivity. }
  unfold xw_experiment. apply average_close. intros skx Hskx. apply average_close. intros ekx Hekx.
  apply HL in Hskx. apply HL in Hekx.
  eapply Qle_trans; [exact (xw_pair hs Hhs X HX HXpub n rho Hrho Ah EA (att skx ekx) N D (Hatt skx ekx) L LC LX LXC LS LE LY LW LR LK LF LH
    HL HLC HLX HLXC HLS HLE HLY HLW HLR HLK HLF HLH r0 skx ekx Hskx Hekx)|].
  apply Qplus_le_r. apply Qle_lteq. right. unfold c. 
  match goal with |- (4 * ?u + 2 * ?f + ?v == _)%Q => change f with failure end. clearbody failure. unfold Qdiv. ring.
Qed.

(** The same in terms of module-LWE: with delta as in C71,
      (32 (N + D) + 6) / 2^256 + 4 (N + D) delta + 6 / 2^90 + 2 E[gaps(true) + gaps(false)]. *)
Theorem C72_numbers hs X n rho Ah att N D L LC LX LXC LS LE LY LW LR LK LF LH LT LV r0 delta :
  hash_ok hs -> byte_string 32 rho -> byte_string 32 r0 ->
  x25519_ok X ->
  let P := ML_KEM_768 in
  A_hat hs P n rho = Some Ah ->
  (forall skx ekx ek c K, within N D (att skx ekx ek c K)) ->
  enumerates 32 L -> enumerates 1088 LC -> enumerates 96 LX -> enumerates 1120 LXC ->
  enumerates (pk P * (64 * eta1 P)) LS -> enumerates (pk P * (64 * eta1 P)) LE ->
  enumerates (pk P * (64 * eta1 P)) LY -> enumerates ((pk P + 1) * (64 * eta2 P)) LW ->
  all_tables L L LR -> all_tables L L LK -> all_tables LC L LF -> all_tables LX L LH ->
  all_vectors (pk P) LT -> all_vectors (pk P + 1) LV ->
  let A := map (map NTTinv) Ah in
  let ek S E := key_bytes P rho (lwe_samples (pk P) (pk P) A (cbd_vec (eta1 P) (pk P) S) (cbd_vec (eta1 P) (pk P) E)) in
  (forall S E m, In S LS -> In E LE -> In m L ->
     (average L (fun r => one_if (pke_fails hs P n (secret_bytes P S) (ek S E) m r)) <= delta S E)%Q) ->
  let B real skx ekx TH V := xw_attacker (x25519 X) LX LXC (att skx ekx) real skx ekx TH V in
  let gaps real skx ekx TH V :=
    (lwe_gap (pk P) (pk P) (eta1 P) (eta1 P) A LS LE LT (sim_key_test hs P n rho r0 L LC LY LW LR LF (B real skx ekx TH V)) +
     average LT (fun t => lwe_gap (pk P) (pk P + 1) (eta1 P) (eta2 P) (ct_matrix (pk P) A t)
                            LY LW LV (sim_ct_test hs P n rho L LC LR LF (B real skx ekx TH V) t)))%Q in
  (Qabs (xw_experiment hs X n rho att L LC LX LXC LS LE LY LW LR LK LF LH true -
         xw_experiment hs X n rho att L LC LX LXC LS LE LY LW LR LK LF LH false) <=
   (32 * inject_Z (Z.of_nat (N + D)) + 6) / inject_Z (2 ^ 256) +
   4 * inject_Z (Z.of_nat (N + D)) * average LS (fun S => average LE (fun E => delta S E)) +
   6 / inject_Z (2 ^ 90) +
   2 * average L (fun skx => average L (fun ekx => average LH (fun TH => average L (fun V =>
     gaps true skx ekx TH V + gaps false skx ekx TH V)))))%Q.
Proof.
  intros Hhs Hrho Hr0 HXX P EA Hatt HL HLC HLX HLXC HLS HLE HLY HLW HLR HLK HLF HLH HLT HLV A ek Hdl B gaps.
  assert (HI : In (P, 90) [(ML_KEM_512, 80); (ML_KEM_768, 90); (ML_KEM_1024, 107)]) by (right; left; reflexivity).
  pose proof (C72_reduction hs X n rho Ah att N D L LC LX LXC LS LE LY LW LR LK LF LH r0 Hhs Hrho HXX EA Hatt
    HL HLC HLX HLXC HLS HLE HLY HLW HLR HLK HLF HLH) as [HB R].
  pose proof (C71_failure P 90 HI hs n rho Ah L LS LE LY LW r0 Hhs Hrho Hr0 EA HL HLS HLE HLY HLW) as F.
  cbv zeta in R, F. fold P A in R, F. 
  set (dl := average LS (fun S => average LE (fun E => delta S E))).
  set (b := ((7 * inject_Z (Z.of_nat (N + D)) + 1) / inject_Z (2 ^ 256) + inject_Z (Z.of_nat (N + D)) * dl + 1 / inject_Z (2 ^ 90))%Q).
  assert (M : (average L (fun skx => average L (fun ekx => average LH (fun TH => average L (fun V =>
      Qabs (active_experiment hs P n rho (B true skx ekx TH V) L LC LS LE LY LW LR LK LF true -
            active_experiment hs P n rho (B true skx ekx TH V) L LC LS LE LY LW LR LK LF false) +
      Qabs (active_experiment hs P n rho (B false skx ekx TH V) L LC LS LE LY LW LR LK LF true -
            active_experiment hs P n rho (B false skx ekx TH V) L LC LS LE LY LW LR LK LF false))))) <=
    4 * b + 2 * average L (fun skx => average L (fun ekx => average LH (fun TH => average L (fun V =>
     gaps true skx ekx TH V + gaps false skx ekx TH V)))))%Q).
  { assert (NLH : LH <> []) by exact (tables_nonempty LX L LH (proj1 HL) (L_nonempty L HL) HLH).
    assert (SH : forall T (M : list T) f, M <> [] -> (average M (fun x => 4 * b + 2 * f x) == 4 * b + 2 * average M f)%Q).
    { intros T M f NM. rewrite average_plus, (average_const M _ NM), average_scale. reflexivity. }
    apply Qle_trans with (average L (fun skx => average L (fun ekx => average LH (fun TH => average L (fun V =>
      4 * b + 2 * (gaps true skx ekx TH V + gaps false skx ekx TH V))))))%Q.
    - do 4 (apply average_le; intros ? _).
      match goal with |- (Qabs (active_experiment _ _ _ _ (B true ?skx ?ekx ?TH ?V) _ _ _ _ _ _ _ _ _ _ - _) + _ <= _)%Q =>
        pose proof (fun real => C71_numbers P 90 HI hs n rho Ah (B real skx ekx TH V) (N + D)%nat D L LC LS LE LY LW LR LK LF LT LV r0 delta
          Hhs Hrho Hr0 EA (HB real skx ekx TH V) HL HLC HLS HLE HLY HLW HLR HLK HLF HLT HLV Hdl) as Q end.
      pose proof (Q true) as Q1. pose proof (Q false) as Q2. clear Q. cbv zeta in Q1, Q2. fold dl in Q1, Q2.
      unfold gaps, b, A. 
      eapply Qle_trans; [apply Qplus_le_compat; [exact Q1|exact Q2]|]. apply Qle_lteq. right. ring.
    - apply Qle_lteq. right. rewrite <- SH by exact (L_nonempty L HL). apply average_ext. intros ? _.
      rewrite <- SH by exact (L_nonempty L HL). apply average_ext. intros ? _. rewrite <- SH by exact NLH. apply average_ext. intros ? _.
      rewrite <- SH by exact (L_nonempty L HL). reflexivity. }
  eapply Qle_trans; [exact R|]. eapply Qle_trans; [apply Qplus_le_compat; [apply Qplus_le_compat; [exact M|apply Qle_refl]|apply Qmult_le_l; [reflexivity|exact F]]|].
  apply Qle_lteq. right. unfold b, Qdiv. ring.
Qed.

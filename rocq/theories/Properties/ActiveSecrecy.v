(** C71: an attacker that may have ciphertexts of its choice decapsulated cannot tell the
    shared secret of ML-KEM from a random string, in the random-oracle model, up to MLWE and
    decryption failures.

    As in C70 the hash functions are arbitrary functions [hs] except where the honest parties
    evaluate them on secret inputs.  Since decapsulation evaluates G on m || H(ek) for every
    m, and J on z || c for every c, the answers there are given by random tables. *)
From Coq Require Import List ZArith Lia Bool Arith.
From Verif.Base Require Import Res Oracles.
From Verif.Spec Require Import FIPS203 Domains Noise Counting Random Lwe Attacker Tables.
From Verif.Model Require Import Machine Util Algebra Compress Encode Crypto Sample Param Pke Kem.
From Verif.Proofs Require Import Basics Field Poly CompressProofs NttAlgebra NttProofs EncodeProofs VecEncode SampleProofs CountProofs
  PkeProofs KemProofs Inner Correctness TailProofs FailureProofs FailureAverage FailureNumbers LweProofs AttackerProofs TableProofs.
From Verif.Tests Require Import Toy.
From Verif.Properties Require Import Kem KemCases Correctness Distribution Failure Secrecy KemSecrecy.
From Coq Require Import QArith Qabs Lqa.
Import ListNotations.
Open Scope Z_scope.

(** The hash functions of the game: those of C70's key generation, with G(m || h) =
    TK(m) || TR(m) for all m and J(z || c) = TF(c) for all c. *)
Definition active_world (hs : hashes) (P : params) (L LC : list (list Z)) (rho d sigma r z S E Y W h : list Z)
  (TK TR TF : list (list Z)) : hashes :=
  with_J_table (with_G_table (keys_world hs P rho d sigma r S E Y W) L h TK TR) LC z TF.

(** The owner of the secret key decapsulates every ciphertext but the challenge [c0]. *)
Definition owner (h : hashes) (P : params) (n : nat) (dk : decaps_key) (LC : list (list Z)) (c0 c : list Z) : list Z :=
  if list_eq_dec Z.eq_dec c c0 then []
  else if in_dec (list_eq_dec Z.eq_dec) c LC then match decapsulate h P n dk c with Ok K => K | _ => [] end
  else [].

(** Generate a key pair from d and z, encapsulate with [m], show the attacker the public key,
    the ciphertext, and the shared secret or (if not [real]) the string [U].  The first key
    generation says for which h the answers G(m || h) are random. *)
Definition active_game (hs : hashes) (P : params) (n : nat) (rho : list Z) (L LC : list (list Z))
  (att : list Z -> list Z -> list Z -> attacker) (real : bool)
  (m S E Y W : list Z) (TR : list (list Z)) (d sigma z : list Z) (TK TF : list (list Z)) (U : list Z) : Q :=
  match entry L TR m with
  | None => 0%Q
  | Some r =>
      match kem_generate_deterministic (keys_world hs P rho d sigma r S E Y W) P n d z with
      | Ok (_, ek1) =>
          match encaps_key_as_bytes P ek1 with
          | Ok ekb =>
              let h := active_world hs P L LC rho d sigma r z S E Y W (sha3_256 hs ekb) TK TR TF in
              match kem_generate_deterministic h P n d z with
              | Ok (dk, ek) =>
                  match encaps_key_as_bytes P ek, encapsulate_deterministic h P n ek m with
                  | Ok ekb, Ok (c, key) => run h (owner h P n dk LC c) (att ekb c (if real then key else U))
                  | _, _ => 0%Q
                  end
              | _ => 0%Q
              end
          | _ => 0%Q
          end
      | _ => 0%Q
      end
  end.

(** the probability that the attacker answers 1 *)
Definition active_experiment (hs : hashes) (P : params) (n : nat) (rho : list Z)
  (att : list Z -> list Z -> list Z -> attacker) (L LC LS LE LY LW : list (list Z)) (LR LK LF : list (list (list Z))) (real : bool) : Q :=
  average L (fun m =>
  average LS (fun S => average LE (fun E => average LY (fun Y => average LW (fun W =>
  average LR (fun TR => average L (fun d => average L (fun sigma => average L (fun z =>
  average LK (fun TK => average LF (fun TF => average L (fun U =>
    active_game hs P n rho L LC att real m S E Y W TR d sigma z TK TF U)))))))))))).

(** ** hash functions with tables *)
Lemma with_G_table_ok hs L h TK TR : hash_ok hs -> (forall x, In x L -> byte_string 32 x) ->
  table L L TK -> table L L TR -> hash_ok (with_G_table hs L h TK TR).
Proof.
  intros H HL HK HR m Hm. destruct (H m Hm) as (H1 & H2 & H3 & H4). cbn [with_G_table sha3_256 sha3_512 shake128 shake256].
  split; [exact H1|]. split; [|split; assumption].
  destruct (list_eq_dec Z.eq_dec (skipn 32 m) h); [|exact H2].
  destruct (in_dec (list_eq_dec Z.eq_dec) (firstn 32 m) L) as [I|N].
  - rewrite (entry_get L L TK _ HK I), (entry_get L L TR _ HR I).
    apply (byte_string_app 32 32); apply HL; [apply (get_in L L TK)|apply (get_in L L TR)]; assumption.
  - rewrite entry_none by exact N. exact H2.
Qed.
Lemma with_J_table_ok hs LC L z TF : hash_ok hs -> (forall x, In x L -> byte_string 32 x) ->
  table LC L TF -> hash_ok (with_J_table hs LC z TF).
Proof.
  intros H HL HF m Hm. destruct (H m Hm) as (H1 & H2 & H3 & H4). cbn [with_J_table sha3_256 sha3_512 shake128 shake256].
  split; [exact H1|]. split; [exact H2|]. split; [exact H3|]. intros i.
  destruct (list_eq_dec Z.eq_dec (firstn 32 m) z); [|apply H4].
  destruct (in_dec (list_eq_dec Z.eq_dec) (skipn 32 m) LC) as [I|N].
  - rewrite (entry_get LC L TF _ HF I). destruct (Nat.ltb i 32) eqn:B; [|apply H4]. apply Nat.ltb_lt in B.
    pose proof (HL _ (get_in LC L TF _ HF I)) as [HlK HbK]. unfold bytes in HbK. rewrite Forall_forall in HbK. apply HbK, nth_In. lia.
  - rewrite entry_none by exact N. apply H4.
Qed.

(** encryption depends on few hash values *)
Lemma encrypt_same h h' P n ek m r : (forall i, A_hat h P n i = A_hat h' P n i) ->
  (forall eta b, FIPS203.PRF h eta r b = FIPS203.PRF h' eta r b) ->
  KPKE_Encrypt h P n ek m r = KPKE_Encrypt h' P n ek m r.
Proof.
  intros HA HR. unfold KPKE_Encrypt. rewrite HA. destruct (A_hat h' P n _); [|reflexivity].
  assert (HN : forall eta N, noise h P eta r N = noise h' P eta r N).
  { intros eta N. unfold noise. apply tab_ext. intros i _. rewrite HR. reflexivity. }
  rewrite !HN, HR. reflexivity.
Qed.
Lemma run_same_owner hs hs' dec dec' a :
  (forall f x, In (f, x) (asked hs dec a) -> forall len, reply hs' f x len = reply hs f x len) ->
  (forall c, dec' c = dec c) -> run hs' dec' a = run hs dec a.
Proof.
  intros H HD. induction a as [p|f x len next IH|c next IH]; cbn [run asked] in *; [reflexivity| |].
  - rewrite (H f x (or_introl eq_refl) len). apply IH. intros f' x' I. apply H. right. exact I.
  - rewrite HD. apply IH. exact H.
Qed.

Section Active.
  Variable hs : hashes.
  Hypothesis Hhs : hash_ok hs.
  Variable P : params.
  Hypothesis HP : wf_params P.
  Let k := pk P.
  Variable n : nat.
  Variables rho : list Z.
  Hypothesis Hrho : byte_string 32 rho.
  Variable Ah : list (list (list Z)).
  Hypothesis EA : A_hat hs P n rho = Some Ah.
  Let A := map (map NTTinv) Ah.
  Variable att : list Z -> list Z -> list Z -> attacker.
  Variables N D : nat.
  Hypothesis Hatt : forall ek c K, within N D (att ek c K).
  Variables L LC : list (list Z).
  Hypothesis HL : enumerates 32 L.
  Hypothesis HLC : enumerates (ct_len P) LC.

  Let pub S E := key_bytes P rho (lwe_samples k k A (cbd_vec (eta1 P) k S) (cbd_vec (eta1 P) k E)).
  Let cipher m S E Y W :=
    let w := lwe_samples k (k + 1) (ct_matrix k A (lwe_samples k k A (cbd_vec (eta1 P) k S) (cbd_vec (eta1 P) k E)))
               (cbd_vec (eta1 P) k Y) (cbd_vec (eta2 P) (k + 1) W) in
    ct_bytes P (firstn k w) (padd (nth k w []) (enc_mu m)).
  Let sk S := secret_bytes P S.
  Let plain S c := KPKE_Decrypt P (sk S) c.

  Lemma in_L x : In x L -> byte_string 32 x.
  Proof. apply HL. Qed.
  Lemma pub_bytes S E : byte_string (384 * k + 32) (pub S E).
  Proof. apply byte_string_app; [apply encode_vec12_bytes|exact Hrho]. Qed.
  Lemma pub_hash S E : byte_string 32 (sha3_256 hs (pub S E)).
  Proof. apply (Hhs (pub S E)), pub_bytes. Qed.
  Lemma pub_rho S E : skipn (384 * k) (pub S E) = rho.
  Proof. apply skipn_app_exact, encode_vec12_bytes. Qed.

  (** the tapes and tables of one run *)
  Variables S E Y W d sigma z r : list Z.
  Hypothesis HS : byte_string (k * (64 * eta1 P)) S.
  Hypothesis HE : byte_string (k * (64 * eta1 P)) E.
  Hypothesis HY : byte_string (k * (64 * eta1 P)) Y.
  Hypothesis HW : byte_string ((k + 1) * (64 * eta2 P)) W.
  Hypothesis Hd : byte_string 32 d.
  Hypothesis Hs : byte_string 32 sigma.
  Hypothesis Hz : byte_string 32 z.
  Hypothesis Hr : byte_string 32 r.
  Let h1 := keys_world hs P rho d sigma r S E Y W.

  Lemma h1_ok : hash_ok h1.
  Proof.
    apply with_secrets_ok; [|apply bytes_app; [apply HS|apply HE]].
    apply with_coins_ok; [|apply HY|apply HW]. apply with_sha3_512_ok; [exact Hhs|].
    apply (byte_string_app 32 32); assumption.
  Qed.
  Lemma keys_generated : KPKE_KeyGen h1 P n d = Some (pub S E, sk S).
  Proof.
    set (hsA := with_sha3_512 hs (d ++ [Z.of_nat (pk P)]) (rho ++ sigma)).
    assert (HA : hash_ok hsA) by (apply with_sha3_512_ok; [exact Hhs|apply (byte_string_app 32 32); assumption]).
    assert (HB : byte_string (2 * k * (64 * eta1 P)) (S ++ E)).
    { replace (2 * k * (64 * eta1 P))%nat with (k * (64 * eta1 P) + k * (64 * eta1 P))%nat by lia. apply byte_string_app; assumption. }
    assert (EG : FIPS203.G hsA (d ++ [Z.of_nat (pk P)]) = (rho, sigma)).
    { unfold FIPS203.G, hsA. cbn [with_sha3_512 sha3_512].
      destruct (list_eq_dec Z.eq_dec _ _) as [_|X]; [|contradiction].
      rewrite firstn_app_exact, skipn_app_exact by apply Hrho. reflexivity. }
    assert (Es : sigma_of hsA P d = sigma) by (unfold sigma_of; rewrite EG; reflexivity).
    assert (Er : key_rho hsA P d = rho) by (unfold key_rho; rewrite EG; reflexivity).
    pose proof (keygen_lwe hsA HA P HP n d Ah S E (proj2 Hd) HS HE) as X. rewrite Er in X.
    pose proof (X EA) as EK.
    pose proof (keygen_world hsA P d Y W (S ++ E) HB r n) as KW. unfold world in KW.
    change (key_sigma hsA P d) with (sigma_of hsA P d) in KW, EK. rewrite Es in KW, EK.
    change (KPKE_KeyGen (with_secrets (with_coins hsA P r Y W) P sigma (S ++ E)) P n d = Some (pub S E, sk S)).
    rewrite KW. exact EK.
  Qed.
  Lemma challenge m : r <> sigma -> KPKE_Encrypt h1 P n (pub S E) m r = Some (cipher m S E Y W).
  Proof.
    intros Hne. set (hsA := with_sha3_512 hs (d ++ [Z.of_nat (pk P)]) (rho ++ sigma)).
    assert (HA : hash_ok hsA) by (apply with_sha3_512_ok; [exact Hhs|apply (byte_string_app 32 32); assumption]).
    assert (EG : FIPS203.G hsA (d ++ [Z.of_nat (pk P)]) = (rho, sigma)).
    { unfold FIPS203.G, hsA. cbn [with_sha3_512 sha3_512].
      destruct (list_eq_dec Z.eq_dec _ _) as [_|X]; [|contradiction].
      rewrite firstn_app_exact, skipn_app_exact by apply Hrho. reflexivity. }
    assert (Es : sigma_of hsA P d = sigma) by (unfold sigma_of; rewrite EG; reflexivity).
    transitivity (KPKE_Encrypt (with_secrets (with_coins hsA P r Y W) P (sigma_of hsA P d) (S ++ E)) P n (pub S E) m r).
    { rewrite Es. reflexivity. }
    rewrite (encrypt_world hsA P n d r) by (rewrite Es; exact Hne).
    unfold pub. rewrite (encrypt_lwe hsA HA P HP n rho Ah _ m r Y W (proj2 Hrho) (lwe_samples_vec _ _ _ _ _) HY HW EA).
    reflexivity.
  Qed.
  Lemma encrypts h m r' : (forall i, A_hat h P n i = A_hat hs P n i) -> exists c, KPKE_Encrypt h P n (pub S E) m r' = Some c /\ In c LC.
  Proof.
    intros HA. destruct (KPKE_Encrypt h P n (pub S E) m r') as [c|] eqn:X.
    - exists c. split; [reflexivity|]. apply HLC. exact (KPKE_Encrypt_bytes h P n _ _ _ _ X).
    - exfalso. unfold KPKE_Encrypt in X. fold k in X. rewrite pub_rho, HA, EA in X. discriminate X.
  Qed.

  Section Tabled.
    Variables TK TR TF : list (list Z).
    Hypothesis HTK : table L L TK.
    Hypothesis HTR : table L L TR.
    Hypothesis HTF : table LC L TF.
    Let h2 := active_world hs P L LC rho d sigma r z S E Y W (sha3_256 hs (pub S E)) TK TR TF.
    (** the ciphertext of a message *)
    Definition ct_of m := match KPKE_Encrypt h1 P n (pub S E) m (get L TR m) with Some c => c | None => [] end.

    Lemma h2_ok : hash_ok h2.
    Proof.
      apply (with_J_table_ok _ LC L); [|exact in_L|exact HTF]. apply with_G_table_ok; [exact h1_ok|exact in_L|exact HTK|exact HTR].
    Qed.
    Lemma short_not_ct b : ~ In [b] LC.
    Proof.
      intros I. apply HLC in I. destruct I as [X _]. unfold ct_len in X. cbn [length] in X. lia.
    Qed.
    Lemma PRF_tables eta s b : length s = 32%nat -> FIPS203.PRF h2 eta s b = FIPS203.PRF h1 eta s b.
    Proof.
      intros Ls. unfold FIPS203.PRF, prefix. apply tab_ext. intros i _.
      unfold h2, active_world. cbn [with_J_table with_G_table shake256].
      rewrite firstn_app_exact, skipn_app_exact by exact Ls. rewrite (entry_none LC) by apply short_not_ct.
      destruct (list_eq_dec Z.eq_dec s z); reflexivity.
    Qed.
    Lemma encrypt_tables m r' : length r' = 32%nat -> KPKE_Encrypt h2 P n (pub S E) m r' = KPKE_Encrypt h1 P n (pub S E) m r'.
    Proof. intros X. apply encrypt_same; [reflexivity|]. intros. apply PRF_tables, X. Qed.
    Lemma ct_of_ok m : KPKE_Encrypt h1 P n (pub S E) m (get L TR m) = Some (ct_of m) /\ In (ct_of m) LC.
    Proof.
      unfold ct_of. destruct (encrypts h1 m (get L TR m)) as (c & E1 & I); [reflexivity|].
      rewrite E1. split; [reflexivity|exact I].
    Qed.
    Lemma G_tables m : In m L -> FIPS203.G h2 (m ++ sha3_256 hs (pub S E)) = (get L TK m, get L TR m).
    Proof.
      intros I. pose proof (in_L m I) as [Hl _]. unfold FIPS203.G, h2, active_world. cbn [with_J_table with_G_table sha3_512].
      rewrite skipn_app_exact, firstn_app_exact by exact Hl.
      destruct (list_eq_dec Z.eq_dec _ _) as [_|X]; [|contradiction].
      rewrite (entry_get L L TK _ HTK I), (entry_get L L TR _ HTR I).
      rewrite firstn_app_exact, skipn_app_exact by apply (in_L _ (get_in L L TK m HTK I)). reflexivity.
    Qed.
    Lemma J_tables c : In c LC -> FIPS203.J h2 (z ++ c) = get LC TF c.
    Proof.
      intros I. unfold FIPS203.J, prefix, h2, active_world. cbn [with_J_table shake256].
      pose proof (in_L _ (get_in LC L TF c HTF I)) as [Hl _].
      apply (list_ext _ 0).
      - rewrite tab_length, Hl. reflexivity.
      - intros i Hi. rewrite tab_length in Hi. rewrite nth_tab by exact Hi.
        rewrite firstn_app_exact, skipn_app_exact by apply Hz.
        destruct (list_eq_dec Z.eq_dec z z) as [_|X]; [|contradiction].
        rewrite (entry_get LC L TF c HTF I). rewrite (proj2 (Nat.ltb_lt i 32) Hi). reflexivity.
    Qed.
    Lemma keys_tables : KPKE_KeyGen h2 P n d = Some (pub S E, sk S).
    Proof.
      rewrite <- keys_generated. unfold KPKE_KeyGen.
      assert (EG : FIPS203.G h2 (d ++ [Z.of_nat (pk P)]) = FIPS203.G h1 (d ++ [Z.of_nat (pk P)])).
      { unfold FIPS203.G, h2, active_world. cbn [with_J_table with_G_table sha3_512].
        rewrite skipn_app_exact by apply Hd.
        destruct (list_eq_dec Z.eq_dec [Z.of_nat (pk P)] (sha3_256 hs (pub S E))) as [X|_]; [|reflexivity].
        pose proof (pub_hash S E) as [X' _]. rewrite <- X in X'. discriminate X'. }
      assert (Hb : bytes (d ++ [Z.of_nat (pk P)])).
      { apply bytes_app; [apply Hd|]. apply bytes_cons; [|apply bytes_nil].
        pose proof (k_range P HP). unfold is_byte. lia. }
      destruct (G_bytes h1 h1_ok _ Hb) as [_ [Hsig _]].
      rewrite EG. destruct (FIPS203.G h1 (d ++ [Z.of_nat (pk P)])) as [rho' sigma']. cbn [snd] in Hsig.
      change (A_hat h2 P n rho') with (A_hat h1 P n rho').
      assert (HN : forall eta N0, noise h2 P eta sigma' N0 = noise h1 P eta sigma' N0).
      { intros eta N0. unfold noise. apply tab_ext. intros i _. rewrite PRF_tables by exact Hsig. reflexivity. }
      rewrite !HN. reflexivity.
    Qed.
    (** the key pair of the game *)
    Lemma key_pair : exists dk, kem_generate_deterministic h2 P n d z = Ok (dk, dk_ek dk) /\ valid_decaps_key P dk /\
      dkey_bytes P dk = sk S ++ pub S E ++ sha3_256 hs (pub S E) ++ z /\ ekey_bytes P (dk_ek dk) = pub S E /\
      ek_h (dk_ek dk) = sha3_256 hs (pub S E).
    Proof.
      pose proof (generate_ok h2 h2_ok P HP n d z (proj2 Hd) Hz) as G. unfold KeyGen_internal in G. rewrite keys_tables in G.
      destruct G as (dk & E1 & V & E0 & E2 & E3 & _). exists dk. repeat split; try assumption; apply V.
    Qed.
    (** what the owner answers *)
    Lemma owner_answer dk c0 c : valid_decaps_key P dk -> dkey_bytes P dk = sk S ++ pub S E ++ sha3_256 hs (pub S E) ++ z ->
      owner h2 P n dk LC c0 c =
      if list_eq_dec Z.eq_dec c c0 then []
      else if in_dec (list_eq_dec Z.eq_dec) c LC then
        (if list_eq_dec Z.eq_dec c (ct_of (plain S c)) then get L TK (plain S c) else get LC TF c)
      else [].
    Proof.
      intros V Eb. unfold owner. destruct (list_eq_dec Z.eq_dec c c0); [reflexivity|].
      destruct (in_dec (list_eq_dec Z.eq_dec) c LC) as [I|_]; [|reflexivity].
      pose proof (proj1 (proj2 HLC c) I) as Hc.
      rewrite (decapsulate_ok h2 h2_ok P HP n dk c V Hc). rewrite Eb. unfold Decaps_internal. fold k.
      pose proof (proj1 (encode_vec12_bytes P (map NTT (cbd_vec (eta1 P) (pk P) S)))) as L1. fold k in L1.
      change (encode_vec P 12 (map NTT (cbd_vec (eta1 P) k S))) with (sk S) in L1.
      pose proof (proj1 (pub_bytes S E)) as L2. pose proof (proj1 (pub_hash S E)) as L3.
      set (hh := sha3_256 hs (pub S E)) in *.
      rewrite (firstn_app_exact Z (384 * k)%nat (sk S)) by exact L1.
      rewrite (skipn_app_exact Z (384 * k)%nat (sk S)) by exact L1.
      rewrite (firstn_app_exact Z (384 * k + 32)%nat (pub S E)) by exact L2.
      replace (skipn (768 * k + 32) (sk S ++ pub S E ++ hh ++ z)) with (hh ++ z)
        by (rewrite (app_assoc (sk S)); symmetry; apply skipn_app_exact; rewrite app_length; lia).
      replace (skipn (768 * k + 64) (sk S ++ pub S E ++ hh ++ z)) with z
        by (rewrite (app_assoc (sk S)), (app_assoc (sk S ++ pub S E)); symmetry; apply skipn_app_exact; rewrite !app_length; lia).
      rewrite firstn_app_exact by exact L3.
      fold (plain S c). set (m' := plain S c).
      assert (Hm' : In m' L) by exact (proj2 (proj2 HL m') (KPKE_Decrypt_bytes P (sk S) c)).
      unfold hh. rewrite (G_tables m' Hm').
      rewrite encrypt_tables by apply (in_L _ (get_in L L TR m' HTR Hm')).
      rewrite (proj1 (ct_of_ok m')). rewrite (J_tables c I).
      cbn [lift]. destruct (list_eq_dec Z.eq_dec c (ct_of m')); reflexivity.
    Qed.

    (** what the attacker sees *)
    Lemma active_view real m U : In m L -> get L TR m = r -> r <> sigma -> exists dec,
      active_game hs P n rho L LC att real m S E Y W TR d sigma z TK TF U =
      run h2 dec (att (pub S E) (cipher m S E Y W) (if real then get L TK m else U)) /\
      forall c, dec c =
        if list_eq_dec Z.eq_dec c (cipher m S E Y W) then []
        else if in_dec (list_eq_dec Z.eq_dec) c LC then
          (if list_eq_dec Z.eq_dec c (ct_of (plain S c)) then get L TK (plain S c) else get LC TF c)
        else [].
    Proof.
      intros Hm Em Hne. destruct key_pair as (dk & E1 & V & E0 & E2 & E3).
      exists (owner h2 P n dk LC (cipher m S E Y W)). split; [|intros c; apply owner_answer; assumption].
      unfold active_game. rewrite (entry_get L L TR m HTR Hm), Em. fold h1.
      pose proof (generate_ok h1 h1_ok P HP n d z (proj2 Hd) Hz) as G. unfold KeyGen_internal in G. rewrite keys_generated in G.
      destruct G as (dk1 & F1 & V1 & _ & F2 & _).
      rewrite F1. rewrite (encaps_key_as_bytes_ok P (dk_ek dk1)) by apply V1. rewrite F2. cbv zeta. fold h2.
      rewrite E1. assert (Ve : valid_encaps_key P (dk_ek dk)) by apply V.
      rewrite (encaps_key_as_bytes_ok P (dk_ek dk) Ve), E2.
      rewrite (encapsulate_deterministic_ok _ h2_ok P HP n (dk_ek dk) m Ve (in_L m Hm)).
      unfold Encaps_with. rewrite E2, E3, (G_tables m Hm), Em.
      rewrite encrypt_tables by apply Hr. rewrite challenge by exact Hne. reflexivity.
    Qed.
  End Tabled.

  (** ** the simulation *)
  Open Scope Q_scope.
  Let start (p : hash_name * list Z) := firstn 32 (snd p).
  Let coins TR (p : hash_name * list Z) := get L TR (firstn 32 (snd p)).
  Let fails := pke_fails hs P n (sk S) (pub S E).
  Let simulated m X TR TF := run (sim_hashes hs P n (pub S E) L LC TR TF) (sim_decaps LC TF (cipher m S E Y W)) (att (pub S E) (cipher m S E Y W) X).
  Let questions m X TR TF := sim_asked hs P n L LC TR TF att X (pub S E) (cipher m S E Y W).
  Let known m X TR TF : Q :=
    sim_finds hs P n L LC TR TF att m X (pub S E) (cipher m S E Y W) +
    one_if (existsb (failing hs (pub S E) L fails TR) (questions m X TR TF)) +
    one_if (if list_eq_dec Z.eq_dec (plain S (cipher m S E Y W)) m then false else true).
  Let guessed TR l : Q :=
    one_if (points start d l) + one_if (points start sigma l) + one_if (points start z l) + one_if (points start r l) +
    one_if (points (coins TR) sigma l) + one_if (points (coins TR) r l) +
    one_if (if list_eq_dec Z.eq_dec sigma r then true else false).

  Lemma game_range_active real m TR TK TF U : 0 <= active_game hs P n rho L LC att real m S E Y W TR d sigma z TK TF U <= 1.
  Proof.
    unfold active_game. cbv zeta. destruct (entry L TR m) as [r'|]; [|lra].
    repeat match goal with
    | |- context [match ?x with Ok _ => _ | _ => _ end] => destruct x as [[? ?]| | |]; try lra
    | |- context [match ?x with Ok _ => _ | _ => _ end] => destruct x as [?| | |]; try lra
    end.
    eapply run_range, Hatt.
  Qed.
  Lemma pointed {T} (key : T -> list Z) l p s : In p l -> key p = s -> points key s l = true.
  Proof.
    intros I F. apply existsb_exists. exists p. split; [exact I|].
    destruct (list_eq_dec Z.eq_dec (key p) s); [reflexivity|contradiction].
  Qed.

  Lemma active_close (real : bool) m U K TR TK TF : In m L -> In K L -> table L L TR -> table L L TK -> table LC L TF ->
    let TR1 := update L TR m r in
    let TF1 := if real then update LC TF (cipher m S E Y W) K else TF in
    let X := if real then K else U in
    Qabs (active_game hs P n rho L LC att real m S E Y W TR1 d sigma z
            (swapK L LC (ct_of TR1) (plain S) TK TF1) (swapF L LC (ct_of TR1) (plain S) TK TF1) U
          - simulated m X TR TF) <=
    known m X TR TF + guessed TR (questions m X TR TF).
  Proof.
    intros Hm HK HTR HTK HTF TR1 TF1 X.
    assert (Hr' : In r L) by (apply (proj2 HL); exact Hr).
    set (c0 := cipher m S E Y W) in *.
    set (ct := ct_of TR1) in *. set (dec := plain S) in *.
    set (game := active_game _ _ _ _ _ _ _ _ _ _ _ _ _ _ _ _ _ _ _ _).
    assert (R1 : 0 <= game <= 1) by apply game_range_active.
    assert (R2 : 0 <= simulated m X TR TF <= 1) by (eapply run_range, Hatt).
    set (sv := simulated m X TR TF) in *.
    assert (B : Qabs (game - sv) <= 1) by (apply Qabs_Qle_condition; split; lra).
    set (l := questions m X TR TF) in *.
    destruct (asks (sim_hashes hs P n (pub S E) L LC TR TF) (sim_decaps LC TF c0) (att (pub S E) c0 X) Sha3_512 (m ++ sha3_256 hs (pub S E))) eqn:B1.
    { eapply Qle_trans; [exact B|]. unfold known, guessed, sim_finds. fold c0. rewrite B1. change (one_if true) with 1. weights. lra. }
    destruct (existsb (failing hs (pub S E) L fails TR) l) eqn:B2.
    { eapply Qle_trans; [exact B|]. unfold known, guessed, sim_finds. fold c0 l. rewrite B2. change (one_if true) with 1. weights. lra. }
    destruct (list_eq_dec Z.eq_dec (dec c0) m) as [E3|N3].
    2: { eapply Qle_trans; [exact B|]. unfold known, guessed, sim_finds. fold c0.
         destruct (list_eq_dec Z.eq_dec (dec c0) m) as [E3|_]; [contradiction|]. change (one_if true) with 1. weights. lra. }
    destruct (points start d l) eqn:B4.
    { eapply Qle_trans; [exact B|]. unfold known, guessed, sim_finds. rewrite B4. change (one_if true) with 1. weights. lra. }
    destruct (points start sigma l) eqn:B5.
    { eapply Qle_trans; [exact B|]. unfold known, guessed, sim_finds. rewrite B5. change (one_if true) with 1. weights. lra. }
    destruct (points start z l) eqn:B6.
    { eapply Qle_trans; [exact B|]. unfold known, guessed, sim_finds. rewrite B6. change (one_if true) with 1. weights. lra. }
    destruct (points start r l) eqn:B7.
    { eapply Qle_trans; [exact B|]. unfold known, guessed, sim_finds. rewrite B7. change (one_if true) with 1. weights. lra. }
    destruct (points (coins TR) sigma l) eqn:B8.
    { eapply Qle_trans; [exact B|]. unfold known, guessed, sim_finds. rewrite B8. change (one_if true) with 1. weights. lra. }
    destruct (points (coins TR) r l) eqn:B9.
    { eapply Qle_trans; [exact B|]. unfold known, guessed, sim_finds. rewrite B9. change (one_if true) with 1. weights. lra. }
    destruct (list_eq_dec Z.eq_dec sigma r) as [E10|N10].
    { eapply Qle_trans; [exact B|]. unfold known, guessed, sim_finds.
      destruct (list_eq_dec Z.eq_dec sigma r) as [_|X10]; [|contradiction]. change (one_if true) with 1. weights. lra. }
    clear B R1 R2.
    assert (Hne : r <> sigma) by (intros Q; apply N10; symmetry; exact Q).
    assert (HTR1 : table L L TR1) by (apply update_table; assumption).
    assert (HTF1 : table LC L TF1) by (unfold TF1; destruct real; [apply update_table; assumption|exact HTF]).
    assert (Em : get L TR1 m = r) by (apply get_updated, Hm).
    assert (Ct : forall m', In m' L -> In (ct m') LC) by (intros m' _; apply ct_of_ok).
    assert (Dt : forall c, In c LC -> In (dec c) L) by (intros c _; exact (proj2 (proj2 HL _) (KPKE_Decrypt_bytes P (sk S) c))).
    assert (Ect : ct m = c0).
    { pose proof (proj1 (ct_of_ok TR1 m)) as Q. fold ct in Q. rewrite Em, (challenge m Hne) in Q. injection Q as Q. symmetry. exact Q. }
    assert (Ic0 : In c0 LC) by (rewrite <- Ect; apply Ct, Hm).
    set (TK2 := swapK L LC ct dec TK TF1) in *. set (TF2 := swapF L LC ct dec TK TF1) in *.
    assert (HTK2 : table L L TK2) by (apply swapK_table; assumption).
    assert (HTF2 : table LC L TF2) by (apply swapF_table; assumption).
    assert (EX : (if real then get L TK2 m else U) = X).
    { unfold X. destruct real; [|reflexivity]. unfold TK2. rewrite get_swapK by assumption. rewrite Ect.
      destruct (list_eq_dec Z.eq_dec (dec c0) m) as [_|Q]; [|contradiction]. apply get_updated, Ic0. }
    assert (other : forall c, In c LC -> c <> c0 -> get LC TF1 c = get LC TF c).
    { intros c Ic Nc. unfold TF1. destruct real; [apply get_other; assumption|reflexivity]. }
    destruct (active_view TK2 TR1 TF2 HTK2 HTR1 HTF2 real m U Hm Em Hne) as (own & V1 & V2).
    unfold game. rewrite V1, EX. fold c0. clear game V1.
    assert (ER : run (active_world hs P L LC rho d sigma r z S E Y W (sha3_256 hs (pub S E)) TK2 TR1 TF2) own (att (pub S E) c0 X) = sv).
    { apply run_same_owner.
      - intros f x I len. change (In (f, x) l) in I.
        assert (Y1 : firstn 32 x <> sigma).
        { intros Q. rewrite (pointed start l (f, x) sigma I Q) in B5. discriminate B5. }
        assert (Y2 : firstn 32 x <> r).
        { intros Q. rewrite (pointed start l (f, x) r I Q) in B7. discriminate B7. }
        destruct f; cbn [reply]; [reflexivity| |reflexivity|].
        + assert (D1 : x <> d ++ [Z.of_nat (pk P)]).
          { intros Q. rewrite (pointed start l (Sha3_512, x) d I) in B4; [discriminate B4|].
            unfold start. cbn [snd]. rewrite Q. apply firstn_app_exact, Hd. }
          assert (K1 : sha3_512 (keys_world hs P rho d sigma r S E Y W) x = sha3_512 hs x).
          { cbn [keys_world with_sha3_512 with_secrets with_coins sha3_512].
            destruct (list_eq_dec Z.eq_dec x (d ++ [Z.of_nat (pk P)])); [contradiction|reflexivity]. }
          unfold active_world. cbn [with_J_table with_G_table sim_hashes sha3_512]. rewrite K1.
          destruct (list_eq_dec Z.eq_dec (skipn 32 x) (sha3_256 hs (pub S E))) as [Eh|_]; [|reflexivity].
          destruct (in_dec (list_eq_dec Z.eq_dec) (firstn 32 x) L) as [Im|Nm].
          2: { unfold table_ct. rewrite !(entry_none L) by exact Nm. reflexivity. }
          set (m' := firstn 32 x) in *.
          assert (Nm' : m' <> m).
          { intros Q. assert (Ex : x = m ++ sha3_256 hs (pub S E)) by (rewrite <- Eh, <- Q; symmetry; apply firstn_skipn).
            rewrite Ex in I. pose proof (asks_in _ _ _ _ _ I) as Qa. fold c0 in Qa. rewrite Qa in B1. discriminate B1. }
          unfold table_ct. rewrite (entry_get L L TK2 m' HTK2 Im), (entry_get L L TR1 m' HTR1 Im), (entry_get L L TR m' HTR Im).
          assert (Er : get L TR1 m' = get L TR m') by (apply get_other; assumption).
          rewrite Er. set (r' := get L TR m') in *.
          assert (Nr : r' <> r).
          { intros Q. rewrite (pointed (coins TR) l (Sha3_512, x) r I Q) in B9. discriminate B9. }
          assert (Ns : r' <> sigma).
          { intros Q. rewrite (pointed (coins TR) l (Sha3_512, x) sigma I Q) in B8. discriminate B8. }
          assert (EE : KPKE_Encrypt h1 P n (pub S E) m' r' = KPKE_Encrypt hs P n (pub S E) m' r').
          { apply encrypt_same; [reflexivity|]. intros eta b. unfold FIPS203.PRF, prefix. apply tab_ext. intros i _.
            unfold h1. cbn [keys_world with_sha3_512 with_secrets with_coins shake256].
            rewrite !answer_other by (intros a _ Q; apply app_inj_tail in Q; destruct Q as [Q _]; contradiction). reflexivity. }
          pose proof (proj1 (ct_of_ok TR1 m')) as Q. fold ct in Q. rewrite Er, EE in Q. rewrite Q.
          assert (Good : dec (ct m') = m').
          { destruct (list_eq_dec Z.eq_dec (dec (ct m')) m') as [G|G]; [exact G|]. exfalso.
            assert (F : existsb (failing hs (pub S E) L fails TR) l = true).
            { apply existsb_exists. exists (Sha3_512, x). split; [exact I|]. unfold failing. cbn [fst snd]. fold m'.
              destruct (list_eq_dec Z.eq_dec (skipn 32 x) (sha3_256 hs (pub S E))) as [_|Q']; [|contradiction].
              rewrite (entry_get L L TR m' HTR Im). fold r'. unfold fails, pke_fails. rewrite Q.
              change (KPKE_Decrypt P (sk S) (ct m')) with (dec (ct m')).
              destruct (list_eq_dec Z.eq_dec (dec (ct m')) m'); [contradiction|reflexivity]. }
            rewrite F in B2. discriminate B2. }
          assert (Nc : ct m' <> c0) by (intros Q'; apply Nm'; rewrite <- Good, Q'; exact E3).
          rewrite (entry_get LC L TF (ct m') HTF (Ct m' Im)).
          unfold TK2. rewrite get_swapK by exact Im.
          destruct (list_eq_dec Z.eq_dec (dec (ct m')) m') as [_|Q']; [|contradiction].
          rewrite other by (try assumption; apply Ct, Im). reflexivity.
        + unfold prefix. apply tab_ext. intros i Hi. unfold active_world. cbn [with_J_table with_G_table sim_hashes shake256].
          destruct (list_eq_dec Z.eq_dec (firstn 32 x) z) as [Q|_].
          { rewrite (pointed start l (Shake256, x) z I Q) in B6. discriminate B6. }
          cbn [keys_world with_sha3_512 with_secrets with_coins shake256].
          assert (Y3 : forall s a, byte_string 32 s -> firstn 32 x <> s -> x <> ask_secrets s a).
          { intros s a [Hl _] Q Q'. apply Q. subst x. apply firstn_app_exact, Hl. }
          rewrite !answer_other by (intros a _; apply Y3; assumption). reflexivity.
      - intros c. rewrite V2. fold c0. unfold sim_decaps. destruct (list_eq_dec Z.eq_dec c c0) as [_|Nc]; [reflexivity|].
        destruct (in_dec (list_eq_dec Z.eq_dec) c LC) as [Ic|Nc'].
        + rewrite (entry_get LC L TF c HTF Ic). rewrite <- (other c Ic Nc).
          apply (swapped L LC ct dec Dt TK TF1 c Ic).
        + rewrite entry_none by exact Nc'. reflexivity. }
    rewrite ER. setoid_replace (sv - sv) with 0 by ring.
    change (Qabs 0) with 0. unfold known, guessed, sim_finds. weights. lra.
  Qed.
End Active.

(** ** averages *)
Section ActiveBound.
  Variable hs : hashes.
  Hypothesis Hhs : hash_ok hs.
  Variable P : params.
  Hypothesis HP : wf_params P.
  Let k := pk P.
  Variable n : nat.
  Variables rho : list Z.
  Hypothesis Hrho : byte_string 32 rho.
  Variable Ah : list (list (list Z)).
  Hypothesis EA : A_hat hs P n rho = Some Ah.
  Let A := map (map NTTinv) Ah.
  Variable att : list Z -> list Z -> list Z -> attacker.
  Variables N D : nat.
  Hypothesis Hatt : forall ek c K, within N D (att ek c K).
  Variables L LC LS LE LY LW : list (list Z).
  Variables LR LK LF LT LV : list (list (list Z)).
  Hypothesis HL : enumerates 32 L.
  Hypothesis HLC : enumerates (ct_len P) LC.
  Hypothesis HLS : enumerates (k * (64 * eta1 P)) LS.
  Hypothesis HLE : enumerates (k * (64 * eta1 P)) LE.
  Hypothesis HLY : enumerates (k * (64 * eta1 P)) LY.
  Hypothesis HLW : enumerates ((k + 1) * (64 * eta2 P)) LW.
  Hypothesis HLR : all_tables L L LR.
  Hypothesis HLK : all_tables L L LK.
  Hypothesis HLF : all_tables LC L LF.
  Hypothesis HLT : all_vectors k LT.
  Hypothesis HLV : all_vectors (k + 1) LV.
  Variable r0 : list Z.

  Let pub S E := key_bytes P rho (lwe_samples k k A (cbd_vec (eta1 P) k S) (cbd_vec (eta1 P) k E)).
  Let cipher m S E Y W :=
    let w := lwe_samples k (k + 1) (ct_matrix k A (lwe_samples k k A (cbd_vec (eta1 P) k S) (cbd_vec (eta1 P) k E)))
               (cbd_vec (eta1 P) k Y) (cbd_vec (eta2 P) (k + 1) W) in
    ct_bytes P (firstn k w) (padd (nth k w []) (enc_mu m)).
  Let plain S c := KPKE_Decrypt P (secret_bytes P S) c.
  Let start (p : hash_name * list Z) := firstn 32 (snd p).
  Let coins TR (p : hash_name * list Z) := get L TR (firstn 32 (snd p)).
  Let fails S E := pke_fails hs P n (secret_bytes P S) (pub S E).
  Let simulated m S E Y W TR TF X := run (sim_hashes hs P n (pub S E) L LC TR TF) (sim_decaps LC TF (cipher m S E Y W)) (att (pub S E) (cipher m S E Y W) X).
  Let questions m S E Y W TR TF X := sim_asked hs P n L LC TR TF att X (pub S E) (cipher m S E Y W).
  Let found m S E Y W TR TF X := sim_finds hs P n L LC TR TF att m X (pub S E) (cipher m S E Y W).
  Let failed m S E Y W TR TF X := one_if (existsb (failing hs (pub S E) L (fails S E) TR) (questions m S E Y W TR TF X)).
  Let wrong m S E Y W := one_if (if list_eq_dec Z.eq_dec (plain S (cipher m S E Y W)) m then false else true).
  Let guessed (TR : list (list Z)) l r d sigma z : Q :=
    one_if (points start d l) + one_if (points start sigma l) + one_if (points start z l) + one_if (points start r l) +
    one_if (points (coins TR) sigma l) + one_if (points (coins TR) r l) +
    one_if (if list_eq_dec Z.eq_dec sigma r then true else false).
  Open Scope Q_scope.
  Let unit := 1 / inject_Z (2 ^ 256).

  Lemma L_nonempty : L <> [].
  Proof. intros Q. pose proof (enumerates_length 32 L HL) as X. rewrite Q in X. discriminate X. Qed.
  Lemma LR_nonempty : LR <> [].
  Proof. exact (tables_nonempty L L LR (proj1 HL) L_nonempty HLR). Qed.
  Lemma LK_nonempty : LK <> [].
  Proof. exact (tables_nonempty L L LK (proj1 HL) L_nonempty HLK). Qed.
  Lemma LF_nonempty : LF <> [].
  Proof. exact (tables_nonempty LC L LF (proj1 HL) L_nonempty HLF). Qed.

  Lemma cipher_in m S E Y W : In (cipher m S E Y W) LC.
  Proof.
    apply (proj2 HLC). unfold cipher. cbv zeta. unfold ct_bytes, ct_len. apply byte_string_app; [apply encode_vec_bytes|apply ByteEncode_bytes].
  Qed.

  (** unused draws, and the hidden ones last *)
  Lemma average_one_of (real : bool) (f : list Z -> Q) :
    average L (fun K => average L (fun U => f (if real then K else U))) == average L f.
  Proof.
    destruct real.
    - apply average_ext. intros K _. apply average_const, L_nonempty.
    - apply average_const, L_nonempty.
  Qed.
  Lemma collapse (real : bool) (h : list (list Z) -> list Z -> list Z -> list Z -> list Z -> list (list Z) -> list Z -> Q) :
    average LR (fun TR => average L (fun r => average L (fun d => average L (fun sigma => average L (fun z =>
      average LK (fun TK => average LF (fun TF => average L (fun K => average L (fun U => h TR r d sigma z TF (if real then K else U)))))))))) ==
    average LR (fun TR => average LF (fun TF => average L (fun X =>
      average L (fun r => average L (fun d => average L (fun sigma => average L (fun z => h TR r d sigma z TF X))))))).
  Proof.
    apply average_ext. intros TR _.
    transitivity (average L (fun r => average L (fun d => average L (fun sigma => average L (fun z =>
      average LF (fun TF => average L (fun X => h TR r d sigma z TF X))))))).
    { apply average_ext. intros r _. apply average_ext. intros d _. apply average_ext. intros sigma _. apply average_ext. intros z _.
      rewrite (average_const LK _ LK_nonempty). apply average_ext. intros TF _.
      exact (average_one_of real (fun X => h TR r d sigma z TF X)). }
    rewrite (average_swap4 L L L L LF). apply average_ext. intros TF _.
    exact (average_swap4 L L L L L (fun r d sigma z X => h TR r d sigma z TF X)).
  Qed.

  Lemma tables_in T : In T LR -> table L L T.
  Proof. apply HLR. Qed.

  (** the game, drawn differently *)
  Lemma redrawn real m S E Y W : In m L -> In S LS -> In E LE -> In Y LY -> In W LW ->
    average LR (fun TR => average L (fun d => average L (fun sigma => average L (fun z =>
      average LK (fun TK => average LF (fun TF => average L (fun U =>
        active_game hs P n rho L LC att real m S E Y W TR d sigma z TK TF U))))))) ==
    average LR (fun TR => average L (fun r => average L (fun d => average L (fun sigma => average L (fun z =>
      average LK (fun TK => average LF (fun TF => average L (fun K => average L (fun U =>
        let TR1 := update L TR m r in
        let TF1 := if real then update LC TF (cipher m S E Y W) K else TF in
        let ct := ct_of hs P n rho Ah L S E Y W d sigma r TR1 in
        active_game hs P n rho L LC att real m S E Y W TR1 d sigma z
          (swapK L LC ct (plain S) TK TF1) (swapF L LC ct (plain S) TK TF1) U))))))))).
  Proof.
    intros Hm HS HE HY HW. apply HLS in HS. apply HLE in HE. apply HLY in HY. apply HLW in HW.
    rewrite (resample L L LR (proj1 HL) (proj1 HL) L_nonempty HLR m) by exact Hm.
    apply average_ext. intros TR HTR. apply average_ext. intros r Hr. apply average_ext. intros d Hd.
    apply average_ext. intros sigma Hs. apply average_ext. intros z Hz. cbv zeta.
    set (TR1 := update L TR m r). set (ct := ct_of hs P n rho Ah L S E Y W d sigma r TR1).
    set (g := fun TK TF => average L (fun U => active_game hs P n rho L LC att real m S E Y W TR1 d sigma z TK TF U)).
    transitivity (average LK (fun TK => average LF (fun TF => g (swapK L LC ct (plain S) TK TF) (swapF L LC ct (plain S) TK TF)))).
    { apply (swap_average L LC L (proj1 HL) (proj1 HLC) ct (plain S)); [| |exact HLK|exact HLF].
      - intros m' _. unfold ct. apply ct_of_ok; assumption.
      - intros c _. exact (proj2 (proj2 HL _) (KPKE_Decrypt_bytes P (secret_bytes P S) c)). }
    apply average_ext. intros TK HTK.
    destruct real.
    - rewrite (resample LC L LF (proj1 HLC) (proj1 HL) L_nonempty HLF (cipher m S E Y W)) by apply cipher_in.
      reflexivity.
    - apply average_ext. intros TF HTF. symmetry. apply average_const, L_nonempty.
  Qed.

  Lemma close_average real m S E Y W : In m L -> In S LS -> In E LE -> In Y LY -> In W LW ->
    Qabs (average LR (fun TR => average L (fun d => average L (fun sigma => average L (fun z =>
            average LK (fun TK => average LF (fun TF => average L (fun U =>
              active_game hs P n rho L LC att real m S E Y W TR d sigma z TK TF U))))))) -
          average LR (fun TR => average LF (fun TF => average L (fun X => simulated m S E Y W TR TF X)))) <=
    average LR (fun TR => average LF (fun TF => average L (fun X =>
      average L (fun r => average L (fun d => average L (fun sigma => average L (fun z =>
        found m S E Y W TR TF X + failed m S E Y W TR TF X + wrong m S E Y W +
        guessed TR (questions m S E Y W TR TF X) r d sigma z))))))).
  Proof.
    intros Hm HS HE HY HW. rewrite (redrawn real m S E Y W Hm HS HE HY HW).
    assert (E1 : average LR (fun TR => average LF (fun TF => average L (fun X => simulated m S E Y W TR TF X))) ==
      average LR (fun TR => average L (fun r => average L (fun d => average L (fun sigma => average L (fun z =>
        average LK (fun TK => average LF (fun TF => average L (fun K => average L (fun U => simulated m S E Y W TR TF (if real then K else U)))))))))) ).
    { symmetry. eapply Qeq_trans; [exact (collapse real (fun TR _ _ _ _ TF X => simulated m S E Y W TR TF X))|].
      do 3 (apply average_ext; intros ? _). rewrite !average_const by exact L_nonempty. reflexivity. }
    rewrite E1. clear E1.
    eapply Qle_trans; [|apply Qle_lteq; right; exact (collapse real (fun TR r d sigma z TF X => found m S E Y W TR TF X + failed m S E Y W TR TF X + wrong m S E Y W +
        guessed TR (questions m S E Y W TR TF X) r d sigma z))].
    apply average_close. intros TR HTR. apply average_close. intros r Hr. apply average_close. intros d Hd.
    apply average_close. intros sigma Hs. apply average_close. intros z Hz. apply average_close. intros TK HTK.
    apply average_close. intros TF HTF. apply average_close. intros K HK. apply average_close. intros U HU. cbv zeta.
    apply HLS in HS. apply HLE in HE. apply HLY in HY. apply HLW in HW. apply HLR in HTR. apply HLK in HTK. apply HLF in HTF.
    apply HL in Hr. apply HL in Hd. apply HL in Hs. apply HL in Hz.
    exact (active_close hs Hhs P HP n rho Hrho Ah EA att N D Hatt L LC HL HLC S E Y W d sigma z r HS HE HY HW Hd Hs Hz Hr
      real m U K TR TK TF Hm HK HTR HTK HTF).
  Qed.

  (** ** the bad events *)
  Lemma few {B} (key : B -> list Z) l : (length l <= N)%nat ->
    average L (fun x => one_if (points key x l)) <= inject_Z (Z.of_nat N) * unit.
  Proof.
    intros Hl. eapply Qle_trans; [apply (average_points key l N L HL Hl)|].
    unfold unit, Qdiv. rewrite Qmult_1_l. apply Qle_refl.
  Qed.
  Lemma same_string sigma : average L (fun r => one_if (if list_eq_dec Z.eq_dec sigma r then true else false)) <= unit.
  Proof.
    unfold average, unit. rewrite (enumerates_length 32 L HL). change (256 ^ Z.of_nat 32)%Z with (2 ^ 256)%Z.
    unfold Qdiv. apply Qmult_le_compat_r; [apply total_one, HL|]. discriminate.
  Qed.
  Lemma average_const_L c : average L (fun _ => c) == c.
  Proof. apply average_const, L_nonempty. Qed.
  Lemma guessed_average TR l b : (length l <= N)%nat ->
    average L (fun r => average L (fun d => average L (fun sigma => average L (fun z => b + guessed TR l r d sigma z)))) <=
    b + (6 * (inject_Z (Z.of_nat N) * unit) + unit).
  Proof.
    intros Hl. set (u := inject_Z (Z.of_nat N) * unit).
    pose proof (few start l Hl) as F1. pose proof (few (coins TR) l Hl) as F2. fold u in F1, F2.
    assert (I1 : forall r d sigma, average L (fun z => b + guessed TR l r d sigma z) <=
      b + u + (one_if (points start d l) + one_if (points start sigma l) + one_if (points start r l) +
       one_if (points (coins TR) sigma l) + one_if (points (coins TR) r l) + one_if (if list_eq_dec Z.eq_dec sigma r then true else false))).
    { intros r d sigma.
      apply Qle_trans with (average L (fun z => (b + (one_if (points start d l) + one_if (points start sigma l) + one_if (points start r l) +
       one_if (points (coins TR) sigma l) + one_if (points (coins TR) r l) + one_if (if list_eq_dec Z.eq_dec sigma r then true else false))) + one_if (points start z l))).
      - apply average_le. intros z _. unfold guessed. lra.
      - rewrite average_plus, average_const_L. lra. }
    assert (I2 : forall r d, average L (fun sigma => average L (fun z => b + guessed TR l r d sigma z)) <=
      b + 3 * u + unit + (one_if (points start d l) + one_if (points start r l) + one_if (points (coins TR) r l))).
    { intros r d. eapply Qle_trans; [apply average_le; intros sigma _; apply I1|].
      apply Qle_trans with (average L (fun sigma => (b + u + (one_if (points start d l) + one_if (points start r l) + one_if (points (coins TR) r l))) +
        (one_if (points start sigma l) + (one_if (points (coins TR) sigma l) + one_if (if list_eq_dec Z.eq_dec r sigma then true else false))))).
      - apply average_le. intros sigma _.
        assert (Q : one_if (if list_eq_dec Z.eq_dec sigma r then true else false) == one_if (if list_eq_dec Z.eq_dec r sigma then true else false)).
        { destruct (list_eq_dec Z.eq_dec sigma r), (list_eq_dec Z.eq_dec r sigma); try reflexivity; congruence. }
        rewrite Q. lra.
      - rewrite !average_plus, !average_const_L. pose proof (same_string r). lra. }
    assert (I3 : forall r, average L (fun d => average L (fun sigma => average L (fun z => b + guessed TR l r d sigma z))) <=
      b + 4 * u + unit + (one_if (points start r l) + one_if (points (coins TR) r l))).
    { intros r. eapply Qle_trans; [apply average_le; intros d _; apply I2|].
      apply Qle_trans with (average L (fun d => (b + 3 * u + unit + (one_if (points start r l) + one_if (points (coins TR) r l))) + one_if (points start d l))).
      - apply average_le. intros d _. lra.
      - rewrite average_plus, average_const_L. lra. }
    eapply Qle_trans; [apply average_le; intros r _; apply I3|].
    rewrite !average_plus, !average_const_L. lra.
  Qed.

  Let tapes (f : list Z -> list Z -> list Z -> list Z -> Q) : Q :=
    average LS (fun S => average LE (fun E => average LY (fun Y => average LW (fun W => f S E Y W)))).
  Let gap1 := lwe_gap k k (eta1 P) (eta1 P) A LS LE LT (sim_key_test hs P n rho r0 L LC LY LW LR LF att).
  Let gap2 := average LT (fun t => lwe_gap k (k + 1) (eta1 P) (eta2 P) (ct_matrix k A t) LY LW LV (sim_ct_test hs P n rho L LC LR LF att t)).

  (** the attacker finds m in the simulation *)
  Lemma found_bound :
    average L (fun m => tapes (fun S E Y W =>
      average LR (fun TR => average LF (fun TF => average L (fun X => found m S E Y W TR TF X))))) <=
    inject_Z (Z.of_nat N) * unit + gap1 + gap2.
  Proof.
    set (T := fun m => sim_test hs P n L LC LR LF att m).
    assert (E1 : forall m, In m L ->
      tapes (fun S E Y W => average LR (fun TR => average LF (fun TF => average L (fun X => found m S E Y W TR TF X)))) ==
      lwe_gap k k (eta1 P) (eta1 P) A LS LE LT (key_test hs P n rho r0 LY LW (fun _ => m) (T m)) +
      average LT (fun t => lwe_gap k (k + 1) (eta1 P) (eta2 P) (ct_matrix k A t) LY LW LV (ct_test P rho (fun _ => m) (T m) t)) +
      average LT (fun t => average LV (fun w => T m (key_bytes P rho t) (ct_bytes P (firstn k w) (nth k w []))))).
    { intros m Hm.
      eapply Qeq_trans; [|exact (hybrid hs Hhs P HP n rho (proj2 Hrho) Ah EA r0 LS LE LY LW LT LV HLY HLW HLT HLV (fun _ => m) (T m))].
      unfold tapes, key_test. apply average_ext. intros S HS. apply average_ext. intros E HE.
      apply average_ext. intros Y HY. apply average_ext. intros W HW. apply HLY in HY. apply HLW in HW. cbv zeta.
      rewrite (encrypt_lwe hs Hhs P HP n rho Ah _ m r0 Y W (proj2 Hrho) (lwe_samples_vec _ _ _ _ _) HY HW EA).
      reflexivity. }
    rewrite (average_ext L _ _ (fun m Hm => E1 m Hm)). clear E1.
    assert (E2 : average L (fun m =>
        lwe_gap k k (eta1 P) (eta1 P) A LS LE LT (key_test hs P n rho r0 LY LW (fun _ => m) (T m))) == gap1).
    { unfold gap1, sim_key_test. rewrite gap_average. reflexivity. }
    assert (E3 : average L (fun m =>
        average LT (fun t => lwe_gap k (k + 1) (eta1 P) (eta2 P) (ct_matrix k A t) LY LW LV (ct_test P rho (fun _ => m) (T m) t))) == gap2).
    { unfold gap2, sim_ct_test. rewrite average_swap. apply average_ext. intros t _. rewrite gap_average. reflexivity. }
    assert (U0 : 0 <= inject_Z (Z.of_nat N) * unit).
    { apply Qmult_le_0_compat; [|discriminate]. unfold Qle. cbn [Qnum Qden inject_Z]. lia. }
    assert (E4 : average L (fun m => average LT (fun t => average LV (fun w =>
        T m (key_bytes P rho t) (ct_bytes P (firstn k w) (nth k w []))))) <= inject_Z (Z.of_nat N) * unit).
    { rewrite average_swap. apply average_bound; [exact U0|]. intros t Ht.
      rewrite average_swap. apply average_bound; [exact U0|]. intros w Hw. unfold T, sim_test.
      rewrite average_swap. apply average_bound; [exact U0|]. intros TR HTR.
      rewrite average_swap. apply average_bound; [exact U0|]. intros TF HTF.
      rewrite average_swap. apply average_bound; [exact U0|]. intros K HK.
      set (ek := key_bytes P rho t). set (c := ct_bytes P (firstn k w) (nth k w [])).
      set (l := sim_asked hs P n L LC TR TF att K ek c).
      apply Qle_trans with (average L (fun m => one_if (points start m l))).
      - apply average_le. intros m Hm. apply HL in Hm. unfold sim_finds. unfold asks. 
        destruct (existsb _ _) eqn:X; [|apply one_if_range].
        apply existsb_exists in X. destruct X as (p & I & X).
        destruct (query_eq p (Sha3_512, m ++ sha3_256 hs ek)) as [->|_]; [|discriminate X].
        assert (Q : points start m l = true).
        { apply existsb_exists. eexists. split; [exact I|]. unfold start. cbn [snd].
          rewrite firstn_app_exact by apply Hm. destruct (list_eq_dec Z.eq_dec m m); [reflexivity|contradiction]. }
        rewrite Q. apply Qle_refl.
      - apply few. apply (asked_length _ _ N D). apply Hatt. }
    rewrite !average_plus, E2, E3. lra.
  Qed.

  (** a question about a message that fails *)
  Variable dl : list Z -> list Z -> Q.
  Hypothesis Hdl : forall S E m, In S LS -> In E LE -> In m L -> average L (fun r => one_if (fails S E m r)) <= dl S E.

  Lemma failed_bound m S E Y W : In m L -> In S LS -> In E LE ->
    average LR (fun TR => average LF (fun TF => average L (fun X => failed m S E Y W TR TF X))) <= inject_Z (Z.of_nat N) * dl S E.
  Proof.
    intros Hm HS HE.
    assert (D0 : 0 <= dl S E).
    { eapply Qle_trans; [|exact (Hdl S E m HS HE Hm)]. rewrite <- (average_const_L 0). apply average_le. intros. apply one_if_range. }
    assert (U0 : 0 <= inject_Z (Z.of_nat N) * dl S E).
    { apply Qmult_le_0_compat; [|exact D0]. unfold Qle. cbn [Qnum Qden inject_Z]. lia. }
    rewrite average_swap. apply average_bound; [exact U0|]. intros TF HTF.
    rewrite average_swap. apply average_bound; [exact U0|]. intros X HX.
    exact (adaptive hs P n (pub S E) L LC TF LR (sim_decaps LC TF (cipher m S E Y W)) (fails S E) (dl S E) (proj1 HL) L_nonempty HLR D0
      (fun m' Hm' => Hdl S E m' HS HE Hm') (att (pub S E) (cipher m S E Y W) X) N D (Hatt _ _ _)).
  Qed.

  Let delta := average LS (fun S => average LE (fun E => dl S E)).
  Let delta_c := average L (fun m => tapes (fun S E Y W => wrong m S E Y W)).
  Definition active_bound : Q :=
    (7 * inject_Z (Z.of_nat N) + 1) * unit + inject_Z (Z.of_nat N) * delta + delta_c + gap1 + gap2.

  Lemma nonempty_enum q LX : enumerates q LX -> LX <> [].
  Proof. intros H Q. pose proof (enumerates_length q LX H) as X. rewrite Q in X. cbn [length] in X.
    assert (0 < 256 ^ Z.of_nat q)%Z by (apply Z.pow_pos_nonneg; lia). lia. Qed.

  Lemma active_ideal real :
    Qabs (active_experiment hs P n rho att L LC LS LE LY LW LR LK LF real -
          average L (fun m => tapes (fun S E Y W =>
            average LR (fun TR => average LF (fun TF => average L (fun X => simulated m S E Y W TR TF X)))))) <= active_bound.
  Proof.
    set (fnd := fun m S E Y W => average LR (fun TR => average LF (fun TF => average L (fun X => found m S E Y W TR TF X)))).
    set (c := 6 * (inject_Z (Z.of_nat N) * unit) + unit).
    apply Qle_trans with (average L (fun m => tapes (fun S E Y W => fnd m S E Y W + inject_Z (Z.of_nat N) * dl S E + wrong m S E Y W + c))).
    { unfold active_experiment, tapes.
      apply average_close. intros m Hm. apply average_close. intros S HS. apply average_close. intros E HE.
      apply average_close. intros Y HY. apply average_close. intros W HW.
      eapply Qle_trans; [exact (close_average real m S E Y W Hm HS HE HY HW)|].
      apply Qle_trans with (average LR (fun TR => average LF (fun TF => average L (fun X =>
        found m S E Y W TR TF X + failed m S E Y W TR TF X + wrong m S E Y W + c)))).
      - apply average_le. intros TR HTR. apply average_le. intros TF HTF. apply average_le. intros X HX.
        apply guessed_average. apply (asked_length _ _ N D), Hatt.
      - apply Qle_trans with (fnd m S E Y W + average LR (fun TR => average LF (fun TF => average L (fun X => failed m S E Y W TR TF X))) + wrong m S E Y W + c).
        + apply Qle_lteq. right. unfold fnd.
          assert (SH : forall B (M : list B) f g a b, M <> [] -> average M (fun x => f x + g x + a + b) == average M f + average M g + a + b).
          { intros B M f g a b NM. rewrite !average_plus, !(average_const M _ NM). reflexivity. }
          rewrite <- (SH _ LR _ _ _ _ LR_nonempty). apply average_ext. intros TR _.
          rewrite <- (SH _ LF _ _ _ _ LF_nonempty). apply average_ext. intros TF _.
          apply (SH _ L _ _ _ _ L_nonempty).
        + pose proof (failed_bound m S E Y W Hm HS HE). lra. }
    assert (SP : forall f g, tapes (fun S E Y W => f S E Y W + g S E Y W) == tapes f + tapes g).
    { intros f g. unfold tapes. rewrite <- average_plus. apply average_ext. intros S _. rewrite <- average_plus. apply average_ext. intros E _.
      rewrite <- average_plus. apply average_ext. intros Y _. rewrite <- average_plus. reflexivity. }
    assert (SC : tapes (fun S E Y W => c) == c).
    { unfold tapes. rewrite !average_const; try reflexivity; eapply nonempty_enum; eassumption. }
    assert (SD : tapes (fun S E Y W => inject_Z (Z.of_nat N) * dl S E) == inject_Z (Z.of_nat N) * delta).
    { unfold tapes, delta. rewrite <- average_scale. apply average_ext. intros S _. rewrite <- average_scale. apply average_ext. intros E _.
      rewrite !average_const; try reflexivity; eapply nonempty_enum; eassumption. }
    assert (E1 : average L (fun m => tapes (fun S E Y W => fnd m S E Y W + inject_Z (Z.of_nat N) * dl S E + wrong m S E Y W + c)) ==
      average L (fun m => tapes (fnd m)) + inject_Z (Z.of_nat N) * delta + delta_c + c).
    { unfold delta_c.
      assert (SH : forall f g a b, average L (fun x => f x + a + g x + b) == average L f + a + average L g + b).
      { intros f g a b. rewrite !average_plus, !average_const_L. reflexivity. }
      rewrite <- SH. apply average_ext. intros m _.
      rewrite (SP (fun S E Y W => fnd m S E Y W + inject_Z (Z.of_nat N) * dl S E + wrong m S E Y W) (fun _ _ _ _ => c)).
      rewrite (SP (fun S E Y W => fnd m S E Y W + inject_Z (Z.of_nat N) * dl S E) (fun S E Y W => wrong m S E Y W)).
      rewrite (SP (fun S E Y W => fnd m S E Y W) (fun S E _ _ => inject_Z (Z.of_nat N) * dl S E)).
      rewrite SC, SD. reflexivity. }
    rewrite E1. pose proof found_bound as FB.
    change (average L (fun m => tapes (fnd m)) <= inject_Z (Z.of_nat N) * unit + gap1 + gap2) in FB.
    unfold active_bound, c.
    setoid_replace ((7 * inject_Z (Z.of_nat N) + 1) * unit) with (7 * (inject_Z (Z.of_nat N) * unit) + unit) by ring.
    set (x := inject_Z (Z.of_nat N) * unit) in *. clearbody x. lra.
  Qed.

  Lemma active_bounded :
    Qabs (active_experiment hs P n rho att L LC LS LE LY LW LR LK LF true - active_experiment hs P n rho att L LC LS LE LY LW LR LK LF false) <=
    2 * active_bound.
  Proof.
    pose proof (active_ideal true) as B1. pose proof (active_ideal false) as B0.
    set (e1 := active_experiment _ _ _ _ _ _ _ _ _ _ _ _ _ _ true) in *. set (e0 := active_experiment _ _ _ _ _ _ _ _ _ _ _ _ _ _ false) in *.
    set (i := average L _) in *. set (b := active_bound) in *. clearbody e1 e0 i b. clear - B1 B0.
    apply Qabs_Qle_condition in B1. apply Qabs_Qle_condition in B0. apply Qabs_Qle_condition. split; lra.
  Qed.
End ActiveBound.

(** ** The theorems *)

(** An attacker that asks at most N hash questions, and any number of decapsulations, tells
    the shared secret from a random string with probability at most
      2 ((7 N + 1) / 2^256 + N delta + failure + gap1 + gap2).
    Here delta is the mean over the keys of a bound, valid for every message, on the fraction
    of encryption randomness that makes decryption fail; failure is the probability that the
    challenge fails to decrypt; and the gaps are those of two distinguishers against MLWE,
    which run the attacker with simulated answers and watch its questions. *)
Theorem C71_active hs P n rho Ah att N D L LC LS LE LY LW LR LK LF LT LV r0 delta :
  hash_ok hs -> wf_params P -> byte_string 32 rho ->
  A_hat hs P n rho = Some Ah ->
  (forall ek c K, within N D (att ek c K)) ->
  enumerates 32 L -> enumerates (ct_len P) LC ->
  enumerates (pk P * (64 * eta1 P)) LS -> enumerates (pk P * (64 * eta1 P)) LE ->
  enumerates (pk P * (64 * eta1 P)) LY -> enumerates ((pk P + 1) * (64 * eta2 P)) LW ->
  all_tables L L LR -> all_tables L L LK -> all_tables LC L LF ->
  all_vectors (pk P) LT -> all_vectors (pk P + 1) LV ->
  let A := map (map NTTinv) Ah in
  let ek S E := key_bytes P rho (lwe_samples (pk P) (pk P) A (cbd_vec (eta1 P) (pk P) S) (cbd_vec (eta1 P) (pk P) E)) in
  (forall S E m, In S LS -> In E LE -> In m L ->
     (average L (fun r => one_if (pke_fails hs P n (secret_bytes P S) (ek S E) m r)) <= delta S E)%Q) ->
  let failure := average L (fun m => average LS (fun S => average LE (fun E => average LY (fun Y => average LW (fun W =>
    one_if (pke_fails (with_coins hs P r0 Y W) P n (secret_bytes P S) (ek S E) m r0)))))) in
  let gap1 := lwe_gap (pk P) (pk P) (eta1 P) (eta1 P) A LS LE LT (sim_key_test hs P n rho r0 L LC LY LW LR LF att) in
  let gap2 := average LT (fun t => lwe_gap (pk P) (pk P + 1) (eta1 P) (eta2 P) (ct_matrix (pk P) A t)
                            LY LW LV (sim_ct_test hs P n rho L LC LR LF att t)) in
  (Qabs (active_experiment hs P n rho att L LC LS LE LY LW LR LK LF true -
         active_experiment hs P n rho att L LC LS LE LY LW LR LK LF false) <=
   2 * ((7 * inject_Z (Z.of_nat N) + 1) / inject_Z (2 ^ 256) +
        inject_Z (Z.of_nat N) * average LS (fun S => average LE (fun E => delta S E)) + failure + gap1 + gap2))%Q.
Proof.
  intros Hhs HP Hrho EA Hatt HL HLC HLS HLE HLY HLW HLR HLK HLF HLT HLV A ek Hdl. cbv zeta.
  eapply Qle_trans; [exact (active_bounded hs Hhs P HP n rho Hrho Ah EA att N D Hatt L LC LS LE LY LW LR LK LF LT LV
    HL HLC HLS HLE HLY HLW HLR HLK HLF HLT HLV r0 delta Hdl)|].
  unfold active_bound. unfold Qdiv. rewrite Qmult_1_l. fold A.
  assert (EF : (average L (fun m => average LS (fun S => average LE (fun E => average LY (fun Y => average LW (fun W =>
      one_if (if list_eq_dec Z.eq_dec (KPKE_Decrypt P (secret_bytes P S)
        (let w := lwe_samples (pk P) (pk P + 1) (ct_matrix (pk P) A (lwe_samples (pk P) (pk P) A (cbd_vec (eta1 P) (pk P) S) (cbd_vec (eta1 P) (pk P) E)))
               (cbd_vec (eta1 P) (pk P) Y) (cbd_vec (eta2 P) (pk P + 1) W) in
         ct_bytes P (firstn (pk P) w) (padd (nth (pk P) w []) (enc_mu m)))) m then false else true)))))) ==
    average L (fun m => average LS (fun S => average LE (fun E => average LY (fun Y => average LW (fun W =>
      one_if (pke_fails (with_coins hs P r0 Y W) P n (secret_bytes P S) (ek S E) m r0)))))))%Q).
  { apply average_ext. intros m _. apply average_ext. intros S _. apply average_ext. intros E _.
    apply average_ext. intros Y HY. apply average_ext. intros W HW. apply HLY in HY. apply HLW in HW.
    unfold pke_fails, ek. unfold A at 3.
    rewrite (encrypt_lwe hs Hhs P HP n rho Ah _ m r0 Y W (proj2 Hrho) (lwe_samples_vec _ _ _ _ _) HY HW EA).
    reflexivity. }
  rewrite EF. apply Qle_refl.
Qed.

(** ** the failure of the challenge, in numbers *)
Lemma total_one_if {B} (f : B -> bool) l : (total l (fun x => one_if (f x)) == inject_Z (count f l))%Q.
Proof.
  induction l as [|x l IH]; [reflexivity|]. rewrite count_cons.
  change (one_if (f x) + total l (fun x => one_if (f x)) == inject_Z (b2z (f x) + count f l))%Q.
  rewrite IH, inject_Z_plus. destruct (f x); reflexivity.
Qed.

Section Failure.
  Variable hs : hashes.
  Hypothesis Hhs : hash_ok hs.
  Variable P : params.
  Hypothesis HP : wf_params P.
  Let k := pk P.
  Variable n : nat.
  Variables rho d sigma r : list Z.
  Hypothesis Hrho : byte_string 32 rho.
  Hypothesis Hd : byte_string 32 d.
  Hypothesis Hs : byte_string 32 sigma.
  Hypothesis Hr : byte_string 32 r.
  Hypothesis Hne : r <> sigma.
  Variable Ah : list (list (list Z)).
  Hypothesis EA : A_hat hs P n rho = Some Ah.
  Let A := map (map NTTinv) Ah.
  Let ek S E := key_bytes P rho (lwe_samples k k A (cbd_vec (eta1 P) k S) (cbd_vec (eta1 P) k E)).
  Definition seeded : hashes := with_sha3_512 hs (d ++ [Z.of_nat (pk P)]) (rho ++ sigma).

  Lemma seeded_ok : hash_ok seeded.
  Proof. apply with_sha3_512_ok; [exact Hhs|apply (byte_string_app 32 32); assumption]. Qed.
  Lemma seeded_G : FIPS203.G seeded (d ++ [Z.of_nat (pk P)]) = (rho, sigma).
  Proof.
    unfold FIPS203.G, seeded. cbn [with_sha3_512 sha3_512].
    destruct (list_eq_dec Z.eq_dec _ _) as [_|X]; [|contradiction].
    rewrite firstn_app_exact, skipn_app_exact by apply Hrho. reflexivity.
  Qed.
  Lemma seeded_sigma : sigma_of seeded P d = sigma.
  Proof. unfold sigma_of. rewrite seeded_G. reflexivity. Qed.
  Lemma seeded_rho : key_rho seeded P d = rho.
  Proof. unfold key_rho. rewrite seeded_G. reflexivity. Qed.

  Lemma fails_decrypts S E Y W m : byte_string 32 m -> byte_string (k * (64 * eta1 P)) S -> byte_string (k * (64 * eta1 P)) E ->
    byte_string (k * (64 * eta1 P)) Y -> byte_string ((k + 1) * (64 * eta2 P)) W ->
    pke_fails (with_coins hs P r Y W) P n (secret_bytes P S) (ek S E) m r =
    negb (decrypts (with_secrets (with_coins seeded P r Y W) P (sigma_of seeded P d) (S ++ E)) P n d m r).
  Proof.
    intros Hm HS HE HY HW.
    assert (HB : byte_string (2 * k * (64 * eta1 P)) (S ++ E)).
    { replace (2 * k * (64 * eta1 P))%nat with (k * (64 * eta1 P) + k * (64 * eta1 P))%nat by lia. apply byte_string_app; assumption. }
    set (h := with_secrets _ _ _ _).
    assert (Hh : hash_ok h).
    { apply with_secrets_ok; [|apply HB]. apply with_coins_ok; [exact seeded_ok|apply HY|apply HW]. }
    assert (EK : KPKE_KeyGen h P n d = Some (ek S E, secret_bytes P S)).
    { pose proof (keygen_lwe seeded seeded_ok P HP n d Ah S E (proj2 Hd) HS HE) as X. rewrite seeded_rho in X.
      pose proof (X EA) as EK. pose proof (keygen_world seeded P d Y W (S ++ E) HB r n) as KW. unfold world in KW.
      change (key_sigma seeded P d) with (sigma_of seeded P d) in KW, EK. fold h in KW. rewrite KW. exact EK. }
    pose proof (pke_generate_ok h Hh P HP n d (proj2 Hd)) as G. rewrite EK in G.
    destruct G as (dk & ek' & E1 & Vd & Ve & E2 & E3).
    unfold decrypts. rewrite E1. rewrite (encrypt_ok h Hh P HP n ek' m r Ve Hm (proj2 Hr)). rewrite E3.
    unfold h. rewrite (encrypt_world seeded P n d r) by (rewrite seeded_sigma; exact Hne).
    unfold pke_fails, ek.
    rewrite (encrypt_lwe hs Hhs P HP n rho Ah _ m r Y W (proj2 Hrho) (lwe_samples_vec _ _ _ _ _) HY HW EA).
    pose proof (encrypt_lwe seeded seeded_ok P HP n rho Ah _ m r Y W (proj2 Hrho)
      (lwe_samples_vec k k A (cbd_vec (eta1 P) k S) (cbd_vec (eta1 P) k E)) HY HW EA) as E4. cbv zeta in E4 |- *.
    pose proof (KPKE_Encrypt_bytes _ P n _ m r _ E4) as Hc.
    rewrite E4. cbn [lift]. rewrite (decrypt_ok P HP) by assumption.
    rewrite E2. unfold returns. destruct (list_eq_dec Z.eq_dec _ m); reflexivity.
  Qed.
End Failure.

Lemma failure_average P delta : In (P, delta) [(ML_KEM_512, 80); (ML_KEM_768, 90); (ML_KEM_1024, 107)] ->
  forall hs n rho Ah m LS LE LY LW r0, hash_ok hs -> byte_string 32 rho -> byte_string 32 m -> byte_string 32 r0 ->
  A_hat hs P n rho = Some Ah ->
  enumerates (pk P * (64 * eta1 P)) LS -> enumerates (pk P * (64 * eta1 P)) LE ->
  enumerates (pk P * (64 * eta1 P)) LY -> enumerates ((pk P + 1) * (64 * eta2 P)) LW ->
  let A := map (map NTTinv) Ah in
  let ek S E := key_bytes P rho (lwe_samples (pk P) (pk P) A (cbd_vec (eta1 P) (pk P) S) (cbd_vec (eta1 P) (pk P) E)) in
  (average LS (fun S => average LE (fun E => average LY (fun Y => average LW (fun W =>
     one_if (pke_fails (with_coins hs P r0 Y W) P n (secret_bytes P S) (ek S E) m r0)))))
   <= 1 / inject_Z (2 ^ delta))%Q.
Proof.
  intros HIn hs n rho Ah m LS LE LY LW r0 Hhs Hrho Hm Hr EA HLS HLE HLY HLW A ek.
  assert (HP : wf_params P).
  { destruct HIn as [E|[E|[E|[]]]]; apply (f_equal fst) in E; cbn [fst] in E; subst P; [apply wf_512|apply wf_768|apply wf_1024]. }
  assert (Hdel : 0 < 2 ^ delta).
  { destruct HIn as [E|[E|[E|[]]]]; apply (f_equal snd) in E; cbn [snd] in E; subst delta; reflexivity. }
  assert (Hsig : exists sigma, byte_string 32 sigma /\ r0 <> sigma).
  { destruct (list_eq_dec Z.eq_dec r0 (repeat 0 32)) as [->|NE].
    - exists (repeat 1 32). split; [apply repeat_bytes; unfold is_byte; lia|discriminate].
    - exists (repeat 0 32). split; [apply repeat_bytes; unfold is_byte; lia|exact NE]. }
  destruct Hsig as (sigma & Hs & Hne).
  set (B0 := (1 / inject_Z (2 ^ delta))%Q).
  set (d := repeat 0 32). assert (Hd : byte_string 32 d) by (apply repeat_bytes; unfold is_byte; lia).
  set (hsA := seeded hs P rho d sigma).
  pose (LB := map (fun p => fst p ++ snd p) (list_prod LS LE)).
  assert (HLB : enumerates (2 * pk P * (64 * eta1 P)) LB).
  { split.
    - unfold LB.
      assert (ND : NoDup (list_prod LS LE)) by (apply NoDup_prod; [apply HLS|apply HLE]).
      assert (IL : forall p, In p (list_prod LS LE) -> length (fst p) = (pk P * (64 * eta1 P))%nat).
      { intros [a b] I. apply in_prod_iff in I. apply HLS. apply I. }
      clear -ND IL. induction ND as [|p l Hp ND IH]; [constructor|]. cbn [map]. constructor.
      + intros I. apply in_map_iff in I. destruct I as (p' & E & I). apply Hp.
        assert (E1 : fst p' = fst p).
        { apply (f_equal (firstn (pk P * (64 * eta1 P)))) in E.
          rewrite !firstn_app_exact in E by (apply IL; auto using in_eq, in_cons). exact E. }
        rewrite E1 in E. apply app_inv_head in E. destruct p, p'. cbn [fst snd] in *. subst. exact I.
      + apply IH. intros p' I. apply IL. right. exact I.
    - intros B. unfold LB. rewrite in_map_iff. split.
      + intros ([a b] & <- & I). apply in_prod_iff in I. destruct I as [Ia Ib]. apply HLS in Ia. apply HLE in Ib.
        replace (2 * pk P * (64 * eta1 P))%nat with (pk P * (64 * eta1 P) + pk P * (64 * eta1 P))%nat by lia. apply byte_string_app; assumption.
      + intros [Hl Hb]. exists (firstn (pk P * (64 * eta1 P)) B, skipn (pk P * (64 * eta1 P)) B). cbn [fst snd].
        split; [apply firstn_skipn|]. apply in_prod; [apply HLS|apply HLE].
        * split; [rewrite firstn_length; lia|apply bytes_firstn, Hb].
        * split; [rewrite skipn_length; lia|apply bytes_skipn, Hb]. }
  set (F := fun Y W B => negb (decrypts (with_secrets (with_coins hsA P r0 Y W) P (sigma_of hsA P d) B) P n d m r0)).
  assert (HA : hash_ok hsA) by (apply seeded_ok; assumption).
  assert (C : 2 ^ delta * count (fun '(Y, (W, B)) => F Y W B) (list_prod LY (list_prod LW LB)) <=
    256 ^ Z.of_nat (pk P * (64 * eta1 P)) * 256 ^ Z.of_nat ((pk P + 1) * (64 * eta2 P)) * 256 ^ Z.of_nat (2 * pk P * (64 * eta1 P))).
  { apply (C56_kpke P delta HIn hsA n d m r0 Ah LY LW LB HA Hd Hm Hr); try assumption.
    - unfold hsA. rewrite seeded_rho by assumption. exact EA.
    - unfold hsA. rewrite seeded_sigma by assumption. exact Hne. }
  assert (E1 : (average LS (fun S => average LE (fun E => average LY (fun Y => average LW (fun W =>
      one_if (pke_fails (with_coins hs P r0 Y W) P n (secret_bytes P S) (ek S E) m r0))))) ==
    average (list_prod LY (list_prod LW LB)) (fun p => one_if ((fun '(Y, (W, B)) => F Y W B) p)))%Q).
  { transitivity (average LY (fun Y => average LW (fun W => average LB (fun B => one_if (F Y W B))))).
    - transitivity (average LS (fun S => average LE (fun E => average LY (fun Y => average LW (fun W => one_if (F Y W (S ++ E))))))).
      { apply average_ext. intros S HS. apply average_ext. intros E HE. apply average_ext. intros Y HY. apply average_ext. intros W HW.
        apply HLS in HS. apply HLE in HE. apply HLY in HY. apply HLW in HW. unfold ek, A, F, hsA.
        rewrite (fails_decrypts hs Hhs P HP n rho d sigma r0 Hrho Hd Hs Hr Hne Ah EA S E Y W m Hm HS HE HY HW). reflexivity. }
      transitivity (average LY (fun Y => average LW (fun W => average LS (fun S => average LE (fun E => one_if (F Y W (S ++ E))))))).
      { transitivity (average LS (fun S => average LY (fun Y => average LW (fun W => average LE (fun E => one_if (F Y W (S ++ E))))))).
        - apply average_ext. intros S _. rewrite average_swap. apply average_ext. intros Y _. rewrite average_swap. reflexivity.
        - rewrite average_swap. apply average_ext. intros Y _. rewrite average_swap. reflexivity. }
      apply average_ext. intros Y _. apply average_ext. intros W _.
      rewrite <- (average_prod LS LE (fun S E => one_if (F Y W (S ++ E)))). unfold LB, average. rewrite total_map, map_length. reflexivity.
    - transitivity (average LY (fun Y => average (list_prod LW LB) (fun p => one_if (F Y (fst p) (snd p))))).
      { apply average_ext. intros Y _. symmetry. exact (average_prod LW LB (fun W B => one_if (F Y W B))). }
      rewrite <- (average_prod LY (list_prod LW LB) (fun Y p => one_if (F Y (fst p) (snd p)))).
      apply average_ext. intros [Y [W B]] _. reflexivity. }
  rewrite E1. clear E1. unfold average. rewrite total_one_if, !prod_length, !Nat2Z.inj_mul.
  rewrite (enumerates_length _ LY HLY), (enumerates_length _ LW HLW), (enumerates_length _ LB HLB).
  set (X := count _ _) in *. clearbody X.
  assert (P1 : forall e, 0 < 256 ^ Z.of_nat e) by (intros e; apply Z.pow_pos_nonneg; lia).
  pose proof (P1 (pk P * (64 * eta1 P))%nat) as Q1. pose proof (P1 ((pk P + 1) * (64 * eta2 P))%nat) as Q2. pose proof (P1 (2 * pk P * (64 * eta1 P))%nat) as Q3.
  set (a := 256 ^ Z.of_nat (pk P * (64 * eta1 P))) in *. set (b := 256 ^ Z.of_nat ((pk P + 1) * (64 * eta2 P))) in *.
  set (c := 256 ^ Z.of_nat (2 * pk P * (64 * eta1 P))) in *. set (e := 2 ^ delta) in *. unfold B0. clearbody a b c e.
  assert (M : 0 < a * (b * c)) by nia.
  apply Qle_shift_div_r; [change 0%Q with (inject_Z 0); rewrite <- Zlt_Qlt; exact M|].
  apply Qle_trans with ((inject_Z e * inject_Z X) / inject_Z e)%Q.
  - apply Qle_lteq. right. field. intros Z0. change 0%Q with (inject_Z 0) in Z0. apply (proj1 (inject_Z_injective _ _)) in Z0. lia.
  - unfold Qdiv. rewrite Qmult_1_l, (Qmult_comm (/ inject_Z e)). apply Qmult_le_compat_r.
    + rewrite <- inject_Z_mult, <- Zle_Qle. lia.
    + apply Qinv_le_0_compat. change 0%Q with (inject_Z 0). rewrite <- Zle_Qle. lia.
Qed.

(** The challenge fails to decrypt with probability at most 2^-80, 2^-90, 2^-107. *)
Theorem C71_failure P delta : In (P, delta) [(ML_KEM_512, 80); (ML_KEM_768, 90); (ML_KEM_1024, 107)] ->
  forall hs n rho Ah L LS LE LY LW r0, hash_ok hs -> byte_string 32 rho -> byte_string 32 r0 ->
  A_hat hs P n rho = Some Ah ->
  enumerates 32 L ->
  enumerates (pk P * (64 * eta1 P)) LS -> enumerates (pk P * (64 * eta1 P)) LE ->
  enumerates (pk P * (64 * eta1 P)) LY -> enumerates ((pk P + 1) * (64 * eta2 P)) LW ->
  let A := map (map NTTinv) Ah in
  let ek S E := key_bytes P rho (lwe_samples (pk P) (pk P) A (cbd_vec (eta1 P) (pk P) S) (cbd_vec (eta1 P) (pk P) E)) in
  (average L (fun m => average LS (fun S => average LE (fun E => average LY (fun Y => average LW (fun W =>
     one_if (pke_fails (with_coins hs P r0 Y W) P n (secret_bytes P S) (ek S E) m r0))))))
   <= 1 / inject_Z (2 ^ delta))%Q.
Proof.
  intros HIn hs n rho Ah L LS LE LY LW r0 Hhs Hrho Hr EA HL HLS HLE HLY HLW A ek.
  assert (Hdel : 0 < 2 ^ delta).
  { destruct HIn as [E|[E|[E|[]]]]; apply (f_equal snd) in E; cbn [snd] in E; subst delta; reflexivity. }
  apply average_bound.
  { unfold Qdiv. rewrite Qmult_1_l. apply Qinv_le_0_compat. change 0%Q with (inject_Z 0). rewrite <- Zle_Qle. lia. }
  intros m Hm. apply HL in Hm. apply (failure_average P delta HIn); assumption.
Qed.

(** C46-C49: what a shared secret commits to.

    Hash collisions exist (the outputs are shorter than the inputs), so "or some collision
    exists" would say nothing.  Every alternative below names the two colliding inputs, each
    computed from the two runs: a caller who could reach it would hold a collision. *)
From Coq Require Import List ZArith Lia Bool Arith.
From Verif.Base Require Import Res Oracles.
From Verif.Spec Require Import FIPS203 Domains Noise XWing.
From Verif.Model Require Import Machine Crypto Param Pke Kem XWing.
From Verif.Proofs Require Import Basics VecEncode SampleProofs PkeProofs KemProofs Inner Correctness XWingProofs.
From Verif.Tests Require Import Toy.
From Verif.Properties Require Import Kem KemCases Correctness XWing Budget.
Import ListNotations.
Open Scope Z_scope.

(** two different inputs with equal outputs *)
Definition collide {A} (f : list Z -> A) (x y : list Z) : Prop := x <> y /\ f x = f y.

Lemma app_inj_len (x x' y y' : list Z) : length x = length x' -> x ++ y = x' ++ y' -> x = x' /\ y = y'.
Proof.
  intros L Q. split.
  - apply (f_equal (firstn (length x))) in Q. rewrite firstn_app_exact in Q by reflexivity.
    rewrite L, firstn_app_exact in Q by reflexivity. exact Q.
  - apply (f_equal (skipn (length x))) in Q. rewrite skipn_app_exact in Q by reflexivity.
    rewrite L, skipn_app_exact in Q by reflexivity. exact Q.
Qed.

Section Binding.
  Variable hs : hashes.
  Hypothesis Hhs : hash_ok hs.
  Variable P : params.
  Hypothesis HP : wf_params P.
  Let k := pk P.

  (** the key half of G *)
  Let G1 (x : list Z) : list Z := fst (FIPS203.G hs x).
  Let H := FIPS203.H hs.
  Let J := FIPS203.J hs.
  (** the message that decapsulation with the key [b] recovers from [c] *)
  Definition recovered (b c : list Z) : list Z := KPKE_Decrypt P (dk_sec_pke P b) c.

  Lemma Encaps_inv n ek h m K c : Encaps_with hs P n ek h m = Some (K, c) ->
    K = G1 (m ++ h) /\ KPKE_Encrypt hs P n ek m (snd (FIPS203.G hs (m ++ h))) = Some c.
  Proof.
    unfold Encaps_with, G1. destruct (FIPS203.G hs (m ++ h)) as [K' r]. cbn [fst snd].
    destruct (KPKE_Encrypt hs P n ek m r) as [c'|]; [|discriminate]. intros E. apply Some_inj in E.
    split; [symmetry; exact (f_equal fst E)|]. f_equal. exact (f_equal snd E).
  Qed.

  Lemma encapsulate_inv n ek ekb m c K : reachable_ek hs P ek -> byte_string 32 m ->
    encaps_key_as_bytes P ek = Ok ekb -> encapsulate_deterministic hs P n ek m = Ok (c, K) ->
    K = G1 (m ++ ek_h ek) /\ KPKE_Encrypt hs P n ekb m (snd (FIPS203.G hs (m ++ ek_h ek))) = Some c /\
    byte_string 32 (ek_h ek).
  Proof.
    intros Hek Hm Eb E. pose proof (reachable_ek_valid hs Hhs P HP ek Hek) as V.
    rewrite encaps_key_as_bytes_ok in Eb by exact V. apply Ok_inj in Eb. subst ekb.
    rewrite (encapsulate_deterministic_ok hs Hhs P HP) in E by assumption. apply lift_ok in E.
    destruct (Encaps_with hs P n (ekey_bytes P ek) (ek_h ek) m) as [[K' c']|] eqn:EE; [|discriminate].
    apply Some_inj in E. pose proof (f_equal fst E) as Q1. pose proof (f_equal snd E) as Q2. cbn in Q1, Q2. subst.
    destruct (Encaps_inv _ _ _ _ _ _ EE) as [W1 W2]. split; [exact W1|]. split; [exact W2|]. apply V.
  Qed.

  (** ** C46: encapsulation *)

  (** the shared secret commits to the encapsulation key, the message and the ciphertext *)
  Theorem C46_encapsulation n1 n2 ek1 ek2 ekb1 ekb2 m1 m2 c1 c2 K :
    honest_ek hs P ek1 -> honest_ek hs P ek2 -> byte_string 32 m1 -> byte_string 32 m2 ->
    encaps_key_as_bytes P ek1 = Ok ekb1 -> encaps_key_as_bytes P ek2 = Ok ekb2 ->
    encapsulate_deterministic hs P n1 ek1 m1 = Ok (c1, K) ->
    encapsulate_deterministic hs P n2 ek2 m2 = Ok (c2, K) ->
    (ekb1 = ekb2 /\ m1 = m2 /\ c1 = c2) \/
    collide G1 (m1 ++ H ekb1) (m2 ++ H ekb2) \/ collide H ekb1 ekb2.
  Proof.
    intros H1 H2 Hm1 Hm2 B1 B2 E1 E2.
    destruct (encapsulate_inv _ _ _ _ _ _ (ek_honest _ _ _ H1) Hm1 B1 E1) as (K1 & C1 & L1).
    destruct (encapsulate_inv _ _ _ _ _ _ (ek_honest _ _ _ H2) Hm2 B2 E2) as (K2 & C2 & L2).
    destruct (honest_ek_valid hs Hhs P HP ek1 H1) as [V1 h1]. destruct (honest_ek_valid hs Hhs P HP ek2 H2) as [V2 h2].
    rewrite encaps_key_as_bytes_ok in B1 by exact V1. rewrite encaps_key_as_bytes_ok in B2 by exact V2.
    apply Ok_inj in B1. apply Ok_inj in B2. rewrite B1 in h1. rewrite B2 in h2.
    fold H in h1, h2. rewrite h1 in *. rewrite h2 in *.
    destruct (list_eq_dec Z.eq_dec (m1 ++ H ekb1) (m2 ++ H ekb2)) as [Q|N].
    - destruct (app_inj_len m1 m2 _ _ ltac:(rewrite (proj1 Hm1), (proj1 Hm2); reflexivity) Q) as [-> Qh].
      destruct (list_eq_dec Z.eq_dec ekb1 ekb2) as [->|N].
      + left. split; [reflexivity|]. split; [reflexivity|].
        apply (Encrypt_mono hs P n1 (Nat.max n1 n2)) in C1; [|lia]. apply (Encrypt_mono hs P n2 (Nat.max n1 n2)) in C2; [|lia].
        rewrite C1 in C2. apply Some_inj. exact C2.
      + right. right. split; assumption.
    - right. left. split; [exact N|]. rewrite <- K1. exact K2.
  Qed.

  (** keys embedded in a parsed decapsulation key carry any h: they commit to h instead *)
  Theorem C46_embedded n1 n2 dk1 dk2 b1 b2 m1 m2 c1 c2 K :
    reachable_dk hs P dk1 -> reachable_dk hs P dk2 -> byte_string 32 m1 -> byte_string 32 m2 ->
    decaps_key_as_bytes P dk1 = Ok b1 -> decaps_key_as_bytes P dk2 = Ok b2 ->
    encapsulate_deterministic hs P n1 (encapsulation_key dk1) m1 = Ok (c1, K) ->
    encapsulate_deterministic hs P n2 (encapsulation_key dk2) m2 = Ok (c2, K) ->
    (dk_sec_h P b1 = dk_sec_h P b2 /\ m1 = m2) \/
    collide G1 (m1 ++ dk_sec_h P b1) (m2 ++ dk_sec_h P b2).
  Proof.
    intros H1 H2 Hm1 Hm2 B1 B2 E1 E2.
    pose proof (reachable_dk_valid hs Hhs P HP dk1 H1) as V1. pose proof (reachable_dk_valid hs Hhs P HP dk2 H2) as V2.
    destruct (encapsulate_inv _ _ _ _ _ _ (ek_embedded _ _ _ H1) Hm1 (encaps_key_as_bytes_ok P _ (proj1 (proj2 V1))) E1) as (K1 & _ & L1).
    destruct (encapsulate_inv _ _ _ _ _ _ (ek_embedded _ _ _ H2) Hm2 (encaps_key_as_bytes_ok P _ (proj1 (proj2 V2))) E2) as (K2 & _ & L2).
    rewrite decaps_key_as_bytes_ok in B1 by exact V1. rewrite decaps_key_as_bytes_ok in B2 by exact V2.
    apply Ok_inj in B1. apply Ok_inj in B2. subst b1 b2.
    destruct (dkey_sections P dk1 V1) as (_ & _ & S1 & _). destruct (dkey_sections P dk2 V2) as (_ & _ & S2 & _).
    fold (dk_sec_h P (dkey_bytes P dk1)) in S1. fold (dk_sec_h P (dkey_bytes P dk2)) in S2.
    change (ek_h (encapsulation_key dk1)) with (ek_h (dk_ek dk1)) in *.
    change (ek_h (encapsulation_key dk2)) with (ek_h (dk_ek dk2)) in *. rewrite <- S1 in *. rewrite <- S2 in *.
    destruct (list_eq_dec Z.eq_dec (m1 ++ dk_sec_h P (dkey_bytes P dk1)) (m2 ++ dk_sec_h P (dkey_bytes P dk2))) as [Q|N].
    - left. destruct (app_inj_len m1 m2 _ _ ltac:(rewrite (proj1 Hm1), (proj1 Hm2); reflexivity) Q) as [-> Qh]. auto.
    - right. split; [exact N|]. rewrite <- K1. exact K2.
  Qed.

  (** ** C47: decapsulation *)

  Lemma Decaps_inv n b c K : Decaps_internal hs P n b c = Some K ->
    (K = G1 (recovered b c ++ dk_sec_h P b) /\
     KPKE_Encrypt hs P n (dk_sec_ek P b) (recovered b c) (snd (FIPS203.G hs (recovered b c ++ dk_sec_h P b))) = Some c) \/
    K = J (dk_sec_z P b ++ c).
  Proof.
    unfold Decaps_internal, recovered, dk_sec_pke, dk_sec_ek, dk_sec_h, dk_sec_z, G1.
    destruct (FIPS203.G hs _) as [K' r']. cbn [fst snd].
    match goal with |- context [KPKE_Encrypt hs P n ?a ?b ?c] => destruct (KPKE_Encrypt hs P n a b c) as [c'|] end; [|discriminate].
    destruct (list_eq_dec Z.eq_dec c c') as [<-|N]; intros E; apply Some_inj in E; subst K; [left|right]; auto.
  Qed.

  Definition same_or_collision (b1 b2 c1 c2 : list Z) : Prop :=
    let x1 := recovered b1 c1 ++ dk_sec_h P b1 in
    let x2 := recovered b2 c2 ++ dk_sec_h P b2 in
    let y1 := dk_sec_z P b1 ++ c1 in
    let y2 := dk_sec_z P b2 ++ c2 in
    (recovered b1 c1 = recovered b2 c2 /\ dk_sec_h P b1 = dk_sec_h P b2 /\
     (dk_sec_ek P b1 = dk_sec_ek P b2 -> c1 = c2)) \/
    (dk_sec_z P b1 = dk_sec_z P b2 /\ c1 = c2) \/
    collide G1 x1 x2 \/ collide J y1 y2 \/ G1 x1 = J y2 \/ J y1 = G1 x2.

  Lemma Decaps_binding n1 n2 b1 b2 c1 c2 K : length b1 = dk_len P -> length b2 = dk_len P ->
    Decaps_internal hs P n1 b1 c1 = Some K -> Decaps_internal hs P n2 b2 c2 = Some K ->
    same_or_collision b1 b2 c1 c2.
  Proof.
    intros L1 L2 E1 E2. unfold same_or_collision. cbv zeta.
    set (x1 := recovered b1 c1 ++ dk_sec_h P b1). set (x2 := recovered b2 c2 ++ dk_sec_h P b2).
    set (y1 := dk_sec_z P b1 ++ c1). set (y2 := dk_sec_z P b2 ++ c2).
    assert (Lm : length (recovered b1 c1) = length (recovered b2 c2))
      by exact (eq_trans (proj1 (KPKE_Decrypt_bytes P _ c1)) (eq_sym (proj1 (KPKE_Decrypt_bytes P _ c2)))).
    assert (Lz : length (dk_sec_z P b1) = length (dk_sec_z P b2)) by (unfold dk_sec_z; rewrite !skipn_length, L1, L2; reflexivity).
    pose proof (Decaps_inv _ _ _ _ E1) as A1. pose proof (Decaps_inv _ _ _ _ E2) as A2.
    fold x1 y1 in A1. fold x2 y2 in A2.
    destruct A1 as [[K1 C1]|K1]; destruct A2 as [[K2 C2]|K2].
    - destruct (list_eq_dec Z.eq_dec x1 x2) as [Q|N].
      + left. pose proof Q as Q'. unfold x1, x2 in Q'. apply app_inj_len in Q'; [|exact Lm]. destruct Q' as [Qm Qh].
        split; [exact Qm|]. split; [exact Qh|]. intros Qe. rewrite Q, Qm, Qe in C1.
        apply (Encrypt_mono hs P n1 (Nat.max n1 n2)) in C1; [|lia]. apply (Encrypt_mono hs P n2 (Nat.max n1 n2)) in C2; [|lia].
        rewrite C1 in C2. apply Some_inj. exact C2.
      + right. right. left. split; [exact N|]. rewrite <- K1. exact K2.
    - right. right. right. right. left. rewrite <- K1. exact K2.
    - right. right. right. right. right. rewrite <- K1. exact K2.
    - destruct (list_eq_dec Z.eq_dec y1 y2) as [Q|N].
      + right. left. unfold y1, y2 in Q. apply app_inj_len in Q; [|exact Lz]. exact Q.
      + right. right. right. left. split; [exact N|]. rewrite <- K1. exact K2.
  Qed.

  Lemma decapsulate_inv n dk b c K : reachable_dk hs P dk -> byte_string (ct_len P) c ->
    decaps_key_as_bytes P dk = Ok b -> decapsulate hs P n dk c = Ok K ->
    Decaps_internal hs P n b c = Some K /\ length b = dk_len P.
  Proof.
    intros Hdk Hc Eb E. pose proof (reachable_dk_valid hs Hhs P HP dk Hdk) as V.
    rewrite decaps_key_as_bytes_ok in Eb by exact V. apply Ok_inj in Eb. subst b.
    rewrite (decapsulate_ok hs Hhs P HP) in E by assumption. apply lift_ok in E.
    split; [exact E|]. exact (proj1 (dkey_bytes_ok P dk V)).
  Qed.

  (** any two decapsulations, with any keys: the keys need not be honest *)
  Theorem C47_decapsulation n1 n2 dk1 dk2 b1 b2 c1 c2 K :
    reachable_dk hs P dk1 -> reachable_dk hs P dk2 ->
    byte_string (ct_len P) c1 -> byte_string (ct_len P) c2 ->
    decaps_key_as_bytes P dk1 = Ok b1 -> decaps_key_as_bytes P dk2 = Ok b2 ->
    decapsulate hs P n1 dk1 c1 = Ok K -> decapsulate hs P n2 dk2 c2 = Ok K ->
    let x1 := recovered b1 c1 ++ dk_sec_h P b1 in
    let x2 := recovered b2 c2 ++ dk_sec_h P b2 in
    let y1 := dk_sec_z P b1 ++ c1 in
    let y2 := dk_sec_z P b2 ++ c2 in
    (** both accept, with the same message and the same h *)
    (recovered b1 c1 = recovered b2 c2 /\ dk_sec_h P b1 = dk_sec_h P b2 /\
     (dk_sec_ek P b1 = dk_sec_ek P b2 -> c1 = c2)) \/
    (** both reject, the same ciphertext with the same z *)
    (dk_sec_z P b1 = dk_sec_z P b2 /\ c1 = c2) \/
    (** a collision in G, in J or between them *)
    collide G1 x1 x2 \/ collide J y1 y2 \/ G1 x1 = J y2 \/ J y1 = G1 x2.
  Proof.
    intros H1 H2 Hc1 Hc2 B1 B2 E1 E2.
    destruct (decapsulate_inv _ _ _ _ _ H1 Hc1 B1 E1) as [A1 L1].
    destruct (decapsulate_inv _ _ _ _ _ H2 Hc2 B2 E2) as [A2 L2].
    exact (Decaps_binding _ _ _ _ _ _ _ L1 L2 A1 A2).
  Qed.

  (** one key, honest or not: the shared secret commits to the ciphertext *)
  Theorem C47_ciphertext n1 n2 dk b c1 c2 K :
    reachable_dk hs P dk -> byte_string (ct_len P) c1 -> byte_string (ct_len P) c2 ->
    decaps_key_as_bytes P dk = Ok b ->
    decapsulate hs P n1 dk c1 = Ok K -> decapsulate hs P n2 dk c2 = Ok K ->
    let h := dk_sec_h P b in
    let z := dk_sec_z P b in
    c1 = c2 \/ collide G1 (recovered b c1 ++ h) (recovered b c2 ++ h) \/ collide J (z ++ c1) (z ++ c2) \/
    G1 (recovered b c1 ++ h) = J (z ++ c2) \/ J (z ++ c1) = G1 (recovered b c2 ++ h).
  Proof.
    intros Hdk Hc1 Hc2 Eb E1 E2 h z.
    destruct (C47_decapsulation n1 n2 dk dk b b c1 c2 K Hdk Hdk Hc1 Hc2 Eb Eb E1 E2) as [(_ & _ & W)|[(_ & W)|W]].
    - left. apply W. reflexivity.
    - left. exact W.
    - right. exact W.
  Qed.

  (** two generated keys: equal shared secrets mean the same key pair and ciphertext, up to z,
      or the rejection of one ciphertext by two keys that share z *)
  Theorem C47_generated_keys n1 n2 m1 m2 d1 z1 d2 z2 dk1 ek1 dk2 ek2 ekb1 ekb2 b1 b2 c1 c2 K :
    byte_string 32 d1 -> byte_string 32 z1 -> byte_string 32 d2 -> byte_string 32 z2 ->
    kem_generate_deterministic hs P m1 d1 z1 = Ok (dk1, ek1) ->
    kem_generate_deterministic hs P m2 d2 z2 = Ok (dk2, ek2) ->
    encaps_key_as_bytes P ek1 = Ok ekb1 -> encaps_key_as_bytes P ek2 = Ok ekb2 ->
    decaps_key_as_bytes P dk1 = Ok b1 -> decaps_key_as_bytes P dk2 = Ok b2 ->
    byte_string (ct_len P) c1 -> byte_string (ct_len P) c2 ->
    decapsulate hs P n1 dk1 c1 = Ok K -> decapsulate hs P n2 dk2 c2 = Ok K ->
    let x1 := recovered b1 c1 ++ H ekb1 in
    let x2 := recovered b2 c2 ++ H ekb2 in
    (ekb1 = ekb2 /\ c1 = c2) \/ (z1 = z2 /\ c1 = c2) \/
    collide H ekb1 ekb2 \/ collide G1 x1 x2 \/ collide J (z1 ++ c1) (z2 ++ c2) \/
    G1 x1 = J (z2 ++ c2) \/ J (z1 ++ c1) = G1 x2.
  Proof.
    intros Hd1 Hz1 Hd2 Hz2 G1' G2' Be1 Be2 Bd1 Bd2 Hc1 Hc2 E1 E2.
    assert (S : forall n d z dk ek ekb b, byte_string 32 d -> byte_string 32 z ->
              kem_generate_deterministic hs P n d z = Ok (dk, ek) -> encaps_key_as_bytes P ek = Ok ekb ->
              decaps_key_as_bytes P dk = Ok b ->
              dk_sec_ek P b = ekb /\ dk_sec_h P b = H ekb /\ dk_sec_z P b = z).
    { intros n d z dk ek ekb b Hd Hz E Be Bd. pose proof (generate_ok hs Hhs P HP n d z (proj2 Hd) Hz) as W.
      destruct (KeyGen_internal hs P n d z) as [[e0 d0]|]; [|congruence].
      destruct W as (dk' & W1 & V & W2 & W3 & W4 & W5). rewrite W1 in E. apply Ok_inj in E.
      pose proof (f_equal fst E) as Q1. pose proof (f_equal snd E) as Q2. cbn [fst snd] in Q1, Q2. subst dk' ek.
      rewrite encaps_key_as_bytes_ok in Be by apply V. rewrite decaps_key_as_bytes_ok in Bd by exact V.
      apply Ok_inj in Be. apply Ok_inj in Bd. subst ekb b.
      destruct (dkey_sections P dk V) as (_ & S2 & S3 & S4). unfold dk_sec_ek, dk_sec_h, dk_sec_z.
      rewrite S2, S3, S4, W4, W5, W3. auto. }
    destruct (S _ _ _ _ _ _ _ Hd1 Hz1 G1' Be1 Bd1) as (A1 & A2 & A3).
    destruct (S _ _ _ _ _ _ _ Hd2 Hz2 G2' Be2 Bd2) as (A4 & A5 & A6). clear S.
    pose proof (C47_decapsulation n1 n2 dk1 dk2 b1 b2 c1 c2 K
      (dk_generated_deterministic _ _ _ _ _ _ _ Hd1 Hz1 G1') (dk_generated_deterministic _ _ _ _ _ _ _ Hd2 Hz2 G2')
      Hc1 Hc2 Bd1 Bd2 E1 E2) as W. cbv zeta in W |- *. rewrite A1, A2, A3, A4, A5, A6 in W.
    destruct W as [(_ & Qh & Q)|W].
    - destruct (list_eq_dec Z.eq_dec ekb1 ekb2) as [Qe|N]; [left; auto|]. right. right. left. split; assumption.
    - right. destruct W as [W|W]; [left; exact W|]. right. right. exact W.
  Qed.

  (** ** C48: h is taken from the key bytes unchecked, and then nothing ties the secret to the key *)

  (** a key with its stored h overwritten *)
  Definition with_h (b h : list Z) : list Z := dk_sec_pke P b ++ dk_sec_ek P b ++ h ++ dk_sec_z P b.

  Lemma stored_h n d z dk ek b Ah h m : (du P <= 11)%nat -> (dv P <= 11)%nat ->
    byte_string 32 d -> byte_string 32 z -> byte_string 32 h -> byte_string 32 m ->
    kem_generate_deterministic hs P n d z = Ok (dk, ek) -> decaps_key_as_bytes P dk = Ok b ->
    A_hat hs P n (key_rho hs P d) = Some Ah ->
    noise_in_range hs P (map (map NTTinv) Ah) d m (snd (FIPS203.G hs (m ++ h))) ->
    exists dk' c, decaps_key_from_bytes P (with_h b h) = Ok dk' /\ byte_string (ct_len P) c /\
      decapsulate hs P n dk' c = Ok (G1 (m ++ h)).
  Proof.
    intros Hdu Hdv Hd Hz Hh Hm Eg Eb EA HN.
    assert (Bdu : (1 <= du P <= 11)%nat) by (pose proof HP as (_ & _ & _ & W & _); lia).
    assert (Bdv : (1 <= dv P <= 11)%nat) by (pose proof HP as (_ & _ & _ & _ & W); lia).
    pose proof (generate_ok hs Hhs P HP n d z (proj2 Hd) Hz) as W.
    destruct (decrypt_encrypt hs Hhs P HP Bdu Bdv n d Ah (proj2 Hd) EA) as (ekb' & dkb & E1 & E).
    unfold KeyGen_internal in W. rewrite E1 in W.
    destruct W as (dk0 & W1 & V & W2 & W3 & W4 & W5). rewrite W1 in Eg. apply Ok_inj in Eg.
    pose proof (f_equal fst Eg) as Q1. cbn [fst] in Q1. subst dk0. clear Eg W1.
    rewrite decaps_key_as_bytes_ok in Eb by exact V. apply Ok_inj in Eb. subst b.
    destruct (dkey_sections P dk V) as (S1 & S2 & S3 & S4).
    assert (Edk : dk_bytes P (dk_pke dk) = dkb).
    { rewrite <- S1, W2. apply firstn_app_exact. unfold KPKE_KeyGen in E1.
      destruct (FIPS203.G hs (d ++ [Z.of_nat (pk P)])) as [rho sigma].
      destruct (A_hat hs P n rho); [|discriminate]. apply Some_inj in E1.
      pose proof (f_equal snd E1) as E4. cbn [snd] in E4. rewrite <- E4. apply encode_vec12_bytes. }
    unfold with_h, dk_sec_pke, dk_sec_ek, dk_sec_z. rewrite S1, S2, S4.
    pose (dk' := {| dk_pke := dk_pke dk; dk_ek := {| ek_pke := ek_pke (dk_ek dk); ek_h := h |}; dk_z := dk_z dk |}).
    assert (V' : valid_decaps_key P dk').
    { destruct V as (V1 & (V2 & V3) & V4). repeat split; try apply V1; try apply V2; try apply Hh; apply V4. }
    change (dk_bytes P (dk_pke dk) ++ ekey_bytes P (dk_ek dk) ++ h ++ dk_z dk) with (dkey_bytes P dk').
    assert (Lb : byte_string (384 * pk P + ((384 * pk P + 32) + (32 + 32))) (dkey_bytes P dk')).
    { unfold dkey_bytes. apply byte_string_app; [apply dk_bytes_ok|]. apply byte_string_app; [apply ekey_bytes_ok, V'|].
      apply byte_string_app; [exact Hh|apply V']. }
    replace (384 * pk P + ((384 * pk P + 32) + (32 + 32)))%nat with (768 * pk P + 96)%nat in Lb by lia.
    exists dk', (enc_ct hs P (map (map NTTinv) Ah) d m (snd (FIPS203.G hs (m ++ h)))).
    split. { rewrite (decaps_key_from_bytes_ok P HP) by exact Lb. rewrite dkey_parse_bytes by exact V'. reflexivity. }
    destruct (E m (snd (FIPS203.G hs (m ++ h)))) as [E2 E3]. rewrite (proj2 (decodes_iff m _ Hm) HN) in E3.
    set (c := enc_ct _ _ _ _ _ _) in *. clearbody c.
    assert (Hc : byte_string (ct_len P) c) by (eapply KPKE_Encrypt_bytes; exact E2).
    split; [exact Hc|]. rewrite (decapsulate_ok hs Hhs P HP) by assumption.
    destruct (dkey_sections P dk' V') as (T1 & T2 & T3 & T4). unfold Decaps_internal. rewrite T1, T2, T3, T4.
    cbn [dk' dk_pke dk_ek ek_h ek_pke dk_z]. change (ekey_bytes P {| ek_pke := ek_pke (dk_ek dk); ek_h := h |}) with (ekey_bytes P (dk_ek dk)).
    rewrite Edk, E3, W3. unfold G1. destruct (FIPS203.G hs (m ++ h)) as [K r]. cbn [fst snd] in *. rewrite E2.
    destruct (list_eq_dec Z.eq_dec c c) as [_|N]; [reflexivity|congruence].
  Qed.

  Theorem C48_unchecked_hash n d1 z1 d2 z2 dk1 ek1 dk2 ek2 b1 b2 Ah1 Ah2 h m :
    (du P <= 11)%nat -> (dv P <= 11)%nat ->
    byte_string 32 d1 -> byte_string 32 z1 -> byte_string 32 d2 -> byte_string 32 z2 ->
    byte_string 32 h -> byte_string 32 m ->
    kem_generate_deterministic hs P n d1 z1 = Ok (dk1, ek1) -> decaps_key_as_bytes P dk1 = Ok b1 ->
    kem_generate_deterministic hs P n d2 z2 = Ok (dk2, ek2) -> decaps_key_as_bytes P dk2 = Ok b2 ->
    A_hat hs P n (key_rho hs P d1) = Some Ah1 -> A_hat hs P n (key_rho hs P d2) = Some Ah2 ->
    noise_in_range hs P (map (map NTTinv) Ah1) d1 m (snd (FIPS203.G hs (m ++ h))) ->
    noise_in_range hs P (map (map NTTinv) Ah2) d2 m (snd (FIPS203.G hs (m ++ h))) ->
    exists dk1' dk2' c1 c2,
      decaps_key_from_bytes P (with_h b1 h) = Ok dk1' /\ decaps_key_from_bytes P (with_h b2 h) = Ok dk2' /\
      decapsulate hs P n dk1' c1 = Ok (G1 (m ++ h)) /\ decapsulate hs P n dk2' c2 = Ok (G1 (m ++ h)).
  Proof.
    intros Hdu Hdv Hd1 Hz1 Hd2 Hz2 Hh Hm Eg1 Eb1 Eg2 Eb2 EA1 EA2 HN1 HN2.
    destruct (stored_h n d1 z1 dk1 ek1 b1 Ah1 h m Hdu Hdv Hd1 Hz1 Hh Hm Eg1 Eb1 EA1 HN1) as (dk1' & c1 & A1 & _ & A2).
    destruct (stored_h n d2 z2 dk2 ek2 b2 Ah2 h m Hdu Hdv Hd2 Hz2 Hh Hm Eg2 Eb2 EA2 HN2) as (dk2' & c2 & A3 & _ & A4).
    exists dk1', dk2', c1, c2. auto.
  Qed.
End Binding.

(** ** C49: X-Wing *)
Section XBinding.
  Variable hs : hashes.
  Hypothesis Hhs : hash_ok hs.
  Variable X : x25519_impl.
  Hypothesis HX : x25519_ok X.
  Let G1 (x : list Z) : list Z := fst (FIPS203.G hs x).
  Let J := FIPS203.J hs.
  Let D := recovered ML_KEM_768.

  (** the 134 bytes hashed into the shared secret *)
  Definition transcript (ssM ssX ctX pkX : list Z) : list Z := XWingLabel ++ ssM ++ ssX ++ ctX ++ pkX.

  Lemma transcript_inj a b c d a' b' c' d' : length a = length a' -> length b = length b' -> length c = length c' ->
    transcript a b c d = transcript a' b' c' d' -> a = a' /\ b = b' /\ c = c' /\ d = d'.
  Proof.
    intros La Lb Lc E. apply app_inv_head in E.
    apply app_inj_len in E; [|exact La]. destruct E as [-> E]. apply app_inj_len in E; [|exact Lb]. destruct E as [-> E].
    apply app_inj_len in E; [|exact Lc]. destruct E as [-> ->]. auto.
  Qed.

  Lemma X_lengths n sk ctb skM skX pkM pkX : byte_string 32 sk -> byte_string 1120 ctb ->
    XW_expand hs (x25519 X) n sk = Some (skM, skX, pkM, pkX) ->
    byte_string 32 (x25519 X skX (bytes32 1088 ctb)) /\ byte_string 32 (bytes32 1088 ctb) /\
    length skM = dk_len ML_KEM_768 /\ bytes skM /\ dk_sec_ek ML_KEM_768 skM = pkM /\
    dk_sec_h ML_KEM_768 skM = sha3_256 hs pkM /\ dk_sec_z ML_KEM_768 skM = bytes32 32 (SHAKE128 hs sk 96).
  Proof.
    intros Hsk Hct E. destruct HX as [HX1 HX2].
    pose proof (expand_ok hs Hhs X HX1 HX2 n sk Hsk) as W. rewrite E in W.
    destruct W as (dk & _ & W1 & V & W2 & W3 & W4 & _).
    assert (Hx : byte_string 32 (bytes32 1088 ctb)) by (apply bytes32_ok; [apply Hct|rewrite (proj1 Hct); lia]).
    unfold XW_expand in E. cbv zeta in E.
    destruct (KeyGen_internal hs ML_KEM_768 n (bytes32 0 (SHAKE128 hs sk 96)) (bytes32 32 (SHAKE128 hs sk 96)))
      as [[a b]|] eqn:EK; [|discriminate].
    apply Some_inj in E. pose proof (f_equal (fun x => snd (fst (fst x))) E) as Q. cbn [fst snd] in Q. clear E.
    split; [apply HX1; [rewrite <- Q; apply shake_parts; [exact Hhs|apply Hsk|lia]|exact Hx]|].
    split; [exact Hx|]. rewrite <- W2. destruct (dkey_bytes_ok ML_KEM_768 dk V) as [L B].
    split; [exact L|]. split; [exact B|]. destruct (dkey_sections ML_KEM_768 dk V) as (_ & S2 & S3 & S4).
    unfold dk_sec_ek, dk_sec_h, dk_sec_z. rewrite S2, S3, S4. split; [exact W3|]. split; [exact W4|].
    pose proof (generate_ok hs Hhs ML_KEM_768 wf_768 n (bytes32 0 (SHAKE128 hs sk 96)) (bytes32 32 (SHAKE128 hs sk 96))
      (proj2 (shake_parts hs Hhs sk 0 (proj2 Hsk) ltac:(lia))) (shake_parts hs Hhs sk 32 (proj2 Hsk) ltac:(lia))) as G.
    rewrite EK in G. destruct G as (dk' & G1' & _ & _ & _ & _ & G5). rewrite W1 in G1'. apply Ok_inj in G1'.
    pose proof (f_equal fst G1') as G6. cbn [fst] in G6. rewrite G6. exact G5.
  Qed.

  Lemma X_decaps_inv n sk ctb ss : byte_string 32 sk -> byte_string 1120 ctb ->
    (let* ct := xw_ct_from ctb in xw_decapsulate hs X n (xw_dk_from sk) ct) = Ok ss ->
    exists skM skX pkM pkX ssM,
      XW_expand hs (x25519 X) n sk = Some (skM, skX, pkM, pkX) /\
      Decaps_internal hs ML_KEM_768 n skM (firstn 1088 ctb) = Some ssM /\
      ss = sha3_256 hs (transcript ssM (x25519 X skX (bytes32 1088 ctb)) (bytes32 1088 ctb) pkX).
  Proof.
    intros Hsk Hct E. rewrite (C35_bytes hs Hhs X HX) in E by assumption. apply lift_ok in E.
    unfold XW_Decaps in E. destruct (XW_expand hs (x25519 X) n sk) as [[[[skM skX] pkM] pkX]|]; [|discriminate].
    cbv zeta in E. destruct (Decaps_internal hs ML_KEM_768 n skM (firstn 1088 ctb)) as [ssM|] eqn:ED; [|discriminate].
    apply Some_inj in E. exists skM, skX, pkM, pkX, ssM. split; [reflexivity|]. split; [exact ED|]. symmetry. exact E.
  Qed.

  (** Two decapsulations with equal shared secrets, from any seeds and any ciphertexts: the
      key pair (except what only implicit rejection uses) and the ciphertext are the same, or
      one of the named pairs is a collision. *)
  Theorem C49_decapsulation n1 n2 sk1 sk2 ctb1 ctb2 ss :
    byte_string 32 sk1 -> byte_string 32 sk2 -> byte_string 1120 ctb1 -> byte_string 1120 ctb2 ->
    (let* ct := xw_ct_from ctb1 in xw_decapsulate hs X n1 (xw_dk_from sk1) ct) = Ok ss ->
    (let* ct := xw_ct_from ctb2 in xw_decapsulate hs X n2 (xw_dk_from sk2) ct) = Ok ss ->
    exists skM1 skX1 pkM1 pkX1 skM2 skX2 pkM2 pkX2 ssM1 ssM2,
      XW_expand hs (x25519 X) n1 sk1 = Some (skM1, skX1, pkM1, pkX1) /\
      XW_expand hs (x25519 X) n2 sk2 = Some (skM2, skX2, pkM2, pkX2) /\
      let ctM1 := firstn 1088 ctb1 in let ctX1 := bytes32 1088 ctb1 in
      let ctM2 := firstn 1088 ctb2 in let ctX2 := bytes32 1088 ctb2 in
      let z1 := bytes32 32 (SHAKE128 hs sk1 96) in let z2 := bytes32 32 (SHAKE128 hs sk2 96) in
      let x1 := D skM1 ctM1 ++ sha3_256 hs pkM1 in let x2 := D skM2 ctM2 ++ sha3_256 hs pkM2 in
      (ctb1 = ctb2 /\ pkX1 = pkX2 /\ x25519 X skX1 ctX1 = x25519 X skX2 ctX2 /\ (pkM1 = pkM2 \/ z1 = z2)) \/
      collide (sha3_256 hs) (transcript ssM1 (x25519 X skX1 ctX1) ctX1 pkX1) (transcript ssM2 (x25519 X skX2 ctX2) ctX2 pkX2) \/
      collide (sha3_256 hs) pkM1 pkM2 \/ collide G1 x1 x2 \/ collide J (z1 ++ ctM1) (z2 ++ ctM2) \/
      G1 x1 = J (z2 ++ ctM2) \/ J (z1 ++ ctM1) = G1 x2.
  Proof.
    intros Hs1 Hs2 Hc1 Hc2 E1 E2.
    destruct (X_decaps_inv _ _ _ _ Hs1 Hc1 E1) as (skM1 & skX1 & pkM1 & pkX1 & ssM1 & A1 & B1 & C1).
    destruct (X_decaps_inv _ _ _ _ Hs2 Hc2 E2) as (skM2 & skX2 & pkM2 & pkX2 & ssM2 & A2 & B2 & C2).
    exists skM1, skX1, pkM1, pkX1, skM2, skX2, pkM2, pkX2, ssM1, ssM2. split; [exact A1|]. split; [exact A2|].
    cbv zeta.
    destruct (X_lengths _ _ _ _ _ _ _ Hs1 Hc1 A1) as (U1 & U2 & U3 & U4 & U5 & U6 & U7).
    destruct (X_lengths _ _ _ _ _ _ _ Hs2 Hc2 A2) as (T1 & T2 & T3 & T4 & T5 & T6 & T7).
    match goal with |- _ \/ collide _ ?a ?b \/ _ => destruct (list_eq_dec Z.eq_dec a b) as [Q|N] end;
      [|right; left; split; [exact N|rewrite <- C1; exact C2]].
    assert (LM : length ssM1 = length ssM2).
    { pose proof (Decaps_internal_bytes hs Hhs ML_KEM_768 _ _ _ _ U4 (bytes_firstn _ _ (proj2 Hc1)) B1) as [L1 _].
      pose proof (Decaps_internal_bytes hs Hhs ML_KEM_768 _ _ _ _ T4 (bytes_firstn _ _ (proj2 Hc2)) B2) as [L2 _].
      exact (eq_trans L1 (eq_sym L2)). }
    apply transcript_inj in Q; [|exact LM|exact (eq_trans (proj1 U1) (eq_sym (proj1 T1)))|exact (eq_trans (proj1 U2) (eq_sym (proj1 T2)))].
    destruct Q as (QM & QX & QC & QP). subst ssM2.
    assert (QB : firstn 1088 ctb1 = firstn 1088 ctb2 -> ctb1 = ctb2).
    { intros QB. rewrite <- (firstn_skipn 1088 ctb1), <- (firstn_skipn 1088 ctb2), QB. f_equal.
      unfold bytes32 in QC. rewrite !firstn_all2 in QC; [exact QC| |];
        rewrite skipn_length; rewrite ?(proj1 Hc1), ?(proj1 Hc2); lia. }
    pose proof (Decaps_binding hs ML_KEM_768 n1 n2 skM1 skM2 _ _ ssM1 U3 T3 B1 B2) as W.
    unfold same_or_collision in W. cbv zeta in W. rewrite U5, U6, U7, T5, T6, T7 in W.
    destruct W as [(_ & Qh & Qc)|[(Qz & Qc)|W]].
    - destruct (list_eq_dec Z.eq_dec pkM1 pkM2) as [Qe|N].
      + left. split; [apply QB, Qc, Qe|]. split; [exact QP|]. split; [exact QX|]. left. exact Qe.
      + right. right. left. split; assumption.
    - left. split; [apply QB, Qc|]. split; [exact QP|]. split; [exact QX|]. right. exact Qz.
    - right. right. right. exact W.
  Qed.

  (** one key: the shared secret commits to the whole ciphertext *)
  Theorem C49_ciphertext n1 n2 sk ctb1 ctb2 ss :
    byte_string 32 sk -> byte_string 1120 ctb1 -> byte_string 1120 ctb2 ->
    (let* ct := xw_ct_from ctb1 in xw_decapsulate hs X n1 (xw_dk_from sk) ct) = Ok ss ->
    (let* ct := xw_ct_from ctb2 in xw_decapsulate hs X n2 (xw_dk_from sk) ct) = Ok ss ->
    exists skM skX pkM pkX ssM1 ssM2,
      XW_expand hs (x25519 X) n1 sk = Some (skM, skX, pkM, pkX) /\
      let ctM1 := firstn 1088 ctb1 in let ctX1 := bytes32 1088 ctb1 in
      let ctM2 := firstn 1088 ctb2 in let ctX2 := bytes32 1088 ctb2 in
      let z := bytes32 32 (SHAKE128 hs sk 96) in
      let x1 := D skM ctM1 ++ sha3_256 hs pkM in let x2 := D skM ctM2 ++ sha3_256 hs pkM in
      ctb1 = ctb2 \/
      collide (sha3_256 hs) (transcript ssM1 (x25519 X skX ctX1) ctX1 pkX) (transcript ssM2 (x25519 X skX ctX2) ctX2 pkX) \/
      collide G1 x1 x2 \/ collide J (z ++ ctM1) (z ++ ctM2) \/ G1 x1 = J (z ++ ctM2) \/ J (z ++ ctM1) = G1 x2.
  Proof.
    intros Hs Hc1 Hc2 E1 E2.
    destruct (C49_decapsulation n1 n2 sk sk ctb1 ctb2 ss Hs Hs Hc1 Hc2 E1 E2)
      as (skM1 & skX1 & pkM1 & pkX1 & skM2 & skX2 & pkM2 & pkX2 & ssM1 & ssM2 & A1 & A2 & W).
    assert (Q : (skM1, skX1, pkM1, pkX1) = (skM2, skX2, pkM2, pkX2)).
    { unfold XW_expand in A1, A2. cbv zeta in A1, A2.
      destruct (KeyGen_internal hs ML_KEM_768 n1 _ _) as [[a b]|] eqn:K1; [|discriminate].
      destruct (KeyGen_internal hs ML_KEM_768 n2 _ _) as [[a' b']|] eqn:K2; [|discriminate].
      apply (KeyGen_mono hs ML_KEM_768 n1 (Nat.max n1 n2)) in K1; [|lia].
      apply (KeyGen_mono hs ML_KEM_768 n2 (Nat.max n1 n2)) in K2; [|lia].
      rewrite K1 in K2. apply Some_inj in K2. pose proof (f_equal fst K2) as Q1. pose proof (f_equal snd K2) as Q2.
      cbn [fst snd] in Q1, Q2. subst a' b'. rewrite A1 in A2. apply Some_inj. exact A2. }
    pose proof (f_equal (fun x => fst (fst (fst x))) Q) as Q1. pose proof (f_equal (fun x => snd (fst (fst x))) Q) as Q2.
    pose proof (f_equal (fun x => snd (fst x)) Q) as Q3. pose proof (f_equal snd Q) as Q4.
    cbn [fst snd] in Q1, Q2, Q3, Q4. subst skM2 skX2 pkM2 pkX2.
    exists skM1, skX1, pkM1, pkX1, ssM1, ssM2. split; [exact A1|]. cbv zeta in *.
    destruct W as [[W _]|[W|[[W _]|W]]]; [left; exact W|right; left; exact W|congruence|right; right; exact W].
  Qed.
End XBinding.

(** ** Concrete cases, with the functions of Tests/Toy.v *)

(** the toy G collides: adding 1 to a byte and subtracting 31 from the next one is not seen *)
Definition twin (m : list Z) : list Z := match m with a :: b :: r => (a + 1) :: (b - 31) :: r | _ => m end.
Lemma twin_ok : byte_string 32 (twin (seed 30)).
Proof. split; [reflexivity|]. vm_compute. repeat constructor; discriminate. Qed.

Definition two_messages (gen : res (decaps_key * encaps_key)) (enc : encaps_key -> list Z -> res (list Z * list Z))
  (dec : decaps_key -> list Z -> res (list Z)) (m1 m2 : list Z) : bool :=
  match gen with Ok (dk, ek) =>
    match enc ek m1, enc ek m2 with
    | Ok (c1, K1), Ok (c2, K2) =>
        match dec dk c1, dec dk c2 with
        | Ok K1', Ok K2' => same K1 K2 && same K1' K1 && same K2' K2 && negb (same c1 c2) && negb (same m1 m2)
        | _, _ => false end
    | _, _ => false end
  | _ => false end.
Lemma two_messages_inv gen enc dec m1 m2 : two_messages gen enc dec m1 m2 = true ->
  exists dk ek c1 c2 K, gen = Ok (dk, ek) /\ enc ek m1 = Ok (c1, K) /\ enc ek m2 = Ok (c2, K) /\
    dec dk c1 = Ok K /\ dec dk c2 = Ok K /\ c1 <> c2 /\ m1 <> m2.
Proof.
  unfold two_messages, same. destruct gen as [[dk ek]| | |]; try discriminate.
  destruct (enc ek m1) as [[c1 K1]| | |] eqn:E1; try discriminate.
  destruct (enc ek m2) as [[c2 K2]| | |] eqn:E2; try discriminate.
  destruct (dec dk c1) as [K1'| | |] eqn:E3; try discriminate. destruct (dec dk c2) as [K2'| | |] eqn:E4; try discriminate.
  destruct (list_eq_dec Z.eq_dec K1 K2) as [->|]; [|discriminate]. destruct (list_eq_dec Z.eq_dec K1' K2) as [->|]; [|discriminate].
  destruct (list_eq_dec Z.eq_dec K2' K2) as [->|]; [|discriminate]. destruct (list_eq_dec Z.eq_dec c1 c2) as [|N1]; [discriminate|].
  destruct (list_eq_dec Z.eq_dec m1 m2) as [|N2]; [discriminate|]. intros _. exists dk, ek, c1, c2, K2. repeat split; assumption.
Qed.
Lemma two_messages_runs : two_messages (kem_generate_deterministic toy ML_KEM_512 300 (seed 1) (seed 2))
  (encapsulate_deterministic toy ML_KEM_512 300) (decapsulate toy ML_KEM_512 300) (seed 30) (twin (seed 30)) = true.
Proof. vm_compute. reflexivity. Qed.

(** C46, C47: equal secrets for two messages and two ciphertexts under one honest key; the
    alternative that holds is the collision of G (so the alternatives cannot be dropped) *)
Example C46_C47_case : exists dk ek ekb b c1 c2 K,
  honest_ek toy ML_KEM_512 ek /\ reachable_dk toy ML_KEM_512 dk /\
  encaps_key_as_bytes ML_KEM_512 ek = Ok ekb /\ decaps_key_as_bytes ML_KEM_512 dk = Ok b /\
  byte_string (ct_len ML_KEM_512) c1 /\ byte_string (ct_len ML_KEM_512) c2 /\
  encapsulate_deterministic toy ML_KEM_512 300 ek (seed 30) = Ok (c1, K) /\
  encapsulate_deterministic toy ML_KEM_512 300 ek (twin (seed 30)) = Ok (c2, K) /\
  decapsulate toy ML_KEM_512 300 dk c1 = Ok K /\ decapsulate toy ML_KEM_512 300 dk c2 = Ok K /\
  c1 <> c2 /\
  collide (fun x => fst (FIPS203.G toy x)) (seed 30 ++ FIPS203.H toy ekb) (twin (seed 30) ++ FIPS203.H toy ekb).
Proof.
  destruct (two_messages_inv _ _ _ _ _ two_messages_runs) as (dk & ek & c1 & c2 & K & E1 & E2 & E3 & E4 & E5 & N1 & N2).
  assert (HP : wf_params ML_KEM_512) by apply C13_table_3.
  pose proof (dk_generated_deterministic _ _ _ _ _ _ _ (seed_ok 1) (seed_ok 2) E1) as Hdk.
  pose proof (ek_generated_deterministic _ _ _ _ _ _ _ (seed_ok 1) (seed_ok 2) E1) as Hek.
  pose proof (reachable_dk_valid toy toy_ok ML_KEM_512 HP dk Hdk) as V.
  destruct (honest_ek_valid toy toy_ok ML_KEM_512 HP ek Hek) as [V' _].
  exists dk, ek, (ekey_bytes ML_KEM_512 ek), (dkey_bytes ML_KEM_512 dk), c1, c2, K.
  pose proof (encaps_key_as_bytes_ok ML_KEM_512 ek V') as Eb.
  destruct (proj1 (proj2 (proj2 (C13_sizes toy toy_ok ML_KEM_512 HP))) 300%nat ek (seed 30) c1 K
             (ek_honest _ _ _ Hek) (seed_ok 30) E2) as [Hc1 _].
  destruct (proj1 (proj2 (proj2 (C13_sizes toy toy_ok ML_KEM_512 HP))) 300%nat ek (twin (seed 30)) c2 K
             (ek_honest _ _ _ Hek) twin_ok E3) as [Hc2 _].
  split; [exact Hek|]. split; [exact Hdk|]. split; [exact Eb|]. split; [exact (decaps_key_as_bytes_ok ML_KEM_512 dk V)|].
  split; [exact Hc1|]. split; [exact Hc2|]. split; [exact E2|]. split; [exact E3|]. split; [exact E4|]. split; [exact E5|].
  split; [exact N1|].
  destruct (C46_encapsulation toy toy_ok ML_KEM_512 HP 300 300 ek ek _ _ (seed 30) (twin (seed 30)) c1 c2 K
    Hek Hek (seed_ok 30) twin_ok Eb Eb E2 E3) as [(_ & Q & _)|[W|[Q _]]]; [contradiction|exact W|].
  exfalso. apply Q. reflexivity.
Qed.

(** C48: two different keys, one shared secret *)
Definition key_session (gen : res (decaps_key * encaps_key)) (ser : decaps_key -> res (list Z)) (y : res (list Z)) : bool :=
  match gen with Ok (dk, _) => match ser dk, y with Ok b, Ok b' => negb (same b b') | _, _ => false end | _ => false end.
Lemma key_session_inv gen ser y : key_session gen ser y = true ->
  exists dk ek b b', gen = Ok (dk, ek) /\ ser dk = Ok b /\ y = Ok b' /\ b <> b'.
Proof.
  unfold key_session, same. destruct gen as [[dk ek]| | |]; try discriminate. destruct (ser dk) as [b| | |] eqn:E; try discriminate.
  destruct y as [b'| | |]; try discriminate. destruct (list_eq_dec Z.eq_dec b b') as [|N]; [discriminate|].
  intros _. exists dk, ek, b, b'. auto.
Qed.
Section C48_case.
  Variable hs : hashes.
  Hypothesis Hhs : hash_ok hs.
  Variable P : params.
  Hypothesis HP : wf_params P.
  Hypothesis Hdu : (du P <= 11)%nat.
  Hypothesis Hdv : (dv P <= 11)%nat.
  Variables (n : nat) (d1 z1 d2 z2 h m : list Z).
  Hypothesis (Hd1 : byte_string 32 d1) (Hz1 : byte_string 32 z1) (Hd2 : byte_string 32 d2) (Hz2 : byte_string 32 z2)
    (Hh : byte_string 32 h) (Hm : byte_string 32 m).

  Definition coins : list Z := snd (FIPS203.G hs (m ++ h)).
  Definition ek_of (x : decaps_key) : res (list Z) :=
    let* b := decaps_key_as_bytes P x in Ok (dk_sec_ek P b).
  Hypothesis case_1 : pke_session (pke_generate hs P n d1) (fun ek => encrypt hs P n ek m coins) (decrypt P) m = true.
  Hypothesis case_2 : pke_session (pke_generate hs P n d2) (fun ek => encrypt hs P n ek m coins) (decrypt P) m = true.
  Hypothesis case_keys : key_session (kem_generate_deterministic hs P n d1 z1) ek_of
    (let* '(dk, _) := kem_generate_deterministic hs P n d2 z2 in ek_of dk) = true.

  Lemma case_noise d : byte_string 32 d ->
    pke_session (pke_generate hs P n d) (fun ek => encrypt hs P n ek m coins) (decrypt P) m = true ->
    exists Ah, A_hat hs P n (key_rho hs P d) = Some Ah /\
      noise_in_range hs P (map (map NTTinv) Ah) d m (snd (FIPS203.G hs (m ++ h))).
  Proof.
    intros Hd S. destruct (pke_session_inv _ _ _ _ S) as (dk & ek & c & E1 & E2 & E3).
    destruct (generate_A hs Hhs P HP n d _ (proj2 Hd) E1) as [Ah EA]. exists Ah. split; [exact EA|].
    assert (Hr : byte_string 32 coins) by (apply (G_bytes hs Hhs); apply bytes_app; [apply Hm|apply Hh]).
    fold coins.
    destruct (C04_kpke hs Hhs P HP Hdu Hdv n d m coins Ah Hd Hm Hr EA) as (dk' & ek' & c' & E1' & E2' & I).
    rewrite E1 in E1'. apply Ok_inj in E1'. pose proof (f_equal fst E1') as Q1. pose proof (f_equal snd E1') as Q2.
    cbn [fst snd] in Q1, Q2. subst dk' ek'.
    rewrite E2 in E2'. apply Ok_inj in E2'. subst c'. apply I. exact E3.
  Qed.

  Lemma two_keys_one_secret : exists b1 b2 dk1 dk2 c1 c2 K,
    dk_sec_ek P b1 <> dk_sec_ek P b2 /\
    decaps_key_from_bytes P (with_h P b1 h) = Ok dk1 /\ decaps_key_from_bytes P (with_h P b2 h) = Ok dk2 /\
    decapsulate hs P n dk1 c1 = Ok K /\ decapsulate hs P n dk2 c2 = Ok K.
  Proof.
    destruct (case_noise d1 Hd1 case_1) as (Ah1 & EA1 & N1). destruct (case_noise d2 Hd2 case_2) as (Ah2 & EA2 & N2).
    destruct (key_session_inv _ _ _ case_keys) as (dk1 & ek1 & e1 & e2 & E1 & B1 & E2 & N). unfold ek_of in B1.
    destruct (decaps_key_as_bytes P dk1) as [b1| | |] eqn:F1; try discriminate. cbn [bind] in B1. apply Ok_inj in B1. subst e1.
    destruct (kem_generate_deterministic hs P n d2 z2) as [[dk2 ek2]| | |] eqn:E3; try discriminate.
    cbn [bind] in E2. unfold ek_of in E2.
    destruct (decaps_key_as_bytes P dk2) as [b2| | |] eqn:F2; try discriminate. cbn [bind] in E2. apply Ok_inj in E2. subst e2.
    destruct (C48_unchecked_hash hs Hhs P HP n d1 z1 d2 z2 dk1 ek1 dk2 ek2 b1 b2 Ah1 Ah2 h m Hdu Hdv Hd1 Hz1 Hd2 Hz2 Hh Hm
      E1 F1 E3 F2 EA1 EA2 N1 N2) as (dk1' & dk2' & c1 & c2 & A1 & A2 & A3 & A4).
    exists b1, b2, dk1', dk2', c1, c2. eexists. split; [exact N|]. split; [exact A1|]. split; [exact A2|]. split; [exact A3|exact A4].
  Qed.
End C48_case.

Lemma case_1_runs : pke_session (pke_generate toy ML_KEM_512 300 (seed 1))
  (fun ek => encrypt toy ML_KEM_512 300 ek (seed 3) (coins toy (seed 9) (seed 3))) (decrypt ML_KEM_512) (seed 3) = true.
Proof. vm_compute. reflexivity. Qed.
Lemma case_2_runs : pke_session (pke_generate toy ML_KEM_512 300 (seed 5))
  (fun ek => encrypt toy ML_KEM_512 300 ek (seed 3) (coins toy (seed 9) (seed 3))) (decrypt ML_KEM_512) (seed 3) = true.
Proof. vm_compute. reflexivity. Qed.
Lemma case_keys_runs : key_session (kem_generate_deterministic toy ML_KEM_512 300 (seed 1) (seed 2)) (ek_of ML_KEM_512)
  (let* '(dk, _) := kem_generate_deterministic toy ML_KEM_512 300 (seed 5) (seed 6) in ek_of ML_KEM_512 dk) = true.
Proof. vm_compute. reflexivity. Qed.

Example C48_case : exists b1 b2 dk1 dk2 c1 c2 K,
  dk_sec_ek ML_KEM_512 b1 <> dk_sec_ek ML_KEM_512 b2 /\
  decaps_key_from_bytes ML_KEM_512 (with_h ML_KEM_512 b1 (seed 9)) = Ok dk1 /\
  decaps_key_from_bytes ML_KEM_512 (with_h ML_KEM_512 b2 (seed 9)) = Ok dk2 /\
  decapsulate toy ML_KEM_512 300 dk1 c1 = Ok K /\ decapsulate toy ML_KEM_512 300 dk2 c2 = Ok K.
Proof.
  exact (two_keys_one_secret toy toy_ok ML_KEM_512 (proj1 (proj2 (proj2 (proj2 C13_table_3))))
    ltac:(cbn [du ML_KEM_512]; lia) ltac:(cbn [dv ML_KEM_512]; lia) 300 (seed 1) (seed 2) (seed 5) (seed 6) (seed 9) (seed 3)
    (seed_ok 1) (seed_ok 2) (seed_ok 5) (seed_ok 6) (seed_ok 9) (seed_ok 3) case_1_runs case_2_runs case_keys_runs).
Qed.

(** C49: the hypotheses hold for the session of [xwing_case] *)
Example C49_case : exists ctb ss, byte_string 32 (seed 1) /\ byte_string 1120 ctb /\
  (let* ct := xw_ct_from ctb in xw_decapsulate toy toy_x25519 300 (xw_dk_from (seed 1)) ct) = Ok ss.
Proof.
  destruct xwing_case as (ek & ct & ctb & ss & s' & H1 & H2 & H3 & H4 & H5 & H6 & _). exists ctb, ss.
  split; [apply seed_ok|].
  destruct (C37_ciphertext toy toy_ok toy_x25519 toy_x25519_ok) as (W1 & W2 & _).
  split; [exact (W2 ct ctb H2 H5)|]. specialize (W1 ct H2). rewrite H5 in W1. cbn [bind] in W1. rewrite W1. exact H6.
Qed.

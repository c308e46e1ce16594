(** C33-C39: X-Wing against its draft (Spec/XWing.v), on byte strings.

    [hs] is any behaviour of SHA-3 and [X] any behaviour of the x25519-dalek crate that
    satisfies [x25519_ok]; [n] is the rejection-sampling budget as in Kem.v. *)
From Coq Require Import List ZArith Lia Bool Arith.
From Verif.Base Require Import Res Oracles.
From Verif.Spec Require Import FIPS203 Domains Noise XWing.
From Verif.Model Require Import Machine Util Algebra Compress Encode Crypto Sample Param Pke Kem XWing.
From Verif.Proofs Require Import Basics EncodeProofs VecEncode SampleProofs PkeProofs KemProofs XWingProofs.
From Verif.Tests Require Import Toy.
From Verif.Properties Require Import Kem KemCases Correctness.
Import ListNotations.
Open Scope Z_scope.

(** What is assumed of x25519-dalek: outputs are 32 bytes, and a public key is the secret
    applied to the base point. *)
Definition x25519_ok (X : x25519_impl) : Prop :=
  (forall k u, byte_string 32 k -> byte_string 32 u -> byte_string 32 (x25519 X k u)) /\
  (forall k, byte_string 32 k -> x25519_public X k = x25519 X k X25519_BASE).

(** the Diffie-Hellman identity, used by C36 only *)
Definition x25519_commutes (X : x25519_impl) : Prop :=
  forall a b, byte_string 32 a -> byte_string 32 b ->
    x25519 X a (x25519 X b X25519_BASE) = x25519 X b (x25519 X a X25519_BASE).

(** The fields of the Rust types are private: all the ways to obtain an encapsulation key
    or a ciphertext.  A decapsulation key is any 32-byte array. *)
Inductive reachable_xek (hs : hashes) (X : x25519_impl) : xw_encaps_key -> Prop :=
| xek_derived n sk ek : byte_string 32 sk ->
    xw_encapsulation_key hs X n (xw_dk_from sk) = Ok ek -> reachable_xek hs X ek
| xek_generated n g s dk ek s' : rng_ok g ->
    generate_key_pair hs X n g s = Ok (dk, ek, s') -> reachable_xek hs X ek
| xek_parsed b ek : byte_string 1216 b -> xw_ek_from hs b = Ok ek -> reachable_xek hs X ek.

Inductive reachable_xct (hs : hashes) (X : x25519_impl) : xw_ciphertext -> Prop :=
| xct_encapsulated n ek g s ct ss s' : reachable_xek hs X ek -> rng_ok g ->
    xw_encapsulate hs X n ek g s = Ok (ct, ss, s') -> reachable_xct hs X ct
| xct_parsed b ct : byte_string 1120 b -> xw_ct_from b = Ok ct -> reachable_xct hs X ct.

Section XW.
  Variable hs : hashes.
  Hypothesis Hhs : hash_ok hs.
  Variable X : x25519_impl.
  Hypothesis HX : x25519_ok X.

  Let HX1 := proj1 HX.
  Let HX2 := proj2 HX.

  Lemma derived_valid n sk ek : byte_string 32 sk ->
    xw_encapsulation_key hs X n (xw_dk_from sk) = Ok ek -> valid_xek hs ek.
  Proof.
    intros Hsk E. pose proof (xek_of_dk_ok hs Hhs X HX1 HX2 n sk Hsk) as W.
    destruct (XW_public hs (x25519 X) n sk) as [pkb|].
    - destruct W as (ek' & W & V & _). rewrite W in E. apply Ok_inj in E. subst. exact V.
    - rewrite W in E. discriminate.
  Qed.

  Lemma generate_key_pair_split n g s :
    generate_key_pair hs X n g s =
    let '(sk, s') := fill_bytes g s 32 in
    let* ek := xw_encapsulation_key hs X n (xw_dk_from sk) in Ok (xw_dk_from sk, ek, s').
  Proof. unfold generate_key_pair, xw_dk_generate, xw_generate. destruct (fill_bytes g s 32). reflexivity. Qed.

  Lemma reachable_xek_valid ek0 : reachable_xek hs X ek0 -> valid_xek hs ek0.
  Proof.
    intros [n sk ek' Hsk E|n g s dk ek' s' Hg E|b ek' Hb E].
    - exact (derived_valid n sk ek' Hsk E).
    - rewrite generate_key_pair_split in E. pose proof (Hg s 32%nat) as Hsk.
      destruct (fill_bytes g s 32) as [sk s1]. cbn [fst] in Hsk.
      destruct (xw_encapsulation_key hs X n (xw_dk_from sk)) as [ek| | |] eqn:Ek; try discriminate.
      cbn [bind] in E. apply Ok_inj in E. pose proof (f_equal (fun x => snd (fst x)) E) as E1. cbn [fst snd] in E1.
      subst ek'. exact (derived_valid n sk ek Hsk Ek).
    - destruct (xek_from_ok hs Hhs b Hb) as [E1 V]. rewrite E1 in E. apply Ok_inj in E. subst. exact V.
  Qed.

  Lemma reachable_xct_valid ct0 : reachable_xct hs X ct0 -> valid_ct ct0.
  Proof.
    intros [n ek g s ct' ss s' Hek Hg E|b ct' Hb E].
    - pose proof (xw_encapsulate_ok hs Hhs X HX1 n ek g s (reachable_xek_valid ek Hek) Hg) as W.
      destruct (fill_bytes g s 32) as [m s1]. destruct (fill_bytes g s1 32) as [e s2].
      destruct (XW_Encaps hs (x25519 X) n (xek_bytes ek) (m ++ e)) as [[ss' ctb]|].
      + destruct W as (ct & W & V & _). rewrite W in E. apply Ok_inj in E.
        pose proof (f_equal (fun x => fst (fst x)) E) as E1. cbn [fst] in E1. subst. exact V.
      + rewrite W in E. discriminate.
    - destruct (ct_from_ok b Hb) as [E1 V]. rewrite E1 in E. apply Ok_inj in E. subst. exact V.
  Qed.

  (** ** C33 *)
  Theorem C33_encapsulation_key n sk : byte_string 32 sk ->
    (let* ek := xw_encapsulation_key hs X n (xw_dk_from sk) in xw_ek_as_bytes ek) =
    lift (XW_public hs (x25519 X) n sk).
  Proof.
    intros Hsk. pose proof (xek_of_dk_ok hs Hhs X HX1 HX2 n sk Hsk) as W.
    destruct (XW_public hs (x25519 X) n sk) as [pkb|].
    - destruct W as (ek & -> & V & <-). cbn [bind lift]. apply (xek_as_bytes_ok hs), V.
    - rewrite W. reflexivity.
  Qed.
  (** key generation: one request of 32 bytes, which are the decapsulation key *)
  Theorem C33_generate n g s dk ek s' l l' :
    generate_key_pair hs X n (logged g) (s, l) = Ok (dk, ek, (s', l')) ->
    l' = l ++ [32]%nat /\ (xw_dk_as_bytes dk, s') = fill_bytes g s 32 /\
    xw_encapsulation_key hs X n dk = Ok ek.
  Proof.
    rewrite generate_key_pair_split. cbn [fill_bytes logged fst snd].
    destruct (fill_bytes g s 32) as [sk s1].
    destruct (xw_encapsulation_key hs X n (xw_dk_from sk)) as [ek'| | |] eqn:E; try discriminate. cbn [bind].
    intros Q. apply Ok_inj in Q. inversion Q. subst. split; [reflexivity|]. split; [reflexivity|]. exact E.
  Qed.
  Theorem C33_generate_bytes n g s : rng_ok g ->
    (let* '(dk, ek, s') := generate_key_pair hs X n g s in
     let* pkb := xw_ek_as_bytes ek in Ok (xw_dk_as_bytes dk, pkb, s')) =
    let '(sk, s') := fill_bytes g s 32 in
    let* pkb := lift (XW_public hs (x25519 X) n sk) in Ok (sk, pkb, s').
  Proof.
    intros Hg. rewrite generate_key_pair_split. pose proof (Hg s 32%nat) as Hsk.
    destruct (fill_bytes g s 32) as [sk s']. cbn [fst] in Hsk. rewrite <- C33_encapsulation_key by exact Hsk.
    destruct (xw_encapsulation_key hs X n (xw_dk_from sk)); reflexivity.
  Qed.

  (** ** C34 *)
  Theorem C34_encapsulate n ek pkb g s : reachable_xek hs X ek -> rng_ok g ->
    xw_ek_as_bytes ek = Ok pkb ->
    let '(m, s1) := fill_bytes g s 32 in
    let '(e, s2) := fill_bytes g s1 32 in
    (let* '(ct, ss, s') := xw_encapsulate hs X n ek g s in
     let* ctb := xw_ct_as_bytes ct in Ok (ss, ctb, s')) =
    (let* '(ss, ctb) := lift (XW_Encaps hs (x25519 X) n pkb (m ++ e)) in Ok (ss, ctb, s2)).
  Proof.
    intros Hek Hg Eb. pose proof (reachable_xek_valid ek Hek) as V.
    rewrite (xek_as_bytes_ok hs ek V) in Eb. apply Ok_inj in Eb. subst pkb.
    pose proof (xw_encapsulate_ok hs Hhs X HX1 n ek g s V Hg) as W.
    destruct (fill_bytes g s 32) as [m s1]. destruct (fill_bytes g s1 32) as [e s2].
    destruct (XW_Encaps hs (x25519 X) n (xek_bytes ek) (m ++ e)) as [[ss ctb]|].
    - destruct W as (ct & -> & Vc & Eb & _). cbn [bind lift]. rewrite ct_as_bytes_ok by exact Vc.
      cbn [bind]. rewrite Eb. reflexivity.
    - rewrite W. reflexivity.
  Qed.
  Theorem C34_draws n ek g s l ct ss s' l' :
    xw_encapsulate hs X n ek (logged g) (s, l) = Ok (ct, ss, (s', l')) ->
    xw_encapsulate hs X n ek g s = Ok (ct, ss, s') /\ l' = l ++ [32; 32]%nat.
  Proof.
    unfold xw_encapsulate, encapsulate, rand, xw_generate. cbn [fill_bytes logged fst snd].
    destruct (fill_bytes g s 32) as [m s1].
    destruct (encapsulate_deterministic_inner hs MlKem768Params n (pk_m ek) m) as [[c K]| | |]; try discriminate.
    cbn [bind fst snd]. destruct (fill_bytes g s1 32) as [e s2]. intros E. apply Ok_inj in E. inversion E. subst.
    split; [reflexivity|]. rewrite <- app_assoc. reflexivity.
  Qed.
  (** every key can be serialised, so the premise of C34_encapsulate always holds; no
      operation panics *)
  Theorem C34_safe n ek g s : reachable_xek hs X ek -> rng_ok g ->
    (exists pkb, xw_ek_as_bytes ek = Ok pkb /\ byte_string 1216 pkb) /\
    safe (xw_encapsulate hs X n ek g s).
  Proof.
    intros Hek Hg. pose proof (reachable_xek_valid ek Hek) as V. split.
    - exists (xek_bytes ek). split; [apply (xek_as_bytes_ok hs), V|apply (xek_bytes_ok hs), V].
    - pose proof (xw_encapsulate_ok hs Hhs X HX1 n ek g s V Hg) as W.
      destruct (fill_bytes g s 32) as [m s1]. destruct (fill_bytes g s1 32) as [e s2].
      destruct (XW_Encaps hs (x25519 X) n (xek_bytes ek) (m ++ e)) as [[ss ctb]|].
      + destruct W as (ct & -> & _). split; discriminate.
      + rewrite W. split; discriminate.
  Qed.

  (** ** C35 *)
  Theorem C35_decapsulate n sk ct ctb : byte_string 32 sk -> reachable_xct hs X ct ->
    xw_ct_as_bytes ct = Ok ctb ->
    xw_decapsulate hs X n (xw_dk_from sk) ct = lift (XW_Decaps hs (x25519 X) n ctb sk).
  Proof.
    intros Hsk Hct Eb. pose proof (reachable_xct_valid ct Hct) as V.
    rewrite ct_as_bytes_ok in Eb by exact V. apply Ok_inj in Eb. subst ctb.
    apply (xw_decapsulate_ok hs Hhs X HX1 HX2); assumption.
  Qed.
  Theorem C35_bytes n sk ctb : byte_string 32 sk -> byte_string 1120 ctb ->
    (let* ct := xw_ct_from ctb in xw_decapsulate hs X n (xw_dk_from sk) ct) =
    lift (XW_Decaps hs (x25519 X) n ctb sk).
  Proof.
    intros Hsk Hb. destruct (ct_from_ok ctb Hb) as [E V]. rewrite E. cbn [bind].
    rewrite (xw_decapsulate_ok hs Hhs X HX1 HX2) by assumption. cbn [ct_m ct_x]. rewrite firstn_skipn. reflexivity.
  Qed.
  Theorem C35_safe n sk ctb : byte_string 32 sk -> byte_string 1120 ctb ->
    safe (let* ct := xw_ct_from ctb in xw_decapsulate hs X n (xw_dk_from sk) ct) /\
    safe (xw_encapsulation_key hs X n (xw_dk_from sk)).
  Proof.
    intros Hsk Hb. split; [rewrite C35_bytes by assumption; apply safe_lift|].
    pose proof (xek_of_dk_ok hs Hhs X HX1 HX2 n sk Hsk) as W.
    destruct (XW_public hs (x25519 X) n sk) as [pkb|]; [destruct W as (ek & -> & _)|rewrite W]; split; discriminate.
  Qed.

  (** ** C36 *)
  Theorem C36_round_trip n sk g s Ah : byte_string 32 sk -> rng_ok g -> x25519_commutes X ->
    let d := bytes32 0 (SHAKE128 hs sk 96) in
    let m := fst (fill_bytes g s 32) in
    A_hat hs ML_KEM_768 n (key_rho hs ML_KEM_768 d) = Some Ah ->
    exists ek pkb,
      xw_encapsulation_key hs X n (xw_dk_from sk) = Ok ek /\
      xw_ek_as_bytes ek = Ok pkb /\ xw_ek_from hs pkb = Ok ek /\
      (noise_in_range hs ML_KEM_768 (map (map NTTinv) Ah) d m
         (snd (FIPS203.G hs (m ++ FIPS203.H hs (firstn 1184 pkb)))) ->
       exists ct ctb ss s',
         xw_encapsulate hs X n ek g s = Ok (ct, ss, s') /\
         xw_ct_as_bytes ct = Ok ctb /\ xw_ct_from ctb = Ok ct /\
         xw_decapsulate hs X n (xw_dk_from sk) ct = Ok ss).
  Proof.
    intros Hsk Hg HC d m EA.
    pose proof (expand_ok hs Hhs X HX1 HX2 n sk Hsk) as W.
    pose proof (shake_parts hs Hhs sk 0 (proj2 Hsk) ltac:(lia)) as Hd. fold d in Hd, W.
    pose proof (shake_parts hs Hhs sk 32 (proj2 Hsk) ltac:(lia)) as Hz.
    assert (NF : XW_expand hs (x25519 X) n sk <> None).
    { unfold XW_expand, KeyGen_internal, KPKE_KeyGen. fold d. unfold key_rho in EA.
      destruct (FIPS203.G hs (d ++ [Z.of_nat (pk ML_KEM_768)])) as [rho sigma]. cbn [fst] in EA. rewrite EA. discriminate. }
    destruct (XW_expand hs (x25519 X) n sk) as [[[[skm skx] pkm] pkx]|]; [|congruence]. clear NF.
    destruct W as (dk & W1 & W2 & V & W3 & W4 & W5 & W6 & W7 & Hskx & Hpkx).
    set (ek := {| pk_m := dk_ek dk; pk_x := pkx |}).
    assert (Eek : xw_encapsulation_key hs X n (xw_dk_from sk) = Ok ek).
    { unfold xw_encapsulation_key. rewrite W1. reflexivity. }
    pose proof (derived_valid n sk ek Hsk Eek) as Vek.
    exists ek, (xek_bytes ek). split; [exact Eek|]. split; [apply (xek_as_bytes_ok hs), Vek|]. split.
    { rewrite (proj1 (xek_from_ok hs Hhs (xek_bytes ek) (xek_bytes_ok hs ek Vek))). f_equal. apply xek_parse_bytes, Vek. }
    destruct (xek_sections hs ek Vek) as (S1 & _ & _). rewrite S1. intros HN.
    pose proof (Hg s 32%nat) as Hm. fold m in Hm.
    destruct (C04_round_trip hs Hhs ML_KEM_768 wf_768 ltac:(cbn [du ML_KEM_768]; lia) ltac:(cbn [dv ML_KEM_768]; lia)
      n d _ m dk (dk_ek dk) (ekey_bytes ML_KEM_768 (pk_m ek)) Ah Hd Hz Hm W2
      ltac:(apply encaps_key_as_bytes_ok, V) EA HN) as (c & K & E1 & E2).
    pose proof (xw_encapsulate_ok hs Hhs X HX1 n ek g s Vek Hg) as W.
    unfold m in *. clear m. destruct (fill_bytes g s 32) as [m s1]. cbn [fst] in *.
    pose proof (Hg s1 32%nat) as He. destruct (fill_bytes g s1 32) as [e s2]. cbn [fst] in He.
    cbn [pk_m ek] in W. rewrite E1 in W.
    destruct (XW_Encaps hs (x25519 X) n (xek_bytes ek) (m ++ e)) as [[ss ctb]|] eqn:EX.
    - destruct W as (ct & Q1 & Vc & Q2 & Q3 & Q4 & Q5).
      exists ct, ctb, ss, s2. split; [exact Q1|]. split; [rewrite ct_as_bytes_ok by exact Vc; rewrite Q2; reflexivity|].
      assert (Hb : byte_string 1120 ctb) by (rewrite <- Q2; apply (byte_string_app 1088 32); apply Vc).
      split.
      + rewrite (proj1 (ct_from_ok ctb Hb)). rewrite <- Q2. destruct ct as [cm cx]. cbn [ct_m ct_x].
        destruct Vc as [[L _] _]. cbn [ct_m] in L. rewrite <- L, firstn_app_exact, skipn_app_exact; reflexivity.
      + apply Ok_inj in Q3. pose proof (f_equal fst Q3) as Q6. cbn [fst] in Q6. rewrite <- Q6 in *.
        unfold xw_decapsulate. rewrite W1, P768. cbn [bind]. rewrite <- Q6, E2. cbn [bind].
        rewrite Q5, Q4. cbn [pk_x ek]. rewrite W7. rewrite (HC skx e Hskx He). reflexivity.
    - exfalso. clear - E1 EX Vek Hhs Hm He S1.
      destruct (xek_sections hs ek Vek) as (_ & _ & S2).
      unfold XW_Encaps in EX. rewrite S1 in EX.
      assert (M1 : bytes32 0 (m ++ e) = m).
      { unfold bytes32. cbn [skipn]. apply firstn_app_exact. apply Hm. }
      rewrite M1 in EX. destruct Vek as (V & EH & _).
      pose proof (encapsulate_deterministic_ok hs Hhs ML_KEM_768 wf_768 n (pk_m ek) m V Hm) as W.
      cbn [pk_m ek] in W, EX, EH. rewrite E1, EH in W.
      change (Encaps_with hs ML_KEM_768 n (ekey_bytes ML_KEM_768 (dk_ek dk))
        (FIPS203.H hs (ekey_bytes ML_KEM_768 (dk_ek dk))) m)
        with (Encaps_internal hs ML_KEM_768 n (ekey_bytes ML_KEM_768 (dk_ek dk)) m) in W.
      destruct (Encaps_internal hs ML_KEM_768 n (ekey_bytes ML_KEM_768 (dk_ek dk)) m) as [[? ?]|]; discriminate.
  Qed.

  (** ** C37 *)
  Theorem C37_ciphertext :
    (forall ct, reachable_xct hs X ct -> (let* b := xw_ct_as_bytes ct in xw_ct_from b) = Ok ct) /\
    (forall ct b, reachable_xct hs X ct -> xw_ct_as_bytes ct = Ok b -> byte_string 1120 b) /\
    (forall b, byte_string 1120 b -> (let* ct := xw_ct_from b in xw_ct_as_bytes ct) = Ok b).
  Proof.
    split; [|split].
    - intros ct H. pose proof (reachable_xct_valid ct H) as V. rewrite ct_as_bytes_ok by exact V. cbn [bind].
      rewrite (proj1 (ct_from_ok _ (byte_string_app 1088 32 _ _ (proj1 V) (proj2 V)))).
      destruct ct as [cm cx]. destruct V as [[L _] _]. cbn [ct_m ct_x] in *.
      rewrite <- L, firstn_app_exact, skipn_app_exact; reflexivity.
    - intros ct b H E. pose proof (reachable_xct_valid ct H) as V. rewrite ct_as_bytes_ok in E by exact V.
      apply Ok_inj in E. subst b. apply (byte_string_app 1088 32); apply V.
    - intros b Hb. destruct (ct_from_ok b Hb) as [-> V]. cbn [bind]. rewrite ct_as_bytes_ok by exact V.
      cbn [ct_m ct_x]. rewrite firstn_skipn. reflexivity.
  Qed.
  Theorem C37_encapsulation_key :
    (forall ek, reachable_xek hs X ek -> (let* b := xw_ek_as_bytes ek in xw_ek_from hs b) = Ok ek) /\
    (forall b, byte_string 1216 b ->
       exists b', (let* ek := xw_ek_from hs b in xw_ek_as_bytes ek) = Ok b' /\ byte_string 1216 b' /\
         skipn 1152 b' = skipn 1152 b /\
         (b' = b <-> canonical_vec 3 b)).
  Proof.
    split.
    - intros ek H. pose proof (reachable_xek_valid ek H) as V. rewrite (xek_as_bytes_ok hs) by exact V. cbn [bind].
      rewrite (proj1 (xek_from_ok hs Hhs _ (xek_bytes_ok hs ek V))). f_equal. apply xek_parse_bytes, V.
    - intros b Hb. destruct (xek_from_ok hs Hhs b Hb) as [-> V]. cbn [bind].
      exists (xek_bytes (xek_parse hs b)). split; [apply (xek_as_bytes_ok hs), V|]. split; [apply (xek_bytes_ok hs), V|].
      assert (Hm : byte_string 1184 (firstn 1184 b)) by (eapply byte_string_firstn; [exact Hb|lia]).
      destruct (C10_ek hs Hhs ML_KEM_768 wf_768 (firstn 1184 b) Hm) as (b' & E & Hb' & _ & T1 & T2).
      rewrite (encaps_key_from_bytes_ok hs ML_KEM_768 wf_768) in E by exact Hm. cbn [bind] in E.
      rewrite (encaps_key_as_bytes_ok ML_KEM_768) in E by (apply ekey_parse_valid; [exact Hhs|exact Hm]).
      apply Ok_inj in E. unfold xek_bytes, xek_parse. cbn [pk_m pk_x]. rewrite E. clear E V.
      change (384 * pk ML_KEM_768)%nat with 1152%nat in T1. change (pk ML_KEM_768) with 3%nat in T2.
      change (ek_len ML_KEM_768) with 1184%nat in Hb'.
      assert (T3 : canonical_vec 3 (firstn 1184 b) <-> canonical_vec 3 b).
      { assert (R : forall i, (i < 3)%nat -> part 384 i (firstn 1184 b) = part 384 i b).
        { intros i Hi. unfold part. rewrite !firstn_skipn_comm, firstn_firstn.
          replace (Nat.min (i * 384 + 384) 1184) with (i * 384 + 384)%nat by lia. reflexivity. }
        unfold canonical_vec. split; intros C i Hi j Hj; specialize (C i Hi j Hj);
          rewrite (R i Hi) in *; exact C. }
      split.
      + rewrite <- (firstn_skipn 1184 b) at 2. rewrite !skipn_app, T1. f_equal. f_equal.
        rewrite (proj1 Hm), (proj1 Hb'). reflexivity.
      + rewrite <- T3, <- T2. split; intros Q.
        * rewrite <- (firstn_skipn 1184 b) in Q at 2. apply app_inv_tail in Q. exact Q.
        * rewrite Q. apply firstn_skipn.
  Qed.
  Theorem C37_decapsulation_key sk dk : xw_dk_as_bytes (xw_dk_from sk) = sk /\ xw_dk_from (xw_dk_as_bytes dk) = dk.
  Proof. split; [reflexivity|destruct dk; reflexivity]. Qed.

  (** ** C38: one function of the four inputs, the same for every hash behaviour *)
End XW.

Theorem C38_combiner_input : exists input : list Z -> list Z -> list Z -> list Z -> list Z,
  (forall hs ss_m ss_x ct_x pk_x, combiner hs ss_m ss_x ct_x pk_x = sha3_256 hs (input ss_m ss_x ct_x pk_x)) /\
  (forall ss_m ss_x ct_x pk_x, byte_string 32 ss_m -> byte_string 32 ss_x -> byte_string 32 ct_x -> byte_string 32 pk_x ->
     byte_string 134 (input ss_m ss_x ct_x pk_x)) /\
  (forall a b c d a' b' c' d',
     byte_string 32 a -> byte_string 32 b -> byte_string 32 c -> byte_string 32 d ->
     byte_string 32 a' -> byte_string 32 b' -> byte_string 32 c' -> byte_string 32 d' ->
     input a b c d = input a' b' c' d' -> a = a' /\ b = b' /\ c = c' /\ d = d').
Proof.
  exists (fun a b c d => XWingLabel ++ a ++ b ++ c ++ d). split; [|split].
  - intros. unfold combiner. cbn [concat]. rewrite app_nil_r. reflexivity.
  - intros a b c d Ha Hb Hc Hd. apply (byte_string_app 6 128); [split; [reflexivity|repeat constructor; discriminate]|].
    apply (byte_string_app 32 96); [exact Ha|]. apply (byte_string_app 32 64); [exact Hb|].
    apply (byte_string_app 32 32); assumption.
  - intros a b c d a' b' c' d' [Ha _] [Hb _] [Hc _] _ [Ha' _] [Hb' _] [Hc' _] _ E.
    apply app_inv_head in E.
    assert (J : forall (x x' y y' : list Z), length x = length x' -> x ++ y = x' ++ y' -> x = x' /\ y = y').
    { intros x x' y y' L Q. split.
      - apply (f_equal (firstn (length x))) in Q. rewrite firstn_app_exact in Q by reflexivity.
        rewrite L, firstn_app_exact in Q by reflexivity. exact Q.
      - apply (f_equal (skipn (length x))) in Q. rewrite skipn_app_exact in Q by reflexivity.
        rewrite L, skipn_app_exact in Q by reflexivity. exact Q. }
    apply J in E; [|congruence]. destruct E as [-> E]. apply J in E; [|congruence]. destruct E as [-> E].
    apply J in E; [|congruence]. destruct E as [-> ->]. auto.
Qed.

(** ** C39 *)
Theorem C39_erased sk ct : byte_string 32 sk -> byte_string 1088 (ct_m ct) -> byte_string 32 (ct_x ct) ->
  xw_dk_as_bytes (xw_dk_drop (xw_dk_from sk)) = repeat 0 32 /\
  xw_ct_as_bytes (xw_ct_drop ct) = Ok (repeat 0 1120).
Proof.
  assert (Z0 : forall l : list Z, map (fun _ => 0) l = repeat 0 (length l)).
  { induction l as [|x l IH]; [reflexivity|]. cbn [map length repeat]. rewrite IH. reflexivity. }
  intros [L _] [L1 _] [L2 _]. split; [unfold xw_dk_drop, xw_dk_as_bytes; cbn [xw_sk xw_dk_from]; rewrite Z0, L; reflexivity|].
  unfold xw_ct_drop. rewrite !Z0, L1, L2. rewrite ct_as_bytes_ok.
  - cbn [ct_m ct_x]. rewrite <- repeat_app. reflexivity.
  - split; cbn [ct_m ct_x]; apply repeat_bytes; unfold is_byte; lia.
Qed.

(** ** A concrete case: ML-KEM-768 with the functions of Tests/Toy.v and a small group in
    place of X25519 *)

Definition toy_x25519 : x25519_impl :=
  let val := fun l => fold_left (fun a x => (a + x) mod 251) l 0 in
  let mul := fun k u => (val k * val u) mod 251 :: repeat 0 31 in
  {| x25519 := mul; x25519_public := fun k => mul k X25519_BASE |}.
Lemma toy_x25519_ok : x25519_ok toy_x25519.
Proof.
  split; [|reflexivity]. intros k u _ _. split; [reflexivity|].
  apply Forall_cons; [|repeat constructor; discriminate].
  match goal with |- is_byte (?x mod 251) => pose proof (Z.mod_pos_bound x 251 ltac:(lia)) end. unfold is_byte. lia.
Qed.
Lemma toy_x25519_commutes : x25519_commutes toy_x25519.
Proof.
  intros a b _ _. unfold toy_x25519. cbn [x25519]. f_equal.
  change (fold_left (fun a0 x : Z => (a0 + x) mod 251) X25519_BASE 0) with 9.
  assert (E : forall v, fold_left (fun a0 x : Z => (a0 + x) mod 251) (v mod 251 :: repeat 0 31) 0 = v mod 251).
  { intros v. pose proof (Z.mod_pos_bound v 251 ltac:(lia)) as B. set (w := v mod 251) in *. clearbody w.
    assert (M : (0 + w) mod 251 = w) by (rewrite Z.add_0_l; apply Z.mod_small; exact B).
    assert (M0 : (w + 0) mod 251 = w) by (rewrite Z.add_0_r; apply Z.mod_small; exact B).
    generalize 31%nat. intros n. cbn [fold_left]. rewrite M.
    induction n as [|n IH]; [reflexivity|]. cbn [repeat fold_left]. rewrite M0. exact IH. }
  rewrite !E. rewrite !Zmult_mod_idemp_r. f_equal. ring.
Qed.

Definition toy_d : list Z := bytes32 0 (SHAKE128 toy (seed 1) 96).
Definition toy_m : list Z := fst (fill_bytes counter 5 32).

Definition toy_session (gen : res (DecryptionKey * EncryptionKey)) (ser : EncryptionKey -> res (list Z))
  (coins : list Z -> list Z) (enc : EncryptionKey -> list Z -> res (list Z))
  (dec : DecryptionKey -> list Z -> res (list Z)) (m : list Z) : bool :=
  match gen with Ok (dk, ek) =>
    match ser ek with Ok b =>
      match enc ek (coins b) with Ok c =>
        match dec dk c with Ok m' => same m' m | _ => false end
      | _ => false end
    | _ => false end
  | _ => false end.
Lemma toy_session_inv gen ser coins enc dec m : toy_session gen ser coins enc dec m = true ->
  exists dk ek b c, gen = Ok (dk, ek) /\ ser ek = Ok b /\ enc ek (coins b) = Ok c /\ dec dk c = Ok m.
Proof.
  unfold toy_session, same. destruct gen as [[dk ek]| | |]; try discriminate.
  destruct (ser ek) as [b| | |] eqn:E1; try discriminate.
  destruct (enc ek (coins b)) as [c| | |] eqn:E2; try discriminate.
  destruct (dec dk c) as [m'| | |] eqn:E3; try discriminate.
  destruct (list_eq_dec Z.eq_dec m' m) as [->|]; [|discriminate]. intros _. exists dk, ek, b, c. auto.
Qed.
Lemma toy_session_runs : toy_session (pke_generate toy ML_KEM_768 300 toy_d) (ek_as_bytes ML_KEM_768)
  (fun b => snd (FIPS203.G toy (toy_m ++ FIPS203.H toy b)))
  (fun ek r => encrypt toy ML_KEM_768 300 ek toy_m r) (decrypt ML_KEM_768) toy_m = true.
Proof. vm_compute. reflexivity. Qed.

(** every hypothesis of C36 holds (hence those of C33-C35 and C37), and the outcomes are
    not [NoFuel] *)
Lemma xwing_case_for X : x25519_ok X -> x25519_commutes X -> exists ek ct ctb ss s',
  reachable_xek toy X ek /\ reachable_xct toy X ct /\
  xw_encapsulation_key toy X 300 (xw_dk_from (seed 1)) = Ok ek /\
  xw_encapsulate toy X 300 ek counter 5 = Ok (ct, ss, s') /\
  xw_ct_as_bytes ct = Ok ctb /\
  xw_decapsulate toy X 300 (xw_dk_from (seed 1)) ct = Ok ss /\
  (exists Ah, A_hat toy ML_KEM_768 300 (key_rho toy ML_KEM_768 toy_d) = Some Ah).
Proof.
  intros HX HC.
  destruct (toy_session_inv _ _ _ _ _ _ toy_session_runs) as (dk & ek & b & c & E1 & E2 & E3 & E4).
  pose proof (shake_parts toy toy_ok (seed 1) 0 (proj2 (seed_ok 1)) ltac:(lia)) as Hd. fold toy_d in Hd.
  pose proof (counter_ok 5 32%nat) as Hm. fold toy_m in Hm.
  destruct (generate_A toy toy_ok ML_KEM_768 wf_768 300 toy_d _ (proj2 Hd) E1) as [Ah EA].
  set (r := snd (FIPS203.G toy (toy_m ++ FIPS203.H toy b))) in *.
  destruct (C36_round_trip toy toy_ok X HX 300 (seed 1) counter 5 Ah (seed_ok 1) counter_ok
    HC EA) as (xek & pkb & Q1 & Q2 & Q3 & Q4).
  fold toy_d toy_m in Q4.
  assert (Eb : firstn 1184 pkb = b).
  { pose proof (C33_encapsulation_key toy toy_ok X HX 300 (seed 1) (seed_ok 1)) as W.
    rewrite Q1 in W. cbn [bind] in W. rewrite Q2 in W. unfold XW_public, XW_expand, KeyGen_internal in W. fold toy_d in W.
    pose proof (pke_generate_ok toy toy_ok ML_KEM_768 wf_768 300 toy_d (proj2 Hd)) as G.
    destruct (KPKE_KeyGen toy ML_KEM_768 300 toy_d) as [[ekb dkb]|].
    - destruct G as (dk' & ek' & G1 & _ & V & _ & G2). rewrite E1 in G1. apply Ok_inj in G1.
      pose proof (f_equal snd G1) as G3. cbn [snd] in G3. subst ek'.
      rewrite ek_as_bytes_ok in E2 by exact V. apply Ok_inj in E2. rewrite <- E2, G2.
      cbn [lift] in W. apply Ok_inj in W. rewrite W. apply firstn_app_exact.
      rewrite <- G2. exact (proj1 (ek_bytes_ok ML_KEM_768 ek V)).
    - rewrite G in E1. clear - E1. discriminate E1. }
  rewrite Eb in Q4. fold r in Q4.
  assert (Hr : byte_string 32 r).
  { apply (G_bytes toy toy_ok). apply bytes_app; [apply Hm|]. apply H_bytes; [exact toy_ok|].
    rewrite <- Eb. apply bytes_firstn.
    pose proof (reachable_xek_valid toy toy_ok X HX xek
      (xek_derived _ _ 300 (seed 1) xek (seed_ok 1) Q1)) as V.
    rewrite (xek_as_bytes_ok toy xek V) in Q2. apply Ok_inj in Q2. rewrite <- Q2. apply (xek_bytes_ok toy), V. }
  destruct (C04_kpke toy toy_ok ML_KEM_768 wf_768 ltac:(cbn [du ML_KEM_768]; lia) ltac:(cbn [dv ML_KEM_768]; lia)
    300 toy_d toy_m r Ah Hd Hm Hr EA) as (dk' & ek' & c' & T1 & T2 & I).
  rewrite E1 in T1. apply Ok_inj in T1. pose proof (f_equal fst T1) as U1. pose proof (f_equal snd T1) as U2.
  cbn [fst snd] in U1, U2. subst dk' ek'. rewrite E3 in T2. apply Ok_inj in T2. subst c'.
  destruct (Q4 (proj1 I E4)) as (ct & ctb & ss & s' & R1 & R2 & R3 & R4).
  exists xek, ct, ctb, ss, s'.
  pose proof (xek_derived toy X 300 (seed 1) xek (seed_ok 1) Q1) as Hx.
  split; [exact Hx|]. split; [exact (xct_encapsulated _ _ 300 xek counter 5 ct ss s' Hx counter_ok R1)|].
  split; [exact Q1|]. split; [exact R1|]. split; [exact R2|]. split; [exact R4|]. exists Ah. exact EA.
Qed.

Example xwing_case : exists ek ct ctb ss s',
  reachable_xek toy toy_x25519 ek /\ reachable_xct toy toy_x25519 ct /\
  xw_encapsulation_key toy toy_x25519 300 (xw_dk_from (seed 1)) = Ok ek /\
  xw_encapsulate toy toy_x25519 300 ek counter 5 = Ok (ct, ss, s') /\
  xw_ct_as_bytes ct = Ok ctb /\
  xw_decapsulate toy toy_x25519 300 (xw_dk_from (seed 1)) ct = Ok ss /\
  (exists Ah, A_hat toy ML_KEM_768 300 (key_rho toy ML_KEM_768 toy_d) = Some Ah).
Proof. exact (xwing_case_for toy_x25519 toy_x25519_ok toy_x25519_commutes). Qed.

Example C38_case : combiner toy (seed 1) (seed 2) (seed 3) (seed 4) <> combiner toy (seed 1) (seed 2) (seed 4) (seed 3).
Proof. vm_compute. discriminate. Qed.

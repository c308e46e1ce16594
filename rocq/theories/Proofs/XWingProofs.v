(** X-Wing: serialisation and key expansion. *)
From Coq Require Import List ZArith Lia Bool Arith.
From Verif.Base Require Import Res Oracles.
From Verif.Spec Require Import FIPS203 Domains XWing.
From Verif.Model Require Import Machine Util Algebra Compress Encode Crypto Sample Param Pke Kem XWing.
From Verif.Proofs Require Import Basics Field Poly EncodeProofs VecEncode SampleProofs PkeProofs KemProofs.
Import ListNotations.
Open Scope Z_scope.

Lemma P768 : MlKem768Params = ML_KEM_768.
Proof. reflexivity. Qed.

Lemma wf_768 : wf_params ML_KEM_768.
Proof. unfold wf_params, ML_KEM_768. cbn [pk eta1 eta2 du dv]. lia. Qed.

(** ** Writing two fields into a buffer and reading them back *)

Lemma copy_into_ok A (l src : list A) a b : (a <= b)%nat -> (b <= length l)%nat ->
  length src = (b - a)%nat -> copy_into l a b src = Ok (firstn a l ++ src ++ skipn b l).
Proof.
  intros H1 H2 H3. unfold copy_into. rewrite slice_ok by assumption. cbn [bind].
  rewrite copy_from_slice_ok; [reflexivity|]. rewrite firstn_length, skipn_length. lia.
Qed.

Lemma write_two A (l a b : list A) n k : length l = (n + k)%nat -> length a = n -> length b = k ->
  (let* l := copy_into l 0 n a in copy_into l n (n + k) b) = Ok (a ++ b) /\
  (let* l := copy_into l 0 n a in copy_into l n (length l) b) = Ok (a ++ b).
Proof.
  intros Hl Ha Hb. rewrite copy_into_ok by lia. cbn [bind].
  set (l1 := firstn 0 l ++ a ++ skipn n l).
  assert (L1 : length l1 = (n + k)%nat).
  { unfold l1. rewrite !app_length, firstn_length, skipn_length. lia. }
  assert (E : copy_into l1 n (n + k) b = Ok (a ++ b)).
  { rewrite copy_into_ok by lia. f_equal.
    rewrite (skipn_all2 l1) by lia. rewrite app_nil_r. f_equal.
    unfold l1. rewrite firstn_O. cbn [app]. rewrite firstn_app, Ha, Nat.sub_diag, firstn_O, app_nil_r.
    rewrite <- Ha. apply firstn_all. }
  split; [exact E|]. rewrite L1. exact E.
Qed.

Lemma read_two A (l z1 z2 : list A) n k : length l = (n + k)%nat -> length z1 = n -> length z2 = k ->
  (let* a := slice l 0 n in copy_from_slice z1 a) = Ok (firstn n l) /\
  (let* b := slice l n (length l) in copy_from_slice z2 b) = Ok (skipn n l).
Proof.
  intros Hl H1 H2. split; rewrite slice_ok by lia; cbn [bind].
  - cbn [skipn]. rewrite Nat.sub_0_r. apply copy_from_slice_ok. rewrite firstn_length. lia.
  - rewrite firstn_all2 by (rewrite skipn_length; lia). apply copy_from_slice_ok. rewrite skipn_length. lia.
Qed.

(** ** Ciphertexts *)

Definition valid_ct (ct : xw_ciphertext) : Prop := byte_string 1088 (ct_m ct) /\ byte_string 32 (ct_x ct).

Lemma ct_as_bytes_ok ct : valid_ct ct -> xw_ct_as_bytes ct = Ok (ct_m ct ++ ct_x ct).
Proof.
  intros [[L1 _] [L2 _]]. unfold xw_ct_as_bytes.
  apply (write_two Z (repeat 0 CIPHERTEXT_SIZE) (ct_m ct) (ct_x ct) 1088 32); [|assumption|assumption].
  rewrite repeat_length. reflexivity.
Qed.

Lemma ct_from_ok b : byte_string 1120 b ->
  xw_ct_from b = Ok {| ct_m := firstn 1088 b; ct_x := skipn 1088 b |} /\
  valid_ct {| ct_m := firstn 1088 b; ct_x := skipn 1088 b |}.
Proof.
  intros Hb. pose proof Hb as [L B]. split.
  - unfold xw_ct_from.
    destruct (read_two Z b (repeat 0 1088) (repeat 0 32) 1088 32 L (repeat_length _ _) (repeat_length _ _)) as [E1 E2].
    destruct (slice b 0 1088) as [a| | |]; try discriminate. cbn [bind] in E1 |- *. rewrite E1. cbn [bind].
    destruct (slice b 1088 (length b)) as [a'| | |]; try discriminate. cbn [bind] in E2 |- *. rewrite E2. reflexivity.
  - split; cbn [ct_m ct_x].
    + eapply byte_string_firstn; [exact Hb|lia].
    + apply byte_string_skipn. exact Hb.
Qed.

(** ** Encapsulation keys *)

Section Keys.
  Variable hs : hashes.
  Hypothesis Hhs : hash_ok hs.

  Definition valid_xek (ek : xw_encaps_key) : Prop :=
    valid_encaps_key ML_KEM_768 (pk_m ek) /\
    ek_h (pk_m ek) = FIPS203.H hs (ekey_bytes ML_KEM_768 (pk_m ek)) /\
    byte_string 32 (pk_x ek).

  Definition xek_bytes (ek : xw_encaps_key) : list Z := ekey_bytes ML_KEM_768 (pk_m ek) ++ pk_x ek.

  Lemma xek_as_bytes_ok ek : valid_xek ek -> xw_ek_as_bytes ek = Ok (xek_bytes ek).
  Proof.
    intros (V & _ & [L2 _]). unfold xw_ek_as_bytes. rewrite P768.
    rewrite encaps_key_as_bytes_ok by exact V. cbn [bind].
    destruct (ekey_bytes_ok ML_KEM_768 (pk_m ek) V) as [L1 _].
    apply (write_two Z (repeat 0 ENCAPSULATION_KEY_SIZE) (ekey_bytes ML_KEM_768 (pk_m ek)) (pk_x ek) 1184 32);
      [|exact L1|exact L2].
    rewrite repeat_length. reflexivity.
  Qed.

  Lemma xek_bytes_ok ek : valid_xek ek -> byte_string 1216 (xek_bytes ek).
  Proof.
    intros (V & _ & H2). apply (byte_string_app 1184 32); [|exact H2].
    exact (ekey_bytes_ok ML_KEM_768 (pk_m ek) V).
  Qed.

  Lemma xek_sections ek : valid_xek ek ->
    firstn 1184 (xek_bytes ek) = ekey_bytes ML_KEM_768 (pk_m ek) /\
    skipn 1184 (xek_bytes ek) = pk_x ek /\ bytes32 1184 (xek_bytes ek) = pk_x ek.
  Proof.
    intros (V & _ & [L2 _]). destruct (ekey_bytes_ok ML_KEM_768 (pk_m ek) V) as [L1 _].
    change (length (ekey_bytes ML_KEM_768 (pk_m ek)) = 1184%nat) in L1. unfold xek_bytes, bytes32.
    generalize dependent (ekey_bytes ML_KEM_768 (pk_m ek)). intros l L1. clear V.
    assert (E : skipn 1184 (l ++ pk_x ek) = pk_x ek) by (rewrite <- L1; apply skipn_app_exact; reflexivity).
    rewrite E. split; [|split; [reflexivity|apply firstn_all2; lia]].
    rewrite <- L1. apply firstn_app_exact. reflexivity.
  Qed.

  Definition xek_parse (b : list Z) : xw_encaps_key :=
    {| pk_m := ekey_parse hs ML_KEM_768 (firstn 1184 b); pk_x := skipn 1184 b |}.

  Lemma xek_from_ok b : byte_string 1216 b -> xw_ek_from hs b = Ok (xek_parse b) /\ valid_xek (xek_parse b).
  Proof.
    intros Hb. pose proof Hb as [L B].
    assert (Hm : byte_string 1184 (firstn 1184 b)) by (eapply byte_string_firstn; [exact Hb|lia]).
    assert (Hx : byte_string 32 (skipn 1184 b)) by (apply byte_string_skipn; exact Hb).
    split.
    - unfold xw_ek_from. rewrite P768.
      destruct (read_two Z b (repeat 0 1184) (repeat 0 32) 1184 32 L (repeat_length _ _) (repeat_length _ _)) as [E1 E2].
      destruct (slice b 0 1184) as [a| | |]; try discriminate. cbn [bind] in E1 |- *. rewrite E1. cbn [bind].
      rewrite (encaps_key_from_bytes_ok hs ML_KEM_768 wf_768) by exact Hm. cbn [bind].
      destruct (slice b 1184 (length b)) as [a'| | |]; try discriminate. cbn [bind] in E2 |- *. rewrite E2. reflexivity.
    - split; [|split]; cbn [pk_m pk_x xek_parse].
      + apply ekey_parse_valid; [exact Hhs|exact Hm].
      + reflexivity.
      + exact Hx.
  Qed.

  Lemma xek_parse_bytes ek : valid_xek ek -> xek_parse (xek_bytes ek) = ek.
  Proof.
    intros V. destruct (xek_sections ek V) as (S1 & S2 & _). unfold xek_parse. rewrite S1, S2.
    destruct V as (V & E & _). rewrite ekey_parse_bytes by assumption. destruct ek. reflexivity.
  Qed.

  (** ** Key expansion *)

  Variable X : x25519_impl.
  Hypothesis HX : forall k u, byte_string 32 k -> byte_string 32 u -> byte_string 32 (x25519 X k u).
  Hypothesis HXpub : forall k, byte_string 32 k -> x25519_public X k = x25519 X k X25519_BASE.

  Lemma base_ok : byte_string 32 X25519_BASE.
  Proof. split; [reflexivity|]. repeat constructor; discriminate. Qed.

  Lemma xof_parts f : fst (read_from {| xof_stream := f; xof_pos := 0 |}) = bytes32 0 (tab 96 f) /\
    fst (read_from (snd (read_from {| xof_stream := f; xof_pos := 0 |}))) = bytes32 32 (tab 96 f) /\
    fst (read_from (snd (read_from (snd (read_from {| xof_stream := f; xof_pos := 0 |}))))) = bytes32 64 (tab 96 f).
  Proof.
    unfold bytes32. rewrite !skipn_tab, !firstn_tab by lia. repeat split.
  Qed.

  Lemma bytes32_ok (l : list Z) a : bytes l -> (a + 32 <= length l)%nat -> byte_string 32 (bytes32 a l).
  Proof.
    intros B L. split; [unfold bytes32; rewrite firstn_length, skipn_length; lia|].
    apply bytes_firstn, bytes_skipn, B.
  Qed.

  Lemma shake_parts sk a : bytes sk -> (a <= 64)%nat -> byte_string 32 (bytes32 a (SHAKE128 hs sk 96)).
  Proof.
    intros B L. apply bytes32_ok; [|unfold SHAKE128; rewrite tab_length; lia].
    apply Forall_tab. intros. apply (Hhs sk B).
  Qed.

  Lemma expand_ok n sk : byte_string 32 sk ->
    match XW_expand hs (x25519 X) n sk with
    | None => expand_key hs X n (xw_dk_from sk) = NoFuel
    | Some (skm, skx, pkm, pkx) => exists dk,
        expand_key hs X n (xw_dk_from sk) = Ok (dk, skx, dk_ek dk, pkx) /\
        kem_generate_deterministic hs ML_KEM_768 n (bytes32 0 (SHAKE128 hs sk 96)) (bytes32 32 (SHAKE128 hs sk 96)) =
          Ok (dk, dk_ek dk) /\
        valid_decaps_key ML_KEM_768 dk /\ dkey_bytes ML_KEM_768 dk = skm /\
        ekey_bytes ML_KEM_768 (dk_ek dk) = pkm /\ ek_h (dk_ek dk) = FIPS203.H hs pkm /\
        skx = bytes32 64 (SHAKE128 hs sk 96) /\ pkx = x25519 X skx X25519_BASE /\ byte_string 32 skx /\ byte_string 32 pkx
    end.
  Proof.
    intros Hsk. pose proof (shake_parts sk 0 (proj2 Hsk) ltac:(lia)) as Hd.
    pose proof (shake_parts sk 32 (proj2 Hsk) ltac:(lia)) as Hz.
    pose proof (shake_parts sk 64 (proj2 Hsk) ltac:(lia)) as Hx.
    unfold XW_expand, expand_key. rewrite P768. cbn [xw_sk xw_dk_from].
    destruct (xof_parts (shake128 hs sk)) as (E1 & E2 & E3). fold (SHAKE128 hs sk 96) in E1, E2, E3.
    set (r0 := {| xof_stream := shake128 hs sk; xof_pos := 0 |}) in *. clearbody r0.
    destruct (read_from r0) as [d r1]. cbn [fst snd] in *. destruct (read_from r1) as [z r2]. cbn [fst snd] in *.
    destruct (read_from r2) as [x r3]. cbn [fst snd] in *. subst d z x.
    pose proof (generate_ok hs Hhs ML_KEM_768 wf_768 n _ _ (proj2 Hd) Hz) as W.
    destruct (KeyGen_internal hs ML_KEM_768 n _ _) as [[ekb dkb]|].
    - destruct W as (dk & W1 & V & W2 & W3 & W4 & W5). rewrite W1. cbn [bind]. exists dk.
      rewrite HXpub by exact Hx. split; [reflexivity|]. split; [reflexivity|]. split; [exact V|]. split; [exact W2|].
      split; [exact W3|]. split; [exact W4|]. split; [reflexivity|]. split; [reflexivity|]. split; [exact Hx|].
      apply HX; [exact Hx|exact base_ok].
    - rewrite W. reflexivity.
  Qed.

  Lemma xek_of_dk_ok n sk : byte_string 32 sk ->
    match XW_public hs (x25519 X) n sk with
    | None => xw_encapsulation_key hs X n (xw_dk_from sk) = NoFuel
    | Some pkb => exists ek, xw_encapsulation_key hs X n (xw_dk_from sk) = Ok ek /\ valid_xek ek /\ xek_bytes ek = pkb
    end.
  Proof.
    intros Hsk. pose proof (expand_ok n sk Hsk) as W. unfold XW_public, xw_encapsulation_key.
    destruct (XW_expand hs (x25519 X) n sk) as [[[[skm skx] pkm] pkx]|].
    - destruct W as (dk & -> & _ & V & _ & W3 & W4 & _ & _ & _ & W5). cbn [bind].
      exists {| pk_m := dk_ek dk; pk_x := pkx |}. split; [reflexivity|]. split.
      + split; [apply V|]. split; [cbn [pk_m]; rewrite W3; exact W4|exact W5].
      + unfold xek_bytes. cbn [pk_m pk_x]. rewrite W3. reflexivity.
    - rewrite W. reflexivity.
  Qed.

  (** ** Encapsulation and decapsulation *)

  Lemma xw_encapsulate_ok n ek g s : valid_xek ek -> rng_ok g ->
    let '(m, s1) := fill_bytes g s 32 in
    let '(e, s2) := fill_bytes g s1 32 in
    match XW_Encaps hs (x25519 X) n (xek_bytes ek) (m ++ e) with
    | None => xw_encapsulate hs X n ek g s = NoFuel
    | Some (ss, ctb) => exists ct, xw_encapsulate hs X n ek g s = Ok (ct, ss, s2) /\ valid_ct ct /\
        ct_m ct ++ ct_x ct = ctb /\ encapsulate_deterministic hs ML_KEM_768 n (pk_m ek) m =
          Ok (ct_m ct, match encapsulate_deterministic hs ML_KEM_768 n (pk_m ek) m with Ok (_, K) => K | _ => [] end) /\
        ct_x ct = x25519 X e X25519_BASE /\
        ss = combiner hs (match encapsulate_deterministic hs ML_KEM_768 n (pk_m ek) m with Ok (_, K) => K | _ => [] end)
               (x25519 X e (pk_x ek)) (ct_x ct) (pk_x ek)
    end.
  Proof.
    intros V Hg. pose proof (Hg s 32%nat) as Hm. destruct (fill_bytes g s 32) as [m s1] eqn:Eg1. cbn [fst] in Hm.
    pose proof (Hg s1 32%nat) as He. destruct (fill_bytes g s1 32) as [e s2] eqn:Eg2. cbn [fst] in He.
    destruct (xek_sections ek V) as (S1 & _ & S2). destruct V as (V & EH & Hx).
    assert (M1 : bytes32 0 (m ++ e) = m).
    { unfold bytes32. cbn [skipn]. apply firstn_app_exact. apply Hm. }
    assert (M2 : bytes32 32 (m ++ e) = e).
    { unfold bytes32. rewrite skipn_app_exact by apply Hm. apply firstn_all2. rewrite (proj1 He). lia. }
    unfold XW_Encaps. rewrite S1, S2, M1, M2.
    pose proof (encapsulate_deterministic_ok hs Hhs ML_KEM_768 wf_768 n (pk_m ek) m V Hm) as W.
    rewrite EH in W.
    change (Encaps_with hs ML_KEM_768 n (ekey_bytes ML_KEM_768 (pk_m ek))
      (FIPS203.H hs (ekey_bytes ML_KEM_768 (pk_m ek))) m)
      with (Encaps_internal hs ML_KEM_768 n (ekey_bytes ML_KEM_768 (pk_m ek)) m) in W.
    assert (Q : xw_encapsulate hs X n ek g s =
      let* '(c, K) := encapsulate_deterministic hs ML_KEM_768 n (pk_m ek) m in
      Ok ({| ct_m := c; ct_x := x25519 X e X25519_BASE |},
          combiner hs K (x25519 X e (pk_x ek)) (x25519 X e X25519_BASE) (pk_x ek), s2)).
    { unfold xw_encapsulate, encapsulate, rand, xw_generate. rewrite P768, Eg1.
      unfold encapsulate_deterministic.
      destruct (encapsulate_deterministic_inner hs ML_KEM_768 n (pk_m ek) m) as [[c K]| | |]; try reflexivity.
      cbn [bind]. rewrite Eg2. reflexivity. }
    rewrite Q, W.
    destruct (Encaps_internal hs ML_KEM_768 n (ekey_bytes ML_KEM_768 (pk_m ek)) m) as [[K c]|] eqn:EI; [|reflexivity].
    cbn [swap lift bind]. eexists. split; [f_equal; f_equal; f_equal; unfold combiner, Combiner;
      cbn [concat]; rewrite app_nil_r; reflexivity|].
    pose proof (HX e X25519_BASE He base_ok) as Hcx. split; [split; [|exact Hcx]|].
    - cbn [ct_m]. destruct (Encaps_with_bytes hs Hhs ML_KEM_768 n _ _ m K c (proj2 Hm) (proj2 (proj2 V)) ltac:(rewrite EH; exact EI)) as [_ Hc].
      exact Hc.
    - cbn [ct_m ct_x]. split; [reflexivity|]. split; [reflexivity|]. split; [reflexivity|].
      unfold combiner, Combiner. cbn [concat]. rewrite app_nil_r. reflexivity.
  Qed.

  Lemma xw_decapsulate_ok n sk ct : byte_string 32 sk -> valid_ct ct ->
    xw_decapsulate hs X n (xw_dk_from sk) ct = lift (XW_Decaps hs (x25519 X) n (ct_m ct ++ ct_x ct) sk).
  Proof.
    intros Hsk [Hm Hx]. pose proof (expand_ok n sk Hsk) as W. unfold XW_Decaps, xw_decapsulate. rewrite P768.
    destruct (XW_expand hs (x25519 X) n sk) as [[[[skm skx] pkm] pkx]|]; [|rewrite W; reflexivity].
    destruct W as (dk & -> & _ & V & W2 & _). cbn [bind].
    rewrite (decapsulate_ok hs Hhs ML_KEM_768 wf_768) by (exact V || exact Hm). rewrite W2.
    rewrite firstn_app_exact by apply Hm.
    assert (M2 : bytes32 1088 (ct_m ct ++ ct_x ct) = ct_x ct).
    { unfold bytes32. rewrite skipn_app_exact by apply Hm. apply firstn_all2. rewrite (proj1 Hx). lia. }
    rewrite M2. destruct (Decaps_internal hs ML_KEM_768 n skm (ct_m ct)) as [K|]; [|reflexivity].
    cbn [lift bind]. unfold combiner, Combiner. cbn [concat]. rewrite app_nil_r. reflexivity.
  Qed.
End Keys.

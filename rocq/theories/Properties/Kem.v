(** C01-C03, C06-C15, C31: the ML-KEM API against FIPS 203.

    [hs] is any behaviour of the SHA-3 functions, [P] any parameter set, [n] the number
    of 3-byte groups each rejection-sampling loop may examine (a ghost of the model:
    [lift None] is the outcome "not finished within n groups"; see C29). *)
From Coq Require Import List ZArith Lia Bool Arith.
From Verif.Base Require Import Res Oracles.
From Verif.Spec Require Import FIPS202 FIPS203 Domains.
From Verif.Model Require Import Machine Util Algebra Compress Encode Crypto Sample Param Pke Kem.
From Verif.Proofs Require Import Basics Field Poly EncodeProofs VecEncode SampleProofs PkeProofs KemProofs HashProofs.
Import ListNotations.
Open Scope Z_scope.

(** ** Which keys exist

    The fields of the Rust key types are private: these are all the ways to obtain one
    ([Clone] returns an equal value). *)
Section Reach.
  Variable hs : hashes.
  Variable P : params.

  Inductive reachable_dk : decaps_key -> Prop :=
  | dk_generated_deterministic n d z dk ek :
      byte_string 32 d -> byte_string 32 z ->
      kem_generate_deterministic hs P n d z = Ok (dk, ek) -> reachable_dk dk
  | dk_generated n g s dk ek s' :
      rng_ok g -> kem_generate hs P n g s = Ok (dk, ek, s') -> reachable_dk dk
  | dk_parsed b dk :
      byte_string (dk_len P) b -> decaps_key_from_bytes P b = Ok dk -> reachable_dk dk.

  (** encapsulation keys that come from generation or from [EncapsulationKey::from_bytes] *)
  Inductive honest_ek : encaps_key -> Prop :=
  | ek_generated_deterministic n d z dk ek :
      byte_string 32 d -> byte_string 32 z ->
      kem_generate_deterministic hs P n d z = Ok (dk, ek) -> honest_ek ek
  | ek_generated n g s dk ek s' :
      rng_ok g -> kem_generate hs P n g s = Ok (dk, ek, s') -> honest_ek ek
  | ek_parsed b ek :
      byte_string (ek_len P) b -> encaps_key_from_bytes hs P b = Ok ek -> honest_ek ek.

  (** all encapsulation keys: also those embedded in a decapsulation key *)
  Inductive reachable_ek : encaps_key -> Prop :=
  | ek_honest ek : honest_ek ek -> reachable_ek ek
  | ek_embedded dk : reachable_dk dk -> reachable_ek (encapsulation_key dk).
End Reach.

Section Facts.
  Variable hs : hashes.
  Hypothesis Hhs : hash_ok hs.
  Variable P : params.
  Hypothesis HP : wf_params P.
  Let k := pk P.

  Lemma generated_valid n d z dk ek : bytes d -> byte_string 32 z ->
    kem_generate_deterministic hs P n d z = Ok (dk, ek) ->
    valid_decaps_key P dk /\ ek = dk_ek dk /\ ek_h ek = FIPS203.H hs (ekey_bytes P ek).
  Proof.
    intros Hd Hz E. pose proof (generate_ok hs Hhs P HP n d z Hd Hz) as W.
    destruct (KeyGen_internal hs P n d z) as [[ekb dkb]|].
    - destruct W as (dk' & W & V & _ & W2 & W3 & _). rewrite W in E. apply Ok_inj in E.
      pose proof (f_equal fst E) as E1. pose proof (f_equal snd E) as E2. cbn [fst snd] in E1, E2. subst dk' ek.
      split; [exact V|]. split; [reflexivity|]. rewrite W3, W2. reflexivity.
    - rewrite W in E. discriminate.
  Qed.

  Lemma generate_split n g s :
    kem_generate hs P n g s =
    let '(d, s1) := fill_bytes g s 32 in
    let '(z, s2) := fill_bytes g s1 32 in
    let* '(dk, ek) := kem_generate_deterministic hs P n d z in Ok (dk, ek, s2).
  Proof.
    unfold kem_generate, decaps_key_generate, kem_generate_deterministic, rand.
    destruct (fill_bytes g s 32) as [d s1]. destruct (fill_bytes g s1 32) as [z s2].
    destruct (decaps_key_generate_deterministic hs P n d z); reflexivity.
  Qed.

  Lemma generate_inv n g s dk ek s' : rng_ok g -> kem_generate hs P n g s = Ok (dk, ek, s') ->
    exists d z, byte_string 32 d /\ byte_string 32 z /\ kem_generate_deterministic hs P n d z = Ok (dk, ek).
  Proof.
    intros Hg E. rewrite generate_split in E.
    pose proof (Hg s 32%nat) as Hd. destruct (fill_bytes g s 32) as [d s1].
    pose proof (Hg s1 32%nat) as Hz. destruct (fill_bytes g s1 32) as [z s2]. cbn [fst] in *.
    exists d, z. split; [exact Hd|]. split; [exact Hz|].
    destruct (kem_generate_deterministic hs P n d z) as [[dk' ek']| | |]; try discriminate. cbn [bind] in E.
    apply Ok_inj in E. pose proof (f_equal (fun x => fst (fst x)) E) as E1.
    pose proof (f_equal (fun x => snd (fst x)) E) as E2. cbn [fst snd] in E1, E2. subst. reflexivity.
  Qed.

  Lemma reachable_dk_valid dk : reachable_dk hs P dk -> valid_decaps_key P dk.
  Proof.
    intros [n d z dk' ek Hd Hz E|n g s dk' ek s' Hg E|b dk' Hb E].
    - eapply generated_valid; [apply Hd|exact Hz|exact E].
    - destruct (generate_inv _ _ _ _ _ _ Hg E) as (d & z & Hd & Hz & E').
      eapply generated_valid; [apply Hd|exact Hz|exact E'].
    - rewrite (decaps_key_from_bytes_ok P HP) in E by exact Hb. apply Ok_inj in E. subst dk'.
      apply dkey_parse_valid, Hb.
  Qed.

  Lemma honest_ek_valid ek : honest_ek hs P ek ->
    valid_encaps_key P ek /\ ek_h ek = FIPS203.H hs (ekey_bytes P ek).
  Proof.
    intros [n d z dk ek' Hd Hz E|n g s dk ek' s' Hg E|b ek' Hb E].
    - destruct (generated_valid n d z dk ek' (proj2 Hd) Hz E) as (V & -> & Eh). split; [apply V|exact Eh].
    - destruct (generate_inv _ _ _ _ _ _ Hg E) as (d & z & Hd & Hz & E').
      destruct (generated_valid n d z dk ek' (proj2 Hd) Hz E') as (V & -> & Eh). split; [apply V|exact Eh].
    - rewrite (encaps_key_from_bytes_ok hs P HP) in E by exact Hb. apply Ok_inj in E. subst ek'.
      split; [apply ekey_parse_valid; assumption|reflexivity].
  Qed.

  Lemma reachable_ek_valid ek : reachable_ek hs P ek -> valid_encaps_key P ek.
  Proof.
    intros [ek' Hh|dk Hd]; [apply honest_ek_valid, Hh|]. apply (reachable_dk_valid dk Hd).
  Qed.

  (** ** C01 *)
  Theorem C01_keygen n d z : byte_string 32 d -> byte_string 32 z ->
    (let* '(dk, ek) := kem_generate_deterministic hs P n d z in
     let* dkb := decaps_key_as_bytes P dk in
     let* ekb := encaps_key_as_bytes P ek in
     Ok (ekb, dkb)) = lift (KeyGen_internal hs P n d z).
  Proof.
    intros Hd Hz. pose proof (generate_ok hs Hhs P HP n d z (proj2 Hd) Hz) as W.
    destruct (KeyGen_internal hs P n d z) as [[ekb dkb]|].
    - destruct W as (dk & W & V & <- & <- & _). rewrite W. cbn [bind].
      rewrite decaps_key_as_bytes_ok by exact V. cbn [bind].
      rewrite encaps_key_as_bytes_ok by apply V. reflexivity.
    - rewrite W. reflexivity.
  Qed.

  (** ** C02 *)

  (** generated or parsed keys: FIPS 203 on the serialised key *)
  Theorem C02_encaps n ek m : honest_ek hs P ek -> byte_string 32 m ->
    exists ekb, encaps_key_as_bytes P ek = Ok ekb /\
    encapsulate_deterministic hs P n ek m = lift (swap (Encaps_internal hs P n ekb m)).
  Proof.
    intros Hek Hm. destruct (honest_ek_valid ek Hek) as [V Eh]. exists (ekey_bytes P ek).
    split; [apply encaps_key_as_bytes_ok, V|].
    rewrite (encapsulate_deterministic_ok hs Hhs P HP) by assumption. rewrite Eh. reflexivity.
  Qed.

  (** a key parsed from bytes that pass the FIPS 203 modulus check: FIPS 203 on those bytes *)
  Theorem C02_encaps_from_bytes n b m : byte_string (ek_len P) b -> canonical_vec k (firstn (384 * k) b) ->
    byte_string 32 m ->
    (let* ek := encaps_key_from_bytes hs P b in encapsulate_deterministic hs P n ek m) =
    lift (swap (Encaps_internal hs P n b m)).
  Proof.
    intros Hb Hc Hm. rewrite (encaps_key_from_bytes_ok hs P HP) by exact Hb. cbn [bind].
    rewrite (encapsulate_deterministic_ok hs Hhs P HP) by (try assumption; apply ekey_parse_valid; assumption).
    pose proof (proj2 (ekey_reduce_id hs P b Hb) Hc) as E. unfold Encaps_internal.
    assert (Eh : ek_h (ekey_parse hs P b) = FIPS203.H hs b).
    { transitivity (FIPS203.H hs (ekey_bytes P (ekey_parse hs P b))); [reflexivity|]. rewrite E. reflexivity. }
    rewrite Eh, E. reflexivity.
  Qed.

  (** every key, including those embedded in a parsed decapsulation key: the stored h is
      used in place of H(ek) *)
  Theorem C02_encaps_any n ek m : reachable_ek hs P ek -> byte_string 32 m ->
    exists ekb, encaps_key_as_bytes P ek = Ok ekb /\
    encapsulate_deterministic hs P n ek m = lift (swap (Encaps_with hs P n ekb (ek_h ek) m)).
  Proof.
    intros Hek Hm. pose proof (reachable_ek_valid ek Hek) as V. exists (ekey_bytes P ek).
    split; [apply encaps_key_as_bytes_ok, V|]. apply encapsulate_deterministic_ok; assumption.
  Qed.

  (** ** C03 *)
  Theorem C03_decaps n dk c : reachable_dk hs P dk -> byte_string (ct_len P) c ->
    exists dkb, decaps_key_as_bytes P dk = Ok dkb /\
    decapsulate hs P n dk c = lift (Decaps_internal hs P n dkb c).
  Proof.
    intros Hdk Hc. pose proof (reachable_dk_valid dk Hdk) as V. exists (dkey_bytes P dk).
    split; [apply decaps_key_as_bytes_ok, V|]. apply decapsulate_ok; assumption.
  Qed.

  (** straight from any bytes of the right length, canonical or not *)
  Theorem C03_decaps_from_bytes n b c : byte_string (dk_len P) b -> byte_string (ct_len P) c ->
    (let* dk := decaps_key_from_bytes P b in decapsulate hs P n dk c) =
    lift (Decaps_internal hs P n b c).
  Proof.
    intros Hb Hc. rewrite (decaps_key_from_bytes_ok P HP) by exact Hb. cbn [bind].
    rewrite (decapsulate_ok hs Hhs P HP) by (try assumption; apply dkey_parse_valid; exact Hb).
    rewrite Decaps_internal_reduce by exact Hb. reflexivity.
  Qed.

  (** ** C06 *)
  Theorem C06_implicit_rejection n dk dkb c : reachable_dk hs P dk -> decaps_key_as_bytes P dk = Ok dkb ->
    byte_string (ct_len P) c ->
    let m' := KPKE_Decrypt P (dk_sec_pke P dkb) c in
    let '(K', r') := FIPS203.G hs (m' ++ dk_sec_h P dkb) in
    match KPKE_Encrypt hs P n (dk_sec_ek P dkb) m' r' with
    | None => decapsulate hs P n dk c = NoFuel
    | Some c' =>
        (c' = c -> decapsulate hs P n dk c = Ok K') /\
        (c' <> c -> decapsulate hs P n dk c = Ok (FIPS203.J hs (dk_sec_z P dkb ++ c)))
    end.
  Proof.
    intros Hdk Eb Hc. cbv zeta. pose proof (reachable_dk_valid dk Hdk) as V.
    rewrite decaps_key_as_bytes_ok in Eb by exact V. apply Ok_inj in Eb. subst dkb.
    rewrite (decapsulate_ok hs Hhs P HP) by assumption. unfold Decaps_internal.
    unfold dk_sec_pke, dk_sec_h, dk_sec_ek, dk_sec_z.
    destruct (FIPS203.G hs _) as [K' r']. destruct (KPKE_Encrypt hs P n _ _ r') as [c'|]; [|reflexivity].
    destruct (list_eq_dec Z.eq_dec c c') as [E|N]; split; intros X; try reflexivity; congruence.
  Qed.

  (** one differing byte is enough *)
  Theorem C06_any_byte_difference n dk dkb c K' r' c' i : reachable_dk hs P dk ->
    decaps_key_as_bytes P dk = Ok dkb -> byte_string (ct_len P) c ->
    FIPS203.G hs (KPKE_Decrypt P (dk_sec_pke P dkb) c ++ dk_sec_h P dkb) = (K', r') ->
    KPKE_Encrypt hs P n (dk_sec_ek P dkb) (KPKE_Decrypt P (dk_sec_pke P dkb) c) r' = Some c' ->
    nth i c' 0 <> nth i c 0 ->
    decapsulate hs P n dk c = Ok (FIPS203.J hs (dk_sec_z P dkb ++ c)).
  Proof.
    intros Hdk Eb Hc EG EE Hi. pose proof (C06_implicit_rejection n dk dkb c Hdk Eb Hc) as W. cbv zeta in W.
    rewrite EG, EE in W. apply W. intros ->. apply Hi. reflexivity.
  Qed.

  (** ** C07 *)
  Definition safe {A} (r : res A) : Prop := r <> Panic /\ r <> UB.
  Lemma safe_lift A (o : option A) : safe (lift o).
  Proof. destruct o; split; discriminate. Qed.
  Lemma safe_bind A B (r : res A) (f : A -> res B) : safe r -> (forall a, r = Ok a -> safe (f a)) -> safe (bind r f).
  Proof. destruct r; intros [H1 H2] Hf; cbn [bind]; try (split; congruence). apply Hf. reflexivity. Qed.

  Theorem C07_generate_deterministic n d z : byte_string 32 d -> byte_string 32 z ->
    safe (kem_generate_deterministic hs P n d z).
  Proof.
    intros Hd Hz. pose proof (generate_ok hs Hhs P HP n d z (proj2 Hd) Hz) as W.
    destruct (KeyGen_internal hs P n d z) as [[ekb dkb]|].
    - destruct W as (dk & W & _). rewrite W. split; discriminate.
    - rewrite W. split; discriminate.
  Qed.
  Theorem C07_generate n g s : rng_ok g -> safe (kem_generate hs P n g s).
  Proof.
    intros Hg. rewrite generate_split. pose proof (Hg s 32%nat) as Hd. destruct (fill_bytes g s 32) as [d s1].
    pose proof (Hg s1 32%nat) as Hz. destruct (fill_bytes g s1 32) as [z s2]. cbn [fst] in *.
    apply safe_bind; [apply C07_generate_deterministic; assumption|]. intros [dk ek] _. split; discriminate.
  Qed.
  Theorem C07_encapsulate_deterministic n ek m : reachable_ek hs P ek -> byte_string 32 m ->
    safe (encapsulate_deterministic hs P n ek m).
  Proof. intros Hek Hm. destruct (C02_encaps_any n ek m Hek Hm) as (ekb & _ & ->). apply safe_lift. Qed.
  Theorem C07_encapsulate n ek g s : reachable_ek hs P ek -> rng_ok g -> safe (encapsulate hs P n ek g s).
  Proof.
    intros Hek Hg. unfold encapsulate, rand. pose proof (Hg s 32%nat) as Hm.
    destruct (fill_bytes g s 32) as [m s1]. cbn [fst] in Hm.
    apply safe_bind; [exact (C07_encapsulate_deterministic n ek m Hek Hm)|]. intros [c K] _. split; discriminate.
  Qed.
  Theorem C07_decapsulate n dk c : reachable_dk hs P dk -> byte_string (ct_len P) c ->
    safe (decapsulate hs P n dk c).
  Proof. intros Hdk Hc. destruct (C03_decaps n dk c Hdk Hc) as (dkb & _ & ->). apply safe_lift. Qed.
  (** serialisation and parsing do not loop, so they always return normally *)
  Theorem C07_from_bytes : (forall b, byte_string (ek_len P) b -> exists ek, encaps_key_from_bytes hs P b = Ok ek) /\
    (forall b, byte_string (dk_len P) b -> exists dk, decaps_key_from_bytes P b = Ok dk).
  Proof.
    split; intros b Hb; eexists; [apply encaps_key_from_bytes_ok|apply decaps_key_from_bytes_ok]; assumption.
  Qed.
  Theorem C07_as_bytes : (forall ek, reachable_ek hs P ek -> exists b, encaps_key_as_bytes P ek = Ok b) /\
    (forall dk, reachable_dk hs P dk -> exists b, decaps_key_as_bytes P dk = Ok b).
  Proof.
    split; intros x Hx; eexists; [apply encaps_key_as_bytes_ok, reachable_ek_valid, Hx|
      apply decaps_key_as_bytes_ok, reachable_dk_valid, Hx].
  Qed.

  (** ** C08, C09 *)
  Theorem C08_dk_round_trip dk : reachable_dk hs P dk ->
    (let* b := decaps_key_as_bytes P dk in decaps_key_from_bytes P b) = Ok dk.
  Proof.
    intros Hdk. pose proof (reachable_dk_valid dk Hdk) as V. rewrite decaps_key_as_bytes_ok by exact V. cbn [bind].
    rewrite (decaps_key_from_bytes_ok P HP) by apply (dkey_bytes_ok P dk V).
    rewrite dkey_parse_bytes by exact V. reflexivity.
  Qed.
  Theorem C09_ek_round_trip ek : honest_ek hs P ek ->
    (let* b := encaps_key_as_bytes P ek in encaps_key_from_bytes hs P b) = Ok ek.
  Proof.
    intros Hek. destruct (honest_ek_valid ek Hek) as [V Eh]. rewrite encaps_key_as_bytes_ok by exact V. cbn [bind].
    rewrite (encaps_key_from_bytes_ok hs P HP) by apply (ekey_bytes_ok P ek V).
    rewrite ekey_parse_bytes by assumption. reflexivity.
  Qed.
  (** for any encapsulation key the round trip preserves everything except that h is recomputed *)
  Theorem C09_ek_round_trip_any ek : reachable_ek hs P ek ->
    exists b, encaps_key_as_bytes P ek = Ok b /\
    encaps_key_from_bytes hs P b = Ok {| ek_pke := ek_pke ek; ek_h := FIPS203.H hs b |}.
  Proof.
    intros Hek. pose proof (reachable_ek_valid ek Hek) as V. exists (ekey_bytes P ek).
    split; [apply encaps_key_as_bytes_ok, V|].
    rewrite (encaps_key_from_bytes_ok hs P HP) by apply (ekey_bytes_ok P ek V).
    unfold ekey_parse, ekey_bytes. rewrite ek_parse_bytes by apply V. reflexivity.
  Qed.

  (** ** C10 *)
  Lemma part_firstn i (b : list Z) : (i < k)%nat -> part 384 i (firstn (384 * k) b) = part 384 i b.
  Proof.
    intros Hi. unfold part. rewrite skipn_firstn_comm, firstn_firstn. f_equal.
    assert (384 * i + 384 <= 384 * k)%nat by nia. lia.
  Qed.
  Lemma canonical_vec_firstn b : canonical_vec k (firstn (384 * k) b) <-> canonical_vec k b.
  Proof.
    unfold canonical_vec. split; intros W i Hi j Hj; specialize (W i Hi j Hj);
      rewrite part_firstn in * by exact Hi; exact W.
  Qed.

  (** the k vectors of 256 fields of [b'] are those of [b] reduced mod q *)
  Definition fields_reduced (b b' : list Z) : Prop :=
    forall i j, (i < k)%nat -> (j < 256)%nat -> field 12 (part 384 i b') j = field 12 (part 384 i b) j mod q.

  Lemma reencode_fields b rest : fields_reduced b (encode_vec P 12 (decode_vec P 12 (firstn (384 * k) b)) ++ rest).
  Proof.
    intros i j Hi Hj.
    assert (E1 : part 384 i (encode_vec P 12 (decode_vec P 12 (firstn (384 * k) b)) ++ rest) =
                 ByteEncode 12 (ent (decode_vec P 12 (firstn (384 * k) b)) i)).
    { rewrite <- (part_encode_vec P 12 (decode_vec P 12 (firstn (384 * k) b)) i Hi).
      change (32 * 12)%nat with 384%nat. rewrite <- part_firstn by exact Hi. f_equal.
      apply firstn_app_exact. apply encode_vec12_bytes. }
    rewrite E1, decode_vec_part. unfold ent. rewrite nth_tab by exact Hi.
    change (32 * 12)%nat with 384%nat. rewrite part_firstn by exact Hi.
    rewrite field_ByteEncode; [|lia|exact Hj|apply ByteDecode_small; lia].
    rewrite ByteDecode_field, co_tab by exact Hj. reflexivity.
  Qed.

  Theorem C10_ek b : byte_string (ek_len P) b ->
    exists b', (let* ek := encaps_key_from_bytes hs P b in encaps_key_as_bytes P ek) = Ok b' /\
    byte_string (ek_len P) b' /\ fields_reduced b b' /\ skipn (384 * k) b' = skipn (384 * k) b /\
    (b' = b <-> canonical_vec k b).
  Proof.
    intros Hb. exists (ekey_bytes P (ekey_parse hs P b)).
    rewrite (encaps_key_from_bytes_ok hs P HP) by exact Hb. cbn [bind].
    pose proof (ekey_parse_valid hs Hhs P b Hb) as V.
    split; [apply encaps_key_as_bytes_ok, V|]. split; [apply ekey_bytes_ok, V|].
    split; [apply reencode_fields|]. split.
    - apply skipn_app_exact. apply encode_vec12_bytes.
    - rewrite <- canonical_vec_firstn. apply (ekey_reduce_id hs P b Hb).
  Qed.

  Theorem C10_dk b : byte_string (dk_len P) b ->
    exists b', (let* dk := decaps_key_from_bytes P b in decaps_key_as_bytes P dk) = Ok b' /\
    byte_string (dk_len P) b' /\
    fields_reduced b b' /\ fields_reduced (skipn (384 * k) b) (skipn (384 * k) b') /\
    skipn (768 * k) b' = skipn (768 * k) b /\
    (b' = b <-> canonical_vec k b /\ canonical_vec k (skipn (384 * k) b)).
  Proof.
    intros Hb. exists (dkey_bytes P (dkey_parse P b)).
    rewrite (decaps_key_from_bytes_ok P HP) by exact Hb. cbn [bind].
    pose proof (dkey_parse_valid P b Hb) as V.
    split; [apply decaps_key_as_bytes_ok, V|]. split; [apply (dkey_bytes_ok P _ V)|].
    assert (S1 : forall r, skipn (384 * k) (dk_bytes P (dk_parse P (firstn (384 * k) b)) ++ r) = r).
    { intros r. apply skipn_app_exact. apply dk_bytes_ok. }
    split; [apply reencode_fields|]. split; [|split].
    - unfold dkey_bytes, dkey_parse. cbn [dk_pke dk_ek dk_z ek_pke ek_h]. fold k. rewrite S1.
      unfold ekey_bytes, ek_bytes, ek_parse. cbn [ek_pke Pke.t_hat Pke.rho]. rewrite <- app_assoc.
      fold k. rewrite firstn_firstn. replace (Nat.min (384 * k) (384 * k + 32)) with (384 * k)%nat by lia.
      apply reencode_fields.
    - destruct (dkey_sections P _ V) as (_ & E2 & E3 & E4). fold k in E2, E3, E4.
      assert (Hr : forall x : list Z, length x = (768 * k + 96)%nat ->
        skipn (768 * k) x = skipn (384 * k) (firstn (384 * k + 32) (skipn (384 * k) x)) ++
          firstn 32 (skipn (768 * k + 32) x) ++ skipn (768 * k + 64) x).
      { intros x Lx. clear -Lx. rewrite skipn_firstn_comm, skipn_skipn.
        replace (384 * k + 32 - 384 * k)%nat with 32%nat by lia.
        replace (384 * k + 384 * k)%nat with (768 * k)%nat by lia.
        replace (768 * k + 64)%nat with (768 * k + 32 + 32)%nat by lia.
        rewrite <- (skipn_skipn _ 32 (768 * k + 32)), firstn_skipn, <- (skipn_skipn _ 32 (768 * k)).
        rewrite firstn_skipn. reflexivity. }
      rewrite Hr by apply (dkey_bytes_ok P _ V). rewrite (Hr b) by apply Hb. rewrite E2, E3, E4.
      unfold dkey_parse, ekey_bytes, ek_bytes, ek_parse. cbn [dk_pke dk_ek dk_z ek_pke ek_h Pke.t_hat Pke.rho].
      fold k. rewrite skipn_app_exact by apply encode_vec12_bytes. reflexivity.
    - rewrite <- (canonical_vec_firstn b), <- (canonical_vec_firstn (skipn (384 * k) b)).
      apply (dkey_reduce_id hs P b Hb).
  Qed.

  (** the FIPS 203 modulus check is not performed: two different byte strings are accepted
      and give equal keys *)
  Theorem C10_no_modulus_check : exists b1 b2, b1 <> b2 /\
    byte_string (ek_len P) b1 /\ byte_string (ek_len P) b2 /\
    exists ek, encaps_key_from_bytes hs P b1 = Ok ek /\ encaps_key_from_bytes hs P b2 = Ok ek.
  Proof.
    pose proof (k_range P HP) as Hk. fold k in Hk.
    set (b := [1; 13] ++ repeat 0 (384 * k + 30)).
    assert (Hb : byte_string (ek_len P) b).
    { unfold ek_len. fold k. replace (384 * k + 32)%nat with (2 + (384 * k + 30))%nat by lia.
      apply byte_string_app; [split; [reflexivity|repeat constructor; discriminate || reflexivity]|].
      split; [apply repeat_length|]. apply Forall_forall. intros x Hx. apply repeat_spec in Hx. subst x.
      unfold is_byte. lia. }
    destruct (C10_ek b Hb) as (b' & E & Hb' & _ & _ & Hc). exists b', b.
    destruct (encaps_key_from_bytes hs P b) as [ek| | |] eqn:Ek; try discriminate. cbn [bind] in E.
    split; [|split; [exact Hb'|split; [exact Hb|]]].
    - intros X. apply Hc in X. specialize (X 0%nat ltac:(lia) 0%nat ltac:(lia)).
      assert (F : field 12 (part 384 0 b) 0 = 3329).
      { unfold part, field. cbn [Nat.mul skipn]. unfold b. cbn [app firstn]. reflexivity. }
      rewrite F in X. unfold q in X. lia.
    - exists ek. split; [|reflexivity].
      pose proof (C09_ek_round_trip ek (ek_parsed hs P b ek Hb Ek)) as R. rewrite E in R. exact R.
  Qed.

  (** ** C11 *)
  Theorem C11_h_kept b dk : byte_string (dk_len P) b -> decaps_key_from_bytes P b = Ok dk ->
    ek_h (encapsulation_key dk) = dk_sec_h P b.
  Proof.
    intros Hb E. rewrite (decaps_key_from_bytes_ok P HP) in E by exact Hb. apply Ok_inj in E. subst dk. reflexivity.
  Qed.

  (** [ek'] is what [EncapsulationKey::from_bytes] makes of the embedded key *)
  Theorem C11_agrees_iff b dk ek' : byte_string (dk_len P) b -> decaps_key_from_bytes P b = Ok dk ->
    encaps_key_from_bytes hs P (dk_sec_ek P b) = Ok ek' ->
    ek_pke (encapsulation_key dk) = ek_pke ek' /\
    exists ekb, encaps_key_as_bytes P ek' = Ok ekb /\
    (encapsulation_key dk = ek' <-> dk_sec_h P b = FIPS203.H hs ekb).
  Proof.
    intros Hb E E'. rewrite (decaps_key_from_bytes_ok P HP) in E by exact Hb. apply Ok_inj in E. subst dk.
    assert (Hs : byte_string (384 * pk P + 32) (dk_sec_ek P b)).
    { unfold dk_sec_ek. apply byte_string_firstn with (m := (384 * k + 96)%nat); [|fold k; lia].
      apply byte_string_skipn. unfold dk_len in Hb. fold k. fold k in Hb.
      replace (384 * k + (384 * k + 96))%nat with (768 * k + 96)%nat by lia. exact Hb. }
    rewrite (encaps_key_from_bytes_ok hs P HP) in E' by exact Hs. apply Ok_inj in E'. subst ek'.
    split; [reflexivity|]. exists (ekey_bytes P (ekey_parse hs P (dk_sec_ek P b))).
    split; [apply encaps_key_as_bytes_ok, ekey_parse_valid; assumption|].
    unfold encapsulation_key, dkey_parse, ekey_parse. cbn [dk_ek]. split; intros X.
    - apply (f_equal ek_h) in X. exact X.
    - unfold dk_sec_h in X. rewrite X. reflexivity.
  Qed.

  (** the negative part, for every parameter set and hash: some accepted bytes disagree *)
  Theorem C11_h_not_checked : exists b dk ek', byte_string (dk_len P) b /\
    decaps_key_from_bytes P b = Ok dk /\ encaps_key_from_bytes hs P (dk_sec_ek P b) = Ok ek' /\
    encapsulation_key dk <> ek'.
  Proof.
    set (ekb := repeat 0 (384 * k + 32)).
    assert (Z0 : forall m, byte_string m (repeat 0 m)).
    { intros m. split; [apply repeat_length|]. apply Forall_forall. intros x Hx. apply repeat_spec in Hx. subst x.
      unfold is_byte. lia. }
    set (ek0 := ekey_parse hs P ekb).
    assert (V0 : valid_encaps_key P ek0) by (apply ekey_parse_valid; [exact Hhs|apply Z0]).
    set (h := map (fun x => 255 - x) (ek_h ek0)).
    assert (Hh : byte_string 32 h).
    { destruct (proj2 V0) as [L B]. split; [unfold h; rewrite map_length; exact L|]. apply Forall_map.
      eapply Forall_impl; [|exact B]. unfold is_byte. intros. lia. }
    set (b := repeat 0 (384 * k) ++ ekb ++ h ++ repeat 0 32).
    assert (Hb : byte_string (dk_len P) b).
    { unfold dk_len. fold k. replace (768 * k + 96)%nat with (384 * k + ((384 * k + 32) + (32 + 32)))%nat by lia.
      apply byte_string_app; [apply Z0|]. apply byte_string_app; [apply Z0|]. apply byte_string_app; [exact Hh|apply Z0]. }
    assert (Se : dk_sec_ek P b = ekb).
    { unfold dk_sec_ek, b. fold k. rewrite skipn_app_exact by apply repeat_length. apply firstn_app_exact, repeat_length. }
    assert (Sh : dk_sec_h P b = h).
    { unfold dk_sec_h, b. fold k. rewrite app_assoc.
      rewrite skipn_app_exact by (rewrite app_length; unfold ekb; rewrite !repeat_length; lia).
      apply firstn_app_exact, Hh. }
    exists b, (dkey_parse P b), ek0. split; [exact Hb|].
    split; [apply decaps_key_from_bytes_ok; assumption|].
    split; [rewrite Se; apply encaps_key_from_bytes_ok; [exact HP|apply Z0]|].
    intros X. apply (f_equal ek_h) in X.
    assert (X' : h = ek_h ek0) by (rewrite <- X, <- Sh; reflexivity). clear X.
    destruct (proj2 V0) as [L B]. unfold h in X'. destruct (ek_h ek0) as [|x r]; [discriminate|].
    cbn [map] in X'. apply (f_equal (hd 0)) in X'. cbn [hd] in X'. lia.
  Qed.

  (** ** C12 *)
  Theorem C12_generate n g s :
    kem_generate hs P n g s =
    let '(d, s1) := fill_bytes g s 32 in
    let '(z, s2) := fill_bytes g s1 32 in
    let* '(dk, ek) := kem_generate_deterministic hs P n d z in Ok (dk, ek, s2).
  Proof. apply generate_split. Qed.
  Theorem C12_encapsulate n ek g s :
    encapsulate hs P n ek g s =
    let '(m, s1) := fill_bytes g s 32 in
    let* '(c, K) := encapsulate_deterministic hs P n ek m in Ok (c, K, s1).
  Proof. reflexivity. Qed.

  (** an RNG that also records the size of every request *)
  Definition logged (g : rng) : rng := {|
    rng_state := rng_state g * list nat;
    fill_bytes := fun s m => let '(b, s') := fill_bytes g (fst s) m in (b, (s', snd s ++ [m]))
  |}.
  Theorem C12_generate_draws n g s l dk ek s' l' :
    kem_generate hs P n (logged g) (s, l) = Ok (dk, ek, (s', l')) ->
    kem_generate hs P n g s = Ok (dk, ek, s') /\ l' = l ++ [32; 32]%nat.
  Proof.
    rewrite !generate_split. cbn [fill_bytes logged fst snd].
    destruct (fill_bytes g s 32) as [d s1]. cbn [fst snd]. destruct (fill_bytes g s1 32) as [z s2].
    destruct (kem_generate_deterministic hs P n d z) as [[dk' ek']| | |]; try discriminate. cbn [bind].
    intros E. apply Ok_inj in E. inversion E. subst. split; [reflexivity|]. rewrite <- app_assoc. reflexivity.
  Qed.
  Theorem C12_encapsulate_draws n ek g s l c K s' l' :
    encapsulate hs P n ek (logged g) (s, l) = Ok (c, K, (s', l')) ->
    encapsulate hs P n ek g s = Ok (c, K, s') /\ l' = l ++ [32]%nat.
  Proof.
    unfold encapsulate, rand. cbn [fill_bytes logged fst snd].
    destruct (fill_bytes g s 32) as [m s1].
    destruct (encapsulate_deterministic_inner hs P n ek m) as [[c' K']| | |]; try discriminate. cbn [bind].
    intros E. apply Ok_inj in E. inversion E. subst. split; reflexivity.
  Qed.

  (** ** C13 *)
  Theorem C13_sizes :
    (forall ek b, reachable_ek hs P ek -> encaps_key_as_bytes P ek = Ok b -> byte_string (ek_len P) b) /\
    (forall dk b, reachable_dk hs P dk -> decaps_key_as_bytes P dk = Ok b -> byte_string (dk_len P) b) /\
    (forall n ek m c K, reachable_ek hs P ek -> byte_string 32 m ->
       encapsulate_deterministic hs P n ek m = Ok (c, K) -> byte_string (ct_len P) c /\ byte_string 32 K) /\
    (forall n dk c K, reachable_dk hs P dk -> byte_string (ct_len P) c ->
       decapsulate hs P n dk c = Ok K -> byte_string 32 K).
  Proof.
    split; [|split; [|split]].
    - intros ek b Hek E. pose proof (reachable_ek_valid ek Hek) as V. rewrite encaps_key_as_bytes_ok in E by exact V.
      apply Ok_inj in E. subst b. apply (ekey_bytes_ok P ek V).
    - intros dk b Hdk E. pose proof (reachable_dk_valid dk Hdk) as V. rewrite decaps_key_as_bytes_ok in E by exact V.
      apply Ok_inj in E. subst b. apply (dkey_bytes_ok P dk V).
    - intros n ek m c K Hek Hm E. pose proof (reachable_ek_valid ek Hek) as V.
      rewrite (encapsulate_deterministic_ok hs Hhs P HP) in E by assumption.
      destruct (Encaps_with hs P n _ _ m) as [[K' c']|] eqn:EW; [|discriminate]. cbn [swap lift] in E.
      apply Ok_inj in E. inversion E. subst c' K'. apply Encaps_with_bytes in EW; [|exact Hhs|apply Hm|apply V].
      split; apply EW.
    - intros n dk c K Hdk Hc E. pose proof (reachable_dk_valid dk Hdk) as V.
      rewrite (decapsulate_ok hs Hhs P HP) in E by assumption.
      destruct (Decaps_internal hs P n _ c) as [K'|] eqn:ED; [|discriminate]. apply Ok_inj in E. subst K'.
      apply Decaps_internal_bytes in ED; [exact ED|exact Hhs|apply (dkey_bytes_ok P dk V)|apply Hc].
  Qed.

  (** ** C14 *)
  Theorem C14_consistent n d z dk ek : byte_string 32 d -> byte_string 32 z ->
    kem_generate_deterministic hs P n d z = Ok (dk, ek) ->
    ek = encapsulation_key dk /\
    exists ekb dkb, encaps_key_as_bytes P ek = Ok ekb /\ decaps_key_as_bytes P dk = Ok dkb /\
    dk_sec_ek P dkb = ekb /\ dk_sec_h P dkb = sha3_256 hs ekb /\ dk_sec_z P dkb = z.
  Proof.
    intros Hd Hz E. pose proof (generate_ok hs Hhs P HP n d z (proj2 Hd) Hz) as W.
    destruct (KeyGen_internal hs P n d z) as [[ekb dkb]|]; [|rewrite W in E; discriminate].
    destruct W as (dk' & W & V & W1 & W2 & W3 & W4). rewrite W in E. apply Ok_inj in E.
    pose proof (f_equal fst E) as E1. pose proof (f_equal snd E) as E2. cbn [fst snd] in E1, E2. subst dk' ek.
    split; [reflexivity|]. exists ekb, dkb. rewrite <- W1, <- W2.
    split; [apply encaps_key_as_bytes_ok, V|]. split; [apply decaps_key_as_bytes_ok, V|].
    destruct (dkey_sections P dk V) as (_ & S2 & S3 & S4). unfold dk_sec_ek, dk_sec_h, dk_sec_z.
    rewrite S2, S3, S4. split; [reflexivity|]. split; [|exact W4]. rewrite W3, <- W2. reflexivity.
  Qed.
End Facts.

(** ** C13 for the named parameter sets (FIPS 203 Table 3) *)
Theorem C13_table_3 :
  MlKem512Params = ML_KEM_512 /\ MlKem768Params = ML_KEM_768 /\ MlKem1024Params = ML_KEM_1024 /\
  wf_params ML_KEM_512 /\ wf_params ML_KEM_768 /\ wf_params ML_KEM_1024 /\
  map (fun P => [ek_len P; dk_len P; ct_len P]) [ML_KEM_512; ML_KEM_768; ML_KEM_1024] =
  [[800; 1632; 768]; [1184; 2400; 1088]; [1568; 3168; 1568]]%nat /\
  (** the sizes the code's type-level arithmetic computes *)
  map (fun P => [encryption_key_size P; decapsulation_key_size P; ciphertext_size P])
    [MlKem512Params; MlKem768Params; MlKem1024Params] =
  [[800; 1632; 768]; [1184; 2400; 1088]; [1568; 3168; 1568]]%nat.
Proof.
  unfold wf_params, ML_KEM_512, ML_KEM_768, ML_KEM_1024. cbn [pk eta1 eta2 du dv].
  repeat match goal with |- _ /\ _ => split end; first [reflexivity|lia|vm_compute; reflexivity].
Qed.

(** ** C15 *)
Theorem C15_drop_erases dk :
  (forall i j, nth j (nth i (Pke.s_hat (dk_pke (decaps_key_drop dk))) []) 0 = 0) /\
  map (@length Z) (Pke.s_hat (dk_pke (decaps_key_drop dk))) = map (@length Z) (Pke.s_hat (dk_pke dk)) /\
  dk_z (decaps_key_drop dk) = repeat 0 (length (dk_z dk)) /\
  dk_ek (decaps_key_drop dk) = dk_ek dk.
Proof.
  unfold decaps_key_drop, dk_zeroize, nttvec_zeroize. cbn [dk_pke dk_ek dk_z Pke.s_hat].
  split; [|split; [|split; [|reflexivity]]].
  - intros i j. rewrite (map_nth nttpoly_zeroize _ [] i). unfold nttpoly_zeroize.
    apply (map_nth fe_zeroize _ 0 j).
  - rewrite map_map. apply map_ext. intros p. apply map_length.
  - induction (dk_z dk) as [|x r IH]; [reflexivity|]. cbn [map length repeat]. rewrite IH. reflexivity.
Qed.
Example C15_case :
  let dk := {| dk_pke := {| Pke.s_hat := [[1; 2]; [3; 4]] |};
               dk_ek := {| ek_pke := {| Pke.t_hat := [[7]]; Pke.rho := [8] |}; ek_h := [9] |}; dk_z := [5; 6] |} in
  decaps_key_drop dk =
  {| dk_pke := {| Pke.s_hat := [[0; 0]; [0; 0]] |};
     dk_ek := {| ek_pke := {| Pke.t_hat := [[7]]; Pke.rho := [8] |}; ek_h := [9] |}; dk_z := [0; 0] |}.
Proof. reflexivity. Qed.

(** ** C31 *)
Theorem C31_byte_eq x y : is_byte x -> is_byte y -> constant_time_eq x y = if x =? y then 255 else 0.
Proof. apply constant_time_eq_ok. Qed.
Theorem C31_compare a b : length a = length b -> bytes a -> bytes b ->
  (a = b -> ct_compare a b = 255) /\ (a <> b -> ct_compare a b = 0).
Proof.
  intros L Ha Hb. rewrite ct_compare_ok by assumption.
  destruct (list_eq_dec Z.eq_dec a b); split; intros; congruence.
Qed.
Theorem C31_select Kp Kbar : byte_string 32 Kp -> byte_string 32 Kbar ->
  ct_select 255 Kp Kbar = Ok Kp /\ ct_select 0 Kp Kbar = Ok Kbar.
Proof. intros H1 H2. split; [apply (ct_select_ok true)|apply (ct_select_ok false)]; assumption. Qed.
Example C31_case : constant_time_eq 200 200 = 255 /\ constant_time_eq 200 72 = 0 /\
  ct_compare [1; 2; 3] [1; 2; 3] = 255 /\ ct_compare [1; 2; 3] [1; 2; 131] = 0 /\
  ct_select 0 (repeat 170 32) (repeat 85 32) = Ok (repeat 85 32).
Proof. vm_compute. repeat split; reflexivity. Qed.

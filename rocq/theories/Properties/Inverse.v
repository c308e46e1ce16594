(** C65: decapsulation inverts encapsulation, and is determined by public data and z. *)
From Coq Require Import List ZArith Lia Bool Arith.
From Verif.Base Require Import Res Oracles.
From Verif.Spec Require Import FIPS203 Domains Noise.
From Verif.Model Require Import Machine Util Algebra Compress Encode Crypto Sample Param Pke Kem.
From Verif.Proofs Require Import Basics Field Poly CompressProofs CountProofs NttAlgebra EncodeProofs VecEncode PkeProofs KemProofs HashProofs
  Inner Correctness FailureProofs FailureNumbers.
From Verif.Tests Require Import Toy.
From Verif.Properties Require Import Kem KemCases Correctness.
Import ListNotations.
Open Scope Z_scope.

Section Inverse.
  Variable hs : hashes.
  Hypothesis Hhs : hash_ok hs.
  Variable P : params.
  Hypothesis HP : wf_params P.

  (** every honest encapsulation to the key is decrypted correctly *)
  Definition failure_free (n : nat) (dk : decaps_key) : Prop :=
    forall m c K, byte_string 32 m -> encapsulate_deterministic hs P n (encapsulation_key dk) m = Ok (c, K) ->
      decrypt P (dk_pke dk) c = Ok m.

  (** [(c, K)] is what some message is encapsulated to *)
  Definition encapsulated (n : nat) (ek : encaps_key) (c K : list Z) : Prop :=
    exists m, byte_string 32 m /\ encapsulate_deterministic hs P n ek m = Ok (c, K).

  Section Key.
    Variable n : nat.
    Variable dk : decaps_key.
    Hypothesis Hdk : reachable_dk hs P dk.
    Let V := reachable_dk_valid hs Hhs P HP dk Hdk.
    Let enc (m : list Z) := Encaps_with hs P n (ekey_bytes P (dk_ek dk)) (ek_h (dk_ek dk)) m.
    Let dec (c : list Z) := KPKE_Decrypt P (dk_bytes P (dk_pke dk)) c.

    Lemma encaps_enc m c K : byte_string 32 m ->
      encapsulate_deterministic hs P n (encapsulation_key dk) m = Ok (c, K) <-> enc m = Some (K, c).
    Proof.
      intros Hm. unfold encapsulation_key. destruct V as (_ & Ve & _).
      rewrite (encapsulate_deterministic_ok hs Hhs P HP) by assumption. fold (enc m).
      destruct (enc m) as [[K' c']|]; cbn [swap lift].
      - split; intros E.
        + apply Ok_inj in E. pose proof (f_equal fst E) as E1. pose proof (f_equal snd E) as E2. cbn [fst snd] in E1, E2.
          rewrite E1, E2. reflexivity.
        + apply Some_inj in E. pose proof (f_equal fst E) as E1. pose proof (f_equal snd E) as E2. cbn [fst snd] in E1, E2.
          rewrite E1, E2. reflexivity.
      - split; discriminate.
    Qed.
    Lemma decrypt_dec c : byte_string (ct_len P) c -> decrypt P (dk_pke dk) c = Ok (dec c).
    Proof. intros Hc. apply (decrypt_ok P HP); [apply V|exact Hc]. Qed.
    Lemma dec_bytes c : byte_string 32 (dec c).
    Proof. apply KPKE_Decrypt_bytes. Qed.
    Lemma enc_ct_bytes m K c : byte_string 32 m -> enc m = Some (K, c) -> byte_string (ct_len P) c.
    Proof.
      intros Hm E. destruct V as (_ & [_ Vh] & _).
      apply (Encaps_with_bytes hs Hhs P n _ _ m K c (proj2 Hm) (proj2 Vh) E).
    Qed.
    Lemma decapsulate_dec c : byte_string (ct_len P) c ->
      decapsulate hs P n dk c =
      lift (match enc (dec c) with
            | None => None
            | Some (K', c') => Some (if list_eq_dec Z.eq_dec c c' then K' else FIPS203.J hs (dk_z dk ++ c))
            end).
    Proof.
      intros Hc. rewrite (decapsulate_ok hs Hhs P HP n dk c V Hc).
      destruct (dkey_sections P dk V) as (S1 & S2 & S3 & S4).
      unfold Decaps_internal, enc, Encaps_with. rewrite S1, S2, S3, S4. fold (dec c).
      destruct (FIPS203.G hs (dec c ++ ek_h (dk_ek dk))) as [K' r'].
      destruct (KPKE_Encrypt hs P n (ekey_bytes P (dk_ek dk)) (dec c) r') as [c'|]; [|reflexivity].
      destruct (list_eq_dec Z.eq_dec c c'); reflexivity.
    Qed.
  End Key.

  (** every outcome is explained by an encapsulation of the decrypted message, or is the
      rejection key and no message explains it *)
  Theorem C65_outcome n dk c K : reachable_dk hs P dk -> byte_string (ct_len P) c ->
    decapsulate hs P n dk c = Ok K ->
    (exists m, byte_string 32 m /\ decrypt P (dk_pke dk) c = Ok m /\
       encapsulate_deterministic hs P n (encapsulation_key dk) m = Ok (c, K)) \/
    (K = FIPS203.J hs (dk_z dk ++ c) /\
     forall m K', byte_string 32 m -> decrypt P (dk_pke dk) c = Ok m ->
       encapsulate_deterministic hs P n (encapsulation_key dk) m <> Ok (c, K')).
  Proof.
    intros Hdk Hc E. rewrite (decapsulate_dec n dk Hdk c Hc) in E.
    pose proof (decrypt_dec dk Hdk c Hc) as ED. pose proof (dec_bytes dk c) as HB.
    set (m := KPKE_Decrypt P (dk_bytes P (dk_pke dk)) c) in *.
    pose proof (fun c' K' => encaps_enc n dk Hdk m c' K' HB) as EE.
    destruct (Encaps_with hs P n (ekey_bytes P (dk_ek dk)) (ek_h (dk_ek dk)) m) as [[K' c']|]; [|discriminate E].
    cbn [lift] in E. apply Ok_inj in E. destruct (list_eq_dec Z.eq_dec c c') as [Q|N].
    - left. exists m. split; [exact HB|]. split; [exact ED|]. apply EE. rewrite E, Q. reflexivity.
    - right. split; [symmetry; exact E|]. intros m0 K0 _ E0. rewrite ED in E0. apply Ok_inj in E0. subst m0.
      intros W. apply EE in W. apply Some_inj in W. apply (f_equal snd) in W. cbn [snd] in W. congruence.
  Qed.

  (** conversely, an encapsulation that decrypts to its message is decapsulated to its secret *)
  Theorem C65_accepts n dk m c K : reachable_dk hs P dk -> byte_string 32 m ->
    encapsulate_deterministic hs P n (encapsulation_key dk) m = Ok (c, K) ->
    decrypt P (dk_pke dk) c = Ok m -> decapsulate hs P n dk c = Ok K.
  Proof.
    intros Hdk Hm EE ED. apply (encaps_enc n dk Hdk m c K Hm) in EE.
    pose proof (enc_ct_bytes n dk Hdk m K c Hm EE) as Hc.
    rewrite (decrypt_dec dk Hdk c Hc) in ED. apply Ok_inj in ED.
    rewrite (decapsulate_dec n dk Hdk c Hc), ED, EE. cbn [lift].
    destruct (list_eq_dec Z.eq_dec c c) as [_|N]; [reflexivity|contradiction N; reflexivity].
  Qed.

  (** without decryption failures encapsulation is injective, ... *)
  Theorem C65_injective n dk m1 m2 c K1 K2 : failure_free n dk -> byte_string 32 m1 -> byte_string 32 m2 ->
    encapsulate_deterministic hs P n (encapsulation_key dk) m1 = Ok (c, K1) ->
    encapsulate_deterministic hs P n (encapsulation_key dk) m2 = Ok (c, K2) -> m1 = m2 /\ K1 = K2.
  Proof.
    intros F H1 H2 E1 E2. pose proof (F _ _ _ H1 E1) as D1. pose proof (F _ _ _ H2 E2) as D2.
    rewrite D1 in D2. apply Ok_inj in D2. subst m2. split; [reflexivity|]. rewrite E1 in E2. apply Ok_inj in E2.
    exact (f_equal snd E2).
  Qed.

  (** ... and decapsulation is its inverse, with the rejection key everywhere else *)
  Theorem C65_inverse n dk c K : reachable_dk hs P dk -> failure_free n dk -> byte_string (ct_len P) c ->
    (decapsulate hs P n dk c = Ok K <->
     encapsulated n (encapsulation_key dk) c K \/
     (K = FIPS203.J hs (dk_z dk ++ c) /\ (exists A, A_hat hs P n (rho (ek_pke (dk_ek dk))) = Some A) /\
      forall K', ~ encapsulated n (encapsulation_key dk) c K')).
  Proof.
    intros Hdk F Hc. split.
    - intros E. destruct (C65_outcome n dk c K Hdk Hc E) as [(m & Hm & _ & W)|[W1 W2]].
      + left. exists m. split; assumption.
      + right. split; [exact W1|]. split.
        * rewrite (decapsulate_dec n dk Hdk c Hc) in E.
          destruct (Encaps_with hs P n _ _ _) as [[K' c']|] eqn:EE; [|discriminate E].
          unfold Encaps_with in EE. destruct (FIPS203.G hs _) as [K0 r0].
          unfold KPKE_Encrypt in EE. destruct (reachable_dk_valid hs Hhs P HP dk Hdk) as (_ & [Ve _] & _).
          pose proof (ek_parse_bytes P _ Ve) as EP. apply (f_equal Pke.rho) in EP. unfold ek_parse in EP. cbn [Pke.rho] in EP.
          unfold ekey_bytes in EE. rewrite EP in EE.
          destruct (A_hat hs P n (rho (ek_pke (dk_ek dk)))) as [A|]; [|discriminate EE]. exists A. reflexivity.
        * intros K' (m & Hm & Em). apply (W2 m K' Hm (F _ _ _ Hm Em) Em).
    - intros [(m & Hm & Em)|(E & [A EA] & N)].
      + exact (C65_accepts n dk m c K Hdk Hm Em (F _ _ _ Hm Em)).
      + rewrite (decapsulate_dec n dk Hdk c Hc).
        pose proof (dec_bytes dk c) as HB. set (m := KPKE_Decrypt P (dk_bytes P (dk_pke dk)) c) in *.
        pose proof (fun c' K' => encaps_enc n dk Hdk m c' K' HB) as EE.
        destruct (Encaps_with hs P n (ekey_bytes P (dk_ek dk)) (ek_h (dk_ek dk)) m) as [[K' c']|] eqn:EN.
        * cbn [lift]. destruct (list_eq_dec Z.eq_dec c c') as [Q|_]; [|rewrite E; reflexivity].
          exfalso. apply (N K'). exists m. split; [exact HB|]. apply EE. rewrite Q. reflexivity.
        * exfalso. unfold Encaps_with in EN. destruct (FIPS203.G hs _) as [K0 r0].
          unfold KPKE_Encrypt in EN. destruct (reachable_dk_valid hs Hhs P HP dk Hdk) as (_ & [Ve _] & _).
          pose proof (ek_parse_bytes P _ Ve) as EP. apply (f_equal Pke.rho) in EP. unfold ek_parse in EP. cbn [Pke.rho] in EP.
          unfold ekey_bytes in EN. rewrite EP, EA in EN. discriminate EN.
  Qed.

  (** the secret vector is not observable through decapsulation: two keys with the same
      public part and the same z, both without decryption failures, behave alike *)
  Theorem C65_public n dk dk' c : reachable_dk hs P dk -> reachable_dk hs P dk' ->
    failure_free n dk -> failure_free n dk' ->
    encapsulation_key dk = encapsulation_key dk' -> dk_z dk = dk_z dk' -> byte_string (ct_len P) c ->
    decapsulate hs P n dk c = decapsulate hs P n dk' c.
  Proof.
    intros H H' F F' EK EZ Hc.
    assert (D : forall a b, reachable_dk hs P a -> reachable_dk hs P b -> failure_free n a -> failure_free n b ->
      encapsulation_key a = encapsulation_key b -> dk_z a = dk_z b ->
      forall K, decapsulate hs P n a c = Ok K -> decapsulate hs P n b c = Ok K).
    { intros a b Ha Hb Fa Fb Ek Ez K E. apply (C65_inverse n b c K Hb Fb Hc). rewrite <- Ek, <- Ez.
      unfold encapsulation_key in Ek |- *. rewrite <- Ek. apply (C65_inverse n a c K Ha Fa Hc). exact E. }
    pose proof (D dk dk' H H' F F' EK EZ) as D1. pose proof (D dk' dk H' H F' F (eq_sym EK) (eq_sym EZ)) as D2.
    rewrite (decapsulate_dec n dk H c Hc) in *. rewrite (decapsulate_dec n dk' H' c Hc) in *.
    set (x := match Encaps_with hs P n (ekey_bytes P (dk_ek dk)) _ _ with Some _ => _ | None => None end) in *.
    set (y := match Encaps_with hs P n (ekey_bytes P (dk_ek dk')) _ _ with Some _ => _ | None => None end) in *.
    destruct x as [K|].
    - rewrite (D1 K eq_refl). reflexivity.
    - destruct y as [K|]; [|reflexivity]. rewrite (D2 K eq_refl). reflexivity.
  Qed.
End Inverse.

(** ** cases *)

(** A hash function that answers PRF queries by zeros: y = e1 = e2 = 0, so that u = 0 and
    every key, whatever its secret vector, decrypts every honest ciphertext correctly. *)
Definition quiet : hashes := {|
  sha3_256 := sha3_256 toy; sha3_512 := sha3_512 toy; shake128 := fun _ _ => 0;
  shake256 := fun x i => if Nat.eqb (length x) 33 then 0 else 5
|}.
Lemma quiet_ok : hash_ok quiet.
Proof.
  intros x Hx. destruct (toy_ok x Hx) as (H1 & H2 & _ & _). split; [exact H1|]. split; [exact H2|].
  split; intros i; cbn [shake128 shake256 quiet]; [unfold is_byte; lia|].
  destruct (Nat.eqb (length x) 33); unfold is_byte; lia.
Qed.

Section Quiet.
  Variable P : params.
  Hypothesis HP : wf_params P.
  Hypothesis Hdu : (1 <= du P <= 11)%nat.
  Hypothesis Hdv : (4 <= dv P <= 11)%nat.
  Let k := pk P.
  Let zero := repeat 0 256.

  Lemma co_zero i : co zero i = 0.
  Proof.
    unfold co, zero. destruct (Nat.lt_ge_cases i 256) as [L|L].
    - rewrite repeat_tab, nth_tab by exact L. reflexivity.
    - apply nth_overflow. rewrite repeat_length. exact L.
  Qed.
  Lemma zeros f : (forall i, (i < 256)%nat -> f i = 0) -> tab 256 f = zero.
  Proof. intros H. unfold zero. rewrite repeat_tab. apply tab_ext. exact H. Qed.
  Lemma NTT_zero : NTT zero = zero.
  Proof. unfold NTT. apply zeros. intros i Hi. cbv zeta. rewrite sum_zero'; [reflexivity|]. intros j Hj. rewrite co_zero. ring. Qed.
  Lemma NTTinv_zero : NTTinv zero = zero.
  Proof. unfold NTTinv. apply zeros. intros i Hi. cbv zeta. rewrite sum_zero'; [reflexivity|]. intros j Hj. rewrite co_zero. ring. Qed.
  Lemma padd_zero : padd zero zero = zero.
  Proof. unfold padd. apply zeros. intros i Hi. rewrite co_zero. reflexivity. Qed.
  Lemma dot_zero s v : (forall i, (i < k)%nat -> ent v i = zero) -> dot k s v = zero.
  Proof.
    intros H. unfold dot. apply zeros. intros c Hc. rewrite sum_zero'; [reflexivity|]. intros i Hi. rewrite H by exact Hi.
    unfold MultiplyNTTs, co at 1. rewrite nth_tab by exact Hc. cbv zeta. rewrite !co_zero.
    destruct (Nat.even c); rewrite !Z.mul_0_r; reflexivity.
  Qed.
  Lemma noise_zero eta r N : (eta = 2 \/ eta = 3)%nat -> byte_string 32 r ->
    noise quiet P eta r N = tab k (fun _ => zero).
  Proof.
    intros He Hr. unfold noise. apply tab_ext. intros i Hi. transitivity (SamplePolyCBD eta (tab (64 * eta) (fun _ => 0))).
    - f_equal. unfold FIPS203.PRF, prefix. apply tab_ext. intros t _. cbn [quiet shake256].
      rewrite app_length, (proj1 Hr). reflexivity.
    - apply cbd_zero, He.
  Qed.

  Lemma quiet_decrypts n ekb m r c s : byte_string 32 m -> byte_string 32 r ->
    KPKE_Encrypt quiet P n ekb m r = Some c -> KPKE_Decrypt P s c = m.
  Proof.
    intros Hm Hr E. unfold KPKE_Encrypt in E. fold k in E.
    destruct (A_hat quiet P n (skipn (384 * k) ekb)) as [A|]; [|discriminate E].
    rewrite !noise_zero in E by (try apply HP; exact Hr).
    assert (E2 : SamplePolyCBD (eta2 P) (FIPS203.PRF quiet (eta2 P) r (2 * k)) = zero).
    { transitivity (SamplePolyCBD (eta2 P) (tab (64 * eta2 P) (fun _ => 0))); [|apply cbd_zero, HP].
      f_equal. unfold FIPS203.PRF, prefix. apply tab_ext. intros t _. cbn [quiet shake256].
      rewrite app_length, (proj1 Hr). reflexivity. }
    rewrite E2 in E. clear E2.
    assert (LZ : length (tab k (fun _ => zero)) = k) by apply tab_length.
    assert (NZ : forall i, (i < k)%nat -> ent (map NTT (tab k (fun _ => zero))) i = zero).
    { intros i Hi. rewrite (ent_map k) by assumption. rewrite ent_tab by exact Hi. apply NTT_zero. }
    assert (EU : vadd k (map NTTinv (matvec k (transposed k A) (map NTT (tab k (fun _ => zero))))) (tab k (fun _ => zero)) =
                 tab k (fun _ => zero)).
    { unfold vadd. apply tab_ext. intros i Hi. rewrite ent_tab by exact Hi.
      rewrite (ent_map k) by (try exact Hi; apply tab_length). unfold matvec. rewrite ent_tab by exact Hi.
      rewrite dot_zero by exact NZ. rewrite NTTinv_zero. apply padd_zero. }
    rewrite EU in E. clear EU. rewrite dot_zero in E by exact NZ. rewrite NTTinv_zero, padd_zero in E.
    apply Some_inj in E. subst c. unfold KPKE_Decrypt. fold k.
    set (mu := map (Decompress 1) (ByteDecode 1 m)) in *.
    assert (Lmu : length mu = 256%nat) by (unfold mu; rewrite map_length; apply (ByteDecode_small 1); lia).
    assert (Hv : padd zero mu = mu).
    { unfold padd. transitivity (tab 256 (fun i => nth i mu 0)); [|symmetry; apply list_as_tab', Lmu].
      apply tab_ext. intros i Hi. rewrite co_zero.
      rewrite Z.add_0_l. apply Z.mod_small. unfold co, mu.
      rewrite (nth_indep _ 0 (Decompress 1 0)) by (rewrite map_length; rewrite (proj1 (ByteDecode_small 1 m ltac:(lia))); exact Hi).
      rewrite map_nth. destruct (ByteDecode_small 1 m ltac:(lia)) as [Ls Fs].
      pose proof (proj1 (Forall_forall _ _) Fs (nth i (ByteDecode 1 m) 0) ltac:(apply nth_In; rewrite Ls; exact Hi)) as B.
      cbv beta in B. change (2 ^ Z.of_nat 1) with 2 in B. assert (O : nth i (ByteDecode 1 m) 0 = 0 \/ nth i (ByteDecode 1 m) 0 = 1) by lia.
      destruct O as [-> | ->]; vm_compute; split; congruence. }
    rewrite Hv.
    rewrite firstn_app_exact, skipn_app_exact by apply encode_vec_bytes.
    assert (CS : forall d, (1 <= d <= 11)%nat -> canonical d (map (Compress d) zero)).
    { intros d Hd. apply small_canonical; [lia|]. apply Compress_small, repeat_length. }
    rewrite (decode_encode_vec P (du P)); [|lia|rewrite map_length; exact LZ|].
    2:{ apply Forall_forall. intros p Hp. apply in_map_iff in Hp. destruct Hp as (p' & <- & Hp').
        apply in_tab in Hp'. destruct Hp' as (i & _ & <-). apply CS. lia. }
    rewrite dot_zero.
    2:{ intros i Hi. rewrite (ent_map k) by (try exact Hi; rewrite !map_length; exact LZ).
        rewrite (ent_map k) by (try exact Hi; rewrite !map_length; exact LZ).
        rewrite (ent_map k) by assumption. rewrite ent_tab by exact Hi. rewrite map_map.
        replace (map (fun x => Decompress (du P) (Compress (du P) x)) zero) with zero; [apply NTT_zero|].
        unfold zero. rewrite !repeat_tab, map_tab. apply tab_ext. intros j _.
        unfold Decompress, Compress, round_div. rewrite Z.mul_0_r.
        assert (T : 2 ^ Z.of_nat (du P) <> 0) by (apply Z.pow_nonzero; lia).
        change ((2 * 0 + q) / (2 * q)) with 0. rewrite Z.mod_0_l by exact T. rewrite !Z.mul_0_r.
        rewrite Z.add_0_l. symmetry. rewrite Z.mul_comm. 
        pose proof (Z.pow_pos_nonneg 2 (Z.of_nat (du P)) eq_refl (Nat2Z.is_nonneg _)).
        apply Z.div_small. lia. }
    rewrite NTTinv_zero.
    rewrite ByteDecode_ByteEncode.
    3:{ apply small_canonical; [lia|]. apply Compress_small, Lmu. }
    2:{ lia. }
    transitivity (ByteEncode 1 (ByteDecode 1 m)); [|apply ByteEncode_ByteDecode; [lia|exact Hm]].
    f_equal. rewrite map_map. destruct (ByteDecode_small 1 m ltac:(lia)) as [Ls Fs].
    transitivity (tab 256 (fun i => nth i (ByteDecode 1 m) 0)); [|symmetry; apply list_as_tab', Ls].
    unfold psub. rewrite map_tab. apply tab_ext. intros i Hi.
    rewrite co_zero, Z.sub_0_r. unfold co, mu. rewrite map_map.
    rewrite (nth_indep _ 0 ((fun x => Decompress (dv P) (Compress (dv P) (Decompress 1 x))) 0)) by (rewrite map_length, Ls; exact Hi).
    rewrite (map_nth (fun x => Decompress (dv P) (Compress (dv P) (Decompress 1 x)))).
    pose proof (proj1 (Forall_forall _ _) Fs (nth i (ByteDecode 1 m) 0) ltac:(apply nth_In; rewrite Ls; exact Hi)) as B.
    cbv beta in B. change (2 ^ Z.of_nat 1) with 2 in B. assert (O : nth i (ByteDecode 1 m) 0 = 0 \/ nth i (ByteDecode 1 m) 0 = 1) by lia.
    clear - O Hdv. remember (dv P) as d eqn:Ed. clear Ed. 
    do 4 (destruct d as [|d]; [lia|]). 
    do 8 (destruct d as [|d]; [destruct O as [-> | ->]; vm_compute; reflexivity|]). lia.
  Qed.

  (** every key is failure-free *)
  Lemma quiet_failure_free n dk : reachable_dk quiet P dk -> failure_free quiet P n dk.
  Proof.
    intros Hdk m c K Hm E. pose proof (reachable_dk_valid quiet quiet_ok P HP dk Hdk) as V.
    apply (encaps_enc quiet quiet_ok P HP n dk Hdk m c K Hm) in E.
    assert (Hc : byte_string (ct_len P) c) by (apply (enc_ct_bytes quiet quiet_ok P HP n dk Hdk m K c Hm E)).
    rewrite (decrypt_ok P HP) by (try exact Hc; apply V). f_equal.
    unfold Encaps_with in E. destruct V as (_ & [_ Vh] & _).
    pose proof (G_bytes quiet quiet_ok (m ++ ek_h (dk_ek dk)) (bytes_app _ _ (proj2 Hm) (proj2 Vh))) as [_ HR].
    destruct (FIPS203.G quiet (m ++ ek_h (dk_ek dk))) as [K0 r]. cbn [snd] in HR.
    destruct (KPKE_Encrypt quiet P n (ekey_bytes P (dk_ek dk)) m r) as [c'|] eqn:EE; [|discriminate E].
    apply Some_inj in E. apply (f_equal snd) in E. cbn [snd] in E. subst c'.
    exact (quiet_decrypts n _ m r c _ Hm HR EE).
  Qed.
End Quiet.

(** The hypotheses of C65 hold for every key of every parameter set under this hash
    function: decapsulation inverts encapsulation, and two keys that differ in nothing but
    the section of the secret vector decapsulate every ciphertext to the same secret. *)
Example C65_case : forall P s s' t, In P [ML_KEM_512; ML_KEM_768; ML_KEM_1024] ->
  byte_string (384 * pk P) s -> byte_string (384 * pk P) s' -> byte_string (384 * pk P + 96) t ->
  exists dk dk',
    decaps_key_from_bytes P (s ++ t) = Ok dk /\ decaps_key_from_bytes P (s' ++ t) = Ok dk' /\
    failure_free quiet P 128 dk /\ failure_free quiet P 128 dk' /\
    (forall c, byte_string (ct_len P) c -> decapsulate quiet P 128 dk c = decapsulate quiet P 128 dk' c) /\
    (forall m, byte_string 32 m -> exists c K,
      encapsulate_deterministic quiet P 128 (encapsulation_key dk) m = Ok (c, K) /\
      decapsulate quiet P 128 dk c = Ok K /\ decapsulate quiet P 128 dk' c = Ok K).
Proof.
  intros P s s' t HIn Hs Hs' Ht.
  assert (HP : wf_params P /\ (1 <= du P <= 11)%nat /\ (4 <= dv P <= 11)%nat).
  { destruct HIn as [<-|[<-|[<-|[]]]]; split; try exact wf_512; try exact wf_768; try exact wf_1024; cbn; lia. }
  destruct HP as (HP & Hu & Hv).
  assert (B : forall x, byte_string (384 * pk P) x -> byte_string (768 * pk P + 96) (x ++ t)).
  { intros x [Lx Bx]. destruct Ht as [Lt Bt]. split; [rewrite app_length; lia|]. apply bytes_app; assumption. }
  pose proof (decaps_key_from_bytes_ok P HP (s ++ t) (B s Hs)) as E.
  pose proof (decaps_key_from_bytes_ok P HP (s' ++ t) (B s' Hs')) as E'.
  pose proof (dk_parsed quiet P (s ++ t) _ (B s Hs) E) as R.
  pose proof (dk_parsed quiet P (s' ++ t) _ (B s' Hs') E') as R'.
  pose proof (quiet_failure_free P HP Hu Hv 128 _ R) as F.
  pose proof (quiet_failure_free P HP Hu Hv 128 _ R') as F'.
  assert (SK : forall x j, byte_string (384 * pk P) x -> skipn (384 * pk P + j) (x ++ t) = skipn j t).
  { intros x j [Lx _]. rewrite skipn_app, skipn_all2 by lia.
    replace (384 * pk P + j - length x)%nat with j by lia. reflexivity. }
  assert (EK : encapsulation_key (dkey_parse P (s ++ t)) = encapsulation_key (dkey_parse P (s' ++ t))).
  { unfold encapsulation_key, dkey_parse. cbn [dk_ek].
    replace (768 * pk P + 32)%nat with (384 * pk P + (384 * pk P + 32))%nat by lia.
    rewrite (SK s _ Hs), (SK s' _ Hs').
    pose proof (SK s 0%nat Hs) as Q. pose proof (SK s' 0%nat Hs') as Q'. rewrite Nat.add_0_r in Q, Q'. rewrite Q, Q'. reflexivity. }
  assert (EZ : dk_z (dkey_parse P (s ++ t)) = dk_z (dkey_parse P (s' ++ t))).
  { unfold dkey_parse. cbn [dk_z].
    replace (768 * pk P + 64)%nat with (384 * pk P + (384 * pk P + 64))%nat by lia.
    rewrite (SK s _ Hs), (SK s' _ Hs'). reflexivity. }
  set (dk := dkey_parse P (s ++ t)) in *. set (dk' := dkey_parse P (s' ++ t)) in *.
  exists dk, dk'. split; [exact E|]. split; [exact E'|]. split; [exact F|]. split; [exact F'|].
  assert (EQ : forall c, byte_string (ct_len P) c -> decapsulate quiet P 128 dk c = decapsulate quiet P 128 dk' c)
    by (intros c Hc; exact (C65_public quiet quiet_ok P HP 128 dk dk' c R R' F F' EK EZ Hc)).
  split; [exact EQ|]. intros m Hm.
  pose proof (reachable_dk_valid quiet quiet_ok P HP dk R) as V.
  assert (EA : exists A, A_hat quiet P 128 (skipn (384 * pk P) (ekey_bytes P (dk_ek dk))) = Some A).
  { change (A_hat quiet P 128) with (A_hat (unlucky (pk P) (eta1 P)) P 128). apply unlucky_A. }
  destruct EA as [A EA].
  assert (EE : exists c K, Encaps_with quiet P 128 (ekey_bytes P (dk_ek dk)) (ek_h (dk_ek dk)) m = Some (K, c)).
  { unfold Encaps_with. destruct (FIPS203.G quiet (m ++ ek_h (dk_ek dk))) as [K r].
    unfold KPKE_Encrypt. rewrite EA. eexists. eexists. reflexivity. }
  destruct EE as (c & K & EE).
  pose proof (enc_ct_bytes quiet quiet_ok P HP 128 dk R m K c Hm EE) as Hc.
  apply (encaps_enc quiet quiet_ok P HP 128 dk R m c K Hm) in EE.
  exists c, K. split; [exact EE|].
  pose proof (C65_accepts quiet quiet_ok P HP 128 dk m c K R Hm EE (F m c K Hm EE)) as D.
  split; [exact D|]. rewrite <- EQ by exact Hc. exact D.
Qed.

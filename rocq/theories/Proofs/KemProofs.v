(** ML-KEM: the code computes the functions of FIPS 203 section 6. *)
From Coq Require Import List ZArith Lia Bool Arith.
From Verif.Base Require Import Res Oracles.
From Verif.Spec Require Import FIPS203 Domains.
From Verif.Model Require Import Machine Util Algebra Compress Encode Crypto Sample Param Pke Kem.
From Verif.Proofs Require Import Basics Field Poly CompressProofs NttProofs NttAlgebra EncodeProofs
  VecEncode SampleProofs PkeProofs.
Import ListNotations.
Open Scope Z_scope.

(** ** Masked comparison and selection *)

Lemma lxor_byte x y : is_byte x -> is_byte y -> is_byte (Z.lxor x y).
Proof.
  unfold is_byte. intros Hx Hy. split; [apply Z.lxor_nonneg; lia|].
  destruct (Z.eq_dec (Z.lxor x y) 0) as [->|N]; [lia|].
  assert (0 <= Z.lxor x y) by (apply Z.lxor_nonneg; lia).
  apply (Z.log2_lt_pow2 _ 8); [lia|].
  pose proof (Z.log2_lxor x y ltac:(lia) ltac:(lia)) as B.
  assert (forall z, 0 <= z < 256 -> Z.log2 z < 8) as L.
  { intros z Hz. destruct (Z.eq_dec z 0) as [->|]; [reflexivity|]. apply Z.log2_lt_pow2; lia. }
  pose proof (L x Hx). pose proof (L y Hy). lia.
Qed.

Lemma byte_sweep (p : Z -> bool) : forallb p (upto 256) = true -> forall x, is_byte x -> p x = true.
Proof.
  intros H x Hx. apply (sweep (fun _ => p) (fun _ => 256) 0 1 ltac:(cbn [seq forallb]; rewrite H; reflexivity) 0%nat x);
    [lia|exact Hx].
Qed.

Lemma constant_time_eq_ok x y : is_byte x -> is_byte y ->
  constant_time_eq x y = if x =? y then 255 else 0.
Proof.
  intros Hx Hy. pose proof (lxor_byte x y Hx Hy) as Hd.
  assert (E : (x =? y) = (Z.lxor x y =? 0)).
  { apply eq_true_iff_eq. rewrite !Z.eqb_eq. symmetry. apply Z.lxor_eq_0_iff. }
  rewrite E. unfold constant_time_eq. cbv zeta. generalize dependent (Z.lxor x y). intros d Hd _.
  apply Z.eqb_eq. revert d Hd. apply byte_sweep. vm_compute. reflexivity.
Qed.

Lemma fold_land_zero l : fold_left Z.land l 0 = 0.
Proof. induction l as [|x l IH]; [reflexivity|]. cbn [fold_left]. rewrite Z.land_0_l. exact IH. Qed.

Theorem ct_compare_ok cp ct : length cp = length ct -> bytes cp -> bytes ct ->
  ct_compare cp ct = if list_eq_dec Z.eq_dec cp ct then 255 else 0.
Proof.
  unfold ct_compare. revert ct. induction cp as [|x cp IH]; intros [|y ct] L Hx Hy; try discriminate.
  - reflexivity.
  - inversion Hx as [|? ? Hx1 Hx2]; subst. inversion Hy as [|? ? Hy1 Hy2]; subst.
    cbn [combine map fold_left]. rewrite constant_time_eq_ok by assumption.
    specialize (IH ct ltac:(simpl in L; lia) Hx2 Hy2).
    destruct (Z.eqb_spec x y) as [->|N].
    + change (Z.land 255 255) with 255. rewrite IH.
      destruct (list_eq_dec Z.eq_dec cp ct) as [->|N']; destruct (list_eq_dec Z.eq_dec (y :: _) (y :: ct)) as [E|E];
        try reflexivity; congruence.
    + change (Z.land 255 0) with 0. rewrite fold_land_zero.
      destruct (list_eq_dec Z.eq_dec (x :: cp) (y :: ct)) as [E|E]; [congruence|reflexivity].
Qed.

Lemma select_bytes_255 x y : is_byte x -> is_byte y ->
  Z.lor (Z.land 255 x) (Z.land (unot W8 255) y) = x.
Proof.
  intros Hx _. change (unot W8 255) with 0. rewrite Z.land_0_l, Z.lor_0_r, Z.land_comm.
  change 255 with (Z.ones 8). rewrite Z.land_ones by lia. apply Z.mod_small. exact Hx.
Qed.
Lemma select_bytes_0 x y : is_byte x -> is_byte y ->
  Z.lor (Z.land 0 x) (Z.land (unot W8 0) y) = y.
Proof.
  intros _ Hy. change (unot W8 0) with 255. rewrite Z.land_0_l, Z.lor_0_l, Z.land_comm.
  change 255 with (Z.ones 8). rewrite Z.land_ones by lia. apply Z.mod_small. exact Hy.
Qed.

Theorem ct_select_ok (b : bool) Kp Kbar : byte_string 32 Kp -> byte_string 32 Kbar ->
  ct_select (if b then 255 else 0) Kp Kbar = Ok (if b then Kp else Kbar).
Proof.
  intros [L1 H1] [L2 H2]. unfold ct_select.
  assert (E : map (fun '(x, y) => Z.lor (Z.land (if b then 255 else 0) x)
                 (Z.land (unot W8 (if b then 255 else 0)) y)) (combine Kp Kbar) = if b then Kp else Kbar).
  { rewrite <- L2 in L1. clear L2. revert Kbar L1 H2. induction Kp as [|x Kp IH]; intros [|y Kbar] L H2; try discriminate.
    - destruct b; reflexivity.
    - inversion H1 as [|? ? Hx1 Hx2]; subst. inversion H2 as [|? ? Hy1 Hy2]; subst.
      cbn [combine map]. rewrite IH by (try assumption; simpl in L; lia).
      destruct b; [rewrite select_bytes_255|rewrite select_bytes_0]; auto. }
  rewrite E. apply collect_ok. destruct b; assumption.
Qed.

Section Kem.
  Variable hs : hashes.
  Hypothesis Hhs : hash_ok hs.
  Variable P : params.
  Hypothesis HP : wf_params P.
  Let k := pk P.

  Definition valid_encaps_key (ek : encaps_key) : Prop :=
    valid_ek P (ek_pke ek) /\ byte_string 32 (ek_h ek).
  Definition valid_decaps_key (dk : decaps_key) : Prop :=
    valid_dk P (dk_pke dk) /\ valid_encaps_key (dk_ek dk) /\ byte_string 32 (dk_z dk).

  Definition ekey_bytes (ek : encaps_key) : list Z := ek_bytes P (ek_pke ek).
  Definition dkey_bytes (dk : decaps_key) : list Z :=
    dk_bytes P (dk_pke dk) ++ ekey_bytes (dk_ek dk) ++ ek_h (dk_ek dk) ++ dk_z dk.

  Lemma encaps_key_as_bytes_ok ek : valid_encaps_key ek ->
    encaps_key_as_bytes P ek = Ok (ekey_bytes ek).
  Proof. intros [He _]. apply ek_as_bytes_ok. exact He. Qed.

  Lemma decaps_key_as_bytes_ok dk : valid_decaps_key dk ->
    decaps_key_as_bytes P dk = Ok (dkey_bytes dk).
  Proof.
    intros (Hd & He & Hz). unfold decaps_key_as_bytes.
    rewrite dk_as_bytes_ok by exact Hd. cbn [bind]. rewrite encaps_key_as_bytes_ok by exact He. cbn [bind].
    unfold concat_dk, dkey_bytes. rewrite <- !app_assoc. reflexivity.
  Qed.

  Lemma ekey_bytes_ok ek : valid_encaps_key ek -> byte_string (384 * k + 32) (ekey_bytes ek).
  Proof. intros [He _]. apply ek_bytes_ok. exact He. Qed.

  Lemma dkey_bytes_ok dk : valid_decaps_key dk -> byte_string (768 * k + 96) (dkey_bytes dk).
  Proof.
    intros (Hd & He & Hz).
    replace (768 * k + 96)%nat with (384 * k + ((384 * k + 32) + (32 + 32)))%nat by lia.
    apply byte_string_app; [apply dk_bytes_ok|].
    apply byte_string_app; [apply ekey_bytes_ok, He|]. apply byte_string_app; [apply He|exact Hz].
  Qed.

  Lemma encaps_key_new_ok ek : valid_ek P ek ->
    encaps_key_new hs P ek = Ok {| ek_pke := ek; ek_h := FIPS203.H hs (ek_bytes P ek) |}.
  Proof. intros He. unfold encaps_key_new. rewrite ek_as_bytes_ok by exact He. reflexivity. Qed.

  (** ** Key generation *)

  Theorem generate_ok n d z : bytes d -> byte_string 32 z ->
    match KeyGen_internal hs P n d z with
    | None => kem_generate_deterministic hs P n d z = NoFuel
    | Some (ekb, dkb) => exists dk,
        kem_generate_deterministic hs P n d z = Ok (dk, dk_ek dk) /\ valid_decaps_key dk /\
        dkey_bytes dk = dkb /\ ekey_bytes (dk_ek dk) = ekb /\
        ek_h (dk_ek dk) = FIPS203.H hs ekb /\ dk_z dk = z
    end.
  Proof.
    intros Hd Hz. unfold KeyGen_internal, kem_generate_deterministic, decaps_key_generate_deterministic.
    pose proof (pke_generate_ok hs Hhs P HP n d Hd) as G.
    destruct (KPKE_KeyGen hs P n d) as [[ekb dkb]|].
    - destruct G as (dk & ek & E & Vd & Ve & Ed & Ee). rewrite E. cbn [bind].
      rewrite encaps_key_new_ok by exact Ve. cbn [bind]. eexists. split; [reflexivity|].
      cbn [dk_pke dk_ek dk_z ek_pke ek_h].
      assert (Hh : byte_string 32 (FIPS203.H hs (ek_bytes P ek))) by (apply H_bytes; [exact Hhs|]; apply ek_bytes_ok; exact Ve).
      split; [split; [exact Vd|split; [split; [exact Ve|exact Hh]|exact Hz]]|].
      unfold dkey_bytes, ekey_bytes. cbn [dk_pke dk_ek dk_z ek_pke ek_h]. rewrite Ed, Ee.
      repeat split.
    - rewrite G. reflexivity.
  Qed.

  (** ** Encapsulation *)

  Definition swap {A B} (o : option (A * B)) : option (B * A) :=
    match o with Some (a, b) => Some (b, a) | None => None end.

  Theorem encapsulate_deterministic_ok n ek m : valid_encaps_key ek -> byte_string 32 m ->
    encapsulate_deterministic hs P n ek m =
    lift (swap (Encaps_with hs P n (ekey_bytes ek) (ek_h ek) m)).
  Proof.
    intros [He Hh] Hm. unfold encapsulate_deterministic, encapsulate_deterministic_inner, Encaps_with.
    assert (Hb : bytes (m ++ ek_h ek)) by (apply bytes_app; [apply Hm|apply Hh]).
    assert (Hc : concat [m; ek_h ek] = m ++ ek_h ek) by (cbn [concat]; rewrite app_nil_r; reflexivity).
    rewrite (G_ok hs Hhs) by (rewrite Hc; exact Hb). rewrite Hc.
    destruct (G_bytes hs Hhs _ Hb) as [HK Hr].
    destruct (FIPS203.G hs (m ++ ek_h ek)) as [K r]. cbn [bind fst snd] in *.
    rewrite (encrypt_ok hs Hhs P HP) by (try assumption; apply Hr). unfold ekey_bytes.
    destruct (KPKE_Encrypt hs P n (ek_bytes P (ek_pke ek)) m r); reflexivity.
  Qed.

  Lemma Encaps_with_bytes n ek h m K c : bytes m -> bytes h ->
    Encaps_with hs P n ek h m = Some (K, c) ->
    byte_string 32 K /\ byte_string (32 * du P * k + 32 * dv P) c.
  Proof.
    intros Hm Hh. unfold Encaps_with.
    destruct (G_bytes hs Hhs (m ++ h) (bytes_app _ _ Hm Hh)) as [HK Hr].
    destruct (FIPS203.G hs (m ++ h)) as [K' r']. cbn [fst snd] in *.
    destruct (KPKE_Encrypt hs P n ek m r') as [c'|] eqn:E; [|discriminate].
    intros [= -> ->]. split; [exact HK|]. eapply KPKE_Encrypt_bytes. exact E.
  Qed.

  (** ** Decapsulation *)

  Lemma dkey_sections dk : valid_decaps_key dk ->
    firstn (384 * k) (dkey_bytes dk) = dk_bytes P (dk_pke dk) /\
    firstn (384 * k + 32) (skipn (384 * k) (dkey_bytes dk)) = ekey_bytes (dk_ek dk) /\
    firstn 32 (skipn (768 * k + 32) (dkey_bytes dk)) = ek_h (dk_ek dk) /\
    skipn (768 * k + 64) (dkey_bytes dk) = dk_z dk.
  Proof.
    intros (Hd & He & Hz).
    pose proof (proj1 (dk_bytes_ok P (dk_pke dk))) as L1. fold k in L1.
    pose proof (proj1 (ekey_bytes_ok _ He)) as L2. pose proof (proj1 (proj2 He)) as L3.
    unfold dkey_bytes.
    assert (E1 : skipn (384 * k) (dk_bytes P (dk_pke dk) ++ ekey_bytes (dk_ek dk) ++ ek_h (dk_ek dk) ++ dk_z dk) =
                 ekey_bytes (dk_ek dk) ++ ek_h (dk_ek dk) ++ dk_z dk) by (apply skipn_app_exact; exact L1).
    assert (E2 : skipn (768 * k + 32) (dk_bytes P (dk_pke dk) ++ ekey_bytes (dk_ek dk) ++ ek_h (dk_ek dk) ++ dk_z dk) =
                 ek_h (dk_ek dk) ++ dk_z dk).
    { replace (768 * k + 32)%nat with (384 * k + (384 * k + 32))%nat by lia.
      rewrite <- skipn_skipn, E1. apply skipn_app_exact. exact L2. }
    split; [apply firstn_app_exact; exact L1|]. rewrite E1. split; [apply firstn_app_exact; exact L2|].
    rewrite E2. split; [apply firstn_app_exact; exact L3|].
    replace (768 * k + 64)%nat with (768 * k + 32 + 32)%nat by lia.
    rewrite <- skipn_skipn, E2. apply skipn_app_exact. exact L3.
  Qed.

  Theorem decapsulate_ok n dk c : valid_decaps_key dk ->
    byte_string (32 * du P * k + 32 * dv P) c ->
    decapsulate hs P n dk c = lift (Decaps_internal hs P n (dkey_bytes dk) c).
  Proof.
    intros Hv Hc. destruct (dkey_sections dk Hv) as (S1 & S2 & S3 & S4).
    destruct Hv as (Hd & He & Hz). destruct He as [He Hh].
    unfold decapsulate, Decaps_internal. fold k.
    rewrite S1, S2, S3, S4.
    rewrite (decrypt_ok P HP) by assumption. cbn [bind].
    set (mp := KPKE_Decrypt P (dk_bytes P (dk_pke dk)) c).
    assert (Hm : byte_string 32 mp) by apply KPKE_Decrypt_bytes.
    assert (Hb : bytes (mp ++ ek_h (dk_ek dk))) by (apply bytes_app; [apply Hm|apply Hh]).
    assert (Ec : concat [mp; ek_h (dk_ek dk)] = mp ++ ek_h (dk_ek dk)) by (cbn [concat]; rewrite app_nil_r; reflexivity).
    rewrite (G_ok hs Hhs) by (rewrite Ec; exact Hb). rewrite Ec.
    destruct (G_bytes hs Hhs _ Hb) as [HK Hr].
    destruct (FIPS203.G hs (mp ++ ek_h (dk_ek dk))) as [K r]. cbn [bind fst snd] in *.
    rewrite (encrypt_ok hs Hhs P HP) by (try assumption; apply Hr). unfold ekey_bytes.
    destruct (KPKE_Encrypt hs P n (ek_bytes P (ek_pke (dk_ek dk))) mp r) as [cp|] eqn:E; [|reflexivity].
    cbn [bind lift]. destruct (KPKE_Encrypt_bytes _ _ _ _ _ _ _ E) as [Lc Bc].
    rewrite ct_compare_ok; [|rewrite Lc; symmetry; apply Hc|exact Bc|apply Hc].
    rewrite J_ok. cbn [concat]. rewrite app_nil_r.
    assert (HJ : byte_string 32 (FIPS203.J hs (dk_z dk ++ c))) by (apply J_bytes; [exact Hhs|]; apply bytes_app; [apply Hz|apply Hc]).
    destruct (list_eq_dec Z.eq_dec cp c) as [Q1|N1]; destruct (list_eq_dec Z.eq_dec c cp) as [Q2|N2]; try congruence.
    - exact (ct_select_ok true K _ HK HJ).
    - exact (ct_select_ok false K _ HK HJ).
  Qed.

  Lemma Decaps_internal_bytes n dk c K : bytes dk -> bytes c ->
    Decaps_internal hs P n dk c = Some K -> byte_string 32 K.
  Proof.
    intros Hd Hc. unfold Decaps_internal.
    set (mp := KPKE_Decrypt P _ c).
    assert (Hb : bytes (mp ++ firstn 32 (skipn (768 * pk P + 32) dk))).
    { apply bytes_app; [apply KPKE_Decrypt_bytes|]. apply bytes_firstn, bytes_skipn, Hd. }
    destruct (G_bytes hs Hhs _ Hb) as [HK Hr].
    destruct (FIPS203.G hs _) as [K' r]. cbn [fst snd] in *.
    destruct (KPKE_Encrypt hs P n _ mp r) as [c'|]; [|discriminate].
    intros E. assert (HJ : byte_string 32 (FIPS203.J hs (skipn (768 * pk P + 64) dk ++ c)))
      by (apply J_bytes; [exact Hhs|]; apply bytes_app; [apply bytes_skipn, Hd|exact Hc]).
    destruct (list_eq_dec Z.eq_dec c c'); apply Some_inj in E; subst K; assumption.
  Qed.

  (** ** Parsing *)

  Definition ekey_parse (b : list Z) : encaps_key :=
    {| ek_pke := ek_parse P b; ek_h := FIPS203.H hs (ek_bytes P (ek_parse P b)) |}.
  Definition dkey_parse (b : list Z) : decaps_key :=
    {| dk_pke := dk_parse P (firstn (384 * k) b);
       dk_ek := {| ek_pke := ek_parse P (firstn (384 * k + 32) (skipn (384 * k) b));
                   ek_h := firstn 32 (skipn (768 * k + 32) b) |};
       dk_z := skipn (768 * k + 64) b |}.

  Theorem encaps_key_from_bytes_ok b : byte_string (384 * k + 32) b ->
    encaps_key_from_bytes hs P b = Ok (ekey_parse b).
  Proof.
    intros Hb. unfold encaps_key_from_bytes. rewrite (ek_from_bytes_ok P HP) by exact Hb. cbn [bind].
    apply encaps_key_new_ok. apply ek_parse_valid. exact Hb.
  Qed.

  Lemma ekey_parse_valid b : byte_string (384 * k + 32) b -> valid_encaps_key (ekey_parse b).
  Proof.
    intros Hb. pose proof (ek_parse_valid P b Hb). split; [assumption|].
    apply H_bytes; [exact Hhs|]. apply ek_bytes_ok. assumption.
  Qed.

  Lemma firstn_skipn_comm' A m n (l : list A) : firstn m (skipn n l) = skipn n (firstn (n + m) l).
  Proof. apply firstn_skipn_comm. Qed.

  Theorem decaps_key_from_bytes_ok b : byte_string (768 * k + 96) b ->
    decaps_key_from_bytes P b = Ok (dkey_parse b).
  Proof.
    intros Hb. unfold decaps_key_from_bytes, split_dk, encryption_key_size.
    rewrite (ntt_vector_size_eq P). fold k.
    assert (Hek : byte_string (384 * k + 32) (firstn (384 * k + 32) (skipn (384 * k) b))).
    { apply byte_string_firstn with (m := (384 * k + 96)%nat); [|lia].
      apply byte_string_skipn. replace (384 * k + (384 * k + 96))%nat with (768 * k + 96)%nat by lia. exact Hb. }
    assert (E1 : firstn (384 * k) (firstn (384 * k + (384 * k + 32)) (firstn (384 * k + (384 * k + 32) + 32) b)) =
                 firstn (384 * k) b).
    { rewrite !firstn_firstn. f_equal. lia. }
    assert (E2 : skipn (384 * k) (firstn (384 * k + (384 * k + 32)) (firstn (384 * k + (384 * k + 32) + 32) b)) =
                 firstn (384 * k + 32) (skipn (384 * k) b)).
    { rewrite firstn_skipn_comm. f_equal. rewrite firstn_firstn. f_equal. lia. }
    assert (E3 : skipn (384 * k + (384 * k + 32)) (firstn (384 * k + (384 * k + 32) + 32) b) =
                 firstn 32 (skipn (768 * k + 32) b)).
    { rewrite firstn_skipn_comm. f_equal; [lia|]. f_equal. lia. }
    rewrite E1, E2, E3.
    rewrite (ek_from_bytes_ok P HP) by exact Hek. cbn [bind].
    rewrite (dk_from_bytes_ok P HP) by (eapply byte_string_firstn; [exact Hb|lia]). cbn [bind].
    unfold dkey_parse. do 3 f_equal. lia.
  Qed.

  Lemma dkey_parse_valid b : byte_string (768 * k + 96) b -> valid_decaps_key (dkey_parse b).
  Proof.
    intros Hb. split; [apply dk_parse_valid|]. split; [split|].
    - apply ek_parse_valid. apply byte_string_firstn with (m := (384 * k + 96)%nat); [|lia].
      apply byte_string_skipn. fold k. replace (384 * k + (384 * k + 96))%nat with (768 * k + 96)%nat by lia. exact Hb.
    - apply byte_string_firstn with (m := 64%nat); [|lia].
      apply byte_string_skipn. replace (768 * k + 32 + 64)%nat with (768 * k + 96)%nat by lia. exact Hb.
    - apply byte_string_skipn. replace (768 * k + 64 + 32)%nat with (768 * k + 96)%nat by lia. exact Hb.
  Qed.

  Theorem dkey_parse_bytes dk : valid_decaps_key dk -> dkey_parse (dkey_bytes dk) = dk.
  Proof.
    intros Hv. destruct (dkey_sections dk Hv) as (S1 & S2 & S3 & S4). unfold dkey_parse.
    rewrite S1, S2, S3, S4. destruct Hv as (Hd & [He Hh] & Hz).
    rewrite dk_parse_bytes by exact Hd. unfold ekey_bytes. rewrite ek_parse_bytes by exact He.
    destruct dk as [a [b c] d]. reflexivity.
  Qed.

  Theorem ekey_parse_bytes ek : valid_encaps_key ek -> ek_h ek = FIPS203.H hs (ekey_bytes ek) ->
    ekey_parse (ekey_bytes ek) = ek.
  Proof.
    intros [He _] E. unfold ekey_parse, ekey_bytes. rewrite ek_parse_bytes by exact He.
    fold (ekey_bytes ek). rewrite <- E. destruct ek. reflexivity.
  Qed.

  (** ** The specification depends on key bytes only through their decodings *)

  Lemma KPKE_Encrypt_reduce n b m r : byte_string (384 * k + 32) b ->
    KPKE_Encrypt hs P n (ek_bytes P (ek_parse P b)) m r = KPKE_Encrypt hs P n b m r.
  Proof.
    intros Hb. pose proof (ek_parse_bytes P _ (ek_parse_valid P b Hb)) as E.
    pose proof (f_equal Pke.t_hat E) as E1. pose proof (f_equal Pke.rho E) as E2.
    unfold ek_parse in E1 at 1 3. unfold ek_parse in E2 at 1 3. cbn [Pke.t_hat Pke.rho] in E1, E2.
    unfold KPKE_Encrypt. rewrite E1, E2. reflexivity.
  Qed.

  Lemma KPKE_Decrypt_reduce b c :
    KPKE_Decrypt P (dk_bytes P (dk_parse P b)) c = KPKE_Decrypt P b c.
  Proof.
    pose proof (dk_parse_bytes P _ (dk_parse_valid P b)) as E.
    pose proof (f_equal Pke.s_hat E) as E1. unfold dk_parse in E1 at 1 3. cbn [Pke.s_hat] in E1.
    unfold KPKE_Decrypt. rewrite E1. reflexivity.
  Qed.

  Theorem Decaps_internal_reduce n b c : byte_string (768 * k + 96) b ->
    Decaps_internal hs P n (dkey_bytes (dkey_parse b)) c = Decaps_internal hs P n b c.
  Proof.
    intros Hb. destruct (dkey_sections _ (dkey_parse_valid b Hb)) as (S1 & S2 & S3 & S4).
    unfold Decaps_internal. fold k. rewrite S1, S2, S3, S4. unfold dkey_parse, ekey_bytes.
    cbn [dk_pke dk_ek dk_z ek_pke ek_h]. rewrite KPKE_Decrypt_reduce.
    destruct (FIPS203.G hs _) as [K r]. rewrite KPKE_Encrypt_reduce; [reflexivity|].
    apply byte_string_firstn with (m := (384 * k + 96)%nat); [|lia].
    apply byte_string_skipn. replace (384 * k + (384 * k + 96))%nat with (768 * k + 96)%nat by lia. exact Hb.
  Qed.

  Lemma Encaps_with_reduce n b h m : byte_string (384 * k + 32) b ->
    Encaps_with hs P n (ekey_bytes (ekey_parse b)) h m = Encaps_with hs P n b h m.
  Proof.
    intros Hb. unfold Encaps_with. destruct (FIPS203.G hs (m ++ h)) as [K r].
    unfold ekey_bytes, ekey_parse. cbn [ek_pke]. rewrite KPKE_Encrypt_reduce by exact Hb. reflexivity.
  Qed.

  (** ** Canonical keys *)

  Theorem ekey_reduce_id b : byte_string (384 * k + 32) b ->
    (ekey_bytes (ekey_parse b) = b <-> canonical_vec k (firstn (384 * k) b)).
  Proof.
    intros Hb. unfold ekey_bytes, ekey_parse, ek_bytes, ek_parse. cbn [ek_pke Pke.t_hat Pke.rho].
    assert (H1 : byte_string (384 * k) (firstn (384 * k) b)) by (eapply byte_string_firstn; [exact Hb|lia]).
    pose proof (encode_decode_vec_12 P (firstn (384 * k) b) H1) as W. fold k in W. rewrite <- W. fold k. split.
    - intros E. rewrite <- E at 2. rewrite firstn_app_exact; [reflexivity|]. apply encode_vec12_bytes.
    - intros E. rewrite E. apply firstn_skipn.
  Qed.

  Theorem dkey_reduce_id b : byte_string (768 * k + 96) b ->
    (dkey_bytes (dkey_parse b) = b <->
     canonical_vec k (firstn (384 * k) b) /\ canonical_vec k (firstn (384 * k) (skipn (384 * k) b))).
  Proof.
    intros Hb.
    assert (H1 : byte_string (384 * k) (firstn (384 * k) b)) by (eapply byte_string_firstn; [exact Hb|lia]).
    assert (Hr : byte_string (384 * k + 96) (skipn (384 * k) b)).
    { apply byte_string_skipn. replace (384 * k + (384 * k + 96))%nat with (768 * k + 96)%nat by lia. exact Hb. }
    assert (He : byte_string (384 * k + 32) (firstn (384 * k + 32) (skipn (384 * k) b))).
    { eapply byte_string_firstn; [exact Hr|lia]. }
    assert (Ee : firstn (384 * k) (firstn (384 * k + 32) (skipn (384 * k) b)) = firstn (384 * k) (skipn (384 * k) b)).
    { rewrite firstn_firstn. f_equal. lia. }
    pose proof (encode_decode_vec_12 P (firstn (384 * k) b) H1) as W1. fold k in W1. rewrite <- W1.
    pose proof (ekey_reduce_id _ He) as W2. rewrite Ee in W2. rewrite <- W2.
    destruct (dkey_sections _ (dkey_parse_valid b Hb)) as (S1 & S2 & S3 & S4). split.
    - intros E. rewrite E in S1, S2. split; [symmetry; exact S1|symmetry; exact S2].
    - intros [E1 E2].
      rewrite <- (firstn_skipn (384 * k) (dkey_bytes _)), S1.
      rewrite <- (firstn_skipn (384 * k + 32) (skipn (384 * k) (dkey_bytes _))), S2.
      rewrite skipn_skipn. replace (384 * k + (384 * k + 32))%nat with (768 * k + 32)%nat by lia.
      rewrite <- (firstn_skipn 32 (skipn (768 * k + 32) (dkey_bytes _))), S3.
      rewrite skipn_skipn. replace (768 * k + 32 + 32)%nat with (768 * k + 64)%nat by lia. rewrite S4.
      transitivity (firstn (384 * k) b ++ firstn (384 * k + 32) (skipn (384 * k) b) ++
                    firstn 32 (skipn (768 * k + 32) b) ++ skipn (768 * k + 64) b).
      + f_equal; [exact E1|]. f_equal. exact E2.
      + replace (768 * k + 64)%nat with (768 * k + 32 + 32)%nat by lia.
        rewrite <- (skipn_skipn _ 32 (768 * k + 32)), firstn_skipn.
        replace (768 * k + 32)%nat with (384 * k + (384 * k + 32))%nat by lia.
        rewrite <- (skipn_skipn _ (384 * k + 32) (384 * k)), firstn_skipn. apply firstn_skipn.
  Qed.
End Kem.

(** K-PKE: the code computes the functions of FIPS 203 section 5. *)
From Coq Require Import List ZArith Lia Bool Arith.
From Verif.Base Require Import Res Oracles.
From Verif.Spec Require Import FIPS203 Domains.
From Verif.Model Require Import Machine Util Algebra Compress Encode Crypto Sample Param Pke.
From Verif.Proofs Require Import Basics Field Poly CompressProofs NttProofs NttAlgebra EncodeProofs
  VecEncode SampleProofs.
Import ListNotations.
Open Scope Z_scope.

Lemma bytes_app a b : bytes a -> bytes b -> bytes (a ++ b).
Proof. intros. apply Forall_app. split; assumption. Qed.
Lemma bytes_cons x l : is_byte x -> bytes l -> bytes (x :: l).
Proof. constructor; assumption. Qed.
Lemma bytes_nil : bytes [].
Proof. constructor. Qed.

Lemma byte_string_app n m a b : byte_string n a -> byte_string m b -> byte_string (n + m) (a ++ b).
Proof. intros [L1 H1] [L2 H2]. split; [rewrite app_length; lia|apply bytes_app; assumption]. Qed.

Lemma all_some_tab A n (f : nat -> option A) l : all_some (tab n f) = Some l ->
  length l = n /\ forall i d, (i < n)%nat -> f i = Some (nth i l d).
Proof.
  revert f l. induction n as [|n IH]; intros f l.
  - intros E. apply Some_inj in E. subst l. split; [reflexivity|]. intros. lia.
  - rewrite tab_cons. cbn [all_some]. destruct (f 0%nat) as [x|] eqn:E0; [|discriminate].
    destruct (all_some (tab n (fun i => f (S i)))) as [xs|] eqn:E; [|discriminate].
    intros E'. apply Some_inj in E'. subst l. destruct (IH _ _ E) as [L H].
    split; [simpl; lia|]. intros [|i] d Hi; [exact E0|]. apply (H i d). lia.
Qed.

Lemma all_some_none A n (f : nat -> option A) : all_some (tab n f) = None ->
  exists i, (i < n)%nat /\ f i = None.
Proof.
  revert f. induction n as [|n IH]; intros f; [discriminate|].
  rewrite tab_cons. cbn [all_some]. destruct (f 0%nat) as [x|] eqn:E0.
  - destruct (all_some (tab n (fun i => f (S i)))) as [xs|] eqn:E; [discriminate|].
    intros _. destruct (IH _ E) as (i & Hi & H). exists (S i). split; [lia|exact H].
  - intros _. exists 0%nat. split; [lia|exact E0].
Qed.

Lemma all_some_intro A n (f : nat -> option A) g : (forall i, (i < n)%nat -> f i = Some (g i)) ->
  all_some (tab n f) = Some (tab n g).
Proof.
  revert f g. induction n as [|n IH]; intros f g H; [reflexivity|].
  rewrite !tab_cons. cbn [all_some]. rewrite H by lia.
  rewrite (IH (fun i => f (S i)) (fun i => g (S i))) by (intros; apply H; lia). reflexivity.
Qed.

Section Pke.
  Variable hs : hashes.
  Hypothesis Hhs : hash_ok hs.
  Variable P : params.
  Hypothesis HP : wf_params P.
  Let k := pk P.

  Lemma k_range : (1 <= k <= 127)%nat. Proof. apply HP. Qed.
  Lemma eta1_range : (eta1 P = 2 \/ eta1 P = 3)%nat. Proof. apply HP. Qed.
  Lemma eta2_range : (eta2 P = 2 \/ eta2 P = 3)%nat. Proof. apply HP. Qed.
  Lemma du_range : (1 <= du P <= 12)%nat. Proof. apply HP. Qed.
  Lemma dv_range : (1 <= dv P <= 12)%nat. Proof. apply HP. Qed.

  (** ** Hash functions *)

  Lemma G_ok inputs : bytes (concat inputs) ->
    Model.Crypto.G hs inputs = Ok (FIPS203.G hs (concat inputs)).
  Proof. clear k HP P.
    intros Hb. destruct (Hhs _ Hb) as (_ & [L _] & _). unfold Model.Crypto.G, FIPS203.G.
    rewrite slice_ok by lia. cbn [bind]. rewrite L.
    rewrite copy_from_slice_ok by (rewrite repeat_length, firstn_length, skipn_length; lia).
    cbn [bind]. rewrite slice_ok by lia. cbn [bind].
    rewrite copy_from_slice_ok by (rewrite repeat_length, firstn_length, skipn_length; lia).
    cbn [bind]. do 2 f_equal. change (64 - 32)%nat with 32%nat.
    rewrite firstn_all2 by (rewrite skipn_length; lia). reflexivity.
  Qed.

  Lemma G_bytes c : bytes c -> byte_string 32 (fst (FIPS203.G hs c)) /\ byte_string 32 (snd (FIPS203.G hs c)).
  Proof. clear k HP P.
    intros Hb. destruct (Hhs _ Hb) as (_ & [L B] & _). unfold FIPS203.G. cbn [fst snd].
    split; split; [rewrite firstn_length; lia|apply bytes_firstn, B|rewrite skipn_length; lia|apply bytes_skipn, B].
  Qed.

  Lemma J_ok inputs : Model.Crypto.J hs inputs = FIPS203.J hs (concat inputs).
  Proof. reflexivity. Qed.

  Lemma J_bytes s : bytes s -> byte_string 32 (FIPS203.J hs s).
  Proof. clear k HP P.
    intros Hb. destruct (Hhs _ Hb) as (_ & _ & _ & B). split; [apply tab_length|].
    apply Forall_tab. intros. apply B.
  Qed.

  Lemma H_bytes s : bytes s -> byte_string 32 (FIPS203.H hs s).
  Proof. intros Hb. apply (Hhs _ Hb). Qed.

  Lemma PRF_ok eta s b : Model.Crypto.PRF hs eta s (Z.of_nat b) = FIPS203.PRF hs eta s b.
  Proof. clear k HP P.
    unfold Model.Crypto.PRF, FIPS203.PRF, xof_read, prefix, encoded_poly_size.
    cbn [fst xof_stream xof_pos concat]. rewrite app_nil_r.
    replace (2 * eta * 32)%nat with (64 * eta)%nat by lia. reflexivity.
  Qed.

  Lemma PRF_bytes eta s b : bytes s -> (b < 256)%nat -> byte_string (64 * eta) (FIPS203.PRF hs eta s b).
  Proof. clear k HP P.
    intros Hs Hb. split; [apply tab_length|]. apply Forall_tab. intros i Hi.
    apply Hhs. apply bytes_app; [exact Hs|]. apply bytes_cons; [unfold is_byte; lia|apply bytes_nil].
  Qed.

  (** ** Sampling of vectors and matrices *)

  Lemma vec_sample_cbd_ok eta sigma N : (eta = 2 \/ eta = 3)%nat -> bytes sigma -> (N + k <= 255)%nat ->
    vec_sample_cbd hs k eta sigma (Z.of_nat N) = Ok (noise hs P eta sigma N).
  Proof.
    intros He Hs HN. unfold vec_sample_cbd, noise. apply from_fn_ok. intros i Hi.
    pose proof k_range. fold k in Hi.
    rewrite truncate_small by mlia. cbn [bind].
    rewrite uadd_ok by mlia. cbn [bind]. rewrite <- Nat2Z.inj_add, PRF_ok.
    apply poly_sample_cbd_ok; [exact He|]. apply PRF_bytes; [exact Hs|lia].
  Qed.

  Lemma noise_vec eta sigma N : vec k (noise hs P eta sigma N).
  Proof. apply vec_tab. intros. apply SamplePolyCBD_poly. Qed.

  Lemma xof_bytes rho i j : bytes rho -> (i < 256)%nat -> (j < 256)%nat ->
    forall t, is_byte (shake128 hs (rho ++ [Z.of_nat j; Z.of_nat i]) t).
  Proof. clear k HP P.
    intros Hr Hi Hj. apply Hhs. apply bytes_app; [exact Hr|].
    apply bytes_cons; [unfold is_byte; lia|]. apply bytes_cons; [unfold is_byte; lia|apply bytes_nil].
  Qed.

  Lemma sample_entry n rho i j : bytes rho -> (i < 256)%nat -> (j < 256)%nat ->
    poly_sample_uniform n (XOF hs rho (Z.of_nat j) (Z.of_nat i)) =
    lift (SampleNTT n (shake128 hs (rho ++ [Z.of_nat j; Z.of_nat i]))).
  Proof. clear k HP P.
    intros Hr Hi Hj. unfold XOF. cbn [concat]. rewrite app_nil_r.
    apply poly_sample_uniform_ok. apply xof_bytes; assumption.
  Qed.

  Theorem matrix_sample_ok n rho : bytes rho ->
    matrix_sample_uniform hs n k rho false = lift (A_hat hs P n rho).
  Proof.
    intros Hr. pose proof k_range. unfold matrix_sample_uniform, A_hat. apply from_fn_lift.
    intros i Hi. apply from_fn_lift. intros j Hj. fold k in Hi, Hj. cbv beta iota.
    rewrite !truncate_small by mlia. cbn [bind]. apply sample_entry; [exact Hr|lia|lia].
  Qed.

  Lemma A_hat_some n rho A : A_hat hs P n rho = Some A ->
    length A = k /\ forall i j, (i < k)%nat -> (j < k)%nat ->
      length (nth i A []) = k /\
      SampleNTT n (shake128 hs (rho ++ [Z.of_nat j; Z.of_nat i])) = Some (ent (nth i A []) j).
  Proof.
    intros E. apply all_some_tab in E. destruct E as [L E]. split; [exact L|].
    intros i j Hi Hj. specialize (E i [] Hi). apply all_some_tab in E. destruct E as [L' E].
    split; [exact L'|]. apply (E j [] Hj).
  Qed.

  Lemma A_hat_mat n rho A : bytes rho -> A_hat hs P n rho = Some A -> mat k A.
  Proof.
    intros Hr E. pose proof k_range. destruct (A_hat_some n rho A E) as [L H']. split; [exact L|].
    apply Forall_forall. intros v Hv. apply In_nth with (d := []) in Hv.
    destruct Hv as (i & Hi & <-). rewrite L in Hi. split; [apply (H' i 0%nat); lia|].
    apply Forall_forall. intros p Hp. apply In_nth with (d := []) in Hp.
    destruct Hp as (j & Hj & <-). destruct (H' i 0%nat Hi ltac:(lia)) as [L' _]. rewrite L' in Hj.
    destruct (H' i j Hi Hj) as [_ E']. eapply SampleNTT_poly; [|exact E'].
    apply xof_bytes; [exact Hr|lia|lia].
  Qed.

  Theorem matrix_sample_transposed_ok n rho : bytes rho ->
    matrix_sample_uniform hs n k rho true = lift (option_map (transposed k) (A_hat hs P n rho)).
  Proof.
    intros Hr. pose proof k_range.
    transitivity (lift (all_some (tab k (fun i => all_some (tab k (fun j =>
      SampleNTT n (shake128 hs (rho ++ [Z.of_nat i; Z.of_nat j])))))))).
    - apply from_fn_lift. intros i Hi. apply from_fn_lift. intros j Hj. cbv beta iota.
      rewrite !truncate_small by mlia. cbn [bind]. apply sample_entry; [exact Hr|lia|lia].
    - f_equal. destruct (A_hat hs P n rho) as [A|] eqn:E.
      + destruct (A_hat_some n rho A E) as [L H']. cbn [option_map]. unfold transposed.
        apply all_some_intro. intros i Hi. apply all_some_intro. intros j Hj. apply H'; assumption.
      + cbn [option_map]. destruct (all_some_none _ _ _ E) as (i & Hi & Ei).
        destruct (all_some_none _ _ _ Ei) as (j & Hj & Ej).
        destruct (all_some (tab k (fun i => all_some (tab k (fun j =>
           SampleNTT n (shake128 hs (rho ++ [Z.of_nat i; Z.of_nat j]))))))) as [T|] eqn:ET; [|reflexivity].
        apply all_some_tab in ET. destruct ET as [_ ET]. specialize (ET j [] Hj).
        apply all_some_tab in ET. destruct ET as [_ ET]. specialize (ET i [] Hi). cbv beta in ET.
        rewrite Ej in ET. discriminate.
  Qed.

  (** ** Vectors of NTTs *)

  Lemma vec_ntt_ok v : vec k v -> vec_ntt k v = Ok (map NTT v).
  Proof.
    intros Hv. unfold vec_ntt. rewrite mapM_ok with (g := NTT).
    - cbn [bind]. apply collect_ok. rewrite map_length. apply Hv.
    - intros p Hp. apply ntt_ok. eapply vec_in; eassumption.
  Qed.

  Lemma nttvec_inverse_ok v : vec k v -> nttvec_inverse k v = Ok (map NTTinv v).
  Proof.
    intros Hv. unfold nttvec_inverse. rewrite mapM_ok with (g := NTTinv).
    - cbn [bind]. apply collect_ok. rewrite map_length. apply Hv.
    - intros p Hp. apply ntt_inverse_ok. eapply vec_in; eassumption.
  Qed.

  (** ** Keys and their encodings *)

  Definition valid_dk (dk : DecryptionKey) : Prop := vec k (Pke.s_hat dk).
  Definition valid_ek (ek : EncryptionKey) : Prop :=
    vec k (Pke.t_hat ek) /\ byte_string 32 (Pke.rho ek).
  Definition dk_bytes (dk : DecryptionKey) : list Z := encode_vec P 12 (Pke.s_hat dk).
  Definition ek_bytes (ek : EncryptionKey) : list Z := encode_vec P 12 (Pke.t_hat ek) ++ Pke.rho ek.

  Lemma vec_small12 v : vec k v -> Forall (small 12) v.
  Proof. intros [_ F]. eapply Forall_impl; [|exact F]. intros p Hp. apply poly_small12, Hp. Qed.

  Lemma dk_as_bytes_ok dk : valid_dk dk -> dk_as_bytes P dk = Ok (dk_bytes dk).
  Proof.
    intros Hv. apply vec_encode_ok; [lia|apply Hv|apply vec_small12, Hv].
  Qed.

  Lemma ek_as_bytes_ok ek : valid_ek ek -> ek_as_bytes P ek = Ok (ek_bytes ek).
  Proof.
    intros [Hv Hr]. unfold ek_as_bytes, encode_u12. fold k.
    rewrite (vec_encode_ok P) by (first [lia|apply Hv|apply vec_small12, Hv]). reflexivity.
  Qed.

  Lemma encode_vec12_bytes v : byte_string (384 * k) (encode_vec P 12 v).
  Proof. replace (384 * k)%nat with (32 * 12 * k)%nat by lia. exact (encode_vec_bytes P 12 v). Qed.

  Lemma dk_bytes_ok dk : byte_string (384 * k) (dk_bytes dk).
  Proof. apply encode_vec12_bytes. Qed.

  Lemma ek_bytes_ok ek : valid_ek ek -> byte_string (384 * k + 32) (ek_bytes ek).
  Proof. intros [_ Hr]. apply byte_string_app; [apply encode_vec12_bytes|exact Hr]. Qed.

  Definition dk_parse (b : list Z) : DecryptionKey := {| Pke.s_hat := decode_vec P 12 b |}.
  Definition ek_parse (b : list Z) : EncryptionKey :=
    {| Pke.t_hat := decode_vec P 12 (firstn (384 * k) b); Pke.rho := skipn (384 * k) b |}.

  Lemma dk_from_bytes_ok b : byte_string (384 * k) b -> dk_from_bytes P b = Ok (dk_parse b).
  Proof.
    intros Hb. pose proof k_range. unfold dk_from_bytes, decode_u12. fold k.
    rewrite (vec_decode_ok P); [reflexivity|lia|fold k; lia|]. fold k.
    replace (32 * 12 * k)%nat with (384 * k)%nat by lia. exact Hb.
  Qed.

  Lemma ntt_vector_size_eq : ntt_vector_size P = (384 * k)%nat.
  Proof. unfold ntt_vector_size, encoded_vec_size, encoded_poly_size. fold k. lia. Qed.

  Lemma byte_string_firstn n m b : byte_string m b -> (n <= m)%nat -> byte_string n (firstn n b).
  Proof. clear k HP P. intros [L B] Hn. split; [rewrite firstn_length; lia|apply bytes_firstn, B]. Qed.
  Lemma byte_string_skipn n m b : byte_string (n + m) b -> byte_string m (skipn n b).
  Proof. clear k HP P. intros [L B]. split; [rewrite skipn_length; lia|apply bytes_skipn, B]. Qed.

  Lemma ek_from_bytes_ok b : byte_string (384 * k + 32) b -> ek_from_bytes P b = Ok (ek_parse b).
  Proof.
    intros Hb. pose proof k_range. unfold ek_from_bytes, split_ek, decode_u12. rewrite ntt_vector_size_eq. fold k.
    rewrite (vec_decode_ok P); [reflexivity|lia|fold k; lia|]. fold k.
    replace (32 * 12 * k)%nat with (384 * k)%nat by lia.
    eapply byte_string_firstn; [exact Hb|lia].
  Qed.

  Lemma dk_parse_valid b : valid_dk (dk_parse b).
  Proof. apply decode_vec12_vec. Qed.

  Lemma ek_parse_valid b : byte_string (384 * k + 32) b -> valid_ek (ek_parse b).
  Proof.
    intros Hb. split; [apply decode_vec12_vec|]. cbn [ek_parse Pke.rho].
    apply byte_string_skipn, Hb.
  Qed.

  Lemma firstn_app_exact A n (a b : list A) : length a = n -> firstn n (a ++ b) = a.
  Proof. intros <-. rewrite firstn_app, Nat.sub_diag, firstn_O, app_nil_r. apply firstn_all. Qed.
  Lemma skipn_app_exact A n (a b : list A) : length a = n -> skipn n (a ++ b) = b.
  Proof. intros <-. rewrite skipn_app, Nat.sub_diag, skipn_all. reflexivity. Qed.

  Lemma dk_parse_bytes dk : valid_dk dk -> dk_parse (dk_bytes dk) = dk.
  Proof.
    intros Hv. destruct dk as [s]. unfold dk_parse, dk_bytes. cbn [Pke.s_hat]. f_equal.
    apply decode_encode_vec; [lia|apply Hv|apply Hv].
  Qed.

  Lemma ek_parse_bytes ek : valid_ek ek -> ek_parse (ek_bytes ek) = ek.
  Proof.
    intros [Hv Hr]. destruct ek as [t r]. unfold ek_parse, ek_bytes. cbn [Pke.t_hat Pke.rho] in *.
    destruct (encode_vec12_bytes t) as [L _]. f_equal.
    - rewrite firstn_app_exact by exact L. apply decode_encode_vec; [lia|apply Hv|apply Hv].
    - apply skipn_app_exact. exact L.
  Qed.

  (** ** Key generation *)

  Theorem pke_generate_ok n d : bytes d ->
    match KPKE_KeyGen hs P n d with
    | None => pke_generate hs P n d = NoFuel
    | Some (ekb, dkb) => exists dk ek,
        pke_generate hs P n d = Ok (dk, ek) /\ valid_dk dk /\ valid_ek ek /\
        dk_bytes dk = dkb /\ ek_bytes ek = ekb
    end.
  Proof.
    intros Hd. pose proof k_range. unfold KPKE_KeyGen, pke_generate. fold k.
    assert (Hb : bytes (d ++ [Z.of_nat k])).
    { apply bytes_app; [exact Hd|]. apply bytes_cons; [unfold is_byte; lia|apply bytes_nil]. }
    assert (Hc : concat [d; [K_U8 P]] = d ++ [Z.of_nat k]) by reflexivity.
    rewrite G_ok by (rewrite Hc; exact Hb). rewrite Hc. destruct (G_bytes _ Hb) as [Hr Hs].
    destruct (FIPS203.G hs (d ++ [Z.of_nat k])) as [rho sigma]. cbn [bind fst snd] in *.
    rewrite matrix_sample_ok by apply Hr.
    destruct (A_hat hs P n rho) as [A|] eqn:EA; [|reflexivity]. cbn [bind lift].
    pose proof (A_hat_mat n rho A (proj2 Hr) EA) as HA.
    rewrite (vec_sample_cbd_ok _ _ 0) by (first [apply eta1_range|apply Hs|lia]). cbn [bind].
    unfold K_U8. fold k.
    rewrite (vec_sample_cbd_ok _ _ k) by (first [apply eta1_range|apply Hs|lia]). cbn [bind].
    rewrite vec_ntt_ok by apply noise_vec. cbn [bind].
    rewrite vec_ntt_ok by apply noise_vec. cbn [bind].
    assert (Vs : vec k (map NTT (noise hs P (eta1 P) sigma 0)))
      by (apply vec_map; [apply noise_vec|intros; apply NTT_poly]).
    assert (Ve : vec k (map NTT (noise hs P (eta1 P) sigma k)))
      by (apply vec_map; [apply noise_vec|intros; apply NTT_poly]).
    rewrite matrix_mul_ok by assumption. cbn [bind].
    rewrite nttvec_add_ok by (first [apply matvec_vec|assumption]). cbn [bind].
    do 2 eexists. split; [reflexivity|]. split; [exact Vs|]. split.
    - split; [apply vadd_vec|exact Hr].
    - split; reflexivity.
  Qed.

  (** ** Encryption *)

  Lemma mu_small m : small 1 (ByteDecode 1 m).
  Proof. apply ByteDecode_small. lia. Qed.

  Theorem encrypt_ok n ek m r : valid_ek ek -> byte_string 32 m -> bytes r ->
    encrypt hs P n ek m r = lift (KPKE_Encrypt hs P n (ek_bytes ek) m r).
  Proof.
    intros [Ht Hrho] Hm Hr. pose proof k_range. pose proof du_range. pose proof dv_range.
    unfold KPKE_Encrypt, encrypt. fold k.
    pose proof (ek_parse_bytes ek (conj Ht Hrho)) as EP. unfold ek_parse in EP.
    assert (E1 : decode_vec P 12 (firstn (384 * k) (ek_bytes ek)) = Pke.t_hat ek) by (rewrite <- EP at 2; reflexivity).
    assert (E2 : skipn (384 * k) (ek_bytes ek) = Pke.rho ek) by (rewrite <- EP at 2; reflexivity).
    rewrite E1, E2. clear EP E1 E2.
    rewrite (vec_sample_cbd_ok _ _ 0) by (first [apply eta1_range|apply Hr|lia]). cbn [bind].
    unfold K_U8. fold k.
    rewrite (vec_sample_cbd_ok _ _ k) by (first [apply eta2_range|apply Hr|lia]). cbn [bind].
    rewrite umul_ok by mlia. cbn [bind].
    replace (2 * Z.of_nat k) with (Z.of_nat (2 * k)) by lia. rewrite PRF_ok.
    rewrite poly_sample_cbd_ok by (first [apply eta2_range|apply PRF_bytes; [exact Hr|lia]]). cbn [bind].
    rewrite matrix_sample_transposed_ok by apply Hrho.
    destruct (A_hat hs P n (Pke.rho ek)) as [A|] eqn:EA; [|reflexivity]. cbn [option_map lift bind].
    pose proof (A_hat_mat n _ A (proj2 Hrho) EA) as HA.
    rewrite vec_ntt_ok by apply noise_vec. cbn [bind].
    set (y_hat := map NTT (noise hs P (eta1 P) r 0)).
    assert (Vy : vec k y_hat) by (apply vec_map; [apply noise_vec|intros; apply NTT_poly]).
    rewrite matrix_mul_ok by (first [apply transposed_mat, HA|exact Vy]). cbn [bind].
    rewrite nttvec_inverse_ok by apply matvec_vec. cbn [bind].
    rewrite vec_add_ok by (first [apply noise_vec|apply vec_map; [apply matvec_vec|intros; apply NTTinv_poly]]).
    cbn [bind].
    unfold poly_decode. rewrite byte_decode_ok by (first [exact Hm|lia]). cbn [bind].
    rewrite poly_decompress_ok by (first [apply mu_small|lia]). cbn [bind].
    rewrite (nttvec_dot_ok k) by assumption. cbn [bind].
    rewrite ntt_inverse_ok by apply dot_poly. cbn [bind].
    rewrite poly_add_ok; [|apply NTTinv_poly|apply SamplePolyCBD_poly]. cbn [bind].
    rewrite poly_add_ok; [|apply padd_poly|apply Decompress_poly; [lia|apply mu_small|discriminate]].
    cbn [bind].
    set (u := vadd k _ _). set (v := padd _ _).
    assert (Vu : vec k u) by apply vadd_vec.
    rewrite (vec_compress_ok _ k) by assumption. cbn [bind].
    rewrite (vec_encode_ok P); [|assumption|rewrite map_length; apply Vu|].
    2:{ apply Forall_forall. intros p Hp. apply in_map_iff in Hp. destruct Hp as (p' & <- & Hp').
        apply Compress_small. eapply vec_in in Hp'; [|exact Vu]. apply Hp'. }
    cbn [bind]. rewrite poly_compress_ok by (first [assumption|apply padd_poly]). cbn [bind].
    unfold poly_encode. rewrite byte_encode_ok by (first [assumption|apply Compress_small, padd_poly]).
    reflexivity.
  Qed.

  Lemma KPKE_Encrypt_bytes n ek m r c : KPKE_Encrypt hs P n ek m r = Some c ->
    byte_string (32 * du P * k + 32 * dv P) c.
  Proof.
    unfold KPKE_Encrypt. destruct (A_hat hs P n _) as [A|]; [|discriminate].
    intros E. apply Some_inj in E. subst c. apply byte_string_app; [apply encode_vec_bytes|apply ByteEncode_bytes].
  Qed.

  (** ** Decryption *)

  Theorem decrypt_ok dk c : valid_dk dk -> byte_string (32 * du P * k + 32 * dv P) c ->
    decrypt P dk c = Ok (KPKE_Decrypt P (dk_bytes dk) c).
  Proof.
    intros Hv Hc. pose proof k_range. pose proof du_range. pose proof dv_range.
    unfold decrypt, split_ct, KPKE_Decrypt. fold k.
    assert (E0 : encoded_u_size P = (32 * du P * k)%nat)
      by (unfold encoded_u_size, encoded_vec_size, encoded_poly_size; fold k; lia).
    rewrite E0.
    assert (E1 : decode_vec P 12 (dk_bytes dk) = Pke.s_hat dk)
      by (pose proof (dk_parse_bytes dk Hv) as E; rewrite <- E at 2; reflexivity).
    rewrite E1.
    assert (Hc1 : byte_string (32 * du P * k) (firstn (32 * du P * k) c)) by (eapply byte_string_firstn; [exact Hc|lia]).
    assert (Hc2 : byte_string (32 * dv P) (skipn (32 * du P * k) c)).
    { apply byte_string_skipn, Hc. }
    rewrite (vec_decode_ok P) by (first [assumption|fold k; lia]). cbn [bind].
    rewrite vec_decompress_ok by (first [assumption|apply decode_vec_small; assumption]). cbn [bind].
    unfold poly_decode. rewrite byte_decode_ok by assumption. cbn [bind].
    rewrite poly_decompress_ok by (first [assumption|apply ByteDecode_small; assumption]). cbn [bind].
    assert (Pd : forall d B, (1 <= d <= 12)%nat -> poly (map (Decompress d) (ByteDecode d B))).
    { intros d B Hd. apply Decompress_poly; [exact Hd|apply ByteDecode_small, Hd|].
      intros ->. apply ByteDecode12_poly. }
    set (u := map (map (Decompress (du P))) _).
    assert (Vu : vec k u).
    { unfold u. rewrite decode_vec_part. fold k. rewrite map_tab. apply vec_tab. intros i Hi. apply Pd. assumption. }
    rewrite vec_ntt_ok by exact Vu. cbn [bind].
    rewrite (nttvec_dot_ok k) by (first [exact Hv|apply vec_map; [exact Vu|intros; apply NTT_poly]]). cbn [bind].
    rewrite ntt_inverse_ok by apply dot_poly. cbn [bind].
    rewrite poly_sub_ok; [|apply Pd; assumption|apply NTTinv_poly]. cbn [bind].
    rewrite poly_compress_ok by (first [lia|apply psub_poly]). cbn [bind].
    unfold poly_encode. apply byte_encode_ok; [lia|]. apply Compress_small, psub_poly.
  Qed.

  Lemma KPKE_Decrypt_bytes dk c : byte_string 32 (KPKE_Decrypt P dk c).
  Proof. apply (ByteEncode_bytes 1). Qed.
End Pke.

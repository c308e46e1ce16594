(** K-PKE decryption computes message + noise: the algebra behind C04. *)
From Coq Require Import List ZArith Lia Bool Arith.
From Verif.Base Require Import Res Oracles.
From Verif.Spec Require Import FIPS203 Domains Noise.
From Verif.Model Require Import Machine Util Algebra.
From Verif.Proofs Require Import Basics Field Poly CompressProofs NttProofs NttAlgebra EncodeProofs
  VecEncode SampleProofs PkeProofs Inner.
Import ListNotations.
Open Scope Z_scope.

(** ** R_q is a commutative ring *)

Lemma MultiplyNTTs_comm f g : MultiplyNTTs f g = MultiplyNTTs g f.
Proof.
  apply poly_ext; [apply MultiplyNTTs_poly|apply MultiplyNTTs_poly|]. intros t Ht.
  destruct (even_odd_cases t) as [i [-> | ->]].
  - rewrite !MultiplyNTTs_even by lia. f_equal. ring.
  - rewrite !MultiplyNTTs_odd by lia. f_equal. ring.
Qed.

Lemma MultiplyNTTs_assoc f g h :
  MultiplyNTTs (MultiplyNTTs f g) h = MultiplyNTTs f (MultiplyNTTs g h).
Proof.
  apply poly_ext; [apply MultiplyNTTs_poly|apply MultiplyNTTs_poly|]. intros t Ht.
  destruct (even_odd_cases t) as [i [-> | ->]].
  - rewrite !MultiplyNTTs_even, !MultiplyNTTs_odd by lia. apply eqq_mod.
    generalize (gamma i), (co f (2 * i)), (co f (2 * i + 1)), (co g (2 * i)), (co g (2 * i + 1)),
      (co h (2 * i)), (co h (2 * i + 1)). intros.
    rewrite !mod_eqq. apply eqq_of_eq. ring.
  - rewrite !MultiplyNTTs_odd, !MultiplyNTTs_even by lia. apply eqq_mod.
    generalize (gamma i), (co f (2 * i)), (co f (2 * i + 1)), (co g (2 * i)), (co g (2 * i + 1)),
      (co h (2 * i)), (co h (2 * i + 1)). intros.
    rewrite !mod_eqq. apply eqq_of_eq. ring.
Qed.

Lemma NTT_inj f g : poly f -> poly g -> NTT f = NTT g -> f = g.
Proof. intros Hf Hg E. rewrite <- (NTTinv_NTT f Hf), E. apply NTTinv_NTT, Hg. Qed.

Theorem pmul_comm f g : pmul f g = pmul g f.
Proof.
  apply NTT_inj; [apply pmul_poly|apply pmul_poly|]. rewrite !NTT_pmul. apply MultiplyNTTs_comm.
Qed.

Theorem pmul_assoc f g h : pmul (pmul f g) h = pmul f (pmul g h).
Proof.
  apply NTT_inj; [apply pmul_poly|apply pmul_poly|]. rewrite !NTT_pmul. apply MultiplyNTTs_assoc.
Qed.

(** the product is linear in its first argument *)
Lemma pmul_sum k (F : nat -> list Z) p g c :
  (forall a, (a < 256)%nat -> eqq (co p a) (sum k (fun j => co (F j) a))) -> (c < 256)%nat ->
  eqq (co (pmul p g) c) (sum k (fun j => co (pmul (F j) g) c)).
Proof.
  intros Hp Hc. rewrite co_pmul by exact Hc. rewrite mod_eqq.
  transitivity (sum 256 (fun a => sum 256 (fun b => sum k (fun j => co (F j) a * co g b * chi a b c)))).
  - apply sum_eqq. intros a Ha. apply sum_eqq. intros b Hb.
    rewrite !sum_mul_r. apply mul_eqq; [|reflexivity]. apply mul_eqq; [|reflexivity]. apply Hp, Ha.
  - transitivity (sum k (fun j => sum 256 (fun a => sum 256 (fun b => co (F j) a * co g b * chi a b c)))).
    + apply eqq_of_eq. rewrite (sum_swap k 256). apply sum_ext. intros a Ha. apply sum_swap.
    + apply sum_eqq. intros j Hj. rewrite co_pmul by exact Hc. symmetry. apply mod_eqq.
Qed.

Lemma co_inner k u v c : (c < 256)%nat ->
  eqq (co (inner k u v) c) (sum k (fun i => co (pmul (ent u i) (ent v i)) c)).
Proof. intros Hc. unfold inner. rewrite co_tab by exact Hc. apply mod_eqq. Qed.

Lemma inner_poly k u v : poly (inner k u v).
Proof. apply poly_tab_mod. Qed.

Lemma rmatvec_vec k A v : vec k (rmatvec k A v).
Proof. apply vec_tab. intros. apply inner_poly. Qed.

(** inner products depend on the entries modulo q, coefficient by coefficient *)
Lemma inner_add_l k u u1 u2 v c : (c < 256)%nat ->
  (forall i a, (i < k)%nat -> (a < 256)%nat -> eqq (co (ent u i) a) (co (ent u1 i) a + co (ent u2 i) a)) ->
  eqq (co (inner k u v) c) (co (inner k u1 v) c + co (inner k u2 v) c).
Proof.
  intros Hc H. rewrite !co_inner by exact Hc. rewrite <- sum_add. apply sum_eqq. intros i Hi.
  transitivity (sum 2 (fun j => co (pmul (match j with O => ent u1 i | _ => ent u2 i end) (ent v i)) c)).
  - apply pmul_sum; [|exact Hc]. intros a Ha. rewrite (H i a Hi Ha). apply eqq_of_eq. cbn [sum]. ring.
  - apply eqq_of_eq. cbn [sum]. ring.
Qed.

Lemma inner_comm k u v : inner k u v = inner k v u.
Proof.
  unfold inner. apply tab_ext. intros c Hc. f_equal. apply sum_ext. intros i Hi.
  rewrite pmul_comm. reflexivity.
Qed.

Lemma inner_add_r k v u u1 u2 c : (c < 256)%nat ->
  (forall i a, (i < k)%nat -> (a < 256)%nat -> eqq (co (ent u i) a) (co (ent u1 i) a + co (ent u2 i) a)) ->
  eqq (co (inner k v u) c) (co (inner k v u1) c + co (inner k v u2) c).
Proof. intros Hc H. rewrite !(inner_comm k v). apply inner_add_l; assumption. Qed.

(** (A s).y = s.(A^T y) *)
Lemma inner_transposed k A s y c : (c < 256)%nat ->
  eqq (co (inner k (rmatvec k A s) y) c) (co (inner k s (rmatvec k (transposed k A) y)) c).
Proof.
  intros Hc. rewrite !co_inner by exact Hc.
  transitivity (sum k (fun i => sum k (fun j => co (pmul (pmul (ent (nth i A []) j) (ent s j)) (ent y i)) c))).
  - apply sum_eqq. intros i Hi. apply pmul_sum; [|exact Hc]. intros a Ha.
    unfold rmatvec. rewrite ent_tab by exact Hi. apply co_inner, Ha.
  - rewrite sum_swap. apply sum_eqq. intros j Hj. rewrite (pmul_comm (ent s j)). symmetry.
    transitivity (sum k (fun i => co (pmul (pmul (ent (nth i A []) j) (ent y i)) (ent s j)) c)).
    + apply pmul_sum; [|exact Hc]. intros a Ha. unfold rmatvec. rewrite ent_tab by exact Hj.
      rewrite co_inner by exact Ha. apply sum_eqq. intros i Hi. unfold transposed.
      rewrite nth_tab by exact Hj. rewrite ent_tab by exact Hi. reflexivity.
    + apply sum_eqq. intros i Hi. apply eqq_of_eq.
      rewrite !pmul_assoc, (pmul_comm (ent y i)). reflexivity.
Qed.

(** ** From the NTT domain to R_q *)

Lemma ent_map k f v i : length v = k -> (i < k)%nat -> ent (map f v) i = f (ent v i).
Proof.
  intros L Hi. unfold ent. rewrite (nth_indep (map f v) [] (f [])) by (rewrite map_length; lia).
  apply map_nth.
Qed.

Lemma map_NTT_NTTinv k v : vec k v -> map NTT (map NTTinv v) = v.
Proof.
  intros [_ F]. rewrite map_map. induction F as [|p v Hp F IH]; [reflexivity|].
  cbn [map]. rewrite NTT_NTTinv by exact Hp. rewrite IH. reflexivity.
Qed.

Lemma map_NTTinv_NTT k v : vec k v -> map NTTinv (map NTT v) = v.
Proof.
  intros [_ F]. rewrite map_map. induction F as [|p v Hp F IH]; [reflexivity|].
  cbn [map]. rewrite NTTinv_NTT by exact Hp. rewrite IH. reflexivity.
Qed.

Lemma NTTinv_dot k r v : vec k r -> vec k v ->
  NTTinv (dot k r (map NTT v)) = inner k (map NTTinv r) v.
Proof.
  intros Hr Hv. rewrite <- (map_NTT_NTTinv k r Hr) at 1.
  apply sum_pmul_NTT; [|exact Hv]. apply vec_map; [exact Hr|]. intros. apply NTTinv_poly.
Qed.

Lemma NTTinv_matvec k A v : mat k A -> vec k v ->
  map NTTinv (matvec k A (map NTT v)) = rmatvec k (map (map NTTinv) A) v.
Proof.
  intros HA Hv. unfold matvec, rmatvec. rewrite map_tab. apply tab_ext. intros i Hi.
  rewrite NTTinv_dot by (try apply mat_row; assumption). f_equal.
  rewrite (nth_indep (map (map NTTinv) A) [] (map NTTinv [])) by (rewrite map_length; rewrite (proj1 HA); exact Hi).
  rewrite map_nth. reflexivity.
Qed.

Lemma transposed_map k A f : mat k A ->
  transposed k (map (map f) A) = map (map f) (transposed k A).
Proof.
  intros HA. unfold transposed. rewrite map_tab. apply tab_ext. intros i Hi.
  rewrite map_tab. apply tab_ext. intros j Hj.
  rewrite (nth_indep (map (map f) A) [] (map f [])) by (rewrite map_length; rewrite (proj1 HA); exact Hj).
  rewrite map_nth. apply (ent_map k); [|exact Hi]. apply (mat_row k A j); assumption.
Qed.

(** ** Decoding one bit *)

Lemma Compress_1_one x : fe x -> (Compress 1 x = 1 <-> 833 <= x <= 2496).
Proof.
  unfold fe, Compress, round_div, q. intros Hx. change (2 ^ Z.of_nat 1) with 2.
  split; intros H; Z.to_euclidean_division_equations; lia.
Qed.

Lemma Compress_1_bit x : Compress 1 x = 0 \/ Compress 1 x = 1.
Proof. pose proof (Compress_range 1 x) as H. change (2 ^ Z.of_nat 1) with 2 in H. lia. Qed.

Lemma decode_bit b x : Compress 1 ((Decompress 1 (b2z b) + x) mod q) = b2z b <-> decodable b (centred x).
Proof.
  pose proof (centred_spec x) as [Hr Hm].
  assert (E : (Decompress 1 (b2z b) + x) mod q = (Decompress 1 (b2z b) + centred x) mod q).
  { rewrite Zplus_mod, <- Hm, <- Zplus_mod. reflexivity. }
  rewrite E. clear E Hm. generalize dependent (centred x). clear x. intros x Hr.
  pose proof (Compress_1_one _ (fe_mod (Decompress 1 (b2z b) + x))) as Ho.
  pose proof (Compress_1_bit ((Decompress 1 (b2z b) + x) mod q)) as Hb.
  unfold decodable. destruct b; cbn [b2z] in *.
  - rewrite Ho. change (Decompress 1 1) with 1665. unfold q. clear -Hr.
    split; intros H; Z.to_euclidean_division_equations; lia.
  - assert (Hz : Compress 1 ((Decompress 1 0 + x) mod q) = 0 <-> ~ (833 <= (Decompress 1 0 + x) mod q <= 2496)).
    { rewrite <- Ho. lia. }
    rewrite Hz. change (Decompress 1 0) with 0. unfold q. clear -Hr.
    split; intros H; Z.to_euclidean_division_equations; lia.
Qed.

Lemma canonical_bits m i : (i < 256)%nat -> co (ByteDecode 1 m) i = b2z (bit_of_bytes m i).
Proof.
  intros Hi. unfold ByteDecode. rewrite co_tab by exact Hi. cbn [Nat.ltb Nat.leb sum].
  rewrite Nat.mul_1_r, Nat.add_0_r. change (2 ^ Z.of_nat 1) with 2. change (2 ^ Z.of_nat 0) with 1.
  destruct (bit_of_bytes m i); reflexivity.
Qed.

Lemma ByteDecode1_canonical m : canonical 1 (ByteDecode 1 m).
Proof.
  split; [apply tab_length|]. apply Forall_tab. intros i Hi.
  apply Z.mod_pos_bound. reflexivity.
Qed.

Lemma Compress_canonical d p : (1 <= d <= 11)%nat -> length p = 256%nat ->
  canonical d (map (Compress d) p).
Proof.
  intros Hd L. split; [rewrite map_length; exact L|].
  apply Forall_forall. intros x (y & <- & _)%in_map_iff. unfold dec_mod.
  destruct (Nat.ltb_spec d 12); [apply Compress_range|lia].
Qed.

(** the decrypted string is the message iff every bit decodes *)
Lemma decodes_iff m x : byte_string 32 m -> 
  (ByteEncode 1 (map (Compress 1) (padd (enc_mu m) x)) = m <->
   forall i, (i < 256)%nat -> decodable (bit_of_bytes m i) (centred (co x i))).
Proof.
  intros Hm.
  assert (C : forall i, (i < 256)%nat ->
    co (map (Compress 1) (padd (enc_mu m) x)) i =
    Compress 1 ((Decompress 1 (b2z (bit_of_bytes m i)) + co x i) mod q)).
  { intros i Hi. unfold padd. rewrite map_tab, co_tab by exact Hi. do 3 f_equal.
    unfold enc_mu. unfold co at 1.
    rewrite (nth_indep (map (Decompress 1) _) 0 (Decompress 1 0))
      by (rewrite map_length; unfold ByteDecode; rewrite tab_length; exact Hi).
    rewrite map_nth. f_equal. apply canonical_bits, Hi. }
  split.
  - intros E i Hi. apply decode_bit. rewrite <- C by exact Hi.
    rewrite <- canonical_bits by exact Hi. rewrite <- E at 2.
    rewrite ByteDecode_ByteEncode; [reflexivity|lia|].
    apply Compress_canonical; [lia|apply tab_length].
  - intros H. rewrite <- (ByteEncode_ByteDecode 1 m) at 2 by (try exact Hm; lia). f_equal.
    apply list_ext with (d := 0).
    + rewrite map_length. unfold padd, ByteDecode. rewrite !tab_length. reflexivity.
    + rewrite map_length. unfold padd at 1. rewrite tab_length. intros i Hi.
      change (co (map (Compress 1) (padd (enc_mu m) x)) i = co (ByteDecode 1 m) i).
      rewrite C, canonical_bits by exact Hi. apply decode_bit, H, Hi.
Qed.

(** ** Decryption of an honest ciphertext *)

Section Decryption.
  Variable hs : hashes.
  Hypothesis Hhs : hash_ok hs.
  Variable P : params.
  Hypothesis HP : wf_params P.
  Hypothesis Hdu : (1 <= du P <= 11)%nat.
  Hypothesis Hdv : (1 <= dv P <= 11)%nat.
  Let k := pk P.

  Lemma co_rounding d p i : (i < 256)%nat -> poly p ->
    eqq (co (map (fun x => Decompress d (Compress d x)) p) i) (co p i + co (rounding d p) i).
  Proof.
    intros Hi Hp. unfold rounding. rewrite co_psub by exact Hi. rewrite mod_eqq.
    apply eqq_of_eq. ring.
  Qed.

  Lemma map_map_ent d (v : list (list Z)) i : vec k v -> (i < k)%nat ->
    ent (map (map (Decompress d)) (map (map (Compress d)) v)) i =
    map (fun x => Decompress d (Compress d x)) (ent v i).
  Proof.
    intros Hv Hi. rewrite (ent_map k) by (try rewrite map_length; try apply Hv; exact Hi).
    rewrite (ent_map k) by (try apply Hv; exact Hi). apply map_map.
  Qed.

  Lemma key_s_vec d : vec k (key_s hs P d).
  Proof. apply noise_vec. Qed.
  Lemma key_e_vec d : vec k (key_e hs P d).
  Proof. apply noise_vec. Qed.
  Lemma enc_y_vec r : vec k (enc_y hs P r).
  Proof. apply noise_vec. Qed.
  Lemma enc_e1_vec r : vec k (enc_e1 hs P r).
  Proof. apply noise_vec. Qed.

  (** the ring identity *)
  Lemma message_plus_noise A d m r :
    psub (map (fun x => Decompress (dv P) (Compress (dv P) x)) (enc_v hs P A d m r))
         (inner k (key_s hs P d)
            (map (map (Decompress (du P))) (map (map (Compress (du P))) (enc_u hs P A r)))) =
    padd (enc_mu m) (decryption_noise hs P A d m r).
  Proof.
    apply poly_ext; [apply psub_poly|apply padd_poly|]. intros c Hc.
    rewrite co_psub, co_padd by exact Hc. apply eqq_mod.
    rewrite (co_rounding (dv P)) by (try exact Hc; apply padd_poly).
    unfold decryption_noise. fold k. rewrite co_psub by exact Hc. rewrite mod_eqq.
    rewrite !co_padd by exact Hc. rewrite !mod_eqq.
    set (cv := co (rounding (dv P) (enc_v hs P A d m r)) c).
    unfold enc_v. fold k. rewrite !co_padd by exact Hc. rewrite !mod_eqq.
    rewrite (inner_add_l k (key_t hs P A d) (rmatvec k A (key_s hs P d)) (key_e hs P d)).
    2: exact Hc.
    2: { intros i a Hi Ha. unfold key_t. fold k. unfold vadd. rewrite ent_tab by exact Hi.
         rewrite co_padd by exact Ha. apply mod_eqq. }
    rewrite inner_transposed by exact Hc.
    rewrite (inner_add_r k (key_s hs P d)
      (map (map (Decompress (du P))) (map (map (Compress (du P))) (enc_u hs P A r)))
      (rmatvec k (transposed k A) (enc_y hs P r))
      (vadd k (enc_e1 hs P r) (map (rounding (du P)) (enc_u hs P A r)))).
    2: exact Hc.
    2: { intros i a Hi Ha.
         assert (Hu : vec k (enc_u hs P A r)) by apply vadd_vec.
         rewrite map_map_ent by assumption.
         rewrite co_rounding by (try exact Ha; eapply vec_ent; eassumption).
         unfold vadd. rewrite ent_tab by exact Hi. rewrite co_padd by exact Ha. rewrite mod_eqq.
         rewrite (ent_map k) by (try apply Hu; exact Hi).
         unfold enc_u at 1. fold k. unfold vadd. rewrite ent_tab by exact Hi. rewrite co_padd by exact Ha.
         rewrite mod_eqq. apply eqq_of_eq. symmetry. apply Z.add_assoc. }
    apply eqq_of_eq.
    generalize (co (inner k (key_s hs P d) (rmatvec k (transposed k A) (enc_y hs P r))) c).
    generalize (co (inner k (key_e hs P d) (enc_y hs P r)) c).
    generalize (co (inner k (key_s hs P d) (vadd k (enc_e1 hs P r) (map (rounding (du P)) (enc_u hs P A r)))) c).
    generalize (co (enc_mu m) c), (co (enc_e2 hs P r) c). intros. lia.
  Qed.

  Theorem decrypt_encrypt n d Ah : bytes d ->
    A_hat hs P n (key_rho hs P d) = Some Ah ->
    exists ek dk, KPKE_KeyGen hs P n d = Some (ek, dk) /\ forall m r,
      KPKE_Encrypt hs P n ek m r = Some (enc_ct hs P (map (map NTTinv) Ah) d m r) /\
      KPKE_Decrypt P dk (enc_ct hs P (map (map NTTinv) Ah) d m r) =
        ByteEncode 1 (map (Compress 1) (padd (enc_mu m) (decryption_noise hs P (map (map NTTinv) Ah) d m r))).
  Proof.
    intros Hd EA.
    assert (Hb : bytes (d ++ [Z.of_nat k])).
    { apply bytes_app; [exact Hd|]. apply bytes_cons; [|apply bytes_nil].
      pose proof (k_range P HP). unfold is_byte, k. lia. }
    destruct (G_bytes hs Hhs _ Hb) as [Hrho Hsig].
    pose proof (A_hat_mat hs Hhs P HP n _ Ah (proj2 Hrho) EA) as HA.
    set (A := map (map NTTinv) Ah).
    unfold KPKE_KeyGen. fold k. unfold key_rho in EA, Hrho. fold k in EA.
    pose proof (eq_refl (key_s hs P d)) as Es. unfold key_s at 1 in Es. fold k in Es.
    pose proof (eq_refl (key_e hs P d)) as Ee. unfold key_e at 1 in Ee. fold k in Ee.
    destruct (FIPS203.G hs (d ++ [Z.of_nat k])) as [rho sigma]. cbn [fst snd] in *.
    rewrite EA. rewrite Es, Ee.
    assert (Et : vadd k (matvec k Ah (map NTT (key_s hs P d))) (map NTT (key_e hs P d)) =
                 map NTT (key_t hs P A d)).
    { unfold key_t. fold k. unfold vadd, matvec, rmatvec. rewrite map_tab. apply tab_ext. intros i Hi.
      rewrite !ent_tab by exact Hi. rewrite NTT_padd.
      rewrite (ent_map k) by (try apply key_e_vec; exact Hi). f_equal.
      unfold A. rewrite (nth_indep (map (map NTTinv) Ah) [] (map NTTinv []))
        by (rewrite map_length; rewrite (proj1 HA); exact Hi).
      rewrite map_nth. rewrite <- NTTinv_dot by (try apply key_s_vec; apply mat_row; assumption).
      symmetry. apply NTT_NTTinv. apply dot_poly. }
    rewrite Et.
    assert (Vt : vec k (map NTT (key_t hs P A d)))
      by (apply vec_map; [apply vadd_vec|intros; apply NTT_poly]).
    do 2 eexists. split; [reflexivity|]. intros m r.
    assert (Vu : vec k (enc_u hs P A r)) by apply vadd_vec.
    assert (Vv : poly (enc_v hs P A d m r)) by apply padd_poly.
    split.
    { unfold KPKE_Encrypt. fold k.
    assert (Lt : length (encode_vec P 12 (map NTT (key_t hs P A d))) = (384 * k)%nat)
      by (apply encode_vec12_bytes).
    rewrite firstn_app_exact, skipn_app_exact by exact Lt. rewrite EA.
    rewrite decode_encode_vec by (try lia; apply Vt). 
    fold (enc_y hs P r). fold (enc_mu m).
    rewrite NTTinv_matvec by (try apply enc_y_vec; apply transposed_mat; exact HA).
    rewrite <- transposed_map by exact HA. fold A.
    change (noise hs P (eta2 P) r k) with (enc_e1 hs P r).
    change (SamplePolyCBD (eta2 P) (PRF hs (eta2 P) r (2 * k))) with (enc_e2 hs P r).
    rewrite NTTinv_dot by (try apply enc_y_vec; exact Vt).
    rewrite (map_NTTinv_NTT k) by apply vadd_vec.
    change (vadd k (rmatvec k (transposed k A) (enc_y hs P r)) (enc_e1 hs P r)) with (enc_u hs P A r).
    change (padd (padd (inner k (key_t hs P A d) (enc_y hs P r)) (enc_e2 hs P r)) (enc_mu m))
      with (enc_v hs P A d m r).
    reflexivity. }
    unfold KPKE_Decrypt, enc_ct. fold k.
    assert (Lu : length (encode_vec P (du P) (map (map (Compress (du P))) (enc_u hs P A r))) = (32 * du P * k)%nat).
    { rewrite encode_vec_concat. apply concat_map_tab_const. intros i Hi. unfold ByteEncode, BitsToBytes. apply tab_length. }
    rewrite firstn_app_exact, skipn_app_exact by exact Lu.
    rewrite (decode_encode_vec P (du P)).
    2: lia.
    2: rewrite map_length; apply Vu.
    2: { apply Forall_forall. intros p (p' & <- & Hp)%in_map_iff. apply Compress_canonical; [exact Hdu|].
         eapply vec_in; eassumption. }
    rewrite (ByteDecode_ByteEncode (dv P)).
    2: lia.
    2: apply Compress_canonical; [exact Hdv|apply Vv].
    assert (Vs : vec k (map NTT (key_s hs P d)))
      by (apply vec_map; [apply key_s_vec|intros; apply NTT_poly]).
    rewrite decode_encode_vec by (try lia; apply Vs).
    rewrite map_map.
    assert (Vu' : vec k (map (map (Decompress (du P))) (map (map (Compress (du P))) (enc_u hs P A r)))).
    { split; [rewrite !map_length; apply Vu|]. apply Forall_forall. intros p (p' & <- & Hp)%in_map_iff.
      apply in_map_iff in Hp. destruct Hp as (p'' & <- & Hp).
      apply Decompress_poly; [lia| |lia]. apply Compress_small. exact (proj1 (vec_in k _ _ Vu Hp)). }
    rewrite NTTinv_dot by assumption.
    rewrite (map_NTTinv_NTT k) by apply key_s_vec.
    rewrite message_plus_noise. reflexivity.
  Qed.
End Decryption.

(** C53, C54: the ml-kem code as sequences of machine operations.

    C54: the code computes the same, and shows an observer the same, whether it is built
    with overflow checks or without.  C53: what an observer of branches, memory addresses,
    divisions, loop counts and hash input lengths sees does not depend on secrets, except
    at two places in the code; and those two do depend on them. *)
From Coq Require Import List ZArith Lia Bool Arith.
From Verif.Base Require Import Res Oracles.
From Verif.Spec Require Import FIPS203 Domains Ops.
From Verif.Model Require Import Machine Param Algebra Pke Kem Crypto Ops.
From Verif.Proofs Require Import Basics VecEncode SampleProofs PkeProofs KemProofs OpsProofs ObliviousProofs RevealProofs.
From Verif.Tests Require Import Toy.
From Verif.Properties Require Import Kem KemCases Budget.
Import ListNotations.
Open Scope Z_scope.

Section Operations.
  Variable hs : hashes.
  Hypothesis Hhs : hash_ok hs.
  Variable P : params.
  Hypothesis HP : wf_params P.

  Lemma safe_not_panic {A} (p : prog A) r : agrees p r -> safe r ->
    result Checked p = r /\ exec Release p = exec Checked p.
  Proof. intros E [N _]. split; [exact E|]. apply exec_release_not. rewrite E. exact N. Qed.

  (** ** C54: the operations are those of the functional model, and the build mode is
      invisible: same outcome, same observations. *)
  Theorem C54_generate n d z : byte_string 32 d -> byte_string 32 z ->
    let p := o_decaps_key_generate_deterministic hs P n d z in
    result Checked p = decaps_key_generate_deterministic hs P n d z /\ exec Release p = exec Checked p.
  Proof.
    intros Hd Hz. apply safe_not_panic; [apply agrees_generate|].
    pose proof (C07_generate_deterministic hs Hhs P HP n d z Hd Hz) as S. unfold kem_generate_deterministic in S.
    destruct (decaps_key_generate_deterministic hs P n d z) as [x| | |]; cbn [bind] in S; destruct S as [S1 S2];
      split; intros X; first [discriminate X|apply S1; reflexivity|apply S2; reflexivity].
  Qed.
  Theorem C54_encapsulate n ek m : reachable_ek hs P ek -> byte_string 32 m ->
    let p := o_encapsulate_deterministic hs P n ek m in
    result Checked p = encapsulate_deterministic hs P n ek m /\ exec Release p = exec Checked p.
  Proof.
    intros He Hm. apply safe_not_panic; [apply agrees_encapsulate|].
    exact (C07_encapsulate_deterministic hs Hhs P HP n ek m He Hm).
  Qed.
  Theorem C54_decapsulate n dk c : reachable_dk hs P dk -> byte_string (ct_len P) c ->
    let p := o_decapsulate hs P n dk c in
    result Checked p = decapsulate hs P n dk c /\ exec Release p = exec Checked p.
  Proof.
    intros Hdk Hc. apply safe_not_panic; [apply agrees_decapsulate|].
    exact (C07_decapsulate hs Hhs P HP n dk c Hdk Hc).
  Qed.
  Theorem C54_decaps_key_from_bytes b : byte_string (dk_len P) b ->
    let p := o_decaps_key_from_bytes P b in
    result Checked p = decaps_key_from_bytes P b /\ exec Release p = exec Checked p.
  Proof.
    intros Hb. apply safe_not_panic; [apply agrees_decaps_key_from_bytes|].
    destruct (proj2 (C07_from_bytes hs P HP) b Hb) as [x ->]. split; discriminate.
  Qed.
  Theorem C54_encaps_key_from_bytes b : byte_string (ek_len P) b ->
    let p := o_encaps_key_from_bytes hs P b in
    result Checked p = encaps_key_from_bytes hs P b /\ exec Release p = exec Checked p.
  Proof.
    intros Hb. apply safe_not_panic; [apply agrees_encaps_key_from_bytes|].
    destruct (proj1 (C07_from_bytes hs P HP) b Hb) as [x ->]. split; discriminate.
  Qed.
  Theorem C54_decaps_key_as_bytes dk : reachable_dk hs P dk ->
    let p := o_decaps_key_as_bytes P dk in
    result Checked p = decaps_key_as_bytes P dk /\ exec Release p = exec Checked p.
  Proof.
    intros Hdk. apply safe_not_panic; [apply agrees_decaps_key_as_bytes|].
    destruct (proj2 (C07_as_bytes hs Hhs P HP) dk Hdk) as [x ->]. split; discriminate.
  Qed.
  Theorem C54_encaps_key_as_bytes ek : reachable_ek hs P ek ->
    let p := o_ek_as_bytes P (ek_pke ek) in
    result Checked p = encaps_key_as_bytes P ek /\ exec Release p = exec Checked p.
  Proof.
    intros Hek. apply safe_not_panic; [apply agrees_ek_as_bytes|].
    destruct (proj1 (C07_as_bytes hs Hhs P HP) ek Hek) as [x ->].
    split; discriminate.
  Qed.

  (** ** C53 *)
  Lemma vec_alike k (v v' : list (list Z)) : vec k v -> vec k v' -> alike v v'.
  Proof.
    intros [L H] [L' H']. rewrite <- L' in L. clear L'. revert v' L H'.
    induction H as [|p v Hp H IH]; intros [|p' v'] L H'; try discriminate L; constructor.
    - inversion H'; subst. red. transitivity 256%nat; [apply Hp|symmetry]. match goal with X : poly p' |- _ => apply X end.
    - apply IH; [cbn [length] in L; lia|]. inversion H'; assumption.
  Qed.
  Lemma byte_string_like n (a b : list Z) : byte_string n a -> byte_string n b -> like a b.
  Proof. intros [A _] [B _]. red. rewrite A, B. reflexivity. Qed.

  (** both runs finish within the budget, or neither does *)
  Definition expands n rho := exists A, FIPS203.A_hat hs P n rho = Some A.
  Lemma ekey_rho ek : valid_encaps_key P ek -> skipn (384 * pk P) (ekey_bytes P ek) = rho (ek_pke ek).
  Proof.
    intros V. unfold ekey_bytes, ek_bytes. apply skipn_app_exact. apply encode_vec12_bytes.
  Qed.
  Lemma encapsulate_expands n ek m : valid_encaps_key P ek -> byte_string 32 m ->
    (exists x, encapsulate_deterministic hs P n ek m = Ok x) <-> expands n (rho (ek_pke ek)).
  Proof.
    intros V Hm. rewrite (encapsulate_deterministic_ok hs Hhs P HP) by assumption.
    unfold Encaps_with, KPKE_Encrypt, expands. rewrite (ekey_rho ek V).
    destruct (FIPS203.G hs (m ++ ek_h ek)) as [K r].
    destruct (FIPS203.A_hat hs P n (rho (ek_pke ek))) as [A|]; split; intros [x E]; try discriminate;
      eexists; reflexivity.
  Qed.
  Lemma decapsulate_expands n dk c : valid_decaps_key P dk -> byte_string (ct_len P) c ->
    (exists K, decapsulate hs P n dk c = Ok K) <-> expands n (rho (ek_pke (dk_ek dk))).
  Proof.
    intros V Hc. rewrite (decapsulate_ok hs Hhs P HP) by assumption.
    destruct (dkey_sections P dk V) as (S1 & S2 & S3 & S4).
    unfold Decaps_internal, KPKE_Encrypt, expands. rewrite S1, S2, S3, S4. rewrite (ekey_rho _ (proj1 (proj2 V))).
    destruct (FIPS203.G hs _) as [K r].
    destruct (FIPS203.A_hat hs P n (rho (ek_pke (dk_ek dk)))) as [A|]; split; intros [x E]; try discriminate.
    - eexists; reflexivity.
    - match goal with |- context [list_eq_dec Z.eq_dec ?a ?b] => destruct (list_eq_dec Z.eq_dec a b) end; eexists; reflexivity.
  Qed.

  Lemma generate_expands n d z : byte_string 32 d -> byte_string 32 z ->
    (exists k, decaps_key_generate_deterministic hs P n d z = Ok k) <->
    expands n (fst (FIPS203.G hs (d ++ [Z.of_nat (pk P)]))).
  Proof.
    intros H0 Hz0. pose proof (generate_ok hs Hhs P HP n d z (proj2 H0) Hz0) as W.
    unfold kem_generate_deterministic in W. unfold KeyGen_internal, KPKE_KeyGen in W. unfold expands.
    destruct (FIPS203.G hs (d ++ [Z.of_nat (pk P)])) as [r s]. cbn [fst].
    destruct (FIPS203.A_hat hs P n r) as [A|].
    - destruct W as (k & W & _). destruct (decaps_key_generate_deterministic hs P n d z) as [y| | |];
        cbn [bind] in W; try discriminate W. split; intros _; eexists; reflexivity.
    - destruct (decaps_key_generate_deterministic hs P n d z) as [y| | |]; cbn [bind] in W; try discriminate W;
        split; intros [? F]; discriminate F.
  Qed.

End Operations.

Lemma SampleNTT_ext n B B' : (forall t, B t = B' t) -> SampleNTT n B = SampleNTT n B'.
Proof.
  intros H. unfold SampleNTT. rewrite (flat_map_ext (candidates B) (candidates B')); [reflexivity|].
  intros i. unfold candidates. rewrite !H. reflexivity.
Qed.
Lemma A_hat_expansion hs hs' P n rho rho' : same_expansion (pk P) hs hs' rho rho' ->
  FIPS203.A_hat hs P n rho = FIPS203.A_hat hs' P n rho'.
Proof.
  intros H. unfold FIPS203.A_hat. f_equal. apply tab_ext. intros i Hi. f_equal. apply tab_ext. intros j Hj.
  apply SampleNTT_ext. intros t. apply H; assumption.
Qed.
Lemma expands_expansion hs hs' P n n' rho rho' : same_expansion (pk P) hs hs' rho rho' -> (n <= n')%nat ->
  expands hs P n rho -> expands hs' P n' rho'.
Proof.
  intros H Hn [A E]. exists A. rewrite <- (A_hat_expansion hs hs' P n' rho rho' H). exact (A_hat_mono hs P n n' rho A E Hn).
Qed.
(** the trace does not depend on the build mode *)
Lemma trace_build {A} (p : prog A) m : exec Release p = exec Checked p -> trace m p = trace Checked p.
Proof. intros E. destruct m; [reflexivity|]. unfold trace. rewrite E. reflexivity. Qed.

(** Two executions, with hash functions [hs] and [hs'] that may answer every query differently except
    those that expand the public matrix. *)
Section Observations.
  Variables hs hs' : hashes.
  Hypothesis Hhs : hash_ok hs.
  Hypothesis Hhs' : hash_ok hs'.
  Variable P : params.
  Hypothesis HP : wf_params P.
  (** compression factors of 12 bits would be parsed with a division *)
  Hypothesis Hdu : (du P < 12)%nat.
  Hypothesis Hdv : (dv P < 12)%nat.

  (** Decapsulation: any two keys with the same public matrix, any two ciphertexts. *)
  Theorem C53_decapsulate b b' n n' dk dk' c c' K : reachable_dk hs P dk -> reachable_dk hs' P dk' ->
    same_expansion (pk P) hs hs' (rho (ek_pke (dk_ek dk))) (rho (ek_pke (dk_ek dk'))) ->
    byte_string (ct_len P) c -> byte_string (ct_len P) c' ->
    decapsulate hs P n dk c = Ok K -> (n <= n')%nat ->
    (exists K', decapsulate hs' P n' dk' c' = Ok K') /\
    outside_sites (trace b (o_decapsulate hs P n dk c)) = outside_sites (trace b' (o_decapsulate hs' P n' dk' c')).
  Proof.
    intros Hdk Hdk' HE Hc Hc' E Hn.
    pose proof (reachable_dk_valid hs Hhs P HP dk Hdk) as V. pose proof (reachable_dk_valid hs' Hhs' P HP dk' Hdk') as V'.
    destruct (proj2 (decapsulate_expands hs' Hhs' P HP n' dk' c' V' Hc')) as [K' E'].
    { apply (expands_expansion _ _ _ n n' _ _ HE Hn). apply (decapsulate_expands hs Hhs P HP n dk c V Hc). exists K. exact E. }
    split; [exists K'; exact E'|].
    destruct (C54_decapsulate hs Hhs P HP n dk c Hdk Hc) as [R X].
    destruct (C54_decapsulate hs' Hhs' P HP n' dk' c' Hdk' Hc') as [R' X'].
    rewrite (trace_build _ b X), (trace_build _ b' X'). rewrite E in R. rewrite E' in R'.
    destruct V as (W1 & ((W2 & W3) & W4) & W5). destruct V' as (W1' & ((W2' & W3') & W4') & W5').
    apply (obl_decapsulate hs hs' P HP ltac:(lia) ltac:(lia) n n' dk dk' c c' HE) with (v := K) (v' := K');
      [eapply byte_string_like; eassumption|eapply vec_alike; eassumption|eapply vec_alike; eassumption|
       eapply byte_string_like; eassumption..|exact R|exact R'].
  Qed.

  (** Encapsulation: any two keys with the same matrix, any two messages. *)
  Theorem C53_encapsulate b b' n n' ek ek' m m' x : reachable_ek hs P ek -> reachable_ek hs' P ek' ->
    same_expansion (pk P) hs hs' (rho (ek_pke ek)) (rho (ek_pke ek')) -> byte_string 32 m -> byte_string 32 m' ->
    encapsulate_deterministic hs P n ek m = Ok x -> (n <= n')%nat ->
    (exists x', encapsulate_deterministic hs' P n' ek' m' = Ok x') /\
    outside_sites (trace b (o_encapsulate_deterministic hs P n ek m)) =
    outside_sites (trace b' (o_encapsulate_deterministic hs' P n' ek' m')).
  Proof.
    intros Hek Hek' HE Hm Hm' E Hn.
    pose proof (reachable_ek_valid hs Hhs P HP ek Hek) as V. pose proof (reachable_ek_valid hs' Hhs' P HP ek' Hek') as V'.
    destruct (proj2 (encapsulate_expands hs' Hhs' P HP n' ek' m' V' Hm')) as [x' E'].
    { apply (expands_expansion _ _ _ n n' _ _ HE Hn). apply (encapsulate_expands hs Hhs P HP n ek m V Hm). exists x. exact E. }
    split; [exists x'; exact E'|].
    destruct (C54_encapsulate hs Hhs P HP n ek m Hek Hm) as [R X].
    destruct (C54_encapsulate hs' Hhs' P HP n' ek' m' Hek' Hm') as [R' X'].
    rewrite (trace_build _ b X), (trace_build _ b' X'). rewrite E in R. rewrite E' in R'.
    destruct V as ((W2 & W3) & W4). destruct V' as ((W2' & W3') & W4').
    apply (obl_encapsulate hs hs' P HP n n' ek ek' m m' HE) with (v := x) (v' := x');
      [eapply byte_string_like; eassumption|eapply vec_alike; eassumption|eapply byte_string_like; eassumption..|exact R|exact R'].
  Qed.

  (** Key generation: any two seeds that lead to the same (public) matrix. *)
  Theorem C53_generate b b' n n' d d' z z' dk : byte_string 32 d -> byte_string 32 d' -> byte_string 32 z -> byte_string 32 z' ->
    same_expansion (pk P) hs hs' (fst (FIPS203.G hs (d ++ [Z.of_nat (pk P)]))) (fst (FIPS203.G hs' (d' ++ [Z.of_nat (pk P)]))) ->
    decaps_key_generate_deterministic hs P n d z = Ok dk -> (n <= n')%nat ->
    (exists dk', decaps_key_generate_deterministic hs' P n' d' z' = Ok dk') /\
    outside_sites (trace b (o_decaps_key_generate_deterministic hs P n d z)) =
    outside_sites (trace b' (o_decaps_key_generate_deterministic hs' P n' d' z')).
  Proof.
    intros Hd Hd' Hz Hz' HE E Hn.
    destruct (proj2 (generate_expands hs' Hhs' P HP n' d' z' Hd' Hz')) as [dk' E'].
    { apply (expands_expansion _ _ _ n n' _ _ HE Hn). apply (generate_expands hs Hhs P HP n d z Hd Hz). exists dk. exact E. }
    split; [exists dk'; exact E'|].
    destruct (C54_generate hs Hhs P HP n d z Hd Hz) as [R X].
    destruct (C54_generate hs' Hhs' P HP n' d' z' Hd' Hz') as [R' X'].
    rewrite (trace_build _ b X), (trace_build _ b' X'). rewrite E in R. rewrite E' in R'.
    apply (obl_generate hs hs' P HP n n' d d' z z') with (v := dk) (v' := dk');
      [eapply byte_string_like; eassumption|exact HE|exact R|exact R'].
  Qed.

  (** Serialising a decapsulation key: any two keys. *)
  Theorem C53_as_bytes b b' dk dk' : reachable_dk hs P dk -> reachable_dk hs' P dk' ->
    outside_sites (trace b (o_decaps_key_as_bytes P dk)) = outside_sites (trace b' (o_decaps_key_as_bytes P dk')).
  Proof.
    intros Hdk Hdk'.
    pose proof (reachable_dk_valid hs Hhs P HP dk Hdk) as V. pose proof (reachable_dk_valid hs' Hhs' P HP dk' Hdk') as V'.
    destruct (C54_decaps_key_as_bytes hs Hhs P HP dk Hdk) as [R X].
    destruct (C54_decaps_key_as_bytes hs' Hhs' P HP dk' Hdk') as [R' X'].
    rewrite (trace_build _ b X), (trace_build _ b' X'). destruct (proj2 (C07_as_bytes hs Hhs P HP) dk Hdk) as [y Ey].
    destruct (proj2 (C07_as_bytes hs' Hhs' P HP) dk' Hdk') as [y' Ey']. rewrite Ey in R. rewrite Ey' in R'.
    destruct V as (W1 & ((W2 & W3) & W4) & W5). destruct V' as (W1' & ((W2' & W3') & W4') & W5').
    apply (obl_dk_as_bytes P dk dk') with (v := y) (v' := y');
      [eapply vec_alike; eassumption|eapply vec_alike; eassumption|eapply byte_string_like; eassumption|exact R|exact R'].
  Qed.
End Observations.

(** ** The two places do reveal secrets *)

(** [small_reduce] branches on whether its argument is below q, so an addition of field
    elements shows whether it wraps around. *)
Theorem C53_branch_reveals b x y x' y' : 0 <= x < q -> 0 <= y < q -> 0 <= x' < q -> 0 <= y' < q ->
  (trace b (o_fe_add x y) = trace b (o_fe_add x' y') <-> (x + y < q <-> x' + y' < q)).
Proof.
  unfold q. intros Hx Hy Hx' Hy'.
  assert (T : forall u v, 0 <= u < 3329 -> 0 <= v < 3329 -> trace b (o_fe_add u v) = [Branched SmallReduce (u + v <? 3329)]).
  { intros u v Hu Hv. unfold o_fe_add, o_add.
    assert (E : result b (act (Arith Plus (bits_of W16) u v)) = Ok (u + v)).
    { rewrite result_act. destruct b; cbn [perform].
      - assert (fits Plus (bits_of W16) u v = true) as -> by
          (cbn [fits exact bits_of]; apply andb_true_intro; split; [apply Z.leb_le|apply Z.ltb_lt]; lia). reflexivity.
      - cbn [wrapped exact bits_of]. rewrite Z.mod_small by lia. reflexivity. }
    rewrite (trace_bind _ _ _ _ E), trace_act. cbn [see app].
    unfold o_small_reduce. rewrite (trace_bind _ _ _ (u + v <? Q)) by (rewrite result_act; reflexivity).
    rewrite trace_act. cbn [see]. change Q with 3329.
    destruct (u + v <? 3329); [reflexivity|]. unfold o_sub. rewrite trace_act. reflexivity. }
  rewrite !T by assumption.
  destruct (Z.ltb_spec (x + y) 3329); destruct (Z.ltb_spec (x' + y') 3329); split; intros E;
    try reflexivity; try (split; lia); try discriminate E; exfalso; destruct E as [E1 E2];
    (apply E1 in H || apply E2 in H0); lia.
Qed.

(** The addresses of the table lookups in [sample_poly_cbd] determine every byte of its
    input, the PRF output that becomes a secret or error polynomial. *)
Theorem C53_lookups_reveal eta B B' : (eta = 2 \/ eta = 3)%nat ->
  byte_string (64 * eta) B -> byte_string (64 * eta) B' ->
  trace Checked (o_poly_sample_cbd eta B) = trace Checked (o_poly_sample_cbd eta B') -> B = B'.
Proof.
  intros He HB HB' T. apply (sample_cbd_lookups eta B B' He HB HB'). rewrite T. reflexivity.
Qed.

(** So what an observer of key generation sees determines the secret vector. *)
Theorem C53_generate_reveals hs P n d d' z z' dk dk' : hash_ok hs -> wf_params P ->
  byte_string 32 d -> byte_string 32 d' ->
  decaps_key_generate_deterministic hs P n d z = Ok dk ->
  decaps_key_generate_deterministic hs P n d' z' = Ok dk' ->
  trace Checked (o_decaps_key_generate_deterministic hs P n d z) =
  trace Checked (o_decaps_key_generate_deterministic hs P n d' z') ->
  dk_pke dk = dk_pke dk'.
Proof.
  intros Hhs HP [_ Hd] [_ Hd'] E E' T.
  assert (Hk : forall x, bytes x -> bytes (x ++ [K_U8 P])).
  { intros x Hx. apply bytes_app; [exact Hx|]. apply bytes_cons; [|apply bytes_nil].
    destruct HP as [Hk _]. unfold K_U8, is_byte. lia. }
  refine (proj1 (tells_generate hs Hhs P HP n d d' z z' (Hk d Hd) (Hk d' Hd') dk dk' [] [] _ _ _)).
  - rewrite agrees_generate. exact E.
  - rewrite agrees_generate. exact E'.
  - rewrite T. reflexivity.
Qed.

(** ** Concrete cases *)

(** the build mode matters outside the proved range *)
Example C54_wraps : result Checked (o_fe_add 65535 1) = Panic /\ result Release (o_fe_add 65535 1) = Ok 0 /\
  result Checked (o_fe_add 3328 3328) = Ok 3327 /\ result Release (o_fe_add 3328 3328) = Ok 3327.
Proof. repeat split; reflexivity. Qed.

Example C53_branch_case : trace Release (o_fe_add 3328 1) <> trace Release (o_fe_add 3328 0).
Proof. vm_compute. discriminate. Qed.

(** parsing 12-bit fields divides: not covered by C53 *)
Example C53_division_case :
  trace Release (o_decode_chunk 12 4095 [0; 0] [1; 0; 0]) <> trace Release (o_decode_chunk 12 4095 [0; 0] [0; 0; 0]).
Proof. vm_compute. discriminate. Qed.

(** two keys with the same public key and different secrets, and two ciphertexts *)
Definition with_secret (x : Z) (dkb : list Z) : list Z := repeat x 768 ++ skipn 768 dkb.
Example C53_case : exists dk dk' c c' K, hash_ok toy /\ wf_params ML_KEM_512 /\
  (du ML_KEM_512 < 12)%nat /\ (dv ML_KEM_512 < 12)%nat /\
  reachable_dk toy ML_KEM_512 dk /\ reachable_dk toy ML_KEM_512 dk' /\
  same_expansion 2 toy toy (rho (ek_pke (dk_ek dk))) (rho (ek_pke (dk_ek dk'))) /\
  nth 0 (nth 0 (s_hat (dk_pke dk)) []) 0 = 257 /\ nth 0 (nth 0 (s_hat (dk_pke dk')) []) 0 = 0 /\
  byte_string (ct_len ML_KEM_512) c /\ byte_string (ct_len ML_KEM_512) c' /\ c <> c' /\
  decapsulate toy ML_KEM_512 300 dk c = Ok K.
Proof.
  destruct kem_case as (dk & ek & c & K & K2 & Hhs & HP & Hg & Hdk & Hek & He & Hc & Hd & Hc2 & Hd2 & EJ & N).
  pose proof (reachable_dk_valid toy Hhs ML_KEM_512 HP dk Hdk) as V.
  pose proof (dkey_parse_bytes ML_KEM_512 dk V) as EP. pose proof (dkey_bytes_ok ML_KEM_512 dk V) as HB.
  set (dkb := dkey_bytes ML_KEM_512 dk) in *.
  assert (L : length dkb = 1632%nat) by apply HB.
  assert (W : forall x, 0 <= x < 256 -> byte_string 1632 (with_secret x dkb)).
  { intros x Hx. split.
    - unfold with_secret. rewrite app_length, repeat_length, skipn_length, L. reflexivity.
    - apply bytes_app; [apply Forall_forall; intros y Hy; apply repeat_spec in Hy; subst y; exact Hx|].
      apply bytes_skipn, HB. }
  assert (R : forall x, 0 <= x < 256 -> reachable_dk toy ML_KEM_512 (dkey_parse ML_KEM_512 (with_secret x dkb))).
  { intros x Hx. eapply dk_parsed; [exact (W x Hx)|]. apply (decaps_key_from_bytes_ok ML_KEM_512 HP). exact (W x Hx). }
  assert (SK : forall x, skipn (384 * 2) (with_secret x dkb) = skipn (384 * 2) dkb).
  { intros x. unfold with_secret. apply skipn_app_exact. apply repeat_length. }
  assert (ER : forall x, rho (ek_pke (dk_ek (dkey_parse ML_KEM_512 (with_secret x dkb)))) = rho (ek_pke (dk_ek dk))).
  { intros x. rewrite <- EP at 1. unfold dkey_parse. cbn [dk_ek ek_pke]. unfold ek_parse. cbn [rho].
    change (pk ML_KEM_512) with 2%nat. rewrite (SK x). reflexivity. }
  assert (SH : forall x, nth 0 (nth 0 (s_hat (dk_pke (dkey_parse ML_KEM_512 (with_secret x dkb)))) []) 0 =
                         nth 0 (ByteDecode 12 (repeat x 384)) 0).
  { intros x. unfold dkey_parse, dk_parse. cbn [dk_pke s_hat]. change (pk ML_KEM_512) with 2%nat.
    unfold with_secret. rewrite firstn_app_exact by apply repeat_length. reflexivity. }
  exists (dkey_parse ML_KEM_512 (with_secret 1 dkb)), (dkey_parse ML_KEM_512 (with_secret 0 dkb)), c, (flip_first c).
  destruct (proj2 (decapsulate_expands toy Hhs ML_KEM_512 HP 300 (dkey_parse ML_KEM_512 (with_secret 1 dkb)) c
            (reachable_dk_valid toy Hhs ML_KEM_512 HP _ (R 1 ltac:(lia))) Hc)) as [K1 E1].
  { rewrite ER. apply (decapsulate_expands toy Hhs ML_KEM_512 HP 300 dk c V Hc). exists K. exact Hd. }
  exists K1. split; [exact Hhs|]. split; [exact HP|]. split; [cbn; lia|]. split; [cbn; lia|].
  split; [apply R; lia|]. split; [apply R; lia|]. split; [rewrite !ER; intros i j t _ _; reflexivity|].
  split; [rewrite SH; vm_compute; reflexivity|]. split; [rewrite SH; vm_compute; reflexivity|].
  split; [exact Hc|]. split; [exact Hc2|]. split; [|exact E1].
  intros Ec. rewrite <- Ec in Hd2. rewrite Hd in Hd2. apply Ok_inj in Hd2. apply N. symmetry. exact Hd2.
Qed.

(** another hash function, which differs from the toy one in everything but the expansion of the
    matrix: constant PRF output, second half of G and H; the first half of G is [r] *)
Definition toy_rho (r : list Z) : hashes := {|
  sha3_256 := fun _ => repeat 9 32; sha3_512 := fun _ => r ++ repeat 7 32;
  shake128 := shake128 toy; shake256 := fun _ _ => 1 |}.
Lemma toy_rho_ok r : byte_string 32 r -> hash_ok (toy_rho r).
Proof.
  intros [Lr Br] m Hm. destruct (toy_ok m Hm) as (_ & _ & H3 & _).
  assert (RB : forall x n, is_byte x -> byte_string n (repeat x n)).
  { intros x n Hx. split; [apply repeat_length|]. apply Forall_forall. intros y Hy. apply repeat_spec in Hy. subst y. exact Hx. }
  split; [apply RB; unfold is_byte; lia|]. split; [|split; [exact H3|intros i; unfold is_byte; cbn; lia]].
  cbn [sha3_512 toy_rho]. split.
  - rewrite app_length, Lr, repeat_length. reflexivity.
  - apply bytes_app; [exact Br|]. apply (RB 7 32%nat). unfold is_byte. lia.
Qed.
Lemma toy_rho_G r m : length r = 32%nat -> fst (FIPS203.G (toy_rho r) m) = r.
Proof. intros L. unfold FIPS203.G. cbn [fst sha3_512 toy_rho]. apply firstn_app_exact. exact L. Qed.
Lemma toy_G_bytes m : bytes m -> byte_string 32 (fst (FIPS203.G toy m)).
Proof.
  intros B. destruct (toy_ok m B) as (_ & [L B'] & _). unfold FIPS203.G. cbn [fst].
  split; [rewrite firstn_length, L; reflexivity|apply bytes_firstn, B'].
Qed.
Lemma kem_generate_returns hs P n d z x : kem_generate_deterministic hs P n d z = Ok x ->
  exists k, decaps_key_generate_deterministic hs P n d z = Ok k.
Proof.
  unfold kem_generate_deterministic. destruct (decaps_key_generate_deterministic hs P n d z) as [y| | |]; cbn [bind];
    intros E; try discriminate E. exists y. reflexivity.
Qed.
Example C53_generate_case : let r := fst (FIPS203.G toy (seed 1 ++ [2])) in
  exists dk, hash_ok toy /\ hash_ok (toy_rho r) /\ wf_params ML_KEM_512 /\
  same_expansion 2 toy (toy_rho r) r (fst (FIPS203.G (toy_rho r) (seed 5 ++ [2]))) /\
  snd (FIPS203.G toy (seed 1 ++ [2])) <> snd (FIPS203.G (toy_rho r) (seed 5 ++ [2])) /\
  decaps_key_generate_deterministic toy ML_KEM_512 300 (seed 1) (seed 2) = Ok dk.
Proof.
  intros r. destruct kem_case as (dk & ek & c & K & K2 & Hhs & HP & Hg & _).
  destruct (kem_generate_returns _ _ _ _ _ _ Hg) as [k Ek].
  assert (B : byte_string 32 r).
  { apply toy_G_bytes. apply bytes_app; [apply seed_ok|]. apply bytes_cons; [unfold is_byte; lia|apply bytes_nil]. }
  exists k. split; [exact toy_ok|]. split; [exact (toy_rho_ok r B)|]. split; [exact HP|].
  split; [intros i j t _ _; rewrite (toy_rho_G r) by apply B; reflexivity|]. split; [vm_compute; discriminate|exact Ek].
Qed.

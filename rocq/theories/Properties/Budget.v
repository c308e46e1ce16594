(** C45: the budget of the rejection-sampling loops is a ghost.  A larger budget never
    changes a result, so "what the code returns" is well defined without it; and some
    budget suffices exactly when every XOF stream the operation reads holds 256 acceptable
    candidates. *)
From Coq Require Import List ZArith Lia Bool Arith.
From Verif.Base Require Import Res Oracles.
From Verif.Spec Require Import FIPS203 Domains.
From Verif.Model Require Import Machine Crypto Param Pke Kem.
From Verif.Proofs Require Import Basics SampleProofs PkeProofs KemProofs.
From Verif.Tests Require Import Toy.
From Verif.Properties Require Import Kem KemCases.
Import ListNotations.
Open Scope Z_scope.

(** the stream holds at least 256 candidates below q *)
Definition enough (B : nat -> Z) : Prop :=
  exists n, (256 <= length (flat_map (candidates B) (seq 0 n)))%nat.

Section Budget.
  Variable hs : hashes.
  Hypothesis Hhs : hash_ok hs.
  Variable P : params.
  Hypothesis HP : wf_params P.
  Let k := pk P.

  (** every XOF stream expanded from rho *)
  Definition enough_for (rho : list Z) : Prop :=
    forall i j, (i < k)%nat -> (j < k)%nat -> enough (shake128 hs (rho ++ [Z.of_nat j; Z.of_nat i])).

  Lemma A_hat_mono n m rho A : FIPS203.A_hat hs P n rho = Some A -> (n <= m)%nat -> FIPS203.A_hat hs P m rho = Some A.
  Proof.
    unfold FIPS203.A_hat. fold k. intros E Hm. destruct (all_some_tab _ _ _ _ E) as [L H].
    rewrite (all_some_intro _ k _ (fun i => nth i A [])).
    - f_equal. rewrite <- L. clear. induction A as [|x A IH]; [reflexivity|].
      cbn [length]. rewrite tab_cons. cbn [nth]. f_equal. exact IH.
    - intros i Hi. specialize (H i [] Hi). destruct (all_some_tab _ _ _ _ H) as [L' H'].
      rewrite (all_some_intro _ k _ (fun j => nth j (nth i A []) [])).
      + f_equal. rewrite <- L' at 1. generalize (nth i A []). intros l. clear.
        induction l as [|x l IH]; [reflexivity|]. cbn [length]. rewrite tab_cons. cbn [nth]. f_equal. exact IH.
      + intros j Hj. eapply SampleNTT_mono; [apply (H' j [] Hj)|exact Hm].
  Qed.

  Lemma A_hat_iff rho : (exists n A, FIPS203.A_hat hs P n rho = Some A) <-> enough_for rho.
  Proof.
    split.
    - intros (n & A & E) i j Hi Hj. unfold FIPS203.A_hat in E. fold k in E.
      destruct (all_some_tab _ _ _ _ E) as [_ H]. destruct (all_some_tab _ _ _ _ (H i [] Hi)) as [_ H'].
      specialize (H' j [] Hj). exists n. unfold SampleNTT in H'.
      destruct (Nat.leb_spec 256 (length (flat_map (candidates (shake128 hs (rho ++ [Z.of_nat j; Z.of_nat i]))) (seq 0 n)))) as [Le|Lt];
        [exact Le|discriminate].
    - intros H.
      assert (M : forall B n m, (n <= m)%nat -> (256 <= length (flat_map (candidates B) (seq 0 n)))%nat ->
                  (256 <= length (flat_map (candidates B) (seq 0 m)))%nat).
      { intros B n m Hm L. replace m with (n + (m - n))%nat by lia. rewrite seq_app, flat_map_app, app_length. lia. }
      assert (R : forall (f : nat -> nat -> nat -> Prop) a b,
                (forall i j n m, f i j n -> (n <= m)%nat -> f i j m) ->
                (forall i j, (i < a)%nat -> (j < b)%nat -> exists n, f i j n) ->
                exists n, forall i j, (i < a)%nat -> (j < b)%nat -> f i j n).
      { intros f a b Hf. assert (R1 : forall i b, (forall j, (j < b)%nat -> exists n, f i j n) -> exists n, forall j, (j < b)%nat -> f i j n).
        { intros i b'. induction b' as [|b' IH]; intros Hj; [exists 0%nat; intros; lia|].
          destruct IH as [n1 H1]; [intros j Hjb; apply Hj; lia|]. destruct (Hj b' ltac:(lia)) as [n2 H2].
          exists (Nat.max n1 n2). intros j Hjb. destruct (Nat.eq_dec j b') as [->|Nj].
          - eapply Hf; [exact H2|lia].
          - eapply Hf; [apply H1; lia|lia]. }
        induction a as [|a IH]; intros Hij; [exists 0%nat; intros; lia|].
        destruct IH as [n1 H1]; [intros i j Hi Hj; apply Hij; lia|].
        destruct (R1 a b) as [n2 H2]; [intros j Hj; apply Hij; lia|].
        exists (Nat.max n1 n2). intros i j Hi Hj. destruct (Nat.eq_dec i a) as [->|Ni].
        - eapply Hf; [apply H2; exact Hj|lia].
        - eapply Hf; [apply H1; [lia|exact Hj]|lia]. }
      destruct (R (fun i j n => (256 <= length (flat_map (candidates (shake128 hs (rho ++ [Z.of_nat j; Z.of_nat i]))) (seq 0 n)))%nat) k k) as [n Hn].
      + intros i j n m Hf Hm. eapply M; [exact Hm|exact Hf].
      + intros i j Hi Hj. exact (H i j Hi Hj).
      + exists n. unfold FIPS203.A_hat. fold k.
        destruct (all_some (tab k (fun i => all_some (tab k (fun j =>
                    SampleNTT n (shake128 hs (rho ++ [Z.of_nat j; Z.of_nat i]))))))) as [A|] eqn:E; [exists A; reflexivity|].
        exfalso. apply all_some_none in E. destruct E as (i & Hi & E). apply all_some_none in E.
        destruct E as (j & Hj & E). specialize (Hn i j Hi Hj). unfold SampleNTT in E.
        destruct (Nat.leb_spec 256 (length (flat_map (candidates (shake128 hs (rho ++ [Z.of_nat j; Z.of_nat i]))) (seq 0 n)))) as [Le|Lt];
          [discriminate|lia].
  Qed.

  Lemma KeyGen_mono n m d z x : KeyGen_internal hs P n d z = Some x -> (n <= m)%nat -> KeyGen_internal hs P m d z = Some x.
  Proof.
    unfold KeyGen_internal, KPKE_KeyGen. destruct (FIPS203.G hs (d ++ [Z.of_nat (pk P)])) as [rho sigma]. intros E Hm.
    destruct (FIPS203.A_hat hs P n rho) as [A|] eqn:EA; [|discriminate]. rewrite (A_hat_mono _ _ _ _ EA Hm). exact E.
  Qed.
  Lemma Encrypt_mono n m ek msg r x : KPKE_Encrypt hs P n ek msg r = Some x -> (n <= m)%nat ->
    KPKE_Encrypt hs P m ek msg r = Some x.
  Proof.
    unfold KPKE_Encrypt. intros E Hm. destruct (FIPS203.A_hat hs P n _) as [A|] eqn:EA; [|discriminate].
    rewrite (A_hat_mono _ _ _ _ EA Hm). exact E.
  Qed.
  Lemma Encaps_mono n m ek h msg x : Encaps_with hs P n ek h msg = Some x -> (n <= m)%nat ->
    Encaps_with hs P m ek h msg = Some x.
  Proof.
    unfold Encaps_with. destruct (FIPS203.G hs (msg ++ h)) as [K r]. intros E Hm.
    destruct (KPKE_Encrypt hs P n ek msg r) as [c|] eqn:EE; [|discriminate].
    rewrite (Encrypt_mono _ _ _ _ _ _ EE Hm). exact E.
  Qed.
  Lemma Decaps_mono n m dk c x : Decaps_internal hs P n dk c = Some x -> (n <= m)%nat ->
    Decaps_internal hs P m dk c = Some x.
  Proof.
    unfold Decaps_internal. destruct (FIPS203.G hs _) as [K r]. intros E Hm.
    destruct (KPKE_Encrypt hs P n _ _ r) as [c'|] eqn:EE; [|discriminate].
    rewrite (Encrypt_mono _ _ _ _ _ _ EE Hm). exact E.
  Qed.

  Lemma valid_dk_inj a b : valid_decaps_key P a -> valid_decaps_key P b -> dkey_bytes P a = dkey_bytes P b -> a = b.
  Proof. intros Ha Hb E. rewrite <- (dkey_parse_bytes P a Ha), <- (dkey_parse_bytes P b Hb), E. reflexivity. Qed.

  Lemma lift_ok A (o : option A) x : lift o = Ok x -> o = Some x.
  Proof. destruct o; intros E; [apply Ok_inj in E; subst; reflexivity|discriminate]. Qed.

  (** ** A larger budget never changes a result *)
  Theorem C45_generate n m d z x : byte_string 32 d -> byte_string 32 z ->
    kem_generate_deterministic hs P n d z = Ok x -> (n <= m)%nat ->
    kem_generate_deterministic hs P m d z = Ok x.
  Proof.
    intros Hd Hz E Hm. pose proof (generate_ok hs Hhs P HP n d z (proj2 Hd) Hz) as W.
    pose proof (generate_ok hs Hhs P HP m d z (proj2 Hd) Hz) as W'.
    destruct (KeyGen_internal hs P n d z) as [[ekb dkb]|] eqn:EK; [|congruence].
    rewrite (KeyGen_mono _ _ _ _ _ EK Hm) in W'.
    destruct W as (dk & W1 & V & W2 & _). destruct W' as (dk' & W1' & V' & W2' & _).
    rewrite W1 in E. rewrite W1'. rewrite <- E. rewrite (valid_dk_inj dk dk' V V'); [reflexivity|congruence].
  Qed.

  Theorem C45_encapsulate n m ek msg x : reachable_ek hs P ek -> byte_string 32 msg ->
    encapsulate_deterministic hs P n ek msg = Ok x -> (n <= m)%nat ->
    encapsulate_deterministic hs P m ek msg = Ok x.
  Proof.
    intros Hek Hmsg E Hm. pose proof (reachable_ek_valid hs Hhs P HP ek Hek) as V.
    rewrite (encapsulate_deterministic_ok hs Hhs P HP) in E |- * by assumption.
    destruct (Encaps_with hs P n (ekey_bytes P ek) (ek_h ek) msg) as [y|] eqn:EE; [|discriminate].
    rewrite (Encaps_mono _ _ _ _ _ _ EE Hm). exact E.
  Qed.

  Theorem C45_decapsulate n m dk c x : reachable_dk hs P dk -> byte_string (ct_len P) c ->
    decapsulate hs P n dk c = Ok x -> (n <= m)%nat -> decapsulate hs P m dk c = Ok x.
  Proof.
    intros Hdk Hc E Hm. pose proof (reachable_dk_valid hs Hhs P HP dk Hdk) as V.
    rewrite (decapsulate_ok hs Hhs P HP) in E |- * by assumption. apply lift_ok in E.
    rewrite (Decaps_mono _ _ _ _ _ E Hm). reflexivity.
  Qed.

  (** ** Some budget suffices iff the streams hold enough candidates *)
  Theorem C45_generate_terminates d z : byte_string 32 d -> byte_string 32 z ->
    (exists n x, kem_generate_deterministic hs P n d z = Ok x) <->
    enough_for (fst (FIPS203.G hs (d ++ [Z.of_nat k]))).
  Proof.
    intros Hd Hz. rewrite <- A_hat_iff. split; intros (n & x & E); exists n;
      pose proof (generate_ok hs Hhs P HP n d z (proj2 Hd) Hz) as W;
      unfold KeyGen_internal, KPKE_KeyGen in W; fold k in W;
      destruct (FIPS203.G hs (d ++ [Z.of_nat k])) as [rho sigma]; cbn [fst] in *.
    - destruct (FIPS203.A_hat hs P n rho) as [A|]; [exists A; reflexivity|]. rewrite W in E. discriminate.
    - rewrite E in W. destruct W as (dk & W & _). rewrite W. eexists. reflexivity.
  Qed.

  Theorem C45_encapsulate_terminates ek ekb msg : reachable_ek hs P ek -> byte_string 32 msg ->
    encaps_key_as_bytes P ek = Ok ekb ->
    (exists n x, encapsulate_deterministic hs P n ek msg = Ok x) <-> enough_for (skipn (384 * k) ekb).
  Proof.
    intros Hek Hmsg Eb. pose proof (reachable_ek_valid hs Hhs P HP ek Hek) as V.
    rewrite encaps_key_as_bytes_ok in Eb by exact V. apply Ok_inj in Eb. subst ekb.
    rewrite <- A_hat_iff. split; intros (n & x & E); exists n.
    - rewrite (encapsulate_deterministic_ok hs Hhs P HP) in E by assumption.
      unfold Encaps_with, KPKE_Encrypt in E. fold k in E. destruct (FIPS203.G hs (msg ++ ek_h ek)) as [K r].
      destruct (FIPS203.A_hat hs P n _) as [A|]; [exists A; reflexivity|]. discriminate.
    - rewrite (encapsulate_deterministic_ok hs Hhs P HP) by assumption.
      unfold Encaps_with, KPKE_Encrypt. fold k. destruct (FIPS203.G hs (msg ++ ek_h ek)) as [K r].
      rewrite E. eexists. reflexivity.
  Qed.

  Theorem C45_decapsulate_terminates dk dkb c : reachable_dk hs P dk -> byte_string (ct_len P) c ->
    decaps_key_as_bytes P dk = Ok dkb ->
    (exists n K, decapsulate hs P n dk c = Ok K) <-> enough_for (skipn (384 * k) (dk_sec_ek P dkb)).
  Proof.
    intros Hdk Hc Eb. pose proof (reachable_dk_valid hs Hhs P HP dk Hdk) as V.
    rewrite decaps_key_as_bytes_ok in Eb by exact V. apply Ok_inj in Eb. subst dkb.
    rewrite <- A_hat_iff. unfold dk_sec_ek. fold k. split; intros (n & x & E); exists n.
    - rewrite (decapsulate_ok hs Hhs P HP) in E by assumption.
      unfold Decaps_internal, KPKE_Encrypt in E. fold k in E. destruct (FIPS203.G hs _) as [K r].
      destruct (FIPS203.A_hat hs P n _) as [A|]; [exists A; reflexivity|]. discriminate.
    - rewrite (decapsulate_ok hs Hhs P HP) by assumption.
      unfold Decaps_internal, KPKE_Encrypt. fold k. destruct (FIPS203.G hs _) as [K r].
      rewrite E.
      match goal with |- context [list_eq_dec Z.eq_dec ?a ?b] => destruct (list_eq_dec Z.eq_dec a b) end; eexists; reflexivity.
  Qed.

  (** a key that was generated can be used: the matrix is expanded from the same rho *)
  Theorem C45_generated_keys_work n d z dk ek : byte_string 32 d -> byte_string 32 z ->
    kem_generate_deterministic hs P n d z = Ok (dk, ek) ->
    (forall msg, byte_string 32 msg -> exists x, encapsulate_deterministic hs P n ek msg = Ok x) /\
    (forall c, byte_string (ct_len P) c -> exists K, decapsulate hs P n dk c = Ok K).
  Proof.
    intros Hd Hz E. pose proof (generate_ok hs Hhs P HP n d z (proj2 Hd) Hz) as W.
    unfold KeyGen_internal, KPKE_KeyGen in W. fold k in W.
    assert (Hb : bytes (d ++ [Z.of_nat k])).
    { apply bytes_app; [apply Hd|]. constructor; [|constructor]. pose proof (k_range P HP) as Hk. fold k in Hk. unfold is_byte. lia. }
    destruct (FIPS203.G hs (d ++ [Z.of_nat k])) as [rho sigma] eqn:EG.
    destruct (FIPS203.A_hat hs P n rho) as [A|] eqn:EA; [|congruence].
    destruct W as (dk' & W1 & V & _ & W3 & _). rewrite W1 in E. apply Ok_inj in E.
    pose proof (f_equal fst E) as Q1. pose proof (f_equal snd E) as Q2. cbn [fst snd] in Q1, Q2. subst dk' ek.
    assert (ER : skipn (384 * k) (ekey_bytes P (dk_ek dk)) = rho).
    { rewrite W3. apply skipn_app_exact. apply encode_vec12_bytes. }
    clear EG.
    split.
    - intros msg Hmsg. rewrite (encapsulate_deterministic_ok hs Hhs P HP) by (try assumption; apply V).
      unfold Encaps_with, KPKE_Encrypt. fold k. destruct (FIPS203.G hs (msg ++ ek_h (dk_ek dk))) as [K r].
      rewrite ER, EA. eexists. reflexivity.
    - intros c Hc. rewrite (decapsulate_ok hs Hhs P HP) by assumption.
      destruct (dkey_sections P dk V) as (S1 & S2 & S3 & S4).
      unfold Decaps_internal, KPKE_Encrypt. rewrite S1, S2, S3, S4. fold k.
      destruct (FIPS203.G hs _) as [K r]. rewrite ER, EA.
      match goal with |- context [list_eq_dec Z.eq_dec ?a ?b] => destruct (list_eq_dec Z.eq_dec a b) end; eexists; reflexivity.
  Qed.
End Budget.

(** Concrete: the toy hash has enough candidates for the key of [kem_case], which the code
    samples within 300 groups; and a hash whose XOF outputs only 255 never has. *)
Example C45_case : exists d z x, byte_string 32 d /\ byte_string 32 z /\
  kem_generate_deterministic toy ML_KEM_512 300 d z = Ok x /\
  enough_for toy ML_KEM_512 (fst (FIPS203.G toy (d ++ [2]))).
Proof.
  destruct kem_case as (dk & ek & c & K & K2 & H1 & H2 & H3 & _).
  exists (seed 1), (seed 2), (dk, ek). split; [apply seed_ok|]. split; [apply seed_ok|]. split; [exact H3|].
  apply (C45_generate_terminates toy H1 ML_KEM_512 H2 (seed 1) (seed 2) (seed_ok 1) (seed_ok 2)).
  exists 300%nat, (dk, ek). exact H3.
Qed.
Example C45_never : ~ enough (fun _ => 255).
Proof.
  assert (E : forall n s, flat_map (candidates (fun _ => 255)) (seq s n) = []).
  { induction n as [|n IH]; intros s; [reflexivity|]. cbn [seq flat_map]. rewrite IH. reflexivity. }
  intros [n H]. rewrite E in H. cbn [length] in H. lia.
Qed.

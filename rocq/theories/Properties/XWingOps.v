(** C60, C61: the x-wing code as sequences of machine operations.

    C60: the operations compute what the functional model computes, and a build without
    overflow checks runs identically.  C61: what an observer of branches, addresses, loop
    counts and calls sees of key generation, encapsulation and decapsulation is determined
    by the XOF streams of the public matrix, apart from the two places named in C53; and
    through those two, what is seen determines the ML-KEM secret. *)
From Coq Require Import List ZArith Lia Bool Arith.
From Verif.Base Require Import Res Oracles.
From Verif.Spec Require Import FIPS203 Domains Ops XWing.
From Verif.Model Require Import Machine Param Algebra Pke Kem Crypto XWing Ops XWingOps.
From Verif.Proofs Require Import Basics VecEncode SampleProofs PkeProofs KemProofs XWingProofs OpsProofs ObliviousProofs RevealProofs.
From Verif.Tests Require Import Toy.
From Verif.Properties Require Import Kem KemCases Budget Correctness Operations XWing X25519.
Import ListNotations.
Open Scope Z_scope.

(** ** agreement *)
Section Agreement.
  Variable hs : hashes.
  Variable X : x25519_impl.

  Lemma agrees_noted {A B} (o : op unit) (x : A) (f : A -> prog B) r : perform Checked o = Ok tt ->
    agrees (f x) r -> agrees (do* y := (do* _ := act o in Ret x) in f y) r.
  Proof. intros E H. unfold agrees. rewrite result_bind, result_bind, result_act, E. exact H. Qed.

  Lemma agrees_ct_as_bytes ct : agrees (o_xw_ct_as_bytes ct) (xw_ct_as_bytes ct).
  Proof. apply agrees_bind; [apply agrees_copy_into|]. intros b. apply agrees_copy_into. Qed.
  Lemma agrees_ct_from v : agrees (o_xw_ct_from v) (xw_ct_from v).
  Proof.
    repeat (apply agrees_bind; [first [apply agrees_slice|apply agrees_copy_from_slice]|]; intros ?). apply agrees_ret.
  Qed.
  Lemma agrees_xek_as_bytes ek : agrees (o_xw_ek_as_bytes ek) (xw_ek_as_bytes ek).
  Proof.
    apply agrees_bind; [apply agrees_ek_as_bytes|]. intros m. apply agrees_bind; [apply agrees_copy_into|].
    intros b. apply agrees_copy_into.
  Qed.
  Lemma agrees_xek_from v : agrees (o_xw_ek_from hs v) (xw_ek_from hs v).
  Proof.
    repeat (apply agrees_bind; [first [apply agrees_slice|apply agrees_copy_from_slice|apply agrees_encaps_key_from_bytes]|]; intros ?).
    apply agrees_ret.
  Qed.
  Lemma agrees_expand_key n dk : agrees (o_expand_key hs X n dk) (expand_key hs X n dk).
  Proof.
    unfold o_expand_key, expand_key, o_read_from, read_from, o_x25519_public. eapply agrees_note; [reflexivity|]. cbv zeta.
    apply agrees_noted; [reflexivity|]. destruct (xof_read _ 32) as [d r1]. apply agrees_noted; [reflexivity|].
    destruct (xof_read r1 32) as [z r2]. unfold kem_generate_deterministic, agrees.
    rewrite result_bind, agrees_generate. destruct (decaps_key_generate_deterministic hs MlKem768Params n d z); reflexivity.
  Qed.
  Lemma agrees_encapsulation_key n dk : agrees (o_xw_encapsulation_key hs X n dk) (xw_encapsulation_key hs X n dk).
  Proof. apply agrees_bind; [apply agrees_expand_key|]. intros [[[a b] c] d]. apply agrees_ret. Qed.
  Lemma agrees_generate_key_pair n g s : agrees (o_generate_key_pair hs X n g s) (generate_key_pair hs X n g s).
  Proof.
    unfold o_generate_key_pair, generate_key_pair, o_xw_dk_generate, o_xw_generate, xw_dk_generate, xw_generate.
    cbv zeta. unfold agrees. rewrite !result_bind, result_act. cbn [perform bind]. rewrite result_ret. cbn [bind].
    destruct (fill_bytes g s 32) as [sk s1]. rewrite result_ret. cbn [bind].
    apply agrees_bind; [apply agrees_encapsulation_key|]. intros pk. apply agrees_ret.
  Qed.
  Lemma agrees_kem_encapsulate n ek g s : agrees (o_encapsulate hs n ek g s) (encapsulate hs MlKem768Params n ek g s).
  Proof.
    unfold o_encapsulate, encapsulate, o_rand, rand. cbv zeta.
    apply agrees_noted; [reflexivity|]. destruct (fill_bytes g s 32) as [m s1].
    apply agrees_bind; [apply agrees_encapsulate|]. intros [c K]. apply agrees_ret.
  Qed.
  Lemma agrees_xw_encapsulate n ek g s : agrees (o_xw_encapsulate hs X n ek g s) (xw_encapsulate hs X n ek g s).
  Proof.
    apply agrees_bind; [apply agrees_kem_encapsulate|]. intros [[c K] s1].
    unfold o_xw_generate, xw_generate, o_x25519, o_combiner. cbv zeta.
    apply agrees_noted; [reflexivity|]. destruct (fill_bytes g s1 32) as [e s2].
    do 3 (apply agrees_noted; [reflexivity|]). eapply agrees_note; [reflexivity|]. apply agrees_ret.
  Qed.
  Lemma agrees_xw_decapsulate n dk ct : agrees (o_xw_decapsulate hs X n dk ct) (xw_decapsulate hs X n dk ct).
  Proof.
    apply agrees_bind; [apply agrees_expand_key|]. intros [[[skm skx] pkm] pkx].
    apply agrees_bind; [apply agrees_decapsulate|]. intros ssm. unfold o_x25519, o_combiner.
    do 2 (apply agrees_noted; [reflexivity|]). eapply agrees_note; [reflexivity|]. apply agrees_ret.
  Qed.
End Agreement.

(** ** C60 *)
Section Builds.
  Variable hs : hashes.
  Hypothesis Hhs : hash_ok hs.
  Variable X : x25519_impl.
  Hypothesis HX : x25519_ok X.

  Theorem C60_generate_key_pair n g s : rng_ok g ->
    let p := o_generate_key_pair hs X n g s in
    result Checked p = generate_key_pair hs X n g s /\ exec Release p = exec Checked p.
  Proof.
    intros Hg. apply safe_not_panic; [apply agrees_generate_key_pair|].
    rewrite (generate_key_pair_split hs X n g s). pose proof (Hg s 32%nat) as Hsk. destruct (fill_bytes g s 32) as [sk s1].
    cbn [fst] in Hsk. apply safe_bind; [|intros a _; split; discriminate].
    exact (proj2 (C35_safe hs Hhs X HX n sk (repeat 0 1120) Hsk (repeat_bytes 0 1120 ltac:(unfold is_byte; lia)))).
  Qed.
  Theorem C60_encapsulation_key n sk : byte_string 32 sk ->
    let p := o_xw_encapsulation_key hs X n (xw_dk_from sk) in
    result Checked p = xw_encapsulation_key hs X n (xw_dk_from sk) /\ exec Release p = exec Checked p.
  Proof.
    intros Hsk. apply safe_not_panic; [apply agrees_encapsulation_key|].
    exact (proj2 (C35_safe hs Hhs X HX n sk (repeat 0 1120) Hsk (repeat_bytes 0 1120 ltac:(unfold is_byte; lia)))).
  Qed.
  Theorem C60_encapsulate n ek g s : reachable_xek hs X ek -> rng_ok g ->
    let p := o_xw_encapsulate hs X n ek g s in
    result Checked p = xw_encapsulate hs X n ek g s /\ exec Release p = exec Checked p.
  Proof.
    intros Hek Hg. apply safe_not_panic; [apply agrees_xw_encapsulate|]. exact (proj2 (C34_safe hs Hhs X HX n ek g s Hek Hg)).
  Qed.
  Theorem C60_decapsulate n sk ct : byte_string 32 sk -> reachable_xct hs X ct ->
    let p := o_xw_decapsulate hs X n (xw_dk_from sk) ct in
    result Checked p = xw_decapsulate hs X n (xw_dk_from sk) ct /\ exec Release p = exec Checked p.
  Proof.
    intros Hsk Hct. apply safe_not_panic; [apply agrees_xw_decapsulate|].
    rewrite (xw_decapsulate_ok hs Hhs X (proj1 HX) (proj2 HX)) by (exact Hsk || exact (reachable_xct_valid hs Hhs X HX ct Hct)).
    apply safe_lift.
  Qed.
  Theorem C60_bytes :
    (forall ek, reachable_xek hs X ek ->
      result Checked (o_xw_ek_as_bytes ek) = xw_ek_as_bytes ek /\
      exec Release (o_xw_ek_as_bytes ek) = exec Checked (o_xw_ek_as_bytes ek)) /\
    (forall b, byte_string 1216 b ->
      result Checked (o_xw_ek_from hs b) = xw_ek_from hs b /\ exec Release (o_xw_ek_from hs b) = exec Checked (o_xw_ek_from hs b)) /\
    (forall ct, reachable_xct hs X ct ->
      result Checked (o_xw_ct_as_bytes ct) = xw_ct_as_bytes ct /\
      exec Release (o_xw_ct_as_bytes ct) = exec Checked (o_xw_ct_as_bytes ct)) /\
    (forall b, byte_string 1120 b ->
      result Checked (o_xw_ct_from b) = xw_ct_from b /\ exec Release (o_xw_ct_from b) = exec Checked (o_xw_ct_from b)).
  Proof.
    repeat apply conj.
    - intros ek Hek. apply safe_not_panic; [apply agrees_xek_as_bytes|].
      rewrite (xek_as_bytes_ok hs) by exact (reachable_xek_valid hs Hhs X HX ek Hek). split; discriminate.
    - intros b Hb. apply safe_not_panic; [apply agrees_xek_from|].
      rewrite (proj1 (xek_from_ok hs Hhs b Hb)). split; discriminate.
    - intros ct Hct. apply safe_not_panic; [apply agrees_ct_as_bytes|].
      rewrite ct_as_bytes_ok by exact (reachable_xct_valid hs Hhs X HX ct Hct). split; discriminate.
    - intros b Hb. apply safe_not_panic; [apply agrees_ct_from|]. rewrite (proj1 (ct_from_ok b Hb)). split; discriminate.
  Qed.
End Builds.

(** ** C61 *)

(** the seed of the public matrix that belongs to the X-Wing seed [sk] *)
Definition matrix_seed (hs : hashes) (sk : list Z) : list Z :=
  fst (FIPS203.G hs (bytes32 0 (SHAKE128 hs sk 96) ++ [3])).

Lemma basepoint_bytes : byte_string 32 X25519_BASEPOINT_BYTES.
Proof. split; [reflexivity|]. apply bytes_cons; [unfold is_byte; lia|]. apply (repeat_bytes 0 31). unfold is_byte. lia. Qed.
Lemma some_pair {A B} (a a' : A) (b b' : B) : Some (a, b) = Some (a', b') -> a = a' /\ b = b'.
Proof. intros E. injection E as -> ->. split; reflexivity. Qed.
Lemma some_four {A B C D} (a a' : A) (b b' : B) (c c' : C) (d d' : D) :
  Some (a, b, c, d) = Some (a', b', c', d') -> a = a' /\ b = b' /\ c = c' /\ d = d'.
Proof. intros E. injection E as -> -> -> ->. repeat split. Qed.
Lemma obl_and {A A'} (R : A -> A' -> Prop) (Q : A -> Prop) (Q' : A' -> Prop) p p' : obl R p p' ->
  (forall v, result Checked p = Ok v -> Q v) -> (forall v, result Checked p' = Ok v -> Q' v) ->
  obl (fun v v' => R v v' /\ Q v /\ Q' v') p p'.
Proof. intros O H H' v v' E E'. destruct (O v v' E E') as [T r]. auto. Qed.
Lemma obl_noted {A A' B B'} (S : B -> B' -> Prop) (o o' : op unit) (x : A) (x' : A') (f : A -> prog B) (f' : A' -> prog B') :
  see o = see o' -> obl S (f x) (f' x') ->
  obl S (do* y := (do* _ := act o in Ret x) in f y) (do* y := (do* _ := act o' in Ret x') in f' y).
Proof.
  intros E H. eapply obl_bind with (R := fun y y' => y = x /\ y' = x').
  - eapply obl_bind with (R := any); [apply obl_act; [rewrite E; reflexivity|intros; exact I]|].
    intros _ _ _. apply obl_ret. split; reflexivity.
  - intros y y' [-> ->]. exact H.
Qed.

Section Observations.
  Variables hs hs' : hashes.
  Hypothesis Hhs : hash_ok hs.
  Hypothesis Hhs' : hash_ok hs'.
  Variables X X' : x25519_impl.
  Hypothesis HX : x25519_ok X.
  Hypothesis HX' : x25519_ok X'.

  Definition valid_expanded (v : decaps_key * list Z * encaps_key * list Z) : Prop :=
    let '(skm, skx, pkm, pkx) := v in
    valid_decaps_key ML_KEM_768 skm /\ byte_string 32 skx /\ byte_string 32 pkx.
  Lemma expand_valid h Y n sk v : hash_ok h -> x25519_ok Y -> byte_string 32 sk ->
    result Checked (o_expand_key h Y n (xw_dk_from sk)) = Ok v ->
    valid_expanded v /\ rho (ek_pke (dk_ek (fst (fst (fst v))))) = matrix_seed h sk.
  Proof.
    intros Hh [HY1 HY2] Hsk. rewrite agrees_expand_key. intros E.
    pose proof (expand_ok h Hh Y HY1 HY2 n sk Hsk) as W.
    destruct (XW_expand h (x25519 Y) n sk) as [[[[skm skx] pkm] pkx]|] eqn:EX; [|rewrite W in E; discriminate E].
    destruct W as (dk & W1 & W2 & V & _ & W3 & _ & _ & _ & Hx & Hp). rewrite W1 in E. apply Ok_inj in E. subst v.
    cbn [valid_expanded fst]. split; [auto|].
    pose proof (ekey_rho ML_KEM_768 (dk_ek dk) (proj1 (proj2 V))) as ER. rewrite <- ER, W3.
    unfold XW_expand in EX. unfold KeyGen_internal in EX.
    destruct (KPKE_KeyGen h ML_KEM_768 n _) as [[ekb dkb]|] eqn:EK; [|discriminate EX].
    apply some_four in EX. destruct EX as (_ & _ & <- & _). unfold KPKE_KeyGen in EK. unfold matrix_seed. change (pk ML_KEM_768) with 3%nat in EK.
    change [Z.of_nat 3] with [3] in EK.
    destruct (FIPS203.G h (bytes32 0 (SHAKE128 h sk 96) ++ [3])) as [r s]. destruct (FIPS203.A_hat _ _ _ _); [|discriminate EK].
    apply some_pair in EK. destruct EK as [<- _]. apply skipn_app_exact. apply encode_vec12_bytes.
  Qed.

  Lemma obl_expand n n' sk sk' : byte_string 32 sk -> byte_string 32 sk' ->
    same_expansion 3 hs hs' (matrix_seed hs sk) (matrix_seed hs' sk') ->
    obl (fun v v' => valid_expanded v /\ valid_expanded v' /\
           same_expansion 3 hs hs' (rho (ek_pke (dk_ek (fst (fst (fst v)))))) (rho (ek_pke (dk_ek (fst (fst (fst v')))))))
      (o_expand_key hs X n (xw_dk_from sk)) (o_expand_key hs' X' n' (xw_dk_from sk')).
  Proof.
    intros Hsk Hsk' HE. eapply obl_weaken with (R := fun v v' => any v v' /\
      (valid_expanded v /\ rho (ek_pke (dk_ek (fst (fst (fst v))))) = matrix_seed hs sk) /\
      (valid_expanded v' /\ rho (ek_pke (dk_ek (fst (fst (fst v'))))) = matrix_seed hs' sk')).
    { intros v v' (_ & [A B] & C & D). rewrite B, D. auto. }
    apply obl_and; [|intros v; apply expand_valid; assumption|intros v; apply expand_valid; assumption].
    unfold o_expand_key. cbn [xw_sk xw_dk_from]. eapply obl_bind with (R := any).
    { apply obl_act; [|intros; exact I]. cbn [see]. rewrite (proj1 Hsk), (proj1 Hsk'). reflexivity. }
    intros _ _ _. cbv zeta. unfold o_read_from, o_x25519_public.
    destruct (xof_parts (shake128 hs sk)) as (E1 & _ & _). fold (SHAKE128 hs sk 96) in E1.
    destruct (xof_parts (shake128 hs' sk')) as (E1' & _ & _). fold (SHAKE128 hs' sk' 96) in E1'.
    unfold read_from in E1, E1'. set (r0 := {| xof_stream := shake128 hs sk; xof_pos := 0 |}) in *. clearbody r0.
    set (r0' := {| xof_stream := shake128 hs' sk'; xof_pos := 0 |}) in *. clearbody r0'.
    apply obl_noted; [reflexivity|]. destruct (xof_read r0 32) as [d r1]. destruct (xof_read r0' 32) as [d' r1']. cbn [fst] in E1, E1'.
    apply obl_noted; [reflexivity|]. destruct (xof_read r1 32) as [z r2]. destruct (xof_read r1' 32) as [z' r2'].
    eapply obl_bind with (R := any).
    - eapply obl_weaken with (S := any); [intros; exact I|]. apply (obl_generate hs hs' ML_KEM_768 wf_768).
      + subst d d'. pose proof (shake_parts hs Hhs sk 0 (proj2 Hsk) ltac:(lia)) as [L _].
        pose proof (shake_parts hs' Hhs' sk' 0 (proj2 Hsk') ltac:(lia)) as [L' _]. red. rewrite L, L'. reflexivity.
      + subst d d'. exact HE.
    - intros dk dk' _. apply obl_noted; [reflexivity|]. destruct (xof_read r2 32) as [x r3]. destruct (xof_read r2' 32) as [x' r3'].
      apply obl_noted; [reflexivity|]. apply obl_ret. exact I.
  Qed.

  Lemma combiner_length a b c d a' b' c' d' : like a a' -> like b b' -> like c c' -> like d d' ->
    length (concat [X_WING_LABEL; a; b; c; d]) = length (concat [X_WING_LABEL; a'; b'; c'; d']).
  Proof. unfold like. intros Ha Hb Hc Hd. cbn [concat]. rewrite !app_length, Ha, Hb, Hc, Hd. reflexivity. Qed.

  Lemma expand_returns n n' sk sk' v : byte_string 32 sk -> byte_string 32 sk' ->
    same_expansion 3 hs hs' (matrix_seed hs sk) (matrix_seed hs' sk') -> (n <= n')%nat ->
    expand_key hs X n (xw_dk_from sk) = Ok v -> exists v', expand_key hs' X' n' (xw_dk_from sk') = Ok v'.
  Proof.
    intros Hsk Hsk' HE Hn E. destruct HX as [HX1 HX2]. destruct HX' as [HX1' HX2'].
    pose proof (expand_ok hs Hhs X HX1 HX2 n sk Hsk) as W. pose proof (expand_ok hs' Hhs' X' HX1' HX2' n' sk' Hsk') as W'.
    destruct (XW_expand hs (x25519 X) n sk) as [[[[skm skx] pkm] pkx]|]; [|rewrite W in E; discriminate E].
    destruct W as (dk & _ & W2 & _).
    destruct (kem_generate_returns _ _ _ _ _ _ W2) as [k Ek].
    assert (EG : exists k', decaps_key_generate_deterministic hs' ML_KEM_768 n' (bytes32 0 (SHAKE128 hs' sk' 96))
              (bytes32 32 (SHAKE128 hs' sk' 96)) = Ok k').
    { apply (generate_expands hs' Hhs' ML_KEM_768 wf_768);
        [apply (shake_parts hs' Hhs' sk' 0 (proj2 Hsk')); lia|apply (shake_parts hs' Hhs' sk' 32 (proj2 Hsk')); lia|].
      apply (expands_expansion _ _ ML_KEM_768 n n' _ _ HE Hn).
      apply (generate_expands hs Hhs ML_KEM_768 wf_768 n _ (bytes32 32 (SHAKE128 hs sk 96)));
        [apply (shake_parts hs Hhs sk 0 (proj2 Hsk)); lia|apply (shake_parts hs Hhs sk 32 (proj2 Hsk)); lia|].
      exists k. exact Ek. }
    destruct EG as [k' Ek'].
    destruct (XW_expand hs' (x25519 X') n' sk') as [[[[skm' skx'] pkm'] pkx']|].
    - destruct W' as (dk' & W1' & _). eexists. exact W1'.
    - exfalso. unfold expand_key in W'. destruct (xof_parts (shake128 hs' sk')) as (E1 & E2 & _).
      fold (SHAKE128 hs' sk' 96) in E1, E2. cbn [xw_sk xw_dk_from] in W'.
      set (r0 := {| xof_stream := shake128 hs' sk'; xof_pos := 0 |}) in *. clearbody r0.
      destruct (read_from r0) as [d r1]. cbn [fst snd] in *. destruct (read_from r1) as [z r2]. cbn [fst snd] in *. subst d z.
      rewrite P768 in W'. unfold kem_generate_deterministic in W'. rewrite Ek' in W'. cbn [bind] in W'.
      destruct (read_from r2). discriminate W'.
  Qed.

  (** Deriving the encapsulation key: any two seeds with the same matrix. *)
  Theorem C61_encapsulation_key b b' n n' sk sk' ek : byte_string 32 sk -> byte_string 32 sk' ->
    same_expansion 3 hs hs' (matrix_seed hs sk) (matrix_seed hs' sk') ->
    xw_encapsulation_key hs X n (xw_dk_from sk) = Ok ek -> (n <= n')%nat ->
    (exists ek', xw_encapsulation_key hs' X' n' (xw_dk_from sk') = Ok ek') /\
    outside_sites (trace b (o_xw_encapsulation_key hs X n (xw_dk_from sk))) =
    outside_sites (trace b' (o_xw_encapsulation_key hs' X' n' (xw_dk_from sk'))).
  Proof.
    intros Hsk Hsk' HE E Hn.
    assert (E2 : exists ek', xw_encapsulation_key hs' X' n' (xw_dk_from sk') = Ok ek').
    { unfold xw_encapsulation_key in *. destruct (expand_key hs X n (xw_dk_from sk)) as [v| | |] eqn:Ev; try discriminate E.
      destruct (expand_returns n n' sk sk' v Hsk Hsk' HE Hn Ev) as [[[[a c] d] e] ->]. cbn [bind]. eexists. reflexivity. }
    split; [exact E2|]. destruct E2 as [ek' E2].
    destruct (C60_encapsulation_key hs Hhs X HX n sk Hsk) as [R T]. destruct (C60_encapsulation_key hs' Hhs' X' HX' n' sk' Hsk') as [R' T'].
    rewrite (trace_build _ b T), (trace_build _ b' T'). rewrite E in R. rewrite E2 in R'.
    assert (O : obl any (o_xw_encapsulation_key hs X n (xw_dk_from sk)) (o_xw_encapsulation_key hs' X' n' (xw_dk_from sk'))).
    { eapply obl_bind; [apply obl_expand; assumption|]. intros [[[a1 a2] a3] a4] [[[c1 c2] c3] c4] _. apply obl_ret. exact I. }
    apply (O ek ek' R R').
  Qed.

  (** Key generation: any two random number generators whose seeds have the same matrix. *)
  Theorem C61_generate_key_pair b b' n n' g g' s s' x : rng_ok g -> rng_ok g' ->
    same_expansion 3 hs hs' (matrix_seed hs (fst (fill_bytes g s 32))) (matrix_seed hs' (fst (fill_bytes g' s' 32))) ->
    generate_key_pair hs X n g s = Ok x -> (n <= n')%nat ->
    (exists x', generate_key_pair hs' X' n' g' s' = Ok x') /\
    outside_sites (trace b (o_generate_key_pair hs X n g s)) =
    outside_sites (trace b' (o_generate_key_pair hs' X' n' g' s')).
  Proof.
    intros Hg Hg' HE E Hn.
    destruct (C60_generate_key_pair hs Hhs X HX n g s Hg) as [R T].
    destruct (C60_generate_key_pair hs' Hhs' X' HX' n' g' s' Hg') as [R' T'].
    rewrite (trace_build _ b T), (trace_build _ b' T'). rewrite E in R. clear T T'.
    pose proof (Hg s 32%nat) as Hsk. pose proof (Hg' s' 32%nat) as Hsk'.
    assert (E2 : exists x', generate_key_pair hs' X' n' g' s' = Ok x').
    { rewrite generate_key_pair_split in E |- *. destruct (fill_bytes g s 32) as [sk s1].
      destruct (fill_bytes g' s' 32) as [sk' s1']. cbn [fst] in *.
      destruct (xw_encapsulation_key hs X n (xw_dk_from sk)) as [ek| | |] eqn:Ee; try discriminate E.
      destruct (C61_encapsulation_key Checked Checked n n' sk sk' ek Hsk Hsk' HE Ee Hn) as [[ek' ->] _].
      cbn [bind]. eexists. reflexivity. }
    split; [exact E2|]. destruct E2 as [x' E2]. rewrite E2 in R'.
    assert (O : obl any (o_generate_key_pair hs X n g s) (o_generate_key_pair hs' X' n' g' s')); [|apply (O x x' R R')].
    clear R R' E E2. unfold o_generate_key_pair, o_xw_dk_generate, o_xw_generate, xw_generate.
    destruct (fill_bytes g s 32) as [sk s1]. destruct (fill_bytes g' s' 32) as [sk' s1']. cbn [fst] in *.
    eapply obl_bind with (R := fun v v' => fst v = xw_dk_from sk /\ fst v' = xw_dk_from sk').
    { apply obl_noted; [reflexivity|]. apply obl_ret. split; reflexivity. }
    intros [dk s2] [dk' s2'] [F F']. cbn [fst] in F, F'. subst dk dk'. eapply obl_bind with (R := any).
    - eapply obl_bind; [apply obl_expand; assumption|]. intros [[[a1 a2] a3] a4] [[[c1 c2] c3] c4] _. apply obl_ret. exact I.
    - intros ek ek' _. apply obl_ret. exact I.
  Qed.

  (** Decapsulation: any two seeds with the same matrix, any two ciphertexts. *)
  Theorem C61_decapsulate b b' n n' sk sk' ct ct' K : byte_string 32 sk -> byte_string 32 sk' ->
    same_expansion 3 hs hs' (matrix_seed hs sk) (matrix_seed hs' sk') ->
    reachable_xct hs X ct -> reachable_xct hs' X' ct' ->
    xw_decapsulate hs X n (xw_dk_from sk) ct = Ok K -> (n <= n')%nat ->
    (exists K', xw_decapsulate hs' X' n' (xw_dk_from sk') ct' = Ok K') /\
    outside_sites (trace b (o_xw_decapsulate hs X n (xw_dk_from sk) ct)) =
    outside_sites (trace b' (o_xw_decapsulate hs' X' n' (xw_dk_from sk') ct')).
  Proof.
    intros Hsk Hsk' HE Hct Hct' E Hn.
    pose proof (reachable_xct_valid hs Hhs X HX ct Hct) as [C1 C2].
    pose proof (reachable_xct_valid hs' Hhs' X' HX' ct' Hct') as [C1' C2'].
    assert (E2 : exists K', xw_decapsulate hs' X' n' (xw_dk_from sk') ct' = Ok K').
    { unfold xw_decapsulate in *. destruct (expand_key hs X n (xw_dk_from sk)) as [v| | |] eqn:Ev; try discriminate E.
      destruct (expand_returns n n' sk sk' v Hsk Hsk' HE Hn Ev) as [v' Ev']. rewrite Ev'.
      pose proof (expand_valid hs X n sk v Hhs HX Hsk ltac:(rewrite agrees_expand_key; exact Ev)) as [V RV].
      pose proof (expand_valid hs' X' n' sk' v' Hhs' HX' Hsk' ltac:(rewrite agrees_expand_key; exact Ev')) as [V' RV'].
      destruct v as [[[skm skx] pkm] pkx]. destruct v' as [[[skm' skx'] pkm'] pkx']. cbn [bind fst valid_expanded] in *.
      rewrite P768 in *. destruct (decapsulate hs ML_KEM_768 n skm (ct_m ct)) as [km| | |] eqn:Ek; try discriminate E.
      destruct (proj2 (decapsulate_expands hs' Hhs' ML_KEM_768 wf_768 n' skm' (ct_m ct') (proj1 V') C1')) as [km' Ek'].
      { rewrite RV'. apply (expands_expansion _ _ ML_KEM_768 n n' _ _ HE Hn). rewrite <- RV.
        apply (decapsulate_expands hs Hhs ML_KEM_768 wf_768 n skm (ct_m ct) (proj1 V) C1). exists km. exact Ek. }
      rewrite Ek'. cbn [bind]. eexists. reflexivity. }
    split; [exact E2|]. destruct E2 as [K' E2].
    destruct (C60_decapsulate hs Hhs X HX n sk ct Hsk Hct) as [R T]. destruct (C60_decapsulate hs' Hhs' X' HX' n' sk' ct' Hsk' Hct') as [R' T'].
    rewrite (trace_build _ b T), (trace_build _ b' T'). rewrite E in R. rewrite E2 in R'.
    assert (O : obl any (o_xw_decapsulate hs X n (xw_dk_from sk) ct) (o_xw_decapsulate hs' X' n' (xw_dk_from sk') ct')).
    { eapply obl_bind; [apply obl_expand; assumption|]. intros [[[skm skx] pkm] pkx] [[[skm' skx'] pkm'] pkx'] (V & V' & HE').
      cbn [fst valid_expanded] in *. destruct V as (V & Vx & Vp). destruct V' as (V' & Vx' & Vp').
      destruct V as (W1 & ((W2 & W3) & W4) & W5). destruct V' as (W1' & ((W2' & W3') & W4') & W5').
      eapply obl_bind.
      { apply (obl_decapsulate hs hs' ML_KEM_768 wf_768 ltac:(discriminate) ltac:(discriminate) n n' skm skm' (ct_m ct) (ct_m ct') HE');
          [eapply byte_string_like; eassumption|eapply vec_alike; eassumption|eapply vec_alike; eassumption|
           eapply byte_string_like; eassumption..]. }
      intros sm sm' Hsm. unfold o_x25519, o_combiner.
      pose proof (proj1 HX skx (ct_x ct) Vx C2) as [Lx _]. pose proof (proj1 HX' skx' (ct_x ct') Vx' C2') as [Lx' _].
      apply obl_noted; [reflexivity|]. apply obl_noted.
      - cbn [see]. f_equal. f_equal. apply combiner_length; [exact Hsm|red; rewrite Lx, Lx'; reflexivity|
          eapply byte_string_like; eassumption|eapply byte_string_like; eassumption].
      - eapply obl_bind with (R := any); [apply obl_act; [cbn [see]; rewrite Lx, Lx'; reflexivity|intros; exact I]|].
        intros _ _ _. apply obl_ret. exact I. }
    apply (O K K' R R').
  Qed.

  (** Encapsulation: any two keys with the same matrix, any two random number generators. *)
  Theorem C61_encapsulate b b' n n' ek ek' g g' s s' x : reachable_xek hs X ek -> reachable_xek hs' X' ek' ->
    rng_ok g -> rng_ok g' ->
    same_expansion 3 hs hs' (rho (ek_pke (pk_m ek))) (rho (ek_pke (pk_m ek'))) ->
    xw_encapsulate hs X n ek g s = Ok x -> (n <= n')%nat ->
    (exists x', xw_encapsulate hs' X' n' ek' g' s' = Ok x') /\
    outside_sites (trace b (o_xw_encapsulate hs X n ek g s)) =
    outside_sites (trace b' (o_xw_encapsulate hs' X' n' ek' g' s')).
  Proof.
    intros Hek Hek' Hg Hg' HE E Hn.
    pose proof (reachable_xek_valid hs Hhs X HX ek Hek) as (V & _ & Vx).
    pose proof (reachable_xek_valid hs' Hhs' X' HX' ek' Hek') as (V' & _ & Vx').
    pose proof (Hg s 32%nat) as Hm. pose proof (Hg' s' 32%nat) as Hm'.
    assert (E2 : exists x', xw_encapsulate hs' X' n' ek' g' s' = Ok x').
    { unfold xw_encapsulate, encapsulate, rand in *. rewrite P768 in *. destruct (fill_bytes g s 32) as [m s1].
      destruct (fill_bytes g' s' 32) as [m' s1']. cbn [fst] in Hm, Hm'.
      destruct (proj2 (encapsulate_expands hs' Hhs' ML_KEM_768 wf_768 n' (pk_m ek') m' V' Hm')) as [[c' k'] Ek'].
      { apply (expands_expansion _ _ ML_KEM_768 n n' _ _ HE Hn).
        apply (encapsulate_expands hs Hhs ML_KEM_768 wf_768 n (pk_m ek) m V Hm). unfold encapsulate_deterministic.
        destruct (encapsulate_deterministic_inner hs ML_KEM_768 n (pk_m ek) m) as [y| | |]; try discriminate E. exists y. reflexivity. }
      unfold encapsulate_deterministic in Ek'. rewrite Ek'. cbn [bind]. destruct (xw_generate g' s1'). eexists. reflexivity. }
    split; [exact E2|]. destruct E2 as [x' E2].
    destruct (C60_encapsulate hs Hhs X HX n ek g s Hek Hg) as [R T].
    destruct (C60_encapsulate hs' Hhs' X' HX' n' ek' g' s' Hek' Hg') as [R' T'].
    rewrite (trace_build _ b T), (trace_build _ b' T'). rewrite E in R. rewrite E2 in R'.
    assert (O : obl any (o_xw_encapsulate hs X n ek g s) (o_xw_encapsulate hs' X' n' ek' g' s')); [|apply (O x x' R R')].
    clear R R' T T' E E2 x x' b b'.
    destruct V as ((W2 & W3) & W4). destruct V' as ((W2' & W3') & W4').
    eapply obl_bind with (R := fun v v' => like (snd (fst v)) (snd (fst v'))).
    - unfold o_encapsulate, o_rand. apply obl_noted; [reflexivity|]. unfold rand.
      destruct (fill_bytes g s 32) as [m s1]. destruct (fill_bytes g' s' 32) as [m' s1']. cbn [fst] in Hm, Hm'.
      eapply obl_bind.
      { apply (obl_encapsulate hs hs' ML_KEM_768 wf_768 n n' (pk_m ek) (pk_m ek') m m' HE);
          [eapply byte_string_like; eassumption|eapply vec_alike; eassumption|eapply byte_string_like; eassumption..]. }
      intros [c k] [c' k'] [_ Hk]. apply obl_ret. exact Hk.
    - intros [[c k] s1] [[c' k'] s1'] Hk. cbn [fst snd] in Hk. unfold o_xw_generate, o_x25519, o_combiner.
      apply obl_noted; [reflexivity|]. unfold xw_generate. pose proof (Hg s1 32%nat) as He. pose proof (Hg' s1' 32%nat) as He'.
      destruct (fill_bytes g s1 32) as [e s2]. destruct (fill_bytes g' s1' 32) as [e' s2']. cbn [fst] in He, He'.
      pose proof (proj1 HX e (pk_x ek) He Vx) as [Lx _]. pose proof (proj1 HX' e' (pk_x ek') He' Vx') as [Lx' _].
      do 2 (apply obl_noted; [reflexivity|]). apply obl_noted.
      + cbn [see]. f_equal. f_equal. apply combiner_length; [exact Hk|red; rewrite Lx, Lx'; reflexivity|
          |eapply byte_string_like; eassumption]. red.
        rewrite (proj1 (proj1 HX e _ He basepoint_bytes)), (proj1 (proj1 HX' e' _ He' basepoint_bytes)). reflexivity.
      + eapply obl_bind with (R := any); [apply obl_act; [cbn [see]; rewrite Lx, Lx'; reflexivity|intros; exact I]|].
        intros _ _ _. apply obl_ret. exact I.
  Qed.
End Observations.

(** The two excepted sites are no small print: whoever sees the lookups of one decapsulation
    (which expands the key anew) has seen the ML-KEM secret of the key. *)
Lemma tells_noted {A B} (S : B -> B -> Prop) (o o' : op unit) (x x' : A) (f f' : A -> prog B) :
  lookups (see o) = [] -> lookups (see o') = [] -> tells S (f x) (f' x') ->
  tells S (do* y := (do* _ := act o in Ret x) in f y) (do* y := (do* _ := act o' in Ret x') in f' y).
Proof.
  intros Q Q' H. eapply tells_bind with (R := fun y y' => y = x /\ y' = x').
  - eapply tells_bind; [apply tells_quiet; apply quiet_act; assumption|]. intros _ _ _. apply tells_ret. split; reflexivity.
  - intros y y' [-> ->]. exact H.
Qed.
Lemma tells_expand hs X n sk sk' : hash_ok hs -> byte_string 32 sk -> byte_string 32 sk' ->
  tells (fun v v' => dk_pke (fst (fst (fst v))) = dk_pke (fst (fst (fst v'))))
    (o_expand_key hs X n (xw_dk_from sk)) (o_expand_key hs X n (xw_dk_from sk')).
Proof.
  intros Hhs Hsk Hsk'. unfold o_expand_key, o_read_from, o_x25519_public. cbn [xw_sk xw_dk_from].
  eapply tells_bind; [apply tells_quiet; apply quiet_act; reflexivity|]. intros _ _ _. cbv zeta.
  destruct (xof_parts (shake128 hs sk)) as (E1 & _ & _). fold (SHAKE128 hs sk 96) in E1.
  destruct (xof_parts (shake128 hs sk')) as (E1' & _ & _). fold (SHAKE128 hs sk' 96) in E1'.
  unfold read_from in E1, E1'. set (r0 := {| xof_stream := shake128 hs sk; xof_pos := 0 |}) in *. clearbody r0.
  set (r0' := {| xof_stream := shake128 hs sk'; xof_pos := 0 |}) in *. clearbody r0'.
  apply tells_noted; [reflexivity..|]. destruct (xof_read r0 32) as [d r1]. destruct (xof_read r0' 32) as [d' r1']. cbn [fst] in E1, E1'.
  apply tells_noted; [reflexivity..|]. destruct (xof_read r1 32) as [z r2]. destruct (xof_read r1' 32) as [z' r2'].
  assert (B : forall s, bytes s -> bytes (bytes32 0 (SHAKE128 hs s 96) ++ [K_U8 ML_KEM_768])).
  { intros s Hs. apply bytes_app; [apply (shake_parts hs Hhs s 0 Hs); lia|].
    apply bytes_cons; [unfold K_U8, is_byte; cbn; lia|apply bytes_nil]. }
  eapply tells_bind.
  { apply (tells_generate hs Hhs ML_KEM_768 wf_768); subst d d'; apply B; [apply Hsk|apply Hsk']. }
  intros k k' Ek. apply tells_noted; [reflexivity..|]. destruct (xof_read r2 32) as [x r3]. destruct (xof_read r2' 32) as [x' r3'].
  apply tells_noted; [reflexivity..|]. apply tells_ret. exact Ek.
Qed.

Theorem C61_reveals hs X n sk sk' ct ct' v v' : hash_ok hs -> byte_string 32 sk -> byte_string 32 sk' ->
  trace Checked (o_xw_decapsulate hs X n (xw_dk_from sk) ct) = trace Checked (o_xw_decapsulate hs X n (xw_dk_from sk') ct') ->
  expand_key hs X n (xw_dk_from sk) = Ok v -> expand_key hs X n (xw_dk_from sk') = Ok v' ->
  dk_pke (fst (fst (fst v))) = dk_pke (fst (fst (fst v'))).
Proof.
  intros Hhs Hsk Hsk' T E E'. rewrite <- (agrees_expand_key hs X n) in E, E'.
  unfold o_xw_decapsulate in T. rewrite (trace_bind _ _ _ _ E), (trace_bind _ _ _ _ E') in T.
  apply (f_equal lookups) in T. rewrite !lookups_app in T.
  exact (proj1 (tells_expand hs X n sk sk' Hhs Hsk Hsk' v v' _ _ E E' T)).
Qed.

Lemma encapsulation_key_rho hs X n sk ek : hash_ok hs -> x25519_ok X -> byte_string 32 sk ->
  xw_encapsulation_key hs X n (xw_dk_from sk) = Ok ek ->
  (exists v, expand_key hs X n (xw_dk_from sk) = Ok v) /\ rho (ek_pke (pk_m ek)) = matrix_seed hs sk.
Proof.
  intros Hhs HX Hsk H. unfold xw_encapsulation_key in H.
  destruct (expand_key hs X n (xw_dk_from sk)) as [v| | |] eqn:E; try discriminate H. split; [exists v; reflexivity|].
  pose proof (expand_valid hs X n sk v Hhs HX Hsk ltac:(rewrite agrees_expand_key; exact E)) as [_ R].
  destruct v as [[[a c] d] e]. cbn [bind] in H. apply Ok_inj in H. subst ek. cbn [pk_m]. rewrite <- R. cbn [fst]. do 2 f_equal.
  unfold expand_key in E. cbv zeta in E. destruct (read_from _) as [d0 r1]. destruct (read_from r1) as [z0 r2].
  unfold kem_generate_deterministic in E.
  destruct (decaps_key_generate_deterministic hs MlKem768Params n d0 z0) as [k| | |]; try discriminate E.
  cbn [bind] in E. destruct (read_from r2) as [x0 r3]. apply Ok_inj in E. apply (f_equal Some) in E. apply some_four in E.
  destruct E as (<- & _ & <- & _). reflexivity.
Qed.
Lemma toy_matrix_seed sk : byte_string 32 sk -> byte_string 32 (matrix_seed toy sk).
Proof.
  intros Hsk. apply toy_G_bytes. apply bytes_app; [apply (shake_parts toy toy_ok sk 0 (proj2 Hsk)); lia|].
  apply bytes_cons; [unfold is_byte; lia|apply bytes_nil].
Qed.
Lemma toy_rho_seed r sk : byte_string 32 r -> same_expansion 3 toy (toy_rho r) r (matrix_seed (toy_rho r) sk).
Proof. intros [L _] i j t _ _. unfold matrix_seed. rewrite (toy_rho_G r _ L). reflexivity. Qed.

(** two different keys with the same matrix: a hash function and one that differs from it in
    everything but the expansion of that matrix *)
Example C61_case : exists ek ct ss s' v,
  hash_ok toy /\ hash_ok (toy_rho (matrix_seed toy (seed 1))) /\ x25519_ok toy_x25519 /\ rng_ok counter /\
  same_expansion 3 toy (toy_rho (matrix_seed toy (seed 1)))
    (matrix_seed toy (seed 1)) (matrix_seed (toy_rho (matrix_seed toy (seed 1))) (seed 5)) /\
  reachable_xek toy toy_x25519 ek /\ reachable_xct toy toy_x25519 ct /\
  xw_encapsulation_key toy toy_x25519 300 (xw_dk_from (seed 1)) = Ok ek /\
  rho (ek_pke (pk_m ek)) = matrix_seed toy (seed 1) /\
  xw_encapsulate toy toy_x25519 300 ek counter 5 = Ok (ct, ss, s') /\
  xw_decapsulate toy toy_x25519 300 (xw_dk_from (seed 1)) ct = Ok ss /\
  expand_key toy toy_x25519 300 (xw_dk_from (seed 1)) = Ok v.
Proof.
  pose proof (toy_matrix_seed (seed 1) (seed_ok 1)) as B. pose proof (toy_rho_seed _ (seed 5) B) as S.
  pose proof (toy_rho_ok _ B) as R. destruct xwing_case as (ek & ct & ctb & ss & s' & H1 & H2 & H3 & H4 & _ & H5 & _).
  destruct (encapsulation_key_rho toy toy_x25519 300 (seed 1) ek toy_ok toy_x25519_ok (seed_ok 1) H3) as [[v Ev] Er].
  exists ek, ct, ss, s', v. pose proof toy_ok as T1. pose proof toy_x25519_ok as T2. pose proof counter_ok as T3.
  repeat (apply conj; [assumption|]). assumption.
Qed.

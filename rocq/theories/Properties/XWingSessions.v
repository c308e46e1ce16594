(** C52: over any history of X-Wing calls, by a client that chooses each call from all
    earlier results, the implementation answers as the draft does on byte strings. *)
From Coq Require Import List ZArith Lia Bool Arith.
From Verif.Base Require Import Res Oracles.
From Verif.Spec Require Import FIPS203 Domains XWing Session XWingSession.
From Verif.Model Require Import Machine Util Algebra Compress Encode Crypto Sample Param Pke Kem XWing Session XWingSession.
From Verif.Proofs Require Import Basics Field Poly EncodeProofs VecEncode SampleProofs PkeProofs KemProofs XWingProofs.
From Verif.Tests Require Import Toy.
From Verif.Properties Require Import Kem KemCases Correctness XWing Sessions.
Import ListNotations.
Open Scope Z_scope.

Section Refinement.
  Variable hs : hashes.
  Hypothesis Hhs : hash_ok hs.
  Variable X : x25519_impl.
  Hypothesis HX : x25519_ok X.
  Variable peq : list Z -> list Z -> bool.
  Variable n : nat.
  Variable g : rng.
  Hypothesis Hg : rng_ok g.

  Let HX1 := proj1 HX.
  Let HX2 := proj2 HX.

  Definition xrel_dk (dk : xw_decaps_key) (b : list Z) : Prop := byte_string 32 b /\ dk = xw_dk_from b.
  Definition xrel_ek (ek : xw_encaps_key) (b : list Z) : Prop := valid_xek hs ek /\ xek_bytes ek = b.
  Definition xrel_ct (ct : xw_ciphertext) (b : list Z) : Prop := valid_ct ct /\ ct_m ct ++ ct_x ct = b.
  Definition xrel (s : xapi_state g) (f : draft_state g) : Prop :=
    Forall2 xrel_dk (x_dks g s) (d_dks g f) /\ Forall2 xrel_ek (x_eks g s) (d_eks g f) /\
    Forall2 xrel_ct (x_cts g s) (d_cts g f) /\ x_rng g s = d_rng g f.

  Lemma Forall2_snoc A B (R : A -> B -> Prop) l l' x y : Forall2 R l l' -> R x y -> Forall2 R (l ++ [x]) (l' ++ [y]).
  Proof. intros H1 H2. apply Forall2_app; [exact H1|]. constructor; [exact H2|constructor]. Qed.
  Lemma xrel_add_dk s f x y : xrel s f -> xrel_dk x y -> xrel (x_add_dk g s x) (d_add_dk g f y).
  Proof. intros (H1 & H2 & H3 & H4) H. repeat split; try assumption. apply Forall2_snoc; assumption. Qed.
  Lemma xrel_add_ek s f x y : xrel s f -> xrel_ek x y -> xrel (x_add_ek g s x) (d_add_ek g f y).
  Proof. intros (H1 & H2 & H3 & H4) H. repeat split; try assumption. apply Forall2_snoc; assumption. Qed.
  Lemma xrel_add_ct s f x y : xrel s f -> xrel_ct x y -> xrel (x_add_ct g s x) (d_add_ct g f y).
  Proof. intros (H1 & H2 & H3 & H4) H. repeat split; try assumption. apply Forall2_snoc; assumption. Qed.
  Lemma xrel_set_rng s f r : xrel s f -> xrel (x_set_rng g s r) (d_set_rng g f r).
  Proof. intros (H1 & H2 & H3 & H4). repeat split; assumption. Qed.

  Lemma ct_split (ct : xw_ciphertext) : valid_ct ct ->
    firstn 1088 (ct_m ct ++ ct_x ct) = ct_m ct /\ skipn 1088 (ct_m ct ++ ct_x ct) = ct_x ct.
  Proof. intros [[L _] _]. rewrite <- L. split; [apply firstn_app_exact|apply skipn_app_exact]; reflexivity. Qed.
  Lemma ct_bytes_ok (ct : xw_ciphertext) : valid_ct ct -> byte_string 1120 (ct_m ct ++ ct_x ct).
  Proof. intros [H1 H2]. exact (byte_string_app 1088 32 _ _ H1 H2). Qed.
  Lemma ct_reparse ct : valid_ct ct -> xw_ct_from (ct_m ct ++ ct_x ct) = Ok ct.
  Proof.
    intros V. rewrite (proj1 (ct_from_ok _ (ct_bytes_ok ct V))). destruct (ct_split ct V) as [-> ->].
    destruct ct. reflexivity.
  Qed.
  Lemma xek_reparse ek : valid_xek hs ek -> xw_ek_from hs (xek_bytes ek) = Ok ek.
  Proof.
    intros V. rewrite (proj1 (xek_from_ok hs Hhs _ (xek_bytes_ok hs ek V))). f_equal. apply xek_parse_bytes, V.
  Qed.
  (** the cached hash of an X-Wing key is the hash of its bytes, so comparing it adds nothing *)
  Lemma xek_m_eqb a b : valid_xek hs a -> valid_xek hs b ->
    encaps_key_eqb (pk_m a) (pk_m b) =
    same_bytes (ekey_bytes ML_KEM_768 (pk_m a)) (ekey_bytes ML_KEM_768 (pk_m b)).
  Proof.
    intros (V & E & _) (V' & E' & _). apply eqb_iff. rewrite encaps_key_eqb_true, same_bytes_true.
    split; [intros ->; reflexivity|]. intros Q.
    rewrite <- (ekey_parse_bytes hs ML_KEM_768 (pk_m a) V E), <- (ekey_parse_bytes hs ML_KEM_768 (pk_m b) V' E').
    rewrite Q. reflexivity.
  Qed.
  Lemma xct_eqb a b : valid_ct a -> valid_ct b ->
    xw_ct_eqb a b = same_bytes (ct_m a ++ ct_x a) (ct_m b ++ ct_x b).
  Proof.
    intros V V'. apply eqb_iff. unfold xw_ct_eqb. rewrite same_bytes_true, andb_true_iff, !bytes_eqb_true.
    split; [intros [-> ->]; reflexivity|]. intros Q.
    destruct (ct_split a V) as [A1 A2], (ct_split b V') as [B1 B2]. rewrite Q in A1, A2. split; congruence.
  Qed.

  Lemma xstep_refines s f o : xrel s f -> xop_ok o ->
    match xw_draft_step hs (x25519 X) peq n g f o with
    | Ok (ob, f') => exists s', xapi_step hs X peq n g s o = Ok (ob, s') /\ xrel s' f'
    | NoFuel => xapi_step hs X peq n g s o = NoFuel
    | _ => False
    end.
  Proof.
    intros HR HO. pose proof HR as (R1 & R2 & R3 & R4).
    assert (Fdk : forall i, match nth_error (d_dks g f) i with None => nth_error (x_dks g s) i = None
      | Some y => exists x, nth_error (x_dks g s) i = Some x /\ xrel_dk x y end) by (intros; apply Forall2_nth_error, R1).
    assert (Fek : forall i, match nth_error (d_eks g f) i with None => nth_error (x_eks g s) i = None
      | Some y => exists x, nth_error (x_eks g s) i = Some x /\ xrel_ek x y end) by (intros; apply Forall2_nth_error, R2).
    assert (Fct : forall i, match nth_error (d_cts g f) i with None => nth_error (x_cts g s) i = None
      | Some y => exists x, nth_error (x_cts g s) i = Some x /\ xrel_ct x y end) by (intros; apply Forall2_nth_error, R3).
    destruct o as [| |b|b|b|i|i|i|i|i|i|i|i|i|i j|i j|i|i j]; cbn [xw_draft_step xapi_step]; unfold with_object.
    - (* generate_key_pair *)
      rewrite generate_key_pair_split, R4. pose proof (Hg (d_rng g f) 32%nat) as Hsk.
      destruct (fill_bytes g (d_rng g f) 32) as [sk r]. cbn [fst] in Hsk.
      pose proof (xek_of_dk_ok hs Hhs X HX1 HX2 n sk Hsk) as W.
      destruct (XW_public hs (x25519 X) n sk) as [pkb|]; [|rewrite W; reflexivity].
      destruct W as (ek & -> & V & E). cbn [bind]. eexists. split; [reflexivity|].
      apply xrel_add_ek; [|split; assumption]. apply xrel_add_dk; [apply xrel_set_rng, HR|]. split; [exact Hsk|reflexivity].
    - (* DecapsulationKey::generate *)
      unfold xw_dk_generate, xw_generate. rewrite R4. pose proof (Hg (d_rng g f) 32%nat) as Hsk.
      destruct (fill_bytes g (d_rng g f) 32) as [sk r]. cbn [fst] in Hsk. eexists. split; [reflexivity|].
      apply xrel_add_dk; [apply xrel_set_rng, HR|]. split; [exact Hsk|reflexivity].
    - eexists. split; [reflexivity|]. apply xrel_add_dk; [exact HR|]. split; [exact HO|reflexivity].
    - destruct (xek_from_ok hs Hhs b HO) as [-> V]. cbn [bind]. eexists. split; [reflexivity|].
      apply xrel_add_ek; [exact HR|]. split; [exact V|reflexivity].
    - destruct (ct_from_ok b HO) as [-> V]. cbn [bind]. eexists. split; [reflexivity|].
      apply xrel_add_ct; [exact HR|]. split; [exact V|apply firstn_skipn].
    - (* encapsulation_key *)
      specialize (Fdk i). destruct (nth_error (d_dks g f) i) as [sk|].
      + destruct Fdk as (dk & -> & Hsk & ->). pose proof (xek_of_dk_ok hs Hhs X HX1 HX2 n sk Hsk) as W.
        destruct (XW_public hs (x25519 X) n sk) as [pkb|]; [|rewrite W; reflexivity].
        destruct W as (ek & -> & V & E). cbn [bind]. eexists. split; [reflexivity|].
        apply xrel_add_ek; [exact HR|split; assumption].
      + rewrite Fdk. eexists. split; [reflexivity|exact HR].
    - specialize (Fdk i). destruct (nth_error (d_dks g f) i) as [b|].
      + destruct Fdk as (x & -> & V). eexists. split; [reflexivity|]. apply xrel_add_dk; assumption.
      + rewrite Fdk. eexists. split; [reflexivity|exact HR].
    - specialize (Fek i). destruct (nth_error (d_eks g f) i) as [b|].
      + destruct Fek as (x & -> & V). eexists. split; [reflexivity|]. apply xrel_add_ek; assumption.
      + rewrite Fek. eexists. split; [reflexivity|exact HR].
    - specialize (Fct i). destruct (nth_error (d_cts g f) i) as [b|].
      + destruct Fct as (x & -> & V). eexists. split; [reflexivity|]. apply xrel_add_ct; assumption.
      + rewrite Fct. eexists. split; [reflexivity|exact HR].
    - (* reparse *)
      specialize (Fek i). destruct (nth_error (d_eks g f) i) as [b|].
      + destruct Fek as (ek & E & V & _). rewrite E. rewrite (xek_as_bytes_ok hs) by exact V. cbn [bind].
        rewrite xek_reparse by exact V. cbn [bind]. rewrite replace_nth_id by exact E.
        eexists. split; [reflexivity|]. exact HR.
      + rewrite Fek. eexists. split; [reflexivity|exact HR].
    - specialize (Fct i). destruct (nth_error (d_cts g f) i) as [b|].
      + destruct Fct as (ct & E & V & _). rewrite E. rewrite ct_as_bytes_ok by exact V. cbn [bind].
        rewrite ct_reparse by exact V. cbn [bind]. rewrite replace_nth_id by exact E.
        eexists. split; [reflexivity|]. exact HR.
      + rewrite Fct. eexists. split; [reflexivity|exact HR].
    - (* as_bytes *)
      specialize (Fdk i). destruct (nth_error (d_dks g f) i) as [b|].
      + destruct Fdk as (x & -> & _ & ->). eexists. split; [reflexivity|exact HR].
      + rewrite Fdk. eexists. split; [reflexivity|exact HR].
    - specialize (Fek i). destruct (nth_error (d_eks g f) i) as [b|].
      + destruct Fek as (ek & -> & V & <-). rewrite (xek_as_bytes_ok hs) by exact V. cbn [bind].
        eexists. split; [reflexivity|exact HR].
      + rewrite Fek. eexists. split; [reflexivity|exact HR].
    - specialize (Fct i). destruct (nth_error (d_cts g f) i) as [b|].
      + destruct Fct as (ct & -> & V & <-). rewrite ct_as_bytes_ok by exact V. cbn [bind].
        eexists. split; [reflexivity|exact HR].
      + rewrite Fct. eexists. split; [reflexivity|exact HR].
    - (* equality *)
      pose proof (Fek i) as Fi. destruct (nth_error (d_eks g f) i) as [b|].
      + destruct Fi as (ek & -> & V & <-). pose proof (Fek j) as Fj. destruct (nth_error (d_eks g f) j) as [b'|].
        * destruct Fj as (ek' & -> & V' & <-). eexists. split; [|exact HR]. do 3 f_equal.
          destruct (xek_sections hs ek V) as (-> & -> & _). destruct (xek_sections hs ek' V') as (-> & -> & _).
          unfold xw_ek_eqb. f_equal. apply xek_m_eqb; assumption.
        * rewrite Fj. eexists. split; [reflexivity|exact HR].
      + rewrite Fi. eexists. split; [reflexivity|exact HR].
    - pose proof (Fct i) as Fi. destruct (nth_error (d_cts g f) i) as [b|].
      + destruct Fi as (ct & -> & V & <-). pose proof (Fct j) as Fj. destruct (nth_error (d_cts g f) j) as [b'|].
        * destruct Fj as (ct' & -> & V' & <-). eexists. split; [|exact HR]. do 3 f_equal. apply xct_eqb; assumption.
        * rewrite Fj. eexists. split; [reflexivity|exact HR].
      + rewrite Fi. eexists. split; [reflexivity|exact HR].
    - (* encapsulate *)
      specialize (Fek i). destruct (nth_error (d_eks g f) i) as [b|].
      + destruct Fek as (ek & -> & V & <-). rewrite R4.
        pose proof (xw_encapsulate_ok hs Hhs X HX1 n ek g (d_rng g f) V Hg) as W.
        destruct (fill_bytes g (d_rng g f) 32) as [m r1]. destruct (fill_bytes g r1 32) as [e r2].
        destruct (XW_Encaps hs (x25519 X) n (xek_bytes ek) (m ++ e)) as [[ss ctb]|]; [|rewrite W; reflexivity].
        destruct W as (ct & -> & Vc & Eb & _). cbn [bind]. rewrite ct_as_bytes_ok by exact Vc. cbn [bind]. rewrite Eb.
        eexists. split; [reflexivity|]. apply xrel_add_ct; [apply xrel_set_rng, HR|]. split; assumption.
      + rewrite Fek. eexists. split; [reflexivity|exact HR].
    - (* decapsulate *)
      specialize (Fdk i). destruct (nth_error (d_dks g f) i) as [sk|].
      + destruct Fdk as (dk & -> & Hsk & ->). specialize (Fct j). destruct (nth_error (d_cts g f) j) as [b|].
        * destruct Fct as (ct & -> & V & <-). rewrite (xw_decapsulate_ok hs Hhs X HX1 HX2) by assumption.
          destruct (XW_Decaps hs (x25519 X) n (ct_m ct ++ ct_x ct) sk) as [ss|]; [|reflexivity].
          cbn [lift bind]. eexists. split; [reflexivity|exact HR].
        * rewrite Fct. eexists. split; [reflexivity|exact HR].
      + rewrite Fdk. eexists. split; [reflexivity|exact HR].
  Qed.

  Lemma xrun_refines steps cl h s f : (forall h, xop_ok (cl h)) -> xrel s f ->
    xrun (xapi_step hs X peq n g) steps cl h s = xrun (xw_draft_step hs (x25519 X) peq n g) steps cl h f.
  Proof.
    intros HO. revert h s f. induction steps as [|steps IH]; intros h s f HR; [reflexivity|]. cbn [xrun].
    pose proof (xstep_refines s f (cl h) HR (HO h)) as W.
    destruct (xw_draft_step hs (x25519 X) peq n g f (cl h)) as [[o f']| | |]; try contradiction.
    - destruct W as (s' & -> & HR'). apply IH, HR'.
    - rewrite W. reflexivity.
  Qed.

  Lemma xrel_start r : xrel (xapi_start g r) (draft_start g r).
  Proof. split; [constructor|]. split; [constructor|]. split; [constructor|reflexivity]. Qed.

  (** ** C52 *)
  Theorem C52_histories steps cl r : (forall h, xop_ok (cl h)) ->
    xrun (xapi_step hs X peq n g) steps cl [] (xapi_start g r) =
    xrun (xw_draft_step hs (x25519 X) peq n g) steps cl [] (draft_start g r).
  Proof. intros HO. apply xrun_refines; [exact HO|apply xrel_start]. Qed.

  Theorem C52_no_crash steps cl r : (forall h, xop_ok (cl h)) ->
    ~ In Crashes (xrun (xapi_step hs X peq n g) steps cl [] (xapi_start g r)).
  Proof.
    intros HO.
    assert (G : forall steps h s f, xrel s f -> ~ In Crashes h ->
      ~ In Crashes (xrun (xapi_step hs X peq n g) steps cl h s)).
    { clear steps. induction steps as [|steps IH]; intros h s f HR Hh; [exact Hh|]. cbn [xrun].
      pose proof (xstep_refines s f (cl h) HR (HO h)) as W.
      assert (W2 : match xw_draft_step hs (x25519 X) peq n g f (cl h) with
                  | Ok (o, _) => o <> Crashes | NoFuel => True | _ => False end).
      { destruct (cl h); cbn [xw_draft_step];
          repeat match goal with
                 | |- context [match nth_error ?l ?i with _ => _ end] => destruct (nth_error l i)
                 | |- context [let '(_, _) := ?x in _] => destruct x
                 | |- context [match ?x with Some _ => _ | None => _ end] => destruct x as [[? ?]|] || destruct x
                 end; try exact I; discriminate. }
      destruct (xw_draft_step hs (x25519 X) peq n g f (cl h)) as [[o f']| | |]; try contradiction.
      - destruct W as (s' & -> & HR'). apply (IH _ s' f' HR'). rewrite in_app_iff. cbn [In]. intuition congruence.
      - rewrite W. rewrite in_app_iff. cbn [In]. intuition congruence. }
    apply (G steps [] _ _ (xrel_start r)). intros [].
  Qed.

  (** Serialising and parsing an encapsulation key or a ciphertext again is invisible at
      any point of any history. *)
  Inductive xreachable : xapi_state g -> Prop :=
  | xreach_start r : xreachable (xapi_start g r)
  | xreach_step s o ob s' : xreachable s -> xop_ok o -> xapi_step hs X peq n g s o = Ok (ob, s') -> xreachable s'.

  Lemma xreachable_rel s : xreachable s -> exists f, xrel s f.
  Proof.
    induction 1 as [r|s o ob s' Hs [f Hf] HO E].
    - exists (draft_start g r). apply xrel_start.
    - pose proof (xstep_refines s f o Hf HO) as W.
      destruct (xw_draft_step hs (x25519 X) peq n g f o) as [[ob' f']| | |]; try contradiction.
      + destruct W as (s2 & E2 & HR). rewrite E2 in E. apply Ok_inj in E. pose proof (f_equal snd E) as E3.
        cbn [snd] in E3. subst s2. exists f'. exact HR.
      + rewrite W in E. discriminate E.
  Qed.

  Theorem C52_reparse s i : xreachable s ->
    xapi_step hs X peq n g s (XReparseEk i) =
      Ok (match nth_error (x_eks g s) i with None => NoSuchKey | Some _ => Done end, s) /\
    xapi_step hs X peq n g s (XReparseCt i) =
      Ok (match nth_error (x_cts g s) i with None => NoSuchKey | Some _ => Done end, s).
  Proof.
    intros Hs. destruct (xreachable_rel s Hs) as [f (_ & R2 & R3 & _)]. cbn [xapi_step]. unfold with_object. split.
    - destruct (nth_error (x_eks g s) i) as [ek|] eqn:E; [|reflexivity].
      pose proof (Forall2_nth_error _ _ xrel_ek _ _ i R2) as W. rewrite E in W.
      destruct (nth_error (d_eks g f) i) as [b|]; [|discriminate].
      destruct W as (x & Q & V & _). apply Some_inj in Q. subst x.
      rewrite (xek_as_bytes_ok hs) by exact V. cbn [bind]. rewrite xek_reparse by exact V. cbn [bind].
      rewrite replace_nth_id by exact E. destruct s. reflexivity.
    - destruct (nth_error (x_cts g s) i) as [ct|] eqn:E; [|reflexivity].
      pose proof (Forall2_nth_error _ _ xrel_ct _ _ i R3) as W. rewrite E in W.
      destruct (nth_error (d_cts g f) i) as [b|]; [|discriminate].
      destruct W as (x & Q & V & _). apply Some_inj in Q. subst x.
      rewrite ct_as_bytes_ok by exact V. cbn [bind]. rewrite ct_reparse by exact V. cbn [bind].
      rewrite replace_nth_id by exact E. destruct s. reflexivity.
  Qed.
End Refinement.

(** ** A concrete history

    Generate a key pair, serialise and parse its encapsulation key again, encapsulate,
    clone the ciphertext, decapsulate the clone, and use a key that does not exist. *)
Definition an_xclient : xclient := fun h =>
  match length h with
  | 0%nat => XGenerateKeyPair
  | 1%nat => XEncapsulationKey 0
  | 2%nat => XEqEk 0 1
  | 3%nat => XReparseEk 1
  | 4%nat => XEncapsulate 1
  | 5%nat => XCloneCt 0
  | 6%nat => XDecapsulate 0 1
  | 7%nat => XParseCt (repeat 7 1120)
  | 8%nat => XEqCt 0 2
  | 9%nat => XDecapsulate 0 2
  | _ => XDecapsulate 0 3
  end.
Lemma an_xclient_ok h : xop_ok (an_xclient h).
Proof.
  unfold an_xclient. destruct (length h) as [|[|[|[|[|[|[|[|[|[|l]]]]]]]]]]; try exact I.
  apply repeat_bytes. unfold is_byte. lia.
Qed.
(** computed by the virtual machine: the shared secrets agree; another ciphertext gives
    another secret; the last call names no ciphertext *)
Definition C52_history : list obs := Eval vm_compute in
  xrun (xapi_step toy toy_x25519 same_bytes 300 counter) 11 an_xclient [] (xapi_start counter 5).
Example C52_history_case :
  match C52_history with
  | [Done; Done; Answer true; Done; Encapsulated c K; Done; Bytes K'; Done; Answer false; Bytes K''; NoSuchKey] =>
      length c = 1120%nat /\ K' = K /\ same K K'' = false
  | _ => False
  end.
Proof. vm_compute. repeat split; reflexivity. Qed.
Example C52_case : hash_ok toy /\ x25519_ok toy_x25519 /\ rng_ok counter /\ (forall h, xop_ok (an_xclient h)) /\
  xrun (xapi_step toy toy_x25519 same_bytes 300 counter) 3
    (fun h => match length h with 0%nat => XGenerateDk | 1%nat => XCloneDk 0 | _ => XDkBytes 1 end)
    [] (xapi_start counter 5) = [Done; Done; Bytes (fst (fill_bytes counter 5 32))].
Proof.
  split; [exact toy_ok|]. split; [exact toy_x25519_ok|]. split; [exact counter_ok|]. split; [exact an_xclient_ok|].
  vm_compute. reflexivity.
Qed.

(** [==] on encapsulation keys may say yes where the bytes differ: x25519-dalek compares
    points, and the draft's combiner hashes bytes.  Whatever the comparison, equal keys
    have equal ML-KEM parts; the shared secrets agree when the bytes do. *)
Theorem C52_equality hs X peq a b : hash_ok hs -> x25519_ok X ->
  reachable_xek hs X a -> reachable_xek hs X b -> exists ba bb,
    xw_ek_as_bytes a = Ok ba /\ xw_ek_as_bytes b = Ok bb /\
    (xw_ek_eqb peq a b = true <-> firstn 1184 ba = firstn 1184 bb /\ peq (skipn 1184 ba) (skipn 1184 bb) = true) /\
    (ba = bb <-> a = b).
Proof.
  intros Hhs HX Ha Hb. pose proof (reachable_xek_valid hs Hhs X HX a Ha) as Va.
  pose proof (reachable_xek_valid hs Hhs X HX b Hb) as Vb.
  exists (xek_bytes a), (xek_bytes b). split; [apply (xek_as_bytes_ok hs), Va|]. split; [apply (xek_as_bytes_ok hs), Vb|].
  destruct (xek_sections hs a Va) as (A1 & A2 & _), (xek_sections hs b Vb) as (B1 & B2 & _). split.
  - unfold xw_ek_eqb. rewrite (xek_m_eqb hs a b Va Vb), andb_true_iff, same_bytes_true, A1, A2, B1, B2. reflexivity.
  - split; [|intros ->; reflexivity]. intros E.
    rewrite <- (xek_parse_bytes hs a Va), <- (xek_parse_bytes hs b Vb), E. reflexivity.
Qed.

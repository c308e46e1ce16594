(** C86: over any history of X-Wing calls with a generator that may fail, by a client that
    catches panics and goes on, the implementation answers as the draft does on byte strings,
    where a failed call changes nothing. *)
From Coq Require Import List ZArith Lia Bool Arith.
From Verif.Base Require Import Res Oracles Failing.
From Verif.Model Require Import Machine Util Algebra Compress Encode Crypto Sample Param Pke Kem XWing Fallible Session XWingSession FailingXWing.
From Verif.Spec Require Import FIPS203 Domains XWing Session XWingSession FailingSession FailingXWing.
From Verif.Proofs Require Import Basics Field Poly EncodeProofs VecEncode SampleProofs PkeProofs KemProofs XWingProofs.
From Verif.Tests Require Import Toy.
From Verif.Properties Require Import Kem KemCases Correctness XWing Sessions XWingSessions Randomness RandomnessSessions.
Import ListNotations.
Open Scope Z_scope.

Section Refinement.
  Variable hs : hashes.
  Hypothesis Hhs : hash_ok hs.
  Variable X : x25519_impl.
  Hypothesis HX : x25519_ok X.
  Variable peq : list Z -> list Z -> bool.
  Variable n : nat.
  Variable g : mp_rng.
  Hypothesis Hg : mp_ok g.

  Let HX1 := proj1 HX.
  Let HX2 := proj2 HX.

  Definition pxrel (s : px_state g) (f : pd_state g) : Prop :=
    xrel hs no_rng (px_keys g s) (pd_keys g f) /\ px_rng g s = pd_rng g f.

  (** both draws are made *)
  Lemma both_draws ek m e : valid_xek hs ek -> byte_string 32 m -> byte_string 32 e ->
    let cx := x25519 X e X25519_BASEPOINT_BYTES in
    match XW_Encaps hs (x25519 X) n (xek_bytes ek) (m ++ e) with
    | None => encapsulate_deterministic_inner hs MlKem768Params n (pk_m ek) m = NoFuel
    | Some (ss, ctb) => exists c K, encapsulate_deterministic_inner hs MlKem768Params n (pk_m ek) m = Ok (c, K) /\
        valid_ct {| ct_m := c; ct_x := cx |} /\ c ++ cx = ctb /\ combiner hs K (x25519 X e (pk_x ek)) cx (pk_x ek) = ss
    end.
  Proof.
    intros V Hm He cx. pose proof (xw_encapsulate_ok hs Hhs X HX1 n ek (two_draws m e) false V (two_draws_ok m e Hm He)) as W.
    cbn [two_draws fill_bytes] in W. change (Nat.eqb 32 32) with true in W. cbv iota beta in W.
    assert (F : xw_encapsulate hs X n ek (two_draws m e) false =
      let* '(c, K) := encapsulate_deterministic_inner hs MlKem768Params n (pk_m ek) m in
      Ok ({| ct_m := c; ct_x := cx |}, combiner hs K (x25519 X e (pk_x ek)) cx (pk_x ek), true)).
    { unfold xw_encapsulate, encapsulate, rand, xw_generate. cbn [two_draws fill_bytes]. change (Nat.eqb 32 32) with true. cbv iota beta.
      destruct (encapsulate_deterministic_inner hs MlKem768Params n (pk_m ek) m) as [[c K]| | |]; reflexivity. }
    rewrite F in W. destruct (XW_Encaps hs (x25519 X) n (xek_bytes ek) (m ++ e)) as [[ss ctb]|].
    - destruct W as (ct & E & Vc & Eb & _). destruct (encapsulate_deterministic_inner hs MlKem768Params n (pk_m ek) m) as [[c K]| | |];
        cbn [bind] in E; try discriminate E. exists c, K. split; [reflexivity|]. apply Ok_inj in E.
      pose proof (f_equal (fun p => fst (fst p)) E) as E1. pose proof (f_equal (fun p => snd (fst p)) E) as E2. cbn [fst snd] in E1, E2.
      subst ct. split; [exact Vc|]. split; [exact Eb|exact E2].
    - destruct (encapsulate_deterministic_inner hs MlKem768Params n (pk_m ek) m) as [[c K]| | |]; cbn [bind] in W; try discriminate W. reflexivity.
  Qed.
  Lemma first_draw pk m e : byte_string 32 m ->
    (XW_Encaps hs (x25519 X) n pk (m ++ e) = None <-> Encaps_internal hs ML_KEM_768 n (firstn 1184 pk) m = None).
  Proof.
    intros Hm. unfold XW_Encaps. change (bytes32 0 (m ++ e)) with (firstn 32 (m ++ e)).
    assert (EF : firstn 32 (m ++ e) = m) by (rewrite <- (proj1 Hm) at 1; apply firstn_app_exact; reflexivity).
    rewrite EF. destruct (Encaps_internal hs ML_KEM_768 n (firstn 1184 pk) m) as [[? ?]|]; split; intros; congruence.
  Qed.

  Lemma x_call_refines s f o : pxrel s f -> xop_ok o ->
    match (let* '(ob, keys) := xw_draft_step hs (x25519 X) peq n no_rng (pd_keys g f) o in x_done g ob keys (pd_rng g f)) with
    | Ok (ob, f') => exists s', x_catch g s (xapi_step hs X peq n no_rng (px_keys g s) o, px_rng g s) = Ok (ob, s') /\ pxrel s' f'
    | NoFuel => x_catch g s (xapi_step hs X peq n no_rng (px_keys g s) o, px_rng g s) = NoFuel
    | _ => False
    end.
  Proof.
    intros [HR RR] HO. pose proof (xstep_refines hs Hhs X HX peq n no_rng no_rng_ok _ _ o HR HO) as W. rewrite RR.
    destruct (xw_draft_step hs (x25519 X) peq n no_rng (pd_keys g f) o) as [[ob k]| | |]; cbn [bind]; try contradiction.
    - destruct W as (k' & -> & HR'). eexists. split; [reflexivity|]. split; [exact HR'|reflexivity].
    - rewrite W. reflexivity.
  Qed.

  Lemma x_patient_refines s f o : pxrel s f -> xop_ok o ->
    match patient_draft_step hs (x25519 X) peq n g f o with
    | Ok (ob, f') => exists s', patient_xapi_step hs X peq n g s o = Ok (ob, s') /\ pxrel s' f'
    | NoFuel => patient_xapi_step hs X peq n g s o = NoFuel
    | _ => False
    end.
  Proof.
    intros HR HO.
    assert (FR : forall r, exists s', Ok (None, {| px_keys := px_keys g s; px_rng := r |}) = Ok (@None obs, s') /\
      pxrel s' {| pd_keys := pd_keys g f; pd_rng := r |}).
    { intros r. eexists. split; [reflexivity|]. split; [apply HR|reflexivity]. }
    destruct o; try exact (x_call_refines s f _ HR HO); cbn [patient_draft_step patient_xapi_step]; cbv zeta; change (random32 g) with (draw g).
    - unfold op_bind. rewrite generate_key_pair_draws, (proj2 HR).
      destruct (draw g (pd_rng g f)) as [[sk|] r] eqn:E1; [|apply FR].
      pose proof (xek_of_dk_ok hs Hhs X HX1 HX2 n sk (draw_bytes g _ sk r Hg E1)) as W.
      destruct (XW_public hs (x25519 X) n sk) as [pkb|]; [|rewrite W; reflexivity].
      destruct W as (ek & -> & V & E). cbn [bind]. eexists. split; [reflexivity|]. split; [|reflexivity].
      apply xrel_add_ek; [|split; assumption]. apply xrel_add_dk; [apply HR|]. split; [exact (draw_bytes g _ sk r Hg E1)|reflexivity].
    - unfold f_xw_dk_generate, f_xw_generate, fill, op_bind, op_pure. rewrite (proj2 HR). cbv zeta. fold (draw g (pd_rng g f)).
      destruct (draw g (pd_rng g f)) as [[sk|] r] eqn:E1; [|apply FR]. eexists. split; [reflexivity|]. split; [|reflexivity].
      apply xrel_add_dk; [apply HR|]. split; [exact (draw_bytes g _ sk r Hg E1)|reflexivity].
    - destruct HR as [HR RR]. pose proof HR as (R1 & R2 & R3 & R4). pose proof (Forall2_nth_error _ _ (xrel_ek hs) _ _ i R2) as NE.
      destruct (nth_error (d_eks no_rng (pd_keys g f)) i) as [b|]; [|rewrite NE; exists s; split; [reflexivity|split; [exact HR|exact RR]]].
      destruct NE as (ek & NE & V & <-). rewrite NE. unfold op_bind. rewrite xw_encapsulate_draws, RR.
      destruct (draw g (pd_rng g f)) as [[m|] r1] eqn:E1; [|apply FR]. pose proof (draw_bytes g _ m r1 Hg E1) as Hm.
      destruct (Encaps_internal hs ML_KEM_768 n (firstn 1184 (xek_bytes ek)) m) as [ck|] eqn:EE.
      + assert (NN : exists c K, encapsulate_deterministic_inner hs MlKem768Params n (pk_m ek) m = Ok (c, K)).
        { pose proof (both_draws ek m _ V Hm zeros_bytes) as W. pose proof (first_draw (xek_bytes ek) m (repeat 0 32) Hm) as FD.
          destruct (XW_Encaps hs (x25519 X) n (xek_bytes ek) (m ++ repeat 0 32)) as [[ss ctb]|].
          - destruct W as (c & K & W & _). exists c, K. exact W.
          - rewrite (proj1 FD eq_refl) in EE. discriminate EE. }
        destruct NN as (c & K & NN). rewrite NN.
        destruct (draw g r1) as [[e|] r2] eqn:E2; [|apply FR]. pose proof (draw_bytes g _ e r2 Hg E2) as He.
        pose proof (both_draws ek m e V Hm He) as W. cbv zeta in W. cbv zeta.
        destruct (XW_Encaps hs (x25519 X) n (xek_bytes ek) (m ++ e)) as [[ss ctb]|]; [|rewrite NN in W; discriminate W].
        destruct W as (c' & K' & Ec & Vc & Eb & Es). rewrite NN in Ec. apply Ok_inj in Ec.
        pose proof (f_equal fst Ec) as Q1. pose proof (f_equal snd Ec) as Q2. cbn [fst snd] in Q1, Q2. subst c' K'.
        unfold op_pure. rewrite ct_as_bytes_ok by exact Vc. cbn [ct_m ct_x]. rewrite Eb, Es. cbn [x_catch].
        eexists. split; [reflexivity|]. split; [|reflexivity]. apply xrel_add_ct; [exact HR|]. split; [exact Vc|exact Eb].
      + pose proof (both_draws ek m _ V Hm zeros_bytes) as W.
        rewrite (proj2 (first_draw (xek_bytes ek) m (repeat 0 32) Hm) EE) in W. cbv zeta in W. rewrite W. reflexivity.
  Qed.

  Lemma x_run_on_refines steps cl h s f : (forall h, xop_ok (cl h)) -> pxrel s f ->
    run_on (patient_xapi_step hs X peq n g) steps cl h s = run_on (patient_draft_step hs (x25519 X) peq n g) steps cl h f.
  Proof.
    intros HO. revert h s f. induction steps as [|steps IH]; intros h s f HR; [reflexivity|]. cbn [run_on].
    pose proof (x_patient_refines s f (cl h) HR (HO h)) as W.
    destruct (patient_draft_step hs (x25519 X) peq n g f (cl h)) as [[o f']| | |]; try contradiction.
    - destruct W as (s' & -> & HR'). apply IH, HR'.
    - rewrite W. reflexivity.
  Qed.
  Lemma pxrel_start r : pxrel (px_start g r) (pd_start g r).
  Proof. split; [apply xrel_start|reflexivity]. Qed.

  Theorem C86_histories steps cl r : (forall h, xop_ok (cl h)) ->
    run_on (patient_xapi_step hs X peq n g) steps cl [] (px_start g r) =
    run_on (patient_draft_step hs (x25519 X) peq n g) steps cl [] (pd_start g r).
  Proof. intros HO. apply x_run_on_refines; [exact HO|apply pxrel_start]. Qed.

  (** states that histories reach *)
  Inductive x_patient_reachable : px_state g -> Prop :=
  | xpr_start r : x_patient_reachable (px_start g r)
  | xpr_step s o ob s' : x_patient_reachable s -> xop_ok o -> patient_xapi_step hs X peq n g s o = Ok (ob, s') -> x_patient_reachable s'.

  Lemma x_patient_rel s : x_patient_reachable s -> exists f, pxrel s f.
  Proof.
    induction 1 as [r|s o ob s' Hs [f Hf] HO E].
    - exists (pd_start g r). apply pxrel_start.
    - pose proof (x_patient_refines s f o Hf HO) as W.
      destruct (patient_draft_step hs (x25519 X) peq n g f o) as [[ob' f']| | |]; try contradiction.
      + destruct W as (s2 & E2 & HR). rewrite E2 in E. apply Ok_inj in E. pose proof (f_equal snd E) as E3. cbn [snd] in E3. subst s2.
        exists f'. exact HR.
      + rewrite W in E. discriminate E.
  Qed.

  Lemma x_catch_none (s : px_state g) x s' : x_catch g s x = Ok (None, s') -> px_keys g s' = px_keys g s.
  Proof.
    destruct x as [[[o k]| | |] r]; cbn [x_catch]; intros E; try discriminate E. apply Ok_inj in E. apply (f_equal snd) in E. cbn [snd] in E.
    subst s'. reflexivity.
  Qed.
  Lemma x_failed_keys (s : px_state g) o s' : patient_xapi_step hs X peq n g s o = Ok (None, s') -> px_keys g s' = px_keys g s.
  Proof.
    destruct o; try (intros E; exact (x_catch_none s _ s' E)). cbn [patient_xapi_step]. cbv zeta.
    destruct (nth_error (x_eks no_rng (px_keys g s)) i) as [ek|]; [|intros E; discriminate E]. intros E. exact (x_catch_none s _ s' E).
  Qed.

  (** The only panics are those of the generator: a call fails only if one of its draws does.  The
      keys and ciphertexts stay. *)
  Theorem C86_failures s o s' : x_patient_reachable s -> xop_ok o -> patient_xapi_step hs X peq n g s o = Ok (None, s') ->
    px_keys g s' = px_keys g s /\
    (((o = XGenerateKeyPair \/ o = XGenerateDk) /\ fst (draw g (px_rng g s)) = None) \/
     ((exists i, o = XEncapsulate i) /\
      (fst (draw g (px_rng g s)) = None \/ fst (draw g (snd (draw g (px_rng g s)))) = None))).
  Proof.
    intros Hs HO E. split; [exact (x_failed_keys s o s' E)|]. destruct (x_patient_rel s Hs) as [f HR].
    pose proof (x_patient_refines s f o HR HO) as W. rewrite (proj2 HR).
    assert (N : forall o, match (let* '(ob, keys) := xw_draft_step hs (x25519 X) peq n no_rng (pd_keys g f) o in x_done g ob keys (pd_rng g f)) with
        | Ok (ob, f') => exists s', patient_xapi_step hs X peq n g s o = Ok (ob, s') /\ pxrel s' f'
        | NoFuel => patient_xapi_step hs X peq n g s o = NoFuel | _ => False end -> patient_xapi_step hs X peq n g s o <> Ok (None, s')).
    { intros o0 W0 E0. destruct (xw_draft_step hs (x25519 X) peq n no_rng (pd_keys g f) o0) as [[ob k]| | |]; cbn [bind x_done] in W0; try contradiction.
      - destruct W0 as (s2 & E2 & _). rewrite E0 in E2. discriminate E2.
      - rewrite E0 in W0. discriminate W0. }
    destruct o; try (exfalso; refine (N _ _ E); exact W); clear N; cbn [patient_draft_step] in W; cbv zeta in W;
      change (random32 g) with (draw g) in W; rewrite E in W.
    - left. split; [left; reflexivity|]. destruct (draw g (pd_rng g f)) as [[sk|] r]; [|reflexivity]. exfalso.
      destruct (XW_public hs (x25519 X) n sk); [|discriminate W]. destruct W as (s2 & E2 & _). discriminate E2.
    - left. split; [right; reflexivity|]. destruct (draw g (pd_rng g f)) as [[sk|] r]; [|reflexivity]. exfalso.
      destruct W as (s2 & E2 & _). discriminate E2.
    - right. split; [exists i; reflexivity|]. destruct (nth_error (d_eks no_rng (pd_keys g f)) i) as [ek|].
      + destruct (draw g (pd_rng g f)) as [[m|] r1]; [|left; reflexivity]. right. cbn [snd].
        destruct (Encaps_internal hs ML_KEM_768 n (firstn 1184 ek) m); [|discriminate W].
        destruct (draw g r1) as [[e|] r2]; [|reflexivity]. exfalso.
        destruct (XW_Encaps hs (x25519 X) n ek (m ++ e)) as [[ss ct]|]; [|discriminate W]. destruct W as (s2 & E2 & _). discriminate E2.
      + exfalso. destruct W as (s2 & E2 & _). discriminate E2.
  Qed.
End Refinement.

(** ** cases *)

(** generate a key pair; encapsulate, where the second draw fails; and encapsulate again *)
Definition xtrier : patient_client xop := fun h =>
  match length h with 0%nat => XGenerateKeyPair | _ => XEncapsulate 0 end.
Lemma xtrier_ok h : xop_ok (xtrier h).
Proof. unfold xtrier. destruct (length h); exact I. Qed.
Lemma xtrier_runs hs X peq n sk m e ek c K ctb :
  byte_string 32 sk -> byte_string 32 m -> byte_string 32 e ->
  xw_encapsulation_key hs X n (xw_dk_from sk) = Ok ek ->
  encapsulate_deterministic_inner hs MlKem768Params n (pk_m ek) m = Ok (c, K) ->
  let cx := x25519 X e X25519_BASEPOINT_BYTES in
  xw_ct_as_bytes {| ct_m := c; ct_x := cx |} = Ok ctb ->
  run_on (patient_xapi_step hs X peq n script) 3 xtrier [] (px_start script [sk; m; []; m; e]) =
  [Some Done; None; Some (Encapsulated ctb (combiner hs K (x25519 X e (pk_x ek)) cx (pk_x ek)))].
Proof.
  intros Hsk Hm He E1 E2 cx E3.
  assert (D1 : draw script [[]; m; e] = (None, [m; e])) by reflexivity.
  assert (G : forall s, px_rng script s = [sk; m; []; m; e] -> patient_xapi_step hs X peq n script s XGenerateKeyPair =
    Ok (Some Done, {| px_keys := x_add_ek no_rng (x_add_dk no_rng (px_keys script s) (xw_dk_from sk)) ek; px_rng := ([m; []; m; e] : mp_state script) |})).
  { intros s Es. cbn [patient_xapi_step]. cbv zeta. unfold op_bind. rewrite generate_key_pair_draws, Es, (script_draw sk _ Hsk), E1. reflexivity. }
  assert (A : forall s, px_rng script s = [m; []; m; e] -> nth_error (x_eks no_rng (px_keys script s)) 0 = Some ek ->
    patient_xapi_step hs X peq n script s (XEncapsulate 0) = Ok (None, {| px_keys := px_keys script s; px_rng := ([m; e] : mp_state script) |})).
  { intros s Es Ek. cbn [patient_xapi_step]. cbv zeta. rewrite Ek. unfold op_bind. rewrite xw_encapsulate_draws, Es, (script_draw m _ Hm), E2, D1. reflexivity. }
  assert (B : forall s, px_rng script s = [m; e] -> nth_error (x_eks no_rng (px_keys script s)) 0 = Some ek ->
    patient_xapi_step hs X peq n script s (XEncapsulate 0) =
    Ok (Some (Encapsulated ctb (combiner hs K (x25519 X e (pk_x ek)) cx (pk_x ek))),
        {| px_keys := x_add_ct no_rng (px_keys script s) {| ct_m := c; ct_x := cx |}; px_rng := ([] : mp_state script) |})).
  { intros s Es Ek. cbn [patient_xapi_step]. cbv zeta. rewrite Ek. unfold op_bind.
    rewrite xw_encapsulate_draws, Es, (script_draw m _ Hm), E2, (script_draw e _ He). cbv zeta. fold cx. unfold op_pure. rewrite E3. reflexivity. }
  cbn [run_on xtrier length app]. rewrite G by reflexivity. cbn [run_on xtrier length app].
  rewrite A by reflexivity. cbn [run_on xtrier length app]. rewrite B by reflexivity. reflexivity.
Qed.

(** what [xw_encapsulate] computed, by its two draws *)
Lemma encapsulated_by hs X n ek g s ct ss s' : xw_encapsulate hs X n ek g s = Ok (ct, ss, s') ->
  exists m e c K s1, fill_bytes g s 32 = (m, s1) /\ e = fst (fill_bytes g s1 32) /\
    encapsulate_deterministic_inner hs MlKem768Params n (pk_m ek) m = Ok (c, K) /\ ct = {| ct_m := c; ct_x := x25519 X e X25519_BASEPOINT_BYTES |}.
Proof.
  unfold xw_encapsulate, encapsulate, rand, xw_generate. destruct (fill_bytes g s 32) as [m s1].
  destruct (encapsulate_deterministic_inner hs MlKem768Params n (pk_m ek) m) as [[c K]| | |] eqn:E; cbn [bind]; intros Q; try discriminate Q.
  exists m, (fst (fill_bytes g s1 32)), c, K, s1. split; [reflexivity|]. split; [reflexivity|]. split; [exact E|].
  destruct (fill_bytes g s1 32) as [e s2]. cbn [bind] in Q. apply Ok_inj in Q. apply (f_equal (fun p => fst (fst p))) in Q. cbn [fst] in Q |- *.
  symmetry. exact Q.
Qed.

Example C86_case : exists m e ctb ss,
  hash_ok toy /\ x25519_ok toy_x25519 /\ mp_ok script /\ (forall h, xop_ok (xtrier h)) /\
  run_on (patient_xapi_step toy toy_x25519 same_bytes 300 script) 3 xtrier [] (px_start script [seed 1; m; []; m; e]) =
  [Some Done; None; Some (Encapsulated ctb ss)].
Proof.
  destruct xwing_case as (ek & ct & ctb & ss & s' & _ & _ & E1 & E2 & E3 & _).
  destruct (encapsulated_by _ _ _ _ _ _ _ _ _ E2) as (m & e & c & K & s1 & Em & Ee & Ei & ->).
  exists m, e, ctb. eexists. split; [exact toy_ok|]. split; [exact toy_x25519_ok|]. split; [exact script_ok|]. split; [exact xtrier_ok|].
  assert (Hm : byte_string 32 m).
  { pose proof (counter_ok 5 32%nat) as Q. rewrite Em in Q. exact Q. }
  assert (He : byte_string 32 e) by (rewrite Ee; apply counter_ok).
  exact (xtrier_runs toy toy_x25519 same_bytes 300 (seed 1) m e ek c K ctb (seed_ok 1) Hm He E1 Ei E3).
Qed.

(** a failure in a reachable state *)
Example C86_case_failure : exists s s',
  x_patient_reachable toy toy_x25519 same_bytes 300 script s /\
  patient_xapi_step toy toy_x25519 same_bytes 300 script s XGenerateDk = Ok (None, s') /\ x_dks no_rng (px_keys script s) <> [].
Proof.
  exists {| px_keys := x_add_dk no_rng (xapi_start no_rng tt) (xw_dk_from (seed 1)); px_rng := ([] : mp_state script) |}.
  eexists. split; [|split; [reflexivity|discriminate]].
  apply (xpr_step toy toy_x25519 same_bytes 300%nat script (px_start script [seed 1]) XGenerateDk (Some Done)); [constructor|exact I|].
  cbn [patient_xapi_step]. cbv zeta. unfold f_xw_dk_generate, f_xw_generate, fill, op_bind, op_pure. cbv zeta.
  unfold px_start. cbn [px_rng px_keys]. fold (draw script [seed 1]). rewrite (script_draw (seed 1) [] (seed_ok 1)). reflexivity.
Qed.

(** C85: over any history of API calls with a generator that may fail, by a client that catches
    panics and goes on, the implementation answers as FIPS 203 does on serialised keys, where a
    failed call changes nothing. *)
From Coq Require Import List ZArith Lia Bool Arith.
From Verif.Base Require Import Res Oracles Failing.
From Verif.Model Require Import Machine Util Algebra Compress Encode Crypto Sample Param Pke Kem Fallible Session FailingSession.
From Verif.Spec Require Import FIPS203 Domains Session FailingSession.
From Verif.Proofs Require Import Basics Field Poly EncodeProofs VecEncode SampleProofs PkeProofs KemProofs.
From Verif.Tests Require Import Toy.
From Verif.Properties Require Import Kem KemCases Sessions Randomness.
Import ListNotations.
Open Scope Z_scope.

Lemma no_rng_ok : rng_ok no_rng.
Proof.
  intros s n. split; [apply repeat_length|]. apply Forall_forall. intros x Hx. apply repeat_spec in Hx. subst x.
  split; [apply Z.le_refl|reflexivity].
Qed.

Section Refinement.
  Variable hs : hashes.
  Hypothesis Hhs : hash_ok hs.
  Variable P : params.
  Hypothesis HP : wf_params P.
  Variable n : nat.
  Variable g : mp_rng.
  Hypothesis Hg : mp_ok g.

  Definition prel (s : pa_state g) (f : pf_state g) : Prop :=
    rel P no_rng (pa_keys g s) (pf_keys g f) /\ pa_rng g s = pf_rng g f.

  (** a deterministic call *)
  Lemma call_refines s f o r : prel s f -> op_ok P o ->
    match fips_call hs P n g f o r with
    | Ok (ob, f') => exists s', catch g s (api_step hs P n no_rng (pa_keys g s) o, r) = Ok (ob, s') /\ prel s' f'
    | NoFuel => catch g s (api_step hs P n no_rng (pa_keys g s) o, r) = NoFuel
    | _ => False
    end.
  Proof.
    intros [HR _] HO. pose proof (step_refines hs Hhs P HP n no_rng no_rng_ok _ _ o HR HO) as W. unfold fips_call.
    destruct (fips_step hs P n no_rng (pf_keys g f) o) as [[ob k]| | |]; cbn [bind]; try contradiction.
    - destruct W as (k' & -> & HR'). eexists. split; [reflexivity|]. split; [exact HR'|reflexivity].
    - rewrite W. reflexivity.
  Qed.

  Lemma patient_refines s f o : prel s f -> op_ok P o ->
    match patient_fips_step hs P n g f o with
    | Ok (ob, f') => exists s', patient_api_step hs P n g s o = Ok (ob, s') /\ prel s' f'
    | NoFuel => patient_api_step hs P n g s o = NoFuel
    | _ => False
    end.
  Proof.
    intros HR HO.
    assert (FR : forall r, exists s', Ok (None, {| pa_keys := pa_keys g s; pa_rng := r |}) = Ok (@None obs, s') /\
      prel s' {| pf_keys := pf_keys g f; pf_rng := r |}).
    { intros r. eexists. split; [reflexivity|]. split; [apply HR|reflexivity]. }
    assert (PL : forall o, op_ok P o -> match fips_call hs P n g f o (pf_rng g f) with
        | Ok (ob, f') => exists s', catch g s (api_step hs P n no_rng (pa_keys g s) o, pa_rng g s) = Ok (ob, s') /\ prel s' f'
        | NoFuel => catch g s (api_step hs P n no_rng (pa_keys g s) o, pa_rng g s) = NoFuel
        | _ => False
        end).
    { intros o0 HO0. rewrite (proj2 HR). exact (call_refines s f o0 (pf_rng g f) HR HO0). }
    destruct o; try exact (PL _ HO).
    - cbn [patient_fips_step patient_api_step]. cbv zeta. unfold op_bind. rewrite (generate_draws g hs P n (pa_rng g s)), (proj2 HR).
      change (random32 g) with (draw g). destruct (draw g (pf_rng g f)) as [[d|] r1] eqn:E1; [|apply FR].
      destruct (draw g r1) as [[z|] r2] eqn:E2; [|apply FR].
      pose proof (call_refines s f (OpGenerateDeterministic d z) r2 HR
        (conj (draw_bytes g _ d r1 Hg E1) (draw_bytes g _ z r2 Hg E2))) as W. cbn [api_step] in W.
      destruct (kem_generate_deterministic hs P n d z) as [[dk ek]| | |]; exact W.
    - cbn [patient_fips_step patient_api_step]. cbv zeta. destruct HR as [(R1 & R2 & R3) RR].
      pose proof (Forall2_nth_error _ _ (rel_ek P) _ _ i R2) as NE.
      destruct (nth_error (f_eks no_rng (pf_keys g f)) i) as [e|].
      + destruct NE as (ek & NE & _). rewrite NE. unfold op_bind. rewrite encapsulate_draws, RR.
        change (random32 g) with (draw g). destruct (draw g (pf_rng g f)) as [[m|] r1] eqn:E1; [|apply FR].
        pose proof (call_refines s f (OpEncapsulateDeterministic i m) r1 (conj (conj R1 (conj R2 R3)) RR) (draw_bytes g _ m r1 Hg E1)) as W.
        cbn [api_step] in W. unfold on in W. rewrite NE in W.
        destruct (encapsulate_deterministic hs P n ek m) as [[c K]| | |]; exact W.
      + rewrite NE. exists s. split; [reflexivity|]. split; [split; [exact R1|split; [exact R2|exact R3]]|exact RR].
  Qed.

  Lemma run_on_refines steps cl h s f : (forall h, op_ok P (cl h)) -> prel s f ->
    run_on (patient_api_step hs P n g) steps cl h s = run_on (patient_fips_step hs P n g) steps cl h f.
  Proof.
    intros HO. revert h s f. induction steps as [|steps IH]; intros h s f HR; [reflexivity|]. cbn [run_on].
    pose proof (patient_refines s f (cl h) HR (HO h)) as W.
    destruct (patient_fips_step hs P n g f (cl h)) as [[o f']| | |]; try contradiction.
    - destruct W as (s' & -> & HR'). apply IH, HR'.
    - rewrite W. reflexivity.
  Qed.

  Theorem C85_histories steps cl r : (forall h, op_ok P (cl h)) ->
    run_on (patient_api_step hs P n g) steps cl [] (pa_start g r) = run_on (patient_fips_step hs P n g) steps cl [] (pf_start g r).
  Proof.
    intros HO. apply run_on_refines; [exact HO|]. split; [|reflexivity]. split; [constructor|]. split; [constructor|reflexivity].
  Qed.

  (** states that histories reach *)
  Inductive patient_reachable : pa_state g -> Prop :=
  | pr_start r : patient_reachable (pa_start g r)
  | pr_step s o ob s' : patient_reachable s -> op_ok P o -> patient_api_step hs P n g s o = Ok (ob, s') -> patient_reachable s'.

  Lemma patient_rel s : patient_reachable s -> exists f, prel s f.
  Proof.
    induction 1 as [r|s o ob s' Hs [f Hf] HO E].
    - exists (pf_start g r). split; [|reflexivity]. split; [constructor|]. split; [constructor|reflexivity].
    - pose proof (patient_refines s f o Hf HO) as W.
      destruct (patient_fips_step hs P n g f o) as [[ob' f']| | |]; try contradiction.
      + destruct W as (s2 & E2 & HR). rewrite E2 in E. apply Ok_inj in E. pose proof (f_equal snd E) as E3. cbn [snd] in E3. subst s2.
        exists f'. exact HR.
      + rewrite W in E. discriminate E.
  Qed.

  Lemma catch_none (s : pa_state g) x s' : catch g s x = Ok (None, s') -> pa_keys g s' = pa_keys g s.
  Proof.
    destruct x as [[[o k]| | |] r]; cbn [catch]; intros E; try discriminate E. apply Ok_inj in E. apply (f_equal snd) in E. cbn [snd] in E.
    subst s'. reflexivity.
  Qed.
  Lemma failed_keys (s : pa_state g) o s' : patient_api_step hs P n g s o = Ok (None, s') -> pa_keys g s' = pa_keys g s.
  Proof.
    destruct o; try (intros E; exact (catch_none s _ s' E)). cbn [patient_api_step]. cbv zeta.
    destruct (nth_error (a_eks no_rng (pa_keys g s)) i) as [ek|]; [|intros E; discriminate E]. intros E. exact (catch_none s _ s' E).
  Qed.

  (** The only panics are those of the generator: a call fails only if one of its draws does.  The
      keys stay. *)
  Theorem C85_failures s o s' : patient_reachable s -> op_ok P o -> patient_api_step hs P n g s o = Ok (None, s') ->
    pa_keys g s' = pa_keys g s /\
    ((o = OpGenerate /\ (fst (draw g (pa_rng g s)) = None \/ fst (draw g (snd (draw g (pa_rng g s)))) = None)) \/
     ((exists i, o = OpEncapsulate i) /\ fst (draw g (pa_rng g s)) = None)).
  Proof.
    intros Hs HO E. split; [exact (failed_keys s o s' E)|]. destruct (patient_rel s Hs) as [f HR]. pose proof (patient_refines s f o HR HO) as W.
    assert (N : forall o r, match fips_call hs P n g f o r with Ok (None, _) => False | _ => True end).
    { intros o0 r. unfold fips_call. destruct (fips_step hs P n no_rng (pf_keys g f) o0) as [[ob k]| | |]; exact I. }
    assert (N' : forall o r, match fips_call hs P n g f o r with
        | Ok (ob, f') => exists s', patient_api_step hs P n g s o = Ok (ob, s') /\ prel s' f'
        | NoFuel => patient_api_step hs P n g s o = NoFuel | _ => False end -> patient_api_step hs P n g s o <> Ok (None, s')).
    { intros o0 r W0 E0. pose proof (N o0 r) as N0. destruct (fips_call hs P n g f o0 r) as [[[ob|] f']| | |]; try contradiction.
      - destruct W0 as (s2 & E2 & _). rewrite E0 in E2. discriminate E2.
      - rewrite E0 in W0. discriminate W0. }
    destruct o; try (exfalso; refine (N' _ (pf_rng g f) _ E); exact W); rewrite (proj2 HR); cbn [patient_fips_step] in W; change (random32 g) with (draw g) in W.
    - left. split; [reflexivity|]. destruct (draw g (pf_rng g f)) as [[d|] r1]; [|left; reflexivity]. right. cbn [snd].
      destruct (draw g r1) as [[z|] r2]; [|reflexivity]. exfalso.
      pose proof (N (OpGenerateDeterministic d z) r2) as N0. destruct (fips_call hs P n g f _ r2) as [[[ob|] f']| | |]; try contradiction.
      + destruct W as (s2 & E2 & _). rewrite E in E2. discriminate E2.
      + rewrite E in W. discriminate W.
    - right. split; [exists i; reflexivity|]. destruct (nth_error (f_eks no_rng (pf_keys g f)) i) as [e|].
      + destruct (draw g (pf_rng g f)) as [[m|] r1]; [|reflexivity]. exfalso.
        pose proof (N (OpEncapsulateDeterministic i m) r1) as N0. destruct (fips_call hs P n g f _ r1) as [[[ob|] f']| | |]; try contradiction.
        * destruct W as (s2 & E2 & _). rewrite E in E2. discriminate E2.
        * rewrite E in W. discriminate W.
      + exfalso. destruct W as (s2 & E2 & _). rewrite E in E2. discriminate E2.
  Qed.
End Refinement.

(** ** cases *)

Lemma generate_step hs P n g (s : pa_state g) : patient_api_step hs P n g s OpGenerate =
  match draw g (pa_rng g s) with
  | (None, r) => Ok (None, {| pa_keys := pa_keys g s; pa_rng := r |})
  | (Some d, r) =>
      match draw g r with
      | (None, r) => Ok (None, {| pa_keys := pa_keys g s; pa_rng := r |})
      | (Some z, r) =>
          catch g s (let* '(dk, ek) := kem_generate_deterministic hs P n d z in
                     Ok (Done, add_ek no_rng (add_dk no_rng (pa_keys g s) dk) ek), r)
      end
  end.
Proof.
  cbn [patient_api_step]. cbv zeta. unfold op_bind. rewrite generate_draws. destruct (draw g (pa_rng g s)) as [[d|] r1]; [|reflexivity].
  destruct (draw g r1) as [[z|] r2]; [|reflexivity]. destruct (kem_generate_deterministic hs P n d z) as [[dk ek]| | |]; reflexivity.
Qed.
Lemma encapsulate_step hs P n g (s : pa_state g) i ek : nth_error (a_eks no_rng (pa_keys g s)) i = Some ek ->
  patient_api_step hs P n g s (OpEncapsulate i) =
  match draw g (pa_rng g s) with
  | (None, r) => Ok (None, {| pa_keys := pa_keys g s; pa_rng := r |})
  | (Some m, r) =>
      catch g s (let* '(c, K) := encapsulate_deterministic hs P n ek m in Ok (Encapsulated c K, pa_keys g s), r)
  end.
Proof.
  intros E. cbn [patient_api_step]. cbv zeta. rewrite E. unfold op_bind. rewrite encapsulate_draws.
  destruct (draw g (pa_rng g s)) as [[m|] r1]; [|reflexivity].
  destruct (encapsulate_deterministic hs P n ek m) as [[c K]| | |]; reflexivity.
Qed.

(** generate; generate again, where the second draw fails; encapsulate to the first key; and once
    more, where the draw fails *)
Definition trier : patient_client op := fun h =>
  match length h with 0%nat | 1%nat => OpGenerate | _ => OpEncapsulate 0 end.
Lemma trier_runs hs P n d z d2 m dk ek c K :
  byte_string 32 d -> byte_string 32 z -> byte_string 32 d2 -> byte_string 32 m ->
  kem_generate_deterministic hs P n d z = Ok (dk, ek) -> encapsulate_deterministic hs P n ek m = Ok (c, K) ->
  run_on (patient_api_step hs P n script) 4 trier [] (pa_start script [d; z; d2; []; m]) =
  [Some Done; None; Some (Encapsulated c K); None].
Proof.
  intros Hd Hz Hd2 Hm E1 E2.
  assert (D0 : draw script [] = (None, [])) by reflexivity.
  assert (D1 : draw script [[]; m] = (None, [m])) by reflexivity.
  cbn [run_on trier length app]. rewrite generate_step. unfold pa_start. cbn [pa_rng pa_keys].
  rewrite (script_draw d _ Hd), (script_draw z _ Hz), E1. cbn [bind catch]. cbn [run_on trier length app].
  rewrite generate_step. cbn [pa_rng pa_keys]. rewrite (script_draw d2 _ Hd2), D1. cbn [run_on trier length app].
  rewrite (encapsulate_step hs P n script _ 0%nat ek) by reflexivity. cbn [pa_rng pa_keys].
  rewrite (script_draw m _ Hm), E2. cbn [bind catch]. cbn [run_on trier length app].
  rewrite (encapsulate_step hs P n script _ 0%nat ek) by reflexivity. cbn [pa_rng pa_keys]. rewrite D0. reflexivity.
Qed.
Lemma trier_ok P h : op_ok P (trier h).
Proof. unfold trier. destruct (length h) as [|[|k]]; exact I. Qed.

Example C85_case : exists c K,
  hash_ok toy /\ wf_params ML_KEM_512 /\ mp_ok script /\ (forall h, op_ok ML_KEM_512 (trier h)) /\
  run_on (patient_api_step toy ML_KEM_512 300 script) 4 trier [] (pa_start script [seed 1; seed 2; seed 4; []; seed 3]) =
  [Some Done; None; Some (Encapsulated c K); None].
Proof.
  destruct kem_case as (dk & ek & c & K & K2 & H1 & H2 & E1 & _ & Hek & E2 & _). exists c, K.
  split; [exact H1|]. split; [exact H2|]. split; [exact script_ok|]. split; [exact (trier_ok ML_KEM_512)|].
  exact (trier_runs toy ML_KEM_512 300 _ _ _ _ dk ek c K (seed_ok 1) (seed_ok 2) (seed_ok 4) (seed_ok 3) E1 E2).
Qed.

(** a failure in a reachable state *)
Example C85_case_failure : exists s s',
  patient_reachable toy ML_KEM_512 300 script s /\ patient_api_step toy ML_KEM_512 300 script s OpGenerate = Ok (None, s') /\
  a_dks no_rng (pa_keys script s) <> [].
Proof.
  destruct kem_case as (dk & ek & c & K & K2 & H1 & H2 & E1 & _ & Hek & E2 & _).
  exists {| pa_keys := add_ek no_rng (add_dk no_rng (api_start no_rng tt) dk) ek; pa_rng := ([] : mp_state script) |}.
  eexists. split; [|split; [rewrite generate_step; reflexivity|discriminate]].
  apply (pr_step toy ML_KEM_512 300%nat script (pa_start script [seed 1; seed 2]) OpGenerate (Some Done)); [constructor|exact I|].
  rewrite generate_step. unfold pa_start. cbn [pa_rng pa_keys].
  rewrite (script_draw (seed 1) [seed 2] (seed_ok 1)), (script_draw (seed 2) [] (seed_ok 2)), E1. reflexivity.
Qed.

(** C43: over any history of API calls, by a client that chooses each call from all earlier
    results, the implementation answers as FIPS 203 does on serialised keys. *)
From Coq Require Import List ZArith Lia Bool Arith.
From Verif.Base Require Import Res Oracles.
From Verif.Spec Require Import FIPS203 Domains Session.
From Verif.Model Require Import Machine Util Algebra Compress Encode Crypto Sample Param Pke Kem Session.
From Verif.Proofs Require Import Basics Field Poly EncodeProofs VecEncode SampleProofs PkeProofs KemProofs.
From Verif.Tests Require Import Toy.
From Verif.Properties Require Import Kem KemCases.
Import ListNotations.
Open Scope Z_scope.

Lemma Forall2_nth_error A B (R : A -> B -> Prop) l l' i : Forall2 R l l' ->
  match nth_error l' i with
  | None => nth_error l i = None
  | Some y => exists x, nth_error l i = Some x /\ R x y
  end.
Proof.
  intros H. revert i. induction H as [|x y l l' Hxy H IH]; intros [|i]; cbn [nth_error]; try reflexivity.
  - exists x. auto.
  - apply IH.
Qed.

Lemma replace_nth_id A (l : list A) i x : nth_error l i = Some x -> replace_nth i x l = l.
Proof.
  unfold replace_nth. revert l. induction i as [|i IH]; intros [|y l] E; try discriminate.
  - cbn [nth_error] in E. apply Some_inj in E. subst. reflexivity.
  - cbn [nth_error] in E. cbn [firstn app]. f_equal. change (skipn (S (S i)) (y :: l)) with (skipn (S i) l). apply IH, E.
Qed.

Section Refinement.
  Variable hs : hashes.
  Hypothesis Hhs : hash_ok hs.
  Variable P : params.
  Hypothesis HP : wf_params P.
  Variable n : nat.
  Variable g : rng.
  Hypothesis Hg : rng_ok g.
  Let k := pk P.

  Definition rel_dk (dk : decaps_key) (b : list Z) : Prop := valid_decaps_key P dk /\ dkey_bytes P dk = b.
  Definition rel_ek (ek : encaps_key) (e : list Z * list Z) : Prop :=
    valid_encaps_key P ek /\ ekey_bytes P ek = fst e /\ ek_h ek = snd e.
  Definition rel (s : api_state g) (f : fips_state g) : Prop :=
    Forall2 rel_dk (a_dks g s) (f_dks g f) /\ Forall2 rel_ek (a_eks g s) (f_eks g f) /\ a_rng g s = f_rng g f.

  Lemma rel_add_dk s f dk b : rel s f -> rel_dk dk b -> rel (add_dk g s dk) (f_add_dk g f b).
  Proof. intros (H1 & H2 & H3) H. split; [apply Forall2_app; [exact H1|repeat constructor; apply H]|]. split; assumption. Qed.
  Lemma rel_add_ek s f ek e : rel s f -> rel_ek ek e -> rel (add_ek g s ek) (f_add_ek g f e).
  Proof.
    intros (H1 & H2 & H3) H. split; [exact H1|]. split; [|exact H3].
    apply Forall2_app; [exact H2|]. constructor; [exact H|constructor].
  Qed.
  Lemma rel_set_rng s f r : rel s f -> rel (set_rng g s r) (f_set_rng g f r).
  Proof. intros (H1 & H2 & H3). split; [exact H1|]. split; [exact H2|reflexivity]. Qed.

  Lemma reduce_ek_parse b : reduce_ek P b = ek_bytes P (ek_parse P b).
  Proof. reflexivity. Qed.
  Lemma reduce_dk_parse b : reduce_dk P b = dkey_bytes P (dkey_parse P b).
  Proof. reflexivity. Qed.

  (** equality of values is equality of encodings *)
  Lemma ek_pke_eq a b : valid_ek P a -> valid_ek P b -> (ek_bytes P a = ek_bytes P b <-> a = b).
  Proof.
    intros Va Vb. split; [|intros ->; reflexivity]. intros E.
    rewrite <- (ek_parse_bytes P a Va), <- (ek_parse_bytes P b Vb). rewrite E. reflexivity.
  Qed.
  Lemma eqb_iff (x y : bool) : (x = true <-> y = true) -> x = y.
  Proof. destruct x, y; intuition congruence. Qed.
  Lemma same_bytes_true a b : same_bytes a b = true <-> a = b.
  Proof. unfold same_bytes. destruct (list_eq_dec Z.eq_dec a b); split; congruence. Qed.
  Lemma bytes_eqb_true a b : bytes_eqb a b = true <-> a = b.
  Proof. unfold bytes_eqb. destruct (list_eq_dec Z.eq_dec a b); split; congruence. Qed.
  Lemma nttvec_eqb_true a b : nttvec_eqb a b = true <-> a = b.
  Proof. unfold nttvec_eqb. destruct (list_eq_dec _ a b); split; congruence. Qed.

  Lemma encaps_key_eqb_true a b : encaps_key_eqb a b = true <-> a = b.
  Proof.
    unfold encaps_key_eqb. rewrite !andb_true_iff, !bytes_eqb_true, nttvec_eqb_true.
    destruct a as [[x1 x2] x3], b as [[y1 y2] y3]. cbn [ek_pke ek_h Pke.t_hat Pke.rho]. split.
    - intros [[-> ->] ->]. reflexivity.
    - intros E. inversion E. auto.
  Qed.
  Lemma decaps_key_eqb_true a b : decaps_key_eqb a b = true <-> a = b.
  Proof.
    unfold decaps_key_eqb. rewrite !andb_true_iff, bytes_eqb_true, nttvec_eqb_true, encaps_key_eqb_true.
    destruct a as [[x1] x2 x3], b as [[y1] y2 y3]. cbn [dk_pke dk_ek dk_z Pke.s_hat]. split.
    - intros [[-> ->] ->]. reflexivity.
    - intros E. inversion E. auto.
  Qed.

  (** ** One step *)
  Lemma step_refines s f o : rel s f -> op_ok P o ->
    match fips_step hs P n g f o with
    | Ok (ob, f') => exists s', api_step hs P n g s o = Ok (ob, s') /\ rel s' f'
    | NoFuel => api_step hs P n g s o = NoFuel
    | _ => False
    end.
  Proof.
    intros HR HO. pose proof HR as (R1 & R2 & R3).
    assert (Fdk : forall i, match nth_error (f_dks g f) i with None => nth_error (a_dks g s) i = None
      | Some y => exists x, nth_error (a_dks g s) i = Some x /\ rel_dk x y end) by (intros; apply Forall2_nth_error, R1).
    assert (Fek : forall i, match nth_error (f_eks g f) i with None => nth_error (a_eks g s) i = None
      | Some y => exists x, nth_error (a_eks g s) i = Some x /\ rel_ek x y end) by (intros; apply Forall2_nth_error, R2).
    destruct o as [|d z|b|b|i|i|i|i|i|i|i j|i j|i|i m|i c]; cbn [fips_step api_step]; unfold on.
    - (* generate *)
      rewrite generate_split, R3. pose proof (Hg (f_rng g f) 32%nat) as Hd.
      destruct (fill_bytes g (f_rng g f) 32) as [d r1]. pose proof (Hg r1 32%nat) as Hz.
      destruct (fill_bytes g r1 32) as [z r2]. cbn [fst] in Hd, Hz.
      pose proof (generate_ok hs Hhs P HP n d z (proj2 Hd) Hz) as W.
      destruct (KeyGen_internal hs P n d z) as [[ekb dkb]|]; [|rewrite W; reflexivity].
      destruct W as (dk & -> & V & W2 & W3 & W4 & _). cbn [bind]. eexists. split; [reflexivity|].
      apply rel_add_ek; [apply rel_add_dk; [apply rel_set_rng, HR|split; assumption]|].
      split; [apply V|]. split; assumption.
    - (* generate_deterministic *)
      destruct HO as [Hd Hz]. pose proof (generate_ok hs Hhs P HP n d z (proj2 Hd) Hz) as W.
      destruct (KeyGen_internal hs P n d z) as [[ekb dkb]|]; [|rewrite W; reflexivity].
      destruct W as (dk & -> & V & W2 & W3 & W4 & _). cbn [bind]. eexists. split; [reflexivity|].
      apply rel_add_ek; [apply rel_add_dk; [exact HR|split; assumption]|].
      split; [apply V|]. split; assumption.
    - (* from_bytes, decapsulation key *)
      rewrite (decaps_key_from_bytes_ok P HP) by exact HO. cbn [bind]. eexists. split; [reflexivity|].
      apply rel_add_dk; [exact HR|]. split; [apply dkey_parse_valid, HO|reflexivity].
    - (* from_bytes, encapsulation key *)
      rewrite (encaps_key_from_bytes_ok hs P HP) by exact HO. cbn [bind]. eexists. split; [reflexivity|].
      apply rel_add_ek; [exact HR|]. split; [apply ekey_parse_valid; [exact Hhs|exact HO]|]. split; reflexivity.
    - (* encapsulation_key *)
      specialize (Fdk i). destruct (nth_error (f_dks g f) i) as [b|].
      + destruct Fdk as (dk & -> & V & <-). eexists. split; [reflexivity|].
        apply rel_add_ek; [exact HR|]. destruct (dkey_sections P dk V) as (_ & S2 & S3 & _).
        split; [apply V|]. unfold encapsulation_key, dk_sec_ek, dk_sec_h. cbn [fst snd]. rewrite S2, S3. split; reflexivity.
      + rewrite Fdk. eexists. split; [reflexivity|exact HR].
    - specialize (Fdk i). destruct (nth_error (f_dks g f) i) as [b|].
      + destruct Fdk as (dk & -> & V). eexists. split; [reflexivity|]. apply rel_add_dk; assumption.
      + rewrite Fdk. eexists. split; [reflexivity|exact HR].
    - specialize (Fek i). destruct (nth_error (f_eks g f) i) as [b|].
      + destruct Fek as (dk & -> & V). eexists. split; [reflexivity|]. apply rel_add_ek; assumption.
      + rewrite Fek. eexists. split; [reflexivity|exact HR].
    - (* reparse *)
      specialize (Fdk i). destruct (nth_error (f_dks g f) i) as [b|].
      + destruct Fdk as (dk & E & V & <-). rewrite E. rewrite decaps_key_as_bytes_ok by exact V. cbn [bind].
        rewrite (decaps_key_from_bytes_ok P HP) by apply (dkey_bytes_ok P dk V). cbn [bind].
        rewrite dkey_parse_bytes by exact V. rewrite replace_nth_id by exact E.
        eexists. split; [reflexivity|]. exact HR.
      + rewrite Fdk. eexists. split; [reflexivity|exact HR].
    - (* as_bytes *)
      specialize (Fdk i). destruct (nth_error (f_dks g f) i) as [b|].
      + destruct Fdk as (dk & -> & V & <-). rewrite decaps_key_as_bytes_ok by exact V. cbn [bind].
        eexists. split; [reflexivity|exact HR].
      + rewrite Fdk. eexists. split; [reflexivity|exact HR].
    - specialize (Fek i). destruct (nth_error (f_eks g f) i) as [[b h]|].
      + destruct Fek as (ek & -> & V & E & _). cbn [fst] in E. rewrite encaps_key_as_bytes_ok by exact V. cbn [bind].
        rewrite E. eexists. split; [reflexivity|exact HR].
      + rewrite Fek. eexists. split; [reflexivity|exact HR].
    - (* equality *)
      pose proof (Fdk i) as Fi. destruct (nth_error (f_dks g f) i) as [b|].
      + destruct Fi as (dk & -> & V & <-). pose proof (Fdk j) as Fj. destruct (nth_error (f_dks g f) j) as [b'|].
        * destruct Fj as (dk' & -> & V' & <-). eexists. split; [|exact HR]. do 3 f_equal. apply eqb_iff.
          rewrite same_bytes_true, decaps_key_eqb_true. split; [intros ->; reflexivity|]. intros E.
          rewrite <- (dkey_parse_bytes P dk V), <- (dkey_parse_bytes P dk' V'). rewrite E. reflexivity.
        * rewrite Fj. eexists. split; [reflexivity|exact HR].
      + rewrite Fi. eexists. split; [reflexivity|exact HR].
    - pose proof (Fek i) as Fi. destruct (nth_error (f_eks g f) i) as [[b h]|].
      + destruct Fi as (ek & -> & V & E1 & E2). cbn [fst snd] in E1, E2.
        pose proof (Fek j) as Fj. destruct (nth_error (f_eks g f) j) as [[b' h']|].
        * destruct Fj as (ek' & -> & V' & E1' & E2'). cbn [fst snd] in E1', E2'. eexists. split; [|exact HR].
          do 3 f_equal. apply eqb_iff. rewrite andb_true_iff, !same_bytes_true, encaps_key_eqb_true. subst.
          split; [intros ->; auto|]. intros [E1 E2]. unfold ekey_bytes in E1.
          apply ek_pke_eq in E1; [|apply V|apply V']. destruct ek as [x1 x2], ek' as [y1 y2]. cbn [ek_pke ek_h] in *. subst. reflexivity.
        * rewrite Fj. eexists. split; [reflexivity|exact HR].
      + rewrite Fi. eexists. split; [reflexivity|exact HR].
    - (* encapsulate *)
      specialize (Fek i). destruct (nth_error (f_eks g f) i) as [[b h]|].
      + destruct Fek as (ek & -> & V & E1 & E2). cbn [fst snd] in E1, E2. unfold encapsulate, rand. rewrite R3.
        pose proof (Hg (f_rng g f) 32%nat) as Hm. destruct (fill_bytes g (f_rng g f) 32) as [m r]. cbn [fst] in Hm.
        pose proof (encapsulate_deterministic_ok hs Hhs P HP n ek m V Hm) as W. unfold encapsulate_deterministic in W.
        rewrite W, E1, E2. destruct (Encaps_with hs P n b h m) as [[K c]|]; [|reflexivity].
        cbn [swap lift bind]. eexists. split; [reflexivity|]. apply rel_set_rng, HR.
      + rewrite Fek. eexists. split; [reflexivity|exact HR].
    - specialize (Fek i). destruct (nth_error (f_eks g f) i) as [[b h]|].
      + destruct Fek as (ek & -> & V & E1 & E2). cbn [fst snd] in E1, E2.
        rewrite (encapsulate_deterministic_ok hs Hhs P HP n ek m V HO), E1, E2.
        destruct (Encaps_with hs P n b h m) as [[K c]|]; [|reflexivity].
        cbn [swap lift bind]. eexists. split; [reflexivity|exact HR].
      + rewrite Fek. eexists. split; [reflexivity|exact HR].
    - (* decapsulate *)
      specialize (Fdk i). destruct (nth_error (f_dks g f) i) as [b|].
      + destruct Fdk as (dk & -> & V & <-). rewrite (decapsulate_ok hs Hhs P HP) by (exact V || exact HO).
        destruct (Decaps_internal hs P n (dkey_bytes P dk) c) as [K|]; [|reflexivity].
        cbn [lift bind]. eexists. split; [reflexivity|exact HR].
      + rewrite Fdk. eexists. split; [reflexivity|exact HR].
  Qed.

  Lemma run_refines steps cl h s f : (forall h, op_ok P (cl h)) -> rel s f ->
    run (api_step hs P n g) steps cl h s = run (fips_step hs P n g) steps cl h f.
  Proof.
    intros HO. revert h s f. induction steps as [|steps IH]; intros h s f HR; [reflexivity|]. cbn [run].
    pose proof (step_refines s f (cl h) HR (HO h)) as W.
    destruct (fips_step hs P n g f (cl h)) as [[o f']| | |]; try contradiction.
    - destruct W as (s' & -> & HR'). apply IH, HR'.
    - rewrite W. reflexivity.
  Qed.

  (** ** C43 *)
  Theorem C43_histories steps cl r : (forall h, op_ok P (cl h)) ->
    run (api_step hs P n g) steps cl [] (api_start g r) = run (fips_step hs P n g) steps cl [] (fips_start g r).
  Proof. intros HO. apply run_refines; [exact HO|]. split; [constructor|]. split; [constructor|reflexivity]. Qed.

  (** no history ends in a panic or in undefined behaviour *)
  Theorem C43_no_crash steps cl r : (forall h, op_ok P (cl h)) ->
    ~ In Crashes (run (api_step hs P n g) steps cl [] (api_start g r)).
  Proof.
    intros HO. rewrite C43_histories by exact HO. generalize (fips_start g r) as f. intros f.
    assert (G : forall steps h f, ~ In Crashes h -> ~ In Crashes (run (fips_step hs P n g) steps cl h f)).
    { clear steps f. induction steps as [|steps IH]; intros h f Hh; [exact Hh|]. cbn [run].
      assert (W : match fips_step hs P n g f (cl h) with
                  | Ok (o, _) => o <> Crashes | NoFuel => True | _ => False end).
      { destruct (cl h); cbn [fips_step];
          repeat match goal with
                 | |- context [match nth_error ?l ?i with _ => _ end] => destruct (nth_error l i)
                 | |- context [let '(_, _) := ?x in _] => destruct x
                 | |- context [match ?x with Some _ => _ | None => _ end] => destruct x as [[? ?]|] || destruct x
                 end; try exact I; discriminate. }
      destruct (fips_step hs P n g f (cl h)) as [[o f']| | |]; try contradiction.
      - apply IH. rewrite in_app_iff. cbn [In]. intuition congruence.
      - rewrite in_app_iff. cbn [In]. intuition congruence. }
    apply G. intros [].
  Qed.

  (** Serialising and parsing a decapsulation key again is invisible at any point of any
      history: in every state that calls can lead to, it leaves the state as it was. *)
  Inductive reachable : api_state g -> Prop :=
  | reach_start r : reachable (api_start g r)
  | reach_step s o ob s' : reachable s -> op_ok P o -> api_step hs P n g s o = Ok (ob, s') -> reachable s'.

  Lemma reachable_rel s : reachable s -> exists f, rel s f.
  Proof.
    induction 1 as [r|s o ob s' Hs [f Hf] HO E].
    - exists (fips_start g r). split; [constructor|]. split; [constructor|reflexivity].
    - pose proof (step_refines s f o Hf HO) as W.
      destruct (fips_step hs P n g f o) as [[ob' f']| | |]; try contradiction.
      + destruct W as (s2 & E2 & HR). rewrite E2 in E. apply Ok_inj in E. pose proof (f_equal snd E) as E3.
        cbn [snd] in E3. subst s2. exists f'. exact HR.
      + rewrite W in E. discriminate E.
  Qed.

  Theorem C43_reparse s i : reachable s ->
    api_step hs P n g s (OpReparseDk i) = Ok (match nth_error (a_dks g s) i with None => NoSuchKey | Some _ => Done end, s).
  Proof.
    intros Hs. destruct (reachable_rel s Hs) as [f (R1 & _)]. cbn [api_step]. unfold on.
    destruct (nth_error (a_dks g s) i) as [dk|] eqn:E; [|reflexivity].
    pose proof (Forall2_nth_error _ _ rel_dk _ _ i R1) as W. rewrite E in W.
    destruct (nth_error (f_dks g f) i) as [b|]; [|discriminate].
    destruct W as (x & Q & V & _). apply Some_inj in Q. subst x.
    rewrite decaps_key_as_bytes_ok by exact V. cbn [bind].
    rewrite (decaps_key_from_bytes_ok P HP) by apply (dkey_bytes_ok P dk V). cbn [bind].
    rewrite dkey_parse_bytes by exact V. rewrite replace_nth_id by exact E. destruct s. reflexivity.
  Qed.
End Refinement.

(** ** A concrete history

    Parse an arbitrary decapsulation key, take its encapsulation key, clone and compare,
    encapsulate, and decapsulate what came out; the last call uses a key that does not
    exist. *)
Definition any_dk : list Z := tab 1632 (fun i => (13 * Z.of_nat i + 5) mod 251).
Definition a_client : client := fun h =>
  match length h with
  | 0%nat => OpParseDk any_dk
  | 1%nat => OpEncapsulationKey 0
  | 2%nat => OpReparseDk 0
  | 3%nat => OpCloneDk 0
  | 4%nat => OpEqDk 0 1
  | 5%nat => OpEncapsulate 0
  | 6%nat => match last h Done with
             | Encapsulated c K => if Nat.eqb (length c) 768 then OpDecapsulate 1 (map (fun x => x mod 256) c) else OpDkBytes 0
             | _ => OpDkBytes 0
             end
  | _ => OpEkBytes 7
  end.
Lemma a_client_ok h : op_ok ML_KEM_512 (a_client h).
Proof.
  unfold a_client.
  destruct (length h) as [|[|[|[|[|[|[|l]]]]]]]; try exact I.
  - split; [apply tab_length|]. apply Forall_tab. intros i _.
    pose proof (Z.mod_pos_bound (13 * Z.of_nat i + 5) 251 ltac:(lia)). unfold is_byte. lia.
  - destruct (last h Done) as [| | | |c K| |]; try exact I. destruct (Nat.eqb (length c) 768) eqn:E; [|exact I].
    apply Nat.eqb_eq in E. split; [rewrite map_length; exact E|]. apply Forall_forall. intros x Hx.
    apply in_map_iff in Hx. destruct Hx as (y & <- & _). apply Z.mod_pos_bound. lia.
Qed.
(** the first five answers, by the kernel *)
Example C43_case : hash_ok toy /\ wf_params ML_KEM_512 /\ rng_ok counter /\
  run (api_step toy ML_KEM_512 300 counter) 5 a_client [] (api_start counter 5) =
  [Done; Done; Done; Done; Answer true].
Proof.
  split; [exact toy_ok|]. split; [apply C13_table_3|]. split; [exact counter_ok|]. vm_compute. reflexivity.
Qed.
(** all eight, by the virtual machine: the embedded encapsulation key does not belong to the
    decryption key, so decapsulation gives the rejection key J(z || c) *)
Definition C43_history : list obs := Eval vm_compute in
  run (api_step toy ML_KEM_512 300 counter) 8 a_client [] (api_start counter 5).
Example C43_history_case :
  match C43_history with
  | [Done; Done; Done; Done; Answer true; Encapsulated c K; Bytes K'; NoSuchKey] =>
      same K K' = false /\ K' = FIPS203.J toy (skipn 1600 any_dk ++ c)
  | _ => False
  end.
Proof. vm_compute. split; reflexivity. Qed.

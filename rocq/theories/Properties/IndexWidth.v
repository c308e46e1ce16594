(** C79: the width of [usize] does not matter.

    ml-kem computes indices, window ends and shift amounts in [usize], whose width depends
    on the target (16, 32 or 64 bits).  On every reachable key and every input of the right
    type, each operation of ml-kem and x-wing returns the value of the functional model and
    shows an observer the same on all targets, with overflow checks or without. *)
From Coq Require Import List ZArith Lia Bool Arith.
From Verif.Base Require Import Res Oracles.
From Verif.Spec Require Import FIPS203 Domains Ops XWing.
From Verif.Model Require Import Machine Param Algebra Pke Kem Crypto XWing Ops XWingOps.
From Verif.Proofs Require Import Basics VecEncode PkeProofs KemProofs XWingProofs OpsProofs.
From Verif.Tests Require Import Toy.
From Verif.Properties Require Import Kem KemCases Correctness Operations XWing X25519 XWingOps.
Import ListNotations.
Open Scope Z_scope.

(** [p] returns [r] and shows the same, on all targets and in both build modes *)
Definition on_all_targets {A} (p : prog A) (r : res A) : Prop :=
  forall bits m, 16 <= bits ->
  snd (exec_at bits m p) = r /\ fst (exec_at bits m p) = fst (exec_at 16 Checked p).

Lemma all_targets {A} (p : prog A) r : agrees p r -> safe r -> on_all_targets p r.
Proof.
  intros E [N _] bits m W. assert (K : result Checked p <> Panic) by (rewrite E; exact N).
  rewrite (exec_wider bits m p W K), (exec_wider 16 Checked p (Z.le_refl _) K). split; [exact E|reflexivity].
Qed.

Section MlKem.
  Variable hs : hashes.
  Hypothesis Hhs : hash_ok hs.
  Variable P : params.
  Hypothesis HP : wf_params P.

  Theorem C79_mlkem n :
    (forall d z, byte_string 32 d -> byte_string 32 z ->
      on_all_targets (o_decaps_key_generate_deterministic hs P n d z) (decaps_key_generate_deterministic hs P n d z)) /\
    (forall ek m, reachable_ek hs P ek -> byte_string 32 m ->
      on_all_targets (o_encapsulate_deterministic hs P n ek m) (encapsulate_deterministic hs P n ek m)) /\
    (forall dk c, reachable_dk hs P dk -> byte_string (ct_len P) c ->
      on_all_targets (o_decapsulate hs P n dk c) (decapsulate hs P n dk c)) /\
    (forall b, byte_string (dk_len P) b -> on_all_targets (o_decaps_key_from_bytes P b) (decaps_key_from_bytes P b)) /\
    (forall b, byte_string (ek_len P) b -> on_all_targets (o_encaps_key_from_bytes hs P b) (encaps_key_from_bytes hs P b)) /\
    (forall dk, reachable_dk hs P dk -> on_all_targets (o_decaps_key_as_bytes P dk) (decaps_key_as_bytes P dk)) /\
    (forall ek, reachable_ek hs P ek -> on_all_targets (o_ek_as_bytes P (ek_pke ek)) (encaps_key_as_bytes P ek)).
  Proof.
    repeat apply conj.
    - intros d z Hd Hz. apply all_targets; [apply agrees_generate|].
      pose proof (C07_generate_deterministic hs Hhs P HP n d z Hd Hz) as S. unfold kem_generate_deterministic in S.
      destruct (decaps_key_generate_deterministic hs P n d z) as [x| | |]; cbn [bind] in S; destruct S as [S1 S2];
        split; intros X; first [discriminate X|apply S1; reflexivity|apply S2; reflexivity].
    - intros ek m He Hm. apply all_targets; [apply agrees_encapsulate|].
      exact (C07_encapsulate_deterministic hs Hhs P HP n ek m He Hm).
    - intros dk c Hdk Hc. apply all_targets; [apply agrees_decapsulate|].
      exact (C07_decapsulate hs Hhs P HP n dk c Hdk Hc).
    - intros b Hb. apply all_targets; [apply agrees_decaps_key_from_bytes|].
      destruct (proj2 (C07_from_bytes hs P HP) b Hb) as [x ->]. split; discriminate.
    - intros b Hb. apply all_targets; [apply agrees_encaps_key_from_bytes|].
      destruct (proj1 (C07_from_bytes hs P HP) b Hb) as [x ->]. split; discriminate.
    - intros dk Hdk. apply all_targets; [apply agrees_decaps_key_as_bytes|].
      destruct (proj2 (C07_as_bytes hs Hhs P HP) dk Hdk) as [x ->]. split; discriminate.
    - intros ek Hek. apply all_targets; [apply agrees_ek_as_bytes|].
      destruct (proj1 (C07_as_bytes hs Hhs P HP) ek Hek) as [x ->]. split; discriminate.
  Qed.
End MlKem.

Section XWing.
  Variable hs : hashes.
  Hypothesis Hhs : hash_ok hs.
  Variable X : x25519_impl.
  Hypothesis HX : x25519_ok X.

  Theorem C79_xwing n :
    (forall g s, rng_ok g -> on_all_targets (o_generate_key_pair hs X n g s) (generate_key_pair hs X n g s)) /\
    (forall sk, byte_string 32 sk ->
      on_all_targets (o_xw_encapsulation_key hs X n (xw_dk_from sk)) (xw_encapsulation_key hs X n (xw_dk_from sk))) /\
    (forall ek g s, reachable_xek hs X ek -> rng_ok g ->
      on_all_targets (o_xw_encapsulate hs X n ek g s) (xw_encapsulate hs X n ek g s)) /\
    (forall sk ct, byte_string 32 sk -> reachable_xct hs X ct ->
      on_all_targets (o_xw_decapsulate hs X n (xw_dk_from sk) ct) (xw_decapsulate hs X n (xw_dk_from sk) ct)) /\
    (forall ek, reachable_xek hs X ek -> on_all_targets (o_xw_ek_as_bytes ek) (xw_ek_as_bytes ek)) /\
    (forall b, byte_string 1216 b -> on_all_targets (o_xw_ek_from hs b) (xw_ek_from hs b)) /\
    (forall ct, reachable_xct hs X ct -> on_all_targets (o_xw_ct_as_bytes ct) (xw_ct_as_bytes ct)) /\
    (forall b, byte_string 1120 b -> on_all_targets (o_xw_ct_from b) (xw_ct_from b)).
  Proof.
    repeat apply conj.
    - intros g s Hg. apply all_targets; [apply agrees_generate_key_pair|].
      rewrite (generate_key_pair_split hs X n g s). pose proof (Hg s 32%nat) as Hsk. destruct (fill_bytes g s 32) as [sk s1].
      cbn [fst] in Hsk. apply safe_bind; [|intros a _; split; discriminate].
      exact (proj2 (C35_safe hs Hhs X HX n sk (repeat 0 1120) Hsk (repeat_bytes 0 1120 ltac:(unfold is_byte; lia)))).
    - intros sk Hsk. apply all_targets; [apply agrees_encapsulation_key|].
      exact (proj2 (C35_safe hs Hhs X HX n sk (repeat 0 1120) Hsk (repeat_bytes 0 1120 ltac:(unfold is_byte; lia)))).
    - intros ek g s Hek Hg. apply all_targets; [apply agrees_xw_encapsulate|].
      exact (proj2 (C34_safe hs Hhs X HX n ek g s Hek Hg)).
    - intros sk ct Hsk Hct. apply all_targets; [apply agrees_xw_decapsulate|].
      rewrite (xw_decapsulate_ok hs Hhs X (proj1 HX) (proj2 HX)) by (exact Hsk || exact (reachable_xct_valid hs Hhs X HX ct Hct)).
      apply safe_lift.
    - intros ek Hek. apply all_targets; [apply agrees_xek_as_bytes|].
      rewrite (xek_as_bytes_ok hs) by exact (reachable_xek_valid hs Hhs X HX ek Hek). split; discriminate.
    - intros b Hb. apply all_targets; [apply agrees_xek_from|].
      rewrite (proj1 (xek_from_ok hs Hhs b Hb)). split; discriminate.
    - intros ct Hct. apply all_targets; [apply agrees_ct_as_bytes|].
      rewrite ct_as_bytes_ok by exact (reachable_xct_valid hs Hhs X HX ct Hct). split; discriminate.
    - intros b Hb. apply all_targets; [apply agrees_ct_from|]. rewrite (proj1 (ct_from_ok b Hb)). split; discriminate.
  Qed.
End XWing.

(** ** Concrete cases *)

(** a key pair, a ciphertext and its decapsulation, on a 16-bit target without overflow checks *)
Example C79_case : exists dk ek c K, hash_ok toy /\ wf_params ML_KEM_512 /\
  reachable_dk toy ML_KEM_512 dk /\ reachable_ek toy ML_KEM_512 ek /\ byte_string 32 (seed 3) /\
  byte_string (ct_len ML_KEM_512) c /\
  snd (exec_at 16 Release (o_encapsulate_deterministic toy ML_KEM_512 300 ek (seed 3))) = Ok (c, K) /\
  snd (exec_at 16 Release (o_decapsulate toy ML_KEM_512 300 dk c)) = Ok K.
Proof.
  destruct kem_case as (dk & ek & c & K & K2 & Hhs & HP & Hg & Hdk & Hek & He & Hc & Hd & _).
  pose proof (ek_honest toy ML_KEM_512 ek Hek) as Hek'.
  destruct (C79_mlkem toy Hhs ML_KEM_512 HP 300) as (_ & A & B & _).
  exists dk, ek, c, K. repeat (split; [assumption || apply seed_ok|]). split.
  - rewrite (proj1 (A ek (seed 3) Hek' (seed_ok 3) 16 Release (Z.le_refl _))). exact He.
  - rewrite (proj1 (B dk c Hdk Hc 16 Release (Z.le_refl _))). exact Hd.
Qed.

(** the width matters below 9 bits: [2 * len] of the first NTT layer is 256 *)
Example C79_too_narrow :
  snd (exec_at 8 Checked (o_ntt (repeat 0 256))) = Panic /\ snd (exec_at 8 Checked (o_umul 2 128)) = Panic /\
  snd (exec_at 8 Release (o_umul 2 128)) = Ok 0%nat /\ snd (exec_at 9 Checked (o_umul 2 128)) = Ok 256%nat.
Proof. repeat split; vm_compute; reflexivity. Qed.

(** and a counter that goes below zero wraps to a value that depends on the width *)
Example C79_wraps : snd (exec_at 16 Release (o_usub 0 1)) = Ok (Z.to_nat 65535) /\
  snd (exec_at 16 Checked (o_usub 0 1)) = Panic /\ snd (exec_at 16 Checked (o_uadd (Z.to_nat 65535) 1)) = Panic.
Proof. repeat split; vm_compute; reflexivity. Qed.

(** Inner products computed in the NTT domain are inner products over R_q. *)
From Coq Require Import List ZArith Lia Bool Arith.
From Verif.Base Require Import Res Oracles.
From Verif.Spec Require Import FIPS203 Domains.
From Verif.Model Require Import Machine Util Algebra.
From Verif.Proofs Require Import Basics Field Poly NttProofs NttAlgebra.
Import ListNotations.
Open Scope Z_scope.

Lemma vec_ntt_eq k v : vec k v -> vec_ntt k v = Ok (map NTT v).
Proof.
  intros Hw. unfold vec_ntt. rewrite mapM_ok with (g := NTT).
  - cbn [bind]. apply collect_ok. rewrite map_length. apply Hw.
  - intros p Hp. apply ntt_ok. eapply vec_in; eassumption.
Qed.

Lemma sum_pmul_NTT k u v : vec k u -> vec k v ->
  NTTinv (dot k (map NTT u) (map NTT v)) =
  tab 256 (fun c => sum k (fun i => co (pmul (ent u i) (ent v i)) c) mod q).
Proof.
  intros Hu Hv.
  assert (E : forall i, (i < k)%nat -> MultiplyNTTs (ent (map NTT u) i) (ent (map NTT v) i) = NTT (pmul (ent u i) (ent v i))).
  { intros i Hi. rewrite NTT_pmul. unfold ent.
    rewrite (nth_indep (map NTT u) [] (NTT [])), (nth_indep (map NTT v) [] (NTT []))
      by (rewrite map_length; first [rewrite (proj1 Hu)|rewrite (proj1 Hv)]; exact Hi).
    rewrite !map_nth. reflexivity. }
  rewrite <- (NTTinv_NTT (tab 256 _)) by apply poly_tab_mod. f_equal.
  apply poly_ext; [apply poly_tab_mod|apply NTT_poly|]. intros t Ht.
  unfold dot. rewrite co_tab by exact Ht. rewrite NTT_w by exact Ht. apply eqq_mod.
  rewrite (sum_ext k _ (fun i => co (NTT (pmul (ent u i) (ent v i))) t)) by (intros i Hi; rewrite E by exact Hi; reflexivity).
  transitivity (sum k (fun i => sum 256 (fun c => co (pmul (ent u i) (ent v i)) c * w c t))).
  - apply sum_eqq. intros i Hi. rewrite NTT_w by exact Ht. apply mod_eqq.
  - rewrite sum_swap. apply sum_eqq. intros c Hc. rewrite co_tab by exact Hc. rewrite mod_eqq.
    rewrite sum_mul_r. reflexivity.
Qed.

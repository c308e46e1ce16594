(** Polynomial, vector and matrix operations of algebra.rs, except the transforms. *)
From Coq Require Import List ZArith Lia Bool Arith.
From Verif.Base Require Import Res Oracles.
From Verif.Spec Require Import FIPS203 Domains.
From Verif.Model Require Import Machine Util Algebra.
From Verif.Proofs Require Import Basics Field.
Import ListNotations.
Open Scope Z_scope.

Lemma foldM_seq_inv S (I : nat -> S -> Prop) f a n s :
  I 0%nat s ->
  (forall i s, (i < n)%nat -> I i s -> exists s', f s (a + i)%nat = Ok s' /\ I (Datatypes.S i) s') ->
  exists s', foldM f (seq a n) s = Ok s' /\ I n s'.
Proof.
  intros H0 Hs. induction n as [|n IH].
  - exists s. split; [reflexivity|exact H0].
  - destruct IH as (s1 & E1 & I1); [intros; apply Hs; auto; lia|].
    destruct (Hs n s1) as (s2 & E2 & I2); [lia|exact I1|].
    exists s2. split; [|exact I2]. rewrite seq_S, foldM_app, E1. cbn [bind foldM].
    rewrite E2. reflexivity.
Qed.

Lemma zip_collect_tab A n (f : A -> A -> res A) (x y : nat -> A) g :
  (forall i, (i < n)%nat -> f (x i) (y i) = Ok (g i)) ->
  zip_collect n f (tab n x) (tab n y) = Ok (tab n g).
Proof.
  intros H. unfold zip_collect. rewrite combine_tab.
  rewrite mapM_tab with (g := g) by (intros; apply H; assumption). cbn [bind].
  apply collect_ok, tab_length.
Qed.

Lemma poly_add_ok x y : poly x -> poly y -> poly_add x y = Ok (padd x y).
Proof.
  intros Hx Hy. unfold poly_add.
  rewrite (poly_as_tab x Hx), (poly_as_tab y Hy) at 1.
  apply zip_collect_tab. intros i Hi. apply fe_add_ok; apply poly_co; assumption.
Qed.

Lemma poly_sub_ok x y : poly x -> poly y -> poly_sub x y = Ok (psub x y).
Proof.
  intros Hx Hy. unfold poly_sub.
  rewrite (poly_as_tab x Hx), (poly_as_tab y Hy) at 1.
  apply zip_collect_tab. intros i Hi. apply fe_sub_ok; apply poly_co; assumption.
Qed.

Lemma padd_poly x y : poly (padd x y).
Proof. apply poly_tab_mod. Qed.
Lemma psub_poly x y : poly (psub x y).
Proof. apply poly_tab_mod. Qed.

Lemma poly_scale_ok c x : fe c -> poly x ->
  poly_scale c x = Ok (tab 256 (fun i => (c * co x i) mod q)).
Proof.
  intros Hc Hx. unfold poly_scale. rewrite (poly_as_tab x Hx) at 1.
  rewrite mapM_tab with (g := fun i => (c * co x i) mod q).
  - cbn [bind]. apply collect_ok, tab_length.
  - intros i Hi. apply fe_mul_ok; [exact Hc|apply poly_co; assumption].
Qed.

Lemma vec_add_ok k x y : vec k x -> vec k y -> vec_add k x y = Ok (vadd k x y).
Proof.
  intros Hx Hy. unfold vec_add. rewrite (vec_as_tab k x Hx), (vec_as_tab k y Hy) at 1.
  apply zip_collect_tab. intros i Hi. apply poly_add_ok; eapply vec_ent; eassumption.
Qed.

Lemma nttvec_add_ok k x y : vec k x -> vec k y -> nttvec_add k x y = Ok (vadd k x y).
Proof. exact (vec_add_ok k x y). Qed.

Lemma vadd_vec k x y : vec k (vadd k x y).
Proof. apply vec_tab. intros. apply padd_poly. Qed.

Lemma MultiplyNTTs_poly f g : poly (MultiplyNTTs f g).
Proof.
  apply poly_tab. intros i Hi. cbv zeta. destruct (Nat.even i); apply fe_mod.
Qed.

Lemma MultiplyNTTs_even f g i : (i < 128)%nat ->
  co (MultiplyNTTs f g) (2 * i) =
  (co f (2 * i) * co g (2 * i) + co f (2 * i + 1) * co g (2 * i + 1) * gamma i) mod q.
Proof.
  intros H. unfold MultiplyNTTs. rewrite co_tab by lia.
  rewrite Nat.even_mul. cbn [Nat.even orb].
  rewrite (Nat.mul_comm 2 i), Nat.div_mul by lia. rewrite (Nat.mul_comm i 2). reflexivity.
Qed.

Lemma MultiplyNTTs_odd f g i : (i < 128)%nat ->
  co (MultiplyNTTs f g) (2 * i + 1) =
  (co f (2 * i) * co g (2 * i + 1) + co f (2 * i + 1) * co g (2 * i)) mod q.
Proof.
  intros H. unfold MultiplyNTTs. rewrite co_tab by lia.
  rewrite Nat.even_add, Nat.even_mul. cbn [Nat.even orb Bool.eqb].
  replace ((2 * i + 1) / 2)%nat with i; [reflexivity|].
  rewrite Nat.add_comm, (Nat.mul_comm 2 i), Nat.div_add by lia. reflexivity.
Qed.

Lemma even_odd_cases t : exists i, (t = 2 * i \/ t = 2 * i + 1)%nat.
Proof. exists (Nat.div2 t). pose proof (Nat.div2_odd t). destruct (Nat.odd t); simpl in *; lia. Qed.

Lemma ntt_mul_ok x y : poly x -> poly y -> ntt_mul x y = Ok (MultiplyNTTs x y).
Proof.
  intros Hx Hy. pose proof Hx as [Lx _]. pose proof Hy as [Ly _].
  pose (I := fun (n : nat) (out : list Z) =>
     length out = 256%nat /\ forall t, (t < 2 * n)%nat -> co out t = co (MultiplyNTTs x y) t).
  destruct (foldM_seq_inv _ I
    (fun out i =>
           let* a0 := idx x (2 * i) in
           let* a1 := idx x (2 * i + 1) in
           let* b0 := idx y (2 * i) in
           let* b1 := idx y (2 * i + 1) in
           let* '(c0, c1) := base_case_multiply a0 a1 b0 b1 i in
           let* out := upd out (2 * i) c0 in
           upd out (2 * i + 1) c1) 0 128 (repeat 0 256)) as (s & E & L & H).
  - split; [reflexivity|]. intros; lia.
  - intros i s Hi [L H]. cbn [plus].
    rewrite !idx_ok by lia. cbn [bind].
    rewrite base_case_multiply_ok by (try apply poly_co; try assumption; lia). cbn [bind].
    rewrite upd_ok by lia. cbn [bind]. rewrite upd_ok by (rewrite set_nth_length; lia).
    eexists. split; [reflexivity|]. split; [rewrite !set_nth_length; exact L|].
    intros t Ht. rewrite co_set_nth by (rewrite set_nth_length; lia).
    destruct (Nat.eqb_spec t (2 * i + 1)) as [->|N1].
    + rewrite MultiplyNTTs_odd by lia. reflexivity.
    + rewrite co_set_nth by lia. destruct (Nat.eqb_spec t (2 * i)) as [->|N2].
      * rewrite MultiplyNTTs_even by lia. reflexivity.
      * apply H. lia.
  - unfold ntt_mul. rewrite E. f_equal.
    apply list_ext with (d := 0); [rewrite L; symmetry; apply MultiplyNTTs_poly|].
    rewrite L. intros i Hi. apply H. lia.
Qed.

Lemma foldM_poly_add k p :
  (forall i, (i < k)%nat -> poly (p i)) ->
  foldM poly_add (tab k p) (repeat 0 256) =
    Ok (tab 256 (fun c => sum k (fun i => co (p i) c) mod q)).
Proof.
  induction k as [|k IH]; intros H.
  - reflexivity.
  - rewrite tab_S, foldM_app, IH by (intros; apply H; lia). cbn [bind foldM].
    rewrite poly_add_ok by (try apply poly_tab_mod; apply H; lia). cbn [bind]. f_equal.
    apply tab_ext. intros c Hc. rewrite co_tab by exact Hc. cbn [sum].
    rewrite Zplus_mod_idemp_l. reflexivity.
Qed.

Lemma nttvec_dot_ok k x y : vec k x -> vec k y -> nttvec_dot x y = Ok (dot k x y).
Proof.
  intros Hx Hy. unfold nttvec_dot.
  rewrite (vec_as_tab k x Hx), (vec_as_tab k y Hy) at 1. rewrite combine_tab.
  rewrite mapM_tab with (g := fun i => MultiplyNTTs (ent x i) (ent y i)).
  - cbn [bind]. rewrite foldM_poly_add by (intros; apply MultiplyNTTs_poly). reflexivity.
  - intros i Hi. apply ntt_mul_ok; eapply vec_ent; eassumption.
Qed.

Lemma dot_poly k x y : poly (dot k x y).
Proof. apply poly_tab_mod. Qed.


Lemma mat_row k m i : mat k m -> (i < k)%nat -> vec k (nth i m []).
Proof.
  intros [L F] H. rewrite Forall_forall in F. apply F. apply nth_In. rewrite L. exact H.
Qed.
Lemma mat_as_tab k m : mat k m -> m = tab k (fun i => nth i m []).
Proof. intros [L _]. apply list_as_tab'. exact L. Qed.

Lemma matrix_mul_ok k m v : mat k m -> vec k v -> matrix_mul k m v = Ok (matvec k m v).
Proof.
  intros Hm Hv. unfold matrix_mul. rewrite (mat_as_tab k m Hm) at 1.
  rewrite mapM_tab with (g := fun i => dot k (nth i m []) v).
  - cbn [bind]. apply collect_ok, tab_length.
  - intros i Hi. apply nttvec_dot_ok; [apply mat_row|]; assumption.
Qed.

Lemma matvec_vec k m v : vec k (matvec k m v).
Proof. apply vec_tab. intros. apply dot_poly. Qed.

Lemma transpose_ok k m : mat k m -> transpose k m = Ok (transposed k m).
Proof.
  intros Hm. unfold transpose. apply from_fn_ok. intros i Hi. apply from_fn_ok. intros j Hj.
  pose proof Hm as [L _].
  rewrite (idx_ok' _ m j []) by lia. cbn [bind].
  apply idx_ok'. rewrite (vec_length k); [exact Hi|]. apply mat_row; assumption.
Qed.

Lemma transposed_mat k m : mat k m -> mat k (transposed k m).
Proof.
  intros Hm. split; [apply tab_length|]. apply Forall_tab. intros i Hi.
  apply vec_tab. intros j Hj. eapply vec_ent; [apply mat_row|]; eassumption.
Qed.

Lemma transposed_involutive k m : mat k m -> transposed k (transposed k m) = m.
Proof.
  intros Hm. rewrite (mat_as_tab k m Hm) at 2. apply tab_ext. intros i Hi.
  rewrite (vec_as_tab k (nth i m [])) at 1 by (apply mat_row; assumption).
  apply tab_ext. intros j Hj. unfold transposed.
  rewrite nth_tab by exact Hj. rewrite ent_tab by exact Hi. reflexivity.
Qed.

(** Field arithmetic (algebra.rs) computes exactly modulo q. *)
From Coq Require Import List ZArith Lia Bool Arith.
From Verif.Base Require Import Res Oracles.
From Verif.Spec Require Import FIPS203 Domains.
From Verif.Model Require Import Machine Util Algebra.
From Verif.Proofs Require Import Basics.
Import ListNotations.
Open Scope Z_scope.

(** canonical field elements, polynomials, vectors *)

Lemma fe_mod x : fe (x mod q).
Proof. apply Z.mod_pos_bound. reflexivity. Qed.

Lemma fe_mod_id x : fe x -> x mod q = x.
Proof. apply Z.mod_small. Qed.

Lemma poly_tab f : (forall i, (i < 256)%nat -> fe (f i)) -> poly (tab 256 f).
Proof. intros H. split; [apply tab_length|]. apply Forall_tab. exact H. Qed.

Lemma poly_tab_mod f : poly (tab 256 (fun i => f i mod q)).
Proof. apply poly_tab. intros. apply fe_mod. Qed.

Lemma poly_co p i : poly p -> (i < 256)%nat -> fe (co p i).
Proof.
  intros [L F] H. rewrite Forall_forall in F. apply F. apply nth_In. rewrite L. exact H.
Qed.

Lemma poly_ext p r : poly p -> poly r -> (forall i, (i < 256)%nat -> co p i = co r i) -> p = r.
Proof.
  intros [L1 _] [L2 _] H. apply list_ext with (d := 0); [congruence|].
  rewrite L1. exact H.
Qed.

Lemma poly_as_tab p : poly p -> p = tab 256 (co p).
Proof. intros [L _]. apply list_as_tab'. exact L. Qed.

Lemma vec_ent k v i : vec k v -> (i < k)%nat -> poly (ent v i).
Proof.
  intros [L F] H. rewrite Forall_forall in F. apply F. apply nth_In. rewrite L. exact H.
Qed.

Lemma vec_tab k f : (forall i, (i < k)%nat -> poly (f i)) -> vec k (tab k f).
Proof. intros H. split; [apply tab_length|]. apply Forall_tab. exact H. Qed.

Lemma vec_as_tab k v : vec k v -> v = tab k (ent v).
Proof. intros [L _]. apply list_as_tab'. exact L. Qed.

Lemma vec_length k v : vec k v -> length v = k.
Proof. intros [L _]. exact L. Qed.

Lemma vec_in k v p : vec k v -> In p v -> poly p.
Proof. intros [_ F] H. rewrite Forall_forall in F. auto. Qed.

Lemma vec_map k v f : vec k v -> (forall p, poly p -> poly (f p)) -> vec k (map f v).
Proof.
  intros [L F] H. split; [rewrite map_length; exact L|].
  rewrite Forall_forall in *. intros x (p & <- & Hp)%in_map_iff. auto.
Qed.

Lemma Q_q : Q = q.
Proof. reflexivity. Qed.

Lemma small_reduce_ok x : 0 <= x < 2 * q -> small_reduce x = Ok (x mod q).
Proof.
  intros H. unfold small_reduce. rewrite Q_q. unfold q in *.
  destruct (Z.ltb_spec x 3329).
  - rewrite Z.mod_small by lia. reflexivity.
  - rewrite usub_ok by mlia. f_equal. 
    replace x with ((x - 3329) + 1 * 3329) at 2 by lia.
    rewrite Z.mod_add, Z.mod_small by lia. reflexivity.
Qed.

Lemma BARRETT_MULTIPLIER_val : BARRETT_MULTIPLIER = 5039.
Proof. reflexivity. Qed.

(** the largest value reduced by the code is 2 (q-1)^2, in [base_case_multiply] *)
Lemma barrett_reduce_ok x : 0 <= x <= 2 * (q - 1) * (q - 1) -> barrett_reduce x = Ok (x mod q).
Proof.
  intros H. unfold barrett_reduce. rewrite BARRETT_MULTIPLIER_val.
  unfold q in H. change (2 * (3329 - 1) * (3329 - 1)) with 22151168 in H.
  rewrite umul_ok by mlia. cbn [bind].
  rewrite ushr_ok by (unfold BARRETT_SHIFT; mlia). cbn [bind].
  unfold BARRETT_SHIFT. change (2 ^ 24) with 16777216.
  pose proof (Z.div_mod (x * 5039) 16777216 ltac:(lia)) as E.
  pose proof (Z.mod_pos_bound (x * 5039) 16777216 ltac:(lia)) as B.
  set (t := x * 5039 / 16777216) in *. set (m := (x * 5039) mod 16777216) in *.
  assert (Ht : 0 <= t < 7000) by lia.
  rewrite truncate_small by mlia. cbn [bind].
  unfold Q32, Q. rewrite umul_ok by mlia. cbn [bind].
  assert (Hr : 0 <= x - t * 3329 < 6658) by lia.
  rewrite usub_ok by mlia. cbn [bind].
  rewrite truncate_small by mlia. cbn [bind].
  rewrite small_reduce_ok by (unfold q; lia). f_equal. unfold q.
  replace x with ((x - t * 3329) + t * 3329) at 2 by ring. rewrite Z.mod_add by lia. reflexivity.
Qed.

Lemma fe_add_ok x y : fe x -> fe y -> fe_add x y = Ok ((x + y) mod q).
Proof.
  unfold fe, q. intros Hx Hy. unfold fe_add.
  rewrite uadd_ok by mlia. cbn [bind]. apply small_reduce_ok. unfold q. lia.
Qed.

Lemma fe_sub_ok x y : fe x -> fe y -> fe_sub x y = Ok ((x - y) mod q).
Proof.
  unfold fe, q. intros Hx Hy. unfold fe_sub, Q.
  rewrite uadd_ok by mlia. cbn [bind].
  rewrite usub_ok by mlia. cbn [bind].
  rewrite small_reduce_ok by (unfold q; lia). f_equal. unfold q.
  replace (x + 3329 - y) with ((x - y) + 1 * 3329) by ring. rewrite Z.mod_add by lia. reflexivity.
Qed.

Lemma prod_bound x y : fe x -> fe y -> 0 <= x * y <= (q - 1) * (q - 1).
Proof.
  unfold fe, q. intros Hx Hy. split; [nia|].
  apply Z.mul_le_mono_nonneg; lia.
Qed.

Lemma fe_mul_ok x y : fe x -> fe y -> fe_mul x y = Ok ((x * y) mod q).
Proof.
  intros Hx Hy. pose proof (prod_bound x y Hx Hy) as B. unfold fe_mul. unfold q in B.
  rewrite umul_ok by mlia. cbn [bind]. apply barrett_reduce_ok. unfold q. lia.
Qed.

(** the tables *)
Lemma GAMMA_length : length GAMMA = 128%nat.
Proof. reflexivity. Qed.

Lemma GAMMA_fe : Forall fe GAMMA.
Proof.
  assert (H : forallb (fun x => (0 <=? x) && (x <? 3329)) GAMMA = true) by (vm_compute; reflexivity).
  rewrite forallb_forall in H. apply Forall_forall. intros x Hx. specialize (H x Hx).
  apply andb_prop in H. unfold fe, q. lia.
Qed.

Lemma ZETA_length : length ZETA_POW_BITREV = 128%nat.
Proof. reflexivity. Qed.

Lemma ZETA_fe : Forall fe ZETA_POW_BITREV.
Proof.
  assert (H : forallb (fun x => (0 <=? x) && (x <? 3329)) ZETA_POW_BITREV = true)
    by (vm_compute; reflexivity).
  rewrite forallb_forall in H. apply Forall_forall. intros x Hx. specialize (H x Hx).
  apply andb_prop in H. unfold fe, q. lia.
Qed.

Lemma ZETA_co_fe i : (i < 128)%nat -> fe (co ZETA_POW_BITREV i).
Proof.
  intros H. pose proof ZETA_fe as F. rewrite Forall_forall in F. apply F.
  apply nth_In. rewrite ZETA_length. exact H.
Qed.

Lemma GAMMA_co_fe i : (i < 128)%nat -> fe (co GAMMA i).
Proof.
  intros H. pose proof GAMMA_fe as F. rewrite Forall_forall in F. apply F.
  apply nth_In. rewrite GAMMA_length. exact H.
Qed.

(** the table is zeta^(2 BitRev7(i) + 1) mod q *)
Lemma GAMMA_gamma i : (i < 128)%nat -> co GAMMA i = gamma i mod q.
Proof.
  assert (H : forallb (fun i => co GAMMA i =? gamma i mod q) (seq 0 128) = true)
    by (vm_compute; reflexivity).
  intros Hi. rewrite forallb_forall in H. apply Z.eqb_eq, H, in_seq. lia.
Qed.

Lemma base_case_multiply_ok a0 a1 b0 b1 i :
  fe a0 -> fe a1 -> fe b0 -> fe b1 -> (i < 128)%nat ->
  base_case_multiply a0 a1 b0 b1 i =
    Ok ((a0 * b0 + a1 * b1 * gamma i) mod q, (a0 * b1 + a1 * b0) mod q).
Proof.
  intros Ha0 Ha1 Hb0 Hb1 Hi. unfold base_case_multiply.
  rewrite idx_ok by (rewrite GAMMA_length; exact Hi). cbn [bind].
  pose proof (GAMMA_co_fe i Hi) as Hg.
  pose proof (prod_bound _ _ Hb1 Hg) as B1. unfold q in B1. change ((3329 - 1) * (3329 - 1)) with 11075584 in B1.
  rewrite umul_ok by mlia. cbn [bind].
  rewrite barrett_reduce_ok by (unfold q; lia). cbn [bind].
  pose proof (prod_bound _ _ Ha0 Hb0) as B2.
  pose proof (prod_bound _ _ Ha1 (fe_mod (b1 * co GAMMA i))) as B3.
  unfold q in B2, B3. change ((3329 - 1) * (3329 - 1)) with 11075584 in B2, B3.
  rewrite umul_ok by mlia. cbn [bind].
  rewrite umul_ok by (unfold q; mlia). cbn [bind].
  rewrite uadd_ok by (unfold q; mlia). cbn [bind].
  rewrite barrett_reduce_ok by (unfold q; lia). cbn [bind].
  pose proof (prod_bound _ _ Ha0 Hb1) as B4. pose proof (prod_bound _ _ Ha1 Hb0) as B5.
  unfold q in B4, B5. change ((3329 - 1) * (3329 - 1)) with 11075584 in B4, B5.
  rewrite umul_ok by mlia. cbn [bind].
  rewrite umul_ok by mlia. cbn [bind].
  rewrite uadd_ok by mlia. cbn [bind].
  rewrite barrett_reduce_ok by (unfold q; lia). cbn [bind].
  do 2 f_equal. rewrite GAMMA_gamma by exact Hi.
  modq.
Qed.

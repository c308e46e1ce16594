(** Programs of machine operations: execution lemmas, agreement with the functional model,
    and what observers see. *)
From Coq Require Import List ZArith Lia Bool Arith.
From Verif.Base Require Import Res Oracles.
From Verif.Spec Require Import Ops.
From Verif.Model Require Import Machine Util Algebra Compress Encode Crypto Sample Param Pke Kem Ops.
From Verif.Proofs Require Import Basics.
Import ListNotations.
Open Scope Z_scope.

(** ** execution *)

Lemma exec_bind {A B} m (p : prog A) (f : A -> prog B) :
  exec m (pbind p f) =
  match result m p with
  | Ok a => (trace m p ++ trace m (f a), result m (f a))
  | Panic => (trace m p, Panic)
  | UB => (trace m p, UB)
  | NoFuel => (trace m p, NoFuel)
  end.
Proof.
  unfold result, trace. induction p as [a|X o k IH]; cbn [pbind exec].
  - cbn [fst snd app]. destruct (exec m (f a)) as [t r]. reflexivity.
  - destruct (perform m o) as [x| | |]; cbn [fst snd]; try reflexivity.
    rewrite IH. destruct (exec m (k x)) as [t r]. cbn [fst snd].
    destruct r as [a| | |]; cbn [fst snd]; try reflexivity.
    rewrite app_assoc. reflexivity.
Qed.

Lemma result_bind {A B} m (p : prog A) (f : A -> prog B) :
  result m (pbind p f) = bind (result m p) (fun a => result m (f a)).
Proof. unfold result at 1. rewrite exec_bind. destruct (result m p); reflexivity. Qed.

Lemma trace_bind {A B} m (p : prog A) (f : A -> prog B) a : result m p = Ok a ->
  trace m (pbind p f) = trace m p ++ trace m (f a).
Proof. intros E. unfold trace at 1. rewrite exec_bind, E. reflexivity. Qed.

Lemma result_ret {A} m (a : A) : result m (Ret a) = Ok a.
Proof. reflexivity. Qed.
Lemma result_act {A} m (o : op A) : result m (act o) = perform m o.
Proof. unfold result, act. cbn [exec]. destruct (perform m o); reflexivity. Qed.
Lemma trace_act {A} m (o : op A) : trace m (act o) = see o.
Proof.
  unfold trace, act. cbn [exec]. destruct (perform m o); cbn [fst]; try reflexivity. apply app_nil_r.
Qed.

(** ** build modes: an execution without panic is the same in both *)

(** [usize] arithmetic that does not panic when [usize] is narrow gives the same value for
    every width and build mode *)
Lemma size_wider bits m o x y v : narrowest <= bits ->
  size_arith narrowest Checked o x y = Ok v -> size_arith bits m o x y = Ok v.
Proof.
  intros W. assert (P : 2 ^ narrowest <= 2 ^ bits) by (apply Z.pow_le_mono_r; [lia|exact W]).
  unfold size_arith. set (X := size_exact _ _ _). cbv zeta.
  destruct (Z.leb_spec 0 X); [|discriminate]. destruct (Z.ltb_spec X (2 ^ narrowest)); [|discriminate].
  cbn [andb]. intros E. rewrite <- E. destruct m.
  - destruct (Z.ltb_spec X (2 ^ bits)); [reflexivity|lia].
  - rewrite Z.mod_small by lia. reflexivity.
Qed.
Lemma size_no_fuel bits m o x y : size_arith bits m o x y <> UB /\ size_arith bits m o x y <> NoFuel.
Proof. unfold size_arith. cbv zeta. destruct m; [destruct (_ && _)|]; split; discriminate. Qed.

Lemma perform_release {A} (o : op A) x : perform Checked o = Ok x -> perform Release o = Ok x.
Proof.
  destruct o; cbn [perform]; try (intros E; exact E).
  2: { apply size_wider. lia. }
  destruct (fits o bits x0 y) eqn:F; [|discriminate]. intros E. rewrite <- E. f_equal.
  unfold fits, wrapped in *. destruct o; cbn [exact] in *; apply andb_true_iff in F; destruct F as [F1 F2];
    apply Z.leb_le in F1; apply Z.ltb_lt in F2; try (apply Z.mod_small; lia);
    rewrite (Z.mod_small y bits) by lia; reflexivity.
Qed.

Lemma perform_release_not {A} (o : op A) : perform Checked o <> Panic -> perform Release o = perform Checked o.
Proof.
  intros H. destruct (perform Checked o) as [x| | |] eqn:E; try (exact (perform_release o x E)); [congruence|..];
    destruct o; try exact E; cbn [perform] in E; try (destruct (fits o bits x y); discriminate E);
    destruct (size_no_fuel narrowest Checked o x y) as [N1 N2]; contradiction.
Qed.

Lemma exec_release_not {A} (p : prog A) : result Checked p <> Panic -> exec Release p = exec Checked p.
Proof.
  unfold result. induction p as [a|X o k IH]; cbn [exec]; [reflexivity|]. intros H.
  rewrite perform_release_not.
  - destruct (perform Checked o) as [x| | |]; try reflexivity. rewrite (IH x); [reflexivity|].
    destruct (exec Checked (k x)) as [t r]. exact H.
  - intros E. rewrite E in H. apply H. reflexivity.
Qed.
Lemma exec_release {A} (p : prog A) v : result Checked p = Ok v -> exec Release p = exec Checked p.
Proof. intros E. apply exec_release_not. rewrite E. discriminate. Qed.

(** ** the width of [usize]: an execution without panic is the same for all widths *)

Lemma perform_wider {A} bits m (o : op A) : narrowest <= bits -> perform Checked o <> Panic ->
  perform_at bits m o = perform Checked o.
Proof.
  intros W H.
  assert (R : perform m o = perform Checked o) by (destruct m; [reflexivity|apply perform_release_not, H]).
  destruct o; try exact R. clear R. cbn [perform perform_at] in *.
  destruct (size_arith narrowest Checked o x y) as [v| | |] eqn:E; [exact (size_wider _ _ _ _ _ _ W E)|congruence|..];
    destruct (size_no_fuel narrowest Checked o x y) as [N1 N2]; contradiction.
Qed.
Lemma exec_wider {A} bits m (p : prog A) : narrowest <= bits -> result Checked p <> Panic ->
  exec_at bits m p = exec Checked p.
Proof.
  intros W. unfold result. induction p as [a|X o k IH]; cbn [exec exec_at]; [reflexivity|]. intros H.
  rewrite perform_wider; [|exact W|].
  - destruct (perform Checked o) as [x| | |]; try reflexivity. rewrite (IH x); [reflexivity|].
    destruct (exec Checked (k x)) as [t r]. exact H.
  - intros E. rewrite E in H. apply H. reflexivity.
Qed.
Lemma exec_narrowest {A} m (p : prog A) : exec_at narrowest m p = exec m p.
Proof.
  induction p as [a|X o k IH]; cbn [exec exec_at]; [reflexivity|].
  replace (perform_at narrowest m o) with (perform m o) by (destruct o; reflexivity).
  destruct (perform m o); try reflexivity. rewrite IH. reflexivity.
Qed.

(** ** agreement with the model *)

Definition agrees {A} (p : prog A) (r : res A) : Prop := result Checked p = r.

Lemma agrees_bind {A B} (p : prog A) (f : A -> prog B) r g :
  agrees p r -> (forall a, agrees (f a) (g a)) -> agrees (pbind p f) (bind r g).
Proof.
  unfold agrees. intros <- H. rewrite result_bind. destruct (result Checked p); cbn [bind]; [apply H|reflexivity..].
Qed.
Lemma agrees_ret {A} (a : A) : agrees (Ret a) (Ok a).
Proof. reflexivity. Qed.
Lemma agrees_act {A} (o : op A) : agrees (act o) (perform Checked o).
Proof. apply result_act. Qed.
(** an operation that only informs the observer *)
Lemma agrees_note {A B} (o : op A) x (f : A -> prog B) r :
  perform Checked o = Ok x -> agrees (f x) r -> agrees (pbind (act o) f) r.
Proof. unfold agrees. intros E H. rewrite result_bind, result_act, E. exact H. Qed.

Lemma agrees_pmap {A B} (f : A -> prog B) g l : (forall x, agrees (f x) (g x)) -> agrees (pmap f l) (mapM g l).
Proof.
  intros H. unfold pmap. eapply agrees_note; [reflexivity|].
  induction l as [|x l IH]; cbn [pmap_ mapM]; [apply agrees_ret|].
  apply agrees_bind; [apply H|]. intros y. apply agrees_bind; [exact IH|]. intros ys. apply agrees_ret.
Qed.
Lemma agrees_pfold {A S} (f : S -> A -> prog S) g l s : (forall s x, agrees (f s x) (g s x)) ->
  agrees (pfold f l s) (foldM g l s).
Proof.
  intros H. unfold pfold. eapply agrees_note; [reflexivity|].
  revert s. induction l as [|x l IH]; intros s; cbn [pfold_ foldM]; [apply agrees_ret|].
  apply agrees_bind; [apply H|exact IH].
Qed.
Lemma agrees_pfold_in {A S} (f : S -> A -> prog S) g l s : (forall s x, In x l -> agrees (f s x) (g s x)) ->
  agrees (pfold f l s) (foldM g l s).
Proof.
  intros H. unfold pfold. eapply agrees_note; [reflexivity|].
  revert s H. induction l as [|x l IH]; intros s H; cbn [pfold_ foldM]; [apply agrees_ret|].
  apply agrees_bind; [apply H; left; reflexivity|]. intros s'. apply IH. intros t y Hy. apply H. right. exact Hy.
Qed.
(** with an invariant of the state *)
Lemma agrees_pmap_st_inv {A B S} (T : S -> Prop) (f : S -> A -> prog (B * S)) g l s : T s ->
  (forall s x, T s -> agrees (f s x) (g s x) /\ forall b s', g s x = Ok (b, s') -> T s') ->
  agrees (pmap_st f l s) (mapM_st g l s).
Proof.
  intros Hs H. unfold pmap_st. eapply agrees_note; [reflexivity|].
  revert s Hs. induction l as [|x l IH]; intros s Hs; cbn [pmap_st_ mapM_st]; [apply agrees_ret|].
  destruct (H s x Hs) as [E K]. unfold agrees in *. rewrite result_bind, E.
  destruct (g s x) as [[y s1]| | |]; cbn [bind]; try reflexivity.
  specialize (IH s1 (K y s1 eq_refl)). rewrite result_bind, IH.
  destruct (mapM_st g l s1) as [[ys s2]| | |]; reflexivity.
Qed.
(** [usize] arithmetic that fits *)
Lemma agrees_size o x y v {B} (f : nat -> prog B) r :
  size_exact o (Z.of_nat x) (Z.of_nat y) = Z.of_nat v -> Z.of_nat (v) < 65536 ->
  agrees (f v) r -> agrees (pbind (act (Size o x y)) f) r.
Proof.
  intros E L. apply agrees_note. cbn [perform]. unfold size_arith. cbv zeta. rewrite E.
  change (2 ^ narrowest) with 65536. destruct (Z.leb_spec 0 (Z.of_nat v)); [|lia].
  destruct (Z.ltb_spec (Z.of_nat v) 65536); [|lia]. cbn [andb]. rewrite Nat2Z.id. reflexivity.
Qed.
Lemma agrees_uadd x y {B} (f : nat -> prog B) r : Z.of_nat (x + y) < 65536 -> agrees (f (x + y)%nat) r ->
  agrees (pbind (o_uadd x y) f) r.
Proof. intros L. apply agrees_size; [cbn [size_exact]; lia|exact L]. Qed.
Lemma agrees_umul x y {B} (f : nat -> prog B) r : Z.of_nat (x * y) < 65536 -> agrees (f (x * y)%nat) r ->
  agrees (pbind (o_umul x y) f) r.
Proof. intros L. apply agrees_size; [cbn [size_exact]; lia|exact L]. Qed.
Lemma agrees_usub x y {B} (f : nat -> prog B) r : (y <= x)%nat -> Z.of_nat x < 65536 -> agrees (f (x - y)%nat) r ->
  agrees (pbind (o_usub x y) f) r.
Proof. intros L1 L2. apply agrees_size; [cbn [size_exact]; lia|lia]. Qed.
(** one that does not: both sides panic *)
Lemma agrees_umul_panic x y {B} (f : nat -> prog B) : 65536 <= Z.of_nat (x * y) ->
  agrees (pbind (o_umul x y) f) Panic.
Proof.
  intros L. unfold agrees, o_uadd, o_usub, o_umul. rewrite result_bind, result_act. cbn [perform]. unfold size_arith. cbv zeta. cbn [size_exact].
  change (2 ^ narrowest) with 65536. rewrite <- Nat2Z.inj_mul. destruct (Z.ltb_spec (Z.of_nat (x * y)) 65536); [lia|].
  rewrite andb_false_r. reflexivity.
Qed.
Lemma agrees_uadd_panic x y {B} (f : nat -> prog B) : 65536 <= Z.of_nat (x + y) ->
  agrees (pbind (o_uadd x y) f) Panic.
Proof.
  intros L. unfold agrees, o_uadd, o_usub, o_umul. rewrite result_bind, result_act. cbn [perform]. unfold size_arith. cbv zeta. cbn [size_exact].
  change (2 ^ narrowest) with 65536. rewrite <- Nat2Z.inj_add. destruct (Z.ltb_spec (Z.of_nat (x + y)) 65536); [lia|].
  rewrite andb_false_r. reflexivity.
Qed.
Lemma agrees_usub_panic x y {B} (f : nat -> prog B) : (x < y)%nat ->
  agrees (pbind (o_usub x y) f) Panic.
Proof.
  intros L. unfold agrees, o_uadd, o_usub, o_umul. rewrite result_bind, result_act. cbn [perform]. unfold size_arith. cbv zeta. cbn [size_exact].
  destruct (Z.leb_spec 0 (Z.of_nat x - Z.of_nat y)); [lia|]. reflexivity.
Qed.
Lemma step_by_lt a b s x : In x (step_by a b s) -> (x < b)%nat.
Proof.
  unfold step_by. generalize (b - a)%nat. intros n. revert a. induction n as [|n IH]; intros a; cbn [step_by_aux In]; [tauto|].
  destruct (Nat.ltb_spec a b); [|intros []]. intros [<- | H']; [assumption|exact (IH _ H')].
Qed.
Lemma agrees_pmap_st {A B S} (f : S -> A -> prog (B * S)) g l s : (forall s x, agrees (f s x) (g s x)) ->
  agrees (pmap_st f l s) (mapM_st g l s).
Proof.
  intros H. unfold pmap_st. eapply agrees_note; [reflexivity|].
  revert s. induction l as [|x l IH]; intros s; cbn [pmap_st_ mapM_st]; [apply agrees_ret|].
  apply agrees_bind; [apply H|]. intros [y s1]. apply agrees_bind; [apply IH|]. intros [ys s2]. apply agrees_ret.
Qed.

Lemma modulus_pow w : modulus w = 2 ^ bits_of w.
Proof. destruct w; reflexivity. Qed.

Lemma agrees_add w x y : agrees (o_add w x y) (uadd w x y).
Proof. unfold o_add, uadd, chk. rewrite modulus_pow. apply agrees_act. Qed.
Lemma agrees_sub w x y : agrees (o_sub w x y) (usub w x y).
Proof. unfold o_sub, usub, chk. rewrite modulus_pow. apply agrees_act. Qed.
Lemma agrees_mul w x y : agrees (o_mul w x y) (umul w x y).
Proof. unfold o_mul, umul, chk. rewrite modulus_pow. apply agrees_act. Qed.
Lemma agrees_shl w x y : agrees (o_shl w x y) (ushl w x y).
Proof. unfold o_shl, ushl. rewrite modulus_pow. apply agrees_act. Qed.
Lemma agrees_shr w x y : agrees (o_shr w x y) (ushr w x y).
Proof. apply agrees_act. Qed.
Lemma agrees_idx {A} (l : list A) i : agrees (o_idx l i) (idx l i).
Proof. apply agrees_act. Qed.
Lemma agrees_upd {A} (l : list A) i v : agrees (o_upd l i v) (upd l i v).
Proof. apply agrees_act. Qed.
Lemma agrees_slice {A} (l : list A) a b : agrees (o_slice l a b) (slice l a b).
Proof. apply agrees_act. Qed.
Lemma agrees_ptr_read {A} (l : list A) a b : agrees (o_ptr_read l a b) (ptr_read l a b).
Proof. apply agrees_act. Qed.
Lemma agrees_copy_from_slice {A} (d s : list A) : agrees (o_copy_from_slice d s) (copy_from_slice d s).
Proof.
  unfold o_copy_from_slice, copy_from_slice, agrees. rewrite result_bind, result_act. cbn [perform].
  destruct (Nat.eqb (length d) (length s)); reflexivity.
Qed.
Lemma agrees_copy_into {A} (l : list A) a b s : agrees (o_copy_into l a b s) (copy_into l a b s).
Proof.
  unfold o_copy_into, copy_into. apply agrees_bind; [apply agrees_slice|]. intros old.
  apply agrees_bind; [apply agrees_copy_from_slice|]. intros new. apply agrees_ret.
Qed.
Lemma agrees_collect {A} n (l : list A) : agrees (o_collect n l) (collect n l).
Proof.
  unfold o_collect, collect, agrees. rewrite result_bind, result_act. cbn [perform].
  destruct (Nat.eqb (length l) n); reflexivity.
Qed.
Lemma agrees_chunks {A} n (l : list A) : agrees (o_chunks n l) (chunks n l).
Proof.
  unfold o_chunks, chunks, agrees. rewrite result_bind, result_act. cbn [perform].
  destruct (Nat.eqb n 0); reflexivity.
Qed.
Lemma agrees_from_fn {A} n (f : nat -> prog A) g : (forall i, agrees (f i) (g i)) ->
  agrees (o_from_fn n f) (from_fn n g).
Proof. intros H. apply agrees_pmap, H. Qed.
Lemma agrees_truncate w x : agrees (o_truncate w x) (truncate w x).
Proof.
  unfold o_truncate, truncate, agrees. rewrite result_act. cbn [perform]. unfold max_of. rewrite modulus_pow.
  set (y := Z.land x _).
  destruct (0 <=? y); cbn [andb]; [|reflexivity].
  destruct (Z.ltb_spec y (2 ^ bits_of w)); destruct (Z.leb_spec y (2 ^ bits_of w - 1)); try reflexivity; lia.
Qed.

Create HintDb agrees discriminated.
#[local] Hint Resolve agrees_ret agrees_add agrees_sub agrees_mul agrees_shl agrees_shr agrees_idx agrees_upd
  agrees_slice agrees_ptr_read agrees_copy_from_slice agrees_copy_into agrees_collect agrees_chunks
  agrees_truncate : agrees.

Ltac agr :=
  lazymatch goal with
  | |- forall _, _ => let x := fresh "x" in intros x; agr
  | |- agrees (match ?x with (_, _) => _ end) _ => let a := fresh in let b := fresh in destruct x as [a b]; agr
  | |- agrees (pbind _ _) (bind _ _) => apply agrees_bind; [solve [agr]|agr]
  | |- agrees (pmap _ _) _ => apply agrees_pmap; agr
  | |- agrees (pfold _ _ _) _ => apply agrees_pfold; agr
  | |- agrees (pmap_st _ _ _) _ => apply agrees_pmap_st; agr
  | |- agrees (o_from_fn _ _) _ => apply agrees_from_fn; agr
  | |- _ => solve [auto 2 with agrees nocore]
  end.

Lemma agrees_flatten {A} m n (l : list (list A)) : agrees (o_flatten m n l) (flatten m n l).
Proof. unfold o_flatten, flatten. agr. Qed.
Lemma agrees_unflatten_ref {A} n m (l : list A) : agrees (o_unflatten_ref n m l) (unflatten_ref n m l).
Proof. unfold o_unflatten_ref, unflatten_ref. agr. Qed.
#[local] Hint Resolve agrees_flatten agrees_unflatten_ref : agrees.

Lemma agrees_small_reduce x : agrees (o_small_reduce x) (small_reduce x).
Proof.
  unfold o_small_reduce, small_reduce. eapply agrees_note; [reflexivity|].
  destruct (x <? Q); auto with agrees.
Qed.
#[local] Hint Resolve agrees_small_reduce : agrees.
Lemma agrees_barrett x : agrees (o_barrett_reduce x) (barrett_reduce x).
Proof. unfold o_barrett_reduce, barrett_reduce. agr. Qed.
#[local] Hint Resolve agrees_barrett : agrees.
Lemma agrees_fe_add x y : agrees (o_fe_add x y) (fe_add x y).
Proof. unfold o_fe_add, fe_add. agr. Qed.
Lemma agrees_fe_sub x y : agrees (o_fe_sub x y) (fe_sub x y).
Proof. unfold o_fe_sub, fe_sub. agr. Qed.
Lemma agrees_fe_mul x y : agrees (o_fe_mul x y) (fe_mul x y).
Proof. unfold o_fe_mul, fe_mul. agr. Qed.
Lemma agrees_base_case a b c d i : agrees (o_base_case_multiply a b c d i) (base_case_multiply a b c d i).
Proof. unfold o_base_case_multiply, base_case_multiply. agr. Qed.
#[local] Hint Resolve agrees_fe_add agrees_fe_sub agrees_fe_mul agrees_base_case : agrees.
Lemma agrees_zip_collect {A} n (f : A -> A -> prog A) g x y : (forall a b, agrees (f a b) (g a b)) ->
  agrees (o_zip_collect n f x y) (zip_collect n g x y).
Proof.
  intros H. unfold o_zip_collect, zip_collect. apply agrees_bind; [|agr].
  apply agrees_pmap. intros [a b]. apply H.
Qed.
Lemma agrees_poly_add x y : agrees (o_poly_add x y) (poly_add x y).
Proof. apply agrees_zip_collect. agr. Qed.
Lemma agrees_poly_sub x y : agrees (o_poly_sub x y) (poly_sub x y).
Proof. apply agrees_zip_collect. agr. Qed.
Lemma agrees_poly_scale c x : agrees (o_poly_scale c x) (poly_scale c x).
Proof. unfold o_poly_scale, poly_scale. agr. Qed.
#[local] Hint Resolve agrees_poly_add agrees_poly_sub agrees_poly_scale : agrees.
Lemma agrees_vec_add k x y : agrees (o_vec_add k x y) (vec_add k x y).
Proof. apply agrees_zip_collect. agr. Qed.
Lemma agrees_nttvec_add k x y : agrees (o_nttvec_add k x y) (nttvec_add k x y).
Proof. apply agrees_zip_collect. agr. Qed.
Lemma agrees_ntt_mul x y : agrees (o_ntt_mul x y) (ntt_mul x y).
Proof.
  unfold o_ntt_mul, ntt_mul. apply agrees_pfold_in. intros out i Hi. apply in_seq in Hi.
  assert (O : forall A (f : nat -> prog A) r, agrees (f (2 * i + 1)%nat) r -> agrees (pbind (o_odd i) f) r).
  { intros A f r H.
    assert (E : agrees (o_odd i) (Ok (2 * i + 1)%nat)).
    { unfold o_odd. apply agrees_umul; [lia|]. apply (agrees_uadd (2 * i) 1 Ret); [lia|]. apply agrees_ret. }
    unfold agrees in *. rewrite result_bind, E. exact H. }
  unfold o_even.
  apply agrees_umul; [lia|]. apply agrees_bind; [agr|]. intros a0. apply O. apply agrees_bind; [agr|]. intros a1.
  apply agrees_umul; [lia|]. apply agrees_bind; [agr|]. intros b0. apply O. apply agrees_bind; [agr|]. intros b1.
  apply agrees_bind; [agr|]. intros [c0 c1]. apply agrees_umul; [lia|]. apply agrees_bind; [agr|]. intros out'.
  apply O. agr.
Qed.
Lemma agrees_butterfly z n f j : Z.of_nat (j + n) < 65536 -> agrees (o_ntt_butterfly z n f j) (ntt_butterfly z n f j).
Proof.
  intros L. unfold o_ntt_butterfly, ntt_butterfly. apply agrees_uadd; [exact L|].
  do 4 (apply agrees_bind; [agr|]; intros ?). apply agrees_uadd; [exact L|]. agr.
Qed.
#[local] Hint Resolve agrees_vec_add agrees_nttvec_add agrees_ntt_mul : agrees.
Lemma zeta_index k z : idx ZETA_POW_BITREV k = Ok z -> (k < 128)%nat.
Proof.
  unfold idx. destruct (nth_error ZETA_POW_BITREV k) eqn:E; [|discriminate]. intros _.
  replace 128%nat with (length ZETA_POW_BITREV) by reflexivity. apply nth_error_Some. rewrite E. discriminate.
Qed.
Lemma agrees_idx_bind {A B} (l : list A) i (f : A -> prog B) g :
  (forall a, idx l i = Ok a -> agrees (f a) (g a)) -> agrees (pbind (o_idx l i) f) (bind (idx l i) g).
Proof.
  intros H. unfold agrees, o_idx. rewrite result_bind, result_act. cbn [perform].
  destruct (idx l i) as [a| | |]; cbn [bind]; try reflexivity. apply H. reflexivity.
Qed.
Lemma agrees_ntt_block n st s : (n <= 128)%nat -> (s < 256)%nat -> agrees (o_ntt_block n st s) (ntt_block n st s).
Proof.
  intros Hn Hs. unfold o_ntt_block, ntt_block. destruct st as [k f]. apply agrees_idx_bind. intros z E.
  apply zeta_index in E. apply agrees_uadd; [lia|]. apply agrees_uadd; [lia|].
  replace (s + n - s)%nat with n by lia. apply agrees_bind; [|agr].
  apply agrees_pfold_in. intros g j Hj. apply in_seq in Hj. apply agrees_butterfly. lia.
Qed.
Lemma agrees_ntt_layer st n : (n <= 128)%nat -> agrees (o_ntt_layer st n) (ntt_layer st n).
Proof.
  intros Hn. unfold o_ntt_layer, ntt_layer. apply agrees_umul; [lia|]. apply agrees_pfold_in.
  intros t s Hs. apply step_by_lt in Hs. apply agrees_ntt_block; assumption.
Qed.
Lemma agrees_ntt f : agrees (o_ntt f) (ntt f).
Proof.
  unfold o_ntt, ntt. apply agrees_bind; [|agr]. apply agrees_pfold_in. intros st n Hn. apply agrees_ntt_layer.
  cbn [In] in Hn. lia.
Qed.
Lemma agrees_inv_butterfly z n f j : Z.of_nat (j + n) < 65536 -> agrees (o_inv_butterfly z n f j) (inv_butterfly z n f j).
Proof.
  intros L. unfold o_inv_butterfly, inv_butterfly. apply agrees_bind; [agr|]. intros t. apply agrees_uadd; [exact L|].
  do 3 (apply agrees_bind; [agr|]; intros ?). apply agrees_uadd; [exact L|].
  do 3 (apply agrees_bind; [agr|]; intros ?). apply agrees_uadd; [exact L|]. agr.
Qed.
#[local] Hint Resolve agrees_ntt : agrees.
Lemma agrees_inv_block n st s : (n <= 128)%nat -> (s < 256)%nat -> agrees (o_inv_block n st s) (inv_block n st s).
Proof.
  intros Hn Hs. unfold o_inv_block, inv_block. destruct st as [k f]. apply agrees_idx_bind. intros z E.
  apply zeta_index in E. destruct (Nat.eqb_spec k 0) as [->|N]; cbn [bind]; [apply agrees_usub_panic; lia|].
  apply agrees_usub; [lia|lia|]. apply agrees_uadd; [lia|].
  replace (s + n - s)%nat with n by lia. apply agrees_bind; [|agr].
  apply agrees_pfold_in. intros g j Hj. apply in_seq in Hj. apply agrees_inv_butterfly. lia.
Qed.
Lemma agrees_inv_layer st n : (n <= 128)%nat -> agrees (o_inv_layer st n) (inv_layer st n).
Proof.
  intros Hn. unfold o_inv_layer, inv_layer. apply agrees_umul; [lia|]. apply agrees_pfold_in.
  intros t s Hs. apply step_by_lt in Hs. apply agrees_inv_block; assumption.
Qed.
Lemma agrees_ntt_inverse f : agrees (o_ntt_inverse f) (ntt_inverse f).
Proof.
  unfold o_ntt_inverse, ntt_inverse. apply agrees_bind; [|agr]. apply agrees_pfold_in. intros st n Hn.
  apply agrees_inv_layer. cbn [In] in Hn. lia.
Qed.
#[local] Hint Resolve agrees_ntt_inverse : agrees.
Lemma agrees_dot x y : agrees (o_nttvec_dot x y) (nttvec_dot x y).
Proof. unfold o_nttvec_dot, nttvec_dot. agr. Qed.
#[local] Hint Resolve agrees_dot : agrees.
Lemma agrees_vec_ntt k v : agrees (o_vec_ntt k v) (vec_ntt k v).
Proof. unfold o_vec_ntt, vec_ntt. agr. Qed.
Lemma agrees_nttvec_inverse k v : agrees (o_nttvec_inverse k v) (nttvec_inverse k v).
Proof. unfold o_nttvec_inverse, nttvec_inverse. agr. Qed.
Lemma agrees_matrix_mul k m v : agrees (o_matrix_mul k m v) (matrix_mul k m v).
Proof. unfold o_matrix_mul, matrix_mul. agr. Qed.
Lemma agrees_fe_compress d x : agrees (o_fe_compress d x) (fe_compress d x).
Proof. unfold o_fe_compress, fe_compress. cbv zeta. agr. Qed.
Lemma agrees_fe_decompress d x : agrees (o_fe_decompress d x) (fe_decompress d x).
Proof. unfold o_fe_decompress, fe_decompress. cbv zeta. agr. Qed.
#[local] Hint Resolve agrees_vec_ntt agrees_nttvec_inverse agrees_matrix_mul agrees_fe_compress agrees_fe_decompress : agrees.
Lemma agrees_poly_compress d x : agrees (o_poly_compress d x) (poly_compress d x).
Proof. unfold o_poly_compress, poly_compress. agr. Qed.
Lemma agrees_poly_decompress d x : agrees (o_poly_decompress d x) (poly_decompress d x).
Proof. unfold o_poly_decompress, poly_decompress. agr. Qed.
#[local] Hint Resolve agrees_poly_compress agrees_poly_decompress : agrees.
Lemma agrees_vec_compress d x : agrees (o_vec_compress d x) (vec_compress d x).
Proof. unfold o_vec_compress, vec_compress. agr. Qed.
Lemma agrees_vec_decompress d x : agrees (o_vec_decompress d x) (vec_decompress d x).
Proof. unfold o_vec_decompress, vec_decompress. agr. Qed.
Lemma shl_far x y : 128 <= y -> ushl W128 x y = Panic.
Proof.
  intros H. unfold ushl. cbn [bits_of]. destruct (Z.ltb_spec y 128); [lia|]. rewrite andb_false_r. reflexivity.
Qed.
Lemma shr_far x y : 128 <= y -> ushr W128 x y = Panic.
Proof.
  intros H. unfold ushr. cbn [bits_of]. destruct (Z.ltb_spec y 128); [lia|]. rewrite andb_false_r. reflexivity.
Qed.
Lemma agrees_encode_chunk d v b : agrees (o_encode_chunk d v b) (encode_chunk d v b).
Proof.
  unfold o_encode_chunk, encode_chunk. cbv zeta. apply agrees_bind; [|agr]. apply agrees_pfold. intros x [j vj].
  destruct (Z.ltb_spec (Z.of_nat (d * j)) 65536) as [L|L]; [apply agrees_umul; [exact L|agr]|].
  rewrite shl_far by lia. apply agrees_umul_panic, L.
Qed.
#[local] Hint Resolve agrees_vec_compress agrees_vec_decompress agrees_encode_chunk : agrees.
Lemma agrees_byte_encode d v : agrees (o_byte_encode d v) (byte_encode d v).
Proof. unfold o_byte_encode, byte_encode. cbv zeta. agr. Qed.
Lemma agrees_decode_chunk d m v b : agrees (o_decode_chunk d m v b) (decode_chunk d m v b).
Proof.
  unfold o_decode_chunk, decode_chunk. cbv zeta. apply agrees_bind; [agr|]. intros xb.
  apply agrees_pmap. intros [j z]. destruct (Z.ltb_spec (Z.of_nat (d * j)) 65536) as [L|L];
    [|rewrite shr_far by lia; apply agrees_umul_panic, L].
  apply agrees_umul; [exact L|]. apply agrees_bind; [agr|]. intros s. apply agrees_bind; [agr|]. intros val.
  destruct (Nat.eqb d 12); [apply agrees_act|apply agrees_ret].
Qed.
#[local] Hint Resolve agrees_byte_encode agrees_decode_chunk : agrees.
Lemma agrees_byte_decode d v : agrees (o_byte_decode d v) (byte_decode d v).
Proof. unfold o_byte_decode, byte_decode. cbv zeta. agr. Qed.
#[local] Hint Resolve agrees_byte_decode : agrees.
Lemma agrees_vec_encode d k v : agrees (o_vec_encode d k v) (vec_encode d k v).
Proof. unfold o_vec_encode, vec_encode, poly_encode. agr. Qed.
Lemma agrees_vec_decode d k v : agrees (o_vec_decode d k v) (vec_decode d k v).
Proof. unfold o_vec_decode, vec_decode, poly_decode. agr. Qed.
Lemma agrees_sample_cbd eta B : agrees (o_poly_sample_cbd eta B) (poly_sample_cbd eta B).
Proof.
  unfold o_poly_sample_cbd, poly_sample_cbd, poly_decode. apply agrees_bind; [agr|]. intros vals.
  apply agrees_bind; [apply agrees_act|]. intros ones.
  apply agrees_bind; [apply agrees_pmap; intros v; apply agrees_act|]. intros l. agr.
Qed.
#[local] Hint Resolve agrees_vec_encode agrees_vec_decode agrees_sample_cbd : agrees.

(** the buffer keeps its length, so an end of a window that does not fit panics on both sides *)
Lemma next_loop_data n xof data start v r : next_loop n xof data start = Ok (v, r) ->
  length (fr_data r) = length data.
Proof.
  revert xof data start. induction n as [|n IH]; intros xof data start; cbn [next_loop]; [discriminate|].
  assert (K : forall d x s, length d = length data ->
    (let stop := (s + 3)%nat in
     let* b := slice d s stop in
     let start := stop in
     let* b0 := idx b 0 in
     let* b1 := idx b 1 in
     let* b2 := idx b 2 in
     let* t := ushl W16 (Z.land b1 15) 8 in
     let* d1 := uadd W16 b0 t in
     let* h := ushr W16 b1 4 in
     let* t := ushl W16 b2 4 in
     let* d2 := uadd W16 h t in
     if d1 <? Q then
       Ok (d1, {| fr_xof := x; fr_data := d; fr_start := start;
                  fr_next := if d2 <? Q then Some d2 else None; fr_budget := n |})
     else if d2 <? Q then
       Ok (d2, {| fr_xof := x; fr_data := d; fr_start := start;
                  fr_next := None; fr_budget := n |})
     else next_loop n x d start) = Ok (v, r) -> length (fr_data r) = length data).
  { intros d x s L. cbv zeta. intros E.
    do 9 (match type of E with (let* _ := ?X in _) = _ => destruct X; cbn [bind] in E; try discriminate E end).
    destruct (_ <? Q); [apply Ok_inj in E; inversion E; exact L|].
    destruct (_ <? Q); [apply Ok_inj in E; inversion E; exact L|]. rewrite (IH _ _ _ E). exact L. }
  destruct (Nat.eqb start (length data)).
  - unfold xof_read. apply K. rewrite map_length, seq_length. reflexivity.
  - apply K. reflexivity.
Qed.
Lemma agrees_next_loop n xof data start : Z.of_nat (length data) < 65536 ->
  agrees (o_next_loop n xof data start) (next_loop n xof data start).
Proof.
  revert xof data start. induction n as [|n IH]; intros xof data start HD; cbn [o_next_loop next_loop].
  - apply agrees_act.
  - eapply agrees_note; [reflexivity|].
    assert (K : forall d x s, Z.of_nat (length d) < 65536 ->
      agrees
       (do* stop := o_uadd s 3 in
        do* b := o_slice d s stop in
        do* b0 := o_idx b 0 in
        do* b1 := o_idx b 1 in
        do* b2 := o_idx b 2 in
        do* t := o_shl W16 (Z.land b1 15) 8 in
        do* d1 := o_add W16 b0 t in
        do* h := o_shr W16 b1 4 in
        do* t := o_shl W16 b2 4 in
        do* d2 := o_add W16 h t in
        do* c1 := act (Test Elsewhere (d1 <? Q)) in
        if c1 then
          do* c2 := act (Test Elsewhere (d2 <? Q)) in
          Ret (d1, {| fr_xof := x; fr_data := d; fr_start := stop;
                     fr_next := if c2 then Some d2 else None; fr_budget := n |})
        else
          do* c2 := act (Test Elsewhere (d2 <? Q)) in
          if c2 then
            Ret (d2, {| fr_xof := x; fr_data := d; fr_start := stop;
                       fr_next := None; fr_budget := n |})
          else o_next_loop n x d stop)
       (let* b := slice d s (s + 3) in
        let* b0 := idx b 0 in
        let* b1 := idx b 1 in
        let* b2 := idx b 2 in
        let* t := ushl W16 (Z.land b1 15) 8 in
        let* d1 := uadd W16 b0 t in
        let* h := ushr W16 b1 4 in
        let* t := ushl W16 b2 4 in
        let* d2 := uadd W16 h t in
        if d1 <? Q then
          Ok (d1, {| fr_xof := x; fr_data := d; fr_start := s + 3;
                     fr_next := if d2 <? Q then Some d2 else None; fr_budget := n |})
        else if d2 <? Q then
          Ok (d2, {| fr_xof := x; fr_data := d; fr_start := s + 3;
                     fr_next := None; fr_budget := n |})
        else next_loop n x d (s + 3))).
    { intros d x s Hd. destruct (Z.ltb_spec (Z.of_nat (s + 3)) 65536) as [L|L].
      2: { unfold slice at 1. destruct (Nat.leb_spec (s + 3) (length d)); [lia|]. rewrite andb_false_r. cbn [bind].
           apply agrees_uadd_panic, L. }
      apply agrees_uadd; [exact L|]. do 9 (apply agrees_bind; [agr|]; intros ?).
      eapply agrees_note; [reflexivity|]. destruct (_ <? Q).
      - eapply agrees_note; [reflexivity|]. apply agrees_ret.
      - eapply agrees_note; [reflexivity|]. destruct (_ <? Q); [apply agrees_ret|apply IH, Hd]. }
    destruct (Nat.eqb start (length data)).
    + unfold xof_read. unfold agrees. rewrite result_bind. cbn [result exec act pbind perform bind].
      unfold result at 1. cbn [exec perform snd bind]. apply K. rewrite map_length, seq_length. exact HD.
    + unfold agrees. rewrite result_bind. cbn [result exec bind]. apply K, HD.
Qed.
Lemma agrees_reader_next r : Z.of_nat (length (fr_data r)) < 65536 -> agrees (o_fe_reader_next r) (fe_reader_next r).
Proof.
  intros H. unfold o_fe_reader_next, fe_reader_next. eapply agrees_note; [reflexivity|].
  destruct (fr_next r); [apply agrees_ret|apply agrees_next_loop, H].
Qed.
Lemma agrees_sample_uniform n x : agrees (o_poly_sample_uniform n x) (poly_sample_uniform n x).
Proof.
  unfold o_poly_sample_uniform, poly_sample_uniform. cbv zeta. eapply agrees_note; [reflexivity|].
  apply agrees_bind; [|agr].
  apply (agrees_pmap_st_inv (fun r => length (fr_data r) = 96%nat)).
  - unfold fe_reader_new, xof_read. cbn [fr_data]. rewrite map_length, seq_length. reflexivity.
  - intros r _ H. split; [apply agrees_reader_next; rewrite H; lia|]. intros b r'. unfold fe_reader_next.
    destruct (fr_next r); [intros E; apply Ok_inj in E; inversion E; exact H|].
    intros E. rewrite (next_loop_data _ _ _ _ _ _ E). exact H.
Qed.
#[local] Hint Resolve agrees_sample_uniform : agrees.

Section WithHashes.
  Variable hs : hashes.
  Lemma agrees_G l : agrees (o_G hs l) (G hs l).
  Proof. unfold o_G, G. cbv zeta. eapply agrees_note; [reflexivity|]. agr. Qed.
  Lemma agrees_PRF_bind {B} eta s b (f : list Z -> prog B) r :
    agrees (f (PRF hs eta s b)) r -> agrees (pbind (o_PRF hs eta s b) f) r.
  Proof. intros H. unfold agrees. rewrite result_bind. exact H. Qed.
  Lemma agrees_vec_sample_cbd k eta s n : agrees (o_vec_sample_cbd hs k eta s n) (vec_sample_cbd hs k eta s n).
  Proof.
    unfold o_vec_sample_cbd, vec_sample_cbd. apply agrees_from_fn. intros i.
    apply agrees_bind; [agr|]. intros i8. apply agrees_bind; [agr|]. intros m.
    apply agrees_PRF_bind, agrees_sample_cbd.
  Qed.
  Lemma agrees_nttvec_sample fuel k rho i tr :
    agrees (o_nttvec_sample_uniform hs fuel k rho i tr) (nttvec_sample_uniform hs fuel k rho i tr).
  Proof.
    unfold o_nttvec_sample_uniform, nttvec_sample_uniform. apply agrees_from_fn. intros j.
    destruct (if tr then (j, i) else (i, j)) as [i' j']. apply agrees_bind; [agr|]. intros j8.
    apply agrees_bind; [agr|]. intros i8. eapply agrees_note; [reflexivity|]. agr.
  Qed.
  Lemma agrees_matrix_sample fuel k rho tr :
    agrees (o_matrix_sample_uniform hs fuel k rho tr) (matrix_sample_uniform hs fuel k rho tr).
  Proof.
    unfold o_matrix_sample_uniform, matrix_sample_uniform. apply agrees_from_fn. intros i.
    apply agrees_nttvec_sample.
  Qed.
  #[local] Hint Resolve agrees_G agrees_vec_sample_cbd agrees_matrix_sample : agrees.

  Variable P : params.
  Lemma agrees_pke_generate n d : agrees (o_pke_generate hs P n d) (pke_generate hs P n d).
  Proof. unfold o_pke_generate, pke_generate. agr. Qed.
  Lemma agrees_decrypt dk c : agrees (o_decrypt P dk c) (decrypt P dk c).
  Proof. unfold o_decrypt, decrypt, poly_decode, poly_encode. agr. Qed.
  Lemma agrees_encrypt n ek m r : agrees (o_encrypt hs P n ek m r) (encrypt hs P n ek m r).
  Proof.
    unfold o_encrypt, encrypt, poly_decode, poly_encode. cbv zeta.
    do 3 (apply agrees_bind; [agr|]; intros ?).
    apply agrees_PRF_bind. agr.
  Qed.
  Lemma agrees_ek_as_bytes ek : agrees (o_ek_as_bytes P ek) (ek_as_bytes P ek).
  Proof. unfold o_ek_as_bytes, ek_as_bytes, encode_u12. agr. Qed.
  Lemma agrees_dk_as_bytes dk : agrees (o_dk_as_bytes P dk) (dk_as_bytes P dk).
  Proof. unfold o_dk_as_bytes, dk_as_bytes, encode_u12. agr. Qed.
  Lemma agrees_ek_from_bytes e : agrees (o_ek_from_bytes P e) (ek_from_bytes P e).
  Proof. unfold o_ek_from_bytes, ek_from_bytes, decode_u12. agr. Qed.
  Lemma agrees_dk_from_bytes e : agrees (o_dk_from_bytes P e) (dk_from_bytes P e).
  Proof. unfold o_dk_from_bytes, dk_from_bytes, decode_u12. agr. Qed.
  #[local] Hint Resolve agrees_pke_generate agrees_decrypt agrees_encrypt agrees_ek_as_bytes agrees_dk_as_bytes
    agrees_ek_from_bytes agrees_dk_from_bytes : agrees.
  Lemma agrees_encaps_key_new ek : agrees (o_encaps_key_new hs P ek) (encaps_key_new hs P ek).
  Proof.
    unfold o_encaps_key_new, encaps_key_new. apply agrees_bind; [agr|]. intros b. unfold o_H.
    unfold agrees. rewrite !result_bind, result_act. reflexivity.
  Qed.
  #[local] Hint Resolve agrees_encaps_key_new : agrees.
  #[local] Hint Resolve agrees_encaps_key_new : agrees.
  Lemma agrees_encaps_key_from_bytes e : agrees (o_encaps_key_from_bytes hs P e) (encaps_key_from_bytes hs P e).
  Proof. unfold o_encaps_key_from_bytes, encaps_key_from_bytes. agr. Qed.
  Lemma agrees_decaps_key_from_bytes e : agrees (o_decaps_key_from_bytes P e) (decaps_key_from_bytes P e).
  Proof.
    unfold o_decaps_key_from_bytes, decaps_key_from_bytes. destruct (split_dk P e) as [[[a b] c] d]. agr.
  Qed.
  Lemma agrees_decaps_key_as_bytes dk : agrees (o_decaps_key_as_bytes P dk) (decaps_key_as_bytes P dk).
  Proof. unfold o_decaps_key_as_bytes, decaps_key_as_bytes, encaps_key_as_bytes. agr. Qed.
  Lemma agrees_generate n d z :
    agrees (o_decaps_key_generate_deterministic hs P n d z) (decaps_key_generate_deterministic hs P n d z).
  Proof. unfold o_decaps_key_generate_deterministic, decaps_key_generate_deterministic. agr. Qed.
  Lemma agrees_encapsulate n ek m :
    agrees (o_encapsulate_deterministic hs P n ek m) (encapsulate_deterministic hs P n ek m).
  Proof.
    unfold o_encapsulate_deterministic, encapsulate_deterministic, encapsulate_deterministic_inner. agr.
  Qed.
  Lemma result_pure_fold {A S} (f : S -> A -> S) l s :
    result Checked (pfold (fun s x => Ret (f s x)) l s) = Ok (fold_left f l s).
  Proof.
    unfold pfold. rewrite result_bind, result_act. cbn [perform bind]. revert s.
    induction l as [|x l IH]; intros s; [reflexivity|]. cbn [pfold_ fold_left pbind]. apply IH.
  Qed.
  Lemma result_pure_map {A B} (f : A -> B) l : result Checked (pmap (fun x => Ret (f x)) l) = Ok (map f l).
  Proof.
    unfold pmap. rewrite result_bind, result_act. cbn [perform bind].
    induction l as [|x l IH]; [reflexivity|]. cbn [pmap_ map pbind]. rewrite result_bind, IH. reflexivity.
  Qed.
  Lemma fold_left_map {A B C} (g : C -> B -> C) (f : A -> B) l s :
    fold_left (fun s x => g s (f x)) l s = fold_left g (map f l) s.
  Proof. revert s. induction l as [|x l IH]; intros s; [reflexivity|]. cbn [map fold_left]. apply IH. Qed.
  Lemma pfold_ext {A S} (f g : S -> A -> prog S) l s : (forall s x, f s x = g s x) ->
    result Checked (pfold f l s) = result Checked (pfold g l s).
  Proof.
    intros H. unfold pfold. rewrite !result_bind, !result_act. cbn [perform bind]. revert s.
    induction l as [|x l IH]; intros s; [reflexivity|]. cbn [pfold_]. rewrite !result_bind, H.
    destruct (result Checked (g s x)); cbn [bind]; [apply IH|reflexivity..].
  Qed.
  Lemma pmap_ext {A B} (f g : A -> prog B) l : (forall x, f x = g x) ->
    result Checked (pmap f l) = result Checked (pmap g l).
  Proof.
    intros H. unfold pmap. rewrite !result_bind, !result_act. cbn [perform bind].
    induction l as [|x l IH]; [reflexivity|]. cbn [pmap_]. rewrite !result_bind, H.
    destruct (result Checked (g x)); cbn [bind]; [|reflexivity..]. rewrite !result_bind, IH. reflexivity.
  Qed.
  Lemma agrees_ct_compare a b : agrees (o_ct_compare a b) (Ok (ct_compare a b)).
  Proof.
    unfold o_ct_compare, ct_compare, agrees.
    rewrite (pfold_ext _ (fun a p => Ret (Z.land a ((fun '(x, y) => constant_time_eq x y) p))))
      by (intros s [x y]; reflexivity).
    rewrite result_pure_fold, fold_left_map. reflexivity.
  Qed.
  Lemma agrees_ct_select e a b : agrees (o_ct_select e a b) (ct_select e a b).
  Proof.
    unfold o_ct_select, ct_select, agrees. rewrite result_bind.
    rewrite (pmap_ext _ (fun p => Ret ((fun '(x, y) => Z.lor (Z.land e x) (Z.land (unot W8 e) y)) p)))
      by (intros [x y]; reflexivity).
    rewrite result_pure_map. cbn [bind]. apply agrees_collect.
  Qed.
  Lemma agrees_decapsulate n dk c : agrees (o_decapsulate hs P n dk c) (decapsulate hs P n dk c).
  Proof.
    unfold o_decapsulate, decapsulate. cbv zeta. apply agrees_bind; [agr|]. intros mp.
    apply agrees_bind; [agr|]. intros [Kp rp]. unfold o_J. unfold agrees.
    rewrite !result_bind, result_act. cbn [perform bind]. rewrite result_ret. cbn [bind].
    apply agrees_bind; [agr|]. intros cp. unfold agrees. rewrite result_bind, agrees_ct_compare. cbn [bind].
    apply agrees_ct_select.
  Qed.
End WithHashes.

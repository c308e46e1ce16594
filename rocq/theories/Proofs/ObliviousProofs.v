(** What an observer sees of the ml-kem operations does not depend on secret values. *)
From Coq Require Import List ZArith Lia Bool Arith.
From Verif.Base Require Import Res Oracles.
From Verif.Spec Require Import Ops.
From Verif.Model Require Import Machine Util Algebra Compress Encode Crypto Sample Param Pke Kem Ops.
From Verif.Proofs Require Import Basics OpsProofs.
Import ListNotations.
Open Scope Z_scope.

(** if both programs return, they show the same outside the two sites, and return related
    values *)
Definition obl {A A'} (R : A -> A' -> Prop) (p : prog A) (p' : prog A') : Prop :=
  forall v v', result Checked p = Ok v -> result Checked p' = Ok v' ->
  outside_sites (trace Checked p) = outside_sites (trace Checked p') /\ R v v'.

Definition any {A A'} (_ : A) (_ : A') : Prop := True.
(** lists of the same length *)
Definition like {A} (l l' : list A) : Prop := length l = length l'.
(** lists of lists of the same shape *)
Definition alike {A} (v v' : list (list A)) : Prop := Forall2 like v v'.

Lemma outside_app l m : outside_sites (l ++ m) = outside_sites l ++ outside_sites m.
Proof. apply filter_app. Qed.

Lemma obl_ret {A A'} (R : A -> A' -> Prop) a a' : R a a' -> obl R (Ret a) (Ret a').
Proof. intros H v v' E E'. apply Ok_inj in E. apply Ok_inj in E'. subst. split; [reflexivity|exact H]. Qed.
Lemma obl_same {A} (p : prog A) : obl eq p p.
Proof. intros v v' E E'. rewrite E in E'. apply Ok_inj in E'. split; [reflexivity|exact E']. Qed.
Lemma obl_weaken {A A'} (R S : A -> A' -> Prop) p p' : (forall a a', R a a' -> S a a') -> obl R p p' -> obl S p p'.
Proof. intros H O v v' E E'. destruct (O v v' E E') as [T r]. split; [exact T|apply H, r]. Qed.
Lemma obl_bind {A A' B B'} (R : A -> A' -> Prop) (S : B -> B' -> Prop) p p' f f' :
  obl R p p' -> (forall a a', R a a' -> obl S (f a) (f' a')) -> obl S (pbind p f) (pbind p' f').
Proof.
  intros O F v v' E E'. rewrite result_bind in E. rewrite result_bind in E'.
  destruct (result Checked p) as [a| | |] eqn:Ea; cbn [bind] in E; try discriminate E.
  destruct (result Checked p') as [a'| | |] eqn:Ea'; cbn [bind] in E'; try discriminate E'.
  destruct (O a a' Ea Ea') as [T r]. destruct (F a a' r v v' E E') as [T' s].
  rewrite (trace_bind _ _ _ _ Ea), (trace_bind _ _ _ _ Ea'), !outside_app, T, T'. split; [reflexivity|exact s].
Qed.
Lemma obl_act {A} (R : A -> A -> Prop) (o o' : op A) : outside_sites (see o) = outside_sites (see o') ->
  (forall v v', perform Checked o = Ok v -> perform Checked o' = Ok v' -> R v v') -> obl R (act o) (act o').
Proof.
  intros T H v v' E E'. rewrite result_act in E, E'. rewrite !trace_act. split; [exact T|apply H; assumption].
Qed.

Lemma Forall2_length' {A B} (R : A -> B -> Prop) l l' : Forall2 R l l' -> length l = length l'.
Proof. induction 1; cbn [length]; lia. Qed.
Lemma like_any {A} (l l' : list A) : like l l' -> Forall2 any l l'.
Proof.
  unfold like. revert l'. induction l as [|x l IH]; intros [|y l'] H; try discriminate H; constructor; [exact I|].
  apply IH. cbn [length] in H. lia.
Qed.
Lemma any_like {A} (R : A -> A -> Prop) l l' : Forall2 R l l' -> like l l'.
Proof. apply Forall2_length'. Qed.
Lemma Forall2_same {A} (R : A -> A -> Prop) l : (forall x, R x x) -> Forall2 R l l.
Proof. intros H. induction l; constructor; [apply H|assumption]. Qed.
Lemma Forall2_combine {A B} (R : A -> A -> Prop) (S : B -> B -> Prop) l l' m m' : Forall2 R l l' -> Forall2 S m m' ->
  Forall2 (fun p p' => R (fst p) (fst p') /\ S (snd p) (snd p')) (combine l m) (combine l' m').
Proof.
  intros H. revert m m'. induction H as [|x y l l' Hxy H IH]; intros m m' Hm; [constructor|].
  destruct Hm as [|u w m m' Huw Hm]; [constructor|]. cbn [combine]. constructor; [split; assumption|apply IH, Hm].
Qed.
Lemma Forall2_nth_error {A} (R : A -> A -> Prop) l l' i v v' : Forall2 R l l' ->
  nth_error l i = Some v -> nth_error l' i = Some v' -> R v v'.
Proof.
  intros H. revert i. induction H as [|x y l l' Hxy H IH]; intros [|i] E E'; cbn [nth_error] in *; try discriminate.
  - congruence.
  - eapply IH; eassumption.
Qed.

Lemma obl_pmap {A B} (R : A -> A -> Prop) (S : B -> B -> Prop) f f' l l' : Forall2 R l l' ->
  (forall a a', R a a' -> obl S (f a) (f' a')) -> obl (Forall2 S) (pmap f l) (pmap f' l').
Proof.
  intros H F. unfold pmap. apply obl_bind with (R := any).
  - apply obl_act; [|intros; exact I]. cbn [see]. rewrite (Forall2_length' _ _ _ H). reflexivity.
  - intros _ _ _. induction H as [|x y l l' Hxy H IH]; cbn [pmap_]; [apply obl_ret; constructor|].
    eapply obl_bind; [apply F, Hxy|]. intros a a' Ha. eapply obl_bind; [exact IH|]. intros b b' Hb.
    apply obl_ret. constructor; assumption.
Qed.
Lemma obl_pfold {A S} (R : A -> A -> Prop) (T : S -> S -> Prop) f f' l l' s s' : Forall2 R l l' -> T s s' ->
  (forall s s' a a', T s s' -> R a a' -> obl T (f s a) (f' s' a')) -> obl T (pfold f l s) (pfold f' l' s').
Proof.
  intros H Hs F. unfold pfold. apply obl_bind with (R := any).
  - apply obl_act; [|intros; exact I]. cbn [see]. rewrite (Forall2_length' _ _ _ H). reflexivity.
  - intros _ _ _. revert s s' Hs. induction H as [|x y l l' Hxy H IH]; intros s s' Hs; cbn [pfold_]; [apply obl_ret, Hs|].
    eapply obl_bind; [apply F; [exact Hs|exact Hxy]|]. exact IH.
Qed.
Lemma obl_pmap_st {A B S} (R : A -> A -> Prop) (Q : B -> B -> Prop) (T : S -> S -> Prop) f f' l l' s s' :
  Forall2 R l l' -> T s s' ->
  (forall s s' a a', T s s' -> R a a' -> obl (fun p p' => Q (fst p) (fst p') /\ T (snd p) (snd p')) (f s a) (f' s' a')) ->
  obl (fun p p' => Forall2 Q (fst p) (fst p') /\ T (snd p) (snd p')) (pmap_st f l s) (pmap_st f' l' s').
Proof.
  intros H Hs F. unfold pmap_st. apply obl_bind with (R := any).
  - apply obl_act; [|intros; exact I]. cbn [see]. rewrite (Forall2_length' _ _ _ H). reflexivity.
  - intros _ _ _. revert s s' Hs. induction H as [|x y l l' Hxy H IH]; intros s s' Hs; cbn [pmap_st_].
    + apply obl_ret. split; [constructor|exact Hs].
    + eapply obl_bind; [apply F; [exact Hs|exact Hxy]|]. intros [b t] [b' t'] [Hb Ht]. cbn [fst snd] in *.
      eapply obl_bind; [apply IH, Ht|]. intros [c u] [c' u'] [Hc Hu]. cbn [fst snd] in *.
      apply obl_ret. cbn [fst snd]. split; [constructor; assumption|exact Hu].
Qed.

(** ** operators *)
Lemma obl_arith o w x y o' w' x' y' : obl any (act (Arith o w x y)) (act (Arith o' w' x' y')).
Proof. apply obl_act; [reflexivity|intros; exact I]. Qed.
Lemma obl_size o x y o' x' y' : obl any (act (Size o x y)) (act (Size o' x' y')).
Proof. apply obl_act; [reflexivity|intros; exact I]. Qed.
Lemma obl_truncate w x x' : obl any (o_truncate w x) (o_truncate w x').
Proof. apply obl_act; [reflexivity|intros; exact I]. Qed.
Lemma obl_idx {A} (R : A -> A -> Prop) l l' i : Forall2 R l l' -> obl R (o_idx l i) (o_idx l' i).
Proof.
  intros H. apply obl_act.
  - cbn [see]. rewrite (Forall2_length' _ _ _ H). reflexivity.
  - intros v v'. cbn [perform]. unfold idx.
    destruct (nth_error l i) as [x|] eqn:E; [|discriminate]. destruct (nth_error l' i) as [x'|] eqn:E'; [|discriminate].
    intros X X'. apply Ok_inj in X. apply Ok_inj in X'. subst. eapply Forall2_nth_error; eassumption.
Qed.
Lemma obl_idx_any (l l' : list Z) i : like l l' -> obl any (o_idx l i) (o_idx l' i).
Proof. intros H. apply obl_idx, like_any, H. Qed.
Lemma set_nth_length' {A} (l : list A) i v : length (set_nth l i v) = length l.
Proof. revert i. induction l as [|x l IH]; intros [|i]; cbn [set_nth length]; try reflexivity. rewrite IH. reflexivity. Qed.
Lemma obl_upd {A} (l l' : list A) i v v' : like l l' -> obl like (o_upd l i v) (o_upd l' i v').
Proof.
  intros H. apply obl_act.
  - cbn [see]. rewrite H. reflexivity.
  - intros w w'. cbn [perform]. unfold upd. destruct (Nat.ltb i (length l)); [|discriminate].
    destruct (Nat.ltb i (length l')); [|discriminate]. intros X X'. apply Ok_inj in X. apply Ok_inj in X'. subst.
    red. rewrite !set_nth_length'. exact H.
Qed.
Lemma obl_slice {A} (l l' : list A) a b : like l l' -> obl like (o_slice l a b) (o_slice l' a b).
Proof.
  intros H. apply obl_act.
  - cbn [see]. rewrite H. reflexivity.
  - intros w w'. cbn [perform]. unfold slice. rewrite H. destruct (_ && _); [|discriminate].
    intros X X'. apply Ok_inj in X. apply Ok_inj in X'. subst. red. rewrite !firstn_length, !skipn_length, H. reflexivity.
Qed.
Lemma obl_ptr_read {A} (l l' : list A) a b : like l l' -> obl like (o_ptr_read l a b) (o_ptr_read l' a b).
Proof.
  intros H. apply obl_act.
  - cbn [see]. rewrite H. reflexivity.
  - intros w w'. cbn [perform]. unfold ptr_read. rewrite H. destruct (Nat.leb _ _); [|discriminate].
    intros X X'. apply Ok_inj in X. apply Ok_inj in X'. subst. red. rewrite !firstn_length, !skipn_length, H. reflexivity.
Qed.
Lemma obl_require b : obl any (act (Require b)) (act (Require b)).
Proof. apply obl_act; [reflexivity|intros; exact I]. Qed.
Lemma obl_copy_from_slice {A} (d d' s s' : list A) : like d d' -> like s s' ->
  obl like (o_copy_from_slice d s) (o_copy_from_slice d' s').
Proof.
  intros H1 H2. unfold o_copy_from_slice. rewrite H1, H2. eapply obl_bind; [apply obl_require|].
  intros _ _ _. apply obl_ret, H2.
Qed.
Lemma like_app {A} (a a' b b' : list A) : like a a' -> like b b' -> like (a ++ b) (a' ++ b').
Proof. unfold like. intros H1 H2. rewrite !app_length. lia. Qed.
Lemma like_firstn {A} n (l l' : list A) : like l l' -> like (firstn n l) (firstn n l').
Proof. unfold like. intros H. rewrite !firstn_length, H. reflexivity. Qed.
Lemma like_skipn {A} n (l l' : list A) : like l l' -> like (skipn n l) (skipn n l').
Proof. unfold like. intros H. rewrite !skipn_length, H. reflexivity. Qed.
Lemma obl_copy_into {A} (l l' : list A) a b s s' : like l l' -> like s s' ->
  obl like (o_copy_into l a b s) (o_copy_into l' a b s').
Proof.
  intros H1 H2. unfold o_copy_into. eapply obl_bind; [apply obl_slice, H1|]. intros o o' Ho.
  eapply obl_bind; [apply obl_copy_from_slice; [exact Ho|exact H2]|]. intros w w' Hw. apply obl_ret.
  apply like_app; [apply like_firstn, H1|]. apply like_app; [exact Hw|apply like_skipn, H1].
Qed.
Lemma obl_collect {A} (R : A -> A -> Prop) n l l' : Forall2 R l l' -> obl (Forall2 R) (o_collect n l) (o_collect n l').
Proof.
  intros H. unfold o_collect. rewrite (Forall2_length' _ _ _ H). eapply obl_bind; [apply obl_require|].
  intros _ _ _. apply obl_ret, H.
Qed.
Lemma chunks_alike {A} fuel n (l l' : list A) : like l l' -> alike (chunks_aux fuel n l) (chunks_aux fuel n l').
Proof.
  revert l l'. induction fuel as [|f IH]; intros l l' H; cbn [chunks_aux]; [constructor|].
  destruct l as [|x l]; destruct l' as [|x' l']; try discriminate H; [constructor|].
  constructor; [apply like_firstn, H|apply IH, like_skipn, H].
Qed.
Lemma obl_chunks {A} n (l l' : list A) : like l l' -> obl alike (o_chunks n l) (o_chunks n l').
Proof.
  intros H. unfold o_chunks. eapply obl_bind; [apply obl_require|]. intros _ _ _. apply obl_ret.
  rewrite H. apply chunks_alike, H.
Qed.
Lemma obl_from_fn {A} (S : A -> A -> Prop) n f f' : (forall i, obl S (f i) (f' i)) ->
  obl (Forall2 S) (o_from_fn n f) (o_from_fn n f').
Proof.
  intros H. unfold o_from_fn. apply obl_pmap with (R := eq); [apply Forall2_same; reflexivity|].
  intros i i' <-. apply H.
Qed.
Lemma concat_alike {A} (l l' : list (list A)) : alike l l' -> like (concat l) (concat l').
Proof. induction 1 as [|x y l l' H _ IH]; [reflexivity|]. cbn [concat]. apply like_app; assumption. Qed.
Lemma alike_skipn {A} n (l l' : list (list A)) : alike l l' -> alike (skipn n l) (skipn n l').
Proof.
  intros H. revert n. induction H as [|x y l l' Hxy H IH]; intros [|n]; cbn [skipn]; try constructor; try assumption.
  apply IH.
Qed.
Lemma like_refl {A} (l : list A) : like l l.
Proof. reflexivity. Qed.
Lemma alike_refl {A} (l : list (list A)) : alike l l.
Proof. apply Forall2_same, like_refl. Qed.
Lemma obl_flatten {A} m n (l l' : list (list A)) : alike l l' -> obl like (o_flatten m n l) (o_flatten m n l').
Proof. intros H. apply obl_ptr_read, concat_alike, H. Qed.
Lemma obl_unflatten_ref {A} n m (l l' : list A) : like l l' -> obl alike (o_unflatten_ref n m l) (o_unflatten_ref n m l').
Proof.
  intros H. unfold o_unflatten_ref. cbv zeta. eapply obl_bind.
  - apply (obl_pmap_st (fun a b => a = b) like eq); [apply Forall2_same; reflexivity|reflexivity|].
    intros s s' a a' -> _. eapply obl_bind; [apply obl_ptr_read, H|]. intros q q' Hq. apply obl_ret.
    split; [exact Hq|reflexivity].
  - intros [a s] [a' s'] [Ha _]. apply obl_ret, Ha.
Qed.

(** ** field arithmetic: only [small_reduce] branches on values *)
Lemma obl_small_reduce x x' : obl any (o_small_reduce x) (o_small_reduce x').
Proof.
  intros v v' E E'. split; [|exact I].
  assert (T : forall y, outside_sites (trace Checked (o_small_reduce y)) = []).
  { intros y. unfold o_small_reduce. rewrite (trace_bind _ _ _ (y <? Q)) by reflexivity.
    rewrite trace_act, outside_app. cbn [see]. change (outside_sites [Branched SmallReduce (y <? Q)]) with (@nil event).
    destruct (y <? Q); [reflexivity|]. unfold o_sub. rewrite trace_act. reflexivity. }
  rewrite !T. reflexivity.
Qed.

Ltac ob := lazymatch goal with
  | |- obl _ (pbind (o_add _ _ _) _) _ => eapply obl_bind; [apply obl_arith|intros ? ? _; ob]
  | |- obl _ (pbind (o_sub _ _ _) _) _ => eapply obl_bind; [apply obl_arith|intros ? ? _; ob]
  | |- obl _ (pbind (o_mul _ _ _) _) _ => eapply obl_bind; [apply obl_arith|intros ? ? _; ob]
  | |- obl _ (pbind (o_shl _ _ _) _) _ => eapply obl_bind; [apply obl_arith|intros ? ? _; ob]
  | |- obl _ (pbind (o_shr _ _ _) _) _ => eapply obl_bind; [apply obl_arith|intros ? ? _; ob]
  | |- obl _ (pbind (o_umul _ _) _) _ => eapply obl_bind; [apply obl_size|intros ? ? _; ob]
  | |- obl _ (pbind (o_truncate _ _) _) _ => eapply obl_bind; [apply obl_truncate|intros ? ? _; ob]
  | |- _ => idtac
  end.

Lemma obl_barrett x x' : obl any (o_barrett_reduce x) (o_barrett_reduce x').
Proof. unfold o_barrett_reduce. ob. apply obl_small_reduce. Qed.
Lemma obl_fe_add x y x' y' : obl any (o_fe_add x y) (o_fe_add x' y').
Proof. unfold o_fe_add. ob. apply obl_small_reduce. Qed.
Lemma obl_fe_sub x y x' y' : obl any (o_fe_sub x y) (o_fe_sub x' y').
Proof. unfold o_fe_sub. ob. apply obl_small_reduce. Qed.
Lemma obl_fe_mul x y x' y' : obl any (o_fe_mul x y) (o_fe_mul x' y').
Proof. unfold o_fe_mul. ob. apply obl_barrett. Qed.
Lemma obl_base_case a b c d i a' b' c' d' :
  obl any (o_base_case_multiply a b c d i) (o_base_case_multiply a' b' c' d' i).
Proof.
  unfold o_base_case_multiply. eapply obl_bind; [apply obl_idx_any, like_refl|]. intros ? ? _. ob.
  eapply obl_bind; [apply obl_barrett|]. intros ? ? _. ob. eapply obl_bind; [apply obl_barrett|]. intros ? ? _. ob.
  eapply obl_bind; [apply obl_barrett|]. intros ? ? _. apply obl_ret. exact I.
Qed.
Lemma obl_zip_collect {A} (R : A -> A -> Prop) n f x y x' y' : Forall2 R x x' -> Forall2 R y y' ->
  (forall a b a' b', R a a' -> R b b' -> obl R (f a b) (f a' b')) ->
  obl (Forall2 R) (o_zip_collect n f x y) (o_zip_collect n f x' y').
Proof.
  intros Hx Hy F. unfold o_zip_collect. eapply obl_bind.
  - eapply obl_pmap with (S := R); [exact (Forall2_combine _ _ _ _ _ _ Hx Hy)|].
    intros [a b] [a' b'] [Ha Hb]. apply F; assumption.
  - intros l l' Hl. apply obl_collect, Hl.
Qed.
Lemma obl_poly_op (f : Z -> Z -> prog Z) x y x' y' : (forall a b a' b', obl any (f a b) (f a' b')) -> like x x' -> like y y' ->
  obl like (o_zip_collect 256 f x y) (o_zip_collect 256 f x' y').
Proof.
  intros F Hx Hy. apply obl_weaken with (R := Forall2 any); [apply any_like|].
  apply obl_zip_collect; [apply like_any, Hx|apply like_any, Hy|]. intros; apply F.
Qed.
Lemma obl_poly_add x y x' y' : like x x' -> like y y' -> obl like (o_poly_add x y) (o_poly_add x' y').
Proof. apply obl_poly_op. intros. apply obl_fe_add. Qed.
Lemma obl_poly_sub x y x' y' : like x x' -> like y y' -> obl like (o_poly_sub x y) (o_poly_sub x' y').
Proof. apply obl_poly_op. intros. apply obl_fe_sub. Qed.
Lemma obl_map_like {A B} (f f' : A -> prog B) l l' : (forall a a', obl any (f a) (f' a')) -> like l l' ->
  obl like (pmap f l) (pmap f' l').
Proof.
  intros F H. apply obl_weaken with (R := Forall2 any); [apply any_like|].
  eapply obl_pmap; [apply like_any, H|]. intros; apply F.
Qed.
Lemma obl_collect_like {A} n (l l' : list A) : like l l' -> obl like (o_collect n l) (o_collect n l').
Proof. intros H. eapply obl_weaken; [apply any_like|]. apply obl_collect, like_any, H. Qed.
Lemma obl_poly_scale c x x' : like x x' -> obl like (o_poly_scale c x) (o_poly_scale c x').
Proof.
  intros H. unfold o_poly_scale. eapply obl_bind; [apply obl_map_like; [intros; apply obl_fe_mul|exact H]|].
  intros l l' Hl. apply obl_collect_like, Hl.
Qed.
Lemma obl_vec_add k x y x' y' : alike x x' -> alike y y' -> obl alike (o_vec_add k x y) (o_vec_add k x' y').
Proof. intros. apply obl_zip_collect; try assumption. intros. apply obl_poly_add; assumption. Qed.
Lemma obl_nttvec_add k x y x' y' : alike x x' -> alike y y' -> obl alike (o_nttvec_add k x y) (o_nttvec_add k x' y').
Proof. intros. apply obl_zip_collect; try assumption. intros. apply obl_poly_add; assumption. Qed.

(** ** NTT *)
Ltac oi H := eapply obl_bind; [apply obl_idx_any; exact H|intros ? ? _].
Ltac os := eapply obl_bind; [apply obl_same|let n := fresh "ix" in let m := fresh "ix" in intros n m <-].
Lemma seq_same a n : Forall2 eq (seq a n) (seq a n).
Proof. apply Forall2_same. reflexivity. Qed.
Lemma obl_ntt_mul x y x' y' : like x x' -> like y y' -> obl like (o_ntt_mul x y) (o_ntt_mul x' y').
Proof.
  intros Hx Hy. unfold o_ntt_mul. eapply obl_pfold; [apply seq_same|apply like_refl|].
  intros s s' i i' Hs <-. os. oi Hx. os. oi Hx. os. oi Hy. os. oi Hy. eapply obl_bind; [apply obl_base_case|].
  intros [c0 c1] [c0' c1'] _. os. eapply obl_bind; [apply obl_upd, Hs|]. intros o o' Ho. os. apply obl_upd, Ho.
Qed.
Lemma obl_butterfly z len f f' j : like f f' -> obl like (o_ntt_butterfly z len f j) (o_ntt_butterfly z len f' j).
Proof.
  intros H. unfold o_ntt_butterfly. os. oi H. eapply obl_bind; [apply obl_fe_mul|]. intros ? ? _. oi H.
  eapply obl_bind; [apply obl_fe_sub|]. intros ? ? _. os. eapply obl_bind; [apply obl_upd, H|]. intros g g' Hg. oi Hg.
  eapply obl_bind; [apply obl_fe_add|]. intros ? ? _. apply obl_upd, Hg.
Qed.
Lemma obl_inv_butterfly z len f f' j : like f f' -> obl like (o_inv_butterfly z len f j) (o_inv_butterfly z len f' j).
Proof.
  intros H. unfold o_inv_butterfly. oi H. os. oi H. eapply obl_bind; [apply obl_fe_add|]. intros ? ? _.
  eapply obl_bind; [apply obl_upd, H|]. intros g g' Hg. os. oi Hg.
  eapply obl_bind; [apply obl_fe_sub|]. intros ? ? _. eapply obl_bind; [apply obl_fe_mul|]. intros ? ? _. os. apply obl_upd, Hg.
Qed.
Definition st_like (s s' : nat * list Z) : Prop := fst s = fst s' /\ like (snd s) (snd s').
Lemma obl_ntt_block len s s' st : st_like s s' -> obl st_like (o_ntt_block len s st) (o_ntt_block len s' st).
Proof.
  destruct s as [k f]. destruct s' as [k' f']. intros [E H]. cbn [fst snd] in *. subst k'. unfold o_ntt_block.
  eapply obl_bind; [apply (obl_idx eq), Forall2_same; reflexivity|]. intros z z' <-. os. os.
  eapply obl_bind; [eapply (obl_pfold eq like); [apply seq_same|exact H|]|].
  - intros g g' j j' Hg <-. apply obl_butterfly, Hg.
  - intros g g' Hg. apply obl_ret. split; [reflexivity|exact Hg].
Qed.
Lemma obl_inv_block len s s' st : st_like s s' -> obl st_like (o_inv_block len s st) (o_inv_block len s' st).
Proof.
  destruct s as [k f]. destruct s' as [k' f']. intros [E H]. cbn [fst snd] in *. subst k'. unfold o_inv_block.
  eapply obl_bind; [apply (obl_idx eq), Forall2_same; reflexivity|]. intros z z' <-.
  os. os.
  eapply obl_bind; [eapply (obl_pfold eq like); [apply seq_same|exact H|]|].
  - intros g g' j j' Hg <-. apply obl_inv_butterfly, Hg.
  - intros g g' Hg. apply obl_ret. split; [reflexivity|exact Hg].
Qed.
Lemma obl_ntt f f' : like f f' -> obl like (o_ntt f) (o_ntt f').
Proof.
  intros H. unfold o_ntt. eapply obl_bind.
  - eapply (obl_pfold eq st_like); [apply Forall2_same; reflexivity|split; [reflexivity|exact H]|].
    intros s s' len len' Hs <-. unfold o_ntt_layer. os. eapply (obl_pfold eq st_like); [apply Forall2_same; reflexivity|exact Hs|].
    intros t t' a a' Ht <-. apply obl_ntt_block, Ht.
  - intros [k g] [k' g'] [_ Hg]. apply obl_ret, Hg.
Qed.
Lemma obl_ntt_inverse f f' : like f f' -> obl like (o_ntt_inverse f) (o_ntt_inverse f').
Proof.
  intros H. unfold o_ntt_inverse. eapply obl_bind.
  - eapply (obl_pfold eq st_like); [apply Forall2_same; reflexivity|split; [reflexivity|exact H]|].
    intros s s' len len' Hs <-. unfold o_inv_layer. os. eapply (obl_pfold eq st_like); [apply Forall2_same; reflexivity|exact Hs|].
    intros t t' a a' Ht <-. apply obl_inv_block, Ht.
  - intros [k g] [k' g'] [_ Hg]. apply obl_poly_scale, Hg.
Qed.
Lemma obl_dot x y x' y' : alike x x' -> alike y y' -> obl like (o_nttvec_dot x y) (o_nttvec_dot x' y').
Proof.
  intros Hx Hy. unfold o_nttvec_dot. eapply obl_bind.
  - eapply obl_pmap with (S := like); [exact (Forall2_combine _ _ _ _ _ _ Hx Hy)|].
    intros [a b] [a' b'] [Ha Hb]. apply obl_ntt_mul; assumption.
  - intros p p' Hp. eapply obl_pfold; [exact Hp|apply like_refl|]. intros s s' a a' Hs Ha. apply obl_poly_add; assumption.
Qed.
Lemma obl_map_alike (f : list Z -> prog (list Z)) k v v' : (forall a a', like a a' -> obl like (f a) (f a')) -> alike v v' ->
  obl alike (do* l := pmap f v in o_collect k l) (do* l := pmap f v' in o_collect k l).
Proof.
  intros F H. eapply obl_bind; [eapply obl_pmap with (S := @like Z); [exact H|exact F]|].
  intros l l' Hl. apply obl_collect, Hl.
Qed.
Lemma obl_vec_ntt k v v' : alike v v' -> obl alike (o_vec_ntt k v) (o_vec_ntt k v').
Proof. apply obl_map_alike. apply obl_ntt. Qed.
Lemma obl_nttvec_inverse k v v' : alike v v' -> obl alike (o_nttvec_inverse k v) (o_nttvec_inverse k v').
Proof. apply obl_map_alike. apply obl_ntt_inverse. Qed.
Lemma obl_matrix_mul k m v v' : alike v v' -> obl alike (o_matrix_mul k m v) (o_matrix_mul k m v').
Proof.
  intros H. unfold o_matrix_mul. eapply obl_bind.
  - eapply (obl_pmap eq like); [apply Forall2_same; reflexivity|]. intros r r' <-. apply obl_dot; [apply alike_refl|exact H].
  - intros l l' Hl. apply obl_collect, Hl.
Qed.

(** ** compression and encoding *)
Lemma obl_fe_compress d x x' : obl any (o_fe_compress d x) (o_fe_compress d x').
Proof. unfold o_fe_compress. cbv zeta. ob. apply obl_ret. exact I. Qed.
Lemma obl_fe_decompress d x x' : obl any (o_fe_decompress d x) (o_fe_decompress d x').
Proof. unfold o_fe_decompress. cbv zeta. ob. apply obl_truncate. Qed.
Lemma obl_poly_compress d x x' : like x x' -> obl like (o_poly_compress d x) (o_poly_compress d x').
Proof. apply obl_map_like. intros; apply obl_fe_compress. Qed.
Lemma obl_poly_decompress d x x' : like x x' -> obl like (o_poly_decompress d x) (o_poly_decompress d x').
Proof. apply obl_map_like. intros; apply obl_fe_decompress. Qed.
Lemma obl_vec_compress d x x' : alike x x' -> obl alike (o_vec_compress d x) (o_vec_compress d x').
Proof. intros H. eapply obl_pmap; [exact H|]. apply obl_poly_compress. Qed.
Lemma obl_vec_decompress d x x' : alike x x' -> obl alike (o_vec_decompress d x) (o_vec_decompress d x').
Proof. intros H. eapply obl_pmap; [exact H|]. apply obl_poly_decompress. Qed.

Lemma enumerate_like {A} (l l' : list A) : like l l' -> Forall2 (fun p p' => fst p = fst p' /\ any (snd p) (snd p')) (enumerate l) (enumerate l').
Proof.
  intros H. unfold enumerate. rewrite H. apply Forall2_combine; [apply seq_same|apply like_any, H].
Qed.
Lemma to_le_bytes_length' n x : length (to_le_bytes n x) = n.
Proof. revert x. induction n as [|n IH]; intros x; cbn [to_le_bytes length]; [reflexivity|]. rewrite IH. reflexivity. Qed.
Lemma obl_encode_chunk d v v' b b' : like v v' -> like b b' -> obl like (o_encode_chunk d v b) (o_encode_chunk d v' b').
Proof.
  intros Hv Hb. unfold o_encode_chunk. cbv zeta. eapply obl_bind with (R := any).
  - eapply obl_pfold; [apply enumerate_like, Hv|exact I|]. intros s s' [j x] [j' x'] _ [E _]. cbn [fst] in E. subst j'.
    os. ob. apply obl_ret. exact I.
  - intros x x' _. eapply obl_bind; [apply obl_slice; red; rewrite !to_le_bytes_length'; reflexivity|].
    intros s s' Hs. apply obl_copy_from_slice; assumption.
Qed.
Lemma obl_byte_encode d v v' : like v v' -> obl like (o_byte_encode d v) (o_byte_encode d v').
Proof.
  intros H. unfold o_byte_encode. cbv zeta. eapply obl_bind; [apply obl_chunks, H|]. intros vc vc' Hv.
  eapply obl_bind; [apply obl_chunks, like_refl|]. intros bc bc' Hb. eapply obl_bind.
  - eapply obl_pmap with (S := like); [exact (Forall2_combine _ _ _ _ _ _ Hv Hb)|].
    intros [a b] [a' b'] [Ha Hb']. apply obl_encode_chunk; assumption.
  - intros o o' Ho. apply obl_ret. apply like_app; [apply concat_alike, Ho|].
    rewrite (Forall2_length' _ _ _ Hv). apply concat_alike, alike_skipn, Hb.
Qed.
Lemma obl_decode_chunk d m m' v v' b b' : d <> 12%nat -> like v v' -> like b b' ->
  obl like (o_decode_chunk d m v b) (o_decode_chunk d m' v' b').
Proof.
  intros Nd Hv Hb. unfold o_decode_chunk. cbv zeta.
  eapply obl_bind; [apply obl_copy_into; [apply like_refl|exact Hb]|]. intros x x' Hx.
  apply obl_weaken with (R := Forall2 any); [apply any_like|].
  eapply obl_pmap; [apply enumerate_like, Hv|]. intros [j y] [j' y'] _. ob.
  apply Nat.eqb_neq in Nd. rewrite Nd. apply obl_ret. exact I.
Qed.
Lemma obl_byte_decode d b b' : d <> 12%nat -> like b b' -> obl like (o_byte_decode d b) (o_byte_decode d b').
Proof.
  intros Nd H. unfold o_byte_decode. cbv zeta. ob. eapply obl_bind; [apply obl_chunks, like_refl|]. intros vc vc' Hv.
  eapply obl_bind; [apply obl_chunks, H|]. intros bc bc' Hb. eapply obl_bind.
  - eapply obl_pmap with (S := like); [exact (Forall2_combine _ _ _ _ _ _ Hv Hb)|].
    intros [p r] [p' r'] [Hp Hr]. apply obl_decode_chunk; assumption.
  - intros o o' Ho. apply obl_ret. apply like_app; [apply concat_alike, Ho|].
    rewrite (Forall2_length' _ _ _ Hb). apply concat_alike, alike_skipn, Hv.
Qed.
Lemma obl_vec_encode d k v v' : alike v v' -> obl like (o_vec_encode d k v) (o_vec_encode d k v').
Proof.
  intros H. unfold o_vec_encode. eapply obl_bind; [eapply obl_pmap with (S := like); [exact H|apply obl_byte_encode]|].
  intros l l' Hl. eapply obl_bind; [apply obl_collect, Hl|]. intros p p' Hp. apply obl_flatten, Hp.
Qed.
Lemma obl_vec_decode d k b b' : d <> 12%nat -> like b b' -> obl alike (o_vec_decode d k b) (o_vec_decode d k b').
Proof.
  intros Nd H. unfold o_vec_decode. eapply obl_bind; [apply obl_unflatten_ref, H|]. intros u u' Hu.
  eapply obl_bind; [eapply obl_pmap with (S := like); [exact Hu|intros; apply obl_byte_decode; assumption]|].
  intros l l' Hl. apply obl_collect, Hl.
Qed.

(** ** sampling: only the table lookups depend on the bytes *)
Lemma obl_ones ones i i' : obl any (act (Get OnesTable ones i)) (act (@Get Z OnesTable ones i')).
Proof. apply obl_act; [reflexivity|intros; exact I]. Qed.
Lemma obl_sample_cbd eta B B' : (2 * eta <> 12)%nat -> like B B' -> obl like (o_poly_sample_cbd eta B) (o_poly_sample_cbd eta B').
Proof.
  intros Ne H. unfold o_poly_sample_cbd. eapply obl_bind; [apply obl_byte_decode; [exact Ne|exact H]|]. intros v v' Hv.
  eapply obl_bind; [apply obl_same|]. intros ones ones' <-.
  eapply obl_bind; [apply obl_map_like; [intros; apply obl_ones|exact Hv]|]. intros l l' Hl. apply obl_collect_like, Hl.
Qed.

(** ** the matrix: the observations and the result depend on the XOF streams only *)
Definition same_xof (x x' : xof_reader) : Prop :=
  xof_pos x = xof_pos x' /\ forall t, xof_stream x t = xof_stream x' t.
Definition same_reader (r r' : fe_reader) : Prop :=
  same_xof (fr_xof r) (fr_xof r') /\ fr_data r = fr_data r' /\ fr_start r = fr_start r' /\ fr_next r = fr_next r'.
Lemma same_xof_read x x' n : same_xof x x' ->
  fst (xof_read x n) = fst (xof_read x' n) /\ same_xof (snd (xof_read x n)) (snd (xof_read x' n)).
Proof.
  intros [E H]. unfold xof_read. cbn [fst snd]. split.
  - rewrite E. apply map_ext. exact H.
  - split; [cbn [xof_pos]; rewrite E; reflexivity|exact H].
Qed.
Definition same_step (p p' : Z * fe_reader) : Prop := fst p = fst p' /\ same_reader (snd p) (snd p').
Lemma obl_next_loop n : forall n' x x' data start, same_xof x x' ->
  obl same_step (o_next_loop n x data start) (o_next_loop n' x' data start).
Proof.
  induction n as [|n IH]; intros [|n'] x x' data start H; try (intros v v' E E'; discriminate).
  cbn [o_next_loop]. eapply obl_bind; [apply obl_same|]. intros refill ? <-.
  eapply obl_bind with (R := fun p p' => fst (fst p) = fst (fst p') /\ same_xof (snd (fst p)) (snd (fst p')) /\ snd p = snd p').
  { destruct refill.
    - destruct (same_xof_read x x' (length data) H) as [E1 E2].
      destruct (xof_read x (length data)) as [d y]. destruct (xof_read x' (length data)) as [d' y']. cbn [fst snd] in *.
      eapply obl_bind; [apply obl_same|]. intros _ _ _. apply obl_ret. cbn [fst snd]. auto.
    - apply obl_ret. cbn [fst snd]. auto. }
  intros [[d y] s] [[d' y'] s'] (E1 & Hy & E2). cbn [fst snd] in *. subst d' s'. cbv zeta.
  do 11 (eapply obl_bind; [apply obl_same|]; intros ? ? <-).
  match goal with |- obl _ (if ?c then _ else _) _ => destruct c end.
  - eapply obl_bind; [apply obl_same|]. intros c2 ? <-. apply obl_ret. split; [reflexivity|]. repeat split; apply Hy.
  - eapply obl_bind; [apply obl_same|]. intros c2 ? <-. destruct c2; [|apply IH, Hy].
    apply obl_ret. split; [reflexivity|]. repeat split; apply Hy.
Qed.
Lemma obl_reader_next r r' : same_reader r r' -> obl same_step (o_fe_reader_next r) (o_fe_reader_next r').
Proof.
  intros (Hx & E1 & E2 & E3). unfold o_fe_reader_next. rewrite <- E1, <- E2, <- E3.
  eapply obl_bind; [apply obl_same|]. intros stored _ <-. destruct stored.
  - apply obl_ret. split; [reflexivity|]. split; [exact Hx|]. repeat split.
  - apply obl_next_loop, Hx.
Qed.
Lemma obl_sample_uniform n n' x x' : same_xof x x' -> obl eq (o_poly_sample_uniform n x) (o_poly_sample_uniform n' x').
Proof.
  intros H. unfold o_poly_sample_uniform. eapply obl_bind; [apply obl_same|]. intros _ _ _.
  eapply obl_bind.
  - apply obl_pmap_st with (R := eq) (Q := eq) (T := same_reader); [apply Forall2_same; reflexivity| |].
    + unfold fe_reader_new. destruct (same_xof_read x x' 96 H) as [E1 E2].
      destruct (xof_read x 96) as [d y]. destruct (xof_read x' 96) as [d' y']. cbn [fst snd] in *. subst d'.
      split; [exact E2|]. repeat split.
    + intros r r' a a' Hr _. apply obl_reader_next, Hr.
  - intros [l r] [l' r'] [E _]. cbn [fst] in E. apply obl_ret. clear - E. induction E; [reflexivity|congruence].
Qed.
Lemma Forall2_eq {A} (l l' : list A) : Forall2 eq l l' -> l = l'.
Proof. induction 1; congruence. Qed.
Lemma obl_from_fn_lt {A} (S : A -> A -> Prop) n f f' : (forall i, (i < n)%nat -> obl S (f i) (f' i)) ->
  obl (Forall2 S) (o_from_fn n f) (o_from_fn n f').
Proof.
  intros H. unfold o_from_fn. apply obl_pmap with (R := fun i i' => i = i' /\ (i < n)%nat).
  - assert (L : Forall (fun i => (i < n)%nat) (seq 0 n)) by (apply Forall_forall; intros i Hi; apply in_seq in Hi; lia).
    induction L; constructor; auto.
  - intros i i' [<- Hi]. apply H, Hi.
Qed.
Lemma obl_index i : (i < 256)%nat ->
  obl (fun a a' => a = Z.of_nat i /\ a' = Z.of_nat i) (o_truncate W8 (Z.of_nat i)) (o_truncate W8 (Z.of_nat i)).
Proof.
  intros Hi v v' E E'. split; [reflexivity|]. rewrite agrees_truncate, truncate_small in E, E' by (cbn [modulus]; lia).
  apply Ok_inj in E. apply Ok_inj in E'. auto.
Qed.

Lemma o_G_value hs l v : result Checked (o_G hs l) = Ok v ->
  let o := sha3_512 hs (concat l) in length o = 64%nat /\ v = (firstn 32 o, skipn 32 o).
Proof.
  rewrite agrees_G. unfold G. set (o := sha3_512 hs (concat l)). clearbody o. intros E. cbv zeta.
  unfold slice in E. destruct (Nat.leb 0 32 && Nat.leb 32 (length o)) eqn:E1; cbn [bind] in E; [|discriminate E].
  apply andb_prop in E1. destruct E1 as [_ L]. apply Nat.leb_le in L.
  rewrite Nat.sub_0_r, skipn_O in E. unfold copy_from_slice in E. rewrite firstn_length, repeat_length in E.
  rewrite Nat.min_l, Nat.eqb_refl in E by exact L. cbn [bind] in E.
  rewrite Nat.leb_refl, andb_true_r in E. rewrite (proj2 (Nat.leb_le _ _) L) in E. cbn [bind] in E.
  rewrite firstn_all2 in E by (rewrite skipn_length; lia). rewrite skipn_length in E.
  destruct (Nat.eq_dec (length o - 32) 32) as [E2|E2].
  - rewrite E2, Nat.eqb_refl in E. cbn [bind] in E. apply Ok_inj in E. split; [lia|symmetry; exact E].
  - rewrite ?(proj2 (Nat.eqb_neq _ _) E2), ?(proj2 (Nat.eqb_neq _ _) (not_eq_sym E2)) in E.
    cbn [bind] in E. discriminate E.
Qed.

Section WithHashes.
  Variables hs hs' : hashes.

  Lemma obl_nttvec_sample n n' k rho rho' i tr : (k <= 256)%nat -> (i < k)%nat -> same_expansion k hs hs' rho rho' ->
    like rho rho' ->
    obl eq (o_nttvec_sample_uniform hs n k rho i tr) (o_nttvec_sample_uniform hs' n' k rho' i tr).
  Proof.
    intros Hk Hi HE HL. unfold o_nttvec_sample_uniform. eapply obl_weaken; [apply Forall2_eq|].
    apply obl_from_fn_lt. intros j Hj.
    assert (O : forall a b, (a < k)%nat -> (b < k)%nat -> obl eq
      (do* j8 := o_truncate W8 (Z.of_nat b) in do* i8 := o_truncate W8 (Z.of_nat a) in
       do* _ := act (Hash (length (concat [rho; [j8; i8]]))) in o_poly_sample_uniform n (XOF hs rho j8 i8))
      (do* j8 := o_truncate W8 (Z.of_nat b) in do* i8 := o_truncate W8 (Z.of_nat a) in
       do* _ := act (Hash (length (concat [rho'; [j8; i8]]))) in o_poly_sample_uniform n' (XOF hs' rho' j8 i8))).
    { intros a b Ha Hb. eapply obl_bind; [apply obl_index; lia|]. intros ? ? [-> ->].
      eapply obl_bind; [apply obl_index; lia|]. intros ? ? [-> ->].
      assert (EL : length (concat [rho; [Z.of_nat b; Z.of_nat a]]) = length (concat [rho'; [Z.of_nat b; Z.of_nat a]]))
        by (cbn [concat]; rewrite !app_length, HL; reflexivity).
      rewrite EL. eapply obl_bind; [apply obl_same|]. intros _ _ _. apply obl_sample_uniform. split; [reflexivity|].
      intros t. unfold XOF. cbn [xof_stream concat]. apply HE; assumption. }
    destruct tr; apply O; assumption.
  Qed.
  Lemma obl_matrix_sample n n' k rho rho' tr : (k <= 256)%nat -> same_expansion k hs hs' rho rho' -> like rho rho' ->
    obl eq (o_matrix_sample_uniform hs n k rho tr) (o_matrix_sample_uniform hs' n' k rho' tr).
  Proof.
    intros Hk HE HL. unfold o_matrix_sample_uniform. eapply obl_weaken; [apply Forall2_eq|].
    apply obl_from_fn_lt. intros i Hi. apply obl_nttvec_sample; assumption.
  Qed.

  Lemma obl_hash n : obl any (act (Hash n)) (act (Hash n)).
  Proof. apply obl_act; [reflexivity|intros; exact I]. Qed.

  (** G: outputs of 32 bytes each *)
  Definition both32 (p p' : list Z * list Z) : Prop := like (fst p) (fst p') /\ like (snd p) (snd p').
  Lemma obl_copy32 (s s' : list Z) : like s s' -> obl like (o_copy_from_slice (repeat 0 32) s) (o_copy_from_slice (repeat 0 32) s').
  Proof. intros H. apply obl_copy_from_slice; [apply like_refl|exact H]. Qed.

  Lemma obl_G l l' : like (concat l) (concat l') -> obl both32 (o_G hs l) (o_G hs' l').
  Proof.
    intros H v v' E E'. destruct (o_G_value _ _ _ E) as [L _]. destruct (o_G_value _ _ _ E') as [L' _].
    revert v v' E E'. change (obl both32 (o_G hs l) (o_G hs' l')).
    unfold o_G. cbv zeta. rewrite H. eapply obl_bind; [apply obl_hash|]. intros _ _ _.
    assert (LL : like (sha3_512 hs (concat l)) (sha3_512 hs' (concat l'))) by (red; rewrite L, L'; reflexivity).
    eapply obl_bind; [apply obl_slice, LL|]. intros a a' Ha. eapply obl_bind; [apply obl_copy32, Ha|]. intros b b' Hb.
    rewrite L, L'. eapply obl_bind; [apply obl_slice, LL|]. intros c c' Hc. eapply obl_bind; [apply obl_copy32, Hc|].
    intros d d' Hd. apply obl_ret. split; assumption.
  Qed.
  Lemma PRF_like eta s s' b b' : like (PRF hs eta s b) (PRF hs' eta s' b').
  Proof. unfold PRF, xof_read. cbn [fst xof_pos]. red. rewrite !map_length, !seq_length. reflexivity. Qed.
  Lemma obl_PRF eta s s' b b' : like s s' -> obl like (o_PRF hs eta s b) (o_PRF hs' eta s' b').
  Proof.
    intros H. unfold o_PRF. replace (length (concat [s; [b]])) with (length (concat [s'; [b']])).
    - eapply obl_bind; [apply obl_hash|]. intros _ _ _. apply obl_ret, PRF_like.
    - cbn [concat]. rewrite !app_length, H. reflexivity.
  Qed.
  Lemma obl_vec_sample_cbd k eta s s' n : (2 * eta <> 12)%nat -> like s s' ->
    obl alike (o_vec_sample_cbd hs k eta s n) (o_vec_sample_cbd hs' k eta s' n).
  Proof.
    intros Ne H. unfold o_vec_sample_cbd. apply obl_from_fn. intros i. ob.
    eapply obl_bind; [apply obl_PRF, H|]. intros p p' Hp. apply obl_sample_cbd; assumption.
  Qed.

  Variable P : params.
  Hypothesis HP : wf_params P.

  Lemma eta_not_12 : (2 * eta1 P <> 12 /\ 2 * eta2 P <> 12)%nat.
  Proof. destruct HP. lia. Qed.

  Lemma k_small : (pk P <= 256)%nat.
  Proof. destruct HP. lia. Qed.

  Hypothesis Hdu : du P <> 12%nat.
  Hypothesis Hdv : dv P <> 12%nat.

  Lemma obl_decrypt dk dk' c c' : alike (s_hat dk) (s_hat dk') -> like c c' ->
    obl like (o_decrypt P dk c) (o_decrypt P dk' c').
  Proof.
    intros Hs Hc. unfold o_decrypt, split_ct.
    eapply obl_bind; [apply obl_vec_decode; [exact Hdu|apply like_firstn, Hc]|]. intros u u' Hu.
    eapply obl_bind; [apply obl_vec_decompress, Hu|]. intros u1 u1' Hu1.
    eapply obl_bind; [apply obl_byte_decode; [exact Hdv|apply like_skipn, Hc]|]. intros v v' Hv.
    eapply obl_bind; [apply obl_poly_decompress, Hv|]. intros v1 v1' Hv1.
    eapply obl_bind; [apply obl_vec_ntt, Hu1|]. intros uh uh' Huh.
    eapply obl_bind; [apply obl_dot; [exact Hs|exact Huh]|]. intros su su' Hsu.
    eapply obl_bind; [apply obl_ntt_inverse, Hsu|]. intros st st' Hst.
    eapply obl_bind; [apply obl_poly_sub; [exact Hv1|exact Hst]|]. intros w w' Hw.
    eapply obl_bind; [apply obl_poly_compress, Hw|]. intros x x' Hx. apply obl_byte_encode, Hx.
  Qed.

  Lemma obl_encrypt n n' ek ek' m m' r r' : same_expansion (pk P) hs hs' (rho ek) (rho ek') -> like (rho ek) (rho ek') ->
    alike (t_hat ek) (t_hat ek') -> like m m' -> like r r' ->
    obl like (o_encrypt hs P n ek m r) (o_encrypt hs' P n' ek' m' r').
  Proof.
    intros HE HL Ht Hm Hr. destruct eta_not_12 as [N1 N2]. unfold o_encrypt.
    eapply obl_bind; [apply obl_vec_sample_cbd; [exact N1|exact Hr]|]. intros rv rv' Hrv.
    eapply obl_bind; [apply obl_vec_sample_cbd; [exact N2|exact Hr]|]. intros e1 e1' He1.
    eapply obl_bind; [apply obl_same|]. intros n2 n2' <-.
    eapply obl_bind; [apply obl_PRF, Hr|]. intros pr pr' Hpr.
    eapply obl_bind; [apply obl_sample_cbd; [exact N2|exact Hpr]|]. intros e2 e2' He2.
    eapply obl_bind; [apply obl_matrix_sample; [exact k_small|exact HE|exact HL]|]. intros A A' <-.
    eapply obl_bind; [apply obl_vec_ntt, Hrv|]. intros rh rh' Hrh.
    eapply obl_bind; [apply obl_matrix_mul, Hrh|]. intros Ar Ar' HAr.
    eapply obl_bind; [apply obl_nttvec_inverse, HAr|]. intros At At' HAt.
    eapply obl_bind; [apply obl_vec_add; [exact HAt|exact He1]|]. intros u u' Hu.
    eapply obl_bind; [apply obl_byte_decode; [discriminate|exact Hm]|]. intros mu mu' Hmu.
    eapply obl_bind; [apply obl_poly_decompress, Hmu|]. intros mv mv' Hmv.
    eapply obl_bind; [apply obl_dot; [exact Ht|exact Hrh]|]. intros tr tr' Htr.
    eapply obl_bind; [apply obl_ntt_inverse, Htr|]. intros ti ti' Hti.
    eapply obl_bind; [apply obl_poly_add; [exact Hti|exact He2]|]. intros te te' Hte.
    eapply obl_bind; [apply obl_poly_add; [exact Hte|exact Hmv]|]. intros v v' Hv.
    eapply obl_bind; [apply obl_vec_compress, Hu|]. intros uc uc' Huc.
    eapply obl_bind; [apply obl_vec_encode, Huc|]. intros c1 c1' Hc1.
    eapply obl_bind; [apply obl_poly_compress, Hv|]. intros vc vc' Hvc.
    eapply obl_bind; [apply obl_byte_encode, Hvc|]. intros c2 c2' Hc2.
    apply obl_ret. apply like_app; assumption.
  Qed.

  Lemma obl_encapsulate n n' ek ek' m m' : same_expansion (pk P) hs hs' (rho (ek_pke ek)) (rho (ek_pke ek')) ->
    like (rho (ek_pke ek)) (rho (ek_pke ek')) ->
    alike (t_hat (ek_pke ek)) (t_hat (ek_pke ek')) -> like (ek_h ek) (ek_h ek') -> like m m' ->
    obl (fun p p' => like (fst p) (fst p') /\ like (snd p) (snd p'))
      (o_encapsulate_deterministic hs P n ek m) (o_encapsulate_deterministic hs' P n' ek' m').
  Proof.
    intros HE HL Ht Hh Hm. unfold o_encapsulate_deterministic.
    eapply obl_bind; [apply obl_G; cbn [concat]; apply like_app; [exact Hm|apply like_app; [exact Hh|reflexivity]]|].
    intros [K r] [K' r'] [HK Hr]. cbn [fst snd] in HK, Hr.
    eapply obl_bind; [apply obl_encrypt; [exact HE|exact HL|exact Ht|exact Hm|exact Hr]|]. intros c c' Hc.
    apply obl_ret. split; assumption.
  Qed.

  Lemma obl_ct_compare a b a' b' : like a a' -> like b b' -> obl any (o_ct_compare a b) (o_ct_compare a' b').
  Proof.
    intros Ha Hb. unfold o_ct_compare. eapply (obl_pfold _ any).
    - apply Forall2_combine; [apply like_any, Ha|apply like_any, Hb].
    - exact I.
    - intros s s' [x y] [x' y'] _ _. apply obl_ret. exact I.
  Qed.
  Lemma obl_ct_select e e' a b a' b' : like a a' -> like b b' -> obl like (o_ct_select e a b) (o_ct_select e' a' b').
  Proof.
    intros Ha Hb. unfold o_ct_select. eapply obl_bind with (R := like).
    - apply obl_weaken with (R := Forall2 any); [apply any_like|]. eapply obl_pmap.
      + apply Forall2_combine; [apply like_any, Ha|apply like_any, Hb].
      + intros [x y] [x' y'] _. apply obl_ret. exact I.
    - intros l l' Hl. apply obl_collect_like, Hl.
  Qed.

  Lemma obl_decapsulate n n' dk dk' c c' :
    same_expansion (pk P) hs hs' (rho (ek_pke (dk_ek dk))) (rho (ek_pke (dk_ek dk'))) ->
    like (rho (ek_pke (dk_ek dk))) (rho (ek_pke (dk_ek dk'))) ->
    alike (s_hat (dk_pke dk)) (s_hat (dk_pke dk')) ->
    alike (t_hat (ek_pke (dk_ek dk))) (t_hat (ek_pke (dk_ek dk'))) ->
    like (ek_h (dk_ek dk)) (ek_h (dk_ek dk')) -> like (dk_z dk) (dk_z dk') -> like c c' ->
    obl like (o_decapsulate hs P n dk c) (o_decapsulate hs' P n' dk' c').
  Proof.
    intros HE HL Hs Ht Hh Hz Hc. unfold o_decapsulate.
    eapply obl_bind; [apply obl_decrypt; [exact Hs|exact Hc]|]. intros mp mp' Hmp.
    eapply obl_bind; [apply obl_G; cbn [concat]; apply like_app; [exact Hmp|apply like_app; [exact Hh|reflexivity]]|].
    intros [K r] [K' r'] [HK Hr]. cbn [fst snd] in *.
    eapply obl_bind with (R := like).
    { unfold o_J. replace (length (concat [dk_z dk; c])) with (length (concat [dk_z dk'; c'])).
      - eapply obl_bind; [apply obl_hash|]. intros _ _ _. apply obl_ret. unfold J, xof_read. cbn [fst xof_pos].
        red. rewrite !map_length, !seq_length. reflexivity.
      - cbn [concat]. rewrite !app_length, Hz, Hc. reflexivity. }
    intros Kb Kb' HKb.
    eapply obl_bind; [apply obl_encrypt; [exact HE|exact HL|exact Ht|exact Hmp|exact Hr]|]. intros cp cp' Hcp.
    eapply obl_bind; [apply obl_ct_compare; [exact Hcp|exact Hc]|]. intros e e' _.
    apply obl_ct_select; assumption.
  Qed.

  (** key generation; [rho] is public *)
  Definition seed_part (hs : hashes) (d : list Z) : list Z := firstn 32 (sha3_512 hs (d ++ [K_U8 P])).
  Lemma obl_pke_generate n n' d d' : like d d' ->
    same_expansion (pk P) hs hs' (seed_part hs d) (seed_part hs' d') ->
    obl (fun p p' => alike (s_hat (fst p)) (s_hat (fst p')) /\ alike (t_hat (snd p)) (t_hat (snd p')) /\
                     rho (snd p) = seed_part hs d /\ rho (snd p') = seed_part hs' d' /\ like (rho (snd p)) (rho (snd p')))
      (o_pke_generate hs P n d) (o_pke_generate hs' P n' d').
  Proof.
    intros Hd HE. destruct eta_not_12 as [N1 N2]. unfold o_pke_generate.
    eapply obl_bind with (R := fun p p' => fst p = seed_part hs d /\ fst p' = seed_part hs' d' /\ both32 p p').
    { intros v v' E E'.
      destruct (obl_G [d; [K_U8 P]] [d'; [K_U8 P]] ltac:(cbn [concat]; apply like_app; [exact Hd|reflexivity]) v v' E E') as [T B].
      split; [exact T|]. destruct (o_G_value _ _ _ E) as [_ ->]. destruct (o_G_value _ _ _ E') as [_ ->].
      split; [|split; [|]].
      - cbn [fst concat]. rewrite app_nil_r. reflexivity.
      - cbn [fst concat]. rewrite app_nil_r. reflexivity.
      - destruct (o_G_value _ _ _ E) as [_ EE]. destruct (o_G_value _ _ _ E') as [_ EE']. exact B. }
    intros [rho0 sigma] [rho' sigma'] (E & E' & Hr & Hs). cbn [fst snd] in *. subst rho0 rho'.
    eapply obl_bind; [apply obl_matrix_sample; [exact k_small|exact HE|exact Hr]|]. intros A A' <-.
    eapply obl_bind; [apply obl_vec_sample_cbd; [exact N1|exact Hs]|]. intros s s' Hsv.
    eapply obl_bind; [apply obl_vec_sample_cbd; [exact N1|exact Hs]|]. intros e e' He.
    eapply obl_bind; [apply obl_vec_ntt, Hsv|]. intros sh sh' Hsh.
    eapply obl_bind; [apply obl_vec_ntt, He|]. intros eh eh' Heh.
    eapply obl_bind; [apply obl_matrix_mul, Hsh|]. intros As As' HAs.
    eapply obl_bind; [apply obl_nttvec_add; [exact HAs|exact Heh]|]. intros th th' Hth.
    apply obl_ret. cbn [fst snd s_hat t_hat rho]. auto.
  Qed.

  Lemma obl_ek_as_bytes ek ek' : like (rho ek) (rho ek') -> alike (t_hat ek) (t_hat ek') ->
    obl like (o_ek_as_bytes P ek) (o_ek_as_bytes P ek').
  Proof.
    intros Hr Ht. unfold o_ek_as_bytes. eapply obl_bind; [apply obl_vec_encode, Ht|]. intros t t' H.
    apply obl_ret. apply like_app; assumption.
  Qed.
  (** the keys generated have the same shape *)
  Lemma obl_generate n n' d d' z z' : like d d' ->
    same_expansion (pk P) hs hs' (seed_part hs d) (seed_part hs' d') ->
    obl (fun x x' => alike (s_hat (dk_pke x)) (s_hat (dk_pke x')) /\
                     alike (t_hat (ek_pke (dk_ek x))) (t_hat (ek_pke (dk_ek x'))) /\
                     rho (ek_pke (dk_ek x)) = seed_part hs d /\ rho (ek_pke (dk_ek x')) = seed_part hs' d' /\
                     dk_z x = z /\ dk_z x' = z')
      (o_decaps_key_generate_deterministic hs P n d z) (o_decaps_key_generate_deterministic hs' P n' d' z').
  Proof.
    intros Hd HE. unfold o_decaps_key_generate_deterministic.
    eapply obl_bind; [apply obl_pke_generate; [exact Hd|exact HE]|].
    intros [dk ek] [dk' ek'] (Hs & Ht & E & E' & HL). cbn [fst snd] in *.
    eapply obl_bind with (R := fun x x' => ek_pke x = ek /\ ek_pke x' = ek').
    - unfold o_encaps_key_new. eapply obl_bind; [apply obl_ek_as_bytes; [exact HL|exact Ht]|].
      intros b b' Hb. eapply obl_bind with (R := any).
      + unfold o_H. rewrite Hb. eapply obl_bind; [apply obl_hash|]. intros _ _ _. apply obl_ret. exact I.
      + intros h h' _. apply obl_ret. split; reflexivity.
    - intros x x' [Ex Ex']. apply obl_ret. cbn [dk_pke dk_ek dk_z]. rewrite Ex, Ex'. repeat split; assumption.
  Qed.
  Lemma obl_dk_as_bytes dk dk' : alike (s_hat (dk_pke dk)) (s_hat (dk_pke dk')) ->
    alike (t_hat (ek_pke (dk_ek dk))) (t_hat (ek_pke (dk_ek dk'))) ->
    like (rho (ek_pke (dk_ek dk))) (rho (ek_pke (dk_ek dk'))) ->
    obl any (o_decaps_key_as_bytes P dk) (o_decaps_key_as_bytes P dk').
  Proof.
    intros Hs Ht Hr. unfold o_decaps_key_as_bytes, o_dk_as_bytes.
    eapply obl_bind; [apply obl_vec_encode, Hs|]. intros a a' _.
    eapply obl_bind; [apply obl_ek_as_bytes; [exact Hr|exact Ht]|]. intros b b' _. apply obl_ret. exact I.
  Qed.
End WithHashes.

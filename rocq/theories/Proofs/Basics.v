(** Lemmas about lists, sums, tables and the outcome monad. *)
From Coq Require Import List ZArith Lia Bool Arith Setoid Morphisms.
From Verif.Base Require Import Res Oracles.
From Verif.Spec Require Import FIPS203 Domains.
From Verif.Model Require Import Machine Util.
Import ListNotations.
Open Scope Z_scope.

(** ** tab, co *)

Lemma tab_length A n (f : nat -> A) : length (tab n f) = n.
Proof. unfold tab. rewrite map_length, seq_length. reflexivity. Qed.

Lemma nth_tab A n (f : nat -> A) i d : (i < n)%nat -> nth i (tab n f) d = f i.
Proof.
  intros H. unfold tab. rewrite nth_indep with (d' := f 0%nat).
  - rewrite map_nth. rewrite seq_nth by exact H. reflexivity.
  - rewrite map_length, seq_length. exact H.
Qed.

Lemma co_tab n f i : (i < n)%nat -> co (tab n f) i = f i.
Proof. apply nth_tab. Qed.

Lemma ent_tab n f i : (i < n)%nat -> ent (tab n f) i = f i.
Proof. apply nth_tab. Qed.

Lemma tab_ext A n (f g : nat -> A) : (forall i, (i < n)%nat -> f i = g i) -> tab n f = tab n g.
Proof.
  intros H. unfold tab. apply map_ext_in. intros i Hi. apply in_seq in Hi. apply H. lia.
Qed.

Lemma tab_S A n (f : nat -> A) : tab (S n) f = tab n f ++ [f n].
Proof. unfold tab. rewrite seq_S, map_app. reflexivity. Qed.

Lemma tab_cons A n (f : nat -> A) : tab (S n) f = f 0%nat :: tab n (fun i => f (S i)).
Proof. unfold tab. simpl. rewrite <- seq_shift, map_map. reflexivity. Qed.

Lemma tab_app A n m (f : nat -> A) : tab (n + m) f = tab n f ++ tab m (fun i => f (n + i)%nat).
Proof.
  induction n as [|n IH] in f |- *; [reflexivity|].
  simpl plus. rewrite !tab_cons, IH. reflexivity.
Qed.

Lemma list_as_tab A (l : list A) d : l = tab (length l) (fun i => nth i l d).
Proof.
  induction l as [|x l IH]; [reflexivity|].
  simpl length. rewrite tab_cons. f_equal. exact IH.
Qed.

Lemma list_as_tab' A (l : list A) n d : length l = n -> l = tab n (fun i => nth i l d).
Proof. intros <-. apply list_as_tab. Qed.

Lemma map_tab A B (g : A -> B) n f : map g (tab n f) = tab n (fun i => g (f i)).
Proof. unfold tab. rewrite map_map. reflexivity. Qed.

Lemma in_tab A n (f : nat -> A) x : In x (tab n f) <-> exists i, (i < n)%nat /\ f i = x.
Proof.
  unfold tab. rewrite in_map_iff. split.
  - intros (i & E & H). apply in_seq in H. exists i. split; [lia|exact E].
  - intros (i & H & E). exists i. split; [exact E|]. apply in_seq. lia.
Qed.

Lemma Forall_tab A (P : A -> Prop) n f : (forall i, (i < n)%nat -> P (f i)) -> Forall P (tab n f).
Proof. intros H. apply Forall_forall. intros x (i & Hi & <-)%in_tab. auto. Qed.

Lemma list_ext A (d : A) (l1 l2 : list A) :
  length l1 = length l2 -> (forall i, (i < length l1)%nat -> nth i l1 d = nth i l2 d) -> l1 = l2.
Proof. intros H1 H2. exact (nth_ext l1 l2 d d H1 H2). Qed.

Lemma combine_tab A B n (f : nat -> A) (g : nat -> B) :
  combine (tab n f) (tab n g) = tab n (fun i => (f i, g i)).
Proof.
  induction n as [|n IH] in f, g |- *; [reflexivity|].
  rewrite !tab_cons. simpl. f_equal. apply IH.
Qed.

Lemma nth_firstn A n (l : list A) i d : (i < n)%nat -> nth i (firstn n l) d = nth i l d.
Proof.
  revert i l. induction n as [|n IH]; intros i l H; [lia|].
  destruct l; [reflexivity|]. simpl. destruct i; [reflexivity|]. apply IH. lia.
Qed.

Lemma nth_skipn A n (l : list A) i d : nth i (skipn n l) d = nth (n + i) l d.
Proof.
  revert l. induction n as [|n IH]; intros l; [reflexivity|].
  destruct l as [|x l]; [destruct i; reflexivity|]. simpl. apply IH.
Qed.

Lemma firstn_tab A n m (f : nat -> A) : (n <= m)%nat -> firstn n (tab m f) = tab n f.
Proof.
  intros H. replace m with (n + (m - n))%nat by lia. rewrite tab_app.
  rewrite firstn_app, tab_length, Nat.sub_diag, firstn_O, app_nil_r.
  rewrite <- (tab_length _ n f) at 1. apply firstn_all.
Qed.

Lemma skipn_tab A n m (f : nat -> A) : (n <= m)%nat ->
  skipn n (tab m f) = tab (m - n) (fun i => f (n + i)%nat).
Proof.
  intros H. replace m with (n + (m - n))%nat at 1 by lia. rewrite tab_app.
  rewrite skipn_app, tab_length, Nat.sub_diag, skipn_O.
  rewrite <- (tab_length _ n f) at 1. rewrite skipn_all. reflexivity.
Qed.

Lemma firstn_skipn_tab (l : list Z) a n : (a + n <= length l)%nat ->
  firstn n (skipn a l) = tab n (fun i => co l (a + i)).
Proof.
  intros H. apply list_ext with (d := 0).
  - rewrite firstn_length, skipn_length, tab_length. lia.
  - intros i Hi. rewrite firstn_length, skipn_length in Hi.
    rewrite nth_firstn, nth_skipn by lia. rewrite nth_tab by lia. reflexivity.
Qed.

Lemma concat_map_tab_const A (l : nat -> list A) k m :
  (forall i, (i < k)%nat -> length (l i) = m) -> length (concat (tab k l)) = (m * k)%nat.
Proof.
  induction k as [|k IH]; intros H.
  - simpl. lia.
  - rewrite tab_S, concat_app, app_length, IH by (intros; apply H; lia).
    simpl. rewrite app_nil_r, H by lia. lia.
Qed.

(** the concatenation of [k] lists of [m] elements, as a table *)
Lemma concat_tab (l : nat -> list Z) k m :
  (m <> 0)%nat ->
  (forall i, (i < k)%nat -> length (l i) = m) ->
  concat (tab k l) = tab (k * m) (fun t => co (l (t / m)%nat) (t mod m)).
Proof.
  intros Hm. induction k as [|k IH]; intros H; [reflexivity|].
  rewrite tab_S, concat_app, IH by (intros; apply H; lia).
  replace (S k * m)%nat with (k * m + m)%nat by lia. rewrite tab_app. f_equal.
  simpl. rewrite app_nil_r. rewrite (list_as_tab' _ (l k) m 0) at 1 by (apply H; lia).
  apply tab_ext. intros i Hi. unfold co.
  replace (k * m + i)%nat with (i + k * m)%nat by lia.
  rewrite Nat.div_add, Nat.mod_add, Nat.div_small, Nat.mod_small by lia. reflexivity.
Qed.

Lemma flat_map_tab A (f : nat -> list A) n : flat_map f (seq 0 n) = concat (tab n f).
Proof. unfold tab. apply flat_map_concat_map. Qed.

Lemma repeat_tab A (x : A) n : repeat x n = tab n (fun _ => x).
Proof.
  induction n as [|n IH]; [reflexivity|]. rewrite tab_cons. simpl. f_equal. exact IH.
Qed.

(** ** sums *)

Lemma sum_ext n f g : (forall i, (i < n)%nat -> f i = g i) -> sum n f = sum n g.
Proof.
  induction n as [|n IH]; intros H; [reflexivity|]. simpl. rewrite IH, H by auto. reflexivity.
Qed.

Lemma sum_add n f g : sum n (fun i => f i + g i) = sum n f + sum n g.
Proof. induction n as [|n IH]; simpl; [reflexivity|]. rewrite IH. ring. Qed.

Lemma sum_sub n f g : sum n (fun i => f i - g i) = sum n f - sum n g.
Proof. induction n as [|n IH]; simpl; [reflexivity|]. rewrite IH. ring. Qed.

Lemma sum_mul_l n c f : sum n (fun i => c * f i) = c * sum n f.
Proof. induction n as [|n IH]; simpl; [ring|]. rewrite IH. ring. Qed.

Lemma sum_mul_r n c f : sum n (fun i => f i * c) = sum n f * c.
Proof. induction n as [|n IH]; simpl; [ring|]. rewrite IH. ring. Qed.

Lemma sum_zero n : sum n (fun _ => 0) = 0.
Proof. induction n as [|n IH]; simpl; [reflexivity|]. rewrite IH. reflexivity. Qed.

Lemma sum_zero' n f : (forall i, (i < n)%nat -> f i = 0) -> sum n f = 0.
Proof. intros H. rewrite (sum_ext n f (fun _ => 0)) by exact H. apply sum_zero. Qed.

Lemma sum_swap n m f : sum n (fun i => sum m (fun j => f i j)) = sum m (fun j => sum n (fun i => f i j)).
Proof.
  induction n as [|n IH]; simpl; [rewrite sum_zero; reflexivity|].
  rewrite IH, <- sum_add. apply sum_ext. reflexivity.
Qed.

Lemma sum_head n f : sum (S n) f = f 0%nat + sum n (fun i => f (S i)).
Proof. induction n as [|n IH]; [simpl; ring|]. simpl in *. rewrite IH. ring. Qed.

Lemma sum_split n m f : sum (n + m) f = sum n f + sum m (fun i => f (n + i)%nat).
Proof.
  induction m as [|m IH]; simpl.
  - rewrite Nat.add_0_r. ring.
  - rewrite Nat.add_succ_r. simpl. rewrite IH. ring.
Qed.

Lemma sum_single n k f : (k < n)%nat -> (forall i, (i < n)%nat -> i <> k -> f i = 0) -> sum n f = f k.
Proof.
  induction n as [|n IH]; intros Hk H; [lia|]. simpl.
  destruct (Nat.eq_dec k n) as [->|N].
  - rewrite sum_zero'; [ring|]. intros i Hi. apply H; lia.
  - rewrite IH by (try lia; intros; apply H; lia). rewrite (H n) by lia. ring.
Qed.

Lemma sum_mod n f m : sum n (fun i => f i mod m) mod m = sum n f mod m.
Proof.
  induction n as [|n IH]; [reflexivity|]. simpl.
  rewrite Zplus_mod, IH, Zmod_mod, <- Zplus_mod. reflexivity.
Qed.

Lemma sum_mod_ext n f g m : (forall i, (i < n)%nat -> f i mod m = g i mod m) ->
  sum n f mod m = sum n g mod m.
Proof.
  intros H. rewrite <- sum_mod, <- (sum_mod n g). f_equal. apply sum_ext. exact H.
Qed.

Lemma sum_nonneg n f : (forall i, (i < n)%nat -> 0 <= f i) -> 0 <= sum n f.
Proof.
  induction n as [|n IH]; intros H; simpl; [lia|].
  specialize (IH (fun i Hi => H i (Nat.lt_lt_succ_r _ _ Hi))). specialize (H n). lia.
Qed.

(** ** outcomes *)

Lemma bind_ok A B (x : res A) a (f : A -> res B) : x = Ok a -> bind x f = f a.
Proof. intros ->. reflexivity. Qed.

Lemma bind_lift A B (x : res A) o (f : A -> res B) (g : A -> option B) :
  x = lift o -> (forall a, o = Some a -> f a = lift (g a)) ->
  bind x f = lift (match o with Some a => g a | None => None end).
Proof. intros -> H. destruct o; simpl; auto. Qed.

Lemma mapM_ok A B (f : A -> res B) (g : A -> B) l :
  (forall x, In x l -> f x = Ok (g x)) -> mapM f l = Ok (map g l).
Proof.
  induction l as [|x l IH]; intros H; [reflexivity|].
  simpl. rewrite H by (left; reflexivity). simpl. rewrite IH by (intros; apply H; right; assumption).
  reflexivity.
Qed.

Lemma mapM_lift A B (f : A -> res B) (g : A -> option B) l :
  (forall x, In x l -> f x = lift (g x)) -> mapM f l = lift (all_some (map g l)).
Proof.
  induction l as [|x l IH]; intros H; [reflexivity|].
  simpl. rewrite H by (left; reflexivity). destruct (g x) as [y|]; [|reflexivity].
  simpl. rewrite IH by (intros; apply H; right; assumption).
  destruct (all_some (map g l)); reflexivity.
Qed.

Lemma from_fn_ok A n f (g : nat -> A) :
  (forall i, (i < n)%nat -> f i = Ok (g i)) -> from_fn n f = Ok (tab n g).
Proof.
  intros H. unfold from_fn, tab. apply mapM_ok. intros i Hi. apply in_seq in Hi. apply H. lia.
Qed.

Lemma from_fn_lift A n f (g : nat -> option A) :
  (forall i, (i < n)%nat -> f i = lift (g i)) -> from_fn n f = lift (all_some (tab n g)).
Proof.
  intros H. unfold from_fn, tab. apply mapM_lift. intros i Hi. apply in_seq in Hi. apply H. lia.
Qed.

Lemma mapM_tab A B n (a : nat -> A) f (g : nat -> B) :
  (forall i, (i < n)%nat -> f (a i) = Ok (g i)) -> mapM f (tab n a) = Ok (tab n g).
Proof.
  induction n as [|n IH] in a, g |- *; intros H; [reflexivity|].
  rewrite !tab_cons. simpl. rewrite H by lia. simpl.
  rewrite (IH (fun i => a (S i)) (fun i => g (S i))) by (intros; apply H; lia). reflexivity.
Qed.

Lemma collect_ok A n (l : list A) : length l = n -> collect n l = Ok l.
Proof. intros <-. unfold collect. rewrite Nat.eqb_refl. reflexivity. Qed.

Lemma copy_from_slice_ok A (d s : list A) : length d = length s -> copy_from_slice d s = Ok s.
Proof. intros H. unfold copy_from_slice. rewrite H, Nat.eqb_refl. reflexivity. Qed.

Lemma idx_ok (l : list Z) i : (i < length l)%nat -> idx l i = Ok (co l i).
Proof.
  intros H. unfold idx, co. rewrite (nth_error_nth' l 0 H). reflexivity.
Qed.

Lemma idx_ok' A (l : list A) i d : (i < length l)%nat -> idx l i = Ok (nth i l d).
Proof. intros H. unfold idx. rewrite (nth_error_nth' l d H). reflexivity. Qed.

Lemma slice_ok A (l : list A) a b : (a <= b)%nat -> (b <= length l)%nat ->
  slice l a b = Ok (firstn (b - a) (skipn a l)).
Proof.
  intros H1 H2. unfold slice.
  rewrite (proj2 (Nat.leb_le _ _) H1), (proj2 (Nat.leb_le _ _) H2). reflexivity.
Qed.

Lemma ptr_read_ok A (l : list A) off n : (off + n <= length l)%nat ->
  ptr_read l off n = Ok (firstn n (skipn off l)).
Proof. intros H. unfold ptr_read. rewrite (proj2 (Nat.leb_le _ _) H). reflexivity. Qed.

Lemma set_nth_length A (l : list A) i v : length (set_nth l i v) = length l.
Proof. revert i. induction l as [|x l IH]; intros [|i]; simpl; auto. Qed.

Lemma nth_set_nth A (l : list A) i v j d : (i < length l)%nat ->
  nth j (set_nth l i v) d = if Nat.eqb j i then v else nth j l d.
Proof.
  revert i j. induction l as [|x l IH]; intros [|i] [|j] H; simpl in *; try lia; auto.
  apply IH. lia.
Qed.

Lemma co_set_nth l i v j : (i < length l)%nat ->
  co (set_nth l i v) j = if Nat.eqb j i then v else co l j.
Proof. apply nth_set_nth. Qed.

Lemma upd_ok A (l : list A) i v : (i < length l)%nat -> upd l i v = Ok (set_nth l i v).
Proof. intros H. unfold upd. rewrite (proj2 (Nat.ltb_lt _ _) H). reflexivity. Qed.

Lemma Forall_set_nth A (P : A -> Prop) l i v : Forall P l -> P v -> Forall P (set_nth l i v).
Proof.
  intros H Hv. revert i. induction H as [|x l Hx Hl IH]; intros [|i]; simpl; auto.
Qed.

(** invariant rule for loops that cannot fail *)
Lemma foldM_inv A S (I : list A -> S -> Prop) f (l : list A) s :
  I [] s ->
  (forall done x s, (exists r, l = done ++ x :: r) -> I done s ->
     exists s', f s x = Ok s' /\ I (done ++ [x]) s') ->
  exists s', foldM f l s = Ok s' /\ I l s'.
Proof.
  intros H0 Hstep.
  enough (G : forall r done s, l = done ++ r -> I done s ->
            exists s', foldM f r s = Ok s' /\ I l s') by (apply (G l [] s); auto).
  induction r as [|x r IH]; intros done s' E HI.
  - exists s'. rewrite app_nil_r in E. subst. split; auto.
  - destruct (Hstep done x s') as (s1 & E1 & I1); [exists r; exact E|exact HI|].
    simpl. rewrite E1. simpl. apply (IH (done ++ [x])).
    + rewrite E, <- app_assoc. reflexivity.
    + exact I1.
Qed.

Lemma foldM_ok A S f (g : S -> A -> S) (l : list A) s (I : S -> Prop) :
  I s -> (forall s x, In x l -> I s -> f s x = Ok (g s x) /\ I (g s x)) ->
  foldM f l s = Ok (fold_left g l s) /\ I (fold_left g l s).
Proof.
  revert s. induction l as [|x l IH]; intros s HI H; [split; auto|].
  simpl. destruct (H s x (or_introl eq_refl) HI) as [E HI'].
  rewrite E. simpl. apply IH; auto. intros. apply H; auto. right; assumption.
Qed.

Lemma foldM_app A S f (l1 l2 : list A) (s : S) :
  foldM f (l1 ++ l2) s = bind (foldM f l1 s) (foldM f l2).
Proof.
  revert s. induction l1 as [|x l1 IH]; intros s; simpl; [reflexivity|].
  destruct (f s x); simpl; auto.
Qed.

(** ** machine integers *)

Lemma chk_ok w x : 0 <= x < modulus w -> chk w x = Ok x.
Proof.
  intros [H1 H2]. unfold chk.
  rewrite (proj2 (Z.leb_le _ _) H1), (proj2 (Z.ltb_lt _ _) H2). reflexivity.
Qed.

Lemma modulus_pow w : modulus w = 2 ^ bits_of w.
Proof. destruct w; reflexivity. Qed.
Lemma bits_of_nonneg w : 0 <= bits_of w.
Proof. destruct w; simpl; lia. Qed.
Lemma modulus_pos w : 0 < modulus w.
Proof. destruct w; simpl; lia. Qed.

Lemma land_max w x : Z.land x (max_of w) = x mod modulus w.
Proof.
  unfold max_of. rewrite modulus_pow.
  replace (2 ^ bits_of w - 1) with (Z.ones (bits_of w)) by (rewrite Z.ones_equiv; lia).
  apply Z.land_ones, bits_of_nonneg.
Qed.

Lemma truncate_ok w x : truncate w x = Ok (x mod modulus w).
Proof.
  unfold truncate. rewrite land_max.
  pose proof (Z.mod_pos_bound x _ (modulus_pos w)) as [H1 H2].
  rewrite (proj2 (Z.leb_le _ _) H1). unfold max_of.
  rewrite (proj2 (Z.leb_le _ _)) by lia. reflexivity.
Qed.

Lemma truncate_small w x : 0 <= x < modulus w -> truncate w x = Ok x.
Proof. intros H. rewrite truncate_ok, Z.mod_small by exact H. reflexivity. Qed.

Lemma uadd_ok w x y : 0 <= x + y < modulus w -> uadd w x y = Ok (x + y).
Proof. apply chk_ok. Qed.
Lemma usub_ok w x y : 0 <= x - y < modulus w -> usub w x y = Ok (x - y).
Proof. apply chk_ok. Qed.
Lemma umul_ok w x y : 0 <= x * y < modulus w -> umul w x y = Ok (x * y).
Proof. apply chk_ok. Qed.
Lemma ushr_ok w x s : 0 <= s < bits_of w -> ushr w x s = Ok (x / 2 ^ s).
Proof.
  intros H. unfold ushr.
  rewrite (proj2 (Z.leb_le _ _)), (proj2 (Z.ltb_lt _ _)) by lia. simpl.
  rewrite Z.shiftr_div_pow2 by lia. reflexivity.
Qed.
Lemma ushl_ok w x s : 0 <= s < bits_of w -> 0 <= x * 2 ^ s < modulus w -> ushl w x s = Ok (x * 2 ^ s).
Proof.
  intros H H'. unfold ushl.
  rewrite (proj2 (Z.leb_le _ _)), (proj2 (Z.ltb_lt _ _)) by lia. simpl.
  rewrite Z.shiftl_mul_pow2 by lia. rewrite Z.mod_small by exact H'. reflexivity.
Qed.

(** side conditions on machine integers *)
Ltac mlia := cbn [modulus bits_of]; lia.

(** ** congruence modulo q *)
Inductive eqq (a b : Z) : Prop := eqq_intro (_ : a mod q = b mod q).
Lemma eqq_iff a b : eqq a b <-> a mod q = b mod q.
Proof. split; [intros [H]; exact H|apply eqq_intro]. Qed.
Lemma eqq_mod a b : eqq a b -> a mod q = b mod q.
Proof. apply eqq_iff. Qed.
#[global] Instance eqq_equiv : Equivalence eqq.
Proof.
  split; red; setoid_rewrite eqq_iff; intros;
    [reflexivity|symmetry; assumption|etransitivity; eassumption].
Qed.
#[global] Instance add_eqq : Proper (eqq ==> eqq ==> eqq) Z.add.
Proof.
  intros a b [H] c d [H']. apply eqq_iff. rewrite Zplus_mod, H, H', <- Zplus_mod. reflexivity.
Qed.
#[global] Instance sub_eqq : Proper (eqq ==> eqq ==> eqq) Z.sub.
Proof.
  intros a b [H] c d [H']. apply eqq_iff. rewrite Zminus_mod, H, H', <- Zminus_mod. reflexivity.
Qed.
#[global] Instance mul_eqq : Proper (eqq ==> eqq ==> eqq) Z.mul.
Proof.
  intros a b [H] c d [H']. apply eqq_iff. rewrite Zmult_mod, H, H', <- Zmult_mod. reflexivity.
Qed.
#[global] Instance opp_eqq : Proper (eqq ==> eqq) Z.opp.
Proof.
  intros a b H. rewrite <- (Z.sub_0_l a), <- (Z.sub_0_l b). rewrite H. reflexivity.
Qed.
Lemma mod_eqq a : eqq (a mod q) a.
Proof. apply eqq_iff, Zmod_mod. Qed.
Lemma eqq_of_eq a b : a = b -> eqq a b.
Proof. intros ->. reflexivity. Qed.
Lemma sum_eqq n f g : (forall i, (i < n)%nat -> eqq (f i) (g i)) -> eqq (sum n f) (sum n g).
Proof. intros H. apply eqq_iff, sum_mod_ext. intros i Hi. apply eqq_iff, H, Hi. Qed.
Lemma pow_eqq a b n : eqq a b -> eqq (a ^ Z.of_nat n) (b ^ Z.of_nat n).
Proof.
  intros H. induction n as [|n IH]; [reflexivity|].
  rewrite Nat2Z.inj_succ, !Z.pow_succ_r by lia. apply mul_eqq; assumption.
Qed.
(** prove [a mod q = b mod q] by removing inner reductions and normalising *)
Ltac modq :=
  match goal with
  | |- _ mod q = _ mod q => idtac
  | |- eqq _ _ => idtac
  end;
  lazymatch goal with |- _ mod q = _ mod q => apply eqq_mod | _ => idtac end;
  repeat match goal with |- context [?a mod q] => rewrite (mod_eqq a) end;
  apply eqq_of_eq; ring.

Lemma map_seq_tab A (f : nat -> A) a n : map f (seq a n) = tab n (fun i => f (a + i)%nat).
Proof.
  unfold tab. revert a. induction n as [|n IH]; intros a; [reflexivity|].
  cbn [seq map]. rewrite Nat.add_0_r. f_equal.
  rewrite IH, <- seq_shift, map_map. apply map_ext. intros i. f_equal. lia.
Qed.

(** unlike [injection], this does not reduce the terms *)
Lemma Some_inj A (x y : A) : Some x = Some y -> x = y.
Proof. congruence. Qed.
Lemma Ok_inj A (x y : A) : Ok x = Ok y -> x = y.
Proof. congruence. Qed.

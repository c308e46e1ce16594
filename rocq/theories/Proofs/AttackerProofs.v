(** Attackers that do not hit the programmed points of a hash function do not notice them. *)
From Coq Require Import List ZArith QArith Qabs Lqa Lia Bool Arith Setoid.
From Verif.Base Require Import Res Oracles.
From Verif.Spec Require Import FIPS203 Domains Noise Counting Random Lwe Attacker.
From Verif.Proofs Require Import Basics CountProofs TailProofs FailureProofs LweProofs.
Import ListNotations.
Open Scope Q_scope.

Lemma run_range hs dec N D a : within N D a -> 0 <= run hs dec a <= 1.
Proof.
  revert N D. induction a as [p|f x len next IH|c next IH]; intros N D H; cbn [run within] in *.
  - exact H.
  - destruct N; [contradiction|]. eapply IH, H.
  - destruct D; [contradiction|]. eapply IH, H.
Qed.
Lemma asked_length hs dec N D a : within N D a -> (length (asked hs dec a) <= N)%nat.
Proof.
  revert N D. induction a as [p|f x len next IH|c next IH]; intros N D H; cbn [asked within length] in *.
  - lia.
  - destruct N; [contradiction|]. specialize (IH _ _ _ (H (reply hs f x len))). lia.
  - destruct D; [contradiction|]. exact (IH _ _ _ (H (dec c))).
Qed.
(** the same replies to the questions asked: the same run *)
Lemma run_same hs hs' dec a : (forall f x, In (f, x) (asked hs dec a) -> forall len, reply hs' f x len = reply hs f x len) ->
  run hs' dec a = run hs dec a.
Proof.
  induction a as [p|f x len next IH|c next IH]; intros H; cbn [run asked] in *; [reflexivity| |].
  - rewrite (H f x (or_introl eq_refl) len). apply IH. intros f' x' I. apply H. right. exact I.
  - apply IH. exact H.
Qed.
Lemma run_passive hs dec dec' N a : within N 0 a -> run hs dec a = run hs dec' a.
Proof.
  revert N. induction a as [p|f x len next IH|c next IH]; intros N H; cbn [run within] in *; [reflexivity| |contradiction].
  destruct N; [contradiction|]. eapply IH, H.
Qed.

Lemma asks_in hs dec a f x : In (f, x) (asked hs dec a) -> asks hs dec a f x = true.
Proof.
  intros I. unfold asks. apply existsb_exists. exists (f, x). split; [exact I|].
  destruct (query_eq (f, x) (f, x)); [reflexivity|contradiction].
Qed.

Lemma one_if_range b : 0 <= one_if b <= 1.
Proof. destruct b; cbn [one_if]; lra. Qed.
Lemma one_if_or a b : one_if (a || b) <= one_if a + one_if b.
Proof. destruct a, b; cbn [one_if orb]; lra. Qed.

(** a list of questions, each pointing at one string, points at few strings *)
Definition points {A} (key : A -> list Z) (x : list Z) (l : list A) : bool :=
  existsb (fun p => if list_eq_dec Z.eq_dec (key p) x then true else false) l.
Lemma total_one (y : list Z) L : NoDup L -> total L (fun x => one_if (if list_eq_dec Z.eq_dec y x then true else false)) <= 1.
Proof.
  induction 1 as [|x L Hx N IH]; [cbn; lra|]. cbn [total fold_right].
  destruct (list_eq_dec Z.eq_dec y x) as [E|E].
  - subst y. cbn [one_if]. 
    assert (Z : total L (fun x0 => one_if (if list_eq_dec Z.eq_dec x x0 then true else false)) == 0).
    { rewrite (total_ext L _ (fun _ => 0)).
      - rewrite total_const. ring.
      - intros z Hz. destruct (list_eq_dec Z.eq_dec x z) as [E|E]; [subst z; contradiction|reflexivity]. }
    unfold total in Z. rewrite Z. lra.
  - cbn [one_if]. unfold total in IH. lra.
Qed.
Lemma total_points {A} (key : A -> list Z) (l : list A) L : NoDup L ->
  total L (fun x => one_if (points key x l)) <= inject_Z (Z.of_nat (length l)).
Proof.
  intros N. induction l as [|p l IH].
  - cbn [points existsb length]. rewrite total_const. cbn [one_if]. rewrite Qmult_0_r. discriminate.
  - cbn [length]. rewrite Nat2Z.inj_succ, <- Z.add_1_r, inject_Z_plus.
    apply Qle_trans with (total L (fun x => one_if (points key x l) + one_if (if list_eq_dec Z.eq_dec (key p) x then true else false))).
    + apply total_le. intros x _. cbn [points existsb]. rewrite orb_comm. apply one_if_or.
    + rewrite total_plus. apply Qplus_le_compat; [exact IH|apply total_one, N].
Qed.
Lemma average_points {A} (key : A -> list Z) (l : list A) N L : enumerates 32 L -> (length l <= N)%nat ->
  average L (fun x => one_if (points key x l)) <= inject_Z (Z.of_nat N) / inject_Z (2 ^ 256).
Proof.
  intros HL Hl. unfold average. rewrite (enumerates_length 32 L HL). change (256 ^ Z.of_nat 32)%Z with (2 ^ 256)%Z.
  unfold Qdiv. apply Qmult_le_compat_r; [|apply Qinv_le_0_compat; discriminate].
  eapply Qle_trans; [apply total_points, HL|]. unfold Qle. cbn [Qnum Qden inject_Z]. lia.
Qed.

Lemma average_abs {A} (L : list A) f : Qabs (average L f) <= average L (fun x => Qabs (f x)).
Proof.
  apply Qabs_Qle_condition. split.
  - setoid_replace (- average L (fun x => Qabs (f x))) with (average L (fun x => -1 * Qabs (f x)))
      by (rewrite average_scale; ring).
    apply average_le. intros x _. pose proof (proj1 (Qabs_Qle_condition (f x) (Qabs (f x))) (Qle_refl _)). lra.
  - apply average_le. intros x _. apply Qle_Qabs.
Qed.
(** close values have close averages *)
Lemma average_close {A} (L : list A) f g h : (forall x, In x L -> Qabs (f x - g x) <= h x) ->
  Qabs (average L f - average L g) <= average L h.
Proof.
  intros H. rewrite <- average_minus. eapply Qle_trans; [apply average_abs|]. apply average_le. exact H.
Qed.
Lemma gap_average {A} (M : list A) k l es ee Mx LS LE LU (D : A -> list (list Z) -> Q) :
  lwe_gap k l es ee Mx LS LE LU (fun v => average M (fun x => D x v)) ==
  average M (fun x => lwe_gap k l es ee Mx LS LE LU (D x)).
Proof.
  unfold lwe_gap. rewrite average_minus. rewrite (average_swap M LU).
  apply Qplus_comp; [|reflexivity]. rewrite (average_swap M LS). apply average_ext. intros S _.
  rewrite (average_swap M LE). reflexivity.
Qed.

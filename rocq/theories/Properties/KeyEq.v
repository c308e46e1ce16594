(** C87: [==] on decapsulation keys is equality, and shows where the first difference is; whoever
    can have keys of their choice compared with a secret one, and sees the comparisons, finds the
    secret vector. *)
From Coq Require Import List ZArith Lia Bool Arith.
From Verif.Base Require Import Res Oracles.
From Verif.Model Require Import Machine Util Algebra Compress Encode Crypto Sample Param Pke Kem KeyEq.
From Verif.Spec Require Import FIPS203 Domains Guessing.
From Verif.Proofs Require Import Basics Field Poly EncodeProofs VecEncode SampleProofs PkeProofs KemProofs.
From Verif.Tests Require Import Toy.
From Verif.Properties Require Import Kem KemCases.
Import ListNotations.
Open Scope Z_scope.

Lemma snd_and a b : snd (seen_and a b) = snd a && snd b.
Proof. unfold seen_and. destruct a as [t [|]]; reflexivity. Qed.
Lemma slice_eq_true A (eq : A -> A -> seen) l m : (forall x y, snd (eq x y) = true <-> x = y) -> (snd (slice_eq eq l m) = true <-> l = m).
Proof.
  intros He. revert m. induction l as [|x l IH]; intros [|y m]; cbn [slice_eq]; try (split; [discriminate|discriminate]).
  - split; reflexivity.
  - rewrite snd_and, andb_true_iff, He, IH. split; [intros [-> ->]; reflexivity|intros E; inversion E; split; reflexivity].
Qed.
Lemma fe_eq_true x y : snd (fe_eq x y) = true <-> x = y.
Proof. apply Z.eqb_eq. Qed.
Lemma nttvec_eq_true a b : snd (o_nttvec_eq a b) = true <-> a = b.
Proof. apply slice_eq_true. intros x y. apply slice_eq_true. exact fe_eq_true. Qed.
Lemma bytes_eq_true a b : snd (o_bytes_eq a b) = true <-> a = b.
Proof. cbn [o_bytes_eq snd]. unfold bytes_eqb. destruct (list_eq_dec Z.eq_dec a b); split; congruence. Qed.

Lemma dk_eq_true a b : snd (o_dk_eq a b) = true <-> a = b.
Proof.
  unfold o_dk_eq, o_ek_eq. rewrite !snd_and, !andb_true_iff, !nttvec_eq_true, !bytes_eq_true.
  destruct a as [[s] [[t r] h] z], b as [[s'] [[t' r'] h'] z']. cbn [dk_pke dk_ek dk_z Pke.s_hat ek_pke ek_h Pke.t_hat Pke.rho].
  split; [intros [[-> [[-> ->] ->]] ->]; reflexivity|]. intros E. inversion E. repeat split; reflexivity.
Qed.

Lemma nttvec_eqb_same a b : snd (o_nttvec_eq a b) = nttvec_eqb a b.
Proof.
  apply eq_true_iff_eq. rewrite nttvec_eq_true. unfold nttvec_eqb. destruct (list_eq_dec (list_eq_dec Z.eq_dec) a b); split; congruence.
Qed.
(** the result is that of the model used for histories (C43), and says whether the keys are equal *)
Theorem C87_equality a b : snd (o_dk_eq a b) = decaps_key_eqb a b /\ (snd (o_dk_eq a b) = true <-> a = b).
Proof.
  split; [|apply dk_eq_true]. unfold o_dk_eq, o_ek_eq, decaps_key_eqb, encaps_key_eqb. rewrite !snd_and, !nttvec_eqb_same. reflexivity.
Qed.

(** ** what is seen *)

Lemma and_trace a b : exists r, fst (seen_and a b) = fst a ++ r /\ (snd a = false -> r = []).
Proof.
  unfold seen_and. destruct a as [t [|]]; cbn [fst snd].
  - exists (fst b). split; [reflexivity|discriminate].
  - exists []. split; [symmetry; apply app_nil_r|reflexivity].
Qed.
Lemma and_assoc a b c : seen_and (seen_and a b) c = seen_and a (seen_and b c).
Proof.
  destruct a as [ta [|]]; [|reflexivity]. destruct b as [tb [|]]; [|reflexivity]. unfold seen_and. cbn [fst snd]. rewrite app_assoc. reflexivity.
Qed.
Lemma and_true a : seen_and ([], true) a = a.
Proof. destruct a. reflexivity. Qed.
Lemma slice_app A (eq : A -> A -> seen) l m l' m' : length l = length m ->
  slice_eq eq (l ++ l') (m ++ m') = seen_and (slice_eq eq l m) (slice_eq eq l' m').
Proof.
  revert m. induction l as [|x l IH]; intros [|y m] L; try discriminate L; cbn [app slice_eq]; [symmetry; apply and_true|].
  rewrite IH by (injection L; trivial). symmetry. apply and_assoc.
Qed.
(** polynomials one after the other, as one list *)
Lemma vector_flat a b : Forall2 (fun x y : list Z => length x = length y) a b ->
  o_nttvec_eq a b = slice_eq fe_eq (concat a) (concat b).
Proof.
  induction 1 as [|x y a b L F IH]; [reflexivity|]. cbn [concat]. rewrite (slice_app _ fe_eq _ _ _ _ L).
  unfold o_nttvec_eq in *. cbn [slice_eq]. rewrite IH. reflexivity.
Qed.
Lemma vec_shapes k a b : vec k a -> vec k b -> Forall2 (fun x y : list Z => length x = length y) a b.
Proof.
  intros [La Fa] [Lb Fb]. assert (L : length a = length b) by congruence. clear La Lb. revert b Fb L.
  induction Fa as [|x a Hx Fa IH]; intros [|y b] Fb L; try discriminate L; [constructor|]. inversion Fb. subst.
  constructor; [destruct Hx as [-> _]; symmetry; apply H1|]. apply IH; [assumption|injection L; trivial].
Qed.
Lemma vec_concat k a : vec k a -> length (concat a) = (256 * k)%nat /\ Forall fe (concat a).
Proof.
  intros [L F]. revert k L. induction F as [|x a Hx F IH]; intros k L.
  - cbn in L. subst k. split; [reflexivity|constructor].
  - destruct k as [|k]; [discriminate L|]. injection L as L. destruct (IH k L) as [I1 I2]. cbn [concat]. destruct Hx as [Lx Fx].
    split; [rewrite app_length, Lx, I1; lia|]. apply Forall_app. split; assumption.
Qed.

(** [==] shows the position of the first difference of the secret vectors: one true comparison for
    each coefficient before it, and a false one. *)
Lemma flat_position x y : length x = length y -> x <> y -> exists p,
  (p < length x)%nat /\ firstn p x = firstn p y /\ nth p x 0 <> nth p y 0 /\ slice_eq fe_eq x y = (repeat true p ++ [false], false).
Proof.
  revert y. induction x as [|a x IH]; intros [|b y] L N; try discriminate L; [contradiction N; reflexivity|].
  cbn [slice_eq]. unfold fe_eq at 1. destruct (Z.eqb_spec a b) as [->|D].
  - destruct (IH y) as (p & Lp & E1 & E2 & E3); [injection L; trivial|intros ->; contradiction N; reflexivity|].
    exists (S p). cbn [length firstn nth repeat]. split; [lia|]. rewrite E1. split; [reflexivity|]. split; [exact E2|].
    rewrite E3. reflexivity.
  - exists 0%nat. cbn [length firstn nth repeat]. split; [lia|]. split; [reflexivity|]. split; [exact D|reflexivity].
Qed.

Section Keys.
  Variable hs : hashes.
  Hypothesis Hhs : hash_ok hs.
  Variable P : params.
  Hypothesis HP : wf_params P.

  Theorem C87_position a b : reachable_dk hs P a -> reachable_dk hs P b ->
    let x := concat (Pke.s_hat (dk_pke a)) in
    let y := concat (Pke.s_hat (dk_pke b)) in
    x <> y -> exists p,
    (p < 256 * pk P)%nat /\ firstn p x = firstn p y /\ nth p x 0 <> nth p y 0 /\ fst (o_dk_eq a b) = repeat true p ++ [false].
  Proof.
    intros Ha Hb x y N. destruct (reachable_dk_valid hs Hhs P HP a Ha) as (Va & _). destruct (reachable_dk_valid hs Hhs P HP b Hb) as (Vb & _).
    destruct (vec_concat _ _ Va) as [La _]. destruct (vec_concat _ _ Vb) as [Lb _].
    destruct (flat_position x y) as (p & Lp & E1 & E2 & E3); [unfold x, y; congruence|exact N|].
    exists p. split; [unfold x in Lp; lia|]. split; [exact E1|]. split; [exact E2|].
    unfold o_dk_eq. rewrite (vector_flat _ _ (vec_shapes _ _ _ Va Vb)). fold x y. rewrite E3. reflexivity.
  Qed.

  (** ** finding the secret *)

  Lemma passed_flat i x y r : length x = length y -> (i < length x)%nat ->
    (passed (S i) (fst (slice_eq fe_eq x y) ++ r) = true <-> firstn (S i) x = firstn (S i) y).
  Proof.
    revert i y. induction x as [|a x IH]; intros i [|b y] L Hi; try discriminate L; [cbn in Hi; lia|].
    injection L as L. cbn [slice_eq]. unfold fe_eq at 1. destruct (Z.eqb_spec a b) as [->|D].
    - unfold seen_and. cbn [fst snd app]. destruct i as [|i].
      + cbn. split; reflexivity.
      + cbn [length] in Hi. change (firstn (S (S i)) (b :: x)) with (b :: firstn (S i) x). change (firstn (S (S i)) (b :: y)) with (b :: firstn (S i) y).
        specialize (IH i y L ltac:(lia)). unfold passed in IH |- *. change (firstn (S (S i)) (true :: ?t)) with (true :: firstn (S i) t).
        cbn [length Nat.eqb forallb]. rewrite andb_true_l. rewrite IH. split; [intros ->; reflexivity|intros E; injection E; trivial].
    - unfold seen_and. cbn [fst snd app]. unfold passed. cbn [firstn forallb]. rewrite andb_false_r. split; [discriminate|]. intros E. injection E. intros. contradiction.
  Qed.

  Lemma vector_pieces y : length y = (256 * pk P)%nat -> Forall fe y -> vec (pk P) (tab (pk P) (fun i => part 256 i y)).
  Proof.
    intros L F. split; [unfold tab; rewrite map_length, seq_length; reflexivity|]. apply Forall_forall. intros p Hp. unfold tab in Hp.
    apply in_map_iff in Hp. destruct Hp as (i & <- & Hi). apply in_seq in Hi. split; [apply (part_length _ 256 i (pk P)); lia|].
    rewrite Forall_forall in F |- *. intros z Hz. apply F. unfold part in Hz.
    rewrite <- (firstn_skipn (i * 256) y). apply in_or_app. right. rewrite <- (firstn_skipn 256 (skipn (i * 256) y)). apply in_or_app. left. exact Hz.
  Qed.

  Lemma shows_guess dk y : valid_decaps_key P dk -> length y = (256 * pk P)%nat -> Forall fe y -> exists r,
    shows P dk (vector_bytes P y ++ repeat 0 (384 * pk P + 96)) = fst (slice_eq fe_eq (concat (Pke.s_hat (dk_pke dk))) y) ++ r.
  Proof.
    intros (Vd & _) L F. pose proof (vector_pieces y L F) as Vy.
    assert (Hb : byte_string (768 * pk P + 96) (vector_bytes P y ++ repeat 0 (384 * pk P + 96))).
    { replace (768 * pk P + 96)%nat with (384 * pk P + (384 * pk P + 96))%nat by lia. apply byte_string_app; [apply encode_vec12_bytes|].
      split; [apply repeat_length|]. apply Forall_forall. intros z Hz. apply repeat_spec in Hz. subst z. split; [apply Z.le_refl|reflexivity]. }
    unfold shows. rewrite (decaps_key_from_bytes_ok P HP _ Hb).
    assert (ES : Pke.s_hat (dk_pke (dkey_parse P (vector_bytes P y ++ repeat 0 (384 * pk P + 96)))) = tab (pk P) (fun i => part 256 i y)).
    { unfold dkey_parse. cbn [dk_pke]. rewrite firstn_app_exact by (unfold vector_bytes; apply encode_vec12_bytes).
      pose proof (dk_parse_bytes P {| Pke.s_hat := tab (pk P) (fun i => part 256 i y) |} Vy) as E.
      apply (f_equal Pke.s_hat) in E. exact E. }
    unfold o_dk_eq. rewrite and_assoc. rewrite ES, (vector_flat _ _ (vec_shapes _ _ _ Vd Vy)), (concat_parts _ 256 (pk P) y L).
    match goal with |- context [seen_and ?a ?b] => destruct (and_trace a b) as (r & E & _) end. exists r. exact E.
  Qed.

  (** parsed keys with given coefficients *)
  Lemma parsed_key y : length y = (256 * pk P)%nat -> Forall fe y -> exists dk,
    reachable_dk hs P dk /\ concat (Pke.s_hat (dk_pke dk)) = y.
  Proof.
    intros L F. pose proof (vector_pieces y L F) as Vy. set (b := vector_bytes P y ++ repeat 0 (384 * pk P + 96)).
    assert (Hb : byte_string (768 * pk P + 96) b).
    { unfold b. replace (768 * pk P + 96)%nat with (384 * pk P + (384 * pk P + 96))%nat by lia. apply byte_string_app; [apply encode_vec12_bytes|].
      split; [apply repeat_length|]. apply Forall_forall. intros z Hz. apply repeat_spec in Hz. subst z. split; [apply Z.le_refl|reflexivity]. }
    exists (dkey_parse P b). split; [apply (dk_parsed hs P b); [exact Hb|apply (decaps_key_from_bytes_ok P HP _ Hb)]|].
    unfold dkey_parse, b. cbn [dk_pke]. rewrite firstn_app_exact by (unfold vector_bytes; apply encode_vec12_bytes).
    pose proof (dk_parse_bytes P {| Pke.s_hat := tab (pk P) (fun i => part 256 i y) |} Vy) as E.
    apply (f_equal Pke.s_hat) in E. unfold dk_bytes in E. cbn [Pke.s_hat] in E. unfold vector_bytes. rewrite E.
    apply (concat_parts _ 256 (pk P) y L).
  Qed.

  Lemma nth_snoc (x : list Z) i : (i < length x)%nat -> firstn (S i) x = firstn i x ++ [nth i x 0].
  Proof.
    revert i. induction x as [|a x IH]; intros i Hi; [cbn in Hi; lia|]. destruct i as [|i]; [reflexivity|].
    cbn [length] in Hi. change (firstn (S (S i)) (a :: x)) with (a :: firstn (S i) x). rewrite IH by lia. reflexivity.
  Qed.

  Section Secret.
    Variable dk : decaps_key.
    Hypothesis V : valid_decaps_key P dk.
    Let x := concat (Pke.s_hat (dk_pke dk)).
    Let Lx : length x = (256 * pk P)%nat := proj1 (vec_concat _ _ (proj1 V)).
    Let Fx : Forall fe x := proj2 (vec_concat _ _ (proj1 V)).

    Lemma try_one i v : (i < 256 * pk P)%nat -> fe v ->
      passed (S (length (firstn i x))) (shows P dk (key_with P (firstn i x ++ [v]))) = (v =? nth i x 0).
    Proof.
      intros Hi Hv. assert (Li : length (firstn i x) = i) by (rewrite firstn_length; lia). rewrite Li. unfold key_with.
      set (y := (firstn i x ++ [v]) ++ repeat 0 (256 * pk P - length (firstn i x ++ [v]))).
      assert (Ly : length y = (256 * pk P)%nat) by (unfold y; rewrite !app_length, repeat_length, Li; cbn [length]; lia).
      assert (Fy : Forall fe y).
      { unfold y. apply Forall_app. split; [apply Forall_app; split|].
        - rewrite <- (firstn_skipn i x) in Fx. apply Forall_app in Fx. apply Fx.
        - constructor; [exact Hv|constructor].
        - apply Forall_forall. intros z Hz. apply repeat_spec in Hz. subst z. split; [apply Z.le_refl|reflexivity]. }
      destruct (shows_guess dk y V Ly Fy) as [r ->]. fold x. apply eq_true_iff_eq. rewrite (passed_flat i x y r) by lia. rewrite Z.eqb_eq.
      assert (Ey : firstn (S i) y = firstn i x ++ [v]).
      { unfold y. replace (S i) with (length (firstn i x ++ [v])) at 1 by (rewrite app_length, Li; cbn [length]; lia). apply firstn_app_exact. reflexivity. }
      rewrite Ey, nth_snoc by lia. split; [intros E; apply app_inv_head in E; injection E; auto|intros ->; reflexivity].
    Qed.

    Lemma next_found i vs : (i < 256 * pk P)%nat -> Forall fe vs -> In (nth i x 0) vs -> exists c,
      next_coefficient P (shows P dk) vs (firstn i x) = (firstn (S i) x, c) /\ (c <= length vs)%nat.
    Proof.
      intros Hi F. induction F as [|v vs Hv F IH]; intros HI; [destruct HI|]. cbn [next_coefficient]. rewrite (try_one i v Hi Hv).
      destruct (Z.eqb_spec v (nth i x 0)) as [->|D].
      - exists 1%nat. split; [rewrite nth_snoc by lia; reflexivity|cbn [length]; lia].
      - destruct HI as [HI|HI]; [contradiction|]. destruct (IH HI) as (c & -> & Hc). exists (S c). split; [reflexivity|cbn [length]; lia].
    Qed.

    Lemma all_values : Forall fe (map Z.of_nat (seq 0 (Z.to_nat q))).
    Proof.
      apply Forall_forall. intros v Hv. apply in_map_iff in Hv. destruct Hv as (m & <- & Hm). apply in_seq in Hm. unfold fe. unfold q in *. lia.
    Qed.
    Lemma any_value v : fe v -> In v (map Z.of_nat (seq 0 (Z.to_nat q))).
    Proof.
      intros [H1 H2]. apply in_map_iff. exists (Z.to_nat v). split; [apply Z2Nat.id, H1|]. apply in_seq. unfold q in *. lia.
    Qed.

    Lemma all_found m i : (i + m = 256 * pk P)%nat -> exists c,
      coefficients P (shows P dk) m (firstn i x) = (x, c) /\ (c <= m * Z.to_nat q)%nat.
    Proof.
      revert i. induction m as [|m IH]; intros i E; cbn [coefficients].
      - exists 0%nat. split; [|lia]. f_equal. apply firstn_all2. lia.
      - destruct (next_found i (map Z.of_nat (seq 0 (Z.to_nat q)))) as (c & -> & Hc); [lia|exact all_values| |].
        { apply any_value. rewrite Forall_forall in Fx. apply Fx, nth_In. lia. }
        destruct (IH (S i)) as (c' & -> & Hc'); [lia|]. exists (c + c')%nat. split; [reflexivity|].
        rewrite map_length, seq_length in Hc. lia.
    Qed.
  End Secret.

  (** [find_secret] sees only comparisons, and makes at most 3329 for each coefficient. *)
  Theorem C87_secret dk dkb : reachable_dk hs P dk -> decaps_key_as_bytes P dk = Ok dkb ->
    let '(secret, asked) := find_secret P (shows P dk) in
    secret = firstn (384 * pk P) dkb /\ (asked <= 3329 * (256 * pk P))%nat.
  Proof.
    intros Hdk Eb. pose proof (reachable_dk_valid hs Hhs P HP dk Hdk) as V.
    rewrite (decaps_key_as_bytes_ok P dk V) in Eb. apply Ok_inj in Eb. subst dkb.
    unfold find_secret. destruct (all_found dk V (256 * pk P) 0 eq_refl) as (c & E & Hc). cbn [firstn] in E. rewrite E.
    split; [|change (Z.to_nat q) with 3329%nat in Hc; lia].
    destruct (dkey_sections P dk V) as (-> & _). unfold vector_bytes, dk_bytes. f_equal.
    destruct V as ([L F] & _). apply (nth_ext _ _ [] []); [unfold tab; rewrite map_length, seq_length; symmetry; exact L|].
    intros i Hi. unfold tab in Hi. rewrite map_length, seq_length in Hi.
    rewrite nth_tab by exact Hi. apply part_concat; [|lia]. eapply Forall_impl; [|exact F]. intros p Hp. apply Hp.
  Qed.
End Keys.

(** ** cases *)

Example C87_case : exists a b, reachable_dk toy ML_KEM_512 a /\ reachable_dk toy ML_KEM_512 b /\
  concat (Pke.s_hat (dk_pke a)) <> concat (Pke.s_hat (dk_pke b)) /\ fst (o_dk_eq a b) = [true; true; false].
Proof.
  assert (HP : wf_params ML_KEM_512) by (destruct kem_case as (dk & ek & c & K & K2 & H1 & H2 & _); exact H2).
  assert (HY : forall v, fe v -> length (7 :: 5 :: v :: repeat 0 509) = (256 * pk ML_KEM_512)%nat /\ Forall fe (7 :: 5 :: v :: repeat 0 509)).
  { intros v Hv. split; [cbn [length]; rewrite repeat_length; reflexivity|]. constructor; [split; [discriminate|reflexivity]|].
    constructor; [split; [discriminate|reflexivity]|]. constructor; [exact Hv|]. apply Forall_forall. intros z Hz. apply repeat_spec in Hz.
    subst z. split; [apply Z.le_refl|reflexivity]. }
  assert (F1 : fe 1) by (split; [discriminate|reflexivity]). assert (F2 : fe 2) by (split; [discriminate|reflexivity]).
  destruct (parsed_key toy ML_KEM_512 HP _ (proj1 (HY 1 F1)) (proj2 (HY 1 F1))) as (a & Ra & Ea).
  destruct (parsed_key toy ML_KEM_512 HP _ (proj1 (HY 2 F2)) (proj2 (HY 2 F2))) as (b & Rb & Eb).
  exists a, b. split; [exact Ra|]. split; [exact Rb|]. split; [rewrite Ea, Eb; intros E; injection E; discriminate|].
  destruct (reachable_dk_valid toy toy_ok ML_KEM_512 HP a Ra) as (Va & _). destruct (reachable_dk_valid toy toy_ok ML_KEM_512 HP b Rb) as (Vb & _).
  unfold o_dk_eq. rewrite (vector_flat _ _ (vec_shapes _ _ _ Va Vb)), Ea, Eb. reflexivity.
Qed.

(** a generated key *)
Example C87_case_secret : exists dk dkb, reachable_dk toy ML_KEM_512 dk /\ decaps_key_as_bytes ML_KEM_512 dk = Ok dkb /\
  fst (find_secret ML_KEM_512 (shows ML_KEM_512 dk)) = firstn 768 dkb.
Proof.
  destruct kem_case as (dk & ek & c & K & K2 & H1 & HP & E1 & _).
  assert (R : reachable_dk toy ML_KEM_512 dk) by exact (dk_generated_deterministic toy ML_KEM_512 300 _ _ dk ek (seed_ok 1) (seed_ok 2) E1).
  pose proof (decaps_key_as_bytes_ok ML_KEM_512 dk (reachable_dk_valid toy H1 ML_KEM_512 HP dk R)) as Eb.
  exists dk. eexists. split; [exact R|]. split; [exact Eb|].
  pose proof (C87_secret toy H1 ML_KEM_512 HP dk _ R Eb) as W. destruct (find_secret ML_KEM_512 (shows ML_KEM_512 dk)) as [s n]. apply W.
Qed.

(** util.rs (flatten, unflatten) and the vector encodings of encode.rs *)
From Coq Require Import List ZArith Lia Bool Arith.
From Verif.Base Require Import Res Oracles.
From Verif.Spec Require Import FIPS203 Domains.
From Verif.Model Require Import Machine Util Algebra Encode.
From Verif.Proofs Require Import Basics Field CompressProofs EncodeProofs.
Import ListNotations.
Open Scope Z_scope.

(** ** flatten, unflatten *)

Lemma concat_length_const A m (l : list (list A)) :
  Forall (fun r => length r = m) l -> length (concat l) = (m * length l)%nat.
Proof.
  induction 1 as [|r l Hr _ IH]; simpl; [lia|]. rewrite app_length, IH, Hr. lia.
Qed.

Theorem flatten_ok A m n (parts : list (list A)) :
  length parts = n -> Forall (fun r => length r = m) parts ->
  flatten m n parts = Ok (concat parts).
Proof.
  intros L F. unfold flatten. rewrite ptr_read_ok.
  - rewrite skipn_O. f_equal. apply firstn_all2. rewrite (concat_length_const _ m) by exact F. lia.
  - rewrite (concat_length_const _ m) by exact F. lia.
Qed.

(** the [i]-th part of [s] elements *)

Theorem unflatten_ok A s m (whole : list A) : (0 < m)%nat -> length whole = (s * m)%nat ->
  unflatten (s * m) m whole = Ok (tab m (fun i => part s i whole)).
Proof.
  intros Hm L. unfold unflatten. rewrite Nat.div_mul by lia.
  apply from_fn_ok. intros i Hi. apply ptr_read_ok. nia.
Qed.

Theorem unflatten_ref_ok A s m (whole : list A) : (0 < m)%nat -> length whole = (s * m)%nat ->
  unflatten_ref (s * m) m whole = Ok (tab m (fun i => part s i whole)).
Proof.
  intros Hm L. unfold unflatten_ref. rewrite Nat.div_mul by lia.
  enough (G : forall n a, (a + n <= m)%nat ->
     mapM_st (fun ptr (_ : nat) =>
               let* part := ptr_read whole ptr s in
               Ok (part, (ptr + s)%nat)) (seq a n) (a * s)%nat =
     Ok (map (fun i => part s i whole) (seq a n), ((a + n) * s)%nat)).
  { specialize (G m 0%nat ltac:(lia)). rewrite Nat.mul_0_l in G. rewrite G. reflexivity. }
  induction n as [|n IH]; intros a Ha.
  - simpl. rewrite Nat.add_0_r. reflexivity.
  - cbn [seq mapM_st]. rewrite ptr_read_ok by nia. cbn [bind].
    replace (a * s + s)%nat with (S a * s)%nat by lia. rewrite IH by lia. cbn [bind map].
    do 2 f_equal. lia.
Qed.

Lemma part_length A s i m (l : list A) : length l = (s * m)%nat -> (i < m)%nat ->
  length (part s i l) = s.
Proof.
  intros L H. unfold part. rewrite firstn_length, skipn_length. nia.
Qed.

Lemma skipn_skipn A a b (l : list A) : skipn a (skipn b l) = skipn (b + a) l.
Proof.
  revert l. induction b as [|b IH]; intros l; [reflexivity|].
  destruct l as [|x l]; [destruct a; reflexivity|]. simpl. apply IH.
Qed.

Lemma concat_parts A s m (l : list A) : length l = (s * m)%nat ->
  concat (tab m (fun i => part s i l)) = l.
Proof.
  revert l. induction m as [|m IH]; intros l L.
  - assert (length l = 0)%nat by lia. destruct l; [reflexivity|discriminate].
  - rewrite tab_cons. cbn [concat]. unfold part at 1. rewrite Nat.mul_0_l, skipn_O.
    rewrite <- (firstn_skipn s l) at 2. f_equal.
    rewrite <- (IH (skipn s l)) by (rewrite skipn_length; lia). f_equal. apply tab_ext.
    intros i Hi. unfold part. rewrite skipn_skipn. reflexivity.
Qed.

Lemma part_concat A s (l : list (list A)) i : Forall (fun r => length r = s) l ->
  (i < length l)%nat -> part s i (concat l) = nth i l [].
Proof.
  intros F. revert i. induction F as [|r l Hr F IH]; intros i H; [simpl in H; lia|].
  destruct i as [|i]; unfold part; cbn [concat nth].
  - rewrite Nat.mul_0_l, skipn_O, firstn_app, Hr, Nat.sub_diag, firstn_O, app_nil_r.
    rewrite <- Hr. apply firstn_all.
  - simpl in H. rewrite <- (IH i) by lia. unfold part. f_equal.
    rewrite skipn_app. replace (S i * s - length r)%nat with (i * s)%nat by lia.
    rewrite (skipn_all2 r) by lia. reflexivity.
Qed.

Theorem flatten_unflatten A s m (whole : list A) : (0 < m)%nat -> length whole = (s * m)%nat ->
  (let* parts := unflatten (s * m) m whole in flatten s m parts) = Ok whole.
Proof.
  intros Hm L. rewrite unflatten_ok by assumption. cbn [bind].
  rewrite flatten_ok.
  - f_equal. apply concat_parts, L.
  - apply tab_length.
  - apply Forall_tab. intros i Hi. apply part_length with (m := m); assumption.
Qed.

Theorem unflatten_flatten A s m (parts : list (list A)) : (0 < m)%nat -> length parts = m ->
  Forall (fun r => length r = s) parts ->
  (let* whole := flatten s m parts in unflatten (s * m) m whole) = Ok parts.
Proof.
  intros Hm L F. rewrite flatten_ok by assumption. cbn [bind].
  rewrite unflatten_ok by (try rewrite (concat_length_const _ s); try exact F; lia).
  f_equal. transitivity (tab m (fun i => nth i parts [])); [|symmetry; apply list_as_tab'; exact L].
  apply tab_ext. intros i Hi.
  apply part_concat; [exact F|lia].
Qed.

(** ** Vector encodings *)

Section Vec.
  Variable P : params.
  Let k := pk P.

  Lemma encode_vec_concat d v : encode_vec P d v = concat (tab k (fun i => ByteEncode d (ent v i))).
  Proof. unfold encode_vec. apply flat_map_tab. Qed.

  Lemma encode_vec_bytes d v : byte_string (32 * d * k) (encode_vec P d v).
  Proof.
    rewrite encode_vec_concat. split.
    - apply concat_map_tab_const. intros i Hi. apply ByteEncode_bytes.
    - unfold bytes. apply Forall_concat, Forall_tab. intros i Hi. apply ByteEncode_bytes.
  Qed.

  Lemma vec_encode_ok d v : (1 <= d <= 12)%nat -> length v = k -> Forall (small d) v ->
    vec_encode d k v = Ok (encode_vec P d v).
  Proof.
    intros Hd L F. unfold vec_encode. rewrite (list_as_tab' _ v k [] L) at 1.
    rewrite mapM_tab with (g := fun i => ByteEncode d (ent v i)).
    - cbn [bind]. rewrite collect_ok by apply tab_length. cbn [bind].
      rewrite flatten_ok.
      + rewrite encode_vec_concat. reflexivity.
      + apply tab_length.
      + apply Forall_tab. intros i Hi. unfold encoded_poly_size. rewrite Nat.mul_comm. apply ByteEncode_bytes.
    - intros i Hi. apply byte_encode_ok; [exact Hd|].
      rewrite Forall_forall in F. apply F, nth_In. rewrite L. exact Hi.
  Qed.

  Lemma decode_vec_part d B :
    decode_vec P d B = tab k (fun i => ByteDecode d (part (32 * d) i B)).
  Proof. unfold decode_vec, part. apply tab_ext. intros i Hi. do 3 f_equal. lia. Qed.

  Lemma bytes_firstn n l : bytes l -> bytes (firstn n l).
  Proof. intros H. rewrite <- (firstn_skipn n l) in H. apply Forall_app in H. apply H. Qed.
  Lemma bytes_skipn n l : bytes l -> bytes (skipn n l).
  Proof. intros H. rewrite <- (firstn_skipn n l) in H. apply Forall_app in H. apply H. Qed.

  Lemma part_bytes s i m B : byte_string (s * m) B -> (i < m)%nat -> byte_string s (part s i B).
  Proof.
    intros [L HB] Hi. split; [apply part_length with (m := m); assumption|].
    apply bytes_firstn, bytes_skipn, HB.
  Qed.

  Lemma vec_decode_ok d B : (1 <= d <= 12)%nat -> (1 <= k)%nat -> byte_string (32 * d * k) B ->
    vec_decode d k B = Ok (decode_vec P d B).
  Proof.
    intros Hd Hk HB. unfold vec_decode, encoded_vec_size, encoded_poly_size.
    rewrite (Nat.mul_comm d 32). rewrite unflatten_ref_ok by (try apply HB; lia). cbn [bind].
    rewrite mapM_tab with (g := fun i => ByteDecode d (part (32 * d) i B)).
    - cbn [bind]. rewrite collect_ok by apply tab_length. rewrite decode_vec_part. reflexivity.
    - intros i Hi. apply byte_decode_ok; [exact Hd|]. eapply part_bytes; eassumption.
  Qed.

  Lemma decode_vec_small d B : (1 <= d <= 12)%nat -> Forall (small d) (decode_vec P d B).
  Proof. intros Hd. rewrite decode_vec_part. apply Forall_tab. intros. apply ByteDecode_small, Hd. Qed.

  Lemma decode_vec_length d B : length (decode_vec P d B) = k.
  Proof. apply tab_length. Qed.

  Lemma decode_vec12_vec B : vec k (decode_vec P 12 B).
  Proof. rewrite decode_vec_part. apply vec_tab. intros. apply ByteDecode12_poly. Qed.

  Lemma poly_canonical12 p : poly p <-> canonical 12 p.
  Proof. reflexivity. Qed.

  Lemma poly_small12 p : poly p -> small 12 p.
  Proof.
    intros [L F]. split; [exact L|]. eapply Forall_impl; [|exact F]. intros x Hx.
    clear k. change (2 ^ Z.of_nat 12) with 4096. unfold fe, q in Hx. lia.
  Qed.

  Lemma part_encode_vec d v i : (i < k)%nat -> part (32 * d) i (encode_vec P d v) = ByteEncode d (ent v i).
  Proof.
    intros Hi. rewrite encode_vec_concat. rewrite part_concat.
    - apply nth_tab, Hi.
    - apply Forall_tab. intros j Hj. apply ByteEncode_bytes.
    - rewrite tab_length. exact Hi.
  Qed.

  Theorem decode_encode_vec d v : (1 <= d <= 12)%nat -> length v = k -> Forall (canonical d) v ->
    decode_vec P d (encode_vec P d v) = v.
  Proof.
    intros Hd L F. rewrite decode_vec_part.
    transitivity (tab k (ent v)); [|symmetry; apply list_as_tab'; exact L].
    apply tab_ext. intros i Hi. rewrite part_encode_vec by exact Hi.
    apply ByteDecode_ByteEncode; [exact Hd|].
    rewrite Forall_forall in F. apply F, nth_In. rewrite L. exact Hi.
  Qed.

  Theorem encode_decode_vec d B : (1 <= d <= 11)%nat -> byte_string (32 * d * k) B ->
    encode_vec P d (decode_vec P d B) = B.
  Proof.
    intros Hd HB. rewrite encode_vec_concat.
    transitivity (concat (tab k (fun i => part (32 * d) i B))); [|apply concat_parts, HB].
    f_equal. apply tab_ext. intros i Hi. rewrite decode_vec_part, ent_tab by exact Hi.
    apply ByteEncode_ByteDecode; [exact Hd|]. eapply part_bytes; eassumption.
  Qed.


  Theorem encode_decode_vec_12 B : byte_string (384 * k) B ->
    (encode_vec P 12 (decode_vec P 12 B) = B <-> canonical_vec k B).
  Proof.
    intros HB. rewrite encode_vec_concat. rewrite decode_vec_part.
    assert (E : tab k (fun i => ByteEncode 12 (ent (tab k (fun i => ByteDecode 12 (part (32 * 12) i B))) i)) =
                tab k (fun i => ByteEncode 12 (ByteDecode 12 (part 384 i B)))).
    { apply tab_ext. intros i Hi. rewrite ent_tab by exact Hi. reflexivity. }
    rewrite E. split.
    - intros H i Hi. apply ByteEncode_ByteDecode_12; [eapply part_bytes; eassumption|].
      rewrite <- H at 2. rewrite part_concat.
      + rewrite nth_tab by exact Hi. reflexivity.
      + apply Forall_tab. intros j Hj. apply (ByteEncode_bytes 12).
      + rewrite tab_length. exact Hi.
    - intros H. transitivity (concat (tab k (fun i => part 384 i B))); [|apply concat_parts, HB].
      f_equal. apply tab_ext. intros i Hi. apply ByteEncode_ByteDecode_12.
      + eapply part_bytes; eassumption.
      + apply H, Hi.
  Qed.
End Vec.

(** The concrete FIPS 202 functions satisfy the interface hypothesis [hash_ok]. *)
From Coq Require Import List ZArith Lia Bool Arith.
From Verif.Base Require Import Oracles.
From Verif.Spec Require Import FIPS202.
Import ListNotations.
Open Scope Z_scope.

Lemma mk_state_length f : length (mk_state f) = 25%nat.
Proof. unfold mk_state. rewrite map_length, seq_length. reflexivity. Qed.

Lemma keccak_round_length a rc : length (keccak_round a rc) = 25%nat.
Proof.
  unfold keccak_round. cbv zeta.
  match goal with |- length match mk_state ?f with _ => _ end = _ =>
    pose proof (mk_state_length f) as L; destruct (mk_state f) as [|x r] end.
  - discriminate.
  - exact L.
Qed.

Lemma keccak_f_length a : length (keccak_f a) = 25%nat.
Proof.
  unfold keccak_f. unfold round_constants.
  repeat (match goal with |- context [fold_left _ (_ :: ?l) _] => cbn [fold_left] end).
  apply keccak_round_length.
Qed.

Lemma absorb_length fuel rate a m : length a = 25%nat -> length (absorb fuel rate a m) = 25%nat.
Proof.
  revert a m. induction fuel as [|fuel IH]; intros a m L; [exact L|].
  cbn [absorb]. destruct m; [exact L|]. apply IH, keccak_f_length.
Qed.

Lemma le_bytes_length n x : length (le_bytes n x) = n.
Proof. revert x. induction n as [|n IH]; intros x; [reflexivity|]. cbn [le_bytes length]. rewrite IH. reflexivity. Qed.

Lemma le_bytes_bytes n x : bytes (le_bytes n x).
Proof.
  revert x. induction n as [|n IH]; intros x; [constructor|]. cbn [le_bytes]. constructor; [|apply IH].
  apply Z.mod_pos_bound. lia.
Qed.

Lemma state_bytes_length a : length (state_bytes a) = (8 * length a)%nat.
Proof.
  unfold state_bytes. induction a as [|x a IH]; [reflexivity|].
  cbn [flat_map length]. rewrite app_length, le_bytes_length, IH. lia.
Qed.

Lemma state_bytes_bytes a : bytes (state_bytes a).
Proof.
  unfold state_bytes. induction a as [|x a IH]; [constructor|].
  cbn [flat_map]. apply Forall_app. split; [apply le_bytes_bytes|exact IH].
Qed.

Lemma bytes_firstn' n l : bytes l -> bytes (firstn n l).
Proof. intros H. rewrite <- (firstn_skipn n l) in H. apply Forall_app in H. apply H. Qed.

Lemma absorbed_length rate ds m : length (absorbed rate ds m) = 25%nat.
Proof. apply absorb_length. reflexivity. Qed.

Lemma sha3_bytes rate out m : (out <= 200)%nat -> byte_string out (sha3 rate out m).
Proof.
  intros H. unfold sha3. split.
  - rewrite firstn_length, state_bytes_length, absorbed_length. lia.
  - apply bytes_firstn', state_bytes_bytes.
Qed.

Lemma squeeze_block_bytes rate b a : bytes (squeeze_block rate b a).
Proof.
  revert a. induction b as [|b IH]; intros a; cbn [squeeze_block]; [|apply IH].
  apply bytes_firstn', state_bytes_bytes.
Qed.

Lemma squeeze_blocks_bytes rate b a : bytes (squeeze_blocks rate b a).
Proof.
  revert a. induction b as [|b IH]; intros a; cbn [squeeze_blocks]; [constructor|].
  apply Forall_app. split; [apply bytes_firstn', state_bytes_bytes|apply IH].
Qed.

Lemma nth_byte l i : bytes l -> is_byte (nth i l 0).
Proof.
  intros H. destruct (Nat.lt_ge_cases i (length l)) as [L|L].
  - unfold bytes in H. rewrite Forall_forall in H. apply H, nth_In, L.
  - rewrite nth_overflow by exact L. unfold is_byte. lia.
Qed.

Lemma shake_byte rate m i : is_byte (shake rate m i).
Proof.
  unfold shake. destruct (Nat.ltb i (rate * memo)); apply nth_byte;
    [apply squeeze_blocks_bytes|apply squeeze_block_bytes].
Qed.

Theorem fips202_ok : hash_ok fips202.
Proof.
  intros m _. split; [apply sha3_bytes; lia|]. split; [apply sha3_bytes; lia|].
  split; intros i; apply shake_byte.
Qed.

(** The memoisation in [shake] is transparent: byte [i] of the stream is byte [i mod rate]
    of block [i / rate]. *)
Lemma squeeze_blocks_nth rate b a i : (0 < rate <= 200)%nat -> length a = 25%nat ->
  (i < rate * b)%nat ->
  nth i (squeeze_blocks rate b a) 0 = nth (i mod rate) (squeeze_block rate (i / rate) a) 0.
Proof.
  intros Hr. revert a i. induction b as [|b IH]; intros a i La Hi; [lia|].
  cbn [squeeze_blocks].
  assert (L : length (firstn rate (state_bytes a)) = rate).
  { rewrite firstn_length, state_bytes_length, La. lia. }
  destruct (Nat.lt_ge_cases i rate) as [H|H].
  - rewrite app_nth1 by lia. rewrite Nat.div_small, Nat.mod_small by exact H. reflexivity.
  - rewrite app_nth2 by lia. rewrite L. rewrite IH by (try apply keccak_f_length; lia).
    replace i with ((i - rate) + 1 * rate)%nat at 3 4 by lia.
    rewrite Nat.div_add, Nat.mod_add by lia. rewrite Nat.add_1_r. reflexivity.
Qed.

Theorem shake_stream rate m i : (0 < rate <= 200)%nat ->
  shake rate m i = nth (i mod rate) (squeeze_block rate (i / rate) (absorbed rate 31 m)) 0.
Proof.
  intros Hr. unfold shake. destruct (Nat.ltb_spec i (rate * memo)) as [H|H]; [|reflexivity].
  apply squeeze_blocks_nth; [exact Hr|apply absorbed_length|exact H].
Qed.

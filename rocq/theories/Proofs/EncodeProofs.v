(** encode.rs implements ByteEncode and ByteDecode, for every d in 1..12. *)
From Coq Require Import List ZArith Lia Bool Arith.
From Verif.Base Require Import Res Oracles.
From Verif.Spec Require Import FIPS203 Domains.
From Verif.Model Require Import Machine Util Algebra Encode.
From Verif.Proofs Require Import Basics Field CompressProofs.
Import ListNotations.
Open Scope Z_scope.

(** ** Integers as sums of bits *)

Definition bitsum (n : nat) (b : nat -> bool) : Z := sum n (fun j => b2z (b j) * 2 ^ Z.of_nat j).

Lemma b2z_range b : 0 <= b2z b <= 1.
Proof. destruct b; simpl; lia. Qed.

Lemma bitsum_range n b : 0 <= bitsum n b < 2 ^ Z.of_nat n.
Proof.
  induction n as [|n IH]; [unfold bitsum; simpl; lia|].
  unfold bitsum in *. cbn [sum]. rewrite Nat2Z.inj_succ, Z.pow_succ_r by lia.
  pose proof (b2z_range (b n)).
  assert (0 < 2 ^ Z.of_nat n) by (apply Z.pow_pos_nonneg; lia). nia.
Qed.

Lemma bitsum_ext n b c : (forall i, (i < n)%nat -> b i = c i) -> bitsum n b = bitsum n c.
Proof. intros H. apply sum_ext. intros i Hi. rewrite H by exact Hi. reflexivity. Qed.

Lemma bitsum_head n b : bitsum (S n) b = b2z (b 0%nat) + 2 * bitsum n (fun i => b (S i)).
Proof.
  unfold bitsum. rewrite sum_head, <- sum_mul_l. f_equal.
  - change (2 ^ Z.of_nat 0) with 1. ring.
  - apply sum_ext. intros i Hi. rewrite Nat2Z.inj_succ, Z.pow_succ_r by lia. ring.
Qed.

Lemma testbit_cons b x t :
  Z.testbit (b2z b + 2 * x) (Z.of_nat t) =
  match t with O => b | S u => Z.testbit x (Z.of_nat u) end.
Proof.
  destruct t as [|u].
  - change (Z.of_nat 0) with 0. destruct b; cbn [b2z].
    + rewrite Z.add_comm. apply Z.testbit_odd_0.
    + rewrite Z.add_0_l. apply Z.testbit_even_0.
  - rewrite Nat2Z.inj_succ. destruct b; cbn [b2z].
    + rewrite Z.add_comm. apply Z.testbit_odd_succ. lia.
    + rewrite Z.add_0_l. apply Z.testbit_even_succ. lia.
Qed.

Lemma bitsum_testbit n b t : Z.testbit (bitsum n b) (Z.of_nat t) = Nat.ltb t n && b t.
Proof.
  revert b t. induction n as [|n IH]; intros b t.
  - unfold bitsum. cbn [sum]. apply Z.testbit_0_l.
  - rewrite bitsum_head, testbit_cons. destruct t as [|t]; [reflexivity|].
    rewrite IH. reflexivity.
Qed.

Lemma bits_inj x y : (forall t, Z.testbit x (Z.of_nat t) = Z.testbit y (Z.of_nat t)) -> x = y.
Proof.
  intros H. apply Z.bits_inj'. intros n Hn. rewrite <- (Z2Nat.id n) by exact Hn. apply H.
Qed.

Lemma bitsum_mod n x : bitsum n (fun j => Z.testbit x (Z.of_nat j)) = x mod 2 ^ Z.of_nat n.
Proof.
  apply bits_inj. intros t. rewrite bitsum_testbit. destruct (Nat.ltb_spec t n); simpl.
  - rewrite Z.mod_pow2_bits_low by lia. reflexivity.
  - rewrite Z.mod_pow2_bits_high by lia. reflexivity.
Qed.

Lemma bitsum_small n x : 0 <= x < 2 ^ Z.of_nat n ->
  bitsum n (fun j => Z.testbit x (Z.of_nat j)) = x.
Proof. intros H. rewrite bitsum_mod. apply Z.mod_small, H. Qed.

Lemma testbit_div x n t : Z.testbit (x / 2 ^ Z.of_nat n) (Z.of_nat t) = Z.testbit x (Z.of_nat (n + t)).
Proof.
  rewrite Z.div_pow2_bits by lia. f_equal. lia.
Qed.

Lemma bitsum_div n a x :
  bitsum n (fun j => Z.testbit x (Z.of_nat (a + j))) = (x / 2 ^ Z.of_nat a) mod 2 ^ Z.of_nat n.
Proof.
  rewrite <- bitsum_mod. apply bitsum_ext. intros i Hi. rewrite testbit_div. reflexivity.
Qed.

Lemma testbit_high x n t : 0 <= x < 2 ^ Z.of_nat n -> (n <= t)%nat -> Z.testbit x (Z.of_nat t) = false.
Proof.
  intros H Ht. rewrite <- (Z.mod_small x (2 ^ Z.of_nat n)) by exact H.
  apply Z.mod_pow2_bits_high. lia.
Qed.

Lemma testbit_shiftl x n t :
  Z.testbit (x * 2 ^ Z.of_nat n) (Z.of_nat t) =
  if Nat.ltb t n then false else Z.testbit x (Z.of_nat (t - n)).
Proof.
  destruct (Nat.ltb_spec t n).
  - apply Z.mul_pow2_bits_low. lia.
  - rewrite Z.mul_pow2_bits by lia. f_equal. lia.
Qed.

(** ** Chunks *)

Record steps_ok (d vs bs nc : nat) : Prop := {
  so_vs : (vs * nc = 256)%nat;
  so_bs : (bs * nc = 32 * d)%nat;
  so_bits : (d * vs = 8 * bs)%nat;
  so_max : (bs <= 12)%nat;
  so_vs_pos : (0 < vs)%nat;
  so_bs_pos : (0 < bs)%nat
}.

Lemma steps_exist d : (1 <= d <= 12)%nat ->
  steps_ok d (value_step d) (byte_step d) (Nat.div 256 (value_step d)).
Proof.
  intros H.
  do 13 (destruct d as [|d]; [try lia; constructor; vm_compute; lia|]). lia.
Qed.

Lemma chunks_aux_tab A fuel n nc (f : nat -> A) : (0 < n)%nat -> (nc <= fuel)%nat ->
  chunks_aux fuel n (tab (nc * n) f) = tab nc (fun c => tab n (fun j => f (c * n + j)%nat)).
Proof.
  intros Hn. revert nc f. induction fuel as [|fuel IH]; intros nc f H.
  - assert (nc = 0)%nat by lia. subst. reflexivity.
  - destruct nc as [|nc]; [reflexivity|]. cbn [chunks_aux].
    destruct (tab (S nc * n) f) as [|x r] eqn:E.
    + apply (f_equal (@length A)) in E. rewrite tab_length in E. simpl in E. lia.
    + rewrite <- E. rewrite tab_cons. f_equal.
      * rewrite firstn_tab by nia. apply tab_ext. reflexivity.
      * rewrite skipn_tab by nia. replace (S nc * n - n)%nat with (nc * n)%nat by lia.
        rewrite IH by lia. apply tab_ext. intros c Hc. apply tab_ext. intros j Hj. f_equal. lia.
Qed.

Lemma chunks_tab A n nc m (f : nat -> A) : (0 < n)%nat -> (n * nc = m)%nat ->
  chunks n (tab m f) = Ok (tab nc (fun c => tab n (fun j => f (c * n + j)%nat))).
Proof.
  intros Hn <-. unfold chunks. destruct (Nat.eqb_spec n 0) as [E|_]; [lia|].
  rewrite tab_length, (Nat.mul_comm n nc). rewrite chunks_aux_tab by nia. reflexivity.
Qed.

Lemma enumerate_tab A n (f : nat -> A) : enumerate (tab n f) = tab n (fun j => (j, f j)).
Proof.
  unfold enumerate. rewrite tab_length.
  assert (E : seq 0 n = tab n (fun i => i)) by (unfold tab; rewrite map_id; reflexivity).
  rewrite E. apply combine_tab.
Qed.

(** ** Encoding *)

Lemma div_block d n t : (0 < d)%nat -> (d * n <= t < d * S n)%nat -> (t / d = n /\ t mod d = t - d * n)%nat.
Proof.
  intros Hd H. assert (E : (t / d = n)%nat).
  { symmetry. apply Nat.div_unique with (r := (t - d * n)%nat); lia. }
  split; [exact E|]. pose proof (Nat.div_mod t d ltac:(lia)). rewrite E in *. lia.
Qed.

Lemma encode_fold d n (g : nat -> Z) : (0 < d)%nat -> (d * n <= 127)%nat ->
  (forall j, (j < n)%nat -> 0 <= g j < 2 ^ Z.of_nat d) ->
  exists x, foldM (fun x '(j, vj) =>
                     let* t := ushl W128 vj (Z.of_nat (d * j)) in
                     Ok (Z.lor x t))
                  (tab n (fun j => (j, g j))) 0 = Ok x /\
    forall t, Z.testbit x (Z.of_nat t) =
              Nat.ltb t (d * n) && Z.testbit (g (t / d)%nat) (Z.of_nat (t mod d)).
Proof.
  intros Hd. induction n as [|n IH]; intros Hn Hg.
  - exists 0. split; [reflexivity|]. intros t. rewrite Z.testbit_0_l.
    rewrite Nat.mul_0_r. reflexivity.
  - destruct IH as (x & E & Hx); [lia|intros; apply Hg; lia|].
    rewrite tab_S, foldM_app, E. cbn [bind foldM].
    pose proof (Hg n ltac:(lia)) as Gn.
    assert (B : 0 <= g n * 2 ^ Z.of_nat (d * n) < modulus W128).
    { rewrite modulus_pow. cbn [bits_of]. split; [apply Z.mul_nonneg_nonneg; [lia|apply Z.pow_nonneg; lia]|].
      apply Z.lt_le_trans with (2 ^ Z.of_nat d * 2 ^ Z.of_nat (d * n)).
      - apply Z.mul_lt_mono_pos_r; [apply Z.pow_pos_nonneg; lia|lia].
      - rewrite <- Z.pow_add_r by lia. apply Z.pow_le_mono_r; lia. }
    rewrite ushl_ok by (try exact B; cbn [bits_of]; lia). cbn [bind].
    eexists. split; [reflexivity|]. intros t.
    rewrite Z.lor_spec, Hx, testbit_shiftl.
    destruct (Nat.ltb_spec t (d * n)) as [H1|H1]; cbn [andb orb].
    + destruct (Nat.ltb_spec t (d * S n)); [|lia]. rewrite orb_false_r. reflexivity.
    + destruct (Nat.ltb_spec t (d * S n)) as [H2|H2]; cbn [andb].
      * destruct (div_block d n t Hd ltac:(lia)) as [E1 E2]. rewrite E1, E2. reflexivity.
      * apply testbit_high with (n := d); [exact Gn|lia].
Qed.

Lemma to_le_bytes_tab n x : to_le_bytes n x = tab n (fun m => (x / 2 ^ Z.of_nat (8 * m)) mod 256).
Proof.
  revert x. induction n as [|n IH]; intros x; [reflexivity|].
  rewrite tab_cons. cbn [to_le_bytes]. f_equal.
  - change 255 with (Z.ones 8). rewrite Z.land_ones by lia.
    rewrite Nat.mul_0_r. change (2 ^ Z.of_nat 0) with 1. rewrite Z.div_1_r. reflexivity.
  - rewrite IH. apply tab_ext. intros m Hm. f_equal.
    rewrite Z.shiftr_div_pow2 by lia. rewrite Z.div_div by (try apply Z.pow_pos_nonneg; try apply Z.pow_nonzero; lia).
    f_equal. rewrite <- Z.pow_add_r by lia. f_equal. lia.
Qed.

Lemma encode_chunk_ok d vs bs nc (g : nat -> Z) b :
  (1 <= d <= 12)%nat -> steps_ok d vs bs nc -> vs = value_step d -> bs = byte_step d ->
  (forall j, (j < vs)%nat -> 0 <= g j < 2 ^ Z.of_nat d) -> length b = bs ->
  encode_chunk d (tab vs g) b =
  Ok (tab bs (fun m => bitsum 8 (fun i =>
        Z.testbit (g ((8 * m + i) / d)%nat) (Z.of_nat ((8 * m + i) mod d))))).
Proof.
  intros Hd S Ev Eb Hg Lb. destruct S. unfold encode_chunk. rewrite enumerate_tab.
  destruct (encode_fold d vs g) as (x & E & Hx); [lia|lia|exact Hg|].
  rewrite E. cbn [bind]. rewrite <- Eb. rewrite to_le_bytes_tab.
  rewrite slice_ok by (rewrite ?tab_length; lia). cbn [bind].
  rewrite Nat.sub_0_r, skipn_O, firstn_tab by lia.
  rewrite copy_from_slice_ok by (rewrite tab_length; exact Lb). f_equal.
  apply tab_ext. intros m Hm. change 256 with (2 ^ Z.of_nat 8). rewrite <- bitsum_div.
  apply bitsum_ext. intros i Hi. rewrite Hx.
  destruct (Nat.ltb_spec (8 * m + i) (d * vs)); [reflexivity|lia].
Qed.

Theorem byte_encode_ok d F : (1 <= d <= 12)%nat -> small d F -> byte_encode d F = Ok (ByteEncode d F).
Proof.
  intros Hd [L Hs]. pose proof (steps_exist d Hd) as S.
  remember (Nat.div 256 (value_step d)) as nc eqn:Enc. clear Enc.
  unfold byte_encode. rewrite (list_as_tab' _ F 256 0 L) at 1.
  pose proof S as [S1 S2 S3 S4 S5 S6].
  rewrite (chunks_tab _ (value_step d) nc) by assumption. cbn [bind].
  unfold encoded_poly_size. rewrite repeat_tab.
  rewrite (chunks_tab _ (byte_step d) nc) by lia. cbn [bind].
  rewrite combine_tab.
  rewrite mapM_tab with (g := fun c => tab (byte_step d) (fun m => bitsum 8 (fun i =>
        Z.testbit (co F (c * value_step d + (8 * m + i) / d)) (Z.of_nat ((8 * m + i) mod d))))).
  - cbn [bind]. rewrite tab_length.
    rewrite skipn_tab by lia. rewrite Nat.sub_diag. change (concat (tab 0 _)) with (@nil Z).
    rewrite app_nil_r. f_equal. rewrite (concat_tab _ nc (byte_step d)) by (try lia; intros; apply tab_length).
    unfold ByteEncode, BitsToBytes. rewrite (Nat.mul_comm nc), S2. apply tab_ext.
    intros t Ht. rewrite co_tab by (apply Nat.mod_upper_bound; lia).
    fold (bitsum 8 (fun j => Z.testbit (co F ((8 * t + j) / d)) (Z.of_nat ((8 * t + j) mod d)))).
    apply bitsum_ext. intros i Hi.
    pose proof (Nat.div_mod t (byte_step d) ltac:(lia)) as E.
    set (c := (t / byte_step d)%nat) in *. set (m := (t mod byte_step d)%nat) in *.
    replace (8 * t + i)%nat with ((8 * m + i) + (c * value_step d) * d)%nat by nia.
    rewrite Nat.div_add, Nat.mod_add by lia. f_equal. f_equal. lia.
  - intros c Hc. apply (encode_chunk_ok d (value_step d) (byte_step d) nc); auto.
    + intros j Hj. rewrite Forall_forall in Hs. apply Hs. apply nth_In. rewrite L. nia.
    + apply tab_length.
Qed.

(** ** Decoding *)

Lemma from_le_bytes_testbit n (b : nat -> Z) t :
  (forall i, (i < n)%nat -> is_byte (b i)) ->
  Z.testbit (from_le_bytes (tab n b)) (Z.of_nat t) =
  Nat.ltb t (8 * n) && Z.testbit (b (t / 8)%nat) (Z.of_nat (t mod 8)).
Proof.
  revert b t. induction n as [|n IH]; intros b t H.
  - cbn [tab map seq from_le_bytes]. apply Z.testbit_0_l.
  - rewrite tab_cons. cbn [from_le_bytes].
    set (r := from_le_bytes (tab n (fun i => b (S i)))) in *.
    assert (B0 : is_byte (b 0%nat)) by (apply H; lia). unfold is_byte in B0.
    destruct (Nat.ltb_spec t 8) as [H1|H1].
    + rewrite Nat.div_small, Nat.mod_small by exact H1.
      destruct (Nat.ltb_spec t (8 * S n)); [|lia]. cbn [andb].
      rewrite <- (Z.mod_pow2_bits_low _ 8) by lia. change (2 ^ 8) with 256.
      rewrite (Z.mul_comm 256 r), Z.mod_add, Z.mod_small by lia. reflexivity.
    + replace t with (8 + (t - 8))%nat at 1 by lia. rewrite <- testbit_div.
      change (2 ^ Z.of_nat 8) with 256. rewrite (Z.mul_comm 256 r), Z.div_add, Z.div_small by lia.
      rewrite Z.add_0_l. unfold r. rewrite IH by (intros; apply H; lia).
      assert (E : (t / 8 = S ((t - 8) / 8))%nat).
      { replace t with ((t - 8) + 1 * 8)%nat at 1 by lia. rewrite Nat.div_add by lia. lia. }
      assert (E2 : (t mod 8 = (t - 8) mod 8)%nat).
      { replace t with ((t - 8) + 1 * 8)%nat at 1 by lia. rewrite Nat.mod_add by lia. reflexivity. }
      rewrite E, E2. f_equal.
      destruct (Nat.ltb_spec (t - 8) (8 * n)); destruct (Nat.ltb_spec t (8 * S n)); lia.
Qed.


Lemma copy_into_prefix n (b : list Z) : (length b <= n)%nat ->
  copy_into (repeat 0 n) 0 (length b) b = Ok (b ++ repeat 0 (n - length b)).
Proof.
  intros H. unfold copy_into. rewrite slice_ok by (rewrite ?repeat_length; lia). cbn [bind].
  rewrite copy_from_slice_ok
    by (rewrite firstn_length, skipn_length, repeat_length; lia). cbn [bind].
  rewrite firstn_O. cbn [app]. do 2 f_equal.
  rewrite !repeat_tab. rewrite skipn_tab by exact H. reflexivity.
Qed.

Lemma from_le_bytes_zeros n : from_le_bytes (repeat 0 n) = 0.
Proof. induction n as [|n IH]; [reflexivity|]. simpl. rewrite IH. reflexivity. Qed.
Lemma from_le_bytes_app_zeros b n : from_le_bytes (b ++ repeat 0 n) = from_le_bytes b.
Proof.
  induction b as [|x b IH]; [apply from_le_bytes_zeros|]. simpl. rewrite IH. reflexivity.
Qed.

Lemma decode_chunk_ok d vs bs nc (g : nat -> Z) (v : nat -> Z) :
  (1 <= d <= 12)%nat -> steps_ok d vs bs nc -> vs = value_step d -> bs = byte_step d ->
  (forall j, (j < bs)%nat -> is_byte (g j)) ->
  decode_chunk d (2 ^ Z.of_nat d - 1) (tab vs v) (tab bs g) =
  Ok (tab vs (fun j => bitsum d (fun i =>
        Z.testbit (g ((d * j + i) / 8)%nat) (Z.of_nat ((d * j + i) mod 8))) mod dec_mod d)).
Proof.
  intros Hd S Ev Eb Hg. destruct S. unfold decode_chunk. rewrite <- Eb.
  pose proof (copy_into_prefix 16 (tab bs g)) as C. rewrite tab_length in C.
  rewrite C by lia. cbn [bind]. rewrite from_le_bytes_app_zeros.
  rewrite enumerate_tab.
  apply mapM_tab. intros j Hj.
  rewrite ushr_ok by (cbn [bits_of]; nia). cbn [bind]. rewrite truncate_ok. cbn [bind].
  replace (Z.land ((from_le_bytes (tab bs g) / 2 ^ Z.of_nat (d * j)) mod modulus W16) (2 ^ Z.of_nat d - 1))
    with (bitsum d (fun i =>
        Z.testbit (g ((d * j + i) / 8)%nat) (Z.of_nat ((d * j + i) mod 8)))).
  - unfold dec_mod. destruct (Nat.eqb_spec d 12) as [->|N].
    + reflexivity.
    + destruct (Nat.ltb_spec d 12); [|lia]. rewrite Z.mod_small by apply bitsum_range. reflexivity.
  - replace (2 ^ Z.of_nat d - 1) with (Z.ones (Z.of_nat d)) by (rewrite Z.ones_equiv; lia).
    rewrite Z.land_ones by lia. apply bits_inj. intros t. rewrite bitsum_testbit.
    destruct (Nat.ltb_spec t d); cbn [andb].
    + rewrite Z.mod_pow2_bits_low by lia. rewrite modulus_pow. cbn [bits_of].
      rewrite Z.mod_pow2_bits_low by lia. rewrite testbit_div.
      rewrite from_le_bytes_testbit by exact Hg.
      destruct (Nat.ltb_spec (d * j + t) (8 * bs)); [reflexivity|nia].
    + rewrite Z.mod_pow2_bits_high by lia. reflexivity.
Qed.

Theorem byte_decode_ok d B : (1 <= d <= 12)%nat -> byte_string (32 * d) B ->
  byte_decode d B = Ok (ByteDecode d B).
Proof.
  intros Hd [L HB]. pose proof (steps_exist d Hd) as S.
  remember (Nat.div 256 (value_step d)) as nc eqn:Enc. clear Enc.
  unfold byte_decode.
  assert (P : 0 < 2 ^ Z.of_nat d <= 2 ^ 12).
  { split; [apply Z.pow_pos_nonneg; lia|apply Z.pow_le_mono_r; lia]. }
  change (2 ^ 12) with 4096 in P.
  rewrite ushl_ok by (cbn [bits_of modulus]; lia). cbn [bind]. rewrite Z.mul_1_l.
  rewrite usub_ok by (cbn [modulus]; lia). cbn [bind].
  pose proof S as [S1 S2 S3 S4 S5 S6].
  rewrite repeat_tab. rewrite (chunks_tab _ (value_step d) nc) by assumption. cbn [bind].
  rewrite (list_as_tab' _ B (32 * d) 0 L) at 1.
  rewrite (chunks_tab _ (byte_step d) nc) by lia. cbn [bind].
  rewrite combine_tab.
  rewrite mapM_tab with (g := fun c => tab (value_step d) (fun j => bitsum d (fun i =>
        Z.testbit (co B (c * byte_step d + (d * j + i) / 8)) (Z.of_nat ((d * j + i) mod 8))) mod dec_mod d)).
  - cbn [bind]. rewrite tab_length.
    rewrite skipn_tab by lia. rewrite Nat.sub_diag. change (concat (tab 0 _)) with (@nil Z).
    rewrite app_nil_r. f_equal. rewrite (concat_tab _ nc (value_step d)) by (try lia; intros; apply tab_length).
    unfold ByteDecode. rewrite (Nat.mul_comm nc), S1. apply tab_ext.
    intros t Ht. rewrite co_tab by (apply Nat.mod_upper_bound; lia).
    fold (dec_mod d). f_equal.
    fold (bitsum d (fun j => bit_of_bytes B (t * d + j))).
    apply bitsum_ext. intros i Hi. unfold bit_of_bytes.
    pose proof (Nat.div_mod t (value_step d) ltac:(lia)) as E.
    set (c := (t / value_step d)%nat) in *. set (m := (t mod value_step d)%nat) in *.
    replace (t * d + i)%nat with ((d * m + i) + (c * byte_step d) * 8)%nat by nia.
    rewrite Nat.div_add, Nat.mod_add by lia. unfold co. f_equal. f_equal. lia.
  - intros c Hc. apply (decode_chunk_ok d (value_step d) (byte_step d) nc
       (fun j => co B (c * byte_step d + j))); auto.
    + intros j Hj. unfold bytes in HB. rewrite Forall_forall in HB. apply HB. apply nth_In. rewrite L. nia.
Qed.

(** ** Lengths, ranges *)

Lemma ByteEncode_bytes d F : byte_string (32 * d) (ByteEncode d F).
Proof.
  split; [apply tab_length|]. apply Forall_tab. intros i Hi. apply (bitsum_range 8).
Qed.

Lemma dec_mod_pos d : 0 < dec_mod d.
Proof. unfold dec_mod. destruct (Nat.ltb d 12); [apply Z.pow_pos_nonneg; lia|reflexivity]. Qed.

Lemma ByteDecode_range d B : (d <= 12)%nat ->
  length (ByteDecode d B) = 256%nat /\ Forall (fun x => 0 <= x < dec_mod d) (ByteDecode d B).
Proof.
  intros _. split; [apply tab_length|]. apply Forall_tab. intros i Hi. apply Z.mod_pos_bound, dec_mod_pos.
Qed.

Lemma ByteDecode_small d B : (1 <= d <= 12)%nat -> small d (ByteDecode d B).
Proof.
  intros Hd. destruct (ByteDecode_range d B ltac:(lia)) as [L F]. split; [exact L|].
  eapply Forall_impl; [|exact F]. intros x Hx. unfold dec_mod in Hx. simpl in Hx.
  destruct (Nat.ltb_spec d 12); [exact Hx|]. replace d with 12%nat by lia.
  change (2 ^ Z.of_nat 12) with 4096. unfold q in Hx. lia.
Qed.

Lemma ByteDecode12_poly B : poly (ByteDecode 12 B).
Proof. exact (ByteDecode_range 12 B (le_n 12)). Qed.

(** ** Round trips *)

Lemma bit_of_ByteEncode d F t : (t < 8 * (32 * d))%nat ->
  bit_of_bytes (ByteEncode d F) t = Z.testbit (co F (t / d)) (Z.of_nat (t mod d)).
Proof.
  intros H. unfold bit_of_bytes, ByteEncode, BitsToBytes.
  assert (H8 : (t / 8 < 32 * d)%nat) by (apply Nat.div_lt_upper_bound; lia).
  rewrite nth_tab by exact H8.
  fold (bitsum 8 (fun j => Z.testbit (co F ((8 * (t / 8) + j) / d)) (Z.of_nat ((8 * (t / 8) + j) mod d)))).
  rewrite bitsum_testbit. pose proof (Nat.mod_upper_bound t 8 ltac:(lia)) as B.
  destruct (Nat.ltb_spec (t mod 8) 8); [|lia]. cbn [andb].
  rewrite <- (Nat.div_mod t 8) by lia. reflexivity.
Qed.


Theorem ByteDecode_ByteEncode d F : (1 <= d <= 12)%nat -> canonical d F ->
  ByteDecode d (ByteEncode d F) = F.
Proof.
  intros Hd [L HF]. rewrite (list_as_tab' _ F 256 0 L) at 2. unfold ByteDecode. fold (dec_mod d).
  apply tab_ext. intros i Hi.
  fold (bitsum d (fun j => bit_of_bytes (ByteEncode d F) (i * d + j))).
  assert (R : 0 <= co F i < dec_mod d).
  { rewrite Forall_forall in HF. apply HF, nth_In. rewrite L. exact Hi. }
  assert (R' : 0 <= co F i < 2 ^ Z.of_nat d).
  { unfold dec_mod in R. destruct (Nat.ltb_spec d 12); [exact R|]. replace d with 12%nat by lia.
    change (2 ^ Z.of_nat 12) with 4096. unfold q in R. lia. }
  fold (co F i). rewrite <- (bitsum_small d (co F i) R') at 1.
  rewrite (bitsum_ext d (fun j => bit_of_bytes (ByteEncode d F) (i * d + j))
             (fun j => Z.testbit (co F i) (Z.of_nat j))).
  - rewrite (bitsum_small d (co F i) R'). apply Z.mod_small, R.
  - intros j Hj. rewrite bit_of_ByteEncode by nia.
    rewrite (Nat.add_comm (i * d) j), Nat.div_add, Nat.mod_add by lia.
    rewrite Nat.div_small, Nat.mod_small by lia. reflexivity.
Qed.

Lemma field_bitsum d B i : field d B i = bitsum d (fun j => bit_of_bytes B (i * d + j)).
Proof. reflexivity. Qed.

Lemma bytes_ext A B n : byte_string n A -> byte_string n B ->
  (forall t, (t < 8 * n)%nat -> bit_of_bytes A t = bit_of_bytes B t) -> A = B.
Proof.
  intros [LA HA] [LB HB] H. apply list_ext with (d := 0); [congruence|].
  rewrite LA. intros i Hi.
  assert (RA : is_byte (nth i A 0)) by (unfold bytes in HA; rewrite Forall_forall in HA; apply HA, nth_In; lia).
  assert (RB : is_byte (nth i B 0)) by (unfold bytes in HB; rewrite Forall_forall in HB; apply HB, nth_In; lia).
  rewrite <- (bitsum_small 8 _ RA), <- (bitsum_small 8 _ RB). apply bitsum_ext. intros j Hj.
  specialize (H (8 * i + j)%nat ltac:(lia)). unfold bit_of_bytes in H.
  rewrite (Nat.mul_comm 8 i), (Nat.add_comm (i * 8) j), Nat.div_add, Nat.mod_add in H by lia.
  rewrite Nat.div_small, Nat.mod_small in H by lia. exact H.
Qed.

(** re-encoding a decoded string re-encodes its fields reduced modulo m *)
Lemma ByteEncode_fields d B : (1 <= d <= 12)%nat -> byte_string (32 * d) B ->
  ByteEncode d (tab 256 (field d B)) = B.
Proof.
  intros Hd HB. apply (bytes_ext _ _ (32 * d)); [apply ByteEncode_bytes|exact HB|].
  intros t Ht. rewrite bit_of_ByteEncode by exact Ht.
  assert (Hi : (t / d < 256)%nat) by (apply Nat.div_lt_upper_bound; lia).
  rewrite co_tab by exact Hi. rewrite field_bitsum. rewrite bitsum_testbit.
  pose proof (Nat.mod_upper_bound t d ltac:(lia)) as Hm.
  destruct (Nat.ltb_spec (t mod d) d); [|lia]. cbn [andb].
  rewrite (Nat.mul_comm (t / d)), <- Nat.div_mod by lia. reflexivity.
Qed.

Lemma ByteDecode_field d B : ByteDecode d B = tab 256 (fun i => field d B i mod dec_mod d).
Proof. reflexivity. Qed.

Lemma field_range d B i : 0 <= field d B i < 2 ^ Z.of_nat d.
Proof. apply bitsum_range. Qed.

Theorem ByteEncode_ByteDecode d B : (1 <= d <= 11)%nat -> byte_string (32 * d) B ->
  ByteEncode d (ByteDecode d B) = B.
Proof.
  intros Hd HB. rewrite <- (ByteEncode_fields d B) at 2 by (try exact HB; lia). f_equal.
  rewrite ByteDecode_field. apply tab_ext. intros i Hi. apply Z.mod_small.
  unfold dec_mod. destruct (Nat.ltb_spec d 12); [|lia]. apply field_range.
Qed.

(** d = 12: lossless exactly on canonical encodings *)
Theorem ByteEncode_ByteDecode_12 B : byte_string 384 B ->
  (ByteEncode 12 (ByteDecode 12 B) = B <-> forall i, (i < 256)%nat -> field 12 B i < q).
Proof.
  intros HB. split.
  - intros E i Hi. rewrite <- E. rewrite field_bitsum.
    assert (R : fe (co (ByteDecode 12 B) i)) by (apply poly_co; [apply ByteDecode12_poly|exact Hi]).
    rewrite (bitsum_ext 12 _ (fun j => Z.testbit (co (ByteDecode 12 B) i) (Z.of_nat j))).
    + rewrite bitsum_small; [apply R|]. unfold fe, q in R. change (2 ^ Z.of_nat 12) with 4096. lia.
    + intros j Hj. rewrite bit_of_ByteEncode by lia.
      rewrite (Nat.add_comm (i * 12) j), Nat.div_add, Nat.mod_add by lia.
      rewrite Nat.div_small, Nat.mod_small by lia. reflexivity.
  - intros H. rewrite <- (ByteEncode_fields 12 B) at 2 by (try exact HB; lia). f_equal.
    rewrite ByteDecode_field. apply tab_ext. intros i Hi. apply Z.mod_small.
    pose proof (field_range 12 B i). specialize (H i Hi). unfold dec_mod. simpl. lia.
Qed.

Theorem ByteEncode_inj d F F' : (1 <= d <= 12)%nat -> canonical d F -> canonical d F' ->
  ByteEncode d F = ByteEncode d F' -> F = F'.
Proof.
  intros Hd HF HF' E. rewrite <- (ByteDecode_ByteEncode d F Hd HF), E.
  apply ByteDecode_ByteEncode; assumption.
Qed.

(** the fields of an encoding are the encoded values *)
Lemma field_ByteEncode d F i : (1 <= d <= 12)%nat -> (i < 256)%nat -> small d F ->
  field d (ByteEncode d F) i = co F i.
Proof.
  intros Hd Hi [L HF].
  assert (R' : 0 <= co F i < 2 ^ Z.of_nat d).
  { rewrite Forall_forall in HF. apply HF, nth_In. rewrite L. exact Hi. }
  rewrite field_bitsum. rewrite (bitsum_ext d _ (fun j => Z.testbit (co F i) (Z.of_nat j))).
  - apply bitsum_small, R'.
  - intros j Hj. rewrite bit_of_ByteEncode by nia.
    rewrite (Nat.add_comm (i * d) j), Nat.div_add, Nat.mod_add by lia.
    rewrite Nat.div_small, Nat.mod_small by lia. reflexivity.
Qed.

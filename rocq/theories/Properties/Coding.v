(** C23-C28, C32: compression, byte encodings, reshaping helpers. *)
From Coq Require Import List ZArith Lia Bool Arith.
From Verif.Base Require Import Res Oracles.
From Verif.Spec Require Import FIPS203 Domains.
From Verif.Model Require Import Machine Util Algebra Compress Encode.
From Verif.Proofs Require Import Basics Field Poly CompressProofs EncodeProofs VecEncode.
Import ListNotations.
Open Scope Z_scope.

(** ** C23, C24 *)

(** the specification's rounding is to the nearest integer, ties upwards *)
Theorem round_div_nearest : forall a b, 0 < b ->
  2 * a - b < 2 * b * round_div a b <= 2 * a + b.
Proof.
  intros a b Hb. unfold round_div.
  pose proof (Z.div_mod (2 * a + b) (2 * b) ltac:(lia)).
  pose proof (Z.mod_pos_bound (2 * a + b) (2 * b) ltac:(lia)). lia.
Qed.

Theorem C23_compress : forall d x, (1 <= d <= 12)%nat -> fe x ->
  fe_compress d x = Ok (round_div (2 ^ Z.of_nat d * x) q mod 2 ^ Z.of_nat d).
Proof. exact fe_compress_ok. Qed.
Theorem C23_compress_poly : forall d p, (1 <= d <= 12)%nat -> poly p ->
  poly_compress d p = Ok (map (Compress d) p).
Proof. exact poly_compress_ok. Qed.
Theorem C23_compress_vec : forall d k v, (1 <= d <= 12)%nat -> vec k v ->
  vec_compress d v = Ok (map (map (Compress d)) v).
Proof. exact vec_compress_ok. Qed.
Example C23_case : fe 3328 /\ fe_compress 1 1664 = Ok 1 /\ fe_compress 10 3328 = Ok 0 /\ fe_compress 4 104 = Ok 0 /\
  fe_compress 4 105 = Ok 1 /\ fe_compress 12 3328 = Ok 4095.
Proof. unfold fe, q. repeat split; try lia; vm_compute; reflexivity. Qed.

Theorem C24_decompress : forall d y, (1 <= d <= 12)%nat -> 0 <= y < 2 ^ Z.of_nat d ->
  fe_decompress d y = Ok (round_div (q * y) (2 ^ Z.of_nat d)).
Proof. exact fe_decompress_ok. Qed.
(** the result is canonical; for d = 12 the argument must be (and in the code is) below q *)
Theorem C24_decompress_canonical : forall d y, (1 <= d <= 12)%nat -> 0 <= y < dec_mod d ->
  exists x, fe_decompress d y = Ok x /\ fe x.
Proof.
  intros d y Hd Hy. exists (Decompress d y).
  assert (Hy' : 0 <= y < 2 ^ Z.of_nat d).
  { unfold dec_mod in Hy. destruct (Nat.ltb_spec d 12); [exact Hy|]. replace d with 12%nat by lia.
    change (2 ^ Z.of_nat 12) with 4096. unfold q in Hy. lia. }
  split; [apply fe_decompress_ok; assumption|]. apply Decompress_fe; [exact Hd|exact Hy'|].
  intros ->. exact Hy.
Qed.
Theorem C24_decompress_poly : forall d p, (1 <= d <= 12)%nat -> small d p ->
  poly_decompress d p = Ok (map (Decompress d) p).
Proof. exact poly_decompress_ok. Qed.
Example C24_case : fe_decompress 1 1 = Ok 1665 /\ fe_decompress 10 1023 = Ok 3326 /\ fe_decompress 12 3328 = Ok 2705.
Proof. vm_compute. repeat split; reflexivity. Qed.

(** ** C25 *)
Theorem C25_compress_decompress : forall d y, (1 <= d <= 11)%nat -> 0 <= y < 2 ^ Z.of_nat d ->
  (let* x := fe_decompress d y in fe_compress d x) = Ok y.
Proof.
  intros d y Hd Hy. rewrite fe_decompress_ok by (try exact Hy; lia). cbn [bind].
  rewrite fe_compress_ok; [rewrite Compress_Decompress by assumption; reflexivity|lia|].
  apply Decompress_fe; [lia|exact Hy|lia].
Qed.
Theorem C25_compress_decompress_poly : forall d p, (1 <= d <= 11)%nat -> small d p ->
  (let* x := poly_decompress d p in poly_compress d x) = Ok p.
Proof.
  intros d p Hd Hp. rewrite poly_decompress_ok by (try exact Hp; lia). cbn [bind].
  rewrite poly_compress_ok; [|lia|apply Decompress_poly; [lia|exact Hp|lia]].
  f_equal. rewrite map_map. rewrite <- (map_id p) at 2. apply map_ext_in. intros y Hy.
  apply Compress_Decompress; [exact Hd|]. destruct Hp as [_ F]. rewrite Forall_forall in F. apply F, Hy.
Qed.
(** [centred z] is the representative of z modulo q of least absolute value *)
Theorem C25_decompress_compress_error : forall d x, (1 <= d <= 12)%nat -> fe x ->
  exists x', (let* y := fe_compress d x in fe_decompress d y) = Ok x' /\
  Z.abs (centred (x' - x)) <= round_div q (2 ^ Z.of_nat (d + 1)).
Proof.
  intros d x Hd Hx. exists (Decompress d (Compress d x)). split.
  - rewrite fe_compress_ok by assumption. cbn [bind]. apply fe_decompress_ok; [exact Hd|apply Compress_range].
  - apply Decompress_Compress_error; assumption.
Qed.
Theorem C25_decompress_compress_error_poly : forall d p, (1 <= d <= 12)%nat -> poly p ->
  exists p', (let* y := poly_compress d p in poly_decompress d y) = Ok p' /\ length p' = 256%nat /\
  forall i, (i < 256)%nat -> Z.abs (centred (co p' i - co p i)) <= round_div q (2 ^ Z.of_nat (d + 1)).
Proof.
  intros d p Hd Hp. exists (map (Decompress d) (map (Compress d) p)). split; [|split].
  - rewrite poly_compress_ok by assumption. cbn [bind]. apply poly_decompress_ok; [exact Hd|].
    apply Compress_small, Hp.
  - rewrite !map_length. apply Hp.
  - intros i Hi. unfold co.
    rewrite (nth_indep _ 0 (Decompress d (Compress d 0))) by (rewrite !map_length, (proj1 Hp); exact Hi).
    rewrite (map_nth (Decompress d)), (map_nth (Compress d)).
    apply Decompress_Compress_error; [exact Hd|]. apply (poly_co p i Hp Hi).
Qed.
(** d = 12 is excluded from the first statement for a reason: 2^12 > q *)
Theorem C25_d12_not_injective : exists y, 0 <= y < 2 ^ 12 /\
  (let* x := fe_decompress 12 y in fe_compress 12 x) <> Ok y.
Proof. exists 3. vm_compute. split; [split; [discriminate|reflexivity]|discriminate]. Qed.
Example C25_case : (let* x := fe_decompress 4 15 in fe_compress 4 x) = Ok 15 /\
  (let* y := fe_compress 4 1000 in fe_decompress 4 y) = Ok 1040.
Proof. vm_compute. split; reflexivity. Qed.

(** ** C26 *)

(** bit t of the encoding is bit (t mod d) of coefficient (t / d) *)
Theorem C26_encode_bits : forall d F, (1 <= d <= 12)%nat -> small d F ->
  exists B, byte_encode d F = Ok B /\ byte_string (32 * d) B /\
  forall t, (t < 8 * (32 * d))%nat ->
    bit_of_bytes B t = Z.testbit (co F (t / d)) (Z.of_nat (t mod d)).
Proof.
  intros d F Hd HF. exists (ByteEncode d F). split; [apply byte_encode_ok; assumption|].
  split; [apply ByteEncode_bytes|]. intros t Ht. apply bit_of_ByteEncode, Ht.
Qed.
Theorem C26_encode_is_ByteEncode : forall d F, (1 <= d <= 12)%nat -> small d F ->
  byte_encode d F = Ok (ByteEncode d F).
Proof. exact byte_encode_ok. Qed.
Theorem C26_encode_vec : forall d k v, (1 <= d <= 12)%nat -> length v = k -> Forall (small d) v ->
  vec_encode d k v = Ok (concat (map (ByteEncode d) v)).
Proof.
  intros d k v Hd L F.
  pose proof (vec_encode_ok {| pk := k; eta1 := 2; eta2 := 2; du := 1; dv := 1 |} d v Hd L F) as E.
  cbn [pk] in E. rewrite E.
  rewrite encode_vec_concat. cbn [pk]. f_equal. f_equal.
  transitivity (map (ByteEncode d) (tab k (fun i => nth i v []))).
  - rewrite map_tab. reflexivity.
  - f_equal. symmetry. apply list_as_tab', L.
Qed.
Definition ramp (m : Z) : list Z := tab 256 (fun i => Z.of_nat i mod m).
Example ramp_small d : small d (ramp (2 ^ Z.of_nat d)).
Proof. split; [apply tab_length|]. apply Forall_tab. intros. apply Z.mod_pos_bound, Z.pow_pos_nonneg; lia. Qed.
Example C26_case : exists B, byte_encode 10 (ramp 1024) = Ok B /\ firstn 6 B = [0; 4; 32; 192; 0; 4].
Proof. eexists. split; [vm_compute; reflexivity|]. reflexivity. Qed.

(** ** C27 *)
Theorem C27_decode_fields : forall d B, (1 <= d <= 12)%nat -> byte_string (32 * d) B ->
  byte_decode d B = Ok (tab 256 (fun i => if Nat.eqb d 12 then field d B i mod q else field d B i)).
Proof.
  intros d B Hd HB. rewrite byte_decode_ok by assumption. f_equal. rewrite ByteDecode_field.
  apply tab_ext. intros i Hi. unfold dec_mod.
  destruct (Nat.ltb_spec d 12); destruct (Nat.eqb_spec d 12); try lia.
  apply Z.mod_small, field_range.
Qed.
Theorem C27_decode_is_ByteDecode : forall d B, (1 <= d <= 12)%nat -> byte_string (32 * d) B ->
  byte_decode d B = Ok (ByteDecode d B).
Proof. exact byte_decode_ok. Qed.
Theorem C27_decode_vec : forall d k B, (1 <= d <= 12)%nat -> (1 <= k)%nat -> byte_string (32 * d * k) B ->
  vec_decode d k B = Ok (tab k (fun i => ByteDecode d (part (32 * d) i B))).
Proof.
  intros d k B Hd Hk HB.
  pose proof (vec_decode_ok {| pk := k; eta1 := 2; eta2 := 2; du := 1; dv := 1 |} d B Hd Hk HB) as E.
  cbn [pk] in E. rewrite E.
  rewrite decode_vec_part. reflexivity.
Qed.
(** 0xd01 = 3329 decodes to 0, 0xd00 = 3328 to itself *)
Example C27_case : byte_string 384 ([1; 13; 0] ++ [0; 13; 0] ++ repeat 255 378) /\
  exists F, byte_decode 12 ([1; 13; 0] ++ [0; 13; 0] ++ repeat 255 378) = Ok F /\
  firstn 6 F = [0; 0; 3328; 0; 766; 766].
Proof.
  split; [split; [reflexivity|]|].
  - apply Forall_app. split; [|apply Forall_app; split; [|apply Forall_forall; intros x Hx; apply repeat_spec in Hx; subst x]];
      try (repeat constructor; discriminate || reflexivity); unfold is_byte; lia.
  - eexists. split; [vm_compute; reflexivity|]. reflexivity.
Qed.

(** ** C28 *)
Theorem C28_decode_encode : forall d F, (1 <= d <= 12)%nat -> canonical d F ->
  (let* B := byte_encode d F in byte_decode d B) = Ok F.
Proof.
  intros d F Hd HF.
  assert (S : small d F).
  { destruct HF as [L HF]. split; [exact L|]. eapply Forall_impl; [|exact HF]. intros x Hx. cbv beta in *.
    unfold dec_mod in Hx. destruct (Nat.ltb_spec d 12); [exact Hx|]. replace d with 12%nat by lia.
    change (2 ^ Z.of_nat 12) with 4096. unfold q in Hx. lia. }
  rewrite byte_encode_ok by assumption. cbn [bind].
  rewrite byte_decode_ok by (try apply ByteEncode_bytes; assumption).
  rewrite ByteDecode_ByteEncode by assumption. reflexivity.
Qed.
Theorem C28_encode_decode : forall d B, (1 <= d <= 11)%nat -> byte_string (32 * d) B ->
  (let* F := byte_decode d B in byte_encode d F) = Ok B.
Proof.
  intros d B Hd HB. rewrite byte_decode_ok by (try exact HB; lia). cbn [bind].
  rewrite byte_encode_ok; [|lia|apply ByteDecode_small; lia].
  rewrite ByteEncode_ByteDecode by assumption. reflexivity.
Qed.
Theorem C28_encode_decode_12 : forall B, byte_string 384 B ->
  ((let* F := byte_decode 12 B in byte_encode 12 F) = Ok B <->
   forall i, (i < 256)%nat -> field 12 B i < q).
Proof.
  intros B HB. rewrite byte_decode_ok by (try exact HB; lia). cbn [bind].
  rewrite byte_encode_ok; [|lia|apply ByteDecode_small; lia].
  rewrite <- ByteEncode_ByteDecode_12 by exact HB. split; [apply Ok_inj|intros ->; reflexivity].
Qed.
Theorem C28_encode_injective : forall d F F', (1 <= d <= 12)%nat -> canonical d F -> canonical d F' ->
  byte_encode d F = byte_encode d F' -> F = F'.
Proof.
  intros d F F' Hd HF HF' E. apply Ok_inj. rewrite <- (C28_decode_encode d F Hd HF), <- (C28_decode_encode d F' Hd HF').
  rewrite E. reflexivity.
Qed.
Theorem C28_vec_decode_encode : forall d k v, (1 <= d <= 12)%nat -> (1 <= k)%nat -> length v = k ->
  Forall (canonical d) v -> (let* B := vec_encode d k v in vec_decode d k B) = Ok v.
Proof.
  intros d k v Hd Hk L F. pose (P := {| pk := k; eta1 := 2; eta2 := 2; du := 1; dv := 1 |}).
  assert (EP : k = pk P) by reflexivity. clearbody P. rewrite EP in *. clear EP.
  assert (S : Forall (small d) v).
  { eapply Forall_impl; [|exact F]. intros f [L' HF]. split; [exact L'|]. eapply Forall_impl; [|exact HF].
    intros x Hx. cbv beta in *. unfold dec_mod in Hx. destruct (Nat.ltb_spec d 12); [exact Hx|].
    replace d with 12%nat by lia. change (2 ^ Z.of_nat 12) with 4096. unfold q in Hx. lia. }
  rewrite (vec_encode_ok P d v Hd L S). cbn [bind].
  rewrite (vec_decode_ok P d _ Hd Hk) by apply encode_vec_bytes.
  rewrite (decode_encode_vec P d v Hd L F). reflexivity.
Qed.
Theorem C28_vec_encode_decode : forall d k B, (1 <= d <= 11)%nat -> (1 <= k)%nat -> byte_string (32 * d * k) B ->
  (let* v := vec_decode d k B in vec_encode d k v) = Ok B.
Proof.
  intros d k B Hd Hk HB. pose (P := {| pk := k; eta1 := 2; eta2 := 2; du := 1; dv := 1 |}).
  assert (EP : k = pk P) by reflexivity. clearbody P. rewrite EP in *. clear EP.
  rewrite (vec_decode_ok P d B) by (try assumption; lia). cbn [bind].
  rewrite (vec_encode_ok P d) by (first [apply decode_vec_small; lia|apply decode_vec_length|lia]).
  rewrite (encode_decode_vec P d B) by assumption. reflexivity.
Qed.
Example C28_case : canonical 11 (ramp 2048) /\ canonical 12 (ramp 3329).
Proof.
  split; (split; [apply tab_length|]); apply Forall_tab; intros i Hi; apply Z.mod_pos_bound; reflexivity.
Qed.

(** ** C32 *)
Theorem C32_flatten : forall A m n (parts : list (list A)),
  length parts = n -> Forall (fun r => length r = m) parts -> flatten m n parts = Ok (concat parts).
Proof. exact flatten_ok. Qed.
Theorem C32_unflatten : forall A s m (whole : list A), (0 < m)%nat -> length whole = (s * m)%nat ->
  unflatten (s * m) m whole = Ok (tab m (fun i => firstn s (skipn (i * s) whole))).
Proof. exact unflatten_ok. Qed.
Theorem C32_unflatten_ref : forall A s m (whole : list A), (0 < m)%nat -> length whole = (s * m)%nat ->
  unflatten_ref (s * m) m whole = unflatten (s * m) m whole.
Proof. intros. rewrite unflatten_ref_ok, unflatten_ok by assumption. reflexivity. Qed.
Theorem C32_flatten_unflatten : forall A s m (whole : list A), (0 < m)%nat -> length whole = (s * m)%nat ->
  (let* parts := unflatten (s * m) m whole in flatten s m parts) = Ok whole.
Proof. exact flatten_unflatten. Qed.
Theorem C32_unflatten_flatten : forall A s m (parts : list (list A)), (0 < m)%nat -> length parts = m ->
  Forall (fun r => length r = s) parts ->
  (let* whole := flatten s m parts in unflatten (s * m) m whole) = Ok parts.
Proof. exact unflatten_flatten. Qed.
(** truncate keeps the low-order bits, and never reaches [unwrap_unchecked] on [Err] *)
Theorem C32_truncate : forall w x, truncate w x = Ok (x mod 2 ^ bits_of w).
Proof. intros w x. rewrite truncate_ok, modulus_pow. reflexivity. Qed.
Example C32_case : flatten 2 3 [[1; 2]; [3; 4]; [5; 6]] = Ok [1; 2; 3; 4; 5; 6] /\
  unflatten 6 3 [1; 2; 3; 4; 5; 6] = Ok [[1; 2]; [3; 4]; [5; 6]] /\ truncate W8 0x1234 = Ok 0x34.
Proof. repeat split; reflexivity. Qed.

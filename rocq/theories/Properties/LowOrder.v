(** C66-C68: the orders of Curve25519 and its twist, and what they mean for the KEMs that use
    X25519: when the shared secret is all zeros, and how often a shared secret can repeat. *)
From Coq Require Import List ZArith Lia Bool Znumtheory.
From Verif.Base Require Import Res Oracles.
From Verif.Spec Require Import FIPS203 RFC7748 Curve25519 XWing Counting.
From Verif.Model Require Import Machine Param Crypto Pke Kem XWing DhKem.
From Verif.Proofs Require Import Basics XWingProofs CountProofs Primes X25519Proofs Curve25519Proofs OrderPrimes Torsion CurveOrder.
From Verif.Tests Require Import Toy.
From Verif.Properties Require Import Kem KemCases XWing Dh X25519.
Import ListNotations.
Open Scope Z_scope.

(** ** C66: the orders *)
Theorem C66_orders :
  prime prime_order /\ prime twist_order /\
  exists curve twist,
    NoDup curve /\ (forall Q, In Q curve <-> on_curve 1 Q) /\ Z.of_nat (length curve) = 8 * prime_order /\
    NoDup twist /\ (forall Q, In Q twist <-> on_curve 2 Q) /\ Z.of_nat (length twist) = 4 * twist_order.
Proof. split; [exact prime_ell|]. split; [exact prime_ell_twist|]. exact curve_orders. Qed.

(** the base point has order [prime_order] *)
Theorem C66_base_point n :
  multiple 1 n (Point 9 14781619447589544791020593568409986887264606134616475288964881837755586237401) = Infinity <->
  (prime_order | Z.of_nat n).
Proof.
  change (Point 9 _) with base_point.
  assert (B1 : 1 = 1 \/ 1 = 2) by (left; reflexivity). split.
  - intros E. apply (large_order 1 ell _ base_point B1 prime_ell base_on); [discriminate|exact base_killed|].
    split; [lia|]. rewrite Nat2Z.id. exact E.
  - intros D. destruct (kills_divide 1 ell (Z.of_nat n) base_point B1 base_on (Nat2Z.is_nonneg n) D base_order) as [_ E].
    rewrite Nat2Z.id in E. exact E.
Qed.

(** ** C67: when the shared secret is all zeros *)

Lemma low_order8 u : In u low_order <-> order8 u.
Proof.
  unfold order8, order4, low_order, ord8a, ord8b. cbn [In]. split.
  - intros [E|[E|[E|[E|[E|[]]]]]]; rewrite <- E; auto 8.
  - intros [[E|[E|E]]|[E|E]]; rewrite E; auto 8.
Qed.

(** the list of [Curve25519.low_order] is complete, and correct, on both curves *)
Theorem C67_points B Q : B = 1 \/ B = 2 -> on_curve B Q ->
  In (u_coordinate Q) low_order <-> multiple B 8 Q = Infinity.
Proof. intros HB HQ. rewrite (torsion_8 B HB Q HQ). apply low_order8. Qed.

Lemma le_encode_0 : le_encode 32 0 = repeat 0 32.
Proof. vm_compute. reflexivity. Qed.
Lemma le_encode_inj x y : 0 <= x < p25519 -> 0 <= y < p25519 -> le_encode 32 x = le_encode 32 y -> x = y.
Proof. intros Hx Hy E. rewrite <- (decode_u x Hx), <- (decode_u y Hy), E. reflexivity. Qed.
Lemma u_bound B Q : on_curve B Q -> 0 <= u_coordinate Q < p25519.
Proof. destruct Q as [|u v]; [intros _; exact r0|intros (H & _); exact H]. Qed.

(** for every secret and every peer key *)
Theorem C67_zero k pk : byte_string 32 k ->
  X25519 k pk = repeat 0 32 <-> In (decodeUCoordinate pk mod p25519) low_order.
Proof.
  intros Hk. destruct (every_u (decodeUCoordinate pk mod p25519)) as (B & v & HB & HP); [apply Z.mod_pos_bound; reflexivity|].
  rewrite (C57_scalar_multiplication B k pk _ HB Hk HP eq_refl), <- le_encode_0.
  destruct (scalar_8 k Hk) as (m & E & Hm). rewrite E, low_order8. assert (P1 : 0 < 2 ^ 251) by reflexivity.
  set (u := decodeUCoordinate pk mod p25519) in *. clearbody u. split.
  - intros Z. apply le_encode_inj in Z; [|apply (u_bound B), (m_on B HB); exact HP|exact r0].
    apply (clamped_kills B _ m HB HP); [lia|exact Z].
  - intros L. f_equal. replace (Z.to_nat (8 * m)) with (Z.to_nat m * 8)%nat by lia. rewrite (m_mul B HB) by exact HP.
    apply (torsion_8 B HB _ HP) in L. rewrite L, (m_infinity B). reflexivity.
Qed.

(** the X25519 KEM of dhkem: encapsulation to such a key and decapsulation of such an
    encapsulated key return zeros, as a success; nothing else does *)
Theorem C67_encapsulate ek g s pk ss s' : rng_ok g ->
  x25519_encapsulate rfc7748 ek g s = ((pk, ss), s') ->
  ss = repeat 0 32 <-> In (decodeUCoordinate (enc_into_inner ek) mod p25519) low_order.
Proof.
  intros Hg E. destruct (C41_x25519 rfc7748 ek g s [] rfc7748_ok Hg) as (sk & t & Es & E' & _).
  rewrite E in E'. pose proof (f_equal (fun x => snd (fst x)) E') as Ess. cbn [fst snd x25519 rfc7748] in Ess. rewrite Ess.
  apply C67_zero. pose proof (Hg s 32%nat) as H. rewrite Es in H. exact H.
Qed.
Theorem C67_decapsulate dk pk : byte_string 32 (dec_into_inner dk) ->
  x25519_decapsulate rfc7748 dk pk = repeat 0 32 <-> In (decodeUCoordinate pk mod p25519) low_order.
Proof. apply C67_zero. Qed.

(** keys made by key generation, and encapsulated keys made by encapsulation, are not among
    them: between two such parties the shared secret is never zero *)
Theorem C67_public k : byte_string 32 k -> ~ In (decodeUCoordinate (X25519 k X25519_BASE) mod p25519) low_order.
Proof.
  intros Hk L. assert (B1 : 1 = 1 \/ 1 = 2) by (left; reflexivity).
  rewrite (C57_scalar_multiplication 1 k _ base_point B1 Hk base_on) in L by (vm_compute; reflexivity).
  destruct (scalar_8 k Hk) as (m & E & Hm). rewrite E in L. assert (P1 : 0 < 2 ^ 251) by reflexivity.
  set (Q := multiple 1 (Z.to_nat (8 * m)) base_point) in *.
  assert (HQ : on_curve 1 Q) by (apply (m_on 1 B1); exact base_on).
  rewrite le_encode_u in L by (apply (u_bound 1); exact HQ).
  apply (C67_points 1 Q B1 HQ) in L. unfold Q in L. rewrite <- (m_mul 1 B1) in L by exact base_on.
  apply C66_base_point in L. replace (Z.of_nat (8 * Z.to_nat (8 * m))) with (64 * m) in L by lia.
  apply prime_mult in L; [|exact prime_ell]. assert (L1 : 64 < prime_order) by reflexivity. assert (L2 : 2 ^ 252 < prime_order) by reflexivity.
  destruct L as [L|L]; apply Z.divide_pos_le in L; lia.
Qed.
Theorem C67_honest g s dk ek s1 g' s' pk ss s2 : rng_ok g -> rng_ok g' ->
  x25519_random_keypair rfc7748 g s = ((dk, ek), s1) ->
  x25519_encapsulate rfc7748 ek g' s' = ((pk, ss), s2) -> ss <> repeat 0 32.
Proof.
  intros Hg Hg' E1 E2 Z. apply (C67_encapsulate ek g' s' pk ss s2 Hg' E2) in Z. revert Z.
  unfold x25519_random_keypair, reusable_random in E1. pose proof (Hg s 32%nat) as H. destruct (fill_bytes g s 32) as [sk t].
  pose proof (f_equal (fun x => snd (fst x)) E1) as Ek. cbn [fst snd] in Ek. rewrite <- Ek.
  cbn [enc_into_inner dh_enc_0 x25519_public rfc7748]. apply C67_public. exact H.
Qed.

(** X-Wing accepts such keys and ciphertexts too; its shared secret then is the hash of the
    ML-KEM shared secret and public values *)
Theorem C67_xwing_encapsulate hs n ek g s ct ss s' : rng_ok g ->
  In (decodeUCoordinate (pk_x ek) mod p25519) low_order ->
  xw_encapsulate hs rfc7748 n ek g s = Ok (ct, ss, s') ->
  exists ss_m t, encapsulate hs ML_KEM_768 n (pk_m ek) g s = Ok (ct_m ct, ss_m, t) /\
    ss = Combiner hs ss_m (repeat 0 32) (ct_x ct) (pk_x ek).
Proof.
  intros Hg L. unfold xw_encapsulate. rewrite P768.
  destruct (encapsulate hs ML_KEM_768 n (pk_m ek) g s) as [[[ctm ssm] t]| | |]; cbn [bind]; try discriminate.
  unfold xw_generate. pose proof (Hg t 32%nat) as H. destruct (fill_bytes g t 32) as [e t']. cbn [fst] in H.
  cbn [x25519 rfc7748]. intros E. apply Ok_inj in E.
  pose proof (f_equal (fun x => fst (fst x)) E) as E1. pose proof (f_equal (fun x => snd (fst x)) E) as E2. cbn [fst snd] in E1, E2.
  subst ct ss. cbn [ct_m ct_x]. exists ssm, t. split; [reflexivity|].
  apply (C67_zero e) in L; [|exact H]. rewrite L. unfold combiner, Combiner. cbn [concat]. rewrite app_nil_r. reflexivity.
Qed.
Theorem C67_xwing_decapsulate hs n sk ct ss : hash_ok hs -> byte_string 32 sk ->
  In (decodeUCoordinate (ct_x ct) mod p25519) low_order ->
  xw_decapsulate hs rfc7748 n (xw_dk_from sk) ct = Ok ss ->
  exists dk ek ss_m pkx,
    kem_generate_deterministic hs ML_KEM_768 n (bytes32 0 (SHAKE128 hs sk 96)) (bytes32 32 (SHAKE128 hs sk 96)) = Ok (dk, ek) /\
    decapsulate hs ML_KEM_768 n dk (ct_m ct) = Ok ss_m /\
    ss = Combiner hs ss_m (repeat 0 32) (ct_x ct) pkx.
Proof.
  intros Hhs Hsk L. pose proof (expand_ok hs Hhs rfc7748 (proj1 rfc7748_ok) (proj2 rfc7748_ok) n sk Hsk) as W. unfold xw_decapsulate.
  destruct (XW_expand hs (x25519 rfc7748) n sk) as [[[[skm skx] pkm] pkx]|].
  - destruct W as (dk & W1 & W2 & _ & _ & _ & _ & _ & _ & Hx & _). rewrite W1. cbn [bind]. rewrite P768.
    destruct (decapsulate hs ML_KEM_768 n dk (ct_m ct)) as [ssm| | |] eqn:Ed; cbn [bind]; try discriminate.
    intros E. apply Ok_inj in E. exists dk, (dk_ek dk), ssm, pkx. split; [exact W2|]. split; [exact Ed|].
    cbn [x25519 rfc7748] in E. apply (C67_zero skx) in L; [|exact Hx]. rewrite L in E. rewrite <- E. unfold combiner, Combiner. cbn [concat]. rewrite app_nil_r. reflexivity.
  - rewrite W. discriminate.
Qed.

(** ** C68: how many secrets lead to the same shared secret *)

Lemma opposite_secrets B P k k' pk : B = 1 \/ B = 2 -> byte_string 32 k -> byte_string 32 k' -> on_curve B P ->
  decodeUCoordinate pk mod p25519 = u_coordinate P -> decodeScalar25519 k + decodeScalar25519 k' = 8 * large_prime B ->
  X25519 k pk = X25519 k' pk.
Proof.
  intros HB Hk Hk' HP Hu E.
  rewrite (C57_scalar_multiplication B k pk _ HB Hk HP Hu), (C57_scalar_multiplication B k' pk _ HB Hk' HP Hu).
  pose proof (scalar_range k Hk) as R. pose proof (scalar_range k' Hk') as R'. f_equal. apply (opposite_u B).
  rewrite <- (m_add B HB) by exact HP. rewrite <- Z2Nat.inj_add by (apply R || apply R'). rewrite E.
  apply (order_kills8 B _ HB HP).
Qed.
(** Two secrets lead to the same shared secret with a peer key outside the list exactly if
    their clamped scalars are equal or add up to 8 l, where l is the order of the prime
    subgroup of the peer key's curve *)
Theorem C68_same_secret pk : ~ In (decodeUCoordinate pk mod p25519) low_order ->
  exists l, (l = prime_order \/ l = twist_order) /\
  forall k k', byte_string 32 k -> byte_string 32 k' ->
    X25519 k pk = X25519 k' pk <->
    decodeScalar25519 k = decodeScalar25519 k' \/ decodeScalar25519 k + decodeScalar25519 k' = 8 * l.
Proof.
  intros L. destruct (every_u (decodeUCoordinate pk mod p25519)) as (B & v & HB & HP); [apply Z.mod_pos_bound; reflexivity|].
  exists (large_prime B). split; [destruct HB as [-> | ->]; [left|right]; reflexivity|]. intros k k' Hk Hk'. split.
  - rewrite (C57_scalar_multiplication B k pk _ HB Hk HP eq_refl), (C57_scalar_multiplication B k' pk _ HB Hk' HP eq_refl).
    destruct (scalar_8 k Hk) as (m & Em & Hm). destruct (scalar_8 k' Hk') as (m' & Em' & Hm'). rewrite Em, Em' in *.
    intros E. apply le_encode_inj in E; [|apply (u_bound B), (m_on B HB); exact HP|apply (u_bound B), (m_on B HB); exact HP].
    rewrite low_order8 in L. destruct (same_multiple B _ m m' HB HP L Hm Hm' E) as [S|S]; [left; rewrite S; reflexivity|right].
    rewrite <- S. ring.
  - intros [E|E].
    + rewrite (C57_scalar_multiplication B k pk _ HB Hk HP eq_refl), (C57_scalar_multiplication B k' pk _ HB Hk' HP eq_refl), E. reflexivity.
    + exact (opposite_secrets B _ k k' pk HB Hk Hk' HP eq_refl E).
Qed.

(** a secret is determined by its clamped scalar and the five bits that clamping sets *)
Lemma le_decode_inj a b : length a = length b -> bytes a -> bytes b -> le_decode a = le_decode b -> a = b.
Proof.
  revert b. induction a as [|x a IH]; intros [|y b] L Ha Hb E; try discriminate L; [reflexivity|].
  inversion Ha; subst. inversion Hb; subst. unfold is_byte in *. cbn [le_decode length] in *.
  assert (le_decode a = le_decode b) by lia. f_equal; [lia|]. apply IH; [lia|assumption..].
Qed.
Lemma low_byte x : is_byte x -> x = Z.land x 248 + x mod 8.
Proof.
  intros H. assert (C : forallb (fun x => x =? Z.land x 248 + x mod 8) (map Z.of_nat (seq 0 256)) = true) by reflexivity.
  rewrite forallb_forall in C. apply Z.eqb_eq. apply C. apply in_map_iff. exists (Z.to_nat x). unfold is_byte in H.
  split; [lia|]. apply in_seq. lia.
Qed.
Lemma high_byte x : is_byte x -> x = Z.lor (Z.land x 127) 64 mod 64 + 64 * (x / 64).
Proof.
  intros H. assert (C : forallb (fun x => x =? Z.lor (Z.land x 127) 64 mod 64 + 64 * (x / 64)) (map Z.of_nat (seq 0 256)) = true) by reflexivity.
  rewrite forallb_forall in C. apply Z.eqb_eq. apply C. apply in_map_iff. exists (Z.to_nat x). unfold is_byte in H.
  split; [lia|]. apply in_seq. lia.
Qed.
Definition clamped (k : list Z) (i : nat) : Z :=
  if Nat.eqb i 0 then Z.land (nth 0 k 0) 248
  else if Nat.eqb i 31 then Z.lor (Z.land (nth 31 k 0) 127) 64
  else nth i k 0.
Lemma nth_byte k i : byte_string 32 k -> is_byte (nth i k 0).
Proof.
  intros [_ H]. destruct (Nat.lt_ge_cases i (length k)) as [L|L].
  - unfold bytes in H. rewrite Forall_forall in H. apply H. apply nth_In. exact L.
  - rewrite nth_overflow by exact L. split; [discriminate|reflexivity].
Qed.
Lemma clamped_bytes k : byte_string 32 k -> bytes (tab 32 (clamped k)).
Proof.
  intros Hk. apply Forall_forall. intros y Hy. apply in_map_iff in Hy. destruct Hy as (i & <- & _). unfold clamped.
  pose proof (nth_byte k i Hk). destruct (Nat.eqb i 0).
  - pose proof (land_byte (nth 0 k 0) 248 (nth_byte k 0 Hk) ltac:(lia)). unfold is_byte. lia.
  - destruct (Nat.eqb i 31); [|assumption]. pose proof (top_byte (nth 31 k 0) (nth_byte k 31 Hk)). unfold is_byte. lia.
Qed.
Definition bits_of_secret (k : list Z) : Z * Z * Z := (decodeScalar25519 k, nth 0 k 0 mod 8, nth 31 k 0 / 64).
Lemma bits_inj k k' : byte_string 32 k -> byte_string 32 k' -> bits_of_secret k = bits_of_secret k' -> k = k'.
Proof.
  intros Hk Hk' E. pose proof (f_equal (fun x => fst (fst x)) E) as E1. pose proof (f_equal (fun x => snd (fst x)) E) as E2.
  pose proof (f_equal snd E) as E3. cbn [bits_of_secret fst snd] in E1, E2, E3.
  change (le_decode (tab 32 (clamped k)) = le_decode (tab 32 (clamped k'))) in E1.
  apply le_decode_inj in E1; [|unfold tab; rewrite !map_length; reflexivity|apply clamped_bytes; assumption|apply clamped_bytes; assumption].
  assert (C : forall i, (i < 32)%nat -> clamped k i = clamped k' i).
  { intros i Hi. rewrite <- (nth_tab _ 32 (clamped k) i 0 Hi), <- (nth_tab _ 32 (clamped k') i 0 Hi), E1. reflexivity. }
  apply nth_ext with (d := 0) (d' := 0); [rewrite (proj1 Hk), (proj1 Hk'); reflexivity|].
  intros i Hi. rewrite (proj1 Hk) in Hi. specialize (C i Hi). unfold clamped in C.
  destruct (Nat.eqb i 0) eqn:I0; [apply Nat.eqb_eq in I0; subst i|destruct (Nat.eqb i 31) eqn:I31; [apply Nat.eqb_eq in I31; subst i|exact C]].
  - rewrite (low_byte (nth 0 k 0)), (low_byte (nth 0 k' 0)) by (apply nth_byte; assumption). rewrite C, E2. reflexivity.
  - rewrite (high_byte (nth 31 k 0)), (high_byte (nth 31 k' 0)) by (apply nth_byte; assumption). rewrite C, E3. reflexivity.
Qed.

(** so at most 64 of the 2^256 secrets lead to any given shared secret *)
Theorem C68_secrets pk ss L : ~ In (decodeUCoordinate pk mod p25519) low_order -> enumerates 32 L ->
  count (fun k => if list_eq_dec Z.eq_dec (X25519 k pk) ss then true else false) L <= 64.
Proof.
  intros Hp [N I]. destruct (C68_same_secret pk Hp) as (l & _ & S). unfold count.
  set (M := filter _ L).
  assert (HM : forall k, In k M -> byte_string 32 k /\ X25519 k pk = ss).
  { intros k Hk. apply filter_In in Hk. destruct Hk as [Hk E]. split; [apply I; exact Hk|].
    destruct (list_eq_dec Z.eq_dec (X25519 k pk) ss); [assumption|discriminate]. }
  assert (NM : NoDup M) by (apply NoDup_filter; exact N). clearbody M.
  destruct M as [|k0 M']; [cbn; lia|]. set (M := k0 :: M') in *. destruct (HM k0 (or_introl eq_refl)) as [H0 E0].
  set (a := decodeScalar25519 k0).
  set (box := list_prod (list_prod [a; 8 * l - a] (map Z.of_nat (seq 0 8))) (map Z.of_nat (seq 0 4))).
  assert (LB : (length (map bits_of_secret M) <= length box)%nat).
  { apply NoDup_incl_length.
    - apply NoDup_map_inj; [exact NM|]. intros k k' Hk Hk'. apply bits_inj; [apply HM; exact Hk|apply HM; exact Hk'].
    - intros x Hx. apply in_map_iff in Hx. destruct Hx as (k & <- & Hk). destruct (HM k Hk) as [Hb Ek].
      pose proof (nth_byte k 0 Hb) as B0. pose proof (nth_byte k 31 Hb) as B1. unfold is_byte in B0, B1.
      apply in_prod; [apply in_prod|].
      + destruct (proj1 (S k0 k H0 Hb) ltac:(congruence)) as [Q|Q]; [left; exact Q|right; left; unfold a; lia].
      + apply in_map_iff. exists (Z.to_nat (nth 0 k 0 mod 8)). pose proof (Z.mod_pos_bound (nth 0 k 0) 8 ltac:(lia)).
        split; [lia|apply in_seq; lia].
      + apply in_map_iff. exists (Z.to_nat (nth 31 k 0 / 64)).
        assert (0 <= nth 31 k 0 / 64 < 4) by (split; [apply Z.div_pos; lia|apply Z.div_lt_upper_bound; lia]).
        split; [lia|apply in_seq; lia]. }
  rewrite map_length in LB. change (length box) with 64%nat in LB. lia.
Qed.
(** the base point is such a key: at most 64 secrets have the same public key *)
Theorem C68_public_keys pk L : enumerates 32 L ->
  count (fun k => if list_eq_dec Z.eq_dec (X25519 k X25519_BASE) pk then true else false) L <= 64.
Proof.
  apply C68_secrets. replace (decodeUCoordinate X25519_BASE mod p25519) with 9 by (vm_compute; reflexivity).
  intros H. cbn [low_order In] in H. repeat (destruct H as [H|H]; [discriminate H|]). exact H.
Qed.

(** an RNG that answers from a given byte string *)
Definition tape : rng := {| rng_state := list Z; fill_bytes := fun s n => (firstn n s, skipn n s) |}.
(** encapsulation of the X25519 KEM: with fresh uniform bytes from the RNG, any given shared
    secret appears with probability at most 2^-250, and so does any given encapsulated key *)
Theorem C68_encapsulate ek L x : enumerates 32 L ->
  (~ In (decodeUCoordinate (enc_into_inner ek) mod p25519) low_order ->
   2 ^ 250 * count (fun k => if list_eq_dec Z.eq_dec (snd (fst (x25519_encapsulate rfc7748 ek tape k))) x then true else false) L
   <= 256 ^ Z.of_nat 32) /\
  2 ^ 250 * count (fun k => if list_eq_dec Z.eq_dec (fst (fst (x25519_encapsulate rfc7748 ek tape k))) x then true else false) L
  <= 256 ^ Z.of_nat 32.
Proof.
  intros HL. change (256 ^ Z.of_nat 32) with (2 ^ 250 * 64).
  assert (F : forall k, In k L -> firstn 32 k = k).
  { intros k Hk. apply HL in Hk. apply firstn_all2. rewrite (proj1 Hk). apply Nat.le_refl. }
  split; [intros Hp|]; apply Z.mul_le_mono_nonneg_l; try discriminate.
  - rewrite <- (C68_secrets _ x L Hp HL) at 1. apply Z.eq_le_incl. unfold count. do 2 f_equal. apply filter_ext_in. intros k Hk.
    unfold x25519_encapsulate, reusable_random. cbn [fill_bytes tape fst snd x25519 x25519_public rfc7748]. rewrite F by exact Hk. reflexivity.
  - rewrite <- (C68_public_keys x L HL) at 1. apply Z.eq_le_incl. unfold count. do 2 f_equal. apply filter_ext_in. intros k Hk.
    unfold x25519_encapsulate, reusable_random. cbn [fill_bytes tape fst snd x25519 x25519_public rfc7748]. rewrite F by exact Hk. reflexivity.
Qed.

(** ** Concrete cases *)

(** a twelfth encoding of a low-order point: p + 1 with the top bit set, and the all-zero key *)
Example C67_case :
  X25519 (seed 7) (repeat 0 32) = repeat 0 32 /\
  X25519 (seed 7) (le_encode 32 (p25519 + 1 + 2 ^ 255)) = repeat 0 32.
Proof.
  split; apply C67_zero; try apply seed_ok.
  - left. reflexivity.
  - right. left. vm_compute. reflexivity.
Qed.
(** two secrets with one public key: 8 m and 8 (l - m), for m = 2^251 + 1 *)
Example C68_case : let k := le_encode 32 (8 * (2 ^ 251 + 1)) in let k' := le_encode 32 (8 * (prime_order - (2 ^ 251 + 1))) in
  k <> k' /\ X25519 k X25519_BASE = X25519 k' X25519_BASE.
Proof.
  intros k k'. split; [vm_compute; discriminate|].
  apply (opposite_secrets 1 base_point); [left; reflexivity|apply le_encode_bytes|apply le_encode_bytes|exact base_on|vm_compute; reflexivity|].
  vm_compute. reflexivity.
Qed.
(** the X25519 KEM, asked to encapsulate to the all-zero key *)
Example C67_case_kem :
  snd (fst (x25519_encapsulate rfc7748 (enc_from (repeat 0 32)) counter 5)) = repeat 0 32.
Proof.
  destruct (x25519_encapsulate rfc7748 (enc_from (repeat 0 32)) counter 5) as [[pk ss] s'] eqn:E. cbn [fst snd].
  apply (C67_encapsulate _ counter 5 pk ss s' counter_ok E). left. reflexivity.
Qed.

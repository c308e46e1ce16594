(** C74: the raw Diffie-Hellman secret that dhkem returns does not identify the encapsulated
    key.  dhkem/src/lib.rs:11-16 leaves the extraction step of RFC 9180 to the caller; here is
    what a caller who leaves it out loses: an attacker who may have other ciphertexts
    decapsulated recognises the shared secret with a single question.  X-Wing hashes the
    encapsulated key, and is not affected. *)
From Coq Require Import List ZArith Lia Bool Znumtheory.
From Verif.Base Require Import Res Oracles.
From Verif.Spec Require Import FIPS203 RFC7748 Curve25519 XWing Counting Lwe Attacker.
From Verif.Spec Require SEC1.
From Verif.Model Require Import Machine Param Crypto Pke Kem XWing DhKem.
From Verif.Proofs Require Import Basics XWingProofs CountProofs Primes X25519Proofs Curve25519Proofs OrderPrimes Torsion CurveOrder TailProofs LweProofs AttackerProofs PkeProofs KemProofs TableProofs HybridProofs.
From Verif.Proofs Require SEC1Proofs.
From Verif.Tests Require Import Toy.
From Verif.Properties Require Import Kem KemCases XWing Dh X25519 LowOrder.
From Verif.Properties Require Sec1.
From Coq Require Import QArith Qabs Lqa.
Import ListNotations.
Open Scope Z_scope.

(** ** which encapsulated keys share their secrets *)

(** no u other than 0 is on both curves *)
Lemma one_curve Q Q' : on_curve 1 Q -> on_curve 2 Q' -> u_coordinate Q = u_coordinate Q' -> u_coordinate Q = 0.
Proof.
  destruct Q as [|u v]; [reflexivity|]. destruct Q' as [|u' v']; [intros _ _ E; exact E|]. intros H H' E. cbn [u_coordinate] in *. subst u'.
  pose proof (curve_F 1 u v H) as E1. pose proof (curve_F 2 u v' H') as E2.
  apply (in_F 1 u v H). destruct (F_dec (mkF u) F0) as [Z0|N]; [exact Z0|]. exfalso.
  assert (NW : (mkF u * quad (mkF u))%F <> F0).
  { intros W. destruct (F_integral _ _ W) as [W'|W']; [exact (N W')|exact (quad_nz _ W')]. }
  assert (N' : mkF v' <> F0).
  { intros Z0. apply NW. rewrite <- E2, Z0. ring. }
  apply (two_nonsquare (mkF v * Finv (mkF v'))%F). apply square_quotient; [exact N'|].
  rewrite E2, <- E1. change (mkF 1) with F1. ring.
Qed.
Lemma u_neg Q : u_coordinate (neg Q) = u_coordinate Q.
Proof. destruct Q; reflexivity. Qed.

Section Same.
  Variable B : Z.
  Hypothesis HB : B = 1 \/ B = 2.
  Variable m : Z.
  Hypothesis Hm : 0 < m < 2 ^ 252.
  Let times8m Q := multiple B (Z.to_nat (8 * m)) Q.

  Lemma split8 Q : on_curve B Q -> times8m Q = multiple B (Z.to_nat m) (multiple B 8 Q).
  Proof.
    intros HQ. unfold times8m. replace (Z.to_nat (8 * m)) with (Z.to_nat m * 8)%nat by lia. apply (m_mul B HB). exact HQ.
  Qed.
  Lemma killed8 Q : on_curve B Q -> times8m Q = Infinity -> multiple B 8 Q = Infinity.
  Proof.
    intros HQ E. apply (torsion_8 B HB Q HQ). apply (clamped_kills B Q m HB HQ Hm). fold (times8m Q). rewrite E. reflexivity.
  Qed.
  (** opposite products come from opposite 8-fold points *)
  Lemma opposite_8 Q R : on_curve B Q -> on_curve B R -> add B (times8m Q) (times8m R) = Infinity ->
    add B (multiple B 8 Q) (multiple B 8 R) = Infinity.
  Proof.
    intros HQ HR E. rewrite <- (m_dist B 8 Q R HB HQ HR). apply killed8; [apply (g_on B HB); assumption|].
    unfold times8m. rewrite (m_dist B _ Q R HB HQ HR). exact E.
  Qed.
  Lemma same_8 Q R : on_curve B Q -> on_curve B R ->
    u_coordinate (times8m Q) = u_coordinate (times8m R) <-> u_coordinate (multiple B 8 Q) = u_coordinate (multiple B 8 R).
  Proof.
    intros HQ HR. pose proof (m_on B HB (Z.to_nat (8 * m)) Q HQ) as OQ. pose proof (m_on B HB (Z.to_nat (8 * m)) R HR) as OR.
    pose proof (m_on B HB 8 Q HQ) as O8. pose proof (m_on B HB 8 R HR) as O8'. fold (times8m Q) in OQ. fold (times8m R) in OR.
    assert (Z8 : forall P, on_curve B P -> u_coordinate (times8m P) = 0 -> multiple B 8 P = Infinity).
    { intros P HP E. apply (torsion_8 B HB P HP). exact (clamped_kills B P m HB HP Hm E). }
    split; intros E.
    - destruct (Z.eq_dec (u_coordinate (times8m Q)) 0) as [Z0|N].
      + rewrite (Z8 Q HQ Z0), (Z8 R HR) by congruence. reflexivity.
      + destruct (same_u B _ _ HB OQ OR E N) as [S|S].
        * rewrite <- (u_neg (multiple B 8 R)). apply (opposite_u B).
          assert (NR : multiple B 8 (neg R) = neg (multiple B 8 R)).
          { apply (g_cancel B HB (multiple B 8 R)); [exact O8'|apply (m_on B HB), (neg_on B), HR|apply (neg_on B), O8'|].
            rewrite <- (m_dist B 8 R (neg R) HB HR (neg_on B R HR)), !(g_comm B HB _ (neg _)) by (try apply (neg_on B); assumption).
            rewrite !(add_neg B HB) by assumption. apply (m_infinity B). }
          rewrite <- NR. apply opposite_8; [exact HQ|apply (neg_on B), HR|]. rewrite S. unfold times8m.
          rewrite <- (m_dist B _ R (neg R) HB HR (neg_on B R HR)), (g_comm B HB R) by (try apply (neg_on B); exact HR).
          rewrite (add_neg B HB) by exact HR. apply (m_infinity B).
        * apply (opposite_u B). apply opposite_8; assumption.
    - rewrite !split8 by assumption.
      destruct (Z.eq_dec (u_coordinate (multiple B 8 Q)) 0) as [Z0|N].
      + assert (T : forall P, on_curve B P -> u_coordinate (multiple B 8 P) = 0 -> u_coordinate (multiple B (Z.to_nat m) (multiple B 8 P)) = 0).
        { intros P HP Z1. assert (Z2 : multiple B 8 P = Infinity).
          { apply (torsion_8 B HB P HP). apply (clamped_kills B P 1 HB HP); [split; reflexivity|exact Z1]. }
          rewrite Z2, (m_infinity B). reflexivity. }
        rewrite (T Q HQ Z0), (T R HR) by congruence. reflexivity.
      + destruct (same_u B _ _ HB O8 O8' E N) as [S|S]; [rewrite S; reflexivity|].
        apply (opposite_u B). rewrite <- (m_dist B _ _ _ HB O8 O8'), S. apply (m_infinity B).
  Qed.
End Same.

(** Two encapsulated keys have the same shared secret exactly if 8 times their points have the
    same u-coordinate; [B], [B'] say which of the two curves the points are on. *)
Theorem C74_same_secret k pk pk' B B' Q Q' : byte_string 32 k -> B = 1 \/ B = 2 -> B' = 1 \/ B' = 2 ->
  on_curve B Q -> on_curve B' Q' ->
  decodeUCoordinate pk mod p25519 = u_coordinate Q -> decodeUCoordinate pk' mod p25519 = u_coordinate Q' ->
  X25519 k pk = X25519 k pk' <-> u_coordinate (multiple B 8 Q) = u_coordinate (multiple B' 8 Q').
Proof.
  intros Hk HB HB' HQ HQ' Hu Hu'.
  rewrite (C57_scalar_multiplication B k pk Q HB Hk HQ Hu), (C57_scalar_multiplication B' k pk' Q' HB' Hk HQ' Hu').
  destruct (scalar_8 k Hk) as (m & E & Hm). rewrite E. assert (P1 : 0 < 2 ^ 251) by reflexivity. assert (Hm' : 0 < m < 2 ^ 252) by lia.
  pose proof (m_on B HB (Z.to_nat (8 * m)) Q HQ) as O. pose proof (m_on B' HB' (Z.to_nat (8 * m)) Q' HQ') as O'.
  assert (I : le_encode 32 (u_coordinate (multiple B (Z.to_nat (8 * m)) Q)) = le_encode 32 (u_coordinate (multiple B' (Z.to_nat (8 * m)) Q')) <->
    u_coordinate (multiple B (Z.to_nat (8 * m)) Q) = u_coordinate (multiple B' (Z.to_nat (8 * m)) Q')).
  { split; [|intros ->; reflexivity]. apply le_encode_inj; [apply (u_bound B), O|apply (u_bound B'), O']. }
  rewrite I. clear I. destruct (Z.eq_dec B B') as [->|NB]; [apply same_8; assumption|].
  (* on different curves: all are 0 *)
  assert (D : forall n, u_coordinate (multiple B n Q) = u_coordinate (multiple B' n Q') -> u_coordinate (multiple B n Q) = 0).
  { intros n En. pose proof (m_on B HB n Q HQ) as On. pose proof (m_on B' HB' n Q' HQ') as On'.
    destruct HB as [-> | ->], HB' as [-> | ->]; try (destruct (NB eq_refl)).
    - exact (one_curve _ _ On On' En).
    - rewrite En. symmetry in En. exact (one_curve _ _ On' On En). }
  assert (T : forall B P j, B = 1 \/ B = 2 -> on_curve B P -> 0 < j < 2 ^ 252 -> u_coordinate (multiple B (Z.to_nat (8 * j)) P) = 0 ->
    forall n, u_coordinate (multiple B (n * 8) P) = 0).
  { intros B0 P j HB0 HP Hj Z0 n. rewrite (m_mul B0 HB0) by exact HP.
    rewrite (proj2 (torsion_8 B0 HB0 P HP) (clamped_kills B0 P j HB0 HP Hj Z0)), (m_infinity B0). reflexivity. }
  replace (Z.to_nat (8 * m)) with (Z.to_nat m * 8)%nat in * by lia. split; intros En.
  - pose proof (D _ En) as Z0. rewrite En in Z0. pose proof Z0 as Z0'. rewrite <- En in Z0.
    replace (Z.to_nat m * 8)%nat with (Z.to_nat (8 * m)) in * by lia.
    pose proof (T B Q m HB HQ Hm' Z0 1%nat) as W. pose proof (T B' Q' m HB' HQ' Hm' Z0' 1%nat) as W'.
    change (1 * 8)%nat with 8%nat in W, W'. congruence.
  - pose proof (D _ En) as Z0. rewrite En in Z0. pose proof Z0 as Z0'. rewrite <- En in Z0.
    assert (H1 : 0 < 1 < 2 ^ 252) by (split; reflexivity).
    rewrite (T B Q 1 HB HQ H1 Z0), (T B' Q' 1 HB' HQ' H1 Z0'). reflexivity.
Qed.
(** so whether they do does not depend on the secret key: everybody can tell *)
Theorem C74_independent k k' pk pk' : byte_string 32 k -> byte_string 32 k' ->
  X25519 k pk = X25519 k pk' <-> X25519 k' pk = X25519 k' pk'.
Proof.
  intros Hk Hk'.
  destruct (every_u (decodeUCoordinate pk mod p25519)) as (B & v & HB & HQ); [apply Z.mod_pos_bound; reflexivity|].
  destruct (every_u (decodeUCoordinate pk' mod p25519)) as (B' & v' & HB' & HQ'); [apply Z.mod_pos_bound; reflexivity|].
  rewrite (C74_same_secret k pk pk' B B' _ _ Hk HB HB' HQ HQ' eq_refl eq_refl),
          (C74_same_secret k' pk pk' B B' _ _ Hk' HB HB' HQ HQ' eq_refl eq_refl). reflexivity.
Qed.

(** ** another encapsulated key with the same secret *)

(** the top bit of the last byte, which X25519 ignores, inverted *)
Definition flip (pk : list Z) : list Z := firstn 31 pk ++ [Z.lxor (nth 31 pk 0) 128].

Lemma flip_byte b : is_byte b -> is_byte (Z.lxor b 128) /\ (Z.lxor b 128 = b + 128 \/ Z.lxor b 128 = b - 128).
Proof.
  intros H. assert (C : forallb (fun x => let y := Z.lxor x 128 in (0 <=? y) && (y <? 256) && ((y =? x + 128) || (y =? x - 128)))
    (map Z.of_nat (seq 0 256)) = true) by reflexivity.
  rewrite forallb_forall in C. assert (I : In b (map Z.of_nat (seq 0 256))).
  { apply in_map_iff. exists (Z.to_nat b). unfold is_byte in H. split; [lia|]. apply in_seq. lia. }
  specialize (C b I). cbv beta zeta in C. apply andb_true_iff in C. destruct C as [C C2]. apply andb_true_iff in C. destruct C as [C0 C1].
  apply Z.leb_le in C0. apply Z.ltb_lt in C1. apply orb_true_iff in C2. rewrite !Z.eqb_eq in C2. unfold is_byte. split; [lia|exact C2].
Qed.
Lemma split_last pk : byte_string 32 pk -> pk = firstn 31 pk ++ [nth 31 pk 0] /\ length (firstn 31 pk) = 31%nat /\ is_byte (nth 31 pk 0).
Proof.
  intros H. split; [|split; [rewrite firstn_length, (proj1 H); reflexivity|apply nth_byte; exact H]].
  rewrite <- (firstn_skipn 31 pk) at 1. f_equal. destruct H as [L _].
  assert (S : length (skipn 31 pk) = 1%nat) by (rewrite skipn_length, L; reflexivity).
  destruct (skipn 31 pk) as [|b [|]] eqn:E; try discriminate S. f_equal.
  transitivity (nth 0 (skipn 31 pk) 0); [rewrite E; reflexivity|]. rewrite nth_skipn. reflexivity.
Qed.
Lemma flip_bytes pk : byte_string 32 pk -> byte_string 32 (flip pk) /\ flip pk <> pk.
Proof.
  intros H. destruct (split_last pk H) as (E & L & Hb). destruct (flip_byte _ Hb) as [Hf Ne]. split.
  - apply (byte_string_app 31 1); [apply (byte_string_firstn 31 32); [exact H|lia]|]. split; [reflexivity|]. repeat constructor; apply Hf.
  - unfold flip. intros Q. rewrite E in Q at 3. apply app_inv_head in Q. injection Q as Q. lia.
Qed.
Lemma le_decode_snoc l b : le_decode (l ++ [b]) = le_decode l + 256 ^ Z.of_nat (length l) * b.
Proof.
  induction l as [|x l IH]; [cbn [app le_decode length Z.of_nat]; rewrite Z.pow_0_r; ring|].
  cbn [app le_decode length]. rewrite IH, Nat2Z.inj_succ, Z.pow_succ_r by lia. ring.
Qed.
Lemma flip_decode pk : byte_string 32 pk -> decodeUCoordinate (flip pk) = decodeUCoordinate pk.
Proof.
  intros H. destruct (split_last pk H) as (E & L & Hb). unfold decodeUCoordinate, flip. rewrite E at 3. rewrite !le_decode_snoc, L.
  destruct (flip_byte _ Hb) as [_ [F|F]]; rewrite F.
  - replace (le_decode (firstn 31 pk) + 256 ^ Z.of_nat 31 * (nth 31 pk 0 + 128))
      with (le_decode (firstn 31 pk) + 256 ^ Z.of_nat 31 * nth 31 pk 0 + 1 * 2 ^ 255).
    + apply Z.mod_add. discriminate.
    + change (2 ^ 255) with (256 ^ Z.of_nat 31 * 128). ring.
  - replace (le_decode (firstn 31 pk) + 256 ^ Z.of_nat 31 * (nth 31 pk 0 - 128))
      with (le_decode (firstn 31 pk) + 256 ^ Z.of_nat 31 * nth 31 pk 0 + (-1) * 2 ^ 255).
    + apply Z.mod_add. discriminate.
    + change (2 ^ 255) with (256 ^ Z.of_nat 31 * 128). ring.
Qed.
Lemma flip_X25519 k pk : byte_string 32 pk -> X25519 k (flip pk) = X25519 k pk.
Proof. intros H. unfold X25519, X25519_with. rewrite flip_decode by exact H. reflexivity. Qed.

(** the X25519 KEM: every encapsulated key has a different one with the same secret *)
Theorem C74_x25519 dk pk : byte_string 32 pk ->
  byte_string 32 (flip pk) /\ flip pk <> pk /\
  x25519_decapsulate rfc7748 dk (flip pk) = x25519_decapsulate rfc7748 dk pk.
Proof.
  intros H. destruct (flip_bytes pk H) as [F1 F2]. split; [exact F1|]. split; [exact F2|]. apply flip_X25519. exact H.
Qed.

(** The other curves: the opposite point.  It is a different point unless y = 0. *)
Lemma negate_multiple C n P : SEC1.curve_ok C -> SEC1.on_curve C P ->
  SEC1.multiple C n (SEC1.negate C P) = SEC1.negate C (SEC1.multiple C n P).
Proof.
  intros Hok HP. destruct (Sec1.C62_group C Hok) as (On & As & Co & Id & Ne).
  pose proof (proj1 (Ne P HP)) as HN.
  assert (D : SEC1.add C (SEC1.multiple C n (SEC1.negate C P)) (SEC1.multiple C n P) = SEC1.Infinity).
  { induction n as [|n IH]; [reflexivity|]. cbn [SEC1.multiple].
    pose proof (SEC1Proofs.multiple_on C Hok n P HP) as M1. pose proof (SEC1Proofs.multiple_on C Hok n _ HN) as M2.
    rewrite (Co (SEC1.negate C P)), (As _ (SEC1.negate C P)) by (try apply On; assumption).
    rewrite <- (As (SEC1.negate C P)), (Co (SEC1.negate C P) P), (proj2 (Ne P HP)) by assumption.
    exact IH. }
  pose proof (SEC1Proofs.multiple_on C Hok n P HP) as M1. pose proof (SEC1Proofs.multiple_on C Hok n _ HN) as M2.
  destruct (Ne _ M1) as [M3 M4].
  transitivity (SEC1.add C (SEC1.multiple C n (SEC1.negate C P)) (SEC1.add C (SEC1.multiple C n P) (SEC1.negate C (SEC1.multiple C n P)))).
  - rewrite M4. symmetry. apply Id.
  - rewrite <- As by assumption. rewrite D. apply Id.
Qed.
Theorem C74_ecdh C draw dk P : SEC1.curve_ok C -> SEC1.on_curve C P ->
  SEC1.on_curve C (SEC1.negate C P) /\
  ecdh_decapsulate (Sec1.sec1 C draw) dk (SEC1.negate C P) = ecdh_decapsulate (Sec1.sec1 C draw) dk P /\
  (forall x y, P = SEC1.Point x y -> SEC1.negate C P = P <-> y = 0).
Proof.
  intros Hok HP. destruct (Sec1.C62_group C Hok) as (On & As & Co & Id & Ne). split; [apply Ne, HP|]. split.
  - unfold ecdh_decapsulate, ecdh_diffie_hellman. cbn [Sec1.sec1 ec_x ec_mul]. rewrite negate_multiple by assumption.
    destruct (SEC1.multiple C (Z.to_nat (dh_dec_0 dk)) P); reflexivity.
  - intros x y ->. destruct HP as (_ & Hy & _). cbn [SEC1.negate]. destruct Hok as (Hp & H2 & _).
    pose proof (prime_ge_2 _ Hp) as G2. split.
    + intros E. injection E as E.
      assert (D : (SEC1.p C | 2 * y)).
      { apply Z.mod_divide; [lia|]. replace (2 * y) with (y + y) by ring. rewrite <- E at 1. rewrite Zplus_mod_idemp_l.
        replace (- y + y) with 0 by ring. apply Z.mod_0_l. lia. }
      apply prime_mult in D; [|exact Hp]. destruct D as [D|D]; [apply Z.divide_pos_le in D; lia|].
      destruct (Z.eq_dec y 0) as [Y|N]; [exact Y|]. apply Z.divide_pos_le in D; lia.
    + intros ->. reflexivity.
Qed.

(** ** the attack *)

(** The owner decapsulates every encapsulated key but the challenge [c0]. *)
Definition dhkem_owner (X : x25519_impl) (dk : DhDecapsulator (list Z)) (c0 c : list Z) : list Z :=
  if list_eq_dec Z.eq_dec c c0 then [] else x25519_decapsulate X dk c.
(** Generate a key pair, encapsulate, show the attacker the encapsulator, the encapsulated key,
    and the shared secret or (if not [real]) the string [V].  [a] and [b] are what the RNG
    returns. *)
Definition dhkem_game (hs : hashes) (X : x25519_impl) (att : list Z -> list Z -> list Z -> attacker) (real : bool) (a b V : list Z) : Q :=
  let '((dk, ek), _) := x25519_random_keypair X tape a in
  let '((c, ss), _) := x25519_encapsulate X ek tape b in
  run hs (dhkem_owner X dk c) (att (enc_as_ref ek) c (if real then ss else V)).
Definition dhkem_experiment (hs : hashes) (X : x25519_impl) (att : list Z -> list Z -> list Z -> attacker) (L : list (list Z)) (real : bool) : Q :=
  average L (fun a => average L (fun b => average L (fun V => dhkem_game hs X att real a b V))).

(** have the flipped challenge decapsulated, compare *)
Definition flip_attack (ek c K : list Z) : attacker :=
  Decaps (flip c) (fun y => Answer (one_if (if list_eq_dec Z.eq_dec y K then true else false))).

Lemma total_exactly (y : list Z) L : NoDup L -> In y L -> Lwe.total L (fun x => one_if (if list_eq_dec Z.eq_dec y x then true else false)) == 1.
Proof.
  induction 1 as [|x L Nx N IH]; intros I; [destruct I|]. unfold Lwe.total in *. cbn [fold_right]. fold (Lwe.total L (fun x => one_if (if list_eq_dec Z.eq_dec y x then true else false))) in *.
  destruct (list_eq_dec Z.eq_dec y x) as [E|NE].
  - subst x. assert (Z0 : Lwe.total L (fun x => one_if (if list_eq_dec Z.eq_dec y x then true else false)) == Lwe.total L (fun _ => 0%Q)).
    { apply total_ext. intros x Hx. destruct (list_eq_dec Z.eq_dec y x) as [E|_]; [subst x; contradiction|reflexivity]. }
    rewrite Z0, total_const. cbn [one_if]. ring.
  - destruct I as [E|I]; [destruct (NE (eq_sym E))|]. rewrite (IH I). cbn [one_if]. ring.
Qed.
Lemma flip_game hs X a b K V real : x25519_ok X -> x25519_commutes X ->
  (forall k u, byte_string 32 u -> x25519 X k (flip u) = x25519 X k u) ->
  byte_string 32 a -> byte_string 32 b -> K = x25519 X b (x25519 X a X25519_BASE) ->
  dhkem_game hs X flip_attack real a b V = one_if (if list_eq_dec Z.eq_dec K (if real then K else V) then true else false).
Proof.
  intros [HX HP] HC HF Ha Hb HK. unfold dhkem_game, x25519_random_keypair, x25519_encapsulate, reusable_random. cbn [tape fill_bytes].
  rewrite !firstn_all2 by (rewrite ?(proj1 Ha), ?(proj1 Hb); apply Nat.le_refl).
  cbn [dh_enc_0 enc_as_ref]. rewrite (HP a Ha), (HP b Hb), <- HK. unfold flip_attack. cbn [run].
  pose proof (HX b X25519_BASE Hb base_ok) as Hc.
  unfold dhkem_owner. destruct (list_eq_dec Z.eq_dec (flip (x25519 X b X25519_BASE)) (x25519 X b X25519_BASE)) as [E|_].
  { destruct (proj2 (flip_bytes _ Hc) E). }
  unfold x25519_decapsulate. cbn [dh_dec_0]. rewrite HF by exact Hc.
  rewrite (HC a b Ha Hb), <- HK. reflexivity.
Qed.
Lemma flip_experiment hs X L : x25519_ok X -> x25519_commutes X ->
  (forall k u, byte_string 32 u -> x25519 X k (flip u) = x25519 X k u) -> enumerates 32 L ->
  dhkem_experiment hs X flip_attack L true == 1 /\
  dhkem_experiment hs X flip_attack L false == 1 / inject_Z (2 ^ 256).
Proof.
  intros HX HC HF HL. assert (NE : L <> []).
  { intros E. pose proof (enumerates_length 32 L HL) as Q. rewrite E in Q. discriminate Q. }
  unfold dhkem_experiment.
  assert (B : forall x, In x L -> byte_string 32 x) by (intros x Hx; apply HL, Hx). split.
  - rewrite <- (average_const L 1 NE). apply average_ext. intros a Ia.
    rewrite <- (average_const L 1 NE). apply average_ext. intros b Ib.
    rewrite <- (average_const L 1 NE). apply average_ext. intros V IV.
    rewrite (flip_game hs X a b _ V true HX HC HF (B a Ia) (B b Ib) eq_refl).
    destruct (list_eq_dec Z.eq_dec _ _) as [|N]; [reflexivity|destruct (N eq_refl)].
  - rewrite <- (average_const L (1 / inject_Z (2 ^ 256)) NE). apply average_ext. intros a Ia.
    rewrite <- (average_const L (1 / inject_Z (2 ^ 256)) NE). apply average_ext. intros b Ib.
    set (K := x25519 X b (x25519 X a X25519_BASE)).
    assert (HK : In K L).
    { apply HL. apply (proj1 HX); [exact (B b Ib)|]. apply (proj1 HX); [exact (B a Ia)|exact base_ok]. }
    transitivity (average L (fun V => one_if (if list_eq_dec Z.eq_dec K V then true else false))).
    { apply average_ext. intros V IV. rewrite (flip_game hs X a b K V false HX HC HF (B a Ia) (B b Ib) eq_refl). reflexivity. }
    unfold average. rewrite (total_exactly K L (proj1 HL) HK), (enumerates_length 32 L HL). reflexivity.
Qed.
(** shown the shared secret the attacker answers 1, shown a random string almost never; it
    needs one decapsulation, and no hash function *)
Theorem C74_attack hs L : enumerates 32 L ->
  (forall ek c K, within 0 1 (flip_attack ek c K)) /\
  dhkem_experiment hs rfc7748 flip_attack L true == 1 /\
  dhkem_experiment hs rfc7748 flip_attack L false == 1 / inject_Z (2 ^ 256).
Proof.
  intros HL. split; [|exact (flip_experiment hs rfc7748 L rfc7748_ok rfc7748_commutes flip_X25519 HL)].
  intros ek c K y. unfold one_if. destruct (list_eq_dec Z.eq_dec y K); cbn [within]; split; discriminate.
Qed.

(** ** X-Wing *)

(** Inverting the bit of ct_X changes the input of SHA3-256, and nothing else about the
    decapsulation: the ML-KEM secret and the X25519 secret are the same. *)
Theorem C74_xwing hs n sk ct ss : byte_string 32 (ct_x ct) ->
  xw_decapsulate hs rfc7748 n (xw_dk_from sk) ct = Ok ss ->
  exists ss_M ss_X pk_X,
    ss = Combiner hs ss_M ss_X (ct_x ct) pk_X /\
    xw_decapsulate hs rfc7748 n (xw_dk_from sk) {| ct_m := ct_m ct; ct_x := flip (ct_x ct) |} = Ok (Combiner hs ss_M ss_X (flip (ct_x ct)) pk_X) /\
    XWingLabel ++ ss_M ++ ss_X ++ flip (ct_x ct) ++ pk_X <> XWingLabel ++ ss_M ++ ss_X ++ ct_x ct ++ pk_X.
Proof.
  intros Hx. unfold xw_decapsulate.
  destruct (expand_key hs rfc7748 n (xw_dk_from sk)) as [[[[skm skx] pkm] pkx]| | |]; cbn [bind]; try discriminate.
  cbn [ct_m ct_x]. destruct (decapsulate hs MlKem768Params n skm (ct_m ct)) as [ssm| | |]; cbn [bind]; try discriminate.
  cbn [x25519 rfc7748]. rewrite flip_X25519 by exact Hx. intros E. apply Ok_inj in E.
  assert (C : forall a b c d, combiner hs a b c d = Combiner hs a b c d).
  { intros a b c d. unfold combiner, Combiner. cbn [concat]. rewrite app_nil_r. reflexivity. }
  exists ssm, (X25519 skx (ct_x ct)), pkx. split; [rewrite <- C; symmetry; exact E|]. split; [f_equal; apply C|].
  intros Q. do 3 apply app_inv_head in Q. apply app_inv_tail in Q. exact (proj2 (flip_bytes _ Hx) Q).
Qed.

(** ** Concrete cases *)

(** the key of RFC 7748 section 6.1's Bob: two ciphertexts *)
Example C74_case : byte_string 32 (9 :: repeat 0 31) /\ flip (9 :: repeat 0 31) = 9 :: repeat 0 30 ++ [128].
Proof. split; [split; [reflexivity|repeat constructor; discriminate]|reflexivity]. Qed.
(** two points whose difference has order 8 (B = 1): the base point and the sum of the base
    point and a point of order 8; and two keys that are on different curves, 1 and p - 1 *)
Example C74_case_order8 k : byte_string 32 k ->
  let Q := add 1 base_point point8 in
  u_coordinate Q <> 9 /\ X25519 k (le_encode 32 (u_coordinate Q)) = X25519 k (le_encode 32 9).
Proof.
  intros Hk Q. assert (B1 : 1 = 1 \/ 1 = 2) by (left; reflexivity).
  pose proof (g_on 1 B1 _ _ base_on point8_on) as HQ. fold Q in HQ. split.
  - intros E. destruct (same_u 1 Q base_point B1 HQ base_on) as [S|S]; [exact E|rewrite E; discriminate| |].
    + assert (W : point8 = Infinity).
      { apply (g_cancel 1 B1 base_point); [exact base_on|exact point8_on|exact I|]. rewrite (add_inf 1 base_point). exact S. }
      discriminate W.
    + assert (K : kills 1 16 base_point).
      { split; [lia|]. apply (f_equal (multiple 1 8)) in S. rewrite (m_dist 1 8 _ _ B1 HQ base_on), (m_infinity 1) in S.
        unfold Q in S. rewrite (m_dist 1 8 _ _ B1 base_on point8_on) in S.
        assert (Z8 : multiple 1 8 point8 = Infinity) by (apply (torsion_8 1 B1 _ point8_on); right; left; reflexivity).
        rewrite Z8, (add_inf 1 (multiple 1 8 base_point)), <- (m_add 1 B1 8 8 base_point base_on) in S.
        change (Z.to_nat 16) with (8 + 8)%nat. exact S. }
      apply (large_order 1 ell _ base_point B1 prime_ell base_on) in K; [|discriminate|exact base_killed].
      apply Z.divide_pos_le in K; [|reflexivity]. revert K. vm_compute. intros K. apply K. reflexivity.
  - apply (C74_same_secret k _ _ 1 1 Q base_point Hk B1 B1 HQ base_on).
    + rewrite le_encode_u by (apply (u_bound 1), HQ). reflexivity.
    + vm_compute. reflexivity.
    + unfold Q. rewrite (m_dist 1 8 _ _ B1 base_on point8_on).
      assert (Z8 : multiple 1 8 point8 = Infinity) by (apply (torsion_8 1 B1 _ point8_on); right; left; reflexivity).
      rewrite Z8, (add_inf 1 (multiple 1 8 base_point)). reflexivity.
Qed.
(** two keys with different secrets *)
Example C74_case_differ : X25519 (seed 7) (le_encode 32 9) <> X25519 (seed 7) (le_encode 32 1).
Proof.
  intros E. assert (Z1 : X25519 (seed 7) (le_encode 32 1) = repeat 0 32).
  { apply C67_zero; [apply seed_ok|]. right. left. vm_compute. reflexivity. }
  rewrite Z1 in E. apply C67_zero in E; [|apply seed_ok]. revert E.
  replace (decodeUCoordinate (le_encode 32 9) mod p25519) with 9 by (vm_compute; reflexivity).
  intros H. cbn [low_order In] in H. repeat (destruct H as [H|H]; [discriminate H|]). exact H.
Qed.
(** the toy curve of C62: (10, 6) and (10, 11) have the same secrets *)
Example C74_case_ecdh :
  SEC1.negate Sec1.toy_sec1 (SEC1.Point 10 6) = SEC1.Point 10 11 /\
  ecdh_decapsulate (Sec1.sec1 Sec1.toy_sec1 Sec1.byte_scalar) (dec_from 7) (SEC1.Point 10 6) = [6] /\
  ecdh_decapsulate (Sec1.sec1 Sec1.toy_sec1 Sec1.byte_scalar) (dec_from 7) (SEC1.Point 10 11) = [6].
Proof. repeat split; vm_compute; reflexivity. Qed.

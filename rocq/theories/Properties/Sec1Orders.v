(** C80: the orders of the curves behind the four ECDH mechanisms of dhkem.

    C62 holds for whatever scalars and points.  Here: the number of points of each curve is the
    prime n of SEC 2, so the points are the multiples of the base point by 0, ..., n - 1, each
    once.  With scalars from 1 to n - 1 (what [NonZeroScalar] of elliptic-curve holds) and points
    other than infinity (what [PublicKey] holds), the Diffie-Hellman primitive never fails, and
    its outputs collide for opposite scalars or opposite points and for no others. *)
From Coq Require Import List ZArith Lia Bool Arith Znumtheory.
From Verif.Base Require Import Res Oracles.
From Verif.Model Require Import Machine Crypto XWing DhKem.
From Verif.Proofs Require Import Primes CurvePrimes SEC1Proofs Sec1Order Sec1Sizes.
From Verif.Properties Require Import Kem KemCases Dh Sec1 DhMalleable.
From Verif.Spec Require Import SEC1 SEC1Orders.
Import ListNotations.
Open Scope Z_scope.

(** ** the orders of SEC 2 *)
Definition dhkem_orders : list (curve * Z) :=
  [(secp256k1, order_secp256k1); (P256, order_P256); (P384, order_P384); (P521, order_P521)].
Theorem C80_orders : map fst dhkem_orders = dhkem_curves /\
  forall C n, In (C, n) dhkem_orders -> order_ok C n /\ n <> 2.
Proof.
  split; [reflexivity|]. intros C n H. cbn [In dhkem_orders] in H.
  destruct H as [H|[H|[H|[H|[]]]]]; apply pair_equal_spec in H; destruct H as [<- <-]; split; try discriminate.
  - exact size_k256.
  - exact size_p256.
  - exact size_p384.
  - exact size_p521.
Qed.
Lemma orders_curves C n : In (C, n) dhkem_orders -> curve_ok C /\ on_curve C (G C) /\ order_ok C n /\ n <> 2.
Proof.
  intros H. destruct C80_orders as [M O]. destruct (O C n H) as [O1 O2].
  assert (I : In C dhkem_curves) by (rewrite <- M; apply (in_map fst) in H; exact H).
  destruct (C62_curves C I) as (K1 & K2 & _). tauto.
Qed.

Section Ordered.
  Variable C : curve.
  Variable n : Z.
  Hypothesis Hok : curve_ok C.
  Hypothesis HG : on_curve C (G C).
  Hypothesis Hn : order_ok C n.

  Lemma n_ge : 2 <= n.
  Proof. apply prime_ge_2, Hn. Qed.

  (** every point other than infinity has order n *)
  Lemma o_order P m : on_curve C P -> P <> Infinity -> 0 <= m -> multiple C (Z.to_nat m) P = Infinity <-> (n | m).
  Proof. destruct Hn as (H1 & _ & l & H2 & H3 & H4). apply (order_of_points C Hok n l); assumption. Qed.

  Lemma o_n P : on_curve C P -> multiple C (Z.to_nat n) P = Infinity.
  Proof.
    intros HP. assert (D : P = Infinity \/ P <> Infinity) by (destruct P; [left; reflexivity|right; discriminate]).
    destruct D as [-> |D]; [apply (o_infinity C)|]. apply o_order; [exact HP|exact D| |apply Z.divide_refl]. pose proof n_ge. lia.
  Qed.
  (** multiples by scalars below n are distinct *)
  Lemma o_lt P j k : on_curve C P -> P <> Infinity -> 0 <= j -> j < k < n ->
    multiple C (Z.to_nat j) P <> multiple C (Z.to_nat k) P.
  Proof.
    intros HP NP Hj Hk E. replace k with (j + (k - j)) in E by lia. rewrite Z2Nat.inj_add, (multiple_add C Hok) in E by (lia || exact HP).
    pose proof (multiple_on C Hok (Z.to_nat j) P HP) as M1. pose proof (multiple_on C Hok (Z.to_nat (k - j)) P HP) as M2.
    rewrite <- (add_Infinity_r C (multiple C (Z.to_nat j) P)) in E at 1.
    apply (o_cancel C Hok) in E; [|exact M1|exact I|exact M2]. symmetry in E.
    apply o_order in E; [|exact HP|exact NP|lia]. apply Z.divide_pos_le in E; lia.
  Qed.
  Lemma o_inj P j k : on_curve C P -> P <> Infinity -> 0 <= j < n -> 0 <= k < n ->
    multiple C (Z.to_nat j) P = multiple C (Z.to_nat k) P -> j = k.
  Proof.
    intros HP NP Hj Hk E. destruct (Z.lt_trichotomy j k) as [L|[L|L]]; [|exact L|]; exfalso.
    - apply (o_lt P j k HP NP); [lia|lia|exact E].
    - apply (o_lt P k j HP NP); [lia|lia|symmetry; exact E].
  Qed.
  (** and reach every point *)
  Lemma o_onto P Q : on_curve C P -> P <> Infinity -> on_curve C Q -> exists k, 0 <= k < n /\ multiple C (Z.to_nat k) P = Q.
  Proof.
    intros HP NP HQ. destruct Hn as (H1 & _ & l & H2 & H3 & H4). pose proof n_ge as N2.
    set (ks := map Z.of_nat (seq 0 (length l))).
    assert (KS : forall k, In k ks -> 0 <= k < n).
    { intros k Hk. apply in_map_iff in Hk. destruct Hk as (i & <- & Hi). apply in_seq in Hi. lia. }
    set (ms := map (fun k => multiple C (Z.to_nat k) P) ks).
    assert (ND : NoDup ms).
    { assert (NK : NoDup ks).
      { apply FinFun.Injective_map_NoDup; [intros x y E; lia|apply seq_NoDup]. }
      unfold ms. clear -NK KS Hok Hn HP NP. induction ks as [|k ks IH]; [constructor|]. inversion_clear NK as [|? ? K1 K2].
      cbn [map]. constructor; [|apply IH; [intros k' Hk'; apply KS; right; exact Hk'|exact K2]].
      intros E. apply in_map_iff in E. destruct E as (k' & E & Hk'). apply K1.
      apply o_inj in E; [subst k'; exact Hk'|exact HP|exact NP|apply KS; right; exact Hk'|apply KS; left; reflexivity]. }
    assert (SUB : incl ms l).
    { intros R HR. apply in_map_iff in HR. destruct HR as (k & <- & _). apply H3, (multiple_on C Hok), HP. }
    assert (LE : (length l <= length ms)%nat) by (unfold ms, ks; rewrite !map_length, seq_length; lia).
    pose proof (NoDup_length_incl ND LE SUB Q (proj2 (H3 Q) HQ)) as K. apply in_map_iff in K. destruct K as (k & E & Hk).
    exists k. split; [apply KS, Hk|exact E].
  Qed.
  Lemma o_affine P k : on_curve C P -> P <> Infinity -> scalar n k ->
    exists x y, multiple C (Z.to_nat k) P = Point x y /\ on_curve C (Point x y).
  Proof.
    intros HP NP Hk. unfold scalar in Hk. pose proof (multiple_on C Hok (Z.to_nat k) P HP) as M.
    destruct (multiple C (Z.to_nat k) P) as [|x y] eqn:E; [|exists x, y; split; [reflexivity|exact M]].
    exfalso. apply o_order in E; [|exact HP|exact NP|lia]. apply Z.divide_pos_le in E; lia.
  Qed.
  (** the opposite scalar *)
  Lemma o_opposite P k : on_curve C P -> 0 <= k <= n -> multiple C (Z.to_nat (n - k)) P = negate C (multiple C (Z.to_nat k) P).
  Proof.
    intros HP Hk. pose proof (multiple_on C Hok (Z.to_nat k) P HP) as M. pose proof (multiple_on C Hok (Z.to_nat (n - k)) P HP) as M'.
    apply (o_cancel C Hok (multiple C (Z.to_nat k) P)); [exact M|exact M'|apply (negate_on C Hok), M|].
    rewrite (add_negate C Hok) by exact M. rewrite <- (multiple_add C Hok) by exact HP. rewrite <- Z2Nat.inj_add by lia.
    replace (k + (n - k)) with n by lia. apply o_n, HP.
  Qed.
  (** equal x-coordinates of affine points *)
  Lemma same_octets P Q : on_curve C P -> on_curve C Q -> P <> Infinity -> Q <> Infinity ->
    field_octets C (x_coordinate P) = field_octets C (x_coordinate Q) <-> Q = P \/ Q = negate C P.
  Proof.
    intros HP HQ NP NQ. destruct P as [|x y]; [contradiction|]. destruct Q as [|x' y']; [contradiction|]. cbn [x_coordinate negate].
    assert (P2 : 1 < p C) by (pose proof (prime_ge_2 _ (proj1 Hok)); lia). split.
    - intros E. apply field_octets_inj in E; [|exact P2|apply HP|apply HQ]. subst x'.
      destruct (same_x C Hok x y y' HP HQ) as [-> | ->]; tauto.
    - intros [E|E]; injection E as -> _; reflexivity.
  Qed.
  Lemma dh_scalars P j k : on_curve C P -> P <> Infinity -> scalar n j -> scalar n k ->
    diffie_hellman C j P = diffie_hellman C k P <-> k = j \/ k = n - j.
  Proof.
    intros HP NP Hj Hk. unfold diffie_hellman. destruct (o_affine P j HP NP Hj) as (x & y & E & O).
    destruct (o_affine P k HP NP Hk) as (x' & y' & E' & O'). unfold scalar in *.
    rewrite same_octets by (rewrite ?E, ?E'; (assumption || discriminate)). rewrite <- o_opposite by (exact HP || lia). split.
    - intros [K|K]; apply o_inj in K; try assumption; lia.
    - intros [-> | ->]; tauto.
  Qed.
  Lemma dh_points P Q k : on_curve C P -> on_curve C Q -> P <> Infinity -> Q <> Infinity -> scalar n k ->
    diffie_hellman C k P = diffie_hellman C k Q <-> Q = P \/ Q = negate C P.
  Proof.
    intros HP HQ NP NQ Hk. unfold diffie_hellman. destruct (o_affine P k HP NP Hk) as (x & y & E & O).
    destruct (o_affine Q k HQ NQ Hk) as (x' & y' & E' & O').
    rewrite same_octets by (rewrite ?E, ?E'; (assumption || discriminate)). rewrite <- negate_multiple by assumption.
    assert (INJ : forall R, on_curve C R -> multiple C (Z.to_nat k) Q = multiple C (Z.to_nat k) R -> Q = R).
    { intros R HR EQ. unfold scalar in Hk. destruct (o_onto P Q HP NP HQ) as (i & Hi & <-). destruct (o_onto P R HP NP HR) as (j & Hj & <-).
      rewrite !(multiple_mul C Hok), <- !Z2Nat.inj_mul in EQ by (exact HP || lia). f_equal.
      assert (W : forall a b, 0 <= a < n -> 0 <= b < n -> a <= b ->
        multiple C (Z.to_nat (k * a)) P = multiple C (Z.to_nat (k * b)) P -> a = b).
      { intros a b Ha Hb L F. replace (k * b) with (k * a + k * (b - a)) in F by ring.
        rewrite Z2Nat.inj_add, (multiple_add C Hok) in F by (exact HP || nia).
        rewrite <- (add_Infinity_r C (multiple C (Z.to_nat (k * a)) P)) in F at 1.
        apply (o_cancel C Hok) in F; [|apply (multiple_on C Hok), HP|exact I|apply (multiple_on C Hok), HP]. symmetry in F.
        apply o_order in F; [|exact HP|exact NP|nia]. apply prime_mult in F; [|apply Hn].
        destruct F as [F|F]; [apply Z.divide_pos_le in F; lia|].
        destruct (Z.eq_dec a b) as [A|A]; [exact A|]. apply Z.divide_pos_le in F; lia. }
      assert (j = i); [|subst; reflexivity]. destruct (Z.le_ge_cases i j) as [L|L]; [symmetry|]; (apply W; [lia|lia|lia|congruence]). }
    split.
    - intros [K|K]; [left|right]; apply INJ; try assumption. apply (negate_on C Hok), HP.
    - intros [-> | ->]; tauto.
  Qed.
End Ordered.

(** ** the group: every point is k G for exactly one k below n *)
Theorem C80_points C n P : In (C, n) dhkem_orders -> on_curve C P ->
  (exists k, 0 <= k < n /\ multiple C (Z.to_nat k) (G C) = P /\
     forall j, 0 <= j < n -> multiple C (Z.to_nat j) (G C) = P -> j = k) /\
  (P <> Infinity -> forall m, 0 <= m -> multiple C (Z.to_nat m) P = Infinity <-> (n | m)).
Proof.
  intros H HP. destruct (orders_curves C n H) as (Hok & HG & Hn & _). split.
  - destruct (o_onto C n Hok Hn (G C) P HG ltac:(discriminate) HP) as (k & Hk & E). exists k. split; [exact Hk|]. split; [exact E|].
    intros j Hj Ej. apply (o_inj C n Hok Hn (G C)); try assumption; [discriminate|congruence].
  - intros NP m Hm. apply (o_order C n Hok Hn); assumption.
Qed.

(** ** the mechanisms: public keys and ciphertexts *)

(** The scalars of the key pairs and of the encapsulations range over 1, ..., n - 1: then keys and
    ciphertexts are points other than infinity, and the shared secret is the x-coordinate of
    such a point, so the primitive of SEC 1 has not failed. *)
Theorem C80_no_failure C n draw g s dk ek s1 g' s' pk ss s2 : In (C, n) dhkem_orders ->
  (forall g s, scalar n (fst (draw g s))) ->
  ecdh_random_keypair (sec1 C draw) g s = ((dk, ek), s1) ->
  ecdh_encapsulate (sec1 C draw) ek g' s' = ((pk, ss), s2) ->
  enc_into_inner ek <> Infinity /\ pk <> Infinity /\
  exists x y, on_curve C (Point x y) /\ multiple C (Z.to_nat (dec_into_inner dk)) pk = Point x y /\ ss = field_octets C x.
Proof.
  intros H HD E1 E2. destruct (orders_curves C n H) as (Hok & HG & Hn & _).
  unfold ecdh_random_keypair, ecdh_encapsulate in E1, E2. cbn [ec_random sec1] in E1, E2.
  pose proof (HD g s) as D1. pose proof (HD g' s') as D2.
  destruct (draw g s) as [i t]. destruct (draw g' s') as [j t']. cbn [fst] in D1, D2.
  apply keys_eq in E1. destruct E1 as [-> E1]. apply pair_pair in E2. destruct E2 as (E2 & E3 & _).
  unfold ecdh_public, ecdh_diffie_hellman in *. cbn [ec_mul ec_gen ec_x sec1] in *.
  destruct (o_affine C n Hok Hn (G C) i HG ltac:(discriminate) D1) as (x1 & y1 & A1 & O1).
  destruct (o_affine C n Hok Hn (G C) j HG ltac:(discriminate) D2) as (x2 & y2 & A2 & O2).
  rewrite <- E1 in *. rewrite <- E2. split; [rewrite A1; discriminate|]. split; [rewrite A2; discriminate|].
  destruct (o_affine C n Hok Hn (Point x2 y2) i O2 ltac:(discriminate) D1) as (x3 & y3 & A3 & O3).
  exists x3, y3. split; [exact O3|]. rewrite A2. split; [exact A3|]. rewrite <- E3. f_equal.
  change (dh_enc_0 ek) with (enc_into_inner ek). rewrite <- E1.
  rewrite (multiple_comm C Hok) by exact HG. rewrite A2, A3. reflexivity.
Qed.

(** every point other than infinity is the public key, and the ciphertext, of exactly one scalar *)
Theorem C80_public C n draw P : In (C, n) dhkem_orders -> on_curve C P -> P <> Infinity ->
  exists k, scalar n k /\ ecdh_public (sec1 C draw) k = P /\
    forall j, scalar n j -> ecdh_public (sec1 C draw) j = P -> j = k.
Proof.
  intros H HP NP. destruct (C80_points C n P H HP) as [(k & Hk & E & U) _]. exists k.
  assert (K : k <> 0) by (intros ->; cbn in E; congruence). split; [unfold scalar; lia|]. split; [exact E|].
  intros j Hj Ej. unfold scalar in Hj. apply U; [lia|exact Ej].
Qed.

(** ** the shared secrets of one public key: two scalars for each *)
Theorem C80_encapsulate C n draw P g s pk ss s1 g' s' pk' ss' s2 : In (C, n) dhkem_orders ->
  (forall g s, scalar n (fst (draw g s))) -> on_curve C P -> P <> Infinity ->
  ecdh_encapsulate (sec1 C draw) (enc_from P) g s = ((pk, ss), s1) ->
  ecdh_encapsulate (sec1 C draw) (enc_from P) g' s' = ((pk', ss'), s2) ->
  (pk' = pk <-> fst (draw g' s') = fst (draw g s)) /\
  (ss' = ss <-> fst (draw g' s') = fst (draw g s) \/ fst (draw g' s') = n - fst (draw g s)) /\
  (ss' = ss <-> pk' = pk \/ pk' = negate C pk).
Proof.
  intros H HD HP NP E1 E2. destruct (orders_curves C n H) as (Hok & HG & Hn & _).
  unfold ecdh_encapsulate in E1, E2. cbn [ec_random sec1] in E1, E2. pose proof (HD g s) as D1. pose proof (HD g' s') as D2.
  destruct (draw g s) as [i t]. destruct (draw g' s') as [j t']. cbn [fst] in *.
  apply pair_pair in E1. destruct E1 as (E1 & E3 & _). apply pair_pair in E2. destruct E2 as (E2 & E4 & _).
  unfold ecdh_public, ecdh_diffie_hellman in *. cbn [ec_mul ec_gen ec_x sec1 dh_enc_0 enc_from] in *. 
  assert (PK : forall a b, scalar n a -> 0 <= b < n ->
    multiple C (Z.to_nat a) (G C) = multiple C (Z.to_nat b) (G C) <-> a = b).
  { intros a b Ha Hb. unfold scalar in Ha. split; [|intros ->; reflexivity]. apply (o_inj C n Hok Hn); try assumption; [discriminate|lia]. }
  assert (K2 : ss' = ss <-> j = i \/ j = n - i).
  { pose proof (dh_scalars C n Hok Hn P i j HP NP D1 D2) as K. unfold diffie_hellman in K. rewrite E3, E4 in K.
    rewrite <- K. split; congruence. }
  unfold scalar in *. split; [rewrite <- E1, <- E2; apply PK; [exact D2|lia]|]. split; [exact K2|].
  rewrite K2, <- E1, <- E2, <- (o_opposite C n Hok Hn) by (exact HG || lia).
  rewrite !PK by (exact D2 || lia). tauto.
Qed.
(** so a shared secret either does not occur, or is that of two scalars, opposite and distinct *)
Theorem C80_two_scalars C n draw P ss : In (C, n) dhkem_orders -> on_curve C P -> P <> Infinity ->
  (forall k, scalar n k -> ecdh_diffie_hellman (sec1 C draw) k P <> ss) \/
  exists j, scalar n j /\ scalar n (n - j) /\ n - j <> j /\
    forall k, scalar n k -> ecdh_diffie_hellman (sec1 C draw) k P = ss <-> k = j \/ k = n - j.
Proof.
  intros H HP NP. destruct (orders_curves C n H) as (Hok & HG & Hn & N2).
  change (ecdh_diffie_hellman (sec1 C draw)) with (diffie_hellman C).
  assert (DEC : (exists j, scalar n j /\ diffie_hellman C j P = ss) \/ (forall k, scalar n k -> diffie_hellman C k P <> ss)).
  { assert (W : forall m, (exists j, 1 <= j <= Z.of_nat m /\ diffie_hellman C j P = ss) \/
      (forall k, 1 <= k <= Z.of_nat m -> diffie_hellman C k P <> ss)).
    { induction m as [|m [(j & Hj & E)|IH]]; [right; lia|left; exists j; split; [lia|exact E]|].
      destruct (list_eq_dec Z.eq_dec (diffie_hellman C (Z.of_nat (S m)) P) ss) as [E|E].
      - left. exists (Z.of_nat (S m)). split; [lia|exact E].
      - right. intros k Hk. destruct (Z.eq_dec k (Z.of_nat (S m))) as [-> |K]; [exact E|apply IH; lia]. }
    assert (ZN : Z.of_nat (Z.to_nat (n - 1)) = n - 1) by (apply Z2Nat.id; pose proof (n_ge C n Hn); lia).
    specialize (W (Z.to_nat (n - 1))). rewrite ZN in W. exact W. }
  destruct DEC as [(j & Hj & E)|D]; [right|left; exact D]. exists j. split; [exact Hj|].
  assert (Hj' : scalar n (n - j)) by (unfold scalar in *; lia). split; [exact Hj'|]. split.
  - intros K. assert (D : (2 | n)) by (exists j; lia). destruct Hn as (Hp & _).
    apply prime_divisors in D; [|exact Hp]. pose proof (prime_ge_2 _ Hp). lia.
  - intros k Hk. rewrite <- E. rewrite <- (dh_scalars C n Hok Hn P j k HP NP Hj Hk). split; congruence.
Qed.

(** ** one secret key: two ciphertexts for each shared secret *)
Theorem C80_decapsulate C n draw k P Q : In (C, n) dhkem_orders -> scalar n k ->
  on_curve C P -> P <> Infinity -> on_curve C Q -> Q <> Infinity ->
  ecdh_decapsulate (sec1 C draw) (dec_from k) Q = ecdh_decapsulate (sec1 C draw) (dec_from k) P <->
  Q = P \/ Q = negate C P.
Proof.
  intros H Hk HP NP HQ NQ. destruct (orders_curves C n H) as (Hok & HG & Hn & _).
  rewrite !C62_decapsulate. rewrite <- (dh_points C n Hok Hn P Q k HP HQ NP NQ Hk). split; congruence.
Qed.
(** one ciphertext: two secret keys that decapsulate it alike, with opposite public keys *)
Theorem C80_secret_keys C n draw j k P : In (C, n) dhkem_orders -> scalar n j -> scalar n k ->
  on_curve C P -> P <> Infinity ->
  ecdh_decapsulate (sec1 C draw) (dec_from k) P = ecdh_decapsulate (sec1 C draw) (dec_from j) P <->
  ecdh_public (sec1 C draw) k = ecdh_public (sec1 C draw) j \/
  ecdh_public (sec1 C draw) k = negate C (ecdh_public (sec1 C draw) j).
Proof.
  intros H Hj Hk HP NP. destruct (orders_curves C n H) as (Hok & HG & Hn & _). rewrite !C62_decapsulate.
  transitivity (k = j \/ k = n - j).
  - rewrite <- (dh_scalars C n Hok Hn P j k HP NP Hj Hk). split; congruence.
  - unfold ecdh_public. cbn [ec_mul ec_gen sec1]. unfold scalar in *. rewrite <- (o_opposite C n Hok Hn) by (exact HG || lia). split.
    + intros [-> | ->]; tauto.
    + intros [E|E]; apply (o_inj C n Hok Hn) in E; try assumption; try discriminate; lia.
Qed.

(** ** Concrete cases *)

(** the curve of C62's cases has 19 points, and satisfies [order_ok] too *)
Lemma toy_no_root x : (x ^ 3 + a toy_sec1 * x + b toy_sec1) mod p toy_sec1 <> 0.
Proof.
  cbn [a b p toy_sec1]. intros E. pose proof (Z.mod_pos_bound x 17 eq_refl) as B. pose proof (Z.div_mod x 17 ltac:(discriminate)) as D.
  set (y := x mod 17) in *. set (q := x / 17) in *. rewrite D in E.
  replace ((17 * q + y) ^ 3 + 2 * (17 * q + y) + 2) with
    (y ^ 3 + 2 * y + 2 + (289 * q ^ 3 + 51 * q ^ 2 * y + 3 * q * y ^ 2 + 2 * q) * 17) in E by ring.
  rewrite Z.mod_add in E by discriminate. revert E.
  assert (K : forallb (fun y => negb ((y ^ 3 + 2 * y + 2) mod 17 =? 0)) (map Z.of_nat (seq 0 17)) = true) by (vm_compute; reflexivity).
  rewrite forallb_forall in K. specialize (K y).
  assert (I : In y (map Z.of_nat (seq 0 17))) by (apply in_map_iff; exists (Z.to_nat y); split; [lia|apply in_seq; lia]).
  specialize (K I). apply negb_true_iff, Z.eqb_neq in K. exact K.
Qed.
Theorem C80_orders_case : order_ok toy_sec1 19 /\ ~ order_ok toy_sec1 17 /\
  (forall C, In C dhkem_curves -> exists n, In (C, n) dhkem_orders /\ scalar n 1 /\ scalar n 2 /\ scalar n (n - 1)).
Proof.
  assert (O : order_ok toy_sec1 19).
  { apply (size_of toy_sec1 19 toy_sec1_ok); [apply on_curveb_true; vm_compute; reflexivity| |reflexivity|vm_compute; reflexivity|exact toy_no_root].
    apply (trial_division 19 4); vm_compute; reflexivity. }
  split; [exact O|]. split.
  - intros (_ & E & _). vm_compute in E. discriminate.
  - unfold scalar. intros C [<-|[<-|[<-|[<-|[]]]]]; eexists; (split; [unfold dhkem_orders; cbn [In]|]).
    1: left; reflexivity. 2: right; left; reflexivity. 3: right; right; left; reflexivity. 4: right; right; right; left; reflexivity.
    all: split; [split; discriminate|]; split; split; discriminate.
Qed.
(** the hypotheses on scalars and points are needed: the base point by 0 and by n, and infinity *)
Theorem C80_needed C n : In (C, n) dhkem_orders ->
  diffie_hellman C 0 (G C) = field_octets C 0 /\
  diffie_hellman C n (G C) = field_octets C 0 /\
  (forall k, diffie_hellman C k Infinity = field_octets C 0) /\
  diffie_hellman C (n + 1) (G C) = diffie_hellman C 1 (G C) /\
  diffie_hellman C (n - 1) (G C) = diffie_hellman C 1 (G C).
Proof.
  intros H. destruct (orders_curves C n H) as (Hok & HG & Hn & _). pose proof (n_ge C n Hn) as N. unfold diffie_hellman.
  split; [reflexivity|]. split; [rewrite (o_n C n Hok Hn) by exact HG; reflexivity|].
  split; [intros k; rewrite (o_infinity C); reflexivity|]. split.
  - rewrite Z2Nat.inj_add, (multiple_add C Hok), (o_n C n Hok Hn) by (exact HG || lia). reflexivity.
  - rewrite (o_opposite C n Hok Hn) by (exact HG || lia). change (Z.to_nat 1) with 1%nat. reflexivity.
Qed.
(** an encapsulation to the point 2 G by the scalar 1, and by n - 1: two ciphertexts, one secret *)
Definition fixed_draw (k : Z) (g : rng) (s : rng_state g) : Z * rng_state g := (k, s).
Theorem C80_encapsulate_case C n : In (C, n) dhkem_orders ->
  let P := multiple C 2 (G C) in
  let enc k := fst (ecdh_encapsulate (sec1 C (fixed_draw k)) (enc_from P) (byte_rng 7) 0%nat) in
  on_curve C P /\ P <> Infinity /\
  fst (enc 1) = G C /\ fst (enc (n - 1)) = negate C (G C) /\ negate C (G C) <> G C /\ snd (enc (n - 1)) = snd (enc 1) /\
  snd (enc 1) = field_octets C (x_coordinate P).
Proof.
  intros H. destruct (orders_curves C n H) as (Hok & HG & Hn & N2). pose proof (n_ge C n Hn) as N. cbv zeta.
  set (P := multiple C 2 (G C)). assert (HP : on_curve C P) by (apply (multiple_on C Hok), HG).
  assert (NP : P <> Infinity).
  { destruct (o_affine C n Hok Hn (G C) 2 HG ltac:(discriminate)) as (x & y & E & _); [unfold scalar; lia|].
    change (Z.to_nat 2) with 2%nat in E. fold P in E. rewrite E. discriminate. }
  split; [exact HP|]. split; [exact NP|].
  unfold ecdh_encapsulate, ecdh_public, ecdh_diffie_hellman. cbn [ec_random ec_mul ec_gen ec_x sec1 fixed_draw fst snd dh_enc_0 enc_from].
  rewrite !(o_opposite C n Hok Hn) by (assumption || lia). change (Z.to_nat 1) with 1%nat.
  cbn [multiple]. rewrite !(add_Infinity_r C).
  split; [reflexivity|]. split; [reflexivity|]. split.
  - intros E. assert (K : add C (G C) (G C) = Infinity) by (rewrite <- E at 2; apply (add_negate C Hok), HG).
    apply NP. unfold P. cbn [multiple]. rewrite (add_Infinity_r C). exact K.
  - split; [|reflexivity]. destruct P; reflexivity.
Qed.

(** C84: failing random number generators.  Key generation and encapsulation panic exactly when
    FIPS 203 returns the failure symbol; nothing else comes out, the generator is not used
    again, and no byte of a key or ciphertext comes from memory that the generator did not
    write, except zeros. *)
From Coq Require Import List ZArith Lia Bool.
From Verif.Base Require Import Res Oracles.
From Verif.Spec Require Import FIPS203 XWing Randomness.
From Verif.Model Require Import Machine Util Algebra Compress Encode Crypto Sample Param Pke Kem XWing DhKem Fallible.
From Verif.Proofs Require Import Basics EncodeProofs PkeProofs KemProofs XWingProofs.
From Verif.Tests Require Import Toy.
From Verif.Properties Require Import Kem KemCases XWing.
Import ListNotations.
Open Scope Z_scope.

(** the outcome of the code that corresponds to an outcome of the specification *)
Definition as_res {A} (o : outcome A) : res A :=
  match o with
  | Returns a => Ok a
  | Bottom => Panic
  | Runs_on => NoFuel
  end.

(** what a generator answers to a request for 32 bytes, in a zeroed buffer *)
Definition draw (g : mp_rng) (s : mp_state g) : option (list Z) * mp_state g := mp_fill g s (repeat 0 32).

Lemma zeros_bytes : byte_string 32 (repeat 0 32).
Proof. split; [reflexivity|]. repeat constructor; lia. Qed.
Lemma draw_bytes g s b s' : mp_ok g -> draw g s = (Some b, s') -> byte_string 32 b.
Proof. intros Hg E. exact (Hg s 32%nat _ b s' zeros_bytes E). Qed.

(** the result without the state, and with something done to it *)
Definition result {A B S} (f : A -> res B) (o : res A * S) : res B := let* a := fst o in f a.

Section MlKem.
  Variable hs : hashes.
  Hypothesis Hhs : hash_ok hs.
  Variable P : params.
  Hypothesis HP : wf_params P.
  Variable g : mp_rng.
  Hypothesis Hg : mp_ok g.

  (** ML-KEM.KeyGen, Algorithm 19 *)
  Theorem C84_generate n s :
    let '(d, s1) := draw g s in
    let '(z, s2) := draw g s1 in
    result (fun '(dk, ek) => let* dkb := decaps_key_as_bytes P dk in let* ekb := encaps_key_as_bytes P ek in Ok (ekb, dkb))
      (f_kem_generate g hs P n s) = as_res (ML_KEM_KeyGen hs P n d z) /\
    snd (f_kem_generate g hs P n s) = match d with Some _ => s2 | None => s1 end.
  Proof.
    unfold result, f_kem_generate, f_decaps_key_generate, f_rand, fill, op_bind, op_pure. fold (draw g s).
    destruct (draw g s) as [[d|] s1] eqn:E1; fold (draw g s1); destruct (draw g s1) as [[z|] s2] eqn:E2; cbn [fst snd bind];
      try (split; reflexivity).
    pose proof (draw_bytes g s d s1 Hg E1) as Hd. pose proof (draw_bytes g s1 z s2 Hg E2) as Hz.
    pose proof (C01_keygen hs Hhs P HP n d z Hd Hz) as W. unfold kem_generate_deterministic in W. cbn [ML_KEM_KeyGen].
    destruct (decaps_key_generate_deterministic hs P n d z) as [dk| | |]; cbn [fst snd bind] in W |- *;
      (split; [|reflexivity]); rewrite W; destruct (KeyGen_internal hs P n d z); reflexivity.
  Qed.

  (** ML-KEM.Encaps, Algorithm 20 *)
  Theorem C84_encapsulate n ek s : honest_ek hs P ek ->
    exists ekb, encaps_key_as_bytes P ek = Ok ekb /\
    let '(m, s1) := draw g s in
    result (fun '(c, K) => Ok (K, c)) (f_encapsulate g hs P n ek s) = as_res (ML_KEM_Encaps hs P n ekb m) /\
    snd (f_encapsulate g hs P n ek s) = s1.
  Proof.
    intros Hek. destruct (C02_encaps hs Hhs P HP n ek (repeat 0 32) Hek zeros_bytes) as (ekb & Eb & _).
    exists ekb. split; [exact Eb|].
    unfold result, f_encapsulate, f_rand, fill, op_bind, op_pure. fold (draw g s).
    destruct (draw g s) as [[m|] s1] eqn:E1; cbn [fst snd bind]; [|split; reflexivity].
    split; [|reflexivity].
    destruct (C02_encaps hs Hhs P HP n ek m Hek (draw_bytes g s m s1 Hg E1)) as (ekb' & Eb' & W).
    rewrite Eb in Eb'. apply Ok_inj in Eb'. subst ekb'. unfold encapsulate_deterministic in W. rewrite W.
    cbn [ML_KEM_Encaps]. destruct (Encaps_internal hs P n ekb m) as [[K c]|]; reflexivity.
  Qed.
End MlKem.

(** two given answers *)
Definition two_draws (m e : list Z) : rng := {|
  rng_state := bool;
  fill_bytes := fun s n => (if Nat.eqb n 32 then if s then e else m else repeat 0 n, true)
|}.
Lemma two_draws_ok m e : byte_string 32 m -> byte_string 32 e -> rng_ok (two_draws m e).
Proof.
  intros Hm He s n. cbn [two_draws fill_bytes fst]. destruct (Nat.eqb_spec n 32) as [->|_]; [destruct s; assumption|].
  split; [apply repeat_length|]. apply Forall_forall. intros x Hx. apply repeat_spec in Hx. subst x. split; [apply Z.le_refl|reflexivity].
Qed.

Lemma copy_into_fuel {A} (l : list A) a b src : copy_into l a b src <> NoFuel.
Proof.
  unfold copy_into, slice, copy_from_slice. destruct (_ && _)%bool; cbn [bind]; [|discriminate].
  destruct (Nat.eqb _ _); cbn [bind]; discriminate.
Qed.
Lemma ct_as_bytes_fuel ct : xw_ct_as_bytes ct <> NoFuel.
Proof.
  unfold xw_ct_as_bytes. cbv zeta. pose proof (copy_into_fuel (repeat 0 CIPHERTEXT_SIZE) 0 1088 (ct_m ct)) as N.
  destruct (copy_into (repeat 0 CIPHERTEXT_SIZE) 0 1088 (ct_m ct)); cbn [bind]; try discriminate; [apply copy_into_fuel|contradiction].
Qed.

Section XW.
  Variable hs : hashes.
  Hypothesis Hhs : hash_ok hs.
  Variable X : x25519_impl.
  Hypothesis HX : x25519_ok X.
  Variable g : mp_rng.
  Hypothesis Hg : mp_ok g.

  Theorem C84_xwing_generate n s :
    let '(sk, s1) := draw g s in
    result (fun '(dk, ek) => let* pkb := xw_ek_as_bytes ek in Ok (xw_dk_as_bytes dk, pkb)) (f_generate_key_pair g hs X n s) =
      as_res (XW_GenerateKeyPair hs (x25519 X) n sk) /\
    snd (f_generate_key_pair g hs X n s) = s1.
  Proof.
    unfold result, f_generate_key_pair, f_xw_dk_generate, f_xw_generate, fill, op_bind, op_pure. fold (draw g s).
    destruct (draw g s) as [[sk|] s1] eqn:E1; cbn [fst snd bind]; [|split; reflexivity].
    pose proof (C33_encapsulation_key hs Hhs X HX n sk (draw_bytes g s sk s1 Hg E1)) as W. unfold xw_dk_from in W.
    cbn [XW_GenerateKeyPair].
    destruct (xw_encapsulation_key hs X n {| xw_sk := sk |}) as [ek| | |]; cbn [fst snd bind] in W |- *; (split; [|reflexivity]).
    - rewrite W. destruct (XW_public hs (x25519 X) n sk); reflexivity.
    - destruct (XW_public hs (x25519 X) n sk); discriminate W.
    - destruct (XW_public hs (x25519 X) n sk); discriminate W.
    - destruct (XW_public hs (x25519 X) n sk); [discriminate W|reflexivity].
  Qed.

  (** If the second draw fails, ML-KEM's ciphertext and secret are lost. *)
  Theorem C84_xwing_encapsulate n ek pkb s : reachable_xek hs X ek -> xw_ek_as_bytes ek = Ok pkb ->
    let '(m, s1) := draw g s in
    let '(e, s2) := draw g s1 in
    let spec := XW_Encapsulate hs (x25519 X) n pkb m e in
    result (fun '(ct, ss) => let* ctb := xw_ct_as_bytes ct in Ok (ss, ctb)) (f_xw_encapsulate g hs X n ek s) = as_res spec /\
    (spec <> Runs_on -> snd (f_xw_encapsulate g hs X n ek s) = match m with Some _ => s2 | None => s1 end).
  Proof.
    intros Hek Eb. unfold result, f_xw_encapsulate, f_encapsulate, f_xw_generate, f_rand, fill, op_bind, op_pure. fold (draw g s).
    destruct (draw g s) as [[m|] s1] eqn:E1; fold (draw g s1); destruct (draw g s1) as [e s2] eqn:E2; cbv zeta; cbn [fst snd bind];
      [|split; [reflexivity|intros _; reflexivity]].
    pose proof (draw_bytes g s m s1 Hg E1) as Hm.
    assert (W : forall e, byte_string 32 e ->
      (let* '(c, K) := encapsulate_deterministic_inner hs MlKem768Params n (pk_m ek) m in
       let ct_x := x25519 X e X25519_BASEPOINT_BYTES in
       let* ctb := xw_ct_as_bytes {| ct_m := c; ct_x := ct_x |} in
       Ok (combiner hs K (x25519 X e (pk_x ek)) ct_x (pk_x ek), ctb)) = lift (XW_Encaps hs (x25519 X) n pkb (m ++ e))).
    { intros e0 He. pose proof (C34_encapsulate hs Hhs X HX n ek pkb (two_draws m e0) false Hek (two_draws_ok m e0 Hm He) Eb) as W.
      cbn [two_draws fill_bytes fst snd] in W. cbv iota beta in W.
      unfold xw_encapsulate, encapsulate, rand, xw_generate in W. cbn [two_draws fill_bytes] in W. cbv iota beta in W.
      change (Nat.eqb 32 32) with true in W. cbv iota in W.
      destruct (encapsulate_deterministic_inner hs MlKem768Params n (pk_m ek) m) as [[c K]| | |]; cbn [bind] in W |- *.
      - destruct (xw_ct_as_bytes _) as [ctb| | |]; cbn [bind] in W |- *;
          destruct (XW_Encaps hs (x25519 X) n pkb (m ++ e0)) as [[ss ct]|]; cbn [lift bind] in W |- *; try discriminate W; [|reflexivity].
        apply Ok_inj in W. inversion W. reflexivity.
      - destruct (XW_Encaps hs (x25519 X) n pkb (m ++ e0)) as [[ss ct]|]; discriminate W.
      - destruct (XW_Encaps hs (x25519 X) n pkb (m ++ e0)) as [[ss ct]|]; discriminate W.
      - destruct (XW_Encaps hs (x25519 X) n pkb (m ++ e0)) as [[ss ct]|]; [discriminate W|reflexivity]. }
    assert (XE : forall e0, XW_Encaps hs (x25519 X) n pkb (m ++ e0) = None <-> Encaps_internal hs ML_KEM_768 n (firstn 1184 pkb) m = None).
    { intros e0. unfold XW_Encaps. change (bytes32 0 (m ++ e0)) with (firstn 32 (m ++ e0)).
      assert (EF : firstn 32 (m ++ e0) = m) by (rewrite <- (proj1 Hm) at 1; apply firstn_app_exact; reflexivity).
      rewrite EF. destruct (Encaps_internal hs ML_KEM_768 n (firstn 1184 pkb) m) as [[? ?]|]; split; intros; congruence. }
    destruct e as [e|].
    - pose proof (draw_bytes g s1 e s2 Hg E2) as He. pose proof (W e He) as We. cbn [XW_Encapsulate].
      destruct (encapsulate_deterministic_inner hs MlKem768Params n (pk_m ek) m) as [[c K]| | |]; cbn [fst snd bind] in We |- *.
      + unfold draw in E2. rewrite E2. cbn [fst snd bind]. split; [|intros _; reflexivity]. cbv zeta in We. rewrite We.
        destruct (XW_Encaps hs (x25519 X) n pkb (m ++ e)); reflexivity.
      + destruct (XW_Encaps hs (x25519 X) n pkb (m ++ e)); discriminate We.
      + destruct (XW_Encaps hs (x25519 X) n pkb (m ++ e)); discriminate We.
      + destruct (XW_Encaps hs (x25519 X) n pkb (m ++ e)); [discriminate We|]. split; [reflexivity|]. intros Q. exfalso. apply Q. reflexivity.
    - pose proof (W _ zeros_bytes) as W0. pose proof (XE (repeat 0 32)) as XE0. cbn [XW_Encapsulate].
      destruct (encapsulate_deterministic_inner hs MlKem768Params n (pk_m ek) m) as [[c K]| | |]; cbn [fst snd bind] in W0 |- *.
      + unfold draw in E2. rewrite E2. cbn [fst snd bind]. split; [|intros _; reflexivity].
        destruct (Encaps_internal hs ML_KEM_768 n (firstn 1184 pkb) m); [reflexivity|]. exfalso.
        rewrite (proj2 XE0 eq_refl) in W0. cbv zeta in W0. cbn [lift] in W0.
        match type of W0 with context [xw_ct_as_bytes ?ct] => pose proof (ct_as_bytes_fuel ct); destruct (xw_ct_as_bytes ct); try discriminate W0 end. congruence.
      + destruct (XW_Encaps hs (x25519 X) n pkb (m ++ repeat 0 32)); discriminate W0.
      + destruct (XW_Encaps hs (x25519 X) n pkb (m ++ repeat 0 32)); discriminate W0.
      + destruct (XW_Encaps hs (x25519 X) n pkb (m ++ repeat 0 32)); [discriminate W0|]. rewrite (proj1 XE0 eq_refl).
        split; [reflexivity|]. intros Q. exfalso. apply Q. reflexivity.
  Qed.
End XW.

(** ** dhkem *)

Theorem C84_x25519_encapsulate X g ek s : mp_ok g -> x25519_ok X ->
  let '(sk, s1) := draw g s in
  f_x25519_encapsulate g X ek s =
  (match sk with Some sk => Ok (x25519 X sk X25519_BASE, x25519 X sk (enc_into_inner ek)) | None => Panic end, s1).
Proof.
  intros Hg [_ HX]. unfold f_x25519_encapsulate, f_reusable_random, fill, op_bind, op_pure. fold (draw g s).
  destruct (draw g s) as [[sk|] s1] eqn:E; [|reflexivity]. rewrite HX by exact (draw_bytes g s sk s1 Hg E). reflexivity.
Qed.
Theorem C84_x25519_keypair X g s : mp_ok g -> x25519_ok X ->
  let '(sk, s1) := draw g s in
  f_x25519_random_keypair g X s =
  (match sk with Some sk => Ok (MkDhDecapsulator sk, MkDhEncapsulator (x25519 X sk X25519_BASE)) | None => Panic end, s1).
Proof.
  intros Hg [_ HX]. unfold f_x25519_random_keypair, f_reusable_random, fill, op_bind, op_pure. fold (draw g s).
  destruct (draw g s) as [[sk|] s1] eqn:E; [|reflexivity]. rewrite HX by exact (draw_bytes g s sk s1 Hg E). reflexivity.
Qed.
(** The curves: whatever [EphemeralSecret::random] does. *)
Theorem C84_ecdh C g (random : op g (ec_scalar C)) ek s :
  match random s with
  | (Ok sk, s1) =>
      f_ecdh_encapsulate g C random ek s = (Ok (ec_mul C sk (ec_gen C), ec_x C (ec_mul C sk (enc_into_inner ek))), s1) /\
      f_ecdh_random_keypair g C random s = (Ok (MkDhDecapsulator sk, MkDhEncapsulator (ec_mul C sk (ec_gen C))), s1)
  | (Panic, s1) => f_ecdh_encapsulate g C random ek s = (Panic, s1) /\ f_ecdh_random_keypair g C random s = (Panic, s1)
  | _ => True
  end.
Proof.
  unfold f_ecdh_encapsulate, f_ecdh_random_keypair, op_bind, op_pure.
  destruct (random s) as [[sk| | |] s1]; try exact I; split; reflexivity.
Qed.

(** ** The buffers *)

(** a generator that also records the buffers it is given *)
Definition watched (g : mp_rng) : mp_rng := {|
  mp_state := mp_state g * list (list Z);
  mp_fill := fun s buf => let '(b, s') := mp_fill g (fst s) buf in (b, (s', snd s ++ [buf]))
|}.

(** Every buffer is of 32 bytes and zeroed, and there are at most as many as the operation
    draws: what the generator does not write is zero, not old memory. *)
Theorem C84_buffers g s l :
  let z := repeat 0 32 in
  (forall hs P n, exists i, (i <= 2)%nat /\ snd (snd (f_kem_generate (watched g) hs P n (s, l))) = l ++ repeat z i) /\
  (forall hs P n ek, snd (snd (f_encapsulate (watched g) hs P n ek (s, l))) = l ++ [z]) /\
  (forall hs X n, snd (snd (f_generate_key_pair (watched g) hs X n (s, l))) = l ++ [z]) /\
  (forall hs X n ek, exists i, (i <= 2)%nat /\ snd (snd (f_xw_encapsulate (watched g) hs X n ek (s, l))) = l ++ repeat z i) /\
  (forall X ek, snd (snd (f_x25519_encapsulate (watched g) X ek (s, l))) = l ++ [z]) /\
  (forall X, snd (snd (f_x25519_random_keypair (watched g) X (s, l))) = l ++ [z]).
Proof.
  cbv zeta. set (z := repeat 0 32).
  assert (A2 : (l ++ [z]) ++ [z] = l ++ repeat z 2) by (rewrite <- app_assoc; reflexivity).
  split; [intros hs P n|split; [intros hs P n ek|split; [intros hs X n|split; [intros hs X n ek|split; [intros X ek|intros X]]]]].
  - unfold f_kem_generate, f_decaps_key_generate, f_rand, fill, op_bind, op_pure. cbv zeta. fold z. cbn [watched mp_fill fst snd].
    destruct (mp_fill g s z) as [[d|] s1]; [|exists 1%nat; split; [lia|reflexivity]]. cbn [fst snd].
    destruct (mp_fill g s1 z) as [[z0|] s2]; [|exists 2%nat; split; [lia|exact A2]].
    exists 2%nat. split; [lia|]. destruct (decaps_key_generate_deterministic hs P n d z0); exact A2.
  - unfold f_encapsulate, f_rand, fill, op_bind, op_pure. cbv zeta. fold z. cbn [watched mp_fill fst snd].
    destruct (mp_fill g s z) as [[m|] s1]; reflexivity.
  - unfold f_generate_key_pair, f_xw_dk_generate, f_xw_generate, fill, op_bind, op_pure. cbv zeta. fold z. cbn [watched mp_fill fst snd].
    destruct (mp_fill g s z) as [[m|] s1]; [|reflexivity]. destruct (xw_encapsulation_key _ _ _ _); reflexivity.
  - unfold f_xw_encapsulate, f_encapsulate, f_rand, f_xw_generate, fill, op_bind, op_pure. cbv zeta. fold z. cbn [watched mp_fill fst snd].
    destruct (mp_fill g s z) as [[m|] s1]; [|exists 1%nat; split; [lia|reflexivity]].
    destruct (encapsulate_deterministic_inner _ _ _ _ _) as [[c K]| | |]; try (exists 1%nat; split; [lia|reflexivity]). cbn [fst snd].
    destruct (mp_fill g s1 z) as [[e|] s2]; exists 2%nat; (split; [lia|exact A2]).
  - unfold f_x25519_encapsulate, f_reusable_random, fill, op_bind, op_pure. fold z. cbn [watched mp_fill fst snd].
    destruct (mp_fill g s z) as [[m|] s1]; reflexivity.
  - unfold f_x25519_random_keypair, f_reusable_random, fill, op_bind, op_pure. fold z. cbn [watched mp_fill fst snd].
    destruct (mp_fill g s z) as [[m|] s1]; reflexivity.
Qed.

(** ** Generators that do not fail *)

(** the generators of the other properties *)
Definition never_panics (g : rng) : mp_rng := {|
  mp_state := rng_state g;
  mp_fill := fun s buf => let '(b, s') := fill_bytes g s (length buf) in (Some b, s')
|}.
(** the result of an operation of the other models, with the state beside it *)
Definition beside {A S} (o : res (A * S)) (r : res A) (s : S) : Prop := o = (let* a := r in Ok (a, s)).

(** The models of this file and those of the other properties agree. *)
Theorem C84_agree g s : let f := never_panics g in
  (forall hs P n, let '(r, s') := f_kem_generate f hs P n s in beside (kem_generate hs P n g s) r s') /\
  (forall hs P n ek, let '(r, s') := f_encapsulate f hs P n ek s in beside (encapsulate hs P n ek g s) r s') /\
  (forall hs X n, let '(r, s') := f_generate_key_pair f hs X n s in beside (generate_key_pair hs X n g s) r s') /\
  (forall hs X n ek, let '(r, s') := f_xw_encapsulate f hs X n ek s in beside (xw_encapsulate hs X n ek g s) r s') /\
  (forall X ek, f_x25519_encapsulate f X ek s = let '(a, s') := x25519_encapsulate X ek g s in (Ok a, s')) /\
  (forall X, f_x25519_random_keypair f X s = let '(a, s') := x25519_random_keypair X g s in (Ok a, s')).
Proof.
  cbv zeta. split; [intros hs P n|split; [intros hs P n ek|split; [intros hs X n|split; [intros hs X n ek|split; [intros X ek|intros X]]]]].
  - unfold f_kem_generate, f_decaps_key_generate, f_rand, fill, op_bind, op_pure, kem_generate, decaps_key_generate, rand, beside.
    cbn [never_panics mp_fill]. rewrite repeat_length. destruct (fill_bytes g s 32) as [d s1]. rewrite ?repeat_length.
    destruct (fill_bytes g s1 32) as [z s2]. destruct (decaps_key_generate_deterministic hs P n d z); reflexivity.
  - unfold f_encapsulate, f_rand, fill, op_bind, op_pure, encapsulate, rand, beside.
    cbn [never_panics mp_fill]. rewrite repeat_length. destruct (fill_bytes g s 32) as [m s1].
    destruct (encapsulate_deterministic_inner hs P n ek m) as [[c K]| | |]; reflexivity.
  - unfold f_generate_key_pair, f_xw_dk_generate, f_xw_generate, fill, op_bind, op_pure, generate_key_pair, xw_dk_generate, xw_generate, beside.
    cbn [never_panics mp_fill]. rewrite repeat_length. destruct (fill_bytes g s 32) as [m s1].
    destruct (xw_encapsulation_key _ _ _ _); reflexivity.
  - unfold f_xw_encapsulate, f_encapsulate, f_rand, f_xw_generate, fill, op_bind, op_pure, xw_encapsulate, encapsulate, rand, xw_generate, beside.
    cbn [never_panics mp_fill]. rewrite repeat_length. destruct (fill_bytes g s 32) as [m s1].
    destruct (encapsulate_deterministic_inner _ _ _ _ _) as [[c K]| | |]; try reflexivity. cbn [bind]. rewrite ?repeat_length.
    destruct (fill_bytes g s1 32) as [e s2]. reflexivity.
  - unfold f_x25519_encapsulate, f_reusable_random, fill, op_bind, op_pure, x25519_encapsulate, reusable_random.
    cbn [never_panics mp_fill]. rewrite repeat_length. destruct (fill_bytes g s 32) as [m s1]. reflexivity.
  - unfold f_x25519_random_keypair, f_reusable_random, fill, op_bind, op_pure, x25519_random_keypair, reusable_random.
    cbn [never_panics mp_fill]. rewrite repeat_length. destruct (fill_bytes g s 32) as [m s1]. reflexivity.
Qed.

(** ** cases *)

(** A generator that gives the answers of a list and then panics. *)
Definition is_byteb (x : Z) : bool := (0 <=? x) && (x <? 256).
Definition script : mp_rng := {|
  mp_state := list (list Z);
  mp_fill := fun s buf =>
    match s with
    | b :: s' => (if Nat.eqb (length b) (length buf) && forallb is_byteb b then Some b else None, s')
    | [] => (None, [])
    end
|}.
Lemma script_ok : mp_ok script.
Proof.
  intros s n buf b s' Hb. destruct s as [|a s]; cbn [script mp_fill]; [discriminate|].
  destruct (Nat.eqb (length a) (length buf)) eqn:E1; cbn [andb]; [|discriminate].
  destruct (forallb is_byteb a) eqn:E2; [|discriminate]. intros E. inversion E. subst.
  apply Nat.eqb_eq in E1. split; [rewrite E1; apply Hb|]. apply Forall_forall. intros x Hx.
  rewrite forallb_forall in E2. specialize (E2 x Hx). unfold is_byteb in E2. apply andb_true_iff in E2. destruct E2 as [L U].
  apply Z.leb_le in L. apply Z.ltb_lt in U. split; assumption.
Qed.
Lemma script_draw b s : byte_string 32 b -> draw script (b :: s) = (Some b, s).
Proof.
  intros [L B]. unfold draw. cbn [script mp_fill]. rewrite L. cbn [repeat length Nat.eqb andb].
  replace (forallb is_byteb b) with true; [reflexivity|]. symmetry. apply forallb_forall. intros x Hx.
  unfold bytes in B. rewrite Forall_forall in B. destruct (B x Hx) as [L0 U0]. unfold is_byteb.
  apply andb_true_iff. split; [apply Z.leb_le|apply Z.ltb_lt]; assumption.
Qed.

Lemma generate_draws g hs P n s : f_kem_generate g hs P n s =
  match draw g s with
  | (None, s1) => (Panic, s1)
  | (Some d, s1) => match draw g s1 with (None, s2) => (Panic, s2) | (Some z, s2) => (kem_generate_deterministic hs P n d z, s2) end
  end.
Proof.
  unfold f_kem_generate, f_decaps_key_generate, f_rand, fill, op_bind, op_pure, kem_generate_deterministic. fold (draw g s).
  destruct (draw g s) as [[d|] s1]; [|reflexivity]. fold (draw g s1). destruct (draw g s1) as [[z|] s2]; [|reflexivity].
  destruct (decaps_key_generate_deterministic hs P n d z); reflexivity.
Qed.
Lemma encapsulate_draws g hs P n ek s : f_encapsulate g hs P n ek s =
  match draw g s with (None, s1) => (Panic, s1) | (Some m, s1) => (encapsulate_deterministic hs P n ek m, s1) end.
Proof. unfold f_encapsulate, f_rand, fill, op_bind, op_pure. fold (draw g s). destruct (draw g s) as [[m|] s1]; reflexivity. Qed.

(** A key pair and an encapsulation, with enough answers; panics, with too few. *)
Example C84_case : exists dk ek c K,
  mp_ok script /\ hash_ok toy /\ wf_params ML_KEM_512 /\ honest_ek toy ML_KEM_512 ek /\
  f_kem_generate script toy ML_KEM_512 300 [seed 1; seed 2] = (Ok (dk, ek), []) /\
  f_encapsulate script toy ML_KEM_512 300 ek [seed 3] = (Ok (c, K), []) /\
  f_kem_generate script toy ML_KEM_512 300 [seed 1] = (Panic, []) /\
  f_kem_generate script toy ML_KEM_512 300 [] = (Panic, []) /\
  f_encapsulate script toy ML_KEM_512 300 ek [] = (Panic, []).
Proof.
  destruct kem_case as (dk & ek & c & K & K2 & H1 & H2 & E1 & _ & Hek & E2 & _). exists dk, ek, c, K.
  split; [exact script_ok|]. split; [exact H1|]. split; [exact H2|]. split; [exact Hek|].
  assert (D0 : draw script [] = (None, [])) by reflexivity.
  split; [rewrite generate_draws, (script_draw (seed 1) [seed 2] (seed_ok 1)), (script_draw (seed 2) [] (seed_ok 2)), E1; reflexivity|].
  split; [rewrite encapsulate_draws, (script_draw (seed 3) [] (seed_ok 3)), E2; reflexivity|].
  split; [rewrite generate_draws, (script_draw (seed 1) [] (seed_ok 1)), D0; reflexivity|].
  split; [rewrite generate_draws, D0; reflexivity|rewrite encapsulate_draws, D0; reflexivity].
Qed.

(** A generator that returns without writing anything leaves zeros: every encapsulation to a key
    is the same. *)
Definition idle : mp_rng := {| mp_state := unit; mp_fill := fun s buf => (Some buf, s) |}.
Example C84_case_idle hs P n ek : mp_ok idle /\ draw idle tt = (Some (repeat 0 32), tt) /\
  f_encapsulate idle hs P n ek tt = (encapsulate_deterministic hs P n ek (repeat 0 32), tt).
Proof.
  split; [intros s m buf b s' Hb E; cbn [idle mp_fill] in E; inversion E; subst; exact Hb|]. split; reflexivity.
Qed.

Lemma xw_encapsulate_draws g hs X n ek s : f_xw_encapsulate g hs X n ek s =
  match draw g s with
  | (None, s1) => (Panic, s1)
  | (Some m, s1) =>
      match encapsulate_deterministic_inner hs MlKem768Params n (pk_m ek) m with
      | Ok (c, K) =>
          match draw g s1 with
          | (None, s2) => (Panic, s2)
          | (Some e, s2) =>
              let cx := x25519 X e X25519_BASEPOINT_BYTES in
              (Ok ({| ct_m := c; ct_x := cx |}, combiner hs K (x25519 X e (pk_x ek)) cx (pk_x ek)), s2)
          end
      | Panic => (Panic, s1)
      | UB => (UB, s1)
      | NoFuel => (NoFuel, s1)
      end
  end.
Proof.
  unfold f_xw_encapsulate, f_encapsulate, f_rand, f_xw_generate, fill, op_bind, op_pure. fold (draw g s).
  destruct (draw g s) as [[m|] s1]; [|reflexivity].
  destruct (encapsulate_deterministic_inner hs MlKem768Params n (pk_m ek) m) as [[c K]| | |]; try reflexivity.
  fold (draw g s1). destruct (draw g s1) as [[e|] s2]; reflexivity.
Qed.
Lemma generate_key_pair_draws g hs X n s : f_generate_key_pair g hs X n s =
  match draw g s with
  | (None, s1) => (Panic, s1)
  | (Some sk, s1) => (let* pk := xw_encapsulation_key hs X n (xw_dk_from sk) in Ok (xw_dk_from sk, pk), s1)
  end.
Proof.
  unfold f_generate_key_pair, f_xw_dk_generate, f_xw_generate, fill, op_bind, op_pure, xw_dk_from. fold (draw g s).
  destruct (draw g s) as [[sk|] s1]; [|reflexivity]. destruct (xw_encapsulation_key _ _ _ _); reflexivity.
Qed.
(** X-Wing, with two answers and with one. *)
Example C84_case_xwing : exists ek pkb ct ss m e,
  reachable_xek toy toy_x25519 ek /\ xw_ek_as_bytes ek = Ok pkb /\
  f_generate_key_pair script toy toy_x25519 300 [seed 1] = (Ok (xw_dk_from (seed 1), ek), []) /\
  f_generate_key_pair script toy toy_x25519 300 [] = (Panic, []) /\
  f_xw_encapsulate script toy toy_x25519 300 ek [m; e] = (Ok (ct, ss), []) /\
  f_xw_encapsulate script toy toy_x25519 300 ek [m] = (Panic, []) /\
  f_xw_encapsulate script toy toy_x25519 300 ek [] = (Panic, []).
Proof.
  destruct xwing_case as (ek & ct & ctb & ss & s' & Hek & _ & E1 & E2 & _).
  destruct (proj1 (C34_safe toy toy_ok toy_x25519 toy_x25519_ok 300 ek counter 5 Hek counter_ok)) as (pkb & Eb & _).
  pose proof (counter_ok 5 32%nat) as Hm. pose proof (counter_ok (5 + 1) 32%nat) as He.
  exists ek, pkb, ct, ss, (fst (fill_bytes counter 5 32)), (fst (fill_bytes counter (5 + 1) 32)).
  split; [exact Hek|]. split; [exact Eb|].
  assert (D0 : draw script [] = (None, [])) by reflexivity.
  split; [rewrite generate_key_pair_draws, (script_draw (seed 1) [] (seed_ok 1)), E1; reflexivity|].
  split; [rewrite generate_key_pair_draws, D0; reflexivity|]. clear E1.
  assert (F : forall g s, xw_encapsulate toy toy_x25519 300 ek g s =
    let '(m, s1) := fill_bytes g s 32 in
    let* '(c, K) := encapsulate_deterministic_inner toy MlKem768Params 300 (pk_m ek) m in
    let '(e, s2) := fill_bytes g s1 32 in
    let cx := x25519 toy_x25519 e X25519_BASEPOINT_BYTES in
    Ok ({| ct_m := c; ct_x := cx |}, combiner toy K (x25519 toy_x25519 e (pk_x ek)) cx (pk_x ek), s2)).
  { intros g s. unfold xw_encapsulate, encapsulate, rand, xw_generate. destruct (fill_bytes g s 32) as [m s1].
    generalize (encapsulate_deterministic_inner toy MlKem768Params 300 (pk_m ek) m). intros [[c K]| | |]; reflexivity. }
  rewrite F in E2. clear F.
  assert (S5 : fill_bytes counter 5 32 = (fst (fill_bytes counter 5 32), 5 + 1)) by reflexivity. rewrite S5 in E2. cbv beta iota in E2.
  revert Hm He E2. generalize (fst (fill_bytes counter 5 32)). intros m Hm. generalize (fill_bytes counter (5 + 1) 32). intros [e s2] He E2. cbn [fst] in He |- *.
  split; [|split; [|rewrite xw_encapsulate_draws, D0; reflexivity]].
  - rewrite xw_encapsulate_draws, (script_draw m [e] Hm).
    destruct (encapsulate_deterministic_inner toy MlKem768Params 300 (pk_m ek) m) as [[c K]| | |]; cbn [bind] in E2; try discriminate E2.
    rewrite (script_draw e [] He). apply Ok_inj in E2. apply (f_equal fst) in E2. cbn [fst] in E2. cbv zeta. rewrite E2. reflexivity.
  - rewrite xw_encapsulate_draws, (script_draw m [] Hm).
    destruct (encapsulate_deterministic_inner toy MlKem768Params 300 (pk_m ek) m) as [[c K]| | |]; cbn [bind] in E2; try discriminate E2.
    rewrite D0. reflexivity.
Qed.

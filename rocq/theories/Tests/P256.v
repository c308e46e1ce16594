(** Test of the model (not a proof): the key exchange of /repo/dhkem/tests/hpke_p256_test.rs,
    RFC 9180 section A.3.1, on P-256, with SHA-256, HMAC and HKDF written out.  The results are
    computed by the virtual machine when the file is compiled and compared here; the kernel does
    not repeat the computation. *)
From Coq Require Import List ZArith String Lia Bool Zpow_facts.
From Verif.Base Require Import Res Oracles.
From Verif.Model Require Import Machine Crypto XWing DhKem.
From Verif.Proofs Require Import Primes SEC1Proofs.
From Verif.Properties Require Import Sec1.
From Verif.Tests Require Import Hex.
From Verif.Spec Require Import SEC1.
Import ListNotations.
Open Scope Z_scope.

(** ** the multiples of Spec/SEC1.v, by double and add *)
(** the binary extended Euclidean algorithm: e x = u and f x = v modulo n *)
Fixpoint euclid (fuel : nat) (n u v e f : Z) : Z :=
  match fuel with
  | O => 0
  | S fuel =>
      if u =? 1 then e
      else if v =? 1 then f
      else if Z.even u then euclid fuel n (Z.div2 u) v (Z.div2 (if Z.even e then e else e + n)) f
      else if Z.even v then euclid fuel n u (Z.div2 v) e (Z.div2 (if Z.even f then f else f + n))
      else if v <=? u then euclid fuel n (u - v) v (if f <=? e then e - f else e - f + n) f
      else euclid fuel n u (v - u) e (if e <=? f then f - e else f - e + n)
  end.
Definition fast_inverse (C : curve) (x : Z) : Z :=
  let y := euclid 1200 (p C) (x mod p C) (p C) 1 0 in
  if (0 <=? y) && (y <? p C) && ((x * y) mod p C =? 1) then y else inverse C x.
Lemma fast_inverse_ok C x : curve_ok C -> fast_inverse C x = inverse C x.
Proof.
  intros H. pose proof (p_pos C H) as Hp. unfold fast_inverse. cbv zeta.
  generalize (euclid 1200 (p C) (x mod p C) (p C) 1 0). intros y.
  destruct ((0 <=? y) && (y <? p C) && ((x * y) mod p C =? 1)) eqn:E; [|reflexivity].
  apply andb_true_iff in E. destruct E as [E E3]. apply andb_true_iff in E. destruct E as [E1 E2].
  apply Z.leb_le in E1. apply Z.ltb_lt in E2. apply Z.eqb_eq in E3.
  assert (N : x mod p C <> 0).
  { intros K. rewrite <- Z.mul_mod_idemp_l, K in E3 by lia. rewrite Z.mul_0_l, Z.mod_0_l in E3 by lia. discriminate. }
  pose proof (fermat (p C) x (proj1 H) N) as W. replace (p C - 1) with (Z.succ (p C - 2)) in W by lia.
  rewrite Z.pow_succ_r in W by lia. unfold inverse.
  transitivity ((y * 1) mod p C); [rewrite Z.mul_1_r; symmetry; apply Z.mod_small; lia|].
  rewrite <- W, Z.mul_mod_idemp_r by lia. rewrite Z.mul_assoc, (Z.mul_comm y x), <- Z.mul_mod_idemp_l, E3, Z.mul_1_l by lia.
  reflexivity.
Qed.
Definition fast_add (C : curve) (P Q : point) : point :=
  match P, Q with
  | Infinity, _ => Q
  | _, Infinity => P
  | Point x1 y1, Point x2 y2 =>
      if x1 =? x2 then
        if (y1 + y2) mod p C =? 0 then Infinity
        else third C ((3 * x1 ^ 2 + a C) * fast_inverse C (2 * y1)) x1 y1 x2
      else third C ((y2 - y1) * fast_inverse C (x2 - x1)) x1 y1 x2
  end.
Lemma fast_add_ok C P Q : curve_ok C -> fast_add C P Q = add C P Q.
Proof. intros H. destruct P, Q; try reflexivity. cbn [fast_add add]. rewrite !fast_inverse_ok by exact H. reflexivity. Qed.
Fixpoint fast_times (C : curve) (k : positive) (P : point) : point :=
  match k with
  | xH => P
  | xO k => let Q := fast_times C k P in fast_add C Q Q
  | xI k => let Q := fast_times C k P in fast_add C P (fast_add C Q Q)
  end.
Lemma fast_times_ok C k P : curve_ok C -> on_curve C P -> fast_times C k P = multiple C (Pos.to_nat k) P.
Proof.
  intros Hok HP. rewrite <- (times_multiple C Hok) by exact HP.
  induction k as [k IH|k IH|]; cbn [fast_times times]; [| |reflexivity]; rewrite !fast_add_ok by exact Hok; rewrite IH; reflexivity.
Qed.
Definition fast_sec1 (C : curve) (draw : forall g : rng, rng_state g -> Z * rng_state g) : ec_curve := {|
  ec_scalar := Z; ec_point := point; ec_coord := list Z; ec_gen := G C;
  ec_mul := fun k P => match k with Zpos k => fast_times C k P | _ => Infinity end;
  ec_x := fun P => field_octets C (x_coordinate P);
  ec_random := draw
|}.
Lemma fast_sec1_ok C draw (k : Z) P : curve_ok C -> on_curve C P ->
  ec_mul (fast_sec1 C draw) k P = ec_mul (sec1 C draw) k P.
Proof.
  intros H HP. destruct k; [reflexivity| |reflexivity]. cbn [fast_sec1 sec1 ec_mul].
  exact (fast_times_ok C _ P H HP).
Qed.

(** the scalar of 32 bytes, most significant first *)
Definition draw32 (g : rng) (s : rng_state g) : Z * rng_state g :=
  let '(b, s') := fill_bytes g s 32 in (value b, s').
(** hpke_p256_test.rs:11-41 *)
Definition constant_rng : rng := {|
  rng_state := list Z; fill_bytes := fun s n => (firstn n s, skipn n s)
|}.

(** ** SHA-256 (FIPS 180-4), HMAC (RFC 2104) and HKDF (RFC 5869) *)
Definition sha_k : list Z :=
  [0x428a2f98; 0x71374491; 0xb5c0fbcf; 0xe9b5dba5; 0x3956c25b; 0x59f111f1; 0x923f82a4;
   0xab1c5ed5; 0xd807aa98; 0x12835b01; 0x243185be; 0x550c7dc3; 0x72be5d74; 0x80deb1fe;
   0x9bdc06a7; 0xc19bf174; 0xe49b69c1; 0xefbe4786; 0xfc19dc6; 0x240ca1cc; 0x2de92c6f;
   0x4a7484aa; 0x5cb0a9dc; 0x76f988da; 0x983e5152; 0xa831c66d; 0xb00327c8; 0xbf597fc7;
   0xc6e00bf3; 0xd5a79147; 0x6ca6351; 0x14292967; 0x27b70a85; 0x2e1b2138; 0x4d2c6dfc;
   0x53380d13; 0x650a7354; 0x766a0abb; 0x81c2c92e; 0x92722c85; 0xa2bfe8a1; 0xa81a664b;
   0xc24b8b70; 0xc76c51a3; 0xd192e819; 0xd6990624; 0xf40e3585; 0x106aa070; 0x19a4c116;
   0x1e376c08; 0x2748774c; 0x34b0bcb5; 0x391c0cb3; 0x4ed8aa4a; 0x5b9cca4f; 0x682e6ff3;
   0x748f82ee; 0x78a5636f; 0x84c87814; 0x8cc70208; 0x90befffa; 0xa4506ceb; 0xbef9a3f7;
   0xc67178f2].
Definition sha_h : list Z := [0x6a09e667; 0xbb67ae85; 0x3c6ef372; 0xa54ff53a; 0x510e527f; 0x9b05688c; 0x1f83d9ab; 0x5be0cd19].
Definition w32 (x : Z) : Z := Z.land x 0xffffffff.
Definition rotr (n x : Z) : Z := w32 (Z.lor (Z.shiftr x n) (Z.shiftl x (32 - n))).
Definition bsig0 x := Z.lxor (rotr 2 x) (Z.lxor (rotr 13 x) (rotr 22 x)).
Definition bsig1 x := Z.lxor (rotr 6 x) (Z.lxor (rotr 11 x) (rotr 25 x)).
Definition ssig0 x := Z.lxor (rotr 7 x) (Z.lxor (rotr 18 x) (Z.shiftr x 3)).
Definition ssig1 x := Z.lxor (rotr 17 x) (Z.lxor (rotr 19 x) (Z.shiftr x 10)).
Definition ch x y z := Z.lxor (Z.land x y) (Z.land (w32 (Z.lnot x)) z).
Definition maj x y z := Z.lxor (Z.land x y) (Z.lxor (Z.land x z) (Z.land y z)).
(** the message schedule, the last word first *)
Fixpoint schedule (n : nat) (w : list Z) : list Z :=
  match n with
  | O => w
  | S n => schedule n (w32 (ssig1 (nth 1 w 0) + nth 6 w 0 + ssig0 (nth 14 w 0) + nth 15 w 0) :: w)
  end.
Definition sha_round (st : list Z) (kw : Z * Z) : list Z :=
  match st with
  | [a; b; c; d; e; f; g; h] =>
      let t1 := h + bsig1 e + ch e f g + fst kw + snd kw in
      let t2 := bsig0 a + maj a b c in
      [w32 (t1 + t2); a; b; c; w32 (d + t1); e; f; g]
  | _ => st
  end.
Definition sha_block (st : list Z) (w : list Z) : list Z :=
  map (fun xy => w32 (fst xy + snd xy)) (combine st (fold_left sha_round (combine sha_k (rev (schedule 48 (rev w)))) st)).
Fixpoint words (n : nat) (l : list Z) : list Z :=
  match n with O => [] | S n => value (firstn 4 l) :: words n (skipn 4 l) end.
Fixpoint sha_blocks (n : nat) (st : list Z) (l : list Z) : list Z :=
  match n with O => st | S n => sha_blocks n (sha_block st (words 16 l)) (skipn 64 l) end.
Definition sha256 (m : list Z) : list Z :=
  let len := Z.of_nat (List.length m) in
  let zeros := Z.to_nat ((55 - len) mod 64) in
  let padded := m ++ 128 :: repeat 0 zeros ++ octets 8 (8 * len) in
  flat_map (octets 4) (sha_blocks (List.length padded / 64) sha_h padded).
Definition hmac (key m : list Z) : list Z :=
  let k := if (List.length key <=? 64)%nat then key else sha256 key in
  let k := k ++ repeat 0 (64 - List.length k) in
  sha256 (map (Z.lxor 0x5c) k ++ sha256 (map (Z.lxor 0x36) k ++ m)).
Definition hkdf_extract (salt ikm : list Z) : list Z := hmac salt ikm.
(** one block of output: 32 bytes *)
Definition hkdf_expand (prk info : list Z) : list Z := hmac prk (info ++ [1]).

Fixpoint ascii (s : string) : list Z :=
  match s with EmptyString => [] | String c r => Z.of_nat (Ascii.nat_of_ascii c) :: ascii r end.

(** hpke_p256_test.rs:46-73 *)
Definition suite : list Z := ascii "HPKE-v1" ++ ascii "KEM" ++ [0; 16].
Definition labeled_extract (salt label ikm : list Z) : list Z := hkdf_extract salt (suite ++ label ++ ikm).
Definition labeled_expand (prk label info : list Z) : list Z := hkdf_expand prk ([0; 32] ++ suite ++ label ++ info).
Definition extract_and_expand (dh kem_context : list Z) : list Z :=
  labeled_expand (labeled_extract [] (ascii "eae_prk") dh) (ascii "shared_secret") kem_context.

(** hpke_p256_test.rs:75-111 *)
Definition pke_hex : list Z := Eval vm_compute in
  hex "04a92719c6195d5085104f469a8b9814d5838ff72b60501e2c4466e5e67b325ac98536d7b61a1af4b78e5b7f951c0900be863c403ce65c9bfcb9382657222d18c4".
Definition pkr_hex : list Z := Eval vm_compute in
  hex "04fe8c19ce0905191ebc298a9245792531f26f0cece2460639e8bc39cb7f706a826a779b4cf969b8a0e539c7f62fb3d30ad6aa8f80e30f1d128aafd68a2ce72ea0".
Definition shared_secret_hex : list Z := Eval vm_compute in
  hex "c0d26aeab536609a572b07695d933b589dcf363ff9d93c93adea537aeabb8cb8".
Definition hpke_result := Eval vm_compute in
  (let C := fast_sec1 P256 draw32 in
   let encoded P := point_octets P256 false P in
   let '((skr, pkr), _) := ecdh_random_keypair C constant_rng
     (hex "f3ce7fdae57e1a310d87f1ebbde6f328be0a99cdbcadf4d6589cf29de4b8ffd2") in
   let '((pke, ss1), _) := ecdh_encapsulate C pkr constant_rng
     (hex "4995788ef4b9d6132b249ce59a77281493eb39af373d236a1fe415cb0c2d7beb") in
   let ss2 := ecdh_decapsulate C skr pke in
   let kem_context := encoded pke ++ encoded (enc_into_inner pkr) in
   (encoded (enc_into_inner pkr), encoded pke, extract_and_expand ss1 kem_context, extract_and_expand ss2 kem_context)).
Example hpke_vector : hpke_result = (pkr_hex, pke_hex, shared_secret_hex, shared_secret_hex).
Proof. reflexivity. Qed.
(** SHA-256 of "abc" *)
Definition sha256_abc := Eval vm_compute in sha256 (ascii "abc").
Example sha256_vector : sha256_abc = hex "ba7816bf8f01cfea414140de5dae2223b00361a396177a9cb410ff61f20015ad".
Proof. reflexivity. Qed.

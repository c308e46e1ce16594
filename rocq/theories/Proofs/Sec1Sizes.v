(** The orders of the four curves: the primality proofs, the chains of additions to n G, and the
    absence of points with y = 0 together give the number of points. *)
From Coq Require Import List ZArith Lia Bool Znumtheory.
From Verif.Proofs Require Import CurvePrimes SEC1Proofs Sec1Chain Sec1Order Sec1Reductions Cubic Sec1Primes.
From Verif.Proofs Require Import Chain_k256 Chain_p256 Chain_p384 Chain_p521.
From Verif.Spec Require Import SEC1 SEC1Orders.
Import ListNotations.
Open Scope Z_scope.

Lemma size_of C n : curve_ok C -> on_curve C (G C) -> prime (Zpos n) -> (2 * p C + 1 <? 3 * Zpos n) = true ->
  multiple C (Pos.to_nat n) (G C) = Infinity -> (forall x, (x ^ 3 + a C * x + b C) mod p C <> 0) -> order_ok C (Zpos n).
Proof.
  intros Hok HG Hn Hs K NR. apply Z.ltb_lt in Hs.
  split; [exact Hn|]. split; [exact K|]. apply (order_of_curve C Hok); try assumption. split; [lia|exact K].
Qed.
Lemma minus_three C t : p C <> 0 -> a C + 3 =? p C = true -> b C + t =? p C = true ->
  (forall x, (x ^ 3 - 3 * x - t) mod p C <> 0) -> forall x, (x ^ 3 + a C * x + b C) mod p C <> 0.
Proof.
  intros H0 Ha Hb H x E. apply Z.eqb_eq in Ha. apply Z.eqb_eq in Hb. apply (H x). rewrite <- E.
  replace (x ^ 3 + a C * x + b C) with (x ^ 3 - 3 * x - t + (x + 1) * p C).
  - symmetry. apply Z.mod_add, H0.
  - replace (p C * x) with (x * p C) by ring. replace (a C) with (p C - 3) by lia. replace (b C) with (p C - t) by lia. ring.
Qed.

Lemma no_cube_k256 : no_cube_check (p secp256k1) red_k256 7 38597363079105398474523661669562635951089994888546854679819194669302944890554 = true.
Proof. vm_compute. reflexivity. Qed.
Lemma size_k256 : order_ok secp256k1 order_secp256k1.
Proof.
  apply (size_of secp256k1 115792089237316195423570985008687907852837564279074904382605163141518161494337 secp256k1_ok secp256k1_G prime_order_k256); [reflexivity|exact order_k256|].
  intros x. replace (x ^ 3 + a secp256k1 * x + b secp256k1) with (x ^ 3 + 7) by (cbn [a b secp256k1]; ring).
  apply (no_root_pure (p secp256k1) red_k256 7 38597363079105398474523661669562635951089994888546854679819194669302944890554 prime_k256 ltac:(discriminate) red_k256_ok no_cube_k256).
Qed.

Lemma no_root_p256 : no_root_check (p P256) red_p256 74733725485204106633371317169360305120971702399296588640698374994827630452660 38597363070118749587565815649802524510028714471763438065177877102955699284650 = true.
Proof. vm_compute. reflexivity. Qed.
Lemma size_p256 : order_ok P256 order_P256.
Proof.
  apply (size_of P256 115792089210356248762697446949407573529996955224135760342422259061068512044369 P256_ok P256_G prime_order_p256); [reflexivity|exact order_p256|].
  apply (minus_three P256 74733725485204106633371317169360305120971702399296588640698374994827630452660); [discriminate|reflexivity|reflexivity|].
  apply (no_root_cubic (p P256) red_p256 74733725485204106633371317169360305120971702399296588640698374994827630452660 38597363070118749587565815649802524510028714471763438065177877102955699284650 prime_P256 ltac:(discriminate) red_p256_ok no_root_p256).
Qed.

Lemma no_root_p384 : no_root_check (p P384) red_p384 11821812636434773334430028259754565712022833414103878146519586102257032530187009463911005323375192894096167211881744 13134002065464826404093013366714537935026579756821815555982764468081907257165623443015755362752979333953868991037440 = true.
Proof. vm_compute. reflexivity. Qed.
Lemma size_p384 : order_ok P384 order_P384.
Proof.
  apply (size_of P384 39402006196394479212279040100143613805079739270465446667946905279627659399113263569398956308152294913554433653942643 P384_ok P384_G prime_order_p384); [reflexivity|exact order_p384|].
  apply (minus_three P384 11821812636434773334430028259754565712022833414103878146519586102257032530187009463911005323375192894096167211881744); [discriminate|reflexivity|reflexivity|].
  apply (no_root_cubic (p P384) red_p384 11821812636434773334430028259754565712022833414103878146519586102257032530187009463911005323375192894096167211881744 13134002065464826404093013366714537935026579756821815555982764468081907257165623443015755362752979333953868991037440 prime_P384 ltac:(discriminate) red_p384_ok no_root_p384).
Qed.

Lemma no_root_p521 : no_root_check (p P521) red_p521 5770948622056875440470788408314587647333227701191621660399877064689590067246921036108850903087694931728704179094774544727683535468125630900431700802636071167 2288265886710203238327300266360464405756478433381101803131487819728514394465885350707519880220484851659098770463826952679040662666572214604191342763705019050 = true.
Proof. vm_compute. reflexivity. Qed.
Lemma size_p521 : order_ok P521 order_P521.
Proof.
  apply (size_of P521 6864797660130609714981900799081393217269435300143305409394463459185543183397655394245057746333217197532963996371363321113864768612440380340372808892707005449 P521_ok P521_G prime_order_p521); [reflexivity|exact order_p521|].
  apply (minus_three P521 5770948622056875440470788408314587647333227701191621660399877064689590067246921036108850903087694931728704179094774544727683535468125630900431700802636071167); [discriminate|reflexivity|reflexivity|].
  apply (no_root_cubic (p P521) red_p521 5770948622056875440470788408314587647333227701191621660399877064689590067246921036108850903087694931728704179094774544727683535468125630900431700802636071167 2288265886710203238327300266360464405756478433381101803131487819728514394465885350707519880220484851659098770463826952679040662666572214604191342763705019050 prime_P521 ltac:(discriminate) red_p521_ok no_root_p521).
Qed.


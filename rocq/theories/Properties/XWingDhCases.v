(** Cases for C73: runs of the game, an attacker that wins and the solver it is turned into,
    and parameters that meet the hypotheses. *)
From Coq Require Import List ZArith Lia Bool Arith.
From Verif.Base Require Import Res Oracles.
From Verif.Spec Require Import FIPS203 XWing Domains Noise Counting Random Lwe Attacker Tables Hybrid Solver.
From Verif.Model Require Import Machine Util Algebra Compress Encode Crypto Sample Param Pke Kem XWing.
From Verif.Proofs Require Import Basics Field Poly CompressProofs NttAlgebra NttProofs EncodeProofs VecEncode SampleProofs CountProofs
  PkeProofs KemProofs Inner TailProofs XWingProofs LweProofs AttackerProofs TableProofs HybridProofs.
From Verif.Properties Require Import Kem KemCases XWing Correctness Distribution Failure Secrecy KemSecrecy Binding ActiveSecrecy ActiveCases X25519 XWingSecrecy XWingDh.
From Coq Require Import QArith Qabs Lqa.
Import ListNotations.
Open Scope Z_scope.

Section Wins.
  Variable hs : hashes.
  Hypothesis Hhs : hash_ok hs.
  Variable X : x25519_impl.
  Hypothesis HX : x25519_ok X.
  Hypothesis HXc : x25519_commutes X.
  Let P := ML_KEM_768.
  Variable n : nat.
  Variables L LY LB LXC : list (list Z).
  Hypothesis HL : enumerates 32 L.
  Hypothesis HLY : enumerates 128 LY.
  Hypothesis HLB : enumerates 64 LB.
  Hypothesis HLXC : enumerates 1120 LXC.
  Variables d z m : list Z.
  Hypothesis Hd : byte_string 32 d.
  Hypothesis Hz : byte_string 32 z.
  Hypothesis Hm : byte_string 32 m.
  Variables ek dk K c : list Z.
  Hypothesis EK : KeyGen_internal hs P n d z = Some (ek, dk).
  Hypothesis EE : Encaps_internal hs P n ek m = Some (K, c).
  Variables skx ekx : list Z.
  Hypothesis Hskx : byte_string 32 skx.
  Hypothesis Hekx : byte_string 32 ekx.
  Variable TA : list (list Z).
  Hypothesis HTA : table LY L TA.
  Variable sk : list Z.
  Hypothesis Hsk : byte_string 32 sk.

  Let view att real V := dh_view hs Hhs X (proj1 HX) (proj2 HX) n L LY LXC HL HLY HLXC d z m Hd Hz Hm ek dk K c EK EE att skx ekx Hskx Hekx
    TA HTA sk Hsk real V.

  (** every such run reaches the attacker *)
  Example C73_reached p real V : dh_game hs X n LY LXC (fun _ _ _ => Answer p) real d z m skx ekx TA V sk = p.
  Proof. destruct (view (fun _ _ _ => Answer p) real V) as (dec & E1 & _). exact E1. Qed.

  (** an attacker that knows m and one X25519 secret wins *)
  Definition dh_knows (pk ct ss : list Z) : attacker :=
    Ask Sha3_256 (XWingLabel ++ K ++ x25519 X skx (skipn 1088 ct) ++ skipn 1088 ct ++ skipn 1184 pk) 32 (fun y =>
    Answer (if list_eq_dec Z.eq_dec y ss then 1%Q else 0%Q)).
  Example C73_case_knows V : let pkx := x25519 X skx X25519_BASE in
    entry LY TA (K ++ x25519 X ekx pkx ++ x25519 X ekx X25519_BASE ++ pkx) <> Some V ->
    dh_game hs X n LY LXC dh_knows true d z m skx ekx TA V sk = 1%Q /\
    dh_game hs X n LY LXC dh_knows false d z m skx ekx TA V sk = 0%Q.
  Proof.
    intros pkx HV. set (cx := x25519 X ekx X25519_BASE) in *.
    assert (Hpkx : byte_string 32 pkx) by (apply HX; [exact Hskx|exact base_ok]).
    assert (Hcx : byte_string 32 cx) by (apply HX; [exact Hekx|exact base_ok]).
    assert (HK : byte_string 32 K) by exact (K0_bytes hs Hhs n d z m Hd Hm ek dk K c EK EE).
    set (y := K ++ x25519 X ekx pkx ++ cx ++ pkx) in *.
    assert (Iy : In y LY).
    { apply HLY. apply (byte_string_app 32 96); [exact HK|]. apply (byte_string_app 32 64); [apply HX; assumption|]. apply (byte_string_app 32 32); assumption. }
    rewrite (entry_get LY L TA y HTA Iy) in HV.
    assert (GO : forall real, dh_game hs X n LY LXC dh_knows real d z m skx ekx TA V sk =
      if list_eq_dec Z.eq_dec (get LY TA y) (if real then get LY TA y else V) then 1%Q else 0%Q).
    { intros real. destruct (view dh_knows real V) as (dec & E1 & _). rewrite E1. clear E1. unfold dh_knows. fold pkx cx y.
      rewrite (skipn_app_exact Z 1184 ek) by exact (proj1 (ekM_bytes hs Hhs n d z Hd ek dk EK)).
      rewrite (skipn_app_exact Z 1088 c) by exact (proj1 (c0_bytes hs n m ek K c EE)). cbn [run reply].
      assert (Ec : x25519 X skx cx = x25519 X ekx pkx) by (symmetry; apply HXc; assumption).
      rewrite Ec. fold y. rewrite (hash_h hs L LY d z skx TA HTA sk y Iy). reflexivity. }
    rewrite !GO. split.
    - destruct (list_eq_dec Z.eq_dec (get LY TA y) (get LY TA y)) as [_|Q]; [reflexivity|contradiction].
    - destruct (list_eq_dec Z.eq_dec (get LY TA y) V) as [Q|_]; [rewrite Q in HV; contradiction|reflexivity].
  Qed.
  (** and the solver made from it finds the Diffie-Hellman result *)
  Example C73_case_solver TB V : let pkx := x25519 X skx X25519_BASE in
    dh_solver hs n LY LB LXC dh_knows ek dk c TA TB V
      (fun u y => if list_eq_dec Z.eq_dec (x25519 X skx u) y then true else false) pkx (x25519 X ekx X25519_BASE) =
    Some (x25519 X ekx pkx).
  Proof.
    intros pkx. set (cx := x25519 X ekx X25519_BASE) in *.
    assert (Hpkx : byte_string 32 pkx) by (apply HX; [exact Hskx|exact base_ok]).
    assert (Hcx : byte_string 32 cx) by (apply HX; [exact Hekx|exact base_ok]).
    assert (HK : byte_string 32 K) by exact (K0_bytes hs Hhs n d z m Hd Hm ek dk K c EK EE).
    assert (Ec : x25519 X skx cx = x25519 X ekx pkx) by (symmetry; apply HXc; assumption).
    unfold dh_solver, dh_knows. rewrite (skipn_app_exact Z 1184 ek) by exact (proj1 (ekM_bytes hs Hhs n d z Hd ek dk EK)).
    rewrite (skipn_app_exact Z 1088 c) by exact (proj1 (c0_bytes hs n m ek K c EE)). cbn [asked map find snd].
    set (y := x25519 X skx cx).
    assert (E1 : bytes32 38 (XWingLabel ++ K ++ y ++ cx ++ pkx) = y).
    { unfold bytes32. rewrite app_assoc. rewrite skipn_app_exact by (rewrite app_length, (proj1 HK); reflexivity).
      apply firstn_app_exact. apply HX; assumption. }
    rewrite E1. fold y. destruct (list_eq_dec Z.eq_dec y y) as [_|Q]; [|contradiction]. f_equal. exact Ec.
  Qed.

  (** the owner answers every ciphertext but the challenge with 32 bytes, and the challenge
      with nothing *)
  Example C73_case_answered (f : list Z -> list Z) real V : (forall c0, byte_string 1120 (f c0) /\ f c0 <> c0) ->
    dh_game hs X n LY LXC (expects f 32) real d z m skx ekx TA V sk = 1%Q /\
    dh_game hs X n LY LXC (expects (fun c0 => c0) 0) real d z m skx ekx TA V sk = 1%Q.
  Proof.
    intros Hf. split.
    - destruct (view (expects f 32) real V) as (dec & E1 & ED). rewrite E1. unfold expects. cbn [run]. rewrite ED. clear ED E1.
      set (c0 := c ++ x25519 X ekx X25519_BASE). destruct (Hf c0) as [Hb Hn].
      destruct (list_eq_dec Z.eq_dec (f c0) c0) as [Q|_]; [contradiction|].
      destruct (in_dec (list_eq_dec Z.eq_dec) (f c0) LXC) as [_|Q]; [|exfalso; apply Q, HLXC, Hb].
      assert (Hcm : byte_string 1088 (firstn 1088 (f c0))) by (apply (byte_string_firstn 1088 1120); [exact Hb|lia]).
      assert (Hcx : byte_string 32 (skipn 1088 (f c0))) by (apply (byte_string_skipn 1088 32), Hb).
      destruct (decaps_some hs Hhs n d z m Hd Hz ek dk K c EK EE (firstn 1088 (f c0)) Hcm) as (s & Es & Hs). rewrite Es.
      match goal with |- context [get LY TA ?y] => assert (Iy : In y LY) end.
      { apply HLY. apply (byte_string_app 32 96); [exact Hs|]. apply (byte_string_app 32 64); [apply HX; assumption|].
        apply (byte_string_app 32 32); [exact Hcx|apply HX; [exact Hskx|exact base_ok]]. }
      apply (get_in LY L TA _ HTA) in Iy. apply HL in Iy. rewrite (proj1 Iy). reflexivity.
    - destruct (view (expects (fun c0 => c0) 0) real V) as (dec & E1 & ED). rewrite E1. unfold expects. cbn [run]. rewrite ED.
      destruct (list_eq_dec Z.eq_dec _ _) as [_|Q]; [reflexivity|exfalso; apply Q; reflexivity].
  Qed.
End Wins.

(** The hypotheses are met by RFC 7748's X25519 and the hash functions [quiet]. *)
Example C73_case att N D d z m : byte_string 32 d -> byte_string 32 z -> byte_string 32 m ->
  (forall ek c K, within N D (att ek c K)) ->
  let hs := quiet 3 2 in
  let X := x25519 rfc7748 in
  let L := tuples (upto 256) 32 in
  let LY := tuples (upto 256) 128 in
  let LB := tuples (upto 256) 64 in
  let LXC := tuples (upto 256) 1120 in
  let LA := words L (length LY) in
  let LT := words L (length LB) in
  exists ek dk K c,
  KeyGen_internal hs ML_KEM_768 128 d z = Some (ek, dk) /\
  Encaps_internal hs ML_KEM_768 128 ek m = Some (K, c) /\
  let recognises skx u y := if list_eq_dec Z.eq_dec (X skx u) y then true else false in
  let solves skx ekx TA TB V :=
    match dh_solver hs 128 LY LB LXC att ek dk c TA TB V (recognises skx) (X skx X25519_BASE) (X ekx X25519_BASE) with
    | Some y => if list_eq_dec Z.eq_dec y (X ekx (X skx X25519_BASE)) then true else false
    | None => false
    end in
  let finds skx ekx TA TB V :=
    sends_second_preimage hs dk m c
      (dh_sent hs 128 LY LB LXC att ek dk c TA TB V (recognises skx) (X skx X25519_BASE) (X ekx X25519_BASE)) in
  (Qabs (dh_experiment hs rfc7748 128 att L LY LXC LA d z m true - dh_experiment hs rfc7748 128 att L LY LXC LA d z m false) <=
   average L (fun skx => average L (fun ekx => average LA (fun TA => average LT (fun TB => average L (fun V =>
     one_if (solves skx ekx TA TB V) + one_if (finds skx ekx TA TB V)))))) +
   2 * inject_Z (Z.of_nat N) / inject_Z (2 ^ 256))%Q.
Proof.
  intros Hd Hz Hm Hatt hs X L LY LB LXC LA LT.
  assert (HL : enumerates 32 L) by apply enumeration.
  assert (AA : forall rho, exists Ah, A_hat hs ML_KEM_768 128 rho = Some Ah).
  { intros rho. destruct (unlucky_A ML_KEM_768 rho) as [Ah EA0]. exists Ah. exact EA0. }
  assert (EK : exists ek dk, KeyGen_internal hs ML_KEM_768 128 d z = Some (ek, dk)).
  { unfold KeyGen_internal, KPKE_KeyGen. destruct (FIPS203.G hs _) as [rho sigma]. destruct (AA rho) as [Ah EA]. rewrite EA. eexists _, _. reflexivity. }
  destruct EK as (ek & dk & EK).
  assert (EE : exists K c, Encaps_internal hs ML_KEM_768 128 ek m = Some (K, c)).
  { unfold Encaps_internal, Encaps_with. destruct (FIPS203.G hs _) as [K r]. unfold KPKE_Encrypt. 
    destruct (AA (skipn (384 * pk ML_KEM_768) ek)) as [Ah EA]. rewrite EA. eexists _, _. reflexivity. }
  destruct EE as (K & c & EE). exists ek, dk, K, c. split; [exact EK|]. split; [exact EE|].
  exact (C73_reduction hs rfc7748 128 att N D L LY LB LXC LA LT d z m ek dk K c (quiet_ok 3 2) rfc7748_ok rfc7748_commutes Hd Hz Hm EK EE Hatt
    HL (enumeration _) (enumeration _) (enumeration _) (tables_all LY L (proj1 HL)) (tables_all LB L (proj1 HL))).
Qed.

(** An attacker that asks nothing solves nothing: its bound is 0. *)
Example C73_case_silent hs n LY LB LXC ek dk m c TA TB V ok pkx cx p :
  dh_solver hs n LY LB LXC (fun _ _ _ => Answer p) ek dk c TA TB V ok pkx cx = None /\
  sends_second_preimage hs dk m c (dh_sent hs n LY LB LXC (fun _ _ _ => Answer p) ek dk c TA TB V ok pkx cx) = false.
Proof. split; reflexivity. Qed.

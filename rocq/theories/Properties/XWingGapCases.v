(** Cases for C75: parameters that meet the hypotheses, and hash functions G and J for which an
    attacker breaks X-Wing by sending a second preimage, so that C73's second term cannot be
    dropped for all hash functions. *)
From Coq Require Import List ZArith Lia Bool Arith.
From Verif.Base Require Import Res Oracles.
From Verif.Spec Require Import FIPS203 XWing Domains Noise Counting Random Lwe Attacker Tables Hybrid Solver.
From Verif.Model Require Import Machine Util Algebra Compress Encode Crypto Sample Param Pke Kem XWing.
From Verif.Proofs Require Import Basics Field Poly CompressProofs NttAlgebra NttProofs EncodeProofs VecEncode SampleProofs CountProofs
  PkeProofs KemProofs Inner TailProofs XWingProofs LweProofs AttackerProofs TableProofs TreeProofs HybridProofs.
From Verif.Properties Require Import Kem KemCases XWing Correctness Distribution Failure Secrecy KemSecrecy Binding ActiveSecrecy ActiveCases X25519 XWingSecrecy XWingDh
  XWingDhCases XWingGap.
From Coq Require Import QArith Qabs Lqa.
Import ListNotations.
Open Scope Z_scope.

(** The hypotheses are met by RFC 7748's X25519, the hash functions [quiet], and the identity
    for TR. *)
Example C75_case att N D d z m : byte_string 32 d -> byte_string 32 z -> byte_string 32 m ->
  (forall ek c K, within N D (att ek c K)) ->
  let hs := quiet 3 2 in
  let X := x25519 rfc7748 in
  let L := tuples (upto 256) 32 in
  let LC := tuples (upto 256) 1088 in
  let LY := tuples (upto 256) 128 in
  let LB := tuples (upto 256) 64 in
  let LXC := tuples (upto 256) 1120 in
  let LK := words L (length L) in
  let LF := words L (length LC) in
  let LA := words L (length LY) in
  let LT := words L (length LB) in
  let TR := L in
  exists ek dk c,
  KeyGen_internal hs ML_KEM_768 128 d z = Some (ek, dk) /\
  KPKE_Encrypt hs ML_KEM_768 128 ek m m = Some c /\
  let h := FIPS203.H hs ek in
  let solves TK TF skx ekx TA TB V :=
    match dh_solver (kem_world hs L LC h z TK TR TF) 128 LY LB LXC att ek dk c TA TB V
            (fun u y => if list_eq_dec Z.eq_dec (X skx u) y then true else false) (X skx X25519_BASE) (X ekx X25519_BASE) with
    | Some y => if list_eq_dec Z.eq_dec y (X ekx (X skx X25519_BASE)) then true else false
    | None => false
    end in
  (Qabs (gap_experiment hs rfc7748 128 att L LC LY LXC TR LK LF LA h d z m true -
         gap_experiment hs rfc7748 128 att L LC LY LXC TR LK LF LA h d z m false) <=
   average LK (fun TK => average LF (fun TF =>
   average L (fun skx => average L (fun ekx => average LA (fun TA => average LT (fun TB => average L (fun V =>
     one_if (solves TK TF skx ekx TA TB V)))))))) +
   inject_Z (Z.of_nat (3 * N + 2 * D)) / inject_Z (2 ^ 256))%Q.
Proof.
  intros Hd Hz Hm Hatt hs X L LC LY LB LXC LK LF LA LT TR.
  assert (HL : enumerates 32 L) by apply enumeration.
  assert (AA : forall rho, exists Ah, A_hat hs ML_KEM_768 128 rho = Some Ah).
  { intros rho. destruct (unlucky_A ML_KEM_768 rho) as [Ah EA0]. exists Ah. exact EA0. }
  assert (EK : exists ek dk, KeyGen_internal hs ML_KEM_768 128 d z = Some (ek, dk)).
  { unfold KeyGen_internal, KPKE_KeyGen. destruct (FIPS203.G hs _) as [rho sigma]. destruct (AA rho) as [Ah EA]. rewrite EA. eexists _, _. reflexivity. }
  destruct EK as (ek & dk & EK).
  assert (EE : exists c, KPKE_Encrypt hs ML_KEM_768 128 ek m m = Some c).
  { unfold KPKE_Encrypt. destruct (AA (skipn (384 * pk ML_KEM_768) ek)) as [Ah EA]. rewrite EA. eexists. reflexivity. }
  destruct EE as (c & EE). exists ek, dk, c. split; [exact EK|]. split; [exact EE|].
  assert (HTR : table L L TR) by (split; [reflexivity|apply Forall_forall; intros y I; exact I]).
  assert (Er : entry L TR m = Some m).
  { assert (G : forall D, In m D -> entry D D m = Some m).
    { induction D0 as [|y D' IH]; intros I; [contradiction|]. cbn [entry]. destruct (list_eq_dec Z.eq_dec m y) as [->|N0]; [reflexivity|].
      destruct I as [I|I]; [congruence|apply IH, I]. }
    apply G, HL, Hm. }
  exact (C75_reduction hs rfc7748 128 att N D L LC LY LB LXC LK LF LA LT TR d z m ek dk m c (quiet_ok 3 2) rfc7748_ok rfc7748_commutes Hd Hz Hm EK
    Hatt HL (enumeration _) (enumeration _) (enumeration _) (enumeration _) (tables_all L L (proj1 HL)) (tables_all LC L (proj1 HL))
    (tables_all LY L (proj1 HL)) (tables_all LB L (proj1 HL)) HTR Er EE).
Qed.

(** If G's first half and J are constant, an attacker wins with one decapsulation and no hash
    question: it replaces the ML-KEM part of the challenge. *)
Section Constant.
  Variable hs : hashes.
  Hypothesis Hhs : hash_ok hs.
  Variable v : list Z.
  Hypothesis HG : forall x, fst (FIPS203.G hs x) = v.
  Hypothesis HJ : forall x, FIPS203.J hs x = v.
  Variable X : x25519_impl.
  Hypothesis HX : x25519_ok X.
  Hypothesis HXc : x25519_commutes X.
  Let P := ML_KEM_768.
  Variable n : nat.
  Variables L LY LB LXC : list (list Z).
  Hypothesis HL : enumerates 32 L.
  Hypothesis HLY : enumerates 128 LY.
  Hypothesis HLXC : enumerates 1120 LXC.
  Variables d z m : list Z.
  Hypothesis Hd : byte_string 32 d.
  Hypothesis Hz : byte_string 32 z.
  Hypothesis Hm : byte_string 32 m.
  Variables ek dk K c : list Z.
  Hypothesis EK : KeyGen_internal hs P n d z = Some (ek, dk).
  Hypothesis EE : Encaps_internal hs P n ek m = Some (K, c).
  Variables skx ekx : list Z.
  Hypothesis Hskx : byte_string 32 skx.
  Hypothesis Hekx : byte_string 32 ekx.
  Variables TA TB : list (list Z).
  Hypothesis HTA : table LY L TA.
  Variable sk : list Z.
  Hypothesis Hsk : byte_string 32 sk.
  Variable c' : list Z.
  Hypothesis Hc' : byte_string 1088 c'.
  Hypothesis Nc' : c' <> c.

  Definition replaces (pk ct ss : list Z) : attacker :=
    Decaps (c' ++ skipn 1088 ct) (fun y => Answer (if list_eq_dec Z.eq_dec y ss then 1%Q else 0%Q)).
  Example C75_case_constant V : let pkx := x25519 X skx X25519_BASE in
    entry LY TA (K ++ x25519 X ekx pkx ++ x25519 X ekx X25519_BASE ++ pkx) <> Some V ->
    dh_game hs X n LY LXC replaces true d z m skx ekx TA V sk = 1%Q /\
    dh_game hs X n LY LXC replaces false d z m skx ekx TA V sk = 0%Q.
  Proof.
    intros pkx HV. set (cx := x25519 X ekx X25519_BASE) in *.
    assert (Hpkx : byte_string 32 pkx) by (apply HX; [exact Hskx|exact base_ok]).
    assert (Hcx : byte_string 32 cx) by (apply HX; [exact Hekx|exact base_ok]).
    assert (HK : byte_string 32 K) by exact (K0_bytes hs Hhs n d z m Hd Hm ek dk K c EK EE).
    assert (Hc : byte_string 1088 c) by exact (c0_bytes hs n m ek K c EE).
    assert (Ev : K = v) by (rewrite (proj1 (challenge_inv hs n m ek K c EE)); apply HG).
    set (y := K ++ x25519 X ekx pkx ++ cx ++ pkx) in *.
    assert (Iy : In y LY).
    { apply HLY. apply (byte_string_app 32 96); [exact HK|]. apply (byte_string_app 32 64); [apply HX; assumption|]. apply (byte_string_app 32 32); assumption. }
    rewrite (entry_get LY L TA y HTA Iy) in HV.
    destruct (decaps_some hs Hhs n d z m Hd Hz ek dk K c EK EE c' Hc') as (s & Es & _).
    assert (Eks : s = K).
    { rewrite Ev. destruct (Decaps_inv hs P n dk c' s Es) as [[Q _]|Q]; rewrite Q; [apply HG|apply HJ]. }
    assert (GO : forall real, dh_game hs X n LY LXC replaces real d z m skx ekx TA V sk =
      if list_eq_dec Z.eq_dec (get LY TA y) (if real then get LY TA y else V) then 1%Q else 0%Q).
    { intros real.
      destruct (dh_view hs Hhs X (proj1 HX) (proj2 HX) n L LY LXC HL HLY HLXC d z m Hd Hz Hm ek dk K c EK EE replaces skx ekx Hskx Hekx
        TA HTA sk Hsk real V) as (dec & E1 & E2). rewrite E1. clear E1. unfold replaces. fold pkx cx y.
      rewrite (skipn_app_exact Z 1088 c) by apply Hc. cbn [run]. rewrite E2. clear E2. fold cx.
      destruct (list_eq_dec Z.eq_dec (c' ++ cx) (c ++ cx)) as [Q|_]; [apply app_inv_tail in Q; contradiction|].
      destruct (in_dec (list_eq_dec Z.eq_dec) (c' ++ cx) LXC) as [_|Q].
      2: { exfalso. apply Q, HLXC. apply (byte_string_app 1088 32); assumption. }
      rewrite (firstn_app_exact Z 1088 c') by apply Hc'. rewrite (skipn_app_exact Z 1088 c') by apply Hc'. rewrite Es, Eks.
      assert (Ec : x25519 X skx cx = x25519 X ekx pkx) by (symmetry; apply HXc; assumption).
      rewrite Ec. fold pkx. fold y. reflexivity. }
    rewrite !GO. split.
    - destruct (list_eq_dec Z.eq_dec (get LY TA y) (get LY TA y)) as [_|Q]; [reflexivity|contradiction].
    - destruct (list_eq_dec Z.eq_dec (get LY TA y) V) as [Q|_]; [rewrite Q in HV; contradiction|reflexivity].
  Qed.
  (** it sends a second preimage, without which the solver would have to succeed *)
  Example C75_case_sends : second_preimage hs dk m c' = true.
  Proof.
    unfold second_preimage. apply orb_true_iff. right. rewrite HJ, HG. destruct (list_eq_dec Z.eq_dec v v); [reflexivity|contradiction].
  Qed.
End Constant.

(** hash functions like that *)
Definition constant_hashes : hashes := {|
  sha3_256 := sha3_256 (quiet 3 2); sha3_512 := fun _ => repeat 0 64; shake128 := shake128 (quiet 3 2); shake256 := fun _ _ => 0 |}.
Example C75_case_constant_hashes : hash_ok constant_hashes /\ (forall x, fst (FIPS203.G constant_hashes x) = repeat 0 32) /\
  (forall x, FIPS203.J constant_hashes x = repeat 0 32) /\ forall d z, exists ek dk, KeyGen_internal constant_hashes ML_KEM_768 128 d z = Some (ek, dk) /\
  forall m, exists K c, Encaps_internal constant_hashes ML_KEM_768 128 ek m = Some (K, c).
Proof.
  assert (AA : forall rho, exists Ah, A_hat constant_hashes ML_KEM_768 128 rho = Some Ah).
  { intros rho. destruct (unlucky_A ML_KEM_768 rho) as [Ah EA0]. exists Ah. exact EA0. }
  split; [|split; [|split]].
  - intros m Hm. destruct (quiet_ok 3 2 m Hm) as (H1 & _ & H3 & H4). split; [exact H1|]. split; [|split; assumption].
    split; [reflexivity|]. apply Forall_forall. intros b I. apply repeat_spec in I. subst b. unfold is_byte. lia.
  - reflexivity.
  - reflexivity.
  - intros d z. unfold KeyGen_internal, KPKE_KeyGen. destruct (FIPS203.G constant_hashes (d ++ _)) as [rho sigma]. destruct (AA rho) as [Ah EA]. rewrite EA.
    eexists _, _. split; [reflexivity|]. intros m.
    unfold Encaps_internal, Encaps_with. destruct (FIPS203.G constant_hashes (m ++ _)) as [K r]. unfold KPKE_Encrypt.
    match goal with |- context [A_hat constant_hashes ML_KEM_768 128 ?x] => destruct (AA x) as [Ah' EA'] end. rewrite EA'. eexists _, _. reflexivity.
Qed.

(** The bound on second preimages, for an attacker that sends one ciphertext *)
Example C75_case_bound hs n L LC LY LB LXC LK LF TR TA TB V d z m ek dk r c ok pkx cx c' :
  hash_ok hs -> byte_string 32 d -> byte_string 32 z -> byte_string 32 m ->
  KeyGen_internal hs ML_KEM_768 n d z = Some (ek, dk) ->
  enumerates 32 L -> enumerates 1088 LC -> enumerates 1120 LXC ->
  all_tables L L LK -> all_tables LC L LF ->
  table L L TR -> entry L TR m = Some r -> KPKE_Encrypt hs ML_KEM_768 n ek m r = Some c ->
  (average LK (fun TK => average LF (fun TF =>
     let w := kem_world hs L LC (FIPS203.H hs ek) z TK TR TF in
     one_if (sends_second_preimage w dk m c (dh_sent w n LY LB LXC (replaces c') ek dk c TA TB V ok pkx cx)))) <= 2 / inject_Z (2 ^ 256))%Q.
Proof.
  intros. apply (C75_second_preimages hs n (replaces c') 0 1 L LC LY LB LXC LK LF TR TA TB V d z m ek dk r c); try assumption.
  intros e t s. cbn [replaces within]. intros y. destruct (list_eq_dec Z.eq_dec y s); split; discriminate.
Qed.

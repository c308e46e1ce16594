(** Cases for C72: runs of the game, attackers that win or are answered, and hash functions
    that meet the hypotheses. *)
From Coq Require Import List ZArith Lia Bool Arith.
From Verif.Base Require Import Res Oracles.
From Verif.Spec Require Import FIPS203 XWing Domains Noise Counting Random Lwe Attacker Tables Hybrid.
From Verif.Model Require Import Machine Util Algebra Compress Encode Crypto Sample Param Pke Kem XWing.
From Verif.Proofs Require Import Basics Field Poly CompressProofs NttAlgebra NttProofs EncodeProofs VecEncode SampleProofs CountProofs
  PkeProofs KemProofs Inner Correctness TailProofs FailureProofs FailureAverage FailureNumbers XWingProofs LweProofs AttackerProofs TableProofs HybridProofs.
From Verif.Properties Require Import Kem KemCases XWing Correctness Distribution Failure Secrecy KemSecrecy ActiveSecrecy ActiveCases X25519 XWingSecrecy.
From Coq Require Import QArith Qabs Lqa.
Import ListNotations.
Open Scope Z_scope.

Section Wins.
  Variable hs : hashes.
  Hypothesis Hhs : hash_ok hs.
  Variable X : x25519_impl.
  Hypothesis HX : x25519_ok X.
  Let P := ML_KEM_768.
  Variable n : nat.
  Variable rho : list Z.
  Hypothesis Hrho : byte_string 32 rho.
  Variable Ah : list (list (list Z)).
  Hypothesis EA : A_hat hs P n rho = Some Ah.
  Variables L LC LX LXC : list (list Z).
  Hypothesis HL : enumerates 32 L.
  Hypothesis HLC : enumerates (ct_len P) LC.
  Hypothesis HLX : enumerates 96 LX.
  Hypothesis HLXC : enumerates 1120 LXC.
  Variables S E Y W d sigma z : list Z.
  Hypothesis HS : byte_string (pk P * (64 * eta1 P)) S.
  Hypothesis HE : byte_string (pk P * (64 * eta1 P)) E.
  Hypothesis HY : byte_string (pk P * (64 * eta1 P)) Y.
  Hypothesis HW : byte_string ((pk P + 1) * (64 * eta2 P)) W.
  Hypothesis Hd : byte_string 32 d.
  Hypothesis Hs : byte_string 32 sigma.
  Hypothesis Hz : byte_string 32 z.
  Variables TK TR TF TH : list (list Z).
  Hypothesis HTK : table L L TK.
  Hypothesis HTR : table L L TR.
  Hypothesis HTF : table LC L TF.
  Hypothesis HTH : table LX L TH.
  Variable m : list Z.
  Hypothesis Hm : In m L.
  Hypothesis Hne : get L TR m <> sigma.
  Variables sk skx ekx : list Z.
  Hypothesis Hsk : byte_string 32 sk.
  Hypothesis Hskx : byte_string 32 skx.
  Hypothesis Hekx : byte_string 32 ekx.

  Let view att real V := xw_view hs Hhs X (proj1 HX) (proj2 HX) n rho Hrho Ah EA att L LC LX LXC HL HLC HLX HLXC S E Y W d sigma z
    HS HE HY HW Hd Hs Hz TK TR TF TH HTK HTR HTF HTH m Hm Hne sk skx ekx Hsk Hskx Hekx real V.

  (** every such run reaches the attacker *)
  Example C72_reached p real V :
    xw_game hs X n rho L LC LX LXC (fun _ _ _ => Answer p) real skx ekx TH V m S E Y W TR d sigma z TK TF sk = p.
  Proof. destruct (view (fun _ _ _ => Answer p) real V) as (dec & E1 & _). exact E1. Qed.

  (** an attacker that knows m as well as the X25519 secrets wins *)
  Definition xw_knows (pk c K : list Z) : attacker :=
    Ask Sha3_256 (firstn 1184 pk) 32 (fun h => Ask Sha3_512 (m ++ h) 64 (fun y =>
    Ask Sha3_256 (XWingLabel ++ firstn 32 y ++ x25519 X ekx (skipn 1184 pk) ++ skipn 1088 c ++ skipn 1184 pk) 32 (fun ss =>
    Answer (if list_eq_dec Z.eq_dec ss K then 1%Q else 0%Q)))).
  Example C72_case_knows V : let pkx := x25519 X skx X25519_BASE in
    entry LX TH (x25519 X ekx pkx ++ x25519 X ekx X25519_BASE ++ pkx) <> Some V ->
    xw_game hs X n rho L LC LX LXC xw_knows true skx ekx TH V m S E Y W TR d sigma z TK TF sk = 1%Q /\
    xw_game hs X n rho L LC LX LXC xw_knows false skx ekx TH V m S E Y W TR d sigma z TK TF sk = 0%Q.
  Proof.
    intros pkx HV. set (cx := x25519 X ekx X25519_BASE) in *. set (rest := x25519 X ekx pkx ++ cx ++ pkx) in *.
    assert (Hpkx : byte_string 32 pkx) by (apply HX; [exact Hskx|exact base_ok]).
    assert (Hcx : byte_string 32 cx) by (apply HX; [exact Hekx|exact base_ok]).
    assert (Ir : In rest LX).
    { apply HLX. apply (byte_string_app 32 64); [apply HX; assumption|]. apply (byte_string_app 32 32); assumption. }
    rewrite (entry_get LX L TH rest HTH Ir) in HV.
    assert (GO : forall real, xw_game hs X n rho L LC LX LXC xw_knows real skx ekx TH V m S E Y W TR d sigma z TK TF sk =
      if list_eq_dec Z.eq_dec (get LX TH rest) (if real then get LX TH rest else V) then 1%Q else 0%Q).
    { intros real. destruct (view xw_knows real V) as (dec & E1 & _). rewrite E1. clear E1. unfold xw_knows.
      fold pkx cx rest.
      match goal with |- run _ _ (Ask _ (firstn 1184 (?p ++ _)) _ _) = _ => set (pub := p) end.
      match goal with |- run ?h _ _ = _ => set (hX := h) end. cbv zeta.
      assert (Lp : length pub = 1184%nat) by exact (pub_len rho Hrho Ah S E).
      match goal with |- context [skipn 1088 (?p ++ cx)] => set (c0 := p) end.
      assert (Lc : length c0 = 1088%nat).
      { assert (I : In c0 LC) by (unfold c0; eapply c0_in; eassumption). apply HLC in I. exact (proj1 I). }
      rewrite !(firstn_app_exact Z 1184 pub) by exact Lp. rewrite !(skipn_app_exact Z 1184 pub) by exact Lp.
      rewrite (skipn_app_exact Z 1088 c0) by exact Lc. cbn [run reply].
      assert (E1 : sha3_256 hX pub = sha3_256 hs pub) by (unfold hX, pub; eapply hash_pub; eassumption).
      rewrite E1.
      assert (E2 : firstn 32 (sha3_512 hX (m ++ sha3_256 hs pub)) = get L TK m).
      { unfold hX, xw_world, active_world. cbn [with_seed with_H_table with_J_table with_G_table sha3_512].
        assert (Hm' : byte_string 32 m) by (apply HL, Hm).
        rewrite skipn_app_exact, firstn_app_exact by apply Hm'.
        destruct (list_eq_dec Z.eq_dec _ _) as [_|Q]; [|exfalso; apply Q; reflexivity].
        rewrite (entry_get L L TK _ HTK Hm), (entry_get L L TR _ HTR Hm).
        apply firstn_app_exact. apply (proj1 (proj2 HL _) (get_in L L TK m HTK Hm)). }
      rewrite E2.
      assert (E3 : sha3_256 hX (XWingLabel ++ get L TK m ++ rest) = get LX TH rest) by (unfold hX; eapply hash_K; eassumption).
      unfold rest in E3 at 1. rewrite E3. reflexivity. }
    rewrite !GO. split.
    - destruct (list_eq_dec Z.eq_dec (get LX TH rest) (get LX TH rest)) as [_|Q]; [reflexivity|contradiction].
    - destruct (list_eq_dec Z.eq_dec (get LX TH rest) V) as [Q|_]; [rewrite Q in HV; contradiction|reflexivity].
  Qed.

  (** the owner answers every ciphertext but the challenge with 32 bytes, and the challenge
      with nothing *)
  Example C72_case_answered (c : list Z -> list Z) real V : (forall c0, byte_string 1120 (c c0) /\ c c0 <> c0) ->
    xw_game hs X n rho L LC LX LXC (expects c 32) real skx ekx TH V m S E Y W TR d sigma z TK TF sk = 1%Q /\
    xw_game hs X n rho L LC LX LXC (expects (fun c0 => c0) 0) real skx ekx TH V m S E Y W TR d sigma z TK TF sk = 1%Q.
  Proof.
    intros Hc. split.
    - destruct (view (expects c 32) real V) as (dec & E1 & ED). rewrite E1. unfold expects. cbn [run]. rewrite ED. clear ED E1.
      match goal with |- context [list_eq_dec Z.eq_dec (c ?x) ?y] => change y with x; set (c0 := x) end.
      destruct (Hc c0) as [Hb Hn]. destruct (list_eq_dec Z.eq_dec (c c0) c0) as [Q|_]; [contradiction|].
      destruct (in_dec (list_eq_dec Z.eq_dec) (c c0) LXC) as [_|Q]; [|exfalso; apply Q, HLXC, Hb].
      match goal with |- context [length (sha3_256 ?h ?x)] =>
        assert (Hh : hash_ok h) by (eapply hXok; eassumption || apply HX);
        assert (Hx : bytes x) end.
      { assert (Hcx : byte_string 32 (skipn 1088 (c c0))) by (apply (byte_string_skipn 1088 32), Hb).
        assert (Hcm : byte_string 1088 (firstn 1088 (c c0))) by (apply (byte_string_firstn 1088 1120); [exact Hb|lia]).
        apply bytes_app; [repeat constructor; unfold is_byte; lia|]. apply bytes_app.
        - eapply value_bytes; try eassumption. apply HLC, Hcm.
        - apply bytes_app; [apply HX; assumption|]. apply bytes_app; [apply Hcx|apply HX; [exact Hskx|exact base_ok]]. }
      destruct (Hh _ Hx) as ((Hl & _) & _). rewrite Hl. reflexivity.
    - destruct (view (expects (fun c0 => c0) 0) real V) as (dec & E1 & ED). rewrite E1. unfold expects. cbn [run]. rewrite ED.
      destruct (list_eq_dec Z.eq_dec _ _) as [_|Q]; [reflexivity|exfalso; apply Q; reflexivity].
  Qed.
End Wins.

(** The hypotheses are met by RFC 7748's X25519, with [delta] = 0 for the hash functions
    [quiet]. *)
Example C72_case rho att N D : byte_string 32 rho -> (forall skx ekx ek c K, within N D (att skx ekx ek c K)) ->
  let P := ML_KEM_768 in
  let hs := quiet (pk P) (eta1 P) in
  let L := tuples (upto 256) 32 in
  let LC := tuples (upto 256) (ct_len P) in
  let LX := tuples (upto 256) 96 in
  let LXC := tuples (upto 256) 1120 in
  let LS := tuples (upto 256) (pk P * (64 * eta1 P)) in
  let LW := tuples (upto 256) ((pk P + 1) * (64 * eta2 P)) in
  let LR := words L (length L) in
  let LF := words L (length LC) in
  let LH := words L (length LX) in
  exists Ah, let A := map (map NTTinv) Ah in
  let B real skx ekx TH V := xw_attacker (x25519 rfc7748) LX LXC (att skx ekx) real skx ekx TH V in
  let gaps real skx ekx TH V :=
    (lwe_gap (pk P) (pk P) (eta1 P) (eta1 P) A LS LS (vectors (pk P)) (sim_key_test hs P 128 rho rho L LC LS LW LR LF (B real skx ekx TH V)) +
     average (vectors (pk P)) (fun t => lwe_gap (pk P) (pk P + 1) (eta1 P) (eta2 P) (ct_matrix (pk P) A t)
                            LS LW (vectors (pk P + 1)) (sim_ct_test hs P 128 rho L LC LR LF (B real skx ekx TH V) t)))%Q in
  (Qabs (xw_experiment hs rfc7748 128 rho att L LC LX LXC LS LS LS LW LR LR LF LH true -
         xw_experiment hs rfc7748 128 rho att L LC LX LXC LS LS LS LW LR LR LF LH false) <=
   (32 * inject_Z (Z.of_nat (N + D)) + 6) / inject_Z (2 ^ 256) + 6 / inject_Z (2 ^ 90) +
   2 * average L (fun skx => average L (fun ekx => average LH (fun TH => average L (fun V =>
     gaps true skx ekx TH V + gaps false skx ekx TH V)))))%Q.
Proof.
  intros Hrho Hatt P hs L LC LX LXC LS LW LR LF LH.
  destruct (unlucky_A P rho) as [Ah EA0]. assert (EA : A_hat hs P 128 rho = Some Ah) by exact EA0. clear EA0. exists Ah.
  assert (HL : enumerates 32 L) by apply enumeration.
  assert (HLS : enumerates (pk P * (64 * eta1 P)) LS) by apply enumeration.
  assert (H0 : forall S E m, In S LS -> In E LS -> In m L ->
    (average L (fun r => one_if (pke_fails hs P 128 (secret_bytes P S)
       (key_bytes P rho (lwe_samples (pk P) (pk P) (map (map NTTinv) Ah) (cbd_vec (eta1 P) (pk P) S) (cbd_vec (eta1 P) (pk P) E))) m r)) <= 0)%Q).
  { intros S E m HS HE Hm. apply average_bound; [apply Qle_refl|]. intros r Hr.
    pose proof (quiet_never_fails P rho Ah S E m r wf_768 ltac:(cbn [P ML_KEM_768 du]; lia) ltac:(cbn [P ML_KEM_768 dv]; lia) Hrho (proj1 (proj2 HL m) Hm) (proj1 (proj2 HL r) Hr)
      (proj1 (proj2 HLS S) HS) (proj1 (proj2 HLS E) HE) EA) as F. cbv zeta in F. fold hs in F. rewrite F. apply Qle_refl. }
  pose proof (C72_numbers hs rfc7748 128 rho Ah att N D L LC LX LXC LS LS LS LW LR LR LF LH (vectors (pk P)) (vectors (pk P + 1)) rho (fun _ _ => 0%Q)
    (quiet_ok _ _) Hrho Hrho rfc7748_ok EA Hatt HL (enumeration _) (enumeration _) (enumeration _) HLS HLS HLS (enumeration _)
    (tables_all L L (proj1 HL)) (tables_all L L (proj1 HL)) (tables_all LC L (proj1 HL)) (tables_all LX L (proj1 HL)) (vectors_all _) (vectors_all _) H0) as R.
  cbv zeta in R |- *. eapply Qle_trans; [exact R|]. clear R H0.
  assert (Z0 : (average LS (fun _ => average LS (fun _ => 0)) <= 0)%Q).
  { apply average_bound; [apply Qle_refl|]. intros x _. apply average_bound; [apply Qle_refl|]. intros y _. apply Qle_refl. }
  set (av := average LS (fun _ : list Z => average LS (fun _ : list Z => 0%Q))) in *. clearbody av.
  set (g := average L _). clearbody g.
  assert (N0 : (0 <= inject_Z (Z.of_nat (N + D)))%Q) by (change 0%Q with (inject_Z 0); rewrite <- Zle_Qle; lia).
  set (x := inject_Z (Z.of_nat (N + D))) in *. clearbody x.
  assert (M : (4 * x * av <= 0)%Q) by nra.
  set (b := (6 / inject_Z (2 ^ 90))%Q). set (a := ((32 * x + 6) / inject_Z (2 ^ 256))%Q). clearbody a b. lra.
Qed.

(** Cases for C78: the lists of its hypotheses exist, all matrices occur, and the attacker is
    reached. *)
From Coq Require Import List ZArith Lia Bool Arith.
From Verif.Base Require Import Res Oracles.
From Verif.Spec Require Import FIPS203 Domains Noise Counting Random Lwe Attacker Tables XWing Hybrid RandomLwe.
From Verif.Model Require Import Machine Crypto Param Pke Kem XWing.
From Verif.Proofs Require Import Basics Field Poly CompressProofs CountProofs PkeProofs KemProofs FailureProofs LweProofs AttackerProofs TableProofs UniformMatrix.
From Verif.Properties Require Import Kem Distribution Failure Secrecy KemSecrecy ActiveSecrecy ActiveCases X25519 WholeSession RandomMatrix
  XWingSecrecy MlweSecrecy.
From Coq Require Import QArith Qabs Lqa.
Import ListNotations.
Open Scope Z_scope.

Lemma matrices_all l k : all_matrices l k (words (vectors k) l).
Proof.
  split; [apply NoDup_words, (proj1 (vectors_all k))|]. intros M. rewrite in_words.
  split; intros [H1 H2]; (split; [exact H1|]); (eapply Forall_impl; [|exact H2]); intros v Hv; apply (proj2 (vectors_all k)); exact Hv.
Qed.

Example C78_case P delta hs rho att N D : In (P, delta) [(ML_KEM_512, 126); (ML_KEM_768, 152); (ML_KEM_1024, 163)] ->
  hash_ok hs -> byte_string 32 rho -> (forall ek c K, within N D (att ek c K)) ->
  let L := tuples (upto 256) 32 in
  let LC := tuples (upto 256) (ct_len P) in
  let LM := tuples (upto 256) (pk P * pk P * (3 * 280)) in
  let LS := tuples (upto 256) (pk P * (64 * eta1 P)) in
  let LW := tuples (upto 256) ((pk P + 1) * (64 * eta2 P)) in
  let LTY := words LS (length L) in
  let LTW := words LW (length L) in
  let LR := words L (length L) in
  let LF := words L (length LC) in
  let gap1 := mlwe_gap (pk P) (pk P) (eta1 P) (eta1 P) (words (vectors (pk P)) (pk P)) LS LS (vectors (pk P))
                (mlwe_key_test hs P 280 rho rho L LC LM LS LW LTY LTW LR LF att) in
  let gap2 := mlwe_gap (pk P) (pk P + 1) (eta1 P) (eta2 P) (words (vectors (pk P)) (pk P + 1)) LS LW (vectors (pk P + 1))
                (mlwe_ct_test hs P 280 rho L LC LM LTY LTW LR LF att) in
  (Qabs (random_experiment hs P 280 rho att L LC LM LS LS LS LW LTY LTW LR LR LF true -
         random_experiment hs P 280 rho att L LC LM LS LS LS LW LTY LTW LR LR LF false) <=
   2 * ((7 * inject_Z (Z.of_nat N) + 1) / inject_Z (2 ^ 256) +
        (inject_Z (Z.of_nat N) + 1) * (1 / inject_Z (2 ^ delta)) + Qabs gap1 + Qabs gap2))%Q.
Proof.
  intros HIn Hhs Hrho Hatt L LC LM LS LW LTY LTW LR LF.
  assert (HL : enumerates 32 L) by apply enumeration.
  assert (HLS : enumerates (pk P * (64 * eta1 P)) LS) by apply enumeration.
  assert (HLW : enumerates ((pk P + 1) * (64 * eta2 P)) LW) by apply enumeration.
  exact (C78_active P delta HIn hs 280 rho rho att N D L LC LM LS LS LS LW LTY LTW LR LR LF (vectors (pk P)) (vectors (pk P + 1)) _ _
    Hhs Hrho Hrho Hatt HL (enumeration _) (enumeration _) HLS HLS HLS HLW
    (tables_all L LS (proj1 HLS)) (tables_all L LW (proj1 HLW)) (tables_all L L (proj1 HL)) (tables_all L L (proj1 HL)) (tables_all LC L (proj1 HL))
    (vectors_all _) (vectors_all _) (matrices_all _ _) (matrices_all _ _)).
Qed.

(** From 128 draws on, every matrix is sampled from some answers of the XOF; with five blocks
    of SHAKE128 output, all but 2^-243 of the answers give a matrix. *)
Example C78_case_tapes hs P n rho LM A : (128 <= n)%nat -> enumerates (pk P * pk P * (3 * n)) LM -> mat (pk P) A ->
  matrix_tapes hs P n rho LM A <> [].
Proof.
  intros Hn HLM HA E. pose proof (tapes_count hs P n rho LM A HLM HA) as C. rewrite E in C.
  pose proof (accepting_pos 256 (2 * n) ltac:(lia)) as X.
  pose proof (Z.pow_pos_nonneg _ (Z.of_nat (pk P * pk P)) X ltac:(lia)) as Y. cbn [length] in C. lia.
Qed.
Example C78_case_found hs P rho LM : hash_ok hs -> wf_params P -> (pk P <= 4)%nat -> byte_string 32 rho ->
  enumerates (pk P * pk P * (3 * 280)) LM ->
  (1 - 1 / inject_Z (2 ^ 243) <= found_matrix hs P 280 rho LM)%Q.
Proof.
  intros Hhs HP Hk Hrho HLM. pose proof (matrix_average hs P rho rho rho LM Hhs HP Hk Hrho Hrho Hrho HLM) as A.
  set (v := (1 / inject_Z (2 ^ 243))%Q) in *. unfold found_matrix. set (none := fun M => match A_hat (with_matrix hs (pk P) (3 * 280) rho M) P 280 rho with Some _ => false | None => true end).
  change (average LM (fun M => one_if (none M)) <= v)%Q in A.
  assert (E : (average LM (fun M => match A_hat (with_matrix hs (pk P) (3 * 280) rho M) P 280 rho with Some _ => 1 | None => 0 end)
    == 1 - average LM (fun M => one_if (none M)))%Q).
  { rewrite <- (average_const LM 1) at 1 by exact (nonempty_enum P _ LM HLM). rewrite <- average_minus. apply average_ext. intros M _. unfold none.
    destruct (A_hat _ P 280 rho); reflexivity. }
  rewrite E. set (a := average LM (fun M => one_if (none M))) in *. clearbody a v. clear - A. lra.
Qed.

(** Whenever there is a matrix, the game with the random XOF and PRF reaches the attacker. *)
Example C78_case_reached hs P n rho L LC LY LW TY TW M Ah S E Y W d sigma z r TK TR TF m p real U :
  hash_ok hs -> wf_params P -> byte_string 32 rho ->
  enumerates 32 L -> enumerates (ct_len P) LC ->
  enumerates (pk P * (64 * eta1 P)) LY -> enumerates ((pk P + 1) * (64 * eta2 P)) LW ->
  table L LY TY -> table L LW TW -> byte_string (pk P * pk P * (3 * n)) M ->
  A_hat (random_hashes hs P n rho L TY TW M) P n rho = Some Ah ->
  byte_string (pk P * (64 * eta1 P)) S -> byte_string (pk P * (64 * eta1 P)) E ->
  byte_string (pk P * (64 * eta1 P)) Y -> byte_string ((pk P + 1) * (64 * eta2 P)) W ->
  byte_string 32 d -> byte_string 32 sigma -> byte_string 32 z ->
  table L L TK -> table L L TR -> table LC L TF -> In m L -> entry L TR m = Some r -> r <> sigma ->
  active_game (random_hashes hs P n rho L TY TW M) P n rho L LC (fun _ _ _ => Answer p) real m S E Y W TR d sigma z TK TF U = p.
Proof.
  intros Hhs HP Hrho HL HLC HLY HLW HTY HTW HM EA HS HE HY HW Hd Hs Hz HTK HTR HTF Hm Er Hne.
  pose proof (random_hashes_ok hs Hhs P n rho L LY LW HLY HLW TY TW HTY HTW M HM) as Hok.
  exact (C71_reached _ Hok P HP n rho Hrho Ah EA L LC HL HLC S E Y W d sigma z r HS HE HY HW Hd Hs Hz TK TR TF HTK HTR HTF m Hm Er Hne p real U).
Qed.

Theorem C78_xwing_rfc7748 hs n rho r0 att N D L LC LX LXC LM LS LE LY LW LTY LTW LR LK LF LH LT LV LA LB :
  let P := ML_KEM_768 in
  hash_ok hs -> byte_string 32 rho -> byte_string 32 r0 ->
  (forall skx ekx ek c K, within N D (att skx ekx ek c K)) ->
  enumerates 32 L -> enumerates 1088 LC -> enumerates 96 LX -> enumerates 1120 LXC -> enumerates (pk P * pk P * (3 * n)) LM ->
  enumerates (pk P * (64 * eta1 P)) LS -> enumerates (pk P * (64 * eta1 P)) LE ->
  enumerates (pk P * (64 * eta1 P)) LY -> enumerates ((pk P + 1) * (64 * eta2 P)) LW ->
  all_tables L LY LTY -> all_tables L LW LTW ->
  all_tables L L LR -> all_tables L L LK -> all_tables LC L LF -> all_tables LX L LH ->
  all_vectors (pk P) LT -> all_vectors (pk P + 1) LV -> all_matrices (pk P) (pk P) LA -> all_matrices (pk P + 1) (pk P) LB ->
  let B real skx ekx TH V := xw_attacker (x25519 rfc7748) LX LXC (att skx ekx) real skx ekx TH V in
  let gaps real skx ekx TH V :=
    (Qabs (mlwe_gap (pk P) (pk P) (eta1 P) (eta1 P) LA LS LE LT
             (mlwe_key_test hs P n rho r0 L LC LM LY LW LTY LTW LR LF (B real skx ekx TH V))) +
     Qabs (mlwe_gap (pk P) (pk P + 1) (eta1 P) (eta2 P) LB LY LW LV
             (mlwe_ct_test hs P n rho L LC LM LTY LTW LR LF (B real skx ekx TH V))))%Q in
  (Qabs (random_xw_experiment hs rfc7748 n rho att L LC LX LXC LM LS LE LY LW LTY LTW LR LK LF LH true -
         random_xw_experiment hs rfc7748 n rho att L LC LX LXC LM LS LE LY LW LTY LTW LR LK LF LH false) <=
   (32 * inject_Z (Z.of_nat (N + D)) + 6) / inject_Z (2 ^ 256) +
   (4 * inject_Z (Z.of_nat (N + D)) + 6) * (1 / inject_Z (2 ^ 152)) +
   2 * average L (fun skx => average L (fun ekx => average LH (fun TH => average L (fun V =>
     gaps true skx ekx TH V + gaps false skx ekx TH V)))))%Q.
Proof.
  intros P Hhs. exact (C78_xwing rfc7748 hs n rho r0 att N D L LC LX LXC LM LS LE LY LW LTY LTW LR LK LF LH LT LV LA LB Hhs rfc7748_ok).
Qed.

(** C78: secrecy of ML-KEM against active attackers from module-LWE with a random matrix, with
    numbers for all other terms.  C71 assumes a matrix and leaves open how often decryption
    fails; here the XOF and the PRF are random functions too, so that the matrix is uniform and
    the failures are bounded by C77. *)
From Coq Require Import List ZArith Lia Bool Arith.
From Verif.Base Require Import Res Oracles.
From Verif.Spec Require Import FIPS203 Domains Noise Counting Random Lwe Attacker Tables XWing Hybrid RandomLwe.
From Verif.Model Require Import Machine Util Algebra Compress Encode Crypto Sample Param Pke Kem XWing.
From Verif.Proofs Require Import Basics Field Poly CompressProofs NttAlgebra NttProofs EncodeProofs VecEncode SampleProofs CountProofs
  PkeProofs KemProofs XWingProofs Inner Correctness TailProofs FailureProofs LweProofs AttackerProofs TableProofs HybridProofs UniformMatrix.
From Verif.Properties Require Import Kem Correctness Distribution Tail Failure Secrecy KemSecrecy ActiveSecrecy
  XWing X25519 WholeSession RandomMatrix XWingSecrecy.
From Coq Require Import QArith Qabs Lqa.
Import ListNotations.
Open Scope Z_scope.

(** C71's experiment with random XOF and PRF answers *)
Definition random_experiment (hs : hashes) (P : params) (n : nat) (rho : list Z)
  (att : list Z -> list Z -> list Z -> attacker) (L LC LM LS LE LY LW : list (list Z))
  (LTY LTW LR LK LF : list (list (list Z))) (real : bool) : Q :=
  average LTY (fun TY => average LTW (fun TW => average LM (fun M =>
    active_experiment (random_hashes hs P n rho L TY TW M) P n rho att L LC LS LE LY LW LR LK LF real))).

(** ** the random hash functions *)
Lemma answer_twice ask1 m1 s1 B1 ask2 m2 s2 B2 old x t :
  answer ask1 m1 s1 B1 (answer ask2 m2 s2 B2 (answer ask1 m1 s1 B1 (answer ask2 m2 s2 B2 old))) x t =
  answer ask1 m1 s1 B1 (answer ask2 m2 s2 B2 old) x t.
Proof.
  unfold answer. destruct (find _ (seq 0 m1)); [reflexivity|]. destruct (find _ (seq 0 m2)); reflexivity.
Qed.

Section Hashes.
  Variable hs : hashes.
  Hypothesis Hhs : hash_ok hs.
  Variable P : params.
  Hypothesis HP : wf_params P.
  Let k := pk P.
  Variable n : nat.
  Variable rho : list Z.
  Hypothesis Hrho : byte_string 32 rho.
  Variables L LY LW : list (list Z).
  Hypothesis HL : enumerates 32 L.
  Hypothesis HLY : enumerates (k * (64 * eta1 P)) LY.
  Hypothesis HLW : enumerates ((k + 1) * (64 * eta2 P)) LW.
  Variables TY TW : list (list Z).
  Hypothesis HTY : table L LY TY.
  Hypothesis HTW : table L LW TW.
  Variable M : list Z.
  Hypothesis HM : byte_string (k * k * (3 * n)) M.
  Let RH := random_hashes hs P n rho L TY TW M.

  Lemma random_hashes_ok : hash_ok RH.
  Proof.
    apply with_matrix_ok; [|apply HM].
    intros x Hx. destruct (Hhs x Hx) as (H1 & H2 & H3 & H4). cbn [with_prf_tables sha3_256 sha3_512 shake128 shake256].
    split; [exact H1|]. split; [exact H2|]. split; [exact H3|].
    destruct (in_dec (list_eq_dec Z.eq_dec) (firstn 32 x) L) as [I|N].
    - rewrite (entry_get L LY TY _ HTY I), (entry_get L LW TW _ HTW I).
      apply (with_coins_ok hs P (firstn 32 x) _ _ Hhs); [apply HLY, (get_in L LY)|apply HLW, (get_in L LW)|exact Hx]; assumption.
    - rewrite !entry_none by exact N. exact H4.
  Qed.

  Lemma random_A_hat : A_hat RH P n rho = A_hat (with_matrix hs (pk P) (3 * n) rho M) P n rho.
  Proof. reflexivity. Qed.

  Lemma random_PRF r eta b : In r L ->
    FIPS203.PRF RH eta r b = FIPS203.PRF (with_coins RH P r (get L TY r) (get L TW r)) eta r b.
  Proof.
    intros I. unfold FIPS203.PRF, prefix. apply tab_ext. intros t _.
    assert (Lr : length r = 32%nat) by (apply HL in I; apply I).
    assert (Fx : firstn 32 (r ++ [Z.of_nat b]) = r) by (apply firstn_app_exact; exact Lr).
    assert (E : forall i, shake256 RH (r ++ [Z.of_nat b]) i = shake256 (with_coins hs P r (get L TY r) (get L TW r)) (r ++ [Z.of_nat b]) i).
    { intros i. unfold RH. cbn [random_hashes with_matrix with_prf_tables shake256]. rewrite Fx.
      rewrite (entry_get L LY TY _ HTY I), (entry_get L LW TW _ HTW I). reflexivity. }
    rewrite E. cbn [with_coins shake256].
    rewrite <- (answer_twice (ask_secrets r) (pk P) (64 * eta1 P) (get L TY r) (fun a => ask_secrets r (pk P + a)) (pk P + 1) (64 * eta2 P) (get L TW r)).
    unfold answer at 1 5. destruct (find _ (seq 0 (pk P))); [reflexivity|].
    unfold answer at 1 4. destruct (find _ (seq 0 (pk P + 1))); [reflexivity|].
    rewrite E. reflexivity.
  Qed.

  Lemma random_encrypt r ek m : In r L ->
    KPKE_Encrypt RH P n ek m r = KPKE_Encrypt (with_coins RH P r (get L TY r) (get L TW r)) P n ek m r.
  Proof.
    intros I. unfold KPKE_Encrypt.
    change (A_hat (with_coins RH P r (get L TY r) (get L TW r))) with (A_hat RH).
    destruct (A_hat RH P n (skipn (384 * pk P) ek)); [|reflexivity].
    assert (EN : forall eta N, noise RH P eta r N = noise (with_coins RH P r (get L TY r) (get L TW r)) P eta r N).
    { intros eta N. unfold noise. apply tab_ext. intros i _. rewrite random_PRF by exact I. reflexivity. }
    rewrite <- !EN, <- !random_PRF by exact I. reflexivity.
  Qed.

  (** decryption failures, in terms of C77's event *)
  Variable Ah : list (list (list Z)).
  Hypothesis EA : A_hat (with_matrix hs (pk P) (3 * n) rho M) P n rho = Some Ah.
  Let ek S E := key_bytes P rho (lwe_samples k k (map (map NTTinv) Ah) (cbd_vec (eta1 P) k S) (cbd_vec (eta1 P) k E)).

  Lemma coins_fail r S E Y W m : In Y LY -> In W LW ->
    pke_fails (with_coins RH P r Y W) P n (secret_bytes P S) (ek S E) m r = wrong_with hs P n rho m M S E Y W r.
  Proof.
    intros IY IW. apply HLY in IY. apply HLW in IW. unfold wrong_with. rewrite EA. unfold pke_fails, ek.
    rewrite (encrypt_lwe RH random_hashes_ok P HP n rho Ah _ m r Y W (proj2 Hrho) (lwe_samples_vec _ _ _ _ _) IY IW EA).
    assert (Hm : hash_ok (with_matrix hs (pk P) (3 * n) rho M)) by (apply with_matrix_ok; [exact Hhs|apply HM]).
    pose proof (encrypt_lwe _ Hm P HP n rho Ah _ m r Y W (proj2 Hrho)
      (lwe_samples_vec k k (map (map NTTinv) Ah) (cbd_vec (eta1 P) k S) (cbd_vec (eta1 P) k E)) IY IW EA) as X.
    unfold k in X. fold k in X |- *. rewrite X. reflexivity.
  Qed.
  Lemma random_fail r S E m : In r L ->
    pke_fails RH P n (secret_bytes P S) (ek S E) m r = wrong_with hs P n rho m M S E (get L TY r) (get L TW r) r.
  Proof.
    intros I. rewrite <- (coins_fail r S E _ _ m (get_in L LY TY r HTY I) (get_in L LW TW r HTW I)).
    unfold pke_fails. rewrite random_encrypt by exact I. reflexivity.
  Qed.
End Hashes.

(** ** without a matrix there is no game *)
Lemma keys_world_none h P n rho d z sigma r S E Y W : hash_ok h -> wf_params P ->
  byte_string 32 rho -> byte_string 32 d -> byte_string 32 z -> byte_string 32 sigma ->
  bytes S -> bytes E -> bytes Y -> bytes W ->
  A_hat h P n rho = None ->
  kem_generate_deterministic (keys_world h P rho d sigma r S E Y W) P n d z = NoFuel.
Proof.
  intros Hh HP Hrho Hd Hz Hs HS HE HY HW EA.
  set (w := keys_world h P rho d sigma r S E Y W).
  assert (Hw : hash_ok w).
  { apply with_secrets_ok; [|apply bytes_app; assumption]. apply with_coins_ok; [|assumption|assumption].
    apply with_sha3_512_ok; [exact Hh|]. apply (byte_string_app 32 32); assumption. }
  pose proof (generate_ok w Hw P HP n d z (proj2 Hd) Hz) as G. unfold KeyGen_internal, KPKE_KeyGen in G.
  assert (EG : FIPS203.G w (d ++ [Z.of_nat (pk P)]) = (rho, sigma)) by exact (seeded_G h P rho d sigma Hrho).
  rewrite EG in G. change (A_hat w P n rho) with (A_hat h P n rho) in G. rewrite EA in G. exact G.
Qed.

Lemma average_zero {X} (l : list X) f : (forall x, In x l -> f x == 0)%Q -> (average l f == 0)%Q.
Proof.
  intros H. unfold average. rewrite (total_ext l f (fun _ => 0%Q) H), total_zero. unfold Qdiv. ring.
Qed.

Lemma no_matrix_active h P n rho att L LC LS LE LY LW LR LK LF real : hash_ok h -> wf_params P -> byte_string 32 rho ->
  enumerates 32 L ->
  enumerates (pk P * (64 * eta1 P)) LS -> enumerates (pk P * (64 * eta1 P)) LE ->
  enumerates (pk P * (64 * eta1 P)) LY -> enumerates ((pk P + 1) * (64 * eta2 P)) LW ->
  A_hat h P n rho = None ->
  (active_experiment h P n rho att L LC LS LE LY LW LR LK LF real == 0)%Q.
Proof.
  intros Hh HP Hrho HL HLS HLE HLY HLW EA. unfold active_experiment.
  apply average_zero. intros m Hm. apply average_zero. intros S HS. apply average_zero. intros E HE.
  apply average_zero. intros Y HY. apply average_zero. intros W HW. apply average_zero. intros TR _.
  apply average_zero. intros d Hd. apply average_zero. intros sigma Hs. apply average_zero. intros z Hz.
  apply average_zero. intros TK _. apply average_zero. intros TF _. apply average_zero. intros U _.
  unfold active_game. destruct (entry L TR m) as [r|]; [|reflexivity].
  rewrite (keys_world_none h P n rho d z sigma r S E Y W Hh HP Hrho); [reflexivity|..];
    first [apply HL; assumption|apply HLS; assumption|apply HLE; assumption|apply HLY; assumption|apply HLW; assumption|exact EA].
Qed.

Open Scope Q_scope.

(** ** averages *)
Lemma table_average D LX LT (g : list Z -> Q) x : NoDup D -> NoDup LX -> LX <> [] -> all_tables D LX LT -> In x D ->
  average LT (fun T => g (get D T x)) == average LX g.
Proof.
  intros ND NX NE HT I.
  rewrite (resample D LX LT ND NX NE HT x (fun T => g (get D T x)) I).
  rewrite <- (average_const LT (average LX g) (tables_nonempty D LX LT NX NE HT)). apply average_ext. intros T _.
  apply average_ext. intros v _. rewrite get_updated by exact I. reflexivity.
Qed.

Lemma lwe_gap_ext k l eta_s eta_e M LS LE LU D D' : (forall t, D t == D' t) ->
  lwe_gap k l eta_s eta_e M LS LE LU D == lwe_gap k l eta_s eta_e M LS LE LU D'.
Proof.
  intros H. unfold lwe_gap. apply Qplus_comp.
  - apply average_ext. intros S _. apply average_ext. intros E _. apply H.
  - apply Qopp_comp, average_ext. intros t _. apply H.
Qed.
Lemma lwe_gap_average {X} (LX : list X) k l eta_s eta_e M LS LE LU D :
  average LX (fun x => lwe_gap k l eta_s eta_e M LS LE LU (D x)) ==
  lwe_gap k l eta_s eta_e M LS LE LU (fun t => average LX (fun x => D x t)).
Proof.
  unfold lwe_gap. rewrite average_minus. apply Qplus_comp; [|apply Qopp_comp].
  - rewrite average_swap. apply average_ext. intros S _. apply average_swap.
  - apply average_swap.
Qed.

Section Bound.
  Variable P : params.
  Variable delta : Z.
  Hypothesis HIn : In (P, delta) matrix_deltas.
  Let k := pk P.
  Variable hs : hashes.
  Hypothesis Hhs : hash_ok hs.
  Variable n : nat.
  Variables rho r0 : list Z.
  Hypothesis Hrho : byte_string 32 rho.
  Hypothesis Hr0 : byte_string 32 r0.
  Variables L LC LM LS LE LY LW : list (list Z).
  Variables LTY LTW LR LK LF LT LV : list (list (list Z)).
  Variables LA LB : list (list (list (list Z))).
  Hypothesis HL : enumerates 32 L.
  Hypothesis HLC : enumerates (ct_len P) LC.
  Hypothesis HLM : enumerates (k * k * (3 * n)) LM.
  Hypothesis HLS : enumerates (k * (64 * eta1 P)) LS.
  Hypothesis HLE : enumerates (k * (64 * eta1 P)) LE.
  Hypothesis HLY : enumerates (k * (64 * eta1 P)) LY.
  Hypothesis HLW : enumerates ((k + 1) * (64 * eta2 P)) LW.
  Hypothesis HLTY : all_tables L LY LTY.
  Hypothesis HLTW : all_tables L LW LTW.
  Hypothesis HLR : all_tables L L LR.
  Hypothesis HLK : all_tables L L LK.
  Hypothesis HLF : all_tables LC L LF.
  Hypothesis HLT : all_vectors k LT.
  Hypothesis HLV : all_vectors (k + 1) LV.
  Hypothesis HLA : all_matrices k k LA.
  Hypothesis HLB : all_matrices (k + 1) k LB.

  Hypothesis HP : wf_params P.
  Let RH TY TW M := random_hashes hs P n rho L TY TW M.
  Let fail := 1 / inject_Z (2 ^ delta).
  Let found := found_matrix hs P n rho LM.

  Lemma fail_pos : 0 <= fail.
  Proof.
    unfold fail, Qdiv. rewrite Qmult_1_l. apply Qinv_le_0_compat. change 0 with (inject_Z 0). rewrite <- Zle_Qle.
    destruct HIn as [E|[E|[E|[]]]]; apply (f_equal snd) in E; cbn [snd] in E; subst delta; discriminate.
  Qed.

  (** the fraction of encryption randomness for which some message fails *)
  Definition weak TY TW M S E : Q :=
    average L (fun r => one_if (existsb (fun m => wrong_with hs P n rho m M S E (get L TY r) (get L TW r) r) L)).
  Definition challenge M : Q :=
    average L (fun m => average LS (fun S => average LE (fun E => average LY (fun Y => average LW (fun W =>
      one_if (wrong_with hs P n rho m M S E Y W r0)))))).

  Lemma weak_average :
    average LTY (fun TY => average LTW (fun TW => average LM (fun M => average LS (fun S => average LE (fun E => weak TY TW M S E))))) <= fail.
  Proof.
    set (G := fun r Y W => average LM (fun M => average LS (fun S => average LE (fun E =>
      one_if (existsb (fun m => wrong_with hs P n rho m M S E Y W r) L))))).
    apply Qle_trans with (average L (fun r => average LTY (fun TY => average LTW (fun TW => G r (get L TY r) (get L TW r))))).
    - apply Qle_lteq. right. unfold weak, G.
      transitivity (average LTY (fun TY => average L (fun r => average LTW (fun TW => average LM (fun M => average LS (fun S => average LE (fun E =>
        one_if (existsb (fun m => wrong_with hs P n rho m M S E (get L TY r) (get L TW r) r) L)))))))).
      + apply average_ext. intros TY _. apply average_swap4.
      + apply average_swap.
    - apply average_bound; [exact fail_pos|]. intros r Ir.
      apply Qle_trans with (average LY (fun Y => average LW (fun W => G r Y W))).
      + apply Qle_lteq. right.
        transitivity (average LTY (fun TY => average LW (fun W => G r (get L TY r) W))).
        * apply average_ext. intros TY _.
          apply (table_average L LW LTW (fun W => G r (get L TY r) W) r (proj1 HL) (proj1 HLW) (nonempty_enum P _ LW HLW) HLTW Ir).
        * apply (table_average L LY LTY (fun Y => average LW (fun W => G r Y W)) r (proj1 HL) (proj1 HLY) (nonempty_enum P _ LY HLY) HLTY Ir).
      + eapply Qle_trans; [|apply (wrong_any_average P delta HIn hs n rho L LM LS LE LY LW r); try assumption;
          [intros m Im; apply HL, Im|apply HL, Ir]].
        apply Qle_lteq. right. unfold G.
        transitivity (average LM (fun M => average LS (fun S => average LE (fun E => average LW (fun W => average LY (fun Y =>
          one_if (existsb (fun m => wrong_with hs P n rho m M S E Y W r) L))))))).
        * rewrite (average_swap4 LM LS LE LW LY). apply average_ext. intros Y _.
          transitivity (average LM (fun M => average LW (fun W => average LS (fun S => average LE (fun E =>
            one_if (existsb (fun m => wrong_with hs P n rho m M S E Y W r) L)))))); [apply average_swap|].
          apply average_ext. intros M _.
          transitivity (average LS (fun S => average LW (fun W => average LE (fun E =>
            one_if (existsb (fun m => wrong_with hs P n rho m M S E Y W r) L))))); [apply average_swap|].
          apply average_ext. intros S _. apply average_swap.
        * apply average_ext. intros M _. apply average_ext. intros S _. apply average_ext. intros E _. apply average_swap.
  Qed.

  Lemma challenge_average : average LM challenge <= fail.
  Proof.
    unfold challenge. rewrite average_swap. apply average_bound; [exact fail_pos|]. intros m Im.
    apply (wrong_average P delta HIn); try assumption. apply HL, Im.
  Qed.

  (** ** the gaps *)
  Variable att : list Z -> list Z -> list Z -> attacker.
  Let key_gap TY TW M A := lwe_gap k k (eta1 P) (eta1 P) A LS LE LT (sim_key_test (RH TY TW M) P n rho r0 L LC LY LW LR LF att).
  Let ct_gap TY TW M A := average LT (fun t => lwe_gap k (k + 1) (eta1 P) (eta2 P) (ct_matrix k A t)
    LY LW LV (sim_ct_test (RH TY TW M) P n rho L LC LR LF att t)).
  Definition with_A (f : list (list Z) -> list (list Z) -> list Z -> list (list (list Z)) -> Q) TY TW M : Q :=
    match A_hat (with_matrix hs (pk P) (3 * n) rho M) P n rho with Some Ah => f TY TW M (map (map NTTinv) Ah) | None => 0 end.
  Definition key_gap_of : Q := mlwe_gap k k (eta1 P) (eta1 P) LA LS LE LT
    (mlwe_key_test hs P n rho r0 L LC LM LY LW LTY LTW LR LF att).
  Definition ct_gap_of : Q := mlwe_gap k (k + 1) (eta1 P) (eta2 P) LB LY LW LV
    (mlwe_ct_test hs P n rho L LC LM LTY LTW LR LF att).

  Lemma uniform_average f :
    average LTY (fun TY => average LTW (fun TW => average LM (fun M => with_A f TY TW M))) ==
    found * average LA (fun A => average LTY (fun TY => average LTW (fun TW => average (matrix_tapes hs P n rho LM A) (fun M => f TY TW M A)))).
  Proof.
    transitivity (average LTY (fun TY => average LTW (fun TW => found * average LA (fun A => average (matrix_tapes hs P n rho LM A) (fun M => f TY TW M A))))).
    { apply average_ext. intros TY _. apply average_ext. intros TW _.
      exact (average_uniform hs Hhs P HP n rho Hrho LM HLM LA HLA (fun A M => f TY TW M A)). }
    transitivity (average LTY (fun TY => found * average LTW (fun TW => average LA (fun A => average (matrix_tapes hs P n rho LM A) (fun M => f TY TW M A))))).
    { apply average_ext. intros TY _. apply average_scale. }
    rewrite average_scale. apply Qmult_comp; [reflexivity|].
    transitivity (average LTY (fun TY => average LA (fun A => average LTW (fun TW => average (matrix_tapes hs P n rho LM A) (fun M => f TY TW M A))))).
    { apply average_ext. intros TY _. apply average_swap. }
    apply average_swap.
  Qed.

  Lemma key_gap_average :
    average LTY (fun TY => average LTW (fun TW => average LM (fun M => with_A key_gap TY TW M))) == found * key_gap_of.
  Proof.
    rewrite uniform_average. apply Qmult_comp; [reflexivity|]. unfold key_gap_of, mlwe_gap.
    apply average_ext. intros A _. unfold key_gap, mlwe_key_test.
    transitivity (average LTY (fun TY => lwe_gap k k (eta1 P) (eta1 P) A LS LE LT (fun t => average LTW (fun TW =>
      average (matrix_tapes hs P n rho LM A) (fun M => sim_key_test (RH TY TW M) P n rho r0 L LC LY LW LR LF att t))))).
    { apply average_ext. intros TY _. rewrite <- lwe_gap_average. apply average_ext. intros TW _. apply lwe_gap_average. }
    apply lwe_gap_average.
  Qed.

  Lemma ct_matrix_parts A t : mat k A -> vec k t ->
    firstn k (ct_matrix k A t) = transposed k A /\ nth k (ct_matrix k A t) [] = t.
  Proof.
    intros HA Ht. unfold ct_matrix. assert (Lk : length (transposed k A) = k) by apply tab_length. split.
    - apply firstn_app_exact. exact Lk.
    - rewrite app_nth2 by lia. rewrite Lk, Nat.sub_diag. reflexivity.
  Qed.

  Lemma matrices_average (f : list (list (list Z)) -> Q) :
    average LA (fun A => average LT (fun t => f (ct_matrix k A t))) == average LB f.
  Proof.
    rewrite <- (average_prod LA LT (fun A t => f (ct_matrix k A t))).
    apply (average_bij (list_prod LA LT) LB (fun p => ct_matrix k (fst p) (snd p)) (fun B => (transposed k (firstn k B), nth k B [])) f).
    - apply NoDup_prod; [apply HLA|apply HLT].
    - apply HLB.
    - intros [A t] I. apply in_prod_iff in I. destruct I as [IA It]. apply HLA in IA. apply HLT in It. cbn [fst snd].
      destruct (ct_matrix_parts A t IA It) as [E1 E2]. split.
      + apply HLB. unfold ct_matrix. pose proof (transposed_mat k A IA) as [L1 F1]. split.
        * rewrite app_length, L1. reflexivity.
        * apply Forall_app. split; [exact F1|constructor; [exact It|constructor]].
      + rewrite E1, E2, transposed_involutive by exact IA. reflexivity.
    - intros B IB. apply HLB in IB. destruct IB as [LBn FB]. cbn [fst snd].
      assert (HA : mat k (firstn k B)).
      { split; [rewrite firstn_length; lia|]. apply Forall_forall. intros v Iv. rewrite Forall_forall in FB. apply FB.
        rewrite <- (firstn_skipn k B). apply in_or_app. left. exact Iv. }
      assert (Ht : vec k (nth k B [])).
      { rewrite Forall_forall in FB. apply FB, nth_In. lia. }
      split.
      + apply in_prod; [apply HLA; apply transposed_mat; exact HA|apply HLT; exact Ht].
      + unfold ct_matrix. rewrite transposed_involutive by exact HA.
        rewrite <- (firstn_skipn k B) at 3. f_equal.
        assert (LS1 : length (skipn k B) = 1%nat) by (rewrite skipn_length; lia).
        assert (EN : nth k B [] = nth 0 (skipn k B) []).
        { rewrite <- (firstn_skipn k B) at 1. rewrite app_nth2 by (rewrite firstn_length; lia).
          rewrite firstn_length. f_equal. lia. }
        rewrite EN. destruct (skipn k B) as [|x [|y l]]; [discriminate LS1|reflexivity|discriminate LS1].
  Qed.

  Lemma ct_gap_average :
    average LTY (fun TY => average LTW (fun TW => average LM (fun M => with_A ct_gap TY TW M))) == found * ct_gap_of.
  Proof.
    rewrite uniform_average. apply Qmult_comp; [reflexivity|]. unfold ct_gap_of, mlwe_gap.
    rewrite <- matrices_average. apply average_ext. intros A IA. apply HLA in IA. unfold ct_gap.
    set (g := fun t TY TW M => lwe_gap k (k + 1) (eta1 P) (eta2 P) (ct_matrix k A t) LY LW LV (sim_ct_test (RH TY TW M) P n rho L LC LR LF att t)).
    transitivity (average LT (fun t => average LTY (fun TY => average LTW (fun TW => average (matrix_tapes hs P n rho LM A) (fun M => g t TY TW M))))).
    { transitivity (average LTY (fun TY => average LTW (fun TW => average LT (fun t => average (matrix_tapes hs P n rho LM A) (fun M => g t TY TW M))))).
      - apply average_ext. intros TY _. apply average_ext. intros TW _. apply average_swap.
      - transitivity (average LTY (fun TY => average LT (fun t => average LTW (fun TW => average (matrix_tapes hs P n rho LM A) (fun M => g t TY TW M))))).
        + apply average_ext. intros TY _. apply average_swap.
        + apply average_swap. }
    apply average_ext. intros t It. apply HLT in It. unfold g.
    transitivity (lwe_gap k (k + 1) (eta1 P) (eta2 P) (ct_matrix k A t) LY LW LV (fun w => average LTY (fun TY => average LTW (fun TW =>
      average (matrix_tapes hs P n rho LM A) (fun M => sim_ct_test (RH TY TW M) P n rho L LC LR LF att t w))))).
    { rewrite <- lwe_gap_average. apply average_ext. intros TY _. rewrite <- lwe_gap_average. apply average_ext. intros TW _. apply lwe_gap_average. }
    apply lwe_gap_ext. intros w. unfold mlwe_ct_test. fold k. destruct (ct_matrix_parts A t IA It) as [E1 E2].
    rewrite E1, E2, transposed_involutive by exact IA. reflexivity.
  Qed.

  (** ** the bound, on average over the random functions *)
  Variables N D : nat.
  Hypothesis Hatt : forall ek c K, within N D (att ek c K).
  Let exp TY TW M real := active_experiment (RH TY TW M) P n rho att L LC LS LE LY LW LR LK LF real.
  Let unit := (7 * inject_Z (Z.of_nat N) + 1) / inject_Z (2 ^ 256).

  Lemma one_world TY TW M : In TY LTY -> In TW LTW -> In M LM ->
    Qabs (exp TY TW M true - exp TY TW M false) <=
    2 * (unit + inject_Z (Z.of_nat N) * average LS (fun S => average LE (fun E => weak TY TW M S E)) + challenge M
         + with_A key_gap TY TW M + with_A ct_gap TY TW M).
  Proof.
    intros ITY ITW IM. apply HLTY in ITY. apply HLTW in ITW. apply HLM in IM.
    pose proof (random_hashes_ok hs Hhs P n rho L LY LW HLY HLW TY TW ITY ITW M IM) as Hok. fold (RH TY TW M) in Hok.
    assert (EAR : A_hat (RH TY TW M) P n rho = A_hat (with_matrix hs (pk P) (3 * n) rho M) P n rho) by reflexivity.
    unfold with_A. destruct (A_hat (with_matrix hs (pk P) (3 * n) rho M) P n rho) as [Ah|] eqn:EA.
    - pose proof (C71_active (RH TY TW M) P n rho Ah att N D L LC LS LE LY LW LR LK LF LT LV r0 (weak TY TW M)
        Hok HP Hrho EAR Hatt HL HLC HLS HLE HLY HLW HLR HLK HLF HLT HLV) as C. cbv zeta in C.
      eapply Qle_trans; [apply C|].
      + intros S E m _ _ Im. unfold weak. apply average_le. intros r Ir.
        pose proof (random_fail hs Hhs P HP n rho Hrho L LY LW HL HLY HLW TY TW ITY ITW M IM Ah EA r S E m Ir) as X.
        fold (RH TY TW M) k in X |- *. rewrite X. clear X.
        apply one_if_mono. intros X. apply existsb_exists. exists m. split; assumption.
      + apply Qle_lteq. right. apply Qmult_comp; [reflexivity|]. apply Qplus_comp; [|reflexivity]. apply Qplus_comp; [|reflexivity].
        apply Qplus_comp; [reflexivity|]. unfold challenge.
        apply average_ext. intros m _. apply average_ext. intros S _. apply average_ext. intros E _.
        apply average_ext. intros Y IY. apply average_ext. intros W IW.
        pose proof (coins_fail hs Hhs P HP n rho Hrho L LY LW HLY HLW TY TW ITY ITW M IM Ah EA r0 S E Y W m IY IW) as X.
        fold (RH TY TW M) k in X |- *. rewrite X. reflexivity.
    - assert (Z0 : forall real, exp TY TW M real == 0).
      { intros real. exact (no_matrix_active (RH TY TW M) P n rho att L LC LS LE LY LW LR LK LF real Hok HP Hrho HL HLS HLE HLY HLW EAR). }
      rewrite !Z0. setoid_replace (0 - 0) with 0 by ring.
      assert (U0 : 0 <= unit).
      { unfold unit, Qdiv. apply Qmult_le_0_compat; [|discriminate]. pose proof (Zle_0_nat N) as X. rewrite Zle_Qle in X. change (inject_Z 0) with 0 in X. lra. }
      assert (W0 : 0 <= average LS (fun S => average LE (fun E => weak TY TW M S E))).
      { unfold weak. do 3 (apply average_nonneg; intros ? _). apply one_if_range. }
      assert (C0 : 0 <= challenge M).
      { unfold challenge. do 5 (apply average_nonneg; intros ? _). apply one_if_range. }
      assert (N0 : 0 <= inject_Z (Z.of_nat N)) by (change 0 with (inject_Z 0); rewrite <- Zle_Qle; lia).
      pose proof (Qmult_le_0_compat _ _ N0 W0) as X. change (Qabs 0) with 0. lra.
  Qed.

  Lemma world_average :
    average LTY (fun TY => average LTW (fun TW => average LM (fun M => Qabs (exp TY TW M true - exp TY TW M false)))) <=
    2 * (unit + (inject_Z (Z.of_nat N) + 1) * fail + found * (key_gap_of + ct_gap_of)).
  Proof.
    apply Qle_trans with (average LTY (fun TY => average LTW (fun TW => average LM (fun M =>
      2 * (unit + inject_Z (Z.of_nat N) * average LS (fun S => average LE (fun E => weak TY TW M S E)) + challenge M
         + with_A key_gap TY TW M + with_A ct_gap TY TW M))))).
    { apply average_le. intros TY ITY. apply average_le. intros TW ITW. apply average_le. intros M IM. apply one_world; assumption. }
    assert (NTY : LTY <> []) by exact (tables_nonempty L LY LTY (proj1 HLY) (nonempty_enum P _ LY HLY) HLTY).
    assert (NTW : LTW <> []) by exact (tables_nonempty L LW LTW (proj1 HLW) (nonempty_enum P _ LW HLW) HLTW).
    assert (NM : LM <> []) by exact (nonempty_enum P _ LM HLM).
    set (av := fun f : list (list Z) -> list (list Z) -> list Z -> Q => average LTY (fun TY => average LTW (fun TW => average LM (fun M => f TY TW M)))).
    assert (AP : forall f g, av (fun TY TW M => f TY TW M + g TY TW M) == av f + av g).
    { intros f g. unfold av. rewrite <- average_plus. apply average_ext. intros TY _. rewrite <- average_plus. apply average_ext. intros TW _. apply average_plus. }
    assert (AS : forall c f, av (fun TY TW M => c * f TY TW M) == c * av f).
    { intros c f. unfold av. rewrite <- average_scale. apply average_ext. intros TY _. rewrite <- average_scale. apply average_ext. intros TW _. apply average_scale. }
    assert (AC : forall c, av (fun _ _ _ => c) == c).
    { intros c. unfold av. rewrite !average_const by assumption. reflexivity. }
    change (av (fun TY TW M => 2 * (unit + inject_Z (Z.of_nat N) * average LS (fun S => average LE (fun E => weak TY TW M S E)) + challenge M
         + with_A key_gap TY TW M + with_A ct_gap TY TW M)) <= 2 * (unit + (inject_Z (Z.of_nat N) + 1) * fail + found * (key_gap_of + ct_gap_of))).
    rewrite AS. apply Qmult_le_l; [reflexivity|].
    rewrite (AP (fun TY TW M => unit + inject_Z (Z.of_nat N) * average LS (fun S => average LE (fun E => weak TY TW M S E)) + challenge M
         + with_A key_gap TY TW M) (with_A ct_gap)).
    rewrite (AP (fun TY TW M => unit + inject_Z (Z.of_nat N) * average LS (fun S => average LE (fun E => weak TY TW M S E)) + challenge M) (with_A key_gap)).
    rewrite (AP (fun TY TW M => unit + inject_Z (Z.of_nat N) * average LS (fun S => average LE (fun E => weak TY TW M S E))) (fun _ _ M => challenge M)).
    rewrite (AP (fun _ _ _ => unit) (fun TY TW M => inject_Z (Z.of_nat N) * average LS (fun S => average LE (fun E => weak TY TW M S E)))).
    rewrite AC, AS.
    change (av (with_A key_gap)) with (average LTY (fun TY => average LTW (fun TW => average LM (fun M => with_A key_gap TY TW M)))).
    change (av (with_A ct_gap)) with (average LTY (fun TY => average LTW (fun TW => average LM (fun M => with_A ct_gap TY TW M)))).
    rewrite key_gap_average, ct_gap_average.
    pose proof weak_average as WA.
    change (average LTY (fun TY => average LTW (fun TW => average LM (fun M => average LS (fun S => average LE (fun E => weak TY TW M S E))))))
      with (av (fun TY TW M => average LS (fun S => average LE (fun E => weak TY TW M S E)))) in WA.
    assert (CA : av (fun _ _ M => challenge M) <= fail).
    { unfold av. rewrite (average_const LTY), (average_const LTW) by assumption. exact challenge_average. }
    set (w := av (fun TY TW M => average LS _)) in *. set (c := av (fun _ _ M => challenge M)) in *.
    assert (N0 : 0 <= inject_Z (Z.of_nat N)) by (change 0 with (inject_Z 0); rewrite <- Zle_Qle; lia).
    pose proof (Qmult_le_compat_r _ _ (inject_Z (Z.of_nat N)) WA N0) as X.
    set (nn := inject_Z (Z.of_nat N)) in *.
    setoid_replace (nn * w) with (w * nn) by ring. setoid_replace ((nn + 1) * fail) with (fail * nn + fail) by ring.
    setoid_replace (found * (key_gap_of + ct_gap_of)) with (found * key_gap_of + found * ct_gap_of) by ring.
    set (g1 := found * key_gap_of). set (g2 := found * ct_gap_of). set (x := w * nn) in *. set (y := fail * nn) in *.
    clearbody x y g1 g2 c unit fail. clear - X CA. lra.
  Qed.
End Bound.

Open Scope Z_scope.

(** the same experiments for X-Wing *)
Definition random_xw_experiment (hs : hashes) (X : x25519_impl) (n : nat) (rho : list Z)
  (att : list Z -> list Z -> list Z -> list Z -> list Z -> attacker) (L LC LX LXC LM LS LE LY LW : list (list Z))
  (LTY LTW LR LK LF LH : list (list (list Z))) (real : bool) : Q :=
  average LTY (fun TY => average LTW (fun TW => average LM (fun M =>
    xw_experiment (random_hashes hs ML_KEM_768 n rho L TY TW M) X n rho att L LC LX LXC LS LE LY LW LR LK LF LH real))).

Lemma no_matrix_xw h X n rho att L LC LX LXC LS LE LY LW LR LK LF LH real : hash_ok h -> byte_string 32 rho ->
  let P := ML_KEM_768 in
  enumerates 32 L ->
  enumerates (pk P * (64 * eta1 P)) LS -> enumerates (pk P * (64 * eta1 P)) LE ->
  enumerates (pk P * (64 * eta1 P)) LY -> enumerates ((pk P + 1) * (64 * eta2 P)) LW ->
  A_hat h P n rho = None ->
  (xw_experiment h X n rho att L LC LX LXC LS LE LY LW LR LK LF LH real == 0)%Q.
Proof.
  intros Hh Hrho P HL HLS HLE HLY HLW EA. unfold xw_experiment.
  apply average_zero. intros skx _. apply average_zero. intros ekx _. apply average_zero. intros TH _. apply average_zero. intros V _.
  apply average_zero. intros m Hm. apply average_zero. intros S HS. apply average_zero. intros E HE.
  apply average_zero. intros Y HY. apply average_zero. intros W HW. apply average_zero. intros TR _.
  apply average_zero. intros d Hd. apply average_zero. intros sigma Hs. apply average_zero. intros z Hz.
  apply average_zero. intros TK _. apply average_zero. intros TF _. apply average_zero. intros sk _.
  unfold xw_game. destruct (entry L TR m) as [r|]; [|reflexivity]. destruct (entry L TK m) as [K|]; [|reflexivity].
  rewrite (keys_world_none h ML_KEM_768 n rho d z sigma r S E Y W Hh wf_768 Hrho); [reflexivity|..];
    first [apply HL; assumption|apply HLS; assumption|apply HLE; assumption|apply HLY; assumption|apply HLW; assumption|exact EA].
Qed.

Lemma part_of c x : (0 <= c <= 1 -> c * x <= Qabs x)%Q.
Proof.
  intros [H0 H1]. pose proof (Qle_Qabs x) as A. pose proof (Qabs_nonneg x) as B.
  pose proof (Qmult_le_compat_r x (Qabs x) c A H0) as C. pose proof (Qmult_le_compat_r c 1 (Qabs x) H1 B) as D.
  setoid_replace (c * x)%Q with (x * c)%Q by ring. setoid_replace (Qabs x * c)%Q with (c * Qabs x)%Q in C by ring. lra.
Qed.

(** ** C78

    Against every attacker that asks N hash queries (and any number of decapsulations), the
    code's shared secrets are indistinguishable from random up to
      (14 N + 2) / 2^256 + 2 (N + 1) / 2^delta + 2 |gap1| + 2 |gap2|,
    delta = 126, 152, 163, where gap1 and gap2 are the gaps of two given distinguishers for
    module-LWE with a uniformly random matrix. *)
Theorem C78_active P delta : In (P, delta) [(ML_KEM_512, 126); (ML_KEM_768, 152); (ML_KEM_1024, 163)] ->
  forall hs n rho r0 att N D L LC LM LS LE LY LW LTY LTW LR LK LF LT LV LA LB,
  hash_ok hs -> byte_string 32 rho -> byte_string 32 r0 ->
  (forall ek c K, within N D (att ek c K)) ->
  enumerates 32 L -> enumerates (ct_len P) LC -> enumerates (pk P * pk P * (3 * n)) LM ->
  enumerates (pk P * (64 * eta1 P)) LS -> enumerates (pk P * (64 * eta1 P)) LE ->
  enumerates (pk P * (64 * eta1 P)) LY -> enumerates ((pk P + 1) * (64 * eta2 P)) LW ->
  all_tables L LY LTY -> all_tables L LW LTW ->
  all_tables L L LR -> all_tables L L LK -> all_tables LC L LF ->
  all_vectors (pk P) LT -> all_vectors (pk P + 1) LV -> all_matrices (pk P) (pk P) LA -> all_matrices (pk P + 1) (pk P) LB ->
  let gap1 := mlwe_gap (pk P) (pk P) (eta1 P) (eta1 P) LA LS LE LT
                (mlwe_key_test hs P n rho r0 L LC LM LY LW LTY LTW LR LF att) in
  let gap2 := mlwe_gap (pk P) (pk P + 1) (eta1 P) (eta2 P) LB LY LW LV
                (mlwe_ct_test hs P n rho L LC LM LTY LTW LR LF att) in
  (Qabs (random_experiment hs P n rho att L LC LM LS LE LY LW LTY LTW LR LK LF true -
         random_experiment hs P n rho att L LC LM LS LE LY LW LTY LTW LR LK LF false) <=
   2 * ((7 * inject_Z (Z.of_nat N) + 1) / inject_Z (2 ^ 256) +
        (inject_Z (Z.of_nat N) + 1) * (1 / inject_Z (2 ^ delta)) + Qabs gap1 + Qabs gap2))%Q.
Proof.
  intros HIn hs n rho r0 att N D L LC LM LS LE LY LW LTY LTW LR LK LF LT LV LA LB Hhs Hrho Hr0 Hatt
    HL HLC HLM HLS HLE HLY HLW HLTY HLTW HLR HLK HLF HLT HLV HLA HLB gap1 gap2.
  pose proof (matrix_wf P delta HIn) as HP.
  pose proof (world_average P delta HIn hs Hhs n rho r0 Hrho Hr0 L LC LM LS LE LY LW LTY LTW LR LK LF LT LV LA LB
    HL HLC HLM HLS HLE HLY HLW HLTY HLTW HLR HLK HLF HLT HLV HLA HLB HP att N D Hatt) as W.
  eapply Qle_trans; [|eapply Qle_trans; [exact W|]].
  - unfold random_experiment. apply average_close. intros TY _. apply average_close. intros TW _. apply average_close. intros M _.
    apply Qle_refl.
  - apply Qmult_le_l; [reflexivity|].
    pose proof (part_of _ gap1 (found_range hs P n rho LM HLM)) as X1.
    pose proof (part_of _ gap2 (found_range hs P n rho LM HLM)) as X2.
    unfold key_gap_of, ct_gap_of. fold gap1 gap2. set (f := found_matrix hs P n rho LM) in *.
    setoid_replace (f * (gap1 + gap2))%Q with (f * gap1 + f * gap2)%Q by ring. 
    set (g1 := (f * gap1)%Q) in *. set (g2 := (f * gap2)%Q) in *. set (a1 := Qabs gap1) in *. set (a2 := Qabs gap2) in *.
    set (u := (_ / inject_Z (2 ^ 256))%Q). set (v := (_ * (1 / inject_Z (2 ^ delta)))%Q). 
    clearbody g1 g2 a1 a2 u v. clear - X1 X2. lra.
Qed.

(** X-Wing when the X25519 secrets are known to the attacker. *)
Theorem C78_xwing X hs n rho r0 att N D L LC LX LXC LM LS LE LY LW LTY LTW LR LK LF LH LT LV LA LB :
  let P := ML_KEM_768 in
  hash_ok hs -> x25519_ok X -> byte_string 32 rho -> byte_string 32 r0 ->
  (forall skx ekx ek c K, within N D (att skx ekx ek c K)) ->
  enumerates 32 L -> enumerates 1088 LC -> enumerates 96 LX -> enumerates 1120 LXC -> enumerates (pk P * pk P * (3 * n)) LM ->
  enumerates (pk P * (64 * eta1 P)) LS -> enumerates (pk P * (64 * eta1 P)) LE ->
  enumerates (pk P * (64 * eta1 P)) LY -> enumerates ((pk P + 1) * (64 * eta2 P)) LW ->
  all_tables L LY LTY -> all_tables L LW LTW ->
  all_tables L L LR -> all_tables L L LK -> all_tables LC L LF -> all_tables LX L LH ->
  all_vectors (pk P) LT -> all_vectors (pk P + 1) LV -> all_matrices (pk P) (pk P) LA -> all_matrices (pk P + 1) (pk P) LB ->
  let B real skx ekx TH V := xw_attacker (x25519 X) LX LXC (att skx ekx) real skx ekx TH V in
  let gaps real skx ekx TH V :=
    (Qabs (mlwe_gap (pk P) (pk P) (eta1 P) (eta1 P) LA LS LE LT
             (mlwe_key_test hs P n rho r0 L LC LM LY LW LTY LTW LR LF (B real skx ekx TH V))) +
     Qabs (mlwe_gap (pk P) (pk P + 1) (eta1 P) (eta2 P) LB LY LW LV
             (mlwe_ct_test hs P n rho L LC LM LTY LTW LR LF (B real skx ekx TH V))))%Q in
  (Qabs (random_xw_experiment hs X n rho att L LC LX LXC LM LS LE LY LW LTY LTW LR LK LF LH true -
         random_xw_experiment hs X n rho att L LC LX LXC LM LS LE LY LW LTY LTW LR LK LF LH false) <=
   (32 * inject_Z (Z.of_nat (N + D)) + 6) / inject_Z (2 ^ 256) +
   (4 * inject_Z (Z.of_nat (N + D)) + 6) * (1 / inject_Z (2 ^ 152)) +
   2 * average L (fun skx => average L (fun ekx => average LH (fun TH => average L (fun V =>
     gaps true skx ekx TH V + gaps false skx ekx TH V)))))%Q.
Proof.
  intros P Hhs HX Hrho Hr0 Hatt HL HLC HLX HLXC HLM HLS HLE HLY HLW HLTY HLTW HLR HLK HLF HLH HLT HLV HLA HLB B gaps.
  assert (HIn : In (P, 152) matrix_deltas) by (right; left; reflexivity).
  assert (HB : forall real skx ekx TH V ek c K, within (N + D) D (B real skx ekx TH V ek c K)) by (intros; apply wrap_within, Hatt).
  set (RH := fun TY TW M => random_hashes hs P n rho L TY TW M).
  set (exp := fun real skx ekx TH V TY TW M b => active_experiment (RH TY TW M) P n rho (B real skx ekx TH V) L LC LS LE LY LW LR LK LF b).
  set (adv := fun real skx ekx TH V TY TW M => Qabs (exp real skx ekx TH V TY TW M true - exp real skx ekx TH V TY TW M false)).
  set (u := ((4 * inject_Z (Z.of_nat (N + D)) + 2) / inject_Z (2 ^ 256))%Q).
  assert (NTY : LTY <> []) by exact (tables_nonempty L LY LTY (proj1 HLY) (nonempty_enum P _ LY HLY) HLTY).
  assert (NTW : LTW <> []) by exact (tables_nonempty L LW LTW (proj1 HLW) (nonempty_enum P _ LW HLW) HLTW).
  assert (NM : LM <> []) by exact (nonempty_enum P _ LM HLM).
  assert (NLH : LH <> []) by exact (tables_nonempty LX L LH (proj1 HL) (L_nonempty L HL) HLH).
  set (av := fun f : list (list Z) -> list (list Z) -> list Z -> Q => average LTY (fun TY => average LTW (fun TW => average LM (fun M => f TY TW M)))).
  assert (AP : forall f g, (av (fun TY TW M => f TY TW M + g TY TW M) == av f + av g)%Q).
  { intros f g. unfold av. rewrite <- average_plus. apply average_ext. intros TY _. rewrite <- average_plus. apply average_ext. intros TW _. apply average_plus. }
  assert (AX : forall T (l : list T) f, (av (fun TY TW M => average l (fun x => f x TY TW M)) == average l (fun x => av (f x)))%Q).
  { intros T l f. unfold av.
    transitivity (average LTY (fun TY => average l (fun x => average LTW (fun TW => average LM (fun M => f x TY TW M))))); [|apply average_swap].
    apply average_ext. intros TY _.
    transitivity (average LTW (fun TW => average l (fun x => average LM (fun M => f x TY TW M)))); [|apply average_swap].
    apply average_ext. intros TW _. apply average_swap. }
  assert (AC : forall c, (av (fun _ _ _ => c) == c)%Q).
  { intros c. unfold av. rewrite !average_const by assumption. reflexivity. }
  (* one world *)
  assert (ONE : forall TY TW M, In TY LTY -> In TW LTW -> In M LM ->
    (Qabs (xw_experiment (RH TY TW M) X n rho att L LC LX LXC LS LE LY LW LR LK LF LH true -
           xw_experiment (RH TY TW M) X n rho att L LC LX LXC LS LE LY LW LR LK LF LH false) <=
     average L (fun skx => average L (fun ekx => average LH (fun TH => average L (fun V =>
       adv true skx ekx TH V TY TW M + adv false skx ekx TH V TY TW M)))) + u +
     2 * challenge P hs n rho r0 L LS LE LY LW M)%Q).
  { intros TY TW M ITY ITW IM. apply HLTY in ITY. apply HLTW in ITW. apply HLM in IM.
    pose proof (random_hashes_ok hs Hhs P n rho L LY LW HLY HLW TY TW ITY ITW M IM) as Hok. fold (RH TY TW M) in Hok.
    assert (EAR : A_hat (RH TY TW M) P n rho = A_hat (with_matrix hs (pk P) (3 * n) rho M) P n rho) by reflexivity.
    destruct (A_hat (with_matrix hs (pk P) (3 * n) rho M) P n rho) as [Ah|] eqn:EA.
    - pose proof (C72_reduction (RH TY TW M) X n rho Ah att N D L LC LX LXC LS LE LY LW LR LK LF LH r0 Hok Hrho HX EAR Hatt
        HL HLC HLX HLXC HLS HLE HLY HLW HLR HLK HLF HLH) as [_ R]. cbv zeta in R.
      eapply Qle_trans; [exact R|]. apply Qle_lteq. right. apply Qplus_comp; [reflexivity|]. apply Qmult_comp; [reflexivity|].
      unfold challenge.
      apply average_ext. intros m _. apply average_ext. intros S _. apply average_ext. intros E _.
      apply average_ext. intros Y IY. apply average_ext. intros W IW.
      pose proof (coins_fail hs Hhs P wf_768 n rho Hrho L LY LW HLY HLW TY TW ITY ITW M IM Ah EA r0 S E Y W m IY IW) as F.
      fold (RH TY TW M) in F. fold P. rewrite F. reflexivity.
    - assert (Z0 : forall b, (xw_experiment (RH TY TW M) X n rho att L LC LX LXC LS LE LY LW LR LK LF LH b == 0)%Q).
      { intros b. exact (no_matrix_xw (RH TY TW M) X n rho att L LC LX LXC LS LE LY LW LR LK LF LH b Hok Hrho HL HLS HLE HLY HLW EAR). }
      rewrite !Z0. setoid_replace (0 - 0)%Q with 0%Q by ring. change (Qabs 0) with 0%Q.
      assert (U0 : (0 <= u)%Q).
      { unfold u, Qdiv. apply Qmult_le_0_compat; [|discriminate]. pose proof (Zle_0_nat (N + D)) as Y. rewrite Zle_Qle in Y. change (inject_Z 0) with 0%Q in Y. lra. }
      assert (C0 : (0 <= challenge P hs n rho r0 L LS LE LY LW M)%Q).
      { unfold challenge. do 5 (apply average_nonneg; intros ? _). apply one_if_range. }
      assert (A0 : (0 <= average L (fun skx => average L (fun ekx => average LH (fun TH => average L (fun V =>
       adv true skx ekx TH V TY TW M + adv false skx ekx TH V TY TW M)))))%Q).
      { do 4 (apply average_nonneg; intros ? _). unfold adv.
        match goal with |- (0 <= Qabs ?a + Qabs ?b)%Q => pose proof (Qabs_nonneg a); pose proof (Qabs_nonneg b) end. lra. }
      lra. }
  (* each adversary *)
  set (unit := ((7 * inject_Z (Z.of_nat (N + D)) + 1) / inject_Z (2 ^ 256))%Q).
  set (fl := ((inject_Z (Z.of_nat (N + D)) + 1) * (1 / inject_Z (2 ^ 152)))%Q).
  assert (ADV : forall real skx ekx TH V, (av (adv real skx ekx TH V) <= 2 * (unit + fl) + 2 * gaps real skx ekx TH V)%Q).
  { intros real skx ekx TH V.
    pose proof (world_average P 152 HIn hs Hhs n rho r0 Hrho Hr0 L LC LM LS LE LY LW LTY LTW LR LK LF LT LV LA LB
      HL HLC HLM HLS HLE HLY HLW HLTY HLTW HLR HLK HLF HLT HLV HLA HLB wf_768 (B real skx ekx TH V) (N + D)%nat D (HB real skx ekx TH V)) as Wd.
    eapply Qle_trans; [exact Wd|]. unfold gaps, key_gap_of, ct_gap_of.
    set (g1 := mlwe_gap _ _ _ _ _ _ _ _ (mlwe_key_test _ _ _ _ _ _ _ _ _ _ _ _ _ _ _)).
    set (g2 := mlwe_gap _ _ _ _ _ _ _ _ (mlwe_ct_test _ _ _ _ _ _ _ _ _ _ _ _)).
    pose proof (part_of _ g1 (found_range hs P n rho LM HLM)) as X1.
    pose proof (part_of _ g2 (found_range hs P n rho LM HLM)) as X2.
    set (f := found_matrix hs P n rho LM) in *.
    setoid_replace (f * (g1 + g2))%Q with (f * g1 + f * g2)%Q by ring.
    fold unit fl. set (h1 := (f * g1)%Q) in *. set (h2 := (f * g2)%Q) in *. set (a1 := Qabs g1) in *. set (a2 := Qabs g2) in *.
    clearbody h1 h2 a1 a2 unit fl. clear - X1 X2. lra. }
  pose proof (challenge_average P 152 HIn hs Hhs n rho r0 Hrho Hr0 L LM LS LE LY LW HL HLM HLS HLE HLY HLW) as CH.
  (* all worlds *)
  clearbody adv gaps.
  apply Qle_trans with (av (fun TY TW M => average L (fun skx => average L (fun ekx => average LH (fun TH => average L (fun V =>
       adv true skx ekx TH V TY TW M + adv false skx ekx TH V TY TW M)))) + u +
     2 * challenge P hs n rho r0 L LS LE LY LW M)%Q).
  { unfold random_xw_experiment, av. apply average_close. intros TY ITY. apply average_close. intros TW ITW. apply average_close. intros M IM.
    exact (ONE TY TW M ITY ITW IM). }
  rewrite (AP (fun TY TW M => average L (fun skx => average L (fun ekx => average LH (fun TH => average L (fun V =>
       adv true skx ekx TH V TY TW M + adv false skx ekx TH V TY TW M)))) + u)%Q (fun _ _ M => 2 * challenge P hs n rho r0 L LS LE LY LW M)%Q).
  rewrite (AP (fun TY TW M => average L (fun skx => average L (fun ekx => average LH (fun TH => average L (fun V =>
       adv true skx ekx TH V TY TW M + adv false skx ekx TH V TY TW M)))))%Q (fun _ _ _ => u)).
  rewrite AC.
  assert (C2 : (av (fun _ _ M => 2 * challenge P hs n rho r0 L LS LE LY LW M) <= 2 * (1 / inject_Z (2 ^ 152)))%Q).
  { unfold av. rewrite (average_const LTY), (average_const LTW) by assumption. rewrite average_scale.
    apply Qmult_le_l; [reflexivity|]. exact CH. }
  set (b := (4 * (unit + fl))%Q).
  assert (SH : forall T (l : list T) f, l <> [] -> (average l (fun x => b + 2 * f x) == b + 2 * average l f)%Q).
  { intros T l f Nl. rewrite average_plus, (average_const l _ Nl), average_scale. reflexivity. }
  assert (MM : (av (fun TY TW M => average L (fun skx => average L (fun ekx => average LH (fun TH => average L (fun V =>
       adv true skx ekx TH V TY TW M + adv false skx ekx TH V TY TW M))))) <=
    b + 2 * average L (fun skx => average L (fun ekx => average LH (fun TH => average L (fun V =>
     gaps true skx ekx TH V + gaps false skx ekx TH V)))))%Q).
  { apply Qle_trans with (average L (fun skx => average L (fun ekx => average LH (fun TH => average L (fun V =>
      b + 2 * (gaps true skx ekx TH V + gaps false skx ekx TH V))))))%Q.
    - rewrite (AX _ L (fun skx TY TW M => average L (fun ekx => average LH (fun TH => average L (fun V =>
        adv true skx ekx TH V TY TW M + adv false skx ekx TH V TY TW M))))%Q).
      apply average_le. intros skx _.
      rewrite (AX _ L (fun ekx TY TW M => average LH (fun TH => average L (fun V =>
        adv true skx ekx TH V TY TW M + adv false skx ekx TH V TY TW M)))%Q).
      apply average_le. intros ekx _.
      rewrite (AX _ LH (fun TH TY TW M => average L (fun V =>
        adv true skx ekx TH V TY TW M + adv false skx ekx TH V TY TW M))%Q).
      apply average_le. intros TH _.
      rewrite (AX _ L (fun V TY TW M => adv true skx ekx TH V TY TW M + adv false skx ekx TH V TY TW M)%Q).
      apply average_le. intros V _. rewrite AP.
      pose proof (ADV true skx ekx TH V) as A1. pose proof (ADV false skx ekx TH V) as A2.
      change (fun TY TW M => adv true skx ekx TH V TY TW M) with (adv true skx ekx TH V).
      change (fun TY TW M => adv false skx ekx TH V TY TW M) with (adv false skx ekx TH V).
      set (g1 := gaps true skx ekx TH V) in *. set (g2 := gaps false skx ekx TH V) in *.
      set (v1 := av (adv true skx ekx TH V)) in *. set (v2 := av (adv false skx ekx TH V)) in *. unfold b. clearbody g1 g2 v1 v2 unit fl. clear - A1 A2. lra.
    - apply Qle_lteq. right. rewrite <- SH by exact (L_nonempty L HL). apply average_ext. intros ? _.
      rewrite <- SH by exact (L_nonempty L HL). apply average_ext. intros ? _. rewrite <- SH by exact NLH. apply average_ext. intros ? _.
      rewrite <- SH by exact (L_nonempty L HL). reflexivity. }
  set (x := av (fun TY TW M => average L _)) in *. set (y := av _) in *. set (g := average L _) in *.
  assert (EB : (b + 2 * g + u + 2 * (1 / inject_Z (2 ^ 152)) == (32 * inject_Z (Z.of_nat (N + D)) + 6) / inject_Z (2 ^ 256) +
   (4 * inject_Z (Z.of_nat (N + D)) + 6) * (1 / inject_Z (2 ^ 152)) + 2 * g)%Q).
  { unfold b, unit, fl, u, Qdiv. ring. }
  rewrite <- EB. clearbody x y g b u. clear - MM C2. lra.
Qed.

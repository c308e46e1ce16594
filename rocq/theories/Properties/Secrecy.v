(** C69, C70: confidentiality, by reduction to the module learning-with-errors problem
    (Spec/Lwe.v).

    Probabilities are averages, over lists of all byte strings of some length, of numbers
    that the attacker's answers are weighted with.  The theorems are equations and
    inequalities between such averages: nothing is assumed about how hard MLWE is.  The
    reductions are explicit: [key_test] and [ct_test] of Spec/Lwe.v. *)
From Coq Require Import List ZArith Lia Bool Arith.
From Verif.Base Require Import Res Oracles.
From Verif.Spec Require Import FIPS203 Domains Noise Counting Random Lwe.
From Verif.Model Require Import Machine Util Algebra Compress Encode Crypto Sample Param Pke Kem.
From Verif.Proofs Require Import Basics Field Poly CompressProofs NttAlgebra NttProofs EncodeProofs VecEncode SampleProofs CountProofs
  PkeProofs KemProofs Inner Correctness TailProofs FailureProofs FailureAverage FailureNumbers LweProofs.
From Verif.Tests Require Import Toy.
From Verif.Properties Require Import Kem KemCases Correctness Distribution Failure.
From Coq Require Import QArith Qabs Lqa.
Import ListNotations.
Open Scope Z_scope.

(** ** C69: K-PKE *)

(** Generate a key pair from [d], let the attacker choose a message for the public key,
    encrypt it with randomness [r], and let the attacker judge: [T ek c] is the probability
    that it answers 1 on the public key and the ciphertext. *)
Definition pke_run (hs : hashes) (P : params) (n : nat) (d r : list Z)
  (message : list Z -> list Z) (T : list Z -> list Z -> Q) : Q :=
  match pke_generate hs P n d with
  | Ok (_, ek) =>
      match ek_as_bytes P ek with
      | Ok ekb =>
          match encrypt hs P n ek (message ekb) r with
          | Ok c => T ekb c
          | _ => 0%Q
          end
      | _ => 0%Q
      end
  | _ => 0%Q
  end.

(** The probability of the answer 1, when the PRF outputs that the run uses are uniform and
    independent: S and E for s and e, Y for y, W for e1 and e2. *)
Definition pke_experiment (hs : hashes) (P : params) (n : nat) (d r : list Z) (LS LE LY LW : list (list Z))
  (message : list Z -> list Z) (T : list Z -> list Z -> Q) : Q :=
  average LS (fun S => average LE (fun E => average LY (fun Y => average LW (fun W =>
    pke_run (with_secrets (with_coins hs P r Y W) P (sigma_of hs P d) (S ++ E)) P n d r message T)))).

Section Pke.
  Variable hs : hashes.
  Hypothesis Hhs : hash_ok hs.
  Variable P : params.
  Hypothesis HP : wf_params P.
  Let k := pk P.
  Variable n : nat.
  Variables d r : list Z.
  Hypothesis Hd : byte_string 32 d.
  Hypothesis Hr : byte_string 32 r.
  Hypothesis Hne : r <> sigma_of hs P d.
  Let rho := key_rho hs P d.
  Variable Ah : list (list (list Z)).
  Hypothesis EA : A_hat hs P n rho = Some Ah.
  Let A := map (map NTTinv) Ah.
  Variables LS LE LY LW : list (list Z).
  Variables LT LV : list (list (list Z)).
  Hypothesis HLS : enumerates (k * (64 * eta1 P)) LS.
  Hypothesis HLE : enumerates (k * (64 * eta1 P)) LE.
  Hypothesis HLY : enumerates (k * (64 * eta1 P)) LY.
  Hypothesis HLW : enumerates ((k + 1) * (64 * eta2 P)) LW.
  Hypothesis HLT : all_vectors k LT.
  Hypothesis HLV : all_vectors (k + 1) LV.

  Lemma rho_bytes : bytes rho.
  Proof.
    assert (Hb : bytes (d ++ [Z.of_nat (pk P)])).
    { apply bytes_app; [apply Hd|]. apply bytes_cons; [|apply bytes_nil].
      pose proof (k_range P HP). unfold is_byte. lia. }
    exact (proj2 (proj1 (G_bytes hs Hhs _ Hb))).
  Qed.

  (** encryption does not see the answers for the secrets *)
  Lemma encrypt_world Y W B ekb m :
    KPKE_Encrypt (with_secrets (with_coins hs P r Y W) P (sigma_of hs P d) B) P n ekb m r =
    KPKE_Encrypt (with_coins hs P r Y W) P n ekb m r.
  Proof.
    set (h' := with_coins hs P r Y W).
    unfold KPKE_Encrypt.
    change (A_hat (with_secrets h' P (sigma_of hs P d) B)) with (A_hat h').
    assert (EN : forall eta N, noise (with_secrets h' P (sigma_of hs P d) B) P eta r N = noise h' P eta r N).
    { intros eta N. exact (noise_other h' P d r Hne B eta N). }
    assert (EP : forall eta N, FIPS203.PRF (with_secrets h' P (sigma_of hs P d) B) eta r N = FIPS203.PRF h' eta r N).
    { intros eta N. exact (PRF_other h' P d r Hne B eta N). }
    destruct (A_hat h' P n (skipn (384 * pk P) ekb)); [|reflexivity].
    rewrite !EN, !EP. reflexivity.
  Qed.

  Lemma pke_run_lwe S E Y W message T : byte_string (k * (64 * eta1 P)) S -> byte_string (k * (64 * eta1 P)) E ->
    byte_string (k * (64 * eta1 P)) Y -> byte_string ((k + 1) * (64 * eta2 P)) W ->
    (forall x, byte_string 32 (message x)) ->
    pke_run (with_secrets (with_coins hs P r Y W) P (sigma_of hs P d) (S ++ E)) P n d r message T =
    let ek := key_bytes P rho (lwe_samples k k A (cbd_vec (eta1 P) k S) (cbd_vec (eta1 P) k E)) in
    match KPKE_Encrypt (with_coins hs P r Y W) P n ek (message ek) r with
    | Some c => T ek c
    | None => 0%Q
    end.
  Proof.
    intros HS HE HY HW Hm. cbv zeta.
    set (h := with_secrets (with_coins hs P r Y W) P (sigma_of hs P d) (S ++ E)).
    assert (HB : byte_string (2 * k * (64 * eta1 P)) (S ++ E)).
    { replace (2 * k * (64 * eta1 P))%nat with (k * (64 * eta1 P) + k * (64 * eta1 P))%nat by lia. apply byte_string_app; assumption. }
    assert (Hh : hash_ok h).
    { apply with_secrets_ok; [|apply HB]. apply with_coins_ok; [exact Hhs|apply HY|apply HW]. }
    unfold pke_run.
    pose proof (pke_generate_ok h Hh P HP n d (proj2 Hd)) as G.
    pose proof (keygen_lwe hs Hhs P HP n d Ah S E (proj2 Hd) HS HE EA) as EK.
    pose proof (keygen_world hs P d Y W (S ++ E) HB r n) as KW. unfold world in KW.
    change (key_sigma hs P d) with (sigma_of hs P d) in KW, EK. fold h in KW.
    rewrite KW, EK in G. destruct G as (dk & ek & E1 & V1 & V2 & _ & E2).
    rewrite E1, (ek_as_bytes_ok P ek V2).
    rewrite (encrypt_ok h Hh P HP n ek (message (ek_bytes P ek)) r V2 (Hm _) (proj2 Hr)).
    fold rho A k in E2. rewrite E2. unfold h. rewrite encrypt_world.
    destruct (KPKE_Encrypt _ _ _ _ _ _); reflexivity.
  Qed.
  Open Scope Q_scope.

  (** The experiment is the sum of the gap of the first distinguisher, the average gap of the
      second, and an experiment in which the ciphertext consists of uniform polynomials:
      the message does not occur in it. *)
  Theorem C69_hybrid message T : (forall x, byte_string 32 (message x)) ->
    pke_experiment hs P n d r LS LE LY LW message T ==
    lwe_gap k k (eta1 P) (eta1 P) A LS LE LT (key_test hs P n rho r LY LW message T) +
    average LT (fun t => lwe_gap k (k + 1) (eta1 P) (eta2 P) (ct_matrix k A t) LY LW LV (ct_test P rho message T t)) +
    average LT (fun t => average LV (fun w => T (key_bytes P rho t) (ct_bytes P (firstn k w) (nth k w [])))).
  Proof.
    intros Hm.
    eapply Qeq_trans; [|exact (hybrid hs Hhs P HP n rho rho_bytes Ah EA r LS LE LY LW LT LV HLY HLW HLT HLV message T)].
    unfold pke_experiment, key_test. apply average_ext. intros S HS. apply average_ext. intros E HE.
    apply average_ext. intros Y HY. apply average_ext. intros W HW.
    apply HLS in HS. apply HLE in HE. apply HLY in HY. apply HLW in HW.
    rewrite pke_run_lwe by assumption. reflexivity.
  Qed.
End Pke.

(** The difference between two ways of choosing the message is a difference of gaps: no
    other term remains. *)
Theorem C69_indistinguishable hs P n d r Ah LS LE LY LW LT LV m1 m0 T :
  hash_ok hs -> wf_params P -> byte_string 32 d -> byte_string 32 r -> r <> sigma_of hs P d ->
  A_hat hs P n (key_rho hs P d) = Some Ah ->
  enumerates (pk P * (64 * eta1 P)) LS -> enumerates (pk P * (64 * eta1 P)) LE ->
  enumerates (pk P * (64 * eta1 P)) LY -> enumerates ((pk P + 1) * (64 * eta2 P)) LW ->
  all_vectors (pk P) LT -> all_vectors (pk P + 1) LV ->
  (forall x, byte_string 32 (m1 x)) -> (forall x, byte_string 32 (m0 x)) ->
  let A := map (map NTTinv) Ah in
  let rho := key_rho hs P d in
  let gap1 m := lwe_gap (pk P) (pk P) (eta1 P) (eta1 P) A LS LE LT (key_test hs P n rho r LY LW m T) in
  let gap2 m := average LT (fun t => lwe_gap (pk P) (pk P + 1) (eta1 P) (eta2 P) (ct_matrix (pk P) A t)
                              LY LW LV (ct_test P rho m T t)) in
  (pke_experiment hs P n d r LS LE LY LW m1 T - pke_experiment hs P n d r LS LE LY LW m0 T ==
   gap1 m1 - gap1 m0 + (gap2 m1 - gap2 m0))%Q.
Proof.
  intros Hhs HP Hd Hr Hne EA HS HE HY HW HT HV H1 H0. cbv zeta.
  rewrite (C69_hybrid hs Hhs P HP n d r Hd Hr Hne Ah EA LS LE LY LW LT LV HS HE HY HW HT HV m1 T H1).
  rewrite (C69_hybrid hs Hhs P HP n d r Hd Hr Hne Ah EA LS LE LY LW LT LV HS HE HY HW HT HV m0 T H0).
  ring.
Qed.

(** If no one of the four distinguishers has a gap above the bounds, the attacker gains at
    most twice their sum. *)
Theorem C69_bound hs P n d r Ah LS LE LY LW LT LV m1 m0 T eps1 eps2 :
  hash_ok hs -> wf_params P -> byte_string 32 d -> byte_string 32 r -> r <> sigma_of hs P d ->
  A_hat hs P n (key_rho hs P d) = Some Ah ->
  enumerates (pk P * (64 * eta1 P)) LS -> enumerates (pk P * (64 * eta1 P)) LE ->
  enumerates (pk P * (64 * eta1 P)) LY -> enumerates ((pk P + 1) * (64 * eta2 P)) LW ->
  all_vectors (pk P) LT -> all_vectors (pk P + 1) LV ->
  (forall x, byte_string 32 (m1 x)) -> (forall x, byte_string 32 (m0 x)) ->
  (forall m, m = m1 \/ m = m0 ->
   Qabs (lwe_gap (pk P) (pk P) (eta1 P) (eta1 P) (map (map NTTinv) Ah) LS LE LT
           (key_test hs P n (key_rho hs P d) r LY LW m T)) <= eps1 /\
   Qabs (average LT (fun t => lwe_gap (pk P) (pk P + 1) (eta1 P) (eta2 P) (ct_matrix (pk P) (map (map NTTinv) Ah) t)
           LY LW LV (ct_test P (key_rho hs P d) m T t))) <= eps2)%Q ->
  (Qabs (pke_experiment hs P n d r LS LE LY LW m1 T - pke_experiment hs P n d r LS LE LY LW m0 T) <=
   2 * (eps1 + eps2))%Q.
Proof.
  intros Hhs HP Hd Hr Hne EA HS HE HY HW HT HV H1 H0 B.
  rewrite (C69_indistinguishable hs P n d r Ah LS LE LY LW LT LV m1 m0 T) by assumption. cbv zeta.
  destruct (B m1 (or_introl eq_refl)) as [B1 B2]. destruct (B m0 (or_intror eq_refl)) as [B3 B4].
  match goal with |- (Qabs (?a - ?b + (?c - ?e)) <= _)%Q => set (x1 := a) in *; set (x2 := b) in *; set (x3 := c) in *; set (x4 := e) in * end.
  clearbody x1 x2 x3 x4. clear - B1 B2 B3 B4.
  apply Qabs_Qle_condition in B1. apply Qabs_Qle_condition in B2. apply Qabs_Qle_condition in B3. apply Qabs_Qle_condition in B4.
  apply Qabs_Qle_condition. split; lra.
Qed.

(** An attacker that outputs a guess for a uniformly chosen message is right with
    probability 2^-256, plus gaps.  [guess ek c m] is the probability of the guess [m]. *)
Theorem C69_one_way hs P n d r Ah LS LE LY LW LT LV L guess :
  hash_ok hs -> wf_params P -> byte_string 32 d -> byte_string 32 r -> r <> sigma_of hs P d ->
  A_hat hs P n (key_rho hs P d) = Some Ah ->
  enumerates (pk P * (64 * eta1 P)) LS -> enumerates (pk P * (64 * eta1 P)) LE ->
  enumerates (pk P * (64 * eta1 P)) LY -> enumerates ((pk P + 1) * (64 * eta2 P)) LW ->
  all_vectors (pk P) LT -> all_vectors (pk P + 1) LV -> enumerates 32 L ->
  (forall ek c, total L (guess ek c) <= 1)%Q ->
  let A := map (map NTTinv) Ah in
  let rho := key_rho hs P d in
  let test m := fun ek c => guess ek c m in
  let gap1 m := lwe_gap (pk P) (pk P) (eta1 P) (eta1 P) A LS LE LT (key_test hs P n rho r LY LW (fun _ => m) (test m)) in
  let gap2 m := average LT (fun t => lwe_gap (pk P) (pk P + 1) (eta1 P) (eta2 P) (ct_matrix (pk P) A t)
                              LY LW LV (ct_test P rho (fun _ => m) (test m) t)) in
  (average L (fun m => pke_experiment hs P n d r LS LE LY LW (fun _ => m) (test m)) <=
   1 / inject_Z (2 ^ 256) + average L gap1 + average L gap2)%Q.
Proof.
  intros Hhs HP Hd Hr Hne EA HS HE HY HW HT HV HL HG. cbv zeta.
  rewrite (average_ext L _ _ (fun m Hm => C69_hybrid hs Hhs P HP n d r Hd Hr Hne Ah EA LS LE LY LW LT LV HS HE HY HW HT HV
    (fun _ => m) (fun ek c => guess ek c m) (fun _ => proj1 (proj2 HL m) Hm))).
  rewrite !average_plus. rewrite Qplus_comm, <- (Qplus_assoc (1 / _)). apply Qplus_le_compat; [|apply Qle_refl].
  rewrite average_swap.
  rewrite (average_ext LT _ _ (fun t _ => average_swap L LV (fun m w => guess (key_bytes P (key_rho hs P d) t) (ct_bytes P (firstn (pk P) w) (nth (pk P) w [])) m))).
  apply average_bound; [discriminate|]. intros t Ht.
  apply average_bound; [discriminate|]. intros w Hw.
  unfold average. rewrite (enumerates_length 32 L HL). change (256 ^ Z.of_nat 32) with (2 ^ 256)%Z.
  unfold Qdiv. apply Qmult_le_compat_r; [apply HG|]. apply Qinv_le_0_compat. discriminate.
Qed.

(** ** cases *)
Definition vectors (l : nat) : list (list (list Z)) := words (words (upto q) 256) l.
Example vectors_all l : all_vectors l (vectors l).
Proof.
  split; [apply NoDup_words, NoDup_words, NoDup_upto|]. intros v. unfold vectors. rewrite in_words. unfold vec.
  split; intros [H1 H2]; (split; [exact H1|]); (eapply Forall_impl; [|exact H2]); intros p Hp.
  - apply in_words in Hp. destruct Hp as [H3 H4]. split; [exact H3|]. eapply Forall_impl; [|exact H4].
    intros x Hx. apply in_upto_iff. exact Hx.
  - destruct Hp as [H3 H4]. apply in_words. split; [exact H3|]. eapply Forall_impl; [|exact H4].
    intros x Hx. apply in_upto_iff. exact Hx.
Qed.

(** Every run reaches the attacker: one that always answers 1 does so with probability 1. *)
Example C69_reached hs P n d r Ah message :
  hash_ok hs -> wf_params P -> byte_string 32 d -> byte_string 32 r -> r <> sigma_of hs P d ->
  A_hat hs P n (key_rho hs P d) = Some Ah -> (forall x, byte_string 32 (message x)) ->
  let LS := tuples (upto 256) (pk P * (64 * eta1 P)) in
  (pke_experiment hs P n d r LS LS LS (tuples (upto 256) ((pk P + 1) * (64 * eta2 P))) message (fun _ _ => 1%Q) == 1)%Q.
Proof.
  intros Hhs HP Hd Hr Hne EA Hm LS. set (LW := tuples (upto 256) ((pk P + 1) * (64 * eta2 P))).
  assert (NE : forall m L, enumerates m L -> L <> []).
  { intros m L HL Q. pose proof (enumerates_length m L HL) as X. rewrite Q in X. cbn [length] in X. lia. }
  assert (N1 : LS <> []) by (apply (NE _ _ (enumeration _))). assert (N2 : LW <> []) by (apply (NE _ _ (enumeration _))).
  unfold pke_experiment.
  rewrite (average_ext LS _ (fun _ => 1%Q)); [apply average_const, N1|]. intros S HS.
  rewrite (average_ext LS _ (fun _ => 1%Q)); [apply average_const, N1|]. intros E HE.
  rewrite (average_ext LS _ (fun _ => 1%Q)); [apply average_const, N1|]. intros Y HY.
  rewrite (average_ext LW _ (fun _ => 1%Q)); [apply average_const, N2|]. intros W HW.
  apply enumeration in HS. apply enumeration in HE. apply enumeration in HY. apply enumeration in HW.
  rewrite (pke_run_lwe hs Hhs P HP n d r Hd Hr Hne Ah EA) by assumption. cbv zeta.
  rewrite (encrypt_lwe hs Hhs P HP n _ Ah _ _ r Y W (rho_bytes hs Hhs P HP d Hd) (lwe_samples_vec _ _ _ _ _) HY HW EA).
  reflexivity.
Qed.

(** The hypotheses are met for the three parameter sets, for every d and r but one, with the
    hash function of C05. *)
Example C69_case P d r m1 m0 T : In P [ML_KEM_512; ML_KEM_768; ML_KEM_1024] ->
  let hs := unlucky (pk P) (eta1 P) in
  byte_string 32 d -> byte_string 32 r -> r <> sigma_of hs P d -> byte_string 32 m1 -> byte_string 32 m0 ->
  let LS := tuples (upto 256) (pk P * (64 * eta1 P)) in
  let LW := tuples (upto 256) ((pk P + 1) * (64 * eta2 P)) in
  exists Ah, let A := map (map NTTinv) Ah in
  let gap1 m := lwe_gap (pk P) (pk P) (eta1 P) (eta1 P) A LS LS (vectors (pk P)) (key_test hs P 128 (key_rho hs P d) r LS LW (fun _ => m) T) in
  let gap2 m := average (vectors (pk P)) (fun t => lwe_gap (pk P) (pk P + 1) (eta1 P) (eta2 P) (ct_matrix (pk P) A t)
                              LS LW (vectors (pk P + 1)) (ct_test P (key_rho hs P d) (fun _ => m) T t)) in
  (pke_experiment hs P 128 d r LS LS LS LW (fun _ => m1) T - pke_experiment hs P 128 d r LS LS LS LW (fun _ => m0) T ==
   gap1 m1 - gap1 m0 + (gap2 m1 - gap2 m0))%Q.
Proof.
  intros HI hs Hd Hr Hne H1 H0 LS LW. destruct (unlucky_A P (key_rho hs P d)) as [Ah EA]. exists Ah.
  assert (HP : wf_params P) by (destruct HI as [<-|[<-|[<-|[]]]]; [apply wf_512|apply wf_768|apply wf_1024]).
  exact (C69_indistinguishable hs P 128 d r Ah LS LS LS LW (vectors (pk P)) (vectors (pk P + 1)) (fun _ => m1) (fun _ => m0) T
    (unlucky_ok _ _) HP Hd Hr Hne EA (enumeration _) (enumeration _) (enumeration _) (enumeration _)
    (vectors_all _) (vectors_all _) (fun _ => H1) (fun _ => H0)).
Qed.

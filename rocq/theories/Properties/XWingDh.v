(** C73: an attacker that may have ciphertexts of its choice decapsulated cannot tell the
    shared secret of X-Wing from a random string, in the random-oracle model, up to the
    X25519 Diffie-Hellman problem with a recognising oracle ("strong" or gap Diffie-Hellman)
    and second preimages of the hash functions in ML-KEM; even if all secrets of ML-KEM are
    known.  The counterpart of C72.

    The hash functions are arbitrary, except that SHA3-256 on label || (128 bytes) and the
    expansion of the X-Wing seed are random. *)
From Coq Require Import List ZArith Lia Bool Arith.
From Verif.Base Require Import Res Oracles.
From Verif.Spec Require Import FIPS203 XWing Domains Noise Counting Random Lwe Attacker Tables Hybrid Solver.
From Verif.Model Require Import Machine Util Algebra Compress Encode Crypto Sample Param Pke Kem XWing.
From Verif.Proofs Require Import Basics Field Poly CompressProofs NttAlgebra NttProofs EncodeProofs VecEncode SampleProofs CountProofs
  PkeProofs KemProofs Inner TailProofs XWingProofs LweProofs AttackerProofs TableProofs HybridProofs.
From Verif.Properties Require Import Kem KemCases XWing Binding ActiveSecrecy XWingSecrecy.
From Coq Require Import QArith Qabs Lqa.
Import ListNotations.
Open Scope Z_scope.

(** The hash functions of the game: SHA3-256(label || y) = TA(y) for all y of 128 bytes, and
    d || z || skx is the expansion of the seed [sk]. *)
Definition dh_world (hs : hashes) (LY TA : list (list Z)) (sk d z skx : list Z) : hashes :=
  with_seed (with_H_table hs XWingLabel LY TA) sk (d ++ z ++ skx).

(** Generate a key pair from the seed [sk], encapsulate with [m] and the X25519 secret [ekx],
    show the attacker the public key, the ciphertext, and the shared secret or (if not
    [real]) the string [V]. *)
Definition dh_game (hs : hashes) (X : x25519_impl) (n : nat) (LY LXC : list (list Z))
  (att : list Z -> list Z -> list Z -> attacker) (real : bool) (d z m skx ekx : list Z) (TA : list (list Z)) (V sk : list Z) : Q :=
  let h := dh_world hs LY TA sk d z skx in
  match generate_key_pair h X n reader sk with
  | Ok (dk, ek, _) =>
      match xw_ek_as_bytes ek, xw_encapsulate h X n ek reader (m ++ ekx) with
      | Ok pkb, Ok (ct, ss, _) =>
          match xw_ct_as_bytes ct with
          | Ok ctb => run h (xw_owner h X n dk LXC ctb) (att pkb ctb (if real then ss else V))
          | _ => 0%Q
          end
      | _, _ => 0%Q
      end
  | _ => 0%Q
  end.
(** the probability that the attacker answers 1; the seeds [d], [z] and [m] of ML-KEM are fixed, and
    the attacker may depend on them *)
Definition dh_experiment (hs : hashes) (X : x25519_impl) (n : nat) (att : list Z -> list Z -> list Z -> attacker)
  (L LY LXC : list (list Z)) (LA : list (list (list Z))) (d z m : list Z) (real : bool) : Q :=
  average L (fun skx => average L (fun ekx => average LA (fun TA => average L (fun V => average L (fun sk =>
    dh_game hs X n LY LXC att real d z m skx ekx TA V sk))))).

(** ** runs *)
Lemma run_ext h h' dec dec' a : (forall f x len, reply h f x len = reply h' f x len) -> (forall c, dec c = dec' c) ->
  run h dec a = run h' dec' a /\ asked h dec a = asked h' dec' a.
Proof.
  intros H Hd. induction a as [p|f x len next IH|c next IH]; cbn [run asked]; [split; reflexivity| |].
  - rewrite H. destruct (IH (reply h' f x len)) as [E1 E2]. rewrite E1, E2. split; reflexivity.
  - rewrite Hd. apply IH.
Qed.
(** two runs agree unless the first meets a question that tells them apart *)
Lemma run_until h h' dec dec' (badq : hash_name * list Z -> bool) (badc : list Z -> bool) a :
  (forall f x len, badq (f, x) = false -> reply h' f x len = reply h f x len) ->
  (forall c, badc c = false -> dec' c = dec c) ->
  existsb badq (asked h dec a) = false -> existsb badc (sent h dec a) = false -> run h' dec' a = run h dec a.
Proof.
  intros H Hd. induction a as [p|f x len next IH|c next IH]; cbn [run asked sent existsb]; [reflexivity| |]; intros Q1 Q2.
  - apply orb_false_iff in Q1. destruct Q1 as [Q Q1]. rewrite (H f x len Q). apply IH; assumption.
  - apply orb_false_iff in Q2. destruct Q2 as [Q Q2]. rewrite (Hd c Q). apply IH; assumption.
Qed.
Lemma run_seed h dec sk B a : points snd sk (asked h dec a) = false -> run (with_seed h sk B) dec a = run h dec a.
Proof.
  intros Q. apply run_same. intros f x I len.
  assert (N : x <> sk).
  { intros ->. unfold points in Q. apply not_true_iff_false in Q. apply Q. apply existsb_exists. exists (f, sk). split; [exact I|].
    cbn [snd]. destruct (list_eq_dec Z.eq_dec sk sk); [reflexivity|contradiction]. }
  destruct f; try reflexivity. cbn [reply]. unfold prefix. apply tab_ext. intros i _. cbn [with_seed shake128].
  destruct (list_eq_dec Z.eq_dec x sk); [contradiction|reflexivity].
Qed.

(** ** one run *)
Section Run.
  Variable hs : hashes.
  Hypothesis Hhs : hash_ok hs.
  Variable X : x25519_impl.
  Hypothesis HX : forall k u, byte_string 32 k -> byte_string 32 u -> byte_string 32 (x25519 X k u).
  Hypothesis HXpub : forall k, byte_string 32 k -> x25519_public X k = x25519 X k X25519_BASE.
  Hypothesis HXc : x25519_commutes X.
  Let P := ML_KEM_768.
  Let HP : wf_params P := wf_768.
  Variable n : nat.
  Variables L LY LB LXC : list (list Z).
  Hypothesis HL : enumerates 32 L.
  Hypothesis HLY : enumerates 128 LY.
  Hypothesis HLB : enumerates 64 LB.
  Hypothesis HLXC : enumerates 1120 LXC.
  Variables d z m : list Z.
  Hypothesis Hd : byte_string 32 d.
  Hypothesis Hz : byte_string 32 z.
  Hypothesis Hm : byte_string 32 m.
  Variables ekM dkM K0 c0 : list Z.
  Hypothesis EK : KeyGen_internal hs P n d z = Some (ekM, dkM).
  Hypothesis EE : Encaps_internal hs P n ekM m = Some (K0, c0).
  Variable att : list Z -> list Z -> list Z -> attacker.
  Variables skx ekx : list Z.
  Hypothesis Hskx : byte_string 32 skx.
  Hypothesis Hekx : byte_string 32 ekx.
  Let pkx := x25519 X skx X25519_BASE.
  Let cx0 := x25519 X ekx X25519_BASE.
  Let ssx := x25519 X ekx pkx.
  Let y0 := K0 ++ ssx ++ cx0 ++ pkx.

  Lemma pkx_ok : byte_string 32 pkx.
  Proof. apply HX; [exact Hskx|exact base_ok]. Qed.
  Lemma cx0_ok : byte_string 32 cx0.
  Proof. apply HX; [exact Hekx|exact base_ok]. Qed.
  Lemma ssx_ok : byte_string 32 ssx.
  Proof. apply HX; [exact Hekx|exact pkx_ok]. Qed.
  Lemma ssx_dh : ssx = x25519 X skx cx0.
  Proof. apply HXc; assumption. Qed.

  (** the keys of ML-KEM *)
  Lemma key_parts : exists rho t s, ekM = t ++ rho /\ byte_string (384 * 3) t /\ byte_string 32 rho /\
    dkM = s ++ ekM ++ FIPS203.H hs ekM ++ z /\ byte_string (384 * 3) s.
  Proof.
    pose proof EK as Q. unfold KeyGen_internal, KPKE_KeyGen in Q.
    assert (Hb : bytes (d ++ [Z.of_nat (pk P)])) by (apply bytes_app; [apply Hd|repeat constructor; unfold is_byte; cbn; lia]).
    destruct (G_bytes hs Hhs _ Hb) as [Hrh _]. destruct (FIPS203.G hs (d ++ [Z.of_nat (pk P)])) as [rho' sigma']. cbn [fst] in Hrh.
    destruct (A_hat hs P n rho') as [A|]; [|discriminate Q]. apply Some_inj in Q.
    pose proof (f_equal fst Q) as Q1. pose proof (f_equal snd Q) as Q2. cbn [fst snd] in Q1, Q2. clear Q.
    eexists rho', _, _. split; [symmetry; exact Q1|]. split; [apply encode_vec12_bytes|]. split; [exact Hrh|].
    split; [rewrite <- Q2, <- Q1; reflexivity|apply encode_vec12_bytes].
  Qed.
  Lemma ekM_bytes : byte_string 1184 ekM.
  Proof. destruct key_parts as (rho & t & s & Ee & H1 & H2 & _). rewrite Ee. exact (byte_string_app 1152 32 _ _ H1 H2). Qed.
  Lemma ekM_rho : length (skipn (384 * pk P) ekM) = 32%nat.
  Proof. rewrite skipn_length, (proj1 ekM_bytes). reflexivity. Qed.
  Lemma H_ekM : byte_string 32 (FIPS203.H hs ekM).
  Proof. apply (Hhs _ (proj2 ekM_bytes)). Qed.
  Lemma dkM_ek : firstn (384 * pk P + 32) (skipn (384 * pk P) dkM) = ekM.
  Proof.
    destruct key_parts as (rho & t & s & _ & _ & _ & Ed & Hs). rewrite Ed. clear Ed.
    rewrite (skipn_app_exact Z (384 * pk P) s) by exact (proj1 Hs). apply firstn_app_exact. exact (proj1 ekM_bytes).
  Qed.
  Lemma dkM_bytes : bytes dkM.
  Proof.
    destruct key_parts as (rho & t & s & _ & _ & _ & Ed & Hs). rewrite Ed. clear Ed.
    apply bytes_app; [apply Hs|]. apply bytes_app; [apply ekM_bytes|]. apply bytes_app; [apply H_ekM|apply Hz].
  Qed.
  Lemma dkM_h : dk_sec_h P dkM = FIPS203.H hs ekM.
  Proof.
    destruct key_parts as (rho & t & s & _ & _ & _ & Ed & Hs). rewrite Ed. clear Ed. unfold dk_sec_h.
    rewrite app_assoc. rewrite (skipn_app_exact Z (768 * pk P + 32)).
    - apply firstn_app_exact, H_ekM.
    - rewrite app_length, (proj1 Hs), (proj1 ekM_bytes). reflexivity.
  Qed.
  Lemma challenge_inv : K0 = fst (FIPS203.G hs (m ++ FIPS203.H hs ekM)) /\
    KPKE_Encrypt hs P n ekM m (snd (FIPS203.G hs (m ++ FIPS203.H hs ekM))) = Some c0.
  Proof. exact (Encaps_inv hs P n ekM (FIPS203.H hs ekM) m K0 c0 EE). Qed.
  Lemma K0_bytes : byte_string 32 K0.
  Proof. rewrite (proj1 challenge_inv). apply (G_bytes hs Hhs). apply bytes_app; [apply Hm|apply H_ekM]. Qed.
  Lemma c0_bytes : byte_string 1088 c0.
  Proof. exact (KPKE_Encrypt_bytes hs P _ _ _ _ _ (proj2 challenge_inv)). Qed.
  Lemma decaps_bytes c s : byte_string 1088 c -> Decaps_internal hs P n dkM c = Some s -> byte_string 32 s.
  Proof. intros Hc. apply (Decaps_internal_bytes hs Hhs P); [exact dkM_bytes|apply Hc]. Qed.
  Lemma decaps_some c : byte_string 1088 c -> exists s, Decaps_internal hs P n dkM c = Some s /\ byte_string 32 s.
  Proof.
    intros Hc. assert (Q : exists s, Decaps_internal hs P n dkM c = Some s).
    { assert (QE : forall m' r', exists c', KPKE_Encrypt hs P n ekM m' r' = Some c').
      { intros m' r'. pose proof (proj2 challenge_inv) as Q. unfold KPKE_Encrypt in Q |- *.
        destruct (A_hat hs P n (skipn (384 * pk P) ekM)) as [A|]; [|discriminate Q]. eexists. reflexivity. }
      unfold Decaps_internal. rewrite dkM_ek. set (m' := KPKE_Decrypt P _ c).
      destruct (FIPS203.G hs _) as [K r]. destruct (QE m' r) as [c' Ec]. rewrite Ec.
      destruct (list_eq_dec Z.eq_dec c c'); eexists; reflexivity. }
    destruct Q as [s Q]. exists s. split; [exact Q|exact (decaps_bytes c s Hc Q)].
  Qed.
  Lemma rest_in s k u cx : byte_string 32 s -> byte_string 32 k -> byte_string 32 u -> byte_string 32 cx ->
    In (s ++ x25519 X k u ++ cx ++ pkx) LY.
  Proof.
    intros Hs Hk Hu Hcx. apply HLY. apply (byte_string_app 32 96); [exact Hs|]. apply (byte_string_app 32 64); [apply HX; assumption|].
    apply (byte_string_app 32 32); [exact Hcx|exact pkx_ok].
  Qed.

  (** a ciphertext other than the challenge with the same ML-KEM secret *)
  Lemma same_secret c : byte_string 1088 c -> c <> c0 -> Decaps_internal hs P n dkM c = Some K0 -> second_preimage hs dkM m c = true.
  Proof.
    intros Hc Nc E. unfold second_preimage. fold P. rewrite dkM_h, <- (proj1 challenge_inv).
    pose proof (Decaps_inv hs P n dkM c K0 E) as Q. unfold recovered in Q. rewrite dkM_h in Q.
    unfold dk_sec_ek in Q. rewrite dkM_ek in Q. apply orb_true_iff.
    set (m' := KPKE_Decrypt P (dk_sec_pke P dkM) c) in *. destruct Q as [[Q1 Q2]|Q].
    - left. destruct (list_eq_dec Z.eq_dec m' m) as [->|_].
      + exfalso. apply Nc. pose proof (proj2 challenge_inv) as Q3. rewrite Q2 in Q3. apply Some_inj. exact Q3.
      + destruct (list_eq_dec Z.eq_dec _ K0) as [_|N]; [reflexivity|]. exfalso. apply N. symmetry. exact Q1.
    - right. destruct (list_eq_dec Z.eq_dec _ K0) as [_|N]; [reflexivity|]. exfalso. apply N. symmetry. exact Q.
  Qed.

  Section World.
    Variable TA : list (list Z).
    Hypothesis HTA : table LY L TA.
    Variable sk : list Z.
    Hypothesis Hsk : byte_string 32 sk.
    Let h := dh_world hs LY TA sk d z skx.

    Lemma seed_ok : byte_string 96 (d ++ z ++ skx).
    Proof. apply (byte_string_app 32 64); [exact Hd|]. apply (byte_string_app 32 32); assumption. Qed.
    Lemma h_ok : hash_ok h.
    Proof. apply with_seed_ok; [|apply seed_ok]. apply (with_H_table_ok _ _ LY L); [exact Hhs|apply HL|exact HTA]. Qed.
    Lemma H_h : FIPS203.H h ekM = FIPS203.H hs ekM.
    Proof.
      unfold FIPS203.H, h, dh_world. cbn [with_seed sha3_256].
      apply (with_H_other hs XWingLabel LY TA ekM 128 HLY). rewrite (proj1 ekM_bytes). discriminate.
    Qed.
    Lemma A_hat_h i : length i = 32%nat -> A_hat h P n i = A_hat hs P n i.
    Proof. intros Hi. unfold h, dh_world. rewrite A_hat_seed by (exact Hi || apply Hsk). reflexivity. Qed.
    Lemma encrypt_h m' r' : KPKE_Encrypt h P n ekM m' r' = KPKE_Encrypt hs P n ekM m' r'.
    Proof. unfold KPKE_Encrypt. rewrite A_hat_h by exact ekM_rho. reflexivity. Qed.
    Lemma keys_h : KeyGen_internal h P n d z = Some (ekM, dkM).
    Proof.
      assert (E1 : KPKE_KeyGen h P n d = KPKE_KeyGen hs P n d).
      { unfold KPKE_KeyGen. change (FIPS203.G h) with (FIPS203.G hs).
        assert (Hb : bytes (d ++ [Z.of_nat (pk P)])) by (apply bytes_app; [apply Hd|repeat constructor; unfold is_byte; cbn; lia]).
        destruct (G_bytes hs Hhs _ Hb) as [[Hrh _] _]. destruct (FIPS203.G hs (d ++ [Z.of_nat (pk P)])) as [rho' sigma'].
        rewrite A_hat_h by exact Hrh. reflexivity. }
      pose proof EK as Q. unfold KeyGen_internal in Q |- *. rewrite E1. destruct (KPKE_KeyGen hs P n d) as [[e s]|]; [|discriminate Q].
      apply Some_inj in Q. pose proof (f_equal fst Q) as Q1. cbn [fst] in Q1. rewrite Q1 in Q |- *. rewrite H_h, Q. reflexivity.
    Qed.
    Lemma encaps_h : Encaps_internal h P n ekM m = Some (K0, c0).
    Proof.
      rewrite <- EE. unfold Encaps_internal, Encaps_with. rewrite H_h. change (FIPS203.G h) with (FIPS203.G hs).
      destruct (FIPS203.G hs _) as [K r]. rewrite encrypt_h. reflexivity.
    Qed.
    Lemma decaps_h c : Decaps_internal h P n dkM c = Decaps_internal hs P n dkM c.
    Proof.
      unfold Decaps_internal. change (FIPS203.G h) with (FIPS203.G hs). change (FIPS203.J h) with (FIPS203.J hs).
      destruct (FIPS203.G hs _) as [K r]. rewrite dkM_ek, encrypt_h. reflexivity.
    Qed.
    Lemma expand_h : XW_expand h (x25519 X) n sk = Some (dkM, skx, ekM, pkx).
    Proof.
      unfold XW_expand.
      assert (E0 : SHAKE128 h sk 96 = d ++ z ++ skx).
      { transitivity (SHAKE128 h sk (length (d ++ z ++ skx))); [rewrite (proj1 seed_ok); reflexivity|]. apply seed_prefix. }
      rewrite E0. unfold bytes32.
      assert (E1 : firstn 32 (skipn 0 (d ++ z ++ skx)) = d) by (apply firstn_app_exact, Hd).
      assert (E2 : firstn 32 (skipn 32 (d ++ z ++ skx)) = z).
      { rewrite skipn_app_exact by apply Hd. apply firstn_app_exact, Hz. }
      assert (E3 : firstn 32 (skipn 64 (d ++ z ++ skx)) = skx).
      { rewrite app_assoc. rewrite skipn_app_exact by (rewrite app_length, (proj1 Hd), (proj1 Hz); reflexivity).
        apply firstn_all2. rewrite (proj1 Hskx). apply Nat.le_refl. }
      rewrite E1, E2, E3. change ML_KEM_768 with P. rewrite keys_h. reflexivity.
    Qed.
    Lemma hash_h y : In y LY -> sha3_256 h (XWingLabel ++ y) = get LY TA y.
    Proof. intros I. unfold h, dh_world. cbn [with_seed sha3_256]. apply (with_H_table_at _ _ LY L TA y HTA I). Qed.

    Lemma dh_view real V : exists dec,
      dh_game hs X n LY LXC att real d z m skx ekx TA V sk =
      run h dec (att (ekM ++ pkx) (c0 ++ cx0) (if real then get LY TA y0 else V)) /\
      forall c, dec c =
        if list_eq_dec Z.eq_dec c (c0 ++ cx0) then []
        else if in_dec (list_eq_dec Z.eq_dec) c LXC then
          match Decaps_internal hs P n dkM (firstn 1088 c) with
          | Some s => get LY TA (s ++ x25519 X skx (skipn 1088 c) ++ skipn 1088 c ++ pkx)
          | None => []
          end
        else [].
    Proof.
      exists (xw_owner h X n (xw_dk_from sk) LXC (c0 ++ cx0)). split.
      - unfold dh_game. cbv zeta. fold h.
        unfold generate_key_pair, xw_dk_generate, xw_generate.
        assert (ER : fill_bytes reader sk 32 = (sk, [])).
        { pose proof (reader_reads sk [] 32 Hsk) as Q. rewrite app_nil_r in Q. exact Q. }
        rewrite ER. fold (xw_dk_from sk).
        pose proof (xek_of_dk_ok h h_ok X HX HXpub n sk Hsk) as G. unfold XW_public in G. rewrite expand_h in G.
        destruct G as (ek & G1 & G2 & G3). rewrite G1. cbn [bind].
        rewrite (xek_as_bytes_ok h ek G2), G3.
        pose proof (xw_encapsulate_ok h h_ok X HX n ek reader (m ++ ekx) G2 reader_ok) as C.
        rewrite (reader_reads m ekx 32 Hm) in C.
        assert (ER2 : fill_bytes reader ekx 32 = (ekx, [])).
        { pose proof (reader_reads ekx [] 32 Hekx) as Q. rewrite app_nil_r in Q. exact Q. }
        rewrite ER2 in C. rewrite G3 in C. unfold XW_Encaps in C.
        rewrite (firstn_app_exact Z 1184 ekM) in C by exact (proj1 ekM_bytes).
        assert (B1 : bytes32 1184 (ekM ++ pkx) = pkx).
        { unfold bytes32. rewrite skipn_app_exact by exact (proj1 ekM_bytes). apply firstn_all2. rewrite (proj1 pkx_ok). apply Nat.le_refl. }
        assert (B2 : bytes32 32 (m ++ ekx) = ekx).
        { unfold bytes32. rewrite skipn_app_exact by apply Hm. apply firstn_all2. rewrite (proj1 Hekx). apply Nat.le_refl. }
        assert (B3 : bytes32 0 (m ++ ekx) = m) by (apply firstn_app_exact, Hm).
        rewrite B1, B2, B3 in C. fold cx0 in C. change ML_KEM_768 with P in C.
        rewrite encaps_h in C. destruct C as (ct & C1 & C2 & C3 & _). rewrite C1. rewrite (ct_as_bytes_ok ct C2), C3.
        assert (ES : Combiner h K0 (x25519 X ekx pkx) cx0 pkx = get LY TA y0).
        { unfold Combiner. apply hash_h. apply rest_in; [exact K0_bytes|exact Hekx|exact pkx_ok|exact cx0_ok]. }
        rewrite ES. reflexivity.
      - intros c. unfold xw_owner. destruct (list_eq_dec Z.eq_dec c (c0 ++ cx0)); [reflexivity|].
        destruct (in_dec (list_eq_dec Z.eq_dec) c LXC) as [I|_]; [|reflexivity]. apply HLXC in I.
        assert (Hcm : byte_string 1088 (firstn 1088 c)) by (apply (byte_string_firstn 1088 1120); [exact I|lia]).
        assert (Hcx : byte_string 32 (skipn 1088 c)) by (apply (byte_string_skipn 1088 32), I).
        destruct (ct_from_ok c I) as (C1 & C2). rewrite C1.
        rewrite (xw_decapsulate_ok h h_ok X HX HXpub n sk _ Hsk C2). cbn [ct_m ct_x].
        unfold XW_Decaps. rewrite expand_h. rewrite firstn_app_exact by apply Hcm.
        assert (B1 : bytes32 1088 (firstn 1088 c ++ skipn 1088 c) = skipn 1088 c).
        { unfold bytes32. rewrite skipn_app_exact by apply Hcm. apply firstn_all2. rewrite (proj1 Hcx). apply Nat.le_refl. }
        rewrite B1. change ML_KEM_768 with P. rewrite decaps_h.
        destruct (Decaps_internal hs P n dkM (firstn 1088 c)) as [s|] eqn:ED; [|reflexivity]. cbn [lift].
        apply hash_h. apply rest_in; [exact (decaps_bytes _ s Hcm ED)|exact Hskx|exact Hcx|exact Hcx].
    Qed.
  End World.

  (** ** the exchange of entries *)
  Let ok (u y : list Z) : bool := if list_eq_dec Z.eq_dec (x25519 X skx u) y then true else false.
  Let ct (b : list Z) : list Z := bytes32 0 b ++ x25519 X skx (bytes32 32 b) ++ bytes32 32 b ++ pkx.
  Let un (y : list Z) : list Z := bytes32 0 y ++ bytes32 64 y.
  Lemma bytes32_ok a q y : byte_string q y -> (a + 32 <= q)%nat -> byte_string 32 (bytes32 a y).
  Proof.
    intros [Hl Hb] Ha. split; [|apply bytes_firstn, bytes_skipn, Hb]. unfold bytes32. rewrite firstn_length, skipn_length. lia.
  Qed.
  Lemma ct_in b : In b LB -> In (ct b) LY.
  Proof.
    intros I. apply HLB in I. unfold ct.
    assert (H1 : byte_string 32 (bytes32 32 b)) by (apply (bytes32_ok 32 64 b I); lia).
    apply rest_in; [apply (bytes32_ok 0 64 b I); lia|exact Hskx|exact H1|exact H1].
  Qed.
  Lemma un_in y : In y LY -> In (un y) LB.
  Proof.
    intros I. apply HLY in I. apply HLB. apply (byte_string_app 32 32); [apply (bytes32_ok 0 128 y I); lia|apply (bytes32_ok 64 128 y I); lia].
  Qed.
  Lemma split2 a b : length a = 32%nat -> length b = 32%nat -> bytes32 0 (a ++ b) = a /\ bytes32 32 (a ++ b) = b.
  Proof.
    intros Ha Hb. unfold bytes32. split; [apply firstn_app_exact, Ha|]. rewrite skipn_app_exact by exact Ha.
    apply firstn_all2. rewrite Hb. apply Nat.le_refl.
  Qed.
  Lemma split4 a b c e : length a = 32%nat -> length b = 32%nat -> length c = 32%nat ->
    bytes32 0 (a ++ b ++ c ++ e) = a /\ bytes32 32 (a ++ b ++ c ++ e) = b /\ bytes32 64 (a ++ b ++ c ++ e) = c /\ skipn 96 (a ++ b ++ c ++ e) = e.
  Proof.
    intros Ha Hb Hc. unfold bytes32. split; [apply firstn_app_exact, Ha|].
    split; [rewrite skipn_app_exact by exact Ha; apply firstn_app_exact, Hb|].
    split; [rewrite app_assoc, skipn_app_exact by (rewrite app_length, Ha, Hb; reflexivity); apply firstn_app_exact, Hc|].
    rewrite !app_assoc. apply skipn_app_exact. rewrite !app_length, Ha, Hb, Hc. reflexivity.
  Qed.
  Lemma join4 y : length y = 128%nat -> y = bytes32 0 y ++ bytes32 32 y ++ bytes32 64 y ++ skipn 96 y.
  Proof.
    intros Hy. unfold bytes32. rewrite <- (firstn_skipn 32 y) at 1. f_equal. rewrite <- (firstn_skipn 32 (skipn 32 y)) at 1. f_equal.
    rewrite skipn_skipn. rewrite <- (firstn_skipn 32 (skipn (32 + 32) y)) at 1. f_equal. rewrite skipn_skipn. reflexivity.
  Qed.
  Lemma ct_un y : In y LY -> (if list_eq_dec Z.eq_dec (skipn 96 y) pkx then ok (bytes32 64 y) (bytes32 32 y) else false) =
    (if list_eq_dec Z.eq_dec (ct (un y)) y then true else false).
  Proof.
    intros I. pose proof (proj1 (proj2 HLY y) I) as Hy.
    assert (H0 : byte_string 32 (bytes32 0 y)) by (apply (bytes32_ok 0 128 y Hy); lia).
    assert (H6 : byte_string 32 (bytes32 64 y)) by (apply (bytes32_ok 64 128 y Hy); lia).
    destruct (split2 (bytes32 0 y) (bytes32 64 y) (proj1 H0) (proj1 H6)) as [S1 S2].
    unfold ct. fold (un y) in S1, S2. rewrite S1, S2. unfold ok. pose proof (join4 y (proj1 Hy)) as J.
    destruct (list_eq_dec Z.eq_dec (bytes32 0 y ++ x25519 X skx (bytes32 64 y) ++ bytes32 64 y ++ pkx) y) as [Q|N].
    - destruct (split4 (bytes32 0 y) (x25519 X skx (bytes32 64 y)) (bytes32 64 y) pkx (proj1 H0) (proj1 (HX _ _ Hskx H6)) (proj1 H6)) as (_ & S3 & _ & S4).
      rewrite Q in S3, S4. rewrite S4, S3. destruct (list_eq_dec Z.eq_dec pkx pkx) as [_|N]; [|contradiction].
      destruct (list_eq_dec Z.eq_dec _ _) as [_|N]; [reflexivity|contradiction].
    - destruct (list_eq_dec Z.eq_dec (skipn 96 y) pkx) as [Q1|_]; [|reflexivity].
      destruct (list_eq_dec Z.eq_dec (x25519 X skx (bytes32 64 y)) (bytes32 32 y)) as [Q2|_]; [|reflexivity].
      exfalso. apply N. rewrite Q2, <- Q1. symmetry. exact J.
  Qed.
  Lemma un_ct s u : byte_string 32 s -> byte_string 32 u -> let y := s ++ x25519 X skx u ++ u ++ pkx in un y = s ++ u /\ ct (un y) = y.
  Proof.
    intros Hs Hu y. destruct (split4 s (x25519 X skx u) u pkx (proj1 Hs) (proj1 (HX _ _ Hskx Hu)) (proj1 Hu)) as (S0 & _ & S6 & _).
    fold y in S0, S6. assert (E : un y = s ++ u) by (unfold un; rewrite S0, S6; reflexivity). split; [exact E|]. rewrite E.
    destruct (split2 s u (proj1 Hs) (proj1 Hu)) as [S1 S2]. unfold ct. rewrite S1, S2. reflexivity.
  Qed.

  Let world TA := with_H_table hs XWingLabel LY TA.
  Let own TA c :=
    if list_eq_dec Z.eq_dec c (c0 ++ cx0) then []
    else if in_dec (list_eq_dec Z.eq_dec) c LXC then
      match Decaps_internal hs P n dkM (firstn 1088 c) with
      | Some s => get LY TA (s ++ x25519 X skx (skipn 1088 c) ++ skipn 1088 c ++ pkx)
      | None => []
      end
    else [].
  Let exch TB TA := swapF LB LY ct un TB TA.
  Let simh TA TB := dh_hashes hs ok pkx LY LB TA TB.
  Let simo TB := dh_decaps hs n LB LXC TB dkM (c0 ++ cx0).
  Lemma exch_reply TA TB f x len : table LY L TA -> table LB L TB -> reply (world (exch TB TA)) f x len = reply (simh TA TB) f x len.
  Proof.
    intros HA HB. destruct f; try reflexivity. cbn [reply world simh dh_hashes with_H_table sha3_256].
    change (length XWingLabel) with 6%nat. destruct (list_eq_dec Z.eq_dec (firstn 6 x) XWingLabel) as [_|_]; [|reflexivity].
    set (y := skipn 6 x). destruct (in_dec (list_eq_dec Z.eq_dec) y LY) as [I|N].
    - fold (un y). rewrite (entry_get LY L TA y HA I), (entry_get LB L TB (un y) HB (un_in y I)).
      assert (HE : table LY L (exch TB TA)) by (apply (swapF_table LB LY L ct un); [exact un_in|exact HB|exact HA]).
      rewrite (entry_get LY L (exch TB TA) y HE I). unfold exch. rewrite get_swapF by exact I.
      pose proof (ct_un y I) as Q. destruct (list_eq_dec Z.eq_dec (ct (un y)) y) as [_|_].
      + destruct (list_eq_dec Z.eq_dec (skipn 96 y) pkx) as [_|_]; [|discriminate Q]. rewrite Q. reflexivity.
      + destruct (list_eq_dec Z.eq_dec (skipn 96 y) pkx) as [_|_]; [|reflexivity]. rewrite Q. reflexivity.
    - rewrite !entry_none by exact N. reflexivity.
  Qed.
  Lemma exch_get TA TB s u : table LY L TA -> table LB L TB -> byte_string 32 s -> byte_string 32 u ->
    get LY (exch TB TA) (s ++ x25519 X skx u ++ u ++ pkx) = get LB TB (s ++ u).
  Proof.
    intros HA HB Hs Hu. destruct (un_ct s u Hs Hu) as [E1 E2]. unfold exch. rewrite get_swapF by (apply rest_in; assumption).
    rewrite E2. destruct (list_eq_dec Z.eq_dec _ _) as [_|N]; [|contradiction]. rewrite E1. reflexivity.
  Qed.
  Lemma exch_own TA TB c : table LY L TA -> table LB L TB -> own (exch TB TA) c = simo TB c.
  Proof.
    intros HA HB. unfold own, simo, dh_decaps. destruct (list_eq_dec Z.eq_dec c (c0 ++ cx0)); [reflexivity|].
    destruct (in_dec (list_eq_dec Z.eq_dec) c LXC) as [I|_]; [|reflexivity]. apply HLXC in I.
    assert (Hcm : byte_string 1088 (firstn 1088 c)) by (apply (byte_string_firstn 1088 1120); [exact I|lia]).
    assert (Hcx : byte_string 32 (skipn 1088 c)) by (apply (byte_string_skipn 1088 32), I).
    fold P. destruct (Decaps_internal hs P n dkM (firstn 1088 c)) as [s|] eqn:ED; [|reflexivity].
    pose proof (decaps_bytes _ s Hcm ED) as Hs. rewrite exch_get by assumption.
    rewrite (entry_get LB L TB) with (x := s ++ skipn 1088 c); [reflexivity|exact HB|]. apply HLB. apply (byte_string_app 32 32); assumption.
  Qed.

  (** ** the challenge's entry is not used, unless ... *)
  Let b0 := K0 ++ cx0.
  Let simr TA TB v := run (simh TA TB) (simo TB) (att (ekM ++ pkx) (c0 ++ cx0) v).
  Let solver TA TB V := dh_solver hs n LY LB LXC att ekM dkM c0 TA TB V ok pkx cx0.
  Let spm TA TB V := sends_second_preimage hs dkM m c0 (dh_sent hs n LY LB LXC att ekM dkM c0 TA TB V ok pkx cx0).
  Lemma b0_in : In b0 LB.
  Proof. apply HLB. apply (byte_string_app 32 32); [exact K0_bytes|exact cx0_ok]. Qed.
  Lemma unused TA TB v w : table LY L TA -> table LB L TB -> In w L -> solver TA TB v = None -> spm TA TB v = false ->
    simr TA (update LB TB b0 w) v = simr TA TB v.
  Proof.
    intros HA HB Hw Es Ep. unfold simr.
    apply (run_until _ _ _ _ (fun p => ok cx0 (bytes32 38 (snd p)))
      (fun c => if in_dec (list_eq_dec Z.eq_dec) c LXC then
                  (if list_eq_dec Z.eq_dec (firstn 1088 c) c0 then false else second_preimage hs dkM m (firstn 1088 c))
                else false)).
    - intros f x len Q. cbn [snd] in Q. destruct f; try reflexivity. cbn [reply simh dh_hashes sha3_256].
      destruct (list_eq_dec Z.eq_dec (firstn 6 x) XWingLabel) as [_|_]; [|reflexivity].
      set (y := skipn 6 x). destruct (in_dec (list_eq_dec Z.eq_dec) y LY) as [I|N]; [|rewrite !entry_none by exact N; reflexivity].
      fold (un y). rewrite (entry_get LY L TA y HA I), (entry_get LB L TB (un y) HB (un_in y I)).
      rewrite (entry_get LB L (update LB TB b0 w) (un y) (update_table LB L TB b0 w HB Hw) (un_in y I)).
      destruct (list_eq_dec Z.eq_dec (skipn 96 y) pkx) as [_|_]; [|reflexivity].
      destruct (ok (bytes32 64 y) (bytes32 32 y)) eqn:Eo; [|reflexivity].
      apply get_other; [apply un_in, I|]. intros Eu. pose proof (proj1 (proj2 HLY y) I) as Hy.
      assert (H0 : byte_string 32 (bytes32 0 y)) by (apply (bytes32_ok 0 128 y Hy); lia).
      assert (H6 : byte_string 32 (bytes32 64 y)) by (apply (bytes32_ok 64 128 y Hy); lia).
      apply (app_inj_len (bytes32 0 y) K0) in Eu; [|rewrite (proj1 H0), (proj1 K0_bytes); reflexivity].
      destruct Eu as [_ Eu]. rewrite Eu in Eo. unfold y, bytes32 in Eo. rewrite skipn_skipn in Eo. unfold bytes32 in Q.
      cbn [Nat.add] in Eo. rewrite Q in Eo. discriminate Eo.
    - intros c Q. unfold simo, dh_decaps. destruct (list_eq_dec Z.eq_dec c (c0 ++ cx0)) as [|Nc]; [reflexivity|].
      destruct (in_dec (list_eq_dec Z.eq_dec) c LXC) as [I|_]; [|reflexivity]. apply HLXC in I.
      assert (Hcm : byte_string 1088 (firstn 1088 c)) by (apply (byte_string_firstn 1088 1120); [exact I|lia]).
      assert (Hcx : byte_string 32 (skipn 1088 c)) by (apply (byte_string_skipn 1088 32), I).
      fold P. destruct (Decaps_internal hs P n dkM (firstn 1088 c)) as [s|] eqn:ED; [|reflexivity].
      pose proof (decaps_bytes _ s Hcm ED) as Hs.
      assert (Ib : In (s ++ skipn 1088 c) LB) by (apply HLB; apply (byte_string_app 32 32); assumption).
      rewrite (entry_get LB L TB _ HB Ib), (entry_get LB L (update LB TB b0 w) _ (update_table LB L TB b0 w HB Hw) Ib).
      apply get_other; [exact Ib|]. intros Eu.
      apply (app_inj_len s K0) in Eu; [|rewrite (proj1 Hs), (proj1 K0_bytes); reflexivity]. destruct Eu as [-> Eu].
      destruct (list_eq_dec Z.eq_dec (firstn 1088 c) c0) as [E0|N0].
      + apply Nc. rewrite <- (firstn_skipn 1088 c), E0, Eu. reflexivity.
      + rewrite (same_secret _ Hcm N0 ED) in Q. discriminate Q.
    - apply not_true_iff_false. intros Q. apply existsb_exists in Q. destruct Q as (p & I & Q).
      assert (J : ok cx0 (bytes32 38 (snd p)) = false).
      { apply (find_none _ _ Es). apply in_map_iff. exists p. split; [reflexivity|exact I]. }
      rewrite J in Q. discriminate Q.
    - apply not_true_iff_false. intros Q. apply existsb_exists in Q. destruct Q as (c & I & Q).
      apply not_true_iff_false in Ep. apply Ep. unfold spm, sends_second_preimage, dh_sent.
      destruct (in_dec (list_eq_dec Z.eq_dec) c LXC) as [I1|N1] eqn:Ei; [|discriminate Q].
      apply existsb_exists. exists c. split; [apply filter_In; split; [exact I|rewrite Ei; reflexivity]|exact Q].
  Qed.

  Variables N D : nat.
  Hypothesis Hatt : forall ek c K, within N D (att ek c K).
  Variables LA LT : list (list (list Z)).
  Hypothesis HLA : all_tables LY L LA.
  Hypothesis HLT : all_tables LB L LT.
  Open Scope Q_scope.
  Let guess := inject_Z (Z.of_nat N) / inject_Z (2 ^ 256).
  Let NL : L <> [] := L_nonempty L HL.

  Lemma unused_bound TA TB v w : table LY L TA -> table LB L TB -> In w L ->
    Qabs (simr TA (update LB TB b0 w) v - simr TA TB v) <=
    one_if (match solver TA TB v with Some y => if list_eq_dec Z.eq_dec y ssx then true else false | None => false end) + one_if (spm TA TB v).
  Proof.
    intros HA HB Hw.
    assert (R1 : 0 <= simr TA (update LB TB b0 w) v <= 1) by (eapply run_range, Hatt).
    assert (R2 : 0 <= simr TA TB v <= 1) by (eapply run_range, Hatt).
    destruct (solver TA TB v) as [y|] eqn:Es.
    - unfold solver, dh_solver in Es. apply find_some in Es. destruct Es as [_ Es]. unfold ok in Es.
      destruct (list_eq_dec Z.eq_dec (x25519 X skx cx0) y) as [Q|_]; [|discriminate Es].
      destruct (list_eq_dec Z.eq_dec y ssx) as [_|N0]; [|exfalso; apply N0; rewrite ssx_dh; symmetry; exact Q].
      pose proof (one_if_range (spm TA TB v)). change (one_if true) with 1. apply Qabs_Qle_condition. split; lra.
    - destruct (spm TA TB v) eqn:Ep.
      + change (one_if true) with 1. change (one_if false) with 0. apply Qabs_Qle_condition. split; lra.
      + rewrite (unused TA TB v w HA HB Hw Es Ep). change (one_if false) with 0. apply Qabs_Qle_condition. split; lra.
  Qed.

  Let plainrun (real : bool) TA V := run (world TA) (own TA) (att (ekM ++ pkx) (c0 ++ cx0) (if real then get LY TA y0 else V)).
  Lemma seed_close real TA V : table LY L TA ->
    Qabs (average L (fun sk => dh_game hs X n LY LXC att real d z m skx ekx TA V sk) - plainrun real TA V) <= guess.
  Proof.
    intros HA. rewrite <- (average_const L (plainrun real TA V) NL).
    set (a := att (ekM ++ pkx) (c0 ++ cx0) (if real then get LY TA y0 else V)).
    eapply Qle_trans; [apply (average_close L _ _ (fun sk => one_if (points snd sk (asked (world TA) (own TA) a))))|].
    - intros sk Hsk. apply HL in Hsk. destruct (dh_view TA HA sk Hsk real V) as (dec & E1 & E2). rewrite E1. fold a.
      destruct (run_ext (dh_world hs LY TA sk d z skx) (dh_world hs LY TA sk d z skx) dec (own TA) a) as [E3 _]; [reflexivity|exact E2|]. rewrite E3.
      unfold plainrun. fold a. unfold dh_world. fold (world TA).
      destruct (points snd sk (asked (world TA) (own TA) a)) eqn:Ep.
      + assert (R1 : 0 <= run (with_seed (world TA) sk (d ++ z ++ skx)) (own TA) a <= 1) by (eapply run_range, Hatt).
        assert (R2 : 0 <= run (world TA) (own TA) a <= 1) by (eapply run_range, Hatt).
        change (one_if true) with 1. apply Qabs_Qle_condition. split; lra.
      + rewrite (run_seed (world TA) (own TA) sk _ a Ep). change (one_if false) with 0.
        setoid_replace (run (world TA) (own TA) a - run (world TA) (own TA) a) with 0 by ring. apply Qle_refl.
    - apply (average_points _ _ N L HL). eapply asked_length, Hatt.
  Qed.
  Lemma exchanged real : average LA (fun TA => average L (fun V => plainrun real TA V)) ==
    average LT (fun TB => average LA (fun TA => average L (fun V => simr TA TB (if real then get LB TB b0 else V)))).
  Proof.
    transitivity (average LT (fun _ => average LA (fun TA => average L (fun V => plainrun real TA V)))).
    { symmetry. apply average_const. exact (tables_nonempty LB L LT (proj1 HL) NL HLT). }
    rewrite (swap_average LB LY L (proj1 HLB) (proj1 HLY) ct un ct_in un_in LT LA (fun _ TA => average L (fun V => plainrun real TA V)) HLT HLA).
    apply average_ext. intros TB HB. apply HLT in HB. apply average_ext. intros TA HA. apply HLA in HA. apply average_ext. intros V _.
    change (swapF LB LY ct un TB TA) with (exch TB TA). unfold plainrun, simr.
    assert (Ey : get LY (exch TB TA) y0 = get LB TB b0).
    { unfold y0. rewrite ssx_dh. apply exch_get; [exact HA|exact HB|exact K0_bytes|exact cx0_ok]. }
    rewrite Ey. set (a := att _ _ _).
    destruct (run_ext (world (exch TB TA)) (simh TA TB) (own (exch TB TA)) (simo TB) a) as [E1 _].
    - intros f x len. apply exch_reply; assumption.
    - intros c. apply exch_own; assumption.
    - rewrite E1. reflexivity.
  Qed.
  Lemma real_shown : average LT (fun TB => average LA (fun TA => average L (fun V => simr TA TB (get LB TB b0)))) ==
    average LT (fun TB => average LA (fun TA => average L (fun V => simr TA (update LB TB b0 V) V))).
  Proof.
    transitivity (average LT (fun TB => average LA (fun TA => simr TA TB (get LB TB b0)))).
    { apply average_ext. intros TB _. apply average_ext. intros TA _. apply average_const, NL. }
    rewrite (resample LB L LT (proj1 HLB) (proj1 HL) NL HLT b0) by exact b0_in.
    apply average_ext. intros TB _. rewrite (average_swap L LA). apply average_ext. intros TA _. apply average_ext. intros v _.
    rewrite get_updated by exact b0_in. reflexivity.
  Qed.
  Lemma dh_pair :
    Qabs (average LA (fun TA => average L (fun V => average L (fun sk => dh_game hs X n LY LXC att true d z m skx ekx TA V sk))) -
          average LA (fun TA => average L (fun V => average L (fun sk => dh_game hs X n LY LXC att false d z m skx ekx TA V sk)))) <=
    average LA (fun TA => average LT (fun TB => average L (fun V =>
      one_if (match solver TA TB V with Some y => if list_eq_dec Z.eq_dec y ssx then true else false | None => false end) + one_if (spm TA TB V)))) + 2 * guess.
  Proof.
    assert (G0 : 0 <= guess).
    { apply Qle_shift_div_l; [reflexivity|]. rewrite Qmult_0_l. change 0 with (inject_Z 0). rewrite <- Zle_Qle. lia. }
    assert (C1 : forall real, Qabs (average LA (fun TA => average L (fun V => average L (fun sk => dh_game hs X n LY LXC att real d z m skx ekx TA V sk))) -
      average LA (fun TA => average L (fun V => plainrun real TA V))) <= guess).
    { intros real. apply close_const; [exact G0|]. intros TA HA. apply HLA in HA. apply close_const; [exact G0|]. intros V _.
      apply seed_close, HA. }
    pose proof (C1 true) as D1. pose proof (C1 false) as D0. clear C1.
    pose proof (exchanged true) as E1. pose proof (exchanged false) as E0. cbv iota in E1, E0. rewrite real_shown in E1.
    assert (M : Qabs (average LT (fun TB => average LA (fun TA => average L (fun V => simr TA (update LB TB b0 V) V))) -
      average LT (fun TB => average LA (fun TA => average L (fun V => simr TA TB V)))) <=
      average LT (fun TB => average LA (fun TA => average L (fun V =>
      one_if (match solver TA TB V with Some y => if list_eq_dec Z.eq_dec y ssx then true else false | None => false end) + one_if (spm TA TB V))))).
    { apply average_close. intros TB HB. apply HLT in HB. apply average_close. intros TA HA. apply HLA in HA. apply average_close. intros V HV.
      apply unused_bound; assumption. }
    rewrite <- E1, <- E0, (average_swap LT LA) in M. clear E1 E0.
    set (x1 := average LA (fun TA => average L (fun V => average L (fun sk => dh_game hs X n LY LXC att true d z m skx ekx TA V sk)))) in *.
    set (x0 := average LA (fun TA => average L (fun V => average L (fun sk => dh_game hs X n LY LXC att false d z m skx ekx TA V sk)))) in *.
    set (p1 := average LA (fun TA => average L (fun V => plainrun true TA V))) in *.
    set (p0 := average LA (fun TA => average L (fun V => plainrun false TA V))) in *.
    match type of M with _ <= ?t => set (r := t) in * end.
    clearbody x1 x0 p1 p0 r guess. clear - D1 D0 M.
    apply Qabs_Qle_condition in D1. apply Qabs_Qle_condition in D0. apply Qabs_Qle_condition in M. apply Qabs_Qle_condition. split; lra.
  Qed.
End Run.

(** ** The theorem *)

(** Whatever the seeds d, z and m of ML-KEM are, and even if the attacker knows them: an
    attacker that asks at most N hash questions tells the shared secret from a random string with
    probability at most
      E[the solver returns the Diffie-Hellman result of the two X25519 keys]
      + E[the attacker sends a second preimage] + 2 N / 2^256.
    The solver [dh_solver] is given the two public keys and an oracle that says whether y is
    the result of the first secret key with u. *)
Theorem C73_reduction hs X n att N D L LY LB LXC LA LT d z m ek dk K c :
  hash_ok hs -> x25519_ok X -> x25519_commutes X ->
  byte_string 32 d -> byte_string 32 z -> byte_string 32 m ->
  KeyGen_internal hs ML_KEM_768 n d z = Some (ek, dk) ->
  Encaps_internal hs ML_KEM_768 n ek m = Some (K, c) ->
  (forall ek c K, within N D (att ek c K)) ->
  enumerates 32 L -> enumerates 128 LY -> enumerates 64 LB -> enumerates 1120 LXC ->
  all_tables LY L LA -> all_tables LB L LT ->
  let solves skx ekx TA TB V :=
    match dh_solver hs n LY LB LXC att ek dk c TA TB V
            (fun u y => if list_eq_dec Z.eq_dec (x25519 X skx u) y then true else false)
            (x25519 X skx X25519_BASE) (x25519 X ekx X25519_BASE) with
    | Some y => if list_eq_dec Z.eq_dec y (x25519 X ekx (x25519 X skx X25519_BASE)) then true else false
    | None => false
    end in
  let finds skx ekx TA TB V :=
    sends_second_preimage hs dk m c
      (dh_sent hs n LY LB LXC att ek dk c TA TB V
         (fun u y => if list_eq_dec Z.eq_dec (x25519 X skx u) y then true else false)
         (x25519 X skx X25519_BASE) (x25519 X ekx X25519_BASE)) in
  (Qabs (dh_experiment hs X n att L LY LXC LA d z m true - dh_experiment hs X n att L LY LXC LA d z m false) <=
   average L (fun skx => average L (fun ekx => average LA (fun TA => average LT (fun TB => average L (fun V =>
     one_if (solves skx ekx TA TB V) + one_if (finds skx ekx TA TB V)))))) +
   2 * inject_Z (Z.of_nat N) / inject_Z (2 ^ 256))%Q.
Proof.
  intros Hhs [HX HXpub] HXc Hd Hz Hm EK EE Hatt HL HLY HLB HLXC HLA HLT solves finds.
  pose proof (L_nonempty L HL) as NL.
  set (g := (2 * (inject_Z (Z.of_nat N) / inject_Z (2 ^ 256)))%Q).
  assert (SH : forall f, (average L (fun x => f x + g) == average L f + g)%Q).
  { intros f. rewrite average_plus, (average_const L _ NL). reflexivity. }
  apply Qle_trans with (average L (fun skx => average L (fun ekx => average LA (fun TA => average LT (fun TB => average L (fun V =>
     one_if (solves skx ekx TA TB V) + one_if (finds skx ekx TA TB V)))) + g)))%Q.
  - unfold dh_experiment. apply average_close. intros skx Hskx. apply HL in Hskx. apply average_close. intros ekx Hekx. apply HL in Hekx.
    exact (dh_pair hs Hhs X HX HXpub HXc n L LY LB LXC HL HLY HLB HLXC d z m Hd Hz Hm ek dk K c EK EE att skx ekx Hskx Hekx N D Hatt LA LT HLA HLT).
  - apply Qle_lteq. right.
    transitivity (average L (fun skx => average L (fun ekx => average LA (fun TA => average LT (fun TB => average L (fun V =>
      one_if (solves skx ekx TA TB V) + one_if (finds skx ekx TA TB V))))) + g))%Q.
    + apply average_ext. intros skx _. apply SH.
    + rewrite SH. unfold g, Qdiv. ring.
Qed.

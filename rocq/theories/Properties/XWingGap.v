(** C75: C73 without the second preimages.  If also the answers of G and J that ML-KEM's
    decapsulation uses are random, an attacker that asks N hash questions and has D ciphertexts
    decapsulated sends a second preimage with probability at most (N + 2 D) / 2^256.  So X-Wing's shared
    secret is secret up to the X25519 Diffie-Hellman problem alone, even if all secrets of
    ML-KEM are known. *)
From Coq Require Import List ZArith Lia Bool Arith.
From Verif.Base Require Import Res Oracles.
From Verif.Spec Require Import FIPS203 XWing Domains Noise Counting Random Lwe Attacker Tables Hybrid Solver.
From Verif.Model Require Import Machine Util Algebra Compress Encode Crypto Sample Param Pke Kem XWing.
From Verif.Proofs Require Import Basics Field Poly CompressProofs NttAlgebra NttProofs EncodeProofs VecEncode SampleProofs CountProofs
  PkeProofs KemProofs Inner TailProofs XWingProofs LweProofs AttackerProofs TableProofs TreeProofs HybridProofs.
From Verif.Properties Require Import Kem KemCases XWing Binding ActiveSecrecy XWingSecrecy XWingDh.
From Coq Require Import QArith Qabs Lqa.
Import ListNotations.
Open Scope Z_scope.

(** The hash functions [hs], except that G(m || h) = TK(m) || TR(m) and J(z || c) = TF(c) *)
Definition kem_world (hs : hashes) (L LC : list (list Z)) (h z : list Z) (TK TR TF : list (list Z)) : hashes :=
  with_J_table (with_G_table hs L h TK TR) LC z TF.

(** C73's experiment with random tables TK and TF; [h] = H(ek) *)
Definition gap_experiment (hs : hashes) (X : x25519_impl) (n : nat) (att : list Z -> list Z -> list Z -> attacker)
  (L LC LY LXC TR : list (list Z)) (LK LF LA : list (list (list Z))) (h d z m : list Z) (real : bool) : Q :=
  average LK (fun TK => average LF (fun TF =>
    dh_experiment (kem_world hs L LC h z TK TR TF) X n att L LY LXC LA d z m real)).

Section Gap.
  Variable hs : hashes.
  Hypothesis Hhs : hash_ok hs.
  Let P := ML_KEM_768.
  Let HP : wf_params P := wf_768.
  Variable n : nat.
  Variables L LC LY LB LXC : list (list Z).
  Hypothesis HL : enumerates 32 L.
  Hypothesis HLC : enumerates (ct_len P) LC.
  Hypothesis HLXC : enumerates 1120 LXC.
  Variables d z m : list Z.
  Hypothesis Hd : byte_string 32 d.
  Hypothesis Hz : byte_string 32 z.
  Hypothesis Hm : byte_string 32 m.
  Variables ek dk c0 : list Z.
  Hypothesis EK : KeyGen_internal hs P n d z = Some (ek, dk).
  Let h := FIPS203.H hs ek.
  Variable TR : list (list Z).
  Hypothesis HTR : table L L TR.
  Hypothesis EE : KPKE_Encrypt hs P n ek m (get L TR m) = Some c0.

  Let plain c := KPKE_Decrypt P (dk_sec_pke P dk) c.
  (** the encryption of [m'] with the randomness of the table *)
  Let enc m' := match KPKE_Encrypt hs P n ek m' (get L TR m') with Some c => c | None => [] end.

  Lemma m_in : In m L.
  Proof. apply HL, Hm. Qed.
  Lemma plain_in c : In (plain c) L.
  Proof. apply HL, KPKE_Decrypt_bytes. Qed.
  Lemma h_bytes : byte_string 32 h.
  Proof. apply (H_ekM hs Hhs n d z Hd ek dk EK). Qed.
  Lemma A_some : exists A, A_hat hs P n (skipn (384 * pk P) ek) = Some A.
  Proof. pose proof EE as Q. unfold KPKE_Encrypt in Q. destruct (A_hat hs P n _) as [A|]; [exists A; reflexivity|discriminate Q]. Qed.
  Lemma enc_ok m' : KPKE_Encrypt hs P n ek m' (get L TR m') = Some (enc m').
  Proof.
    unfold enc. unfold KPKE_Encrypt. destruct A_some as [A EA]. rewrite EA. reflexivity.
  Qed.
  Lemma short_no_ct b : ~ In [b] LC.
  Proof. intros I. apply HLC in I. destruct I as [Q _]. discriminate Q. Qed.

  Section World.
    Variables TK TF : list (list Z).
    Hypothesis HTK : table L L TK.
    Hypothesis HTF : table LC L TF.
    Let w := kem_world hs L LC h z TK TR TF.

    Lemma w_ok : hash_ok w.
    Proof. apply (with_J_table_ok _ LC L); [|apply HL|exact HTF]. apply with_G_table_ok; [exact Hhs|apply HL|exact HTK|exact HTR]. Qed.
    Lemma w_G m' : In m' L -> FIPS203.G w (m' ++ h) = (get L TK m', get L TR m').
    Proof.
      intros I. pose proof (proj1 (proj2 HL m') I) as [Hl _]. unfold FIPS203.G, w, kem_world. cbn [with_J_table with_G_table sha3_512].
      rewrite skipn_app_exact, firstn_app_exact by exact Hl.
      destruct (list_eq_dec Z.eq_dec h h) as [_|Q]; [|contradiction].
      rewrite (entry_get L L TK _ HTK I), (entry_get L L TR _ HTR I).
      pose proof (proj1 (proj2 HL _) (get_in L L TK m' HTK I)) as [Hk _].
      rewrite firstn_app_exact, skipn_app_exact by exact Hk. reflexivity.
    Qed.
    Lemma w_J c : In c LC -> FIPS203.J w (z ++ c) = get LC TF c.
    Proof.
      intros I. unfold FIPS203.J, prefix, w, kem_world. cbn [with_J_table shake256].
      pose proof (proj1 (proj2 HL _) (get_in LC L TF c HTF I)) as [Hl _].
      apply (list_ext _ 0).
      - rewrite tab_length, Hl. reflexivity.
      - intros i Hi. rewrite tab_length in Hi. rewrite nth_tab by exact Hi.
        rewrite firstn_app_exact, skipn_app_exact by apply Hz.
        destruct (list_eq_dec Z.eq_dec z z) as [_|Q]; [|contradiction].
        rewrite (entry_get LC L TF c HTF I). rewrite (proj2 (Nat.ltb_lt i 32) Hi). reflexivity.
    Qed.
    Lemma w_PRF eta s b : length s = 32%nat -> FIPS203.PRF w eta s b = FIPS203.PRF hs eta s b.
    Proof.
      intros Ls. unfold FIPS203.PRF, prefix. apply tab_ext. intros i _. unfold w, kem_world. cbn [with_J_table with_G_table shake256].
      rewrite firstn_app_exact, skipn_app_exact by exact Ls. rewrite (entry_none LC) by apply short_no_ct.
      destruct (list_eq_dec Z.eq_dec s z); reflexivity.
    Qed.
    Lemma w_encrypt m' r : length r = 32%nat -> KPKE_Encrypt w P n ek m' r = KPKE_Encrypt hs P n ek m' r.
    Proof. intros Q. apply encrypt_same; [reflexivity|]. intros. apply w_PRF, Q. Qed.
    Lemma w_keys : KeyGen_internal w P n d z = Some (ek, dk).
    Proof.
      assert (E1 : KPKE_KeyGen w P n d = KPKE_KeyGen hs P n d).
      { unfold KPKE_KeyGen.
        assert (EG : FIPS203.G w (d ++ [Z.of_nat (pk P)]) = FIPS203.G hs (d ++ [Z.of_nat (pk P)])).
        { unfold FIPS203.G, w, kem_world. cbn [with_J_table with_G_table sha3_512]. rewrite skipn_app_exact by apply Hd.
          destruct (list_eq_dec Z.eq_dec [Z.of_nat (pk P)] h) as [Q|_]; [|reflexivity].
          pose proof h_bytes as [Q' _]. rewrite <- Q in Q'. discriminate Q'. }
        assert (Hb : bytes (d ++ [Z.of_nat (pk P)])) by (apply bytes_app; [apply Hd|repeat constructor; unfold is_byte; cbn; lia]).
        rewrite EG. destruct (G_bytes hs Hhs _ Hb) as [_ [Hsig _]]. destruct (FIPS203.G hs (d ++ [Z.of_nat (pk P)])) as [rho' sigma'].
        cbn [snd] in Hsig. change (A_hat w P n rho') with (A_hat hs P n rho').
        assert (HN : forall eta N0, noise w P eta sigma' N0 = noise hs P eta sigma' N0).
        { intros eta N0. unfold noise. apply tab_ext. intros i _. rewrite w_PRF by exact Hsig. reflexivity. }
        rewrite !HN. reflexivity. }
      rewrite <- EK. unfold KeyGen_internal. rewrite E1. reflexivity.
    Qed.
    Lemma w_encaps : Encaps_internal w P n ek m = Some (get L TK m, c0).
    Proof.
      unfold Encaps_internal, Encaps_with. change (FIPS203.H w ek) with h. rewrite (w_G m m_in).
      rewrite w_encrypt by apply (proj1 (proj2 HL _) (get_in L L TR m HTR m_in)). rewrite EE. reflexivity.
    Qed.
    Lemma dk_h : dk_sec_h P dk = h.
    Proof. exact (dkM_h hs Hhs n d z Hd ek dk EK). Qed.
    Lemma dk_z : dk_sec_z P dk = z.
    Proof.
      destruct (key_parts hs Hhs n d z Hd ek dk EK) as (rho & t & s & _ & _ & _ & Ed & Hs). rewrite Ed. clear Ed. unfold dk_sec_z.
      rewrite !app_assoc. apply skipn_app_exact. rewrite !app_length, (proj1 Hs), (proj1 (ekM_bytes hs Hhs n d z Hd ek dk EK)).
      rewrite (proj1 (h_bytes : byte_string 32 (FIPS203.H hs ek))). reflexivity.
    Qed.
    Lemma w_second c : In c LC -> second_preimage w dk m c =
      (if list_eq_dec Z.eq_dec (plain c) m then false else if list_eq_dec Z.eq_dec (get L TK (plain c)) (get L TK m) then true else false) ||
      (if list_eq_dec Z.eq_dec (get LC TF c) (get L TK m) then true else false).
    Proof.
      intros I. unfold second_preimage. fold P. rewrite dk_h, dk_z. cbv zeta. fold (plain c).
      rewrite (w_G m m_in), (w_G (plain c) (plain_in c)), (w_J c I). reflexivity.
    Qed.
    Lemma w_decaps c : In c LC -> Decaps_internal w P n dk c =
      Some (if list_eq_dec Z.eq_dec c (enc (plain c)) then get L TK (plain c) else get LC TF c).
    Proof.
      intros I. unfold Decaps_internal. pose proof (dkM_ek hs Hhs n d z Hd ek dk EK) as Ee. fold P in Ee. rewrite Ee. clear Ee.
      change (firstn 32 (skipn (768 * pk P + 32) dk)) with (dk_sec_h P dk).
      change (skipn (768 * pk P + 64) dk) with (dk_sec_z P dk).
      change (firstn (384 * pk P) dk) with (dk_sec_pke P dk). rewrite dk_h, dk_z. fold (plain c).
      rewrite (w_G _ (plain_in c)).
      rewrite w_encrypt by apply (proj1 (proj2 HL _) (get_in L L TR _ HTR (plain_in c))). rewrite enc_ok, (w_J c I).
      destruct (list_eq_dec Z.eq_dec c (enc (plain c))); reflexivity.
    Qed.
  End World.

  (** ** the attacker's run as questions to the two tables *)
  Variables (ok : list Z -> list Z -> bool) (pkx cx0 : list Z) (TA TB : list (list Z)).
  Let ch := c0 ++ cx0.
  Fixpoint looks (a : attacker) : tree :=
    match a with
    | Answer p => Done
    | Ask f x len next =>
        let other := looks (next (reply (dh_hashes hs ok pkx LY LB TA TB) f x len)) in
        match f with
        | Sha3_512 =>
            if list_eq_dec Z.eq_dec (skipn 32 x) h then
              if in_dec (list_eq_dec Z.eq_dec) (firstn 32 x) L then
                Look (inl (firstn 32 x)) (fun v => looks (next (v ++ get L TR (firstn 32 x))))
              else other
            else other
        | Shake256 =>
            if list_eq_dec Z.eq_dec (firstn 32 x) z then
              if in_dec (list_eq_dec Z.eq_dec) (skipn 32 x) LC then
                Look (inr (skipn 32 x)) (fun v => looks (next (prefix len (fun i => if Nat.ltb i 32 then nth i v 0 else shake256 hs x i))))
              else other
            else other
        | _ => other
        end
    | Decaps c next =>
        if list_eq_dec Z.eq_dec c ch then looks (next [])
        else if in_dec (list_eq_dec Z.eq_dec) c LXC then
          let cm := firstn 1088 c in
          Look (inl (plain cm)) (fun v => Look (inr cm) (fun v' =>
            looks (next (match entry LB TB ((if list_eq_dec Z.eq_dec cm (enc (plain cm)) then v else v') ++ skipn 1088 c) with
                         | Some y => y | None => [] end))))
        else looks (next [])
    end.

  Lemma part_ct c : In c LXC -> In (firstn 1088 c) LC.
  Proof. intros I. apply HLC. apply (byte_string_firstn 1088 1120); [apply HLXC, I|lia]. Qed.

  Lemma looks_bounded a : forall N D, within N D a -> bounded L LC L (N + 2 * D) (looks a).
  Proof.
    induction a as [p|f x len next IH|c next IH]; intros N D HW; cbn [looks within] in *; [exact I| |].
    - destruct N as [|N]; [contradiction|]. cbn [Nat.add].
      assert (other : bounded L LC L (S (N + 2 * D)) (looks (next (reply (dh_hashes hs ok pkx LY LB TA TB) f x len)))).
      { apply (bounded_more L LC L (N + 2 * D)); [lia|]. apply IH, HW. }
      cbv zeta. destruct f; try exact other.
      + destruct (list_eq_dec Z.eq_dec (skipn 32 x) h); [|exact other].
        destruct (in_dec (list_eq_dec Z.eq_dec) (firstn 32 x) L) as [J|_]; [|exact other].
        cbn [bounded]. split; [exact J|]. intros v _. apply IH, HW.
      + destruct (list_eq_dec Z.eq_dec (firstn 32 x) z); [|exact other].
        destruct (in_dec (list_eq_dec Z.eq_dec) (skipn 32 x) LC) as [J|_]; [|exact other].
        cbn [bounded]. split; [exact J|]. intros v _. apply IH, HW.
    - destruct D as [|D]; [contradiction|].
      destruct (list_eq_dec Z.eq_dec c ch); [apply (bounded_more L LC L (N + 2 * D)); [lia|]; apply IH, HW|].
      destruct (in_dec (list_eq_dec Z.eq_dec) c LXC) as [J|_]; [|apply (bounded_more L LC L (N + 2 * D)); [lia|]; apply IH, HW].
      replace (N + 2 * S D)%nat with (S (S (N + 2 * D))) by lia. cbv zeta. cbn [bounded]. split; [apply plain_in|]. intros v _.
      split; [apply part_ct, J|]. intros v' _. apply IH, HW.
  Qed.

  Definition repeated (v0 : list Z) (x : question) (v : list Z) : bool :=
    if question_eq x (inl m) then false else if list_eq_dec Z.eq_dec v v0 then true else false.
  Definition wellformed (c : list Z) : bool := if in_dec (list_eq_dec Z.eq_dec) c LXC then true else false.
  Lemma looks_hit TK TF a : table L L TK -> table LC L TF ->
    let w := kem_world hs L LC h z TK TR TF in
    sends_second_preimage w dk m c0
      (filter wellformed (sent (dh_hashes w ok pkx LY LB TA TB) (dh_decaps w n LB LXC TB dk ch) a)) = true ->
    hits L LC (repeated (get L TK m)) (TK, TF) (looks a) = true.
  Proof.
    intros HTK HTF w. unfold sends_second_preimage.
    induction a as [p|f x len next IH|c next IH]; cbn [looks sent]; [discriminate| |].
    - assert (other : reply (dh_hashes w ok pkx LY LB TA TB) f x len = reply (dh_hashes hs ok pkx LY LB TA TB) f x len ->
        existsb (fun c => if list_eq_dec Z.eq_dec (firstn 1088 c) c0 then false else second_preimage w dk m (firstn 1088 c))
          (filter wellformed (sent (dh_hashes w ok pkx LY LB TA TB) (dh_decaps w n LB LXC TB dk ch)
             (next (reply (dh_hashes w ok pkx LY LB TA TB) f x len)))) = true ->
        hits L LC (repeated (get L TK m)) (TK, TF) (looks (next (reply (dh_hashes hs ok pkx LY LB TA TB) f x len))) = true).
      { intros E Q. rewrite E in Q. exact (IH _ Q). }
      cbv zeta. destruct f; try (apply other; reflexivity).
      + cbn [reply] in *. cbn [dh_hashes sha3_512] in *.
        assert (Ew : sha3_512 w x = if list_eq_dec Z.eq_dec (skipn 32 x) h then
          match entry L TK (firstn 32 x), entry L TR (firstn 32 x) with Some K, Some r => K ++ r | _, _ => sha3_512 hs x end
          else sha3_512 hs x) by reflexivity.
        destruct (list_eq_dec Z.eq_dec (skipn 32 x) h) as [_|_]; [|apply other; exact Ew].
        destruct (in_dec (list_eq_dec Z.eq_dec) (firstn 32 x) L) as [J|NJ].
        * rewrite (entry_get L L TK _ HTK J), (entry_get L L TR _ HTR J) in Ew. intros Q. rewrite Ew in Q.
          cbn [hits value fst]. apply orb_true_iff. right. exact (IH _ Q).
        * rewrite entry_none in Ew by exact NJ. apply other. exact Ew.
      + cbn [reply] in *. cbn [dh_hashes shake256] in *.
        assert (Ew : forall i, shake256 w x i = if list_eq_dec Z.eq_dec (firstn 32 x) z then
          match entry LC TF (skipn 32 x) with Some K => if Nat.ltb i 32 then nth i K 0 else shake256 hs x i | None => shake256 hs x i end
          else shake256 hs x i) by reflexivity.
        destruct (list_eq_dec Z.eq_dec (firstn 32 x) z) as [_|_].
        2: { apply other. unfold prefix. apply tab_ext. intros i _. apply Ew. }
        destruct (in_dec (list_eq_dec Z.eq_dec) (skipn 32 x) LC) as [J|NJ].
        * assert (Ep : prefix len (shake256 w x) = prefix len (fun i => if Nat.ltb i 32 then nth i (get LC TF (skipn 32 x)) 0 else shake256 hs x i)).
          { unfold prefix. apply tab_ext. intros i _. rewrite Ew, (entry_get LC L TF _ HTF J). reflexivity. }
          intros Q. rewrite Ep in Q. cbn [hits value snd]. apply orb_true_iff. right. exact (IH _ Q).
        * apply other. unfold prefix. apply tab_ext. intros i _. rewrite Ew, entry_none by exact NJ. reflexivity.
    - cbn [filter]. destruct (wellformed c) eqn:Ef; unfold wellformed in Ef;
        destruct (in_dec (list_eq_dec Z.eq_dec) c LXC) as [J|NJ] eqn:Ei; try discriminate Ef.
      + cbn [existsb]. intros Q. apply orb_true_iff in Q. destruct (list_eq_dec Z.eq_dec c ch) as [Ec|Nc] eqn:Ed.
        * assert (E0 : firstn 1088 c = c0).
          { rewrite Ec. unfold ch. apply firstn_app_exact. exact (proj1 (KPKE_Encrypt_bytes hs P _ _ _ _ _ EE)). }
          destruct Q as [Q|Q]; [destruct (list_eq_dec Z.eq_dec (firstn 1088 c) c0); [discriminate Q|contradiction]|].
          unfold dh_decaps in Q at 2. rewrite Ed in Q. exact (IH _ Q).
        * cbv zeta. cbn [hits value fst snd]. pose proof (part_ct c J) as Jm. set (cm := firstn 1088 c) in *.
          destruct Q as [Q|Q].
          -- destruct (list_eq_dec Z.eq_dec cm c0) as [_|_]; [discriminate Q|].
             unfold w in Q. rewrite (w_second TK TF HTK HTF cm Jm) in Q. apply orb_true_iff in Q. destruct Q as [Q|Q].
             ++ apply orb_true_iff. left. unfold repeated. destruct (list_eq_dec Z.eq_dec (plain cm) m) as [_|N0]; [discriminate Q|].
                destruct (question_eq (inl (plain cm)) (inl m)) as [E1|_]; [injection E1 as E1; contradiction|exact Q].
             ++ apply orb_true_iff. right. apply orb_true_iff. left. unfold repeated.
                destruct (question_eq (inr cm) (inl m)) as [E1|_]; [discriminate E1|exact Q].
          -- apply orb_true_iff. right. apply orb_true_iff. right. unfold dh_decaps in Q at 2. rewrite Ed, Ei in Q.
             fold P cm in Q. pose proof (w_decaps TK TF HTK HTF cm Jm) as Ew. fold w in Ew. rewrite Ew in Q. exact (IH _ Q).
      + intros Q. destruct (list_eq_dec Z.eq_dec c ch) eqn:Ed; unfold dh_decaps in Q at 2; rewrite Ed in Q; [exact (IH _ Q)|].
        rewrite Ei in Q. exact (IH _ Q).
  Qed.
End Gap.

Lemma pull_in {A B C} (LA : list A) (LB : list B) (LC : list C) f :
  (average LA (fun a => average LB (fun b => average LC (fun c => f a b c))) ==
   average LC (fun c => average LA (fun a => average LB (fun b => f a b c))))%Q.
Proof.
  transitivity (average LA (fun a => average LC (fun c => average LB (fun b => f a b c)))).
  - apply average_ext. intros a _. apply average_swap.
  - apply average_swap.
Qed.

Lemma shift2 {A B} (LA : list A) (LB : list B) f g : LA <> [] -> LB <> [] ->
  (average LA (fun a => average LB (fun b => f a b + g)) == average LA (fun a => average LB (fun b => f a b)) + g)%Q.
Proof.
  intros NA NB. transitivity (average LA (fun a => average LB (fun b => f a b) + g)%Q).
  - apply average_ext. intros a _. rewrite average_plus, (average_const LB g NB). reflexivity.
  - rewrite average_plus, (average_const LA g NA). reflexivity.
Qed.

(** ** The theorems *)

(** With random tables TK and TF, an attacker in the simulation of C73 sends a second preimage
    with probability at most (N + 2 D) / 2^256, whatever else the solver draws, even if it
    knows the seeds d, z and m, and how G chooses the encryption randomness (TR). *)
Theorem C75_second_preimages hs n att N D L LC LY LB LXC LK LF TR TA TB V d z m ek dk r c ok pkx cx :
  hash_ok hs -> byte_string 32 d -> byte_string 32 z -> byte_string 32 m ->
  KeyGen_internal hs ML_KEM_768 n d z = Some (ek, dk) ->
  enumerates 32 L -> enumerates 1088 LC -> enumerates 1120 LXC ->
  all_tables L L LK -> all_tables LC L LF ->
  table L L TR -> entry L TR m = Some r -> KPKE_Encrypt hs ML_KEM_768 n ek m r = Some c ->
  (forall ek c K, within N D (att ek c K)) ->
  (average LK (fun TK => average LF (fun TF =>
     let w := kem_world hs L LC (FIPS203.H hs ek) z TK TR TF in
     one_if (sends_second_preimage w dk m c (dh_sent w n LY LB LXC att ek dk c TA TB V ok pkx cx)))) <=
   inject_Z (Z.of_nat (N + 2 * D)) / inject_Z (2 ^ 256))%Q.
Proof.
  intros Hhs Hd Hz Hm EK HL HLC HLXC HLK HLF HTR Er EE Hatt.
  assert (Im : In m L) by (apply HL, Hm).
  assert (Eg : get L TR m = r) by (unfold get; rewrite Er; reflexivity).
  assert (EE' : KPKE_Encrypt hs ML_KEM_768 n ek m (get L TR m) = Some c) by (rewrite Eg; exact EE). clear Er Eg EE.
  set (t := looks hs n L LC LY LB LXC z ek dk c TR ok pkx cx TA TB (att (ek ++ pkx) (c ++ cx) V)).
  eapply Qle_trans; [|exact (repeats L LC L LK LF (inl m) (fun _ => t) (N + 2 * D) (proj1 HL) (proj1 HLC) HL HLK HLF Im
    (fun v _ => looks_bounded hs n L LC LY LB LXC HL HLC HLXC z ek dk c TR ok pkx cx TA TB _ N D (Hatt _ _ _)))].
  apply average_le. intros TK HTK. apply HLK in HTK. apply average_le. intros TF HTF. apply HLF in HTF. cbv zeta. cbn [value fst].
  match goal with |- (one_if ?b <= _)%Q => destruct b eqn:Eb end; [|apply one_if_range].
  assert (Q : hits L LC (repeated m (get L TK m)) (TK, TF) t = true).
  { apply (looks_hit hs Hhs n L LC LY LB LXC HL HLC HLXC d z m Hd Hz Hm ek dk c EK TR HTR EE' ok pkx cx TA TB TK TF _ HTK HTF). exact Eb. }
  unfold repeated in Q. rewrite Q. apply Qle_refl.
Qed.

(** Whatever the seeds d, z and m of ML-KEM and the table TR are, and even if the attacker
    knows them: an attacker that asks N hash questions and has D ciphertexts decapsulated tells
    the shared secret from a random string with probability at most
      E[the solver returns the Diffie-Hellman result of the two X25519 keys] + (3 N + 2 D) / 2^256. *)
Theorem C75_reduction hs X n att N D L LC LY LB LXC LK LF LA LT TR d z m ek dk r c :
  hash_ok hs -> x25519_ok X -> x25519_commutes X ->
  byte_string 32 d -> byte_string 32 z -> byte_string 32 m ->
  KeyGen_internal hs ML_KEM_768 n d z = Some (ek, dk) ->
  (forall ek c K, within N D (att ek c K)) ->
  enumerates 32 L -> enumerates 1088 LC -> enumerates 128 LY -> enumerates 64 LB -> enumerates 1120 LXC ->
  all_tables L L LK -> all_tables LC L LF -> all_tables LY L LA -> all_tables LB L LT ->
  table L L TR -> entry L TR m = Some r -> KPKE_Encrypt hs ML_KEM_768 n ek m r = Some c ->
  let h := FIPS203.H hs ek in
  let solves TK TF skx ekx TA TB V :=
    match dh_solver (kem_world hs L LC h z TK TR TF) n LY LB LXC att ek dk c TA TB V
            (fun u y => if list_eq_dec Z.eq_dec (x25519 X skx u) y then true else false)
            (x25519 X skx X25519_BASE) (x25519 X ekx X25519_BASE) with
    | Some y => if list_eq_dec Z.eq_dec y (x25519 X ekx (x25519 X skx X25519_BASE)) then true else false
    | None => false
    end in
  (Qabs (gap_experiment hs X n att L LC LY LXC TR LK LF LA h d z m true -
         gap_experiment hs X n att L LC LY LXC TR LK LF LA h d z m false) <=
   average LK (fun TK => average LF (fun TF =>
   average L (fun skx => average L (fun ekx => average LA (fun TA => average LT (fun TB => average L (fun V =>
     one_if (solves TK TF skx ekx TA TB V)))))))) +
   inject_Z (Z.of_nat (3 * N + 2 * D)) / inject_Z (2 ^ 256))%Q.
Proof.
  intros Hhs HX HXc Hd Hz Hm EK Hatt HL HLC HLY HLB HLXC HLK HLF HLA HLT HTR Er EE h solves.
  pose proof (L_nonempty L HL) as NL.
  assert (Im : In m L) by (apply HL, Hm).
  assert (Eg : get L TR m = r) by (unfold get; rewrite Er; reflexivity).
  assert (EE' : KPKE_Encrypt hs ML_KEM_768 n ek m (get L TR m) = Some c) by (rewrite Eg; exact EE).
  set (finds TK TF skx ekx TA TB V :=
    sends_second_preimage (kem_world hs L LC h z TK TR TF) dk m c
      (dh_sent (kem_world hs L LC h z TK TR TF) n LY LB LXC att ek dk c TA TB V
         (fun u y => if list_eq_dec Z.eq_dec (x25519 X skx u) y then true else false)
         (x25519 X skx X25519_BASE) (x25519 X ekx X25519_BASE))).
  set (g := (2 * inject_Z (Z.of_nat N) / inject_Z (2 ^ 256))%Q).
  set (S TK TF := average L (fun skx => average L (fun ekx => average LA (fun TA => average LT (fun TB => average L (fun V =>
    one_if (solves TK TF skx ekx TA TB V))))))).
  set (F TK TF := average L (fun skx => average L (fun ekx => average LA (fun TA => average LT (fun TB => average L (fun V =>
    one_if (finds TK TF skx ekx TA TB V))))))).
  assert (B1 : (Qabs (gap_experiment hs X n att L LC LY LXC TR LK LF LA h d z m true -
    gap_experiment hs X n att L LC LY LXC TR LK LF LA h d z m false) <= average LK (fun TK => average LF (fun TF => S TK TF + F TK TF + g)))%Q).
  { unfold gap_experiment. apply average_close. intros TK HTK. apply HLK in HTK. apply average_close. intros TF HTF. apply HLF in HTF.
    eapply Qle_trans; [exact (C73_reduction (kem_world hs L LC h z TK TR TF) X n att N D L LY LB LXC LA LT d z m ek dk (get L TK m) c
      (w_ok hs Hhs L LC HL z ek TR HTR TK TF HTK HTF) HX HXc Hd Hz Hm
      (w_keys hs Hhs n L LC HLC d z Hd ek dk EK TR TK TF)
      (w_encaps hs n L LC HL HLC z m Hm ek c TR HTR EE' TK TF HTK) Hatt HL HLY HLB HLXC HLA HLT)|].
    apply Qplus_le_compat; [|apply Qle_refl]. apply Qle_lteq. right. unfold S, F.
    rewrite <- average_plus. apply average_ext. intros skx _. rewrite <- average_plus. apply average_ext. intros ekx _.
    rewrite <- average_plus. apply average_ext. intros TA _. rewrite <- average_plus. apply average_ext. intros TB _.
    rewrite <- average_plus. reflexivity. }
  eapply Qle_trans; [exact B1|]. clear B1.
  assert (NK : LK <> []) by exact (tables_nonempty L L LK (proj1 HL) NL HLK).
  assert (NF : LF <> []) by exact (tables_nonempty LC L LF (proj1 HL) NL HLF).
  assert (E1 : (average LK (fun TK => average LF (fun TF => S TK TF + F TK TF + g)) ==
    average LK (fun TK => average LF (fun TF => S TK TF)) + average LK (fun TK => average LF (fun TF => F TK TF)) + g)%Q).
  { rewrite (shift2 LK LF (fun TK TF => S TK TF + F TK TF)%Q g NK NF). rewrite <- average_plus. apply Qplus_comp; [|reflexivity].
    apply average_ext. intros TK _. apply average_plus. }
  rewrite E1. clear E1.
  set (b := (inject_Z (Z.of_nat (N + 2 * D)) / inject_Z (2 ^ 256))%Q).
  assert (Eb : (inject_Z (Z.of_nat (3 * N + 2 * D)) / inject_Z (2 ^ 256) == b + g)%Q).
  { unfold b, g, Qdiv. replace (Z.of_nat (3 * N + 2 * D)) with (Z.of_nat (N + 2 * D) + 2 * Z.of_nat N) by lia.
    rewrite inject_Z_plus, inject_Z_mult. ring. }
  rewrite Eb, Qplus_assoc. apply Qplus_le_compat; [|apply Qle_refl]. apply Qplus_le_compat; [apply Qle_refl|].
  assert (Q0 : (0 <= b)%Q).
  { unfold b. apply Qle_shift_div_l; [reflexivity|]. rewrite Qmult_0_l. change 0%Q with (inject_Z 0). rewrite <- Zle_Qle. lia. }
  assert (E2 : (average LK (fun TK => average LF (fun TF => F TK TF)) ==
    average L (fun skx => average L (fun ekx => average LA (fun TA => average LT (fun TB => average L (fun V =>
      average LK (fun TK => average LF (fun TF => one_if (finds TK TF skx ekx TA TB V)))))))))%Q).
  { unfold F. repeat (rewrite pull_in; apply average_ext; intros ? _). reflexivity. }
  rewrite E2. do 5 (apply average_bound; [exact Q0|]; intros ? _).
  apply (C75_second_preimages hs n att N D L LC LY LB LXC LK LF TR _ _ _ d z m ek dk r c); assumption.
Qed.

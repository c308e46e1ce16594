(** Averages; K-PKE keys and ciphertexts as MLWE samples. *)
From Coq Require Import List ZArith QArith Lia Bool Arith Permutation Setoid.
From Verif.Base Require Import Res Oracles.
From Verif.Spec Require Import FIPS203 Domains Noise Counting Random Lwe.
From Verif.Proofs Require Import Basics Field Poly CompressProofs NttProofs NttAlgebra EncodeProofs VecEncode CountProofs
  PkeProofs KemProofs Inner Correctness TailProofs FailureProofs FailureAverage.
Import ListNotations.
Open Scope Q_scope.

(** ** all sequences over a list *)
Fixpoint words {A} (D : list A) (n : nat) : list (list A) :=
  match n with
  | O => [[]]
  | S m => flat_map (fun x => map (cons x) (words D m)) D
  end.
Lemma in_words {A} (D : list A) n l : In l (words D n) <-> length l = n /\ Forall (fun x => In x D) l.
Proof.
  revert l. induction n as [|n IH]; intros l; cbn [words].
  - split.
    + intros [<- | []]. split; [reflexivity|constructor].
    + intros [L _]. destruct l; [left; reflexivity|discriminate L].
  - rewrite in_flat_map. split.
    + intros (x & Hx & Hl). apply in_map_iff in Hl. destruct Hl as (m & <- & Hm).
      apply IH in Hm. destruct Hm as [L F]. split; [cbn [length]; lia|constructor; assumption].
    + intros [L F]. destruct l as [|x l]; [discriminate L|]. inversion F; subst. exists x. split; [assumption|].
      apply in_map. apply IH. split; [cbn [length] in L; lia|assumption].
Qed.
Lemma NoDup_words {A} (D : list A) n : NoDup D -> NoDup (words D n).
Proof.
  intros N. induction n as [|n IH]; cbn [words]; [constructor; [intros []|constructor]|].
  revert N. generalize D at 1 3. intros E N. induction N as [|x E Hx N IHE]; [constructor|]. cbn [flat_map].
  apply NoDup_app_disj.
  - apply FinFun.Injective_map_NoDup; [|exact IH]. intros a b H. congruence.
  - exact IHE.
  - intros l H1 H2. apply in_map_iff in H1. destruct H1 as (m & <- & _).
    apply in_flat_map in H2. destruct H2 as (y & Hy & H2). apply in_map_iff in H2.
    destruct H2 as (m' & E' & _). assert (y = x) by congruence. subst y. contradiction.
Qed.

(** ** averages *)
Lemma total_ext {A} (L : list A) f g : (forall x, In x L -> f x == g x) -> total L f == total L g.
Proof.
  induction L as [|x L IH]; intros H; [reflexivity|]. cbn [total fold_right]. rewrite (H x (or_introl eq_refl)).
  fold (total L f) (total L g). rewrite IH; [reflexivity|]. intros y Hy. apply H. right. exact Hy.
Qed.
Lemma total_plus {A} (L : list A) f g : total L (fun x => f x + g x) == total L f + total L g.
Proof. induction L as [|x L IH]; [reflexivity|]. cbn [total fold_right]. fold (total L f) (total L g) (total L (fun x => f x + g x)). rewrite IH. ring. Qed.
Lemma total_scale {A} (L : list A) c f : total L (fun x => c * f x) == c * total L f.
Proof. induction L as [|x L IH]; [cbn; ring|]. cbn [total fold_right]. fold (total L f) (total L (fun x => c * f x)). rewrite IH. ring. Qed.
Lemma total_le {A} (L : list A) f g : (forall x, In x L -> f x <= g x) -> total L f <= total L g.
Proof.
  induction L as [|x L IH]; intros H; [apply Qle_refl|]. cbn [total fold_right]. fold (total L f) (total L g).
  apply Qplus_le_compat; [apply H; left; reflexivity|]. apply IH. intros y Hy. apply H. right. exact Hy.
Qed.
Lemma total_const {A} (L : list A) c : total L (fun _ => c) == inject_Z (Z.of_nat (length L)) * c.
Proof.
  induction L as [|x L IH]; [cbn; ring|]. cbn [total fold_right length]. fold (total L (fun _ => c)). rewrite IH.
  rewrite Nat2Z.inj_succ. unfold Z.succ. rewrite inject_Z_plus. ring.
Qed.
Lemma total_perm {A} (L M : list A) f : Permutation L M -> total L f == total M f.
Proof.
  induction 1; cbn [total fold_right]; fold (@total A); try fold (total l f) (total l' f).
  - reflexivity.
  - rewrite IHPermutation. reflexivity.
  - ring.
  - rewrite IHPermutation1. exact IHPermutation2.
Qed.
Lemma total_map {A B} (g : A -> B) L f : total (map g L) f == total L (fun x => f (g x)).
Proof. induction L as [|x L IH]; [reflexivity|]. cbn [map total fold_right]. fold (total (map g L) f) (total L (fun x => f (g x))). rewrite IH. reflexivity. Qed.
Lemma total_swap {A B} (L : list A) (M : list B) f :
  total L (fun x => total M (fun y => f x y)) == total M (fun y => total L (fun x => f x y)).
Proof.
  induction L as [|x L IH]; cbn [total fold_right].
  - symmetry. change (total M (fun _ => 0) == 0). rewrite total_const. ring.
  - fold (total L (fun x => total M (fun y => f x y))). rewrite IH. rewrite <- total_plus. reflexivity.
Qed.

Lemma average_ext {A} (L : list A) f g : (forall x, In x L -> f x == g x) -> average L f == average L g.
Proof. intros H. unfold average. rewrite (total_ext L f g H). reflexivity. Qed.
Lemma average_plus {A} (L : list A) f g : average L (fun x => f x + g x) == average L f + average L g.
Proof. unfold average. rewrite total_plus. unfold Qdiv. ring. Qed.
Lemma average_scale {A} (L : list A) c f : average L (fun x => c * f x) == c * average L f.
Proof. unfold average. rewrite total_scale. unfold Qdiv. ring. Qed.
Lemma average_minus {A} (L : list A) f g : average L (fun x => f x - g x) == average L f - average L g.
Proof.
  unfold Qminus. rewrite average_plus. apply Qplus_comp; [reflexivity|].
  transitivity ((-1) * average L g); [|ring]. rewrite <- average_scale. apply average_ext. intros. ring.
Qed.
Lemma average_swap {A B} (L : list A) (M : list B) f :
  average L (fun x => average M (fun y => f x y)) == average M (fun y => average L (fun x => f x y)).
Proof.
  unfold average, Qdiv. set (a := / inject_Z (Z.of_nat (length M))). set (b := / inject_Z (Z.of_nat (length L))).
  assert (E1 : total L (fun x => total M (fun y => f x y) * a) == a * total L (fun x => total M (fun y => f x y))).
  { rewrite <- total_scale. apply total_ext. intros. ring. }
  assert (E2 : total M (fun y => total L (fun x => f x y) * b) == b * total M (fun y => total L (fun x => f x y))).
  { rewrite <- total_scale. apply total_ext. intros. ring. }
  rewrite E1, E2, (total_swap L M f). ring.
Qed.
Lemma average_perm {A} (L M : list A) f : Permutation L M -> average L f == average M f.
Proof. intros H. unfold average. rewrite (total_perm L M f H), (Permutation_length H). reflexivity. Qed.
Lemma inv_nonneg n : 0 <= / inject_Z (Z.of_nat n).
Proof. apply Qinv_le_0_compat. change 0 with (inject_Z 0). rewrite <- Zle_Qle. lia. Qed.
Lemma average_le {A} (L : list A) f g : (forall x, In x L -> f x <= g x) -> average L f <= average L g.
Proof. intros H. unfold average, Qdiv. apply Qmult_le_compat_r; [apply total_le, H|apply inv_nonneg]. Qed.
Lemma average_const {A} (L : list A) c : L <> [] -> average L (fun _ => c) == c.
Proof.
  intros N. unfold average. rewrite total_const. field. destruct L; [contradiction|]. cbn [length].
  intros E. change 0 with (inject_Z 0) in E. apply (proj1 (inject_Z_injective _ _)) in E. lia.
Qed.
(** a bijection of the list does not change the average *)
Lemma average_bound {A} (L : list A) f c : 0 <= c -> (forall x, In x L -> f x <= c) -> average L f <= c.
Proof.
  intros Hc H. destruct L as [|x L]; [exact Hc|].
  rewrite <- (average_const (x :: L) c) by discriminate. apply average_le, H.
Qed.
Lemma average_bij {A B} (L : list A) (M : list B) (g : A -> B) (h : B -> A) f :
  NoDup L -> NoDup M -> (forall x, In x L -> In (g x) M /\ h (g x) = x) -> (forall y, In y M -> In (h y) L /\ g (h y) = y) ->
  average L (fun x => f (g x)) == average M f.
Proof.
  intros NL NM HL HM. transitivity (average (map g L) f).
  - unfold average. rewrite total_map, map_length. reflexivity.
  - apply average_perm, NoDup_Permutation; [|exact NM|].
    + assert (G : forall l, NoDup l -> (forall x, In x l -> In x L) -> NoDup (map g l)).
      { induction 1 as [|x l Nx N IH]; intros I; [constructor|]. cbn [map]. constructor.
        - intros H. apply in_map_iff in H. destruct H as (y & E & Hy). apply Nx.
          rewrite <- (proj2 (HL x (I x (or_introl eq_refl)))), <- E, (proj2 (HL y (I y (or_intror Hy)))). exact Hy.
        - apply IH. intros y Hy. apply I. right. exact Hy. }
      apply G; [exact NL|auto].
    + intros y. rewrite in_map_iff. split.
      * intros (x & <- & Hx). apply HL, Hx.
      * intros Hy. exists (h y). split; apply HM, Hy.
Qed.

(** ** keys and ciphertexts *)
Open Scope Z_scope.

Lemma cbd_vec_vec eta n B : vec n (cbd_vec eta n B).
Proof. apply vec_tab. intros i Hi. apply poly_tab_mod. Qed.
Lemma lwe_samples_vec k l M s e : vec l (lwe_samples k l M s e).
Proof. apply vec_tab. intros i Hi. apply padd_poly. Qed.

Section Keys.
  Variable hs : hashes.
  Hypothesis Hhs : hash_ok hs.
  Variable P : params.
  Hypothesis HP : wf_params P.
  Let k := pk P.
  Variable n : nat.

  Lemma keygen_lwe d Ah S E : bytes d -> byte_string (k * (64 * eta1 P)) S -> byte_string (k * (64 * eta1 P)) E ->
    A_hat hs P n (key_rho hs P d) = Some Ah ->
    KPKE_KeyGen (with_secrets hs P (key_sigma hs P d) (S ++ E)) P n d =
      Some (key_bytes P (key_rho hs P d)
              (lwe_samples k k (map (map NTTinv) Ah) (cbd_vec (eta1 P) k S) (cbd_vec (eta1 P) k E)), secret_bytes P S).
  Proof.
    intros Hd HS HE EA.
    assert (HB : byte_string (2 * k * (64 * eta1 P)) (S ++ E)).
    { replace (2 * k * (64 * eta1 P))%nat with (k * (64 * eta1 P) + k * (64 * eta1 P))%nat by lia. apply byte_string_app; assumption. }
    set (hs' := with_secrets hs P (key_sigma hs P d) (S ++ E)).
    assert (Ns : noise hs' P (eta1 P) (key_sigma hs P d) 0 = cbd_vec (eta1 P) k S).
    { unfold noise, cbd_vec. apply tab_ext. intros i Hi. f_equal. cbn [Nat.add].
      unfold hs'. rewrite (PRF_secret hs P d (S ++ E) HB i) by (fold k; lia).
      unfold part. rewrite skipn_app, firstn_app. rewrite skipn_length.
      replace (64 * eta1 P - (length S - i * (64 * eta1 P)))%nat with 0%nat by (rewrite (proj1 HS); fold k in Hi; nia).
      cbn [firstn]. apply app_nil_r. }
    assert (Ne : noise hs' P (eta1 P) (key_sigma hs P d) k = cbd_vec (eta1 P) k E).
    { unfold noise, cbd_vec. apply tab_ext. intros i Hi. f_equal. fold k in Hi.
      unfold hs'. rewrite (PRF_secret hs P d (S ++ E) HB (k + i)) by (fold k; lia).
      unfold part. rewrite skipn_app. rewrite skipn_all2 by (rewrite (proj1 HS); nia). cbn [app]. f_equal. f_equal.
      rewrite (proj1 HS). nia. }
    unfold KPKE_KeyGen. fold k.
    change (FIPS203.G hs' (d ++ [Z.of_nat k])) with (FIPS203.G hs (d ++ [Z.of_nat (pk P)])).
    assert (Hb : bytes (d ++ [Z.of_nat (pk P)])).
    { apply bytes_app; [exact Hd|]. apply bytes_cons; [|apply bytes_nil].
      pose proof (k_range P HP). unfold is_byte. lia. }
    destruct (G_bytes hs Hhs _ Hb) as [Hrho Hsig].
    pose proof (A_hat_mat hs Hhs P HP n _ Ah (proj2 Hrho) EA) as HA.
    unfold key_rho, key_sigma in *. 
    destruct (FIPS203.G hs (d ++ [Z.of_nat (pk P)])) as [rho sigma]. cbn [fst snd] in *.
    change (A_hat hs' P n rho) with (A_hat hs P n rho). rewrite EA.
    rewrite Ns, Ne. f_equal. f_equal. unfold key_bytes. f_equal. f_equal.
    unfold vadd, matvec, lwe_samples. rewrite map_tab. apply tab_ext. intros i Hi.
    rewrite !ent_tab by exact Hi. rewrite NTT_padd.
    rewrite (ent_map k) by (try apply cbd_vec_vec; exact Hi). f_equal.
    rewrite (nth_indep (map (map NTTinv) Ah) [] (map NTTinv []))
      by (rewrite map_length; rewrite (proj1 HA); exact Hi).
    rewrite map_nth. rewrite <- NTTinv_dot by (try apply cbd_vec_vec; apply mat_row; assumption).
    symmetry. apply NTT_NTTinv. apply dot_poly.
  Qed.

  Lemma encrypt_lwe rho Ah t m r Y W : bytes rho -> vec k t ->
    byte_string (k * (64 * eta1 P)) Y -> byte_string ((k + 1) * (64 * eta2 P)) W ->
    A_hat hs P n rho = Some Ah ->
    KPKE_Encrypt (with_coins hs P r Y W) P n (key_bytes P rho t) m r =
    let w := lwe_samples k (k + 1) (ct_matrix k (map (map NTTinv) Ah) t) (cbd_vec (eta1 P) k Y) (cbd_vec (eta2 P) (k + 1) W) in
    Some (ct_bytes P (firstn k w) (padd (nth k w []) (enc_mu m))).
  Proof.
    intros Hrho Ht HY HW EA.
    pose proof (A_hat_mat hs Hhs P HP n _ Ah Hrho EA) as HA. cbv zeta.
    unfold KPKE_Encrypt, key_bytes. fold k.
    assert (Lt : length (encode_vec P 12 (map NTT t)) = (384 * k)%nat) by (apply encode_vec12_bytes).
    rewrite firstn_app_exact, skipn_app_exact by exact Lt.
    change (A_hat (with_coins hs P r Y W) P n rho) with (A_hat hs P n rho). rewrite EA.
    assert (Vt : vec k (map NTT t)) by (apply vec_map; [exact Ht|intros; apply NTT_poly]).
    rewrite decode_encode_vec by (try lia; apply Vt).
    pose proof (enc_y_coins hs P r Y W HY) as EY. unfold enc_y in EY. rewrite EY. clear EY.
    pose proof (enc_e1_coins hs P r Y W HW) as EE. unfold enc_e1 in EE. fold k in EE. rewrite EE. clear EE.
    pose proof (enc_e2_coins hs P r Y W HW) as EE. unfold enc_e2 in EE. fold k in EE. rewrite EE. clear EE.
    change (yvec P Y) with (cbd_vec (eta1 P) k Y).
    rewrite NTTinv_matvec by (try apply cbd_vec_vec; apply transposed_mat; exact HA).
    rewrite <- transposed_map by exact HA.
    rewrite NTTinv_dot by (try apply cbd_vec_vec; exact Vt).
    rewrite (map_NTTinv_NTT k) by exact Ht.
    set (y := cbd_vec (eta1 P) k Y). set (A := map (map NTTinv) Ah).
    assert (LT : length (transposed k A) = k) by apply tab_length.
    assert (EW : forall i, (i < k + 1)%nat ->
      nth i (lwe_samples k (k + 1) (ct_matrix k (map (map NTTinv) Ah) t) y (cbd_vec (eta2 P) (k + 1) W)) [] =
      padd (inner k (nth i (transposed k A ++ [t]) []) y) (SamplePolyCBD (eta2 P) (part (64 * eta2 P) i W))).
    { intros i Hi. unfold lwe_samples. rewrite nth_tab by exact Hi. f_equal. unfold cbd_vec. apply ent_tab. exact Hi. }
    assert (LW : length (lwe_samples k (k + 1) (ct_matrix k (map (map NTTinv) Ah) t) y (cbd_vec (eta2 P) (k + 1) W)) = (k + 1)%nat) by apply tab_length.
    set (w := lwe_samples _ _ _ _ _) in *. clearbody w.
    f_equal. unfold ct_bytes. f_equal.
    - do 2 f_equal. apply (list_ext _ []).
      + rewrite firstn_length, LW. unfold vadd. rewrite tab_length. lia.
      + intros i Hi. unfold vadd in Hi |- *. rewrite tab_length in Hi. rewrite nth_tab, nth_firstn by exact Hi.
        rewrite EW by lia. rewrite app_nth1 by lia. f_equal; [apply ent_tab; exact Hi|rewrite ent_tab by exact Hi; reflexivity].
    - do 2 f_equal. change (enc_mu m) with (map (Decompress 1) (ByteDecode 1 m)). f_equal.
      rewrite EW by lia. rewrite app_nth2 by lia. rewrite LT, Nat.sub_diag. reflexivity.
  Qed.

  (** ** the two steps from real keys and ciphertexts to uniform ones *)
  Variable rho : list Z.
  Hypothesis Hrho : bytes rho.
  Variable Ah : list (list (list Z)).
  Hypothesis EA : A_hat hs P n rho = Some Ah.
  Let A := map (map NTTinv) Ah.
  Variable r : list Z.
  Variables LS LE LY LW : list (list Z).
  Variables LT LV : list (list (list Z)).
  Hypothesis HLY : enumerates (k * (64 * eta1 P)) LY.
  Hypothesis HLW : enumerates ((k + 1) * (64 * eta2 P)) LW.
  Hypothesis HLT : all_vectors k LT.
  Hypothesis HLV : all_vectors (k + 1) LV.
  Variable message : list Z -> list Z.
  Variable T : list Z -> list Z -> Q.
  Open Scope Q_scope.

  Lemma from_ciphertext t : vec k t ->
    key_test hs P n rho r LY LW message T t ==
    lwe_gap k (k + 1) (eta1 P) (eta2 P) (ct_matrix k A t) LY LW LV (ct_test P rho message T t) +
    average LV (fun w => T (key_bytes P rho t) (ct_bytes P (firstn k w) (nth k w []))).
  Proof.
    intros Ht. unfold lwe_gap.
    assert (E1 : key_test hs P n rho r LY LW message T t ==
      average LY (fun Y => average LW (fun W => ct_test P rho message T t
        (lwe_samples k (k + 1) (ct_matrix k A t) (cbd_vec (eta1 P) k Y) (cbd_vec (eta2 P) (k + 1) W))))).
    { unfold key_test. cbv zeta. apply average_ext. intros Y HY. apply average_ext. intros W HW. apply HLY in HY. apply HLW in HW.
      rewrite (encrypt_lwe rho Ah t _ r Y W Hrho Ht HY HW EA). reflexivity. }
    rewrite E1. set (x := average LY _).
    assert (E2 : average LV (ct_test P rho message T t) ==
      average LV (fun w => T (key_bytes P rho t) (ct_bytes P (firstn k w) (nth k w [])))).
    { set (mu := enc_mu (message (key_bytes P rho t))).
      pose (shift := fun (f : list Z -> list Z -> list Z) (w : list (list Z)) => firstn k w ++ [f (nth k w []) mu]).
      assert (SV : forall f w, (forall a b, poly (f a b)) -> vec (k + 1) w -> vec (k + 1) (shift f w)).
      { intros f w Hf [L F]. split; [unfold shift; rewrite app_length, firstn_length, L; cbn [length]; lia|].
        apply Forall_app. split; [|constructor; [apply Hf|constructor]].
        apply Forall_forall. intros p Hp. rewrite Forall_forall in F. apply F.
        rewrite <- (firstn_skipn k w). apply in_or_app. left. exact Hp. }
      assert (S1 : forall f w, vec (k + 1) w -> firstn k (shift f w) = firstn k w).
      { intros f w [L _]. unfold shift. apply firstn_app_exact. rewrite firstn_length. lia. }
      assert (S2 : forall f w, vec (k + 1) w -> nth k (shift f w) [] = f (nth k w []) mu).
      { intros f w [L _]. unfold shift. rewrite app_nth2 by (rewrite firstn_length; lia).
        rewrite firstn_length. replace (k - Nat.min k (length w))%nat with 0%nat by lia. reflexivity. }
      assert (S3 : forall f g w, (forall a, poly a -> f (g a mu) mu = a) -> (forall a b, poly (g a b)) -> vec (k + 1) w -> shift f (shift g w) = w).
      { intros f g w H Hg Hw. unfold shift at 1. rewrite S1, S2 by exact Hw. pose proof Hw as [L F].
        assert (Hn : poly (nth k w [])) by (rewrite Forall_forall in F; apply F, nth_In; lia).
        rewrite H by exact Hn. apply (list_ext _ []).
        - rewrite app_length, firstn_length. cbn [length]. lia.
        - rewrite app_length, firstn_length. cbn [length]. intros i Hi. destruct (Nat.eq_dec i k) as [->|N].
          + rewrite app_nth2 by (rewrite firstn_length; lia). rewrite firstn_length.
            replace (k - Nat.min k (length w))%nat with 0%nat by lia. reflexivity.
          + rewrite app_nth1 by (rewrite firstn_length; lia). apply nth_firstn. lia. }
      assert (M1 : forall a, poly a -> padd (psub a mu) mu = a).
      { intros a Ha. apply poly_ext; [apply padd_poly|exact Ha|]. intros i Hi. rewrite co_padd, co_psub by exact Hi.
        rewrite Z.add_mod_idemp_l by discriminate. replace (co a i - co mu i + co mu i)%Z with (co a i) by ring.
        apply fe_mod_id, poly_co; assumption. }
      assert (M2 : forall a, poly a -> psub (padd a mu) mu = a).
      { intros a Ha. apply poly_ext; [apply psub_poly|exact Ha|]. intros i Hi. rewrite co_psub, co_padd by exact Hi.
        rewrite Zminus_mod_idemp_l. replace (co a i + co mu i - co mu i)%Z with (co a i) by ring.
        apply fe_mod_id, poly_co; assumption. }
      pose (ideal := fun w : list (list Z) => T (key_bytes P rho t) (ct_bytes P (firstn k w) (nth k w []))).
      change (average LV (ct_test P rho message T t) == average LV ideal).
      rewrite <- (average_bij LV LV (shift padd) (shift psub) ideal).
      - apply average_ext. intros w Hw. apply HLV in Hw. unfold ct_test, ideal. cbv zeta. fold k. fold mu.
        rewrite S1, S2 by exact Hw. reflexivity.
      - apply HLV.
      - apply HLV.
      - intros w Hw. apply HLV in Hw. split; [apply (proj2 HLV), SV; [apply padd_poly|exact Hw]|].
        apply S3; [exact M2|apply padd_poly|exact Hw].
      - intros w Hw. apply HLV in Hw. split; [apply (proj2 HLV), SV; [apply psub_poly|exact Hw]|].
        apply S3; [exact M1|apply psub_poly|exact Hw]. }
    rewrite <- E2. unfold A. ring.
  Qed.

  Theorem hybrid :
    average LS (fun S => average LE (fun E => key_test hs P n rho r LY LW message T
      (lwe_samples k k A (cbd_vec (eta1 P) k S) (cbd_vec (eta1 P) k E)))) ==
    lwe_gap k k (eta1 P) (eta1 P) A LS LE LT (key_test hs P n rho r LY LW message T) +
    average LT (fun t => lwe_gap k (k + 1) (eta1 P) (eta2 P) (ct_matrix k A t) LY LW LV (ct_test P rho message T t)) +
    average LT (fun t => average LV (fun w => T (key_bytes P rho t) (ct_bytes P (firstn k w) (nth k w [])))).
  Proof.
    rewrite <- Qplus_assoc, <- average_plus.
    rewrite <- (average_ext LT (key_test hs P n rho r LY LW message T)).
    - unfold lwe_gap. ring.
    - intros t Ht. apply HLT in Ht. apply from_ciphertext, Ht.
  Qed.
End Keys.

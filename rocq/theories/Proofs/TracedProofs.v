(** Erasure of the traced model, and the exact sequence of hash calls. *)
From Coq Require Import List ZArith Lia Bool Arith FinFun.
From Verif.Base Require Import Res Oracles.
From Verif.Spec Require Import FIPS203 Domains.
From Verif.Model Require Import Machine Util Algebra Compress Encode Crypto Sample Param Pke Kem Traced.
From Verif.Proofs Require Import Basics Field Poly CompressProofs EncodeProofs VecEncode SampleProofs PkeProofs KemProofs.
Import ListNotations.
Open Scope Z_scope.

(** ** The writer monad *)
Lemma snd_tbind A B (m : traced A) (f : A -> traced B) : snd (tbind m f) = bind (snd m) (fun a => snd (f a)).
Proof. unfold tbind. destruct (snd m) as [a| | |]; try reflexivity. cbn [bind]. destruct (f a). reflexivity. Qed.
Lemma fst_tbind A B (m : traced A) (f : A -> traced B) :
  fst (tbind m f) = fst m ++ match snd m with Ok a => fst (f a) | _ => [] end.
Proof. unfold tbind. destruct (snd m) as [a| | |]; cbn [fst]; rewrite ?app_nil_r; try reflexivity. cbn [bind]. destruct (f a). reflexivity. Qed.
Lemma bind_ext A B (m : res A) (f g : A -> res B) : (forall a, f a = g a) -> bind m f = bind m g.
Proof. intros E. destruct m; cbn [bind]; auto. Qed.
Lemma fst_pure_bind A B (r : res A) (f : A -> traced B) a : r = Ok a -> fst (tbind (pure r) f) = fst (f a).
Proof. intros ->. rewrite fst_tbind. reflexivity. Qed.

Lemma snd_tmapM A B (f : A -> traced B) (g : A -> res B) l : (forall x, snd (f x) = g x) -> snd (tmapM f l) = mapM g l.
Proof.
  intros E. induction l as [|x r IH]; [reflexivity|]. cbn [tmapM mapM]. rewrite snd_tbind, E.
  apply bind_ext. intros y. rewrite snd_tbind, IH. reflexivity.
Qed.

(** [a] is an initial segment of [b] *)
Definition prefix_of {A} (a b : list A) : Prop := exists r, b = a ++ r.
Lemma prefix_nil A (l : list A) : prefix_of [] l. Proof. exists l. reflexivity. Qed.
Lemma prefix_refl A (l : list A) : prefix_of l l. Proof. exists []. rewrite app_nil_r. reflexivity. Qed.
Lemma prefix_app A (c a b : list A) : prefix_of a b -> prefix_of (c ++ a) (c ++ b).
Proof. intros [r ->]. exists r. apply app_assoc. Qed.
Lemma prefix_app_l A (a b c : list A) : prefix_of a b -> prefix_of a (b ++ c).
Proof. intros [r ->]. exists (r ++ c). rewrite app_assoc. reflexivity. Qed.

(** [m] makes the calls [l]: all of them if it returns normally, the first few otherwise *)
Definition asks {A} (m : traced A) (l : list query) : Prop :=
  prefix_of (fst m) l /\ (forall a, snd m = Ok a -> fst m = l).

Lemma asks_pure A (r : res A) : asks (pure r) [].
Proof. split; [apply prefix_refl|reflexivity]. Qed.
Lemma asks_tbind A B (m : traced A) (f : A -> traced B) l l' :
  asks m l -> (forall a, snd m = Ok a -> asks (f a) l') -> asks (tbind m f) (l ++ l').
Proof.
  intros [P1 E1] Hf. unfold asks. rewrite fst_tbind, snd_tbind. destruct (snd m) as [a| | |]; cbn [bind].
  - destruct (Hf a eq_refl) as [P2 E2]. rewrite (E1 a eq_refl). split; [apply prefix_app, P2|].
    intros b Hb. rewrite (E2 b Hb). reflexivity.
  - rewrite app_nil_r. split; [apply prefix_app_l, P1|discriminate].
  - rewrite app_nil_r. split; [apply prefix_app_l, P1|discriminate].
  - rewrite app_nil_r. split; [apply prefix_app_l, P1|discriminate].
Qed.
Lemma asks_pure_bind A B (r : res A) (f : A -> traced B) l :
  (forall a, r = Ok a -> asks (f a) l) -> asks (tbind (pure r) f) l.
Proof. intros Hf. apply (asks_tbind _ _ (pure r) f [] l (asks_pure _ r)). exact Hf. Qed.
Lemma asks_pure_eq A B (r : res A) (f : A -> traced B) a l : r = Ok a -> asks (f a) l -> asks (tbind (pure r) f) l.
Proof. intros E H. apply asks_pure_bind. intros a' Ea. rewrite E in Ea. apply Ok_inj in Ea. subst a'. exact H. Qed.
Lemma asks_tmapM A B (f : A -> traced B) (g : A -> list query) l :
  (forall x, In x l -> asks (f x) (g x)) -> asks (tmapM f l) (flat_map g l).
Proof.
  induction l as [|x r IH]; intros Hf; [apply asks_pure|]. cbn [tmapM flat_map].
  apply asks_tbind; [apply Hf; left; reflexivity|]. intros y _.
  replace (flat_map g r) with (flat_map g r ++ []) by apply app_nil_r.
  apply asks_tbind; [apply IH; intros; apply Hf; right; assumption|]. intros ys _. apply asks_pure.
Qed.

Section TracedProofs.
  Variable hs : hashes.
  Hypothesis Hhs : hash_ok hs.
  Variable P : params.
  Hypothesis HP : wf_params P.
  Let k := pk P.

  (** ** Erasure: no hypothesis needed *)
  Lemma erase_vec_sample_cbd m eta sigma N :
    snd (t_vec_sample_cbd hs m eta sigma N) = vec_sample_cbd hs m eta sigma N.
  Proof.
    apply snd_tmapM. intros i. rewrite !snd_tbind. cbn [pure snd]. apply bind_ext. intros i8.
    rewrite !snd_tbind. cbn [pure snd]. apply bind_ext. intros nn. rewrite snd_tbind. reflexivity.
  Qed.
  Lemma erase_matrix n m rho tr :
    snd (t_matrix_sample_uniform hs n m rho tr) = matrix_sample_uniform hs n m rho tr.
  Proof.
    apply snd_tmapM. intros i. apply snd_tmapM. intros j. destruct tr; cbv beta iota.
    - rewrite snd_tbind. apply bind_ext. intros a. rewrite snd_tbind. apply bind_ext. intros b.
      rewrite snd_tbind. reflexivity.
    - rewrite snd_tbind. apply bind_ext. intros a. rewrite snd_tbind. apply bind_ext. intros b.
      rewrite snd_tbind. reflexivity.
  Qed.
  Ltac step := rewrite snd_tbind; cbn [snd pure]; apply bind_ext; intros ?.
  Lemma erase_pke_generate n d : snd (t_pke_generate hs P n d) = pke_generate hs P n d.
  Proof.
    unfold t_pke_generate, pke_generate. rewrite snd_tbind. cbn [ask_G snd]. apply bind_ext. intros [rho sigma].
    rewrite snd_tbind, erase_matrix. apply bind_ext. intros A.
    rewrite snd_tbind, erase_vec_sample_cbd. apply bind_ext. intros s.
    rewrite snd_tbind, erase_vec_sample_cbd. apply bind_ext. intros e. repeat step. reflexivity.
  Qed.
  Lemma erase_encrypt n ek m r : snd (t_encrypt hs P n ek m r) = encrypt hs P n ek m r.
  Proof.
    unfold t_encrypt, encrypt. rewrite snd_tbind, erase_vec_sample_cbd. apply bind_ext. intros y.
    rewrite snd_tbind, erase_vec_sample_cbd. apply bind_ext. intros e1. step.
    rewrite snd_tbind. cbn [ask_PRF snd bind]. step.
    rewrite snd_tbind, erase_matrix. apply bind_ext. intros A. repeat step. reflexivity.
  Qed.
  Lemma erase_generate n d z :
    snd (t_kem_generate_deterministic hs P n d z) = kem_generate_deterministic hs P n d z.
  Proof.
    unfold t_kem_generate_deterministic, kem_generate_deterministic, decaps_key_generate_deterministic.
    rewrite snd_tbind, erase_pke_generate. destruct (pke_generate hs P n d) as [[a b]| | |]; try reflexivity. cbn [bind].
    rewrite snd_tbind. unfold t_encaps_key_new, encaps_key_new. rewrite snd_tbind. cbn [pure snd].
    destruct (ek_as_bytes P b); reflexivity.
  Qed.
  Lemma erase_encapsulate n ek m :
    snd (t_encapsulate_deterministic hs P n ek m) = encapsulate_deterministic hs P n ek m.
  Proof.
    unfold t_encapsulate_deterministic, encapsulate_deterministic, encapsulate_deterministic_inner.
    rewrite snd_tbind. cbn [ask_G snd]. apply bind_ext. intros [K r].
    rewrite snd_tbind, erase_encrypt. apply bind_ext. reflexivity.
  Qed.
  Lemma erase_decapsulate n dk c : snd (t_decapsulate hs P n dk c) = decapsulate hs P n dk c.
  Proof.
    unfold t_decapsulate, decapsulate. rewrite snd_tbind. cbn [pure snd]. apply bind_ext. intros mp.
    rewrite snd_tbind. cbn [ask_G snd]. apply bind_ext. intros [K r].
    rewrite snd_tbind. cbn [ask_J snd bind]. rewrite snd_tbind, erase_encrypt. apply bind_ext. reflexivity.
  Qed.

  (** ** The calls made *)
  Definition prf_calls (s : list Z) (from count : nat) : list query :=
    map (fun i => QPRF s (Z.of_nat i)) (seq from count).
  (** row by row; the XOF suffix bytes are (column, row) of the untransposed matrix *)
  Definition xof_calls (rho : list Z) (tr : bool) : list query :=
    flat_map (fun i => map (fun j =>
      if tr then QXOF rho (Z.of_nat i) (Z.of_nat j) else QXOF rho (Z.of_nat j) (Z.of_nat i)) (seq 0 k)) (seq 0 k).

  Lemma flat_map_single A B (f : A -> B) l : flat_map (fun x => [f x]) l = map f l.
  Proof. clear. induction l as [|x r IH]; [reflexivity|]. cbn [flat_map map app]. rewrite IH. reflexivity. Qed.

  Lemma asks_cbd eta sigma N : (N + k <= 255)%nat ->
    asks (t_vec_sample_cbd hs k eta sigma (Z.of_nat N)) (prf_calls sigma N k).
  Proof.
    intros HN. unfold prf_calls. replace (seq N k) with (map (fun i => (N + i)%nat) (seq 0 k)).
    2:{ clear. enough (W : forall c s, map (fun i => (N + i)%nat) (seq s c) = seq (N + s) c)
          by (rewrite W, Nat.add_0_r; reflexivity).
        induction c as [|c IH]; intros s; [reflexivity|]. cbn [seq map]. rewrite IH. f_equal. f_equal. lia. }
    rewrite map_map, <- flat_map_single. apply asks_tmapM. intros i Hi. apply in_seq in Hi.
    eapply asks_pure_eq; [apply truncate_small; mlia|].
    eapply asks_pure_eq; [apply uadd_ok; mlia|].
    replace (Z.of_nat N + Z.of_nat i) with (Z.of_nat (N + i)) by lia.
    apply (asks_tbind _ _ _ _ [QPRF sigma (Z.of_nat (N + i))] []).
    - split; [apply prefix_refl|reflexivity].
    - intros b _. apply asks_pure.
  Qed.

  Lemma asks_matrix n rho tr : asks (t_matrix_sample_uniform hs n k rho tr) (xof_calls rho tr).
  Proof.
    pose proof (k_range P HP) as Hk. fold k in Hk.
    apply asks_tmapM. intros i Hi. apply in_seq in Hi. rewrite <- flat_map_single.
    apply asks_tmapM. intros j Hj. apply in_seq in Hj. destruct tr; cbv beta iota.
    - eapply asks_pure_eq; [apply truncate_small; mlia|]. eapply asks_pure_eq; [apply truncate_small; mlia|].
      apply (asks_tbind _ _ _ _ [QXOF rho (Z.of_nat i) (Z.of_nat j)] []).
      + split; [apply prefix_refl|reflexivity].
      + intros b _. apply asks_pure.
    - eapply asks_pure_eq; [apply truncate_small; mlia|]. eapply asks_pure_eq; [apply truncate_small; mlia|].
      apply (asks_tbind _ _ _ _ [QXOF rho (Z.of_nat j) (Z.of_nat i)] []).
      + split; [apply prefix_refl|reflexivity].
      + intros b _. apply asks_pure.
  Qed.

  Lemma prf_calls_app s a m m' : prf_calls s a (m + m') = prf_calls s a m ++ prf_calls s (a + m) m'.
  Proof. clear. unfold prf_calls. rewrite seq_app, map_app. reflexivity. Qed.

  (** key generation: G, then the matrix, then PRF with nonces 0 .. 2k-1 *)
  Definition generate_calls (d : list Z) : list query :=
    let '(rho, sigma) := FIPS203.G hs (d ++ [Z.of_nat k]) in
    QG (d ++ [Z.of_nat k]) :: xof_calls rho false ++ prf_calls sigma 0 (2 * k).

  Theorem asks_pke_generate n d : bytes d -> asks (t_pke_generate hs P n d) (generate_calls d).
  Proof.
    intros Hd. pose proof (k_range P HP) as Hk. fold k in Hk. unfold t_pke_generate, generate_calls.
    assert (Hc : concat [d; [K_U8 P]] = d ++ [Z.of_nat k]) by (cbn [concat]; rewrite app_nil_r; reflexivity).
    assert (Hb : bytes (concat [d; [K_U8 P]])).
    { rewrite Hc. apply bytes_app; [exact Hd|]. apply bytes_cons; [unfold is_byte; lia|apply bytes_nil]. }
    pose proof (G_ok hs Hhs _ Hb) as EG. rewrite Hc in EG.
    destruct (FIPS203.G hs (d ++ [Z.of_nat k])) as [rho sigma] eqn:E.
    change (QG (d ++ [Z.of_nat k]) :: xof_calls rho false ++ prf_calls sigma 0 (2 * k))
      with ([QG (d ++ [Z.of_nat k])] ++ (xof_calls rho false ++ prf_calls sigma 0 (2 * k))).
    apply asks_tbind.
    { unfold ask_G. rewrite Hc. split; [apply prefix_refl|reflexivity]. }
    unfold ask_G. cbn [snd]. rewrite EG. intros a Ea. apply Ok_inj in Ea. subst a.
    apply asks_tbind; [apply asks_matrix|]. intros A _.
    replace (2 * k)%nat with (k + k)%nat by lia. rewrite prf_calls_app.
    apply asks_tbind; [apply (asks_cbd _ _ 0); lia|]. intros s _.
    replace (prf_calls sigma (0 + k) k) with (prf_calls sigma k k ++ []) by apply app_nil_r.
    apply asks_tbind; [apply (asks_cbd _ _ k); lia|]. intros e _.
    repeat (apply asks_pure_bind; intros ? _). apply asks_pure.
  Qed.

  (** encryption: PRF with nonces 0 .. 2k, then the transposed matrix *)
  Definition encrypt_calls (rho r : list Z) : list query :=
    prf_calls r 0 (2 * k + 1) ++ xof_calls rho true.

  Theorem asks_encrypt n ek m r : asks (t_encrypt hs P n ek m r) (encrypt_calls (Pke.rho ek) r).
  Proof.
    pose proof (k_range P HP) as Hk. fold k in Hk. unfold t_encrypt, encrypt_calls.
    replace (2 * k + 1)%nat with (k + (k + 1))%nat by lia. rewrite prf_calls_app, <- app_assoc.
    apply asks_tbind; [apply (asks_cbd _ _ 0); lia|]. intros y _.
    rewrite prf_calls_app, <- app_assoc.
    apply asks_tbind; [apply (asks_cbd _ _ k); lia|]. intros e1 _.
    eapply asks_pure_eq; [apply umul_ok; unfold K_U8; fold k; mlia|].
    unfold prf_calls. cbn [seq map Nat.add].
    replace (2 * K_U8 P) with (Z.of_nat (k + k)) by (unfold K_U8; fold k; lia).
    apply asks_tbind; [split; [apply prefix_refl|reflexivity]|]. intros b _.
    apply asks_pure_bind; intros e2 _.
    replace (xof_calls (Pke.rho ek) true) with (xof_calls (Pke.rho ek) true ++ []) by apply app_nil_r.
    apply asks_tbind; [apply asks_matrix|]. intros A _.
    repeat (apply asks_pure_bind; intros ? _). apply asks_pure.
  Qed.

  Theorem asks_encapsulate n ek m : valid_encaps_key P ek -> byte_string 32 m ->
    asks (t_encapsulate_deterministic hs P n ek m)
         (QG (m ++ ek_h ek) :: encrypt_calls (Pke.rho (ek_pke ek)) (snd (FIPS203.G hs (m ++ ek_h ek)))).
  Proof.
    intros [_ Hh] Hm. unfold t_encapsulate_deterministic.
    assert (Hc : concat [m; ek_h ek] = m ++ ek_h ek) by (cbn [concat]; rewrite app_nil_r; reflexivity).
    assert (Hb : bytes (m ++ ek_h ek)) by (apply bytes_app; [apply Hm|apply Hh]).
    pose proof (G_ok hs Hhs [m; ek_h ek]) as EG. rewrite Hc in EG. specialize (EG Hb).
    match goal with |- asks _ (?x :: ?l) => change (x :: l) with ([x] ++ l) end.
    apply asks_tbind; [unfold ask_G; rewrite Hc; split; [apply prefix_refl|reflexivity]|].
    unfold ask_G. cbn [snd]. rewrite EG. intros a Ea. apply Ok_inj in Ea. subst a.
    destruct (FIPS203.G hs (m ++ ek_h ek)) as [K r]. cbn [snd].
    match goal with |- asks _ ?l => replace l with (l ++ []) by apply app_nil_r end.
    apply asks_tbind; [apply asks_encrypt|]. intros c _. apply asks_pure.
  Qed.

  (** decapsulation: G(m' || h), J(z || c), then those of re-encryption, whatever [c] is *)
  Theorem asks_decapsulate n dk c : valid_decaps_key P dk -> byte_string (ct_len P) c ->
    let m' := KPKE_Decrypt P (dk_bytes P (dk_pke dk)) c in
    let h := ek_h (dk_ek dk) in
    asks (t_decapsulate hs P n dk c)
         (QG (m' ++ h) :: QJ (dk_z dk ++ c) ::
          encrypt_calls (Pke.rho (ek_pke (dk_ek dk))) (snd (FIPS203.G hs (m' ++ h)))).
  Proof.
    intros (Hd & [He Hh] & Hz) Hc m' h. unfold t_decapsulate.
    eapply asks_pure_eq; [apply decrypt_ok; assumption|]. fold m'.
    assert (Hm : byte_string 32 m') by apply KPKE_Decrypt_bytes.
    assert (Ec : concat [m'; h] = m' ++ h) by (cbn [concat]; rewrite app_nil_r; reflexivity).
    assert (Ej : concat [dk_z dk; c] = dk_z dk ++ c) by (cbn [concat]; rewrite app_nil_r; reflexivity).
    assert (Hb : bytes (m' ++ h)) by (apply bytes_app; [apply Hm|apply Hh]).
    pose proof (G_ok hs Hhs [m'; h]) as EG. rewrite Ec in EG. specialize (EG Hb).
    match goal with |- asks _ (?x :: ?y :: ?l) => change (x :: y :: l) with ([x] ++ [y] ++ l) end.
    apply asks_tbind; [unfold ask_G; fold h; rewrite Ec; split; [apply prefix_refl|reflexivity]|].
    unfold ask_G. fold h. cbn [snd]. rewrite EG. intros a Ea. apply Ok_inj in Ea. subst a.
    destruct (FIPS203.G hs (m' ++ h)) as [K r]. cbn [snd].
    apply asks_tbind; [unfold ask_J; rewrite Ej; split; [apply prefix_refl|reflexivity]|]. intros Kb _.
    match goal with |- asks _ ?l => replace l with (l ++ []) by apply app_nil_r end.
    apply asks_tbind; [apply asks_encrypt|]. intros cp _. apply asks_pure.
  Qed.

  (** ** No repetition *)
  Lemma xof_calls_nodup rho tr : NoDup (xof_calls rho tr).
  Proof.
    assert (W : forall m l, NoDup l -> NoDup (flat_map (fun i => map (fun j =>
      if tr then QXOF rho (Z.of_nat i) (Z.of_nat j) else QXOF rho (Z.of_nat j) (Z.of_nat i)) (seq 0 m)) l)).
    { clear. intros m l. induction 1 as [|x l Hx Hn IH]; [constructor|]. cbn [flat_map].
      assert (D : forall a b : list query, (forall y, In y a -> ~ In y b) -> NoDup a -> NoDup b -> NoDup (a ++ b)).
      { clear. intros a b Hd Ha Hb. induction Ha as [|y a Hy Ha IH]; [exact Hb|]. cbn [app]. constructor.
        - rewrite in_app_iff. intros [X|X]; [exact (Hy X)|]. apply (Hd y); [left; reflexivity|exact X].
        - apply IH. intros z Hz. apply Hd. right. exact Hz. }
      apply D; [|apply Injective_map_NoDup; [|apply seq_NoDup]|exact IH].
      - intros y Hy Hy'. apply in_map_iff in Hy. destruct Hy as (j & <- & _).
        apply in_flat_map in Hy'. destruct Hy' as (i & Hi & Hy'). apply in_map_iff in Hy'.
        destruct Hy' as (j' & E & _). apply Hx. destruct tr; inversion E as [[E1 E2]]; apply Nat2Z.inj in E1;
          apply Nat2Z.inj in E2; subst; exact Hi.
      - intros a b E. destruct tr; inversion E; apply Nat2Z.inj; assumption. }
    apply W, seq_NoDup.
  Qed.
  Lemma prf_calls_nodup s a m : NoDup (prf_calls s a m).
  Proof.
    clear. apply Injective_map_NoDup; [|apply seq_NoDup].
    intros x y E. inversion E. apply Nat2Z.inj. assumption.
  Qed.
  Lemma prefix_nodup A (a b : list A) : prefix_of a b -> NoDup b -> NoDup a.
  Proof.
    clear. intros [r ->]. induction a as [|x a IH]; intros H; [constructor|]. cbn [app] in H.
    inversion H as [|? ? Hx Hn]; subst. constructor; [|apply IH, Hn].
    intros Hi. apply Hx. apply in_or_app. left. exact Hi.
  Qed.
End TracedProofs.

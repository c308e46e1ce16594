(** C16, C17, C29, C30: sampling. *)
From Coq Require Import List ZArith Lia Bool Arith FinFun.
From Verif.Base Require Import Res Oracles.
From Verif.Spec Require Import FIPS202 FIPS203 Domains.
From Verif.Model Require Import Machine Util Algebra Compress Encode Crypto Sample Param Pke Kem Traced.
From Verif.Proofs Require Import Basics Field Poly EncodeProofs SampleProofs PkeProofs KemProofs HashProofs TracedProofs.
From Verif.Tests Require Import Toy.
From Verif.Properties Require Import Kem KemCases.
Import ListNotations.
Open Scope Z_scope.

(** ** C29

    [B] is the XOF output stream; [candidates B t] the accepted 12-bit candidates of its
    t-th group of three bytes. *)

Theorem C29_is_SampleNTT : forall B n, (forall i, is_byte (B i)) ->
  poly_sample_uniform n {| xof_stream := B; xof_pos := 0 |} = lift (SampleNTT n B).
Proof. intros B n HB. apply poly_sample_uniform_ok, HB. Qed.

(** spelled out: the first 256 accepted candidates, in stream order *)
Theorem C29_first_256 : forall B n p, (forall i, is_byte (B i)) ->
  (poly_sample_uniform n {| xof_stream := B; xof_pos := 0 |} = Ok p <->
   length p = 256%nat /\ exists rest, flat_map (candidates B) (seq 0 n) = p ++ rest).
Proof.
  intros B n p HB. rewrite poly_sample_uniform_ok by exact HB. unfold SampleNTT.
  set (c := flat_map (candidates B) (seq 0 n)).
  destruct (Nat.leb_spec 256 (length c)) as [L|L]; cbn [lift].
  - split.
    + intros E. apply Ok_inj in E. subst p. split; [rewrite firstn_length; lia|]. exists (skipn 256 c).
      symmetry. apply firstn_skipn.
    + intros [Lp [rest E]]. rewrite E, firstn_app_exact by exact Lp. reflexivity.
  - split; [discriminate|]. intros [Lp [rest E]]. rewrite E, app_length in L. lia.
Qed.
Theorem C29_result_is_poly : forall B n p, (forall i, is_byte (B i)) ->
  poly_sample_uniform n {| xof_stream := B; xof_pos := 0 |} = Ok p -> poly p.
Proof.
  intros B n p HB E. rewrite poly_sample_uniform_ok in E by exact HB.
  destruct (SampleNTT n B) as [p'|] eqn:S; [|discriminate]. apply Ok_inj in E. subst p'.
  eapply SampleNTT_poly; [exact HB|exact S].
Qed.

(** it finishes within n groups exactly when those groups hold 256 acceptable candidates;
    it never panics; and more budget never changes the result *)
Theorem C29_finishes_iff : forall B n, (forall i, is_byte (B i)) ->
  ((exists p, poly_sample_uniform n {| xof_stream := B; xof_pos := 0 |} = Ok p) <->
   (256 <= length (flat_map (candidates B) (seq 0 n)))%nat) /\
  ((length (flat_map (candidates B) (seq 0 n)) < 256)%nat ->
   poly_sample_uniform n {| xof_stream := B; xof_pos := 0 |} = NoFuel).
Proof.
  intros B n HB. rewrite poly_sample_uniform_ok by exact HB. unfold SampleNTT.
  destruct (Nat.leb_spec 256 (length (flat_map (candidates B) (seq 0 n)))) as [L|L]; cbn [lift].
  - split; [|lia]. split; [intros _; exact L|]. intros _. eexists. reflexivity.
  - split; [|reflexivity]. split; [intros [p X]; discriminate|lia].
Qed.
Theorem C29_budget_irrelevant : forall B n m p, (forall i, is_byte (B i)) -> (n <= m)%nat ->
  poly_sample_uniform n {| xof_stream := B; xof_pos := 0 |} = Ok p ->
  poly_sample_uniform m {| xof_stream := B; xof_pos := 0 |} = Ok p.
Proof.
  intros B n m p HB Hm E. rewrite poly_sample_uniform_ok in * by exact HB.
  destruct (SampleNTT n B) as [p'|] eqn:S; [|discriminate]. apply Ok_inj in E. subst p'.
  rewrite (SampleNTT_mono B n m p S Hm). reflexivity.
Qed.
(** a stream whose every third group is rejected entirely: 12-bit values 4095 *)
Definition stream_ex (i : nat) : Z :=
  if Nat.eqb ((i / 3) mod 3) 2 then 255 else Z.of_nat (i mod 13).
Example C29_case : (forall i, is_byte (stream_ex i)) /\
  poly_sample_uniform 190 {| xof_stream := stream_ex; xof_pos := 0 |} = NoFuel /\
  exists p, poly_sample_uniform 191 {| xof_stream := stream_ex; xof_pos := 0 |} = Ok p /\
  firstn 6 p = [256; 32; 1027; 80; 2569; 176].
Proof.
  split; [|split; [vm_compute; reflexivity|]].
  - intros i. unfold stream_ex, is_byte. destruct (Nat.eqb _ 2); [lia|].
    pose proof (Nat.mod_upper_bound i 13 ltac:(lia)). lia.
  - eexists. split; [vm_compute; reflexivity|]. reflexivity.
Qed.

(** ** C30 *)
Theorem C30_is_SamplePolyCBD : forall eta B, (eta = 2 \/ eta = 3)%nat -> byte_string (64 * eta) B ->
  poly_sample_cbd eta B = Ok (tab 256 (fun i =>
    (sum eta (fun j => b2z (bit_of_bytes B (2 * i * eta + j))) -
     sum eta (fun j => b2z (bit_of_bytes B (2 * i * eta + eta + j)))) mod q)).
Proof. exact poly_sample_cbd_ok. Qed.
Theorem C30_range : forall eta B, (eta = 2 \/ eta = 3)%nat -> byte_string (64 * eta) B ->
  exists p, poly_sample_cbd eta B = Ok p /\ poly p /\
  forall i, (i < 256)%nat -> - Z.of_nat eta <= centred (co p i) <= Z.of_nat eta.
Proof.
  intros eta B He HB. exists (SamplePolyCBD eta B). split; [apply poly_sample_cbd_ok; assumption|].
  split; [apply SamplePolyCBD_poly|]. intros i Hi.
  destruct (SamplePolyCBD_small eta B i Hi) as (e & He' & E). rewrite E. unfold centred.
  assert (X : (e mod q + 1664) mod q = e + 1664).
  { rewrite Z.add_mod_idemp_l by discriminate. apply Z.mod_small. unfold q.
    destruct He; subst eta; lia. }
  rewrite X. lia.
Qed.
Definition bytes_ex (n : nat) : list Z := tab n (fun i => (37 * Z.of_nat i + 11) mod 256).
Example bytes_ex_ok n : byte_string n (bytes_ex n).
Proof. split; [apply tab_length|]. apply Forall_tab. intros. apply Z.mod_pos_bound. reflexivity. Qed.
Example C30_case : exists p, poly_sample_cbd 3 (bytes_ex 192) = Ok p /\ firstn 8 p = [1; 0; 1; 1; 3327; 3328; 0; 3328].
Proof. eexists. split; [vm_compute; reflexivity|]. vm_compute. reflexivity. Qed.

Section C16.
  Variable hs : hashes.
  Hypothesis Hhs : hash_ok hs.
  Variable P : params.
  Hypothesis HP : wf_params P.
  Let k := pk P.

  (** ** C16 *)
  Theorem C16_entries n rho A : byte_string 32 rho -> matrix_sample_uniform hs n k rho false = Ok A ->
    mat k A /\ forall i j, (i < k)%nat -> (j < k)%nat ->
    SampleNTT n (shake128 hs (rho ++ [Z.of_nat j; Z.of_nat i])) = Some (ent (nth i A []) j).
  Proof.
    intros Hr E. rewrite (matrix_sample_ok hs Hhs P HP) in E by apply Hr.
    destruct (A_hat hs P n rho) as [A'|] eqn:EA; [|discriminate]. apply Ok_inj in E. subst A'.
    split; [eapply A_hat_mat; [exact Hhs|exact HP|apply Hr|exact EA]|].
    intros i j Hi Hj. apply (A_hat_some hs P n rho A EA); assumption.
  Qed.
  Theorem C16_transposed n rho : byte_string 32 rho ->
    matrix_sample_uniform hs n k rho true =
    (let* A := matrix_sample_uniform hs n k rho false in transpose k A).
  Proof.
    intros Hr. rewrite (matrix_sample_transposed_ok hs Hhs P HP) by apply Hr.
    rewrite (matrix_sample_ok hs Hhs P HP) by apply Hr.
    destruct (A_hat hs P n rho) as [A|] eqn:EA; [|reflexivity]. cbn [lift option_map bind].
    symmetry. apply transpose_ok. eapply A_hat_mat; [exact Hhs|exact HP|apply Hr|exact EA].
  Qed.
  (** entry (i,j) of the transposed expansion is entry (j,i) of the other *)
  Theorem C16_transposed_entries n rho A A' i j : byte_string 32 rho ->
    matrix_sample_uniform hs n k rho false = Ok A -> matrix_sample_uniform hs n k rho true = Ok A' ->
    (i < k)%nat -> (j < k)%nat -> ent (nth i A' []) j = ent (nth j A []) i.
  Proof.
    intros Hr E E' Hi Hj. rewrite C16_transposed, E in E' by exact Hr. cbn [bind] in E'.
    destruct (C16_entries n rho A Hr E) as [M _]. rewrite transpose_ok in E' by exact M. apply Ok_inj in E'. subst A'.
    unfold transposed, ent. rewrite (nth_tab _ k) by exact Hi. rewrite nth_tab by exact Hj. reflexivity.
  Qed.
  Theorem C16_involutive A : mat k A -> (let* B := transpose k A in transpose k B) = Ok A.
  Proof.
    intros HA. rewrite transpose_ok by exact HA. cbn [bind]. rewrite transpose_ok by (apply transposed_mat, HA).
    rewrite transposed_involutive by exact HA. reflexivity.
  Qed.

  (** ** C17

      [fst (t_f ...)] is the list of calls of the functions of crypto.rs made by [f], in
      order; [snd] its outcome. *)
  Theorem C17_traces_are_the_model : forall n,
    (forall d, snd (t_pke_generate hs P n d) = pke_generate hs P n d) /\
    (forall ek m r, snd (t_encrypt hs P n ek m r) = encrypt hs P n ek m r) /\
    (forall d z, snd (t_kem_generate_deterministic hs P n d z) = kem_generate_deterministic hs P n d z) /\
    (forall ek m, snd (t_encapsulate_deterministic hs P n ek m) = encapsulate_deterministic hs P n ek m) /\
    (forall dk c, snd (t_decapsulate hs P n dk c) = decapsulate hs P n dk c).
  Proof.
    intros n. split; [|split; [|split; [|split]]]; intros;
      [apply erase_pke_generate|apply erase_encrypt|apply erase_generate|apply erase_encapsulate|apply erase_decapsulate].
  Qed.

  (** the nonces (with the seed) of the PRF calls, and the index pairs of the XOF calls *)
  Definition prf_nonces (l : list query) : list (list Z * Z) :=
    flat_map (fun x => match x with QPRF s b => [(s, b)] | _ => [] end) l.
  Definition xof_pairs (l : list query) : list (list Z * Z * Z) :=
    flat_map (fun x => match x with QXOF r i j => [(r, i, j)] | _ => [] end) l.

  Lemma prf_nonces_prf s a c : prf_nonces (prf_calls s a c) = map (fun i => (s, Z.of_nat i)) (seq a c).
  Proof. clear. unfold prf_nonces, prf_calls. induction (seq a c) as [|x r IH]; [reflexivity|]. cbn [map flat_map app]. rewrite IH. reflexivity. Qed.
  Lemma prf_nonces_xof rho b : prf_nonces (xof_calls P rho b) = [].
  Proof.
    unfold prf_nonces, xof_calls. clear. induction (seq 0 (pk P)) as [|x r IH] at 2; [reflexivity|].
    cbn [flat_map]. rewrite flat_map_app, IH, app_nil_r. clear. induction (seq 0 (pk P)) as [|y r IH]; [reflexivity|].
    cbn [map flat_map]. rewrite IH. destruct b; reflexivity.
  Qed.
  Lemma prf_nonces_app a b : prf_nonces (a ++ b) = prf_nonces a ++ prf_nonces b.
  Proof. apply flat_map_app. Qed.
  Lemma xof_pairs_app a b : xof_pairs (a ++ b) = xof_pairs a ++ xof_pairs b.
  Proof. apply flat_map_app. Qed.
  Lemma xof_pairs_prf s a c : xof_pairs (prf_calls s a c) = [].
  Proof. clear. unfold xof_pairs, prf_calls. induction (seq a c) as [|x r IH]; [reflexivity|]. cbn [map flat_map app]. exact IH. Qed.

  Lemma flat_map_prefix A B (f : A -> list B) a b : prefix_of a b -> prefix_of (flat_map f a) (flat_map f b).
  Proof. clear. intros [r ->]. rewrite flat_map_app. exists (flat_map f r). reflexivity. Qed.

  Lemma nodup_nonces (s : list Z) m : NoDup (map (fun i => (s, Z.of_nat i)) (seq 0 m)).
  Proof.
    apply Injective_map_NoDup; [|apply seq_NoDup]. intros x y E. inversion E. apply Nat2Z.inj. assumption.
  Qed.
  Lemma xof_pairs_nodup rho b : NoDup (xof_pairs (xof_calls P rho b)).
  Proof.
    pose proof (xof_calls_nodup P rho b) as N.
    assert (X : forall l, (forall x, In x l -> exists i j, x = QXOF rho i j) -> NoDup l -> NoDup (xof_pairs l)).
    { clear. induction l as [|x r IH]; intros Hx Hn; [constructor|].
      inversion Hn as [|? ? Hi Hn']; subst. destruct (Hx x (or_introl eq_refl)) as (i & j & ->).
      cbn [xof_pairs flat_map app]. constructor.
      - intros X. apply Hi. unfold xof_pairs in X. apply in_flat_map in X. destruct X as (y & Hy & X).
        destruct (Hx y (or_intror Hy)) as (i' & j' & ->). destruct X as [X|[]]. inversion X. subst. exact Hy.
      - apply IH; [|exact Hn']. intros y Hy. apply Hx. right. exact Hy. }
    apply X; [|exact N]. intros x Hx. apply in_flat_map in Hx. destruct Hx as (i & _ & Hx).
    apply in_map_iff in Hx. destruct Hx as (j & E & _). destruct b; subst x; eauto.
  Qed.

  (** key generation: the nonces are 0 .. 2k-1 in order, under the single seed sigma *)
  Theorem C17_generate_nonces n d dk ek : byte_string 32 d -> pke_generate hs P n d = Ok (dk, ek) ->
    let sigma := snd (FIPS203.G hs (d ++ [Z.of_nat k])) in
    prf_nonces (fst (t_pke_generate hs P n d)) = map (fun i => (sigma, Z.of_nat i)) (seq 0 (2 * k)).
  Proof.
    intros Hd E. destruct (asks_pke_generate hs Hhs P HP n d (proj2 Hd)) as [_ W]. cbv zeta.
    rewrite (W (dk, ek)) by (rewrite erase_pke_generate; exact E). unfold generate_calls. fold k.
    destruct (FIPS203.G hs (d ++ [Z.of_nat k])) as [rho sigma]. cbn [snd].
    match goal with |- context [?x :: ?l] => change (x :: l) with ([x] ++ l) end.
    rewrite !prf_nonces_app, prf_nonces_xof, prf_nonces_prf. reflexivity.
  Qed.
  (** encryption: the nonces are 0 .. 2k in order, under the given randomness *)
  Theorem C17_encrypt_nonces n ek m r c : encrypt hs P n ek m r = Ok c ->
    prf_nonces (fst (t_encrypt hs P n ek m r)) = map (fun i => (r, Z.of_nat i)) (seq 0 (2 * k + 1)).
  Proof.
    intros E. destruct (asks_encrypt hs P HP n ek m r) as [_ W].
    rewrite (W c) by (rewrite erase_encrypt; exact E). unfold encrypt_calls. fold k.
    rewrite prf_nonces_app, prf_nonces_xof, prf_nonces_prf, app_nil_r. reflexivity.
  Qed.
  (** no nonce and no index pair is ever used twice, in complete and in unfinished runs *)
  Theorem C17_no_reuse_generate n d : byte_string 32 d ->
    NoDup (prf_nonces (fst (t_pke_generate hs P n d))) /\ NoDup (xof_pairs (fst (t_pke_generate hs P n d))).
  Proof.
    intros Hd. destruct (asks_pke_generate hs Hhs P HP n d (proj2 Hd)) as [W _]. unfold generate_calls in W. fold k in W.
    destruct (FIPS203.G hs (d ++ [Z.of_nat k])) as [rho sigma].
    match type of W with context [?x :: ?l] => change (x :: l) with ([x] ++ l) in W end.
    split; (eapply prefix_nodup; [apply flat_map_prefix, W|]).
    - fold (prf_nonces ([QG (d ++ [Z.of_nat k])] ++ xof_calls P rho false ++ prf_calls sigma 0 (2 * k))).
      rewrite !prf_nonces_app, prf_nonces_xof, prf_nonces_prf. apply nodup_nonces.
    - fold (xof_pairs ([QG (d ++ [Z.of_nat k])] ++ xof_calls P rho false ++ prf_calls sigma 0 (2 * k))).
      rewrite !xof_pairs_app, xof_pairs_prf, app_nil_r. apply xof_pairs_nodup.
  Qed.
  Theorem C17_no_reuse_encrypt n ek m r :
    NoDup (prf_nonces (fst (t_encrypt hs P n ek m r))) /\ NoDup (xof_pairs (fst (t_encrypt hs P n ek m r))).
  Proof.
    destruct (asks_encrypt hs P HP n ek m r) as [W _]. unfold encrypt_calls in W. fold k in W.
    split; (eapply prefix_nodup; [apply flat_map_prefix, W|]).
    - fold (prf_nonces (prf_calls r 0 (2 * k + 1) ++ xof_calls P (rho ek) true)).
      rewrite prf_nonces_app, prf_nonces_xof, prf_nonces_prf, app_nil_r. apply nodup_nonces.
    - fold (xof_pairs (prf_calls r 0 (2 * k + 1) ++ xof_calls P (rho ek) true)).
      rewrite xof_pairs_app, xof_pairs_prf. apply xof_pairs_nodup.
  Qed.
  (** the XOF index pairs cover every (column, row) once *)
  Theorem C17_generate_pairs n d dk ek : byte_string 32 d -> pke_generate hs P n d = Ok (dk, ek) ->
    xof_pairs (fst (t_pke_generate hs P n d)) =
    flat_map (fun i => map (fun j => (rho ek, Z.of_nat j, Z.of_nat i)) (seq 0 k)) (seq 0 k).
  Proof.
    intros Hd E. destruct (asks_pke_generate hs Hhs P HP n d (proj2 Hd)) as [_ W].
    rewrite (W (dk, ek)) by (rewrite erase_pke_generate; exact E). unfold generate_calls. fold k.
    assert (Er : rho ek = fst (FIPS203.G hs (d ++ [Z.of_nat k]))).
    { assert (Hc : concat [d; [K_U8 P]] = d ++ [Z.of_nat k]) by (cbn [concat]; rewrite app_nil_r; reflexivity).
      pose proof (k_range P HP).
      assert (Hb : bytes (concat [d; [K_U8 P]])).
      { rewrite Hc. apply bytes_app; [apply Hd|]. apply bytes_cons; [unfold is_byte, k; lia|apply bytes_nil]. }
      unfold pke_generate in E. rewrite (G_ok hs Hhs _ Hb), Hc in E. cbn [bind] in E.
      destruct (FIPS203.G hs (d ++ [Z.of_nat k])) as [rho0 sigma].
      repeat match type of E with bind ?x _ = Ok _ => destruct x; [cbn [bind] in E|discriminate E..] end.
      apply Ok_inj in E. pose proof (f_equal snd E) as E2. cbn [snd] in E2. rewrite <- E2. reflexivity. }
    destruct (FIPS203.G hs (d ++ [Z.of_nat k])) as [rho0 sigma]. cbn [fst] in Er. subst rho0.
    match goal with |- context [?x :: ?l] => change (x :: l) with ([x] ++ l) end.
    rewrite !xof_pairs_app, xof_pairs_prf, app_nil_r. change (xof_pairs [QG (d ++ [Z.of_nat k])]) with (@nil (list Z * Z * Z)).
    cbn [app]. unfold xof_calls. fold k. clear. generalize (seq 0 k) at 2 4. intros l.
    unfold xof_pairs. induction l as [|i r IH]; [reflexivity|]. cbn [flat_map]. rewrite flat_map_app, IH. f_equal.
    clear. induction (seq 0 k) as [|j r IH]; [reflexivity|]. cbn [map flat_map app]. rewrite IH. reflexivity.
  Qed.
End C16.

(** the last nonce of encryption still fits a byte for every k the code admits *)
Example C17_case :
  map snd (prf_nonces (fst (t_pke_generate toy ML_KEM_512 300 (seed 1)))) = [0; 1; 2; 3] /\
  map (fun x => (snd (fst x), snd x)) (xof_pairs (fst (t_pke_generate toy ML_KEM_512 300 (seed 1)))) =
    [(0, 0); (1, 0); (0, 1); (1, 1)].
Proof. vm_compute. split; reflexivity. Qed.
Example C16_case : exists A A', matrix_sample_uniform toy 300 2 (seed 1) false = Ok A /\
  matrix_sample_uniform toy 300 2 (seed 1) true = Ok A' /\
  co (ent (nth 0 A []) 1) 0 = co (ent (nth 1 A' []) 0) 0 /\ co (ent (nth 0 A []) 1) 0 <> co (ent (nth 1 A []) 0) 0.
Proof.
  eexists. eexists. split; [vm_compute; reflexivity|]. split; [vm_compute; reflexivity|].
  split; [vm_compute; reflexivity|vm_compute; discriminate].
Qed.

(** What the addresses of the table lookups reveal. *)
From Coq Require Import List ZArith Lia Bool Arith.
From Verif.Base Require Import Res Oracles.
From Verif.Spec Require Import FIPS203 Ops.
From Verif.Model Require Import Machine Util Algebra Compress Encode Crypto Sample Param Pke Kem Ops.
From Verif.Proofs Require Import Basics OpsProofs EncodeProofs VecEncode SampleProofs PkeProofs ObliviousProofs.
Import ListNotations.
Open Scope Z_scope.

Definition is_lookup (e : event) : bool := match site_of e with OnesTable => true | _ => false end.
Definition lookups (l : list event) : list event := filter is_lookup l.

(** programs that never look up the table *)
Inductive quiet {A} : prog A -> Prop :=
| quiet_ret a : quiet (Ret a)
| quiet_step X (o : op X) k : lookups (see o) = [] -> (forall x, quiet (k x)) -> quiet (Step o k).

Lemma quiet_bind {A B} (p : prog A) (f : A -> prog B) : quiet p -> (forall a, quiet (f a)) -> quiet (pbind p f).
Proof.
  intros Hp Hf. induction Hp as [a|X o k E _ IH]; cbn [pbind]; [apply Hf|]. constructor; [exact E|exact IH].
Qed.
Lemma quiet_act {A} (o : op A) : lookups (see o) = [] -> quiet (act o).
Proof. intros E. constructor; [exact E|]. intros x. constructor. Qed.
Lemma lookups_app l m : lookups (l ++ m) = lookups l ++ lookups m.
Proof. apply filter_app. Qed.
Lemma quiet_trace {A} m (p : prog A) : quiet p -> lookups (trace m p) = [].
Proof.
  unfold trace. induction 1 as [a|X o k E _ IH]; cbn [exec]; [reflexivity|].
  destruct (perform m o) as [x| | |]; try exact E. specialize (IH x). destruct (exec m (k x)) as [t r]. cbn [fst] in *.
  rewrite lookups_app, E, IH. reflexivity.
Qed.
Lemma quiet_pmap {A B} (f : A -> prog B) l : (forall x, quiet (f x)) -> quiet (pmap f l).
Proof.
  intros H. unfold pmap. apply quiet_bind; [apply quiet_act; reflexivity|]. intros _.
  induction l as [|x l IH]; cbn [pmap_]; [constructor|]. apply quiet_bind; [apply H|]. intros y.
  apply quiet_bind; [exact IH|]. constructor.
Qed.
Lemma quiet_pfold {A S} (f : S -> A -> prog S) l s : (forall s x, quiet (f s x)) -> quiet (pfold f l s).
Proof.
  intros H. unfold pfold. apply quiet_bind; [apply quiet_act; reflexivity|]. intros _. revert s.
  induction l as [|x l IH]; intros s; cbn [pfold_]; [constructor|]. apply quiet_bind; [apply H|exact IH].
Qed.
Lemma quiet_pmap_st {A B S} (f : S -> A -> prog (B * S)) l s : (forall s x, quiet (f s x)) -> quiet (pmap_st f l s).
Proof.
  intros H. unfold pmap_st. apply quiet_bind; [apply quiet_act; reflexivity|]. intros _. revert s.
  induction l as [|x l IH]; intros s; cbn [pmap_st_]; [constructor|]. apply quiet_bind; [apply H|].
  intros [y s1]. apply quiet_bind; [apply IH|]. intros [ys s2]. constructor.
Qed.

Create HintDb quiet.
Ltac qt := repeat (lazymatch goal with
  | |- quiet (Ret _) => apply quiet_ret
  | |- quiet (act _) => apply quiet_act; reflexivity
  | |- quiet (match ?p with (_, _) => _ end) => destruct p
  | |- quiet (if ?c then _ else _) => destruct c
  | |- quiet (pbind _ _) => apply quiet_bind; [|intros ?]
  | |- quiet (pmap _ _) => apply quiet_pmap; intros ?
  | |- quiet (pfold _ _ _) => apply quiet_pfold; intros ? ?
  | |- quiet (pmap_st _ _ _) => apply quiet_pmap_st; intros ? ?
  | |- quiet _ => solve [auto with quiet nocore]
  end; cbv beta).

Lemma quiet_collect {A} n (l : list A) : quiet (o_collect n l). Proof. unfold o_collect. qt. Qed.
Lemma quiet_slice {A} (l : list A) a b : quiet (o_slice l a b). Proof. unfold o_slice. qt. Qed.
Lemma quiet_idx {A} (l : list A) a : quiet (o_idx l a). Proof. unfold o_idx. qt. Qed.
Lemma quiet_upd {A} (l : list A) a v : quiet (o_upd l a v). Proof. unfold o_upd. qt. Qed.
Lemma quiet_ptr {A} (l : list A) a v : quiet (o_ptr_read l a v). Proof. unfold o_ptr_read. qt. Qed.
Lemma quiet_copy {A} (l m : list A) : quiet (o_copy_from_slice l m). Proof. unfold o_copy_from_slice. qt. Qed.
Lemma quiet_add w x y : quiet (o_add w x y). Proof. unfold o_add. qt. Qed.
Lemma quiet_sub w x y : quiet (o_sub w x y). Proof. unfold o_sub. qt. Qed.
Lemma quiet_mul w x y : quiet (o_mul w x y). Proof. unfold o_mul. qt. Qed.
Lemma quiet_shl w x y : quiet (o_shl w x y). Proof. unfold o_shl. qt. Qed.
Lemma quiet_shr w x y : quiet (o_shr w x y). Proof. unfold o_shr. qt. Qed.
Lemma quiet_uadd x y : quiet (o_uadd x y). Proof. unfold o_uadd. qt. Qed.
Lemma quiet_usub x y : quiet (o_usub x y). Proof. unfold o_usub. qt. Qed.
Lemma quiet_umul x y : quiet (o_umul x y). Proof. unfold o_umul. qt. Qed.
Lemma quiet_truncate w x : quiet (o_truncate w x). Proof. unfold o_truncate. qt. Qed.
#[local] Hint Resolve quiet_collect quiet_slice quiet_idx quiet_upd quiet_ptr quiet_copy quiet_add quiet_sub quiet_mul
  quiet_shl quiet_shr quiet_uadd quiet_usub quiet_umul quiet_truncate : quiet.
Lemma quiet_copy_into {A} (l : list A) a b s : quiet (o_copy_into l a b s). Proof. unfold o_copy_into. qt. Qed.
Lemma quiet_chunks {A} n (l : list A) : quiet (o_chunks n l). Proof. unfold o_chunks. qt. Qed.
Lemma quiet_small_reduce x : quiet (o_small_reduce x). Proof. unfold o_small_reduce. qt. Qed.
#[local] Hint Resolve quiet_copy_into quiet_chunks quiet_small_reduce : quiet.
Lemma quiet_barrett x : quiet (o_barrett_reduce x). Proof. unfold o_barrett_reduce. qt. Qed.
#[local] Hint Resolve quiet_barrett : quiet.
Lemma quiet_fe_add x y : quiet (o_fe_add x y). Proof. unfold o_fe_add. qt. Qed.
Lemma quiet_fe_sub x y : quiet (o_fe_sub x y). Proof. unfold o_fe_sub. qt. Qed.
Lemma quiet_fe_mul x y : quiet (o_fe_mul x y). Proof. unfold o_fe_mul. qt. Qed.
#[local] Hint Resolve quiet_fe_add quiet_fe_sub quiet_fe_mul : quiet.
Lemma quiet_butterfly z len f j : quiet (o_ntt_butterfly z len f j). Proof. unfold o_ntt_butterfly. qt. Qed.
#[local] Hint Resolve quiet_butterfly : quiet.
Lemma quiet_ntt f : quiet (o_ntt f).
Proof. unfold o_ntt, o_ntt_layer, o_ntt_block. qt. Qed.
Lemma quiet_base_case a b c d i : quiet (o_base_case_multiply a b c d i). Proof. unfold o_base_case_multiply. qt. Qed.
#[local] Hint Resolve quiet_ntt quiet_base_case : quiet.
Lemma quiet_ntt_mul x y : quiet (o_ntt_mul x y).
Proof. unfold o_ntt_mul, o_even, o_odd. qt. Qed.
Lemma quiet_poly_add x y : quiet (o_poly_add x y). Proof. unfold o_poly_add, o_zip_collect. qt. Qed.
#[local] Hint Resolve quiet_ntt_mul quiet_poly_add : quiet.
Lemma quiet_dot x y : quiet (o_nttvec_dot x y). Proof. unfold o_nttvec_dot. qt. Qed.
Lemma quiet_vec_ntt k x : quiet (o_vec_ntt k x). Proof. unfold o_vec_ntt. qt. Qed.
#[local] Hint Resolve quiet_dot quiet_vec_ntt : quiet.
Lemma quiet_matrix_mul k m v : quiet (o_matrix_mul k m v). Proof. unfold o_matrix_mul. qt. Qed.
Lemma quiet_nttvec_add k x y : quiet (o_nttvec_add k x y). Proof. unfold o_nttvec_add, o_zip_collect. qt. Qed.
Lemma quiet_encode_chunk d v b : quiet (o_encode_chunk d v b). Proof. unfold o_encode_chunk. cbv zeta. qt. Qed.
Lemma quiet_decode_chunk d m v b : quiet (o_decode_chunk d m v b). Proof. unfold o_decode_chunk. cbv zeta. qt. Qed.
#[local] Hint Resolve quiet_matrix_mul quiet_nttvec_add quiet_encode_chunk quiet_decode_chunk : quiet.
Lemma quiet_byte_encode d v : quiet (o_byte_encode d v). Proof. unfold o_byte_encode. cbv zeta. qt. Qed.
Lemma quiet_byte_decode d v : quiet (o_byte_decode d v). Proof. unfold o_byte_decode. cbv zeta. qt. Qed.
#[local] Hint Resolve quiet_byte_encode quiet_byte_decode : quiet.
Lemma quiet_vec_encode d k v : quiet (o_vec_encode d k v). Proof. unfold o_vec_encode, o_flatten. qt. Qed.
#[local] Hint Resolve quiet_vec_encode : quiet.
Lemma quiet_next_loop n x d s : quiet (o_next_loop n x d s).
Proof.
  revert x d s. induction n as [|n IH]; intros x d s; cbn [o_next_loop]; [qt|].
  apply quiet_bind; [qt|]. intros c. apply quiet_bind.
  { destruct c; [|qt]. destruct (xof_read x (length d)). qt. }
  intros [[d' x'] s']. cbv zeta. qt.
Qed.
#[local] Hint Resolve quiet_next_loop : quiet.
Lemma quiet_sample_uniform n x : quiet (o_poly_sample_uniform n x).
Proof.
  unfold o_poly_sample_uniform. cbv zeta. qt. unfold o_fe_reader_next. destruct (fr_next _); qt.
Qed.
#[local] Hint Resolve quiet_sample_uniform : quiet.
Lemma quiet_G hs l : quiet (o_G hs l). Proof. unfold o_G. cbv zeta. qt. Qed.
Lemma quiet_matrix_sample hs n k rho tr : quiet (o_matrix_sample_uniform hs n k rho tr).
Proof. unfold o_matrix_sample_uniform, o_nttvec_sample_uniform, o_from_fn. qt. Qed.
Lemma quiet_encaps_key_new hs P ek : quiet (o_encaps_key_new hs P ek).
Proof. unfold o_encaps_key_new, o_ek_as_bytes, o_H. qt. Qed.

(** the lookups of [p] and of [p'] tell their results apart *)
Definition tells {A} (R : A -> A -> Prop) (p p' : prog A) : Prop :=
  forall v v' t t', result Checked p = Ok v -> result Checked p' = Ok v' ->
  lookups (trace Checked p) ++ t = lookups (trace Checked p') ++ t' -> R v v' /\ t = t'.

Lemma tells_bind {A B} (R : A -> A -> Prop) (S : B -> B -> Prop) p p' f f' :
  tells R p p' -> (forall a a', R a a' -> tells S (f a) (f' a')) -> tells S (pbind p f) (pbind p' f').
Proof.
  intros T F v v' t t' E E'. rewrite result_bind in E, E'.
  destruct (result Checked p) as [a| | |] eqn:Ea; cbn [bind] in E; try discriminate E.
  destruct (result Checked p') as [a'| | |] eqn:Ea'; cbn [bind] in E'; try discriminate E'.
  rewrite (trace_bind _ _ _ _ Ea), (trace_bind _ _ _ _ Ea'), !lookups_app, <- !app_assoc. intros L.
  destruct (T _ _ _ _ Ea Ea' L) as [r L']. exact (F a a' r v v' t t' E E' L').
Qed.
Lemma tells_quiet {A} (p p' : prog A) : quiet p -> quiet p' -> tells (fun _ _ => True) p p'.
Proof. intros H H' v v' t t' _ _. rewrite !quiet_trace by assumption. intros E. split; [exact I|exact E]. Qed.
Lemma tells_same {A} (p : prog A) : quiet p -> tells eq p p.
Proof.
  intros H v v' t t' E E'. rewrite E in E'. apply Ok_inj in E'. rewrite quiet_trace by exact H.
  intros L. split; [exact E'|exact L].
Qed.
Lemma tells_ret {A} (R : A -> A -> Prop) a a' : R a a' -> tells R (Ret a) (Ret a').
Proof. intros H v v' t t' E E' L. apply Ok_inj in E. apply Ok_inj in E'. subst. split; [exact H|exact L]. Qed.
Lemma tells_pmap {A B} (f f' : A -> prog B) l l' : length l = length l' ->
  (forall a a', tells eq (f a) (f' a')) -> tells eq (pmap f l) (pmap f' l').
Proof.
  intros L F. unfold pmap. eapply tells_bind; [apply tells_quiet; apply quiet_act; reflexivity|]. intros _ _ _.
  revert l' L. induction l as [|x l IH]; intros [|x' l'] L; try discriminate L; cbn [pmap_]; [apply tells_ret; reflexivity|].
  eapply tells_bind; [apply F|]. intros y y' <-. eapply tells_bind; [apply IH; cbn [length] in L; lia|].
  intros ys ys' <-. apply tells_ret. reflexivity.
Qed.
Lemma tells_pmap_same {A B} (f f' : A -> prog B) l :
  (forall a, tells eq (f a) (f' a)) -> tells eq (pmap f l) (pmap f' l).
Proof.
  intros F. unfold pmap. eapply tells_bind; [apply tells_quiet; apply quiet_act; reflexivity|]. intros _ _ _.
  induction l as [|x l IH]; cbn [pmap_]; [apply tells_ret; reflexivity|].
  eapply tells_bind; [apply F|]. intros y y' <-. eapply tells_bind; [exact IH|].
  intros ys ys' <-. apply tells_ret. reflexivity.
Qed.

(** the lookups give the indices *)
Lemma tells_lookup (ones : list Z) i i' : tells eq (act (Get OnesTable ones i)) (act (Get OnesTable ones i')).
Proof.
  intros v v' t t' E E'. rewrite result_act in E, E'. rewrite !trace_act. cbn [see]. intros L.
  change (Touched OnesTable i 1 (length ones) :: t = Touched OnesTable i' 1 (length ones) :: t') in L.
  assert (Ei : i = i') by congruence. assert (Et : t = t') by congruence. subst i'. rewrite E in E'. apply Ok_inj in E'.
  split; [exact E'|exact Et].
Qed.

Section Reveal.
  Lemma tells_sample_cbd eta B B' : (eta = 2 \/ eta = 3)%nat -> byte_string (64 * eta) B -> byte_string (64 * eta) B' ->
    tells eq (o_poly_sample_cbd eta B) (o_poly_sample_cbd eta B').
  Proof.
    intros He HB HB'. unfold o_poly_sample_cbd.
    assert (E64 : (64 * eta = 32 * (2 * eta))%nat) by lia. rewrite E64 in HB, HB'.
    eapply tells_bind with (R := fun v v' => length v = length v').
    - intros v v' t t' E E' L. rewrite !quiet_trace in L by apply quiet_byte_decode. split; [|exact L].
      rewrite agrees_byte_decode, byte_decode_ok in E by (try assumption; lia).
      rewrite agrees_byte_decode, byte_decode_ok in E' by (try assumption; lia).
      apply Ok_inj in E. apply Ok_inj in E'. subst. unfold ByteDecode. rewrite !tab_length. reflexivity.
    - intros v v' L. eapply tells_bind; [apply tells_same, quiet_act; reflexivity|]. intros ones ones' <-.
      eapply tells_bind with (R := eq).
      + apply tells_pmap; [exact L|]. intros a a'. apply tells_lookup.
      + intros l l' <-. apply tells_same, quiet_collect.
  Qed.

  (** equal lookups: equal bytes *)
  Lemma lookup_indices (ones : list Z) l l' t t' w w' : length l = length l' ->
    result Checked (pmap (fun val => act (Get OnesTable ones (Z.to_nat val))) l) = Ok w ->
    result Checked (pmap (fun val => act (Get OnesTable ones (Z.to_nat val))) l') = Ok w' ->
    lookups (trace Checked (pmap (fun val => act (Get OnesTable ones (Z.to_nat val))) l)) ++ t =
    lookups (trace Checked (pmap (fun val => act (Get OnesTable ones (Z.to_nat val))) l')) ++ t' ->
    map Z.to_nat l = map Z.to_nat l'.
  Proof.
    unfold pmap. set (g := fun val : Z => act (Get OnesTable ones (Z.to_nat val))). intros L E E'.
    rewrite result_bind, result_act in E, E'. cbn [perform bind] in E, E'.
    rewrite !(trace_bind _ _ _ tt) by reflexivity. rewrite !trace_act, !lookups_app.
    change (lookups (see (Loop (length l)))) with (@nil event).
    change (lookups (see (Loop (length l')))) with (@nil event). cbn [app].
    revert l' L w w' E E'. induction l as [|x l IH]; intros [|x' l'] L w w' E E'; try discriminate L; [reflexivity|].
    cbn [pmap_] in *. rewrite result_bind in E, E'.
    destruct (result Checked (g x)) as [y| | |] eqn:Ey; cbn [bind] in E; try discriminate E.
    destruct (result Checked (g x')) as [y'| | |] eqn:Ey'; cbn [bind] in E'; try discriminate E'.
    rewrite result_bind in E, E'.
    destruct (result Checked (pmap_ g l)) as [ys| | |] eqn:Es; cbn [bind] in E; try discriminate E.
    destruct (result Checked (pmap_ g l')) as [ys'| | |] eqn:Es'; cbn [bind] in E'; try discriminate E'.
    rewrite (trace_bind _ _ _ _ Ey), (trace_bind _ _ _ _ Ey'), (trace_bind _ _ _ _ Es), (trace_bind _ _ _ _ Es').
    change (trace Checked (Ret (y :: ys))) with (@nil event).
    change (trace Checked (Ret (y' :: ys'))) with (@nil event). rewrite !app_nil_r, !lookups_app.
    unfold g at 1 3. rewrite !trace_act. cbn [see]. intros H. cbn [map].
    change (Touched OnesTable (Z.to_nat x) 1 (length ones) :: lookups (trace Checked (pmap_ g l)) ++ t =
            Touched OnesTable (Z.to_nat x') 1 (length ones) :: lookups (trace Checked (pmap_ g l')) ++ t') in H.
    f_equal.
    - congruence.
    - apply (IH l' ltac:(cbn [length] in L; lia) ys ys' eq_refl Es').
      exact (f_equal (@tl event) H).
  Qed.

  Lemma sample_cbd_lookups eta B B' : (eta = 2 \/ eta = 3)%nat -> byte_string (64 * eta) B -> byte_string (64 * eta) B' ->
    lookups (trace Checked (o_poly_sample_cbd eta B)) = lookups (trace Checked (o_poly_sample_cbd eta B')) -> B = B'.
  Proof.
    intros He HB HB' T. assert (E64 : (64 * eta = 32 * (2 * eta))%nat) by lia. rewrite E64 in HB, HB'.
    assert (Hd : (1 <= 2 * eta <= 11)%nat) by lia.
    rewrite <- (ByteEncode_ByteDecode (2 * eta) B Hd HB), <- (ByteEncode_ByteDecode (2 * eta) B' Hd HB'). f_equal.
    set (v := ByteDecode (2 * eta) B). set (v' := ByteDecode (2 * eta) B').
    assert (N : forall b, Forall (fun x => 0 <= x) (ByteDecode (2 * eta) b)).
    { intros b. unfold ByteDecode. apply Forall_tab. intros i Hi. apply Z.mod_pos_bound.
      destruct (Nat.ltb _ _); [apply Z.pow_pos_nonneg; lia|reflexivity]. }
    pose proof (N B) as P1. pose proof (N B') as P2. fold v in P1. fold v' in P2.
    assert (R : forall b, byte_string (32 * (2 * eta)) b -> exists w,
      result Checked (pmap (fun val => act (Get OnesTable (ones_list eta) (Z.to_nat val))) (ByteDecode (2 * eta) b)) = Ok w /\
      trace Checked (o_poly_sample_cbd eta b) = trace Checked (o_byte_decode (2 * eta) b) ++
        trace Checked (pmap (fun val => act (Get OnesTable (ones_list eta) (Z.to_nat val))) (ByteDecode (2 * eta) b)) ++
        trace Checked (o_collect 256 w)).
    { intros b Hb. destruct (ONES_ok eta He) as [EO _].
      assert (Ev : result Checked (o_byte_decode (2 * eta) b) = Ok (ByteDecode (2 * eta) b))
        by (rewrite agrees_byte_decode; apply byte_decode_ok; [lia|exact Hb]).
      assert (Eo : result Checked (act (Constant (ONES eta))) = Ok (ones_list eta)) by (rewrite result_act; exact EO).
      assert (Ep : result Checked (o_poly_sample_cbd eta b) = Ok (SamplePolyCBD eta b)).
      { rewrite agrees_sample_cbd. apply poly_sample_cbd_ok; [exact He|]. rewrite E64. exact Hb. }
      unfold o_poly_sample_cbd in Ep |- *. rewrite result_bind, Ev in Ep. cbn [bind] in Ep.
      rewrite result_bind, Eo in Ep. cbn [bind] in Ep. rewrite result_bind in Ep.
      rewrite (trace_bind _ _ _ _ Ev), (trace_bind _ _ _ _ Eo), trace_act.
      destruct (result Checked (pmap _ (ByteDecode (2 * eta) b))) as [w| | |] eqn:Ew; cbn [bind] in Ep; try discriminate Ep.
      exists w. split; [reflexivity|]. rewrite (trace_bind _ _ _ _ Ew). reflexivity. }
    destruct (R B HB) as (w & Ew & Tw). destruct (R B' HB') as (w' & Ew' & Tw'). rewrite Tw, Tw' in T.
    rewrite !lookups_app in T. rewrite !(quiet_trace _ _ (quiet_byte_decode _ _)) in T. cbn [app] in T.
    assert (M : map Z.to_nat v = map Z.to_nat v').
    { eapply lookup_indices; [|exact Ew|exact Ew'|exact T]. unfold v, v', ByteDecode. rewrite !tab_length. reflexivity. }
    clear - M P1 P2. clearbody v v'. revert v' M P2.
    induction v as [|x v IH]; intros [|x' v'] M P2; try discriminate M; [reflexivity|].
    cbn [map] in M. inversion P1; subst. inversion P2; subst. f_equal.
    - apply (f_equal (@hd nat O)) in M. cbn [hd] in M. lia.
    - apply IH; [assumption| |assumption]. exact (f_equal (@tl nat) M).
  Qed.

  Variable hs : hashes.
  Hypothesis Hhs : hash_ok hs.
  Variable P : params.
  Hypothesis HP : wf_params P.

  Lemma G_bytes l v : bytes (concat l) -> result Checked (o_G hs l) = Ok v -> bytes (snd v).
  Proof.
    intros Hl E. destruct (o_G_value hs l v E) as [_ ->]. cbn [snd]. apply bytes_skipn. apply (Hhs _ Hl).
  Qed.
  Lemma PRF_bytes' eta s m : bytes s -> is_byte m -> byte_string (64 * eta) (Model.Crypto.PRF hs eta s m).
  Proof.
    intros Hs [Hm Hm']. replace m with (Z.of_nat (Z.to_nat m)) by (apply Z2Nat.id; exact Hm).
    rewrite PRF_ok. apply PRF_bytes; [exact Hhs|exact Hs|lia].
  Qed.

  Lemma tells_vec_sample eta s s' n : (eta = 2 \/ eta = 3)%nat -> bytes s -> bytes s' -> 0 <= n ->
    tells eq (o_vec_sample_cbd hs (pk P) eta s n) (o_vec_sample_cbd hs (pk P) eta s' n).
  Proof.
    intros He Hs Hs' Hn. unfold o_vec_sample_cbd, o_from_fn. apply tells_pmap_same. intros i.
    eapply tells_bind; [apply tells_same, quiet_truncate|]. intros i8 i8' <-.
    eapply tells_bind with (R := fun a b => a = b /\ is_byte a).
    - intros v v' t t' E E'. rewrite E in E'. apply Ok_inj in E'. subst v'. rewrite quiet_trace by apply quiet_add.
      intros L. split; [|exact L]. split; [reflexivity|].
      unfold o_add in E. rewrite result_act in E. cbn [perform] in E. destruct (fits _ _ _ _) eqn:F; [|discriminate E].
      apply Ok_inj in E. subst v. cbn [fits exact] in *. apply andb_prop in F. destruct F as [F1 F2].
      apply Z.leb_le in F1. apply Z.ltb_lt in F2. split; [exact F1|exact F2].
    - intros m m' [<- Hm]. eapply tells_bind with (R := fun a b => byte_string (64 * eta) a /\ byte_string (64 * eta) b).
      + unfold o_PRF. intros v v' t t' E E'. rewrite quiet_trace, quiet_trace by (apply quiet_bind; [apply quiet_act; reflexivity|intros; constructor]).
        intros L. split; [|exact L]. rewrite result_bind, result_act in E, E'. cbn [perform bind] in E, E'.
        apply Ok_inj in E. apply Ok_inj in E'. subst. split; apply PRF_bytes'; assumption.
      + intros p p' [H1 H2]. apply tells_sample_cbd; assumption.
  Qed.

  (** key generation: the lookups reveal the secret vector *)
  Lemma tells_pke_generate n d d' : bytes (d ++ [K_U8 P]) -> bytes (d' ++ [K_U8 P]) ->
    tells (fun p p' => fst p = fst p') (o_pke_generate hs P n d) (o_pke_generate hs P n d').
  Proof.
    intros Hd Hd'. unfold o_pke_generate.
    assert (He : (eta1 P = 2 \/ eta1 P = 3)%nat) by apply HP.
    assert (Hk : 0 <= K_U8 P) by (unfold K_U8; lia).
    eapply tells_bind with (R := fun p p' => bytes (snd p) /\ bytes (snd p')).
    - intros v v' t t' E E' L. rewrite !quiet_trace in L by apply quiet_G. split; [|exact L].
      split; [eapply (G_bytes [d; [K_U8 P]])|eapply (G_bytes [d'; [K_U8 P]])]; try eassumption; cbn [concat]; rewrite app_nil_r; assumption.
    - intros [rho sigma] [rho' sigma'] [H1 H2]. cbn [snd] in H1, H2.
      eapply tells_bind; [apply tells_quiet; apply quiet_matrix_sample|]. intros A A' _.
      eapply tells_bind; [apply tells_vec_sample; [exact He|exact H1|exact H2|lia]|]. intros s s' <-.
      eapply tells_bind; [apply tells_vec_sample; [exact He|exact H1|exact H2|exact Hk]|]. intros e e' <-.
      eapply tells_bind; [apply tells_same, quiet_vec_ntt|]. intros sh sh' <-.
      eapply tells_bind; [apply tells_same, quiet_vec_ntt|]. intros eh eh' <-.
      eapply tells_bind; [apply tells_quiet; apply quiet_matrix_mul|]. intros As As' _.
      eapply tells_bind; [apply tells_quiet; apply quiet_nttvec_add|]. intros th th' _.
      apply tells_ret. reflexivity.
  Qed.
  Lemma tells_generate n d d' z z' : bytes (d ++ [K_U8 P]) -> bytes (d' ++ [K_U8 P]) ->
    tells (fun k k' => dk_pke k = dk_pke k')
      (o_decaps_key_generate_deterministic hs P n d z) (o_decaps_key_generate_deterministic hs P n d' z').
  Proof.
    intros Hd Hd'. unfold o_decaps_key_generate_deterministic.
    eapply tells_bind; [apply tells_pke_generate; [exact Hd|exact Hd']|].
    intros [dk ek] [dk' ek'] E. cbn [fst] in E. subst dk'.
    eapply tells_bind; [apply tells_quiet; apply quiet_encaps_key_new|]. intros x x' _. apply tells_ret. reflexivity.
  Qed.
End Reveal.

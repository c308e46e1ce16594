(** [ntt] and [ntt_inverse] (algebra.rs:366-416) compute the transforms of FIPS 203 in
    closed form.

    Each layer of butterflies is first shown to be one simultaneous map of the 256
    coefficients; the layers are then followed by an invariant on blocks: after the layer
    that leaves m blocks of B = 256 / m coefficients, block s holds the input modulo
    X^B - (root of the block).  The tables only enter through 3 * 128 identities between
    their entries. *)
From Coq Require Import List ZArith Lia Bool Arith.
From Verif.Base Require Import Res Oracles.
From Verif.Spec Require Import FIPS203 Domains.
From Verif.Model Require Import Machine Util Algebra.
From Verif.Proofs Require Import Basics Field Poly.
Import ListNotations.
Open Scope Z_scope.

(** ** From in-place butterflies to layers *)

Definition Zt (k : nat) : Z := co ZETA_POW_BITREV k.

Lemma set_nth_poly f i v : poly f -> fe v -> poly (set_nth f i v).
Proof.
  intros [L F] Hv. split; [rewrite set_nth_length; exact L|]. apply Forall_set_nth; assumption.
Qed.

Lemma ntt_butterfly_ok z len f j : fe z -> (0 < len)%nat -> (j + len < 256)%nat -> poly f ->
  exists f', ntt_butterfly z len f j = Ok f' /\ poly f' /\ forall i, (i < 256)%nat ->
    co f' i = if Nat.eqb i j then (co f j + z * co f (j + len)) mod q
              else if Nat.eqb i (j + len) then (co f j - z * co f (j + len)) mod q
              else co f i.
Proof.
  intros Hz Hl Hj Hf. pose proof Hf as [L _].
  assert (Fa : fe (co f j)) by (apply poly_co; [exact Hf|lia]).
  assert (Fb : fe (co f (j + len))) by (apply poly_co; [exact Hf|lia]).
  set (t := (z * co f (j + len)) mod q).
  exists (set_nth (set_nth f (j + len) ((co f j - t) mod q)) j ((co f j + t) mod q)).
  split; [|split].
  - unfold ntt_butterfly. rewrite idx_ok by lia. cbn [bind].
    rewrite fe_mul_ok by assumption. cbn [bind]. rewrite idx_ok by lia. cbn [bind].
    rewrite fe_sub_ok by (try apply fe_mod; assumption). cbn [bind].
    rewrite upd_ok by lia. cbn [bind]. rewrite idx_ok by (rewrite set_nth_length; lia).
    cbn [bind]. rewrite co_set_nth by lia.
    destruct (Nat.eqb_spec j (j + len)) as [E|_]; [lia|].
    rewrite fe_add_ok by (try apply fe_mod; assumption). cbn [bind].
    rewrite upd_ok by (rewrite set_nth_length; lia). reflexivity.
  - apply set_nth_poly; [apply set_nth_poly|]; auto using fe_mod.
  - intros i Hi. rewrite co_set_nth by (rewrite set_nth_length; lia).
    rewrite co_set_nth by lia. unfold t.
    rewrite Z.add_mod_idemp_r, Zminus_mod_idemp_r by discriminate. reflexivity.
Qed.

Lemma inv_butterfly_ok z len f j : fe z -> (0 < len)%nat -> (j + len < 256)%nat -> poly f ->
  exists f', inv_butterfly z len f j = Ok f' /\ poly f' /\ forall i, (i < 256)%nat ->
    co f' i = if Nat.eqb i j then (co f j + co f (j + len)) mod q
              else if Nat.eqb i (j + len) then (z * (co f (j + len) - co f j)) mod q
              else co f i.
Proof.
  intros Hz Hl Hj Hf. pose proof Hf as [L _].
  assert (Fa : fe (co f j)) by (apply poly_co; [exact Hf|lia]).
  assert (Fb : fe (co f (j + len))) by (apply poly_co; [exact Hf|lia]).
  set (d := (co f (j + len) - co f j) mod q).
  exists (set_nth (set_nth f j ((co f j + co f (j + len)) mod q)) (j + len) ((z * d) mod q)).
  split; [|split].
  - unfold inv_butterfly. rewrite !idx_ok by lia. cbn [bind].
    rewrite fe_add_ok by assumption. cbn [bind].
    rewrite upd_ok by lia. cbn [bind]. rewrite idx_ok by (rewrite set_nth_length; lia).
    cbn [bind]. rewrite co_set_nth by lia.
    destruct (Nat.eqb_spec (j + len) j) as [E|_]; [lia|].
    rewrite fe_sub_ok by assumption. cbn [bind].
    rewrite fe_mul_ok by (try apply fe_mod; assumption). cbn [bind].
    rewrite upd_ok by (rewrite set_nth_length; lia). reflexivity.
  - apply set_nth_poly; [apply set_nth_poly|]; auto using fe_mod.
  - intros i Hi. rewrite co_set_nth by (rewrite set_nth_length; lia).
    rewrite co_set_nth by lia. unfold d. rewrite Zmult_mod_idemp_r.
    destruct (Nat.eqb_spec i j) as [->|N]; [|reflexivity].
    destruct (Nat.eqb_spec j (j + len)) as [E|_]; [lia|reflexivity].
Qed.

(** one layer with blocks of 2 len coefficients, as a simultaneous map; block s uses the
    table entry [K s] *)
Definition fwdL (len : nat) (K : nat -> nat) (f : list Z) : list Z :=
  tab 256 (fun i => let z := Zt (K (i / (2 * len))%nat) in
    if Nat.ltb (i mod (2 * len)) len then (co f i + z * co f (i + len)) mod q
    else (co f (i - len) - z * co f i) mod q).
Definition invL (len : nat) (K : nat -> nat) (f : list Z) : list Z :=
  tab 256 (fun i => let z := Zt (K (i / (2 * len))%nat) in
    if Nat.ltb (i mod (2 * len)) len then (co f i + co f (i + len)) mod q
    else (z * (co f i - co f (i - len))) mod q).

Lemma fwdL_poly len K f : poly (fwdL len K f).
Proof. apply poly_tab. intros i Hi. cbv zeta. destruct (Nat.ltb _ _); apply fe_mod. Qed.
Lemma invL_poly len K f : poly (invL len K f).
Proof. apply poly_tab. intros i Hi. cbv zeta. destruct (Nat.ltb _ _); apply fe_mod. Qed.

(** position i = 2 len s + r *)
Lemma block_pos len s r : (0 < len)%nat -> (r < 2 * len)%nat ->
  ((s * (2 * len) + r) / (2 * len) = s /\ (s * (2 * len) + r) mod (2 * len) = r)%nat.
Proof.
  intros Hl Hr. rewrite Nat.add_comm. split.
  - rewrite Nat.div_add, Nat.div_small by lia. reflexivity.
  - rewrite Nat.mod_add, Nat.mod_small by lia. reflexivity.
Qed.
Lemma block_split len i : (0 < len)%nat ->
  exists s r, (r < 2 * len)%nat /\ i = (s * (2 * len) + r)%nat.
Proof.
  intros Hl. exists (i / (2 * len))%nat, (i mod (2 * len))%nat.
  split; [apply Nat.mod_upper_bound; lia|].
  rewrite (Nat.div_mod i (2 * len)) at 1 by lia. lia.
Qed.

Lemma co_fwdL_lo len K f s r : (r < len)%nat -> (s * (2 * len) + r < 256)%nat ->
  co (fwdL len K f) (s * (2 * len) + r) =
  (co f (s * (2 * len) + r) + Zt (K s) * co f (s * (2 * len) + r + len)) mod q.
Proof.
  intros Hr H. unfold fwdL. rewrite co_tab by exact H. cbv zeta.
  destruct (block_pos len s r) as [-> ->]; [lia|lia|].
  destruct (Nat.ltb_spec r len); [reflexivity|lia].
Qed.
Lemma co_fwdL_hi len K f s r : (r < len)%nat -> (s * (2 * len) + r + len < 256)%nat ->
  co (fwdL len K f) (s * (2 * len) + r + len) =
  (co f (s * (2 * len) + r) - Zt (K s) * co f (s * (2 * len) + r + len)) mod q.
Proof.
  intros Hr H. unfold fwdL. rewrite co_tab by exact H. cbv zeta.
  rewrite <- Nat.add_assoc. destruct (block_pos len s (r + len)) as [-> ->]; [lia|lia|].
  destruct (Nat.ltb_spec (r + len) len); [lia|].
  do 3 f_equal. lia.
Qed.
Lemma co_invL_lo len K f s r : (r < len)%nat -> (s * (2 * len) + r < 256)%nat ->
  co (invL len K f) (s * (2 * len) + r) =
  (co f (s * (2 * len) + r) + co f (s * (2 * len) + r + len)) mod q.
Proof.
  intros Hr H. unfold invL. rewrite co_tab by exact H. cbv zeta.
  destruct (block_pos len s r) as [-> ->]; [lia|lia|].
  destruct (Nat.ltb_spec r len); [reflexivity|lia].
Qed.
Lemma co_invL_hi len K f s r : (r < len)%nat -> (s * (2 * len) + r + len < 256)%nat ->
  co (invL len K f) (s * (2 * len) + r + len) =
  (Zt (K s) * (co f (s * (2 * len) + r + len) - co f (s * (2 * len) + r))) mod q.
Proof.
  intros Hr H. unfold invL. rewrite co_tab by exact H. cbv zeta.
  rewrite <- Nat.add_assoc. destruct (block_pos len s (r + len)) as [-> ->]; [lia|lia|].
  destruct (Nat.ltb_spec (r + len) len); [lia|].
  do 4 f_equal. lia.
Qed.

(** [f'] is [f] with the first [n] butterflies of block s of the layer map [g] done *)
Definition in_block (len s n i : nat) : bool :=
  (Nat.leb (s * (2 * len)) i && Nat.ltb i (s * (2 * len) + n)) ||
  (Nat.leb (s * (2 * len) + len) i && Nat.ltb i (s * (2 * len) + len + n)).

Lemma block_ok (bf : list Z -> nat -> res (list Z)) (g : list Z) len s :
  (0 < len)%nat -> (s * (2 * len) + 2 * len <= 256)%nat ->
  (forall f j, poly f -> (s * (2 * len) <= j < s * (2 * len) + len)%nat ->
     exists f', bf f j = Ok f' /\ poly f' /\
       (forall i, (i < 256)%nat -> i <> j -> i <> (j + len)%nat -> co f' i = co f i)) ->
  forall f0,
  (forall f f' j, (s * (2 * len) <= j < s * (2 * len) + len)%nat -> bf f j = Ok f' -> poly f ->
     co f j = co f0 j -> co f (j + len) = co f0 (j + len) ->
     co f' j = co g j /\ co f' (j + len) = co g (j + len)) ->
  poly f0 -> forall n, (n <= len)%nat ->
  exists f', foldM bf (seq (s * (2 * len)) n) f0 = Ok f' /\ poly f' /\
    forall i, (i < 256)%nat -> co f' i = if in_block len s n i then co g i else co f0 i.
Proof.
  intros Hl Hs Hbf f0 Hg P0 n. induction n as [|n IH]; intros Hn.
  - exists f0. split; [reflexivity|]. split; [exact P0|]. intros i Hi.
    assert (E : in_block len s 0 i = false).
    { unfold in_block. apply orb_false_iff. split; apply andb_false_iff;
      rewrite Nat.leb_gt, Nat.ltb_ge; lia. }
    rewrite E. reflexivity.
  - destruct IH as (f1 & E1 & P1 & C1); [lia|].
    set (j := (s * (2 * len) + n)%nat).
    destruct (Hbf f1 j P1) as (f2 & E2 & P2 & C2); [unfold j; lia|].
    exists f2. split; [|split; [exact P2|]].
    + rewrite seq_S, foldM_app, E1. cbn [bind foldM]. fold j. rewrite E2. reflexivity.
    + assert (Nj : in_block len s n j = false).
      { unfold in_block, j. apply orb_false_iff. split; apply andb_false_iff;
        rewrite Nat.leb_gt, Nat.ltb_ge; lia. }
      assert (Njl : in_block len s n (j + len) = false).
      { unfold in_block, j. apply orb_false_iff. split; apply andb_false_iff;
        rewrite Nat.leb_gt, Nat.ltb_ge; lia. }
      destruct (Hg f1 f2 j) as [G1 G2];
        [unfold j; lia|exact E2|exact P1|rewrite C1, Nj by (unfold j; lia); reflexivity
        |rewrite C1, Njl by (unfold j; lia); reflexivity|].
      intros i Hi. destruct (Nat.eq_dec i j) as [->|N1].
      { assert (E : in_block len s (S n) j = true).
        { unfold in_block, j. apply orb_true_iff. left. apply andb_true_iff.
          rewrite Nat.leb_le, Nat.ltb_lt. lia. }
        rewrite E. exact G1. }
      destruct (Nat.eq_dec i (j + len)) as [->|N2].
      { assert (E : in_block len s (S n) (j + len) = true).
        { unfold in_block, j. apply orb_true_iff. right. apply andb_true_iff.
          rewrite Nat.leb_le, Nat.ltb_lt. lia. }
        rewrite E. exact G2. }
      rewrite C2 by assumption. rewrite C1 by exact Hi.
      assert (E : in_block len s (S n) i = in_block len s n i).
      { unfold in_block. unfold j in *. f_equal; f_equal; apply eq_true_iff_eq;
        rewrite !Nat.ltb_lt; lia. }
      rewrite E. reflexivity.
Qed.

Lemma in_block_full len s i : in_block len s len i = true <->
  (s * (2 * len) <= i < s * (2 * len) + 2 * len)%nat.
Proof.
  unfold in_block. rewrite orb_true_iff, !andb_true_iff, !Nat.leb_le, !Nat.ltb_lt. lia.
Qed.

Lemma fwd_block_ok len k K s f0 f : (0 < len)%nat -> (s * (2 * len) + 2 * len <= 256)%nat ->
  (k < 128)%nat -> K s = k -> poly f ->
  (forall i, (s * (2 * len) <= i < s * (2 * len) + 2 * len)%nat -> co f i = co f0 i) ->
  exists f', ntt_block len (k, f) (s * (2 * len)) = Ok ((k + 1)%nat, f') /\ poly f' /\
    forall i, (i < 256)%nat ->
      co f' i = if in_block len s len i then co (fwdL len K f0) i else co f i.
Proof.
  intros Hl Hs Hk EK Hf Hf0.
  destruct (block_ok (ntt_butterfly (Zt k) len) (fwdL len K f0) len s Hl Hs) with (f0 := f) (n := len)
    as (f' & E & P' & C).
  - intros g j Pg Hj. destruct (ntt_butterfly_ok (Zt k) len g j) as (g' & E & P & C);
      [apply ZETA_co_fe, Hk|exact Hl|lia|exact Pg|].
    exists g'. split; [exact E|]. split; [exact P|]. intros i Hi N1 N2. rewrite C by exact Hi.
    destruct (Nat.eqb_spec i j); [congruence|]. destruct (Nat.eqb_spec i (j + len)); [congruence|].
    reflexivity.
  - intros g g' j Hj E Pg E1 E2.
    destruct (ntt_butterfly_ok (Zt k) len g j) as (g'' & E' & P & C);
      [apply ZETA_co_fe, Hk|exact Hl|lia|exact Pg|].
    rewrite E in E'. apply Ok_inj in E'. subst g''.
    rewrite !C by lia. rewrite E1, E2, !Nat.eqb_refl.
    destruct (Nat.eqb_spec (j + len) j) as [X|_]; [lia|].
    rewrite !Hf0 by lia. subst k.
    replace j with (s * (2 * len) + (j - s * (2 * len)))%nat by lia.
    rewrite co_fwdL_lo, co_fwdL_hi by lia. split; reflexivity.
  - exact Hf.
  - lia.
  - exists f'. split; [|split; [exact P'|exact C]].
    unfold ntt_block. rewrite idx_ok by (rewrite ZETA_length; exact Hk). cbn [bind].
    fold (Zt k). rewrite E. reflexivity.
Qed.

Lemma inv_block_ok len k K s f0 f : (0 < len)%nat -> (s * (2 * len) + 2 * len <= 256)%nat ->
  (0 < k < 128)%nat -> K s = k -> poly f ->
  (forall i, (s * (2 * len) <= i < s * (2 * len) + 2 * len)%nat -> co f i = co f0 i) ->
  exists f', inv_block len (k, f) (s * (2 * len)) = Ok ((k - 1)%nat, f') /\ poly f' /\
    forall i, (i < 256)%nat ->
      co f' i = if in_block len s len i then co (invL len K f0) i else co f i.
Proof.
  intros Hl Hs Hk EK Hf Hf0.
  destruct (block_ok (inv_butterfly (Zt k) len) (invL len K f0) len s Hl Hs) with (f0 := f) (n := len)
    as (f' & E & P' & C).
  - intros g j Pg Hj. destruct (inv_butterfly_ok (Zt k) len g j) as (g' & E & P & C);
      [apply ZETA_co_fe; lia|exact Hl|lia|exact Pg|].
    exists g'. split; [exact E|]. split; [exact P|]. intros i Hi N1 N2. rewrite C by exact Hi.
    destruct (Nat.eqb_spec i j); [congruence|]. destruct (Nat.eqb_spec i (j + len)); [congruence|].
    reflexivity.
  - intros g g' j Hj E Pg E1 E2.
    destruct (inv_butterfly_ok (Zt k) len g j) as (g'' & E' & P & C);
      [apply ZETA_co_fe; lia|exact Hl|lia|exact Pg|].
    rewrite E in E'. apply Ok_inj in E'. subst g''.
    rewrite !C by lia. rewrite E1, E2, !Nat.eqb_refl.
    destruct (Nat.eqb_spec (j + len) j) as [X|_]; [lia|].
    rewrite !Hf0 by lia. subst k.
    replace j with (s * (2 * len) + (j - s * (2 * len)))%nat by lia.
    rewrite co_invL_lo, co_invL_hi by lia. split; reflexivity.
  - exact Hf.
  - lia.
  - exists f'. split; [|split; [exact P'|exact C]].
    unfold inv_block. rewrite idx_ok by (rewrite ZETA_length; lia). cbn [bind].
    fold (Zt k). destruct (Nat.eqb_spec k 0); [lia|]. cbn [bind]. rewrite E. reflexivity.
Qed.

Definition starts (len m : nat) : list nat := map (fun s => s * (2 * len))%nat (seq 0 m).

Lemma blocks_done len s i : (0 < len)%nat ->
  (if in_block len s len i then true else Nat.ltb i (s * (2 * len))) = Nat.ltb i (S s * (2 * len)).
Proof.
  intros Hl. destruct (in_block len s len i) eqn:E; symmetry.
  - apply in_block_full in E. apply Nat.ltb_lt. lia.
  - apply eq_true_iff_eq. rewrite !Nat.ltb_lt. split; intros H; [|lia].
    destruct (Nat.lt_ge_cases i (s * (2 * len))) as [|G]; [assumption|].
    exfalso. apply (Bool.diff_true_false). rewrite <- E. symmetry. apply in_block_full. lia.
Qed.

Lemma fwd_layer_ok len k f : (0 < len)%nat -> poly f -> forall m,
  (m * (2 * len) <= 256)%nat -> (k + m <= 128)%nat ->
  exists f', foldM (ntt_block len) (starts len m) (k, f) = Ok ((k + m)%nat, f') /\ poly f' /\
    forall i, (i < 256)%nat -> co f' i =
      if Nat.ltb i (m * (2 * len)) then co (fwdL len (fun s => (k + s)%nat) f) i else co f i.
Proof.
  intros Hl Hf m. induction m as [|m IH]; intros Hm Hk.
  - exists f. rewrite Nat.add_0_r. split; [reflexivity|]. split; [exact Hf|]. intros i Hi.
    cbn [Nat.mul Nat.ltb Nat.leb]. reflexivity.
  - destruct IH as (f1 & E1 & P1 & C1); [lia|lia|].
    destruct (fwd_block_ok len (k + m) (fun s => (k + s)%nat) m f f1 Hl) as (f2 & E2 & P2 & C2);
      [lia|lia|reflexivity|exact P1| |].
    { intros i Hi. rewrite C1 by lia. destruct (Nat.ltb_spec i (m * (2 * len))); [lia|reflexivity]. }
    exists f2. split; [|split; [exact P2|]].
    + unfold starts in *. rewrite seq_S, map_app, foldM_app, E1. cbn [bind map foldM].
      rewrite Nat.add_0_l, E2. cbn [bind]. do 2 f_equal. lia.
    + intros i Hi. rewrite C2, C1 by exact Hi. rewrite <- (blocks_done len m i Hl).
      destruct (in_block len m len i); reflexivity.
Qed.

Lemma inv_layer_ok len k f : (0 < len)%nat -> poly f -> forall m,
  (m * (2 * len) <= 256)%nat -> (m <= k < 128)%nat ->
  exists f', foldM (inv_block len) (starts len m) (k, f) = Ok ((k - m)%nat, f') /\ poly f' /\
    forall i, (i < 256)%nat -> co f' i =
      if Nat.ltb i (m * (2 * len)) then co (invL len (fun s => (k - s)%nat) f) i else co f i.
Proof.
  intros Hl Hf m. induction m as [|m IH]; intros Hm Hk.
  - exists f. rewrite Nat.sub_0_r. split; [reflexivity|]. split; [exact Hf|]. intros i Hi.
    cbn [Nat.mul Nat.ltb Nat.leb]. reflexivity.
  - destruct IH as (f1 & E1 & P1 & C1); [lia|lia|].
    destruct (inv_block_ok len (k - m) (fun s => (k - s)%nat) m f f1 Hl) as (f2 & E2 & P2 & C2);
      [lia|lia|reflexivity|exact P1| |].
    { intros i Hi. rewrite C1 by lia. destruct (Nat.ltb_spec i (m * (2 * len))); [lia|reflexivity]. }
    exists f2. split; [|split; [exact P2|]].
    + unfold starts in *. rewrite seq_S, map_app, foldM_app, E1. cbn [bind map foldM].
      rewrite Nat.add_0_l, E2. cbn [bind]. do 2 f_equal. lia.
    + intros i Hi. rewrite C2, C1 by exact Hi. rewrite <- (blocks_done len m i Hl).
      destruct (in_block len m len i); reflexivity.
Qed.

(** table indices: with m blocks, forward m, m+1, ...; inverse 2m-1, 2m-2, ... *)
Definition Kf (m s : nat) : nat := (m + s)%nat.
Definition Ki (m s : nat) : nat := (2 * m - 1 - s)%nat.

Lemma ntt_layer_ok len m f : (0 < len)%nat -> poly f -> (m * (2 * len) = 256)%nat ->
  (2 * m <= 128)%nat -> step_by 0 256 (2 * len) = starts len m ->
  ntt_layer (m, f) len = Ok ((2 * m)%nat, fwdL len (Kf m) f).
Proof.
  intros Hl Hf Hm Hk Hs. unfold ntt_layer. rewrite Hs.
  destruct (fwd_layer_ok len m f Hl Hf m) as (f' & E & P & C); [lia|lia|].
  rewrite E. do 2 f_equal; [lia|]. apply poly_ext; [exact P|apply fwdL_poly|].
  intros i Hi. rewrite C by exact Hi. destruct (Nat.ltb_spec i (m * (2 * len))); [reflexivity|lia].
Qed.
Lemma ntt_inv_layer_ok len m f : (0 < len)%nat -> poly f -> (m * (2 * len) = 256)%nat ->
  (2 * m <= 128)%nat -> step_by 0 256 (2 * len) = starts len m ->
  inv_layer ((2 * m - 1)%nat, f) len = Ok ((m - 1)%nat, invL len (Ki m) f).
Proof.
  intros Hl Hf Hm Hk Hs. unfold inv_layer. rewrite Hs.
  destruct (inv_layer_ok len (2 * m - 1) f Hl Hf m) as (f' & E & P & C); [lia|lia|].
  rewrite E. do 2 f_equal; [lia|]. apply poly_ext; [exact P|apply invL_poly|].
  intros i Hi. rewrite C by exact Hi. destruct (Nat.ltb_spec i (m * (2 * len))); [reflexivity|lia].
Qed.

Definition ntt_pure (f : list Z) : list Z :=
  fwdL 2 (Kf 64) (fwdL 4 (Kf 32) (fwdL 8 (Kf 16) (fwdL 16 (Kf 8)
    (fwdL 32 (Kf 4) (fwdL 64 (Kf 2) (fwdL 128 (Kf 1) f)))))).
Definition inv_pure (f : list Z) : list Z :=
  invL 128 (Ki 1) (invL 64 (Ki 2) (invL 32 (Ki 4) (invL 16 (Ki 8)
    (invL 8 (Ki 16) (invL 4 (Ki 32) (invL 2 (Ki 64) f)))))).

Lemma ntt_pure_ok f : poly f -> ntt f = Ok (ntt_pure f) /\ poly (ntt_pure f).
Proof.
  intros Hf. split; [|apply fwdL_poly]. unfold ntt. cbn [foldM].
  rewrite (ntt_layer_ok 128 1) by (try exact Hf; try apply fwdL_poly; try lia; reflexivity). cbn [bind].
  rewrite (ntt_layer_ok 64 2) by (try exact Hf; try apply fwdL_poly; try lia; reflexivity). cbn [bind].
  rewrite (ntt_layer_ok 32 4) by (try exact Hf; try apply fwdL_poly; try lia; reflexivity). cbn [bind].
  rewrite (ntt_layer_ok 16 8) by (try exact Hf; try apply fwdL_poly; try lia; reflexivity). cbn [bind].
  rewrite (ntt_layer_ok 8 16) by (try exact Hf; try apply fwdL_poly; try lia; reflexivity). cbn [bind].
  rewrite (ntt_layer_ok 4 32) by (try exact Hf; try apply fwdL_poly; try lia; reflexivity). cbn [bind].
  rewrite (ntt_layer_ok 2 64) by (try exact Hf; try apply fwdL_poly; try lia; reflexivity). cbn [bind].
  reflexivity.
Qed.

Lemma inv_pure_ok f : poly f -> ntt_inverse f = poly_scale 3303 (inv_pure f) /\ poly (inv_pure f).
Proof.
  intros Hf. split; [|apply invL_poly]. unfold ntt_inverse. cbn [foldM].
  change 127%nat with (2 * 64 - 1)%nat.
  rewrite (ntt_inv_layer_ok 2 64) by (try exact Hf; try apply invL_poly; try lia; reflexivity). cbn [bind].
  change (64 - 1)%nat with (2 * 32 - 1)%nat.
  rewrite (ntt_inv_layer_ok 4 32) by (try exact Hf; try apply invL_poly; try lia; reflexivity). cbn [bind].
  change (32 - 1)%nat with (2 * 16 - 1)%nat.
  rewrite (ntt_inv_layer_ok 8 16) by (try exact Hf; try apply invL_poly; try lia; reflexivity). cbn [bind].
  change (16 - 1)%nat with (2 * 8 - 1)%nat.
  rewrite (ntt_inv_layer_ok 16 8) by (try exact Hf; try apply invL_poly; try lia; reflexivity). cbn [bind].
  change (8 - 1)%nat with (2 * 4 - 1)%nat.
  rewrite (ntt_inv_layer_ok 32 4) by (try exact Hf; try apply invL_poly; try lia; reflexivity). cbn [bind].
  change (4 - 1)%nat with (2 * 2 - 1)%nat.
  rewrite (ntt_inv_layer_ok 64 2) by (try exact Hf; try apply invL_poly; try lia; reflexivity). cbn [bind].
  change (2 - 1)%nat with (2 * 1 - 1)%nat.
  rewrite (ntt_inv_layer_ok 128 1) by (try exact Hf; try apply invL_poly; try lia; reflexivity). cbn [bind].
  reflexivity.
Qed.

(** ** The tables *)

Definition zeta_literal : list Z := Eval vm_compute in ZETA_POW_BITREV.
Lemma ZETA_literal : ZETA_POW_BITREV = zeta_literal.
Proof. vm_compute. reflexivity. Qed.
Definition gamma_literal : list Z := Eval vm_compute in GAMMA.
Lemma GAMMA_literal : GAMMA = gamma_literal.
Proof. vm_compute. reflexivity. Qed.

(** the root of block s when there are m blocks: the polynomial has been reduced modulo
    X^(256/m) - root m s *)
Definition root_of (t : list Z) (m s : nat) : Z :=
  if Nat.eqb m 1 then -1
  else if Nat.even s then co t (m / 2 + s / 2) else - co t (m / 2 + s / 2).
Definition root : nat -> nat -> Z := root_of ZETA_POW_BITREV.

Definition counts : list nat := [1; 2; 4; 8; 16; 32; 64]%nat.

(** the square of each table entry is the root of its block *)
Lemma root_square m s : In m counts -> (s < m)%nat -> eqq (Zt (Kf m s) * Zt (Kf m s)) (root m s).
Proof.
  intros Hm Hs. apply eqq_iff. apply Z.eqb_eq. unfold Zt, root, Kf. rewrite ZETA_literal.
  assert (H : forallb (fun m => forallb (fun s =>
      (co zeta_literal (m + s) * co zeta_literal (m + s)) mod q =? root_of zeta_literal m s mod q)
      (seq 0 m)) counts = true) by (vm_compute; reflexivity).
  rewrite forallb_forall in H. specialize (H m Hm). rewrite forallb_forall in H.
  apply H, in_seq. lia.
Qed.

(** the inverse transform runs through the table backwards and meets minus the inverses *)
Lemma Zt_inverse m s : In m counts -> (s < m)%nat -> eqq (Zt (Ki m s) * Zt (Kf m s)) (-1).
Proof.
  intros Hm Hs. apply eqq_iff. apply Z.eqb_eq. unfold Zt, Ki, Kf. rewrite ZETA_literal.
  assert (H : forallb (fun m => forallb (fun s =>
      (co zeta_literal (2 * m - 1 - s) * co zeta_literal (m + s)) mod q =? (-1) mod q)
      (seq 0 m)) counts = true) by (vm_compute; reflexivity).
  rewrite forallb_forall in H. specialize (H m Hm). rewrite forallb_forall in H.
  apply H, in_seq. lia.
Qed.

(** the roots of the last layer *)
Lemma root_gamma i : (i < 128)%nat -> eqq (root 128 i) (gamma i).
Proof.
  intros Hi. rewrite <- (mod_eqq (gamma i)), <- GAMMA_gamma by exact Hi.
  apply eqq_iff, Z.eqb_eq. unfold root. rewrite ZETA_literal, GAMMA_literal.
  assert (H : forallb (fun i =>
      root_of zeta_literal 128 i mod q =? co gamma_literal i mod q)
      (seq 0 128) = true) by (vm_compute; reflexivity).
  rewrite forallb_forall in H. apply H, in_seq. lia.
Qed.

Lemma root_even m s : (0 < m)%nat -> root (2 * m) (2 * s) = Zt (Kf m s).
Proof.
  intros Hm. unfold root, root_of. destruct (Nat.eqb_spec (2 * m) 1); [lia|].
  rewrite Nat.even_mul. cbn [Nat.even orb]. rewrite !(Nat.mul_comm 2), !Nat.div_mul by lia.
  reflexivity.
Qed.
Lemma root_odd m s : (0 < m)%nat -> root (2 * m) (2 * s + 1) = - Zt (Kf m s).
Proof.
  intros Hm. unfold root, root_of. destruct (Nat.eqb_spec (2 * m) 1); [lia|].
  rewrite Nat.even_add, Nat.even_mul. cbn [Nat.even orb eqb].
  rewrite (Nat.mul_comm 2 m), Nat.div_mul by lia.
  rewrite (Nat.add_comm (2 * s)), (Nat.mul_comm 2 s), Nat.div_add by lia. reflexivity.
Qed.

Lemma half_cases u : exists s, u = (2 * s)%nat \/ u = (2 * s + 1)%nat.
Proof.
  exists (u / 2)%nat. pose proof (Nat.div_mod u 2 ltac:(lia)).
  pose proof (Nat.mod_upper_bound u 2 ltac:(lia)). lia.
Qed.

(** ** The forward transform in closed form *)

Lemma sum_pairs n f : sum (2 * n) f = sum n (fun i => f (2 * i)%nat + f (2 * i + 1)%nat).
Proof.
  induction n as [|n IH]; [reflexivity|].
  replace (2 * S n)%nat with (S (S (2 * n))) by lia. cbn [sum]. rewrite IH.
  replace (S (2 * n)) with (2 * n + 1)%nat by lia. ring.
Qed.

(** f is f0 modulo X^B - root in every block *)
Definition fwd_inv (m B : nat) (f0 f : list Z) : Prop :=
  forall s r, (s < m)%nat -> (r < B)%nat ->
    eqq (co f (s * B + r)) (sum m (fun j => co f0 (r + B * j) * root m s ^ Z.of_nat j)).

Lemma pow_double z n : z ^ Z.of_nat (2 * n) = (z * z) ^ Z.of_nat n.
Proof.
  rewrite Nat2Z.inj_mul, Z.pow_mul_r by lia. change (Z.of_nat 2) with 2. rewrite Z.pow_2_r. reflexivity.
Qed.

Lemma split_power m len (f0 : list Z) r z z2 : eqq (z * z) z2 ->
  eqq (sum (2 * m) (fun j => co f0 (r + len * j) * z ^ Z.of_nat j))
      (sum m (fun j => co f0 (r + 2 * len * j) * z2 ^ Z.of_nat j) +
       z * sum m (fun j => co f0 (r + len + 2 * len * j) * z2 ^ Z.of_nat j)).
Proof.
  intros H. rewrite sum_pairs, <- sum_mul_l, <- sum_add. apply sum_eqq. intros j Hj.
  rewrite (Nat2Z.inj_add (2 * j) 1), Z.pow_add_r by lia. change (Z.of_nat 1) with 1.
  rewrite Z.pow_1_r, pow_double. rewrite (pow_eqq _ _ j H). apply eqq_of_eq.
  replace (r + len * (2 * j))%nat with (r + 2 * len * j)%nat by lia.
  replace (r + len * (2 * j + 1))%nat with (r + len + 2 * len * j)%nat by lia. ring.
Qed.

Lemma fwd_step m len f0 f : In m counts -> (m * (2 * len) = 256)%nat ->
  fwd_inv m (2 * len) f0 f -> fwd_inv (2 * m) len f0 (fwdL len (Kf m) f).
Proof.
  intros Hm HB H u r Hu Hr.
  assert (Pm : (0 < m)%nat) by lia.
  destruct (half_cases u) as [s [-> | ->]].
  - assert (Hs : (s < m)%nat) by lia.
    replace (2 * s * len + r)%nat with (s * (2 * len) + r)%nat by lia.
    assert (Hi : (s * (2 * len) + r + len < 256)%nat) by nia.
    rewrite co_fwdL_lo by lia. rewrite mod_eqq. rewrite root_even by exact Pm.
    rewrite (split_power m len f0 r _ _ (root_square m s Hm Hs)).
    rewrite (H s r Hs) by lia. rewrite <- Nat.add_assoc, (H s (r + len)%nat Hs) by lia.
    reflexivity.
  - assert (Hs : (s < m)%nat) by lia.
    replace ((2 * s + 1) * len + r)%nat with (s * (2 * len) + r + len)%nat by lia.
    assert (Hi : (s * (2 * len) + r + len < 256)%nat) by nia.
    rewrite co_fwdL_hi by lia. rewrite mod_eqq. rewrite root_odd by exact Pm.
    assert (Sq : eqq (- Zt (Kf m s) * - Zt (Kf m s)) (root m s)).
    { rewrite <- (root_square m s Hm Hs). apply eqq_of_eq. ring. }
    rewrite (split_power m len f0 r _ _ Sq).
    rewrite (H s r Hs) by lia. rewrite <- Nat.add_assoc, (H s (r + len)%nat Hs) by lia.
    apply eqq_of_eq. ring.
Qed.

Lemma even_div i : (2 * i / 2 = i)%nat.
Proof. rewrite Nat.mul_comm, Nat.div_mul; lia. Qed.
Lemma odd_div i : ((2 * i + 1) / 2 = i)%nat.
Proof. rewrite Nat.add_comm, Nat.mul_comm, Nat.div_add by lia. reflexivity. Qed.
Lemma even_mod i : ((2 * i) mod 2 = 0)%nat.
Proof. rewrite Nat.mul_comm, Nat.mod_mul; lia. Qed.
Lemma odd_mod i : ((2 * i + 1) mod 2 = 1)%nat.
Proof. rewrite Nat.add_comm, Nat.mul_comm, Nat.mod_add by lia. reflexivity. Qed.
Lemma div2_lt c n : (c < 2 * n)%nat -> (c / 2 < n)%nat.
Proof. intros H. apply Nat.div_lt_upper_bound; lia. Qed.

Lemma index_split t : (t < 256)%nat -> exists i p, (i < 128)%nat /\ (p < 2)%nat /\ t = (2 * i + p)%nat.
Proof.
  intros H. destruct (half_cases t) as [i [-> | ->]]; [exists i, 0%nat|exists i, 1%nat]; lia.
Qed.

(** coefficients at index 2 i + p, p = 0 or 1 *)
Lemma NTT_at f i p : (i < 128)%nat -> (p < 2)%nat ->
  co (NTT f) (2 * i + p) = sum 128 (fun j => co f (2 * j + p) * gamma i ^ Z.of_nat j) mod q.
Proof.
  intros Hi Hp. unfold NTT. rewrite co_tab by lia.
  destruct p as [|[|p]]; [| |lia].
  - rewrite Nat.add_0_r, even_mod, even_div. reflexivity.
  - rewrite odd_mod, odd_div. reflexivity.
Qed.

Lemma NTTinv_at g j p : (j < 128)%nat -> (p < 2)%nat ->
  co (NTTinv g) (2 * j + p) =
  (3303 * sum 128 (fun i => co g (2 * i + p) * gamma i ^ Z.of_nat (256 - j))) mod q.
Proof.
  intros Hi Hp. unfold NTTinv. rewrite co_tab by lia.
  destruct p as [|[|p]]; [| |lia].
  - rewrite Nat.add_0_r, even_mod, even_div. reflexivity.
  - rewrite odd_mod, odd_div. reflexivity.
Qed.

Lemma NTT_poly f : poly (NTT f).
Proof. apply poly_tab_mod. Qed.
Lemma NTTinv_poly f : poly (NTTinv f).
Proof. apply poly_tab_mod. Qed.

Lemma ntt_pure_NTT f : poly f -> ntt_pure f = NTT f.
Proof.
  intros Hf. apply poly_ext; [apply fwdL_poly|apply NTT_poly|].
  assert (H0 : fwd_inv 1 (2 * 128) f f).
  { intros s r Hs Hr. replace s with 0%nat by lia. cbn [sum]. rewrite Nat.mul_0_r, Nat.add_0_r.
    cbn [Nat.mul Nat.add]. apply eqq_of_eq. change (Z.of_nat 0) with 0. rewrite Z.pow_0_r. ring. }
  apply (fwd_step 1 128) in H0; [|cbn; tauto|reflexivity].
  apply (fwd_step 2 64) in H0; [|cbn; tauto|reflexivity].
  apply (fwd_step 4 32) in H0; [|cbn; tauto|reflexivity].
  apply (fwd_step 8 16) in H0; [|cbn; tauto|reflexivity].
  apply (fwd_step 16 8) in H0; [|cbn; tauto|reflexivity].
  apply (fwd_step 32 4) in H0; [|cbn; tauto|reflexivity].
  apply (fwd_step 64 2) in H0; [|cbn; tauto|reflexivity].
  fold (ntt_pure f) in H0. intros t Ht.
  destruct (index_split t Ht) as (i & p & Hi & Hp & ->).
  rewrite <- (fe_mod_id (co (ntt_pure f) (2 * i + p))) by (apply poly_co; [apply fwdL_poly|lia]).
  rewrite NTT_at by assumption. apply eqq_mod.
  replace (2 * i + p)%nat with (i * 2 + p)%nat at 1 by lia.
  rewrite (H0 i p) by lia. apply sum_eqq. intros j Hj.
  change (2 * 64)%nat with 128%nat.
  rewrite (pow_eqq _ _ j (root_gamma i Hi)).
  apply eqq_of_eq. do 2 f_equal. lia.
Qed.

Theorem ntt_ok f : poly f -> ntt f = Ok (NTT f).
Proof. intros Hf. rewrite (proj1 (ntt_pure_ok f Hf)), ntt_pure_NTT by exact Hf. reflexivity. Qed.

(** ** The inverse transform in closed form *)

(** gamma i ^ 2^l is the root of the ancestor block of i *)
Lemma gamma_pow l i : (l <= 7)%nat -> (i < 128)%nat ->
  eqq (gamma i ^ Z.of_nat (2 ^ l)) (root (2 ^ (7 - l)) (i / 2 ^ l)).
Proof.
  intros Hl Hi. induction l as [|l IH].
  - change (2 ^ 0)%nat with 1%nat. rewrite Nat.div_1_r. change (Z.of_nat 1) with 1.
    rewrite Z.pow_1_r. change (2 ^ (7 - 0))%nat with 128%nat. symmetry. apply root_gamma, Hi.
  - rewrite Nat.pow_succ_r', pow_double, Z.pow_mul_l.
    assert (IH' := IH ltac:(lia)). rewrite IH'.
    assert (E7 : (7 - l = S (7 - S l))%nat) by lia. rewrite E7, Nat.pow_succ_r'.
    set (m := (2 ^ (7 - S l))%nat).
    assert (Hm : In m counts).
    { unfold m. clear - Hl. assert (C : (7 - S l <= 6)%nat) by lia. revert C.
      generalize (7 - S l)%nat. intros n Hn. do 7 (destruct n as [|n]; [cbn; tauto|]). lia. }
    assert (Pm : (0 < m)%nat) by (unfold m; pose proof (Nat.pow_nonzero 2 (7 - S l)); lia).
    rewrite (Nat.mul_comm 2 (2 ^ l)), <- Nat.div_div by (try apply Nat.pow_nonzero; lia).
    set (u := (i / 2 ^ l)%nat).
    assert (Hu : (u < 2 * m)%nat).
    { unfold u, m. rewrite <- Nat.pow_succ_r', <- E7. apply Nat.div_lt_upper_bound; [apply Nat.pow_nonzero; lia|].
      rewrite <- Nat.pow_add_r. replace (l + (7 - l))%nat with 7%nat by lia. exact Hi. }
    destruct (half_cases u) as [s Hs].
    assert (Hsm : (s < m)%nat) by lia.
    rewrite <- (root_square m (u / 2) Hm) by (apply div2_lt; lia).
    destruct Hs as [-> | ->].
    + rewrite root_even, even_div by exact Pm. reflexivity.
    + rewrite root_odd, odd_div by exact Pm. apply eqq_of_eq. ring.
Qed.

Lemma gamma_128 i : (i < 128)%nat -> eqq (gamma i ^ 128) (-1).
Proof.
  intros Hi. pose proof (gamma_pow 7 i (le_n 7) Hi) as H.
  change (Z.of_nat (2 ^ 7)) with 128 in H. rewrite H. apply eqq_of_eq. reflexivity.
Qed.
Lemma gamma_256 i : (i < 128)%nat -> eqq (gamma i ^ Z.of_nat 256) 1.
Proof.
  intros Hi. change 256%nat with (2 * 128)%nat. rewrite pow_double, Z.pow_mul_l.
  change (Z.of_nat 128) with 128. rewrite gamma_128 by exact Hi. apply eqq_of_eq. reflexivity.
Qed.

(** the weights of the inverse transform on the leaves below block s of m *)
Definition inv_inv (m b : nat) (g f : list Z) : Prop :=
  forall s u p, (s < m)%nat -> (u < b)%nat -> (p < 2)%nat ->
    eqq (co f (s * (2 * b) + 2 * u + p))
        (sum b (fun i => co g (2 * (s * b + i) + p) * gamma (s * b + i) ^ Z.of_nat (256 - u))).

Lemma inv_step l g f : (l <= 6)%nat ->
  inv_inv (2 * 2 ^ (6 - l)) (2 ^ l) g f ->
  inv_inv (2 ^ (6 - l)) (2 * 2 ^ l) g (invL (2 * 2 ^ l) (Ki (2 ^ (6 - l))) f).
Proof.
  intros Hl H s u p Hs Hu Hp.
  pose proof (fun i => gamma_pow l i) as G.
  assert (E64 : (2 ^ (6 - l) * 2 ^ l = 64)%nat).
  { rewrite <- Nat.pow_add_r. replace (6 - l + l)%nat with 6%nat by lia. reflexivity. }
  assert (E7 : (2 ^ (7 - l) = 2 * 2 ^ (6 - l))%nat).
  { replace (7 - l)%nat with (S (6 - l)) by lia. apply Nat.pow_succ_r'. }
  assert (Hm : In (2 ^ (6 - l))%nat counts).
  { clear - Hl. assert (C : (6 - l <= 6)%nat) by lia. revert C.
    generalize (6 - l)%nat. intros n Hn. do 7 (destruct n as [|n]; [cbn; tauto|]). lia. }
  rewrite E7 in G. clear E7.
  set (m := (2 ^ (6 - l))%nat) in *. set (b := (2 ^ l)%nat) in *. clearbody m b.
  assert (Pb : (0 < b)%nat) by lia. assert (Pm : (0 < m)%nat) by lia.
  (** powers of gamma below the two halves of the block *)
  assert (GL : forall i, (i < b)%nat -> eqq (Zt (Ki m s) * gamma (s * (2 * b) + i) ^ Z.of_nat b) (-1)).
  { intros i Hi. rewrite G by nia.
    replace ((s * (2 * b) + i) / b)%nat with (2 * s)%nat.
    - rewrite root_even by exact Pm. apply Zt_inverse; assumption.
    - replace (s * (2 * b) + i)%nat with (i + 2 * s * b)%nat by lia.
      rewrite Nat.div_add, Nat.div_small by lia. reflexivity. }
  assert (GR : forall i, (i < b)%nat -> eqq (Zt (Ki m s) * gamma (s * (2 * b) + b + i) ^ Z.of_nat b) 1).
  { intros i Hi. rewrite G by nia.
    replace ((s * (2 * b) + b + i) / b)%nat with (2 * s + 1)%nat.
    - rewrite root_odd by exact Pm.
      transitivity (- (Zt (Ki m s) * Zt (Kf m s))); [apply eqq_of_eq; ring|].
      rewrite Zt_inverse by assumption. reflexivity.
    - replace (s * (2 * b) + b + i)%nat with (i + (2 * s + 1) * b)%nat by lia.
      rewrite Nat.div_add, Nat.div_small by lia. reflexivity. }
  assert (LE : forall u', (u' < b)%nat ->
     eqq (co f (s * (2 * (2 * b)) + (2 * u' + p)))
         (sum b (fun i => co g (2 * (s * (2 * b) + i) + p) * gamma (s * (2 * b) + i) ^ Z.of_nat (256 - u')))).
  { intros u' Hu'. replace (s * (2 * (2 * b)) + (2 * u' + p))%nat with (2 * s * (2 * b) + 2 * u' + p)%nat by lia.
    rewrite (H (2 * s)%nat u' p) by lia. apply eqq_of_eq. apply sum_ext. intros i Hi.
    replace (2 * s * b + i)%nat with (s * (2 * b) + i)%nat by lia. reflexivity. }
  assert (RI : forall u', (u' < b)%nat ->
     eqq (co f (s * (2 * (2 * b)) + (2 * u' + p) + 2 * b))
         (sum b (fun i => co g (2 * (s * (2 * b) + b + i) + p) * gamma (s * (2 * b) + b + i) ^ Z.of_nat (256 - u')))).
  { intros u' Hu'. replace (s * (2 * (2 * b)) + (2 * u' + p) + 2 * b)%nat with ((2 * s + 1) * (2 * b) + 2 * u' + p)%nat by lia.
    rewrite (H (2 * s + 1)%nat u' p) by lia. apply eqq_of_eq. apply sum_ext. intros i Hi.
    replace ((2 * s + 1) * b + i)%nat with (s * (2 * b) + b + i)%nat by lia. reflexivity. }
  assert (SS : forall F, sum (2 * b) F = sum b F + sum b (fun i => F (b + i)%nat)).
  { intros F. rewrite <- sum_split. f_equal. lia. }
  rewrite SS. clear SS.
  destruct (Nat.lt_ge_cases u b) as [Lu|Ge].
  - rewrite <- Nat.add_assoc. rewrite co_invL_lo by nia. rewrite mod_eqq.
    rewrite LE, RI by exact Lu. apply eqq_of_eq. f_equal. apply sum_ext. intros i Hi.
    rewrite Nat.add_assoc. reflexivity.
  - replace (s * (2 * (2 * b)) + 2 * u + p)%nat with (s * (2 * (2 * b)) + (2 * (u - b) + p) + 2 * b)%nat by lia.
    rewrite co_invL_hi by nia. rewrite mod_eqq. rewrite LE, RI by lia.
    rewrite Z.mul_sub_distr_l, <- !sum_mul_l.
    assert (EU : forall x, gamma x ^ Z.of_nat (256 - (u - b)) =
                           gamma x ^ Z.of_nat (256 - u) * gamma x ^ Z.of_nat b).
    { intros x. rewrite <- Z.pow_add_r by lia. f_equal. nia. }
    transitivity (sum b (fun i => co g (2 * (s * (2 * b) + b + i) + p) * gamma (s * (2 * b) + b + i) ^ Z.of_nat (256 - u))
      - sum b (fun i => - (co g (2 * (s * (2 * b) + i) + p) * gamma (s * (2 * b) + i) ^ Z.of_nat (256 - u)))).
    + apply sub_eqq; apply sum_eqq; intros i Hi; rewrite EU.
      * transitivity (co g (2 * (s * (2 * b) + b + i) + p) * gamma (s * (2 * b) + b + i) ^ Z.of_nat (256 - u) *
          (Zt (Ki m s) * gamma (s * (2 * b) + b + i) ^ Z.of_nat b)); [apply eqq_of_eq; ring|].
        rewrite GR by exact Hi. apply eqq_of_eq. ring.
      * transitivity (co g (2 * (s * (2 * b) + i) + p) * gamma (s * (2 * b) + i) ^ Z.of_nat (256 - u) *
          (Zt (Ki m s) * gamma (s * (2 * b) + i) ^ Z.of_nat b)); [apply eqq_of_eq; ring|].
        rewrite GL by exact Hi. apply eqq_of_eq. ring.
    + apply eqq_of_eq.
      assert (N : forall F, sum b (fun i => - F i) = - sum b F).
      { intros F. rewrite <- (Z.mul_1_l (sum b F)) , <- Z.mul_opp_l, <- sum_mul_l. apply sum_ext. intros. ring. }
      rewrite N. rewrite Z.sub_opp_r, Z.add_comm. f_equal. apply sum_ext. intros i Hi.
      rewrite Nat.add_assoc. reflexivity.
Qed.

Theorem ntt_inverse_ok g : poly g -> ntt_inverse g = Ok (NTTinv g).
Proof.
  intros Hg. rewrite (proj1 (inv_pure_ok g Hg)).
  rewrite poly_scale_ok by (try apply invL_poly; unfold fe, q; lia). f_equal.
  apply poly_ext; [apply poly_tab_mod|apply NTTinv_poly|].
  assert (H0 : inv_inv (2 * 2 ^ (6 - 0)) (2 ^ 0) g g).
  { intros s u p Hs Hu Hp. change (2 ^ 0)%nat with 1%nat in *. cbn [sum].
    replace u with 0%nat by lia. rewrite !Nat.add_0_r, Nat.sub_0_r.
    replace (s * 1)%nat with s by lia.
    change (2 * 2 ^ (6 - 0))%nat with 128%nat in Hs.
    rewrite gamma_256 by exact Hs. apply eqq_of_eq.
    rewrite Z.add_0_l, Z.mul_1_r. f_equal. lia. }
  apply (inv_step 0) in H0; [|lia]. apply (inv_step 1) in H0; [|lia].
  apply (inv_step 2) in H0; [|lia]. apply (inv_step 3) in H0; [|lia].
  apply (inv_step 4) in H0; [|lia]. apply (inv_step 5) in H0; [|lia].
  apply (inv_step 6) in H0; [|lia].
  assert (H1 : inv_inv 1 128 g (inv_pure g)) by exact H0. clear H0.
  intros t Ht. destruct (index_split t Ht) as (j & p & Hj & Hp & ->).
  rewrite co_tab by exact Ht. rewrite NTTinv_at by assumption. apply eqq_mod.
  apply mul_eqq; [reflexivity|].
  pose proof (H1 0%nat j p ltac:(lia) Hj Hp) as E.
  replace (0 * (2 * 128) + 2 * j + p)%nat with (2 * j + p)%nat in E by lia.
  rewrite E. apply sum_eqq. intros i Hi. reflexivity.
Qed.

(** ** The two transforms are mutually inverse, layer by layer *)

Definition pscale (c : Z) (f : list Z) : list Z := tab 256 (fun i => (c * co f i) mod q).
Lemma pscale_poly c f : poly (pscale c f).
Proof. apply poly_tab_mod. Qed.
Lemma co_pscale c f i : (i < 256)%nat -> co (pscale c f) i = (c * co f i) mod q.
Proof. intros H. apply (co_tab 256 (fun i => (c * co f i) mod q)). exact H. Qed.

(** equality of polynomials, block by block *)
Lemma block_ext len m f g : (0 < len)%nat -> (m * (2 * len) = 256)%nat -> poly f -> poly g ->
  (forall s r, (s < m)%nat -> (r < len)%nat -> (s * (2 * len) + r + len < 256)%nat ->
     eqq (co f (s * (2 * len) + r)) (co g (s * (2 * len) + r)) /\
     eqq (co f (s * (2 * len) + r + len)) (co g (s * (2 * len) + r + len))) ->
  f = g.
Proof.
  intros Hl Hm Pf Pg H. apply poly_ext; [exact Pf|exact Pg|]. intros i Hi.
  rewrite <- (fe_mod_id (co f i)), <- (fe_mod_id (co g i)) by (apply poly_co; assumption).
  apply eqq_mod. destruct (block_split len i Hl) as (s & r & Hr & ->).
  assert (Hs : (s < m)%nat) by nia.
  destruct (Nat.lt_ge_cases r len) as [L|G].
  - apply H; try assumption. nia.
  - replace (s * (2 * len) + r)%nat with (s * (2 * len) + (r - len) + len)%nat by lia.
    apply H; lia.
Qed.

Lemma invL_fwdL len m f : In m counts -> (m * (2 * len) = 256)%nat -> poly f ->
  invL len (Ki m) (fwdL len (Kf m) f) = pscale 2 f.
Proof.
  intros Hm HB Hf. apply (block_ext len m); [lia|exact HB|apply invL_poly|apply pscale_poly|].
  intros s r Hs Hr Hi. rewrite co_invL_lo, co_invL_hi, co_fwdL_lo, co_fwdL_hi, !co_pscale by lia.
  pose proof (Zt_inverse m s Hm Hs) as I.
  generalize dependent (Zt (Ki m s)). generalize (Zt (Kf m s)). intros z z' I.
  generalize (co f (s * (2 * len) + r)), (co f (s * (2 * len) + r + len)). intros x y.
  clear - I. split.
  - rewrite (mod_eqq (_ + _)), (mod_eqq (2 * _)), (mod_eqq (_ + _)), (mod_eqq (_ - _)). apply eqq_of_eq. ring.
  - rewrite (mod_eqq (z' * _)), (mod_eqq (2 * _)), (mod_eqq (_ + _)), (mod_eqq (x - _)).
    transitivity (-2 * (z' * z) * y); [apply eqq_of_eq; ring|].
    rewrite I. apply eqq_of_eq. ring.
Qed.
Lemma fwdL_invL len m f : In m counts -> (m * (2 * len) = 256)%nat -> poly f ->
  fwdL len (Kf m) (invL len (Ki m) f) = pscale 2 f.
Proof.
  intros Hm HB Hf. apply (block_ext len m); [lia|exact HB|apply fwdL_poly|apply pscale_poly|].
  intros s r Hs Hr Hi. rewrite co_fwdL_lo, co_fwdL_hi, co_invL_lo, co_invL_hi, !co_pscale by lia.
  pose proof (Zt_inverse m s Hm Hs) as I.
  generalize dependent (Zt (Ki m s)). generalize (Zt (Kf m s)). intros z z' I.
  generalize (co f (s * (2 * len) + r)), (co f (s * (2 * len) + r + len)). intros x y.
  clear - I. split.
  - rewrite (mod_eqq (_ + z * _)), (mod_eqq (2 * _)), (mod_eqq (x + _)), (mod_eqq (z' * _)).
    transitivity (x + y + (z' * z) * (y - x)); [apply eqq_of_eq; ring|].
    rewrite I. apply eqq_of_eq. ring.
  - rewrite (mod_eqq (_ - z * _)), (mod_eqq (2 * _)), (mod_eqq (x + _)), (mod_eqq (z' * _)).
    transitivity (x + y - (z' * z) * (y - x)); [apply eqq_of_eq; ring|].
    rewrite I. apply eqq_of_eq. ring.
Qed.
Lemma invL_pscale len m K c f : (0 < len)%nat -> (m * (2 * len) = 256)%nat ->
  invL len K (pscale c f) = pscale c (invL len K f).
Proof.
  intros Hl HB. apply (block_ext len m); [lia|exact HB|apply invL_poly|apply pscale_poly|].
  intros s r Hs Hr Hi. rewrite !co_pscale, !co_invL_lo, !co_invL_hi, !co_pscale by lia.
  generalize (co f (s * (2 * len) + r)), (co f (s * (2 * len) + r + len)), (Zt (K s)).
  clear. intros x y z. split; apply eqq_iff; modq.
Qed.
Lemma fwdL_pscale len m K c f : (0 < len)%nat -> (m * (2 * len) = 256)%nat ->
  fwdL len K (pscale c f) = pscale c (fwdL len K f).
Proof.
  intros Hl HB. apply (block_ext len m); [lia|exact HB|apply fwdL_poly|apply pscale_poly|].
  intros s r Hs Hr Hi. rewrite !co_pscale, !co_fwdL_lo, !co_fwdL_hi, !co_pscale by lia.
  generalize (co f (s * (2 * len) + r)), (co f (s * (2 * len) + r + len)), (Zt (K s)).
  clear. intros x y z. split; apply eqq_iff; modq.
Qed.
Lemma pscale_pscale c d f : pscale c (pscale d f) = pscale (c * d) f.
Proof.
  apply poly_ext; [apply pscale_poly|apply pscale_poly|]. intros i Hi.
  rewrite !co_pscale by exact Hi. apply eqq_mod. rewrite mod_eqq. apply eqq_of_eq. ring.
Qed.
Lemma pscale_1 c f : poly f -> c mod q = 1 -> pscale c f = f.
Proof.
  intros Hf Hc. apply poly_ext; [apply pscale_poly|exact Hf|]. intros i Hi.
  rewrite co_pscale by exact Hi. rewrite <- (fe_mod_id (co f i)) at 2 by (apply poly_co; assumption).
  apply eqq_mod. rewrite <- (mod_eqq c), Hc. apply eqq_of_eq. ring.
Qed.

Lemma inv_ntt_pure f : poly f -> inv_pure (ntt_pure f) = pscale 128 f.
Proof.
  intros Hf. unfold inv_pure, ntt_pure.
  rewrite (invL_fwdL 2 64) by (try apply fwdL_poly; cbn; tauto || reflexivity).
  rewrite (invL_pscale 4 32) by (lia || reflexivity).
  rewrite (invL_fwdL 4 32) by (try apply fwdL_poly; cbn; tauto || reflexivity).
  rewrite !(invL_pscale 8 16) by (lia || reflexivity).
  rewrite (invL_fwdL 8 16) by (try apply fwdL_poly; cbn; tauto || reflexivity).
  rewrite !(invL_pscale 16 8) by (lia || reflexivity).
  rewrite (invL_fwdL 16 8) by (try apply fwdL_poly; cbn; tauto || reflexivity).
  rewrite !(invL_pscale 32 4) by (lia || reflexivity).
  rewrite (invL_fwdL 32 4) by (try apply fwdL_poly; cbn; tauto || reflexivity).
  rewrite !(invL_pscale 64 2) by (lia || reflexivity).
  rewrite (invL_fwdL 64 2) by (try apply fwdL_poly; cbn; tauto || reflexivity).
  rewrite !(invL_pscale 128 1) by (lia || reflexivity).
  rewrite (invL_fwdL 128 1) by (try exact Hf; cbn; tauto || reflexivity).
  rewrite !pscale_pscale. reflexivity.
Qed.
Lemma ntt_inv_pure f : poly f -> ntt_pure (inv_pure f) = pscale 128 f.
Proof.
  intros Hf. unfold inv_pure, ntt_pure.
  rewrite (fwdL_invL 128 1) by (try apply invL_poly; cbn; tauto || reflexivity).
  rewrite (fwdL_pscale 64 2) by (lia || reflexivity).
  rewrite (fwdL_invL 64 2) by (try apply invL_poly; cbn; tauto || reflexivity).
  rewrite !(fwdL_pscale 32 4) by (lia || reflexivity).
  rewrite (fwdL_invL 32 4) by (try apply invL_poly; cbn; tauto || reflexivity).
  rewrite !(fwdL_pscale 16 8) by (lia || reflexivity).
  rewrite (fwdL_invL 16 8) by (try apply invL_poly; cbn; tauto || reflexivity).
  rewrite !(fwdL_pscale 8 16) by (lia || reflexivity).
  rewrite (fwdL_invL 8 16) by (try apply invL_poly; cbn; tauto || reflexivity).
  rewrite !(fwdL_pscale 4 32) by (lia || reflexivity).
  rewrite (fwdL_invL 4 32) by (try apply invL_poly; cbn; tauto || reflexivity).
  rewrite !(fwdL_pscale 2 64) by (lia || reflexivity).
  rewrite (fwdL_invL 2 64) by (try exact Hf; cbn; tauto || reflexivity).
  rewrite !pscale_pscale. reflexivity.
Qed.

Lemma NTTinv_pure g : poly g -> NTTinv g = pscale 3303 (inv_pure g).
Proof.
  intros Hg. pose proof (ntt_inverse_ok g Hg) as E.
  rewrite (proj1 (inv_pure_ok g Hg)) in E.
  rewrite poly_scale_ok in E by (try apply invL_poly; unfold fe, q; lia).
  apply Ok_inj in E. symmetry. exact E.
Qed.

Lemma ntt_pure_pscale c f : ntt_pure (pscale c f) = pscale c (ntt_pure f).
Proof.
  unfold ntt_pure. rewrite (fwdL_pscale 128 1), (fwdL_pscale 64 2), (fwdL_pscale 32 4),
    (fwdL_pscale 16 8), (fwdL_pscale 8 16), (fwdL_pscale 4 32), (fwdL_pscale 2 64) by (lia || reflexivity).
  reflexivity.
Qed.

Theorem NTTinv_NTT f : poly f -> NTTinv (NTT f) = f.
Proof.
  intros Hf. rewrite NTTinv_pure by apply NTT_poly. rewrite <- ntt_pure_NTT by exact Hf.
  rewrite inv_ntt_pure by exact Hf. rewrite pscale_pscale. apply pscale_1; [exact Hf|reflexivity].
Qed.

Theorem NTT_NTTinv g : poly g -> NTT (NTTinv g) = g.
Proof.
  intros Hg. rewrite NTTinv_pure by exact Hg. rewrite <- ntt_pure_NTT by apply pscale_poly.
  rewrite ntt_pure_pscale, ntt_inv_pure by exact Hg.
  rewrite pscale_pscale. apply pscale_1; [exact Hg|reflexivity].
Qed.

(** ** Weights *)

(** the weight of coefficient c in output t *)
Definition w (c t : nat) : Z :=
  if Nat.eqb (c mod 2) (t mod 2) then gamma (t / 2) ^ Z.of_nat (c / 2) else 0.

Lemma NTT_w f t : (t < 256)%nat -> co (NTT f) t = sum 256 (fun c => co f c * w c t) mod q.
Proof.
  intros Ht. unfold NTT. rewrite co_tab by exact Ht. f_equal.
  change 256%nat with (2 * 128)%nat. rewrite sum_pairs. apply sum_ext. intros j Hj.
  unfold w. rewrite even_mod, odd_mod, even_div, odd_div.
  destruct (even_odd_cases t) as [i [-> | ->]].
  - rewrite even_mod, even_div. cbn [Nat.eqb]. rewrite Nat.add_0_r. ring.
  - rewrite odd_mod, odd_div. cbn [Nat.eqb]. ring.
Qed.

Lemma NTTinv_w g t : (t < 256)%nat ->
  co (NTTinv g) t =
  (3303 * sum 256 (fun c => co g c *
     (if Nat.eqb (c mod 2) (t mod 2) then gamma (c / 2) ^ Z.of_nat (256 - t / 2) else 0))) mod q.
Proof.
  intros Ht. unfold NTTinv. rewrite co_tab by exact Ht. do 2 f_equal.
  change 256%nat with (2 * 128)%nat at 2. rewrite sum_pairs. apply sum_ext. intros j Hj.
  rewrite even_mod, odd_mod, even_div, odd_div.
  destruct (even_odd_cases t) as [i [-> | ->]].
  - rewrite even_mod. cbn [Nat.eqb]. rewrite Nat.add_0_r. ring.
  - rewrite odd_mod. cbn [Nat.eqb]. ring.
Qed.

(** The attacker of Spec/Hybrid.v, and hash functions with a table or a given seed. *)
From Coq Require Import List ZArith Lia Bool Arith.
From Verif.Base Require Import Res Oracles.
From Verif.Spec Require Import FIPS203 XWing Domains Counting Random Lwe Attacker Tables Hybrid.
From Verif.Model Require Import Machine.
From Verif.Proofs Require Import Basics VecEncode PkeProofs KemProofs XWingProofs CountProofs LweProofs AttackerProofs TableProofs.
From Coq Require Import QArith Qabs Lqa.
Import ListNotations.
Open Scope Z_scope.

Lemma within_more a : forall N N' D D', (N <= N')%nat -> (D <= D')%nat -> within N D a -> within N' D' a.
Proof.
  induction a as [p|f x len next IH|c next IH]; intros N N' D D' HN HD H; cbn [within] in *.
  - exact H.
  - destruct N as [|N]; [contradiction|]. destruct N' as [|N']; [lia|]. intros y. apply (IH y N N' D); [lia|exact HD|apply H].
  - destruct D as [|D]; [contradiction|]. destruct D' as [|D']; [lia|]. intros y. apply (IH y N N' D); [exact HN|lia|apply H].
Qed.

Lemma ask_within look x next N D : (forall y, within N D (next y)) -> within (S N) D (ask look x next).
Proof.
  intros H. unfold ask. destruct (look x) as [v|]; [|exact H]. apply (within_more _ N (S N) D D); [lia|lia|apply H].
Qed.

Section Wrap.
  Variable X25519 : list Z -> list Z -> list Z.
  Variables LX LXC : list (list Z).

  Lemma wrap_within TH look skx pkx c0 cx0 a : forall N D, within N D a ->
    within (N + D) D (wrap X25519 LX TH LXC look skx pkx c0 cx0 a).
  Proof.
    induction a as [p|f x len next IH|c next IH]; intros N D H; cbn [within] in H.
    - exact H.
    - destruct N as [|N]; [contradiction|]. cbn [Nat.add].
      assert (W : forall y, within (N + D) D (wrap X25519 LX TH LXC look skx pkx c0 cx0 (next y))) by (intros y; apply IH, H).
      destruct f; cbn [wrap]; [apply ask_within, W|exact W|exact W|exact W].
    - destruct D as [|D]; [contradiction|].
      assert (W : forall y, within (N + D) D (wrap X25519 LX TH LXC look skx pkx c0 cx0 (next y))) by (intros y; apply IH, H).
      assert (W' : forall y, within (N + S D) (S D) (wrap X25519 LX TH LXC look skx pkx c0 cx0 (next y))).
      { intros y. apply (within_more _ (N + D) _ D); [lia|lia|apply W]. }
      cbn [wrap]. cbv zeta.
      destruct (list_eq_dec Z.eq_dec c (c0 ++ cx0)); [apply W'|].
      destruct (in_dec (list_eq_dec Z.eq_dec) c LXC); [|apply W'].
      destruct (list_eq_dec Z.eq_dec (firstn 1088 c) c0); [apply W'|].
      cbn [within]. intros K. rewrite Nat.add_succ_r. apply ask_within, W.
  Qed.

  (** without [look] the K of the reduction is not used; with it, only when a question
      contains K *)
  Definition shown_K (p : hash_name * list Z) : list Z := firstn 32 (skipn 6 (snd p)).
  Lemma ask_none h dec TH K x next next' :
    (forall y, points shown_K K (asked h dec (next' y)) = false -> run h dec (next y) = run h dec (next' y)) ->
    points shown_K K (asked h dec (ask (fun _ => None) x next')) = false ->
    run h dec (ask (lookup LX TH K) x next) = run h dec (ask (fun _ => None) x next').
  Proof.
    intros H Q. unfold ask in *. cbn [asked run reply] in *. unfold points in Q. cbn [existsb] in Q. apply orb_false_iff in Q.
    destruct Q as [Q1 Q2].
    assert (EN : lookup LX TH K x = None).
    { unfold lookup. destruct (list_eq_dec Z.eq_dec (firstn 38 x) (XWingLabel ++ K)) as [E|_]; [|reflexivity].
      exfalso. destruct (list_eq_dec Z.eq_dec (shown_K (Sha3_256, x)) K) as [_|X]; [discriminate Q1|]. apply X.
      unfold shown_K. cbn [snd]. change 38%nat with (6 + 32)%nat in E.
      rewrite firstn_skipn_comm, E. reflexivity. }
    rewrite EN. cbn [run reply]. apply H, Q2.
  Qed.
  Lemma wrap_none h dec TH K skx pkx c0 cx0 a :
    points shown_K K (asked h dec (wrap X25519 LX TH LXC (fun _ => None) skx pkx c0 cx0 a)) = false ->
    run h dec (wrap X25519 LX TH LXC (lookup LX TH K) skx pkx c0 cx0 a) =
    run h dec (wrap X25519 LX TH LXC (fun _ => None) skx pkx c0 cx0 a).
  Proof.
    induction a as [p|f x len next IH|c next IH]; intros Q; [reflexivity| |].
    - destruct f; cbn [wrap] in *.
      + apply ask_none; [intros y; apply IH|exact Q].
      + cbn [run]. apply IH. cbn [asked points existsb] in Q. unfold points in Q. cbn [existsb] in Q. apply orb_false_iff in Q. apply Q.
      + cbn [run]. apply IH. cbn [asked points existsb] in Q. unfold points in Q. cbn [existsb] in Q. apply orb_false_iff in Q. apply Q.
      + cbn [run]. apply IH. cbn [asked points existsb] in Q. unfold points in Q. cbn [existsb] in Q. apply orb_false_iff in Q. apply Q.
    - cbn [wrap] in *. cbv zeta in *.
      destruct (list_eq_dec Z.eq_dec c (c0 ++ cx0)); [apply IH, Q|].
      destruct (in_dec (list_eq_dec Z.eq_dec) c LXC); [|apply IH, Q].
      destruct (list_eq_dec Z.eq_dec (firstn 1088 c) c0); [apply IH, Q|].
      cbn [run asked] in *. apply ask_none; [intros y; apply IH|exact Q].
  Qed.

  (** without [look], the entry of [TH] for the challenge is not used *)
  Lemma wrap_update h dec TH v skx pkx c0 cx0 ssx a L :
    table LX L TH -> enumerates 96 LX -> enumerates 1120 LXC ->
    (forall k u, byte_string 32 k -> byte_string 32 u -> byte_string 32 (X25519 k u)) ->
    byte_string 32 skx -> byte_string 32 pkx -> byte_string 32 ssx -> byte_string 32 cx0 ->
    run h dec (wrap X25519 LX (update LX TH (ssx ++ cx0 ++ pkx) v) LXC (fun _ => None) skx pkx c0 cx0 a) =
    run h dec (wrap X25519 LX TH LXC (fun _ => None) skx pkx c0 cx0 a).
  Proof.
    intros HT HLX HLXC HX Hskx Hpkx Hssx Hcx0. induction a as [p|f x len next IH|c next IH]; [reflexivity| |].
    - destruct f; cbn [wrap]; unfold ask; cbn [run]; apply IH.
    - cbn [wrap]. cbv zeta.
      destruct (list_eq_dec Z.eq_dec c (c0 ++ cx0)) as [|Nc]; [apply IH|].
      destruct (in_dec (list_eq_dec Z.eq_dec) c LXC) as [Ic|]; [|apply IH].
      destruct (list_eq_dec Z.eq_dec (firstn 1088 c) c0) as [E0|]; [|unfold ask; cbn [run]; apply IH].
      apply HLXC in Ic. assert (Hcx : byte_string 32 (skipn 1088 c)) by (apply (byte_string_skipn 1088 32), Ic).
      set (cx := skipn 1088 c) in *.
      assert (Ir : In (X25519 skx cx ++ cx ++ pkx) LX).
      { apply HLX. apply (byte_string_app 32 64); [apply HX; assumption|]. apply (byte_string_app 32 32); assumption. }
      assert (Nx : cx <> cx0).
      { intros E. apply Nc. rewrite <- (firstn_skipn 1088 c), E0. fold cx. rewrite E. reflexivity. }
      assert (EE : entry LX (update LX TH (ssx ++ cx0 ++ pkx) v) (X25519 skx cx ++ cx ++ pkx) = entry LX TH (X25519 skx cx ++ cx ++ pkx)).
      { unfold update. rewrite entry_fill by exact Ir. destruct (list_eq_dec Z.eq_dec _ _) as [E|_].
        - exfalso. apply Nx. apply (f_equal (skipn 32)) in E. rewrite !skipn_app_exact in E by (apply HX || apply Hssx; assumption).
          apply (f_equal (firstn 32)) in E. rewrite !firstn_app_exact in E by (apply Hcx || apply Hcx0). exact E.
        - rewrite (entry_get LX L TH _ HT Ir). reflexivity. }
      rewrite EE. apply IH.
  Qed.
End Wrap.

(** ** hash functions *)
Lemma with_H_table_ok hs pre LX L TH : hash_ok hs -> (forall x, In x L -> byte_string 32 x) ->
  table LX L TH -> hash_ok (with_H_table hs pre LX TH).
Proof.
  intros H HL HT m Hm. destruct (H m Hm) as (H1 & H2). split; [|exact H2]. cbn [with_H_table sha3_256].
  destruct (list_eq_dec Z.eq_dec _ _); [|exact H1].
  destruct (in_dec (list_eq_dec Z.eq_dec) (skipn (length pre) m) LX) as [I|N].
  - rewrite (entry_get LX L TH _ HT I). apply HL, (get_in LX L TH _ HT I).
  - rewrite entry_none by exact N. exact H1.
Qed.
Lemma with_seed_ok hs sk B : hash_ok hs -> bytes B -> hash_ok (with_seed hs sk B).
Proof.
  intros H HB m Hm. destruct (H m Hm) as (H1 & H2 & H3 & H4). split; [exact H1|]. split; [exact H2|]. split; [|exact H4].
  intros i. cbn [with_seed shake128]. destruct (list_eq_dec Z.eq_dec m sk); [|apply H3].
  destruct (Nat.ltb i (length B)) eqn:E; [|apply H3]. apply Nat.ltb_lt in E.
  unfold bytes in HB. rewrite Forall_forall in HB. apply HB, nth_In, E.
Qed.
Lemma reader_ok : rng_ok reader.
Proof.
  intros s n. cbn [reader fill_bytes fst]. split; [apply tab_length|]. apply Forall_tab. intros i _.
  pose proof (Z.mod_pos_bound (nth i s 0) 256 ltac:(lia)). unfold is_byte. lia.
Qed.
Lemma reader_reads a b n : byte_string n a -> fill_bytes reader (a ++ b) n = (a, b).
Proof.
  intros [Hl Hb]. cbn [reader fill_bytes]. f_equal; [|apply skipn_app_exact, Hl].
  apply (list_ext _ 0); [rewrite tab_length; symmetry; exact Hl|]. intros i Hi. rewrite tab_length in Hi. rewrite nth_tab by exact Hi.
  rewrite app_nth1 by lia. apply Z.mod_small. unfold bytes in Hb. rewrite Forall_forall in Hb.
  assert (I : In (nth i a 0) a) by (apply nth_In; lia). apply Hb in I. exact I.
Qed.

(** neither affects the matrix, or hashes of long strings *)
Lemma A_hat_seed h sk B P n rho : length sk = 32%nat -> length rho = 32%nat -> A_hat (with_seed h sk B) P n rho = A_hat h P n rho.
Proof.
  intros Hs Hr. unfold A_hat. f_equal. apply tab_ext. intros i _. f_equal. apply tab_ext. intros j _. f_equal.
  cbn [with_seed shake128]. destruct (list_eq_dec Z.eq_dec _ _) as [E|_]; [|reflexivity].
  exfalso. apply (f_equal (@length Z)) in E. rewrite app_length in E. cbn [length] in E. lia.
Qed.
Lemma with_H_other h pre LX TH x q : enumerates q LX -> length x <> (length pre + q)%nat ->
  sha3_256 (with_H_table h pre LX TH) x = sha3_256 h x.
Proof.
  intros HLX Hx. cbn [with_H_table sha3_256]. destruct (list_eq_dec Z.eq_dec _ _) as [E|_]; [|reflexivity].
  destruct (in_dec (list_eq_dec Z.eq_dec) (skipn (length pre) x) LX) as [I|N].
  - exfalso. apply HLX in I. apply proj1 in I. rewrite <- (firstn_skipn (length pre) x), app_length, E, I in Hx. contradiction.
  - rewrite entry_none by exact N. reflexivity.
Qed.
Lemma with_H_table_at h pre LX L TH x : table LX L TH -> In x LX -> sha3_256 (with_H_table h pre LX TH) (pre ++ x) = get LX TH x.
Proof.
  intros HT I. cbn [with_H_table sha3_256]. rewrite firstn_app_exact, skipn_app_exact by reflexivity.
  destruct (list_eq_dec Z.eq_dec pre pre) as [_|N]; [|contradiction]. rewrite (entry_get LX L TH x HT I). reflexivity.
Qed.
Lemma seed_prefix h sk B : SHAKE128 (with_seed h sk B) sk (length B) = B.
Proof.
  unfold SHAKE128. apply (list_ext _ 0); [apply tab_length|]. intros i Hi. rewrite tab_length in Hi. rewrite nth_tab by exact Hi.
  cbn [with_seed shake128]. destruct (list_eq_dec Z.eq_dec sk sk) as [_|N]; [|contradiction].
  rewrite (proj2 (Nat.ltb_lt _ _) Hi). reflexivity.
Qed.

(** The samplers: rejection sampling and the centred binomial distribution. *)
From Coq Require Import List ZArith Lia Bool Arith.
From Verif.Base Require Import Res Oracles.
From Verif.Spec Require Import FIPS203 Domains.
From Verif.Model Require Import Machine Util Algebra Encode Crypto Sample.
From Verif.Proofs Require Import Basics Field Poly CompressProofs EncodeProofs.
Import ListNotations.
Open Scope Z_scope.

(** ** SampleNTT *)

Section Uniform.
  Variable B : nat -> Z.
  Hypothesis B_bytes : forall i, is_byte (B i).

  (** The reader has consumed [g] groups of three bytes of the stream [B]. *)
  Record reader_at (r : fe_reader) (g : nat) : Prop := {
    ra_stream : xof_stream (fr_xof r) = B;
    ra_data : fr_data r = tab 96 (fun i => B (xof_pos (fr_xof r) - 96 + i)%nat);
    ra_pos : (96 <= xof_pos (fr_xof r))%nat;
    ra_start : (fr_start r <= 96)%nat;
    ra_group : (xof_pos (fr_xof r) - 96 + fr_start r = 3 * g)%nat;
    ra_mod : (fr_start r mod 3 = 0)%nat
  }.

  (** The field elements the reader can still deliver within its budget. *)
  Definition avail (r : fe_reader) (g : nat) : list Z :=
    (match fr_next r with Some v => [v] | None => [] end) ++
    flat_map (candidates B) (seq g (fr_budget r)).

  Lemma next_group (b0 b1 b2 : Z) : is_byte b0 -> is_byte b1 -> is_byte b2 ->
    ushl W16 (Z.land b1 15) 8 = Ok (256 * (b1 mod 16)) /\
    uadd W16 b0 (256 * (b1 mod 16)) = Ok (b0 + 256 * (b1 mod 16)) /\
    ushr W16 b1 4 = Ok (b1 / 16) /\
    ushl W16 b2 4 = Ok (16 * b2) /\
    uadd W16 (b1 / 16) (16 * b2) = Ok (b1 / 16 + 16 * b2).
  Proof.
    unfold is_byte. intros H0 H1 H2.
    pose proof (Z.mod_pos_bound b1 16 ltac:(lia)).
    assert (0 <= b1 / 16 < 16) by (split; [apply Z.div_pos; lia|apply Z.div_lt_upper_bound; lia]).
    change 15 with (Z.ones 4). rewrite Z.land_ones by lia. change (2 ^ 4) with 16.
    repeat split.
    - rewrite ushl_ok; [f_equal; change (2 ^ 8) with 256; ring|mlia|].
      change (2 ^ 8) with 256. mlia.
    - apply uadd_ok. mlia.
    - rewrite ushr_ok by mlia. reflexivity.
    - rewrite ushl_ok; [f_equal; change (2 ^ 4) with 16; ring|mlia|].
      change (2 ^ 4) with 16. mlia.
    - apply uadd_ok. mlia.
  Qed.

  Lemma next_loop_spec budget : forall xof data start g,
    xof_stream xof = B -> (96 <= xof_pos xof)%nat ->
    data = tab 96 (fun i => B (xof_pos xof - 96 + i)%nat) ->
    (start <= 96)%nat -> (start mod 3 = 0)%nat -> (xof_pos xof - 96 + start = 3 * g)%nat ->
    match flat_map (candidates B) (seq g budget) with
    | [] => next_loop budget xof data start = NoFuel
    | x :: L => exists r' g', next_loop budget xof data start = Ok (x, r') /\
                  reader_at r' g' /\ avail r' g' = L
    end.
  Proof.
    induction budget as [|budget IH]; intros xof data start g Hs Hp Hd Hst Hm Hg; [reflexivity|].
    cbn [seq flat_map next_loop].
    (* the state after the possible refill *)
    assert (Hlen : length data = 96%nat) by (rewrite Hd; apply tab_length).
    set (st := if Nat.eqb start (length data)
               then let '(d, x) := xof_read xof (length data) in (d, x, 0%nat)
               else (data, xof, start)).
    assert (Hst' : exists data' xof' start', st = (data', xof', start') /\
       xof_stream xof' = B /\ (96 <= xof_pos xof')%nat /\
       data' = tab 96 (fun i => B (xof_pos xof' - 96 + i)%nat) /\
       (start' + 3 <= 96)%nat /\ (start' mod 3 = 0)%nat /\ (xof_pos xof' - 96 + start' = 3 * g)%nat).
    { unfold st. rewrite Hlen. destruct (Nat.eqb_spec start 96) as [E|N].
      - unfold xof_read. do 3 eexists. split; [reflexivity|]. cbn [xof_stream xof_pos].
        rewrite Hs. repeat split; try lia.
        replace (xof_pos xof + 96 - 96)%nat with (xof_pos xof) by lia.
        apply map_seq_tab.
      - exists data, xof, start. repeat split; auto.
        pose proof (Nat.div_mod start 3 ltac:(lia)). lia. }
    destruct Hst' as (data' & xof' & start' & E & Hs' & Hp' & Hd' & Hst' & Hm' & Hg').
    rewrite E. clear st E Hs Hp Hd Hst Hm Hg Hlen xof data start.
    assert (Hlen : length data' = 96%nat) by (rewrite Hd'; apply tab_length).
    rewrite slice_ok by lia. cbn [bind].
    replace (start' + 3 - start')%nat with 3%nat by lia.
    assert (Eb : firstn 3 (skipn start' data') =
                 [B (3 * g)%nat; B (3 * g + 1)%nat; B (3 * g + 2)%nat]).
    { rewrite firstn_skipn_tab by lia. unfold tab. cbn [seq map].
      rewrite Hd'. rewrite !co_tab by lia.
      f_equal; [f_equal; lia|]. f_equal; [f_equal; lia|]. f_equal. f_equal. lia. }
    rewrite Eb. cbn [idx nth_error bind].
    destruct (next_group _ _ _ (B_bytes (3 * g)) (B_bytes (3 * g + 1)) (B_bytes (3 * g + 2)))
      as (E1 & E2 & E3 & E4 & E5).
    rewrite E1. cbn [bind]. rewrite E2. cbn [bind]. rewrite E3. cbn [bind].
    rewrite E4. cbn [bind]. rewrite E5. cbn [bind].
    unfold candidates at 1. change Q with q.
    set (d1 := B (3 * g)%nat + 256 * (B (3 * g + 1)%nat mod 16)).
    set (d2 := B (3 * g + 1)%nat / 16 + 16 * B (3 * g + 2)%nat).
    cbv zeta.
    assert (RA : forall nx, reader_at {| fr_xof := xof'; fr_data := data'; fr_start := start' + 3;
                   fr_next := nx; fr_budget := budget |} (S g)).
    { intros nx. constructor; cbn [fr_xof fr_data fr_start]; auto; try lia.
      replace (start' + 3)%nat with (start' + 1 * 3)%nat by lia.
      rewrite Nat.mod_add by lia. exact Hm'. }
    destruct (d1 <? q) eqn:D1; [|destruct (d2 <? q) eqn:D2].
    - destruct (d2 <? q) eqn:D2; cbn [app]; eexists; exists (S g);
        (split; [reflexivity|]); (split; [apply RA|]); reflexivity.
    - cbn [app]. eexists. exists (S g). split; [reflexivity|]. split; [apply RA|]. reflexivity.
    - cbn [app]. specialize (IH xof' data' (start' + 3)%nat (S g) Hs' Hp' Hd').
      apply IH; try lia.
      replace (start' + 3)%nat with (start' + 1 * 3)%nat by lia.
      rewrite Nat.mod_add by lia. exact Hm'.
  Qed.

  Lemma fe_reader_next_spec r g : reader_at r g ->
    match avail r g with
    | [] => fe_reader_next r = NoFuel
    | x :: L => exists r' g', fe_reader_next r = Ok (x, r') /\ reader_at r' g' /\ avail r' g' = L
    end.
  Proof.
    intros [H1 H2 H3 H4 H5 H6]. unfold avail, fe_reader_next.
    destruct (fr_next r) as [v|].
    - cbn [app]. eexists. exists g. split; [reflexivity|]. split; [constructor; cbn [fr_xof fr_data fr_start]; auto|]. reflexivity.
    - cbn [app]. apply next_loop_spec; auto.
  Qed.

  Lemma mapM_next (l : list nat) r g : reader_at r g ->
    match Nat.leb (length l) (length (avail r g)) with
    | true => exists r', mapM_st (fun r (_ : nat) => fe_reader_next r) l r =
                         Ok (firstn (length l) (avail r g), r')
    | false => mapM_st (fun r (_ : nat) => fe_reader_next r) l r = NoFuel
    end.
  Proof.
    revert r g. induction l as [|x l IH]; intros r g H.
    - exists r. reflexivity.
    - cbn [mapM_st length]. pose proof (fe_reader_next_spec r g H) as N.
      destruct (avail r g) as [|v L].
      + rewrite N. reflexivity.
      + destruct N as (r' & g' & E & H' & EL). rewrite E. cbn [bind length Nat.leb].
        specialize (IH r' g' H'). rewrite EL in IH.
        destruct (Nat.leb (length l) (length L)).
        * destruct IH as (r'' & IH). rewrite IH. cbn [bind]. exists r''. reflexivity.
        * rewrite IH. reflexivity.
  Qed.

  Theorem poly_sample_uniform_ok n :
    poly_sample_uniform n {| xof_stream := B; xof_pos := 0 |} = lift (SampleNTT n B).
  Proof.
    unfold poly_sample_uniform, SampleNTT.
    set (r := fe_reader_new n _).
    assert (H : reader_at r 0).
    { unfold r, fe_reader_new, xof_read. constructor; cbn [fr_xof fr_data fr_start xof_stream xof_pos]; try lia; try reflexivity. }
    pose proof (mapM_next (seq 0 256) r 0 H) as N. rewrite seq_length in N.
    assert (E : avail r 0 = flat_map (candidates B) (seq 0 n)) by reflexivity.
    rewrite E in N. destruct (Nat.leb 256 (length (flat_map (candidates B) (seq 0 n)))).
    - destruct N as (r' & N). rewrite N. reflexivity.
    - rewrite N. reflexivity.
  Qed.

  Lemma candidates_fe t x : In x (candidates B t) -> fe x.
  Proof.
    unfold candidates. intros H. pose proof (B_bytes (3 * t)) as H0.
    pose proof (B_bytes (3 * t + 1)) as H1. pose proof (B_bytes (3 * t + 2)) as H2.
    unfold is_byte in *.
    pose proof (Z.mod_pos_bound (B (3 * t + 1)%nat) 16 ltac:(lia)).
    assert (0 <= B (3 * t + 1)%nat / 16) by (apply Z.div_pos; lia).
    apply in_app_or in H. unfold fe.
    destruct H as [H|H].
    - destruct (_ <? q) eqn:E in H; [|destruct H]. destruct H as [<-|[]]. lia.
    - destruct (_ <? q) eqn:E in H; [|destruct H]. destruct H as [<-|[]]. lia.
  Qed.

  Lemma In_firstn A n (l : list A) x : In x (firstn n l) -> In x l.
  Proof. intros H. rewrite <- (firstn_skipn n l). apply in_or_app. left. exact H. Qed.

  Lemma SampleNTT_poly n p : SampleNTT n B = Some p -> poly p.
  Proof.
    unfold SampleNTT. destruct (Nat.leb_spec 256 (length (flat_map (candidates B) (seq 0 n)))) as [L|L];
      [|discriminate]. intros E. apply Some_inj in E. subst p. split; [rewrite firstn_length; lia|].
    apply Forall_forall. intros x Hx. apply In_firstn in Hx.
    apply in_flat_map in Hx. destruct Hx as (t & _ & Hx). eapply candidates_fe, Hx.
  Qed.

  (** a larger budget never changes the result *)
  Lemma SampleNTT_mono n m p : SampleNTT n B = Some p -> (n <= m)%nat -> SampleNTT m B = Some p.
  Proof.
    unfold SampleNTT. intros H Hm. replace m with (n + (m - n))%nat by lia.
    rewrite seq_app, flat_map_app, app_length.
    destruct (Nat.leb_spec 256 (length (flat_map (candidates B) (seq 0 n)))) as [L|L]; [|discriminate].
    destruct (Nat.leb_spec 256 (length (flat_map (candidates B) (seq 0 n)) +
       length (flat_map (candidates B) (seq (0 + n) (m - n))))) as [L'|L']; [|lia].
    rewrite firstn_app. replace (256 - length (flat_map (candidates B) (seq 0 n)))%nat with 0%nat by lia.
    rewrite firstn_O, app_nil_r. exact H.
  Qed.
End Uniform.

(** ** SamplePolyCBD *)

Definition ones_list (eta : nat) : list Z :=
  match ONES eta with Ok l => l | _ => [] end.

Lemma ONES_ok eta : (eta = 2 \/ eta = 3)%nat ->
  ONES eta = Ok (ones_list eta) /\ length (ones_list eta) = Nat.pow 2 (2 * eta).
Proof. intros [-> | ->]; vm_compute; split; reflexivity. Qed.

Lemma ones_entry eta x : (eta = 2 \/ eta = 3)%nat -> 0 <= x < 2 ^ Z.of_nat (2 * eta) ->
  co (ones_list eta) (Z.to_nat x) =
  (sum eta (fun j => b2z (Z.testbit x (Z.of_nat j))) -
   sum eta (fun j => b2z (Z.testbit x (Z.of_nat (eta + j))))) mod q.
Proof.
  intros He Hx. apply Z.eqb_eq.
  apply (sweep (fun eta x => co (ones_list eta) (Z.to_nat x) =?
    (sum eta (fun j => b2z (Z.testbit x (Z.of_nat j))) -
     sum eta (fun j => b2z (Z.testbit x (Z.of_nat (eta + j))))) mod q)
    (fun eta => 2 ^ Z.of_nat (2 * eta)) 2 2); [vm_compute; reflexivity|lia|exact Hx].
Qed.

Theorem poly_sample_cbd_ok eta B : (eta = 2 \/ eta = 3)%nat -> byte_string (64 * eta) B ->
  poly_sample_cbd eta B = Ok (SamplePolyCBD eta B).
Proof.
  intros He HB. unfold poly_sample_cbd, poly_decode.
  rewrite byte_decode_ok; [|lia|replace (32 * (2 * eta))%nat with (64 * eta)%nat by lia; exact HB].
  cbn [bind]. destruct (ONES_ok eta He) as [E L]. rewrite E. cbn [bind].
  rewrite ByteDecode_field.
  rewrite mapM_tab with (g := fun i =>
    (sum eta (fun j => b2z (bit_of_bytes B (2 * i * eta + j))) -
     sum eta (fun j => b2z (bit_of_bytes B (2 * i * eta + eta + j)))) mod q).
  - cbn [bind]. rewrite collect_ok by apply tab_length. reflexivity.
  - intros i Hi.
    assert (M : dec_mod (2 * eta) = 2 ^ Z.of_nat (2 * eta)) by (destruct He as [-> | ->]; reflexivity).
    rewrite M, Z.mod_small by apply field_range.
    pose proof (field_range (2 * eta) B i) as R.
    rewrite idx_ok.
    + f_equal. rewrite ones_entry by assumption. f_equal. f_equal; apply sum_ext; intros j Hj;
        f_equal; rewrite field_bitsum; rewrite bitsum_testbit.
      * destruct (Nat.ltb_spec j (2 * eta)); [|lia]. cbn [andb]. f_equal. nia.
      * destruct (Nat.ltb_spec (eta + j) (2 * eta)); [|lia]. cbn [andb]. f_equal. nia.
    + rewrite L. apply Nat2Z.inj_lt. rewrite Z2Nat.id by apply R.
      rewrite Nat2Z.inj_pow. exact (proj2 R).
Qed.

Lemma SamplePolyCBD_poly eta B : poly (SamplePolyCBD eta B).
Proof. apply poly_tab_mod. Qed.

(** every coefficient is the residue of an integer in [-eta, eta] *)
Lemma sum_bits_bound eta f : 0 <= sum eta (fun j => b2z (f j)) <= Z.of_nat eta.
Proof.
  induction eta as [|n IH]; [simpl; lia|]. cbn [sum]. rewrite Nat2Z.inj_succ.
  pose proof (b2z_range (f n)). lia.
Qed.

Lemma SamplePolyCBD_small eta B i : (i < 256)%nat ->
  exists e, -Z.of_nat eta <= e <= Z.of_nat eta /\ co (SamplePolyCBD eta B) i = e mod q.
Proof.
  intros Hi. unfold SamplePolyCBD. rewrite co_tab by exact Hi. eexists. split; [|reflexivity].
  pose proof (sum_bits_bound eta (fun j => bit_of_bytes B (2 * i * eta + j))).
  pose proof (sum_bits_bound eta (fun j => bit_of_bytes B (2 * i * eta + eta + j))). lia.
Qed.

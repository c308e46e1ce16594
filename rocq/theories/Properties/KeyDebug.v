(** C88: the numbers in the [Debug] output of a decapsulation key are its contents. *)
From Coq Require Import Ascii String.
From Coq Require Import List ZArith Lia Bool Arith.
From Verif.Base Require Import Res Oracles.
From Verif.Model Require Import Machine Util Algebra Compress Encode Crypto Sample Param Pke Kem KeyDebug.
From Verif.Spec Require Import FIPS203 Domains Numbers.
From Verif.Proofs Require Import Basics Field Poly EncodeProofs VecEncode SampleProofs PkeProofs KemProofs.
From Verif.Tests Require Import Toy.
From Verif.Properties Require Import Kem KemCases KeyEq.
Import ListNotations.
Open Scope Z_scope.

(** [t] contains the numbers [l], also when something that is no digit follows *)
Definition says (t : text) (l : list Z) : Prop :=
  forall c r, digit_value c = None -> numbers_from (t ++ c :: r) None = l ++ numbers_from (c :: r) None.

Lemma quiet_skip q t : quiet q -> numbers_from (q ++ t) None = numbers_from t None.
Proof. induction 1 as [|c q Hc Hq IH]; [reflexivity|]. cbn [app numbers_from]. rewrite Hc. exact IH. Qed.
Lemma says_after q t l : quiet q -> says t l -> says (q ++ t) l.
Proof. intros Hq Ht c r Hc. rewrite <- app_assoc, quiet_skip by exact Hq. apply Ht, Hc. Qed.
Lemma says_then t l c q u m : says t l -> quiet (c :: q) -> says u m -> says (t ++ (c :: q) ++ u) (l ++ m).
Proof.
  intros Ht Hq Hu d r Hd. rewrite <- !app_assoc. cbn [app]. rewrite Ht by (inversion Hq; assumption).
  change (c :: q ++ u ++ d :: r) with ((c :: q) ++ (u ++ d :: r)). rewrite quiet_skip by exact Hq. rewrite Hu by exact Hd. reflexivity.
Qed.
Lemma says_nil : says [] [].
Proof. intros c r _. reflexivity. Qed.
Lemma says_close t l c q : says t l -> quiet (c :: q) -> says (t ++ c :: q) l.
Proof. intros Ht Hq. pose proof (says_then t l c q [] [] Ht Hq says_nil) as W. rewrite !app_nil_r in W. exact W. Qed.

(** decimals *)
Lemma digit_value_digit d : 0 <= d < 10 -> digit_value (digit d) = Some d.
Proof.
  intros H. assert (E : exists n, (n < 10)%nat /\ d = Z.of_nat n) by (exists (Z.to_nat d); lia). destruct E as (n & Hn & ->).
  do 10 (destruct n as [|n]; [reflexivity|]). lia.
Qed.
Lemma read_digits ds a t : Forall (fun d => 0 <= d < 10) ds ->
  numbers_from (map digit ds ++ t) (Some a) = numbers_from t (Some (fold_left (fun a d => 10 * a + d) ds a)).
Proof.
  intros F. revert a. induction F as [|d ds Hd F IH]; intros a; [reflexivity|]. cbn [map app numbers_from fold_left].
  rewrite digit_value_digit by exact Hd. apply IH.
Qed.
Lemma decimal_digits f : forall x acc, 0 <= x < 10 ^ Z.of_nat (S f) -> exists d ds,
  decimal_onto (S f) x acc = map digit (d :: ds) ++ acc /\ Forall (fun d => 0 <= d < 10) (d :: ds) /\
  fold_left (fun a d => 10 * a + d) ds d = x.
Proof.
  induction f as [|f IH]; intros x acc H.
  - change (10 ^ Z.of_nat 1) with 10 in H. cbn [decimal_onto]. rewrite (Z.mod_small x 10) by lia. exists x, [].
    destruct (x <? 10); (split; [reflexivity|split; [constructor; [exact H|constructor]|reflexivity]]).
  - set (g := S f) in *. cbn [decimal_onto]. destruct (Z.ltb_spec x 10) as [L|L].
    + rewrite (Z.mod_small x 10) by lia. exists x, []. split; [reflexivity|]. split; [constructor; [lia|constructor]|reflexivity].
    + destruct (IH (x / 10) (digit (x mod 10) :: acc)) as (d & ds & E & F & V).
      { rewrite Nat2Z.inj_succ, Z.pow_succ_r in H by lia. split; [apply Z.div_pos; lia|]. apply Z.div_lt_upper_bound; lia. }
      exists d, (ds ++ [x mod 10]). split; [rewrite E; cbn [map]; rewrite map_app; cbn [map app]; rewrite <- app_assoc; reflexivity|].
      split; [|rewrite fold_left_app, V; cbn [fold_left]; pose proof (Z.div_mod x 10); lia].
      inversion F. constructor; [assumption|]. apply Forall_app. split; [assumption|]. constructor; [apply Z.mod_pos_bound; lia|constructor].
Qed.
Lemma says_decimal f x : 0 <= x < 10 ^ Z.of_nat (S f) -> says (decimal_onto (S f) x []) [x].
Proof.
  intros H c r Hc. destruct (decimal_digits f x [] H) as (d & ds & -> & F & V). rewrite app_nil_r. inversion F as [|? ? Hd Fd]. subst.
  cbn [map app numbers_from]. rewrite digit_value_digit by exact Hd. rewrite read_digits by exact Fd. cbn [numbers_from]. rewrite Hc. reflexivity.
Qed.

Ltac quietly := repeat (constructor; [reflexivity|]); constructor.

Lemma says_join l ns : Forall2 says l ns -> says (dbg_join l) (concat ns).
Proof.
  induction 1 as [|t n l ns Ht F IH]; [exact says_nil|]. cbn [dbg_join concat]. destruct F as [|t' n' l ns Ht' F].
  - cbn [concat]. rewrite !app_nil_r. exact Ht.
  - change (txt ", ") with ("," :: [" "])%char. apply says_then; [exact Ht|quietly|exact IH].
Qed.
Lemma says_slice A (dbg : A -> text) (num : A -> list Z) l : Forall (fun x => says (dbg x) (num x)) l ->
  says (dbg_slice dbg l) (concat (map num l)).
Proof.
  intros F. unfold dbg_slice. apply says_after; [quietly|]. change (txt "]") with ["]"%char]. apply says_close; [|quietly].
  apply says_join. induction F; [constructor|]. cbn [map]. constructor; assumption.
Qed.
Lemma says_tuple name t l : quiet (txt name) -> says t l -> says (dbg_tuple name t) l.
Proof.
  intros Hn Ht. unfold dbg_tuple. apply says_after; [exact Hn|]. apply says_after; [quietly|]. change (txt ")") with [")"%char].
  apply says_close; [exact Ht|quietly].
Qed.
Lemma says_struct name fields ns : quiet (txt name) -> Forall2 (fun ft n => quiet (txt (fst ft)) /\ says (snd ft) n) fields ns ->
  says (dbg_struct name fields) (concat ns).
Proof.
  intros Hn F. unfold dbg_struct. apply says_after; [exact Hn|]. apply says_after; [quietly|]. change (txt " }") with [" "; "}"]%char.
  apply says_close; [|quietly]. apply says_join. induction F as [|[f t] n fields ns [Hf Ht] F IH]; [constructor|]. cbn [map].
  constructor; [|exact IH]. apply says_after; [exact Hf|]. apply says_after; [quietly|exact Ht].
Qed.

Section Debug.
  Variable before after : text.
  Hypothesis Hb : quiet before.
  Hypothesis Ha : quiet after.

  Lemma says_array A (dbg : A -> text) (num : A -> list Z) l : Forall (fun x => says (dbg x) (num x)) l ->
    says (dbg_array before after dbg l) (concat (map num l)).
  Proof.
    intros F. unfold dbg_array. apply says_after; [exact Hb|]. pose proof (says_slice _ _ _ l F) as W.
    destruct after as [|c q]; [rewrite app_nil_r; exact W|]. apply says_close; [exact W|exact Ha].
  Qed.
  Lemma concat_single (l : list Z) : concat (map (fun x => [x]) l) = l.
  Proof. induction l as [|x l IH]; [reflexivity|]. cbn [map concat app]. rewrite IH. reflexivity. Qed.
  Lemma says_bytes n b : byte_string n b -> says (dbg_array before after dbg_u8 b) b.
  Proof.
    intros [_ F]. rewrite <- (concat_single b) at 2. apply says_array. eapply Forall_impl; [|exact F]. intros x Hx. apply (says_decimal 2).
    unfold is_byte in Hx. change (10 ^ Z.of_nat 3) with 1000. lia.
  Qed.
  Lemma says_poly p : poly p -> says (dbg_nttpoly before after p) p.
  Proof.
    intros [_ F]. unfold dbg_nttpoly. apply says_tuple; [quietly|]. rewrite <- (concat_single p) at 2. apply says_array.
    eapply Forall_impl; [|exact F]. intros x Hx. apply says_tuple; [quietly|]. apply (says_decimal 4). unfold fe, q in Hx.
    change (10 ^ Z.of_nat 5) with 100000. lia.
  Qed.
  Lemma says_vec k v : vec k v -> says (dbg_nttvec before after v) (concat v).
  Proof.
    intros [_ F]. unfold dbg_nttvec. apply says_tuple; [quietly|]. rewrite <- (map_id v) at 2. apply says_array.
    eapply Forall_impl; [|exact F]. intros p Hp. apply says_poly, Hp.
  Qed.

  Variable hs : hashes.
  Hypothesis Hhs : hash_ok hs.
  Variable P : params.
  Hypothesis HP : wf_params P.

  Theorem C88_contents dk : reachable_dk hs P dk ->
    numbers (dbg_decaps_key before after dk) =
    concat (Pke.s_hat (dk_pke dk)) ++ concat (Pke.t_hat (ek_pke (dk_ek dk))) ++ Pke.rho (ek_pke (dk_ek dk)) ++ ek_h (dk_ek dk) ++ dk_z dk.
  Proof.
    intros Hdk. destruct (reachable_dk_valid hs Hhs P HP dk Hdk) as (Vs & ((Vt & Hr) & Hh) & Hz).
    assert (S1 : says (dbg_decryption_key before after (dk_pke dk)) (concat [concat (Pke.s_hat (dk_pke dk))])).
    { apply says_struct; [quietly|]. constructor; [split; [quietly|apply (says_vec _ _ Vs)]|constructor]. }
    assert (S2 : says (dbg_encryption_key before after (ek_pke (dk_ek dk))) (concat [concat (Pke.t_hat (ek_pke (dk_ek dk))); Pke.rho (ek_pke (dk_ek dk))])).
    { apply says_struct; [quietly|]. constructor; [split; [quietly|apply (says_vec _ _ Vt)]|].
      constructor; [split; [quietly|apply (says_bytes _ _ Hr)]|constructor]. }
    assert (S3 : says (dbg_encaps_key before after (dk_ek dk))
      (concat [concat [concat (Pke.t_hat (ek_pke (dk_ek dk))); Pke.rho (ek_pke (dk_ek dk))]; ek_h (dk_ek dk)])).
    { apply says_struct; [quietly|]. constructor; [split; [quietly|exact S2]|]. constructor; [split; [quietly|apply (says_bytes _ _ Hh)]|constructor]. }
    assert (S4 : says (dbg_decaps_key before after dk) (concat [concat [concat (Pke.s_hat (dk_pke dk))];
      concat [concat [concat (Pke.t_hat (ek_pke (dk_ek dk))); Pke.rho (ek_pke (dk_ek dk))]; ek_h (dk_ek dk)]; dk_z dk])).
    { apply says_struct; [quietly|]. constructor; [split; [quietly|exact S1]|]. constructor; [split; [quietly|exact S3]|].
      constructor; [split; [quietly|apply (says_bytes _ _ Hz)]|constructor]. }
    unfold numbers. specialize (S4 " "%char [] eq_refl).
    assert (ST : forall t cur, numbers_from (t ++ [" "%char]) cur = numbers_from t cur).
    { induction t as [|c t IH]; intros cur; [cbn; destruct cur; reflexivity|]. cbn [app numbers_from]. destruct (digit_value c); [apply IH|]. rewrite IH. reflexivity. }
    rewrite ST in S4. rewrite S4. change (numbers_from [" "%char] None) with (@nil Z). cbn [concat]. rewrite !app_nil_r, <- !app_assoc. reflexivity.
  Qed.

  (** The output determines the key. *)
  Theorem C88_determines a b : reachable_dk hs P a -> reachable_dk hs P b ->
    dbg_decaps_key before after a = dbg_decaps_key before after b -> a = b.
  Proof.
    intros Ra Rb E. apply (f_equal numbers) in E. rewrite (C88_contents a Ra), (C88_contents b Rb) in E.
    destruct (reachable_dk_valid hs Hhs P HP a Ra) as (Vs & ((Vt & Hr) & Hh) & Hz).
    destruct (reachable_dk_valid hs Hhs P HP b Rb) as (Vs' & ((Vt' & Hr') & Hh') & Hz').
    assert (AI : forall (x y u v : list Z), List.length x = List.length u -> x ++ y = u ++ v -> x = u /\ y = v).
    { clear. induction x as [|c x IH]; intros y [|d u] v L Q; try discriminate L; [split; [reflexivity|exact Q]|].
      cbn [app] in Q. injection Q as -> Q. injection L as L. destruct (IH _ _ _ L Q) as [-> ->]. split; reflexivity. }
    assert (VC : forall v w, vec (pk P) v -> vec (pk P) w -> concat v = concat w -> v = w).
    { intros v w Hv Hw Q. pose proof (vec_shapes _ _ _ Hv Hw) as F. clear - F Q AI. induction F as [|x y v w L F IH]; [reflexivity|].
      cbn [concat] in Q. destruct (AI _ _ _ _ L Q) as [-> Q']. rewrite (IH Q'). reflexivity. }
    destruct (AI _ _ _ _ (eq_trans (proj1 (vec_concat _ _ Vs)) (eq_sym (proj1 (vec_concat _ _ Vs')))) E) as [E1 E']. clear E.
    destruct (AI _ _ _ _ (eq_trans (proj1 (vec_concat _ _ Vt)) (eq_sym (proj1 (vec_concat _ _ Vt')))) E') as [E2 E]. clear E'.
    destruct (AI _ _ _ _ (eq_trans (proj1 Hr) (eq_sym (proj1 Hr'))) E) as [E3 E']. clear E.
    destruct (AI _ _ _ _ (eq_trans (proj1 Hh) (eq_sym (proj1 Hh'))) E') as [E4 E5]. clear E'.
    apply (VC _ _ Vs Vs') in E1. apply (VC _ _ Vt Vt') in E2.
    clear - E1 E2 E3 E4 E5. destruct a as [[s] [[t r] h] z], b as [[s'] [[t' r'] h'] z'].
    cbn [dk_pke dk_ek dk_z Pke.s_hat ek_pke ek_h Pke.t_hat Pke.rho] in *. subst. reflexivity.
  Qed.
End Debug.

(** ** cases *)

Example C88_text : dbg_array (txt "Array(") (txt ")") dbg_field_element [5; 3328; 0] =
  txt "Array([FieldElement(5), FieldElement(3328), FieldElement(0)])" /\
  numbers (txt "Array([FieldElement(5), FieldElement(3328), FieldElement(0)])") = [5; 3328; 0].
Proof. split; reflexivity. Qed.

(** a generated key and a parsed one *)
Example C88_case : exists a b, quiet (txt "Array(") /\ quiet (txt ")") /\ hash_ok toy /\ wf_params ML_KEM_512 /\
  reachable_dk toy ML_KEM_512 a /\ dk_z a = seed 2 /\ reachable_dk toy ML_KEM_512 b /\
  firstn 2 (numbers (dbg_decaps_key (txt "Array(") (txt ")") b)) = [7; 5] /\
  skipn (256 * 4 + 64) (numbers (dbg_decaps_key (txt "Array(") (txt ")") a)) = seed 2.
Proof.
  assert (Q1 : quiet (txt "Array(")) by quietly. assert (Q2 : quiet (txt ")")) by quietly.
  destruct kem_case as (dk & ek & c & K & K2 & H1 & HP & E1 & _).
  assert (R : reachable_dk toy ML_KEM_512 dk) by exact (dk_generated_deterministic toy ML_KEM_512 300 _ _ dk ek (seed_ok 1) (seed_ok 2) E1).
  assert (Ez : dk_z dk = seed 2).
  { revert E1. unfold kem_generate_deterministic, decaps_key_generate_deterministic.
    destruct (pke_generate toy ML_KEM_512 300 (seed 1)) as [[a b]| | |]; cbn [bind]; try discriminate.
    destruct (encaps_key_new toy ML_KEM_512 b) as [e| | |]; cbn [bind]; try discriminate. intros E. apply Ok_inj in E.
    apply (f_equal (fun p => dk_z (fst p))) in E. symmetry. exact E. }
  destruct (parsed_key toy ML_KEM_512 HP (7 :: 5 :: repeat 0 510)) as (b & Rb & Eb).
  { cbn [length]. rewrite repeat_length. reflexivity. }
  { constructor; [split; [discriminate|reflexivity]|]. constructor; [split; [discriminate|reflexivity]|]. apply Forall_forall. intros z Hz.
    apply repeat_spec in Hz. subst z. split; [apply Z.le_refl|reflexivity]. }
  exists dk, b. split; [exact Q1|]. split; [exact Q2|]. split; [exact H1|]. split; [exact HP|]. split; [exact R|]. split; [exact Ez|]. split; [exact Rb|].
  split; [rewrite (C88_contents _ _ Q1 Q2 toy H1 ML_KEM_512 HP b Rb), Eb; reflexivity|].
  rewrite (C88_contents _ _ Q1 Q2 toy H1 ML_KEM_512 HP dk R), Ez. clear Ez E1.
  destruct (reachable_dk_valid toy H1 ML_KEM_512 HP dk R) as (Vs & ((Vt & Hr) & Hh) & Hz).
  rewrite !app_assoc. apply skipn_app_exact. rewrite !app_length, (proj1 (vec_concat _ _ Vs)), (proj1 (vec_concat _ _ Vt)), (proj1 Hr), (proj1 Hh). reflexivity.
Qed.

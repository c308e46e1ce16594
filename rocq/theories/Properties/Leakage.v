(** C44: the comparison and selection at the end of [decapsulate] show an observer of
    control flow and memory accesses nothing but lengths. *)
From Coq Require Import List ZArith Lia Bool String Arith.
From Verif.Base Require Import Res Oracles.
From Verif.Spec Require Import FIPS203 Domains Leakage.
From Verif.Model Require Import Machine Param Pke Kem Crypto Leaky.
From Verif.Proofs Require Import Basics PkeProofs KemProofs LeakProofs.
From Verif.Tests Require Import Toy.
From Verif.Properties Require Import Kem KemCases.
Import ListNotations.
Open Scope string_scope.
Open Scope list_scope.
Open Scope Z_scope.

Local Notation length := List.length.

(** Any two runs, complete or cut off after any number of steps, show the same events. *)
Theorem C44_oblivious fuel cp ct Kp Kbar out cp' ct' Kp' Kbar' out' :
  length cp = length cp' -> length ct = length ct' -> length Kp = length Kp' ->
  length Kbar = length Kbar' -> length out = length out' ->
  fst (exec fuel p_tail (tail_state cp ct Kp Kbar out)) =
  fst (exec fuel p_tail (tail_state cp' ct' Kp' Kbar' out')).
Proof.
  intros H1 H2 H3 H4 H5.
  apply (typed_sound (fun x => String.eqb x "i") fuel p_tail); [reflexivity|].
  split; [reflexivity|]. intros a. cbn [arrs tail_state].
  repeat (destruct (String.eqb a _); [assumption|]). reflexivity.
Qed.

(** What is observed, written out: the number of loop iterations is a length. *)
Fixpoint loop_trace (body : Z -> list event) (i : Z) (n : nat) : list event :=
  match n with
  | O => [Branch false]
  | S n => [Branch true] ++ body i ++ loop_trace body (i + 1) n
  end.
Definition tail_trace (n m : nat) : list event :=
  loop_trace (fun i => [Read "cp" i; Read "ct" i]) 0 n ++
  loop_trace (fun i => [Read "Kp" i; Read "Kbar" i; Write "out" i]) 0 m.

Lemma nth_skipn_cons {A} (l : list A) i x : nth_error l i = Some x -> skipn i l = x :: skipn (S i) l.
Proof.
  revert i. induction l as [|y l IH]; intros [|i] E; try discriminate.
  - injection E as ->. reflexivity.
  - cbn [nth_error] in E. cbn [skipn]. rewrite (IH i E). reflexivity.
Qed.
Lemma nth_error_nth_eq {A} (l : list A) i x d : nth_error l i = Some x -> nth i l d = x.
Proof.
  revert i. induction l as [|y l IH]; intros [|i] E; try discriminate.
  - injection E as ->. reflexivity.
  - apply IH, E.
Qed.

Lemma eval_load s a x i v : vars s x = Z.of_nat i -> nth_error (arrs s a) i = Some v ->
  eval s (Load a (Var x)) = ([Read a (Z.of_nat i)], Ok v).
Proof.
  intros Ei Ev. assert (L : (i < length (arrs s a))%nat) by (apply nth_error_Some; congruence).
  cbn [eval]. unfold lbind, load, lret, lbind, emit. cbn [fst snd List.app]. rewrite Ei.
  assert ((0 <=? Z.of_nat i) && (Z.of_nat i <? Z.of_nat (length (arrs s a))) = true) as ->
    by (apply andb_true_intro; split; [apply Z.leb_le|apply Z.ltb_lt]; lia).
  rewrite Nat2Z.id, (nth_error_nth_eq _ _ _ 0 Ev). reflexivity.
Qed.

Lemma eval_zip_next s a b i : vars s "i" = Z.of_nat i ->
  exists v, eval s (p_zip_next a b) = ([], Ok v) /\
  (v = 0 <-> (min (length (arrs s a)) (length (arrs s b)) <= i)%nat).
Proof.
  intros Ei. unfold p_zip_next. cbn [eval]. rewrite Ei. cbn. eexists. split; [reflexivity|].
  destruct (Z.ltb_spec (Z.of_nat i) (Z.of_nat (length (arrs s a)))), (Z.ltb_spec (Z.of_nat i) (Z.of_nat (length (arrs s b))));
    cbn; split; intros; try lia; try discriminate.
Qed.

Definition zip_eq (l : list (Z * Z)) : list Z := map (fun '(x, y) => constant_time_eq x y) l.

Lemma compare_loop body p : p = ("x" <-- Load "cp" (Var "i") ;;
     "y" <-- Load "ct" (Var "i") ;;
     "i" <-- Bin Add (Var "i") (Const 1) ;;
     p_constant_time_eq ;;
     "equal" <-- Bin And (Var "equal") (Var "e"))%leak ->
  body = (fun i => [Read "cp" i; Read "ct" i]) ->
  forall n i s, vars s "i" = Z.of_nat i ->
  (i + n = min (length (arrs s "cp")) (length (arrs s "ct")))%nat ->
  exists s', runs (While (p_zip_next "cp" "ct") p) s (loop_trace body (Z.of_nat i) n) s' /\
    (forall a, arrs s' a = arrs s a) /\
    vars s' "equal" = fold_left Z.land (zip_eq (combine (skipn i (arrs s "cp")) (skipn i (arrs s "ct")))) (vars s "equal").
Proof.
  intros -> ->. induction n as [|n IH]; intros i s Ei Hn;
    destruct (eval_zip_next s "cp" "ct" i Ei) as (v & Ev & Hv).
  - exists s. assert (v = 0) as -> by (apply Hv; lia). split; [apply (runs_while_stop _ _ _ [] Ev)|].
    split; [reflexivity|].
    assert (combine (skipn i (arrs s "cp")) (skipn i (arrs s "ct")) = []) as ->; [|reflexivity].
    apply length_zero_iff_nil. rewrite combine_length, !skipn_length. lia.
  - destruct (nth_error (arrs s "cp") i) as [x|] eqn:Ex; [|apply nth_error_None in Ex; lia].
    destruct (nth_error (arrs s "ct") i) as [y|] eqn:Ey; [|apply nth_error_None in Ey; lia].
    set (s1 := set_var s "x" x). set (s2 := set_var s1 "y" y). set (s3 := set_var s2 "i" (Z.of_nat (S i))).
    set (diff := Z.lxor x y). set (s4 := set_var s3 "diff" diff).
    set (is_zero := Z.land (255 - diff) ((diff - 1) mod 256)). set (s5 := set_var s4 "is_zero" is_zero).
    set (s6 := set_var s5 "e" (constant_time_eq x y)).
    set (s7 := set_var s6 "equal" (Z.land (vars s "equal") (constant_time_eq x y))).
    destruct (IH (S i) s7 eq_refl) as (s' & R & Ha & He); [cbn [arrs s7 s6 s5 s4 s3 s2 s1 set_var]; lia|].
    exists s'. split; [|split].
    + cbn [loop_trace]. apply (runs_while_step _ _ _ [] v [Read "cp" (Z.of_nat i); Read "ct" (Z.of_nat i)] s7); [exact Ev|intros ->; specialize (proj1 Hv eq_refl); lia| |].
      * apply (runs_seq _ _ _ [Read "cp" (Z.of_nat i)] s1 [Read "ct" (Z.of_nat i)]).
        { apply runs_assign. apply eval_load; assumption. }
        apply (runs_seq _ _ _ [Read "ct" (Z.of_nat i)] s2 []).
        { apply runs_assign. apply eval_load; assumption. }
        apply (runs_seq _ _ _ [] s3 []).
        { apply runs_assign. cbn [eval]. change (vars s2 "i") with (vars s "i"). rewrite Ei. cbn [lbind lret fst snd app binop_eval].
          rewrite Nat2Z.inj_succ. reflexivity. }
        apply (runs_seq _ _ _ [] s6 []).
        { apply (runs_seq _ _ _ [] s4 []); [apply runs_assign; reflexivity|].
          apply (runs_seq _ _ _ [] s5 []); [apply runs_assign; reflexivity|].
          apply runs_assign. reflexivity. }
        apply runs_assign. reflexivity.
      * replace (Z.of_nat i + 1) with (Z.of_nat (S i)) by lia. exact R.
    + intros a. rewrite Ha. reflexivity.
    + rewrite He. rewrite (nth_skipn_cons _ _ _ Ex), (nth_skipn_cons _ _ _ Ey). reflexivity.
Qed.

Definition sel (e : Z) (l : list (Z * Z)) : list Z :=
  map (fun '(x, y) => Z.lor (Z.land e x) (Z.land (255 - e) y)) l.

Lemma set_nth_app {A} (l r : list A) x v : set_nth (l ++ x :: r) (length l) v = l ++ v :: r.
Proof. induction l as [|y l IH]; cbn [List.app List.length set_nth]; [reflexivity|now rewrite IH]. Qed.

Lemma select_loop body p : p = ("x" <-- Load "Kp" (Var "i") ;;
     "y" <-- Load "Kbar" (Var "i") ;;
     Store "out" (Var "i")
       (Bin Or (Bin And (Var "equal") (Var "x")) (Bin And (Not8 (Var "equal")) (Var "y"))) ;;
     "i" <-- Bin Add (Var "i") (Const 1))%leak ->
  body = (fun i => [Read "Kp" i; Read "Kbar" i; Write "out" i]) ->
  forall n s done rest, vars s "i" = Z.of_nat (length done) -> arrs s "out" = done ++ rest ->
  (length done + n = min (length (arrs s "Kp")) (length (arrs s "Kbar")))%nat -> (n <= length rest)%nat ->
  exists s', runs (While (p_zip_next "Kp" "Kbar") p) s (loop_trace body (Z.of_nat (length done)) n) s' /\
    arrs s' "out" =
      done ++ sel (vars s "equal") (combine (skipn (length done) (arrs s "Kp")) (skipn (length done) (arrs s "Kbar")))
           ++ skipn n rest.
Proof.
  intros -> ->. induction n as [|n IH]; intros s done rest Ei Eo Hn Hr;
    destruct (eval_zip_next s "Kp" "Kbar" (length done) Ei) as (v & Ev & Hv).
  - exists s. assert (v = 0) as -> by (apply Hv; lia). split; [apply (runs_while_stop _ _ _ [] Ev)|].
    rewrite Eo. f_equal.
    assert (combine (skipn (length done) (arrs s "Kp")) (skipn (length done) (arrs s "Kbar")) = []) as ->; [|reflexivity].
    apply length_zero_iff_nil. rewrite combine_length, !skipn_length. lia.
  - destruct rest as [|o rest]; [cbn [List.length] in Hr; lia|].
    destruct (nth_error (arrs s "Kp") (length done)) as [x|] eqn:Ex; [|apply nth_error_None in Ex; lia].
    destruct (nth_error (arrs s "Kbar") (length done)) as [y|] eqn:Ey; [|apply nth_error_None in Ey; lia].
    set (w := Z.lor (Z.land (vars s "equal") x) (Z.land (255 - vars s "equal") y)).
    set (s1 := set_var s "x" x). set (s2 := set_var s1 "y" y).
    set (s3 := set_arr s2 "out" (set_nth (arrs s2 "out") (Z.to_nat (Z.of_nat (length done))) w)).
    set (s4 := set_var s3 "i" (Z.of_nat (S (length done)))).
    assert (Eo4 : arrs s4 "out" = (done ++ [w]) ++ rest).
    { change (arrs s4 "out") with (set_nth (arrs s "out") (Z.to_nat (Z.of_nat (length done))) w).
      rewrite Nat2Z.id, Eo, set_nth_app, <- app_assoc. reflexivity. }
    assert (Ld : length (done ++ [w]) = S (length done)) by (rewrite app_length; cbn [List.length]; lia).
    destruct (IH s4 (done ++ [w]) rest) as (s' & R & Ho); try assumption.
    { rewrite Ld. reflexivity. }
    { change (arrs s4 "Kp") with (arrs s "Kp"). change (arrs s4 "Kbar") with (arrs s "Kbar"). lia. }
    { cbn [List.length] in Hr. lia. }
    exists s'. split.
    + cbn [loop_trace].
      apply (runs_while_step _ _ _ [] v
              [Read "Kp" (Z.of_nat (length done)); Read "Kbar" (Z.of_nat (length done)); Write "out" (Z.of_nat (length done))] s4);
        [exact Ev|intros ->; specialize (proj1 Hv eq_refl); lia| |].
      * apply (runs_seq _ _ _ [Read "Kp" (Z.of_nat (length done))] s1 [Read "Kbar" (Z.of_nat (length done)); Write "out" (Z.of_nat (length done))]).
        { apply runs_assign. apply eval_load; assumption. }
        apply (runs_seq _ _ _ [Read "Kbar" (Z.of_nat (length done))] s2 [Write "out" (Z.of_nat (length done))]).
        { apply runs_assign. apply eval_load; assumption. }
        apply (runs_seq _ _ _ [Write "out" (Z.of_nat (length done))] s3 []).
        { apply (runs_store "out" _ _ s2 [] [] (Z.of_nat (length done)) w).
          - cbn [eval lret]. change (vars s2 "i") with (vars s "i"). rewrite Ei. reflexivity.
          - reflexivity.
          - change (arrs s2 "out") with (arrs s "out"). rewrite Eo, app_length. cbn [List.length]. lia. }
        apply runs_assign. cbn [eval]. change (vars s3 "i") with (vars s "i"). rewrite Ei.
        cbn [lbind lret fst snd List.app binop_eval]. rewrite Nat2Z.inj_succ. reflexivity.
      * rewrite Ld in R. replace (Z.of_nat (length done) + 1) with (Z.of_nat (S (length done))) by lia. exact R.
    + rewrite Ho, Ld, <- app_assoc. f_equal. rewrite (nth_skipn_cons _ _ _ Ex), (nth_skipn_cons _ _ _ Ey). reflexivity.
Qed.

(** The program runs to completion, shows [tail_trace], which depends on the lengths only,
    and computes what the model of kem.rs computes. *)
Theorem C44_trace cp ct Kp Kbar out : length Kp = 32%nat -> length Kbar = 32%nat -> length out = 32%nat ->
  exists s' K,
    runs p_tail (tail_state cp ct Kp Kbar out) (tail_trace (min (length cp) (length ct)) 32) s' /\
    arrs s' "out" = K /\ ct_select (ct_compare cp ct) Kp Kbar = Ok K.
Proof.
  intros L1 L2 L3. set (s := tail_state cp ct Kp Kbar out).
  set (s1 := set_var (set_var s "equal" 255) "i" 0).
  destruct (compare_loop _ _ eq_refl eq_refl (min (length cp) (length ct)) 0 s1 eq_refl eq_refl) as (s2 & R2 & A2 & E2).
  set (s3 := set_var s2 "i" 0).
  assert (AO : arrs s3 "out" = out) by (change (arrs s3 "out") with (arrs s2 "out"); rewrite A2; reflexivity).
  assert (AK : arrs s3 "Kp" = Kp) by (change (arrs s3 "Kp") with (arrs s2 "Kp"); rewrite A2; reflexivity).
  assert (AB : arrs s3 "Kbar" = Kbar) by (change (arrs s3 "Kbar") with (arrs s2 "Kbar"); rewrite A2; reflexivity).
  destruct (select_loop _ _ eq_refl eq_refl 32 s3 [] out eq_refl AO) as (s4 & R4 & O4).
  { rewrite AK, AB. cbn [List.length]. lia. }
  { lia. }
  rewrite (skipn_all2 out (n := 32)), app_nil_r in O4 by lia.
  cbn [List.length List.app] in O4. rewrite AK, AB in O4. change (skipn 0 Kp) with Kp in O4. change (skipn 0 Kbar) with Kbar in O4.
  change (vars s3 "equal") with (vars s2 "equal") in O4. rewrite E2 in O4.
  exists s4, (sel (ct_compare cp ct) (combine Kp Kbar)). split; [|split].
  - unfold p_tail, tail_trace. apply (runs_seq _ _ _ _ s2).
    + change (loop_trace (fun i => [Read "cp" i; Read "ct" i]) 0 (min (length cp) (length ct)))
        with ([] ++ ([] ++ loop_trace (fun i => [Read "cp" i; Read "ct" i]) 0 (min (length cp) (length ct)))).
      apply (runs_seq _ _ _ _ (set_var s "equal" 255)); [apply runs_assign; reflexivity|].
      apply (runs_seq _ _ _ _ s1); [apply runs_assign; reflexivity|]. exact R2.
    + change (loop_trace (fun i => [Read "Kp" i; Read "Kbar" i; Write "out" i]) 0 32)
        with ([] ++ loop_trace (fun i => [Read "Kp" i; Read "Kbar" i; Write "out" i]) 0 32).
      apply (runs_seq _ _ _ _ s3); [apply runs_assign; reflexivity|]. exact R4.
  - exact O4.
  - unfold ct_select, collect. rewrite map_length, combine_length, L1, L2. reflexivity.
Qed.

(** In [decapsulate]: whatever the key and the ciphertext -- matching or not -- the result
    is the output of a run of this program that shows the same events, fixed by the
    parameter set. *)
Theorem C44_decapsulate hs : hash_ok hs -> forall P, wf_params P -> forall fuel dk c K,
  reachable_dk hs P dk -> byte_string (ct_len P) c ->
  decapsulate hs P fuel dk c = Ok K ->
  exists mp Kp rp cp s',
    decrypt P (dk_pke dk) c = Ok mp /\ G hs [mp; ek_h (dk_ek dk)] = Ok (Kp, rp) /\
    encrypt hs P fuel (ek_pke (dk_ek dk)) mp rp = Ok cp /\
    runs p_tail (tail_state cp c Kp (J hs [dk_z dk; c]) (repeat 0 32)) (tail_trace (ct_len P) 32) s' /\
    arrs s' "out" = K.
Proof.
  intros Hhs P HP fuel dk c K Hdk Hc. pose proof (reachable_dk_valid hs Hhs P HP dk Hdk) as V.
  destruct V as (Hd & [He Hh] & Hz). unfold decapsulate.
  rewrite (decrypt_ok P HP) by assumption. cbn [bind].
  set (mp := KPKE_Decrypt P (dk_bytes P (dk_pke dk)) c).
  assert (Hm : byte_string 32 mp) by apply KPKE_Decrypt_bytes.
  assert (Hb : bytes (mp ++ ek_h (dk_ek dk))) by (apply bytes_app; [apply Hm|apply Hh]).
  assert (Ec : List.concat [mp; ek_h (dk_ek dk)] = mp ++ ek_h (dk_ek dk)) by (cbn [List.concat]; rewrite app_nil_r; reflexivity).
  pose proof (G_ok hs Hhs [mp; ek_h (dk_ek dk)]) as EG. rewrite Ec in EG. specialize (EG Hb). rewrite EG.
  destruct (G_bytes hs Hhs _ Hb) as [HK Hr].
  destruct (FIPS203.G hs (mp ++ ek_h (dk_ek dk))) as [Kp r]. cbn [bind fst snd] in *.
  pose proof (encrypt_ok hs Hhs P HP fuel (ek_pke (dk_ek dk)) mp r He Hm (proj2 Hr)) as EE. rewrite EE.
  destruct (KPKE_Encrypt hs P fuel (ek_bytes P (ek_pke (dk_ek dk))) mp r) as [cp|] eqn:E; [|discriminate].
  cbn [bind lift] in *. destruct (KPKE_Encrypt_bytes _ _ _ _ _ _ _ E) as [Lc Bc].
  assert (HJ : byte_string 32 (J hs [dk_z dk; c])).
  { rewrite J_ok. cbn [List.concat]. rewrite app_nil_r. apply J_bytes; [exact Hhs|]. apply bytes_app; [apply Hz|apply Hc]. }
  intros EK.
  destruct (C44_trace cp c Kp (J hs [dk_z dk; c]) (repeat 0 32) (proj1 HK) (proj1 HJ) eq_refl) as (s' & K' & R & EO & ES).
  exists mp, Kp, r, cp, s'. split; [reflexivity|]. split; [exact EG|]. split; [exact EE|].
  rewrite EK in ES. apply Ok_inj in ES. split; [|rewrite EO; symmetry; exact ES].
  rewrite Lc, (proj1 Hc) in R. unfold ct_len in R |- *. rewrite Nat.min_id in R. exact R.
Qed.

(** Concrete: matching and non-matching ciphertexts show the same 3 iterations, and the
    result differs ... *)
Definition run_out (cp ct Kp Kbar : list Z) : list event * option (list Z) :=
  let '(t, r) := exec 500 p_tail (tail_state cp ct Kp Kbar (repeat 0 32)) in
  (t, match r with Ok s => Some (arrs s "out") | _ => None end).
Example C44_case :
  run_out [1; 2; 3] [1; 2; 3] (repeat 7 32) (repeat 9 32) = (tail_trace 3 32, Some (repeat 7 32)) /\
  run_out [1; 2; 3] [0; 2; 4] (repeat 7 32) (repeat 9 32) = (tail_trace 3 32, Some (repeat 9 32)).
Proof. split; vm_compute; reflexivity. Qed.

(** ... while the code it replaces shows where the first difference is, and whether there
    is one: *)
Example C44_early_exit_leaks :
  let run ct := exec 50 p_early_exit (tail_state [1; 2; 3] ct [] [] []) in
  let t ct := fst (run ct) in
  let pick ct := match snd (run ct) with Ok s => Some (vars s "pick") | _ => None end in
  map pick [[1; 2; 3]; [0; 2; 3]; [1; 0; 3]; [1; 2; 0]] = [Some 1; Some 0; Some 0; Some 0] /\
  t [1; 2; 3] <> t [0; 2; 3] /\ t [0; 2; 3] <> t [1; 0; 3] /\ t [1; 2; 0] <> t [1; 2; 3] /\
  typed (fun x => String.eqb x "i") p_early_exit = false.
Proof. vm_compute. repeat split; discriminate. Qed.

(** the hypotheses of [C44_decapsulate]: an honest and a tampered ciphertext *)
Example C44_decapsulate_case : exists dk c c' K K',
  reachable_dk toy ML_KEM_512 dk /\ byte_string (ct_len ML_KEM_512) c /\ byte_string (ct_len ML_KEM_512) c' /\
  decapsulate toy ML_KEM_512 300 dk c = Ok K /\ decapsulate toy ML_KEM_512 300 dk c' = Ok K' /\ K <> K'.
Proof.
  destruct kem_case as (dk & ek & c & K & K2 & _ & _ & _ & H1 & _ & _ & H2 & H3 & H4 & H5 & _ & H6).
  exists dk, c, (flip_first c), K, K2. repeat (split; [assumption|]). intros E. apply H6. symmetry. exact E.
Qed.

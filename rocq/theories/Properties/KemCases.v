(** Concrete cases for the theorems of Kem.v: ML-KEM-512 with fixed seeds and the small
    functions of Tests/Toy.v in place of SHA-3, so that the kernel can evaluate them.
    (With the real SHA-3 functions the same session is computed below by the virtual
    machine only, as are the repository's known-answer vectors in Tests/.) *)
From Coq Require Import List ZArith Lia Bool Arith.
From Verif.Base Require Import Res Oracles.
From Verif.Spec Require Import FIPS202 FIPS203 Domains.
From Verif.Model Require Import Machine Util Algebra Compress Encode Crypto Sample Param Pke Kem.
From Verif.Proofs Require Import Basics HashProofs.
From Verif.Tests Require Import Toy.
From Verif.Properties Require Import Kem.
Import ListNotations.
Open Scope Z_scope.

Definition seed (a : Z) : list Z := tab 32 (fun i => (a + 7 * Z.of_nat i) mod 256).
Lemma seed_ok a : byte_string 32 (seed a).
Proof. split; [apply tab_length|]. apply Forall_tab. intros. apply Z.mod_pos_bound. reflexivity. Qed.

Definition flip_first (c : list Z) : list Z :=
  match c with x :: r => Z.lxor x 1 :: r | [] => [] end.
Definition same (a b : list Z) : bool := if list_eq_dec Z.eq_dec a b then true else false.

(** generate, encapsulate, decapsulate, decapsulate a ciphertext with one flipped bit *)
Definition session (gen : res (decaps_key * encaps_key)) (enc : encaps_key -> res (list Z * list Z))
  (dec : decaps_key -> list Z -> res (list Z)) (rej : list Z -> list Z) : bool :=
  match gen with Ok (dk, ek) =>
    match enc ek with Ok (c, K) =>
      match dec dk c with Ok K1 =>
        match dec dk (flip_first c) with Ok K2 =>
          same K1 K && same K2 (rej (flip_first c)) && negb (same K1 K2)
        | _ => false end
      | _ => false end
    | _ => false end
  | _ => false end.

Lemma session_inv gen enc dec rej : session gen enc dec rej = true ->
  exists dk ek c K K2, gen = Ok (dk, ek) /\ enc ek = Ok (c, K) /\ dec dk c = Ok K /\
  dec dk (flip_first c) = Ok K2 /\ K2 = rej (flip_first c) /\ K2 <> K.
Proof.
  unfold session. destruct gen as [[dk ek]| | |]; try discriminate.
  destruct (enc ek) as [[c K]| | |] eqn:E2; try discriminate.
  destruct (dec dk c) as [K1| | |] eqn:E3; try discriminate.
  destruct (dec dk (flip_first c)) as [K2| | |] eqn:E4; try discriminate. unfold same.
  destruct (list_eq_dec Z.eq_dec K1 K) as [->|]; [|discriminate].
  destruct (list_eq_dec Z.eq_dec K2 _) as [EJ|]; [|discriminate].
  destruct (list_eq_dec Z.eq_dec K K2) as [|N]; [discriminate|]. intros _.
  exists dk, ek, c, K, K2. repeat split; try assumption. congruence.
Qed.

Lemma session_runs : session
  (kem_generate_deterministic toy ML_KEM_512 300 (seed 1) (seed 2))
  (fun ek => encapsulate_deterministic toy ML_KEM_512 300 ek (seed 3))
  (decapsulate toy ML_KEM_512 300) (fun c => FIPS203.J toy (seed 2 ++ c)) = true.
Proof. vm_compute. reflexivity. Qed.
Definition session_fips202 : bool := Eval vm_compute in session
  (kem_generate_deterministic fips202 ML_KEM_512 300 (seed 1) (seed 2))
  (fun ek => encapsulate_deterministic fips202 ML_KEM_512 300 ek (seed 3))
  (decapsulate fips202 ML_KEM_512 300) (fun c => FIPS203.J fips202 (seed 2 ++ c)).
Example session_fips202_runs : session_fips202 = true.
Proof. reflexivity. Qed.

(** the hypotheses of C01-C03, C06-C09, C13, C14 hold together, and the outcome is not
    [NoFuel]: the honest ciphertext gives K, the mangled one the rejection key *)
Example kem_case : exists dk ek c K K2,
  hash_ok toy /\ wf_params ML_KEM_512 /\
  kem_generate_deterministic toy ML_KEM_512 300 (seed 1) (seed 2) = Ok (dk, ek) /\
  reachable_dk toy ML_KEM_512 dk /\ honest_ek toy ML_KEM_512 ek /\
  encapsulate_deterministic toy ML_KEM_512 300 ek (seed 3) = Ok (c, K) /\
  byte_string (ct_len ML_KEM_512) c /\
  decapsulate toy ML_KEM_512 300 dk c = Ok K /\
  byte_string (ct_len ML_KEM_512) (flip_first c) /\
  decapsulate toy ML_KEM_512 300 dk (flip_first c) = Ok K2 /\
  K2 = FIPS203.J toy (seed 2 ++ flip_first c) /\ K2 <> K.
Proof.
  destruct (session_inv _ _ _ _ session_runs) as (dk & ek & c & K & K2 & E1 & E2 & E3 & E4 & EJ & N).
  assert (HP : wf_params ML_KEM_512) by apply C13_table_3.
  pose proof (dk_generated_deterministic _ _ _ _ _ _ _ (seed_ok 1) (seed_ok 2) E1) as Hdk.
  pose proof (ek_generated_deterministic _ _ _ _ _ _ _ (seed_ok 1) (seed_ok 2) E1) as Hek.
  destruct (proj1 (proj2 (proj2 (C13_sizes toy toy_ok ML_KEM_512 HP))) 300%nat ek (seed 3) c K
             (ek_honest _ _ _ Hek) (seed_ok 3) E2) as [Hc _].
  exists dk, ek, c, K, K2.
  split; [exact toy_ok|]. split; [exact HP|]. split; [exact E1|]. split; [exact Hdk|]. split; [exact Hek|].
  split; [exact E2|]. split; [exact Hc|]. split; [exact E3|].
  split; [|split; [exact E4|split; [exact EJ|exact N]]]. clear E1 E2 E3 E4 EJ N Hdk Hek.
  destruct c as [|x r]; [exact Hc|]. destruct Hc as [L B]. split; [exact L|].
  inversion B as [|? ? Bx Br]; subst. constructor; [|exact Br].
  apply KemProofs.lxor_byte; [exact Bx|unfold is_byte; lia].
Qed.

(** C10, C11: parsing non-canonical bytes *)
Example C10_case : exists b b' ek, byte_string (ek_len ML_KEM_512) b /\
  encaps_key_from_bytes toy ML_KEM_512 b = Ok ek /\ encaps_key_as_bytes ML_KEM_512 ek = Ok b' /\
  firstn 6 b = [255; 255; 255; 1; 13; 0] /\ firstn 6 b' = [254; 226; 47; 0; 0; 0].
Proof.
  set (b := [255; 255; 255; 1; 13; 0] ++ repeat 9 794).
  assert (Hb : byte_string (ek_len ML_KEM_512) b).
  { split; [reflexivity|]. apply Forall_app. split; [repeat constructor; discriminate || reflexivity|].
    apply Forall_forall. intros x Hx. apply repeat_spec in Hx. subst x. unfold is_byte. lia. }
  destruct (proj1 (C07_from_bytes toy ML_KEM_512 (proj1 (proj2 (proj2 (proj2 C13_table_3))))) b Hb) as [ek E].
  destruct (C10_ek toy toy_ok ML_KEM_512 (proj1 (proj2 (proj2 (proj2 C13_table_3)))) b Hb) as (b' & E' & _).
  exists b, b', ek. split; [exact Hb|]. split; [exact E|]. rewrite E in E'. cbn [bind] in E'. split; [exact E'|].
  split; [reflexivity|].
  assert (W : (let* ek := encaps_key_from_bytes toy ML_KEM_512 b in
               let* b' := encaps_key_as_bytes ML_KEM_512 ek in Ok (firstn 6 b')) = Ok [254; 226; 47; 0; 0; 0])
    by (vm_compute; reflexivity).
  rewrite E in W. cbn [bind] in W. rewrite E' in W. cbn [bind] in W. apply Ok_inj in W. exact W.
Qed.

(** C12: an RNG that counts *)
Definition counter : rng := {| rng_state := Z; fill_bytes := fun s n => (tab n (fun i => (s + Z.of_nat i) mod 256), s + 1) |}.
Example counter_ok : rng_ok counter.
Proof. intros s n. split; [apply tab_length|]. apply Forall_tab. intros. apply Z.mod_pos_bound. reflexivity. Qed.
Example C12_case : match kem_generate toy ML_KEM_512 300 (logged counter) (5, []) with
  | Ok (_, _, (s, l)) => s = 7 /\ l = [32; 32]%nat
  | _ => False end.
Proof. vm_compute. split; reflexivity. Qed.

(** A small stand-in for the SHA-3 functions, for concrete cases that the kernel can
    evaluate quickly (evaluating Keccak in the kernel's own reduction machine takes too
    long).  It satisfies the interface hypothesis [hash_ok]; it is not a hash function. *)
From Coq Require Import List ZArith Lia.
From Verif.Base Require Import Oracles.
From Verif.Spec Require Import FIPS203.
From Verif.Proofs Require Import Basics.
Import ListNotations.
Open Scope Z_scope.

Definition digest (m : list Z) : Z := fold_left (fun a x => (31 * a + x + 7) mod 65521) m 1.
Definition quick (m : list Z) : Z :=
  nth 0 m 0 + 3 * nth 1 m 0 + 5 * nth 31 m 0 + 171 * nth 32 m 0 + 1299 * nth 33 m 0.
Definition mix (h i : Z) : Z := ((h + 1) * (40503 + 77 * i) + 30011 * i * i) / 16 mod 256.
Definition toy : hashes := {|
  sha3_256 := fun m => let h := digest m in tab 32 (fun i => mix h (Z.of_nat i));
  sha3_512 := fun m => let h := digest m in tab 64 (fun i => mix (h + 5) (Z.of_nat i));
  shake128 := fun m i => mix (quick m) (Z.of_nat i);
  shake256 := fun m i => mix (quick m + 11) (Z.of_nat i)
|}.

Lemma mix_byte h i : is_byte (mix h i).
Proof. apply Z.mod_pos_bound. reflexivity. Qed.
Lemma toy_ok : hash_ok toy.
Proof.
  intros m _. split; [|split; [|split]].
  - split; [apply tab_length|]. apply Forall_tab. intros. apply mix_byte.
  - split; [apply tab_length|]. apply Forall_tab. intros. apply mix_byte.
  - intros i. apply mix_byte.
  - intros i. apply mix_byte.
Qed.

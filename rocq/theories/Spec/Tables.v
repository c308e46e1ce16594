(** Random functions as tables, and the simulation of ML-KEM's decapsulation in the
    random-oracle model. *)
From Coq Require Import List ZArith QArith.
From Verif.Base Require Import Oracles.
From Verif.Spec Require Import FIPS203 Random Lwe Attacker.
Import ListNotations.

(** [T] is a table of a function on [D] with values in [L]; [LT] lists every table once *)
Definition table (D L T : list (list Z)) : Prop := length T = length D /\ Forall (fun y => In y L) T.
Definition all_tables (D L : list (list Z)) (LT : list (list (list Z))) : Prop :=
  NoDup LT /\ forall T, In T LT <-> table D L T.
(** the value at [x], if [x] is in [D] *)
Fixpoint entry (D T : list (list Z)) (x : list Z) : option (list Z) :=
  match D, T with
  | y :: D', v :: T' => if list_eq_dec Z.eq_dec x y then Some v else entry D' T' x
  | _, _ => None
  end.

(** The hash function [hs], except that for the 32-byte strings m of [L], SHA3-512 of
    m || h is TK(m) || TR(m) *)
Definition with_G_table (hs : hashes) (L : list (list Z)) (h : list Z) (TK TR : list (list Z)) : hashes := {|
  sha3_256 := sha3_256 hs;
  sha3_512 := fun x =>
    if list_eq_dec Z.eq_dec (skipn 32 x) h then
      match entry L TK (firstn 32 x), entry L TR (firstn 32 x) with
      | Some K, Some r => K ++ r
      | _, _ => sha3_512 hs x
      end
    else sha3_512 hs x;
  shake128 := shake128 hs;
  shake256 := shake256 hs
|}.
(** except that for the ciphertexts c of [LC], the first 32 bytes of SHAKE256 of z || c are
    TJ(c) *)
Definition with_J_table (hs : hashes) (LC : list (list Z)) (z : list Z) (TJ : list (list Z)) : hashes := {|
  sha3_256 := sha3_256 hs;
  sha3_512 := sha3_512 hs;
  shake128 := shake128 hs;
  shake256 := fun x i =>
    if list_eq_dec Z.eq_dec (firstn 32 x) z then
      match entry LC TJ (skipn 32 x) with
      | Some K => if Nat.ltb i 32 then nth i K 0%Z else shake256 hs x i
      | None => shake256 hs x i
      end
    else shake256 hs x i
|}.

(** does the encryption of [m] with randomness [r] fail to decrypt? *)
Definition pke_fails (hs : hashes) (P : params) (n : nat) (dk ek m r : list Z) : bool :=
  match KPKE_Encrypt hs P n ek m r with
  | Some c => if list_eq_dec Z.eq_dec (KPKE_Decrypt P dk c) m then false else true
  | None => false
  end.

(** ** The simulation: no secret key is used *)

(** the encryption of [m], with the randomness that the table [TR] assigns to it *)
Definition table_ct (hs : hashes) (P : params) (n : nat) (ek : list Z) (L TR : list (list Z)) (m : list Z) : option (list Z) :=
  match entry L TR m with
  | Some r => KPKE_Encrypt hs P n ek m r
  | None => None
  end.
(** G answers m || H(ek) with the entry of the encryption of m in the table [TF]; the owner
    answers c with the entry of c *)
Definition sim_hashes (hs : hashes) (P : params) (n : nat) (ek : list Z) (L LC TR TF : list (list Z)) : hashes := {|
  sha3_256 := sha3_256 hs;
  sha3_512 := fun x =>
    if list_eq_dec Z.eq_dec (skipn 32 x) (sha3_256 hs ek) then
      match table_ct hs P n ek L TR (firstn 32 x), entry L TR (firstn 32 x) with
      | Some c, Some r => match entry LC TF c with Some K => K ++ r | None => sha3_512 hs x end
      | _, _ => sha3_512 hs x
      end
    else sha3_512 hs x;
  shake128 := shake128 hs;
  shake256 := shake256 hs
|}.
Definition sim_decaps (LC TF : list (list Z)) (c0 c : list Z) : list Z :=
  if list_eq_dec Z.eq_dec c c0 then []
  else match entry LC TF c with Some K => K | None => [] end.

(** the questions asked in the simulation, and whether m || H(ek) is among them *)
Definition sim_asked (hs : hashes) (P : params) (n : nat) (L LC TR TF : list (list Z))
  (att : list Z -> list Z -> list Z -> attacker) (K ek c : list Z) : list (hash_name * list Z) :=
  asked (sim_hashes hs P n ek L LC TR TF) (sim_decaps LC TF c) (att ek c K).
Definition sim_finds (hs : hashes) (P : params) (n : nat) (L LC TR TF : list (list Z))
  (att : list Z -> list Z -> list Z -> attacker) (m K ek c : list Z) : Q :=
  one_if (asks (sim_hashes hs P n ek L LC TR TF) (sim_decaps LC TF c) (att ek c K)
            Sha3_512 (m ++ sha3_256 hs ek)).

(** the probability of that for random tables and a random [K] *)
Definition sim_test (hs : hashes) (P : params) (n : nat) (L LC : list (list Z))
  (LR LF : list (list (list Z))) (att : list Z -> list Z -> list Z -> attacker) (m ek c : list Z) : Q :=
  average LR (fun TR => average LF (fun TF => average L (fun K => sim_finds hs P n L LC TR TF att m K ek c))).

(** the two distinguishers against MLWE; [L], [LR], [LF] list strings and tables *)
Definition sim_key_test (hs : hashes) (P : params) (n : nat) (rho r : list Z) (L LC LY LW : list (list Z))
  (LR LF : list (list (list Z))) (att : list Z -> list Z -> list Z -> attacker) (t : list (list Z)) : Q :=
  average L (fun m => key_test hs P n rho r LY LW (fun _ => m) (sim_test hs P n L LC LR LF att m) t).
Definition sim_ct_test (hs : hashes) (P : params) (n : nat) (rho : list Z) (L LC : list (list Z))
  (LR LF : list (list (list Z))) (att : list Z -> list Z -> list Z -> attacker) (t w : list (list Z)) : Q :=
  average L (fun m => ct_test P rho (fun _ => m) (sim_test hs P n L LC LR LF att m) t w).

(** SHA3-256, SHA3-512, SHAKE128 and SHAKE256 (FIPS 202), as executable functions.

    This is the concrete instance of the [hashes] record: it shows that the hypothesis
    [hash_ok] of the theorems is satisfiable by the real functions, and it lets the model
    be run against the repository's test vectors (Tests/).  The theorems themselves hold
    for every [hashes]. *)
From Coq Require Import List ZArith.
From Verif.Base Require Import Oracles.
Import ListNotations.
Open Scope Z_scope.

Definition mask64 : Z := 18446744073709551615.
Definition rotl64 (x s : Z) : Z :=
  Z.lor (Z.land (Z.shiftl x s) mask64) (Z.shiftr x (64 - s)).

Definition round_constants : list Z :=
  [0x0000000000000001; 0x0000000000008082; 0x800000000000808A; 0x8000000080008000;
   0x000000000000808B; 0x0000000080000001; 0x8000000080008081; 0x8000000000008009;
   0x000000000000008A; 0x0000000000000088; 0x0000000080008009; 0x000000008000000A;
   0x000000008000808B; 0x800000000000008B; 0x8000000000008089; 0x8000000000008003;
   0x8000000000008002; 0x8000000000000080; 0x000000000000800A; 0x800000008000000A;
   0x8000000080008081; 0x8000000000008080; 0x0000000080000001; 0x8000000080008008].

(** rotation offsets, at index x + 5 y *)
Definition rotations : list Z :=
  [0; 1; 62; 28; 27; 36; 44; 6; 55; 20; 3; 10; 43; 25; 39; 41; 45; 15; 21; 8; 18; 2; 61; 56; 14].

(** lane (x, y) of a state of 25 lanes *)
Definition lane (a : list Z) (x y : nat) : Z := nth (x mod 5 + 5 * (y mod 5))%nat a 0.
Definition mk_state (f : nat -> nat -> Z) : list Z :=
  map (fun i => f (Nat.modulo i 5) (Nat.div i 5)) (seq 0 25).

(** [~x & y] on 64-bit lanes *)
Definition andn64 (x y : Z) : Z := Z.land (Z.lxor x mask64) y.

Definition keccak_round (a : list Z) (rc : Z) : list Z :=
  let c := map (fun x => Z.lxor (lane a x 0) (Z.lxor (lane a x 1) (Z.lxor (lane a x 2)
                         (Z.lxor (lane a x 3) (lane a x 4))))) (seq 0 5) in
  let d := map (fun x => Z.lxor (nth ((x + 4) mod 5)%nat c 0)
                                (rotl64 (nth ((x + 1) mod 5)%nat c 0) 1)) (seq 0 5) in
  let theta := mk_state (fun x y => Z.lxor (lane a x y) (nth x d 0)) in
  let rotated := map (fun i => rotl64 (nth i theta 0) (nth i rotations 0)) (seq 0 25) in
  (* pi: B[y][2x + 3y] = A[x][y], i.e. B[x][y] = A[x + 3y][x] *)
  let b := mk_state (fun x y => lane rotated (x + 3 * y) x) in
  let chi := mk_state (fun x y => Z.lxor (lane b x y) (andn64 (lane b (x + 1) y) (lane b (x + 2) y))) in
  match chi with
  | x :: r => Z.lxor x rc :: r
  | [] => []
  end.

Definition keccak_f (a : list Z) : list Z := fold_left keccak_round round_constants a.

Fixpoint le_bytes (n : nat) (x : Z) : list Z :=
  match n with O => [] | S k => x mod 256 :: le_bytes k (x / 256) end.
Fixpoint le_int (b : list Z) : Z :=
  match b with [] => 0 | x :: r => x + 256 * le_int r end.

(** split into lanes of 8 bytes *)
Fixpoint lanes_of (n : nat) (b : list Z) : list Z :=
  match n with
  | O => []
  | S k => le_int (firstn 8 b) :: lanes_of k (skipn 8 b)
  end.
Fixpoint xor_lanes (a m : list Z) : list Z :=
  match a, m with
  | x :: a', y :: m' => Z.lxor x y :: xor_lanes a' m'
  | _, _ => a
  end.
Definition state_bytes (a : list Z) : list Z := flat_map (le_bytes 8) a.

(** multi-rate padding with domain-separation suffix [ds] *)
Definition pad (rate : nat) (ds : Z) (m : list Z) : list Z :=
  let missing := (rate - Nat.modulo (length m) rate)%nat in
  match missing with
  | 1%nat => m ++ [Z.lxor ds 128]
  | _ => m ++ [ds] ++ repeat 0 (missing - 2) ++ [128]
  end.

Fixpoint absorb (fuel rate : nat) (a : list Z) (m : list Z) : list Z :=
  match fuel with
  | O => a
  | S k => match m with
           | [] => a
           | _ => absorb k rate (keccak_f (xor_lanes a (lanes_of (Nat.div rate 8) (firstn rate m))))
                         (skipn rate m)
           end
  end.

Definition absorbed (rate : nat) (ds : Z) (m : list Z) : list Z :=
  let p := pad rate ds m in absorb (length p) rate (repeat 0 25) p.

(** the b-th block of output *)
Fixpoint squeeze_block (rate b : nat) (a : list Z) : list Z :=
  match b with
  | O => firstn rate (state_bytes a)
  | S k => squeeze_block rate k (keccak_f a)
  end.

(** the first [b] blocks of output *)
Fixpoint squeeze_blocks (rate b : nat) (a : list Z) : list Z :=
  match b with
  | O => []
  | S k => firstn rate (state_bytes a) ++ squeeze_blocks rate k (keccak_f a)
  end.

Definition sha3 (rate out : nat) (m : list Z) : list Z :=
  firstn out (state_bytes (absorbed rate 6 m)).

(** The output stream.  The first [memo] blocks are computed once, so that evaluating
    [shake rate m] gives a closure that looks bytes up. *)
Definition memo : nat := 6.
Definition shake (rate : nat) (m : list Z) : nat -> Z :=
  let a := absorbed rate 31 m in
  let table := squeeze_blocks rate memo a in
  fun i =>
    if Nat.ltb i (rate * memo) then nth i table 0
    else nth (Nat.modulo i rate) (squeeze_block rate (Nat.div i rate) a) 0.

Definition fips202 : hashes := {|
  sha3_256 := sha3 136 32;
  sha3_512 := sha3 72 64;
  shake128 := shake 168;
  shake256 := shake 136
|}.

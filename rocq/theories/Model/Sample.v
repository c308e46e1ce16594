(** Model of the samplers of ml-kem/src/algebra.rs and the CBD tables of
    ml-kem/src/param.rs. *)
From Coq Require Import List ZArith Bool.
From Verif.Base Require Import Res Oracles.
From Verif.Model Require Import Machine Util Algebra Encode Crypto.
Import ListNotations.
Open Scope Z_scope.

(** param.rs:110-132, [ones_array::<B, N, U>()], evaluated at compile time: a table of
    [n] entries, [out[x + (y << B)] = (ones(x) + Q - ones(y)) % Q]. *)
Definition ones_array (b n : nat) : res (list Z) :=
  let max := Z.to_nat (Z.shiftl 1 (Z.of_nat b)) in
  foldM (fun out x =>
    foldM (fun out y =>
             let x_ones := count_ones (Z.of_nat x) in
             let y_ones := count_ones (Z.of_nat y) in
             let i := (x + y * max)%nat in
             let* a := uadd W16 x_ones Q in
             let* c := usub W16 a y_ones in
             let* v := urem c Q in
             upd out i v)
          (seq 0 max) out)
    (seq 0 max) (repeat 0 n).

(** param.rs:134-144: [ONES] for U2 is [ones_array::<2, 16>], for U3 [ones_array::<3, 64>];
    no other size implements [CbdSamplingSize] *)
Definition ONES (eta : nat) : res (list Z) :=
  match eta with
  | 2%nat => ones_array 2 16
  | 3%nat => ones_array 3 64
  | _ => Panic
  end.

(** algebra.rs:143-149, [Polynomial::sample_cbd]; [SampleSize] is [2 * eta] (param.rs:135,
    141) *)
Definition poly_sample_cbd (eta : nat) (B : list Z) : res (list Z) :=
  let* vals := poly_decode (2 * eta) B in
  let* ones := ONES eta in
  let* l := mapM (fun val => idx ones (Z.to_nat val)) vals in
  collect 256 l.

(** algebra.rs:211-216, [FieldElementReader]; [budget] is not in the code: it is the
    number of 3-byte groups the model still allows the loop of [next] to examine. *)
Record fe_reader := {
  fr_xof : xof_reader;
  fr_data : list Z;
  fr_start : nat;
  fr_next : option Z;
  fr_budget : nat
}.

(** algebra.rs:219-231 *)
Definition fe_reader_new (budget : nat) (xof : xof_reader) : fe_reader :=
  let '(data, xof) := xof_read xof 96 in
  {| fr_xof := xof; fr_data := data; fr_start := 0; fr_next := None; fr_budget := budget |}.

(** algebra.rs:239-262, the loop of [next] *)
Fixpoint next_loop (budget : nat) (xof : xof_reader) (data : list Z) (start : nat)
  : res (Z * fe_reader) :=
  match budget with
  | O => NoFuel
  | S budget =>
      let '(data, xof, start) :=
        (if Nat.eqb start (length data)
         then let '(d, x) := xof_read xof (length data) in (d, x, 0%nat)
         else (data, xof, start)) in
      let stop := (start + 3)%nat in
      let* b := slice data start stop in
      let start := stop in
      let* b0 := idx b 0 in
      let* b1 := idx b 1 in
      let* b2 := idx b 2 in
      let* t := ushl W16 (Z.land b1 15) 8 in
      let* d1 := uadd W16 b0 t in
      let* h := ushr W16 b1 4 in
      let* t := ushl W16 b2 4 in
      let* d2 := uadd W16 h t in
      if d1 <? Q then
        Ok (d1, {| fr_xof := xof; fr_data := data; fr_start := start;
                   fr_next := if d2 <? Q then Some d2 else None; fr_budget := budget |})
      else if d2 <? Q then
        Ok (d2, {| fr_xof := xof; fr_data := data; fr_start := start;
                   fr_next := None; fr_budget := budget |})
      else next_loop budget xof data start
  end.

(** algebra.rs:233-263 *)
Definition fe_reader_next (r : fe_reader) : res (Z * fe_reader) :=
  match fr_next r with
  | Some val =>
      Ok (val, {| fr_xof := fr_xof r; fr_data := fr_data r; fr_start := fr_start r;
                  fr_next := None; fr_budget := fr_budget r |})
  | None => next_loop (fr_budget r) (fr_xof r) (fr_data r) (fr_start r)
  end.

(** algebra.rs:268-271 *)
Definition poly_sample_uniform (budget : nat) (xof : xof_reader) : res (list Z) :=
  let reader := fe_reader_new budget xof in
  let* '(l, _) := mapM_st (fun r (_ : nat) => fe_reader_next r) (seq 0 256) reader in
  Ok l.

Section WithHashes.
  Variable hs : hashes.

  (** algebra.rs:171-180, [PolynomialVector::sample_cbd] *)
  Definition vec_sample_cbd (k eta : nat) (sigma : list Z) (start_n : Z) : res (list (list Z)) :=
    from_fn k (fun i =>
      let* i8 := truncate W8 (Z.of_nat i) in
      let* n := uadd W8 start_n i8 in
      let prf_output := PRF hs eta sigma n in
      poly_sample_cbd eta prf_output).

  (** algebra.rs:423-429, [NttVector::sample_uniform] *)
  Definition nttvec_sample_uniform (fuel k : nat) (rho : list Z) (i : nat) (tr : bool)
    : res (list (list Z)) :=
    from_fn k (fun j =>
      let '(i, j) := if tr then (j, i) else (i, j) in
      let* j8 := truncate W8 (Z.of_nat j) in
      let* i8 := truncate W8 (Z.of_nat i) in
      poly_sample_uniform fuel (XOF hs rho j8 i8)).

  (** algebra.rs:496-500, [NttMatrix::sample_uniform] *)
  Definition matrix_sample_uniform (fuel k : nat) (rho : list Z) (tr : bool)
    : res (list (list (list Z))) :=
    from_fn k (fun i => nttvec_sample_uniform fuel k rho i tr).
End WithHashes.

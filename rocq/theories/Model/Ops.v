(** The arithmetic, the NTT, compression, encoding, sampling, K-PKE and the public API of
    ml-kem once more, as programs of machine operations (Spec/Ops.v): every addition,
    multiplication, shift, division, branch on data, memory access by index, loop and hash
    call of the definitions in Model/{Util,Algebra,Compress,Encode,Crypto,Sample,Pke,Kem}.v
    is an explicit operation.  Each definition cites the same lines as the definition
    without the prefix [o_]; Proofs/OpsProofs.v proves that the outcomes agree
    ([result Checked (o_f x) = f x]).

    Not operations: bitwise [& | ^ !] and [wrapping_sub] (fixed time, cannot fail), byte
    (de)composition of integers, and what is computed at compile time: the tables,
    arithmetic on type-level sizes and conditions on them ([D::USIZE == 12]).  The counters
    inside [step_by], [enumerate], [chunks] and ranges belong to the standard library. *)
From Coq Require Import List ZArith Bool.
From Verif.Base Require Import Res Oracles.
From Verif.Spec Require Import Ops.
From Verif.Model Require Import Machine Util Algebra Compress Encode Crypto Sample Param Pke Kem.
Import ListNotations.
Open Scope Z_scope.

(** ** operators (Model/Machine.v, Base/Res.v) *)

Definition o_add (w : width) (x y : Z) : prog Z := act (Arith Plus (bits_of w) x y).
Definition o_sub (w : width) (x y : Z) : prog Z := act (Arith Minus (bits_of w) x y).
Definition o_mul (w : width) (x y : Z) : prog Z := act (Arith Times (bits_of w) x y).
Definition o_shl (w : width) (x y : Z) : prog Z := act (Arith ShiftLeft (bits_of w) x y).
Definition o_shr (w : width) (x y : Z) : prog Z := act (Arith ShiftRight (bits_of w) x y).
(** [usize] arithmetic *)
Definition o_uadd (x y : nat) : prog nat := act (Size Sum x y).
Definition o_usub (x y : nat) : prog nat := act (Size Difference x y).
Definition o_umul (x y : nat) : prog nat := act (Size Product x y).
Definition o_idx {A} (l : list A) (i : nat) : prog A := act (Get Elsewhere l i).
Definition o_upd {A} (l : list A) (i : nat) (v : A) : prog (list A) := act (Put l i v).
Definition o_slice {A} (l : list A) (a b : nat) : prog (list A) := act (Slice l a b).
Definition o_ptr_read {A} (l : list A) (off n : nat) : prog (list A) := act (Ptr l off n).

Definition o_copy_from_slice {A} (dst src : list A) : prog (list A) :=
  do* _ := act (Require (Nat.eqb (length dst) (length src))) in Ret src.
Definition o_copy_into {A} (l : list A) (a b : nat) (src : list A) : prog (list A) :=
  do* old := o_slice l a b in
  do* new := o_copy_from_slice old src in
  Ret (firstn a l ++ new ++ skipn b l).
Definition o_collect {A} (n : nat) (l : list A) : prog (list A) :=
  do* _ := act (Require (Nat.eqb (length l) n)) in Ret l.
Definition o_chunks {A} (n : nat) (l : list A) : prog (list (list A)) :=
  do* _ := act (Require (negb (Nat.eqb n 0))) in Ret (chunks_aux (length l) n l).
Definition o_from_fn {A} (n : nat) (f : nat -> prog A) : prog (list A) := pmap f (seq 0 n).

(** util.rs:20-38 *)
Definition o_truncate (to : width) (x : Z) : prog Z :=
  act (Fit (bits_of to) (Z.land x (max_of to))).
(** util.rs:47-61 *)
Definition o_flatten {A} (m n : nat) (parts : list (list A)) : prog (list A) :=
  o_ptr_read (concat parts) 0 (m * n).
(** util.rs:92-113 *)
Definition o_unflatten_ref {A} (n m : nat) (whole : list A) : prog (list (list A)) :=
  let part_size := Nat.div n m in
  do* '(parts, _) :=
    pmap_st (fun ptr (_ : nat) =>
               do* part := o_ptr_read whole ptr part_size in
               Ret (part, (ptr + part_size)%nat))
            (seq 0 m) 0%nat in
  Ret parts.

(** ** algebra.rs *)

(** algebra.rs:36-42 *)
Definition o_small_reduce (x : Z) : prog Z :=
  do* c := act (Test SmallReduce (x <? Q)) in
  if c then Ret x else o_sub W16 x Q.

(** algebra.rs:44-49 *)
Definition o_barrett_reduce (x : Z) : prog Z :=
  do* product := o_mul W64 x BARRETT_MULTIPLIER in
  do* shifted := o_shr W64 product BARRETT_SHIFT in
  do* quotient := o_truncate W32 shifted in
  do* qq := o_mul W32 quotient Q32 in
  do* remainder := o_sub W32 x qq in
  do* r16 := o_truncate W16 remainder in
  o_small_reduce r16.

(** algebra.rs:70-95 *)
Definition o_fe_add (x y : Z) : prog Z :=
  do* s := o_add W16 x y in o_small_reduce s.
Definition o_fe_sub (x y : Z) : prog Z :=
  do* s := o_add W16 x Q in
  do* d := o_sub W16 s y in
  o_small_reduce d.
Definition o_fe_mul (x y : Z) : prog Z :=
  do* p := o_mul W32 x y in o_barrett_reduce p.

(** algebra.rs:55-67 *)
Definition o_base_case_multiply (a0 a1 b0 b1 : Z) (i : nat) : prog (Z * Z) :=
  do* g := o_idx GAMMA i in
  do* m := o_mul W32 b1 g in
  do* b1g := o_barrett_reduce m in
  do* x := o_mul W32 a0 b0 in
  do* y := o_mul W32 a1 b1g in
  do* s := o_add W32 x y in
  do* c0 := o_barrett_reduce s in
  do* x := o_mul W32 a0 b1 in
  do* y := o_mul W32 a1 b0 in
  do* s := o_add W32 x y in
  do* c1 := o_barrett_reduce s in
  Ret (c0, c1).

(** algebra.rs:101-168, 196-208, 444-456 *)
Definition o_zip_collect {A} (n : nat) (f : A -> A -> prog A) (x y : list A) : prog (list A) :=
  do* l := pmap (fun '(a, b) => f a b) (combine x y) in
  o_collect n l.
Definition o_poly_add (x y : list Z) : prog (list Z) := o_zip_collect 256 o_fe_add x y.
Definition o_poly_sub (x y : list Z) : prog (list Z) := o_zip_collect 256 o_fe_sub x y.
Definition o_poly_scale (c : Z) (x : list Z) : prog (list Z) :=
  do* l := pmap (fun a => o_fe_mul c a) x in o_collect 256 l.
Definition o_vec_add (k : nat) (x y : list (list Z)) : prog (list (list Z)) :=
  o_zip_collect k o_poly_add x y.
Definition o_nttvec_add (k : nat) (x y : list (list Z)) : prog (list (list Z)) :=
  o_zip_collect k o_poly_add x y.

(** algebra.rs:345-353, the indices [2 * i] and [2 * i + 1] *)
Definition o_even (i : nat) : prog nat := o_umul 2 i.
Definition o_odd (i : nat) : prog nat := do* e := o_umul 2 i in o_uadd e 1.
(** algebra.rs:337-358 *)
Definition o_ntt_mul (x y : list Z) : prog (list Z) :=
  pfold (fun out i =>
           do* e := o_even i in
           do* a0 := o_idx x e in
           do* o := o_odd i in
           do* a1 := o_idx x o in
           do* e := o_even i in
           do* b0 := o_idx y e in
           do* o := o_odd i in
           do* b1 := o_idx y o in
           do* '(c0, c1) := o_base_case_multiply a0 a1 b0 b1 i in
           do* e := o_even i in
           do* out := o_upd out e c0 in
           do* o := o_odd i in
           o_upd out o c1)
        (seq 0 128) (repeat 0 256).

(** algebra.rs:374-392 *)
Definition o_ntt_butterfly (zeta : Z) (len : nat) (f : list Z) (j : nat) : prog (list Z) :=
  do* jl := o_uadd j len in
  do* fl := o_idx f jl in
  do* t := o_fe_mul zeta fl in
  do* fj := o_idx f j in
  do* lo := o_fe_sub fj t in
  do* jl := o_uadd j len in
  do* f := o_upd f jl lo in
  do* fj := o_idx f j in
  do* hi := o_fe_add fj t in
  o_upd f j hi.
Definition o_ntt_block (len : nat) (st : nat * list Z) (start : nat) : prog (nat * list Z) :=
  let '(k, f) := st in
  do* zeta := o_idx ZETA_POW_BITREV k in
  do* k := o_uadd k 1 in
  do* stop := o_uadd start len in
  do* f := pfold (o_ntt_butterfly zeta len) (seq start (stop - start)) f in
  Ret (k, f).
Definition o_ntt_layer (st : nat * list Z) (len : nat) : prog (nat * list Z) :=
  do* step := o_umul 2 len in
  pfold (o_ntt_block len) (step_by 0 256 step) st.
Definition o_ntt (f : list Z) : prog (list Z) :=
  do* '(_, f) := pfold o_ntt_layer [128; 64; 32; 16; 8; 4; 2]%nat (1%nat, f) in
  Ret f.

(** algebra.rs:397-415 *)
Definition o_inv_butterfly (zeta : Z) (len : nat) (f : list Z) (j : nat) : prog (list Z) :=
  do* t := o_idx f j in
  do* jl := o_uadd j len in
  do* fl := o_idx f jl in
  do* s := o_fe_add t fl in
  do* f := o_upd f j s in
  do* jl := o_uadd j len in
  do* fl := o_idx f jl in
  do* d := o_fe_sub fl t in
  do* p := o_fe_mul zeta d in
  do* jl := o_uadd j len in
  o_upd f jl p.
Definition o_inv_block (len : nat) (st : nat * list Z) (start : nat) : prog (nat * list Z) :=
  let '(k, f) := st in
  do* zeta := o_idx ZETA_POW_BITREV k in
  do* k := o_usub k 1 in
  do* stop := o_uadd start len in
  do* f := pfold (o_inv_butterfly zeta len) (seq start (stop - start)) f in
  Ret (k, f).
Definition o_inv_layer (st : nat * list Z) (len : nat) : prog (nat * list Z) :=
  do* step := o_umul 2 len in
  pfold (o_inv_block len) (step_by 0 256 step) st.
Definition o_ntt_inverse (f : list Z) : prog (list Z) :=
  do* '(_, f) := pfold o_inv_layer [2; 4; 8; 16; 32; 64; 128]%nat (127%nat, f) in
  o_poly_scale 3303 f.

(** algebra.rs:458-493 *)
Definition o_nttvec_dot (x y : list (list Z)) : prog (list Z) :=
  do* prods := pmap (fun '(a, b) => o_ntt_mul a b) (combine x y) in
  pfold o_poly_add prods (repeat 0 256).
Definition o_vec_ntt (k : nat) (v : list (list Z)) : prog (list (list Z)) :=
  do* l := pmap o_ntt v in o_collect k l.
Definition o_nttvec_inverse (k : nat) (v : list (list Z)) : prog (list (list Z)) :=
  do* l := pmap o_ntt_inverse v in o_collect k l.
Definition o_matrix_mul (k : nat) (m : list (list (list Z))) (v : list (list Z))
  : prog (list (list Z)) :=
  do* l := pmap (fun row => o_nttvec_dot row v) m in o_collect k l.

(** ** compress.rs *)

(** compress.rs:37-51 *)
Definition o_fe_compress (d : nat) (x : Z) : prog Z :=
  let dz := Z.of_nat d in
  do* a := o_shl W64 x dz in
  do* b := o_add W64 a Q_HALF in
  do* c := o_mul W64 b DIV_MUL in
  do* e := o_shr W64 c DIV_SHIFT in
  do* y := o_truncate W32 e in
  do* t := o_truncate W16 y in
  Ret (Z.land t (MASK dz)).
Definition o_fe_decompress (d : nat) (x : Z) : prog Z :=
  let dz := Z.of_nat d in
  do* a := o_mul W32 x Q32 in
  do* b := o_add W32 a (POW2_HALF dz) in
  do* y := o_shr W32 b dz in
  o_truncate W16 y.
(** compress.rs:53-87 *)
Definition o_poly_compress (d : nat) (p : list Z) : prog (list Z) := pmap (o_fe_compress d) p.
Definition o_poly_decompress (d : nat) (p : list Z) : prog (list Z) := pmap (o_fe_decompress d) p.
Definition o_vec_compress (d : nat) (v : list (list Z)) : prog (list (list Z)) :=
  pmap (o_poly_compress d) v.
Definition o_vec_decompress (d : nat) (v : list (list Z)) : prog (list (list Z)) :=
  pmap (o_poly_decompress d) v.

(** ** encode.rs *)

(** encode.rs:17-36 *)
Definition o_encode_chunk (d : nat) (v b : list Z) : prog (list Z) :=
  do* x := pfold (fun x '(j, vj) =>
                     do* s := o_umul d j in
                     do* t := o_shl W128 vj (Z.of_nat s) in
                     Ret (Z.lor x t))
                  (enumerate v) 0 in
  let xb := to_le_bytes 16 x in
  do* src := o_slice xb 0 (byte_step d) in
  o_copy_from_slice b src.
Definition o_byte_encode (d : nat) (vals : list Z) : prog (list Z) :=
  let zeros := repeat 0 (encoded_poly_size d) in
  do* vc := o_chunks (value_step d) vals in
  do* bc := o_chunks (byte_step d) zeros in
  do* out := pmap (fun '(v, b) => o_encode_chunk d v b) (combine vc bc) in
  Ret (concat out ++ concat (skipn (length vc) bc)).

(** encode.rs:41-66 *)
Definition o_decode_chunk (d : nat) (mask : Z) (v b : list Z) : prog (list Z) :=
  do* xb := o_copy_into (repeat 0 16) 0 (byte_step d) b in
  let x := from_le_bytes xb in
  pmap (fun '(j, _) =>
          do* s := o_umul d j in
          do* s := o_shr W128 x (Z.of_nat s) in
          do* val := o_truncate W16 s in
          let vj := Z.land val mask in
          if Nat.eqb d 12 then act (Rem vj Q) else Ret vj)
       (enumerate v).
Definition o_byte_decode (d : nat) (bytes : list Z) : prog (list Z) :=
  do* one := o_shl W16 1 (Z.of_nat d) in
  do* mask := o_sub W16 one 1 in
  let zeros := repeat 0 256 in
  do* vc := o_chunks (value_step d) zeros in
  do* bc := o_chunks (byte_step d) bytes in
  do* out := pmap (fun '(v, b) => o_decode_chunk d mask v b) (combine vc bc) in
  Ret (concat out ++ concat (skipn (length bc) vc)).

(** encode.rs:74-142 *)
Definition o_vec_encode (d k : nat) (v : list (list Z)) : prog (list Z) :=
  do* l := pmap (o_byte_encode d) v in
  do* polys := o_collect k l in
  o_flatten (encoded_poly_size d) k polys.
Definition o_vec_decode (d k : nat) (enc : list Z) : prog (list (list Z)) :=
  do* unfold := o_unflatten_ref (encoded_vec_size d k) k enc in
  do* l := pmap (o_byte_decode d) unfold in
  o_collect k l.

(** ** algebra.rs, the samplers *)

(** algebra.rs:143-149; the table is a compile-time constant *)
Definition o_poly_sample_cbd (eta : nat) (B : list Z) : prog (list Z) :=
  do* vals := o_byte_decode (2 * eta) B in
  do* ones := act (Constant (ONES eta)) in
  do* l := pmap (fun val => act (Get OnesTable ones (Z.to_nat val))) vals in
  o_collect 256 l.

(** algebra.rs:239-262 *)
Fixpoint o_next_loop (budget : nat) (xof : xof_reader) (data : list Z) (start : nat)
  : prog (Z * fe_reader) :=
  match budget with
  | O => act Give_up
  | S budget =>
      do* refill := act (Test Elsewhere (Nat.eqb start (length data))) in
      do* '(data, xof, start) :=
        (if refill
         then let '(d, x) := xof_read xof (length data) in
              do* _ := act (Hash (length data)) in Ret (d, x, 0%nat)
         else Ret (data, xof, start)) in
      do* stop := o_uadd start 3 in
      do* b := o_slice data start stop in
      let start := stop in
      do* b0 := o_idx b 0 in
      do* b1 := o_idx b 1 in
      do* b2 := o_idx b 2 in
      do* t := o_shl W16 (Z.land b1 15) 8 in
      do* d1 := o_add W16 b0 t in
      do* h := o_shr W16 b1 4 in
      do* t := o_shl W16 b2 4 in
      do* d2 := o_add W16 h t in
      do* c1 := act (Test Elsewhere (d1 <? Q)) in
      if c1 then
        do* c2 := act (Test Elsewhere (d2 <? Q)) in
        Ret (d1, {| fr_xof := xof; fr_data := data; fr_start := start;
                   fr_next := if c2 then Some d2 else None; fr_budget := budget |})
      else
        do* c2 := act (Test Elsewhere (d2 <? Q)) in
        if c2 then
          Ret (d2, {| fr_xof := xof; fr_data := data; fr_start := start;
                     fr_next := None; fr_budget := budget |})
        else o_next_loop budget xof data start
  end.

(** algebra.rs:233-263 *)
Definition o_fe_reader_next (r : fe_reader) : prog (Z * fe_reader) :=
  do* stored := act (Test Elsewhere match fr_next r with Some _ => true | None => false end) in
  if stored then
    Ret (match fr_next r with Some val => val | None => 0 end,
         {| fr_xof := fr_xof r; fr_data := fr_data r; fr_start := fr_start r;
            fr_next := None; fr_budget := fr_budget r |})
  else o_next_loop (fr_budget r) (fr_xof r) (fr_data r) (fr_start r).

(** algebra.rs:219-231, 268-271 *)
Definition o_poly_sample_uniform (budget : nat) (xof : xof_reader) : prog (list Z) :=
  let reader := fe_reader_new budget xof in
  do* _ := act (Hash (length (fr_data reader))) in
  do* '(l, _) := pmap_st (fun r (_ : nat) => o_fe_reader_next r) (seq 0 256) reader in
  Ret l.

Section WithHashes.
  Variable hs : hashes.

  (** crypto.rs:19-32 *)
  Definition o_G (inputs : list (list Z)) : prog (list Z * list Z) :=
    do* _ := act (Hash (length (concat inputs))) in
    let out := sha3_512 hs (concat inputs) in
    do* lo := o_slice out 0 32 in
    do* a := o_copy_from_slice (repeat 0 32) lo in
    do* hi := o_slice out 32 (length out) in
    do* b := o_copy_from_slice (repeat 0 32) hi in
    Ret (a, b).
  (** crypto.rs:34-72 *)
  Definition o_H (x : list Z) : prog (list Z) :=
    do* _ := act (Hash (length x)) in Ret (H hs x).
  Definition o_J (inputs : list (list Z)) : prog (list Z) :=
    do* _ := act (Hash (length (concat inputs))) in Ret (J hs inputs).
  Definition o_PRF (eta : nat) (s : list Z) (b : Z) : prog (list Z) :=
    do* _ := act (Hash (length (concat [s; [b]]))) in Ret (PRF hs eta s b).

  (** algebra.rs:171-180 *)
  Definition o_vec_sample_cbd (k eta : nat) (sigma : list Z) (start_n : Z) : prog (list (list Z)) :=
    o_from_fn k (fun i =>
      do* i8 := o_truncate W8 (Z.of_nat i) in
      do* n := o_add W8 start_n i8 in
      do* prf_output := o_PRF eta sigma n in
      o_poly_sample_cbd eta prf_output).

  (** algebra.rs:423-429, 496-500; [tr] is a constant at every call *)
  Definition o_nttvec_sample_uniform (fuel k : nat) (rho : list Z) (i : nat) (tr : bool)
    : prog (list (list Z)) :=
    o_from_fn k (fun j =>
      let '(i, j) := if tr then (j, i) else (i, j) in
      do* j8 := o_truncate W8 (Z.of_nat j) in
      do* i8 := o_truncate W8 (Z.of_nat i) in
      do* _ := act (Hash (length (concat [rho; [j8; i8]]))) in
      o_poly_sample_uniform fuel (XOF hs rho j8 i8)).
  Definition o_matrix_sample_uniform (fuel k : nat) (rho : list Z) (tr : bool)
    : prog (list (list (list Z))) :=
    o_from_fn k (fun i => o_nttvec_sample_uniform fuel k rho i tr).

  (** ** pke.rs and kem.rs *)
  Variable P : params.

  (** pke.rs:39-60 *)
  Definition o_pke_generate (fuel : nat) (d : list Z) : prog (DecryptionKey * EncryptionKey) :=
    do* '(rho, sigma) := o_G [d; [K_U8 P]] in
    do* A_hat := o_matrix_sample_uniform fuel (pk P) rho false in
    do* s := o_vec_sample_cbd (pk P) (eta1 P) sigma 0 in
    do* e := o_vec_sample_cbd (pk P) (eta1 P) sigma (K_U8 P) in
    do* s_hat := o_vec_ntt (pk P) s in
    do* e_hat := o_vec_ntt (pk P) e in
    do* As := o_matrix_mul (pk P) A_hat s_hat in
    do* t_hat := o_nttvec_add (pk P) As e_hat in
    Ret ({| s_hat := s_hat |}, {| t_hat := t_hat; rho := rho |}).

  (** pke.rs:64-77 *)
  Definition o_decrypt (dk : DecryptionKey) (ciphertext : list Z) : prog (list Z) :=
    let '(c1, c2) := split_ct P ciphertext in
    do* u := o_vec_decode (du P) (pk P) c1 in
    do* u := o_vec_decompress (du P) u in
    do* v := o_byte_decode (dv P) c2 in
    do* v := o_poly_decompress (dv P) v in
    do* u_hat := o_vec_ntt (pk P) u in
    do* su := o_nttvec_dot (s_hat dk) u_hat in
    do* sTu := o_ntt_inverse su in
    do* w := o_poly_sub v sTu in
    do* w := o_poly_compress 1 w in
    o_byte_encode 1 w.

  (** pke.rs:108-129 *)
  Definition o_encrypt (fuel : nat) (ek : EncryptionKey) (message randomness : list Z)
    : prog (list Z) :=
    do* r := o_vec_sample_cbd (pk P) (eta1 P) randomness 0 in
    do* e1 := o_vec_sample_cbd (pk P) (eta2 P) randomness (K_U8 P) in
    do* n2 := o_mul W8 2 (K_U8 P) in
    do* prf_output := o_PRF (eta2 P) randomness n2 in
    do* e2 := o_poly_sample_cbd (eta2 P) prf_output in
    do* A_hat_t := o_matrix_sample_uniform fuel (pk P) (rho ek) true in
    do* r_hat := o_vec_ntt (pk P) r in
    do* Ar := o_matrix_mul (pk P) A_hat_t r_hat in
    do* ATr := o_nttvec_inverse (pk P) Ar in
    do* u := o_vec_add (pk P) ATr e1 in
    do* mu := o_byte_decode 1 message in
    do* mu := o_poly_decompress 1 mu in
    do* tr := o_nttvec_dot (t_hat ek) r_hat in
    do* tTr := o_ntt_inverse tr in
    do* te := o_poly_add tTr e2 in
    do* v := o_poly_add te mu in
    do* u := o_vec_compress (du P) u in
    do* c1 := o_vec_encode (du P) (pk P) u in
    do* v := o_poly_compress (dv P) v in
    do* c2 := o_byte_encode (dv P) v in
    Ret (concat_ct c1 c2).

  (** pke.rs:80-88, 132-145 *)
  Definition o_dk_as_bytes (dk : DecryptionKey) : prog (list Z) := o_vec_encode 12 (pk P) (s_hat dk).
  Definition o_dk_from_bytes (enc : list Z) : prog DecryptionKey :=
    do* s_hat := o_vec_decode 12 (pk P) enc in Ret {| s_hat := s_hat |}.
  Definition o_ek_as_bytes (ek : EncryptionKey) : prog (list Z) :=
    do* t := o_vec_encode 12 (pk P) (t_hat ek) in
    Ret (concat_ek t (rho ek)).
  Definition o_ek_from_bytes (enc : list Z) : prog EncryptionKey :=
    let '(t, rho) := split_ek P enc in
    do* t_hat := o_vec_decode 12 (pk P) t in
    Ret {| t_hat := t_hat; rho := rho |}.

  (** kem.rs:160-163 *)
  Definition o_encaps_key_new (ek : EncryptionKey) : prog encaps_key :=
    do* b := o_ek_as_bytes ek in
    do* h := o_H b in
    Ret {| ek_pke := ek; ek_h := h |}.
  (** kem.rs:178-180 *)
  Definition o_encaps_key_from_bytes (enc : list Z) : prog encaps_key :=
    do* ek := o_ek_from_bytes enc in o_encaps_key_new ek.
  (** kem.rs:54-69 *)
  Definition o_decaps_key_from_bytes (enc : list Z) : prog decaps_key :=
    let '(dk_pke, ek_pke, h, z) := split_dk P enc in
    do* ek_pke := o_ek_from_bytes ek_pke in
    do* dk_pke := o_dk_from_bytes dk_pke in
    Ret {| dk_pke := dk_pke; dk_ek := {| ek_pke := ek_pke; ek_h := h |}; dk_z := z |}.
  (** kem.rs:71-75 *)
  Definition o_decaps_key_as_bytes (dk : decaps_key) : prog (list Z) :=
    do* dkp := o_dk_as_bytes (dk_pke dk) in
    do* ek := o_ek_as_bytes (ek_pke (dk_ek dk)) in
    Ret (concat_dk dkp ek (ek_h (dk_ek dk)) (dk_z dk)).
  (** kem.rs:137-142 *)
  Definition o_decaps_key_generate_deterministic (fuel : nat) (d z : list Z) : prog decaps_key :=
    do* '(dk_pke, ek_pke) := o_pke_generate fuel d in
    do* ek := o_encaps_key_new ek_pke in
    Ret {| dk_pke := dk_pke; dk_ek := ek; dk_z := z |}.
  (** kem.rs:165-169, 209-214 *)
  Definition o_encapsulate_deterministic (fuel : nat) (ek : encaps_key) (m : list Z)
    : prog (list Z * list Z) :=
    do* '(K, r) := o_G [m; ek_h ek] in
    do* c := o_encrypt fuel (ek_pke ek) m r in
    Ret (c, K).
  (** kem.rs:107-116 *)
  Definition o_ct_compare (cp ct : list Z) : prog Z :=
    pfold (fun a '(x, y) => Ret (Z.land a (constant_time_eq x y))) (combine cp ct) 255.
  Definition o_ct_select (equal : Z) (Kp Kbar : list Z) : prog (list Z) :=
    do* l := pmap (fun '(x, y) => Ret (Z.lor (Z.land equal x) (Z.land (unot W8 equal) y)))
                  (combine Kp Kbar) in
    o_collect 32 l.
  (** kem.rs:91-117 *)
  Definition o_decapsulate (fuel : nat) (dk : decaps_key) (encapsulated_key : list Z)
    : prog (list Z) :=
    do* mp := o_decrypt (dk_pke dk) encapsulated_key in
    do* '(Kp, rp) := o_G [mp; ek_h (dk_ek dk)] in
    do* Kbar := o_J [dk_z dk; encapsulated_key] in
    do* cp := o_encrypt fuel (ek_pke (dk_ek dk)) mp rp in
    do* equal := o_ct_compare cp encapsulated_key in
    o_ct_select equal Kp Kbar.
End WithHashes.

(** Model of ml-kem/src/kem.rs: the public ML-KEM API.

    Names: [decaps_key] / [encaps_key] are the Rust types [DecapsulationKey] /
    [EncapsulationKey].  Functions returning [Result<_, Infallible>] are modelled by
    their [Ok] payload. *)
From Coq Require Import List ZArith Bool.
From Verif.Base Require Import Res Oracles.
From Verif.Model Require Import Machine Util Algebra Compress Encode Crypto Sample Param Pke.
Import ListNotations.
Open Scope Z_scope.

(** kem.rs:148-154 *)
Record encaps_key := { ek_pke : EncryptionKey; ek_h : list Z }.
(** kem.rs:24-31 *)
Record decaps_key := { dk_pke : DecryptionKey; dk_ek : encaps_key; dk_z : list Z }.

(** kem.rs:79-83 *)
Definition constant_time_eq (x y : Z) : Z :=
  let diff := Z.lxor x y in
  let is_zero := Z.land (unot W8 diff) (wrapping_sub W8 diff 1) in
  wrapping_sub W8 0 (Z.shiftr is_zero 7).

(** kem.rs:107-111 *)
Definition ct_compare (cp ct : list Z) : Z :=
  fold_left Z.land (map (fun '(x, y) => constant_time_eq x y) (combine cp ct)) 255.

(** kem.rs:112-116 *)
Definition ct_select (equal : Z) (Kp Kbar : list Z) : res (list Z) :=
  collect 32 (map (fun '(x, y) => Z.lor (Z.land equal x) (Z.land (unot W8 equal) y))
                  (combine Kp Kbar)).

Section WithParams.
  Variable hs : hashes.
  Variable P : params.

  (** kem.rs:160-163 *)
  Definition encaps_key_new (ek : EncryptionKey) : res encaps_key :=
    let* b := ek_as_bytes P ek in
    let h := H hs b in
    Ok {| ek_pke := ek; ek_h := h |}.

  (** kem.rs:178-180 *)
  Definition encaps_key_from_bytes (enc : list Z) : res encaps_key :=
    let* ek := ek_from_bytes P enc in encaps_key_new ek.

  (** kem.rs:182-184 *)
  Definition encaps_key_as_bytes (ek : encaps_key) : res (list Z) := ek_as_bytes P (ek_pke ek).

  (** kem.rs:54-69 *)
  Definition decaps_key_from_bytes (enc : list Z) : res decaps_key :=
    let '(dk_pke, ek_pke, h, z) := split_dk P enc in
    let* ek_pke := ek_from_bytes P ek_pke in
    let* dk_pke := dk_from_bytes P dk_pke in
    Ok {| dk_pke := dk_pke; dk_ek := {| ek_pke := ek_pke; ek_h := h |}; dk_z := z |}.

  (** kem.rs:71-75 *)
  Definition decaps_key_as_bytes (dk : decaps_key) : res (list Z) :=
    let* dkp := dk_as_bytes P (dk_pke dk) in
    let* ek := encaps_key_as_bytes (dk_ek dk) in
    Ok (concat_dk dkp ek (ek_h (dk_ek dk)) (dk_z dk)).

  (** kem.rs:125-127 *)
  Definition encapsulation_key (dk : decaps_key) : encaps_key := dk_ek dk.

  (** kem.rs:137-142 *)
  Definition decaps_key_generate_deterministic (fuel : nat) (d z : list Z) : res decaps_key :=
    let* '(dk_pke, ek_pke) := pke_generate hs P fuel d in
    let* ek := encaps_key_new ek_pke in
    Ok {| dk_pke := dk_pke; dk_ek := ek; dk_z := z |}.

  (** kem.rs:129-133; returns the new RNG state as well *)
  Definition decaps_key_generate (fuel : nat) (g : rng) (s : rng_state g)
    : res (decaps_key * rng_state g) :=
    let '(d, s) := rand g s in
    let '(z, s) := rand g s in
    let* dk := decaps_key_generate_deterministic fuel d z in
    Ok (dk, s).

  (** kem.rs:165-169 *)
  Definition encapsulate_deterministic_inner (fuel : nat) (ek : encaps_key) (m : list Z)
    : res (list Z * list Z) :=
    let* '(K, r) := G hs [m; ek_h ek] in
    let* c := encrypt hs P fuel (ek_pke ek) m r in
    Ok (c, K).

  (** kem.rs:209-214 *)
  Definition encapsulate_deterministic := encapsulate_deterministic_inner.

  (** kem.rs:193-199 *)
  Definition encapsulate (fuel : nat) (ek : encaps_key) (g : rng) (s : rng_state g)
    : res (list Z * list Z * rng_state g) :=
    let '(m, s) := rand g s in
    let* '(c, K) := encapsulate_deterministic_inner fuel ek m in
    Ok (c, K, s).

  (** kem.rs:91-117 *)
  Definition decapsulate (fuel : nat) (dk : decaps_key) (encapsulated_key : list Z)
    : res (list Z) :=
    let* mp := decrypt P (dk_pke dk) encapsulated_key in
    let* '(Kp, rp) := G hs [mp; ek_h (dk_ek dk)] in
    let Kbar := J hs [dk_z dk; encapsulated_key] in
    let* cp := encrypt hs P fuel (ek_pke (dk_ek dk)) mp rp in
    let equal := ct_compare cp encapsulated_key in
    ct_select equal Kp Kbar.

  (** kem.rs:236-240, [KemCore::generate] *)
  Definition kem_generate (fuel : nat) (g : rng) (s : rng_state g)
    : res (decaps_key * encaps_key * rng_state g) :=
    let* '(dk, s) := decaps_key_generate fuel g s in
    Ok (dk, encapsulation_key dk, s).

  (** kem.rs:243-250, [KemCore::generate_deterministic] *)
  Definition kem_generate_deterministic (fuel : nat) (d z : list Z)
    : res (decaps_key * encaps_key) :=
    let* dk := decaps_key_generate_deterministic fuel d z in
    Ok (dk, encapsulation_key dk).
End WithParams.

(** kem.rs:34-42 (feature zeroize): the state of the key's memory after [drop] *)
Definition decaps_key_drop (dk : decaps_key) : decaps_key :=
  {| dk_pke := dk_zeroize (dk_pke dk); dk_ek := dk_ek dk;
     dk_z := map (fun _ => 0) (dk_z dk) |}.

(** Derived [PartialEq]: fieldwise (kem.rs:23, 147; pke.rs:15, 93; algebra.rs:17, 184,
    419), i.e. equality of the underlying integers and bytes. *)
Definition bytes_eqb (a b : list Z) : bool := if list_eq_dec Z.eq_dec a b then true else false.
Definition nttvec_eqb (a b : list (list Z)) : bool :=
  if list_eq_dec (list_eq_dec Z.eq_dec) a b then true else false.
Definition encaps_key_eqb (a b : encaps_key) : bool :=
  nttvec_eqb (t_hat (ek_pke a)) (t_hat (ek_pke b)) && bytes_eqb (rho (ek_pke a)) (rho (ek_pke b)) &&
  bytes_eqb (ek_h a) (ek_h b).
Definition decaps_key_eqb (a b : decaps_key) : bool :=
  nttvec_eqb (s_hat (dk_pke a)) (s_hat (dk_pke b)) && encaps_key_eqb (dk_ek a) (dk_ek b) &&
  bytes_eqb (dk_z a) (dk_z b).

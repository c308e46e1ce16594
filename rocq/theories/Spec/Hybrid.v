(** The reduction from X-Wing to ML-KEM: an attacker against X-Wing, turned into an attacker
    against ML-KEM that draws the X25519 keys itself. *)
From Coq Require Import List ZArith QArith.
From Verif.Base Require Import Oracles.
From Verif.Spec Require Import FIPS203 XWing Random Lwe Attacker Tables.
Import ListNotations.
Open Scope Z_scope.

(** The hash functions [hs], except that SHA3-256 of [pre] || x is TH(x), for the x in [LX] *)
Definition with_H_table (hs : hashes) (pre : list Z) (LX TH : list (list Z)) : hashes := {|
  sha3_256 := fun x =>
    if list_eq_dec Z.eq_dec (firstn (length pre) x) pre then
      match entry LX TH (skipn (length pre) x) with Some v => v | None => sha3_256 hs x end
    else sha3_256 hs x;
  sha3_512 := sha3_512 hs;
  shake128 := shake128 hs;
  shake256 := shake256 hs
|}.
(** except that the stream SHAKE128 of [sk] starts with [B] *)
Definition with_seed (hs : hashes) (sk B : list Z) : hashes := {|
  sha3_256 := sha3_256 hs;
  sha3_512 := sha3_512 hs;
  shake128 := fun x i =>
    if list_eq_dec Z.eq_dec x sk then (if Nat.ltb i (length B) then nth i B 0 else shake128 hs x i) else shake128 hs x i;
  shake256 := shake256 hs
|}.

(** ask SHA3-256, unless [look] knows the answer *)
Definition ask (look : list Z -> option (list Z)) (x : list Z) (next : list Z -> attacker) : attacker :=
  match look x with Some v => next v | None => Ask Sha3_256 x 32 next end.

(** The attacker [a] against X-Wing with X25519 secret key [skx] and public key [pkx], turned
    into an attacker against ML-KEM-768 with challenge [c0]; [c0] || [cx0] is the challenge of
    X-Wing.  A ciphertext whose ML-KEM part is [c0] is answered from the table [TH], every
    other one by asking the owner of the ML-KEM key. *)
Fixpoint wrap (X25519 : list Z -> list Z -> list Z) (LX TH LXC : list (list Z)) (look : list Z -> option (list Z))
  (skx pkx c0 cx0 : list Z) (a : attacker) : attacker :=
  match a with
  | Answer p => Answer p
  | Ask Sha3_256 x len next => ask look x (fun y => wrap X25519 LX TH LXC look skx pkx c0 cx0 (next y))
  | Ask f x len next => Ask f x len (fun y => wrap X25519 LX TH LXC look skx pkx c0 cx0 (next y))
  | Decaps ct next =>
      let cm := firstn 1088 ct in
      let cx := skipn 1088 ct in
      let rest := X25519 skx cx ++ cx ++ pkx in
      if list_eq_dec Z.eq_dec ct (c0 ++ cx0) then wrap X25519 LX TH LXC look skx pkx c0 cx0 (next [])
      else if in_dec (list_eq_dec Z.eq_dec) ct LXC then
        if list_eq_dec Z.eq_dec cm c0 then
          wrap X25519 LX TH LXC look skx pkx c0 cx0 (next (match entry LX TH rest with Some v => v | None => [] end))
        else Decaps cm (fun K => ask look (XWingLabel ++ K ++ rest)
               (fun y => wrap X25519 LX TH LXC look skx pkx c0 cx0 (next y)))
      else wrap X25519 LX TH LXC look skx pkx c0 cx0 (next [])
  end.

(** The attacker against ML-KEM: given K, it answers questions about label || K || x from
    [TH], and shows [att] the public key, the challenge, and the entry of [TH] for the
    challenge or (if not [real]) the string [V]. *)
Definition lookup (LX TH : list (list Z)) (K x : list Z) : option (list Z) :=
  if list_eq_dec Z.eq_dec (firstn 38 x) (XWingLabel ++ K) then entry LX TH (skipn 38 x) else None.
Definition xw_attacker (X25519 : list Z -> list Z -> list Z) (LX LXC : list (list Z))
  (att : list Z -> list Z -> list Z -> attacker) (real : bool)
  (skx ekx : list Z) (TH : list (list Z)) (V ek c K : list Z) : attacker :=
  let pkx := X25519 skx X25519_BASE in
  let cx := X25519 ekx X25519_BASE in
  let shown := if real then match entry LX TH (X25519 ekx pkx ++ cx ++ pkx) with Some v => v | None => [] end else V in
  wrap X25519 LX TH LXC (lookup LX TH K) skx pkx c cx (att (ek ++ pkx) (c ++ cx) shown).

(** an RNG that answers from a given string *)
Definition reader : rng := {|
  rng_state := list Z;
  fill_bytes := fun s n => (tab n (fun i => nth i s 0 mod 256), skipn n s)
|}.

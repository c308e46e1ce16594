(** Hexadecimal literals for the test vectors. *)
From Coq Require Import List ZArith String Ascii.
Import ListNotations.
Open Scope Z_scope.

Definition hexdigit (c : ascii) : Z :=
  let n := Z.of_nat (nat_of_ascii c) in
  if n <? 58 then n - 48 else if n <? 71 then n - 55 else n - 87.
Fixpoint hex (s : string) : list Z :=
  match s with
  | String a (String b r) => (16 * hexdigit a + hexdigit b) :: hex r
  | _ => []
  end.

(** The decimal numbers in a text, in order. *)
From Coq Require Import List ZArith Bool Ascii.
Import ListNotations.
Open Scope Z_scope.

Definition digit_value (c : ascii) : option Z :=
  let n := nat_of_ascii c in
  if (48 <=? n)%nat && (n <=? 57)%nat then Some (Z.of_nat n - 48) else None.

(** [current]: the number that is being read *)
Fixpoint numbers_from (t : list ascii) (current : option Z) : list Z :=
  match t with
  | [] => match current with Some a => [a] | None => [] end
  | c :: t' =>
      match digit_value c with
      | Some d => numbers_from t' (Some (match current with Some a => 10 * a + d | None => d end))
      | None => match current with Some a => [a] | None => [] end ++ numbers_from t' None
      end
  end.
Definition numbers (t : list ascii) : list Z := numbers_from t None.

(** no digits *)
Definition quiet (t : list ascii) : Prop := Forall (fun c => digit_value c = None) t.

(** [{:?}] on a decapsulation key: the derived [Debug] impls, as text.

    Outside the repository: core's [debug_struct], [debug_tuple], [debug_list] and the decimal
    form of integers, by their documented output; hybrid-array's [Debug] of [Array] puts some
    text without digits ([before], [after]) around that of the slice. *)
From Coq Require Import Ascii String.
From Coq Require Import List ZArith Bool.
From Verif.Base Require Import Res Oracles.
From Verif.Model Require Import Machine Param Pke Kem.
Import ListNotations.
Open Scope Z_scope.

Definition text : Type := list ascii.
Definition txt (s : string) : text := list_ascii_of_string s.

(** core: an unsigned integer in decimal; [fuel] digits at most *)
Definition digit (d : Z) : ascii := ascii_of_nat (48 + Z.to_nat d).
Fixpoint decimal_onto (fuel : nat) (x : Z) (acc : text) : text :=
  match fuel with
  | O => acc
  | S f => let acc := digit (x mod 10) :: acc in if x <? 10 then acc else decimal_onto f (x / 10) acc
  end.
Definition dbg_u16 (x : Z) : text := decimal_onto 5 x [].
Definition dbg_u8 (x : Z) : text := decimal_onto 3 x [].

(** core: [Name(x)], [Name { a: x, b: y }], [[x, y]] *)
Definition dbg_tuple (name : string) (x : text) : text := txt name ++ txt "(" ++ x ++ txt ")".
Fixpoint dbg_join (l : list text) : text :=
  match l with
  | [] => []
  | x :: l' => x ++ match l' with [] => [] | _ => txt ", " ++ dbg_join l' end
  end.
Definition dbg_struct (name : string) (fields : list (string * text)) : text :=
  txt name ++ txt " { " ++ dbg_join (map (fun '(f, x) => txt f ++ txt ": " ++ x) fields) ++ txt " }".
Definition dbg_slice {A} (dbg : A -> text) (l : list A) : text := txt "[" ++ dbg_join (map dbg l) ++ txt "]".

Section Debug.
  Variable before after : text.
  Definition dbg_array {A} (dbg : A -> text) (l : list A) : text := before ++ dbg_slice dbg l ++ after.

  (** algebra.rs:17 *)
  Definition dbg_field_element (x : Z) : text := dbg_tuple "FieldElement" (dbg_u16 x).
  (** algebra.rs:184 *)
  Definition dbg_nttpoly (p : list Z) : text := dbg_tuple "NttPolynomial" (dbg_array dbg_field_element p).
  (** algebra.rs:419 *)
  Definition dbg_nttvec (v : list (list Z)) : text := dbg_tuple "NttVector" (dbg_array dbg_nttpoly v).
  (** pke.rs:15 *)
  Definition dbg_decryption_key (dk : DecryptionKey) : text := dbg_struct "DecryptionKey" [("s_hat"%string, dbg_nttvec (s_hat dk))].
  (** pke.rs:93 *)
  Definition dbg_encryption_key (ek : EncryptionKey) : text :=
    dbg_struct "EncryptionKey" [("t_hat"%string, dbg_nttvec (t_hat ek)); ("rho"%string, dbg_array dbg_u8 (rho ek))].
  (** kem.rs:147 *)
  Definition dbg_encaps_key (ek : encaps_key) : text :=
    dbg_struct "EncapsulationKey" [("ek_pke"%string, dbg_encryption_key (ek_pke ek)); ("h"%string, dbg_array dbg_u8 (ek_h ek))].
  (** kem.rs:23 *)
  Definition dbg_decaps_key (dk : decaps_key) : text :=
    dbg_struct "DecapsulationKey"
      [("dk_pke"%string, dbg_decryption_key (dk_pke dk)); ("ek"%string, dbg_encaps_key (dk_ek dk));
       ("z"%string, dbg_array dbg_u8 (dk_z dk))].
End Debug.

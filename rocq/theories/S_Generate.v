(** Generated values. *)
From Verif Require Import Base.
Notation length := List.length.

Section Generated.
  Variable F : Type.
  (** Letters and digits, fewer than [max]. *)
  Definition short_text (max : Z) (s : bytes) : Prop :=
    (Z.of_nat (length s) < max)%Z /\
    forall c, In c s -> (97 <= c <= 122 \/ 65 <= c <= 90 \/ 48 <= c <= 57)%N.
  Inductive generated (max : Z) : bytes -> gval F -> Prop :=
  | ge_string : forall s, short_text max s -> generated max (bs "string") (VStr s)
  | ge_bool : generated max (bs "boolean") (VBool true)
  | ge_number : forall x, generated max (bs "number") (VFloat x)
  | ge_integer : forall i, (0 <= i < 2 ^ 63 - 1)%Z -> generated max (bs "integer") (VInt i)
  | ge_object : generated max (bs "object") (VMap [])
  | ge_array : generated max (bs "array") (VArr [])
  | ge_null : generated max (bs "null") VNil
  (** A type that is none of these gets a value of one of the others but object and array. *)
  | ge_any : forall t u v,
      ~ In t [bs "string"; bs "boolean"; bs "number"; bs "integer"; bs "object"; bs "array"; bs "null"] ->
      In u [bs "string"; bs "boolean"; bs "number"; bs "integer"; bs "null"] -> generated max u v -> generated max t v.
  (** A row: for each column, given by its list of types, a value of the first. *)
  Definition generated_row (max : Z) (types : list (list bytes)) (row : list (gval F)) : Prop :=
    Forall2 (fun ts v => exists t r, ts = t :: r /\ generated max t v) types row.
End Generated.

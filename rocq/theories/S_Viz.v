(** What a page may say about a dataset. *)
From Verif Require Import Base M_Decimal S_Stream M_Preview M_Viz.

(** Units of size. *)
Definition units : list (bytes * Z) :=
  [(bs "byte", 1); (bs "KB", 1024); (bs "MB", 1024 * 1024); (bs "GB", 1024 * 1024 * 1024); (bs "TB", 1024 * 1024 * 1024 * 1024);
   (bs "PB", 1024 * 1024 * 1024 * 1024 * 1024)]%Z.
(** A size in the largest unit that is not larger than it (bytes if there is none), rounded down. *)
Definition sized (n : Z) (text : bytes) : Prop :=
  exists name u q, In (name, u) units /\ (u = 1 \/ u <= n)%Z /\ (forall name' u', In (name', u') units -> u < u' -> n < u')%Z /\
    (q * u <= n < (q + 1) * u)%Z /\
    exists plural, text = itoa q ++ 32%N :: name ++ plural /\ (q = 1%Z /\ plural = [] \/ q <> 1%Z /\ plural = bs "s").

(** Names of kinds of values. *)
Inductive kind_of {F : Type} : gval F -> bytes -> Prop :=
| ko_str : forall s, kind_of (VStr s) (bs "string")
| ko_map : forall m, kind_of (VMap m) (bs "object")
| ko_arr : forall l, kind_of (VArr l) (bs "array")
| ko_bool : forall b, kind_of (VBool b) (bs "boolean")
| ko_float : forall f, kind_of (VFloat f) (bs "number")
| ko_int : forall i, kind_of (VInt i) (bs "number").
Definition kinds : list bytes := [bs "string"; bs "object"; bs "array"; bs "boolean"; bs "number"].

(** The value of a body: the list of values, or the map from each key to its last value. *)
Inductive body_value {F : Type} : bool -> list (entry F) -> gval F -> Prop :=
| bv_arr : forall es, body_value false es (VArr (map e_val es))
| bv_obj : forall es m, (forall k, map_get k m = last_value k es) -> body_value true es (VMap m).

(** A template that comes to its end: every body it asks for is given. *)
Inductive renders {F : Type} (call : option pfile -> Z -> Z -> gval F -> option pfile -> Prop) : tmpl F -> option pfile -> bytes -> option pfile -> Prop :=
| rn_end : forall out body, renders call (TEnd (Ok out)) body out body
| rn_body : forall offset limit next body v body1 out body2, call body offset limit v body1 -> renders call (next v) body1 out body2 ->
    renders call (TBody offset limit next) body out body2.

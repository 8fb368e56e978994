(** Specification of step files. *)
From Verif Require Import Base.

(** A line of three dashes, as the file format documents it. *)
Definition separator : bytes := [cLF] ++ bs "---" ++ [cLF].

(** [sep] occurs in [s] starting at position [i]. *)
Definition occurs_at (sep s : bytes) (i : nat) : Prop :=
  exists a b, s = a ++ sep ++ b /\ length a = i.

(** Scripts can be told apart when joined with [sep]: in each script but the last, followed by the separator,
    the separator does not occur before the end of the script; in the last it does not occur at all. *)
Fixpoint separable (sep : bytes) (xs : list bytes) : Prop :=
  match xs with
  | [] => False
  | [x] => forall i, ~ occurs_at sep x i
  | x :: xs' => (forall i, occurs_at sep (x ++ sep) i -> (length x <= i)%nat) /\ separable sep xs'
  end.

(** Scripts joined by separators. *)
Fixpoint joined (sep : bytes) (xs : list bytes) : bytes :=
  match xs with
  | [] => []
  | [x] => x
  | x :: xs' => x ++ sep ++ joined sep xs'
  end.

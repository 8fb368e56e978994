(** Models of the Go standard library string functions used by the repository (package strings). *)
From Verif Require Import Base.

(** strings.HasPrefix; returns the remainder. *)
Fixpoint strip_prefix (p s : bytes) : option bytes :=
  match p, s with
  | [], _ => Some s
  | x :: p', y :: s' => if N.eqb x y then strip_prefix p' s' else None
  | _ :: _, [] => None
  end.

(** Cut at the first occurrence of [sep]: (before, Some after), or (s, None) if it does not occur. *)
Fixpoint cut (sep s : bytes) : bytes * option bytes :=
  match strip_prefix sep s with
  | Some r => ([], Some r)
  | None =>
      match s with
      | [] => ([], None)
      | c :: t => let '(a, r) := cut sep t in (c :: a, r)
      end
  end.

(** strings.Split(s, sep) for a non-empty separator.  Fuel [length s + 1] is always enough. *)
Fixpoint split_fuel (fuel : nat) (sep s : bytes) : list bytes :=
  match fuel with
  | O => [s]
  | S fuel' =>
      match cut sep s with
      | (a, Some r) => a :: split_fuel fuel' sep r
      | (a, None) => [a]
      end
  end.
Definition split (sep s : bytes) : list bytes := split_fuel (S (length s)) sep s.

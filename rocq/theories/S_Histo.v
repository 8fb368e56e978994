(** Specification of the histogram sketch: what was added, independent of centroids. *)
From Coq Require Import ZArith QArith.
From Verif Require Import Base.

(** Values with how often each was added. *)
Section Added.
  Variable F : Type.
  Variables fle : F -> F -> bool.
  Definition same (a b : F) : Prop := fle a b = true /\ fle b a = true.
  (** How many values were added; how many of them are p. *)
  Definition added (vs : list (F * Z)) : Z := fold_right (fun v s => (snd v + s)%Z) 0%Z vs.
  Inductive times (p : F) : list (F * Z) -> Z -> Prop :=
  | tm_nil : times p [] 0
  | tm_yes : forall v n vs k, same v p -> times p vs k -> times p ((v, n) :: vs) (n + k)
  | tm_no : forall v n vs k, ~ same v p -> times p vs k -> times p ((v, n) :: vs) k.
  (** At most d different values. *)
  Definition at_most_distinct (d : nat) (vs : list (F * Z)) : Prop :=
    exists ds, (length ds <= d)%nat /\ incl ds (map fst vs) /\ forall v n, In (v, n) vs -> exists x, In x ds /\ same x v.
  Definition least (a : F) (vs : list (F * Z)) : Prop := (exists v n, In (v, n) vs /\ same v a) /\ forall v n, In (v, n) vs -> fle a v = true.
  Definition greatest (a : F) (vs : list (F * Z)) : Prop := (exists v n, In (v, n) vs /\ same v a) /\ forall v n, In (v, n) vs -> fle v a = true.
  (** How many of the values added have a property. *)
  Definition count_if (f : F -> bool) (vs : list (F * Z)) : Z := fold_right (fun v s => if f (fst v) then (snd v + s)%Z else s) 0%Z vs.
  (** Bins in ascending order. *)
  Fixpoint ascending (l : list F) : Prop :=
    match l with
    | [] => True
    | a :: r => (forall b, In b r -> fle a b = true /\ fle b a = false) /\ ascending r
    end.
End Added.
(** The sum of the values added. *)
Definition mass (vs : list (Q * Z)) : Q := fold_right (fun v s => fst v * inject_Z (snd v) + s)%Q 0%Q vs.
(** The middle of the ranks that the copies of v take among the values in order. *)
Definition mid_rank (v : Q) (vs : list (Q * Z)) : Q :=
  (inject_Z (count_if Q (fun x => negb (Qle_bool v x)) vs) + inject_Z (count_if Q (fun x => Qeq_bool x v) vs) / 2)%Q.

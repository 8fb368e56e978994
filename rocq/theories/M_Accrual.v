(** Model of AccuralDuration (meta.go:512-577).  A time.Duration is a number of nanoseconds. *)
From Verif Require Import Base.
From Coq Require Import ZArith.
Open Scope Z_scope.

Definition second : Z := 1000000000.
Definition hour : Z := 3600 * second.
(** meta.go:515-577: the cases of the switch in order.  Go divides integers; all are positive. *)
Definition accrual_cases : list (bytes * Z) :=
  [ (bs "R/P10Y", hour * 24 * 365 * 10); (bs "R/P4Y", hour * 24 * 365 * 4); (bs "R/P1Y", hour * 24 * 365);
    (bs "R/P2M", hour * 24 * 30 * 10); (bs "R/P3.5D", hour * 24 * 4); (bs "R/P1D", hour * 24); (bs "R/P2W", hour * 24 * 14);
    (bs "R/P6M", hour * 24 * 30 * 6); (bs "R/P2Y", hour * 24 * 365 * 2); (bs "R/P3Y", hour * 24 * 365 * 3);
    (bs "R/P0.33W", hour * 24 * 7 / 3); (bs "R/P0.33M", hour * 24 * 30 / 3); (bs "R/PT1S", second); (bs "R/P1M", hour * 24 * 30);
    (bs "R/P3M", hour * 24 * 365 / 7); (bs "R/P0.5M", hour * 24 * 15); (bs "R/P4M", hour * 24 * 365 / 4); (bs "R/P1W", hour * 24 * 7);
    (bs "R/PT1H", hour) ].
(** meta.go:514-578, AccuralDuration *)
Definition accrual_duration (p : bytes) : Z :=
  match find (fun c => beqb p (fst c)) accrual_cases with Some c => snd c | None => 0 end.

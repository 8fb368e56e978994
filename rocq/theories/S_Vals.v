(** Orders and number texts, without reference to the model. *)
From Verif Require Import Base.

(** The order of texts: at the first difference, or by being a beginning of the other. *)
Definition before (a b : bytes) : Prop :=
  (exists c r, b = a ++ c :: r) \/
  (exists p c d x y, a = p ++ c :: x /\ b = p ++ d :: y /\ (c < d)%N).

(** Decimal numerals and what they are worth. *)
Inductive numeral : bytes -> N -> Prop :=
| nu_one : forall c, (48 <= c <= 57)%N -> numeral [c] (c - 48)
| nu_more : forall s n c, numeral s n -> (48 <= c <= 57)%N -> numeral (s ++ [c]) (10 * n + (c - 48)).
(** Signed numerals. *)
Inductive integer_text : bytes -> Z -> Prop :=
| it_plain : forall s n, numeral s n -> integer_text s (Z.of_N n)
| it_plus : forall s n, numeral s n -> integer_text (43%N :: s) (Z.of_N n)
| it_minus : forall s n, numeral s n -> integer_text (45%N :: s) (- Z.of_N n).
Definition int64 (z : Z) : Prop := (- 2 ^ 63 <= z < 2 ^ 63)%Z.

(** The first byte that is neither a space nor a line break. *)
Inductive leads (c : N) : bytes -> Prop :=
| ld_here : forall s, c <> 32%N -> c <> 10%N -> leads c (c :: s)
| ld_skip : forall b s, b = 32%N \/ b = 10%N -> leads c s -> leads c (b :: s).

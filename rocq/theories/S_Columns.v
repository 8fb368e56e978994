(** Specification of column names. *)
From Verif Require Import Base.

(** A spreadsheet column name is a non-empty word over A..Z; its number is its value in bijective base 26
    (A=1 ... Z=26, AA=27, ...). *)
Definition upper (c : byte) : Prop := (65 <= c <= 90)%N.
Definition lower (c : byte) : Prop := (97 <= c <= 122)%N.
Definition col_number (w : bytes) : Z := fold_left (fun v c => v * 26 + (Z.of_N c - 64))%Z w 0%Z.

(** The number denoted by base 26 digits, most significant first. *)
Definition base26_value (ds : list Z) : Z := fold_left (fun v c => v * 26 + c)%Z ds 0%Z.
Definition base26_repr (ds : list Z) (n : Z) : Prop :=
  base26_value ds = n /\ Forall (fun c => 0 <= c < 26)%Z ds /\ (forall c t, ds = c :: t -> 0 < c)%Z.

(** Digits that AbstractColumnName cannot tell apart: 0 and 1, except in the last place. *)
Fixpoint same_name_digits (a b : list Z) : Prop :=
  match a, b with
  | [], [] => True
  | [x], [y] => x = y
  | x :: a', y :: b' => (x = y \/ (x <= 1 /\ y <= 1)%Z) /\ same_name_digits a' b'
  | _, _ => False
  end.

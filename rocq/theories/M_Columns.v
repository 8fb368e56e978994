(** Model of the column naming helpers: dsio/xlsx.go:268-340 and structure.go:334-364.
    Go int division truncates, so Z.quot/Z.rem.  Simplification: ints are unbounded (the 64 bit overflow of
    largestLesserExponent above 26^13 is not modelled). *)
From Verif Require Import Base.

(** dsio/xlsx.go:275-283, largestLesserExponent.  Fuel: the number of doublings of num is enough. *)
Fixpoint lle_loop (fuel : nat) (num base prev exp : Z) : option Z :=
  match fuel with
  | O => None
  | S fuel' => if (exp <=? num)%Z then lle_loop fuel' num base exp (exp * base) else Some prev
  end.
Definition largest_lesser_exponent (num base : Z) : option Z :=
  lle_loop (S (Z.to_nat (Z.log2 (Z.abs num + 1)) + 1)) num base 1 base.

(** dsio/xlsx.go:333-338: for d := b26Denominator; d > 0; d = d / 26 *)
Fixpoint b26_loop (fuel : nat) (d x : Z) : list Z :=
  match fuel with
  | O => []
  | S fuel' => if (d <=? 0)%Z then [] else Z.quot x d :: b26_loop fuel' (Z.quot d 26) (Z.rem x d)
  end.
(** dsio/xlsx.go:326-340, intToBase26. *)
Definition int_to_base26 (x : Z) : option (list Z) :=
  match largest_lesser_exponent x 26 with
  | Some d => Some (b26_loop (S (Z.to_nat (Z.log2 (d + 1)) + 1)) d x)
  | None => None
  end.

(** dsio/xlsx.go:309-324, smooshBase26Slice: one pass from the last but one part to the second.  On the reversed
    slice (least significant first, last part dropped) this is one left-to-right pass: [smoosh_up part rest]
    handles [part] (index i) whose greater neighbour is the head of [rest] (index i-1). *)
Fixpoint smoosh_up (part : Z) (rest : list Z) : list Z :=
  match rest with
  | [] => [part]
  | greater :: rest' =>
      if Z.eqb part 0 && (0 <? greater)%Z
      then 26%Z :: smoosh_up (greater - 1) rest'
      else part :: smoosh_up greater rest'
  end.
Definition smoosh (b26 : list Z) : list Z :=
  match rev b26 with
  | [] => []
  | [last] => [last]
  | last :: part :: rest => rev (last :: smoosh_up part rest)
  end.

(** dsio/xlsx.go:287-307, formatColumnName; string(rune(n)) for n < 128 is one byte. *)
Fixpoint format_column_name (parts : list Z) : bytes :=
  match parts with
  | [] => []
  | [last] => [Z.to_N (last + 65)]
  | part :: rest => (if (0 <? part)%Z then [Z.to_N (part + 64)] else []) ++ format_column_name rest
  end.

(** dsio/xlsx.go:268-271, ColIndexToLetters.  None only if the fuel were insufficient. *)
Definition col_index_to_letters (x : Z) : option bytes :=
  match int_to_base26 x with
  | Some parts => Some (format_column_name (smoosh parts))
  | None => None
  end.

(** structure.go:352-355: the digits, least significant first. *)
Fixpoint b26_digits (fuel : nat) (d : Z) : list Z :=
  match fuel with
  | O => []
  | S fuel' => if Z.eqb d 0 then [] else Z.rem d 26 :: b26_digits fuel' (Z.quot d 26)
  end.

(** structure.go:358,360: indexing b26chars panics outside 0..25. *)
Definition b26_char (i : Z) : res byte :=
  if (0 <=? i)%Z && (i <? 26)%Z then Ok (Z.to_N (97 + i)) else Panic.

(** structure.go:356-362: [ds] are the digits from most to least significant. *)
Fixpoint b26_string (ds : list Z) : res bytes :=
  match ds with
  | [] => Ok []
  | c :: rest =>
      let idx := match rest with [] => c | _ => if (0 <? c)%Z then (c - 1)%Z else c end in
      match b26_char idx with
      | Ok ch => match b26_string rest with Ok s => Ok (ch :: s) | r => r end
      | Err e => Err e
      | Panic => Panic
      | OutOfFuel => OutOfFuel
      end
  end.

(** structure.go:346-364, base26; structure.go:336-338, AbstractColumnName. *)
Definition abstract_column_name (d : Z) : res bytes :=
  if Z.eqb d 0 then Ok (bs "a")
  else b26_string (rev (b26_digits (S (Z.to_nat (Z.log2 (Z.abs d)))) d)).

(** Decimal integers as the Go standard library prints and parses them (strconv.FormatInt, strconv.Atoi). *)
From Verif Require Import Base.

(** Decimal digits, least significant first. *)
Fixpoint dec_rev (fuel : nat) (n : N) : bytes :=
  match fuel with
  | O => []
  | S f => (48 + n mod 10)%N :: (if (n / 10 =? 0)%N then [] else dec_rev f (n / 10)%N)
  end.
(** The decimal text of a natural number, without leading zeros. *)
Definition dec (n : N) : bytes := rev (dec_rev (S (N.size_nat n)) n).
(** strconv.FormatInt(z, 10) *)
Definition itoa (z : Z) : bytes := if (z <? 0)%Z then 45%N :: dec (Z.abs_N z) else dec (Z.to_N z).

Definition is_digit (c : N) : bool := ((48 <=? c) && (c <=? 57))%N.
(** The number a list of digits stands for. *)
Definition dec_val (s : bytes) : N := fold_left (fun a c => a * 10 + (c - 48))%N s 0%N.

(** strconv.ParseInt(s, 10, 64): optional sign, at least one digit, value within int64.
    strconv.Atoi is the same on 64-bit platforms. *)
Definition min_int64 : Z := -9223372036854775808.
Definition max_int64 : Z := 9223372036854775807.
Definition in_int64 (z : Z) : bool := ((min_int64 <=? z) && (z <=? max_int64))%Z.
Definition parse_digits (s : bytes) : option N :=
  match s with [] => None | _ => if forallb is_digit s then Some (dec_val s) else None end.
Definition parse_signed (s : bytes) : option Z :=
  match s with
  | c :: r => if N.eqb c 45 then option_map (fun n => (- Z.of_N n)%Z) (parse_digits r)
              else if N.eqb c 43 then option_map Z.of_N (parse_digits r)
              else option_map Z.of_N (parse_digits s)
  | [] => None
  end.
Definition parse_int64 (s : bytes) : option Z :=
  match parse_signed s with
  | Some z => if in_int64 z then Some z else None
  | None => None
  end.

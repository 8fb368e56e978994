(** Model of the functions of package vals on types and texts: vals/type.go and vals/compare.go. *)
From Verif Require Import Base M_Decimal M_Formats.

(** vals/type.go:13-36: Type is a uint8. *)
Definition tUnknown : N := 0%N.
Definition tNull : N := 1%N.
Definition tInteger : N := 2%N.
Definition tNumber : N := 3%N.
Definition tBoolean : N := 4%N.
Definition tString : N := 5%N.
Definition tObject : N := 6%N.
Definition tArray : N := 7%N.
Definition tBytes : N := 8%N.

(** vals/type.go:43-58, TypeFromString *)
Definition type_names : list (bytes * N) :=
  [(bs "string", tString); (bs "integer", tInteger); (bs "number", tNumber); (bs "boolean", tBoolean);
   (bs "object", tObject); (bs "array", tArray); (bs "null", tNull)].
Definition type_from_string (s : bytes) : N :=
  match alookup beqb s type_names with Some t => t | None => tUnknown end.
(** vals/type.go:101-118, Type.String *)
Definition type_texts : list (N * bytes) :=
  [(tUnknown, bs ""); (tString, bs "string"); (tInteger, bs "integer"); (tNumber, bs "number"); (tBoolean, bs "boolean");
   (tObject, bs "object"); (tArray, bs "array"); (tNull, bs "null")].
Definition type_string (t : N) : bytes :=
  match alookup N.eqb t type_texts with Some s => s | None => [] end.

(** strconv.ParseBool *)
Definition parse_bool (s : bytes) : option bool :=
  if existsb (beqb s) [bs "1"; bs "t"; bs "T"; bs "true"; bs "TRUE"; bs "True"] then Some true
  else if existsb (beqb s) [bs "0"; bs "f"; bs "F"; bs "false"; bs "FALSE"; bs "False"] then Some false
  else None.
(** vals/type.go:285-292, IsBoolean *)
Definition is_boolean (s : bytes) : bool :=
  existsb (beqb s) [bs "t"; bs "f"; bs "T"; bs "F"; bs "true"; bs "false"; bs "TRUE"; bs "FALSE"; bs "True"; bs "False"].
(** vals/type.go:271-282, IsInteger: an error strconv.ErrRange counts as an integer. *)
Definition sign_or_digit (c : N) : bool := N.eqb c 45 || N.eqb c 43 || is_digit c.
Definition is_integer (s : bytes) : bool :=
  match s with
  | [] => false
  | c :: _ => if N.eqb c 91 || N.eqb c 123 || negb (sign_or_digit c) then false
              else match parse_signed s with Some _ => true | None => false end
  end.

Section Floats.
  Variable F : Type.
  (** strconv.ParseFloat with 64 bits, and whether it succeeds with 32 bits. *)
  Variable parse_float : bytes -> option F.
  Variable float32_ok : bytes -> bool.
  (** > and == of float64 *)
  Variable fgt feq : F -> F -> bool.

  (** vals/type.go:63-97, ParseType.  [rest] runs over the bytes of [value]. *)
  Fixpoint parse_type_loop (value rest : bytes) : N :=
    match rest with
    | [] => tString
    | b :: rest =>
        if N.eqb b 34 then tString
        else if N.eqb b 45 || is_digit b || N.eqb b 101 then
          if float32_ok value then (if is_integer value then tInteger else tNumber) else tString
        else if N.eqb b 123 then tObject
        else if N.eqb b 91 then tArray
        else if N.eqb b 32 || N.eqb b 10 then parse_type_loop value rest
        else tString
    end.
  Definition parse_type (value : bytes) : N :=
    if is_boolean value then tBoolean
    else if beqb value (bs "null") then tNull
    else parse_type_loop value value.

  Definition err_parse : err := EMsg "strconv: parse error".
  (** vals/compare.go:58-72, CompareIntegerBytes *)
  Definition compare_integer_bytes (a b : bytes) : res Z :=
    match parse_int64 a with
    | None => Err err_parse
    | Some at_ =>
        match parse_int64 b with
        | None => Err err_parse
        | Some bt => if (at_ >? bt)%Z then Ok 1%Z else if (at_ =? bt)%Z then Ok 0%Z else Ok (-1)%Z
        end
    end.
  (** vals/compare.go:75-90, CompareNumberBytes *)
  Definition compare_number_bytes (a b : bytes) : res Z :=
    match parse_float a with
    | None => Err err_parse
    | Some at_ =>
        match parse_float b with
        | None => Err err_parse
        | Some bt => if fgt at_ bt then Ok 1%Z else if feq at_ bt then Ok 0%Z else Ok (-1)%Z
        end
    end.
  (** vals/compare.go:33-55, CompareTypeBytes *)
  Definition compare_type_bytes (a b : bytes) (t : N) : res Z :=
    match a, b with
    | [], _ :: _ => Ok (-1)%Z
    | _ :: _, [] => Ok 1%Z
    | [], [] => Ok 0%Z
    | _ :: _, _ :: _ =>
        if N.eqb t tString then Ok (match bcmp a b with Lt => -1 | Eq => 0 | Gt => 1 end)%Z
        else if N.eqb t tInteger then compare_integer_bytes a b
        else if N.eqb t tNumber then compare_number_bytes a b
        else Err (EMsg "invalid type comparison")
    end.
End Floats.

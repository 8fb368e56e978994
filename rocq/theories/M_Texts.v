(** Model of the conversions between values and texts of a type: vals/type.go. *)
From Verif Require Import Base M_Decimal M_Utf8 M_Json M_JsonWrite M_Unmarshal M_Vals.

Section Texts.
  Variable F : Type.
  (** strconv.ParseFloat(s, 64), whether its only complaint, if any, is the range, strconv.FormatFloat(f, 'g', -1, 64), and
      the text encoding/json gives a float, if it gives one. *)
  Variable parse_float : bytes -> option F.
  Variable float_syntax : bytes -> bool.
  Variable fmt_g : F -> bytes.
  Variable fmt_json : F -> option bytes.
  (** The nesting limit of encoding/json. *)
  Variable depth : nat.
  Notation gval := (gval F).

  (** A Go value of type interface{}, by its dynamic type. *)
  Inductive iface : Type :=
  | INil
  | IBool (b : bool)
  | IInt (z : Z)
  | IInt64 (z : Z)
  | IFloat (f : F)
  | IStr (s : bytes)
  | IBytes (s : bytes)
  | IArr (l : list gval)
  | IMap (m : list (bytes * gval)).
  (** What json.Marshal sees. *)
  Definition seen (x : iface) : gval :=
    match x with
    | INil => VNil | IBool b => VBool b | IInt z => VInt z | IInt64 z => VInt z | IFloat f => VFloat f
    | IStr s => VStr s | IBytes s => VBytes s | IArr l => VArr l | IMap m => VMap m
    end.

  (** vals/type.go:234-248, JSONArrayOrObject: 0 for the empty result *)
  Inductive closure : Type := CNone | CObject | CArray.
  Fixpoint json_array_or_object (value : bytes) : closure :=
    match value with
    | [] => CNone
    | b :: r => if N.eqb b 34 then CNone
                else if N.eqb b 123 then CObject
                else if N.eqb b 91 then CArray
                else json_array_or_object r
    end.
  (** vals/type.go:251-267, ParseJSON.  json.Unmarshal into a map takes an object (or null) and into a slice an array (or
      null).  The value returned beside an error is not modelled. *)
  Definition parse_json (value : bytes) : res iface :=
    match json_array_or_object value with
    | CNone => Err (EMsg "invalid json data")
    | CObject =>
        match unmarshal F parse_float depth value with
        | Ok (VMap m) => Ok (IMap m)
        | Ok VNil => Ok (IMap [])
        | Ok _ => Err (EMsg "json: cannot unmarshal into map")
        | Err e => Err e | Panic => Panic | OutOfFuel => OutOfFuel
        end
    | CArray =>
        match unmarshal F parse_float depth value with
        | Ok (VArr l) => Ok (IArr l)
        | Ok VNil => Ok (IArr [])
        | Ok _ => Err (EMsg "json: cannot unmarshal into slice")
        | Err e => Err e | Panic => Panic | OutOfFuel => OutOfFuel
        end
    end.
  (** vals/type.go:141-159, Type.Parse with ParseString, ParseNumber, ParseInteger and ParseBoolean (212-231) *)
  Definition type_parse (t : N) (value : bytes) : res iface :=
    if N.eqb t tString then Ok (IStr value)
    else if N.eqb t tNumber then match parse_float value with Some f => Ok (IFloat f) | None => Err err_parse end
    else if N.eqb t tInteger then match parse_int64 value with Some z => Ok (IInt64 z) | None => Err err_parse end
    else if N.eqb t tBoolean then match parse_bool value with Some b => Ok (IBool b) | None => Err err_parse end
    else if N.eqb t tArray then parse_json value
    else if N.eqb t tObject then parse_json value
    else Err (EMsg "cannot parse unknown data type").

  Definition err_not (t : N) : err := EMsg "value is not of the type".
  (** vals/type.go:162-198, Type.ValueToString *)
  Definition value_to_string (t : N) (x : iface) : res bytes :=
    if N.eqb t tString then match x with IStr s => Ok s | _ => Err (err_not t) end
    else if N.eqb t tInteger then match x with IInt z => Ok (itoa z) | _ => Err (err_not t) end
    else if N.eqb t tNumber then match x with IFloat f => Ok (fmt_g f) | _ => Err (err_not t) end
    else if N.eqb t tBoolean then match x with IBool b => Ok (if b then bs "true" else bs "false") | _ => Err (err_not t) end
    else if N.eqb t tObject || N.eqb t tArray then
      match marshal F fmt_json [] [] [] (seen x) with Some s => Ok s | None => Err (EMsg "json: unsupported value") end
    else Err (EMsg "cannot get string value of unknown datatype").
  (** vals/type.go:201-210, Type.ValueToBytes *)
  Definition value_to_bytes (t : N) (x : iface) : res bytes :=
    match value_to_string t x with Ok s => Ok s | Err e => Err e | Panic => Panic | OutOfFuel => OutOfFuel end.

  (** vals/type.go:295-306, IsFloat *)
  Definition is_float (s : bytes) : bool :=
    match s with
    | [] => false
    | c :: _ => if N.eqb c 91 || N.eqb c 123 || negb (sign_or_digit c) then false else float_syntax s
    end.

  (** vals/type.go:121-123, Type.MarshalJSON *)
  Definition type_marshal (t : N) : bytes := 34%N :: type_string t ++ [34%N].
  (** vals/type.go:126-138, Type.UnmarshalJSON: json.Unmarshal into a string takes a string (or null, which leaves it
      empty). *)
  Definition type_unmarshal (data : bytes) : res N :=
    match unmarshal F parse_float depth data with
    | Ok (VStr s) => let t := type_from_string s in if N.eqb t tUnknown then Err (EMsg "Unknown datatype") else Ok t
    | Ok VNil => let t := type_from_string [] in if N.eqb t tUnknown then Err (EMsg "Unknown datatype") else Ok t
    | Ok _ => Err (EMsg "Filed type should be a string")
    | Err e => Err (EMsg "Filed type should be a string")
    | Panic => Panic
    | OutOfFuel => OutOfFuel
    end.
End Texts.
Arguments INil {F}.
Arguments IBool {F}.
Arguments IInt {F}.
Arguments IInt64 {F}.
Arguments IFloat {F}.
Arguments IStr {F}.
Arguments IBytes {F}.
Arguments IArr {F}.
Arguments IMap {F}.

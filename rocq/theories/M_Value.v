(** Model of the values of package vals (vals/value.go, vals/coding.go, vals/compare.go:9-30 and
    vals/object_value.go): what the methods of a Value answer, how decoded Go values and JSON texts become
    Values, and when two Values are equal. *)
From Verif Require Import Base M_Decimal M_JsonWrite M_Unmarshal M_Doc M_Vals.

Section Value.
  Variable F : Type.
  (** strconv.ParseFloat with 64 bits, whether it succeeds with 32 bits, how encoding/json prints a float64
      ([None] if it refuses), == of float64 and float64(i). *)
  Variable parse_float : bytes -> option F.
  Variable float32_ok : bytes -> bool.
  Variable fmt_float : F -> option bytes.
  Variable feq : F -> F -> bool.
  Variable of_int : Z -> F.
  (** The nesting limit of encoding/json, 10000 since Go 1.15. *)
  Variable depth : nat.

  (** The dynamic types behind the interface Value (vals/value.go:49-491, vals/object_value.go:5-13): the
      seven named types, a pointer to one of them (a pointer has the methods of what it points to), and
      ObjectValue, a key with an embedded Value.  Simplifications: nil arrays and objects are not told from
      empty ones, pointers are not nil, and a Value stored in another one is not nil.  Objects are sorted
      by key; Go's maps have no order. *)
  Inductive value : Type :=
  | XNull (b : bool)
  | XBool (b : bool)
  | XInt (z : Z)
  | XNum (f : F)
  | XStr (s : bytes)
  | XArr (l : list value)
  | XObj (m : list (bytes * value))
  | XPtr (v : value)
  | XKeyed (k : bytes) (v : value).

  (** vals/value.go:68, 136, 193, 257, 318, 380, 447, Type. *)
  Fixpoint vtype (v : value) : N :=
    match v with
    | XNull _ => tNull
    | XBool _ => tBoolean
    | XInt _ => tInteger
    | XNum _ => tNumber
    | XStr _ => tString
    | XArr _ => tArray
    | XObj _ => tObject
    | XPtr v => vtype v
    | XKeyed _ v => vtype v
    end.
  (** vals/value.go:139 and the panics at 71, 196, 260, 321, 383, 450: Len. *)
  Fixpoint vlen (v : value) : res Z :=
    match v with XArr l => Ok (Z.of_nat (length l)) | XPtr v => vlen v | XKeyed _ v => vlen v | _ => Panic end.
  (** vals/value.go:142 and the panics at 76, 201, 265, 326, 388, 455: Index.  An index out of range
      panics. *)
  Fixpoint vindex (v : value) (i : Z) : res value :=
    match v with
    | XArr l => if (i <? 0)%Z then Panic else match nth_error l (Z.to_nat i) with Some x => Ok x | None => Panic end
    | XPtr v => vindex v i
    | XKeyed _ v => vindex v i
    | _ => Panic
    end.
  (** vals/value.go:81-89 and the panics at 145, 206, 270, 331, 393, 460: Keys.  Simplification: the keys
      come in sorted order here, in random order in Go. *)
  Fixpoint vkeys (v : value) : res (list bytes) :=
    match v with XObj m => Ok (map fst m) | XPtr v => vkeys v | XKeyed _ v => vkeys v | _ => Panic end.
  (** vals/value.go:92-94 and the panics at 150, 211, 275, 336, 398, 465: MapIndex.  [None] is the nil
      Value that a missing key gives. *)
  Fixpoint vmap_index (v : value) (k : bytes) : res (option value) :=
    match v with XObj m => Ok (map_get k m) | XPtr v => vmap_index v k | XKeyed _ v => vmap_index v k | _ => Panic end.
  (** vals/value.go:403 and the panics at 97, 155, 216, 280, 341, 470: Boolean. *)
  Fixpoint vboolean (v : value) : res bool :=
    match v with XBool b => Ok b | XPtr v => vboolean v | XKeyed _ v => vboolean v | _ => Panic end.
  (** vals/value.go:290 and the panics at 108, 165, 229, 352, 413, 480: Integer. *)
  Fixpoint vinteger (v : value) : res Z :=
    match v with XInt z => Ok z | XPtr v => vinteger v | XKeyed _ v => vinteger v | _ => Panic end.
  (** vals/value.go:295, 357 and the panics at 113, 170, 234, 418, 485: Number. *)
  Fixpoint vnumber (v : value) : res F :=
    match v with XInt z => Ok (of_int z) | XNum f => Ok f | XPtr v => vnumber v | XKeyed _ v => vnumber v | _ => Panic end.
  (** vals/value.go:118, 175, 239, 300, 362, 423, 490: IsNull. *)
  Fixpoint vis_null (v : value) : bool :=
    match v with XNull _ => true | XPtr v => vis_null v | XKeyed _ v => vis_null v | _ => false end.
  (** vals/value.go:103, 160, 224, 285, 346, 408, 475: String, which never panics. *)
  Fixpoint vstring (v : value) : bytes :=
    match v with
    | XStr s => s
    | XObj m => bs "<object " ++ itoa (Z.of_nat (length m)) ++ bs " keys>"
    | XBool b => bs "<" ++ type_string tBoolean ++ bs (if b then " true>" else " false>")
    | XPtr v => vstring v
    | XKeyed _ v => vstring v
    | XNull _ => bs "<" ++ type_string tNull ++ bs ">"
    | XInt _ => bs "<" ++ type_string tInteger ++ bs ">"
    | XNum _ => bs "<" ++ type_string tNumber ++ bs ">"
    | XArr _ => bs "<" ++ type_string tArray ++ bs ">"
    end.

  (** reflect.DeepEqual.  Simplification: the two sides share no pointer, slice or map (what is shared is
      equal without being looked at, even if it holds a NaN). *)
  Fixpoint deep_equal (a b : value) {struct a} : bool :=
    match a, b with
    | XNull x, XNull y => Bool.eqb x y
    | XBool x, XBool y => Bool.eqb x y
    | XInt x, XInt y => Z.eqb x y
    | XNum x, XNum y => feq x y
    | XStr x, XStr y => beqb x y
    | XArr l, XArr l' =>
        (fix go (l l' : list value) : bool :=
           match l, l' with
           | [], [] => true
           | x :: l, y :: l' => deep_equal x y && go l l'
           | _, _ => false
           end) l l'
    | XObj m, XObj m' =>
        (fix go (m m' : list (bytes * value)) : bool :=
           match m, m' with
           | [], [] => true
           | (k, x) :: m, (k', y) :: m' => beqb k k' && deep_equal x y && go m m'
           | _, _ => false
           end) m m'
    | XPtr x, XPtr y => deep_equal x y
    | XKeyed k x, XKeyed k' y => beqb k k' && deep_equal x y
    | _, _ => false
    end.
  (** vals/compare.go:9-30, Equal. *)
  Definition vequal (a b : value) : res bool :=
    if negb (N.eqb (vtype a) (vtype b)) then Ok false
    else
      let on {A} (get : value -> res A) (same : A -> A -> bool) :=
        match get a, get b with Ok x, Ok y => Ok (same x y) | _, _ => Panic end in
      let t := vtype a in
      if N.eqb t tObject || N.eqb t tArray then Ok (deep_equal a b)
      else if N.eqb t tNumber then on vnumber feq
      else if N.eqb t tInteger then on vinteger Z.eqb
      else if N.eqb t tBoolean then on vboolean Bool.eqb
      else if N.eqb t tNull then Ok (Bool.eqb (vis_null a) (vis_null b))
      else if N.eqb t tString then Ok (beqb (vstring a) (vstring b))
      else Ok false.

  (** What decoders hand to ConvertDecoded (vals/coding.go:14-66): the unsigned integers, int, int32 and
      int64, float64, the other scalars, slices, maps with string keys, maps with any keys, and
      everything else.  Maps are lists of pairs. *)
  Inductive decoded : Type :=
  | DNil
  | DUint (n : N)
  | DInt (z : Z)
  | DFloat (f : F)
  | DStr (s : bytes)
  | DBool (b : bool)
  | DArr (l : list decoded)
  | DMap (m : list (bytes * decoded))
  | DAny (m : list (decoded * decoded))
  | DOther.
  Definition err_key : err := EMsg "only strings may be used as keys".
  Definition err_decoded : err := EMsg "unrecognized decoded type".
  (** Integer(v) of a uint64: int has 64 bits, the value wraps. *)
  Definition int_of_uint (n : N) : Z :=
    let m := (n mod 2 ^ 64)%N in if (m <? 2 ^ 63)%N then Z.of_N m else (Z.of_N m - 2 ^ 64)%Z.
  (** vals/coding.go:9-69, ConvertDecoded.  Simplification: Go goes through a map in random order, so which
      of several errors is returned is not settled; here it is the first. *)
  Fixpoint convert_decoded (d : decoded) : res value :=
    match d with
    | DNil => Ok (XNull true)
    | DUint n => Ok (XInt (int_of_uint n))
    | DInt z => Ok (XInt z)
    | DFloat f => Ok (XNum f)
    | DStr s => Ok (XStr s)
    | DBool b => Ok (XBool b)
    | DArr l =>
        match (fix go (l : list decoded) : res (list value) :=
                 match l with
                 | [] => Ok []
                 | d :: l =>
                     match convert_decoded d with
                     | Ok v => match go l with Ok vs => Ok (v :: vs) | Err e => Err e | Panic => Panic | OutOfFuel => OutOfFuel end
                     | Err e => Err e | Panic => Panic | OutOfFuel => OutOfFuel
                     end
                 end) l with
        | Ok vs => Ok (XPtr (XArr vs))
        | Err e => Err e | Panic => Panic | OutOfFuel => OutOfFuel
        end
    | DMap m =>
        match (fix go (acc : list (bytes * value)) (m : list (bytes * decoded)) : res (list (bytes * value)) :=
                 match m with
                 | [] => Ok acc
                 | (k, d) :: m =>
                     match convert_decoded d with
                     | Ok v => go (map_set k v acc) m
                     | Err e => Err e | Panic => Panic | OutOfFuel => OutOfFuel
                     end
                 end) [] m with
        | Ok o => Ok (XPtr (XObj o))
        | Err e => Err e | Panic => Panic | OutOfFuel => OutOfFuel
        end
    | DAny m =>
        match (fix go (acc : list (bytes * value)) (m : list (decoded * decoded)) : res (list (bytes * value)) :=
                 match m with
                 | [] => Ok acc
                 | (DStr k, d) :: m =>
                     match convert_decoded d with
                     | Ok v => go (map_set k v acc) m
                     | Err e => Err e | Panic => Panic | OutOfFuel => OutOfFuel
                     end
                 | _ :: _ => Err err_key
                 end) [] m with
        | Ok o => Ok (XPtr (XObj o))
        | Err e => Err e | Panic => Panic | OutOfFuel => OutOfFuel
        end
    | DOther => Err err_decoded
    end.

  (** json.Unmarshal into []json.RawMessage and map[string]json.RawMessage.  The texts of the elements are
      found with the scanner of M_Unmarshal, which here keeps number texts as they are; a raw message is
      the part of the input that a value takes up. *)
  Notation scan := (std_value bytes (@Some bytes)).
  Definition span (s r : bytes) : bytes := firstn (length s - length r) s.
  Fixpoint raw_rest (fuel d : nat) (acc : list bytes) (s : bytes) : res (list bytes * bytes) :=
    match fuel with
    | O => OutOfFuel
    | S f =>
        match drop_blank s with
        | [] => Err err_json
        | c :: t =>
            if N.eqb c 93 then Ok (acc, t)
            else if N.eqb c 44 then
              match scan f d (drop_blank t) with
              | Ok (_, r) => raw_rest f d (acc ++ [span (drop_blank t) r]) r
              | Err e => Err e | Panic => Panic | OutOfFuel => OutOfFuel
              end
            else Err err_json
        end
    end.
  (** Nothing but blanks may follow. *)
  Definition finish {A} (r : res (A * bytes)) : res A :=
    match r with
    | Ok (x, rest) => match drop_blank rest with [] => Ok x | _ => Err err_json end
    | Err e => Err e | Panic => Panic | OutOfFuel => OutOfFuel
    end.
  Definition raw_array (data : bytes) : res (list bytes) :=
    match drop_blank data with
    | [] => Err err_json
    | c :: t =>
        if negb (N.eqb c 91) then Err err_json else
        match depth with
        | O => Err err_json
        | S d =>
            match drop_blank t with
            | [] => Err err_json
            | x :: r =>
                if N.eqb x 93 then finish (Ok ([], r))
                else match scan (S (length data)) d (x :: r) with
                     | Ok (_, r') => finish (raw_rest (S (length data)) d [span (x :: r) r'] r')
                     | Err e => Err e | Panic => Panic | OutOfFuel => OutOfFuel
                     end
            end
        end
    end.
  (** A key, a colon and the text of a value. *)
  Definition raw_pair (fuel d : nat) (s : bytes) : res (bytes * bytes * bytes) :=
    match s with
    | [] => Err err_json
    | c :: t =>
        if negb (N.eqb c 34) then Err err_json else
        match std_string (length t) t with
        | None => Err err_json
        | Some (k, r) =>
            match drop_blank r with
            | [] => Err err_json
            | x :: r =>
                if negb (N.eqb x 58) then Err err_json else
                match scan fuel d (drop_blank r) with
                | Ok (_, r') => Ok (k, span (drop_blank r) r', r')
                | Err e => Err e | Panic => Panic | OutOfFuel => OutOfFuel
                end
            end
        end
    end.
  Fixpoint raw_prest (fuel d : nat) (acc : list (bytes * bytes)) (s : bytes) : res (list (bytes * bytes) * bytes) :=
    match fuel with
    | O => OutOfFuel
    | S f =>
        match drop_blank s with
        | [] => Err err_json
        | c :: t =>
            if N.eqb c 125 then Ok (acc, t)
            else if N.eqb c 44 then
              match raw_pair f d (drop_blank t) with
              | Ok (k, x, r) => raw_prest f d (map_set k x acc) r
              | Err e => Err e | Panic => Panic | OutOfFuel => OutOfFuel
              end
            else Err err_json
        end
    end.
  Definition raw_object (data : bytes) : res (list (bytes * bytes)) :=
    match drop_blank data with
    | [] => Err err_json
    | c :: t =>
        if negb (N.eqb c 123) then Err err_json else
        match depth with
        | O => Err err_json
        | S d =>
            match drop_blank t with
            | [] => Err err_json
            | x :: r =>
                if N.eqb x 125 then finish (Ok ([], r))
                else match raw_pair (S (length data)) d (x :: r) with
                     | Ok (k, y, r') => finish (raw_prest (S (length data)) d (map_set k y []) r')
                     | Err e => Err e | Panic => Panic | OutOfFuel => OutOfFuel
                     end
            end
        end
    end.

  (** json.Unmarshal into a *String, *Integer, *Number, *Boolean or *Null: a value of another kind is an
      error, null leaves what was there. *)
  Definition into (init : value) (take : gval bytes -> option value) (data : bytes) : res value :=
    match unmarshal bytes (@Some bytes) depth data with
    | Ok VNil => Ok (XPtr init)
    | Ok g => match take g with Some v => Ok (XPtr v) | None => Err err_json end
    | Err e => Err e | Panic => Panic | OutOfFuel => OutOfFuel
    end.
  Definition take_string (g : gval bytes) : option value := match g with VStr s => Some (XStr s) | _ => None end.
  Definition take_integer (g : gval bytes) : option value :=
    match g with VFloat t => option_map XInt (parse_int64 t) | _ => None end.
  Definition take_number (g : gval bytes) : option value :=
    match g with VFloat t => option_map XNum (parse_float t) | _ => None end.
  Definition take_boolean (g : gval bytes) : option value := match g with VBool b => Some (XBool b) | _ => None end.
  Definition take_null (g : gval bytes) : option value := match g with VBool b => Some (XNull b) | _ => None end.

  (** vals/coding.go:111-127 and 146-162: what is stored of a decoded element. *)
  Definition settle (v : value) : value := match v with XPtr w => w | w => w end.
  (** vals/coding.go:71-165, UnmarshalJSON, unmarshalObject and unmarshalArray.  [fuel] bounds the nesting
      of calls.  Simplification: which of several errors in an object is returned is not settled. *)
  Fixpoint unmarshal_value (fuel : nat) (data : bytes) : res value :=
    match fuel with
    | O => OutOfFuel
    | S f =>
        let elem (raw : bytes) : res value :=
          match unmarshal_value f raw with
          | Ok v => Ok (settle v)
          | Err e => Err e | Panic => Panic | OutOfFuel => OutOfFuel
          end in
        let t := parse_type float32_ok data in
        if N.eqb t tObject then
          match raw_object data with
          | Ok m =>
              match mapM (fun kv => match elem (snd kv) with
                                    | Ok v => Ok (fst kv, v)
                                    | Err e => Err e | Panic => Panic | OutOfFuel => OutOfFuel
                                    end) m with
              | Ok o => Ok (XObj o)
              | Err e => Err e | Panic => Panic | OutOfFuel => OutOfFuel
              end
          | Err e => Err e | Panic => Panic | OutOfFuel => OutOfFuel
          end
        else if N.eqb t tArray then
          match raw_array data with
          | Ok l =>
              match mapM elem l with
              | Ok vs => Ok (XArr vs)
              | Err e => Err e | Panic => Panic | OutOfFuel => OutOfFuel
              end
          | Err e => Err e | Panic => Panic | OutOfFuel => OutOfFuel
          end
        else if N.eqb t tString then into (XStr []) take_string data
        else if N.eqb t tInteger then into (XInt 0) take_integer data
        else if N.eqb t tNumber then into (XNum (of_int 0)) take_number data
        else if N.eqb t tBoolean then into (XBool false) take_boolean data
        else if N.eqb t tNull then into (XNull true) take_null data
        else Err err_json
    end.
  Definition unmarshal_json (data : bytes) : res value := unmarshal_value (S (length data)) data.

  (** json.Marshal of a Value: the named types print as what they are made of, Null prints null
      (vals/value.go:442-444), a pointer prints what it points to, an ObjectValue prints as a struct with
      the fields Key and Value. *)
  Fixpoint plain (v : value) : gval F :=
    match v with
    | XNull _ => VNil
    | XBool b => VBool b
    | XInt z => VInt z
    | XNum f => VFloat f
    | XStr s => VStr s
    | XArr l => VArr (map plain l)
    | XObj m => VMap (map (fun kv => (fst kv, plain (snd kv))) m)
    | XPtr v => plain v
    | XKeyed k v => VMap [(bs "Key", VStr k); (bs "Value", plain v)]
    end.
  Definition marshal_value (v : value) : option bytes := marshal F fmt_float [] [] [] (plain v).
End Value.
Arguments XNull {F}. Arguments XBool {F}. Arguments XInt {F}. Arguments XNum {F}. Arguments XStr {F}. Arguments XArr {F}.
Arguments XObj {F}. Arguments XPtr {F}. Arguments XKeyed {F}.
Arguments DNil {F}. Arguments DUint {F}. Arguments DInt {F}. Arguments DFloat {F}. Arguments DStr {F}. Arguments DBool {F}.
Arguments DArr {F}. Arguments DMap {F}. Arguments DAny {F}. Arguments DOther {F}.

(** Model of json.Unmarshal(data, &v) with v an interface{}, encoding/json of the Go standard library, as
    called by dsio/ndjson.go:63.  Written from the documented behaviour of package encoding/json.

    The library first runs a state machine over the data (checkValid) and then decodes it.  Here both are
    one recursive descent that accepts the same texts.  Error texts are not modelled. *)
From Verif Require Import Base M_Decimal M_Utf8 M_Json.

(** The blanks skipped between tokens (scanner.go: isSpace). *)
Fixpoint drop_blank (s : bytes) : bytes :=
  match s with
  | c :: t => if is_ws c then drop_blank t else s
  | [] => []
  end.

(** bytes.HasPrefix *)
Fixpoint prefixb (p s : bytes) : bool :=
  match p, s with
  | [], _ => true
  | a :: p, b :: s => N.eqb a b && prefixb p s
  | _ :: _, [] => false
  end.

(** Digits at the front. *)
Fixpoint span_digits (s : bytes) : bytes * bytes :=
  match s with
  | c :: t => if is_digit c then let '(a, b) := span_digits t in (c :: a, b) else ([], s)
  | [] => ([], [])
  end.

(** The number literal at the front (scanner.go: stateNeg, state1, state0, stateDot, stateDot0, stateE,
    stateESign, stateE0). *)
Definition scan_int (s : bytes) : option (bytes * bytes) :=
  match s with
  | c :: t => if N.eqb c 48 then Some ([c], t)
              else if is_digit c then Some (span_digits s) else None
  | [] => None
  end.
Definition scan_frac (s : bytes) : option (bytes * bytes) :=
  match s with
  | c :: t => if N.eqb c 46 then
                match span_digits t with ([], _) => None | (a, b) => Some (c :: a, b) end
              else Some ([], s)
  | [] => Some ([], [])
  end.
Definition scan_exp (s : bytes) : option (bytes * bytes) :=
  match s with
  | c :: t => if N.eqb c 101 || N.eqb c 69 then
                let '(g, t) := match t with
                               | x :: r => if N.eqb x 43 || N.eqb x 45 then ([x], r) else ([], t)
                               | [] => ([], t)
                               end in
                match span_digits t with ([], _) => None | (a, b) => Some (c :: g ++ a, b) end
              else Some ([], s)
  | [] => Some ([], [])
  end.
Definition scan_number (s : bytes) : option (bytes * bytes) :=
  let '(g, s) := match s with
                 | c :: t => if N.eqb c 45 then ([c], t) else ([], s)
                 | [] => ([], s)
                 end in
  match scan_int s with
  | None => None
  | Some (i, s) =>
      match scan_frac s with
      | None => None
      | Some (f, s) =>
          match scan_exp s with
          | None => None
          | Some (e, s) => Some (g ++ i ++ f ++ e, s)
          end
      end
  end.

(** Four hexadecimal digits (getu4). *)
Definition hex4 (a b c d : N) : option N :=
  match hex_digit a, hex_digit b, hex_digit c, hex_digit d with
  | Some a, Some b, Some c, Some d => Some (((a * 16 + b) * 16 + c) * 16 + d)%N
  | _, _, _, _ => None
  end.
(** The \uXXXX at the front of s, if there is one. *)
Definition next_u (s : bytes) : option (N * bytes) :=
  match s with
  | x :: y :: a :: b :: c :: d :: t =>
      if N.eqb x 92 && N.eqb y 117 then
        match hex4 a b c d with Some r => Some (r, t) | None => None end
      else None
  | _ => None
  end.
Definition fffd : bytes := encode_rune 65533.

(** The escapes of one character. *)
Definition std_short (e : N) : option N :=
  if N.eqb e 34 || N.eqb e 92 || N.eqb e 47 then Some e
  else if N.eqb e 98 then Some 8%N
  else if N.eqb e 102 then Some 12%N
  else if N.eqb e 110 then Some 10%N
  else if N.eqb e 114 then Some 13%N
  else if N.eqb e 116 then Some 9%N
  else None.

(** The string whose opening quote has been read (unquoteBytes and the string states of the scanner): what
    it stands for and what follows the closing quote.  [n] bounds the number of steps; the length of s is
    enough. *)
Fixpoint std_string (n : nat) (s : bytes) : option (bytes * bytes) :=
  match n with
  | O => None
  | S n =>
      let more (a : bytes) (t : bytes) := match std_string n t with Some (b, r) => Some (a ++ b, r) | None => None end in
      match s with
      | [] => None
      | c :: t =>
          if N.eqb c 34 then Some ([], t)
          else if N.eqb c 92 then
            match next_u s with
            | Some (r, t) =>
                if is_surrogate r then
                  match next_u t with
                  | Some (r2, t2) =>
                      if (in_range 55296 56319 r && in_range 56320 57343 r2)%N
                      then more (encode_rune ((r - 55296) * 1024 + (r2 - 56320) + 65536)%N) t2
                      else more fffd t
                  | None => more fffd t
                  end
                else more (encode_rune r) t
            | None =>
                match t with
                | e :: t => match std_short e with Some x => more [x] t | None => None end
                | [] => None
                end
            end
          else if (c <? 32)%N then None
          else match decode_rune s with
               | Some (r, k) => more (encode_rune r) (skipn k s)
               | None => more fffd t
               end
      end
  end.

Definition err_json : err := EMsg "invalid JSON".
Section Unmarshal.
  Variable F : Type.
  (** strconv.ParseFloat(s, 64); [None] if out of range. *)
  Variable parse_float : bytes -> option F.
  Notation gval := (gval F).

  (** A value at the front of s, at most [d] arrays and objects deep (scanner.go: maxNestingDepth).
      [std_rest] is what follows the first element of an array, [std_pair] a pair of an object, and
      [std_prest] what follows the first pair. *)
  Fixpoint std_value (fuel d : nat) (s : bytes) : res (gval * bytes) :=
    match fuel with
    | O => OutOfFuel
    | S f =>
        match s with
        | [] => Err err_json
        | c :: t =>
            if N.eqb c 34 then
              match std_string (length t) t with Some (x, r) => Ok (VStr x, r) | None => Err err_json end
            else if N.eqb c 91 then
              match d with
              | O => Err err_json
              | S d =>
                  match drop_blank t with
                  | [] => Err err_json
                  | x :: r => if N.eqb x 93 then Ok (VArr [], r)
                              else match std_value f d (x :: r) with
                                   | Ok (v, r) => std_rest f d [v] r
                                   | Err e => Err e | Panic => Panic | OutOfFuel => OutOfFuel
                                   end
                  end
              end
            else if N.eqb c 123 then
              match d with
              | O => Err err_json
              | S d =>
                  match drop_blank t with
                  | [] => Err err_json
                  | x :: r => if N.eqb x 125 then Ok (VMap [], r)
                              else match std_pair f d (x :: r) with
                                   | Ok (k, v, r) => std_prest f d (map_set k v []) r
                                   | Err e => Err e | Panic => Panic | OutOfFuel => OutOfFuel
                                   end
                  end
              end
            else if prefixb (bs "null") s then Ok (VNil, skipn 4 s)
            else if prefixb (bs "true") s then Ok (VBool true, skipn 4 s)
            else if prefixb (bs "false") s then Ok (VBool false, skipn 5 s)
            else match scan_number s with
                 | Some (n, r) => match parse_float n with Some x => Ok (VFloat x, r) | None => Err err_json end
                 | None => Err err_json
                 end
        end
    end
  with std_rest (fuel d : nat) (acc : list gval) (s : bytes) : res (gval * bytes) :=
    match fuel with
    | O => OutOfFuel
    | S f =>
        match drop_blank s with
        | [] => Err err_json
        | c :: t =>
            if N.eqb c 93 then Ok (VArr acc, t)
            else if N.eqb c 44 then
              match std_value f d (drop_blank t) with
              | Ok (v, r) => std_rest f d (acc ++ [v]) r
              | Err e => Err e | Panic => Panic | OutOfFuel => OutOfFuel
              end
            else Err err_json
        end
    end
  with std_pair (fuel d : nat) (s : bytes) : res (bytes * gval * bytes) :=
    match fuel with
    | O => OutOfFuel
    | S f =>
        match s with
        | [] => Err err_json
        | c :: t =>
            if negb (N.eqb c 34) then Err err_json else
            match std_string (length t) t with
            | None => Err err_json
            | Some (k, r) =>
                match drop_blank r with
                | [] => Err err_json
                | x :: r =>
                    if negb (N.eqb x 58) then Err err_json else
                    match std_value f d (drop_blank r) with
                    | Ok (v, r) => Ok (k, v, r)
                    | Err e => Err e | Panic => Panic | OutOfFuel => OutOfFuel
                    end
                end
            end
        end
    end
  with std_prest (fuel d : nat) (acc : list (bytes * gval)) (s : bytes) : res (gval * bytes) :=
    match fuel with
    | O => OutOfFuel
    | S f =>
        match drop_blank s with
        | [] => Err err_json
        | c :: t =>
            if N.eqb c 125 then Ok (VMap acc, t)
            else if N.eqb c 44 then
              match std_pair f d (drop_blank t) with
              | Ok (k, v, r) => std_prest f d (map_set k v acc) r
              | Err e => Err e | Panic => Panic | OutOfFuel => OutOfFuel
              end
            else Err err_json
        end
    end.

  (** json.Unmarshal: one value, blanks around it, nothing else.  [depth] is the nesting limit, 10000 since
      Go 1.15.  Simplification: a number out of range is an error at once; the library goes on decoding
      and returns the error at the end. *)
  Definition unmarshal (depth : nat) (data : bytes) : res gval :=
    match std_value (S (length data)) depth (drop_blank data) with
    | Ok (v, r) => match drop_blank r with [] => Ok v | _ => Err err_json end
    | Err e => Err e
    | Panic => Panic
    | OutOfFuel => OutOfFuel
    end.
End Unmarshal.

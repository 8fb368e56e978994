(** Component documents as text: the bytes that encoding/json writes for a component and what it makes of bytes, the
    text level of M_Encode.  commit.go:103-175, stats.go:53-92, readme.go:194-265, viz.go:196-268, transform.go:263-332,
    structure.go:182-339, meta.go:306-428, dataset.go:433-490.  Written from the documented behaviour of the packages
    encoding/json, encoding/base64 and time.
    Simplifications: a number in a dynamic position becomes what the float64 it parses to encodes as, [renum], and the
    range error of huge numbers is not modelled; of the laxities of time.Parse (one-digit hours, a comma before the
    fraction, white space) none is modelled; zone offsets are forgotten, as in M_Components. *)
From Verif Require Import Base M_Decimal M_Utf8 M_Json M_Unmarshal M_JsonWrite M_Time M_Hash M_Doc M_Components M_Encode.

(** ** Text to document.  Members stay in order, duplicates are kept, and every number keeps its literal.
    A value at the front of s, at most [d] arrays and objects deep (encoding/json scanner.go: maxNestingDepth).  The
    same descent as in M_Unmarshal. *)
Fixpoint doc_value (fuel d : nat) (s : bytes) : res (jdoc * bytes) :=
  match fuel with
  | O => OutOfFuel
  | S f =>
      match s with
      | [] => Err err_json
      | c :: t =>
          if N.eqb c 34 then
            match std_string (length t) t with Some (x, r) => Ok (JStr x, r) | None => Err err_json end
          else if N.eqb c 91 then
            match d with
            | O => Err err_json
            | S d =>
                match drop_blank t with
                | [] => Err err_json
                | x :: r => if N.eqb x 93 then Ok (JArr [], r)
                            else match doc_value f d (x :: r) with
                                 | Ok (v, r) => doc_rest f d [v] r
                                 | Err e => Err e | Panic => Panic | OutOfFuel => OutOfFuel
                                 end
                end
            end
          else if N.eqb c 123 then
            match d with
            | O => Err err_json
            | S d =>
                match drop_blank t with
                | [] => Err err_json
                | x :: r => if N.eqb x 125 then Ok (JObj [], r)
                            else match doc_pair f d (x :: r) with
                                 | Ok (k, v, r) => doc_prest f d ([(k, v)]) r
                                 | Err e => Err e | Panic => Panic | OutOfFuel => OutOfFuel
                                 end
                end
            end
          else if prefixb (bs "null") s then Ok (JNull, skipn 4 s)
          else if prefixb (bs "true") s then Ok (JBool true, skipn 4 s)
          else if prefixb (bs "false") s then Ok (JBool false, skipn 5 s)
          else match scan_number s with
               | Some (n, r) => Ok (JReal n, r)
               | None => Err err_json
               end
      end
  end
with doc_rest (fuel d : nat) (acc : list jdoc) (s : bytes) : res (jdoc * bytes) :=
  match fuel with
  | O => OutOfFuel
  | S f =>
      match drop_blank s with
      | [] => Err err_json
      | c :: t =>
          if N.eqb c 93 then Ok (JArr acc, t)
          else if N.eqb c 44 then
            match doc_value f d (drop_blank t) with
            | Ok (v, r) => doc_rest f d (acc ++ [v]) r
            | Err e => Err e | Panic => Panic | OutOfFuel => OutOfFuel
            end
          else Err err_json
      end
  end
with doc_pair (fuel d : nat) (s : bytes) : res (bytes * jdoc * bytes) :=
  match fuel with
  | O => OutOfFuel
  | S f =>
      match s with
      | [] => Err err_json
      | c :: t =>
          if negb (N.eqb c 34) then Err err_json else
          match std_string (length t) t with
          | None => Err err_json
          | Some (k, r) =>
              match drop_blank r with
              | [] => Err err_json
              | x :: r =>
                  if negb (N.eqb x 58) then Err err_json else
                  match doc_value f d (drop_blank r) with
                  | Ok (v, r) => Ok (k, v, r)
                  | Err e => Err e | Panic => Panic | OutOfFuel => OutOfFuel
                  end
              end
          end
      end
  end
with doc_prest (fuel d : nat) (acc : list (bytes * jdoc)) (s : bytes) : res (jdoc * bytes) :=
  match fuel with
  | O => OutOfFuel
  | S f =>
      match drop_blank s with
      | [] => Err err_json
      | c :: t =>
          if N.eqb c 125 then Ok (JObj acc, t)
          else if N.eqb c 44 then
            match doc_pair f d (drop_blank t) with
            | Ok (k, v, r) => doc_prest f d ((acc ++ [(k, v)])) r
            | Err e => Err e | Panic => Panic | OutOfFuel => OutOfFuel
            end
          else Err err_json
      end
  end.

(** One value, blanks around it, nothing else (encoding/json decode.go: Unmarshal, checkValid). *)
Definition doc_of_text (depth : nat) (data : bytes) : res jdoc :=
  match doc_value (S (length data)) depth (drop_blank data) with
  | Ok (v, r) => match drop_blank r with [] => Ok v | _ => Err err_json end
  | Err e => Err e
  | Panic => Panic
  | OutOfFuel => OutOfFuel
  end.

(** ** Document to text, json.Marshal: no blanks, strings escaped for HTML. *)
(** time.Time.MarshalJSON: RFC3339Nano, that is a fraction without trailing zeros.  [t] in nanoseconds since
    0001-01-01T00:00:00Z. *)
Fixpoint trim_zeros (s : bytes) : bytes :=
  match s with
  | [] => []
  | c :: t => match trim_zeros t with [] => if N.eqb c 48 then [] else [c] | t' => c :: t' end
  end.
Definition fraction_text (ns : Z) : bytes :=
  if Z.eqb ns 0 then [] else 46%N :: trim_zeros (append_int 9 ns).
Definition rfc3339_nano (t : Z) : bytes :=
  let secs := (t / 1000000000)%Z in
  let '(y, m, d) := date_of_day (secs / 86400)%Z in
  let s := (secs mod 86400)%Z in
  append_int 4 y ++ bs "-" ++ append_int 2 m ++ bs "-" ++ append_int 2 d ++ bs "T" ++
  append_int 2 (s / 3600)%Z ++ bs ":" ++ append_int 2 (s / 60 mod 60)%Z ++ bs ":" ++ append_int 2 (s mod 60)%Z ++
  fraction_text (t mod 1000000000)%Z ++ bs "Z".
Definition in_quotes (s : bytes) : bytes := 34%N :: s ++ [34%N].
(** What is between the brackets. *)
Definition commas (l : list bytes) : bytes :=
  match l with
  | [] => []
  | x :: l' => x ++ flat_map (fun y => 44%N :: y) l'
  end.
Fixpoint doc_text (d : jdoc) : bytes :=
  match d with
  | JNull => bs "null"
  | JBool b => if b then bs "true" else bs "false"
  | JInt z => itoa z
  | JReal lit => lit
  | JStr s => quote s
  | JTime t => in_quotes (rfc3339_nano t)
  | JB64 b => in_quotes (b64 b)
  | JArr l => 91%N :: commas (map doc_text l) ++ [93%N]
  | JObj o => 123%N :: commas (map (fun kv => quote (fst kv) ++ 58%N :: doc_text (snd kv)) o) ++ [125%N]
  end.

(** ** Reading of times: time.Parse with layout RFC3339, a fraction of a second allowed *)
Definition digit_val (c : N) : option Z := if is_digit c then Some (Z.of_N c - 48)%Z else None.
Definition two (a b : N) : option Z :=
  match digit_val a, digit_val b with Some a, Some b => Some (a * 10 + b)%Z | _, _ => None end.
(** The digits of a fraction, as nanoseconds: nine digits count, further ones are dropped. *)
Definition fraction_value (s : bytes) : Z := Z.of_N (dec_val (firstn 9 (s ++ repeat 48%N 9))).
Definition parse_fraction (s : bytes) : option (Z * bytes) :=
  match s with
  | c :: t => if N.eqb c 46 then match span_digits t with ([], _) => None | (a, b) => Some (fraction_value a, b) end
              else Some (0%Z, s)
  | [] => Some (0%Z, s)
  end.
(** The offset of the zone in minutes. *)
Definition parse_zone (s : bytes) : option Z :=
  match s with
  | [z] => if N.eqb z 90 then Some 0%Z else None
  | [g; a; b; c; d; e] =>
      match two a b, two d e with
      | Some h, Some m => if N.eqb c 58 && (h <? 24)%Z && (m <? 60)%Z
                          then if N.eqb g 43 then Some (h * 60 + m)%Z else if N.eqb g 45 then Some (- (h * 60 + m))%Z else None
                          else None
      | _, _ => None
      end
  | _ => None
  end.
(** Days from 0001-01-01 (time.Date). *)
Definition is_leap (y : Z) : bool := ((y mod 4 =? 0) && (negb (y mod 100 =? 0) || (y mod 400 =? 0)))%Z.
Definition days_before (y m : Z) : Z :=
  (nth (Z.to_nat m) [0; 0; 31; 59; 90; 120; 151; 181; 212; 243; 273; 304; 334; 365] 0 + if is_leap y && (2 <? m) then 1 else 0)%Z.
Definition day_number (y m d : Z) : Z :=
  (365 * (y - 1) + (y - 1) / 4 - (y - 1) / 100 + (y - 1) / 400 + days_before y m + d - 1)%Z.
Definition parse_time (s : bytes) : option Z :=
  match s with
  | y1 :: y2 :: y3 :: y4 :: a :: m1 :: m2 :: b :: d1 :: d2 :: t :: h1 :: h2 :: c :: i1 :: i2 :: e :: s1 :: s2 :: r =>
      match two y1 y2, two y3 y4, two m1 m2, two d1 d2, two h1 h2, two i1 i2, two s1 s2, parse_fraction r with
      | Some yh, Some yl, Some m, Some d, Some h, Some i, Some sec, Some (ns, r) =>
          let y := (yh * 100 + yl)%Z in
          if N.eqb a 45 && N.eqb b 45 && N.eqb t 84 && N.eqb c 58 && N.eqb e 58 &&
             (1 <=? m)%Z && (m <=? 12)%Z && (1 <=? d)%Z && (d <=? days_before y (m + 1) - days_before y m)%Z &&
             (h <? 24)%Z && (i <? 60)%Z && (sec <? 60)%Z
          then match parse_zone r with
               | Some z => Some ((((day_number y m d * 24 + h) * 60 + i - z) * 60 + sec) * 1000000000 + ns)%Z
               | None => None
               end
          else None
      | _, _, _, _, _, _, _, _ => None
      end
  | _ => None
  end.

(** ** Reading of base64: base64.StdEncoding, which skips line breaks *)
Definition sextet_of (c : N) : option N :=
  if (65 <=? c)%N && (c <=? 90)%N then Some (c - 65)%N
  else if (97 <=? c)%N && (c <=? 122)%N then Some (c - 71)%N
  else if (48 <=? c)%N && (c <=? 57)%N then Some (c + 4)%N
  else if N.eqb c 43 then Some 62%N else if N.eqb c 47 then Some 63%N else None.
Definition is_end {A} (l : list A) : bool := match l with [] => true | _ => false end.
Fixpoint b64_groups (s : bytes) : option bytes :=
  match s with
  | [] => Some []
  | a :: b :: c :: d :: t =>
      match sextet_of a, sextet_of b with
      | Some a, Some b =>
          if N.eqb c 61 && N.eqb d 61 && is_end t then Some [(a * 4 + b / 16)%N]
          else match sextet_of c with
               | None => None
               | Some c =>
                   if N.eqb d 61 && is_end t then Some [(a * 4 + b / 16)%N; (b mod 16 * 16 + c / 4)%N]
                   else match sextet_of d, b64_groups t with
                        | Some d, Some r => Some ((a * 4 + b / 16)%N :: (b mod 16 * 16 + c / 4)%N :: (c mod 4 * 64 + d)%N :: r)
                        | _, _ => None
                        end
               end
      | _, _ => None
      end
  | _ => None
  end.
Definition b64_decode (s : bytes) : option bytes := b64_groups (filter (fun c => negb (N.eqb c 10 || N.eqb c 13)) s).

(** ** Text to component: each member is read as its field demands *)
Section Renum.
  Variable renum : bytes -> jdoc.
  (** interface{}: numbers go through float64. *)
  Fixpoint as_dynamic (d : jdoc) : jdoc :=
    match d with
    | JReal lit => renum lit
    | JArr l => JArr (map as_dynamic l)
    | JObj o => JObj (map (fun kv => (fst kv, as_dynamic (snd kv))) o)
    | _ => d
    end.
  (** int; a literal that is no int64 stays one and is refused by the decoder of the field. *)
  Definition as_number (d : jdoc) : jdoc :=
    match d with JReal lit => match parse_int64 lit with Some z => JInt z | None => d end | _ => as_dynamic d end.
  (** time.Time, and a slice of bytes *)
  Definition as_time (d : jdoc) : jdoc :=
    match d with JStr s => match parse_time s with Some t => JTime t | None => d end | _ => as_dynamic d end.
  Definition as_bytes (d : jdoc) : jdoc :=
    match d with JStr s => match b64_decode s with Some b => JB64 b | None => d end | _ => as_dynamic d end.
  Definition on_members (names : list bytes) (f : bytes -> jdoc -> jdoc) (d : jdoc) : jdoc :=
    match d with
    | JObj o => JObj (map (fun kv => (fst kv, match route names (fst kv) with Some n => f n (snd kv) | None => as_dynamic (snd kv) end)) o)
    | _ => as_dynamic d
    end.
  Definition read_commit : jdoc -> jdoc :=
    on_members commit_names (fun n => if beqb n (bs "timestamp") then as_time else as_dynamic).
  Definition read_structure : jdoc -> jdoc :=
    on_members structure_names (fun n => if existsb (beqb n) [bs "depth"; bs "errCount"; bs "entries"; bs "length"] then as_number else as_dynamic).
  Definition read_dataset : jdoc -> jdoc :=
    on_members dataset_names (fun n => if beqb n (bs "commit") then read_commit
      else if beqb n (bs "structure") then read_structure
      else if beqb n (bs "numVersions") then as_number
      else if beqb n (bs "bodyBytes") then as_bytes else as_dynamic).
  Variable depth : nat.   (* encoding/json: 10000 *)
  Definition of_bytes {A} (read : jdoc -> jdoc) (decode : jdoc -> res A) (b : bytes) : res A :=
    d <- doc_of_text depth b ;; decode (read d).
  Definition commit_of_bytes := of_bytes read_commit commit_decode.
  Definition stats_of_bytes := of_bytes as_dynamic stats_decode.
  Definition readme_of_bytes := of_bytes as_dynamic readme_decode.
  Definition viz_of_bytes := of_bytes as_dynamic viz_decode.
  Definition transform_of_bytes := of_bytes as_dynamic transform_decode.
  Definition structure_of_bytes := of_bytes read_structure structure_decode.
  Definition meta_of_bytes := of_bytes as_dynamic meta_decode.
  Definition dataset_of_bytes := of_bytes read_dataset dataset_decode.

  (** commit.go:154-175, dataset.go:468-490, structure.go:318-339, transform.go:311-332, readme.go:230-251,
      viz.go:232-253: the dynamic argument is a pointer, a value, bytes or anything else.
      The component returned is never nil for the first three: with undecodable bytes an empty (possibly partly
      filled) component accompanies the error, here the zero component. *)
  Inductive anything (A : Type) := APointer (p : option A) | AValue (a : A) | ABytes (b : bytes) | AOther.
  Definition unmarshal_component {A} (zero : A) (decode : bytes -> res A) (v : anything A) : option A * option err :=
    match v with
    | APointer _ p => (p, None)
    | AValue _ a => (Some a, None)
    | ABytes _ b => match decode b with
                  | Ok a => (Some a, None)
                  | Err e => (Some zero, Some e)
                  | Panic | OutOfFuel => (Some zero, Some (EMsg "not reached"))
                  end
    | AOther _ => (None, Some (EMsg "couldn't parse component, value is invalid type"))
    end.
End Renum.

(** ** structure.go:182-184, hash.go JSONHash; json.Marshal of any component *)
Definition to_bytes {A} (encode : A -> res jdoc) (c : A) : res bytes := d <- encode c ;; Ok (doc_text d).
Definition component_hash {A} (encode : A -> res jdoc) (c : A) : res bytes := json_hash (to_bytes encode c).

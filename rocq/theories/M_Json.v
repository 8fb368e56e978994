(** Model of the JSON entry reader, dsio/json.go:15-489.

    The reader is modelled in two layers, as in the source.  The buffer layer (readTokenChar,
    readLiteralToken, peekNextChar, readString, readNumber and the helpers currentBuffer, extendBuffer,
    extractFromBuffer) works on the bufio.Reader of [M_Bufio], with the reader's prevSize field and the
    index arithmetic of the source.  The grammar layer (ReadEntry, readValue, readObject, readArray,
    readKeyValuePair) only calls the buffer layer, so it is written as a program over those calls. *)
From Verif Require Import Base M_Decimal M_Bufio M_Utf8.

(** isWhitespace, dsio/json.go:136-138 *)
Definition is_ws (c : N) : bool := N.eqb c 32 || N.eqb c 10 || N.eqb c 13 || N.eqb c 9.

(** The characters readNumber accepts, dsio/json.go:390-401. *)
Definition is_float_char (c : N) : bool := N.eqb c 46 || N.eqb c 101 || N.eqb c 69 || N.eqb c 43.
Definition is_num_char (c : N) : bool := is_digit c || is_float_char c || N.eqb c 45.

(** The value of a hexadecimal digit. *)
Definition hex_digit (c : N) : option N :=
  if in_range 48 57 c then Some (c - 48)%N
  else if in_range 97 102 c then Some (c - 87)%N
  else if in_range 65 70 c then Some (c - 55)%N
  else None.

Definition is_surrogate (r : N) : bool := in_range 55296 57343 r.

Section Unquote.
  (** What strconv.Unquote makes of an escaped surrogate half: the bytes of U+FFFD in older Go releases,
      an error (written as a question mark by the caller) in newer ones. *)
  Variable surrogate : bytes.

  (** The escape \uXXXX, dsio/json.go:313-327. *)
  Definition unquote_u (a b c d : N) : bytes :=
    match hex_digit a, hex_digit b, hex_digit c, hex_digit d with
    | Some a, Some b, Some c, Some d =>
        let r := (((a * 16 + b) * 16 + c) * 16 + d)%N in
        if is_surrogate r then surrogate else encode_rune r
    | _, _, _, _ => [63%N]
    end.

  (** The escape \xXX, dsio/json.go:299-312. *)
  Definition unquote_x (a b : N) : N :=
    match hex_digit a, hex_digit b with
    | Some a, Some b => (a * 16 + b)%N
    | _, _ => 63%N
    end.

  (** The single-character escapes, dsio/json.go:289-298, 328-331. *)
  Definition unquote_short (c : N) : N :=
    if N.eqb c 98 then 8%N
    else if N.eqb c 102 then 12%N
    else if N.eqb c 110 then 10%N
    else if N.eqb c 114 then 13%N
    else if N.eqb c 116 then 9%N
    else c.

  (** unquoteJSONString, dsio/json.go:269-343, on the text between the quotes.
      Simplification: for a \u or \x escape cut short by the closing quote the source slices past the
      end of the string; the slice then contains that quote, so decoding fails and gives '?'.  That
      the slice may also exceed the array and panic is not modelled. *)
  Fixpoint unquote (s : bytes) : bytes :=
    match s with
    | [] => []
    | ch :: r =>
        if N.eqb ch 92 then
          match r with
          | [] => []
          | e :: r1 =>
              if N.eqb e 120 then
                match r1 with
                | a :: b :: r2 => unquote_x a b :: unquote r2
                | _ => [63%N]
                end
              else if N.eqb e 117 then
                match r1 with
                | a :: b :: c :: d :: r2 => unquote_u a b c d ++ unquote r2
                | _ => [63%N]
                end
              else unquote_short e :: unquote r1
          end
        else ch :: unquote r
    end.
End Unquote.

(** The buffer layer. *)

(** JSONReader's reader and prevSize fields, dsio/json.go:22-24. *)
Record jst : Type := mkJst { j_buf : bufr; j_prev : Z }.

(** dsio/json.go:67 *)
Definition block_size : Z := 4096.

(** Unread bytes: an upper bound for the loops below, which all end at the end of the input. *)
Definition unread (b : bufr) : nat := (length (b_buf b) + length (s_rem (b_src b)))%nat.

(** extendBuffer, dsio/json.go:235-251.  The returned slice is a copy ("preserve") when extended. *)
Definition extend_buffer (orig : bytes) (st : jst) : bytes * bool * jst :=
  let size := Z.of_nat (buffered (j_buf st)) in
  let prev := (j_prev st + size)%Z in
  let b1 := discard size (j_buf st) in
  let b2 := snd (peek block_size b1) in
  let size2 := Z.of_nat (buffered b2) in
  if (0 <? size2)%Z then
    let '(extend, _, b3) := peek size2 b2 in
    (orig ++ extend, true, mkJst b3 prev)
  else (orig, false, mkJst b2 prev).

(** The loop of currentBuffer, dsio/json.go:212-225. *)
Fixpoint ws_loop (fuel : nat) (skip : nat) (buff : bytes) (st : jst) : res (nat * bytes * jst) :=
  match fuel with
  | O => OutOfFuel
  | S f =>
      let '(buff, more, st) :=
        if (length buff <=? skip)%nat then extend_buffer buff st else (buff, true, st) in
      if negb more then Ok (skip, buff, st)
      else match nth_error buff skip with
           | None => Panic
           | Some c => if is_ws c then ws_loop f (S skip) buff st else Ok (skip, buff, st)
           end
  end.

(** currentBuffer, dsio/json.go:207-233. *)
Definition current_buffer (st : jst) : res (bytes * jst) :=
  let '(buff, _, b) := peek (Z.of_nat (buffered (j_buf st))) (j_buf st) in
  match ws_loop (S (S (unread b))) 0 buff (mkJst b 0) with
  | Ok (skip, buff, st) =>
      if (0 <? skip)%nat
      then Ok (skipn skip buff, mkJst (discard (Z.of_nat skip - j_prev st) (j_buf st)) 0)
      else Ok (buff, st)
  | Err e => Err e
  | Panic => Panic
  | OutOfFuel => OutOfFuel
  end.

(** Outcome of a call of the buffer layer: a result for the caller and the new state; panics and
    exhausted fuel end the program. *)
Definition jcall (A : Type) : Type := res (A * jst).
Definition with_buffer {A} (st : jst) (k : bytes -> jst -> jcall A) : jcall A :=
  match current_buffer st with
  | Ok (buff, st) => k buff st
  | Err e => Err e
  | Panic => Panic
  | OutOfFuel => OutOfFuel
  end.

(** readTokenChar, dsio/json.go:140-148 *)
Definition j_tok (ch : N) (st : jst) : jcall bool :=
  with_buffer st (fun buff st =>
    match buff with
    | c :: _ => if N.eqb c ch then Ok (true, mkJst (discard 1 (j_buf st)) (j_prev st)) else Ok (false, st)
    | [] => Ok (false, st)
    end).

(** readLiteralToken, dsio/json.go:150-166 *)
Definition j_lit (tok : bytes) (st : jst) : jcall bool :=
  with_buffer st (fun buff st =>
    let '(buff, more, st) :=
      if (length buff <? length tok)%nat then extend_buffer buff st else (buff, true, st) in
    if negb more then Ok (false, st)
    else if (length tok <=? length buff)%nat && beqb tok (firstn (length tok) buff)
    then Ok (true, mkJst (discard (Z.of_nat (length tok) - j_prev st) (j_buf st)) (j_prev st))
    else Ok (false, st)).

(** peekNextChar, dsio/json.go:168-174 *)
Definition j_peek (st : jst) : jcall N :=
  with_buffer st (fun buff st => Ok (hd 0%N buff, st)).

(** currentBuffer called for a log message, dsio/json.go:461-462 *)
Definition j_skip (st : jst) : jcall unit := with_buffer st (fun _ st => Ok (tt, st)).

(** extractFromBuffer and extractBytesFromBuffer, dsio/json.go:253-265 *)
Definition extract (buff : bytes) (i : nat) (st : jst) : bytes * jst :=
  (firstn i buff, mkJst (discard (Z.of_nat i - j_prev st) (j_buf st)) 0).

Definition err_string : err := EMsg "Expected: string".
Definition err_closing : err := EMsg "Expected: closing '""' for string".

(** The loop of readString, dsio/json.go:354-374: [inl] the token with its quotes, [inr] an error. *)
Fixpoint str_loop (fuel : nat) (i : nat) (buff : bytes) (st : jst) : jcall (bytes + err) :=
  match fuel with
  | O => OutOfFuel
  | S f =>
      let '(buff, more, st) :=
        if (length buff <=? i)%nat then extend_buffer buff st else (buff, true, st) in
      if negb more then Ok (inr err_closing, st)
      else match nth_error buff i with
           | None => Panic
           | Some c =>
               if N.eqb c 92 then str_loop f (S (S i)) buff st
               else if N.eqb c 34 then
                 let '(tok, st) := extract buff (S i) st in Ok (inl tok, st)
               else str_loop f (S i) buff st
           end
  end.

(** readString, dsio/json.go:345-376, up to the call of unquoteJSONString. *)
Definition j_str (st : jst) : jcall (bytes + err) :=
  with_buffer st (fun buff st =>
    match buff with
    | c :: _ => if N.eqb c 34 then str_loop (S (S (length buff + unread (j_buf st)))) 1 buff st else Ok (inr err_string, st)
    | [] => Ok (inr err_string, st)
    end).

(** The loop of readNumber, dsio/json.go:382-402.  The text decides whether the number is a float. *)
Fixpoint num_loop (fuel : nat) (i : nat) (buff : bytes) (st : jst) : res (nat * bytes * jst) :=
  match fuel with
  | O => OutOfFuel
  | S f =>
      let '(buff, more, st) :=
        if (length buff <=? i)%nat then extend_buffer buff st else (buff, true, st) in
      if negb more then Ok (i, buff, st)
      else match nth_error buff i with
           | None => Panic
           | Some c => if is_num_char c then num_loop f (S i) buff st else Ok (i, buff, st)
           end
  end.

(** readNumber, dsio/json.go:378-412, up to the conversions: the text, empty when there is no number. *)
Definition j_num (st : jst) : jcall bytes :=
  with_buffer st (fun buff st =>
    match num_loop (S (S (length buff + unread (j_buf st)))) 0 buff st with
    | Ok (i, buff, st) => if (0 <? i)%nat then Ok (extract buff i st) else Ok ([], st)
    | Err e => Err e
    | Panic => Panic
    | OutOfFuel => OutOfFuel
    end).

(** The statement "_, _ = r.reader.Peek(blockSize)", dsio/json.go:74 *)
Definition j_fill (st : jst) : jst := mkJst (snd (peek block_size (j_buf st))) (j_prev st).

(** The grammar layer: programs over the buffer layer. *)
Inductive jprog (A : Type) : Type :=
| JRet (a : A)
| JFill (k : jprog A)
| JTok (ch : N) (k : bool -> jprog A)
| JLit (tok : bytes) (k : bool -> jprog A)
| JPeek (k : N -> jprog A)
| JSkip (k : jprog A)
| JStr (k : bytes + err -> jprog A)
| JNum (k : bytes -> jprog A).
Arguments JRet {A} _.
Arguments JFill {A} _.
Arguments JTok {A} _ _.
Arguments JLit {A} _ _.
Arguments JPeek {A} _.
Arguments JSkip {A} _.
Arguments JStr {A} _.
Arguments JNum {A} _.

Fixpoint jbind {A B : Type} (p : jprog A) (f : A -> jprog B) : jprog B :=
  match p with
  | JRet a => f a
  | JFill k => JFill (jbind k f)
  | JTok c k => JTok c (fun x => jbind (k x) f)
  | JLit t k => JLit t (fun x => jbind (k x) f)
  | JPeek k => JPeek (fun x => jbind (k x) f)
  | JSkip k => JSkip (jbind k f)
  | JStr k => JStr (fun x => jbind (k x) f)
  | JNum k => JNum (fun x => jbind (k x) f)
  end.

(** Running a program on the buffered reader. *)
Fixpoint run_json {A : Type} (p : jprog A) (st : jst) : res (A * jst) :=
  let call {X} (r : jcall X) (k : X -> jst -> res (A * jst)) : res (A * jst) :=
    match r with Ok (x, st) => k x st | Err e => Err e | Panic => Panic | OutOfFuel => OutOfFuel end in
  match p with
  | JRet a => Ok (a, st)
  | JFill k => run_json k (j_fill st)
  | JTok c k => call (j_tok c st) (fun x st => run_json (k x) st)
  | JLit t k => call (j_lit t st) (fun x st => run_json (k x) st)
  | JPeek k => call (j_peek st) (fun x st => run_json (k x) st)
  | JSkip k => call (j_skip st) (fun _ st => run_json k st)
  | JStr k => call (j_str st) (fun x st => run_json (k x) st)
  | JNum k => call (j_num st) (fun x st => run_json (k x) st)
  end.

Section Grammar.
  Variable F : Type.
  (** strconv.ParseFloat(_, 64) *)
  Variable parse_float : bytes -> option F.
  Variable surrogate : bytes.
  Notation gval := (gval F).

  Definition jrbind {A B} (p : jprog (res A)) (f : A -> jprog (res B)) : jprog (res B) :=
    jbind p (fun r => match r with
                      | Ok a => f a
                      | Err e => JRet (Err e)
                      | Panic => JRet Panic
                      | OutOfFuel => JRet OutOfFuel
                      end).

  (** The token without its quotes, dsio/json.go:275-281 (readString's tokens start and end with one). *)
  Definition strip_quotes (tok : bytes) : bytes := firstn (length tok - 2) (skipn 1 tok).

  Definition read_string : jprog (res bytes) :=
    JStr (fun r => JRet (match r with
                         | inl tok => Ok (unquote surrogate (strip_quotes tok))
                         | inr e => Err e
                         end)).

  (** The conversions of readNumber, dsio/json.go:403-411. *)
  Definition convert_number (text : bytes) : res gval :=
    match text with
    | [] => Err (EMsg "Expected: number")
    | _ => if existsb is_float_char text
           then match parse_float text with
                | Some f => Ok (VFloat f)
                | None => Err (EMsg "strconv.ParseFloat")
                end
           else match parse_int64 text with
                | Some z => Ok (VInt z)
                | None => Err (EMsg "strconv.Atoi")
                end
    end.
  Definition read_number : jprog (res gval) := JNum (fun text => JRet (convert_number text)).

  Definition read_literal (tok : bytes) (v : gval) (e : err) : jprog (res gval) :=
    JLit tok (fun ok => JRet (if ok then Ok v else Err e)).

  Definition err_separate : err := EMsg "Expected: ',' to separate elements".

  Definition lit_null : bytes := bs "null".
  Definition lit_true : bytes := bs "true".
  Definition lit_false : bytes := bs "false".

  (** readValue, dsio/json.go:176-205; readObject, 414-442; readArray, 444-474; readKeyValuePair, 476-489.
      One unit of fuel per nested call or loop iteration. *)
  Fixpoint read_value (fuel : nat) : jprog (res gval) :=
    match fuel with
    | O => JRet OutOfFuel
    | S f =>
        JPeek (fun c =>
          if N.eqb c 110 then read_literal lit_null VNil (EMsg "Expected: null")
          else if N.eqb c 116 then read_literal lit_true (VBool true) (EMsg "Expected: true")
          else if N.eqb c 102 then read_literal lit_false (VBool false) (EMsg "Expected: false")
          else if N.eqb c 34 then jrbind read_string (fun s => JRet (Ok (VStr s)))
          else if N.eqb c 45 || is_digit c then read_number
          else if N.eqb c 123 then read_object f
          else if N.eqb c 91 then read_array f
          else JRet (Ok VNil))
    end
  with read_object (fuel : nat) : jprog (res gval) :=
    match fuel with
    | O => JRet OutOfFuel
    | S f =>
        JTok 123 (fun ok => if negb ok then JRet (Err (EMsg "Expected: opening '{' for object")) else
        JTok 125 (fun ok => if ok then JRet (Ok (VMap [])) else
        jrbind (read_pair f) (fun kv => read_pairs f (map_set (fst kv) (snd kv) []))))
    end
  with read_pairs (fuel : nat) (obj : list (bytes * gval)) : jprog (res gval) :=
    match fuel with
    | O => JRet OutOfFuel
    | S f =>
        JTok 125 (fun ok => if ok then JRet (Ok (VMap obj)) else
        JTok 44 (fun ok => if negb ok then JRet (Err err_separate) else
        jrbind (read_pair f) (fun kv => read_pairs f (map_set (fst kv) (snd kv) obj))))
    end
  with read_pair (fuel : nat) : jprog (res (bytes * gval)) :=
    match fuel with
    | O => JRet OutOfFuel
    | S f =>
        jrbind read_string (fun key =>
        JTok 58 (fun ok => if negb ok then JRet (Err (EMsg "Expected: ':' to separate key and value")) else
        jrbind (read_value f) (fun v => JRet (Ok (key, v)))))
    end
  with read_array (fuel : nat) : jprog (res gval) :=
    match fuel with
    | O => JRet OutOfFuel
    | S f =>
        JTok 91 (fun ok => if negb ok then JRet (Err (EMsg "Expected: opening '[' for array")) else
        JTok 93 (fun ok => if ok then JRet (Ok (VArr [])) else
        jbind (read_value f) (fun r =>
          match r with
          | Ok v => read_elems f [v]
          | Err _ => JRet (Ok (VArr []))            (* "return array, nil" *)
          | Panic => JRet Panic
          | OutOfFuel => JRet OutOfFuel
          end)))
    end
  with read_elems (fuel : nat) (acc : list gval) : jprog (res gval) :=
    match fuel with
    | O => JRet OutOfFuel
    | S f =>
        JTok 93 (fun ok => if ok then JRet (Ok (VArr acc)) else
        JTok 44 (fun ok => if negb ok then JSkip (JRet (Err err_separate)) else
        jrbind (read_value f) (fun v => read_elems f (acc ++ [v]))))
    end.

  (** The fields of JSONReader that ReadEntry uses, dsio/json.go:15-21.  [js_obj] is tlt == "object". *)
  Record jstate : Type := mkJs { js_obj : bool; js_init : bool; js_count : Z }.

  Definition err_open (obj : bool) : err :=
    if obj then EMsg "Expected: opening object '{'" else EMsg "Expected: opening array '['".
  Definition err_sep : err := EMsg "Expected: separator ','".

  (** ReadEntry, dsio/json.go:70-126: the result and the new state.
      Simplification: an entry returned together with an error is dropped. *)
  Definition read_body (fuel : nat) (js : jstate) : jprog (res (entry F) * jstate) :=
    let js1 := mkJs (js_obj js) true (js_count js) in
    let ok1 e := (Ok e, mkJs (js_obj js) true (js_count js + 1)%Z) in
    if js_obj js then
      jbind (read_pair fuel) (fun r => JRet (match r with
        | Ok (k, v) => ok1 (mkEntry 0 k v)
        | Err e => (Err e, js1) | Panic => (Panic, js1) | OutOfFuel => (OutOfFuel, js1) end))
    else
      jbind (read_value fuel) (fun r => JRet (match r with
        | Ok v => ok1 (mkEntry (js_count js) [] v)
        | Err e => (Err e, js1) | Panic => (Panic, js1) | OutOfFuel => (OutOfFuel, js1) end)).

  Definition read_entry (fuel : nat) (js : jstate) : jprog (res (entry F) * jstate) :=
    let opening := if js_obj js then 123%N else 91%N in
    let closing := if js_obj js then 125%N else 93%N in
    let after_open :=
      JTok closing (fun ok => if ok then JRet (Err EOF, js) else
      if js_init js then
        JTok 44 (fun ok => if ok then read_body fuel js else JRet (Err err_sep, js))
      else read_body fuel js) in
    JFill (
      if js_init js then after_open
      else JTok opening (fun ok => if ok then after_open else JRet (Err (err_open (js_obj js)), js))).

  (** The loop every consumer runs: entries until the first error, which is io.EOF at a clean end. *)
  Fixpoint read_loop (n : nat) (fuel : nat) (js : jstate) : jprog (list (entry F) * res unit) :=
    match n with
    | O => JRet ([], OutOfFuel)
    | S n' =>
        jbind (read_entry fuel js) (fun '(r, js') =>
          match r with
          | Ok e => jbind (read_loop n' fuel js') (fun '(es, x) => JRet (e :: es, x))
          | Err e => JRet ([], Err e)
          | Panic => JRet ([], Panic)
          | OutOfFuel => JRet ([], OutOfFuel)
          end)
    end.

  (** Reading a whole document with NewJSONReaderSize(st, r, size), dsio/json.go:36-60.
      Panics inside the loop lose the entries collected so far.
      Simplification: schema checks and decompression are not part of the model. *)
  Definition read_json (obj : bool) (size : nat) (s : src) (n fuel : nat) : res (list (entry F) * res unit) :=
    match run_json (read_loop n fuel (mkJs obj false 0)) (mkJst (new_bufr size s) 0) with
    | Ok (x, _) => Ok x
    | Err e => Err e
    | Panic => Panic
    | OutOfFuel => OutOfFuel
    end.
End Grammar.

(** Model of the CSV reader and writer, dsio/csv.go.  Compression is not modelled: maybeWrapDecompressor and
    maybeWrapCompressor return their argument. *)
From Verif Require Import Base M_Decimal M_Formats M_Tabular M_Vals M_Bufio M_Sink M_JsonWrite M_Unmarshal M_CsvText.

Section Csv.
  Variable F : Type.
  (** strconv.ParseFloat with 64 bits, strconv.FormatFloat(f, 'f', -1, 64), and the text encoding/json writes
      for a float. *)
  Variable parse_float : bytes -> option F.
  Variable fmt_plain : F -> bytes.
  Variable fmt_json : F -> option bytes.
  (** The nesting limit of json.Unmarshal. *)
  Variable depth : nat.
  Notation gval := (gval F).

  (** types[i] = []string( *c.Type)[0] (dsio/csv.go:43-46, 196-199): no type is a panic. *)
  Fixpoint first_types (cols : list (column (F:=F))) : option (list bytes) :=
    match cols with
    | [] => Some []
    | c :: r => match c_type c, first_types r with
                | t :: _, Some ts => Some (t :: ts)
                | _, _ => None
                end
    end.

  (** What a reader is made from; a writer uses the types not at all. *)
  Record csv_conf : Type := mkConf { cf_types : list bytes; cf_lazy : bool; cf_comma : N; cf_width : Z; cf_header : bool }.
  (** dsio/csv.go:165-174, HasHeaderRow *)
  Definition has_header_row (format : bytes) (config : option (list (bytes * gval))) : bool :=
    if Z.eqb (structure_data_format format) fCSV then
      match config with
      | None => false
      | Some _ => match new_csv_options config with Ok o => csv_header o | _ => false end
      end
    else false.
  (** dsio/csv.go:37-74, NewCSVReaderSize: the configuration, without the buffers. *)
  Definition new_csv_reader (order : list (bytes * gval) -> list (bytes * gval)) (format : bytes)
      (schema : list (bytes * gval)) (config : option (list (bytes * gval))) : res csv_conf :=
    match columns_from_schema order schema with
    | Ok (cols, _) =>
        match first_types cols with
        | None => Panic
        | Some types =>
            let hdr := has_header_row format config in
            match parse_format_config_map fCSV config with
            | Ok (FCsv o) =>
                Ok (mkConf types (csv_lazy o) (if Z.eqb (csv_sep o) 0 then cCOMMA else Z.to_N (csv_sep o))
                      (if csv_variadic o then (-1)%Z else 0%Z) hdr)
            | _ => Ok (mkConf types false cCOMMA 0 hdr)
            end
        end
    | Err e => Err e
    | Panic => Panic
    | OutOfFuel => OutOfFuel
    end.

  (** One cell of decode (dsio/csv.go:130-160).  A nil map or slice, which null gives, is not told from an
      empty one. *)
  Definition cast (ty str : bytes) : gval :=
    if beqb ty (bs "number") then match parse_float str with Some f => VFloat f | None => VStr str end
    else if beqb ty (bs "integer") then match parse_int64 str with Some z => VInt z | None => VStr str end
    else if beqb ty (bs "boolean") then match parse_bool str with Some b => VBool b | None => VStr str end
    else if beqb ty (bs "object") then
      match unmarshal F parse_float depth str with Ok (VMap m) => VMap m | Ok VNil => VMap [] | _ => VStr str end
    else if beqb ty (bs "array") then
      match unmarshal F parse_float depth str with Ok (VArr l) => VArr l | Ok VNil => VArr [] | _ => VStr str end
    else if beqb ty (bs "null") then VNil
    else VStr str.
  (** dsio/csv.go:118-163, decode *)
  Fixpoint cast_all (types strings : list bytes) : list gval :=
    match strings, types with
    | [], _ => []
    | s :: r, t :: ts => cast t s :: cast_all ts r
    | s :: r, [] => []                                    (* not reached: there are as many types as cells *)
    end.
  Definition decode (types strings : list bytes) : list gval :=
    cast_all (if (length types <? length strings)%nat then map (fun _ => bs "string") strings else types) strings.

  (** dsio/csv.go:17-26, CSVReader: readHeader and the csv.Reader. *)
  Record csv_reader : Type := mkRd { rd_header : bool; rd_csv : creader csvin }.
  Definition read_row (osize : nat) (c : csv_conf) (r : creader csvin) : res (list bytes) * creader csvin :=
    in_read osize (cf_lazy c) false (cf_comma c) r.
  (** dsio/csv.go:81-107, ReadEntry *)
  Definition csv_data (osize : nat) (c : csv_conf) (r : creader csvin) : res (entry F) * csv_reader :=
    match read_row osize c r with
    | (Ok row, r') => (Ok (mkEntry 0 [] (VArr (decode (cf_types c) row))), mkRd true r')
    | (Err e, r') => (Err e, mkRd true r')
    | (Panic, r') => (Panic, mkRd true r')
    | (OutOfFuel, r') => (OutOfFuel, mkRd true r')
    end.
  Definition csv_read_entry (osize : nat) (c : csv_conf) (r : csv_reader) : res (entry F) * csv_reader :=
    if rd_header r then csv_data osize c (rd_csv r)
    else if cf_header c then
      match read_row osize c (rd_csv r) with
      | (Ok _, r') => csv_data osize c r'
      | (Err e, r') => (Err e, mkRd false r')
      | (Panic, r') => (Panic, mkRd false r')
      | (OutOfFuel, r') => (OutOfFuel, mkRd false r')
      end
    else csv_data osize c (rd_csv r).
  Fixpoint csv_calls (osize n : nat) (c : csv_conf) (r : csv_reader) : list (res (entry F)) :=
    match n with
    | O => []
    | S n => let '(x, r') := csv_read_entry osize c r in x :: csv_calls osize n c r'
    end.
  (** The results of n ReadEntry calls on a new reader: inner buffer of [size] bytes (262144 in
      NewCSVReader), outer buffer of [osize] bytes (4096). *)
  Definition csv_start (size : nat) (c : csv_conf) (s : src) : csv_reader :=
    mkRd false (mkCr (cf_width c) (mkIn [] None (new_bufr size s))).
  Definition csv_read_all (size osize n : nat) (c : csv_conf) (s : src) : list (res (entry F)) :=
    csv_calls osize n c (csv_start size c s).

  (** One cell of encode (dsio/csv.go:249-283); values of other types, e.g. []byte, become empty cells. *)
  Definition cell_text (v : gval) : bytes :=
    match v with
    | VStr t => t
    | VInt z => itoa z
    | VFloat f => fmt_plain f
    | VArr _ | VMap _ => match marshal F fmt_json [] [] [] v with Some t => t | None => [] end
    | VBool true => bs "true"
    | VBool false => bs "false"
    | VNil => []
    | VBytes _ => []
    end.
  (** dsio/csv.go:176-187, CSVWriter: the csv.Writer and its separator. *)
  Record csv_writer : Type := mkWr { wr_comma : N; wr_out : bufw }.
  (** dsio/csv.go:190-228, NewCSVWriter; the result of writing the titles is dropped. *)
  Definition new_csv_writer (wsize : nat) (order : list (bytes * gval) -> list (bytes * gval))
      (schema : list (bytes * gval)) (config : option (list (bytes * gval))) (k : sink) : res csv_writer :=
    match columns_from_schema order schema with
    | Ok (cols, _) =>
        match first_types cols with
        | None => Panic
        | Some _ =>
            let w := mkBw [] None k in
            match new_csv_options config with
            | Ok o =>
                let comma := if Z.eqb (csv_sep o) 0 then cCOMMA else Z.to_N (csv_sep o) in
                Ok (mkWr comma (if csv_header o then snd (csv_write wsize comma w (titles cols)) else w))
            | _ => Ok (mkWr cCOMMA w)
            end
        end
    | Err e => Err e
    | Panic => Panic
    | OutOfFuel => OutOfFuel
    end.
  Definition err_not_array : err := EMsg "expected array value to write csv row".
  (** dsio/csv.go:236-246, WriteEntry *)
  Definition csv_write_entry (wsize : nat) (w : csv_writer) (e : entry F) : option err * csv_writer :=
    match e_val e with
    | VArr vs => let '(x, o) := csv_write wsize (wr_comma w) (wr_out w) (map cell_text vs) in (x, mkWr (wr_comma w) o)
    | _ => (Some err_not_array, w)
    end.
  Fixpoint csv_write_entries (wsize : nat) (w : csv_writer) (es : list (entry F)) : list (option err) * csv_writer :=
    match es with
    | [] => ([], w)
    | e :: r => let '(x, w') := csv_write_entry wsize w e in
                let '(xs, w2) := csv_write_entries wsize w' r in (x :: xs, w2)
    end.
  (** dsio/csv.go:285-293, Close; the result of Flush is dropped. *)
  Definition csv_close (w : csv_writer) : option err * csv_writer :=
    (None, mkWr (wr_comma w) (snd (bw_flush (wr_out w)))).
  (** Writing entries and closing: the results of the calls, the result of Close, and what arrived. *)
  Definition csv_session (wsize : nat) (w : csv_writer) (es : list (entry F)) : list (option err) * option err * bytes :=
    let '(xs, w1) := csv_write_entries wsize w es in
    let '(x, w2) := csv_close w1 in
    (xs, x, k_out (w_dest (wr_out w2))).
End Csv.

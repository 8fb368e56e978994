(** Model of package detect: detect/detect.go, detect/json.go, detect/cbor.go, detect/xlsx.go and
    detect/determineFields.go.
    Simplifications: error texts are abbreviated; FromFile, which opens a file of the operating system, is left
    out; logging is left out; a name from a header cell (varName.CreateVarNameFromString, another library) is a
    parameter. *)
From Verif Require Import Base M_Bufio M_Decimal M_Doc M_Formats M_Components M_Vals M_Utf8 M_MetaSet M_JsonWrite M_Unmarshal
  M_CsvText.

(** structure.go:10-17.  Both are shared by everything that uses them; nothing modelled here changes them. *)
Definition base_schema_array : list (bytes * jdoc) := [(bs "type", JStr (bs "array"))].
Definition base_schema_object : list (bytes * jdoc) := [(bs "type", JStr (bs "object"))].

(** bufio.defaultBufSize, of the bufio.Reader inside csv.Reader and of bufio.NewReader. *)
Definition bufsize : nat := 4096.
(** What a detector returns: the schema or an error, the number n, and the reader afterwards. *)
Definition found : Type := (res (list (bytes * jdoc)) * Z * src)%type.

(** ** detect/json.go *)
Definition err_bad_json : err := EMsg "invalid json data".
Definition err_reading : err := EMsg "error reading data".
(** detect/json.go:43-55: the loop over the buffer.  [None]: only blanks. *)
Fixpoint scan_json (buf : bytes) : option (res (list (bytes * jdoc))) :=
  match buf with
  | [] => None
  | b :: r =>
      if N.eqb b 91 then Some (Ok base_schema_array)
      else if N.eqb b 123 then Some (Ok base_schema_object)
      else if N.eqb b 32 || N.eqb b 9 || N.eqb b 10 || N.eqb b 13 then scan_json r
      else Some (Err err_bad_json)
  end.
(** detect/json.go:22-57.  A read overwrites the front of the buffer; all of it is scanned. *)
Fixpoint json_loop (fuel : nat) (buf : bytes) (n : Z) (s : src) : found :=
  match fuel with
  | O => (OutOfFuel, n, s)
  | S f =>
      let '(d, e, s') := src_read (length buf) s in
      let n := (n + Z.of_nat (length d))%Z in
      let buf := d ++ skipn (length d) buf in
      let go := match scan_json buf with Some r => (r, n, s') | None => json_loop f buf n s' end in
      match e with
      | Some EOF => if (0 <? length d)%nat then go else (Err err_bad_json, n, s')
      | Some _ => (Err err_reading, n, s')
      | None => go
      end
  end.
(** detect/json.go:14-58, JSONSchema *)
Definition json_schema (s : src) : found := json_loop (S (length (s_rem s))) (repeat 0%N 100) 0 s.
(** detect/json.go:61-63, NDJSONSchema; detect/xlsx.go:11-13, XLSXSchema *)
Definition ndjson_schema (s : src) : found := (Ok base_schema_array, 0%Z, s).
Definition xlsx_schema (s : src) : found := (Ok base_schema_array, 0%Z, s).

(** ** detect/cbor.go:20-41, CBORSchema.  ReadByte gives 0 with an error. *)
Definition err_bad_cbor : err := EMsg "invalid top-level type for CBOR data".
Definition cbor_schema (s : src) : found :=
  let '(r, b) := read_byte (new_bufr bufsize s) in
  let decide bd :=
    if ((128 <=? bd) && (bd <? 160) || (bd =? 159))%N then Ok base_schema_array
    else if ((160 <=? bd) && (bd <? 192) || (bd =? 191))%N then Ok base_schema_object
    else Err err_bad_cbor in
  (match r with
   | Ok bd => decide bd
   | Err EOF => decide 0%N
   | Err _ => Err err_reading
   | Panic => Panic
   | OutOfFuel => OutOfFuel
   end, 1%Z, b_src b).

(** ** detect/determineFields.go *)
(** detect/determineFields.go:146-155, getKeys: the keys of the tally, in increasing order.  A tally is the
    function from types to counts; a type is a key if it was counted. *)
Definition type_keys : list N := [tUnknown; tNull; tInteger; tNumber; tBoolean; tString; tObject; tArray; tBytes].
Definition tally_of (types : list N) (t : N) : nat := length (filter (N.eqb t) types).
Definition get_keys (types : list N) : list N := filter (fun t => (0 <? tally_of types t)%nat) type_keys.
(** detect/determineFields.go:120-129: the loop over the keys, from TypeUnknown. *)
Definition pick_type (types : list N) : N :=
  fold_left (fun best t => if (tally_of types best <? tally_of types t)%nat then t else best) (get_keys types) tUnknown.

Section Detect.
  Variable F : Type.
  (** strconv.ParseFloat with 64 bits, and whether it succeeds with 32 bits. *)
  Variable parse_float : bytes -> option F.
  Variable float32_ok : bytes -> bool.
  Variable depth : nat.              (* the nesting json.Unmarshal accepts *)
  Variable var_name : bytes -> bytes.
  Notation gval := (gval F).

  (** detect/determineFields.go:164-181, possibleCsvHeaderRow *)
  Fixpoint possible_header (h : list bytes) : bool :=
    match h with
    | [] => true
    | raw :: r =>
        let col := trim_space raw in
        match parse_int64 col with
        | Some _ => false
        | None =>
            match parse_float col with
            | Some _ => false
            | None => if beqb col [] then false
                      else if beqb col (bs "true") || beqb col (bs "false") then false
                      else possible_header r
            end
        end
    end.

  (** One column of rows. *)
  Definition column_of (i : nat) (rows : list (list bytes)) : list bytes := map (fun r => nth i r []) rows.

  (** The loop of CSVSchema over the rows (detect/determineFields.go:96-118): the rows with as many cells as the
      first, whether there are others, and the error if any.  [rows] are the rows counted so far, latest first. *)
  Definition csv_state : Type := creader csvin.
  Fixpoint csv_loop (fuel : nat) (width count : nat) (rows : list (list bytes)) (variadic : bool) (r : csv_state)
      : res (list (list bytes)) * bool * csv_state :=
    match fuel with
    | O => (OutOfFuel, variadic, r)
    | S f =>
        let '(x, r1) := in_read bufsize true true 44 r in
        if (2000 <? count)%nat then (Ok (rev rows), variadic, r1)
        else match x with
             | Err EOF => (Ok (rev rows), variadic, r1)
             | Err _ => (Err (EMsg "error reading csv file"), variadic, r1)
             | Ok rec => if (length rec =? width)%nat then csv_loop f width (S count) (rec :: rows) variadic r1
                         else csv_loop f width count rows true r1
             | Panic => (Panic, variadic, r1)
             | OutOfFuel => (OutOfFuel, variadic, r1)
             end
    end.

  (** json.Marshal of a field (detect/determineFields.go:48-51): empty members are left out; a Type is written
      as its name in quotes (vals/type.go:116-118). *)
  Definition field_doc (title : bytes) (ty : N) : gval :=
    VMap ((if beqb title [] then [] else [(bs "title", VStr title)]) ++
          (if N.eqb ty tUnknown then [] else [(bs "type", VStr (type_string ty))])).
  (** Values json.Unmarshal made of a text of strings, arrays and objects. *)
  Fixpoint doc_of (v : gval) : jdoc :=
    match v with
    | VStr s => JStr s
    | VArr l => JArr (map doc_of l)
    | VMap m => JObj (map (fun kv => (fst kv, doc_of (snd kv))) m)
    | _ => JNull
    end.
  (** detect/determineFields.go:131-143.  There are no floats to be written. *)
  Definition schema_of (fields : list gval) : res (list (bytes * jdoc)) :=
    match marshal F (fun _ => None) [] [] [] (VArr fields) with
    | None => Err (EMsg "error marshaling csv fields to json")
    | Some items =>
        match unmarshal F parse_float depth (bs "{""type"":""array"",""items"":{""type"":""array"",""items"":" ++ items ++ bs "}}") with
        | Ok v => match doc_of v with JObj m => Ok m | _ => Err (EMsg "json: cannot unmarshal") end
        | Err e => Err e
        | Panic => Panic
        | OutOfFuel => OutOfFuel
        end
    end.
  Definition field_number (i : nat) : bytes := bs "field_" ++ itoa (Z.of_nat (S i)).

  (** detect/determineFields.go:54-144, CSVSchema: also the FormatConfig it gives the structure. *)
  Definition csv_schema (s : src) : found * gomap jdoc :=
    let r0 := mkCr (-1)%Z (mkIn [] None (new_bufr bufsize s)) in
    let at_ r := b_src (i_inner (r_st r)) in
    let taken r := Z.of_nat (length (s_rem s) - length (s_rem (at_ r))) in
    let opt := [(bs "lazyQuotes", JBool true)] in
    let '(x, r1) := in_read bufsize true true 44 r0 in
    match x with
    | Err e => ((Err e, taken r1, at_ r1), Some opt)
    | Panic => ((Panic, taken r1, at_ r1), Some opt)
    | OutOfFuel => ((OutOfFuel, taken r1, at_ r1), Some opt)
    | Ok header =>
        let names := possible_header header in
        let opt := if names then map_set (bs "headerRow") (JBool true) opt else opt in
        let '(y, variadic, r2) := csv_loop (S (S (in_left (r_st r1)))) (length header) 0 [] false r1 in
        let opt := if variadic then map_set (bs "variadicFields") (JBool true) opt else opt in
        match y with
        | Ok rows =>
            let counted := if names then rows else header :: rows in
            let fields := map (fun i =>
              field_doc (if names then var_name (nth i header []) else field_number i)
                        (pick_type (map (parse_type float32_ok) (column_of i counted)))) (seq 0 (length header)) in
            ((schema_of fields, taken r2, at_ r2), Some opt)
        | Err e => ((Err e, taken r2, at_ r2), Some opt)
        | Panic => ((Panic, taken r2, at_ r2), Some opt)
        | OutOfFuel => ((OutOfFuel, taken r2, at_ r2), Some opt)
        end
    end.

  (** ** detect/determineFields.go:24-46, Schema: also the FormatConfig of the structure afterwards. *)
  Definition schema (st : structure) (s : src) : found * gomap jdoc :=
    let f := structure_data_format (st_format st) in
    let keep x := (x, st_format_config st) in
    if Z.eqb f fUnknown then keep (Err (EMsg "dataset format must be specified to determine schema"), 0%Z, s)
    else if Z.eqb f fCBOR then keep (cbor_schema s)
    else if Z.eqb f fJSON then keep (json_schema s)
    else if Z.eqb f fCSV then csv_schema s
    else if Z.eqb f fXLSX then keep (xlsx_schema s)
    else if Z.eqb f fNDJSON then keep (ndjson_schema s)
    else keep (Err (EMsg "not supported for field detection"), 0%Z, s).

  Definition set_schema (st : structure) (m : gomap jdoc) : structure :=
    mkStructure (st_checksum st) (st_compression st) (st_depth st) (st_encoding st) (st_err_count st) (st_entries st)
      (st_format st) (st_format_config st) (st_length st) (st_path st) (st_qri st) m (st_strict st).
  Definition set_config (st : structure) (m : gomap jdoc) : structure :=
    mkStructure (st_checksum st) (st_compression st) (st_depth st) (st_encoding st) (st_err_count st) (st_entries st)
      (st_format st) m (st_length st) (st_path st) (st_qri st) (st_schema st) (st_strict st).
  Definition set_format (st : structure) (f : bytes) : structure :=
    mkStructure (st_checksum st) (st_compression st) (st_depth st) (st_encoding st) (st_err_count st) (st_entries st)
      f (st_format_config st) (st_length st) (st_path st) (st_qri st) (st_schema st) (st_strict st).
  Definition set_compression (st : structure) (c : bytes) : structure :=
    mkStructure (st_checksum st) c (st_depth st) (st_encoding st) (st_err_count st) (st_entries st)
      (st_format st) (st_format_config st) (st_length st) (st_path st) (st_qri st) (st_schema st) (st_strict st).
  (** detect/detect.go:131-138, FromReader: the structure, n, the error and the reader afterwards. *)
  Definition from_reader (format : dfmt) (comp : bytes) (s : src) : structure * Z * res unit * src :=
    let st := mkStructure [] comp 0 [] 0 0 (format_string format) None 0 [] [] None false in
    let '((x, n, s'), cfg) := schema st s in
    match x with
    | Ok m => (set_schema (set_config st cfg) (Some m), n, Ok tt, s')
    | Err e => (set_config st cfg, n, Err e, s')
    | Panic => (st, n, Panic, s')
    | OutOfFuel => (st, n, OutOfFuel, s')
    end.

  (** ** detect/detect.go:31-119 *)
  (** A body file: its name, its reader and, if it is a qfs.SizeFile, its size.  The reader is a source, or
      io.MultiReader of a bytes.Buffer and a source; a reader that was dropped is [None]. *)
  Record joined : Type := mkJoined { j_buf : option bytes; j_src : option src }.
  Inductive reader : Type := Plain (s : src) | Joined (j : joined).
  Record body_file : Type := mkBody { bf_name : bytes; bf_reader : reader; bf_size : option Z }.
  (** bytes.Buffer.Read with room for at least one byte *)
  Definition buffer_read (k : nat) (b : bytes) : bytes * option err * bytes :=
    match b with [] => ([], Some EOF, []) | _ => (firstn k b, None, skipn k b) end.
  (** io.multiReader.Read *)
  Definition joined_read (k : nat) (j : joined) : bytes * option err * joined :=
    let second :=
      match j_src j with
      | None => ([], Some EOF, mkJoined None None)
      | Some s => let '(d, e, s') := src_read k s in
                  (d, e, mkJoined None (match e with Some EOF => None | _ => Some s' end))
      end in
    match j_buf j with
    | None => second
    | Some b =>
        let '(d, e, b') := buffer_read k b in
        match e with
        | Some EOF => match d with
                      | [] => second
                      | _ => (d, match j_src j with Some _ => None | None => Some EOF end, mkJoined None (j_src j))
                      end
        | _ => (d, e, mkJoined (Some b') (j_src j))
        end
    end.
  Definition reader_read (k : nat) (r : reader) : bytes * option err * reader :=
    match r with
    | Plain s => let '(d, e, s') := src_read k s in (d, e, Plain s')
    | Joined j => let '(d, e, j') := joined_read k j in (d, e, Joined j')
    end.

  (** detect/detect.go:102-119, needsFormatConfig *)
  Definition needs_config (st : structure) : bool :=
    if beqb (st_format st) (format_string fXLSX) then is_nil (st_format_config st)
    else if beqb (st_format st) (format_string fCSV) then is_nil (st_format_config st)
    else false.
  (** detect/detect.go:38-40 *)
  Definition settled (st : option structure) : bool :=
    match st with
    | None => false
    | Some st => negb (bempty (st_format st)) && negb (is_nil (st_schema st)) && negb (needs_config st)
    end.
  (** detect/detect.go:66-83 *)
  Definition complete (st : option structure) (g : structure) : structure :=
    let st := match st with None => g | Some st => st end in
    let st := if bempty (st_format st) then set_format st (st_format g) else st in
    let st := if bempty (st_compression st) then set_compression st (st_compression g) else st in
    let st := if is_nil (st_format_config st) && beqb (st_format st) (st_format g) then set_config st (st_format_config g) else st in
    if is_nil (st_schema st) then set_schema st (st_schema g) else st.
  Definition with_structure (d : dataset) (st : option structure) : dataset :=
    mkDataset (ds_body_file d) (ds_body d) (ds_body_bytes d) (ds_body_path d) (ds_commit d) (ds_id d) (ds_meta d) (ds_name d)
      (ds_path d) (ds_peername d) (ds_previous d) (ds_profile d) (ds_readme d) (ds_num_versions d) (ds_qri d) st (ds_stats d)
      (ds_transform d) (ds_viz d).
  Definition err_no_body : err := EMsg "this dataset has no body".

  (** detect/detect.go:31-96, Structure: the error, the dataset and its body file afterwards.  The buffer of
      the io.TeeReader holds what was read from the body: it is taken from the source before and after.
      Simplification: the body read is a source; a body that an earlier call has put together is only handled
      if nothing has to be read ([None] otherwise). *)
  Definition detect_structure (ds : option dataset) (body : option body_file)
      : option (res unit * option dataset * option body_file) :=
    match ds with
    | None => Some (Err (EMsg "empty dataset"), None, body)
    | Some d =>
        if settled (ds_structure d) then Some (Ok tt, Some d, body)
        else match body with
             | None => Some (Err err_no_body, Some d, None)
             | Some f =>
                 let '(df, comp, e) := format_from_filename (bf_name f) in
                 match e with
                 | Ok _ =>
                     match bf_reader f with
                     | Joined _ => None
                     | Plain s =>
                         let '(g, _, x, s') := from_reader df comp s in
                         match x with
                         | Ok _ =>
                             let buf := firstn (length (s_rem s) - length (s_rem s')) (s_rem s) in
                             let size := match bf_size f with Some z => z | None => (-1)%Z end in
                             Some (Ok tt, Some (with_structure d (Some (complete (ds_structure d) g))),
                                   Some (mkBody (bf_name f) (Joined (mkJoined (Some buf) (Some s'))) (Some size)))
                         | Err e => Some (Err (EWrap "determining dataset structure" 0 e), Some d, Some (mkBody (bf_name f) (Plain s') (bf_size f)))
                         | Panic => Some (Panic, Some d, Some (mkBody (bf_name f) (Plain s') (bf_size f)))
                         | OutOfFuel => Some (OutOfFuel, Some d, Some (mkBody (bf_name f) (Plain s') (bf_size f)))
                         end
                     end
                 | Err e => Some (Err (EWrap "invalid data format" 0 e), Some d, body)
                 | Panic => Some (Panic, Some d, body)
                 | OutOfFuel => Some (OutOfFuel, Some d, body)
                 end
             end
    end.

  (** ** detect/detect.go:178-231 *)
  (** detect/detect.go:216-231, goDataType *)
  Definition go_data_type (v : gval) : bytes :=
    match v with
    | VInt _ | VFloat _ => bs "number"
    | VBool _ => bs "boolean"
    | VNil => bs "null"
    | _ => bs "string"
    end.
  Definition err_tabular (what : string) : err := EWrap what 0 (EMsg "invalid tabular data").
  Fixpoint number_columns (i : nat) (row : list gval) : list gval :=
    match row with
    | [] => []
    | v :: r => VMap [(bs "title", VStr (bs "col_" ++ itoa (Z.of_nat i))); (bs "type", VStr (go_data_type v))] :: number_columns (S i) r
    end.
  (** detect/detect.go:183-214, TabularSchemaFromTabularData *)
  Definition tabular_schema (source : gval) : res (list (bytes * gval)) :=
    match source with
    | VArr [] => Err (err_tabular "missing row data")
    | VArr (VArr row :: _) =>
        Ok [(bs "items", VMap [(bs "items", VArr (number_columns 0 row)); (bs "type", VStr (bs "array"))]); (bs "type", VStr (bs "array"))]
    | VArr (_ :: _) => Err (err_tabular "array schemas must use an inner array for rows")
    | VMap _ => Err (err_tabular "cannot interpret object-based tabular schemas")
    | _ => Ok []
    end.
End Detect.

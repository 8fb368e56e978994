(** Model of NewEntryReader, NewEntryWriter and ConvertFile with their choice of format: dsio/dsio.go:52-120 and
    191-230.  Floats are 64-bit patterns, as in M_Cbor. *)
From Verif Require Import Base M_Bufio M_Sink M_Json M_JsonWrite M_Cbor M_Columns M_Tabular M_CsvText M_Csv M_NDJson M_Xlsx M_Formats M_Stream.

Notation jmap := (list (bytes * gval N)).
(** The fields of dataset.Structure that readers and writers look at. *)
Record shape : Type := mkShape { sh_format : bytes; sh_compression : bytes; sh_schema : option jmap; sh_config : option jmap }.

(** The reader behind the interface EntryReader; [RCbor true] reads a map. *)
Inductive ereader : Type :=
| RJson (js : jstate) (st : jst)
| RCbor (obj : bool) (st : cbor_state) (b : bufr)
| RCsv (c : csv_conf) (r : csv_reader)
| RNd (r : nd_reader)
| RXlsx (r : xlsx_reader).
(** The writer behind EntryWriter: what Close wrote is kept with a CBOR writer, all others hold their destination. *)
Inductive ewriter : Type :=
| WJson (w : jwriter)
| WCbor (w : cbor_writer) (out : bytes)
| WCsv (w : csv_writer)
| WNd (w : nd_writer)
| WXlsx (w : xlsx_writer).

Section Convert.
  (** strconv and encoding/json for floats, and json.Unmarshal's nesting limit, as in the modules of the formats. *)
  Variable parse_float : bytes -> option N.
  Variable fmt_plain : N -> bytes.
  Variable fmt_json : N -> option bytes.
  Variable depth : nat.
  Variable surrogate : bytes.
  (** excelize, as in M_Xlsx *)
  Variable save : book -> bytes.
  Variable load : bytes -> res book.
  Variable sheet_key keep : bytes -> bytes.
  (** The order in which a map is visited (M_Tabular). *)
  Variable order : jmap -> jmap.
  (** Buffer sizes: the JSON and CSV readers (dsio/json.go:31, dsio/csv.go:33), the buffers inside encoding/csv, and
      the default of bufio. *)
  Variables size osize wsize dsize : nat.
  (** A decompressor wrapped around a source, and what a closed compressor has written for given bytes.
      Simplification: a compressor takes every write and closes without an error. *)
  Variable unpack : bytes -> src -> res src.
  Variable pack : bytes -> bytes -> bytes.

  Definition err_schema : err := EMsg "schema required".
  Definition err_no_format : err := EMsg "structure must have a data format".
  Definition err_format : err := EMsg "invalid format".
  Definition err_comp : err := EMsg "invalid compression format".
  (** dsio.go:101-111, maybeWrapDecompressor; compression/compression.go:78-98, Decompressor *)
  Definition wrap_decompressor (comp : bytes) (s : src) : res src :=
    match comp with
    | [] => Ok s
    | _ => match parse_compression comp with Some f => unpack f s | None => Err err_comp end
    end.
  (** dsio.go:113-123, maybeWrapCompressor; compression/compression.go:60-74, Compressor: the format, or none *)
  Definition wrap_compressor (comp : bytes) : res (option bytes) :=
    match comp with
    | [] => Ok None
    | _ => match parse_compression comp with Some f => Ok (Some f) | None => Err err_comp end
    end.
  Definition rthen {A B : Type} (r : res A) (f : A -> res B) : res B :=
    match r with Ok a => f a | Err e => Err e | Panic => Panic | OutOfFuel => OutOfFuel end.
  (** "if st.Schema == nil": for the readers and writers that ask for one. *)
  Definition required (schema : option jmap) : res jmap := match schema with Some m => Ok m | None => Err err_schema end.
  Definition some_map (schema : option jmap) : jmap := match schema with Some m => m | None => [] end.
  Definition is_object (tlt : bytes) : bool := beqb tlt (bs "object").

  (** NewJSONReader, dsio/json.go:29-59 *)
  Definition open_json (sh : shape) (s : src) : res ereader :=
    rthen (required (sh_schema sh)) (fun _ => rthen (get_top_level_type (sh_schema sh)) (fun tlt =>
      rthen (wrap_decompressor (sh_compression sh) s) (fun s =>
        Ok (RJson (mkJs (is_object tlt) false 0) (mkJst (new_bufr size s) 0))))).
  (** NewCBORReader, dsio/cbor.go:32-63 *)
  Definition open_cbor (sh : shape) (s : src) : res ereader :=
    rthen (required (sh_schema sh)) (fun _ => rthen (wrap_decompressor (sh_compression sh) s) (fun s =>
      rthen (get_top_level_type (sh_schema sh)) (fun tlt =>
        Ok (RCbor (is_object tlt) cbor_start (new_bufr cbor_buf_size s))))).
  (** NewCSVReader, dsio/csv.go:30-74 *)
  Definition open_csv (sh : shape) (s : src) : res ereader :=
    rthen (new_csv_reader N order (sh_format sh) (some_map (sh_schema sh)) (sh_config sh)) (fun c =>
      rthen (wrap_decompressor (sh_compression sh) s) (fun s => Ok (RCsv c (csv_start size c s)))).
  (** NewNDJSONReader, dsio/ndjson.go:24-50 *)
  Definition open_nd (sh : shape) (s : src) : res ereader :=
    rthen (required (sh_schema sh)) (fun _ => rthen (get_top_level_type (sh_schema sh)) (fun tlt =>
      if negb (beqb tlt (bs "array")) then Err (EMsg "NDJSON top level type must be 'array'")
      else rthen (wrap_decompressor (sh_compression sh) s) (fun s => Ok (RNd (mkNd 0 (new_bufr dsize s)))))).
  (** NewXLSXReader, dsio/xlsx.go:27-65; excelize.OpenReader reads the source to its end. *)
  Definition open_xlsx (sh : shape) (s : src) : res ereader :=
    match s_fin s with
    | EOF => rthen (new_xlsx_reader N load sheet_key order (sh_compression sh) (some_map (sh_schema sh)) (sh_config sh) (s_rem s))
               (fun r => Ok (RXlsx r))
    | e => rthen (new_xlsx_reader N (fun _ => Err e) sheet_key order (sh_compression sh) (some_map (sh_schema sh)) (sh_config sh) (s_rem s))
               (fun r => Ok (RXlsx r))
    end.
  (** dsio.go:52-75, NewEntryReader *)
  Definition new_entry_reader (sh : shape) (s : src) : res ereader :=
    let f := structure_data_format (sh_format sh) in
    if Z.eqb f fCBOR then open_cbor sh s
    else if Z.eqb f fJSON then open_json sh s
    else if Z.eqb f fCSV then open_csv sh s
    else if Z.eqb f fXLSX then open_xlsx sh s
    else if Z.eqb f fNDJSON then open_nd sh s
    else if Z.eqb f fUnknown then Err err_no_format
    else Err err_format.

  (** ReadEntry of whatever reader it is.  Byte strings of a CBOR reader are as they were when read; the reader may
      overwrite them later (M_Cbor), which matters to a writer that keeps them until Close. *)
  Definition read_step (fuel : nat) (r : ereader) : res (entry N) * ereader :=
    match r with
    | RJson js st =>
        match run_json (read_entry N parse_float surrogate fuel js) st with
        | Ok ((x, js'), st') => (x, RJson js' st')
        | Err e => (Err e, r)
        | Panic => (Panic, r)
        | OutOfFuel => (OutOfFuel, r)
        end
    | RCbor obj st b =>
        let '((x, st'), b') := run_buf (plain tt (cbor_read_entry fuel obj st)) b in
        (rthen x (fun e => Ok (entry_read e)), RCbor obj st' b')
    | RCsv c r => let '(x, r') := csv_read_entry N parse_float depth osize c r in (x, RCsv c r')
    | RNd r => let '(x, r') := nd_read_entry N parse_float depth r in (x, RNd r')
    | RXlsx r => let '(x, r') := xlsx_read_entry N parse_float depth r in (x, RXlsx r')
    end.

  (** NewJSONWriter, dsio/json.go:504-532, with the indent of NewJSONPrettyWriter (535-542) *)
  Definition make_json (indent : bytes) (sh : shape) (k : sink) : res (option bytes * ewriter) :=
    rthen (required (sh_schema sh)) (fun _ => rthen (get_top_level_type (sh_schema sh)) (fun tlt =>
      rthen (wrap_compressor (sh_compression sh)) (fun c => Ok (c, WJson (new_jwriter (is_object tlt) indent k))))).
  (** NewCBORWriter, dsio/cbor.go:457-486 *)
  Definition make_cbor (sh : shape) : res (option bytes * ewriter) :=
    rthen (required (sh_schema sh)) (fun _ => rthen (get_top_level_type (sh_schema sh)) (fun tlt =>
      rthen (wrap_compressor (sh_compression sh)) (fun c => Ok (c, WCbor (new_cbor_writer (is_object tlt)) [])))).
  (** NewCSVWriter, dsio/csv.go:190-228 *)
  Definition make_csv (sh : shape) (k : sink) : res (option bytes * ewriter) :=
    rthen (new_csv_writer N wsize order (some_map (sh_schema sh)) (sh_config sh) k) (fun w =>
      rthen (wrap_compressor (sh_compression sh)) (fun c => Ok (c, WCsv w))).
  (** NewNDJSONWriter, dsio/ndjson.go:98-117: unlike the reader it takes any schema. *)
  Definition make_nd (sh : shape) (k : sink) : res (option bytes * ewriter) :=
    rthen (required (sh_schema sh)) (fun _ => rthen (wrap_compressor (sh_compression sh)) (fun c => Ok (c, WNd (mkNw None k)))).
  (** NewXLSXWriter, dsio/xlsx.go:157-199 *)
  Definition make_xlsx (sh : shape) (k : sink) : res (option bytes * ewriter) :=
    rthen (new_xlsx_writer N sheet_key order (sh_compression sh) (some_map (sh_schema sh)) (sh_config sh) k) (fun w => Ok (None, WXlsx w)).
  (** dsio.go:78-100, NewEntryWriter *)
  Definition new_entry_writer (sh : shape) (k : sink) : res (option bytes * ewriter) :=
    let f := structure_data_format (sh_format sh) in
    if Z.eqb f fCBOR then make_cbor sh
    else if Z.eqb f fJSON then make_json [] sh k
    else if Z.eqb f fCSV then make_csv sh k
    else if Z.eqb f fXLSX then make_xlsx sh k
    else if Z.eqb f fNDJSON then make_nd sh k
    else if Z.eqb f fUnknown then Err err_no_format
    else Err err_format.

  (** WriteEntry, Close and the bytes of the destination of whatever writer it is. *)
  Definition write_step (w : option bytes * ewriter) (e : entry N) : option err * (option bytes * ewriter) :=
    let '(x, w') := match snd w with
      | WJson j => let '(x, j') := json_write_entry N fmt_json j e in (x, WJson j')
      | WCbor c out => let '(x, c') := cbor_write_entry c e in (x, WCbor c' out)
      | WCsv c => let '(x, c') := csv_write_entry N fmt_plain fmt_json wsize c e in (x, WCsv c')
      | WNd n => let '(x, n') := nd_write_entry N fmt_json n e in (x, WNd n')
      | WXlsx f => let '(x, f') := xlsx_write_entry N fmt_plain fmt_json sheet_key keep f e in (x, WXlsx f')
      end in (x, (fst w, w')).
  Definition close_step (w : option bytes * ewriter) : option err * (option bytes * ewriter) :=
    let '(x, w') := match snd w with
      | WJson j => let '(x, j') := json_close None j in (x, WJson j')
      | WCbor c _ => (None, WCbor c (cbor_close c))
      | WCsv c => let '(x, c') := csv_close c in (x, WCsv c')
      | WNd n => (None, WNd n)
      | WXlsx f => let '(x, f') := xlsx_close save f in (x, WXlsx f')
      end in (x, (fst w, w')).
  Definition dest_bytes (w : option bytes * ewriter) : bytes :=
    let out := match snd w with
      | WJson j => k_out (jw_sink j)
      | WCbor _ out => out
      | WCsv c => k_out (w_dest (wr_out c))
      | WNd n => k_out (w_sink n)
      | WXlsx f => k_out (xw_dest f)
      end in
    match fst w with Some f => pack f out | None => out end.

  (** dsio.go:191-208: the writer.  A JSON writer is made a second time when the configuration says pretty; the
      first one has written nothing. *)
  Definition convert_writer (out : shape) : res (option bytes * ewriter) :=
    rthen (new_entry_writer out good_sink) (fun w =>
      if Z.eqb (structure_data_format (sh_format out)) fJSON then
        match map_get (bs "pretty") (some_map (sh_config out)) with
        | Some (VBool true) => make_json [32%N] out good_sink
        | _ => Ok w
        end
      else Ok w).
  (** dsio.go:191-230, ConvertFile *)
  Definition convert (fuel : nat) (in_ out : shape) (s : src) (limit offset : Z) (all : bool) : res bytes :=
    convert_file fuel (convert_writer out) write_step close_step dest_bytes (new_entry_reader in_ s) (read_step fuel) limit offset all.
End Convert.

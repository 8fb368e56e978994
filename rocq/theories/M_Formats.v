(** Model of kind.go, data_format.go, data_format_config.go, the name handling of structure.go,
    compression/compression.go and detect/detect.go (FormatFromFilename).
    Simplification: error texts are abbreviated. *)
From Verif Require Import Base.

(** ** kind.go *)
(** kind.go:47-52, Kind.Valid *)
Definition kind_valid (k : bytes) : res unit :=
  if (length k <? 4)%nat then Err (EMsg "invalid kind") else Ok tt.
(** s[a:] and s[:b] panic when the index exceeds the length. *)
Definition slice_from (a : nat) (s : bytes) : res bytes := if (a <=? length s)%nat then Ok (skipn a s) else Panic.
Definition slice_to (b : nat) (s : bytes) : res bytes := if (b <=? length s)%nat then Ok (firstn b s) else Panic.
(** kind.go:55-57, 60-62 *)
Definition kind_type (k : bytes) : res bytes := slice_to 2 k.
Definition kind_version (k : bytes) : res bytes := slice_from 3 k.
(** kind.go:66-73, Kind.UnmarshalJSON, given the outcome of json.Unmarshal into a string: (new value, error).
    The receiver is overwritten even if the error is not nil. *)
Definition kind_unmarshal (old : bytes) (decoded : res bytes) : bytes * res unit :=
  match decoded with
  | Ok s => (s, kind_valid s)
  | Err e => (old, Err e)
  | Panic => (old, Panic)
  | OutOfFuel => (old, OutOfFuel)
  end.
(** kind.go:78-80, ComponentTypePrefix *)
Definition component_type_prefix (k str : bytes) : res bytes :=
  match kind_type k with Ok t => Ok (t ++ bs ":" ++ str) | r => r end.

(** ** data_format.go *)
(** data_format.go:17-38: the Go type is int, iota numbers the constants. *)
Notation dfmt := Z (only parsing).
Definition fUnknown : dfmt := 0%Z.
Definition fCSV : dfmt := 1%Z.
Definition fJSON : dfmt := 2%Z.
Definition fNDJSON : dfmt := 3%Z.
Definition fCBOR : dfmt := 4%Z.
Definition fXML : dfmt := 5%Z.
Definition fXLSX : dfmt := 6%Z.
(** data_format.go:44-52 *)
Definition supported_formats : list dfmt := [fCBOR; fJSON; fCSV; fXLSX; fNDJSON].

Fixpoint alookup {A} (eqb : A -> A -> bool) {B} (k : A) (l : list (A * B)) : option B :=
  match l with [] => None | (k', v) :: l' => if eqb k k' then Some v else alookup eqb k l' end.

(** data_format.go:55-71, String *)
Definition format_names : list (dfmt * bytes) :=
  [(fUnknown, bs ""); (fCSV, bs "csv"); (fJSON, bs "json"); (fXML, bs "xml"); (fXLSX, bs "xlsx");
   (fCBOR, bs "cbor"); (fNDJSON, bs "ndjson")].
Definition format_string (f : dfmt) : bytes :=
  match alookup Z.eqb f format_names with Some s => s | None => [] end.

(** data_format.go:75-99, ParseDataFormatString *)
Definition parse_names : list (bytes * dfmt) :=
  [(bs "", fUnknown); (bs ".csv", fCSV); (bs "csv", fCSV); (bs ".json", fJSON); (bs "json", fJSON);
   (bs ".xml", fXML); (bs "xml", fXML); (bs ".xlsx", fXLSX); (bs "xlsx", fXLSX); (bs "cbor", fCBOR);
   (bs ".cbor", fCBOR); (bs ".ndjson", fNDJSON); (bs "ndjson", fNDJSON); (bs ".jsonl", fNDJSON);
   (bs "jsonl", fNDJSON)].
Definition parse_data_format (s : bytes) : res dfmt :=
  match alookup beqb s parse_names with Some f => Ok f | None => Err (EMsg "invalid data format") end.

(** data_format.go:102-107, MarshalJSON: the bytes between two quotes are [format_string f]; none of them needs
    escaping. *)
Definition format_marshal (f : dfmt) : res bytes :=
  if Z.eqb f fUnknown then Err (EMsg "Unknown Data Format") else Ok (cQUOTE :: format_string f ++ [cQUOTE]).
(** data_format.go:110-123, UnmarshalJSON given the outcome of json.Unmarshal into a string: (new value, error). *)
Definition format_unmarshal (old : dfmt) (decoded : res bytes) : dfmt * res unit :=
  match decoded with
  | Ok s => match parse_data_format s with Ok f => (f, Ok tt) | Err e => (old, Err e) | _ => (old, Panic) end
  | Err _ => (old, Err (EMsg "Data Format type should be a string"))
  | Panic => (old, Panic)
  | OutOfFuel => (old, OutOfFuel)
  end.

(** ** data_format_config.go *)
Section Config.
  Context {F : Type}.
  (** interface{} map: None is the nil map.  opts[k] on a missing key is nil. *)
  Definition gmap := list (bytes * gval F).
  Definition opt_get (k : bytes) (m : gmap) : gval F := match map_get k m with Some v => v | None => VNil end.

  (** data_format_config.go:76-92.  Separator is a rune; [0] is unset. *)
  Record csv_options := mkCSV { csv_header : bool; csv_lazy : bool; csv_sep : Z; csv_variadic : bool }.

  (** opts[k] != nil then opts[k].(bool) *)
  Definition opt_bool (k : bytes) (m : gmap) (what : string) : res bool :=
    match opt_get k m with VNil => Ok false | VBool b => Ok b | _ => Err (EMsg what) end.
  (** data_format_config.go:57-66 *)
  Definition opt_sep (m : gmap) : res Z :=
    match opt_get (bs "separator") m with
    | VNil => Ok 0%Z
    | VStr [c] => Ok (Z.of_N c)
    | VStr _ => Err (EMsg "separator must be a single character")
    | _ => Err (EMsg "invalid separator value")
    end.

  (** data_format_config.go:33-76, NewCSVOptions *)
  Definition new_csv_options (opts : option gmap) : res csv_options :=
    match opts with
    | None => Ok (mkCSV false false 0 false)
    | Some m =>
        match opt_bool (bs "headerRow") m "invalid headerRow value" with
        | Ok h =>
            match opt_bool (bs "lazyQuotes") m "invalid lazyQuotes value" with
            | Ok lq =>
                match opt_sep m with
                | Ok sep =>
                    match opt_bool (bs "variadicFields") m "invalid variadicFields value" with
                    | Ok vf => Ok (mkCSV h lq sep vf)
                    | Err e => Err e | _ => Panic
                    end
                | Err e => Err e | _ => Panic
                end
            | Err e => Err e | _ => Panic
            end
        | Err e => Err e | _ => Panic
        end
    end.

  (** data_format_config.go:103-121, CSVOptions.Map.  A rune stored in interface{} is an int32, not a string. *)
  Definition csv_options_map (o : option csv_options) : option gmap :=
    match o with
    | None => None
    | Some o =>
        let m := [] in
        let m := if csv_header o then map_set (bs "headerRow") (VBool true) m else m in
        let m := if csv_lazy o then map_set (bs "lazyQuotes") (VBool true) m else m in
        let m := if csv_variadic o then map_set (bs "variadicFields") (VBool true) m else m in
        let m := if Z.eqb (csv_sep o) 0 then m else map_set (bs "separator") (VInt (csv_sep o)) m in
        Some m
    end.

  (** data_format_config.go:124-147: JSONOptions wraps the map; a nil map becomes an empty one. *)
  Definition new_json_options (opts : option gmap) : gmap := match opts with None => [] | Some m => m end.
  Definition json_options_map (o : option gmap) : gmap := match o with None => [] | Some m => m end.

  (** data_format_config.go:150-189: XLSXOptions is its sheet name. *)
  Definition new_xlsx_options (opts : option gmap) : res bytes :=
    match opts with
    | None => Ok []
    | Some m => match opt_get (bs "sheetName") m with
                | VNil => Ok []
                | VStr s => Ok s
                | _ => Err (EMsg "invalid sheetName value")
                end
    end.
  Definition xlsx_options_map (o : option bytes) : option gmap :=
    match o with
    | None => None
    | Some s => Some (if beqb s [] then [] else map_set (bs "sheetName") (VStr s) [])
    end.

  (** data_format_config.go:17-28, ParseFormatConfigMap *)
  Inductive format_config := FCsv (o : csv_options) | FJson (m : gmap) | FXlsx (sheet : bytes).
  Definition parse_format_config_map (f : dfmt) (opts : option gmap) : res format_config :=
    if Z.eqb f fCSV then match new_csv_options opts with Ok o => Ok (FCsv o) | Err e => Err e | Panic => Panic | OutOfFuel => OutOfFuel end
    else if Z.eqb f fJSON then Ok (FJson (new_json_options opts))
    else if Z.eqb f fXLSX then match new_xlsx_options opts with Ok s => Ok (FXlsx s) | Err e => Err e | Panic => Panic | OutOfFuel => OutOfFuel end
    else Err (EMsg "cannot parse configuration for format").
End Config.

(** ** File names *)
(** compression/compression.go:38-56, ParseFormat; both named formats are supported. *)
Definition compression_names : list (bytes * bytes) :=
  [(bs "gzip", bs "gzip"); (bs "gz", bs "gzip"); (bs "zst", bs "zst"); (bs "zstd", bs "zst")].
Definition parse_compression (s : bytes) : option bytes := alookup beqb s compression_names.

(** path/filepath Ext on Unix: the suffix from the last dot of the final path element, or empty.
    [acc] is what has been scanned, going right to left over the reversed path. *)
Fixpoint ext_scan (rpath : bytes) (acc : bytes) : bytes :=
  match rpath with
  | [] => []
  | c :: r => if N.eqb c 47 then [] else if N.eqb c cDOT then c :: acc else ext_scan r (c :: acc)
  end.
Definition filepath_ext (path : bytes) : bytes := ext_scan (rev path) [].
(** strings.TrimPrefix(s, ".") *)
Definition trim_dot (s : bytes) : bytes := match s with c :: r => if N.eqb c cDOT then r else s | [] => [] end.
(** strings.TrimSuffix(path, ext) *)
Definition trim_suffix (s suf : bytes) : bytes :=
  let n := (length s - length suf)%nat in
  if (length suf <=? length s)%nat && beqb (skipn n s) suf then firstn n s else s.

(** detect/detect.go:153-172 *)
Definition ext_formats : list (bytes * dfmt) :=
  [(bs ".cbor", fCBOR); (bs ".json", fJSON); (bs ".csv", fCSV); (bs ".xml", fXML); (bs ".xlsx", fXLSX);
   (bs ".jsonl", fNDJSON); (bs ".ndjson", fNDJSON)].
(** detect/detect.go:143-173, FormatFromFilename: (data format, compression, error). *)
Definition format_from_filename (path : bytes) : dfmt * bytes * res unit :=
  let ext := filepath_ext path in
  let '(comp, ext) :=
    match parse_compression (trim_dot ext) with
    | Some c => (c, filepath_ext (trim_suffix path ext))
    | None => ([], ext)
    end in
  match alookup beqb ext ext_formats with
  | Some f => (f, comp, Ok tt)
  | None => (fUnknown, comp,
             Err (EMsg (if beqb ext [] then "no file extension provided" else "unsupported file type")))
  end.

(** structure.go:136-144, AddFileFormatExtensions *)
Definition add_extensions (format compression filename : bytes) : bytes :=
  let filename := if beqb format [] then filename else filename ++ bs "." ++ format in
  if beqb compression [] then filename else filename ++ bs "." ++ compression.
(** structure.go:130-132 *)
Definition body_filename (format compression : bytes) : bytes := add_extensions format compression (bs "body").
(** structure.go:122-125, Structure.DataFormat *)
Definition structure_data_format (format : bytes) : dfmt :=
  match parse_data_format format with Ok f => f | _ => fUnknown end.

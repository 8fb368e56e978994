(** Bodies and the values they hold, format by format. *)
From Verif Require Import Base M_Bufio M_Float M_Utf8 S_JsonText L_JsonRead M_Cbor S_Cbor M_CsvText S_Csv S_CsvCells S_NDJson M_Xlsx S_Xlsx M_Tabular M_Formats M_Convert S_Convert S_ConvertCsv M_Stats.

Section Holds.
  Variable parse_float : bytes -> option N.
  Variable depth : nat.
  Variable order : jmap -> jmap.
  Variable unpack : bytes -> src -> res src.
  Variable load : bytes -> res book.
  Variable sheet_key : bytes -> bytes.
  Notation content := (content unpack).
  Notation whole := (whole unpack).
  Notation sline := (sline N parse_float depth).
  Notation jdoc_array := (jdoc_array N (float_reads N parse_float)).
  Notation jdoc_object := (jdoc_object N (float_reads N parse_float)).

  (** A structure for workbooks, with the first type of each column and the name of the sheet. *)
  Definition sheet_shape (sh : shape) (types : list bytes) (name : bytes) : Prop :=
    structure_data_format (sh_format sh) = fXLSX /\ sh_compression sh = [] /\ names_sheet N (sh_config sh) name /\
    exists cols ps, columns_from_schema order (some_map (sh_schema sh)) = Ok (cols, ps) /\ Forall2 (fun cl t => exists ts, c_type cl = t :: ts) cols types.
  (** The cells of a sheet are those of the rows. *)
  Definition cells_are (sh : sheet) (rows : list (list bytes)) : Prop :=
    forall c r, cell_at sh (c, r) = match c, r with S c, S r => at_cell rows c r | _, _ => None end.
  (** [holds sh s vs]: the source s is a body in the format of sh, and vs are the values of its entries. *)
  Inductive holds (sh : shape) (s : src) : list (gval N) -> Prop :=
  | ho_json : forall doc vs, typed sh fJSON (bs "array") -> content (sh_compression sh) s doc -> jdoc_array vs doc -> holds sh s vs
  | ho_json_object : forall doc kvs, typed sh fJSON (bs "object") -> content (sh_compression sh) s doc -> jdoc_object kvs doc -> holds sh s (map snd kvs)
  | ho_cbor : forall vs, typed sh fCBOR (bs "array") -> whole (sh_compression sh) s (cbor_encode (VArr vs)) ->
      Forall wf_value vs -> (N.of_nat (length vs) < 2 ^ 44)%N -> forallb readable vs = true -> holds sh s vs
  | ho_cbor_object : forall m, typed sh fCBOR (bs "object") -> whole (sh_compression sh) s (cbor_encode (VMap m)) ->
      wf_value (VMap m) -> map_get [] m = None -> forallb readable_pair m = true -> holds sh s (map snd m)
  | ho_lines : forall lines vs, typed sh fNDJSON (bs "array") -> whole (sh_compression sh) s (stream lines []) ->
      Forall line lines -> Forall2 (fun v l => sline v (l ++ [10%N])) vs lines -> holds sh s vs
  | ho_table : forall cols types rows text data vss, table_shape order sh cols types -> valid_delim (separator sh) = true ->
      whole (sh_compression sh) s text -> table_text (encode_rune (separator sh)) rows text -> Forall (Forall (fun f => ~ In 13%N f)) rows ->
      data_answers sh rows = map Row data -> Forall2 (row_value N parse_float depth types) data vss -> holds sh s (map VArr vss)
  | ho_book : forall types name bk sheet rows vss, sheet_shape sh types name -> s_fin s = EOF -> load (s_rem s) = Ok bk -> map_get (sheet_key name) bk = Some sheet ->
      cells_are sheet rows -> Forall (fun row => row <> []) rows -> Forall2 (row_value N parse_float depth types) rows vss -> holds sh s (map VArr vss).

  (** [broken sh s]: the body holds something that cannot be read: a CBOR value, a line that is no JSON, a row with
      another number of cells. *)
  Inductive broken (sh : shape) (s : src) : Prop :=
  | br_cbor : forall vs, typed sh fCBOR (bs "array") -> whole (sh_compression sh) s (cbor_encode (VArr vs)) ->
      Forall wf_value vs -> (N.of_nat (length vs) < 2 ^ 44)%N -> forallb readable vs = false -> broken sh s
  | br_lines : forall lines bad more vs, typed sh fNDJSON (bs "array") -> whole (sh_compression sh) s (stream (lines ++ bad :: more) []) ->
      Forall line (lines ++ bad :: more) -> Forall2 (fun v l => sline v (l ++ [10%N])) vs lines -> (forall v, ~ sline v (bad ++ [10%N])) -> broken sh s
  | br_table : forall cols types rows text, table_shape order sh cols types -> valid_delim (separator sh) = true ->
      whole (sh_compression sh) s text -> table_text (encode_rune (separator sh)) rows text -> Forall (Forall (fun f => ~ In 13%N f)) rows ->
      (forall data, data_answers sh rows <> map Row data) -> broken sh s.
End Holds.

(** Values of which the statistics say the same: an integer and its float count alike. *)
Inductive counts_as : val -> val -> Prop :=
| ca_same : forall v, counts_as v v
| ca_num : forall z, counts_as (VInt z) (VFloat (f_int z))
| ca_mun : forall z, counts_as (VFloat (f_int z)) (VInt z)
| ca_arr : forall l l', Forall2 counts_as l l' -> counts_as (VArr l) (VArr l')
| ca_map : forall m m', Forall2 (fun a b => fst a = fst b /\ counts_as (snd a) (snd b)) m m' -> counts_as (VMap m) (VMap m').

(** [means float v w]: w is the value v, with the float64s that the numbers of v stand for. *)
Section Means.
  Variable float : N -> f64.
  Inductive means : gval N -> val -> Prop :=
  | me_nil : means VNil VNil
  | me_bool : forall b, means (VBool b) (VBool b)
  | me_int : forall z, means (VInt z) (VInt z)
  | me_float : forall n, means (VFloat n) (VFloat (float n))
  | me_str : forall s, means (VStr s) (VStr s)
  | me_bytes : forall s, means (VBytes s) (VBytes s)
  | me_arr : forall l l', Forall2 means l l' -> means (VArr l) (VArr l')
  | me_map : forall m m', Forall2 (fun a b => fst a = fst b /\ means (snd a) (snd b)) m m' -> means (VMap m) (VMap m').
End Means.

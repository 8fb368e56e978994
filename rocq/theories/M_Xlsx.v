(** Model of the spreadsheet reader and writer, dsio/xlsx.go:1-265.
    Package excelize is modelled from its documentation: a workbook is a set of named sheets, a sheet is a set of
    cells with texts.  Parameters are the form of a workbook as bytes, the name under which a sheet is kept, and
    what is kept of a text.  Simplification: rows without any cell are not stored. *)
From Verif Require Import Base M_Decimal M_Formats M_Columns M_Tabular M_Sink M_JsonWrite M_Csv.
From Verif Require S_Columns.
Notation length := List.length.

(** A cell address: column and row, both counted from 1. *)
Definition place := (nat * nat)%type.
Definition sheet := list (place * bytes).
Definition book := list (bytes * sheet).
Definition same_cell (a b : place) : bool := Nat.eqb (fst a) (fst b) && Nat.eqb (snd a) (snd b).
Fixpoint cell_at (sh : sheet) (p : place) : option bytes :=
  match sh with
  | [] => None
  | (q, t) :: r => if same_cell q p then Some t else cell_at r p
  end.
(** excelize: an address is the letters of the column and the number of the row. *)
Definition is_letter (c : N) : bool := ((65 <=? c) && (c <=? 90))%N.
Definition parse_axis (axis : bytes) : option place :=
  let letters := filter is_letter axis in
  match parse_digits (filter is_digit axis) with
  | None => None
  | Some row => Some (Z.to_nat (S_Columns.col_number letters), N.to_nat row)
  end.
Definition greatest (l : list nat) : nat := fold_right Nat.max 0%nat l.
Definition row_cells (sh : sheet) (r : nat) : list (place * bytes) := filter (fun x => Nat.eqb (snd (fst x)) r) sh.
(** excelize File.Rows, Rows.Next and Rows.Columns: the rows in order, each up to its last cell; a gap is an
    empty text. *)
Definition row_texts (sh : sheet) (r : nat) : list bytes :=
  map (fun c => match cell_at sh (c, r) with Some t => t | None => [] end)
    (seq 1 (greatest (map (fun x => fst (fst x)) (row_cells sh r)))).
Definition sheet_rows (sh : sheet) : list (list bytes) :=
  map (row_texts sh) (filter (fun r => match row_cells sh r with [] => false | _ => true end)
    (seq 1 (greatest (map (fun x => snd (fst x)) sh)))).

Section Xlsx.
  Variable F : Type.
  Variable parse_float : bytes -> option F.
  Variable fmt_plain : F -> bytes.
  Variable fmt_json : F -> option bytes.
  Variable depth : nat.
  Notation gval := (gval F).
  (** excelize: File.WriteTo and OpenReader; the key of a sheet; what SetCellValue keeps of a text. *)
  Variable save : book -> bytes.
  Variable load : bytes -> res book.
  Variable sheet_key : bytes -> bytes.
  Variable keep : bytes -> bytes.

  (** excelize NewFile and NewSheet: a new sheet is empty, an existing one is left alone. *)
  Definition new_file : book := [(sheet_key (bs "Sheet1"), [])].
  Definition new_sheet (b : book) (name : bytes) : book :=
    match map_get (sheet_key name) b with Some _ => b | None => map_set (sheet_key name) [] b end.
  (** excelize SetCellValue of a string; an address that cannot be read changes nothing. *)
  Definition set_cell (b : book) (name axis text : bytes) : book :=
    match map_get (sheet_key name) b, parse_axis axis with
    | Some sh, Some p => map_set (sheet_key name) ((p, keep text) :: sh) b
    | _, _ => b
    end.

  (** The sheet name of the options, Sheet1 if it is empty (dsio/xlsx.go:51-58, 181-193). *)
  Definition or_sheet1 (name : bytes) : bytes := match name with [] => bs "Sheet1" | _ => name end.
  Definition err_compression : err := EMsg "xlsx format does not support compression".

  (** dsio/xlsx.go:16-24, XLSXReader: the rows still to come, the index and the types. *)
  Record xlsx_reader : Type := mkXr { xr_types : list bytes; xr_rows : list (list bytes); xr_idx : Z }.
  (** dsio/xlsx.go:27-65, NewXLSXReader, for a source that gives [data].  A reader that is returned together
      with an error is not kept. *)
  Definition new_xlsx_reader (order : list (bytes * gval) -> list (bytes * gval)) (compression : bytes)
      (schema : list (bytes * gval)) (config : option (list (bytes * gval))) (data : bytes) : res xlsx_reader :=
    match compression with
    | _ :: _ => Err err_compression
    | [] =>
      match columns_from_schema order schema with
      | Ok (cols, _) =>
          match first_types F cols with
          | None => Panic
          | Some types =>
              match load data with
              | Ok b =>
                  let name := match parse_format_config_map fXLSX config with Ok (FXlsx s) => s | _ => [] end in
                  match map_get (sheet_key (or_sheet1 name)) b with
                  | Some sh => Ok (mkXr types (sheet_rows sh) 0)
                  | None => Err (EMsg "sheet does not exist")
                  end
              | Err e => Err e
              | Panic => Panic
              | OutOfFuel => OutOfFuel
              end
          end
      | Err e => Err e
      | Panic => Panic
      | OutOfFuel => OutOfFuel
      end
    end.
  (** dsio/xlsx.go:73-88, ReadEntry.  decode (94-134) is the same function as that of CSV. *)
  Definition xlsx_read_entry (r : xlsx_reader) : res (entry F) * xlsx_reader :=
    match xr_rows r with
    | [] => (Err EOF, r)
    | cols :: rest =>
        (Ok (mkEntry (xr_idx r) [] (VArr (decode F parse_float depth (xr_types r) cols))),
         mkXr (xr_types r) rest (xr_idx r + 1))
    end.
  Fixpoint xlsx_calls (n : nat) (r : xlsx_reader) : list (res (entry F)) :=
    match n with
    | O => []
    | S n => let '(x, r') := xlsx_read_entry r in x :: xlsx_calls n r'
    end.

  (** dsio/xlsx.go:230-265, encodeStrings: one value, and all of them. *)
  Definition encode_string (v : gval) : res bytes :=
    match v with
    | VNil => Ok []
    | VInt z => Ok (itoa z)
    | VFloat f => Ok (fmt_plain f)
    | VBool true => Ok (bs "true")
    | VBool false => Ok (bs "false")
    | VStr t => Ok t
    | VArr _ | VMap _ =>
        match marshal F fmt_json [] [] [] v with Some t => Ok t | None => Err (EMsg "json: unsupported value") end
    | VBytes _ => Err (EMsg "unrecognized encoding type")
    end.
  Fixpoint encode_strings (vs : list gval) : res (list bytes) :=
    match vs with
    | [] => Ok []
    | v :: r =>
        match encode_string v with
        | Ok t => match encode_strings r with Ok ts => Ok (t :: ts) | x => x end
        | Err e => Err e
        | Panic => Panic
        | OutOfFuel => OutOfFuel
        end
    end.

  (** dsio/xlsx.go:143-150, XLSXWriter: rowsWritten, sheetName, the file and the destination. *)
  Record xlsx_writer : Type := mkXw { xw_rows : Z; xw_sheet : bytes; xw_book : book; xw_dest : sink }.
  (** dsio/xlsx.go:157-199, NewXLSXWriter *)
  Definition new_xlsx_writer (order : list (bytes * gval) -> list (bytes * gval)) (compression : bytes)
      (schema : list (bytes * gval)) (config : option (list (bytes * gval))) (k : sink) : res xlsx_writer :=
    match compression with
    | _ :: _ => Err err_compression
    | [] =>
      match columns_from_schema order schema with
      | Ok (cols, _) =>
          match first_types F cols with
          | None => Panic
          | Some _ =>
              match parse_format_config_map fXLSX config with
              | Ok c =>
                  let name := or_sheet1 (match c with FXlsx s => s | _ => [] end) in
                  Ok (mkXw 0 name (new_sheet new_file name) k)
              | Err e => Err e
              | Panic => Panic
              | OutOfFuel => OutOfFuel
              end
          end
      | Err e => Err e
      | Panic => Panic
      | OutOfFuel => OutOfFuel
      end
    end.
  (** dsio/xlsx.go:219-221, axis *)
  Definition axis (rows : Z) (col : nat) : bytes :=
    match col_index_to_letters (Z.of_nat col) with Some w => w ++ itoa (rows + 1) | None => [] end.
  (** dsio/xlsx.go:210-212: for i, str := range strs *)
  Fixpoint set_cells (rows : Z) (name : bytes) (i : nat) (strs : list bytes) (b : book) : book :=
    match strs with
    | [] => b
    | s :: r => set_cells rows name (S i) r (set_cell b name (axis rows i) s)
    end.
  Definition err_not_row : err := EMsg "expected array value to write xlsx row".
  (** dsio/xlsx.go:202-217, WriteEntry *)
  Definition xlsx_write_entry (w : xlsx_writer) (e : entry F) : option err * xlsx_writer :=
    match e_val e with
    | VArr vs =>
        match encode_strings vs with
        | Ok strs => (None, mkXw (xw_rows w + 1) (xw_sheet w) (set_cells (xw_rows w) (xw_sheet w) 0 strs (xw_book w)) (xw_dest w))
        | _ => (Some (EMsg "error encoding entry"), w)
        end
    | _ => (Some err_not_row, w)
    end.
  Fixpoint xlsx_write_entries (w : xlsx_writer) (es : list (entry F)) : list (option err) * xlsx_writer :=
    match es with
    | [] => ([], w)
    | e :: r => let '(x, w') := xlsx_write_entry w e in
                let '(xs, w2) := xlsx_write_entries w' r in (x :: xs, w2)
    end.
  (** dsio/xlsx.go:225-228, Close: one write of the whole file. *)
  Definition xlsx_close (w : xlsx_writer) : option err * xlsx_writer :=
    let '(x, k) := sink_write (save (xw_book w)) (xw_dest w) in
    (x, mkXw (xw_rows w) (xw_sheet w) (xw_book w) k).
End Xlsx.

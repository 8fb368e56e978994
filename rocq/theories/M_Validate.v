(** Model of package validate: dataset.go, validate.go, data.go and csv.go. *)
From Verif Require Import Base M_Doc M_Formats M_Components M_Sink M_JsonWrite M_Unmarshal M_Bufio M_NDJson M_CsvText M_Stream.
Notation length := List.length.

(** ** validate/dataset.go *)
(** validate/dataset.go:38-51, Commit on a non-nil commit. *)
Definition validate_commit (c : commit) : res unit :=
  match cm_title c with
  | [] => Ok tt
  | _ => if (100 <? length (cm_title c))%nat then Err (EMsg "title is too long") else Ok tt
  end.
(** validate/dataset.go:115-129, Schema *)
Definition validate_schema (sch : gomap jdoc) : res unit :=
  match sch with None => Err (EMsg "schema is required") | Some _ => Ok tt end.
(** validate/dataset.go:55-74, Structure on a non-nil structure. *)
Definition validate_structure (s : structure) : res unit :=
  let df := structure_data_format (st_format s) in
  if Z.eqb df fUnknown then Err (EMsg "format is required")
  else if Z.eqb df fCSV && is_nil (st_schema s) then Err (EMsg "csv data format requires a schema")
  else match validate_schema (st_schema s) with Err e => Err (EWrap "schema" 0 e) | r => r end.
(** validate/dataset.go:12-34, Dataset; [None] is a nil dataset.  Logging is left out. *)
Definition validate_dataset (ds : option dataset) : res unit :=
  match ds with
  | None => Ok tt
  | Some ds =>
      match ds_commit ds with
      | None => Err (EMsg "commit is required")
      | Some c =>
          match validate_commit c with
          | Err e => Err (EWrap "commit" 0 e)
          | Panic => Panic | OutOfFuel => OutOfFuel
          | Ok _ =>
              match ds_structure ds with
              | None => Ok tt
              | Some s => match validate_structure s with Err e => Err (EWrap "structure" 0 e) | r => r end
              end
          end
      end
  end.

(** ** validate/validate.go:11, 20-32, ValidName.  The regular expression is modelled by what it matches: a
    letter, at most 143 further letters, digits and underscores, and the end of the text. *)
Definition is_letter (c : N) : bool := ((97 <=? c) && (c <=? 122) || (65 <=? c) && (c <=? 90))%N.
Definition is_word (c : N) : bool := is_letter c || ((48 <=? c) && (c <=? 57))%N || N.eqb c 95.
Definition name_matches (s : bytes) : bool :=
  match s with
  | [] => false
  | c :: r => is_letter c && forallb is_word r && (length r <=? 143)%nat
  end.
Definition valid_name (s : bytes) : res unit :=
  match s with
  | [] => Err (EMsg "error: name cannot be empty")
  | _ => if name_matches s then Ok tt else Err (EMsg "error: illegal name")
  end.

(** ** validate/data.go *)
Section Batches.
  Variables F S E : Type.
  Variable fmt_float : F -> option bytes.
  Variable parse_float : bytes -> option F.
  (** The nesting json.Unmarshal allows. *)
  Variable depth : nat.
  (** jsonschema.Schema.Validate of package github.com/qri-io/jsonschema, which is not modelled: the errors
      found in a document. *)
  Variable check : gval F -> list E.
  Notation jwriter := jwriter.

  (** validate/data.go:13 *)
  Definition batch_size : Z := 5000.
  (** dsio/entry_buffer.go:24-43, NewEntryBuffer of a JSON structure; the reading half is never used.  The
      destination is a bytes.Buffer, which takes every write. *)
  Definition new_buffer (schema : option (list (bytes * gval F))) : res jwriter :=
    match get_top_level_type schema with
    | Ok tlt => Ok (new_jwriter (beqb tlt (bs "object")) [] (mkSink [] []))
    | Err e => Err e
    | Panic => Panic
    | OutOfFuel => OutOfFuel
    end.
  (** validate/data.go:15-32, flushBatch: the error, or the errors found so far with those of this batch. *)
  Definition flush_batch (w : jwriter) (errs : list E) : res (list E) :=
    match k_out (jw_sink w) with
    | [] => Ok errs
    | _ =>
        match json_close None w with
        | (Some e, _) => Err (EWrap "error closing buffer" 0 e)
        | (None, w') =>
            match unmarshal F parse_float depth (k_out (jw_sink w')) with
            | Ok doc => Ok (errs ++ check doc)
            | Err e => Err (EWrap "error parsing JSON bytes" 0 e)
            | Panic => Panic
            | OutOfFuel => OutOfFuel
            end
        end
    end.
  (** validate/data.go:57-82, the callback; the state is buf and valErrors.  [Panic] and [OutOfFuel] do not
      occur in flush_batch and are treated as errors. *)
  Definition on_entry (schema : option (list (bytes * gval F))) (st : jwriter * list E) (i : Z) (e : entry F)
      : option err * (jwriter * list E) :=
    let '(w, errs) := st in
    let put w errs :=
      match json_write_entry F fmt_float w e with
      | (Some er, w') => (Some (EWrap "error writing row" i er), (w', errs))
      | (None, w') => (None, (w', errs))
      end in
    if Z.eqb (i mod batch_size) 0 then
      match flush_batch w errs with
      | Ok errs' =>
          match new_buffer schema with
          | Ok w' => put w' errs'
          | Err er => (Some (EWrap "error allocating data buffer" 0 er), (w, errs'))
          | _ => (Some (EMsg "panic"), (w, errs'))
          end
      | Err er => (Some er, (w, errs))
      | _ => (Some (EMsg "panic"), (w, errs))
      end
    else put w errs.
  (** validate/data.go:37-96, EntryReader.  [schema_ok] is the outcome of Structure.JSONSchema
      (structure.go:103-118), which depends on package jsonschema. *)
  Definition entry_reader (fuel : nat) (schema_ok : res unit) (schema : option (list (bytes * gval F)))
      (rd : S -> res (entry F) * S) (s : S) : res (list E) * S :=
    match schema_ok with
    | Ok _ =>
        match new_buffer schema with
        | Ok w =>
            match each_entry fuel rd (on_entry schema) 0 s (w, []) with
            | (Ok _, s', (w', errs)) => (flush_batch w' errs, s')
            | (Err e, s', _) => (Err (EWrap "error reading values" 0 e), s')
            | (Panic, s', _) => (Panic, s')
            | (OutOfFuel, s', _) => (OutOfFuel, s')
            end
        | Err e => (Err (EWrap "error allocating data buffer" 0 e), s)
        | Panic => (Panic, s)
        | OutOfFuel => (OutOfFuel, s)
        end
    | Err e => (Err e, s)
    | Panic => (Panic, s)
    | OutOfFuel => (OutOfFuel, s)
    end.
End Batches.

(** ** validate/csv.go *)
(** The slices of csv.Reader.readLine, joined, for a csv.Reader over a bufio.Reader over the source. *)
Fixpoint plain_join (fuel : nat) (b : bufr) : option (bytes * option err) * bufr :=
  match fuel with
  | O => (None, b)
  | Datatypes.S f =>
      match read_slice (Datatypes.S (Datatypes.S (b_cap b))) 10 b with
      | (None, b') => (None, b')
      | (Some (SLine d), b') => (Some (d, None), b')
      | (Some (SEnd d e), b') => (Some (d, Some e), b')
      | (Some (SFull d), b') =>
          match plain_join f b' with
          | (Some (r, e), b2) => (Some (d ++ r, e), b2)
          | x => x
          end
      end
  end.
(** A bound on the bytes left to read. *)
Definition plain_left (b : bufr) : nat := (length (b_buf b) + length (s_rem (b_src b)))%nat.
(** csv.Reader.readLine *)
Definition plain_line (b : bufr) : option (bytes * option err) * bufr :=
  match plain_join (Datatypes.S (plain_left b)) b with
  | (Some (line, e), b') => (Some (finish_line line e), b')
  | (None, b') => (None, b')
  end.
(** csvReader.Read with FieldsPerRecord -1, TrimLeadingSpace and strict quotes. *)
Definition check_read (b : bufr) : res (list bytes) * bufr :=
  let '(x, r) := csv_read plain_line false true 44 (plain_left b + 2) (mkCr (-1) b) in (x, r_st r).
(** validate/csv.go:22-34, the loop *)
Fixpoint check_loop (fuel : nat) (width : nat) (i : Z) (b : bufr) : res unit :=
  match fuel with
  | O => OutOfFuel
  | Datatypes.S f =>
      match check_read b with
      | (Err EOF, _) => Ok tt
      | (Err e, _) => Err e
      | (Ok rec, b') => if (length rec =? width)%nat then check_loop f width (i + 1) b'
                        else Err (EWrap "error: inconsistent column length on line" i (EMsg "ensure all csv columns same length"))
      | (Panic, _) => Panic
      | (OutOfFuel, _) => OutOfFuel
      end
  end.
(** validate/csv.go:12-35, CheckCsvRowLengths; [size] is the default size of a bufio.Reader. *)
Definition check_csv_row_lengths (size : nat) (s : src) : res unit :=
  let b := new_bufr size s in
  match check_read b with
  | (Err e, _) => Err (EWrap "error reading first row of csv" 0 e)
  | (Ok first, b') => check_loop (Datatypes.S (length (s_rem s))) (length first) 1 b'
  | (Panic, _) => Panic
  | (OutOfFuel, _) => OutOfFuel
  end.

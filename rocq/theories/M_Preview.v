(** Model of preview/preview.go. *)
From Verif Require Import Base M_Sink M_JsonWrite M_Bufio M_Stream M_Tee M_Components.

(** A qfs.File: FullPath, what Size reports if it is a qfs.SizeFile, and what Read gives. *)
Record pfile : Type := mkPfile { pf_path : bytes; pf_size : option Z; pf_content : M_Tee.file }.
(** A dataset and the open files it holds.  [v_raw] is the Body once Create has set it (a json.RawMessage);
    the file handles and the Body in [v_ds] are not used. *)
Record viewed : Type := mkViewed {
  v_ds : dataset; v_raw : option bytes; v_readme : option pfile; v_body : option pfile }.
(** preview.go:27-32 *)
Definition max_rows : Z := 100.
Definition max_readme : nat := 997.
(** ds.Readme.Text = text *)
Definition set_readme_text (text : bytes) (d : dataset) : dataset :=
  mkDataset (ds_body_file d) (ds_body d) (ds_body_bytes d) (ds_body_path d) (ds_commit d) (ds_id d) (ds_meta d) (ds_name d) (ds_path d)
    (ds_peername d) (ds_previous d) (ds_profile d)
    (match ds_readme d with
     | Some c => Some (mkScript (sc_format c) (sc_path c) (sc_qri c) (sc_script_file c) (sc_rendered_file c) (sc_script_path c) text (sc_rendered_path c))
     | None => None
     end)
    (ds_num_versions d) (ds_qri d) (ds_structure d) (ds_stats d) (ds_transform d) (ds_viz d).

(** preview.go:61-79: the outcome, and the dataset afterwards.  The file made by qfs.NewMemfileReader is
    taken to have no size. *)
Definition preview_readme (fuel : nat) (sizes : nat -> nat) (v : viewed) : res unit * viewed :=
  match ds_readme (v_ds v), v_readme v with
  | Some _, Some f =>
      match read_all (limit_read (tee_read file_read)) fuel sizes ((pf_content f, []), max_readme) with
      | Some (content, None, ((r, buf), _)) =>
          let content := if Nat.leb max_readme (length content) then content ++ bs "..." else content in
          (Ok tt, mkViewed (set_readme_text content (v_ds v)) (v_raw v) (Some (mkPfile (pf_path f) None (FMulti2 buf r))) (v_body v))
      | Some (_, Some e, ((r, _), _)) => (Err e, mkViewed (v_ds v) (v_raw v) (Some (mkPfile (pf_path f) (pf_size f) r)) (v_body v))
      | None => (OutOfFuel, v)
      end
  | _, _ => (Ok tt, v)
  end.

Section Preview.
  Variables F St : Type.
  Variable fmt_float : F -> option bytes.
  (** Structure.Schema as Go values *)
  Variable schema_of : structure -> option (list (bytes * gval F)).
  (** dsio.NewEntryReader and ReadEntry of the reader it returns, as code that uses the file through Read *)
  Variable open : structure -> prog (res St).
  Variable step : St -> prog (res (entry F) * St).
  (** NewEntryBuffer of a structure with format json (dsio/entry_buffer.go:24-43); its destination takes every
      write. *)
  Definition new_json_buffer (schema : option (list (bytes * gval F))) : res jwriter :=
    match get_top_level_type schema with
    | Ok tlt => Ok (new_jwriter (beqb tlt (bs "object")) [] (mkSink [] []))
    | Err e => Err e
    | Panic => Panic
    | OutOfFuel => OutOfFuel
    end.
  (** ReadEntry on a file *)
  Definition read_entry {R : Type} (rd : nat -> R -> bytes * option err * R) (s : St * R) : res (entry F) * (St * R) :=
    let '((x, s'), r) := run rd (step (fst s)) (snd s) in (x, (s', r)).
  (** dsio.ConvertFile (dsio/dsio.go:191-230) of the teed file: the outcome, and the tee afterwards. *)
  Definition convert_body (fuel : nat) (st : structure) (f : M_Tee.file) : res bytes * (M_Tee.file * bytes) :=
    let mkw := new_json_buffer (schema_of st) in
    let wr := json_write_entry F fmt_float in
    let conv mkr := convert_file fuel mkw wr (json_close None) (fun w => k_out (jw_sink w)) mkr (read_entry (tee_read file_read)) max_rows 0 false in
    match mkw with
    | Ok w =>
        match run (tee_read file_read) (open st) (f, []) with
        | (Ok s, t) =>
            (conv (Ok (s, t)), snd (pg_r (snd (fst (copy fuel (paged_read (read_entry (tee_read file_read))) wr (mkPaged (s, t) max_rows 0) w)))))
        | (Err e, t) => (conv (Err e), t)
        | (Panic, t) => (conv Panic, t)
        | (OutOfFuel, t) => (conv OutOfFuel, t)
        end
    | _ => (conv Panic, (f, []))
    end.
  (** preview.go:81-106.  ds.Structure.Schema panics without a structure. *)
  Definition preview_body (fuel : nat) (v : viewed) : res unit * viewed :=
    match v_body v with
    | None => (Ok tt, v)
    | Some f =>
        match ds_structure (v_ds v) with
        | None => (Panic, v)
        | Some st =>
            match convert_body fuel st (pf_content f) with
            | (Ok data, (r, buf)) =>
                let size := match pf_size f with Some n => n | None => (-1)%Z end in
                (Ok tt, mkViewed (v_ds v) (Some data) (v_readme v) (Some (mkPfile (pf_path f) (Some size) (FMulti2 buf r))))
            | (x, (r, _)) =>
                (match x with Err e => Err e | OutOfFuel => OutOfFuel | _ => Panic end,
                 mkViewed (v_ds v) (v_raw v) (v_readme v) (Some (mkPfile (pf_path f) (pf_size f) r)))
            end
        end
    end.
  (** preview.go:47-116, Create: the error, and the dataset passed in, which is also the result.  The dataset
      [p] of lines 58-59 and 111-113 is dropped. *)
  Definition create (fuel : nat) (sizes : nat -> nat) (v : option viewed) : res unit * option viewed :=
    match v with
    | None => (Err (EMsg "nil dataset"), None)
    | Some v =>
        if dataset_is_empty (v_ds v) then (Err (EMsg "empty dataset"), Some v)
        else
          match preview_readme fuel sizes v with
          | (Ok _, v) => let '(x, v) := preview_body fuel v in (x, Some v)
          | (x, v) => (x, Some v)
          end
    end.
End Preview.

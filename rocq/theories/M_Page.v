(** What pages and previews show of a body: the readers of M_Convert below bodyEntries of dsviz/render.go and the body part of
    preview/preview.go.  The body file afterwards is M_Viz's and M_Preview's; here is what is shown.
    Byte strings of CBOR bodies are as they were when read (see M_Convert.read_step). *)
From Verif Require Import Base M_Bufio M_Stream M_Xlsx M_Formats M_Convert M_Preview M_Viz.

Section Page.
  Variable parse_float : bytes -> option N.
  Variable fmt_plain : N -> bytes.
  Variable fmt_json : N -> option bytes.
  Variable depth : nat.
  Variable surrogate : bytes.
  Variable save : book -> bytes.
  Variable load : bytes -> res book.
  Variable sheet_key keep : bytes -> bytes.
  Variable order : jmap -> jmap.
  Variables size osize wsize dsize : nat.
  Variable unpack : bytes -> src -> res src.
  Variable pack : bytes -> bytes -> bytes.
  Notation step := (read_step parse_float depth surrogate osize).

  (** dsviz/render.go:155-185, bodyEntries, and 149-153 with offset 0 and limit -1; the tee passes on what it reads *)
  Definition page_entries (fuel : nat) (sh : shape) (s : src) (offset limit : Z) : res (gval N) :=
    match new_entry_reader load sheet_key order size dsize unpack sh s with
    | Ok r =>
        if (0 <=? offset)%Z && (0 <=? limit)%Z then fst (read_entries N fuel (paged_read (step fuel)) (sh_schema sh) (mkPaged r limit offset))
        else fst (read_entries N fuel (step fuel) (sh_schema sh) r)
    | Err e => Err (EWrap "error allocating data reader" 0 e)
    | Panic => Panic
    | OutOfFuel => OutOfFuel
    end.

  (** preview/preview.go:82-97: the structure and the bytes of the preview *)
  Definition preview_shape (sh : shape) : shape := mkShape (bs "json") [] (sh_schema sh) None.
  Definition preview_data (fuel : nat) (sh : shape) (s : src) : res bytes :=
    convert parse_float fmt_plain fmt_json depth surrogate save load sheet_key keep order size osize wsize dsize unpack pack fuel sh (preview_shape sh) s max_rows 0 false.
End Page.

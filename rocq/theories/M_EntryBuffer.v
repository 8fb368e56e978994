(** Model of EntryBuffer, dsio/entry_buffer.go: a reader and a writer of one structure on one bytes.Buffer. *)
From Verif Require Import Base M_Bufio M_Sink M_Json M_JsonWrite M_Cbor M_Columns M_Tabular M_CsvText M_Csv M_NDJson M_Xlsx M_Formats M_Stream M_Convert.

(** bytes.Buffer takes every write, and Read returns what is there, or EOF if nothing is.  The unread bytes are the
    remaining bytes of the reader's source, so a write appends to these. *)
Definition more (d : bytes) (s : src) : src := mkSrc (s_rem s ++ d) (s_fin s) (s_sched s).
Definition more_buf (d : bytes) (b : bufr) : bufr := mkBuf (b_buf b) (b_cap b) (b_err b) (more d (b_src b)).
Definition more_csv (d : bytes) (r : csv_reader) : csv_reader :=
  let i := r_st (rd_csv r) in mkRd (rd_header r) (mkCr (r_width (rd_csv r)) (mkIn (i_buf i) (i_err i) (more_buf d (i_inner i)))).
(** The reader after a write of d.  An XLSX reader has read all of its source when it was made. *)
Definition feed (d : bytes) (r : ereader) : ereader :=
  match r with
  | RJson js st => RJson js (mkJst (more_buf d (j_buf st)) (j_prev st))
  | RCbor obj st b => RCbor obj st (more_buf d b)
  | RCsv c r => RCsv c (more_csv d r)
  | RNd r => RNd (mkNd (nd_count r) (more_buf d (nd_buf r)))
  | RXlsx r => RXlsx r
  end.
(** The bytes of the buffer that the reader has not taken. *)
Definition unread (r : ereader) : bytes :=
  match r with
  | RJson js st => s_rem (b_src (j_buf st))
  | RCbor obj st b => s_rem (b_src b)
  | RCsv c r => s_rem (b_src (i_inner (r_st (rd_csv r))))
  | RNd r => s_rem (b_src (nd_buf r))
  | RXlsx r => []
  end.

(** The calls on a buffer and what they return. *)
Inductive call : Type := CWrite (e : entry N) | CRead | CClose | CBytes.
Inductive reply : Type := Wrote (x : option err) | Read (x : res (entry N)) | Closed (x : option err) | Holds (b : bytes).

Section EntryBuffer.
  Variable parse_float : bytes -> option N.
  Variable fmt_plain : N -> bytes.
  Variable fmt_json : N -> option bytes.
  Variable depth : nat.
  Variable surrogate : bytes.
  Variable save : book -> bytes.
  Variable load : bytes -> res book.
  Variables sheet_key keep : bytes -> bytes.
  Variable order : jmap -> jmap.
  Variables size osize wsize dsize : nat.
  Variable unpack : bytes -> src -> res src.
  Variable pack : bytes -> bytes -> bytes.

  Record ebuf : Type := mkEb { eb_r : ereader; eb_w : option bytes * ewriter }.
  Definition sent (w : option bytes * ewriter) : bytes := dest_bytes pack w.
  (** dsio/entry_buffer.go:24-43, NewEntryBuffer.  Making a CSV writer may already send bytes. *)
  Definition new_entry_buffer (sh : shape) : res ebuf :=
    rthen (new_entry_reader load sheet_key order size dsize unpack sh (mkSrc [] EOF [])) (fun r =>
      rthen (new_entry_writer sheet_key order wsize sh good_sink) (fun w =>
        Ok (mkEb (feed (sent w) r) w))).
  (** dsio/entry_buffer.go:51-70: ReadEntry, WriteEntry, Close and Bytes.  Simplification: no compression, so that what a
      call adds to the destination is there at once; a CBOR writer sends its document again when it is closed again. *)
  Definition eb_call (fuel : nat) (b : ebuf) (c : call) : reply * ebuf :=
    match c with
    | CWrite e => let '(x, w) := write_step fmt_plain fmt_json sheet_key keep wsize (eb_w b) e in
                  (Wrote x, mkEb (feed (skipn (length (sent (eb_w b))) (sent w)) (eb_r b)) w)
    | CRead => let '(x, r) := read_step parse_float depth surrogate osize fuel (eb_r b) in (Read x, mkEb r (eb_w b))
    | CClose => let '(x, w) := close_step save (eb_w b) in
                let new := match snd w with WCbor _ out => out | _ => skipn (length (sent (eb_w b))) (sent w) end in
                (Closed x, mkEb (feed new (eb_r b)) w)
    | CBytes => (Holds (unread (eb_r b)), b)
    end.
  Fixpoint eb_run (fuel : nat) (b : ebuf) (cs : list call) : list reply :=
    match cs with
    | [] => []
    | c :: r => let '(x, b') := eb_call fuel b c in x :: eb_run fuel b' r
    end.
End EntryBuffer.

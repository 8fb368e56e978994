(** Model of the NDJSON reader and writer, dsio/ndjson.go, and of the parts of package bufio they use. *)
From Verif Require Import Base M_Bufio M_Sink M_JsonWrite M_Unmarshal.

(** The index of the first c in s (bytes.IndexByte). *)
Fixpoint index_byte (c : N) (s : bytes) : option nat :=
  match s with
  | [] => None
  | x :: t => if N.eqb x c then Some O else match index_byte c t with Some i => Some (S i) | None => None end
  end.

(** What bufio.Reader.ReadSlice returns: a line with its delimiter, the whole buffer with ErrBufferFull,
    or everything up to the end of the source with the source's error. *)
Inductive slice : Type :=
| SLine (d : bytes)
| SFull (d : bytes)
| SEnd (d : bytes) (e : err).

(** bufio.Reader.ReadSlice(delim): search the buffer; a pending error; a full buffer; fill and repeat. *)
Fixpoint read_slice (fuel : nat) (delim : N) (b : bufr) : option slice * bufr :=
  match fuel with
  | O => (None, b)
  | S f =>
      match index_byte delim (b_buf b) with
      | Some i => (Some (SLine (firstn (S i) (b_buf b))), set_buf b (skipn (S i) (b_buf b)))
      | None =>
          match b_err b with
          | Some e => (Some (SEnd (b_buf b) e), clear_err (set_buf b []))
          | None =>
              if (b_cap b <=? buffered b)%nat then (Some (SFull (b_buf b)), set_buf b [])
              else read_slice f delim (fill b)
          end
      end
  end.

(** bufio.Reader.ReadBytes(delim): slices until one is not ErrBufferFull. *)
Fixpoint read_bytes (fuel : nat) (delim : N) (b : bufr) : res bytes * bufr :=
  match fuel with
  | O => (OutOfFuel, b)
  | S f =>
      match read_slice (S (S (b_cap b))) delim b with
      | (None, b') => (OutOfFuel, b')
      | (Some (SLine d), b') => (Ok d, b')
      | (Some (SEnd d e), b') => (Err e, b')      (* the bytes read are returned too; the caller drops them *)
      | (Some (SFull d), b') =>
          match read_bytes f delim b' with
          | (Ok r, b2) => (Ok (d ++ r), b2)
          | x => x
          end
      end
  end.

Section NDJson.
  Variable F : Type.
  Variable parse_float : bytes -> option F.
  Variable fmt_float : F -> option bytes.
  (** The nesting limit of json.Unmarshal. *)
  Variable depth : nat.
  Notation gval := (gval F).

  (** NDJSONReader, dsio/ndjson.go:13-19, without the structure and the wrapped decompressor. *)
  Record nd_reader : Type := mkNd { nd_count : nat; nd_buf : bufr }.

  (** ReadEntry, dsio/ndjson.go:57-75.  The fuel is the number of bytes left to read, plus one. *)
  Definition nd_read_entry (r : nd_reader) : res (entry F) * nd_reader :=
    let b := nd_buf r in
    match read_bytes (S (length (b_buf b) + length (s_rem (b_src b)))) 10 b with
    | (Ok line, b') =>
        match unmarshal F parse_float depth line with
        | Ok v => (Ok (mkEntry (Z.of_nat (nd_count r)) [] v), mkNd (S (nd_count r)) b')
        | Err e => (Err e, mkNd (nd_count r) b')
        | Panic => (Panic, mkNd (nd_count r) b')
        | OutOfFuel => (OutOfFuel, mkNd (nd_count r) b')
        end
    | (Err e, b') => (Err e, mkNd (nd_count r) b')
    | (Panic, b') => (Panic, mkNd (nd_count r) b')
    | (OutOfFuel, b') => (OutOfFuel, mkNd (nd_count r) b')
    end.

  (** The results of n ReadEntry calls on a reader over a source (NewNDJSONReader, dsio/ndjson.go:24-50;
      the checks of the schema are in [M_Formats]).  bufio.NewReader has a buffer of 4096 bytes. *)
  Fixpoint nd_calls (n : nat) (r : nd_reader) : list (res (entry F)) :=
    match n with
    | O => []
    | S n => let '(x, r') := nd_read_entry r in x :: nd_calls n r'
    end.
  Definition nd_read (size n : nat) (s : src) : list (res (entry F)) := nd_calls n (mkNd 0 (new_bufr size s)).

  (** NDJSONWriter, dsio/ndjson.go:87-93, without the structure and the wrapped compressor; [w_err] is the
      error field of the json.Encoder. *)
  Record nd_writer : Type := mkNw { w_err : option err; w_sink : sink }.

  (** WriteEntry, dsio/ndjson.go:124-126: json.Encoder.Encode.  An error of the destination is kept and
      returned by all later calls; a value that cannot be encoded is refused. *)
  Definition nd_write_entry (w : nd_writer) (e : entry F) : option err * nd_writer :=
    match w_err w with
    | Some x => (Some x, w)
    | None =>
        match marshal F fmt_float [] [] [] (e_val e) with
        | None => (Some err_unsupported, w)
        | Some t => let '(x, k) := sink_write (t ++ [10%N]) (w_sink w) in (x, mkNw x k)
        end
    end.
  Fixpoint nd_write_all (w : nd_writer) (es : list (entry F)) : list (option err) * nd_writer :=
    match es with
    | [] => ([], w)
    | e :: r => let '(o, w') := nd_write_entry w e in let '(os, w2) := nd_write_all w' r in (o :: os, w2)
    end.
  (** A history of WriteEntry calls on a new writer: the results and what arrived at the destination.
      Close only closes the wrapped compressor (dsio/ndjson.go:129-134). *)
  Definition nd_write (k : sink) (es : list (entry F)) : list (option err) * bytes :=
    let '(os, w) := nd_write_all (mkNw None k) es in (os, k_out (w_sink w)).
End NDJson.

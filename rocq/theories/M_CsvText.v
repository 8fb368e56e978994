(** Model of encoding/csv (Go 1.15) as dsio/csv.go, detect/determineFields.go and
    validate/csv.go use it: records from text and text from records.
    Written from the sources and documentation of the standard library. *)
From Verif Require Import Base M_Bufio M_ReplaceCR M_Utf8 M_Unmarshal M_NDJson M_Sink.

(** csv.validDelim: not 0, quote, CR, LF, a surrogate, beyond U+10FFFF or U+FFFD. *)
Definition valid_delim (r : N) : bool :=
  negb (N.eqb r 0) && negb (N.eqb r 34) && negb (N.eqb r 13) && negb (N.eqb r 10) &&
  ((r <? 55296) || (57343 <? r))%N && (r <=? 1114111)%N && negb (N.eqb r 65533).
Definition err_delim : err := EMsg "csv: invalid field or comment delimiter".
(** csv.ParseError: the line and column numbers in its text are left out. *)
Definition err_bare_quote : err := EMsg "parse error: bare quote in non-quoted-field".
Definition err_quote : err := EMsg "parse error: extraneous or missing quote in quoted-field".
Definition err_field_count : err := EMsg "record: wrong number of fields".

(** bytes.IndexRune, strings.Contains for the encoding of a valid rune: the first place p occurs. *)
Fixpoint index_sub (p s : bytes) : option nat :=
  if prefixb p s then Some O
  else match s with
       | [] => None
       | _ :: t => match index_sub p t with Some i => Some (S i) | None => None end
       end.
(** csv.lengthNL *)
Definition length_nl (l : bytes) : nat := match rev l with c :: _ => if N.eqb c 10 then 1 else 0 | [] => 0 end.
Definition strip_nl (l : bytes) : bytes := firstn (length l - length_nl l) l.
(** The end of csv.Reader.readLine: what ReadSlice found, and the error with it. *)
Definition drop_last_cr (l : bytes) : bytes := match rev l with c :: r => if N.eqb c 13 then rev r else l | [] => l end.
Definition crlf_to_lf (l : bytes) : bytes :=
  match rev l with c :: d :: r => if N.eqb d 13 && N.eqb c 10 then rev r ++ [10%N] else l | _ => l end.
Definition finish_line (line : bytes) (e : option err) : bytes * option err :=
  match e, line with
  | Some EOF, _ :: _ => (crlf_to_lf (drop_last_cr line), None)
  | _, _ => (crlf_to_lf line, e)
  end.

(** unicode.IsSpace *)
Definition is_space_rune (r : N) : bool :=
  (in_range 9 13 r || N.eqb r 32 || N.eqb r 133 || N.eqb r 160 || N.eqb r 5760 || in_range 8192 8202 r ||
   N.eqb r 8232 || N.eqb r 8233 || N.eqb r 8239 || N.eqb r 8287 || N.eqb r 12288)%N.
(** bytes.TrimLeftFunc(line, unicode.IsSpace) *)
Fixpoint trim_front (fuel : nat) (s : bytes) : bytes :=
  match fuel with
  | O => s
  | S f => match decode_rune s with
           | Some (r, k) => if is_space_rune r then trim_front f (skipn k s) else s
           | None => s
           end
  end.
Definition trim_left (s : bytes) : bytes := trim_front (length s) s.

Section Records.
  (** Where lines come from: csv.Reader.readLine.  [None]: out of fuel. *)
  Variable St : Type.
  Variable read_line : St -> option (bytes * option err) * St.
  Variable lazy : bool.              (* LazyQuotes *)
  Variable trim : bool.              (* TrimLeadingSpace *)
  Variable comma : bytes.            (* the encoding of Comma *)

  (** The first loop of csv.Reader.readRecord: skip empty lines. *)
  Fixpoint first_line (fuel : nat) (st : St) : option (bytes * option err) * St :=
    match fuel with
    | O => (None, st)
    | S f =>
        match read_line st with
        | (None, st') => (None, st')
        | (Some (line, None), st') => if (length line =? length_nl line)%nat then first_line f st' else (Some (line, None), st')
        | (Some (line, Some e), st') => (Some (line, Some e), st')
        end
    end.
  (** The loop parseField of csv.Reader.readRecord.  [q]: in the inner loop over a quoted field, with [cur]
      read so far; [done] are the fields before; [er] is errRead. *)
  Fixpoint fields (fuel : nat) (q : bool) (cur : bytes) (done : list bytes) (line : bytes) (er : option err) (st : St)
      : option (list bytes * option err) * St :=
    match fuel with
    | O => (None, st)
    | S f =>
        if q then
          match index_byte 34 line with
          | Some i =>
              let cur := cur ++ firstn i line in
              let rest := skipn (S i) line in
              if prefixb [34%N] rest then fields f true (cur ++ [34%N]) done (skipn 1 rest) er st
              else if prefixb comma rest then fields f false [] (done ++ [cur]) (skipn (length comma) rest) er st
              else if (length_nl rest =? length rest)%nat then (Some (done ++ [cur], er), st)
              else if lazy then fields f true (cur ++ [34%N]) done rest er st
              else (Some (done, Some err_quote), st)
          | None =>
              match line with
              | _ :: _ =>
                  match er with
                  | Some _ => (Some (done, er), st)
                  | None =>
                      match read_line st with
                      | (None, st') => (None, st')
                      | (Some (line', e), st') =>
                          fields f true (cur ++ line) done line' (match e with Some EOF => None | _ => e end) st'
                      end
                  end
              | [] =>
                  if negb lazy && match er with None => true | Some _ => false end then (Some (done, Some err_quote), st)
                  else (Some (done ++ [cur], er), st)
              end
          end
        else
          let line := if trim then trim_left line else line in
          if prefixb [34%N] line then fields f true [] done (skipn 1 line) er st
          else
          let i := index_sub comma line in
          let field := match i with Some i => firstn i line | None => strip_nl line end in
          if negb lazy && match index_byte 34 field with Some _ => true | None => false end then (Some (done, Some err_bare_quote), st)
          else match i with
               | Some i => fields f false [] (done ++ [field]) (skipn (i + length comma) line) er st
               | None => (Some (done ++ [field], er), st)
               end
    end.
  (** csv.Reader.readRecord without the check of the delimiter and of the number of fields: the fields, if
      any were looked for, and the error. *)
  Definition raw_record (fuel : nat) (st : St) : option (option (list bytes) * option err) * St :=
    match first_line fuel st with
    | (None, st') => (None, st')
    | (Some (_, Some EOF), st') => (Some (None, Some EOF), st')
    | (Some (line, er), st') =>
        match fields fuel false [] [] line er st' with
        | (None, st2) => (None, st2)
        | (Some (fs, e), st2) => (Some (Some fs, e), st2)
        end
    end.
End Records.

(** csv.Reader: FieldsPerRecord and the source of lines. *)
Record creader (St : Type) : Type := mkCr { r_width : Z; r_st : St }.
Arguments mkCr {St} _ _.
Arguments r_width {St} _.
Arguments r_st {St} _.
(** The end of csv.Reader.readRecord: FieldsPerRecord. *)
Definition check_width (w : Z) (fs : list bytes) (e : option err) : option err * Z :=
  if (0 <? w)%Z then
    (match e with None => if (Z.of_nat (length fs) =? w)%Z then None else Some err_field_count | Some _ => e end, w)
  else if (w =? 0)%Z then (e, Z.of_nat (length fs))
  else (e, w).
(** csv.Reader.Read; the caller drops the record if there is an error. *)
Definition csv_read {St : Type} (read_line : St -> option (bytes * option err) * St) (lazy trim : bool) (comma : N)
    (fuel : nat) (r : creader St) : res (list bytes) * creader St :=
  if valid_delim comma then
    match raw_record St read_line lazy trim (encode_rune comma) fuel (r_st r) with
    | (None, st) => (OutOfFuel, mkCr (r_width r) st)
    | (Some (None, None), st) => (Panic, mkCr (r_width r) st)
    | (Some (None, Some e), st) => (Err e, mkCr (r_width r) st)
    | (Some (Some fs, e), st) =>
        let '(e', w) := check_width (r_width r) fs e in
        (match e' with Some x => Err x | None => Ok fs end, mkCr w st)
    end
  else (Err err_delim, r).

(** The bufio.Reader of the csv.Reader, over replacecr.Reader over a bufio.Reader over the source
    (dsio/csv.go:54): contents and pending error of the outer buffer, and the inner one. *)
Record csvin : Type := mkIn { i_buf : bytes; i_err : option err; i_inner : bufr }.
Section In.
  (** The size of the outer buffer, 4096 in Go. *)
  Variable osize : nat.
  (** bufio.Reader.fill *)
  Definition in_fill (b : csvin) : csvin :=
    let '((o, e), inner) := run_buf (cr_read (osize - length (i_buf b))) (i_inner b) in
    mkIn (i_buf b ++ o) e inner.
  (** bufio.Reader.ReadSlice('\n').  A read without error fills the buffer, so two fills are never needed. *)
  Fixpoint in_slice (fuel : nat) (b : csvin) : option slice * csvin :=
    match fuel with
    | O => (None, b)
    | S f =>
        match index_byte 10 (i_buf b) with
        | Some i => (Some (SLine (firstn (S i) (i_buf b))), mkIn (skipn (S i) (i_buf b)) (i_err b) (i_inner b))
        | None =>
            match i_err b with
            | Some e => (Some (SEnd (i_buf b) e), mkIn [] None (i_inner b))
            | None =>
                if (osize <=? length (i_buf b))%nat then (Some (SFull (i_buf b)), mkIn [] None (i_inner b))
                else in_slice f (in_fill b)
            end
        end
    end.
  (** The slices of csv.Reader.readLine, joined. *)
  Fixpoint in_join (fuel : nat) (b : csvin) : option (bytes * option err) * csvin :=
    match fuel with
    | O => (None, b)
    | S f =>
        match in_slice 2 b with
        | (None, b') => (None, b')
        | (Some (SLine d), b') => (Some (d, None), b')
        | (Some (SEnd d e), b') => (Some (d, Some e), b')
        | (Some (SFull d), b') =>
            match in_join f b' with
            | (Some (r, e), b2) => (Some (d ++ r, e), b2)
            | x => x
            end
        end
    end.
  (** A bound on the bytes left to read. *)
  Definition in_left (b : csvin) : nat :=
    (length (i_buf b) + 2 * (length (b_buf (i_inner b)) + length (s_rem (b_src (i_inner b)))))%nat.
  (** csv.Reader.readLine *)
  Definition in_line (b : csvin) : option (bytes * option err) * csvin :=
    match in_join (S (in_left b)) b with
    | (Some (line, e), b') => (Some (finish_line line e), b')
    | (None, b') => (None, b')
    end.
End In.
(** csv.Reader.Read over the three layers. *)
Definition in_read (osize : nat) (lazy trim : bool) (comma : N) (r : creader csvin) : res (list bytes) * creader csvin :=
  csv_read (in_line osize) lazy trim comma (2 * in_left (r_st r) + 4) r.

(** bufio.Writer: buffered bytes, sticky error, destination. *)
Record bufw : Type := mkBw { w_buf : bytes; w_sticky : option err; w_dest : sink }.
Section Out.
  Variable wsize : nat.              (* 4096 in Go *)
  (** bufio.Writer.Flush: writers never return a short count without an error; the bytes taken before an
      error leave the buffer. *)
  Definition bw_flush (w : bufw) : option err * bufw :=
    match w_sticky w with
    | Some e => (Some e, w)
    | None =>
        match w_buf w with
        | [] => (None, w)
        | _ :: _ =>
            let '(e, k) := sink_write (w_buf w) (w_dest w) in
            match e with
            | Some x => (Some x, mkBw (skipn (length (k_out k) - length (k_out (w_dest w))) (w_buf w)) (Some x) k)
            | None => (None, mkBw [] None k)
            end
        end
    end.
  Definition bw_room (w : bufw) : nat := wsize - length (w_buf w).
  Definition bw_add (w : bufw) (d : bytes) : bufw := mkBw (w_buf w ++ d) (w_sticky w) (w_dest w).
  (** bufio.Writer.WriteString: fill and flush while the text does not fit.  Every round but the first moves
      wsize bytes. *)
  Fixpoint bw_string (fuel : nat) (w : bufw) (s : bytes) : option err * bufw :=
    match fuel with
    | O => (None, w)
    | S f =>
        if (bw_room w <? length s)%nat && match w_sticky w with None => true | Some _ => false end then
          let n := bw_room w in
          bw_string f (snd (bw_flush (bw_add w (firstn n s)))) (skipn n s)
        else match w_sticky w with
             | Some e => (Some e, w)
             | None => (None, bw_add w s)
             end
    end.
  Definition bw_write_string (w : bufw) (s : bytes) : option err * bufw := bw_string (S (S (length s))) w s.
  (** bufio.Writer.WriteByte *)
  Definition bw_byte (w : bufw) (c : N) : option err * bufw :=
    match w_sticky w with
    | Some e => (Some e, w)
    | None =>
        if (bw_room w =? 0)%nat then
          match bw_flush w with
          | (Some e, w') => (Some e, w')
          | (None, w') => (None, bw_add w' [c])
          end
        else (None, bw_add w [c])
    end.
  (** bufio.Writer.WriteRune (wsize is at least utf8.UTFMax) *)
  Definition bw_rune (w : bufw) (r : N) : option err * bufw :=
    if (r <? 128)%N then bw_byte w r
    else match w_sticky w with
         | Some e => (Some e, w)
         | None =>
             if (bw_room w <? 4)%nat then
               match bw_flush w with
               | (Some e, w') => (Some e, w')
               | (None, w') => (None, bw_add w' (encode_rune r))
               end
             else (None, bw_add w (encode_rune r))
         end.
  (** "if err := a; err != nil { return err }; b" *)
  Definition bw_then (x : option err * bufw) (k : bufw -> option err * bufw) : option err * bufw :=
    match x with (Some e, w) => (Some e, w) | (None, w) => k w end.

  (** csv.Writer.fieldNeedsQuotes *)
  Definition special (c : N) : bool := N.eqb c 34 || N.eqb c 13 || N.eqb c 10.
  Definition needs_quotes (comma : N) (field : bytes) : bool :=
    match field with
    | [] => false
    | _ =>
        beqb field [92; 46]%N || match index_sub (encode_rune comma) field with Some _ => true | None => false end ||
        existsb special field || match decode_rune field with Some (r, _) => is_space_rune r | None => false end
    end.
  (** The loop of csv.Writer.Write over a quoted field: verbatim parts and special characters. *)
  Fixpoint plain_part (s : bytes) : bytes * bytes :=
    match s with
    | [] => ([], [])
    | c :: t => if special c then ([], s) else let '(a, b) := plain_part t in (c :: a, b)
    end.
  Fixpoint bw_quoted (fuel : nat) (w : bufw) (field : bytes) : option err * bufw :=
    match fuel with
    | O => (None, w)
    | S f =>
        match field with
        | [] => (None, w)
        | _ =>
            let '(a, rest) := plain_part field in
            bw_then (bw_write_string w a) (fun w =>
              match rest with
              | [] => (None, w)
              | c :: rest' =>
                  bw_then (if N.eqb c 34 then bw_write_string w [34; 34]%N else bw_byte w c) (fun w => bw_quoted f w rest')
              end)
        end
    end.
  Definition bw_field (comma : N) (w : bufw) (field : bytes) : option err * bufw :=
    if needs_quotes comma field then
      bw_then (bw_byte w 34) (fun w => bw_then (bw_quoted (S (length field)) w field) (fun w => bw_byte w 34))
    else bw_write_string w field.
  Fixpoint bw_fields (comma : N) (first : bool) (w : bufw) (fs : list bytes) : option err * bufw :=
    match fs with
    | [] => (None, w)
    | f :: r => bw_then (if first then (None, w) else bw_rune w comma) (fun w =>
                bw_then (bw_field comma w f) (fun w => bw_fields comma false w r))
    end.
  (** csv.Writer.Write *)
  Definition csv_write (comma : N) (w : bufw) (record : list bytes) : option err * bufw :=
    if valid_delim comma then bw_then (bw_fields comma true w record) (fun w => bw_byte w 10)
    else (Some err_delim, w).
End Out.
